(** What a YAML document says: every object of the configuration is described by the
    attributes of a mapping.  Nothing here depends on the decoder; only the shape of
    nodes and of configuration objects is shared. *)
From Coq Require Import List ZArith Bool String.
From Coq Require Import Strings.Byte Floats.SpecFloat.
From Verif Require Import Base Value Codec Output Config Yaml.
Import ListNotations.
Open Scope Z_scope.

Definition mapping : Type := list (node * node).

(** A key which is the name [k]. *)
Definition spelled (k : bytes) (n : node) : Prop :=
  match n with
  | YScalar _ RNull => k = []
  | YScalar _ RMerge => False
  | YScalar t _ => k = t
  | _ => False
  end.

(** The value of an attribute, if it is there. *)
Definition attr (m : mapping) (k : bytes) (o : option node) : Prop :=
  match o with
  | Some n => exists key, In (key, n) m /\ spelled k key
  | None => forall key n, In (key, n) m -> ~ spelled k key
  end.
Definition at_key (m : mapping) (k : string) (R : option node -> Prop) : Prop := exists o, attr m (lit k) o /\ R o.

(** The attributes are among [ks], and there is none twice. *)
Definition only (m : mapping) (ks : list string) : Prop :=
  exists names, Forall2 (fun k kn => spelled k (fst kn)) names m /\ NoDup names /\ incl names (map lit ks).

(** The words for nothing. *)
Definition nothing (n : node) : Prop := exists t, n = YScalar t RNull /\ In t [lit "null"; lit "~"; []].

(** *** Values of attributes *)

Inductive text_is : bytes -> option node -> Prop :=
| text_absent : text_is [] None
| text_null t : text_is [] (Some (YScalar t RNull))
| text_scalar t r : r <> RNull -> text_is t (Some (YScalar t r)).

Inductive flag_is : bool -> option node -> Prop :=
| flag_absent : flag_is false None
| flag_null t : flag_is false (Some (YScalar t RNull))
| flag_scalar t b : flag_is b (Some (YScalar t (RBool b))).

(** The integer part of a float. *)
Definition integer_part (f : spec_float) (z : Z) : Prop :=
  match f with
  | S754_zero _ => z = 0
  | S754_finite s m e =>
    (if s then z <= 0 else 0 <= z) /\
    Z.abs z * 2 ^ Z.max (- e) 0 <= Zpos m * 2 ^ Z.max e 0 < (Z.abs z + 1) * 2 ^ Z.max (- e) 0
  | _ => False
  end.
(** A float which is not above [2 ^ k]. *)
Definition not_above (f : spec_float) (k : Z) : Prop :=
  match f with
  | S754_zero _ => True
  | S754_infinity s => s = true
  | S754_nan => False
  | S754_finite s m e => s = true \/ Zpos m * 2 ^ Z.max e 0 <= 2 ^ (k + Z.max (- e) 0)
  end.

(** A number in [[lo, 2 ^ k)]; [odd]: what a float out of these bounds gives. *)
Inductive number_is (odd : spec_float -> Z) (lo k : Z) : Z -> option node -> Prop :=
| number_absent : number_is odd lo k 0 None
| number_null t : number_is odd lo k 0 (Some (YScalar t RNull))
| number_int t z : lo <= z < 2 ^ k -> number_is odd lo k z (Some (YScalar t (RInt z)))
| number_float t f z : not_above f k -> integer_part f z -> lo <= z < 2 ^ k -> number_is odd lo k z (Some (YScalar t (RFloat f)))
| number_odd t f : not_above f k -> (forall z, integer_part f z -> ~ lo <= z < 2 ^ k) ->
    number_is odd lo k (odd f) (Some (YScalar t (RFloat f))).

Inductive or_nil {A} (R : A -> option node -> Prop) : option A -> option node -> Prop :=
| nil_absent : or_nil R None None
| nil_null n : nothing n -> or_nil R None (Some n)
| nil_some a n : ~ nothing n -> R a (Some n) -> or_nil R (Some a) (Some n).

Inductive list_is {A} (R : A -> option node -> Prop) : list A -> option node -> Prop :=
| list_absent : list_is R [] None
| list_null t : list_is R [] (Some (YScalar t RNull))
| list_seq l ns : Forall2 (fun a n => R a (Some n)) l ns -> list_is R l (Some (YSeq ns)).

Inductive dict_is {A} (R : A -> option node -> Prop) : list (bytes * A) -> option node -> Prop :=
| dict_absent : dict_is R [] None
| dict_null t : dict_is R [] (Some (YScalar t RNull))
| dict_map d m : Forall2 (fun ka kn => spelled (fst ka) (fst kn) /\ R (snd ka) (Some (snd kn))) d m ->
    NoDup (map fst d) -> dict_is R d (Some (YMap m)).

(** The attributes of a structure; null says the same as an empty mapping. *)
Inductive attributes (ks : list string) : mapping -> option node -> Prop :=
| attributes_absent : attributes ks [] None
| attributes_null t : attributes ks [] (Some (YScalar t RNull))
| attributes_map m : only m ks -> attributes ks m (Some (YMap m)).

(** *** Objects *)

Section Described.
(** What is accepted for attributes which no documentation mentions. *)
Variable hidden_ok : node -> bool.
Variables odd_uint odd_int : spec_float -> Z.

Definition text_at (m : mapping) (k : string) (s : bytes) : Prop := at_key m k (text_is s).
Definition flag_at (m : mapping) (k : string) (b : bool) : Prop := at_key m k (flag_is b).
Definition opt_text_at (m : mapping) (k : string) (s : option bytes) : Prop := at_key m k (or_nil text_is s).
Definition opt_flag_at (m : mapping) (k : string) (b : option bool) : Prop := at_key m k (or_nil flag_is b).
Definition texts_at (m : mapping) (k : string) (l : list bytes) : Prop := at_key m k (list_is text_is l).
Definition uint_at (m : mapping) (k : string) (z : Z) : Prop := at_key m k (number_is odd_uint 0 64 z).
Definition ints_at (m : mapping) (k : string) (l : list Z) : Prop := at_key m k (list_is (number_is odd_int (- 2 ^ 63) 63) l).
Definition hidden_at (m : mapping) (k : string) : Prop :=
  forall key n, In (key, n) m -> spelled (lit k) key -> nothing n \/ hidden_ok n = true.

(** Keys which are the same value. *)
Definition same_value (a b : node) : Prop :=
  match a, b with
  | YScalar _ RNull, YScalar _ RNull => True
  | YScalar _ (RBool x), YScalar _ (RBool y) => x = y
  | YScalar _ (RInt x), YScalar _ (RInt y) => x = y
  | YScalar _ (RFloat x), YScalar _ (RFloat y) => SFeqb x y = true
  | YScalar s RText, YScalar t RText => s = t
  | _, _ => False
  end.
(** No mapping has the same key twice, or a key which is not a scalar. *)
Inductive clean : node -> Prop :=
| clean_scalar t r : clean (YScalar t r)
| clean_seq l : Forall clean l -> clean (YSeq l)
| clean_map m :
    Forall (fun kn => (exists t r, fst kn = YScalar t r /\ r <> RMerge) /\ clean (snd kn)) m ->
    ForallOrdPairs (fun a b => ~ same_value (fst a) (fst b)) m -> clean (YMap m).

(** An object of a given type. *)
Definition object_is (m : mapping) (kind : string) (ks : list string) : Prop :=
  attr m (lit "type") (Some (YScalar (lit kind) RText)) /\
  only m ("name" :: "type" :: "logger" :: ks)%string /\ hidden_at m "logger" /\ Forall (fun kn => clean (snd kn)) m.

Definition parser_is (c : parser_config) (m : mapping) : Prop :=
  match c with
  | CString name charset =>
    object_is m "string" ["convertFromCharset"]%string /\ text_at m "name" name /\ text_at m "convertFromCharset" charset
  | CInteger name ignore =>
    object_is m "integer" ["ignoreCharacters"]%string /\ text_at m "name" name /\ text_at m "ignoreCharacters" ignore
  | CFloat name separator ignore =>
    object_is m "float" ["decimalSeparator"; "ignoreCharacters"]%string /\ text_at m "name" name /\
    text_at m "decimalSeparator" separator /\ text_at m "ignoreCharacters" ignore
  | CBoolean name trues falses =>
    object_is m "boolean" ["trueValues"; "falseValues"]%string /\ text_at m "name" name /\
    texts_at m "trueValues" trues /\ texts_at m "falseValues" falses
  | CJson name => object_is m "json" [] /\ text_at m "name" name
  | CSplit name delimiter is_regexp sub =>
    object_is m "split" ["delimiter"; "delimiterIsRegexp"; "parser"; "delimiterregexp"]%string /\ text_at m "name" name /\
    opt_text_at m "delimiter" delimiter /\ opt_flag_at m "delimiterIsRegexp" is_regexp /\ text_at m "parser" sub /\
    hidden_at m "delimiterregexp"
  end.

Inductive column_is : bytes * bytes -> option node -> Prop :=
| column_intro o m name parser : attributes ["name"; "parser"]%string m o ->
    text_at m "name" name -> text_at m "parser" parser -> column_is (name, parser) o.

(** The properties of an XML input; [items] and [properties] are of the same kind. *)
Inductive property_is : xml_prop -> option node -> Prop :=
| property_intro o m name type parser xpath items props :
    attributes ["name"; "type"; "parser"; "xpath"; "items"; "properties"; "compiledxpath"]%string m o ->
    text_at m "name" name -> text_at m "type" type -> text_at m "parser" parser -> text_at m "xpath" xpath ->
    at_key m "items" (or_nil property_is items) ->
    at_key m "properties" (list_is (or_nil property_is) props) ->
    hidden_at m "compiledxpath" ->
    property_is (mkXmlProp name type parser xpath items props) o.

Definition input_is (c : input_config) (m : mapping) : Prop :=
  match c with
  | CCsv name path die ignore_first autodetect delimiter columns =>
    object_is m "csv" ["path"; "dieOnInputChange"; "ignoreFirstRow"; "autodetectColumns"; "delimiter"; "columns"; "columnindexbyname"]%string /\
    text_at m "name" name /\ text_at m "path" path /\ opt_flag_at m "dieOnInputChange" die /\
    flag_at m "ignoreFirstRow" ignore_first /\ flag_at m "autodetectColumns" autodetect /\ text_at m "delimiter" delimiter /\
    at_key m "columns" (list_is (or_nil column_is) columns) /\ hidden_at m "columnindexbyname"
  | CJsonFile name path die =>
    object_is m "json" ["path"; "dieOnInputChange"]%string /\
    text_at m "name" name /\ text_at m "path" path /\ opt_flag_at m "dieOnInputChange" die
  | CXml name path die props record_xpath =>
    object_is m "xml" ["path"; "dieOnInputChange"; "properties"; "recordXpath"]%string /\
    text_at m "name" name /\ text_at m "path" path /\ opt_flag_at m "dieOnInputChange" die /\
    at_key m "properties" (list_is (or_nil property_is) props) /\ text_at m "recordXpath" record_xpath
  end.

Inductive collated_is : bytes * bytes -> option node -> Prop :=
| collated_intro o m name collate : attributes ["name"; "collate"]%string m o ->
    text_at m "name" name -> text_at m "collate" collate -> collated_is (name, collate) o.

Definition index_is (c : index_config) (m : mapping) : Prop :=
  match c with
  | CMap name input props =>
    object_is m "map" ["input"; "properties"]%string /\
    text_at m "name" name /\ text_at m "input" input /\ texts_at m "properties" props
  | CWildcard name path input props ignore_case =>
    object_is m "wildcard" ["path"; "input"; "properties"; "ignoreCase"]%string /\
    text_at m "name" name /\ text_at m "path" path /\ text_at m "input" input /\ texts_at m "properties" props /\
    opt_flag_at m "ignoreCase" ignore_case
  | CSqlite name dsn input props =>
    object_is m "sqlite" ["dsn"; "input"; "properties"]%string /\
    text_at m "name" name /\ text_at m "dsn" dsn /\ text_at m "input" input /\
    at_key m "properties" (list_is (or_nil collated_is) props)
  | CFts5 name dsn input prefix tokenize props =>
    object_is m "fts5" ["dsn"; "input"; "prefix"; "tokenize"; "properties"]%string /\
    text_at m "name" name /\ text_at m "dsn" dsn /\ text_at m "input" input /\ ints_at m "prefix" prefix /\
    text_at m "tokenize" tokenize /\ texts_at m "properties" props
  | CNoop name => object_is m "noop" [] /\ text_at m "name" name
  end.

Inductive parameter_is : param -> option node -> Prop :=
| parameter_intro o m property index parser : attributes ["property"; "index"; "parser"]%string m o ->
    text_at m "property" property -> text_at m "index" index -> text_at m "parser" parser ->
    parameter_is (mkParam property index parser) o.
Inductive sort_is : bytes * option bool -> option node -> Prop :=
| sort_intro o m property ascending : attributes ["property"; "ascending"; "logger"]%string m o ->
    text_at m "property" property -> opt_flag_at m "ascending" ascending -> hidden_at m "logger" ->
    sort_is (property, ascending) o.
Inductive match_is : bytes * bytes * bytes -> option node -> Prop :=
| match_intro o m parent child index : attributes ["parentProperty"; "childProperty"; "childIndex"]%string m o ->
    text_at m "parentProperty" parent -> text_at m "childProperty" child -> text_at m "childIndex" index ->
    match_is (parent, child, index) o.
Inductive relationship_is : raw_relationship -> option node -> Prop :=
| relationship_intro o m input is_array limit sort matches children :
    attributes ["input"; "isArray"; "limit"; "sort"; "match"; "relationships"]%string m o ->
    text_at m "input" input -> flag_at m "isArray" is_array -> uint_at m "limit" limit ->
    at_key m "sort" (list_is (or_nil sort_is) sort) -> at_key m "match" (list_is (or_nil match_is) matches) ->
    at_key m "relationships" (dict_is (or_nil relationship_is) children) ->
    relationship_is (mkRawRel input is_array limit sort matches children) o.

Inductive limit_is : Z * Z * bytes -> option node -> Prop :=
| limit_intro o m default max parameter : attributes ["default"; "max"; "parameter"]%string m o ->
    uint_at m "default" default -> uint_at m "max" max -> text_at m "parameter" parameter ->
    limit_is (default, max, parameter) o.
Inductive offset_is : bytes -> option node -> Prop :=
| offset_intro o m parameter : attributes ["parameter"]%string m o -> text_at m "parameter" parameter -> offset_is parameter o.

Definition output_is (c : output_config) (m : mapping) : Prop :=
  match c with
  | CGraphql name => object_is m "graphql" [] /\ text_at m "name" name
  | CArray name input default max limit_param offset_param params rels =>
    object_is m "jsonArray" ["input"; "limit"; "offset"; "parameters"; "relationships"]%string /\
    text_at m "name" name /\ text_at m "input" input /\ at_key m "limit" (limit_is (default, max, limit_param)) /\
    at_key m "offset" (offset_is offset_param) /\
    at_key m "parameters" (dict_is (or_nil parameter_is) params) /\ at_key m "relationships" (dict_is (or_nil relationship_is) rels)
  | CObject name input params rels =>
    object_is m "jsonObject" ["input"; "parameters"; "relationships"]%string /\
    text_at m "name" name /\ text_at m "input" input /\
    at_key m "parameters" (dict_is (or_nil parameter_is) params) /\ at_key m "relationships" (dict_is (or_nil relationship_is) rels)
  end.

Inductive http_is : bytes -> option node -> Prop :=
| http_intro o m listen : attributes ["listen"]%string m o -> text_at m "listen" listen -> http_is listen o.
Inductive https_is : bytes * bytes * bytes -> option node -> Prop :=
| https_intro o m listen certificate key : attributes ["listen"; "certificatePath"; "privateKeyPath"]%string m o ->
    text_at m "listen" listen -> text_at m "certificatePath" certificate -> text_at m "privateKeyPath" key ->
    https_is (listen, certificate, key) o.
Inductive route_is : bytes * bytes -> option node -> Prop :=
| route_intro o m output path : attributes ["output"; "path"]%string m o ->
    text_at m "output" output -> text_at m "path" path -> route_is (output, path) o.

Definition service_is (c : service_config) (m : mapping) : Prop :=
  object_is m "http" ["http"; "https"; "errorsType"; "routes"]%string /\
  text_at m "name" (sc_name c) /\ at_key m "http" (or_nil http_is (sc_http c)) /\ at_key m "https" (or_nil https_is (sc_https c)) /\
  text_at m "errorsType" (sc_errors_type c) /\ at_key m "routes" (list_is (or_nil route_is) (sc_routes c)).

(** *** Documents *)

(** An entry of a section: an object, or nothing. *)
Definition entry_is {A} (R : A -> mapping -> Prop) (o : option A) (n : option node) : Prop :=
  match o with
  | None => exists n', n = Some n' /\ nothing n'
  | Some a => exists m, n = Some (YMap m) /\ R a m
  end.
Definition section_at {A} (m : mapping) (k : string) (R : A -> mapping -> Prop) (l : list (option A)) : Prop :=
  at_key m k (list_is (entry_is R) l).

Definition document_is (p : parsed) (doc : option node) : Prop :=
  exists m, attributes ["parsers"; "inputs"; "indexes"; "outputs"; "services"]%string m doc /\
    section_at m "parsers" parser_is (pd_parsers p) /\
    section_at m "inputs" input_is (pd_inputs p) /\
    section_at m "indexes" index_is (pd_indexes p) /\
    section_at m "outputs" output_is (pd_outputs p) /\
    section_at m "services" service_is (pd_services p).
End Described.
