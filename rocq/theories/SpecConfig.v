(** What the properties say about configurations. *)
From Coq Require Import List ZArith Lia Bool String.
From Coq Require Import Strings.Byte Permutation.
From Verif Require Import Base Codec Value Parser Output Http Records Regex Route Config.
Import ListNotations.
Open Scope Z_scope.

(** An object of that name is in the list. *)
Definition has {A} (m : list (bytes * A)) (name : bytes) : Prop := exists a, In (name, a) m.

(** *** References (C42) *)

(** [x] is [c], one of its items or sub-properties, at any depth. *)
Inductive sub_prop (x : xprop) : xprop -> Prop :=
| sub_self : sub_prop x x
| sub_items : forall name xpath items, sub_prop x items -> sub_prop x (XArray name xpath items)
| sub_member : forall name xpath props c, In c props -> sub_prop x c -> sub_prop x (XObject name xpath props).

(** [r] is one of the relationships, at any depth. *)
Inductive sub_rel (r : relationship) : list (bytes * relationship) -> Prop :=
| sub_here : forall name rels, In (name, r) rels -> sub_rel r rels
| sub_below : forall name r' rels, In (name, r') rels -> sub_rel r (rel_children r') -> sub_rel r rels.

Definition index_input (x : vindex) : option bytes :=
  match x with
  | VIMap i _ | VIWildcard _ i _ _ | VISqlite _ i _ | VIFts5 _ i _ _ _ => Some i
  | VINoop => None
  end.

Definition out_input (o : output) : bytes := match o with OArray c => ac_input c | OObject c => oc_input c end.
Definition out_params (o : output) : list (bytes * param) := match o with OArray c => ac_params c | OObject c => oc_params c end.
Definition out_rels (o : output) : list (bytes * relationship) :=
  match o with OArray c => ac_relationships c | OObject c => oc_relationships c end.

(** Every name used in the configuration is the name of an object. *)
Record references_resolve (v : vconfig) : Prop := mkReferences {
  ref_split : forall n d b sub, In (n, PSplit d b sub) (vc_parsers v) -> has (vc_parsers v) sub;
  ref_column : forall n path die first detect delimiter columns c p,
    In (n, VCsv path die first detect delimiter columns) (vc_inputs v) -> In (c, p) columns -> has (vc_parsers v) p;
  ref_detected : has (vc_parsers v) (lit "string");
  ref_xml : forall n path die props xpath c name xp p,
    In (n, VXml path die props xpath) (vc_inputs v) -> In c props -> sub_prop (XPrimitive name xp p) c ->
    has (vc_parsers v) p;
  ref_index : forall n x i, In (n, x) (vc_indexes v) -> index_input x = Some i -> has (vc_inputs v) i;
  ref_default : has (vc_indexes v) (lit "default");
  ref_route : forall n s o path, In (n, s) (vc_services v) -> In (o, path) (vs_routes s) -> has (vc_outputs v) o;
  ref_output : forall n o, In (n, VOutput o) (vc_outputs v) -> has (vc_inputs v) (out_input o);
  ref_param : forall n o name p, In (n, VOutput o) (vc_outputs v) -> In (name, p) (out_params o) ->
    has (vc_indexes v) (pm_index p) /\ has (vc_parsers v) (pm_parser p);
  ref_rel : forall n o r, In (n, VOutput o) (vc_outputs v) -> sub_rel r (out_rels o) ->
    has (vc_inputs v) (rel_input r) /\
    forall parent child index, In (parent, child, index) (rel_match r) -> has (vc_indexes v) index;
}.

(** The errors which say that a name does not exist (Parser.v, Records.v,
    Output.v). *)
Definition missing (e : err) : Prop :=
  In e [EMsg "Parser does not exist"; EMsg "Input not found in inputs list."; EMsg "There is no input with this name";
        EMsg "Index not found in indexes list."; EMsg "The parser was not found in parser list"; EMsg "The parser was not found."].

(** A result which is not such an error. *)
Definition quiet {A} (r : res A) : Prop := forall e, r = Err e -> ~ missing e.

Definition quiet_rec (r : rec) : Prop := quiet (r_all r) /\ forall p, quiet (r_get r p).
Definition quiet_input (inp : input) : Prop :=
  (forall p, quiet (in_get inp p)) /\ (forall p r, in_get inp p = Ok r -> quiet_rec r).

(** The objects created from the configuration: all the names exist, and no
    object itself reports a missing name. *)
Record quiet_env (v : vconfig) (E : env) : Prop := mkQuiet {
  qe_inputs : forall n, has (vc_inputs v) n -> exists inp, mget (e_inputs E) n = Some inp;
  qe_indexes : forall n, has (vc_indexes v) n -> exists ix, mget (e_indexes E) n = Some ix;
  qe_parsers : forall n, has (vc_parsers v) n -> exists p, mget (e_parsers E) n = Some p;
  qe_input : forall n inp, mget (e_inputs E) n = Some inp -> quiet_input inp;
  qe_index : forall n ix inp fs, mget (e_indexes E) n = Some ix -> quiet (ix inp fs) /\ forall it, ix inp fs = Ok it -> Forall quiet it;
  qe_default : forall inp fs, quiet (e_default E inp fs) /\ forall it, e_default E inp fs = Ok it -> Forall quiet it;
  qe_parser : forall n p s, mget (e_parsers E) n = Some p -> quiet (p s);
  qe_sort : forall f l, Permutation (e_sort E f l) l;
}.

(** *** Which index answers which filter (C50) *)

(** The index contains that property of that input. *)
Definition contains_property (x : vindex) (input property : bytes) : Prop :=
  match x with
  | VIMap i ps => i = input /\ In property ps
  | VIWildcard _ i ps _ => i = input /\ In property ps
  | VISqlite _ i ps => i = input /\ exists c, In (property, c) ps
  | VIFts5 _ i _ _ _ => i = input /\ property = lit "match"
  | VINoop => True
  end.

(** The index accepts requests about that input. *)
Definition accepts_input (x : vindex) (input : bytes) : Prop := index_input x = None \/ index_input x = Some input.

(** *** Null entries and files (C43) *)

Inductive complete_xml : xml_prop -> Prop :=
| complete_prop : forall name type parser xpath items props,
    (forall i, items = Some i -> complete_xml i) ->
    Forall (fun o => exists c, o = Some c /\ complete_xml c) props ->
    complete_xml (mkXmlProp name type parser xpath items props).

Inductive complete_rel : raw_relationship -> Prop :=
| complete_relationship : forall input is_array limit sort ms children,
    ~ In None sort -> ~ In None ms ->
    Forall (fun nc => exists c, snd nc = Some c /\ complete_rel c) children ->
    complete_rel (mkRawRel input is_array limit sort ms children).

Definition complete_input (c : input_config) : Prop :=
  match c with
  | CCsv _ _ _ _ _ _ columns => ~ In None columns
  | CJsonFile _ _ _ => True
  | CXml _ _ _ props _ => Forall (fun o => exists c, o = Some c /\ complete_xml c) props
  end.
Definition complete_index (c : index_config) : Prop :=
  match c with CSqlite _ _ _ props => ~ In None props | _ => True end.
Definition complete_output (c : output_config) : Prop :=
  match c with
  | CGraphql _ => True
  | CArray _ _ _ _ _ _ params rels | CObject _ _ params rels =>
    Forall (fun np => snd np <> None) params /\
    Forall (fun nr => exists r, snd nr = Some r /\ complete_rel r) rels
  end.
Definition complete_service (c : service_config) : Prop := ~ In None (sc_routes c).

(** No list or map of the configuration has a null entry. *)
Record complete (p : parsed) : Prop := mkComplete {
  cp_parsers : ~ In None (pd_parsers p);
  cp_inputs : Forall (fun o => exists c, o = Some c /\ complete_input c) (pd_inputs p);
  cp_indexes : Forall (fun o => exists c, o = Some c /\ complete_index c) (pd_indexes p);
  cp_services : Forall (fun o => exists c, o = Some c /\ complete_service c) (pd_services p);
  cp_outputs : Forall (fun o => exists c, o = Some c /\ complete_output c) (pd_outputs p);
}.

(** The files whose existence is checked. *)
Definition input_path (c : input_config) : bytes :=
  match c with CCsv _ path _ _ _ _ _ | CJsonFile _ path _ | CXml _ path _ _ _ => path end.
Definition checked_file (p : parsed) (path : bytes) : Prop :=
  (exists c, In (Some c) (pd_inputs p) /\ path = input_path c) \/
  (exists c listen certificate key, In (Some c) (pd_services p) /\ sc_https c = Some (listen, certificate, key) /\
     (path = certificate \/ path = key)).

(** *** Collations (C45) *)

(** docs/schema/indexes/sqlite.yaml:56-64 *)
Definition documented : list bytes := [lit "binary"; lit "nocase"; lit "rtrim"].

(** The same letters, whatever their case (ASCII). *)
Definition ascii_lower (b : byte) : byte :=
  if (65 <=? Z_of_byte b) && (Z_of_byte b <=? 90) then byte_of_Z (Z_of_byte b + 32) else b.
Definition same_letters (a b : bytes) : Prop := map ascii_lower a = map ascii_lower b.

(** *** Names (C46) *)

(** The names of the objects of one kind, in the order of the file. *)
Definition names {A} (name : A -> bytes) (l : list (option A)) : list bytes :=
  flat_map (fun o => match o with Some a => [name a] | None => [] end) l.

(** *** Indexes and parsers fit their use (C50) *)

Record indexes_fit (v : vconfig) : Prop := mkFit {
  fit_param : forall n o name p, In (n, VOutput o) (vc_outputs v) -> In (name, p) (out_params o) ->
    (exists x, mget (vc_indexes v) (pm_index p) = Some x /\ contains_property x (out_input o) (pm_property p)) /\
    (exists c, mget (vc_parsers v) (pm_parser p) = Some c /\
       match c with PString _ | PInteger _ | PFloat _ _ | PBoolean _ _ => True | PJson | PSplit _ _ _ => False end);
  fit_match : forall n o r parent child index, In (n, VOutput o) (vc_outputs v) -> sub_rel r (out_rels o) ->
    In (parent, child, index) (rel_match r) ->
    exists x, mget (vc_indexes v) index = Some x /\ contains_property x (rel_input r) child;
}.

(** *** Unambiguous requests (C51) *)

(** The limits are unsigned integers. *)
Definition unsigned_limits (p : parsed) : Prop :=
  forall n i d mx lp op params rels, In (Some (CArray n i d mx lp op params rels)) (pd_outputs p) -> 0 <= d /\ 0 <= mx.

Record unambiguous (v : vconfig) : Prop := mkUnambiguous {
  un_params : forall n c name p, In (n, VOutput (OArray c)) (vc_outputs v) -> In (name, p) (ac_params c) ->
    name <> ac_limit_param c /\ name <> ac_offset_param c;
  un_limits : forall n c, In (n, VOutput (OArray c)) (vc_outputs v) -> 1 <= ac_default c <= ac_max c;
  un_object : forall n c, In (n, VOutput (OObject c)) (vc_outputs v) -> oc_params c <> [];
  un_match : forall n o r, In (n, VOutput o) (vc_outputs v) -> sub_rel r (out_rels o) ->
    rel_match r <> [] /\ NoDup (map (fun m => snd (fst m)) (rel_match r));
  un_sort : forall n o r, In (n, VOutput o) (vc_outputs v) -> sub_rel r (out_rels o) ->
    NoDup (map fst (rel_sort r)) /\ (rel_is_array r = false -> rel_sort r = []);
  un_routes : forall n s, In (n, s) (vc_services v) -> vs_routes s <> [] /\ NoDup (map snd (vs_routes s));
  un_columns : forall n path die first detect delimiter columns, In (n, VCsv path die first detect delimiter columns) (vc_inputs v) ->
    NoDup (map fst columns);
  un_props : forall n path die props xpath, In (n, VXml path die props xpath) (vc_inputs v) -> NoDup (map x_name props);
  un_subprops : forall n path die props xpath c name xp l, In (n, VXml path die props xpath) (vc_inputs v) -> In c props ->
    sub_prop (XObject name xp l) c -> NoDup (map x_name l);
}.

(** *** Starting (C52) *)

(** Everything outside the configuration is fine, no output is of type graphql,
    and the parameters in the paths are those of the outputs. *)
Section Possible.
Variable new_charset open_file : bytes -> res unit.
Variable first_row : bytes -> bytes -> res (list bytes).
Variable build_index : vindex -> res unit.
Variable listen : vservice -> res unit.

Record possible (v : vconfig) : Prop := mkPossible {
  ps_charset : forall n c, In (n, PString c) (vc_parsers v) -> c <> [] -> new_charset c = Ok tt;
  ps_open : forall path, open_file path = Ok tt;
  ps_detect : forall n path die first delimiter columns, In (n, VCsv path die first true delimiter columns) (vc_inputs v) ->
    exists row, first_row path delimiter = Ok row /\ NoDup row /\ ~ In [] row;
  ps_build : forall x, build_index x = Ok tt;
  ps_listen : forall s, listen s = Ok tt;
  ps_graphql : forall n, ~ In (n, VGraphql) (vc_outputs v);
  ps_route : forall n s o path out, In (n, s) (vc_services v) -> In (o, path) (vs_routes s) ->
    mget (vc_outputs v) o = Some (VOutput out) ->
    (forall name, In name (snd (split_path path 0 [])) -> has (out_params out) name) /\
    exists r, new_route (vc_parsers v) path out = Ok r;
}.
End Possible.

(** The names of each of the five kinds of objects are distinct. *)
Definition names_distinct_all (p : parsed) : Prop :=
  NoDup (names parser_name (pd_parsers p)) /\ NoDup (names input_name (pd_inputs p)) /\ NoDup (names index_name (pd_indexes p)) /\
  NoDup (names sc_name (pd_services p)) /\ NoDup (names output_name (pd_outputs p)).

(** Names and contents of the built-in parsers (pkg/config/config.go:117-138). *)
Definition built_in : list (bytes * pconfig) :=
  [(lit "string", PString []); (lit "integer", PInteger []); (lit "float", PFloat (lit ".") []);
   (lit "boolean", PBoolean [lit "true"; lit "1"; lit "TRUE"] [lit "false"; lit "0"; lit "FALSE"]); (lit "json", PJson)].

(** *** What the configuration means (C46) *)

(** [given] or, when it was left out, the documented default. *)
Definition text_or (given documented_default used : bytes) : Prop :=
  (given = [] /\ used = documented_default) \/ (given <> [] /\ used = given).
Definition bool_or (given : option bool) (documented_default used : bool) : Prop :=
  (given = None /\ used = documented_default) \/ given = Some used.
Definition size_or (given documented_default used : Z) : Prop :=
  (given = 0 /\ used = documented_default) \/ (given <> 0 /\ used = given).

Inductive means_parser : parser_config -> pconfig -> Prop :=
| means_string n c : means_parser (CString n c) (PString c)
| means_integer n i : means_parser (CInteger n i) (PInteger i)
| means_float n s i : means_parser (CFloat n s i) (PFloat s i)
| means_boolean n ts fs : means_parser (CBoolean n ts fs) (PBoolean ts fs)
| means_json n : means_parser (CJson n) PJson
| means_split n d r r' sub : bool_or r false r' -> means_parser (CSplit n (Some d) r sub) (PSplit d r' sub).

(** A property whose type is left out is a primitive. *)
Inductive means_xml : xml_prop -> xprop -> Prop :=
| means_primitive n t p x p' : t = [] \/ t = lit "primitive" -> text_or p (lit "string") p' ->
    means_xml (mkXmlProp n t p x None []) (XPrimitive n x p')
| means_array n x i i' : means_xml i i' -> means_xml (mkXmlProp n (lit "array") [] x (Some i) []) (XArray n x i')
| means_object n x ps ps' : Forall2 (fun o p => exists c, o = Some c /\ means_xml c p) ps ps' ->
    means_xml (mkXmlProp n (lit "object") [] x None ps) (XObject n x ps').

Inductive means_input : input_config -> vinput -> Prop :=
| means_csv n path die first detect delimiter columns die' delimiter' columns' :
    bool_or die true die' -> text_or delimiter (lit ",") delimiter' ->
    Forall2 (fun o c' => exists c, o = Some c /\ fst c' = fst c /\ text_or (snd c) (lit "string") (snd c')) columns columns' ->
    means_input (CCsv n path die first detect delimiter columns) (VCsv path die' first detect delimiter' columns')
| means_json_file n path die die' : bool_or die true die' -> means_input (CJsonFile n path die) (VJsonFile path die')
| means_xml_file n path die props xpath die' props' : bool_or die true die' ->
    Forall2 (fun o p => exists c, o = Some c /\ means_xml c p) props props' ->
    means_input (CXml n path die props xpath) (VXml path die' props' xpath).

Inductive means_index (upper : bytes -> bytes) : index_config -> vindex -> Prop :=
| means_map n i ps : means_index upper (CMap n i ps) (VIMap i ps)
| means_wildcard n path i ps ic ic' : bool_or ic false ic' -> means_index upper (CWildcard n path i ps ic) (VIWildcard path i ps ic')
| means_sqlite n dsn i ps ps' :
    Forall2 (fun o p' => exists p, o = Some p /\ fst p' = fst p /\
      ((snd p = [] /\ snd p' = lit "BINARY") \/ (snd p <> [] /\ snd p' = upper (snd p)))) ps ps' ->
    means_index upper (CSqlite n dsn i ps) (VISqlite dsn i ps')
| means_fts5 n dsn i prefix t ps t' : text_or t (lit "unicode61") t' -> means_index upper (CFts5 n dsn i prefix t ps) (VIFts5 dsn i prefix t' ps)
| means_noop n : means_index upper (CNoop n) VINoop.

Inductive means_rel : raw_relationship -> relationship -> Prop :=
| means_relationship input is_array limit sort ms children sort' ms' children' :
    Forall2 (fun o s' => exists s, o = Some s /\ fst s' = fst s /\ bool_or (snd s) true (snd s')) sort sort' ->
    Forall2 (fun o m' => exists p c i i', o = Some (p, c, i) /\ m' = (p, c, i') /\ text_or i (lit "default") i') ms ms' ->
    Forall2 (fun o c' => exists c, o = (fst c', Some c) /\ means_rel c (snd c')) children children' ->
    means_rel (mkRawRel input is_array limit sort ms children) (mkRel input is_array limit sort' ms' children').

Definition means_params (ps : list (bytes * option param)) (ps' : list (bytes * param)) : Prop :=
  Forall2 (fun o p' => exists p, o = (fst p', Some p) /\ pm_property (snd p') = pm_property p /\
    text_or (pm_index p) (lit "default") (pm_index (snd p')) /\ text_or (pm_parser p) (lit "string") (pm_parser (snd p'))) ps ps'.
Definition means_rels (rs : list (bytes * option raw_relationship)) (rs' : list (bytes * relationship)) : Prop :=
  Forall2 (fun o r' => exists r, o = (fst r', Some r) /\ means_rel r (snd r')) rs rs'.

Inductive means_output : output_config -> voutput -> Prop :=
| means_graphql n : means_output (CGraphql n) VGraphql
| means_list n i d mx lp op params rels d' mx' lp' op' params' rels' :
    size_or d 100 d' -> size_or mx 1000 mx' -> text_or lp (lit "limit") lp' -> text_or op (lit "offset") op' ->
    means_params params params' -> means_rels rels rels' ->
    means_output (CArray n i d mx lp op params rels) (VOutput (OArray (mkArray i d' mx' lp' op' params' rels')))
| means_one n i params rels params' rels' : means_params params params' -> means_rels rels rels' ->
    means_output (CObject n i params rels) (VOutput (OObject (mkObject i params' rels'))).

Inductive means_service : service_config -> vservice -> Prop :=
| means_http n http https errors routes http' https' routes' :
    http <> None \/ https <> None ->
    match http, http' with
    | None, None => True
    | Some l, Some l' => text_or l (lit "127.0.0.1:0") l'
    | _, _ => False
    end ->
    match https, https' with
    | None, None => True
    | Some (l, cert, key), Some (l', cert', key') => text_or l (lit "127.0.0.1:0") l' /\ cert' = cert /\ key' = key
    | _, _ => False
    end ->
    errors = [] \/ errors = lit "application/json" ->
    routes = map Some routes' ->
    means_service (mkServiceConfig n http https errors routes) (mkVService http' https' routes').

Record means (upper : bytes -> bytes) (p : parsed) (v : vconfig) : Prop := mkMeans {
  me_parsers : forall c, In (Some c) (pd_parsers p) -> exists q, mget (vc_parsers v) (parser_name c) = Some q /\ means_parser c q;
  me_inputs : forall c, In (Some c) (pd_inputs p) -> exists q, mget (vc_inputs v) (input_name c) = Some q /\ means_input c q;
  me_indexes : forall c, In (Some c) (pd_indexes p) -> exists q, mget (vc_indexes v) (index_name c) = Some q /\ means_index upper c q;
  me_services : forall c, In (Some c) (pd_services p) -> exists q, mget (vc_services v) (sc_name c) = Some q /\ means_service c q;
  me_outputs : forall c, In (Some c) (pd_outputs p) -> exists q, mget (vc_outputs v) (output_name c) = Some q /\ means_output c q;
  me_built_in : forall n q, In (n, q) built_in -> ~ In n (names parser_name (pd_parsers p)) -> mget (vc_parsers v) n = Some q;
  me_default : ~ In (lit "default") (names index_name (pd_indexes p)) -> mget (vc_indexes v) (lit "default") = Some VINoop;
  (** and nothing else *)
  me_only : forall n,
    (has (vc_parsers v) n -> In n (names parser_name (pd_parsers p)) \/ exists q, In (n, q) built_in) /\
    (has (vc_inputs v) n -> In n (names input_name (pd_inputs p))) /\
    (has (vc_indexes v) n -> In n (names index_name (pd_indexes p)) \/ n = lit "default") /\
    (has (vc_services v) n -> In n (names sc_name (pd_services p))) /\
    (has (vc_outputs v) n -> In n (names output_name (pd_outputs p)));
}.
