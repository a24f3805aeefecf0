(** From a YAML document to the objects of the configuration:
    pkg/config/config.go:16-22, 38-41, pkg/config/parser.go, input.go, index.go,
    output.go, service.go, pkg/util/config.go, and the structures of the
    configuration with their yaml tags.

    gopkg.in/yaml.v2 2.4.0 (decode.go, strict) is modelled from memory, on nodes:
    every scalar comes with what it is resolved to.  An alias stands for the node it
    refers to; merge keys (<<) are the explicit error [unmodelled]; there are no
    explicit tags. *)
From Coq Require Import List ZArith Bool String.
From Coq Require Import Strings.Byte Floats.SpecFloat.
From Verif Require Import Base Value Codec Output Config.
Import ListNotations.
Open Scope Z_scope.

(** What yaml.v2's resolve gives for a scalar; [RText]: its own text (a quoted
    scalar, any other text, a date); [RMerge]: <<, not quoted. *)
Inductive scalar := RNull | RBool (b : bool) | RInt (z : Z) | RFloat (f : spec_float) | RText | RMerge.
Inductive node := YScalar (text : bytes) (r : scalar) | YSeq (l : list node) | YMap (m : list (node * node)).

(** *** The Go types *)

Inductive sname :=
| SString | SInteger | SFloat | SBoolean | SJson | SSplit
| SCsv | SColumn | SJsonFile | SXml | SXmlProp
| SMap | SWildcard | SSqlite | SSqlProp | SFts5 | SNoop
| SGraphql | SArray | SLimit | SOffset | SObject | SParam | SRel | SMatch | SSort
| SHttp | SHttpHttp | SHttps | SRoute.

(** [(true, t)] is a pointer to [t]; [THidden]: the types of fields without a yaml
    tag, *logrus.Entry, *regexp.Regexp, *xpath.Expr and map[string]int (which can be
    nil like a pointer). *)
Inductive ty :=
| TText | TBool | TUint | TInt
| TList (e : bool * ty) | TDict (e : bool * ty)
| TStruct (s : sname) | THidden.
Definition field : Type := bool * ty.
Definition text : field := (false, TText).
Definition flag : field := (false, TBool).

(** The names of fields in YAML: the tag, or the name in lower case. *)
Definition fields (s : sname) : list (bytes * field) :=
  match s with
  (* pkg/parser/string_config.go:8-13 *)
  | SString => [(lit "name", text); (lit "type", text); (lit "convertFromCharset", text); (lit "logger", (true, THidden))]
  (* pkg/parser/integer_config.go:8-13 *)
  | SInteger => [(lit "name", text); (lit "type", text); (lit "ignoreCharacters", text); (lit "logger", (true, THidden))]
  (* pkg/parser/float_config.go:8-14 *)
  | SFloat => [(lit "name", text); (lit "type", text); (lit "decimalSeparator", text); (lit "ignoreCharacters", text);
               (lit "logger", (true, THidden))]
  (* pkg/parser/boolean_config.go:8-14 *)
  | SBoolean => [(lit "name", text); (lit "type", text); (lit "trueValues", (false, TList text)); (lit "falseValues", (false, TList text));
                 (lit "logger", (true, THidden))]
  (* pkg/parser/json_config.go:8-12 *)
  | SJson => [(lit "name", text); (lit "type", text); (lit "logger", (true, THidden))]
  (* pkg/parser/split_config.go:10-18 *)
  | SSplit => [(lit "name", text); (lit "type", text); (lit "delimiter", (true, TText)); (lit "delimiterIsRegexp", (true, TBool));
               (lit "parser", text); (lit "logger", (true, THidden)); (lit "delimiterregexp", (true, THidden))]
  (* pkg/input/csv_config.go:11-22 *)
  | SCsv => [(lit "name", text); (lit "type", text); (lit "path", text); (lit "dieOnInputChange", (true, TBool));
             (lit "ignoreFirstRow", flag); (lit "autodetectColumns", flag); (lit "delimiter", text);
             (lit "columns", (false, TList (true, TStruct SColumn)));
             (lit "columnindexbyname", (true, THidden)); (lit "logger", (true, THidden))]
  (* pkg/input/csv_config.go:24-27 *)
  | SColumn => [(lit "name", text); (lit "parser", text)]
  (* pkg/input/json_config.go:10-16 *)
  | SJsonFile => [(lit "name", text); (lit "type", text); (lit "path", text); (lit "dieOnInputChange", (true, TBool));
                  (lit "logger", (true, THidden))]
  (* pkg/input/xml_config.go:20-28 *)
  | SXml => [(lit "name", text); (lit "type", text); (lit "path", text); (lit "dieOnInputChange", (true, TBool));
             (lit "properties", (false, TList (true, TStruct SXmlProp))); (lit "recordXpath", text); (lit "logger", (true, THidden))]
  (* pkg/input/xml_config.go:30-38 *)
  | SXmlProp => [(lit "name", text); (lit "type", text); (lit "parser", text); (lit "xpath", text);
                 (lit "items", (true, TStruct SXmlProp)); (lit "properties", (false, TList (true, TStruct SXmlProp)));
                 (lit "compiledxpath", (true, THidden))]
  (* pkg/index/map_config.go:10-16 *)
  | SMap => [(lit "name", text); (lit "type", text); (lit "input", text); (lit "properties", (false, TList text));
             (lit "logger", (true, THidden))]
  (* pkg/index/wildcard_config.go:11-19 *)
  | SWildcard => [(lit "name", text); (lit "type", text); (lit "path", text); (lit "input", text);
                  (lit "properties", (false, TList text)); (lit "ignoreCase", (true, TBool)); (lit "logger", (true, THidden))]
  (* pkg/index/sqlite_config.go:14-21 *)
  | SSqlite => [(lit "name", text); (lit "type", text); (lit "dsn", text); (lit "input", text);
                (lit "properties", (false, TList (true, TStruct SSqlProp))); (lit "logger", (true, THidden))]
  (* pkg/index/sqlite_config.go:23-26 *)
  | SSqlProp => [(lit "name", text); (lit "collate", text)]
  (* pkg/index/fts5_config.go:12-21 *)
  | SFts5 => [(lit "name", text); (lit "type", text); (lit "dsn", text); (lit "input", text); (lit "prefix", (false, TList (false, TInt)));
              (lit "tokenize", text); (lit "properties", (false, TList text)); (lit "logger", (true, THidden))]
  (* pkg/index/noop_config.go:9-13 *)
  | SNoop => [(lit "name", text); (lit "type", text); (lit "logger", (true, THidden))]
  (* pkg/output/graphql_config.go:11-15 *)
  | SGraphql => [(lit "name", text); (lit "type", text); (lit "logger", (true, THidden))]
  (* pkg/output/json_array_config.go:14-23 *)
  | SArray => [(lit "name", text); (lit "type", text); (lit "input", text); (lit "limit", (false, TStruct SLimit)); (lit "offset", (false, TStruct SOffset));
               (lit "parameters", (false, TDict (true, TStruct SParam))); (lit "relationships", (false, TDict (true, TStruct SRel)));
               (lit "logger", (true, THidden))]
  (* pkg/output/json_array_config.go:25-29 *)
  | SLimit => [(lit "default", (false, TUint)); (lit "max", (false, TUint)); (lit "parameter", text)]
  (* pkg/output/json_array_config.go:31-33 *)
  | SOffset => [(lit "parameter", text)]
  (* pkg/output/json_object_config.go:14-21 *)
  | SObject => [(lit "name", text); (lit "type", text); (lit "input", text);
                (lit "parameters", (false, TDict (true, TStruct SParam))); (lit "relationships", (false, TDict (true, TStruct SRel)));
                (lit "logger", (true, THidden))]
  (* pkg/output/parameter/config.go:12-16 *)
  | SParam => [(lit "property", text); (lit "index", text); (lit "parser", text)]
  (* pkg/output/relationship/config.go:11-18 *)
  | SRel => [(lit "input", text); (lit "isArray", flag); (lit "limit", (false, TUint)); (lit "sort", (false, TList (true, TStruct SSort)));
             (lit "match", (false, TList (true, TStruct SMatch))); (lit "relationships", (false, TDict (true, TStruct SRel)))]
  (* pkg/output/relationship/config.go:20-24 *)
  | SMatch => [(lit "parentProperty", text); (lit "childProperty", text); (lit "childIndex", text)]
  (* pkg/input/record/sort_config.go:7-11 *)
  | SSort => [(lit "logger", (true, THidden)); (lit "property", text); (lit "ascending", (true, TBool))]
  (* pkg/service/http_config.go:12-20 *)
  | SHttp => [(lit "name", text); (lit "type", text); (lit "http", (true, TStruct SHttpHttp)); (lit "https", (true, TStruct SHttps));
              (lit "errorsType", text); (lit "routes", (false, TList (true, TStruct SRoute))); (lit "logger", (true, THidden))]
  (* pkg/service/http_config.go:22-24 *)
  | SHttpHttp => [(lit "listen", text)]
  (* pkg/service/http_config.go:26-30 *)
  | SHttps => [(lit "listen", text); (lit "certificatePath", text); (lit "privateKeyPath", text)]
  (* pkg/service/http_config.go:32-35 *)
  | SRoute => [(lit "output", text); (lit "path", text)]
  end.

(** *** Values *)

(** A value of such a type; the fields of a structure which are not mentioned have
    the zero value.  [GNil] is a nil pointer. *)
Inductive gval :=
| GText (s : bytes) | GBool (b : bool) | GNum (z : Z) | GNil
| GList (l : list gval) | GDict (m : list (bytes * gval)) | GStruct (m : list (bytes * gval)) | GHidden.

Section MapR.
Variables (A B : Type) (f : A -> res B).
Fixpoint map_res (l : list A) : res (list B) :=
  match l with
  | [] => Ok []
  | x :: l' => rlet y := f x in rlet ys := map_res l' in Ok (y :: ys)
  end.
End MapR.
Arguments map_res {A B}.

Fixpoint repeated (l : list bytes) : bool :=
  match l with
  | [] => false
  | x :: l' => existsb (bytes_eqb x) l' || repeated l'
  end.

(** yaml.v2, decode.go, prepare: the value of a null scalar is not looked at, for
    three of its spellings. *)
Definition plain_null (n : node) : bool :=
  match n with
  | YScalar t RNull => bytes_eqb t (lit "null") || bytes_eqb t (lit "~") || bytes_eqb t []
  | _ => false
  end.

(** yaml.v2: a mapping key decoded to a string. *)
Definition key_text (n : node) : res bytes :=
  match n with
  | YScalar _ RNull => Ok []
  | YScalar _ RMerge => Err (EMsg "unmodelled")
  | YScalar t _ => Ok t
  | _ => Err (EMsg "cannot unmarshal into string")
  end.

(** Go's conversion of a float64 to an integer, when the result fits. *)
Definition truncate (f : spec_float) : option Z :=
  match f with
  | S754_zero _ => Some 0
  | S754_finite s m e => let a := Zpos m * 2 ^ Z.max e 0 / 2 ^ Z.max (- e) 0 in Some (if s then - a else a)
  | _ => None
  end.
(** [f <= 2 ^ k] *)
Definition at_most_pow2 (f : spec_float) (k : Z) : bool :=
  match f with
  | S754_zero _ => true
  | S754_infinity s => s
  | S754_nan => false
  | S754_finite s m e => s || (Zpos m * 2 ^ Z.max e 0 <=? 2 ^ k * 2 ^ Z.max (- e) 0)
  end.

Definition refuse {A} : res A := Err (EMsg "cannot unmarshal").

Section Decode.
(** Whether a node can be decoded into a field without a yaml tag. *)
Variable hidden_ok : node -> bool.
(** Conversions of floats which are out of range (they depend on the machine). *)
Variables odd_uint odd_int : spec_float -> Z.

(** yaml.v2, decode.go, scalar: a uint field. *)
Definition decode_uint (r : scalar) : res gval :=
  match r with
  | RNull => Ok (GNum 0)
  | RInt z => if (0 <=? z) && (z <? 2 ^ 64) then Ok (GNum z) else refuse
  | RFloat f =>
    if at_most_pow2 f 64 then
      match truncate f with
      | Some z => Ok (GNum (if (0 <=? z) && (z <? 2 ^ 64) then z else odd_uint f))
      | None => Ok (GNum (odd_uint f))
      end
    else refuse
  | _ => refuse
  end.

(** ... an int field. *)
Definition decode_int (r : scalar) : res gval :=
  match r with
  | RNull => Ok (GNum 0)
  | RInt z => if (- 2 ^ 63 <=? z) && (z <? 2 ^ 63) then Ok (GNum z) else refuse
  | RFloat f =>
    if at_most_pow2 f 63 then
      match truncate f with
      | Some z => Ok (GNum (if (- 2 ^ 63 <=? z) && (z <? 2 ^ 63) then z else odd_int f))
      | None => Ok (GNum (odd_int f))
      end
    else refuse
  | _ => refuse
  end.

(** yaml.v2, decode.go: unmarshal, prepare, scalar, sequence, mapping,
    mappingStruct, setMapIndex, with the decoder in strict mode.  Every error makes
    the whole decoding fail. *)
Fixpoint decode (f : field) (n : node) {struct n} : res gval :=
  if fst f && plain_null n then Ok GNil else
  match snd f with
  | THidden => if hidden_ok n then Ok GHidden else refuse
  | TText => match n with YScalar _ RNull => Ok (GText []) | YScalar t _ => Ok (GText t) | _ => refuse end
  | TBool => match n with YScalar _ RNull => Ok (GBool false) | YScalar _ (RBool b) => Ok (GBool b) | _ => refuse end
  | TUint => match n with YScalar _ r => decode_uint r | _ => refuse end
  | TInt => match n with YScalar _ r => decode_int r | _ => refuse end
  | TList e =>
    match n with
    | YScalar _ RNull => Ok (GList [])
    | YSeq l => rlet vs := map_res (decode e) l in Ok (GList vs)
    | _ => refuse
    end
  | TDict e =>
    match n with
    | YScalar _ RNull => Ok (GDict [])
    | YMap m =>
      rlet kvs := map_res (fun kn : node * node =>
                    rlet k := key_text (fst kn) in rlet v := decode e (snd kn) in Ok (k, v)) m in
      if repeated (map fst kvs) then Err (EMsg "already set in map") else Ok (GDict kvs)
    | _ => refuse
    end
  | TStruct s =>
    match n with
    | YScalar _ RNull => Ok (GStruct [])
    | YMap m =>
      rlet kvs := map_res (fun kn : node * node =>
                    rlet k := key_text (fst kn) in
                    match mget (fields s) k with
                    | None => Err (EMsg "not found in type")
                    | Some f' => rlet v := decode f' (snd kn) in Ok (k, v)
                    end) m in
      if repeated (map fst kvs) then Err (EMsg "already set in type") else Ok (GStruct kvs)
    | _ => refuse
    end
  end.

(** Whether two keys of a map[interface{}]interface{} are the same. *)
Definition same_key (a b : node) : bool :=
  match a, b with
  | YScalar _ RNull, YScalar _ RNull => true
  | YScalar _ (RBool x), YScalar _ (RBool y) => Bool.eqb x y
  | YScalar _ (RInt x), YScalar _ (RInt y) => x =? y
  | YScalar _ (RFloat x), YScalar _ (RFloat y) => SFeqb x y
  | YScalar s RText, YScalar t RText => bytes_eqb s t
  | _, _ => false
  end.
Fixpoint repeated_key (l : list node) : bool :=
  match l with
  | [] => false
  | x :: l' => existsb (same_key x) l' || repeated_key l'
  end.

(** Decoding into an interface{}: whether it succeeds. *)
Fixpoint decode_any (n : node) : res unit :=
  match n with
  | YScalar _ _ => Ok tt
  | YSeq l => rlet _ := map_res decode_any l in Ok tt
  | YMap m =>
    rlet _ := map_res (fun kn : node * node =>
                match fst kn with
                | YScalar _ RMerge => Err (EMsg "unmodelled")
                | YScalar _ _ => decode_any (snd kn)
                | _ => Err (EMsg "invalid map key")
                end) m in
    if repeated_key (map fst m) then Err (EMsg "already set in map") else Ok tt
  end.

(** pkg/util/config.go:7-27 *)
Definition get_type (n : node) : res bytes :=
  rlet m := match n with
            | YScalar _ RNull => Ok []
            | YMap m => map_res (fun kn : node * node =>
                          rlet k := key_text (fst kn) in rlet _ := decode_any (snd kn) in Ok (k, snd kn)) m
            | _ => refuse
            end in
  if repeated (map fst m) then Err (EMsg "already set in map") else
  match mget m (lit "type") with
  | None => Err (EMsg "The 'type' attribute is required.")
  | Some (YScalar _ RMerge) => Ok (lit "<<")
  | Some (YScalar t RText) =>
    if bytes_eqb t [] then Err (EMsg "The 'type' attribute cannot be empty.") else Ok t
  | Some _ => Err (EMsg "The 'type' attribute must be a string.")
  end.

(** pkg/config/parser.go:13-41, input.go:13-32, index.go:13-38, output.go:13-32,
    service.go:13-26: UnmarshalYAML, which is not called for a null.  [kinds]: the
    cases of the switch. *)
Definition decode_object (kinds : list (bytes * sname)) (n : node) : res (option (sname * gval)) :=
  if plain_null n then Ok None else
  rlet t := get_type n in
  match mget kinds t with
  | None => Err (EMsg "Unknown type")
  | Some s => rlet v := decode (true, TStruct s) n in Ok (Some (s, v))
  end.

Definition parser_kinds : list (bytes * sname) :=
  [(lit "integer", SInteger); (lit "float", SFloat); (lit "boolean", SBoolean); (lit "string", SString); (lit "json", SJson); (lit "split", SSplit)].
Definition input_kinds : list (bytes * sname) := [(lit "csv", SCsv); (lit "xml", SXml); (lit "json", SJsonFile)].
Definition index_kinds : list (bytes * sname) :=
  [(lit "map", SMap); (lit "wildcard", SWildcard); (lit "sqlite", SSqlite); (lit "fts5", SFts5); (lit "noop", SNoop)].
Definition output_kinds : list (bytes * sname) := [(lit "graphql", SGraphql); (lit "jsonArray", SArray); (lit "jsonObject", SObject)].
Definition service_kinds : list (bytes * sname) := [(lit "http", SHttp)].

(** *** The structures as objects of Config.v *)

Definition get_field (g : gval) (k : bytes) : gval :=
  match g with GStruct m => match mget m k with Some v => v | None => GNil end | _ => GNil end.
Definition as_text (g : gval) : bytes := match g with GText s => s | _ => [] end.
Definition as_flag (g : gval) : bool := match g with GBool b => b | _ => false end.
Definition as_num (g : gval) : Z := match g with GNum z => z | _ => 0 end.
Definition as_list {A} (f : gval -> A) (g : gval) : list A := match g with GList l => map f l | _ => [] end.
Definition as_dict {A} (f : gval -> A) (g : gval) : list (bytes * A) := match g with GDict m => map (fun kv => (fst kv, f (snd kv))) m | _ => [] end.
Definition is_nil (g : gval) : bool := match g with GNil => true | _ => false end.
Definition as_ptr {A} (f : gval -> A) (g : gval) : option A := if is_nil g then None else Some (f g).
Definition str (g : gval) (k : string) : bytes := as_text (get_field g (lit k)).
Definition boolean (g : gval) (k : string) : bool := as_flag (get_field g (lit k)).
Definition opt_boolean (g : gval) (k : string) : option bool := as_ptr as_flag (get_field g (lit k)).
Definition strs (g : gval) (k : string) : list bytes := as_list as_text (get_field g (lit k)).

Definition to_parser (s : sname) (g : gval) : option parser_config :=
  match s with
  | SString => Some (CString (str g "name") (str g "convertFromCharset"))
  | SInteger => Some (CInteger (str g "name") (str g "ignoreCharacters"))
  | SFloat => Some (CFloat (str g "name") (str g "decimalSeparator") (str g "ignoreCharacters"))
  | SBoolean => Some (CBoolean (str g "name") (strs g "trueValues") (strs g "falseValues"))
  | SJson => Some (CJson (str g "name"))
  | SSplit => Some (CSplit (str g "name") (as_ptr as_text (get_field g (lit "delimiter"))) (opt_boolean g "delimiterIsRegexp") (str g "parser"))
  | _ => None
  end.

Fixpoint to_xml (g : gval) : xml_prop :=
  match g with
  | GStruct m =>
    let items := map (fun kv => (fst kv, if is_nil (snd kv) then None else Some (to_xml (snd kv)))) m in
    let props := map (fun kv => (fst kv, match snd kv with
                   | GList l => map (fun g' => if is_nil g' then None else Some (to_xml g')) l
                   | _ => []
                   end)) m in
    mkXmlProp (str g "name") (str g "type") (str g "parser") (str g "xpath")
      (match mget items (lit "items") with Some o => o | None => None end)
      (match mget props (lit "properties") with Some l => l | None => [] end)
  | _ => mkXmlProp [] [] [] [] None []
  end.

Definition to_column (g : gval) : bytes * bytes := (str g "name", str g "parser").
Definition to_input (s : sname) (g : gval) : option input_config :=
  match s with
  | SCsv => Some (CCsv (str g "name") (str g "path") (opt_boolean g "dieOnInputChange") (boolean g "ignoreFirstRow")
              (boolean g "autodetectColumns") (str g "delimiter") (as_list (as_ptr to_column) (get_field g (lit "columns"))))
  | SJsonFile => Some (CJsonFile (str g "name") (str g "path") (opt_boolean g "dieOnInputChange"))
  | SXml => Some (CXml (str g "name") (str g "path") (opt_boolean g "dieOnInputChange")
              (as_list (as_ptr to_xml) (get_field g (lit "properties"))) (str g "recordXpath"))
  | _ => None
  end.

Definition to_index (s : sname) (g : gval) : option index_config :=
  match s with
  | SMap => Some (CMap (str g "name") (str g "input") (strs g "properties"))
  | SWildcard => Some (CWildcard (str g "name") (str g "path") (str g "input") (strs g "properties") (opt_boolean g "ignoreCase"))
  | SSqlite => Some (CSqlite (str g "name") (str g "dsn") (str g "input")
                 (as_list (as_ptr (fun p => (str p "name", str p "collate"))) (get_field g (lit "properties"))))
  | SFts5 => Some (CFts5 (str g "name") (str g "dsn") (str g "input") (as_list as_num (get_field g (lit "prefix")))
               (str g "tokenize") (strs g "properties"))
  | SNoop => Some (CNoop (str g "name"))
  | _ => None
  end.

Definition to_sort (g : gval) : bytes * option bool := (str g "property", opt_boolean g "ascending").
Definition to_match (g : gval) : bytes * bytes * bytes := (str g "parentProperty", str g "childProperty", str g "childIndex").
Fixpoint to_rel (g : gval) : raw_relationship :=
  match g with
  | GStruct m =>
    let rels := map (fun kv => (fst kv, match snd kv with
                  | GDict d => map (fun e => (fst e, if is_nil (snd e) then None else Some (to_rel (snd e)))) d
                  | _ => []
                  end)) m in
    mkRawRel (str g "input") (boolean g "isArray") (as_num (get_field g (lit "limit")))
      (as_list (as_ptr to_sort) (get_field g (lit "sort"))) (as_list (as_ptr to_match) (get_field g (lit "match")))
      (match mget rels (lit "relationships") with Some l => l | None => [] end)
  | _ => mkRawRel [] false 0 [] [] []
  end.

Definition to_param (g : gval) : param := mkParam (str g "property") (str g "index") (str g "parser").
Definition to_output (s : sname) (g : gval) : option output_config :=
  let params := as_dict (as_ptr to_param) (get_field g (lit "parameters")) in
  let rels := as_dict (as_ptr to_rel) (get_field g (lit "relationships")) in
  match s with
  | SGraphql => Some (CGraphql (str g "name"))
  | SArray =>
    let l := get_field g (lit "limit") in
    Some (CArray (str g "name") (str g "input") (as_num (get_field l (lit "default"))) (as_num (get_field l (lit "max"))) (str l "parameter")
      (str (get_field g (lit "offset")) "parameter") params rels)
  | SObject => Some (CObject (str g "name") (str g "input") params rels)
  | _ => None
  end.

Definition to_service (s : sname) (g : gval) : option service_config :=
  match s with
  | SHttp => Some (mkServiceConfig (str g "name")
      (as_ptr (fun h => str h "listen") (get_field g (lit "http")))
      (as_ptr (fun h => (str h "listen", str h "certificatePath", str h "privateKeyPath")) (get_field g (lit "https")))
      (str g "errorsType")
      (as_list (as_ptr (fun r => (str r "output", str r "path"))) (get_field g (lit "routes"))))
  | _ => None
  end.

(** A list of a section.  [Panic]: a type without conversion (there is none). *)
Definition decode_section {A} (kinds : list (bytes * sname)) (to : sname -> gval -> option A) (n : option node) : res (list (option A)) :=
  match n with
  | None => Ok []
  | Some (YScalar _ RNull) => Ok []
  | Some (YSeq l) =>
    map_res (fun n =>
      rlet o := decode_object kinds n in
      match o with
      | None => Ok None
      | Some (s, g) => match to s g with Some c => Ok (Some c) | None => Panic end
      end) l
  | Some _ => refuse
  end.

(** pkg/config/config.go:16-22, 40-41; [None]: an empty file. *)
Definition sections : list bytes := [lit "parsers"; lit "inputs"; lit "indexes"; lit "services"; lit "outputs"].
Definition decode_document (doc : option node) : res parsed :=
  match doc with
  | None | Some (YScalar _ RNull) => Ok (mkParsed [] [] [] [] [])
  | Some (YMap m) =>
    rlet kns := map_res (fun kn : node * node => rlet k := key_text (fst kn) in Ok (k, snd kn)) m in
    if existsb (fun k => negb (existsb (bytes_eqb k) sections)) (map fst kns) then Err (EMsg "not found in type") else
    if repeated (map fst kns) then Err (EMsg "already set in type") else
    rlet ps := decode_section parser_kinds to_parser (mget kns (lit "parsers")) in
    rlet is := decode_section input_kinds to_input (mget kns (lit "inputs")) in
    rlet xs := decode_section index_kinds to_index (mget kns (lit "indexes")) in
    rlet ss := decode_section service_kinds to_service (mget kns (lit "services")) in
    rlet os := decode_section output_kinds to_output (mget kns (lit "outputs")) in
    Ok (mkParsed ps is xs ss os)
  | Some _ => refuse
  end.
End Decode.
