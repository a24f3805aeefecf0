(** pkg/config and the Validate methods: from the objects decoded from the YAML
    file to the validated configuration.

    A Go map is the list of its entries in the order in which the (single) range
    statement visits it; the theorems quantify over the list, hence over the
    order.  A nil pointer (a null entry of the YAML document) is [None].  Validate
    modifies the objects in place; here it returns the completed object.  Logging
    has no counterpart.  Decoding YAML is in Yaml.v, os.ExpandEnv in Expand.v. *)
From Coq Require Import List ZArith Lia Bool String.
From Coq Require Import Strings.Byte.
From Verif Require Import Base Codec Value GoStrings Parser Sort Output Http Records.
Import ListNotations.
Open Scope Z_scope.

(** *** Decoded objects *)

(** pkg/parser/*_config.go: the fields with a yaml tag, except type. *)
Inductive parser_config :=
| CString (name charset : bytes)
| CInteger (name ignore : bytes)
| CFloat (name separator ignore : bytes)
| CBoolean (name : bytes) (trues falses : list bytes)
| CJson (name : bytes)
| CSplit (name : bytes) (delimiter : option bytes) (is_regexp : option bool) (sub : bytes).

(** pkg/input/xml_config.go:30-38 *)
Inductive xml_prop := mkXmlProp {
  xp_name : bytes;
  xp_type : bytes;
  xp_parser : bytes;
  xp_xpath : bytes;
  xp_items : option xml_prop;
  xp_props : list (option xml_prop);
}.

(** pkg/input/csv_config.go:11-27, json_config.go:10-16, xml_config.go:20-28; a
    column is a name and a parser. *)
Inductive input_config :=
| CCsv (name path : bytes) (die : option bool) (ignore_first autodetect : bool) (delimiter : bytes)
       (columns : list (option (bytes * bytes)))
| CJsonFile (name path : bytes) (die : option bool)
| CXml (name path : bytes) (die : option bool) (props : list (option xml_prop)) (record_xpath : bytes).

(** pkg/index/map_config.go:10-16, wildcard_config.go:11-19, sqlite_config.go:14-26,
    fts5_config.go:12-21, noop_config.go:9-13; an SQLite property is a name and a
    collation. *)
Inductive index_config :=
| CMap (name input : bytes) (props : list bytes)
| CWildcard (name path input : bytes) (props : list bytes) (ignore_case : option bool)
| CSqlite (name dsn input : bytes) (props : list (option (bytes * bytes)))
| CFts5 (name dsn input : bytes) (prefix : list Z) (tokenize : bytes) (props : list bytes)
| CNoop (name : bytes).

(** pkg/output/relationship/config.go:11-24, pkg/input/record/sort_config.go:7-11 *)
Inductive raw_relationship := mkRawRel {
  rr_input : bytes;
  rr_is_array : bool;
  rr_limit : Z; (* uint *)
  rr_sort : list (option (bytes * option bool));
  rr_match : list (option (bytes * bytes * bytes));
  rr_children : list (bytes * option raw_relationship);
}.

(** pkg/output/json_array_config.go:14-33, json_object_config.go:14-21,
    graphql_config.go:11-15 *)
Inductive output_config :=
| CGraphql (name : bytes)
| CArray (name input : bytes) (default max : Z) (limit_param offset_param : bytes)
         (params : list (bytes * option param)) (rels : list (bytes * option raw_relationship))
| CObject (name input : bytes)
          (params : list (bytes * option param)) (rels : list (bytes * option raw_relationship)).

(** pkg/service/http_config.go:12-35; routes are (output, path), https is
    (listen, certificate, private key). *)
Record service_config := mkServiceConfig {
  sc_name : bytes;
  sc_http : option bytes;
  sc_https : option (bytes * bytes * bytes);
  sc_errors_type : bytes;
  sc_routes : list (option (bytes * bytes));
}.

(** GetName *)
Definition parser_name (c : parser_config) : bytes :=
  match c with CString n _ | CInteger n _ | CFloat n _ _ | CBoolean n _ _ | CJson n | CSplit n _ _ _ => n end.
Definition input_name (c : input_config) : bytes :=
  match c with CCsv n _ _ _ _ _ _ | CJsonFile n _ _ | CXml n _ _ _ _ => n end.
Definition index_name (c : index_config) : bytes :=
  match c with CMap n _ _ | CWildcard n _ _ _ _ | CSqlite n _ _ _ | CFts5 n _ _ _ _ _ | CNoop n => n end.
Definition output_name (c : output_config) : bytes :=
  match c with CGraphql n | CArray n _ _ _ _ _ _ _ | CObject n _ _ _ => n end.

(** pkg/config/config.go:16-22: the objects in the order of the file.  A null
    entry leaves a nil interface. *)
Record parsed := mkParsed {
  pd_parsers : list (option parser_config);
  pd_inputs : list (option input_config);
  pd_indexes : list (option index_config);
  pd_services : list (option service_config);
  pd_outputs : list (option output_config);
}.

(** pkg/config/config.go:24-30 *)
Record config := mkConfig {
  cf_parsers : list (bytes * parser_config);
  cf_inputs : list (bytes * input_config);
  cf_indexes : list (bytes * index_config);
  cf_services : list (bytes * service_config);
  cf_outputs : list (bytes * output_config);
}.

(** pkg/config/config.go:68-74 (parsers), 75-81, 82-88, 89-95, 96-102 *)
Fixpoint collect_named {A} (name : A -> bytes) (dup : err) (l : list (option A)) (m : list (bytes * A)) : res (list (bytes * A)) :=
  match l with
  | [] => Ok m
  | None :: _ => Panic
  | Some a :: l' =>
    match mget m (name a) with
    | Some _ => Err dup
    | None => collect_named name dup l' (mset m (name a) a)
    end
  end.

(** pkg/config/config.go:59-105 *)
Definition config_of_parsed (p : parsed) : res config :=
  rlet ps := collect_named parser_name (EMsg "Duplicate name for parser.") (pd_parsers p) [] in
  rlet is := collect_named input_name (EMsg "Duplicate name for input.") (pd_inputs p) [] in
  rlet xs := collect_named index_name (EMsg "Duplicate name for index.") (pd_indexes p) [] in
  rlet ss := collect_named sc_name (EMsg "Duplicate name for service.") (pd_services p) [] in
  rlet os := collect_named output_name (EMsg "Duplicate name for output.") (pd_outputs p) [] in
  Ok (mkConfig ps is xs ss os).

(** pkg/config/config.go:117-138 *)
Definition default_parsers : list parser_config :=
  [CString (lit "string") [];
   CInteger (lit "integer") [];
   CFloat (lit "float") (lit ".") [];
   CBoolean (lit "boolean") [lit "true"; lit "1"; lit "TRUE"] [lit "false"; lit "0"; lit "FALSE"];
   CJson (lit "json")].

(** pkg/config/config.go:111-115, 139-145 *)
Definition add_default {A} (name : A -> bytes) (m : list (bytes * A)) (a : A) : list (bytes * A) :=
  match mget m (name a) with Some _ => m | None => mset m (name a) a end.

(** pkg/config/config.go:107-146 *)
Definition add_defaults (c : config) : config :=
  mkConfig (fold_left (add_default parser_name) default_parsers (cf_parsers c))
           (cf_inputs c)
           (add_default index_name (cf_indexes c) (CNoop (lit "default")))
           (cf_services c) (cf_outputs c).

(** *** Validated objects *)

(** Only what is used afterwards. *)
Inductive vinput :=
| VCsv (path : bytes) (die ignore_first autodetect : bool) (delimiter : bytes) (columns : list (bytes * bytes))
| VJsonFile (path : bytes) (die : bool)
| VXml (path : bytes) (die : bool) (props : list xprop) (record_xpath : bytes).

Inductive vindex :=
| VIMap (input : bytes) (props : list bytes)
| VIWildcard (path input : bytes) (props : list bytes) (ignore_case : bool)
| VISqlite (dsn input : bytes) (props : list (bytes * bytes))
| VIFts5 (dsn input : bytes) (prefix : list Z) (tokenize : bytes) (props : list bytes)
| VINoop.

Inductive voutput := VGraphql | VOutput (o : output).

Record vservice := mkVService {
  vs_http : option bytes;
  vs_https : option (bytes * bytes * bytes);
  vs_routes : list (bytes * bytes); (* output, path *)
}.

Record vconfig := mkVConfig {
  vc_parsers : list (bytes * pconfig);
  vc_inputs : list (bytes * vinput);
  vc_indexes : list (bytes * vindex);
  vc_services : list (bytes * vservice);
  vc_outputs : list (bytes * voutput);
}.

(** *** Validation *)

(** os.Stat: a file, a directory, an error for which os.IsNotExist holds, any
    other error. *)
Inductive stat_result := SFile | SDir | SNotExist | SError.

Definition is_nil {A} (l : list A) : bool := match l with [] => true | _ :: _ => false end.
Definition or_default (s d : bytes) : bytes := match s with [] => d | _ :: _ => s end.
Definition or_bool (b : option bool) (d : bool) : bool := match b with Some b => b | None => d end.
Definition known {A} (m : list (bytes * A)) (k : bytes) : bool := match mget m k with Some _ => true | None => false end.

(** [for i, x := range l { Validate(x); if seen[key(x)] { error }; seen[key(x)] = true }];
    Validate on a nil pointer panics. *)
Definition validate_items {A B} (f : A -> res B) (key : B -> bytes) (dup : err) : list bytes -> list (option A) -> res (list B) :=
  fix go (seen : list bytes) (l : list (option A)) : res (list B) :=
    match l with
    | [] => Ok []
    | None :: _ => Panic
    | Some a :: l' =>
      rlet b := f a in
      if existsb (bytes_eqb (key b)) seen then Err dup
      else rlet bs := go (key b :: seen) l' in Ok (b :: bs)
    end.

(** [for name, x := range m { Validate(x) }] *)
Definition validate_entries {A B} (f : bytes -> A -> res B) : list (bytes * option A) -> res (list (bytes * B)) :=
  fix go (l : list (bytes * option A)) : res (list (bytes * B)) :=
    match l with
    | [] => Ok []
    | (_, None) :: _ => Panic
    | (n, Some a) :: l' => rlet b := f n a in rlet bs := go l' in Ok ((n, b) :: bs)
    end.

(** The same for the maps of the configuration, whose values are not nil. *)
Definition validate_all {A B} (f : A -> res B) (l : list (bytes * A)) : res (list (bytes * B)) :=
  validate_entries (fun _ => f) (map (fun na => (fst na, Some (snd na))) l).

(** [for _, propertyName := range config.Properties { duplicate? }]
    (map_config.go:30-36, wildcard_config.go:49-55, fts5_config.go:49-55) *)
Definition check_distinct (props : list bytes) : res (list bytes) :=
  validate_items Ok (fun p => p) (EMsg "Duplicate property in array.") [] (map Some props).

(** strings.ToUpper: byte by byte if all bytes are ASCII, else rune by rune with
    unicode.ToUpper (invalid bytes become RuneError). *)
Definition ascii_upper (b : byte) : byte := if in_range 97 122 b then byte_of_Z (Z_of_byte b - 32) else b.
Definition to_upper (rune_upper : Z -> Z) (s : bytes) : bytes :=
  if forallb (in_range 0 127) s then map ascii_upper s
  else flat_map (fun r => encode_rune (rune_upper r)) (runes s).

Section Validate.
Variable stat : bytes -> stat_result.
(** regexp.Compile and xpath.Compile: whether they succeed *)
Variable regexp_ok : bytes -> bool.
Variable xpath_ok : bytes -> bool.
(** strings.ToUpper *)
Variable upper : bytes -> bytes.

(** pkg/parser: Validate of string_config.go:15-25, integer_config.go:15-23,
    float_config.go:16-28, boolean_config.go:16-31, json_config.go:14-22,
    split_config.go:35-66. *)
Definition validate_parser (parsers : list (bytes * parser_config)) (c : parser_config) : res pconfig :=
  if is_nil (parser_name c) then Err (EMsg "name is required") else
  match c with
  | CString _ charset => Ok (PString charset)
  | CInteger _ ignore => Ok (PInteger ignore)
  | CFloat _ sep ignore => if is_nil sep then Err (EMsg "float.decimalSeparator is required") else Ok (PFloat sep ignore)
  | CBoolean _ trues falses =>
    if is_nil trues then Err (EMsg "boolean.trueValues is required")
    else if is_nil falses then Err (EMsg "boolean.falseValues is required")
    else Ok (PBoolean trues falses)
  | CJson _ => Ok PJson
  | CSplit _ delimiter is_regexp sub =>
    match delimiter with
    | None => Err (EMsg "split.delimiter is required")
    | Some d =>
      let is_regexp := or_bool is_regexp false in
      if is_regexp && negb (regexp_ok d) then Err (EMsg "split.delimiter: Error while parsing regexp")
      else if known parsers sub then Ok (PSplit d is_regexp sub)
      else Err (EMsg "Parser not found in parsers list.")
    end
  end.

(** pkg/parser/*_config.go: Primitive *)
Definition config_primitive (c : parser_config) : bool :=
  match c with CJson _ | CSplit _ _ _ _ => false | _ => true end.

(** [fileInfo, err := os.Stat(path); if os.IsNotExist(err) {error}; if fileInfo.IsDir() {error}]
    (csv_config.go:66-72, json_config.go:39-45, xml_config.go:70-76,
    http_config.go:108-114, 119-125): after any other error fileInfo is nil and
    the method call panics. *)
Definition check_file (path : bytes) : res unit :=
  match stat path with
  | SNotExist => Err (EMsg "The file does not exist")
  | SError => Panic
  | SDir => Err (EMsg "The path is not a file")
  | SFile => Ok tt
  end.

(** pkg/input/csv_config.go:100-116 *)
Definition validate_column (parsers : list (bytes * parser_config)) (c : bytes * bytes) : res (bytes * bytes) :=
  if is_nil (fst c) then Err (EMsg "name is required") else
  let p := or_default (snd c) (lit "string") in
  if known parsers p then Ok (fst c, p) else Err (EMsg "Parser not found in parsers list.").

(** pkg/input/xml_config.go:94-180 *)
Fixpoint validate_xml (parsers : list (bytes * parser_config)) (name_required : bool) (c : xml_prop) : res xprop :=
  match c with
  | mkXmlProp name type parser xpath items props =>
    if name_required && is_nil name then Err (EMsg "name is required") else
    if negb (xpath_ok xpath) then Err (EMsg "xpath: Invalid xpath expression") else
    let type := or_default type (lit "primitive") in
    if bytes_eqb type (lit "primitive") then
      let parser := or_default parser (lit "string") in
      if negb (known parsers parser) then Err (EMsg "Parser not found in parsers list.") else
      match items with
      | Some _ => Err (EMsg "items can only be used on array properties.")
      | None =>
        if negb (is_nil props) then Err (EMsg "properties can only be used on object properties.")
        else Ok (XPrimitive name xpath parser)
      end
    else if bytes_eqb type (lit "array") then
      if negb (is_nil parser) then Err (EMsg "parser specified, but the property is not a primitive.") else
      if negb (is_nil props) then Err (EMsg "properties can only be used on object properties.") else
      match items with
      | None => Err (EMsg "items is required for arrays.")
      | Some i => rlet i := validate_xml parsers false i in Ok (XArray name xpath i)
      end
    else if bytes_eqb type (lit "object") then
      if negb (is_nil parser) then Err (EMsg "parser specified, but the property is not a primitive.") else
      match items with
      | Some _ => Err (EMsg "items can only be used on array properties.")
      | None =>
        if is_nil props then Err (EMsg "properties is required for objects.") else
        rlet ps := validate_items (validate_xml parsers true) x_name (EMsg "Property names must be unique.") [] props in
        Ok (XObject name xpath ps)
      end
    else Err (EMsg "type is invalid.")
  end.

(** pkg/input: Validate of csv_config.go:37-98, json_config.go:26-48,
    xml_config.go:48-92.  The delimiter is at most one byte long. *)
Definition validate_input (parsers : list (bytes * parser_config)) (c : input_config) : res vinput :=
  if is_nil (input_name c) then Err (EMsg "name is required") else
  match c with
  | CCsv _ path die ignore_first autodetect delimiter columns =>
    if autodetect && negb (is_nil columns) then Err (EMsg "autodetectColumns must not define columns.") else
    if negb autodetect && is_nil columns then Err (EMsg "A csv input must have at least one column") else
    rlet _ := check_file path in
    let delimiter := or_default delimiter (lit ",") in
    if 1 <? zlen delimiter then Err (EMsg "csv.delimiter must be a single character") else
    rlet cs := validate_items (validate_column parsers) fst (EMsg "Column names must be unique.") [] columns in
    Ok (VCsv path (or_bool die true) ignore_first autodetect delimiter cs)
  | CJsonFile _ path die => rlet _ := check_file path in Ok (VJsonFile path (or_bool die true))
  | CXml _ path die props record_xpath =>
    if negb (xpath_ok record_xpath) then Err (EMsg "recordXpath: Invalid xpath expression") else
    if is_nil props then Err (EMsg "An xml input must have at least one property") else
    rlet _ := check_file path in
    rlet ps := validate_items (validate_xml parsers true) x_name (EMsg "Property names must be unique.") [] props in
    Ok (VXml path (or_bool die true) ps record_xpath)
  end.

(** pkg/index/sqlite_config.go:12 *)
Definition collations : list bytes := [lit "BINARY"; lit "NOCASE"; lit "RTIRM"].

(** pkg/index/sqlite_config.go:88-98 *)
Definition validate_collate (s : bytes) : res bytes :=
  let s := match s with [] => lit "BINARY" | _ :: _ => upper s end in
  if is_in_array s collations then Ok s else Err (EMsg "collate value is invalid.").

(** pkg/index/sqlite_config.go:83-101 *)
Definition validate_sqlite_property (p : bytes * bytes) : res (bytes * bytes) :=
  if is_nil (fst p) then Err (EMsg "name is required") else
  rlet c := validate_collate (snd p) in Ok (fst p, c).

(** pkg/index: Validate of map_config.go:18-41, wildcard_config.go:25-65,
    sqlite_config.go:28-61, fts5_config.go:23-60, noop_config.go:15-23. *)
Definition check_input (inputs : list (bytes * input_config)) (name : bytes) : res unit :=
  if known inputs name then Ok tt else Err (EMsg "Input not found in inputs list.").
Definition validate_index (inputs : list (bytes * input_config)) (c : index_config) : res vindex :=
  if is_nil (index_name c) then Err (EMsg "name is required") else
  match c with
  | CMap _ input props =>
    rlet _ := check_input inputs input in
    rlet ps := check_distinct props in Ok (VIMap input ps)
  | CWildcard _ path input props ignore_case =>
    if is_nil path then Err (EMsg "wildcard.path is required") else
    rlet _ := match stat path with
              | SError => Err (EMsg "wildcard.path: Error checking the path")
              | SDir => Err (EMsg "wildcard.path: This path already exists and is a directory")
              | SFile | SNotExist => Ok tt
              end in
    rlet _ := check_input inputs input in
    rlet ps := check_distinct props in
    Ok (VIWildcard path input ps (or_bool ignore_case false))
  | CSqlite _ dsn input props =>
    if is_nil dsn then Err (EMsg "sqlite.dsn is required") else
    rlet _ := check_input inputs input in
    rlet ps := validate_items validate_sqlite_property fst (EMsg "Duplicate property in array.") [] props in
    Ok (VISqlite dsn input ps)
  | CFts5 _ dsn input prefix tokenize props =>
    if is_nil dsn then Err (EMsg "sqlite.dsn is required") else
    rlet _ := check_input inputs input in
    rlet ps := check_distinct props in
    Ok (VIFts5 dsn input prefix (or_default tokenize (lit "unicode61")) ps)
  | CNoop _ => Ok VINoop
  end.

(** pkg/service/http_config.go:100-128 *)
Definition validate_https (h : bytes * bytes * bytes) : res (bytes * bytes * bytes) :=
  let '(listen, certificate, key) := h in
  if is_nil certificate then Err (EMsg "certificatePath: This field is required") else
  rlet _ := check_file certificate in
  if is_nil key then Err (EMsg "privateKeyFile: This field is required") else
  rlet _ := check_file key in
  Ok (or_default listen (lit "127.0.0.1:0"), certificate, key).

(** pkg/service/http_config.go:130-145 *)
Definition validate_route (outputs : list (bytes * output_config)) (r : bytes * bytes) : res (bytes * bytes) :=
  if is_nil (fst r) then Err (EMsg "output is empty. This field is required") else
  if is_nil (snd r) then Err (EMsg "path is empty. This field is required") else
  if known outputs (fst r) then Ok r else Err (EMsg "Output not found in outputs list.").

(** pkg/service/http_config.go:41-98 *)
Definition validate_service (outputs : list (bytes * output_config)) (c : service_config) : res vservice :=
  if is_nil (sc_name c) then Err (EMsg "http.name is required") else
  let errors_type := or_default (sc_errors_type c) (lit "application/json") in
  match sc_https c, sc_http c with
  | None, None => Err (EMsg "At least one of the http or https property is required.")
  | _, _ =>
    rlet https := match sc_https c with
                  | None => Ok None
                  | Some h => rlet h := validate_https h in Ok (Some h)
                  end in
    if is_nil (sc_routes c) then Err (EMsg "routes is empty.") else
    rlet rs := validate_items (validate_route outputs) snd (EMsg "Duplicate path in array.") [] (sc_routes c) in
    if is_in_array errors_type [lit "application/json"]
    then Ok (mkVService (match sc_http c with None => None | Some l => Some (or_default l (lit "127.0.0.1:0")) end) https rs)
    else Err (EMsg "http.errorsType: type is not supported.")
  end.

(** pkg/index/*_config.go: DoesHandleProperty and DoesHandleInput (map 47-61,
    wildcard 71-85, sqlite 67-81, fts5 66-72, noop 29-35).  Null properties of an
    SQLite index are never reached: its validation comes first. *)
Definition handles_property (c : index_config) (p : bytes) : bool :=
  match c with
  | CMap _ _ props | CWildcard _ _ _ props _ => existsb (bytes_eqb p) props
  | CSqlite _ _ _ props => existsb (fun o => match o with Some q => bytes_eqb p (fst q) | None => false end) props
  | CFts5 _ _ _ _ _ _ => bytes_eqb p (lit "match")
  | CNoop _ => true
  end.
Definition handles_input (c : index_config) (input : bytes) : bool :=
  match c with
  | CMap _ i _ | CWildcard _ _ i _ _ | CSqlite _ _ i _ | CFts5 _ _ i _ _ _ => bytes_eqb input i
  | CNoop _ => true
  end.

(** pkg/output/parameter/config.go:31-41, pkg/output/relationship/config.go:96-110 *)
Definition check_index (indexes : list (bytes * index_config)) (index input property : bytes) : res unit :=
  match mget indexes index with
  | None => Err (EMsg "Index not found in indexes list.")
  | Some c =>
    if negb (handles_input c input) then Err (EMsg "Index does not handle input.")
    else if negb (handles_property c property) then Err (EMsg "Index does not handle property.")
    else Ok tt
  end.

(** pkg/output/parameter/config.go:18-58 *)
Definition validate_param (indexes : list (bytes * index_config)) (parsers : list (bytes * parser_config)) (input : bytes) (p : param) : res param :=
  if is_nil (pm_property p) then Err (EMsg "property is empty") else
  let index := or_default (pm_index p) (lit "default") in
  rlet _ := check_index indexes index input (pm_property p) in
  let parser := or_default (pm_parser p) (lit "string") in
  match mget parsers parser with
  | None => Err (EMsg "Parser not found in parsers list.")
  | Some c =>
    if config_primitive c then Ok (mkParam (pm_property p) index parser)
    else Err (EMsg "The parser is not a primitive type and cannot be used as a parameter.")
  end.

(** pkg/output/relationship/config.go:88-113 *)
Definition validate_match (indexes : list (bytes * index_config)) (input : bytes) (m : bytes * bytes * bytes) : res (bytes * bytes * bytes) :=
  let '(parent, child, index) := m in
  let index := or_default index (lit "default") in
  rlet _ := check_index indexes index input child in Ok (parent, child, index).

(** pkg/output/relationship/config.go:26-86 *)
Fixpoint validate_relationship (indexes : list (bytes * index_config)) (inputs : list (bytes * input_config)) (c : raw_relationship) : res relationship :=
  match c with
  | mkRawRel input is_array limit sort ms children =>
    if negb (is_nil sort) && negb is_array then Err (EMsg "sort: You can only sort a relationship when isArray = 'true'.") else
    rlet _ := check_input inputs input in
    rlet sort := validate_items (fun s : bytes * option bool => Ok (fst s, or_bool (snd s) true)) fst
                   (EMsg "sort: property is used twice for sorting") [] sort in
    if is_nil ms then Err (EMsg "match: Cannot define a relationship without matched properties.") else
    rlet ms := validate_items (validate_match indexes input) (fun m => snd (fst m)) (EMsg "Duplicate filter on childProperty") [] ms in
    rlet children := validate_entries (fun _ => validate_relationship indexes inputs) children in
    Ok (mkRel input is_array limit sort ms children)
  end.

(** pkg/output: Validate of graphql_config.go:21-34, json_array_config.go:39-121,
    json_object_config.go:27-66. *)
Definition validate_output (inputs : list (bytes * input_config)) (indexes : list (bytes * index_config))
  (parsers : list (bytes * parser_config)) (c : output_config) : res voutput :=
  match c with
  | CGraphql name => if is_nil name then Err (EMsg "name is required") else Ok VGraphql
  | CArray name input default max limit_param offset_param params rels =>
    if is_nil name then Err (EMsg "name is required") else
    if is_nil input then Err (EMsg "input is empty. This field is required.") else
    rlet _ := check_input inputs input in
    let default := if default =? 0 then 100 else default in
    let max := if max =? 0 then 1000 else max in
    if max <? default then Err (EMsg "default is higher than the max value.") else
    let limit_param := or_default limit_param (lit "limit") in
    let offset_param := or_default offset_param (lit "offset") in
    rlet params := validate_entries (fun n p =>
        rlet p := validate_param indexes parsers input p in
        if bytes_eqb n limit_param then Err (EMsg "Parameter is already used for the limit") else
        if bytes_eqb n offset_param then Err (EMsg "Parameter is already used for the offset") else
        Ok p) params in
    rlet rels := validate_entries (fun _ => validate_relationship indexes inputs) rels in
    Ok (VOutput (OArray (mkArray input default max limit_param offset_param params rels)))
  | CObject name input params rels =>
    if is_nil name then Err (EMsg "name is required") else
    if is_nil params then Err (EMsg "jsonObject.parameters is empty. As least one is required.") else
    if is_nil input then Err (EMsg "input is empty. This field is required.") else
    rlet _ := check_input inputs input in
    rlet params := validate_entries (fun _ => validate_param indexes parsers input) params in
    rlet rels := validate_entries (fun _ => validate_relationship indexes inputs) rels in
    Ok (VOutput (OObject (mkObject input params rels)))
  end.

(** pkg/config/config.go:148-180 *)
Definition validate (c : config) : res vconfig :=
  rlet ps := validate_all (validate_parser (cf_parsers c)) (cf_parsers c) in
  rlet is := validate_all (validate_input (cf_parsers c)) (cf_inputs c) in
  rlet xs := validate_all (validate_index (cf_inputs c)) (cf_indexes c) in
  rlet ss := validate_all (validate_service (cf_outputs c)) (cf_services c) in
  rlet os := validate_all (validate_output (cf_inputs c) (cf_indexes c) (cf_parsers c)) (cf_outputs c) in
  Ok (mkVConfig ps is xs ss os).

(** pkg/config/config.go:45-56 *)
Definition load (p : parsed) : res vconfig :=
  rlet c := config_of_parsed p in validate (add_defaults c).
End Validate.
