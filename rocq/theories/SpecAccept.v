(** The rules for configurations (C66): which decoded objects make a configuration that
    can be used.  Only the types of the decoded objects are shared with Config.v. *)
From Coq Require Import List ZArith Bool String Permutation.
From Coq Require Import Strings.Byte.
From Verif Require Import Base Value Output Config.
Import ListNotations.
Open Scope Z_scope.

(** A list of present objects which keep a rule and have different keys. *)
Definition items {A} (rule : A -> Prop) (key : A -> bytes) (l : list (option A)) : Prop :=
  exists xs, l = map Some xs /\ Forall rule xs /\ NoDup (map key xs).
(** The same for a map, whose keys are different anyway. *)
Definition entries {A} (rule : bytes -> A -> Prop) (l : list (bytes * option A)) : Prop :=
  exists xs, l = map (fun nx => (fst nx, Some (snd nx))) xs /\ Forall (fun nx => rule (fst nx) (snd nx)) xs.

(** A setting, or what stands for it when it is omitted. *)
Definition given (s default : bytes) : bytes := match s with [] => default | _ :: _ => s end.

Section Rules.
(** The files; the regular expressions and XPaths that compile; capital letters. *)
Variable stat : bytes -> stat_result.
Variable regexp_ok xpath_ok : bytes -> bool.
Variable upper : bytes -> bytes.
(** The whole configuration. *)
Variable p : parsed.

(** *** The objects that can be named *)
Definition user_parser (n : bytes) (c : parser_config) : Prop := In (Some c) (pd_parsers p) /\ parser_name c = n.
Definition parser_exists (n : bytes) : Prop :=
  (exists c, user_parser n c) \/ In n [lit "string"; lit "integer"; lit "float"; lit "boolean"; lit "json"].
(** It gives a single value: neither JSON nor a list. *)
Definition single (c : parser_config) : Prop :=
  match c with CString _ _ | CInteger _ _ | CFloat _ _ _ | CBoolean _ _ _ => True | CJson _ | CSplit _ _ _ _ => False end.
Definition single_parser (n : bytes) : Prop :=
  (exists c, user_parser n c /\ single c) \/
  ((forall c, ~ user_parser n c) /\ In n [lit "string"; lit "integer"; lit "float"; lit "boolean"]).
Definition input_exists (n : bytes) : Prop := exists c, In (Some c) (pd_inputs p) /\ input_name c = n.
Definition output_exists (n : bytes) : Prop := exists c, In (Some c) (pd_outputs p) /\ output_name c = n.

(** The index can search the property of the input. *)
Definition searches (c : index_config) (input property : bytes) : Prop :=
  match c with
  | CMap _ i props | CWildcard _ _ i props _ => i = input /\ In property props
  | CSqlite _ _ i props => i = input /\ exists collate, In (Some (property, collate)) props
  | CFts5 _ _ i _ _ _ => i = input /\ property = lit "match"
  | CNoop _ => True
  end.
Definition index_fits (n input property : bytes) : Prop :=
  (exists c, In (Some c) (pd_indexes p) /\ index_name c = n /\ searches c input property) \/
  (n = lit "default" /\ forall c, In (Some c) (pd_indexes p) -> index_name c <> n).

(** *** The rules of each kind *)
Definition parser_rule (c : parser_config) : Prop :=
  parser_name c <> [] /\
  match c with
  | CString _ _ | CInteger _ _ | CJson _ => True
  | CFloat _ separator _ => separator <> []
  | CBoolean _ trues falses => trues <> [] /\ falses <> []
  | CSplit _ delimiter is_regexp sub => (exists d, delimiter = Some d /\ (is_regexp = Some true -> regexp_ok d = true)) /\ parser_exists sub
  end.

Definition is_file (path : bytes) : Prop := stat path = SFile.

Definition column_rule (c : bytes * bytes) : Prop := fst c <> [] /\ parser_exists (given (snd c) (lit "string")).

(** [named]: whether it needs a name. *)
Inductive xml_rule (named : bool) : xml_prop -> Prop :=
| xml_primitive name type parser xpath :
    (named = true -> name <> []) -> xpath_ok xpath = true -> type = [] \/ type = lit "primitive" ->
    parser_exists (given parser (lit "string")) -> xml_rule named (mkXmlProp name type parser xpath None [])
| xml_array name xpath items :
    (named = true -> name <> []) -> xpath_ok xpath = true -> xml_rule false items ->
    xml_rule named (mkXmlProp name (lit "array") [] xpath (Some items) [])
| xml_object name xpath members :
    (named = true -> name <> []) -> xpath_ok xpath = true -> members <> [] -> NoDup (map xp_name members) -> Forall (xml_rule true) members ->
    xml_rule named (mkXmlProp name (lit "object") [] xpath None (map Some members)).

Definition input_rule (c : input_config) : Prop :=
  input_name c <> [] /\
  match c with
  | CCsv _ path _ _ detect delimiter columns =>
    is_file path /\ (List.length delimiter <= 1)%nat /\ (detect = true <-> columns = []) /\ items column_rule fst columns
  | CJsonFile _ path _ => is_file path
  | CXml _ path _ props record_xpath => is_file path /\ xpath_ok record_xpath = true /\ props <> [] /\ items (xml_rule true) xp_name props
  end.

(** The collations that SQLite indexes take, as they are spelled. *)
Definition collation_rule (s : bytes) : Prop := s = [] \/ In (upper s) [lit "BINARY"; lit "NOCASE"; lit "RTIRM"].

Definition index_rule (c : index_config) : Prop :=
  index_name c <> [] /\
  match c with
  | CMap _ input props => input_exists input /\ NoDup props
  | CWildcard _ path input props _ => path <> [] /\ (stat path = SFile \/ stat path = SNotExist) /\ input_exists input /\ NoDup props
  | CSqlite _ dsn input props => dsn <> [] /\ input_exists input /\ items (fun q => fst q <> [] /\ collation_rule (snd q)) fst props
  | CFts5 _ dsn input _ _ props => dsn <> [] /\ input_exists input /\ NoDup props
  | CNoop _ => True
  end.

Definition service_rule (c : service_config) : Prop :=
  sc_name c <> [] /\ (sc_http c <> None \/ sc_https c <> None) /\
  (forall listen certificate key, sc_https c = Some (listen, certificate, key) -> certificate <> [] /\ is_file certificate /\ key <> [] /\ is_file key) /\
  (sc_errors_type c = [] \/ sc_errors_type c = lit "application/json") /\
  sc_routes c <> [] /\ items (fun r => fst r <> [] /\ snd r <> [] /\ output_exists (fst r)) snd (sc_routes c).

Definition param_rule (input : bytes) (q : param) : Prop :=
  pm_property q <> [] /\ index_fits (given (pm_index q) (lit "default")) input (pm_property q) /\ single_parser (given (pm_parser q) (lit "string")).

Inductive relationship_rule : raw_relationship -> Prop :=
| rel_rule input is_array limit sorts matches children :
    input_exists input -> sorts = [] \/ is_array = true -> NoDup (map fst sorts) ->
    matches <> [] -> NoDup (map (fun m => snd (fst m)) matches) ->
    Forall (fun m => index_fits (given (snd m) (lit "default")) input (snd (fst m))) matches ->
    Forall (fun nc => relationship_rule (snd nc)) children ->
    relationship_rule (mkRawRel input is_array limit (map Some sorts) (map Some matches) (map (fun nc => (fst nc, Some (snd nc))) children)).

(** A limit, or what stands for it when it is omitted (or zero). *)
Definition given_limit (n default : Z) : Z := if n =? 0 then default else n.

Definition output_rule (c : output_config) : Prop :=
  output_name c <> [] /\
  match c with
  | CGraphql _ => True
  | CArray _ input default max limit_param offset_param params rels =>
    input <> [] /\ input_exists input /\ given_limit default 100 <= given_limit max 1000 /\
    entries (fun n q => param_rule input q /\ n <> given limit_param (lit "limit") /\ n <> given offset_param (lit "offset")) params /\
    entries (fun _ => relationship_rule) rels
  | CObject _ input params rels =>
    input <> [] /\ input_exists input /\ params <> [] /\ entries (fun _ => param_rule input) params /\ entries (fun _ => relationship_rule) rels
  end.

Definition acceptable : Prop :=
  items parser_rule parser_name (pd_parsers p) /\ items input_rule input_name (pd_inputs p) /\ items index_rule index_name (pd_indexes p) /\
  items service_rule sc_name (pd_services p) /\ items output_rule output_name (pd_outputs p).
End Rules.

(** The same objects in another order. *)
Definition reordered (p p' : parsed) : Prop :=
  Permutation (pd_parsers p) (pd_parsers p') /\ Permutation (pd_inputs p) (pd_inputs p') /\ Permutation (pd_indexes p) (pd_indexes p') /\
  Permutation (pd_services p) (pd_services p') /\ Permutation (pd_outputs p) (pd_outputs p').
