(** The documented format of configuration files: the JSON schema of docs/schema, as
    data, and the documents which conform to it.

    The YAML document is taken as the JSON document that a validator sees: the keys
    are strings, an integer is a number written without a fraction. *)
From Coq Require Import List ZArith Bool String.
From Coq Require Import Strings.Byte.
From Verif Require Import Base Value Codec Config Yaml.
Import ListNotations.
Open Scope Z_scope.

(** The parts of the schema which are referred to by themselves. *)
Inductive part := PProperty | PRelationships.

Inductive schema :=
| JString                                    (* type: string *)
| JConst (s : string)                        (* const *)
| JEnum (l : list string)                    (* type: string, enum *)
| JBoolean                                   (* type: boolean *)
| JInteger (min : option Z)                  (* type: integer, minimum *)
| JArray (min : nat) (items : schema)        (* type: array, minItems, items *)
| JObject (required : list (list string)) (props : list (string * schema))
                                             (* type: object, additionalProperties: false; of each list of names one is required *)
| JDict (values : schema)                    (* type: object, additionalProperties *)
| JAnyObject                                 (* type: object *)
| JAnyArray                                  (* type: array *)
| JPart (p : part).

Section Published.
(** Whether the schema is the published one; otherwise it is the one that the
    descriptions explain: nested properties and relationships have the same
    definition as the others, and the type of an array output is jsonArray. *)
Variable published : bool.

(** docs/schema/inputs/xml.yaml:50-112 (the items of properties).  The items of an
    array need no name. *)
Definition property_attributes : list (string * schema) :=
  [("name", JString); ("type", JEnum ["primitive"; "array"; "object"]); ("xpath", JString); ("parser", JString);
   ("items", if published then JAnyObject else JPart PProperty);
   ("properties", if published then JAnyArray else JArray 0 (JPart PProperty))]%string.
Definition property : schema := JObject [["name"]; ["xpath"]]%string property_attributes.

(** docs/schema/outputs/definitions/parameters.yaml *)
Definition parameters : schema :=
  JDict (JObject [["property"]] [("property", JString); ("index", JString); ("parser", JString)])%string.

(** docs/schema/outputs/definitions/relationships.yaml *)
Definition relationships : schema :=
  JDict (JObject [["input"]; ["match"]]
    [("input", JString); ("isArray", JBoolean); ("limit", JInteger (Some 1));
     ("sort", JArray 0 (JObject [["property"]] [("property", JString); ("ascending", JBoolean)]));
     ("match", JArray 1 (JObject [["parentProperty"]; ["childProperty"]]
                 [("parentProperty", JString); ("childProperty", JString); ("childIndex", JString)]));
     ("relationships", if published then JAnyObject else JPart PRelationships)])%string.

Definition part_schema (p : part) : schema :=
  match p with PProperty => JObject [] property_attributes | PRelationships => relationships end.

(** docs/schema/parsers *)
Definition parser_schemas : list schema :=
  [ (* integer.yaml *)
    JObject [["name"]; ["type"]] [("name", JString); ("type", JConst "integer"); ("ignoreCharacters", JString)];
    (* float.yaml *)
    JObject [["name"]; ["type"]; ["decimalSeparator"]]
      [("name", JString); ("type", JConst "float"); ("decimalSeparator", JString); ("ignoreCharacters", JString)];
    (* boolean.yaml *)
    JObject [["name"]; ["type"]; ["trueValues"]; ["falseValues"]]
      [("name", JString); ("type", JConst "boolean"); ("trueValues", JArray 1 JString); ("falseValues", JArray 1 JString)];
    (* string.yaml *)
    JObject [["name"]; ["type"]] [("name", JString); ("type", JConst "string"); ("convertFromCharset", JString)];
    (* split.yaml *)
    JObject [["name"]; ["type"]; ["delimiter"]; ["parser"]]
      [("name", JString); ("type", JConst "split"); ("delimiter", JString); ("delimiterIsRegexp", JBoolean); ("parser", JString)];
    (* json.yaml *)
    JObject [["name"]; ["type"]] [("name", JString); ("type", JConst "json")] ]%string.

(** docs/schema/inputs *)
Definition input_schemas : list schema :=
  [ (* csv.yaml *)
    JObject [["name"]; ["type"]; ["path"]]
      [("name", JString); ("type", JConst "csv"); ("path", JString); ("delimiter", JString); ("autodetectColumns", JBoolean);
       ("ignoreFirstRow", JBoolean); ("columns", JArray 1 (JObject [["name"]] [("name", JString); ("parser", JString)]));
       ("dieOnInputChange", JBoolean)];
    (* json.yaml *)
    JObject [["name"]; ["type"]; ["path"]]
      [("name", JString); ("type", JConst "json"); ("path", JString); ("dieOnInputChange", JBoolean)];
    (* xml.yaml *)
    JObject [["name"]; ["type"]; ["path"]; ["recordXpath"]; ["properties"]]
      [("name", JString); ("type", JConst "xml"); ("path", JString); ("recordXpath", JString); ("properties", JArray 1 property);
       ("dieOnInputChange", JBoolean)] ]%string.

(** docs/schema/indexes *)
Definition index_schemas : list schema :=
  [ (* map.yaml *)
    JObject [["name"]; ["type"]; ["input"]; ["properties"]]
      [("name", JString); ("type", JConst "map"); ("input", JString); ("properties", JArray 1 JString)];
    (* sqlite.yaml *)
    JObject [["name"]; ["type"]; ["dsn"]; ["input"]; ["properties"]]
      [("name", JString); ("type", JConst "sqlite"); ("dsn", JString); ("input", JString);
       ("properties", JArray 1 (JObject [["name"]] [("name", JString); ("collate", JEnum ["binary"; "nocase"; "rtrim"])]))];
    (* fts5.yaml *)
    JObject [["name"]; ["type"]; ["dsn"]; ["input"]; ["properties"]]
      [("name", JString); ("type", JConst "fts5"); ("dsn", JString); ("input", JString); ("prefix", JArray 0 (JInteger None));
       ("tokenize", JString); ("properties", JArray 1 JString)];
    (* wildcard.yaml *)
    JObject [["name"]; ["type"]; ["path"]; ["input"]; ["properties"]]
      [("name", JString); ("type", JConst "wildcard"); ("path", JString); ("input", JString); ("ignoreCase", JBoolean);
       ("properties", JArray 1 JString)];
    (* noop.yaml *)
    JObject [["name"]; ["type"]] [("name", JString); ("type", JConst "noop")] ]%string.

(** docs/schema/outputs *)
Definition output_schemas : list schema :=
  [ (* json-object.yaml *)
    JObject [["name"]; ["type"]; ["input"]; ["parameters"]]
      [("name", JString); ("type", JConst "jsonObject"); ("input", JString); ("parameters", parameters); ("relationships", relationships)];
    (* json-array.yaml; line 57 for the type *)
    JObject [["name"]; ["type"]; ["input"]; ["parameters"]]
      [("name", JString); ("type", JConst (if published then "jsonObject" else "jsonArray")); ("input", JString);
       ("limit", JObject [] [("default", JInteger (Some 1)); ("max", JInteger (Some 1)); ("parameter", JString)]);
       ("offset", JObject [] [("parameter", JString)]);
       ("parameters", parameters); ("relationships", relationships)] ]%string.

(** docs/schema/services/http.yaml *)
Definition service_schemas : list schema :=
  [ JObject [["name"]; ["type"]; ["routes"]; ["http"; "https"]]
      [("name", JString); ("type", JConst "http"); ("http", JObject [] [("listen", JString)]);
       ("https", JObject [["certificatePath"]; ["privateKeyPath"]]
          [("listen", JString); ("certificatePath", JString); ("privateKeyPath", JString)]);
       ("errorsType", JEnum ["application/json"]);
       ("routes", JArray 1 (JObject [["output"]; ["path"]] [("path", JString); ("output", JString)]))] ]%string.

(** docs/schema/config.yaml; the items of a section conform to one of its schemas. *)
Definition section_schemas : list (string * list schema) :=
  [("parsers", parser_schemas); ("inputs", input_schemas); ("indexes", index_schemas); ("outputs", output_schemas); ("services", service_schemas)]%string.

(** *** Conformity *)

Definition one_of (l : list string) (t : bytes) : bool := existsb (fun s => bytes_eqb (lit s) t) l.
Definition named {A} (l : list (string * A)) (t : bytes) : option A := mget (map (fun p => (lit (fst p), snd p)) l) t.
(** The names of the members of an object. *)
Definition string_key (n : node) : option bytes := match n with YScalar t RText => Some t | _ => None end.
Fixpoint distinct (l : list bytes) : bool :=
  match l with
  | [] => true
  | x :: l' => negb (existsb (bytes_eqb x) l') && distinct l'
  end.
Definition keys (m : list (node * node)) : option (list bytes) :=
  fold_right (fun kn o => match string_key (fst kn), o with Some k, Some ks => Some (k :: ks) | _, _ => None end) (Some []) m.

Definition resolve (s : schema) : schema := match s with JPart p => part_schema p | _ => s end.

Fixpoint conforms (s : schema) (n : node) {struct n} : bool :=
  match resolve s with
  | JString => match n with YScalar _ RText => true | _ => false end
  | JConst c => match n with YScalar t RText => bytes_eqb t (lit c) | _ => false end
  | JEnum l => match n with YScalar t RText => one_of l t | _ => false end
  | JBoolean => match n with YScalar _ (RBool _) => true | _ => false end
  | JInteger min => match n with YScalar _ (RInt z) => match min with Some k => k <=? z | None => true end | _ => false end
  | JArray k s' => match n with YSeq l => (k <=? List.length l)%nat && forallb (conforms s') l | _ => false end
  | JObject required props =>
    match n with
    | YMap m =>
      match keys m with
      | None => false
      | Some ks =>
        distinct ks && forallb (fun r => existsb (fun k => one_of r k) ks) required &&
        forallb (fun kn => match string_key (fst kn) with
                           | Some k => match named props k with Some s' => conforms s' (snd kn) | None => false end
                           | None => false
                           end) m
      end
    | _ => false
    end
  | JDict s' =>
    match n with
    | YMap m =>
      match keys m with
      | None => false
      | Some ks => distinct ks && forallb (fun kn => conforms s' (snd kn)) m
      end
    | _ => false
    end
  | JAnyObject => match n with YMap _ => true | _ => false end
  | JAnyArray => match n with YSeq _ => true | _ => false end
  | JPart _ => false
  end.

Definition conforms_document (n : node) : bool :=
  match n with
  | YMap m =>
    match keys m with
    | None => false
    | Some ks =>
      distinct ks &&
      forallb (fun kn => match string_key (fst kn) with
                         | Some k => match named section_schemas k, snd kn with
                                     | Some ss, YSeq l => forallb (fun n' => existsb (fun s => conforms s n') ss) l
                                     | _, _ => false
                                     end
                         | None => false
                         end) m
    end
  | _ => false
  end.
End Published.

(** The integers of a document are in the range of Go's int. *)
Fixpoint machine_integers (n : node) : bool :=
  match n with
  | YScalar _ (RInt z) => (- 2 ^ 63 <=? z) && (z <? 2 ^ 63)
  | YScalar _ _ => true
  | YSeq l => forallb machine_integers l
  | YMap m => forallb (fun kn => machine_integers (snd kn)) m
  end.
