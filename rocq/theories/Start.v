(** cmd/main.go:49-104: creating parsers, inputs, indexes, outputs and services
    from a validated configuration. *)
From Coq Require Import List ZArith Lia Bool String.
From Coq Require Import Strings.Byte.
From Verif Require Import Base Codec Value GoStrings Parser Output Http Records Regex Route Config.
Import ListNotations.
Open Scope Z_scope.

(** Outcome of a creation: created, failed because nothing has the given name, or
    failed (or panicked) for another reason. *)
Inductive outcome (A : Type) :=
| Done (a : A)
| Missing (name : bytes)
| Fail (e : err)
| Crash.
Arguments Done {A} a.
Arguments Missing {A} name.
Arguments Fail {A} e.
Arguments Crash {A}.

Definition obind {A B} (x : outcome A) (f : A -> outcome B) : outcome B :=
  match x with Done a => f a | Missing n => Missing n | Fail e => Fail e | Crash => Crash end.
Notation "'olet' x ':=' e1 'in' e2" := (obind e1 (fun x => e2))
  (at level 200, x pattern, e1 at level 200, e2 at level 200).

Definition other {A} (r : res A) : outcome A :=
  match r with Ok a => Done a | Err e => Fail e | Panic | NoFuel => Crash end.

Fixpoint omapM {A B} (f : A -> outcome B) (l : list A) : outcome (list B) :=
  match l with
  | [] => Done []
  | x :: l' => olet y := f x in olet ys := omapM f l' in Done (y :: ys)
  end.

(** [x, exists := m[name]; if !exists { return error }] *)
Definition look_up {A} (m : list (bytes * A)) (name : bytes) : outcome A :=
  match mget m name with Some a => Done a | None => Missing name end.

(** [for name, config := range configs { x, err := New(config); ...; list[name] = x }] *)
Definition create_all {A B} (f : A -> outcome B) (l : list (bytes * A)) : outcome (list (bytes * B)) :=
  omapM (fun na => olet b := f (snd na) in Done (fst na, b)) l.

(** Created inputs: the columns of a CSV file with their parsers, the properties
    of an XML file. *)
Inductive sinput :=
| SCsv (columns : list (bytes * pconfig))
| SJsonFile
| SXml (props : list xprop).

Record started := mkStarted {
  st_parsers : list (bytes * pconfig);
  st_inputs : list (bytes * sinput);
  st_indexes : list (bytes * vindex);
  st_outputs : list (bytes * output);
  st_services : list (bytes * list route);
}.

Section Start.
(** Everything that does not look for a name: charsets, files, the first row of
    a CSV file read with a delimiter, building or loading the indexes, opening the
    ports. *)
Variable new_charset : bytes -> res unit.
Variable open_file : bytes -> res unit.
Variable first_row : bytes -> bytes -> res (list bytes).
Variable build_index : vindex -> res unit.
Variable listen : vservice -> res unit.

(** pkg/parser/parser.go:23-43, string.go:16-34 *)
Definition new_parser (c : pconfig) : outcome pconfig :=
  match c with
  | PString (x :: charset) => olet _ := other (new_charset (x :: charset)) in Done c
  | _ => Done c
  end.

(** pkg/input/input.go:34-48, csv.go:29-75 and 128-155, json.go, xml.go:41-86 *)
Definition new_input (parsers : list (bytes * pconfig)) (c : vinput) : outcome sinput :=
  match c with
  | VCsv path _ _ detect delimiter columns =>
    olet _ := other (open_file path) in
    olet columns := if detect
                    then olet row := other (first_row path delimiter) in
                         olet names := other (autodetect row []) in
                         Done (map (fun n => (n, lit "string")) names)
                    else Done columns in
    olet cs := omapM (fun c => olet p := look_up parsers (snd c) in Done (fst c, p)) columns in
    Done (SCsv cs)
  | VJsonFile path _ => olet _ := other (open_file path) in Done SJsonFile
  | VXml path _ props _ => olet _ := other (open_file path) in Done (SXml props)
  end.

(** pkg/index/index.go:30-48, map.go:22-40, wildcard.go:22-52, sqlite.go:21-63,
    fts5.go, noop.go:17-25 *)
Definition new_index (inputs : list (bytes * sinput)) (c : vindex) : outcome vindex :=
  match c with
  | VIMap input _ | VIWildcard _ input _ _ | VISqlite _ input _ | VIFts5 _ input _ _ _ =>
    olet _ := look_up inputs input in olet _ := other (build_index c) in Done c
  | VINoop => Done c
  end.

(** pkg/output/json_common.go:12-29 *)
Fixpoint check_relationship_matches (inputs : list (bytes * sinput)) (r : relationship) : outcome unit :=
  match r with
  | mkRel _ _ _ _ _ children =>
    (fix go (l : list (bytes * relationship)) : outcome unit :=
       match l with
       | [] => Done tt
       | (_, child) :: l' =>
         olet _ := look_up inputs (rel_input child) in
         olet _ := check_relationship_matches inputs child in
         go l'
       end) children
  end.

(** pkg/output/output.go:39-58, json_array.go:24-53, json_object.go:23-60 *)
Definition new_output (parsers : list (bytes * pconfig)) (inputs : list (bytes * sinput)) (indexes : list (bytes * vindex)) (c : voutput) : outcome output :=
  olet _ := look_up indexes (lit "default") in
  match c with
  | VGraphql => Fail (EMsg "Unknown output config type")
  | VOutput (OArray c) =>
    olet _ := look_up inputs (ac_input c) in
    olet _ := omapM (fun r => check_relationship_matches inputs (snd r)) (ac_relationships c) in
    Done (OArray c)
  | VOutput (OObject c) =>
    olet _ := omapM (fun p => look_up parsers (pm_parser (snd p))) (oc_params c) in
    olet _ := look_up inputs (oc_input c) in
    olet _ := omapM (fun r => check_relationship_matches inputs (snd r)) (oc_relationships c) in
    Done (OObject c)
  end.

(** pkg/service/http.go:52-77, one route: the output, the parsers of the parameters
    in the path, and the regular expression.  The look-ups are written before
    [new_route], which makes them again.  A parameter unknown to the output is
    another kind of failure (http.go:65-69). *)
Definition new_service_route (parsers : list (bytes * pconfig)) (outputs : list (bytes * output)) (r : bytes * bytes) : outcome route :=
  olet o := look_up outputs (fst r) in
  olet _ := omapM (fun name =>
              match mget (match o with OArray c => ac_params c | OObject c => oc_params c end) name with
              | None => Fail (EMsg "Output does not have a parameter with this name.")
              | Some p => olet _ := look_up parsers (pm_parser p) in Done tt
              end) (snd (split_path (snd r) 0 [])) in
  other (new_route parsers (snd r) o).

(** pkg/service/http.go:41-109 *)
Definition new_service (parsers : list (bytes * pconfig)) (outputs : list (bytes * output)) (c : vservice) : outcome (list route) :=
  olet rs := omapM (new_service_route parsers outputs) (vs_routes c) in
  olet _ := other (listen c) in
  Done rs.

(** cmd/main.go:49-104 *)
Definition start (v : vconfig) : outcome started :=
  olet ps := create_all new_parser (vc_parsers v) in
  olet is := create_all (new_input ps) (vc_inputs v) in
  olet xs := create_all (new_index is) (vc_indexes v) in
  olet os := create_all (new_output ps is xs) (vc_outputs v) in
  olet ss := create_all (new_service ps os) (vc_services v) in
  Done (mkStarted ps is xs os ss).
End Start.
