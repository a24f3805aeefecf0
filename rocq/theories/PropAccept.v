(** C66: the configurations that are accepted. *)
From Coq Require Import List ZArith Lia Bool String Permutation.
From Coq Require Import Strings.Byte.
From Verif Require Import Base Codec Value GoStrings Output Config SpecConfig ConfigFacts3 SpecAccept AcceptFacts.
Import ListNotations.
Open Scope Z_scope.

(** C66.  A configuration is accepted exactly when it keeps the rules; [acceptable] is in
    SpecAccept.v.  (What the accepted configuration is: C53.) *)
Theorem C66_accepted : forall stat regexp_ok xpath_ok upper p,
  (exists v, load stat regexp_ok xpath_ok upper p = Ok v) <-> acceptable stat regexp_ok xpath_ok upper p.
Proof. exact accept_iff. Qed.
Print Assumptions C66_accepted.

(** C66 (missing: null entries and other errors of os.Stat, see C43).  Otherwise there is an
    error. *)
Theorem C66_refused_partial : forall stat regexp_ok xpath_ok upper p,
  complete p -> (forall path, checked_file p path -> stat path <> SError) -> ~ acceptable stat regexp_ok xpath_ok upper p ->
  exists e, load stat regexp_ok xpath_ok upper p = Err e.
Proof. exact refuse. Qed.
Print Assumptions C66_refused_partial.

(** The order in which objects are written does not matter. *)
Theorem C66_order : forall stat regexp_ok xpath_ok upper p p', reordered p p' ->
  (acceptable stat regexp_ok xpath_ok upper p <-> acceptable stat regexp_ok xpath_ok upper p').
Proof. exact acceptable_order. Qed.
Print Assumptions C66_order.

(** Every file that the accepted configuration reads at the start was there. *)
Theorem C66_files : forall stat regexp_ok xpath_ok upper p v, load stat regexp_ok xpath_ok upper p = Ok v ->
  forall path, checked_file p path -> stat path = SFile.
Proof. exact accepted_files. Qed.
Print Assumptions C66_files.

(** A service for a list of people. *)
Definition disk (path : bytes) : stat_result :=
  if bytes_eqb path (lit "people.json") then SFile else if bytes_eqb path (lit "data") then SDir else SNotExist.
Definition people : input_config := CJsonFile (lit "people") (lit "people.json") None.
Definition by_name : index_config := CMap (lit "by_name") (lit "people") [lit "name"].
Definition same_name : raw_relationship := mkRawRel (lit "people") true 5 [Some (lit "age", None)] [Some (lit "name", lit "name", lit "by_name")] [].
Definition list_of (params : list (bytes * option param)) (rels : list (bytes * option raw_relationship)) : output_config :=
  CArray (lit "list") (lit "people") 0 200 [] [] params rels.
Definition web : service_config := mkServiceConfig (lit "web") (Some []) None [] [Some (lit "list", lit "/")].
Definition ex (ps : list (option parser_config)) (is : list (option input_config)) (xs : list (option index_config)) (ss : list (option service_config)) (os : list (option output_config)) : parsed :=
  mkParsed ps is xs ss os.
Definition named (parser : bytes) : list (bytes * option param) := [(lit "name", Some (mkParam (lit "name") (lit "by_name") parser))].
Definition ex_good : parsed :=
  ex [Some (CSplit (lit "words") (Some (lit " ")) None (lit "string"))] [Some people] [Some by_name] [Some web] [Some (list_of (named []) [(lit "same", Some same_name)])].
Definition ex_load : parsed -> res vconfig := load disk (fun _ => true) (fun _ => true) (fun s => s).

Example C66_example : acceptable disk (fun _ => true) (fun _ => true) (fun s => s) ex_good.
Proof.
  assert (N1 : forall A (key : A -> bytes) a, NoDup (map key [a])) by (intros; repeat constructor; intros []).
  assert (E : input_exists ex_good (lit "people")) by (exists people; split; [left; reflexivity|reflexivity]).
  assert (X : index_fits ex_good (lit "by_name") (lit "people") (lit "name")) by (left; exists by_name; repeat split; left; reflexivity).
  split; [|split; [|split; [|split]]].
  - eexists [_]. split; [reflexivity|]. split; [|apply N1]. constructor; [|constructor]. split; [discriminate|]. split; [exists (lit " "); split; [reflexivity|discriminate]|].
    right. left. reflexivity.
  - exists [people]. split; [reflexivity|]. split; [|apply N1]. constructor; [|constructor]. split; [discriminate|reflexivity].
  - exists [by_name]. split; [reflexivity|]. split; [|apply N1]. constructor; [|constructor]. split; [discriminate|]. split; [exact E|repeat constructor; intros []].
  - exists [web]. split; [reflexivity|]. split; [|apply N1]. constructor; [|constructor]. split; [discriminate|]. split; [left; discriminate|]. split; [discriminate|].
    split; [left; reflexivity|]. split; [discriminate|]. exists [(lit "list", lit "/")]. split; [reflexivity|]. split; [|apply N1]. constructor; [|constructor].
    split; [discriminate|]. split; [discriminate|]. eexists. split; [left; reflexivity|reflexivity].
  - eexists [_]. split; [reflexivity|]. split; [|apply N1]. constructor; [|constructor]. split; [discriminate|]. split; [discriminate|]. split; [exact E|]. split; [discriminate|]. split.
    + exists [(lit "name", mkParam (lit "name") (lit "by_name") [])]. split; [reflexivity|]. constructor; [|constructor]. split; [|split; discriminate].
      split; [discriminate|]. split; [exact X|]. right. split; [|left; reflexivity]. intros c [[[= <-]|[]] H2]. discriminate H2.
    + exists [(lit "same", same_name)]. split; [reflexivity|]. constructor; [|constructor].
      apply (rel_rule ex_good (lit "people") true 5 [(lit "age", None)] [(lit "name", lit "name", lit "by_name")] []); auto; try discriminate; try (repeat constructor; intros []; fail).
Qed.

(** Other configurations, each with one mistake. *)
Definition ex_bad : list parsed :=
  [ex [Some (CSplit (lit "words") (Some (lit " ")) None (lit "text"))] [Some people] [Some by_name] [Some web] [Some (list_of [] [])];
   ex [] [Some (CJsonFile (lit "people") (lit "data") None)] [Some by_name] [Some web] [Some (list_of [] [])];
   ex [] [Some people; Some people] [Some by_name] [Some web] [Some (list_of [] [])];
   ex [] [Some people] [Some (CMap (lit "by_name") (lit "people") [lit "name"; lit "name"])] [Some web] [Some (list_of [] [])];
   ex [] [Some people] [Some by_name] [Some (mkServiceConfig (lit "web") None (Some ([], lit "people.json", lit "key")) [] [Some (lit "list", lit "/")])] [Some (list_of [] [])];
   ex [] [Some people] [Some by_name] [Some web] [Some (list_of (named (lit "json")) [])];
   ex [] [Some people] [Some by_name] [Some web] [Some (list_of [] [(lit "same", Some (mkRawRel (lit "people") false 5 [Some (lit "age", None)] [Some (lit "name", lit "name", lit "by_name")] []))])];
   ex [] [Some people] [Some by_name] [Some web] [Some (CArray (lit "list") (lit "people") 300 200 [] [] [] [])]].
Example C66_refused_example : map ex_load ex_bad =
  [Err (EMsg "Parser not found in parsers list."); Err (EMsg "The path is not a file"); Err (EMsg "Duplicate name for input."); Err (EMsg "Duplicate property in array.");
   Err (EMsg "The file does not exist"); Err (EMsg "The parser is not a primitive type and cannot be used as a parameter.");
   Err (EMsg "sort: You can only sort a relationship when isArray = 'true'."); Err (EMsg "default is higher than the max value.")].
Proof. vm_compute. reflexivity. Qed.

(** The rules are not those of the documentation: an index may have no property
    (docs/schema/indexes/map.yaml: minItems: 1) ... *)
Theorem C66_no_property_refuted : exists p v n input, ex_load p = Ok v /\ In (Some (CMap n input [])) (pd_indexes p).
Proof.
  exists (ex [] [Some people] [Some (CMap (lit "by_name") (lit "people") [])] [Some web] [Some (list_of [] [])]). do 3 eexists.
  split; [vm_compute; reflexivity|left; reflexivity].
Qed.
Print Assumptions C66_no_property_refuted.

(** ... and the character between columns (docs/schema/inputs/csv.yaml) must be an ASCII one:
    the section sign is refused. *)
Theorem C66_delimiter_refuted : exists p delimiter, In (Some (CCsv (lit "people") (lit "people.json") None false true delimiter [])) (pd_inputs p) /\
  runes delimiter = [167] /\ ex_load p = Err (EMsg "csv.delimiter must be a single character") /\
  forall d, (List.length d <= 1)%nat -> exists v, ex_load (ex [] [Some (CCsv (lit "people") (lit "people.json") None false true d [])] [] [Some web] [Some (list_of [] [])]) = Ok v.
Proof.
  exists (ex [] [Some (CCsv (lit "people") (lit "people.json") None false true [xc2; xa7] [])] [] [Some web] [Some (list_of [] [])]), [xc2; xa7].
  split; [left; reflexivity|]. split; [vm_compute; reflexivity|]. split; [vm_compute; reflexivity|].
  intros [|a [|b d]] H; [eexists; vm_compute; reflexivity|eexists; vm_compute; reflexivity|cbn in H; lia].
Qed.
Print Assumptions C66_delimiter_refuted.

Example C66_order_example : reordered (mkParsed [] [Some people; Some (CJsonFile (lit "others") (lit "people.json") None)] [] [] [])
  (mkParsed [] [Some (CJsonFile (lit "others") (lit "people.json") None); Some people] [] [] []).
Proof. repeat split; try apply Permutation_refl. apply perm_swap. Qed.
