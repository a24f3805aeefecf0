(** C65: from the YAML document to the objects of the configuration. *)
From Coq Require Import List ZArith Bool String.
From Coq Require Import Strings.Byte Floats.SpecFloat.
From Verif Require Import Base Value Codec Output Config Yaml SpecYaml SpecSchema YamlFacts4 SchemaFacts YamlExamples.
Import ListNotations.
Open Scope Z_scope.

(** The objects are those that the document describes, and any document which
    describes objects is accepted. *)
Theorem C65_document : forall hidden_ok odd_uint odd_int doc p,
  decode_document hidden_ok odd_uint odd_int doc = Ok p <-> document_is hidden_ok odd_uint odd_int p doc.
Proof. exact document_exact. Qed.
Print Assumptions C65_document.

(** Documents which conform to the documentation (with its intended definition of
    arrays and nested objects) are accepted, and none of their objects is nil. *)
Theorem C65_documented : forall hidden_ok odd_uint odd_int n,
  conforms_document false n = true -> machine_integers n = true ->
  exists p, decode_document hidden_ok odd_uint odd_int (Some n) = Ok p /\ config_of_parsed p <> Panic.
Proof. exact conforming_config. Qed.
Print Assumptions C65_documented.

(** A published configuration, and one with nested objects. *)
Definition decode_plain (n : node) : res parsed := decode_document (fun _ => false) (fun _ => 0) (fun _ => 0) (Some n).
Example C65_example : conforms_document false countries = true /\ machine_integers countries = true /\ decode_plain countries = Ok countries_parsed.
Proof. vm_compute. auto. Qed.
Example C65_nested_example : conforms_document false nested = true /\ machine_integers nested = true /\ decode_plain nested = Ok nested_parsed.
Proof. vm_compute. auto. Qed.
(** What is written twice, or is not known, is refused. *)
Example C65_refused :
  decode_plain (one_parser [("name", txt "a"); ("type", txt "json"); ("name", txt "b")]%string) = Err (EMsg "already set in map") /\
  decode_plain (one_parser [("name", txt "a"); ("type", txt "json"); ("delimiter", txt ",")]%string) = Err (EMsg "not found in type") /\
  decode_plain (one_parser [("name", txt "a"); ("type", txt "yaml")]%string) = Err (EMsg "Unknown type") /\
  decode_plain (one_parser [("name", txt "a")]%string) = Err (EMsg "The 'type' attribute is required.") /\
  decode_plain (dict [("parser", YSeq [])]%string) = Err (EMsg "not found in type").
Proof. vm_compute. repeat split. Qed.

(** The published schema accepts documents which are refused: the type of array
    outputs is wrong in it, and nested objects are not constrained. *)
Theorem C65_published_refuted : exists n, conforms_document true n = true /\
  forall hidden_ok odd_uint odd_int, decode_document hidden_ok odd_uint odd_int (Some n) = Err (EMsg "not found in type").
Proof. exists object_with_limit. split; [vm_compute; reflexivity|intros; vm_compute; reflexivity]. Qed.
Print Assumptions C65_published_refuted.
Theorem C65_items_refuted : exists n, conforms_document true n = true /\
  forall hidden_ok odd_uint odd_int, decode_document hidden_ok odd_uint odd_int (Some n) = Err (EMsg "not found in type").
Proof. exists items_of_anything. split; [vm_compute; reflexivity|intros; vm_compute; reflexivity]. Qed.
Print Assumptions C65_items_refuted.
(** ... and it refuses the published examples which have an array output. *)
Theorem C65_published_example_refuted : conforms_document true countries = false /\ exists p, decode_plain countries = Ok p.
Proof. split; [vm_compute; reflexivity|]. eexists. vm_compute. reflexivity. Qed.
Print Assumptions C65_published_example_refuted.

(** The example of the documentation of the fts5 index is refused. *)
Theorem C65_fts5_refuted : forall hidden_ok odd_uint odd_int,
  decode_document hidden_ok odd_uint odd_int (Some (dict [("indexes", YSeq [documented_fts5])]%string)) = Err (EMsg "already set in map").
Proof. intros. vm_compute. reflexivity. Qed.
Print Assumptions C65_fts5_refuted.

(** Documents which do not conform to the documentation are accepted: an internal
    field can be set, and there is a type of output which is not documented. *)
Theorem C65_undocumented_refuted : exists n n' p p',
  conforms_document false n = false /\ decode_plain n = Ok p /\ n = one_parser [("name", txt "a"); ("type", txt "json"); ("logger", YScalar (lit "~") RNull)]%string /\
  conforms_document false n' = false /\ decode_plain n' = Ok p' /\ n' = dict [("outputs", YSeq [dict [("name", txt "a"); ("type", txt "graphql")]])]%string.
Proof. do 4 eexists. repeat match goal with |- _ /\ _ => split end; [| |reflexivity| | |reflexivity]; vm_compute; reflexivity. Qed.
Print Assumptions C65_undocumented_refuted.

(** A limit of 2.7 is read as 2. *)
Theorem C65_fraction_refuted : exists p, decode_plain (one_limit two_point_seven) = Ok p /\
  pd_outputs p = [Some (CArray (lit "users") [] 0 2 [] [] [] [])].
Proof. eexists. split; vm_compute; reflexivity. Qed.
Print Assumptions C65_fraction_refuted.

(** Null and null are not the same: the former enables HTTP. *)
Theorem C65_null_refuted : exists p p',
  decode_plain (one_service (YScalar (lit "null") RNull)) = Ok p /\ map (option_map sc_http) (pd_services p) = [Some None] /\
  decode_plain (one_service (YScalar (lit "Null") RNull)) = Ok p' /\ map (option_map sc_http) (pd_services p') = [Some (Some [])].
Proof. do 2 eexists. repeat match goal with |- _ /\ _ => split end; [vm_compute; reflexivity|vm_compute; reflexivity|vm_compute; reflexivity|vm_compute; reflexivity]. Qed.
Print Assumptions C65_null_refuted.
