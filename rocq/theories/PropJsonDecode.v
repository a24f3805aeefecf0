(** Property C62: decoding JSON. *)
From Coq Require Import List ZArith Lia Bool String.
From Coq Require Import Strings.Byte Floats.SpecFloat.
From Verif Require Import Base Value GoStrings SpecText Prog Json JsonReader FloatText SpecFloatText FloatFormat FloatFormatFacts6 SpecJson SpecJsonFile SpecJsonDecode JsonDecode JsonDecodeFacts6 JsonDecodeFacts7 JsonDecodeFacts8.
Import ListNotations.
Open Scope Z_scope.

(** Every text of RFC 8259 nested at most 10000 times is accepted, for the same data. *)
Theorem C62_json_accepted : forall t j, json_text t j -> jdepth j <= 10000 -> accepted_text t j.
Proof. exact json_accepted. Qed.
Print Assumptions C62_json_accepted.
Theorem C62_one_meaning : forall t j1 j2, accepted_text t j1 -> accepted_text t j2 -> j1 = j2.
Proof. exact accepted_unique. Qed.
Print Assumptions C62_one_meaning.

(** Accepted texts are decoded to their data. *)
Theorem C62_decoded : forall t j, accepted_text t j -> ~ out_of_range j -> exists v, go_unmarshal t = Ok v /\ represents j v.
Proof. exact unmarshal_reads. Qed.
Print Assumptions C62_decoded.
(** Nothing else is decoded. *)
Theorem C62_nothing_else : forall t v, go_unmarshal t = Ok v -> exists j, accepted_text t j /\ ~ out_of_range j /\ represents j v.
Proof. exact unmarshal_ok. Qed.
Print Assumptions C62_nothing_else.
(** The decoder never panics, whatever the text: its phasePanicMsg cannot be reached. *)
Theorem C62_no_panic : forall t, (exists v, go_unmarshal t = Ok v) \/ go_unmarshal t = Err type_error \/ go_unmarshal t = Err JsonReader.syntax_error.
Proof. exact unmarshal_quiet. Qed.
Print Assumptions C62_no_panic.
Theorem C62_out_of_range : forall t j, accepted_text t j -> out_of_range j -> go_unmarshal t = Err type_error.
Proof. exact unmarshal_range. Qed.
Print Assumptions C62_out_of_range.
(** The numbers of JSON texts are decimal numbers, which C61 says how to read. *)
Theorem C62_numbers : forall s t r, number s = Some (t, r) -> exists neg m f e, SpecFloatText.literal t neg m f e.
Proof. exact number_literal. Qed.
Print Assumptions C62_numbers.

(** Files: each document is read as the map of its data. *)
Theorem C62_files : forall file docs, documents 0 docs file -> Forall (fun pt => forall j, json_text (snd pt) j -> ~ out_of_range j) docs ->
  exists rows, json_iterate_all file decode_map = map Ok rows /\
    Forall2 (fun pt r => fst pt = fst r /\ exists m, json_text (snd pt) (JObj m) /\ represents (JObj m) (VMap (snd r))) docs rows.
Proof. exact file_read. Qed.
Print Assumptions C62_files.
(** Whatever is in the file, neither iterations nor reads at any position panic. *)
Theorem C62_files_no_panic : forall file,
  Forall (fun r => match r with Ok (p, _) => 0 <= p < zlen file | Err _ => True | _ => False end) (json_iterate_all file decode_map).
Proof. exact file_quiet. Qed.
Print Assumptions C62_files_no_panic.
Theorem C62_get_no_panic : forall file chunk p s, match fst (exec (json_get_at file decode_map chunk p) s) with Panic | NoFuel => False | _ => True end.
Proof. exact get_quiet. Qed.
Print Assumptions C62_get_no_panic.

(** JSON data whose objects have distinct names is served as it was read. *)
Theorem C62_served_as_read : forall t j, accepted_text t j -> distinct_names j -> ~ out_of_range j ->
  exists v b j', go_unmarshal t = Ok v /\ json_encode json_float v = Ok b /\ json_text (b ++ [x0a]) j' /\ same_data j j'.
Proof. exact (round_trip json_float read_back float_number). Qed.
Print Assumptions C62_served_as_read.
Theorem C62_record_served_as_read : forall t m, accepted_text t (JObj m) -> distinct_names (JObj m) -> ~ out_of_range (JObj m) ->
  exists data b j', decode_map t = Ok data /\ json_encode json_float (VMap data) = Ok b /\ json_text (b ++ [x0a]) j' /\ same_data (JObj m) j'.
Proof. exact (round_trip_map json_float read_back float_number). Qed.
Print Assumptions C62_record_served_as_read.

Definition ex_text : bytes := lit " {""aé😀"": [1.5, -0, true, null, {}, []], ""b"":{""c"" : ""x\n""} }".
Definition ex_data : json := JObj [([97; 233; 128512], JArr [JNum (lit "1.5"); JNum (lit "-0"); JBool true; JNull; JObj []; JArr []]); ([98], JObj [([99], JStr [120; 10])])].
Example C62_example :
  json_text ex_text ex_data /\ jdepth ex_data <= 10000 /\ distinct_names ex_data /\ ~ out_of_range ex_data /\
  go_unmarshal ex_text = Ok (VMap [(lit "aé😀", VList [VFloat (S754_finite false 6755399441055744 (-52)); VFloat (S754_zero true); VBool true; VNil; VMap []; VList []]);
                                   (lit "b", VMap [(lit "c", VString (lit "x" ++ [x0a]))])]) /\
  documents 0 [(1, lit "{""a"":1}"); (8, lit "{}")] (lit " {""a"":1}{}") /\
  json_iterate_all (lit " {""a"":1}{}") decode_map = [Ok (1, [(lit "a", VFloat (S754_finite false 4503599627370496 (-52)))]); Ok (8, [])] /\
  go_unmarshal (lit "{""a"":1,}") = Err JsonReader.syntax_error /\ go_unmarshal (lit "01") = Err JsonReader.syntax_error /\
  go_unmarshal (lit "[1e400]") = Err type_error /\
  decode_map (lit "[1]") = Err type_error.
Proof.
  split; [exists 60%nat, []; split; vm_compute; reflexivity|]. split; [vm_compute; discriminate|]. split.
  { repeat constructor; cbn; intuition discriminate. }
  split; [intros H; apply bad_range in H; vm_compute in H; discriminate H|]. split; [vm_compute; reflexivity|]. split.
  { assert (D : forall t m, hd_error t = Some x7b -> jvalue 60 t = Some (JObj m, []) -> jdepth (JObj m) <= 10000 -> document t) by (intros [|c r] m H; [discriminate H|]; injection H as ->; intros; exists 60%nat, m, r; auto).
    apply (docs_more 0 (lit " ") (lit "{""a"":1}") _ (lit "{}")); [reflexivity|eapply D; [reflexivity|vm_compute; reflexivity|vm_compute; discriminate]|].
    apply (docs_more 8 [] (lit "{}") _ []); [reflexivity|eapply D; [reflexivity|vm_compute; reflexivity|vm_compute; discriminate]|]. apply docs_end. reflexivity. }
  vm_compute. repeat split.
Qed.
Example C62_served_example :
  (rlet v := go_unmarshal ex_text in json_encode json_float v) = Ok (lit "{""aé😀"":[1.5,-0,true,null,{},[]],""b"":{""c"":""x\n""}}").
Proof. vm_compute. reflexivity. Qed.

(** Large integers do not survive, as every number becomes a float64. *)
Theorem C62_large_integers_refuted : exists t1 t2 v, t1 = lit "9007199254740992" /\ t2 = lit "9007199254740993" /\ number_text t1 /\ number_text t2 /\
  go_unmarshal t1 = Ok v /\ go_unmarshal t2 = Ok v.
Proof. do 3 eexists. split; [reflexivity|]. split; [reflexivity|]. split; [vm_compute; reflexivity|]. split; [vm_compute; reflexivity|]. split; vm_compute; reflexivity. Qed.
Print Assumptions C62_large_integers_refuted.

(** Of two members with the same name the first one is silently lost. *)
Theorem C62_duplicate_names_refuted : exists t j v, t = lit "{""a"":""1"",""b"":null,""a"":""2""}" /\ json_text t j /\ ~ distinct_names j /\
  go_unmarshal t = Ok v /\ v = VMap [(lit "a", VString (lit "2")); (lit "b", VNil)].
Proof.
  do 3 eexists. split; [reflexivity|]. split; [exists 30%nat, []; split; [vm_compute; reflexivity|reflexivity]|]. split; [|split; vm_compute; reflexivity].
  intros H. inversion H as [| | | | |? Hn _]; subst. inversion Hn as [|? ? Hi _]; subst. apply Hi. cbn. auto.
Qed.
Print Assumptions C62_duplicate_names_refuted.

(** Texts that are not JSON are accepted, their bytes replaced by U+FFFD. *)
Theorem C62_invalid_utf8_refuted : exists t v, t = [x22; xff; x22] /\ (forall j, ~ json_text t j) /\ go_unmarshal t = Ok v /\ v = VString (lit "�").
Proof.
  do 2 eexists. split; [reflexivity|]. split; [|split; vm_compute; reflexivity].
  intros j (fuel & r & E & _). destruct fuel as [|[|fuel]]; [discriminate E|discriminate E|]. vm_compute in E. discriminate E.
Qed.
Print Assumptions C62_invalid_utf8_refuted.

(** A file with the document null gives an empty record instead of an error. *)
Theorem C62_null_document_refuted : exists file, file = lit "null {""a"":true}" /\ ~ document (lit "null") /\
  json_iterate_all file decode_map = [Ok (0, []); Ok (5, [(lit "a", VBool true)])].
Proof. eexists. split; [reflexivity|]. split; [intros (f & m & r & E & _); discriminate E|vm_compute; reflexivity]. Qed.
Print Assumptions C62_null_document_refuted.
