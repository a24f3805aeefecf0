(** Properties C37 and C38 (JSON part): JSON files. *)
From Coq Require Import List ZArith Lia Bool String Sorted.
From Coq Require Import Strings.Byte.
From Verif Require Import Base Value Records SpecIndex SpecOutput SpecJson Prog JsonReader SpecJsonFile JsonReaderFacts3.
Import ListNotations.
Open Scope Z_scope.

(** C37: a record found by an iteration is read again from its position, wherever
    previous reads left the shared file and whatever sizes the reads have. *)
Theorem C37_reread_exact : forall file unmarshal chunk s p data, In (Ok (p, data)) (json_iterate_all file unmarshal) ->
  fst (exec (json_get_at file unmarshal chunk p) s) = Ok data.
Proof. exact json_reread. Qed.
Print Assumptions C37_reread_exact.

(** The positions are in the file and increase strictly; the iteration ends. *)
Theorem C37_positions_increase : forall file unmarshal, (forall t, match unmarshal t with Panic | NoFuel => False | _ => True end) ->
  Forall (fun r => match r with Ok (p, _) => 0 <= p < zlen file | Err _ => True | _ => False end) (json_iterate_all file unmarshal) /\
  StronglySorted Z.lt (flat_map (fun r => match r with Ok (p, _) => [p] | _ => [] end) (json_iterate_all file unmarshal)).
Proof. exact json_increasing. Qed.
Print Assumptions C37_positions_increase.

(** The iteration of a file of documents gives each of them, once, in order, with
    its position and with the data of its text. *)
Theorem C37_documents_read : forall file unmarshal docs rows, documents 0 docs file ->
  Forall2 (fun pt r => fst pt = fst r /\ unmarshal (snd pt) = Ok (snd r)) docs rows ->
  json_iterate_all file unmarshal = map Ok rows.
Proof. exact json_documents. Qed.
Print Assumptions C37_documents_read.

(** (Missing: that nothing is after the last one, see C37_stray_bracket_refuted.)
    An iteration without error leaves nothing out between the records. *)
Theorem C37_nothing_skipped_partial : forall file unmarshal rows, json_iterate_all file unmarshal = map Ok rows ->
  exists ps tail, pieces 0 ps tail file /\ (tail = [] \/ exists r, tail = x5d :: r \/ tail = x7d :: r) /\
    Forall2 (fun pt r => fst pt = fst r /\ unmarshal (snd pt) = Ok (snd r)) ps rows.
Proof. exact json_pieces. Qed.
Print Assumptions C37_nothing_skipped_partial.

(** A JSON file without error is an input in the sense of C20 to C25. *)
Theorem C37_json_input_suits : forall name file mtime unmarshal chunk s rs,
  in_iter (json_input name file mtime unmarshal chunk s) = map Ok rs ->
  input_ok (json_input name file mtime unmarshal chunk s) rs.
Proof. exact json_input_ok. Qed.
Print Assumptions C37_json_input_suits.

(** Braces in strings, escapes, nesting, documents that touch each other. *)
Definition doc1 : bytes := lit "{""a"": ""}{\""é""}".
Definition doc2 : bytes := lit "{""b"":[1,-2.5e+3,{""c"":null}] , ""d"":{}}".
Definition ex_json : bytes := lit "  " ++ doc1 ++ doc2 ++ [x0a] ++ lit "{}" ++ [x0a].
Definition ex_unmarshal (t : bytes) : res (list (bytes * value)) := Ok [(lit "text", VString t)].
Example C37_example :
  documents 0 [(2, doc1); (17, doc2); (55, lit "{}")] ex_json /\
  json_iterate_all ex_json ex_unmarshal = [Ok (2, [(lit "text", VString doc1)]); Ok (17, [(lit "text", VString doc2)]); Ok (55, [(lit "text", VString (lit "{}"))])] /\
  fst (exec (json_get_at ex_json ex_unmarshal (fun n => n) 17) (mkJfile 1000 5)) = Ok [(lit "text", VString doc2)] /\
  fst (exec (json_get_at ex_json ex_unmarshal (fun n => n) 18) (mkJfile 0 0)) = Ok [(lit "text", VString (lit """b"""))] /\
  fst (exec (json_get_at ex_json ex_unmarshal (fun n => n) 19) (mkJfile 0 0)) = Err (EMsg "invalid character") /\
  json_iterate_all (lit "{""a"":1} {""b"":") ex_unmarshal = [Ok (0, [(lit "text", VString (lit "{""a"":1}"))]); Err (EMsg "unexpected EOF")].
Proof.
  split.
  - assert (D : forall t m, hd_error t = Some x7b -> jvalue 60 t = Some (JObj m, []) -> jdepth (JObj m) <= 10000 -> document t).
    { intros [|c r] m H; [discriminate H|]. injection H as ->. intros. exists 60%nat, m, r. auto. }
    assert (D1 : document doc1) by (eapply D; [reflexivity|vm_compute; reflexivity|vm_compute; discriminate]).
    assert (D2 : document doc2) by (eapply D; [reflexivity|vm_compute; reflexivity|vm_compute; discriminate]).
    assert (D3 : document (lit "{}")) by (eapply D; [reflexivity|vm_compute; reflexivity|vm_compute; discriminate]).
    apply (docs_more 0 (lit "  ") doc1 _ (doc2 ++ [x0a] ++ lit "{}" ++ [x0a])); [reflexivity|exact D1|].
    apply (docs_more 17 [] doc2 _ ([x0a] ++ lit "{}" ++ [x0a])); [reflexivity|exact D2|].
    apply (docs_more 54 [x0a] (lit "{}") _ [x0a]); [reflexivity|exact D3|].
    apply docs_end. reflexivity.
  - vm_compute. repeat split.
Qed.

(** What follows a stray closing bracket is silently ignored. *)
Theorem C37_stray_bracket_refuted : exists file,
  file = lit "{""a"":1}}{""b"":2}" /\ json_iterate_all file ex_unmarshal = [Ok (0, [(lit "text", VString (lit "{""a"":1}"))])].
Proof. eexists. split; [reflexivity|vm_compute; reflexivity]. Qed.
Print Assumptions C37_stray_bracket_refuted.

(** C38 for JSON inputs. *)
Theorem C38_json_answers_exact_partial : forall file unmarshal chunk s positions c,
  steps _ _ _ (json_get_at file unmarshal chunk) (start _ _ _ s positions) c ->
  Forall (fun t => Forall (fun qa => snd qa = fst (exec (json_get_at file unmarshal chunk (fst qa)) (mkJfile 0 0))) (answers_of _ _ _ t)) (c_threads _ _ _ c).
Proof. exact json_concurrent_answers. Qed.
Print Assumptions C38_json_answers_exact_partial.

Theorem C38_json_no_endless_execution_partial : forall file unmarshal chunk s positions,
  Acc (fun c' c => step _ _ _ (json_get_at file unmarshal chunk) c c') (start _ _ _ s positions).
Proof. exact json_concurrent_acc. Qed.
Print Assumptions C38_json_no_endless_execution_partial.

Theorem C38_json_all_answered_partial : forall file unmarshal chunk s positions c,
  steps _ _ _ (json_get_at file unmarshal chunk) (start _ _ _ s positions) c -> (forall c', ~ step _ _ _ (json_get_at file unmarshal chunk) c c') ->
  c_threads _ _ _ c = map (fun qs => Idle [] (map (fun p => (p, fst (exec (json_get_at file unmarshal chunk p) (mkJfile 0 0)))) qs)) positions.
Proof. exact json_concurrent_end. Qed.
Print Assumptions C38_json_all_answered_partial.

(** One goroutine alone until the end. *)
Example C38_json_example : exists c,
  steps _ _ _ (json_get_at (lit "{}") ex_unmarshal (fun _ => 4%nat)) (start _ _ _ (mkJfile 0 0) [[0]; [0]]) c /\
  nth_error (c_threads _ _ _ c) 1 = Some (Idle [] [(0, Ok [(lit "text", VString (lit "{}"))])]) /\ nth_error (c_threads _ _ _ c) 0 = Some (Idle [0] []).
Proof.
  eexists. split; [|split].
  - eapply steps_more; [eapply steps_more; [eapply steps_more; [eapply steps_more; [eapply steps_more; [apply steps_none|]|]|]|]|].
    + unfold start. cbn [map]. apply (step_lock _ _ _ _ _ [Idle [0] []] 0 [] [] []).
    + unfold json_get_at. change (0 <? 0) with false. cbn [bind modify]. apply (step_act _ _ _ _ _ [Idle [0] []]).
    + cbn [j_load bind get]. apply (step_act _ _ _ _ _ [Idle [0] []]).
    + cbn [bind modify]. apply (step_act _ _ _ _ _ [Idle [0] []]).
    + match goal with |- step _ _ _ _ (mkConfig _ _ _ _ _ (_ ++ Busy _ ?p _ _ :: _)) _ => let p' := eval vm_compute in p in change p with p' end.
      apply (step_unlock _ _ _ _ _ [Idle [0] []]).
  - vm_compute. reflexivity.
  - reflexivity.
Qed.
