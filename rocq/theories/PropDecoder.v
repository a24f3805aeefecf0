(** Property C39: charset conversions on a shared decoder. *)
From Coq Require Import List ZArith Lia Bool String.
From Coq Require Import Strings.Byte.
From Verif Require Import Base Codec Value Prog Decoder DecoderFacts.
Import ListNotations.
Open Scope Z_scope.

(** C39 (missing: decoders with a state, see C39_stateful_refuted).  With a
    decoder whose conversions do not depend on a state, goroutines that parse
    texts at the same time each get the conversion of their own text, in every
    interleaving. *)
Theorem C39_stateless_partial : forall D reset transform, (forall d d' src eof, fst (transform d src eof) = fst (transform d' src eof)) ->
  forall d0 convert fuel s texts c,
  free_steps _ _ _ (parse_string D reset transform convert fuel) (free_start _ _ _ s texts) c ->
  Forall (fun t => Forall (fun qa => snd qa = fst (exec (parse_string D reset transform convert fuel (fst qa)) d0)) (answers_of _ _ _ t)) (snd c).
Proof. exact stateless_answers. Qed.
Print Assumptions C39_stateless_partial.

(** Without conversion, the text is the result. *)
Theorem C39_unconverted : forall D reset transform fuel s texts c,
  free_steps _ _ _ (parse_string D reset transform false fuel) (free_start _ _ _ s texts) c ->
  Forall (fun t => Forall (fun qa => snd qa = Ok (VString (fst qa))) (answers_of _ _ _ t)) (snd c).
Proof. exact unconverted_answers. Qed.
Print Assumptions C39_unconverted.

(** One conversion after the other is right with every decoder. *)
Theorem C39_one_after_the_other : forall D reset transform convert fuel text d d', (forall a b : D, reset a = reset b) ->
  fst (exec (parse_string D reset transform convert fuel text) d) = fst (exec (parse_string D reset transform convert fuel text) d').
Proof. exact sequential_answers. Qed.
Print Assumptions C39_one_after_the_other.

(** "caf\xe9" in latin 1; "1" and, between escape sequences, "1" in katakana. *)
Definition jp_text : bytes := [x1b; x28; x49; x31].
Example C39_example :
  (forall d d' src eof, fst (latin1_transform d src eof) = fst (latin1_transform d' src eof)) /\
  fst (exec (parse_string unit latin1_reset latin1_transform true 10 (lit "caf" ++ [xe9])) tt) = Ok (VString (lit "caf" ++ [xc3; xa9])) /\
  (forall a b, jp_reset a = jp_reset b) /\
  fst (exec (parse_string _ jp_reset jp_transform true 10 (lit "1")) JpKatakana) = Ok (VString (lit "1")) /\
  fst (exec (parse_string _ jp_reset jp_transform true 10 jp_text) JpAscii) = Ok (VString [xef; xbd; xb1]).
Proof. split; [reflexivity|]. split; [vm_compute; reflexivity|]. split; [reflexivity|]. split; vm_compute; reflexivity. Qed.

(** What is left to do after Reset. *)
Definition read_after (fuel : nat) (text : bytes) : prog jp_state (res value) :=
  plet r := read_all jp_state jp_transform fuel [] text false [] in
  match r with Ok s => Ret (Ok (VString s)) | Err e => Ret (Err e) | Panic => Ret Panic | NoFuel => Ret NoFuel end.

(** The second goroutine converts its whole text between the Reset and the
    Transform of the first, which gets a character of another set. *)
Theorem C39_stateful_refuted : exists d,
  free_steps _ _ _ (parse_string jp_state jp_reset jp_transform true 10) (free_start _ _ _ JpAscii [[lit "1"]; [jp_text]])
    (d, [Idle [] [(lit "1", Ok (VString [xef; xbd; xb1]))]; Idle [] [(jp_text, Ok (VString [xef; xbd; xb1]))]]) /\
  fst (exec (parse_string _ jp_reset jp_transform true 10 (lit "1")) JpAscii) = Ok (VString (lit "1")).
Proof.
  exists JpKatakana. split; [|vm_compute; reflexivity].
  set (body := parse_string jp_state jp_reset jp_transform true 10).
  assert (Eb : body (lit "1") = Act jp_reset (fun _ => read_after 10 (lit "1"))) by (unfold body, parse_string, read_after, modify; cbn [bind]; reflexivity).
  eapply free_trans; [|eapply free_trans; [apply (free_alone _ _ _ body [Busy (lit "1") (read_after 10 (lit "1")) [] []] jp_text [] [] [] (body jp_text) JpAscii)|]].
  - eapply free_more; [eapply free_more; [eapply free_more; [apply free_none|]|]|].
    + apply (free_begin _ _ _ body JpAscii [] (lit "1") [] [] [Idle [jp_text] []]).
    + apply (free_begin _ _ _ body JpAscii [Busy (lit "1") (body (lit "1")) [] []] jp_text [] [] []).
    + cbn [app]. rewrite Eb. apply (free_act _ _ _ body JpAscii [] (lit "1") jp_reset (fun _ => read_after 10 (lit "1")) [] [] [Busy jp_text (body jp_text) [] []]).
  - replace (snd (exec (body jp_text) JpAscii)) with JpKatakana by (vm_compute; reflexivity).
    replace (fst (exec (body jp_text) JpAscii)) with (@Ok value (VString [xef; xbd; xb1])) by (vm_compute; reflexivity).
    assert (E : exec (read_after 10 (lit "1")) JpKatakana = (Ok (VString [xef; xbd; xb1]), JpKatakana)) by (vm_compute; reflexivity).
    pose proof (free_alone _ _ _ body [] (lit "1") [] [] [Idle [] ([] ++ [(jp_text, Ok (VString [xef; xbd; xb1]))])] (read_after 10 (lit "1")) JpKatakana) as H.
    rewrite E in H. exact H.
Qed.
Print Assumptions C39_stateful_refuted.
