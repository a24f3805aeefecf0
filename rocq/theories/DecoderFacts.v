From Coq Require Import String List ZArith Lia Bool.
From Verif Require Import Base Codec Value Prog Decoder.
Import ListNotations.

(** A program whose answer does not depend on the shared state. *)
Inductive insensitive {S A} : prog S A -> A -> Prop :=
| ins_ret a : insensitive (Ret a) a
| ins_act f k a : (forall s, insensitive (k s) a) -> insensitive (Act f k) a.

Lemma insensitive_exec {S A} (p : prog S A) a : insensitive p a -> forall s, fst (exec p s) = a.
Proof. induction 1 as [|f k a _ IH]; intros s; [reflexivity|]. cbn [exec]. apply IH. Qed.

Lemma insensitive_bind {S A B} (p : prog S A) a (k : A -> prog S B) b : insensitive p a -> insensitive (k a) b -> insensitive (bind p k) b.
Proof. induction 1 as [|f k' a _ IH]; intros Hk; cbn [bind]; [exact Hk|]. constructor. intros s. apply IH. exact Hk. Qed.

Section Free.
Variables S A Q : Type.
Variable body : Q -> prog S A.
Variable ans : Q -> A.
Hypothesis body_ins : forall q, insensitive (body q) (ans q).

Definition fine (t : thread S A Q) : Prop :=
  Forall (fun qa => snd qa = ans (fst qa)) (answers_of _ _ _ t) /\
  match t with Busy q p _ _ => insensitive p (ans q) | _ => True end.

Lemma replace_fine l1 t t' l2 : (fine t -> fine t') -> Forall fine (l1 ++ t :: l2) -> Forall fine (l1 ++ t' :: l2).
Proof.
  intros H HF. apply Forall_app in HF as [H1 H2]. inversion H2; subst. apply Forall_app. split; [exact H1|]. constructor; auto.
Qed.

Lemma free_step_fine c c' : free_step _ _ _ body c c' -> Forall fine (snd c) -> Forall fine (snd c').
Proof.
  intros Hs. destruct Hs as [s l1 q todo answers l2|s l1 q f k todo answers l2|s l1 q a todo answers l2]; cbn [snd]; apply replace_fine; intros [H1 H2].
  - split; [exact H1|apply body_ins].
  - split; [exact H1|]. inversion H2 as [|f0 k0 a0 Hk]; subst. apply Hk.
  - split; [|exact I]. cbn [answers_of] in *. apply Forall_app. split; [exact H1|]. constructor; [|constructor]. inversion H2; subst. reflexivity.
Qed.

Lemma free_answers s qss c : free_steps _ _ _ body (free_start _ _ _ s qss) c ->
  Forall (fun t => Forall (fun qa => snd qa = ans (fst qa)) (answers_of _ _ _ t)) (snd c).
Proof.
  intros H. assert (Hf : Forall fine (snd c)).
  { remember (free_start S A Q s qss) as c0 eqn:E. induction H as [c|c c' c'' _ IH Hs].
    - subst c. unfold free_start. cbn [snd]. apply Forall_map, Forall_forall. intros qs _. split; [constructor|exact I].
    - eapply free_step_fine; [exact Hs|apply IH; exact E]. }
  eapply Forall_impl; [|exact Hf]. intros t [H1 _]. exact H1.
Qed.
End Free.

Section Stateless.
Variable D : Type.
Variable reset : D -> D.
Variable transform : D -> bytes -> bool -> tresult * D.
Hypothesis stateless : forall d d' src eof, fst (transform d src eof) = fst (transform d' src eof).
Variable d0 : D.

Lemma call_insensitive src eof : insensitive (call D transform src eof) (fst (transform d0 src eof)).
Proof.
  constructor. intros d. cbn [bind]. constructor. intros d'. rewrite (stateless d d0). constructor.
Qed.

Lemma read_all_insensitive : forall fuel src rest eof out, exists a, insensitive (read_all D transform fuel src rest eof out) a.
Proof.
  induction fuel as [|fuel IH]; intros src rest eof out; [eexists; constructor|]. cbn [read_all]. cbv zeta.
  assert (Hfill : forall src' out', exists a, insensitive (match rest with [] => read_all D transform fuel src' [] true out'
     | _ => read_all D transform fuel (src' ++ firstn (buf_size - length src') rest) (skipn (buf_size - length src') rest) false out' end) a).
  { intros src' out'. destruct rest; apply IH. }
  assert (Hcall : exists a, insensitive (bind (call D transform src eof) (fun r =>
      match t_status r with
      | TDone => match skipn (t_src r) src with _ :: _ => Ret (Err (EMsg "transform: inconsistent byte count returned"))
        | [] => if eof then Ret (Ok (out ++ t_dst r)) else
           match rest with [] => read_all D transform fuel [] [] true (out ++ t_dst r)
     | _ => read_all D transform fuel ([] ++ firstn (buf_size - length (@nil Byte.byte)) rest) (skipn (buf_size - length (@nil Byte.byte)) rest) false (out ++ t_dst r) end
        end
      | ShortDst => if (length (t_dst r) =? 0)%nat && (t_src r =? 0)%nat then Ret (Err (EMsg "transform: short destination buffer"))
        else read_all D transform fuel (skipn (t_src r) src) rest eof (out ++ t_dst r)
      | ShortSrc => if negb (length (skipn (t_src r) src) =? buf_size)%nat && negb eof then
           match rest with [] => read_all D transform fuel (skipn (t_src r) src) [] true (out ++ t_dst r)
     | _ => read_all D transform fuel (skipn (t_src r) src ++ firstn (buf_size - length (skipn (t_src r) src)) rest) (skipn (buf_size - length (skipn (t_src r) src)) rest) false (out ++ t_dst r) end
        else Ret (Err (EMsg "transform: short source buffer"))
      | TFailed e => Ret (Err e)
      end)) a).
  { set (r0 := fst (transform d0 src eof)).
    match goal with |- exists a, insensitive (bind _ ?k) a => assert (Hk : exists a, insensitive (k r0) a) end.
    { destruct (t_status r0).
      - destruct (skipn (t_src r0) src); [|eexists; constructor]. destruct eof; [eexists; constructor|]. apply (Hfill [] (out ++ t_dst r0)).
      - destruct (_ && _); [eexists; constructor|]. apply IH.
      - destruct (_ && _); [|eexists; constructor]. apply Hfill.
      - eexists; constructor. }
    destruct Hk as (a & Ha). exists a. eapply insensitive_bind; [apply call_insensitive|exact Ha]. }
  destruct src as [|b src]; [destruct eof; [exact Hcall|apply Hfill]|exact Hcall].
Qed.

Lemma parse_insensitive convert fuel text : insensitive (parse_string D reset transform convert fuel text) (fst (exec (parse_string D reset transform convert fuel text) d0)).
Proof.
  assert (H : exists a, insensitive (parse_string D reset transform convert fuel text) a).
  { unfold parse_string. destruct convert; [|eexists; constructor].
    destruct (read_all_insensitive fuel [] text false []) as (a & Ha).
    destruct a as [s|e| |]; eexists; (constructor; intros d; cbn [bind]; eapply insensitive_bind; [exact Ha|constructor]). }
  destruct H as (a & Ha). rewrite (insensitive_exec _ a Ha d0). exact Ha.
Qed.

Lemma stateless_answers convert fuel s texts c :
  free_steps _ _ _ (parse_string D reset transform convert fuel) (free_start _ _ _ s texts) c ->
  Forall (fun t => Forall (fun qa => snd qa = fst (exec (parse_string D reset transform convert fuel (fst qa)) d0)) (answers_of _ _ _ t)) (snd c).
Proof.
  exact (free_answers D (res value) bytes _ (fun q => fst (exec (parse_string D reset transform convert fuel q) d0)) (fun q => parse_insensitive convert fuel q) s texts c).
Qed.
End Stateless.

Lemma unconverted_answers D reset transform fuel s texts c :
  free_steps _ _ _ (parse_string D reset transform false fuel) (free_start _ _ _ s texts) c ->
  Forall (fun t => Forall (fun qa => snd qa = Ok (VString (fst qa))) (answers_of _ _ _ t)) (snd c).
Proof.
  exact (free_answers D (res value) bytes _ (fun q => Ok (VString q)) (fun q => ins_ret _) s texts c).
Qed.

(** A goroutine can go on alone until its answer. *)
Lemma free_trans S A Q body (c c' c'' : S * list (thread S A Q)) : free_steps _ _ _ body c c' -> free_steps _ _ _ body c' c'' -> free_steps _ _ _ body c c''.
Proof. intros H1 H2. induction H2; [exact H1|]. eapply free_more; [apply IHfree_steps; exact H1|exact H]. Qed.
Lemma free_alone S A Q body l1 q todo answers l2 : forall (p : prog S A) s,
  free_steps _ _ Q body (s, l1 ++ Busy q p todo answers :: l2) (snd (exec p s), l1 ++ Idle todo (answers ++ [(q, fst (exec p s))]) :: l2).
Proof.
  induction p as [a|f k IH]; intros s.
  - eapply free_more; [apply free_none|]. apply free_end.
  - eapply free_trans; [eapply free_more; [apply free_none|apply free_act]|]. apply IH.
Qed.

(** Alone, the state left by an earlier conversion does not matter. *)
Lemma sequential_answers D reset transform convert fuel text d d' : (forall a b : D, reset a = reset b) ->
  fst (exec (parse_string D reset transform convert fuel text) d) = fst (exec (parse_string D reset transform convert fuel text) d').
Proof.
  intros H. unfold parse_string. destruct convert; [|reflexivity]. cbn [bind modify exec]. rewrite (H d d'). reflexivity.
Qed.
