(** Proofs about the buffered reader. *)
From Coq Require Import List ZArith Lia Bool Arith.
From Coq Require Import Strings.Byte.
From Verif Require Import Base Prog Bufio SpecBufio.
Import ListNotations.
Open Scope Z_scope.

Lemma exec_bind S A B (p : prog S A) (k : A -> prog S B) s :
  exec (bind p k) s = (let '(a, s') := exec p s in exec (k a) s').
Proof. revert s. induction p as [a|f k' IH]; intros s; cbn [bind exec]; [reflexivity|apply IH]. Qed.

Lemma beqb_true (a b : byte) : beqb a b = true -> a = b.
Proof. unfold beqb. apply byte_dec_bl. Qed.
Lemma beqb_same (a : byte) : beqb a a = true.
Proof. unfold beqb. apply byte_dec_lb. reflexivity. Qed.

Lemma cut_byte_Some d : forall s a b, cut_byte d s = Some (a, b) -> s = a ++ d :: b /\ ~ In d a.
Proof.
  induction s as [|x s IH]; intros a b H; cbn in H; [discriminate|].
  destruct (beqb x d) eqn:E.
  - apply beqb_true in E. injection H as <- <-. subst x. split; [reflexivity|intros []].
  - destruct (cut_byte d s) as [[a' b']|] eqn:Ec; [|discriminate]. injection H as <- <-.
    destruct (IH a' b' eq_refl) as [-> Hn]. split; [reflexivity|].
    intros [->|Hi]; [rewrite beqb_same in E; discriminate|exact (Hn Hi)].
Qed.
Lemma cut_byte_None d : forall s, cut_byte d s = None -> ~ In d s.
Proof.
  induction s as [|x s IH]; intros H; [intros []|]. cbn in H.
  destruct (beqb x d) eqn:E; [discriminate|].
  destruct (cut_byte d s) as [[]|] eqn:Ec; [discriminate|].
  intros [->|Hi]; [rewrite beqb_same in E; discriminate|exact (IH eq_refl Hi)].
Qed.
Lemma cut_byte_app d : forall a b, ~ In d a -> cut_byte d (a ++ d :: b) = Some (a, b).
Proof.
  induction a as [|x a IH]; intros b H; cbn.
  - rewrite beqb_same. reflexivity.
  - destruct (beqb x d) eqn:E; [apply beqb_true in E; subst; exfalso; apply H; now left|].
    rewrite IH; [reflexivity|]. intro Hi. apply H. now right.
Qed.
Lemma cut_byte_notin d s : ~ In d s -> cut_byte d s = None.
Proof.
  intro H. destruct (cut_byte d s) as [[a b]|] eqn:E; [|reflexivity].
  apply cut_byte_Some in E as [-> _]. exfalso. apply H. apply in_or_app. right. now left.
Qed.

Lemma skipn_plus {A} (a b : nat) (l : list A) : skipn (a + b) l = skipn b (skipn a l).
Proof. revert l. induction a as [|a IH]; intros l; [reflexivity|]. destruct l; cbn; [now rewrite skipn_nil|apply IH]. Qed.

Section Facts.
Variable file : bytes.
Variable cap : nat.
Variable chunk : nat -> nat.
Hypothesis cap_pos : (0 < cap)%nat.

Local Notation rest p := (skipn (Z.to_nat p) file).

Record inv (pos : Z) (s : reader) : Prop := mkInv {
  inv_pos : 0 <= pos;
  inv_off : f_off s = pos + zlen (b_buf s);
  inv_rest : rest pos = b_buf s ++ rest (f_off s);
  inv_cap : (List.length (b_buf s) <= cap)%nat;
  inv_eof : b_eof s = true -> rest (f_off s) = [] /\ (List.length (b_buf s) < cap)%nat }.

Lemma inv_new : inv 0 new_reader.
Proof. split; cbn; try reflexivity; try lia; try discriminate. Qed.

Lemma inv_offset pos s : inv pos s -> buffered_offset s = pos.
Proof. intros [? H ? ? ?]. unfold buffered_offset. lia. Qed.

Lemma inv_fill pos s : inv pos s -> (List.length (b_buf s) < cap)%nat -> b_eof s = false ->
  inv pos (fill file cap chunk s) /\
  ((b_eof (fill file cap chunk s) = true /\ b_buf (fill file cap chunk s) = b_buf s)
   \/ (b_eof (fill file cap chunk s) = false /\ (List.length (b_buf s) < List.length (b_buf (fill file cap chunk s)) <= cap)%nat)).
Proof.
  intros [Hp Ho Hr Hc He] Hl Hf. unfold fill.
  destruct (rest (f_off s)) as [|x l] eqn:E.
  - cbn [f_off b_buf b_eof]. split; [|left; split; reflexivity].
    split; cbn [f_off b_buf b_eof]; try assumption; [rewrite E; exact Hr|intros _; split; [exact E|exact Hl]].
  - set (n := Nat.min (S (chunk (b_reads s))) (cap - length (b_buf s))).
    set (got := firstn n (x :: l)).
    assert (Hgl : (List.length got <= n)%nat) by (unfold got; rewrite firstn_length; lia).
    assert (Hg1 : (1 <= List.length got)%nat) by (unfold got; rewrite firstn_length; cbn [length]; lia).
    assert (Hn : (List.length got = Nat.min n (List.length (x :: l)))%nat) by apply firstn_length.
    assert (E2 : rest (f_off s + zlen got) = skipn n (x :: l)).
    { unfold zlen. rewrite Z2Nat.inj_add by (unfold zlen in Ho; lia). rewrite Nat2Z.id, skipn_plus, E.
      unfold got. rewrite firstn_length.
      destruct (Nat.le_gt_cases n (length (x :: l))) as [H|H].
      - f_equal. lia.
      - rewrite (skipn_all2 (n := n)) by lia. apply skipn_all2. lia. }
    cbn [f_off b_buf b_eof]. split; [|right].
    + split; cbn [f_off b_buf b_eof].
      * assumption.
      * rewrite Ho. unfold zlen. rewrite app_length. lia.
      * rewrite Hr, E2, <- app_assoc. f_equal. unfold got. symmetry. apply firstn_skipn.
      * rewrite app_length. lia.
      * rewrite Hf. discriminate.
    + rewrite app_length. split; [assumption|lia].
Qed.

Lemma inv_drop pos s n : inv pos s -> (n <= List.length (b_buf s))%nat -> inv (pos + Z.of_nat n) (drop n s).
Proof.
  intros [Hp Ho Hr Hc He] Hn. split; cbn [drop f_off b_buf b_eof].
  - lia.
  - rewrite Ho. unfold zlen. rewrite skipn_length. lia.
  - rewrite Z2Nat.inj_add by lia. rewrite Nat2Z.id, skipn_plus, Hr.
    rewrite skipn_app. replace (n - length (b_buf s))%nat with O by lia. reflexivity.
  - rewrite skipn_length. lia.
  - intro H. destruct (He H). split; [assumption|]. rewrite skipn_length. lia.
Qed.
Lemma inv_drop_all pos s : inv pos s -> inv (pos + zlen (b_buf s)) (drop_all s).
Proof.
  intros [Hp Ho Hr Hc He]. split; cbn [drop_all f_off b_buf b_eof].
  - unfold zlen. lia.
  - unfold zlen at 2. cbn. lia.
  - rewrite <- Ho. reflexivity.
  - cbn. lia.
  - discriminate.
Qed.

(** What ReadSlice gives, as a function of what is left of the file. *)
Definition slice_of (d : byte) (l : bytes) : bytes * ending :=
  match cut_byte d (firstn cap l) with
  | Some (a, _) => (a ++ [d], Found)
  | None => if (cap <=? List.length l)%nat then (firstn cap l, BufferFull) else (l, AtEof)
  end.

Lemma read_slice_exec d : forall fuel pos s, inv pos s ->
  (cap - List.length (b_buf s) + (if b_eof s then 0 else 1) < fuel)%nat ->
  exists s', exec (read_slice file cap chunk fuel d) s = (Ok (slice_of d (rest pos)), s')
    /\ inv (pos + zlen (fst (slice_of d (rest pos)))) s'.
Proof.
  induction fuel as [|fuel IH]; intros pos s Hi Hf; [lia|].
  cbn [read_slice bind get modify exec].
  pose proof Hi as [Hp Ho Hr Hc He].
  destruct (cut_byte d (b_buf s)) as [[a b]|] eqn:Ec.
  - apply cut_byte_Some in Ec as [Eb Hn]. cbn [bind modify exec].
    assert (Hl : (S (length a) <= length (b_buf s))%nat) by (rewrite Eb, app_length; cbn; lia).
    assert (Es : slice_of d (rest pos) = (a ++ [d], Found)).
    { unfold slice_of. rewrite Hr, Eb, <- app_assoc. cbn [app].
      rewrite firstn_app. rewrite (firstn_all2 (n := cap) a) by lia.
      replace (cap - length a)%nat with (S (cap - length a - 1)) by lia. cbn [firstn].
      rewrite cut_byte_app by exact Hn. reflexivity. }
    rewrite Es. cbn [fst]. eexists. split; [reflexivity|].
    replace (pos + zlen (a ++ [d])) with (pos + Z.of_nat (S (length a))) by (unfold zlen; rewrite app_length; cbn [length]; lia).
    apply inv_drop; assumption.
  - apply cut_byte_None in Ec. destruct (b_eof s) eqn:Ee.
    + cbn [bind modify exec]. destruct (He eq_refl) as [He1 He2]. rewrite He1, app_nil_r in Hr.
      assert (Es : slice_of d (rest pos) = (b_buf s, AtEof)).
      { unfold slice_of. rewrite Hr, firstn_all2 by lia. rewrite cut_byte_notin by exact Ec.
        destruct (Nat.leb_spec cap (length (b_buf s))); [lia|reflexivity]. }
      rewrite Es. cbn [fst]. eexists. split; [reflexivity|]. apply inv_drop_all; assumption.
    + destruct (Nat.leb_spec cap (length (b_buf s))) as [Hle|Hlt].
      * cbn [bind modify exec].
        assert (Es : slice_of d (rest pos) = (b_buf s, BufferFull)).
        { unfold slice_of. rewrite Hr, firstn_app. replace (cap - length (b_buf s))%nat with O by lia.
          rewrite firstn_all2, firstn_O, app_nil_r by lia. rewrite cut_byte_notin by exact Ec.
          rewrite app_length. destruct (Nat.leb_spec cap (length (b_buf s) + length (rest (f_off s)))); [reflexivity|lia]. }
        rewrite Es. cbn [fst]. eexists. split; [reflexivity|]. apply inv_drop; [assumption|lia].
      * cbn [bind modify exec]. destruct (inv_fill pos s Hi Hlt Ee) as [Hi' Hm].
        apply IH; [exact Hi'|].
        destruct Hm as [[-> ->]|[-> Hm]]; lia.
Qed.

Lemma read_byte_exec : forall fuel pos s, inv pos s ->
  ((match b_buf s with [] => 1 | _ => 0 end) + (if b_eof s then 0 else 1) < fuel)%nat ->
  exists s', exec (read_byte file cap chunk fuel) s = (Ok (nth_error file (Z.to_nat pos)), s')
    /\ inv (pos + (match nth_error file (Z.to_nat pos) with Some _ => 1 | None => 0 end)) s'.
Proof.
  assert (Hnth : forall n (l : bytes), nth_error l n = match skipn n l with x :: _ => Some x | [] => None end).
  { induction n as [|n IH]; intros [|x l]; cbn; try reflexivity. apply IH. }
  induction fuel as [|fuel IH]; intros pos s Hi Hf; [lia|].
  cbn [read_byte bind get modify exec].
  pose proof Hi as [Hp Ho Hr Hc He].
  destruct (b_buf s) as [|x l] eqn:Eb.
  - destruct (b_eof s) eqn:Ee.
    + cbn [bind modify exec]. destruct (He eq_refl) as [He1 He2]. cbn [app] in Hr. rewrite He1 in Hr.
      rewrite Hnth, Hr. eexists. split; [reflexivity|].
      replace (pos + 0) with (pos + zlen (b_buf s)) by (rewrite Eb; reflexivity). apply inv_drop_all; assumption.
    + cbn [bind modify exec]. assert (Hlt : (length (b_buf s) < cap)%nat) by (rewrite Eb; cbn; lia).
      destruct (inv_fill pos s Hi Hlt Ee) as [Hi' Hm].
      apply IH; [exact Hi'|].
      destruct Hm as [[-> ->]|[-> Hm]].
      * rewrite Eb. lia.
      * destruct (b_buf (fill file cap chunk s)); [cbn in Hm; lia|]. lia.
  - cbn [bind modify exec]. rewrite Hnth, Hr. cbn [app]. eexists. split; [reflexivity|].
    apply (inv_drop pos s 1 Hi). rewrite Eb. cbn. lia.
Qed.

Lemma set_offset_exec p pos s : inv pos s ->
  exists s', exec (set_buffered_offset p) s = (if p <? 0 then Err EIo else Ok tt, s') /\ inv (if p <? 0 then pos else p) s'.
Proof.
  intros Hi. unfold set_buffered_offset. destruct (Z.ltb_spec p 0) as [H|H]; cbn [bind get modify exec].
  - eexists. split; [reflexivity|exact Hi].
  - eexists. split; [reflexivity|]. split; cbn [f_off b_buf b_eof]; try lia; try discriminate.
    + cbn. lia.
    + reflexivity.
    + cbn. lia.
Qed.

Lemma cut_firstn_found d l a b : cut_byte d (firstn cap l) = Some (a, b) ->
  firstn (S (length a)) l = a ++ [d] /\ ~ In d a /\ (length a < cap)%nat.
Proof.
  intro H. apply cut_byte_Some in H as [E Hn].
  assert (Hl : (S (length a) <= length (firstn cap l))%nat) by (rewrite E, app_length; cbn; lia).
  rewrite firstn_length in Hl. split; [|split; [exact Hn|lia]].
  replace (S (length a)) with (Nat.min (S (length a)) cap) by lia.
  rewrite <- firstn_firstn, E. rewrite firstn_app.
  rewrite firstn_all2 by lia. replace (S (length a) - length a)%nat with 1%nat by lia. reflexivity.
Qed.

Lemma run_op_at o pos s : inv pos s -> exists pos', op_at file cap pos o (fst (run_op file cap chunk o s)) pos' /\ inv pos' (snd (run_op file cap chunk o s)).
Proof.
  intros Hi. pose proof Hi as [Hp _ _ _ _]. destruct o as [|d| |p]; cbn [run_op].
  - destruct (read_byte_exec (S (S cap)) pos s Hi) as (s' & -> & Hi').
    { destruct (b_buf s), (b_eof s); lia. }
    cbn [fst snd]. destruct (nth_error file (Z.to_nat pos)) as [b|] eqn:E.
    + exists (pos + 1). split; [constructor; exact E|exact Hi'].
    + exists pos. rewrite Z.add_0_r in Hi'. split; [constructor|exact Hi'].
      apply nth_error_None in E. unfold zlen. lia.
  - destruct (read_slice_exec d (S (S cap)) pos s Hi) as (s' & -> & Hi').
    { destruct (b_eof s); lia. }
    cbn [fst snd]. exists (pos + zlen (fst (slice_of d (rest pos)))). split; [|exact Hi'].
    unfold slice_of. destruct (cut_byte d (firstn cap (rest pos))) as [[a b]|] eqn:Ec.
    + apply cut_firstn_found in Ec as (E1 & E2 & E3). cbn [fst].
      replace (pos + zlen (a ++ [d])) with (pos + zlen a + 1) by (unfold zlen; rewrite app_length; cbn [length]; lia).
      apply at_slice; [|exact E2|exact E3]. unfold slice, zlen.
      replace (Z.to_nat (Z.of_nat (length a) + 1)) with (S (length a)) by lia. exact E1.
    + apply cut_byte_None in Ec. destruct (Nat.leb_spec cap (length (rest pos))) as [H|H]; cbn [fst].
      * assert (El : length (firstn cap (rest pos)) = cap) by (rewrite firstn_length; lia).
        apply at_slice_full; [|exact Ec|exact El].
        unfold slice, zlen. rewrite Nat2Z.id, El. reflexivity.
      * apply at_slice_end; [reflexivity| |exact H]. rewrite firstn_all2 in Ec by lia. exact Ec.
  - exists pos. cbn [fst snd]. rewrite (inv_offset pos s Hi). split; [constructor|exact Hi].
  - destruct (set_offset_exec p pos s Hi) as (s' & -> & Hi'). cbn [fst snd].
    eexists. split; [|exact Hi']. destruct (Z.ltb_spec p 0); constructor; lia.
Qed.

Lemma run_ops_at : forall os pos s, inv pos s ->
  exists pos', ops_at file cap pos os (fst (run_ops file cap chunk os s)) pos' /\ inv pos' (snd (run_ops file cap chunk os s)).
Proof.
  induction os as [|o os IH]; intros pos s Hi; cbn [run_ops].
  - exists pos. split; [constructor|exact Hi].
  - destruct (run_op_at o pos s Hi) as (p1 & H1 & Hi1).
    destruct (run_op file cap chunk o s) as [r s1]. cbn [fst snd] in H1, Hi1.
    destruct (IH p1 s1 Hi1) as (p2 & H2 & Hi2).
    destruct (run_ops file cap chunk os s1) as [rs s2]. cbn [fst snd] in *.
    exists p2. split; [econstructor; eassumption|exact Hi2].
Qed.

Lemma run_ops_new os : exists pos', ops_at file cap 0 os (fst (run_ops file cap chunk os new_reader)) pos'.
Proof. destruct (run_ops_at os 0 new_reader inv_new) as (p & H & _). exists p. exact H. Qed.
End Facts.
