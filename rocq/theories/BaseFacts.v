(** Facts about the vocabulary of Base.v. *)
From Coq Require Import List ZArith Lia Bool String Permutation.
From Coq Require Import Strings.Byte.
From Coq Require Import ZifyBool ZifyNat.
From Verif Require Import Base.
Import ListNotations.
Open Scope Z_scope.

Lemma beqb_eq a b : beqb a b = true <-> a = b.
Proof. unfold beqb. apply Byte.byte_dec_bl || (split; [apply Byte.byte_dec_bl | apply Byte.byte_dec_lb]). Qed.

Lemma beqb_refl a : beqb a a = true.
Proof. apply beqb_eq; reflexivity. Qed.

Lemma beqb_neq a b : beqb a b = false <-> a <> b.
Proof.
  destruct (beqb a b) eqn:E; split; intros; try discriminate; try congruence.
  - apply beqb_eq in E; congruence.
  - intros ->. rewrite beqb_refl in E; discriminate.
Qed.

Lemma bytes_eqb_eq a b : bytes_eqb a b = true <-> a = b.
Proof.
  revert b; induction a as [|x a IH]; intros [|y b]; simpl; split; intros H;
    try discriminate; try reflexivity.
  - apply andb_true_iff in H as [H1 H2]. apply beqb_eq in H1. apply IH in H2. congruence.
  - injection H as -> ->. rewrite beqb_refl. simpl. apply IH; reflexivity.
Qed.

Lemma bytes_eqb_refl a : bytes_eqb a a = true.
Proof. apply bytes_eqb_eq; reflexivity. Qed.

Lemma bytes_eqb_neq a b : bytes_eqb a b = false <-> a <> b.
Proof.
  destruct (bytes_eqb a b) eqn:E; split; intros; try discriminate; try congruence.
  - apply bytes_eqb_eq in E; congruence.
  - intros ->. rewrite bytes_eqb_refl in E; discriminate.
Qed.

Lemma bytes_eqb_sym a b : bytes_eqb a b = bytes_eqb b a.
Proof.
  destruct (bytes_eqb a b) eqn:E.
  - apply bytes_eqb_eq in E; subst. symmetry. apply bytes_eqb_refl.
  - symmetry. apply bytes_eqb_neq. apply bytes_eqb_neq in E. congruence.
Qed.

Lemma bytes_dec (a b : bytes) : {a = b} + {a <> b}.
Proof.
  destruct (bytes_eqb a b) eqn:E; [left; apply bytes_eqb_eq | right; apply bytes_eqb_neq]; assumption.
Qed.

(** ** Lengths and slices *)

Lemma zlen_nonneg {A} (l : list A) : 0 <= zlen l.
Proof. unfold zlen; lia. Qed.

Lemma zlen_app {A} (a b : list A) : zlen (a ++ b) = zlen a + zlen b.
Proof. unfold zlen. rewrite app_length. lia. Qed.

Lemma zlen_cons {A} (x : A) l : zlen (x :: l) = 1 + zlen l.
Proof. unfold zlen. simpl List.length. lia. Qed.

Lemma zlen_nil {A} : zlen (@nil A) = 0.
Proof. reflexivity. Qed.

Lemma zlen_repeat {A} (x : A) n : zlen (repeat x n) = Z.of_nat n.
Proof. unfold zlen. rewrite repeat_length. reflexivity. Qed.

Lemma zlen_zero_nil {A} (l : list A) : zlen l = 0 -> l = [].
Proof. destruct l; unfold zlen; simpl; [reflexivity | lia]. Qed.

Lemma skipn_skipn {A} (x y : nat) (l : list A) : skipn x (skipn y l) = skipn (x + y) l.
Proof.
  revert l; induction y as [|y IH]; intros l.
  - rewrite Nat.add_0_r. reflexivity.
  - rewrite Nat.add_succ_r. destruct l; [rewrite !skipn_nil; reflexivity|]. simpl. apply IH.
Qed.

Lemma nth_skipn {A} (k i : nat) (l : list A) d : nth i (skipn k l) d = nth (k + i) l d.
Proof.
  revert l; induction k as [|k IH]; intros l; [reflexivity|].
  destruct l; simpl; [destruct i; reflexivity | apply IH].
Qed.

Lemma slice_length {A} (l : list A) off n :
  0 <= off -> 0 <= n -> off + n <= zlen l -> zlen (slice l off n) = n.
Proof.
  unfold zlen, slice. intros. rewrite firstn_length, skipn_length. lia.
Qed.

Lemma slice_app_l {A} (a b : list A) off n :
  0 <= off -> 0 <= n -> off + n <= zlen a -> slice (a ++ b) off n = slice a off n.
Proof.
  unfold zlen, slice. intros. rewrite skipn_app, firstn_app, skipn_length.
  replace (Z.to_nat n - (List.length a - Z.to_nat off))%nat with 0%nat by lia.
  simpl. rewrite app_nil_r. reflexivity.
Qed.

Lemma slice_app_r {A} (a b : list A) off n :
  zlen a <= off -> 0 <= n -> slice (a ++ b) off n = slice b (off - zlen a) n.
Proof.
  unfold zlen, slice. intros. rewrite skipn_app.
  rewrite (skipn_all2 a) by lia. simpl.
  do 2 f_equal. lia.
Qed.

Lemma slice_app_mid {A} (a b : list A) off n :
  0 <= off <= zlen a -> zlen a <= off + n ->
  slice (a ++ b) off n = slice a off (zlen a - off) ++ slice b 0 (off + n - zlen a).
Proof.
  unfold zlen, slice. intros. rewrite skipn_app, firstn_app, skipn_length.
  f_equal.
  - rewrite !firstn_all2; rewrite ?skipn_length; try lia. reflexivity.
  - replace (Z.to_nat off - List.length a)%nat with 0%nat by lia. simpl.
    f_equal; lia.
Qed.

Lemma slice_full {A} (l : list A) n : n = zlen l -> slice l 0 n = l.
Proof. unfold slice, zlen. intros ->. simpl. apply firstn_all2. lia. Qed.

Lemma slice_slice {A} (l : list A) o1 n1 o2 n2 :
  0 <= o1 -> 0 <= o2 -> 0 <= n2 -> o2 + n2 <= n1 ->
  slice (slice l o1 n1) o2 n2 = slice l (o1 + o2) n2.
Proof.
  unfold slice. intros. rewrite skipn_firstn_comm, firstn_firstn, skipn_skipn.
  f_equal; [lia | f_equal; lia].
Qed.

Lemma slice_nil {A} (l : list A) off : slice l off 0 = [].
Proof. reflexivity. Qed.

Lemma zlen_overwrite {A} (l : list A) off bs :
  0 <= off <= zlen l -> zlen (overwrite l off bs) = Z.max (zlen l) (off + zlen bs).
Proof.
  unfold zlen, overwrite. intros. rewrite !app_length, firstn_length, skipn_length. lia.
Qed.

Lemma overwrite_end {A} (l : list A) bs : overwrite l (zlen l) bs = l ++ bs.
Proof.
  unfold overwrite, zlen. rewrite Nat2Z.id, firstn_all.
  rewrite skipn_all2 by lia. rewrite app_nil_r. reflexivity.
Qed.

Lemma slice_overwrite_same {A} (l : list A) off bs :
  0 <= off <= zlen l -> slice (overwrite l off bs) off (zlen bs) = bs.
Proof.
  unfold zlen, overwrite, slice. intros.
  rewrite skipn_app, firstn_length.
  rewrite (skipn_all2 (firstn _ l)) by (rewrite firstn_length; lia).
  replace (Z.to_nat off - Nat.min (Z.to_nat off) (List.length l))%nat with 0%nat by lia.
  simpl. rewrite firstn_app, Nat2Z.id, Nat.sub_diag. simpl.
  rewrite firstn_all, app_nil_r. reflexivity.
Qed.

Lemma slice_overwrite_below {A} (l : list A) off bs o n :
  0 <= o -> 0 <= n -> o + n <= off -> off <= zlen l ->
  slice (overwrite l off bs) o n = slice l o n.
Proof.
  intros. unfold overwrite.
  rewrite slice_app_l by (unfold zlen in *; rewrite ?firstn_length; lia).
  unfold slice. rewrite skipn_firstn_comm, firstn_firstn. f_equal. lia.
Qed.

Lemma slice_overwrite_above {A} (l : list A) off bs o n :
  0 <= off <= zlen l -> 0 <= n -> off + zlen bs <= o ->
  slice (overwrite l off bs) o n = slice l o n.
Proof.
  intros. unfold overwrite. rewrite app_assoc.
  rewrite slice_app_r by (rewrite ?zlen_app; unfold zlen in *; rewrite ?firstn_length; lia).
  rewrite zlen_app. unfold slice, zlen in *. rewrite skipn_skipn, firstn_length.
  f_equal. f_equal. lia.
Qed.

Lemma nth_overwrite_out {A} (l : list A) off bs i d :
  0 <= off <= zlen l -> (Z.of_nat i < off \/ off + zlen bs <= Z.of_nat i) ->
  nth i (overwrite l off bs) d = nth i l d.
Proof.
  unfold overwrite, zlen. intros Ho Hi.
  destruct Hi.
  - rewrite app_nth1 by (rewrite firstn_length; lia).
    rewrite <- (firstn_skipn (Z.to_nat off) l) at 2.
    rewrite app_nth1 by (rewrite firstn_length; lia). reflexivity.
  - rewrite app_nth2; rewrite firstn_length; [|lia].
    rewrite app_nth2; [|lia].
    rewrite nth_skipn. f_equal. lia.
Qed.

Lemma nth_overwrite_in {A} (l : list A) off bs i d :
  0 <= off <= zlen l -> off <= Z.of_nat i < off + zlen bs ->
  nth i (overwrite l off bs) d = nth (i - Z.to_nat off) bs d.
Proof.
  unfold overwrite, zlen. intros Ho Hi.
  rewrite app_nth2; rewrite firstn_length; [|lia].
  rewrite app_nth1; [|lia]. f_equal. lia.
Qed.

Lemma nth_slice {A} (l : list A) off n i d :
  0 <= off -> Z.of_nat i < n -> nth i (slice l off n) d = nth (Z.to_nat off + i) l d.
Proof.
  intros. unfold slice.
  rewrite <- nth_skipn.
  destruct (le_lt_dec (List.length (skipn (Z.to_nat off) l)) i) as [Hge|Hlt].
  - rewrite (nth_overflow (skipn _ _)) by lia. apply nth_overflow.
    rewrite firstn_length. lia.
  - rewrite <- (firstn_skipn (Z.to_nat n) (skipn (Z.to_nat off) l)) at 2.
    rewrite app_nth1; [reflexivity|]. rewrite firstn_length. lia.
Qed.

(** ** Maps *)

Lemma mget_mset_same {V} (m : list (bytes * V)) k v : mget (mset m k v) k = Some v.
Proof.
  induction m as [|[k' v'] m IH]; simpl.
  - rewrite bytes_eqb_refl. reflexivity.
  - destruct (bytes_eqb k' k) eqn:E; simpl; rewrite E; auto.
Qed.

Lemma mget_mset_other {V} (m : list (bytes * V)) k k' v :
  k <> k' -> mget (mset m k v) k' = mget m k'.
Proof.
  intros Hne. induction m as [|[k0 v0] m IH]; simpl.
  - apply bytes_eqb_neq in Hne. rewrite Hne. reflexivity.
  - destruct (bytes_eqb k0 k) eqn:E; simpl.
    + apply bytes_eqb_eq in E; subst. apply bytes_eqb_neq in Hne. rewrite Hne. reflexivity.
    + destruct (bytes_eqb k0 k'); auto.
Qed.

Lemma mget_In {V} (m : list (bytes * V)) k v : mget m k = Some v -> In (k, v) m.
Proof.
  induction m as [|[k0 v0] m IH]; simpl; [discriminate|].
  destruct (bytes_eqb k0 k) eqn:E.
  - apply bytes_eqb_eq in E; subst. injection 1 as ->. auto.
  - auto.
Qed.

Lemma In_mget {V} (m : list (bytes * V)) k v :
  NoDup (map fst m) -> In (k, v) m -> mget m k = Some v.
Proof.
  induction m as [|[k0 v0] m IH]; simpl; [tauto|].
  inversion 1; subst. intros [Heq | Hin].
  - injection Heq as -> ->. rewrite bytes_eqb_refl. reflexivity.
  - destruct (bytes_eqb k0 k) eqn:E; auto.
    apply bytes_eqb_eq in E; subst. exfalso. apply H2.
    apply in_map_iff. exists (k, v). auto.
Qed.

Lemma mget_None {V} (m : list (bytes * V)) k : mget m k = None <-> ~ In k (map fst m).
Proof.
  induction m as [|[k0 v0] m IH]; simpl; [tauto|].
  destruct (bytes_eqb k0 k) eqn:E.
  - apply bytes_eqb_eq in E; subst. split; [discriminate | tauto].
  - apply bytes_eqb_neq in E. rewrite IH. tauto.
Qed.

Lemma mset_keys_NoDup {V} (m : list (bytes * V)) k v :
  NoDup (map fst m) -> NoDup (map fst (mset m k v)).
Proof.
  induction m as [|[k0 v0] m IH]; simpl; intros H.
  - constructor; [tauto | constructor].
  - inversion H; subst. destruct (bytes_eqb k0 k) eqn:E; simpl.
    + constructor; assumption.
    + constructor; auto. intros Hin. apply H2.
      clear - Hin E. induction m as [|[k1 v1] m IH]; simpl in *.
      * destruct Hin as [->|[]]. rewrite bytes_eqb_refl in E; discriminate.
      * destruct (bytes_eqb k1 k) eqn:E1; simpl in *; tauto.
Qed.

Lemma mget_perm {V} (m m' : list (bytes * V)) k :
  NoDup (map fst m) -> Permutation m m' -> mget m k = mget m' k.
Proof.
  intros Hnd Hp.
  assert (Hnd' : NoDup (map fst m')).
  { eapply Permutation_NoDup; [apply Permutation_map; exact Hp | assumption]. }
  destruct (mget m k) as [v|] eqn:E.
  - symmetry. apply In_mget; [assumption|]. apply mget_In in E.
    eapply Permutation_in; eassumption.
  - symmetry. apply mget_None. apply mget_None in E. intros Hin. apply E.
    eapply Permutation_in; [|exact Hin]. apply Permutation_map. symmetry. exact Hp.
Qed.

(** ** Pigeonhole *)
Lemma NoDup_Z_bound (l : list Z) n :
  NoDup l -> Forall (fun o => 0 <= o < n) l -> (List.length l <= Z.to_nat n)%nat.
Proof.
  intros Hnd Hall.
  assert (H : NoDup (map Z.to_nat l)).
  { clear - Hnd Hall. induction l as [|x l IH]; simpl; [constructor|].
    inversion Hnd; inversion Hall; subst. constructor; auto.
    intros Hin. apply in_map_iff in Hin as [y [Hy Hin]].
    assert (x = y) by (rewrite Forall_forall in H6; specialize (H6 _ Hin); lia).
    subst; contradiction. }
  rewrite <- (map_length Z.to_nat l), <- (seq_length (Z.to_nat n) 0).
  apply NoDup_incl_length; [assumption|].
  intros x Hx. apply in_map_iff in Hx as [y [<- Hin]].
  rewrite Forall_forall in Hall. specialize (Hall _ Hin). apply in_seq. lia.
Qed.

Lemma wrap64_id z : in_i64 z -> wrap64 z = z.
Proof. unfold in_i64, wrap64, two63, two64. intros. rewrite Z.mod_small; lia. Qed.

Lemma wrap64_range z : in_i64 (wrap64 z).
Proof.
  unfold in_i64, wrap64, two63, two64.
  pose proof (Z.mod_pos_bound (z + 9223372036854775808) 18446744073709551616). lia.
Qed.
