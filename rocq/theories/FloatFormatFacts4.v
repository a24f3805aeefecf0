(** The texts. *)
From Coq Require Import List ZArith Lia Bool String.
From Coq Require Import Strings.Byte Floats.SpecFloat.
From Verif Require Import Base Codec GoStrings SpecText StringsFacts Utf8Facts Json SpecJson JsonFacts FloatText SpecFloatText FloatTextFacts FloatFormat FloatFormatFacts FloatFormatFacts2 FloatFormatFacts3.
Import ListNotations.
Open Scope Z_scope.

Lemma shortest_spec m k : 0 < m -> canonical m k -> exists d q, shortest m k = Some (d, q) /\ 0 < d < 10 ^ 17 /\ d mod 10 <> 0 /\ within m k (numer d q) (denom q) /\
  (forall x p, within m k (numer x p) (denom p) -> p <= q) /\ (forall x, within m k (numer x q) (denom q) -> far m k d q <= far m k x q).
Proof.
  intros Hm (Hk & Hm2 & _). assert (F : first_digit m k + 1074 <= Z.of_nat 1449).
  { assert (V : 0 < m * 2 ^ k) by (apply Z.mul_pos_pos; [lia|apply pow2_nonneg; lia]). assert (L : Z.log2 (m * 2 ^ k) < 53 + 2045).
    { apply Z.log2_lt_pow2; [exact V|]. rewrite Z.pow_add_r by lia. apply Z.lt_le_trans with (2 ^ 53 * 2 ^ k); [apply Z.mul_lt_mono_pos_r; [apply pow2_nonneg; lia|lia]|]. apply Z.mul_le_mono_nonneg_l; [lia|]. apply Z.pow_le_mono_r; lia. }
    change (Z.of_nat 1449) with 1449. unfold first_digit. cbv zeta. destruct (0 <=? Z.log2 (m * 2 ^ k) - 1072) eqn:E; [apply Z.leb_le in E|apply Z.leb_gt in E].
    - assert ((Z.log2 (m * 2 ^ k) - 1072) / 3 <= 1025 / 3) by (apply Z.div_le_mono; lia). change (1025 / 3) with 341 in H. lia.
    - assert (0 <= - (Z.log2 (m * 2 ^ k) - 1072) / 10) by (apply Z.div_pos; lia). lia. }
  destruct (loop_ends m k Hm ltac:(lia) 1449 (first_digit m k) F) as ((d & q) & E). exists d, q. unfold shortest. change 1450%nat with (S 1449). split; [exact E|].
  destruct (loop_spec m k Hm ltac:(lia) (S 1449) _ _ _ E) as (_ & W & N & C).
  assert (Hh : forall x p, within m k (numer x p) (denom p) -> p <= q).
  { intros x p Hx. destruct (Z_le_gt_dec p q) as [|L]; [assumption|exfalso]. pose proof (within_first m k Hm ltac:(lia) x p Hx). apply (N p x); [lia|exact Hx]. }
  split; [split; [exact (within_pos m k Hm ltac:(lia) _ _ W)|exact (seventeen m k ltac:(lia) d q W Hh Hm2)]|].
  split; [exact (last_digit m k ltac:(lia) d q W Hh)|]. auto.
Qed.

(** *** Digits *)
Lemma digits_value_bounds ds : forall a, forallb is_digit ds = true -> 0 <= a -> a * 10 ^ zlen ds <= digits_value ds a < (a + 1) * 10 ^ zlen ds.
Proof.
  induction ds as [|c ds IH]; intros a H Ha; cbn [digits_value]; [change (zlen (@nil byte)) with 0; lia|]. cbn [forallb] in H. apply andb_true_iff in H as [Hc H].
  apply is_digit_spec in Hc. rewrite zlen_nil_cons, Z.pow_add_r by (unfold zlen; lia). change (10 ^ 1) with 10. assert (P : 0 < 10 ^ zlen ds) by (apply Z.pow_pos_nonneg; unfold zlen; lia).
  specialize (IH (10 * a + digit_val c) H). unfold digit_val in *. specialize (IH ltac:(lia)).
  assert (a * 10 * 10 ^ zlen ds <= (10 * a + (Z_of_byte c - 48)) * 10 ^ zlen ds) by (apply Z.mul_le_mono_nonneg_r; lia).
  assert ((10 * a + (Z_of_byte c - 48) + 1) * 10 ^ zlen ds <= (a + 1) * 10 * 10 ^ zlen ds) by (apply Z.mul_le_mono_nonneg_r; lia). lia.
Qed.
Lemma digits_value_app a b z : digits_value (a ++ b) z = digits_value b (digits_value a z).
Proof. revert z. induction a as [|c a IH]; intros z; [reflexivity|]. cbn [app digits_value]. apply IH. Qed.
Lemma digits_value_zeros n z : digits_value (repeat x30 n) z = z * 10 ^ Z.of_nat n.
Proof.
  revert z. induction n as [|n IH]; intros z; [cbn; lia|]. cbn [repeat digits_value]. rewrite IH. change (digit_val x30) with 0. rewrite Nat2Z.inj_succ, Z.pow_succ_r by lia. ring.
Qed.
Lemma zeros_digits n : forallb is_digit (repeat x30 n) = true. Proof. induction n; [reflexivity|exact IHn]. Qed.

Lemma itoa_spec d : 0 < d -> exists c r, itoa d = c :: r /\ c <> x30 /\ forallb is_digit (itoa d) = true /\ digits_value (itoa d) 0 = d /\ 10 ^ (zlen (itoa d) - 1) <= d < 10 ^ zlen (itoa d).
Proof.
  intros Hd. destruct d as [|p|p]; try lia. unfold itoa. cbn [Z.to_int DecimalString.NilZero.string_of_int].
  pose proof (DecimalPos.Unsigned.to_uint_nonnil p) as Hn. rewrite uint_bytes_zero by exact Hn. pose proof (uint_number _ Hn (pos_unorm p)) as Hi. pose proof (uint_digits (Pos.to_uint p)) as Ha. pose proof (uint_value (Pos.to_uint p)) as Hv.
  assert (Ev : Z.of_uint (Pos.to_uint p) = Zpos p) by (unfold Z.of_uint; rewrite DecimalPos.Unsigned.of_to; reflexivity). rewrite Ev in Hv.
  destruct (uint_bytes (Pos.to_uint p)) as [|c r] eqn:E; [discriminate Hi|]. exists c, r. split; [reflexivity|].
  assert (Hc : c <> x30). { intros ->. unfold num_int in Hi. assert (Er : r = []) by congruence. subst r. cbn in Hv. lia. }
  split; [exact Hc|]. split; [exact Ha|]. split; [exact Hv|]. pose proof (digits_value_bounds (c :: r) 0 Ha ltac:(lia)) as B. rewrite Hv in B. split; [|lia].
  cbn [digits_value] in Hv. cbn [forallb] in Ha. apply andb_true_iff in Ha as [Hc1 Ha]. pose proof Hc1 as Hc2. apply is_digit_spec in Hc2.
  assert (1 <= digit_val c). { unfold digit_val in *. assert (Z_of_byte c <> 48); [|lia]. intros E48. apply Hc. destruct c; vm_compute in E48; try discriminate E48; reflexivity. }
  pose proof (digits_value_bounds r (10 * 0 + digit_val c) Ha ltac:(lia)) as B2. rewrite Hv in B2. rewrite zlen_nil_cons. replace (zlen r + 1 - 1) with (zlen r) by lia.
  assert (1 * 10 ^ zlen r <= (10 * 0 + digit_val c) * 10 ^ zlen r) by (apply Z.mul_le_mono_nonneg_r; [apply Z.pow_nonneg; lia|lia]). lia.
Qed.

(** *** Shapes *)
Definition stop (s : bytes) : Prop := match s with [] => True | c :: _ => is_digit c = false end.
Lemma digits_stop i rest : forallb is_digit i = true -> stop rest -> digits (i ++ rest) = (i, rest).
Proof.
  induction i as [|c i IH]; intros H Hs.
  - destruct rest as [|c r]; [reflexivity|]. cbn [app digits]. cbn in Hs. rewrite Hs. reflexivity.
  - cbn [forallb] in H. apply andb_true_iff in H as [Hc H]. cbn [app digits]. rewrite Hc, IH by assumption. reflexivity.
Qed.
Definition whole_part (i : bytes) : Prop := i = [x30] \/ exists c r, i = c :: r /\ c <> x30 /\ forallb is_digit i = true.
Definition fraction_part (f : bytes) : Prop := f = [] \/ exists fs, f = x2e :: fs /\ fs <> [] /\ forallb is_digit fs = true.
Definition exponent_part (x : bytes) : Prop := x = [] \/ exists sg xs, x = x65 :: sg :: xs /\ (sg = x2b \/ sg = x2d) /\ xs <> [] /\ forallb is_digit xs = true.

Lemma number_shape neg i f x : whole_part i -> fraction_part f -> exponent_part x -> number_text (sign_text neg ++ i ++ f ++ x).
Proof.
  intros Hi Hf Hx. assert (Ex : num_exp x = Some (x, [])).
  { destruct Hx as [->|(sg & xs & -> & Hs & Hn & Hd)]; [reflexivity|]. unfold num_exp. destruct Hs as [-> | ->]; rewrite (digits_all _ Hd); (destruct xs; [congruence|reflexivity]). }
  assert (Sx : stop x) by (destruct Hx as [->|(sg & xs & -> & _)]; [exact I|reflexivity]).
  assert (Ef : num_frac (f ++ x) = Some (f, x)).
  { destruct Hf as [->|(fs & -> & Hn & Hd)].
    - destruct Hx as [->|(sg & xs & -> & _)]; reflexivity.
    - cbn [app num_frac]. rewrite digits_stop by assumption. destruct fs; [congruence|reflexivity]. }
  assert (Sf : stop (f ++ x)) by (destruct Hf as [->|(fs & -> & _)]; [exact Sx|reflexivity]).
  assert (Ei : num_int (i ++ f ++ x) = Some (i, f ++ x)).
  { destruct Hi as [->|(c & r & Ei & Hc & Hd)]; [reflexivity|]. unfold num_int.
    assert (E : match i ++ f ++ x with x30 :: r => Some ([x30], r) | _ => match digits (i ++ f ++ x) with ([], _) => None | dr => Some dr end end = match digits (i ++ f ++ x) with ([], _) => None | dr => Some dr end)
      by (rewrite Ei; cbn [app]; destruct c; try reflexivity; congruence).
    rewrite E, digits_stop by assumption. rewrite Ei. reflexivity. }
  unfold number_text, number. destruct neg; cbn [sign_text app]; [rewrite Ei, Ef, Ex; reflexivity|].
  match goal with |- (let '(_, _) := ?M in _) = _ => assert (E : M = ([], i ++ f ++ x)) end.
  { destruct Hi as [->|(c & r & Ei' & Hc & Hd)]; [reflexivity|]. rewrite Ei' in *. cbn [app]. cbn [forallb] in Hd. apply andb_true_iff in Hd as [Hd _]. destruct c; try reflexivity. discriminate Hd. }
  rewrite E, Ei, Ef, Ex. reflexivity.
Qed.

(** The number that a text of this shape shows. *)
Definition exp_value (x : bytes) : Z := match x with _ :: sg :: xs => if beqb sg "-" then - digits_value xs 0 else digits_value xs 0 | _ => 0 end.
Lemma exponent_shape x : exponent_part x -> exponent x (exp_value x).
Proof.
  intros [->|(sg & xs & -> & Hs & Hn & Hd)]; [constructor|]. assert (D : decimal xs (digits_value xs 0)) by (apply decimal_spec; auto).
  destruct Hs as [-> | ->]; [apply (ex_some x65 (lit "+") xs (digits_value xs 0))|apply (ex_some x65 (lit "-") xs (digits_value xs 0))]; cbn [lit In]; auto; vm_compute; tauto.
Qed.
Lemma whole_digits i : whole_part i -> i <> [] /\ forallb is_digit i = true.
Proof. intros [->|(c & r & -> & _ & H)]; (split; [discriminate|]); [reflexivity|exact H]. Qed.
Lemma sign_bytes neg : In (sign_text neg) [[]; lit "+"; lit "-"] /\ bytes_eqb (sign_text neg) (lit "-") = neg.
Proof. destruct neg; split; try reflexivity; vm_compute; tauto. Qed.
Lemma literal_shape neg i f x : whole_part i -> fraction_part f -> exponent_part x ->
  literal (sign_text neg ++ i ++ f ++ x) neg (digits_value (i ++ tl f) 0) (zlen (tl f)) (exp_value x).
Proof.
  intros Hi Hf Hx. destruct (whole_digits i Hi) as [Hn Hd]. destruct (sign_bytes neg) as [S1 S2]. rewrite <- S2 at 2. destruct Hf as [->|(fs & -> & Hfn & Hfd)].
  - cbn [tl app]. rewrite app_nil_r. change (zlen (@nil byte)) with 0. apply literal_whole; [exact S1|apply decimal_spec; auto|now apply exponent_shape].
  - cbn [tl]. change ((x2e :: fs) ++ x) with (lit "." ++ fs ++ x). apply literal_dot; [exact S1| |now apply exponent_shape].
    apply decimal_spec. split; [destruct i; [congruence|discriminate]|]. rewrite forallb_app, Hd, Hfd. auto.
Qed.
