(** How many digits are shown. *)
From Coq Require Import List ZArith Lia Bool String.
From Coq Require Import Strings.Byte Floats.SpecFloat.
From Verif Require Import Base Codec GoStrings FloatText SpecFloatText FloatTextFacts FloatFormat FloatFormatFacts FloatFormatFacts2.
Import ListNotations.
Open Scope Z_scope.

Lemma within_unshift m k x p q : q <= p -> within m k (numer (x * 10 ^ (p - q)) q) (denom q) -> within m k (numer x p) (denom p).
Proof. intros H. apply within_ratio; [apply pow10_pos|apply pow10_pos|symmetry; now apply numer_shift]. Qed.

Lemma pow2_nonneg k : 0 <= k -> 0 < 2 ^ k. Proof. intros. apply Z.pow_pos_nonneg; lia. Qed.

Section Digits.
Variables m k : Z.
Hypothesis m_pos : 0 < m.
Hypothesis k_nonneg : 0 <= k.
Let v := m * 2 ^ k.

(** The first digit of the upper bound is not before the first one of the loop. *)
Lemma first_large : upper m k * scale_of (first_digit m k) < 4 * unit_of (first_digit m k).
Proof.
  pose proof (pow2_nonneg k k_nonneg) as H2. assert (Hv : 0 < v) by (apply Z.mul_pos_pos; lia).
  destruct (bounds_around m k m_pos k_nonneg) as (_ & _ & B & _). fold v in B.
  pose proof (Z.log2_spec v Hv) as [_ L]. pose proof (Z.log2_nonneg v) as L0. unfold first_digit. fold v. set (l := Z.log2 v) in *. clearbody l v. cbv zeta.
  assert (U : upper m k < 2 ^ (l + 4)). { replace (l + 4) with (Z.succ l + 3) by lia. rewrite Z.pow_add_r by lia. change (2 ^ 3) with 8. lia. }
  assert (E4 : 4 * 2 ^ 1074 = 2 ^ 1076) by (change 4 with (2 ^ 2) at 1; rewrite <- Z.pow_add_r by lia; reflexivity).
  destruct (0 <=? l - 1072) eqn:E; [apply Z.leb_le in E|apply Z.leb_gt in E].
  - set (j := (l - 1072) / 3). assert (J : 0 <= j /\ l - 1072 <= 3 * j + 2) by (subst j; pose proof (Z.div_pos (l - 1072) 3); pose proof (Z.div_mod (l - 1072) 3); pose proof (Z.mod_pos_bound (l - 1072) 3); lia). clearbody j.
    unfold scale_of, unit_of. replace (Z.max 0 (- (j + 1))) with 0 by lia. replace (Z.max 0 (j + 1)) with (j + 1) by lia. rewrite Z.pow_0_r, Z.mul_1_r, Z.mul_assoc, E4.
    eapply Z.lt_le_trans; [exact U|]. apply Z.le_trans with (2 ^ (1076 + (3 * j + 2))); [apply Z.pow_le_mono_r; lia|]. rewrite Z.pow_add_r by lia. apply Z.mul_le_mono_nonneg_l; [apply Z.pow_nonneg; lia|].
    rewrite Z.pow_add_r, (Z.pow_add_r 10) by lia. rewrite Z.pow_mul_r by lia. change (2 ^ 3) with 8. change (10 ^ 1) with 10. change (2 ^ 2) with 4.
    assert (8 ^ j <= 10 ^ j) by (apply Z.pow_le_mono_l; lia). assert (0 < 8 ^ j) by (apply Z.pow_pos_nonneg; lia). lia.
  - set (j := - (l - 1072) / 10). assert (J : 0 <= j /\ 10 * j <= 1072 - l) by (subst j; pose proof (Z.div_pos (- (l - 1072)) 10); pose proof (Z.mul_div_le (- (l - 1072)) 10); lia). clearbody j.
    unfold scale_of, unit_of. replace (Z.max 0 (- - (3 * j))) with (3 * j) by lia. replace (Z.max 0 (- (3 * j))) with 0 by lia. rewrite Z.pow_0_r, Z.mul_1_r, E4.
    assert (10 ^ (3 * j) <= 2 ^ (10 * j)). { rewrite !Z.pow_mul_r by lia. apply Z.pow_le_mono_l. split; [lia|]. discriminate. }
    assert (0 < 10 ^ (3 * j)) by (apply Z.pow_pos_nonneg; lia).
    apply Z.lt_le_trans with (2 ^ (l + 4) * 10 ^ (3 * j)); [apply Z.mul_lt_mono_pos_r; assumption|].
    apply Z.le_trans with (2 ^ (l + 4) * 2 ^ (10 * j)); [apply Z.mul_le_mono_nonneg_l; [apply Z.pow_nonneg; lia|assumption]|].
    rewrite <- Z.pow_add_r by lia. apply Z.pow_le_mono_r; lia.
Qed.

Lemma within_pos x p : within m k (numer x p) (denom p) -> 0 < x.
Proof.
  intros [H _]. destruct (bounds_around m k m_pos k_nonneg) as (B & _). destruct (Z_lt_le_dec 0 x) as [|L]; [assumption|exfalso].
  assert (numer x p <= 0) by (unfold numer; pose proof (pow10_pos p); nia). pose proof pow2_1074.
  assert (numer x p * 2 ^ 1074 <= 0) by (apply Z.mul_nonpos_nonneg; lia). assert (0 < lower m k * denom p) by (apply Z.mul_pos_pos; [lia|apply pow10_pos]). destruct H as [H|[_ H]]; lia.
Qed.
Lemma within_first x p : within m k (numer x p) (denom p) -> p < first_digit m k.
Proof.
  intros H. pose proof (within_pos _ _ H) as Hx. destruct (Z_lt_le_dec p (first_digit m k)) as [|L]; [assumption|exfalso].
  apply (within_shift m k x p (first_digit m k) L) in H. destruct H as [_ H]. pose proof first_large as F. unfold below_upper in H. rewrite <- unit_numer in H. change (denom (first_digit m k)) with (scale_of (first_digit m k)) in H.
  assert (1 <= x * 10 ^ (p - first_digit m k)). { assert (0 < x * 10 ^ (p - first_digit m k)) by (apply Z.mul_pos_pos; [lia|apply Z.pow_pos_nonneg; lia]). lia. }
  pose proof (unit_pos (first_digit m k)) as Hu. assert (1 * unit_of (first_digit m k) <= x * 10 ^ (p - first_digit m k) * unit_of (first_digit m k)) by (apply Z.mul_le_mono_nonneg_r; lia).
  destruct H as [H|[_ H]]; lia.
Qed.

Lemma within_between p x y z : x <= y <= z -> within m k (numer x p) (denom p) -> within m k (numer z p) (denom p) -> within m k (numer y p) (denom p).
Proof.
  intros H [A _] [_ B]. split; [eapply lower_mono; [|exact A]|eapply upper_mono; [|exact B]]; apply numer_mono; lia.
Qed.

(** [d] * 10^[q] is in the interval and no multiple of a higher power of ten is. *)
Variables d q : Z.
Hypothesis d_within : within m k (numer d q) (denom q).
Hypothesis q_highest : forall x p, within m k (numer x p) (denom p) -> p <= q.

Lemma fewest x p n : 0 <= n -> within m k (numer x p) (denom p) -> x < 10 ^ n -> d < 10 ^ n.
Proof.
  intros Hn Hx Hlt. destruct (Z_lt_le_dec d (10 ^ n)) as [|L]; [assumption|exfalso]. pose proof (q_highest _ _ Hx) as Hp. pose proof (within_pos _ _ Hx) as Hx0.
  assert (W : within m k (numer (10 ^ (n + q - p)) p) (denom p)).
  { apply (within_between p x _ (d * 10 ^ (q - p))); [|exact Hx|now apply within_shift].
    assert (0 < 10 ^ (q - p)) by (apply Z.pow_pos_nonneg; lia). replace (n + q - p) with (n + (q - p)) by lia. rewrite Z.pow_add_r by lia. split; [|apply Z.mul_le_mono_nonneg_r; lia].
    assert (10 ^ n * 1 <= 10 ^ n * 10 ^ (q - p)) by (apply Z.mul_le_mono_nonneg_l; lia). lia. }
  assert (W2 : within m k (numer 1 (n + q)) (denom (n + q))) by (apply (within_unshift m k 1 (n + q) p ltac:(lia)); rewrite Z.mul_1_l; exact W).
  pose proof (q_highest _ _ W2). assert (n = 0) by lia. subst n. change (10 ^ 0) with 1 in *. lia.
Qed.

(** There is no 0 at the end. *)
Lemma last_digit : d mod 10 <> 0.
Proof.
  intros E. assert (W : within m k (numer (d / 10) (q + 1)) (denom (q + 1))).
  { apply (within_unshift m k (d / 10) (q + 1) q ltac:(lia)). replace (q + 1 - q) with 1 by lia. change (10 ^ 1) with 10. replace (d / 10 * 10) with d by (pose proof (Z.div_mod d 10); lia). exact d_within. }
  pose proof (q_highest _ _ W). lia.
Qed.

(** An interval as wide as a unit of 10^p has a multiple of it. *)
Lemma wide p : 4 * unit_of p < (upper m k - lower m k) * scale_of p -> p <= q.
Proof.
  intros H. pose proof (unit_pos p). set (x := (upper m k * scale_of p - 1) / (4 * unit_of p)).
  assert (X : x * (4 * unit_of p) < upper m k * scale_of p /\ lower m k * scale_of p < x * (4 * unit_of p)).
  { subst x. pose proof (Z.div_mod (upper m k * scale_of p - 1) (4 * unit_of p) ltac:(lia)). pose proof (Z.mod_pos_bound (upper m k * scale_of p - 1) (4 * unit_of p) ltac:(lia)). lia. }
  clearbody x. apply (q_highest x). split; left; rewrite <- unit_numer; change (denom p) with (scale_of p); lia.
Qed.

Hypothesis m_small : m < 2 ^ 53.
Lemma widths : (upper m k - lower m k = 4 * 2 ^ k /\ upper m k <= 2 ^ 55 * 2 ^ k) \/ (upper m k - lower m k = 3 * 2 ^ k /\ upper m k <= (2 ^ 54 + 2) * 2 ^ k).
Proof.
  pose proof (pow2_nonneg k k_nonneg). unfold upper, lower. destruct (2 ^ 52 <? m) eqn:E; cbn [orb]; [|apply Z.ltb_ge in E; destruct (k =? 0)]; [left|left|right]; split; try lia; apply Z.mul_le_mono_nonneg_r; lia.
Qed.
Lemma seventeen : d < 10 ^ 17.
Proof.
  pose proof widths as WW. destruct (Z_lt_le_dec d (10 ^ 17)) as [|L]; [assumption|exfalso]. pose proof (pow2_nonneg k k_nonneg) as H2.
  assert (W : within m k (numer (d * 1) q) (denom q)) by (rewrite Z.mul_1_r; exact d_within).
  assert (B : below_upper m k (numer (10 ^ 17) q) (denom q)) by (eapply upper_mono; [|exact (proj2 d_within)]; apply numer_mono; exact L).
  assert (C : 4 * (10 ^ 17 * unit_of q) <= upper m k * scale_of q). { unfold below_upper in B. rewrite <- unit_numer in B. change (denom q) with (scale_of q) in B. destruct B as [B|[_ B]]; lia. }
  assert (G : 10 ^ 16 * (4 * unit_of (q + 1)) <= upper m k * scale_of (q + 1)).
  { unfold unit_of, scale_of in *. destruct (Z_le_gt_dec 0 q) as [Hq|Hq].
    - replace (Z.max 0 (- q)) with 0 in C by lia. replace (Z.max 0 (- (q + 1))) with 0 by lia. replace (Z.max 0 q) with q in C by lia. replace (Z.max 0 (q + 1)) with (q + 1) by lia. rewrite Z.pow_add_r by lia. change (10 ^ 1) with 10. change (10 ^ 17) with (10 ^ 16 * 10) in C. lia.
    - replace (Z.max 0 q) with 0 in C by lia. replace (Z.max 0 (q + 1)) with 0 by lia. replace (Z.max 0 (- q)) with (- (q + 1) + 1) in C by lia. replace (Z.max 0 (- (q + 1))) with (- (q + 1)) by lia. rewrite Z.pow_add_r in C by lia. change (10 ^ 1) with 10 in C. change (10 ^ 17) with (10 ^ 16 * 10) in C.
      rewrite Z.pow_0_r, Z.mul_1_r in *. generalize dependent (10 ^ (- (q + 1))). generalize (2 ^ 1074). intros a b C. replace (upper m k * (b * 10)) with (upper m k * b * 10) in C by ring. replace (4 * (10 ^ 16 * 10 * a)) with (10 ^ 16 * (4 * a) * 10) in C by ring. lia. }
  pose proof (wide (q + 1)) as Wd. assert (~ 4 * unit_of (q + 1) < (upper m k - lower m k) * scale_of (q + 1)) as N by (intros N; specialize (Wd N); lia). apply N. clear N Wd. pose proof (scale_pos (q + 1)) as Hs.
  set (s := scale_of (q + 1)) in *. set (u := 4 * unit_of (q + 1)) in *. set (t := 2 ^ k) in *. clearbody s u t.
  assert (U : forall c, upper m k <= c * t -> upper m k * s <= c * (t * s)) by (intros c Hc; rewrite Z.mul_assoc; apply Z.mul_le_mono_nonneg_r; lia).
  assert (P : 0 < t * s) by (apply Z.mul_pos_pos; lia).
  destruct WW as [[-> B1]|[-> B1]]; apply U in B1; rewrite <- Z.mul_assoc; clear U; set (ts := t * s) in *; clearbody ts; change (2 ^ 55) with 36028797018963968 in *; change (2 ^ 54) with 18014398509481984 in *; change (10 ^ 16) with 10000000000000000 in *; lia.
Qed.

(** A number with 15 digits is the only one in the interval of a normal float64. *)
Lemma fifteen x p : 2 ^ 52 <= m -> within m k (numer x p) (denom p) -> x < 10 ^ 15 -> p <= q /\ x = d * 10 ^ (q - p).
Proof.
  intros Hm Hx Hlt. pose proof (q_highest _ _ Hx) as Hp. split; [exact Hp|]. pose proof (pow2_nonneg k k_nonneg) as H2.
  pose proof (within_shift m k d q p Hp d_within) as Hd. set (y := d * 10 ^ (q - p)) in *. clearbody y.
  assert (A : forall a b, within m k (numer a p) (denom p) -> within m k (numer b p) (denom p) -> a < b -> a < 10 ^ 15 -> False).
  { intros a b [Ha _] [_ Hb] Hab Ha15. unfold above_lower, below_upper in *. rewrite <- unit_numer in Ha, Hb. change (denom p) with (scale_of p) in *.
    pose proof (unit_pos p) as Hu. pose proof (scale_pos p) as Hs. set (u := unit_of p) in *. set (s := scale_of p) in *. clearbody u s.
    assert (L : (2 ^ 54 - 2) * (2 ^ k * s) <= 4 * (a * u)).
    { transitivity (lower m k * s); [|destruct Ha as [Ha|[_ Ha]]; lia]. rewrite Z.mul_assoc. apply Z.mul_le_mono_nonneg_r; [lia|]. unfold lower. destruct ((2 ^ 52 <? m) || (k =? 0)); apply Z.mul_le_mono_nonneg_r; lia. }
    assert (W : upper m k * s - lower m k * s <= 4 * (2 ^ k * s)).
    { rewrite <- Z.mul_sub_distr_r, Z.mul_assoc. apply Z.mul_le_mono_nonneg_r; [lia|]. unfold upper, lower. destruct ((2 ^ 52 <? m) || (k =? 0)); lia. }
    assert (D : (a + 1) * u <= b * u) by (apply Z.mul_le_mono_nonneg_r; lia).
    assert (F : a * u <= (10 ^ 15 - 1) * u) by (apply Z.mul_le_mono_nonneg_r; lia).
    assert (4 * (b * u) <= upper m k * s) by (destruct Hb as [Hb|[_ Hb]]; lia). assert (lower m k * s <= 4 * (a * u)) by (destruct Ha as [Ha|[_ Ha]]; lia). lia. }
  destruct (Z.lt_trichotomy x y) as [L|[E|L]]; [exfalso; eapply A; [exact Hx|exact Hd|exact L|exact Hlt]|exact E|exfalso; eapply A; [exact Hd|exact Hx|exact L|lia]].
Qed.
End Digits.
