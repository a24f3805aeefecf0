(** The shortest digits. *)
From Coq Require Import List ZArith Lia Bool String.
From Coq Require Import Strings.Byte Floats.SpecFloat.
From Verif Require Import Base Codec GoStrings FloatText SpecFloatText FloatTextFacts FloatFormat FloatFormatFacts.
Import ListNotations.
Open Scope Z_scope.

Lemma pow10_pos p : 0 < 10 ^ Z.max 0 p. Proof. apply Z.pow_pos_nonneg; lia. Qed.
Lemma scale_pos p : 0 < scale_of p. Proof. apply pow10_pos. Qed.
Lemma pow2_1074 : 0 < 2 ^ 1074. Proof. apply Z.pow_pos_nonneg; lia. Qed.
Lemma unit_pos p : 0 < unit_of p. Proof. apply Z.mul_pos_pos; [apply pow2_1074|apply pow10_pos]. Qed.
Lemma unit_numer d p : d * unit_of p = numer d p * 2 ^ 1074. Proof. unfold unit_of, numer. ring. Qed.

(** Equal fractions. *)
Lemma scale_lt a b c : 0 < c -> a < b <-> a * c < b * c. Proof. intros H. apply Z.mul_lt_mono_pos_r. exact H. Qed.
Lemma within_ratio m k n d n' d' : 0 < d -> 0 < d' -> n * d' = n' * d -> within m k n d -> within m k n' d'.
Proof.
  intros Hd Hd' E [H1 H2]. unfold within, above_lower, below_upper in *.
  assert (E4 : 4 * (n' * 2 ^ 1074) * d = 4 * (n * 2 ^ 1074) * d') by (transitivity (4 * 2 ^ 1074 * (n' * d)); [ring|rewrite <- E; ring]).
  generalize dependent (4 * (n' * 2 ^ 1074)). generalize dependent (4 * (n * 2 ^ 1074)). intros a [A1|[A1 A2]] [A3|[A3 A4]] b Eb; split.
  all: first [left; apply (proj2 (scale_lt _ _ d Hd)); rewrite ?Eb; replace (lower m k * d' * d) with (lower m k * d * d') by ring; replace (upper m k * d' * d) with (upper m k * d * d') by ring; apply (proj1 (scale_lt _ _ d' Hd')); assumption
             |right; split; [assumption|]; apply (Z.mul_cancel_r _ _ d); [lia|]; rewrite ?Eb; replace (lower m k * d' * d) with (lower m k * d * d') by ring; replace (upper m k * d' * d) with (upper m k * d * d') by ring; congruence].
Qed.
Lemma numer_shift x p q : q <= p -> numer x p * denom q = numer (x * 10 ^ (p - q)) q * denom p.
Proof.
  intros H. unfold numer, denom.
  assert (E : 10 ^ Z.max 0 p * 10 ^ Z.max 0 (- q) = 10 ^ (p - q) * (10 ^ Z.max 0 q * 10 ^ Z.max 0 (- p))).
  { rewrite <- !Z.pow_add_r by lia. f_equal. lia. }
  replace (x * 10 ^ Z.max 0 p * 10 ^ Z.max 0 (- q)) with (x * (10 ^ Z.max 0 p * 10 ^ Z.max 0 (- q))) by ring. rewrite E. ring.
Qed.
Lemma within_shift m k x p q : q <= p -> within m k (numer x p) (denom p) -> within m k (numer (x * 10 ^ (p - q)) q) (denom q).
Proof. intros H. apply within_ratio; [apply pow10_pos|apply pow10_pos|now apply numer_shift]. Qed.

Lemma lower_mono m k n n' d : n <= n' -> above_lower m k n d -> above_lower m k n' d.
Proof.
  intros H. pose proof pow2_1074. assert (n * 2 ^ 1074 <= n' * 2 ^ 1074) by (apply Z.mul_le_mono_nonneg_r; lia). unfold above_lower. intros [A|[A B]]; [left; lia|].
  destruct (Z.eq_dec (n * 2 ^ 1074) (n' * 2 ^ 1074)); [right; split; [exact A|lia]|left; lia].
Qed.
Lemma upper_mono m k n n' d : n' <= n -> below_upper m k n d -> below_upper m k n' d.
Proof.
  intros H. pose proof pow2_1074. assert (n' * 2 ^ 1074 <= n * 2 ^ 1074) by (apply Z.mul_le_mono_nonneg_r; lia). unfold below_upper. intros [A|[A B]]; [left; lia|].
  destruct (Z.eq_dec (n * 2 ^ 1074) (n' * 2 ^ 1074)); [right; split; [exact A|lia]|left; lia].
Qed.
Lemma numer_mono x y p : x <= y -> numer x p <= numer y p.
Proof. intros H. apply Z.mul_le_mono_nonneg_r; [pose proof (pow10_pos p); lia|exact H]. Qed.

Section Loop.
Variables m k : Z.
Hypothesis m_pos : 0 < m.
Hypothesis k_nonneg : 0 <= k.
Let v := m * 2 ^ k.

Lemma two_k : 0 < 2 ^ k. Proof. apply Z.pow_pos_nonneg; lia. Qed.
Lemma bounds_around : 0 < lower m k /\ lower m k < 4 * v < upper m k /\ upper m k <= 6 * v /\ 2 * v <= lower m k.
Proof.
  pose proof two_k. subst v. unfold lower, upper. destruct ((2 ^ 52 <? m) || (k =? 0)); nia.
Qed.

Lemma ok_down_spec p d : ok_down m k p d = true <-> above_lower m k (numer d p) (denom p).
Proof.
  unfold ok_down, above_lower, inclusive. rewrite unit_numer. unfold scale_of, denom. rewrite orb_true_iff, andb_true_iff, Z.ltb_lt, Z.eqb_eq. reflexivity.
Qed.
Lemma ok_up_spec p d : ok_up m k p d = true <-> below_upper m k (numer d p) (denom p).
Proof.
  unfold ok_up, below_upper, inclusive. rewrite unit_numer. unfold scale_of, denom. rewrite orb_true_iff, andb_true_iff, Z.ltb_lt, Z.eqb_eq. reflexivity.
Qed.

Lemma head_tail p : v * scale_of p = unit_of p * head_digits m k p + tail_digits m k p /\ 0 <= tail_digits m k p < unit_of p /\ 0 <= head_digits m k p.
Proof.
  pose proof (unit_pos p). pose proof (scale_pos p). pose proof two_k. split; [|split].
  - apply Z.div_mod. lia.
  - apply Z.mod_pos_bound. lia.
  - apply Z.div_pos; [|lia]. apply Z.mul_nonneg_nonneg; [|lia]. apply Z.mul_nonneg_nonneg; lia.
Qed.
(** Numbers at most, or at least, the float64 need one bound only. *)
Lemma not_above p x : x <= head_digits m k p -> below_upper m k (numer x p) (denom p).
Proof.
  intros H. left. rewrite <- unit_numer. change (denom p) with (scale_of p). destruct (head_tail p) as (E & R & _). pose proof (unit_pos p). pose proof (scale_pos p). destruct bounds_around as (_ & B & _).
  assert (x * unit_of p <= head_digits m k p * unit_of p) by (apply Z.mul_le_mono_nonneg_r; lia).
  assert (4 * v * scale_of p < upper m k * scale_of p) by (apply Z.mul_lt_mono_pos_r; lia). lia.
Qed.
Lemma not_below p x : head_digits m k p + 1 <= x -> above_lower m k (numer x p) (denom p).
Proof.
  intros H. left. rewrite <- unit_numer. change (denom p) with (scale_of p). destruct (head_tail p) as (E & R & _). pose proof (unit_pos p). pose proof (scale_pos p). destruct bounds_around as (_ & B & _).
  assert ((head_digits m k p + 1) * unit_of p <= x * unit_of p) by (apply Z.mul_le_mono_nonneg_r; lia).
  assert (lower m k * scale_of p < 4 * v * scale_of p) by (apply Z.mul_lt_mono_pos_r; lia). lia.
Qed.
Lemma down_within p : ok_down m k p (head_digits m k p) = true -> within m k (numer (head_digits m k p) p) (denom p).
Proof. intros H. split; [now apply ok_down_spec|apply not_above; lia]. Qed.
Lemma up_within p : ok_up m k p (head_digits m k p + 1) = true -> within m k (numer (head_digits m k p + 1) p) (denom p).
Proof. intros H. split; [apply not_below; lia|now apply ok_up_spec]. Qed.

(** When any multiple of 10^p is between the bounds, the loop stops at p. *)
Lemma stops_at p x : within m k (numer x p) (denom p) -> (x <= head_digits m k p /\ ok_down m k p (head_digits m k p) = true) \/ (head_digits m k p + 1 <= x /\ ok_up m k p (head_digits m k p + 1) = true).
Proof.
  intros [H1 H2]. destruct (Z_le_gt_dec x (head_digits m k p)) as [L|L].
  - left. split; [exact L|]. apply ok_down_spec. eapply lower_mono; [|exact H1]. now apply numer_mono.
  - right. split; [lia|]. apply ok_up_spec. eapply upper_mono; [|exact H2]. apply numer_mono. lia.
Qed.

(** How far [x] * 10^p is from the float64. *)
Definition far (x p : Z) : Z := Z.abs (x * unit_of p - v * scale_of p).
Lemma round_cases p : (round_digits m k p = head_digits m k p /\ 2 * tail_digits m k p <= unit_of p) \/ (round_digits m k p = head_digits m k p + 1 /\ unit_of p <= 2 * tail_digits m k p).
Proof.
  unfold round_digits. destruct (unit_of p <? 2 * tail_digits m k p) eqn:E1; cbn [orb]; [apply Z.ltb_lt in E1; right; split; [reflexivity|lia]|apply Z.ltb_ge in E1].
  destruct (unit_of p =? 2 * tail_digits m k p) eqn:E2; cbn [andb]; [apply Z.eqb_eq in E2|left; auto]. destruct (Z.odd _); [right|left]; split; (reflexivity || lia).
Qed.
Lemma far_cases p x : (x <= head_digits m k p -> far x p >= tail_digits m k p) /\ (head_digits m k p + 1 <= x -> far x p >= unit_of p - tail_digits m k p) /\
  far (head_digits m k p) p = tail_digits m k p /\ far (head_digits m k p + 1) p = unit_of p - tail_digits m k p.
Proof.
  destruct (head_tail p) as (E & R & _). pose proof (unit_pos p). unfold far. rewrite E.
  repeat split; intros; try lia.
  - assert (x * unit_of p <= head_digits m k p * unit_of p) by (apply Z.mul_le_mono_nonneg_r; lia). lia.
  - assert ((head_digits m k p + 1) * unit_of p <= x * unit_of p) by (apply Z.mul_le_mono_nonneg_r; lia). lia.
Qed.

Lemma loop_spec fuel : forall p d q, round_shortest m k fuel p = Some (d, q) ->
  q <= p /\ within m k (numer d q) (denom q) /\ (forall p' x, q < p' <= p -> ~ within m k (numer x p') (denom p')) /\
  (forall x, within m k (numer x q) (denom q) -> far d q <= far x q).
Proof.
  induction fuel as [|fuel IH]; intros p d q H; [discriminate|]. cbn [round_shortest] in H. cbv zeta in H.
  pose proof (down_within p) as W1. pose proof (up_within p) as W2. pose proof (stops_at p) as S. destruct (far_cases p 0) as (_ & _ & F1 & F2).
  assert (F : forall x, (x <= head_digits m k p -> far x p >= tail_digits m k p) /\ (head_digits m k p + 1 <= x -> far x p >= unit_of p - tail_digits m k p)) by (intros x; destruct (far_cases p x) as (A & B & _); auto).
  destruct (ok_down m k p (head_digits m k p)) eqn:E1; destruct (ok_up m k p (head_digits m k p + 1)) eqn:E2.
  - assert (d = round_digits m k p) by congruence. assert (q = p) by congruence. subst q d. clear H.
    split; [lia|]. split; [destruct (round_cases p) as [[-> _]|[-> _]]; auto|]. split; [intros p' x Hp; lia|].
    intros x Hx. destruct (F x) as [G1 G2]. destruct (round_cases p) as [[-> C]|[-> C]]; destruct (S x Hx) as [[L _]|[L _]]; [specialize (G1 L)|specialize (G2 L)|specialize (G1 L)|specialize (G2 L)]; lia.
  - assert (d = head_digits m k p) by congruence. assert (q = p) by congruence. subst q d. clear H.
    split; [lia|]. split; [auto|]. split; [intros p' x Hp; lia|]. intros x Hx. destruct (S x Hx) as [[L _]|[_ L]]; [|discriminate L]. destruct (F x) as [G1 _]. specialize (G1 L). lia.
  - assert (d = head_digits m k p + 1) by congruence. assert (q = p) by congruence. subst q d. clear H.
    split; [lia|]. split; [auto|]. split; [intros p' x Hp; lia|]. intros x Hx. destruct (S x Hx) as [[_ L]|[L _]]; [discriminate L|]. destruct (F x) as [_ G2]. specialize (G2 L). lia.
  - destruct (IH _ _ _ H) as (I1 & I2 & I3 & I4). split; [lia|]. split; [exact I2|]. split; [|exact I4].
    intros p' x Hp. destruct (Z.eq_dec p' p) as [->|N]; [|apply I3; lia]. intros Hx. destruct (S x Hx) as [[_ L]|[_ L]]; discriminate L.
Qed.

(** Every digit is there at 10^-1074. *)
Lemma exact_down p : p <= -1074 -> ok_down m k p (head_digits m k p) = true.
Proof.
  intros Hp. apply ok_down_spec. left. rewrite <- unit_numer. change (denom p) with (scale_of p). destruct (head_tail p) as (E & R & _). destruct bounds_around as (_ & B & _). pose proof (scale_pos p).
  assert (T : tail_digits m k p = 0).
  { unfold tail_digits. replace (unit_of p) with (2 ^ 1074) by (unfold unit_of; replace (Z.max 0 p) with 0 by lia; rewrite Z.pow_0_r; ring).
    unfold scale_of. replace (Z.max 0 (- p)) with (1074 + (- p - 1074)) by lia. rewrite Z.pow_add_r by lia. change 10 with (2 * 5) at 1. rewrite Z.pow_mul_l.
    replace (m * 2 ^ k * (2 ^ 1074 * 5 ^ 1074 * 10 ^ (- p - 1074))) with (m * 2 ^ k * (5 ^ 1074 * 10 ^ (- p - 1074)) * 2 ^ 1074) by ring. apply Z_mod_mult. }
  assert (lower m k * scale_of p < 4 * v * scale_of p) by (apply Z.mul_lt_mono_pos_r; lia). lia.
Qed.
Lemma loop_ends fuel : forall p, p + 1074 <= Z.of_nat fuel -> exists r, round_shortest m k (S fuel) p = Some r.
Proof.
  induction fuel as [|fuel IH]; intros p Hp; cbn [round_shortest]; cbv zeta.
  - rewrite exact_down by lia. destruct (ok_up _ _ _ _); eauto.
  - destruct (ok_down _ _ _ _); destruct (ok_up _ _ _ _); eauto. apply IH. lia.
Qed.
End Loop.
