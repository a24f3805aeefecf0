(** The numbers which are read as a given float64. *)
From Coq Require Import List ZArith Lia Bool String.
From Coq Require Import Strings.Byte Floats.SpecFloat.
From Verif Require Import Base Codec GoStrings FloatText SpecFloatText FloatTextFacts FloatFormat.
Import ListNotations.
Open Scope Z_scope.

(** [n]/[d] is between the bounds of [m] * 2^[k]. *)
Definition above_lower (m k n d : Z) : Prop := lower m k * d < 4 * (n * 2 ^ 1074) \/ (Z.even m = true /\ lower m k * d = 4 * (n * 2 ^ 1074)).
Definition below_upper (m k n d : Z) : Prop := 4 * (n * 2 ^ 1074) < upper m k * d \/ (Z.even m = true /\ 4 * (n * 2 ^ 1074) = upper m k * d).
Definition within (m k n d : Z) : Prop := above_lower m k n d /\ below_upper m k n d.

(** [nearest] when the number is between two neighbours. *)
Lemma exponent_of q M K : 0 <= K -> 0 <= M < 2 ^ 53 -> (K = 0 \/ 2 ^ 52 <= M) -> M * 2 ^ K <= q < (M + 1) * 2 ^ K -> Z.max 0 (Z.log2 q - 52) = K.
Proof.
  intros HK HM HC Hq. assert (Hp : 0 < 2 ^ K) by (apply Z.pow_pos_nonneg; lia).
  assert (Hu : q < 2 ^ (53 + K)). { rewrite Z.pow_add_r by lia. eapply Z.lt_le_trans; [apply Hq|]. apply Z.mul_le_mono_nonneg_r; lia. }
  assert (Hq0 : 0 <= q) by (pose proof (Z.mul_nonneg_nonneg M (2 ^ K)); lia).
  destruct (Z.eq_dec q 0) as [E|E].
  { subst q. destruct HC as [->|HC]; [reflexivity|]. exfalso. assert (0 < M * 2 ^ K) by (apply Z.mul_pos_pos; lia). lia. }
  assert (L : Z.log2 q < 53 + K) by (apply Z.log2_lt_pow2; lia).
  destruct HC as [->|HC]; [lia|]. assert (L2 : 52 + K <= Z.log2 q); [|lia].
  apply Z.log2_le_pow2; [lia|]. rewrite Z.pow_add_r by lia. etransitivity; [|apply Hq]. apply Z.mul_le_mono_nonneg_r; lia.
Qed.

Lemma nearest_at neg n d M K r : 0 < d -> 0 <= K -> 0 <= M < 2 ^ 53 -> (K = 0 \/ 2 ^ 52 <= M) ->
  n * 2 ^ 1074 = d * 2 ^ K * M + r -> 0 <= r < d * 2 ^ K ->
  nearest neg n d =
    let m1 := if (d * 2 ^ K <? 2 * r) || ((d * 2 ^ K =? 2 * r) && Z.odd M) then M + 1 else M in
    let '(m2, k2) := if m1 =? 2 ^ 53 then (2 ^ 52, K + 1) else (m1, K) in
    if 2045 <? k2 then Err range_error else match m2 with Zpos p => Ok (S754_finite neg p (k2 - 1074)) | _ => Ok (S754_zero neg) end.
Proof.
  intros Hd HK HM HC En Hr. unfold nearest. cbv zeta. assert (Hp : 0 < 2 ^ K) by (apply Z.pow_pos_nonneg; lia).
  assert (EK : Z.max 0 (Z.log2 (n * 2 ^ 1074 / d) - 52) = K).
  { apply (exponent_of _ M K HK HM HC). assert (HT : 0 < d * 2 ^ K) by (apply Z.mul_pos_pos; lia). rewrite En. split.
    - apply Z.div_le_lower_bound; [lia|]. replace (d * (M * 2 ^ K)) with (d * 2 ^ K * M) by ring. lia.
    - apply Z.div_lt_upper_bound; [lia|]. replace (d * ((M + 1) * 2 ^ K)) with (d * 2 ^ K * M + d * 2 ^ K) by ring. lia. }
  rewrite EK.
  assert (E1 : n * 2 ^ 1074 / (d * 2 ^ K) = M) by (symmetry; apply (Z.div_unique_pos _ _ M r); [exact Hr|exact En]).
  assert (E2 : (n * 2 ^ 1074) mod (d * 2 ^ K) = r) by (symmetry; apply (Z.mod_unique_pos _ _ M r); [exact Hr|exact En]).
  rewrite E1, E2. reflexivity.
Qed.

Lemma nearest_split n d : 0 <= n -> 0 < d -> exists M K r, 0 <= K /\ 0 <= M < 2 ^ 53 /\ (K = 0 \/ 2 ^ 52 <= M) /\ n * 2 ^ 1074 = d * 2 ^ K * M + r /\ 0 <= r < d * 2 ^ K.
Proof.
  intros Hn Hd. destruct (m_bounds n d Hn Hd) as [H1 H2]. destruct (num_eq n d Hd) as [H3 H4].
  exists (n * 2 ^ 1074 / (d * 2 ^ Z.max 0 (Z.log2 (n * 2 ^ 1074 / d) - 52))), (Z.max 0 (Z.log2 (n * 2 ^ 1074 / d) - 52)), ((n * 2 ^ 1074) mod (d * 2 ^ Z.max 0 (Z.log2 (n * 2 ^ 1074 / d) - 52))).
  split; [apply Z.le_max_l|]. split; [exact H1|]. split; [exact H2|]. split; [exact H3|exact H4].
Qed.

Lemma scaled_bounds m k d : 0 <= k -> upper m k * d = (4 * m + 2) * (d * 2 ^ k) /\
  (lower m k * d = (4 * m - 2) * (d * 2 ^ k) \/ (lower m k * d = (4 * m - 1) * (d * 2 ^ k) /\ m <= 2 ^ 52 /\ k <> 0)) /\
  (2 ^ 52 < m \/ k = 0 -> lower m k * d = (4 * m - 2) * (d * 2 ^ k)) /\
  (m <= 2 ^ 52 /\ k <> 0 -> lower m k * d = (4 * m - 1) * (d * 2 ^ k)).
Proof.
  intros Hk. unfold upper, lower. split; [ring|].
  destruct (2 ^ 52 <? m) eqn:E1; cbn [orb]; [apply Z.ltb_lt in E1; repeat split; [left; ring|intros; ring|intros; exfalso; lia]|apply Z.ltb_ge in E1].
  destruct (k =? 0) eqn:E2; [apply Z.eqb_eq in E2; repeat split; [left; ring|intros; ring|intros; exfalso; lia]|apply Z.eqb_neq in E2].
  repeat split; [right; repeat split; [ring|exact E1|exact E2]|intros; exfalso; lia|intros; ring].
Qed.

Lemma even_succ_odd m : Z.even (m + 1) = Z.odd m. Proof. rewrite Z.add_1_r. apply Z.even_succ. Qed.
Lemma even_odd m : Z.even m = true -> Z.odd m = false. Proof. intros H. rewrite <- Z.negb_even, H. reflexivity. Qed.
Lemma odd_even m : Z.odd m = false -> Z.even m = true. Proof. intros H. rewrite <- Z.negb_odd, H. reflexivity. Qed.

(** What is read as [m] * 2^[k] is between its bounds. *)
Lemma nearest_within n d m k : 0 <= n -> 0 < d -> 0 < m -> nearest false n d = Ok (S754_finite false (Z.to_pos m) (k - 1074)) -> within m k n d.
Proof.
  intros Hn Hd Hm H. destruct (nearest_split n d Hn Hd) as (M & K & r & HK & HM & HC & En & Hr). rewrite (nearest_at false n d M K r Hd HK HM HC En Hr) in H. cbv zeta in H.
  assert (HT : 0 < d * 2 ^ K) by lia.
  set (m1 := if (d * 2 ^ K <? 2 * r) || ((d * 2 ^ K =? 2 * r) && Z.odd M) then M + 1 else M) in *.
  assert (C : (m1 = M /\ 2 * r <= d * 2 ^ K /\ (2 * r = d * 2 ^ K -> Z.even M = true)) \/ (m1 = M + 1 /\ d * 2 ^ K <= 2 * r /\ (2 * r = d * 2 ^ K -> Z.even (M + 1) = true))).
  { subst m1. destruct (d * 2 ^ K <? 2 * r) eqn:E1; cbn [orb]; [apply Z.ltb_lt in E1; right; repeat split; lia|apply Z.ltb_ge in E1].
    destruct (d * 2 ^ K =? 2 * r) eqn:E2; cbn [andb]; [apply Z.eqb_eq in E2|apply Z.eqb_neq in E2; left; repeat split; lia].
    destruct (Z.odd M) eqn:E3; [right; repeat split; [lia|intros _; rewrite even_succ_odd; exact E3]|left; repeat split; [lia|intros _; apply odd_even, E3]]. }
  clearbody m1. unfold within, above_lower, below_upper. rewrite En.
  destruct (m1 =? 2 ^ 53) eqn:E53; [apply Z.eqb_eq in E53|apply Z.eqb_neq in E53].
  - destruct (2045 <? K + 1); [discriminate H|]. change (2 ^ 52) with (Zpos (Z.to_pos (2 ^ 52))) in H. cbv iota in H.
    assert (Em : m = 2 ^ 52) by (apply (f_equal (fun x => match x with Ok (S754_finite _ p _) => Zpos p | _ => 0 end)) in H; cbv iota in H; rewrite Z2Pos.id in H by lia; lia).
    assert (Ek : k = K + 1) by (apply (f_equal (fun x => match x with Ok (S754_finite _ _ e) => e | _ => 0 end)) in H; cbv iota in H; lia).
    destruct (scaled_bounds m k d ltac:(lia)) as (-> & _ & _ & ->); [|lia]. assert (ET : d * 2 ^ k = 2 * (d * 2 ^ K)) by (rewrite Ek, Z.pow_add_r by lia; change (2 ^ 1) with 2; ring).
    rewrite ET. set (T := d * 2 ^ K) in *. clearbody T. assert (Ev : Z.even m = true) by (rewrite Em; reflexivity). rewrite Ev.
    assert (EM : M = 2 ^ 53 - 1) by (destruct C as [(C & _)|(C & _)]; lia). destruct C as [(C & _)|(C & C2 & _)]; [lia|]. subst m M. split; lia.
  - destruct (2045 <? K); [discriminate H|]. destruct m1 as [|p|p]; [discriminate H| |discriminate H].
    assert (Em : m = Zpos p) by (apply (f_equal (fun x => match x with Ok (S754_finite _ p _) => Zpos p | _ => 0 end)) in H; cbv iota in H; rewrite Z2Pos.id in H by lia; lia).
    assert (Ek : k = K) by (apply (f_equal (fun x => match x with Ok (S754_finite _ _ e) => e | _ => 0 end)) in H; cbv iota in H; lia).
    subst k. rewrite <- Em in *. clear H p Em. destruct (scaled_bounds m K d ltac:(lia)) as (-> & B1 & B2 & _). set (T := d * 2 ^ K) in *. clearbody T.
    destruct C as [(-> & C1 & C2)|(-> & C1 & C2)].
    + split; [left; destruct B1 as [->|(-> & _)]; lia|]. destruct (Z.eq_dec (2 * r) T) as [E|E]; [right; split; [exact (C2 E)|lia]|left; lia].
    + rewrite B2 by lia. split; [|left; lia]. destruct (Z.eq_dec (2 * r) T) as [E|E]; [right; split; [exact (C2 E)|lia]|left; lia].
Qed.

(** And everything between the bounds is read so. *)
Lemma within_nearest n d m k : 0 < d -> 0 < m -> canonical m k -> within m k n d -> nearest false n d = Ok (S754_finite false (Z.to_pos m) (k - 1074)).
Proof.
  intros Hd Hm (Hk & Hm2 & Hc) [Hl Hu]. unfold above_lower, below_upper in *. destruct (scaled_bounds m k d ltac:(lia)) as (Eu & _ & El1 & El2). rewrite Eu in Hu. clear Eu.
  assert (Hp : 0 < 2 ^ k) by (apply Z.pow_pos_nonneg; lia). assert (HT : 0 < d * 2 ^ k) by (apply Z.mul_pos_pos; lia).
  assert (Ep : m = Zpos (Z.to_pos m)) by (rewrite Z2Pos.id; lia).
  destruct (Z_le_gt_dec (m * (d * 2 ^ k)) (n * 2 ^ 1074)) as [Hge|Hlt].
  - (* at or above the float64 *)
    rewrite (nearest_at false n d m k (n * 2 ^ 1074 - d * 2 ^ k * m)); [|lia|lia|lia|exact Hc|lia|lia]. cbv zeta.
    set (T := d * 2 ^ k) in *. set (r := n * 2 ^ 1074 - T * m). assert (Er : n * 2 ^ 1074 = T * m + r) by (subst r; lia). clearbody T r. rewrite Er in *. clear Er.
    replace ((T <? 2 * r) || ((T =? 2 * r) && Z.odd m)) with false.
    2:{ symmetry. apply orb_false_iff. split; [apply Z.ltb_ge; lia|]. apply andb_false_iff. destruct Hu as [Hu|[He Hu]]; [left; apply Z.eqb_neq; lia|right; apply even_odd, He]. }
    replace (m =? 2 ^ 53) with false by (symmetry; apply Z.eqb_neq; lia). replace (2045 <? k) with false by (symmetry; apply Z.ltb_ge; lia).
    rewrite Ep at 1. reflexivity.
  - destruct (Z_le_gt_dec m (2 ^ 52)) as [Hm52|Hm52]; [destruct (Z.eq_dec k 0) as [Hk0|Hk0]|].
    3:{ rewrite El1 in Hl by lia. rewrite (nearest_at false n d (m - 1) k (n * 2 ^ 1074 - d * 2 ^ k * (m - 1))); [|lia|lia|lia|lia|lia|lia]. cbv zeta.
      set (T := d * 2 ^ k) in *. set (r := n * 2 ^ 1074 - T * (m - 1)). assert (Er : n * 2 ^ 1074 = T * (m - 1) + r) by (subst r; lia). clearbody T r. rewrite Er in *. clear Er.
      replace ((T <? 2 * r) || ((T =? 2 * r) && Z.odd (m - 1))) with true.
      2:{ symmetry. apply orb_true_iff. destruct Hl as [Hl|[He Hl]]; [left; apply Z.ltb_lt; lia|right]. apply andb_true_iff. split; [apply Z.eqb_eq; lia|]. rewrite <- even_succ_odd. replace (m - 1 + 1) with m by lia. exact He. }
      replace (m - 1 + 1) with m by lia. replace (m =? 2 ^ 53) with false by (symmetry; apply Z.eqb_neq; lia). replace (2045 <? k) with false by (symmetry; apply Z.ltb_ge; lia).
      rewrite Ep at 1. reflexivity. }
    1:{ rewrite El1 in Hl by lia. rewrite (nearest_at false n d (m - 1) k (n * 2 ^ 1074 - d * 2 ^ k * (m - 1))); [|lia|lia|lia|lia|lia|lia]. cbv zeta.
      set (T := d * 2 ^ k) in *. set (r := n * 2 ^ 1074 - T * (m - 1)). assert (Er : n * 2 ^ 1074 = T * (m - 1) + r) by (subst r; lia). clearbody T r. rewrite Er in *. clear Er.
      replace ((T <? 2 * r) || ((T =? 2 * r) && Z.odd (m - 1))) with true.
      2:{ symmetry. apply orb_true_iff. destruct Hl as [Hl|[He Hl]]; [left; apply Z.ltb_lt; lia|right]. apply andb_true_iff. split; [apply Z.eqb_eq; lia|]. rewrite <- even_succ_odd. replace (m - 1 + 1) with m by lia. exact He. }
      replace (m - 1 + 1) with m by lia. replace (m =? 2 ^ 53) with false by (symmetry; apply Z.eqb_neq; lia). replace (2045 <? k) with false by (symmetry; apply Z.ltb_ge; lia).
      rewrite Ep at 1. reflexivity. }
    (* below the least mantissa *)
    rewrite El2 in Hl by lia. assert (Em : m = 2 ^ 52) by lia. assert (ET : d * 2 ^ k = 2 * (d * 2 ^ (k - 1))).
    { replace k with (k - 1 + 1) at 1 by lia. rewrite Z.pow_add_r by lia. change (2 ^ 1) with 2. ring. }
    rewrite ET in *. rewrite (nearest_at false n d (2 ^ 53 - 1) (k - 1) (n * 2 ^ 1074 - d * 2 ^ (k - 1) * (2 ^ 53 - 1))); [|lia|lia|lia|lia|lia|lia]. cbv zeta.
    set (T := d * 2 ^ (k - 1)) in *. set (r := n * 2 ^ 1074 - T * (2 ^ 53 - 1)). assert (Er : n * 2 ^ 1074 = T * (2 ^ 53 - 1) + r) by (subst r; lia). clearbody T r. rewrite Er in *. clear Er.
    replace ((T <? 2 * r) || ((T =? 2 * r) && Z.odd (2 ^ 53 - 1))) with true.
    2:{ symmetry. apply orb_true_iff. destruct Hl as [Hl|[He Hl]]; [left; apply Z.ltb_lt; lia|right]. apply andb_true_iff. split; [apply Z.eqb_eq; lia|reflexivity]. }
    replace (2 ^ 53 - 1 + 1) with (2 ^ 53) by lia. rewrite Z.eqb_refl. replace (2045 <? k - 1 + 1) with false by (symmetry; apply Z.ltb_ge; lia). replace (k - 1 + 1) with k by lia.
    rewrite Em. reflexivity.
Qed.
