(** The progress that is shown. *)
From Coq Require Import List ZArith Lia Bool Sorted.
From Coq Require Import Floats.SpecFloat.
From Verif Require Import Base FloatText SpecFloatText FloatTextFacts FloatTextFacts2 FloatFormatFacts Progress.
Import ListNotations.
Open Scope Z_scope.

(** [lia], without the values of the powers. *)
Ltac zlia := solve [repeat match goal with
  | |- context [2 ^ Zpos ?k] => generalize dependent (2 ^ Zpos k); intros
  | H : context [2 ^ Zpos ?k] |- _ => generalize dependent (2 ^ Zpos k); intros
  end; lia] || lia.

Notation U := (2 ^ 1074).
Lemma U_pos : 0 < U.
Proof. apply Z.pow_pos_nonneg; zlia. Qed.
Local Opaque Z.pow.

Lemma nearest_small_ok n d : 0 <= n -> 0 < d -> n <= d * 2 ^ 100 -> exists f, nearest false n d = Ok f /\ sign f = false /\ nearest_to n d f.
Proof.
  intros Hn Hd Hs. destruct (nearest_spec false n d Hn Hd) as [(T & _)|(_ & f & E & S & N)]; [|exists f; auto].
  exfalso. unfold too_large in T. rewrite Z.abs_eq in T by exact Hn. assert (L : 2 ^ 100 < (2 ^ 54 - 1) * 2 ^ 970) by (vm_compute; reflexivity).
  assert (d * 2 ^ 100 < d * ((2 ^ 54 - 1) * 2 ^ 970)) by (apply Z.mul_lt_mono_pos_l; assumption). rewrite Z.mul_assoc in *. zlia.
Qed.
Lemma units_nonneg f : sign f = false -> 0 <= units f.
Proof. destruct f as [s|s| |s m e]; cbn [sign units]; intros H; try zlia. rewrite H. apply Z.mul_nonneg_nonneg; [zlia|apply Z.pow_nonneg; zlia]. Qed.

Lemma nearest_mono n d f n' d' f' : 0 <= n -> 0 < d -> 0 <= n' -> 0 < d' -> n * d' <= n' * d -> nearest false n d = Ok f -> nearest false n' d' = Ok f' -> n <= d * 2 ^ 100 -> n' <= d' * 2 ^ 100 -> units f <= units f'.
Proof.
  intros Hn Hd Hn' Hd' Hle E E' S S'. destruct (Z.eq_dec (n * d') (n' * d)) as [Heq|Hne].
  - rewrite (nearest_ratio false n d n' d') in E by assumption. assert (f = f') as -> by congruence. zlia.
  - destruct (nearest_small_ok n d Hn Hd S) as (g & G & _ & N). destruct (nearest_small_ok n' d' Hn' Hd' S') as (g' & G' & _ & N').
    assert (f = g) as -> by congruence. assert (f' = g') as -> by congruence. eapply nearest_order; [exact Hd|exact Hd'| |exact N|exact N']. zlia.
Qed.

(** Whole numbers of at most two digits. *)
Lemma exact_hundred : exists f, of_int 100 = Ok f /\ units f = 100 * U /\ sign f = false.
Proof. eexists. split; [vm_compute; reflexivity|]. split; vm_compute; reflexivity. Qed.
Lemma exact_one : exists f, nearest false 1 1 = Ok f /\ units f = U /\ sign f = false.
Proof. eexists. split; [vm_compute; reflexivity|]. split; vm_compute; reflexivity. Qed.
Lemma pow63 : 2 ^ 63 < 2 ^ 100. Proof. vm_compute. reflexivity. Qed.
Lemma hundred_small : 100 < 2 ^ 100. Proof. vm_compute. reflexivity. Qed.

Lemma int_float z : 0 <= z < 2 ^ 63 -> exists f, of_int z = Ok f /\ nearest false z 1 = Ok f /\ sign f = false.
Proof.
  intros Hz. pose proof pow63. unfold of_int. destruct (Z.ltb_spec z 0); [zlia|]. rewrite Z.abs_eq by zlia.
  destruct (nearest_small_ok z 1) as (f & E & S & _); [zlia|zlia|zlia|]. exists f. auto.
Qed.

(** The steps of the computation for a position in the file. *)
Lemma percent_steps p t : 0 <= p <= t -> 0 < t < 2 ^ 63 -> exists fp ft q x,
  nearest false p 1 = Ok fp /\ nearest false t 1 = Ok ft /\ 0 <= units fp <= units ft /\ 0 < units ft /\
  nearest false (units fp) (units ft) = Ok q /\ 0 <= units q <= U /\
  nearest false (units q * (100 * U)) (U * U) = Ok x /\ 0 <= units x <= 100 * U /\ percent p t = Ok (units x / U).
Proof.
  intros Hp Ht. pose proof pow63 as P63. pose proof U_pos as HU. pose proof hundred_small as H100. destruct (int_float p ltac:(zlia)) as (fp & E1 & N1 & S1). destruct (int_float t ltac:(zlia)) as (ft & E2 & N2 & S2).
  exists fp, ft. pose proof (units_nonneg fp S1) as U1. pose proof (units_nonneg ft S2) as U2.
  assert (L : units fp <= units ft) by (apply (nearest_mono p 1 fp t 1 ft); try assumption; zlia).
  destruct exact_one as (one & O1 & O2 & O3).
  assert (L1 : U <= units ft) by (rewrite <- O2; eapply nearest_mono; [| | | | |exact O1|exact N2| |]; zlia).
  assert (S' : units fp <= units ft * 2 ^ 100) by (apply Z.le_trans with (units ft * 1); [zlia|apply Z.mul_le_mono_nonneg_l; zlia]).
  destruct (nearest_small_ok (units fp) (units ft) U1 ltac:(zlia) S') as (q & E3 & S3 & _). pose proof (units_nonneg q S3) as U3.
  assert (L3 : units q <= U) by (rewrite <- O2; eapply nearest_mono; [| | | | |exact E3|exact O1| |]; zlia).
  destruct exact_hundred as (h & E4 & U4 & S4).
  assert (HUU : 0 < U * U) by (apply Z.mul_pos_pos; zlia).
  assert (B : units q * (100 * U) <= 100 * (U * U)). { replace (100 * (U * U)) with (U * (100 * U)) by ring. apply Z.mul_le_mono_nonneg_r; zlia. }
  assert (B' : units q * (100 * U) <= U * U * 2 ^ 100) by (eapply Z.le_trans; [exact B|]; rewrite Z.mul_comm; apply Z.mul_le_mono_nonneg_l; zlia).
  destruct (nearest_small_ok (units q * (100 * U)) (U * U)) as (x & E5 & S5 & _); [apply Z.mul_nonneg_nonneg; zlia|exact HUU|exact B'|].
  exists q, x. pose proof (units_nonneg x S5) as U5. split; [exact N1|]. split; [exact N2|]. split; [zlia|]. split; [zlia|]. split; [exact E3|]. split; [zlia|]. split; [exact E5|]. split.
  - split; [exact U5|]. rewrite <- U4. assert (E4' : nearest false 100 1 = Ok h) by exact E4.
    eapply nearest_mono; [| | | | |exact E5|exact E4'|exact B'|]; try zlia; try (apply Z.mul_nonneg_nonneg; zlia).
  - unfold percent. rewrite E1. cbn [rbind]. rewrite E2. cbn [rbind]. unfold fdiv. rewrite S1, S2, !Z.abs_eq by zlia. cbn [xorb]. rewrite E3. cbn [rbind]. rewrite E4. cbn [rbind].
    unfold fmul. rewrite S3, S4, U4, Z.abs_eq by (apply Z.mul_nonneg_nonneg; zlia). cbn [xorb]. rewrite E5. reflexivity.
Qed.

Lemma percent_between p t : 0 <= p <= t -> 0 < t < 2 ^ 63 -> exists k, percent p t = Ok k /\ 0 <= k <= 100.
Proof.
  intros Hp Ht. pose proof U_pos as HU. destruct (percent_steps p t Hp Ht) as (fp & ft & q & x & _ & _ & _ & _ & _ & _ & _ & B & ->). exists (units x / U). split; [reflexivity|].
  split; [apply Z.div_pos; zlia|]. replace 100 with (100 * U / U) by (apply Z.div_mul; zlia). apply Z.div_le_mono; zlia.
Qed.
Lemma percent_grows p p' t k k' : 0 <= p <= p' -> p' <= t -> 0 < t < 2 ^ 63 -> percent p t = Ok k -> percent p' t = Ok k' -> k <= k'.
Proof.
  intros Hp Hp' Ht E E'. pose proof U_pos as HU. pose proof hundred_small as H100. pose proof pow63 as P63.
  destruct (percent_steps p t ltac:(zlia) Ht) as (fp & ft & q & x & A1 & A2 & A3 & A4 & A5 & A6 & A7 & A8 & A9).
  destruct (percent_steps p' t ltac:(zlia) Ht) as (fp' & ft' & q' & x' & B1 & B2 & B3 & B4 & B5 & B6 & B7 & B8 & B9).
  assert (ft' = ft) as -> by congruence. assert (k = units x / U) as -> by congruence. assert (k' = units x' / U) as -> by congruence. apply Z.div_le_mono; [exact HU|].
  assert (HUU : 0 < U * U) by (apply Z.mul_pos_pos; zlia).
  assert (Hb : forall y, 0 <= y <= U -> y * (100 * U) <= U * U * 2 ^ 100).
  { intros y Hy. apply Z.le_trans with (U * (100 * U)); [apply Z.mul_le_mono_nonneg_r; zlia|]. replace (U * (100 * U)) with (U * U * 100) by ring. apply Z.mul_le_mono_nonneg_l; zlia. }
  assert (Hr : forall y, 0 <= y <= units ft -> y <= units ft * 2 ^ 100) by (intros y Hy; apply Z.le_trans with (units ft * 1); [zlia|apply Z.mul_le_mono_nonneg_l; zlia]).
  assert (L1 : units fp <= units fp') by (eapply nearest_mono; [| | | | |exact A1|exact B1| |]; zlia).
  assert (L2 : units q <= units q'). { eapply nearest_mono; [| | | | |exact A5|exact B5|apply Hr; zlia|apply Hr; zlia]; try zlia. apply Z.mul_le_mono_nonneg_r; zlia. }
  eapply nearest_mono; [| | | | |exact A7|exact B7|apply Hb; zlia|apply Hb; zlia]; try zlia; try (apply Z.mul_nonneg_nonneg; zlia).
Qed.
Lemma percent_ends t : 0 < t < 2 ^ 63 -> percent 0 t = Ok 0 /\ percent t t = Ok 100.
Proof.
  intros Ht. pose proof U_pos as HU. split.
  - destruct (percent_steps 0 t ltac:(zlia) Ht) as (fp & ft & q & x & A1 & A2 & A3 & A4 & A5 & A6 & A7 & A8 & ->).
    rewrite nearest_none in A1 by zlia. injection A1 as <-. change (units (S754_zero false)) with 0 in A5. rewrite nearest_none in A5 by zlia. injection A5 as <-.
    change (units (S754_zero false)) with 0 in A7. rewrite Z.mul_0_l in A7. rewrite nearest_none in A7 by (apply Z.mul_pos_pos; zlia). injection A7 as <-. cbn [units]. rewrite Z.div_0_l by zlia. reflexivity.
  - destruct (percent_steps t t ltac:(zlia) Ht) as (fp & ft & q & x & A1 & A2 & A3 & A4 & A5 & A6 & A7 & A8 & ->).
    assert (fp = ft) as -> by congruence. destruct exact_one as (one & O1 & O2 & _). rewrite (nearest_ratio false (units ft) (units ft) 1 1) in A5 by zlia. assert (q = one) as -> by congruence.
    rewrite O2 in A7. destruct exact_hundred as (h & E4 & U4 & _). rewrite (nearest_ratio false (U * (100 * U)) (U * U) 100 1) in A7; [| |apply Z.mul_pos_pos; zlia|zlia|zlia|ring].
    + assert (x = h) as -> by (change (of_int 100) with (nearest false 100 1) in E4; congruence). rewrite U4, Z.div_mul by zlia. reflexivity.
    + apply Z.mul_nonneg_nonneg; zlia.
Qed.

(** *** When *)
Lemma messages_none t calls : tr_total t = 0 -> messages t calls = [].
Proof.
  intros H. revert t H. induction calls as [|[now p] calls IH]; intros t H; [reflexivity|]. cbn [messages]. unfold update_progress. rewrite H. cbn [Z.eqb negb andb]. apply IH. exact H.
Qed.
Lemma messages_after t calls : Forall (fun m => tr_next t < fst m) (messages t calls) /\ StronglySorted (fun a b => fst a + 1000000000 < fst b) (messages t calls).
Proof.
  revert t. induction calls as [|[now p] calls IH]; intros t; [split; constructor|]. cbn [messages]. unfold update_progress.
  destruct (negb (tr_total t =? 0) && (tr_next t <? now)) eqn:E; [|apply IH]. apply andb_true_iff in E as [_ E]. apply Z.ltb_lt in E.
  destruct (IH (mkTracker (tr_total t) (now + 1000000000))) as [F S]. cbn [tr_next] in F. split.
  - constructor; [exact E|]. eapply Forall_impl; [|exact F]. cbn beta. intros a Ha. zlia.
  - constructor; [exact S|exact F].
Qed.
Lemma messages_of t calls now x : In (now, x) (messages t calls) -> exists p, In (now, p) calls /\ x = (percent p (tr_total t), p).
Proof.
  revert t. induction calls as [|[n p] calls IH]; intros t H; [destruct H|]. cbn [messages] in H. unfold update_progress in H.
  destruct (negb (tr_total t =? 0) && (tr_next t <? n)); [destruct H as [H|H]; [injection H as <- <-; exists p; split; [left; reflexivity|reflexivity]|]|].
  - destruct (IH _ H) as (q & Hq & ->). exists q. split; [right; exact Hq|reflexivity].
  - destruct (IH _ H) as (q & Hq & ->). exists q. split; [right; exact Hq|reflexivity].
Qed.
(** A call more than a second after the last message is shown. *)
Lemma messages_shown t calls now p calls' : tr_total t <> 0 -> tr_next t < now -> Forall (fun c => fst c + 1000000000 < now) calls ->
  In (now, (percent p (tr_total t), p)) (messages t (calls ++ (now, p) :: calls')).
Proof.
  revert t. induction calls as [|[n q] calls IH]; intros t Ht Hn Hc; cbn [app messages]; unfold update_progress.
  - destruct (Z.eqb_spec (tr_total t) 0) as [|_]; [contradiction|]. destruct (Z.ltb_spec (tr_next t) now); [|zlia]. cbn [negb andb]. left. reflexivity.
  - inversion Hc as [|? ? Hq Hc']; subst. cbn [fst] in Hq. destruct (negb (tr_total t =? 0) && (tr_next t <? n)); [right; apply (IH (mkTracker (tr_total t) (n + 1000000000)))|apply IH]; cbn [tr_total tr_next]; try assumption; zlia.
Qed.

(** *** How precise it is *)
Lemma nearest_precise n d f : 0 <= n -> 0 < d -> n <= d * 2 ^ 100 -> nearest false n d = Ok f -> Z.abs (n * U - d * units f) * 2 ^ 52 <= n * U + d * 2 ^ 52.
Proof.
  intros Hn Hd Hs E. destruct (nearest_small_ok n d Hn Hd Hs) as (f' & E' & _ & _ & N & _). assert (f' = f) as -> by congruence.
  destruct (nearest_split n d Hn Hd) as (M & K & r & HK & HM & HC & En & Hr). pose proof U_pos as HU. assert (HW : 0 < 2 ^ 52) by (apply Z.pow_pos_nonneg; zlia).
  assert (Hp : 0 < 2 ^ K) by (apply Z.pow_pos_nonneg; zlia). assert (HT : 0 < d * 2 ^ K) by (apply Z.mul_pos_pos; zlia).
  assert (G : exists g, float64 g /\ units g = M * 2 ^ K).
  { destruct (Z.eq_dec M 0) as [->|H0]; [exists (S754_zero false); repeat split|].
    assert (HK' : K <= 2045).
    { destruct HC as [->|HC]; [zlia|]. destruct (Z.le_gt_cases K 2045) as [|Hgt]; [assumption|exfalso].
      assert (A : 2 ^ 2045 <= 2 ^ K) by (apply Z.pow_le_mono_r; zlia). assert (B : 2 ^ 100 * U < 2 ^ 2045) by (vm_compute; reflexivity).
      assert (C : d * 2 ^ K * 1 <= d * 2 ^ K * M) by (apply Z.mul_le_mono_nonneg_l; zlia).
      assert (D : n * U <= d * 2 ^ 100 * U) by (apply Z.mul_le_mono_nonneg_r; zlia).
      assert (F : d * (2 ^ 100 * U) < d * 2 ^ K) by (apply Z.mul_lt_mono_pos_l; zlia). rewrite <- Z.mul_assoc in D. zlia. }
    exists (S754_finite false (Z.to_pos M) (K - 1074)). assert (EM : Z.pos (Z.to_pos M) = M) by (apply Z2Pos.id; zlia). split; [split; [|exact I]|].
    - apply valid_canonical. rewrite EM. replace (K - 1074 + 1074) with K by ring. repeat split; [zlia|zlia|zlia|exact HC].
    - cbn [units]. rewrite EM. replace (K - 1074 + 1074) with K by ring. ring. }
  destruct G as (g & Hg & Ug). specialize (N g Hg). unfold distance in N. rewrite Ug in N.
  replace (n * U - d * (M * 2 ^ K)) with r in N by (rewrite En; ring). rewrite (Z.abs_eq r) in N by zlia.
  apply Z.le_trans with (d * 2 ^ K * 2 ^ 52); [apply Z.mul_le_mono_nonneg_r; zlia|].
  destruct HC as [->|HC]; [change (2 ^ 0) with 1; rewrite Z.mul_1_r; pose proof (Z.mul_nonneg_nonneg n U); zlia|].
  assert (d * 2 ^ K * 2 ^ 52 <= d * 2 ^ K * M) by (apply Z.mul_le_mono_nonneg_l; zlia). assert (0 < d * 2 ^ 52) by (apply Z.mul_pos_pos; zlia). zlia.
Qed.

Lemma percent_near p t k : 0 <= p <= t -> 0 < t < 2 ^ 63 -> percent p t = Ok k -> Z.abs (k - 100 * p / t) <= 1.
Proof.
  intros Hp Ht E. pose proof U_pos as HU. pose proof hundred_small as H100. pose proof pow63 as P63.
  destruct (percent_steps p t Hp Ht) as (fp & ft & q & x & A1 & A2 & A3 & A4 & A5 & A6 & A7 & A8 & A9). assert (k = units x / U) as -> by congruence. clear E A9.
  assert (HUU : 0 < U * U) by (apply Z.mul_pos_pos; zlia). assert (HW : 0 < 2 ^ 52) by (apply Z.pow_pos_nonneg; zlia).
  assert (P1 := nearest_precise p 1 fp ltac:(zlia) ltac:(zlia) ltac:(zlia) A1).
  assert (P2 := nearest_precise t 1 ft ltac:(zlia) ltac:(zlia) ltac:(zlia) A2).
  assert (P3 : Z.abs (units fp * U - units ft * units q) * 2 ^ 52 <= units fp * U + units ft * 2 ^ 52).
  { apply nearest_precise; [zlia|zlia| |exact A5]. apply Z.le_trans with (units ft * 1); [zlia|apply Z.mul_le_mono_nonneg_l; zlia]. }
  assert (P4 : Z.abs (units q * (100 * U) * U - U * U * units x) * 2 ^ 52 <= units q * (100 * U) * U + U * U * 2 ^ 52).
  { apply nearest_precise; [apply Z.mul_nonneg_nonneg; zlia|exact HUU| |exact A7]. apply Z.le_trans with (U * (100 * U)); [apply Z.mul_le_mono_nonneg_r; zlia|].
    replace (U * (100 * U)) with (U * U * 100) by ring. apply Z.mul_le_mono_nonneg_l; zlia. }
  replace (units q * (100 * U) * U - U * U * units x) with ((100 * units q - units x) * (U * U)) in P4 by ring.
  rewrite Z.abs_mul, (Z.abs_eq (U * U)) in P4 by zlia.
  assert (P4' : Z.abs (100 * units q - units x) * 2 ^ 52 <= 100 * units q + 2 ^ 52).
  { apply Z.mul_le_mono_pos_r with (p := U * U); [exact HUU|]. replace ((100 * units q + 2 ^ 52) * (U * U)) with (units q * (100 * U) * U + U * U * 2 ^ 52) by ring. replace (Z.abs (100 * units q - units x) * 2 ^ 52 * (U * U)) with (Z.abs (100 * units q - units x) * (U * U) * 2 ^ 52) by ring. exact P4. }
  clear P4 A1 A2 A5 A7. rewrite !Z.mul_1_l in P1, P2.
  assert (WU : 2 ^ 52 <= U) by (vm_compute; congruence). assert (WK : 1000 < 2 ^ 52) by (vm_compute; reflexivity).
  generalize dependent (units fp). intros a. generalize dependent (units ft). intros b. generalize dependent (units q). intros c. generalize dependent (units x). intros y.
  generalize dependent (2 ^ 52). intros W. generalize dependent U. intros V. intros.
  assert (TV : V <= t * V) by (replace V with (1 * V) at 1 by ring; apply Z.mul_le_mono_nonneg_r; zlia).
  assert (PT : p * V <= t * V) by (apply Z.mul_le_mono_nonneg_r; zlia).
  set (T := t * V) in *. set (P := p * V) in *.
  assert (HT : 0 < T) by zlia.
  (* b <= 2 T *)
  assert (Hb : b <= 2 * T).
  { assert (X : (b - T) * W <= T * W); [|apply Z.mul_le_mono_pos_r in X; zlia].
    apply Z.le_trans with (T + 1 * W); [|nia]. apply Z.le_trans with (Z.abs (T - b) * W); [apply Z.mul_le_mono_nonneg_r; zlia|zlia]. }
  assert (K1 : Z.abs (100 * P - t * y) < T).
  { apply Z.mul_lt_mono_pos_r with (p := V * W); [apply Z.mul_pos_pos; zlia|].
    assert (Q : (100 * P - t * y) * V = 100 * V * (P - a) + 100 * (a * V - b * c) + 100 * c * (b - T) + T * (100 * c - y)) by (unfold T; ring).
    rewrite Z.mul_assoc, <- (Z.abs_eq V) at 1 by zlia. rewrite <- Z.abs_mul, Q.
    set (e1 := P - a) in *. set (e2 := a * V - b * c) in *. assert (P2' : Z.abs (b - T) * W <= T + W) by (rewrite <- Z.abs_opp; replace (- (b - T)) with (T - b) by ring; exact P2).
    set (e3 := b - T) in *. set (e4 := 100 * c - y) in *.
    assert (B0 : Z.abs (100 * V * e1 + 100 * e2 + 100 * c * e3 + T * e4) <= 100 * V * Z.abs e1 + 100 * Z.abs e2 + 100 * c * Z.abs e3 + T * Z.abs e4).
    { assert (Z.abs (100 * V * e1) = 100 * V * Z.abs e1) by (rewrite Z.abs_mul; f_equal; zlia).
      assert (Z.abs (100 * e2) = 100 * Z.abs e2) by zlia.
      assert (Z.abs (100 * c * e3) = 100 * c * Z.abs e3) by (rewrite Z.abs_mul; f_equal; zlia).
      assert (Z.abs (T * e4) = T * Z.abs e4) by (rewrite Z.abs_mul; f_equal; zlia). zlia. }
    apply Z.le_lt_trans with ((100 * V * Z.abs e1 + 100 * Z.abs e2 + 100 * c * Z.abs e3 + T * Z.abs e4) * W); [apply Z.mul_le_mono_nonneg_r; zlia|].
    assert (B1 : V * (Z.abs e1 * W) <= V * (2 * T)) by (apply Z.mul_le_mono_nonneg_l; zlia).
    assert (B2 : Z.abs e2 * W <= 4 * (T * V)).
    { apply Z.le_trans with (a * V + b * W); [exact P3|]. assert (a * V <= 2 * T * V) by (apply Z.mul_le_mono_nonneg_r; zlia). assert (b * W <= 2 * T * V) by (apply Z.mul_le_mono_nonneg; zlia). zlia. }
    assert (B3 : c * (Z.abs e3 * W) <= V * (2 * T)).
    { apply Z.mul_le_mono_nonneg; [zlia|zlia|apply Z.mul_nonneg_nonneg; zlia|zlia]. }
    assert (B4 : T * (Z.abs e4 * W) <= T * (101 * V)) by (apply Z.mul_le_mono_nonneg_l; zlia).
    assert (B5 : 1000 * (T * V) < T * (V * W)). { replace (T * (V * W)) with (W * (T * V)) by ring. apply Z.mul_lt_mono_pos_r; [apply Z.mul_pos_pos; zlia|zlia]. }
    assert (0 < T * V) by (apply Z.mul_pos_pos; zlia). zlia. }
  pose proof (Z.div_mod y V ltac:(zlia)) as D1. pose proof (Z.mod_pos_bound y V HU) as D2.
  pose proof (Z.div_mod (100 * p) t ltac:(zlia)) as D3. pose proof (Z.mod_pos_bound (100 * p) t ltac:(zlia)) as D4.
  set (k := y / V) in *. set (j := 100 * p / t) in *. set (m := y mod V) in *. set (o := (100 * p) mod t) in *.
  assert (X : 100 * P - t * y = T * (j - k) + (o * V - t * m)) by (unfold P, T; rewrite D1; replace (100 * (p * V)) with (100 * p * V) by ring; rewrite D3; ring).
  assert (Y : Z.abs (o * V - t * m) < T).
  { assert (0 <= o * V < T). { split; [apply Z.mul_nonneg_nonneg; zlia|apply Z.mul_lt_mono_pos_r; zlia]. }
    assert (0 <= t * m < T). { split; [apply Z.mul_nonneg_nonneg; zlia|apply Z.mul_lt_mono_pos_l; zlia]. } zlia. }
  assert (L : Z.abs (T * (j - k)) < T * 2) by zlia. rewrite Z.abs_mul, (Z.abs_eq T) in L by zlia. apply Z.mul_lt_mono_pos_l in L; zlia.
Qed.
