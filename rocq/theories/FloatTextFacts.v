(** Facts about strconv.ParseFloat. *)
From Coq Require Import List ZArith Lia Bool String Zpow_facts.
From Coq Require Import Strings.Byte Floats.SpecFloat.
From Verif Require Import Base BaseFacts Codec GoStrings SpecText StringsFacts FloatText SpecFloatText.
Import ListNotations.
Open Scope Z_scope.

(** *** Float64 as m * 2^k units *)

Lemma digits2_log2 p : Zpos (digits2_pos p) = Z.log2 (Zpos p) + 1.
Proof.
  induction p as [p IH|p IH|]; cbn [digits2_pos].
  - rewrite Pos2Z.inj_succ, IH. rewrite (Pos2Z.inj_xI p). rewrite Z.log2_succ_double by lia. lia.
  - rewrite Pos2Z.inj_succ, IH. rewrite (Pos2Z.inj_xO p). rewrite Z.log2_double by lia. lia.
  - reflexivity.
Qed.

(** The mantissas and exponents of finite float64. *)
Definition canonical (m k : Z) : Prop := 0 <= k <= 2045 /\ m < 2 ^ 53 /\ (k = 0 \/ 2 ^ 52 <= m).

Lemma valid_canonical s m e : valid_binary 53 1024 (S754_finite s m e) = true <-> canonical (Zpos m) (e + 1074).
Proof.
  unfold valid_binary, bounded, canonical_mantissa, fexp, emin, canonical. rewrite andb_true_iff, <- Zeq_is_eq_bool, Z.leb_le, digits2_log2.
  pose proof (Z.log2_spec (Zpos m) ltac:(lia)) as [L1 L2]. pose proof (Z.log2_nonneg (Zpos m)).
  assert (A : forall n, 0 <= n -> (Z.log2 (Zpos m) < n <-> Zpos m < 2 ^ n)) by (intros n Hn; rewrite Z.log2_lt_pow2 by lia; reflexivity).
  pose proof (A 53 ltac:(lia)). pose proof (A 52 ltac:(lia)).
  split.
  - intros [E H2]. split; [lia|]. split; [lia|]. destruct (Z.eq_dec (e + 1074) 0); [left; assumption|right]. lia.
  - intros [E [H2 H3]]. split; [|lia]. destruct H3; lia.
Qed.

Lemma float_cases f : float64 f -> units f = 0 \/ exists (s : bool) (m k : Z), canonical m k /\ 0 < m /\ units f = (if s then -1 else 1) * (m * 2 ^ k) /\ f = S754_finite s (Z.to_pos m) (k - 1074).
Proof.
  intros [H1 H2]. destruct f as [s|s| |s m e]; try contradiction; [left; reflexivity|right]. apply valid_canonical in H1.
  exists s, (Zpos m), (e + 1074). split; [exact H1|]. split; [lia|]. split; [cbn [units]; ring|]. cbn [Z.to_pos]. f_equal. lia.
Qed.

Lemma pow2_pos k : 0 < 2 ^ k \/ k < 0.
Proof. destruct (Z_lt_ge_dec k 0); [auto|left; apply Z.pow_pos_nonneg; lia]. Qed.

(** No float64 lies between two neighbouring multiples of 2^k. *)
Lemma gap m k g : 0 <= m -> 0 <= k -> (k = 0 \/ 2 ^ 52 <= m) -> float64 g -> units g <= m * 2 ^ k \/ (m + 1) * 2 ^ k <= units g.
Proof.
  intros Hm Hk Hc Hg. pose proof (Z.pow_pos_nonneg 2 k ltac:(lia) Hk) as Hp.
  destruct (float_cases g Hg) as [->|(s & mg & kg & (C1 & C2 & C3) & Cm & -> & _)]; [left; nia|].
  pose proof (Z.pow_pos_nonneg 2 kg ltac:(lia) ltac:(lia)) as Hq. destruct s; [left; nia|]. rewrite Z.mul_1_l.
  destruct (Z_le_gt_dec k kg) as [Hle|Hgt].
  - replace kg with (kg - k + k) by lia. rewrite Z.pow_add_r by lia. pose proof (Z.pow_pos_nonneg 2 (kg - k) ltac:(lia) ltac:(lia)).
    set (x := 2 ^ (kg - k)) in *. destruct (Z_le_gt_dec (mg * x) m); [left|right]; nia.
  - left. destruct Hc as [->|Hc]; [lia|]. replace k with (k - kg - 1 + 1 + kg) by lia. rewrite !Z.pow_add_r by lia. pose proof (Z.pow_pos_nonneg 2 (k - kg - 1) ltac:(lia) ltac:(lia)).
    set (x := 2 ^ (k - kg - 1)) in *. change (2 ^ 1) with 2. assert (mg <= m * (x * 2)) by (change (2 ^ 53) with (2 ^ 52 * 2) in C2; nia). nia.
Qed.

(** *** Rounding *)

Section Round.
Variables n d : Z.
Hypothesis n_pos : 0 <= n.
Hypothesis d_pos : 0 < d.
Let num := n * 2 ^ 1074.
Let q := num / d.
Let k := Z.max 0 (Z.log2 q - 52).
Let u := d * 2 ^ k.
Let m := num / u.
Let r := num mod u.
Let m1 := if (u <? 2 * r) || ((u =? 2 * r) && Z.odd m) then m + 1 else m.

Lemma num_pos : 0 <= num.
Proof. unfold num. apply Z.mul_nonneg_nonneg; [exact n_pos|]. apply Z.pow_nonneg. lia. Qed.
Lemma k_pos : 0 <= k.
Proof. unfold k. lia. Qed.
Lemma pk_pos : 0 < 2 ^ k.
Proof. apply Z.pow_pos_nonneg; [lia|exact k_pos]. Qed.
Lemma u_pos : 0 < u.
Proof. unfold u. apply Z.mul_pos_pos; [exact d_pos|exact pk_pos]. Qed.
Lemma m_div : m = q / 2 ^ k.
Proof. unfold m, u, q. rewrite Z.div_div; [reflexivity|lia|exact pk_pos]. Qed.
Lemma num_eq : num = u * m + r /\ 0 <= r < u.
Proof. split; [unfold m, r; apply Z.div_mod; pose proof u_pos; lia|]. apply Z.mod_pos_bound, u_pos. Qed.
Lemma m_bounds : 0 <= m < 2 ^ 53 /\ (k = 0 \/ 2 ^ 52 <= m).
Proof.
  pose proof pk_pos as Hp. pose proof k_pos as Hk. assert (Hq : 0 <= q) by (unfold q; apply Z.div_pos; [exact num_pos|exact d_pos]).
  rewrite m_div. destruct (Z.eq_dec q 0) as [E|E].
  - rewrite E, Z.div_0_l by lia. split; [cbn; lia|]. left. unfold k. rewrite E. reflexivity.
  - pose proof (Z.log2_spec q ltac:(lia)) as [L1 L2]. destruct (Z_le_gt_dec (Z.log2 q) 52) as [Hl|Hl].
    + assert (Ek : k = 0) by (unfold k; lia). rewrite Ek. change (2 ^ 0) with 1. rewrite Z.div_1_r. split; [|now left]. split; [exact Hq|].
      eapply Z.lt_le_trans; [exact L2|]. apply Z.pow_le_mono_r; lia.
    + assert (Ek : k = Z.log2 q - 52) by (unfold k; lia). split; [split; [apply Z.div_pos; lia|]|right].
      * apply Z.div_lt_upper_bound; [exact Hp|]. rewrite <- Z.pow_add_r by lia. replace (k + 53) with (Z.succ (Z.log2 q)) by lia. exact L2.
      * apply Z.div_le_lower_bound; [exact Hp|]. rewrite <- Z.pow_add_r by lia. replace (k + 52) with (Z.log2 q) by lia. exact L1.
Qed.

Lemma m1_cases : (m1 = m /\ 2 * r <= u /\ (2 * r = u -> Z.even m = true)) \/ (m1 = m + 1 /\ u <= 2 * r /\ (2 * r = u -> Z.even (m + 1) = true)).
Proof.
  unfold m1. destruct (u <? 2 * r) eqn:E1; cbn [orb]; [apply Z.ltb_lt in E1; right; repeat split; lia|]. apply Z.ltb_ge in E1.
  destruct (u =? 2 * r) eqn:E2; cbn [andb]; [apply Z.eqb_eq in E2|apply Z.eqb_neq in E2; left; repeat split; lia].
  destruct (Z.odd m) eqn:E3.
  - right. split; [reflexivity|]. split; [lia|]. intros _. rewrite Z.add_1_r, Z.even_succ. exact E3.
  - left. split; [reflexivity|]. split; [lia|]. intros _. rewrite <- Z.negb_odd, E3. reflexivity.
Qed.

(** Any float64 is at least as far from the number as m1. *)
Lemma m1_nearest g : float64 g -> Z.abs (num - d * (m1 * 2 ^ k)) <= Z.abs (num - d * units g) /\
  (Z.abs (num - d * units g) = Z.abs (num - d * (m1 * 2 ^ k)) -> units g <> m1 * 2 ^ k -> Z.even m1 = true).
Proof.
  intros Hg. destruct m_bounds as [[M1 M2] M3]. destruct num_eq as [En Er]. pose proof pk_pos as Hp. pose proof u_pos as Hu.
  assert (Eu : u = d * 2 ^ k) by reflexivity. assert (K : forall x, d * (x * 2 ^ k) = u * x) by (intros x; rewrite Eu; ring). rewrite K.
  assert (S : u * (m + 1) = u * m + u) by ring.
  assert (C : forall x, d * units g = u * x -> units g = x * 2 ^ k) by (intros x E; rewrite <- K in E; apply Z.mul_cancel_l in E; [exact E|lia]).
  assert (G : d * units g <= u * m \/ u * (m + 1) <= d * units g).
  { destruct (gap m k g M1 k_pos M3 Hg) as [G|G]; [left|right]; rewrite <- K; (apply Z.mul_le_mono_nonneg_l; [lia|exact G]). }
  pose proof (C m) as Cm. pose proof (C (m + 1)) as Cm1. clear C K Eu.
  destruct m1_cases as [(-> & C1 & C2)|(-> & C1 & C2)]; rewrite S in *; clear S;
    generalize dependent (d * units g); generalize dependent (u * m); intros.
  - split; [lia|]. intros E N. assert (z0 <> z) by tauto. apply C2. lia.
  - split; [lia|]. intros E N. assert (z0 <> z + u) by tauto. apply C2. lia.
Qed.

Lemma m1_bounds : 0 <= m1 <= 2 ^ 53 /\ (k = 0 \/ 2 ^ 52 <= m1).
Proof. destruct m_bounds as [? ?]. destruct m1_cases as [(-> & _)|(-> & _)]; lia. Qed.

(** The result is out of range when the number is too large. *)
Lemma out_of_range : too_large n d <-> 2045 < k \/ (k = 2045 /\ m1 = 2 ^ 53).
Proof.
  destruct m_bounds as [[M1 M2] M3]. destruct num_eq as [En Er]. pose proof pk_pos as Hp. pose proof u_pos as Hu.
  assert (T : too_large n d <-> d * 2 ^ 2044 * (2 ^ 54 - 1) <= num).
  { unfold too_large, num. rewrite Z.abs_eq by exact n_pos. replace 2044 with (970 + 1074) by reflexivity. rewrite Z.pow_add_r by lia.
    pose proof (Z.pow_pos_nonneg 2 1074 ltac:(lia) ltac:(lia)). generalize dependent (2 ^ 1074). generalize (2 ^ 970) (2 ^ 54 - 1). intros a b c Hc.
    replace (d * (a * c) * b) with (d * b * a * c) by ring. split; intros; [apply Z.mul_le_mono_nonneg_r; lia|]. now apply Z.mul_le_mono_pos_r in H0. }
  rewrite T. pose proof (Z.pow_pos_nonneg 2 2044 ltac:(lia) ltac:(lia)) as HP. set (P := 2 ^ 2044) in *.
  destruct (Z_lt_ge_dec k 2045) as [Hk|Hk].
  - split; [|lia]. intros H. exfalso. assert (HkP : 2 ^ k <= P) by (apply Z.pow_le_mono_r; lia).
    assert (u <= d * P) by (unfold u; apply Z.mul_le_mono_nonneg_l; lia). assert (u * m <= u * (2 ^ 53 - 1)) by (apply Z.mul_le_mono_nonneg_l; lia).
    change (2 ^ 54 - 1) with (2 ^ 53 + (2 ^ 53 - 1)) in H. generalize dependent (d * P). intros. clearbody P. clear T. generalize dependent (u * m). intros. lia.
  - destruct (Z.eq_dec k 2045) as [Ek|Nk].
    + assert (Eu : u = 2 * (d * P)) by (unfold u; rewrite Ek; change 2045 with (1 + 2044); rewrite Z.pow_add_r by lia; fold P; ring).
      clear T. pose proof m1_cases as C. destruct (Z.eq_dec m (2 ^ 53 - 1)) as [Em|Nm].
      * assert (Ee : Z.even m = false) by (rewrite Em; reflexivity). rewrite Ee in C. rewrite Em in C, En. rewrite Ek.
        assert (Q : u * (2 ^ 53 - 1) = (d * P) * (2 ^ 54 - 2)) by (rewrite Eu; ring). rewrite Q in En.
        split; intros H.
        -- right. split; [reflexivity|]. destruct C as [(-> & C1 & C2)|(-> & _)]; [|reflexivity]. exfalso.
           assert (2 * r = u \/ 2 * r < u) as [X|X] by lia; [discriminate (C2 X)|]. nia.
        -- destruct C as [(C0 & _)|(_ & C1 & _)]; [lia|]. nia.
      * assert (u * m <= u * (2 ^ 53 - 2)) by (apply Z.mul_le_mono_nonneg_l; lia).
        assert (Q : u * (2 ^ 53 - 2) = (d * P) * (2 ^ 54 - 4)) by (rewrite Eu; ring). split; intros H1; exfalso.
        -- rewrite Q in H. assert (0 < d * P) by (apply Z.mul_pos_pos; assumption). clear Q C HP Hp Ek Hk. generalize dependent (d * P). generalize dependent (u * m). intros. lia.
        -- destruct C as [(C0 & _)|(C0 & _)]; lia.
    + split; [lia|]. intros _. clear T. assert (HkP : 2 * (2 * P) <= 2 ^ k).
      { replace (2 * (2 * P)) with (2 ^ 2 * P) by (change (2 ^ 2) with 4; ring). unfold P. rewrite <- Z.pow_add_r by lia. apply Z.pow_le_mono_r; lia. }
      assert (d * (4 * P) <= u) by (unfold u; apply Z.mul_le_mono_nonneg_l; lia). assert (u * 2 ^ 52 <= u * m) by (apply Z.mul_le_mono_nonneg_l; lia).
      assert (d * (4 * P) * 2 ^ 52 <= u * 2 ^ 52) by (apply Z.mul_le_mono_nonneg_r; lia). clearbody P.
      assert (d * P * (2 ^ 54 - 1) <= d * (4 * P) * 2 ^ 52) by nia. lia.
Qed.
End Round.

Definition opposite (f : spec_float) : spec_float :=
  match f with S754_zero s => S754_zero (negb s) | S754_finite s m e => S754_finite (negb s) m e | S754_infinity s => S754_infinity (negb s) | S754_nan => S754_nan end.
Lemma opposite_float f : float64 f -> float64 (opposite f).
Proof. destruct f; cbn [opposite]; intros H; exact H. Qed.
Lemma opposite_units f : units (opposite f) = - units f.
Proof. destruct f as [s|s| |s m e]; try reflexivity. cbn [opposite units]. destruct s; cbn [negb]; ring. Qed.
Lemma opposite_twice f : opposite (opposite f) = f.
Proof. destruct f as [s|s| |s m e]; cbn [opposite]; try rewrite negb_involutive; reflexivity. Qed.
Lemma opposite_distance n d g : distance (- n) d (opposite g) = distance n d g.
Proof. unfold distance. rewrite opposite_units. rewrite <- Z.abs_opp. f_equal. ring. Qed.

Lemma opposite_nearest n d f : nearest_to n d f -> nearest_to (- n) d (opposite f).
Proof.
  intros (H1 & H2 & H3). split; [now apply opposite_float|]. split.
  - intros g Hg. rewrite <- (opposite_twice g), !opposite_distance. apply H2. now apply opposite_float.
  - intros g Hg. rewrite <- (opposite_twice g), !opposite_distance, !opposite_units. intros E N.
    assert (X : even_mantissa f) by (apply (H3 (opposite g)); [now apply opposite_float|exact E|rewrite opposite_units; lia]).
    destruct f; exact X.
Qed.

Lemma nearest_positive n d : 0 <= n -> 0 < d ->
  (too_large n d /\ nearest false n d = Err range_error) \/ (~ too_large n d /\ exists f, nearest false n d = Ok f /\ sign f = false /\ nearest_to n d f).
Proof.
  intros Hn Hd. pose proof (m1_nearest n d Hn Hd) as N. pose proof (m1_bounds n d Hn Hd) as B. pose proof (out_of_range n d Hn Hd) as O. pose proof (k_pos n d) as K.
  unfold nearest. cbv zeta in *. set (num := n * 2 ^ 1074) in *. set (k := Z.max 0 (Z.log2 (num / d) - 52)) in *. set (u := d * 2 ^ k) in *.
  set (m1 := if (u <? 2 * (num mod u)) || ((u =? 2 * (num mod u)) && Z.odd (num / u)) then num / u + 1 else num / u) in *.
  assert (Q : exists m2 k2, (if m1 =? 2 ^ 53 then (2 ^ 52, k + 1) else (m1, k)) = (m2, k2) /\ m2 * 2 ^ k2 = m1 * 2 ^ k /\ 0 <= m2 < 2 ^ 53 /\ (k2 = 0 \/ 2 ^ 52 <= m2) /\ 0 <= k2 /\ (2045 < k2 <-> 2045 < k \/ (k = 2045 /\ m1 = 2 ^ 53)) /\ (Z.even m1 = true -> Z.even m2 = true)).
  { destruct (m1 =? 2 ^ 53) eqn:E; [apply Z.eqb_eq in E|apply Z.eqb_neq in E].
    - exists (2 ^ 52), (k + 1). split; [reflexivity|]. split; [rewrite E, Z.pow_add_r by lia; ring|]. repeat split; try lia.
    - exists m1, k. split; [reflexivity|]. repeat split; lia. }
  destruct Q as (m2 & k2 & -> & Q1 & Q2 & Q3 & Q4 & Q5 & Q6). rewrite <- Q5 in O. clear Q5.
  destruct (2045 <? k2) eqn:E; [apply Z.ltb_lt in E; left; tauto|apply Z.ltb_ge in E]. right. split; [rewrite O; lia|].
  rewrite <- Q1 in N. clearbody m1. clear B Q1. destruct m2 as [|p|p]; [| |lia].
  - exists (S754_zero false). split; [reflexivity|]. split; [reflexivity|]. rewrite Z.mul_0_l in N. split; [split; [reflexivity|exact I]|].
    split; [|intros; exact I]. intros g Hg. exact (proj1 (N g Hg)).
  - exists (S754_finite false p (k2 - 1074)). split; [reflexivity|]. split; [reflexivity|].
    assert (V : units (S754_finite false p (k2 - 1074)) = Z.pos p * 2 ^ k2) by (cbn [units]; rewrite Z.mul_1_l; do 2 f_equal; lia).
    split; [split; [|exact I]; apply valid_canonical; unfold canonical; replace (k2 - 1074 + 1074) with k2 by lia; lia|].
    unfold distance. rewrite V. split; intros g Hg; [exact (proj1 (N g Hg))|]. intros E1 E2. apply Q6, (proj2 (N g Hg)); assumption.
Qed.

Lemma nearest_opposite n d : nearest true n d = match nearest false n d with Ok f => Ok (opposite f) | Err e => Err e | Panic => Panic | NoFuel => NoFuel end.
Proof.
  unfold nearest. cbv zeta. destruct (if _ =? 2 ^ 53 then _ else _) as [m2 k2]. destruct (2045 <? k2); [reflexivity|]. now destruct m2.
Qed.

Lemma nearest_spec neg n d : 0 <= n -> 0 < d ->
  (too_large n d /\ nearest neg n d = Err range_error) \/
  (~ too_large n d /\ exists f, nearest neg n d = Ok f /\ sign f = neg /\ nearest_to (if neg then - n else n) d f).
Proof.
  intros Hn Hd. destruct (nearest_positive n d Hn Hd) as [[H1 H2]|(H1 & f & H2 & H3 & H4)]; destruct neg; rewrite ?nearest_opposite, ?H2; [now left|now left|right|right]; (split; [exact H1|]).
  - exists (opposite f). split; [reflexivity|]. split; [|now apply opposite_nearest]. destruct H4 as [[_ H4] _]. destruct f; cbn in *; subst; (reflexivity || contradiction).
  - exists f. auto.
Qed.

(** *** Reading *)
Definition alph (c : byte) : bool := is_digit c || existsb (beqb c) (lit "+-.eE").

Lemma alph_special s : Forall (fun c => alph c = true) s -> same_letters s "inf" = false /\ same_letters s "infinity" = false /\ same_letters s "nan" = false.
Proof.
  intros [|c s' Hc _]; [repeat split; reflexivity|]. unfold same_letters.
  change (lit "inf") with (x69 :: lit "nf"). change (lit "infinity") with (x69 :: lit "nfinity"). change (lit "nan") with (x6e :: lit "an").
  cbn [combine forallb fst snd].
  assert (H : forall b, b = x69 \/ b = x6e -> ((Z_of_byte c =? Z_of_byte b) || ((65 <=? Z_of_byte c) && (Z_of_byte c <=? 90) && (Z_of_byte c + 32 =? Z_of_byte b)))%bool = false).
  { intros b [->| ->]; destruct c; try reflexivity; vm_compute in Hc; discriminate Hc. }
  rewrite !H by auto. cbn [andb]. rewrite !andb_false_r. auto.
Qed.

Lemma alph_no_special t : Forall (fun c => alph c = true) t -> special_float t = None.
Proof.
  intros H. assert (I : forall s, Forall (fun c => alph c = true) s -> infinity s = false).
  { intros s Hs. destruct (alph_special s Hs) as (H1 & H2 & _). unfold infinity. now rewrite H1, H2. }
  pose proof (I t H) as It. destruct (alph_special t H) as (_ & _ & Hn). unfold special_float. rewrite It, Hn.
  destruct t as [|c t]; [reflexivity|]. inversion H as [|? ? _ Ht]. rewrite (I t Ht). now destruct c.
Qed.

Definition start : mantissa := mkMant false false 0 0 false.
Definition negative (s : bytes) : bool := match s with x2d :: _ => true | _ => false end.

Lemma alph_parse t : Forall (fun c => alph c = true) t -> go_parse_float t =
  let '(a, s3) := read_mantissa false (unsigned t) start in
  if negb (mt_digits a) then Err syntax_error
  else match read_exponent false s3 with
       | Some (e, u, []) =>
         if (mt_under a || u) && negb (underscores_ok t) then Err syntax_error else scaled (negative t) (mt_value a) 10 (e - mt_frac a)
       | _ => Err syntax_error
       end.
Proof.
  intros H. unfold go_parse_float. rewrite alph_no_special by exact H. fold (negative t).
  assert (Hu : Forall (fun c => alph c = true) (unsigned t)).
  { destruct t as [|c t]; [exact H|]. inversion H; subst. unfold unsigned. destruct c; assumption. }
  assert (Hx : forall c, alph c = true -> lower c =? 120 = false) by (intros c Hc; destruct c; try reflexivity; vm_compute in Hc; discriminate Hc).
  fold start. assert (E : (match unsigned t with x30 :: c :: r => match r with _ :: _ => if lower c =? 120 then (true, r) else (false, unsigned t) | [] => (false, unsigned t) end | _ => (false, unsigned t) end) = (false, unsigned t)).
  { destruct (unsigned t) as [|a [|b [|c r]]]; try reflexivity; try (destruct a; reflexivity).
    inversion Hu as [|? ? _ Hu2]. inversion Hu2 as [|? ? Hb _]. subst. rewrite (Hx b Hb). destruct a; reflexivity. }
  rewrite E. reflexivity.
Qed.

Lemma zlen_nil_cons {A} (x : A) l : zlen (x :: l) = zlen l + 1.
Proof. unfold zlen. cbn [List.length]. lia. Qed.

Lemma digit_not_other c : is_digit c = true -> beqb c "_" = false /\ beqb c "." = false.
Proof. intros H. destruct c; split; try reflexivity; vm_compute in H; discriminate H. Qed.

Lemma read_mantissa_digits ds : forall rest a, forallb is_digit ds = true -> read_mantissa false (ds ++ rest) a =
  read_mantissa false rest (mkMant (mt_dot a) (mt_digits a || match ds with [] => false | _ => true end) (digits_value ds (mt_value a)) (if mt_dot a then mt_frac a + zlen ds else mt_frac a) (mt_under a)).
Proof.
  induction ds as [|c ds IH]; intros rest a H.
  - cbn [app digits_value]. rewrite orb_false_r. change (zlen (@nil byte)) with 0. rewrite Z.add_0_r. destruct a as [[|] ? ? ? ?]; reflexivity.
  - cbn [forallb] in H. apply andb_true_iff in H as [Hc H]. cbn [app read_mantissa]. destruct (digit_not_other c Hc) as [-> ->]. rewrite Hc, IH by exact H.
    cbn [add_digit mt_dot mt_digits mt_value mt_frac mt_under digits_value orb]. rewrite orb_true_r, (zlen_nil_cons c ds). f_equal. f_equal.
    + f_equal. ring.
    + destruct (mt_dot a); lia.
Qed.

Definition stops (s : bytes) : Prop := match s with [] => True | c :: _ => is_digit c = false /\ beqb c "_" = false end.
Definition dot_first (s : bytes) : bool := match s with c :: _ => beqb c "." | [] => false end.

Lemma read_mantissa_stop s a : stops s -> (dot_first s = true -> mt_dot a = true) -> read_mantissa false s a = (a, s).
Proof.
  destruct s as [|c s]; [reflexivity|]. intros [H1 H2] H3. cbn [read_mantissa andb dot_first] in *. rewrite H1, H2.
  destruct (beqb c "."); [rewrite H3 by reflexivity|]; reflexivity.
Qed.

Lemma span_digits s : exists ds rest, s = ds ++ rest /\ forallb is_digit ds = true /\ match rest with [] => True | c :: _ => is_digit c = false end.
Proof.
  induction s as [|c s (ds & rest & E & H1 & H2)]; [exists [], []; auto|]. destruct (is_digit c) eqn:Hc.
  - exists (c :: ds), rest. cbn [app forallb]. rewrite Hc, H1, E. auto.
  - exists [], (c :: s). auto.
Qed.

Lemma digits_value_ge ds : forall a, forallb is_digit ds = true -> 0 <= a -> a <= digits_value ds a.
Proof.
  induction ds as [|c ds IH]; intros a H Ha; cbn [digits_value]; [lia|]. cbn [forallb] in H. apply andb_true_iff in H as [Hc H].
  apply is_digit_spec in Hc. unfold digit_val. etransitivity; [|apply IH; [exact H|lia]]. lia.
Qed.

Lemma read_digits_all ds : forall a u, forallb is_digit ds = true -> exists z, read_digits ds a u = (z, u, []) /\
  (0 <= a < 100000 -> a <= z < 100000 /\ (digits_value ds a < 100000 -> z = digits_value ds a) /\ (100000 <= digits_value ds a -> 10000 <= z)).
Proof.
  induction ds as [|c ds IH]; intros a u H; cbn [read_digits digits_value]; [exists a; split; [reflexivity|]; intros Ha; split; [lia|split; lia]|]. cbn [forallb] in H. apply andb_true_iff in H as [Hc H].
  destruct (digit_not_other c Hc) as [-> _]. rewrite Hc. destruct (IH (if a <? 10000 then a * 10 + digit_val c else a) u H) as (z & -> & Hz). exists z. split; [reflexivity|].
  intros Ha. apply is_digit_spec in Hc. unfold digit_val in *.
  assert (10 * a + (Z_of_byte c - 48) <= digits_value ds (10 * a + (Z_of_byte c - 48))) by (apply digits_value_ge; [exact H|lia]).
  destruct (Z.ltb_spec a 10000) as [E|E].
  - replace (a * 10) with (10 * a) in Hz by ring. destruct (Hz ltac:(lia)) as (H1 & H2 & H3). split; [lia|]. split; assumption.
  - destruct (Hz Ha) as (H1 & _ & _). split; [lia|]. split; intros; lia.
Qed.

Lemma read_digits_rest ds rest : forall a u, forallb is_digit ds = true -> (match rest with [] => True | c :: _ => is_digit c = false /\ beqb c "_" = false end) ->
  exists z, read_digits (ds ++ rest) a u = (z, u, rest).
Proof.
  induction ds as [|c ds IH]; intros a u H Hr; cbn [app].
  - destruct rest as [|c rest]; [exists a; reflexivity|]. destruct Hr as [H1 H2]. cbn [read_digits]. rewrite H1, H2. eauto.
  - cbn [forallb] in H. apply andb_true_iff in H as [Hc H]. cbn [read_digits]. destruct (digit_not_other c Hc) as [-> _]. rewrite Hc. apply IH; assumption.
Qed.

Lemma digit_first ds z : decimal ds z -> exists c ds', ds = c :: ds' /\ is_digit c = true.
Proof.
  intros H. apply decimal_spec in H as (H1 & H2 & _). destruct ds as [|c ds']; [congruence|]. cbn [forallb] in H2. apply andb_true_iff in H2 as [H2 _]. eauto.
Qed.

(** The exponent that is used. *)
Definition cut (e z : Z) : Prop := (Z.abs e < 100000 -> z = e) /\ (100000 <= e -> 10000 <= z < 100000) /\ (e <= -100000 -> -100000 < z <= -10000).
Lemma read_exponent_spec x e : exponent x e -> exists z, read_exponent false x = Some (z, false, []) /\ cut e z.
Proof.
  unfold cut. intros [|c sg ds z Hc Hs Hd]; [exists 0; split; [reflexivity|]; repeat split; intros; lia|]. destruct (digit_first _ _ Hd) as (c0 & ds' & E & H0). pose proof Hd as Hd'. apply decimal_spec in Hd' as (_ & Ha & Hv).
  assert (Hl : lower c =? 101 = true) by (destruct Hc as [<-|[<-|[]]]; reflexivity).
  destruct (read_digits_all ds 0 false Ha) as (y & Hy & Hz).
  assert (Hge : 0 <= z) by (rewrite <- Hv; apply digits_value_ge; [exact Ha|lia]). rewrite Hv in Hz. destruct (Hz ltac:(lia)) as (Hz0 & Hz1 & Hz2).
  destruct Hs as [<-|[<-|[<-|[]]]].
  - change (bytes_eqb [] (lit "-")) with false. change ([] ++ ds) with ds. cbv iota. exists y. cbn [read_exponent]. rewrite Hl. split; [|repeat split; intros; lia].
    rewrite E in *. destruct c0; try (vm_compute in H0; discriminate H0); cbv beta iota zeta; rewrite H0, Hy; reflexivity.
  - change (bytes_eqb (lit "+") (lit "-")) with false. change (lit "+" ++ ds) with (x2b :: ds). cbv iota. exists y. cbn [read_exponent]. rewrite Hl. split; [|repeat split; intros; lia].
    rewrite E in *. rewrite H0, Hy. reflexivity.
  - change (bytes_eqb (lit "-") (lit "-")) with true. change (lit "-" ++ ds) with (x2d :: ds). cbv iota. exists (- y). cbn [read_exponent]. rewrite Hl. split; [|repeat split; intros; lia].
    rewrite E in *. rewrite H0, Hy. reflexivity.
Qed.

Lemma digits_alph ds : forallb is_digit ds = true -> Forall (fun c => alph c = true) ds.
Proof. intros H. rewrite forallb_forall in H. apply Forall_forall. intros c Hc. unfold alph. now rewrite (H c Hc). Qed.
Lemma sign_alph sg : In sg [[]; lit "+"; lit "-"] -> Forall (fun c => alph c = true) sg.
Proof. intros [<-|[<-|[<-|[]]]]; repeat constructor. Qed.
Lemma exponent_alph x e : exponent x e -> Forall (fun c => alph c = true) x.
Proof.
  intros [|c sg ds z Hc Hs Hd]; constructor; [destruct Hc as [<-|[<-|[]]]; reflexivity|]. apply Forall_app. split; [now apply sign_alph|].
  apply decimal_spec in Hd as (_ & H & _). now apply digits_alph.
Qed.
Lemma literal_alph t neg m f e : literal t neg m f e -> Forall (fun c => alph c = true) t.
Proof.
  intros [sg ds z x y Hs Hd Hx|sg ds fs z x y Hs Hd Hx]; apply decimal_spec in Hd as (_ & H & _).
  - repeat (apply Forall_app; split); [now apply sign_alph|now apply digits_alph|eapply exponent_alph; exact Hx].
  - rewrite forallb_app in H. apply andb_true_iff in H as [H1 H2].
    repeat (apply Forall_app; split); [now apply sign_alph|now apply digits_alph|repeat constructor|now apply digits_alph|eapply exponent_alph; exact Hx].
Qed.

Lemma exponent_stops x e : exponent x e -> stops x /\ dot_first x = false.
Proof. intros [|c sg ds z Hc _ _]; [split; [exact I|reflexivity]|]. destruct Hc as [<-|[<-|[]]]; repeat split; reflexivity. Qed.

(** The sign is cut off. *)
Lemma unsigned_sign sg c s : In sg [[]; lit "+"; lit "-"] -> (is_digit c = true \/ c = x2e) -> unsigned (sg ++ c :: s) = c :: s /\ negative (sg ++ c :: s) = bytes_eqb sg (lit "-").
Proof.
  intros [<-|[<-|[<-|[]]]] Hc; try (split; reflexivity). destruct Hc as [Hc| ->]; [|split; reflexivity].
  destruct c; try (split; reflexivity); vm_compute in Hc; discriminate Hc.
Qed.

Lemma scaled_spec neg m e : 0 <= m -> rounded neg m e range_error (scaled neg m 10 e).
Proof.
  intros Hm. unfold scaled, rounded, numer, denom, signed. apply nearest_spec.
  - apply Z.mul_nonneg_nonneg; [exact Hm|apply Z.pow_nonneg; lia].
  - apply Z.pow_pos_nonneg; lia.
Qed.

Lemma literal_reads t neg m f e : literal t neg m f e -> exists z, go_parse_float t = scaled neg m 10 (z - f) /\ cut e z /\ 0 <= m.
Proof.
  intros H. rewrite alph_parse by (eapply literal_alph; exact H). destruct H as [sg ds m x e Hs Hd Hx|sg ds fs m x e Hs Hd Hx].
  - destruct (read_exponent_spec x e Hx) as (z & Hz & He). exists z. destruct (digit_first _ _ Hd) as (c & ds' & E & Hc).
    apply decimal_spec in Hd as (_ & Ha & Hv). destruct (exponent_stops x e Hx) as [Hst Hdf].
    assert (U : unsigned (sg ++ ds ++ x) = ds ++ x /\ negative (sg ++ ds ++ x) = bytes_eqb sg (lit "-")) by (rewrite E; apply unsigned_sign; auto).
    destruct U as [-> ->]. rewrite read_mantissa_digits by exact Ha. rewrite read_mantissa_stop; [|exact Hst|rewrite Hdf; discriminate].
    cbn [start mt_dot mt_digits mt_value mt_frac mt_under orb]. rewrite Hv, Hz. rewrite E. cbn [negb orb andb]. split; [reflexivity|]. split; [exact He|].
    rewrite <- Hv. apply digits_value_ge; [exact Ha|lia].
  - destruct (read_exponent_spec x e Hx) as (z & Hz & He). exists z. apply decimal_spec in Hd as (Hne & Ha & Hv). destruct (exponent_stops x e Hx) as [Hst Hdf].
    rewrite forallb_app in Ha. pose proof Ha as Ha'. apply andb_true_iff in Ha as [Ha1 Ha2]. change (lit ".") with [x2e].
    assert (U : unsigned (sg ++ ds ++ [x2e] ++ fs ++ x) = ds ++ [x2e] ++ fs ++ x /\ negative (sg ++ ds ++ [x2e] ++ fs ++ x) = bytes_eqb sg (lit "-")).
    { destruct ds as [|c ds']; cbn [app]; apply unsigned_sign; auto. left. cbn [forallb] in Ha1. now apply andb_true_iff in Ha1. }
    destruct U as [-> ->]. rewrite read_mantissa_digits by exact Ha1. cbn [app read_mantissa]. change (beqb x2e "_") with false. change (beqb x2e ".") with true. cbv iota.
    cbn [start mt_dot mt_digits mt_value mt_frac mt_under orb]. rewrite read_mantissa_digits by exact Ha2. cbn [mt_dot mt_digits mt_value mt_frac mt_under].
    rewrite read_mantissa_stop; [|exact Hst|rewrite Hdf; discriminate]. cbn [mt_dot mt_digits mt_value mt_frac mt_under]. rewrite Hz. rewrite <- digits_value_app, Hv, Z.add_0_l.
    assert (D : ((match ds with [] => false | _ => true end) || (match fs with [] => false | _ => true end))%bool = true) by (destruct ds, fs; try reflexivity; exfalso; apply Hne; reflexivity).
    rewrite D. cbn [negb orb andb]. split; [reflexivity|]. split; [exact He|]. rewrite <- Hv. apply digits_value_ge; [rewrite forallb_app; exact Ha'|lia].
Qed.

(** An exponent that was cut makes no difference in a short text. *)
Lemma digits_value_lt ds : forall a, forallb is_digit ds = true -> 0 <= a -> digits_value ds a < (a + 1) * 10 ^ zlen ds.
Proof.
  induction ds as [|c ds IH]; intros a H Ha; cbn [digits_value]; [change (zlen (@nil byte)) with 0; lia|]. cbn [forallb] in H. apply andb_true_iff in H as [Hc H].
  apply is_digit_spec in Hc. unfold digit_val. eapply Z.lt_le_trans; [apply IH; [exact H|lia]|]. rewrite zlen_nil_cons. rewrite Z.pow_add_r by (unfold zlen; lia). rewrite Z.pow_1_r.
  rewrite (Z.mul_comm 10), Z.mul_assoc, Z.mul_shuffle0. apply Z.mul_le_mono_nonneg_r; [apply Z.pow_nonneg; lia|lia].
Qed.
Lemma zlen_app (a b : bytes) : zlen (a ++ b) = zlen a + zlen b.
Proof. unfold zlen. rewrite app_length. lia. Qed.
Lemma zlen_nonneg (a : bytes) : 0 <= zlen a.
Proof. unfold zlen. lia. Qed.
Lemma literal_size t neg m f e : literal t neg m f e -> 0 <= f <= zlen t /\ m < 10 ^ zlen t.
Proof.
  intros [sg ds z x y Hs Hd Hx|sg ds fs z x y Hs Hd Hx]; apply decimal_spec in Hd as (_ & H & Hv); pose proof (digits_value_lt _ 0 H ltac:(lia)) as L; rewrite Hv in L;
    rewrite !zlen_app in *; pose proof (zlen_nonneg sg); pose proof (zlen_nonneg ds); pose proof (zlen_nonneg x); try pose proof (zlen_nonneg fs); try pose proof (zlen_nonneg (lit ".")).
  - split; [lia|]. eapply Z.lt_le_trans; [exact L|]. rewrite Z.mul_1_l. apply Z.pow_le_mono_r; lia.
  - split; [lia|]. eapply Z.lt_le_trans; [exact L|]. rewrite Z.mul_1_l. apply Z.pow_le_mono_r; lia.
Qed.

Lemma nearest_none neg d : 0 < d -> nearest neg 0 d = Ok (S754_zero neg).
Proof.
  intros Hd. unfold nearest. rewrite Z.mul_0_l, Z.div_0_l by lia. change (Z.max 0 (Z.log2 0 - 52)) with 0. rewrite Z.pow_0_r, Z.mul_1_r. rewrite Z.div_0_l, Z.mod_0_l by lia.
  rewrite Z.mul_0_r. destruct (Z.ltb_spec d 0) as [K|_]; [lia|]. destruct (Z.eqb_spec d 0) as [K|_]; [lia|]. reflexivity.
Qed.
Lemma nearest_small neg n d : 0 <= n -> 0 < d -> n * 2 ^ 1075 < d -> nearest neg n d = Ok (S754_zero neg).
Proof.
  assert (P : 2 ^ (1074 + 1) = 2 ^ 1074 * 2 ^ 1) by (apply Z.pow_add_r; lia). assert (P0 : 0 <= 2 ^ 1074) by (apply Z.pow_nonneg; lia).
  intros Hn Hd Hs. unfold nearest. cbv zeta. change (2 ^ 1075) with (2 ^ (1074 + 1)) in Hs. rewrite P in Hs. clear P. rewrite Z.pow_1_r, Z.mul_assoc in Hs.
  revert P0 Hs. generalize (2 ^ 1074). intros u Hu Hs. assert (H : 0 <= n * u) by (apply Z.mul_nonneg_nonneg; assumption). revert H Hs. generalize (n * u). intros num Hnum Hs. clear u Hu.
  assert (Q : num / d = 0) by (apply Z.div_small; lia). rewrite Q. change (Z.max 0 (Z.log2 0 - 52)) with 0. rewrite Z.pow_0_r, Z.mul_1_r, Q. rewrite Z.mod_small by lia.
  destruct (Z.ltb_spec d (2 * num)) as [K|_]; [lia|]. destruct (Z.eqb_spec d (2 * num)) as [K|_]; [lia|]. reflexivity.
Qed.
Lemma scaled_zero neg m k e : 0 <= k -> 0 <= m < 10 ^ k -> e <= - (k + 1000) -> scaled neg m 10 e = Ok (S754_zero neg).
Proof.
  intros Hk [Hm Hs] He. unfold scaled. rewrite (Z.max_l 0 e) by lia. rewrite Z.pow_0_r, Z.mul_1_r. rewrite Z.max_r by lia. apply nearest_small; [exact Hm|apply Z.pow_pos_nonneg; lia|].
  apply Z.lt_le_trans with (10 ^ k * 10 ^ 1000); [|rewrite <- Z.pow_add_r by lia; apply Z.pow_le_mono_r; lia].
  apply Z.mul_lt_mono_nonneg; [exact Hm|exact Hs|apply Z.pow_nonneg; lia|].
  apply Z.lt_le_trans with (10 ^ 400); [apply Z.ltb_lt; vm_compute; reflexivity|apply Z.pow_le_mono_r; lia].
Qed.
Lemma scaled_huge neg m e : 0 < m -> 1000 <= e -> scaled neg m 10 e = Err range_error.
Proof.
  intros Hm He. destruct (scaled_spec neg m e ltac:(lia)) as [(_ & E)|(T & _)]; [exact E|]. destruct T. unfold too_large, numer, denom.
  rewrite (Z.max_r 0 e) by lia. rewrite Z.max_l by lia. rewrite Z.pow_0_r, Z.mul_1_l. rewrite Z.abs_eq by (apply Z.mul_nonneg_nonneg; [lia|apply Z.pow_nonneg; lia]).
  apply Z.le_trans with (10 ^ 400); [apply Z.leb_le; vm_compute; reflexivity|]. apply Z.le_trans with (1 * 10 ^ e); [rewrite Z.mul_1_l; apply Z.pow_le_mono_r; lia|].
  apply Z.mul_le_mono_nonneg_r; [apply Z.pow_nonneg; lia|lia].
Qed.
Lemma cut_scaled t neg m f e z : literal t neg m f e -> cut e z -> exponent_kept t e -> 0 <= m -> scaled neg m 10 (z - f) = scaled neg m 10 (e - f).
Proof.
  intros H (C1 & C2 & C3) Hk Hm. destruct (Z.lt_ge_cases (Z.abs e) 100000) as [L|L]; [rewrite (C1 L); reflexivity|]. destruct Hk as [Hk|Hk]; [lia|].
  destruct (literal_size _ _ _ _ _ H) as [Hf Hs]. destruct (Z.eq_dec m 0) as [->|Hne].
  { unfold scaled. rewrite !Z.mul_0_l. rewrite !nearest_none by (apply Z.pow_pos_nonneg; lia). reflexivity. }
  destruct (Z.le_gt_cases 0 e) as [P|P].
  - specialize (C2 ltac:(lia)). rewrite !scaled_huge by lia. reflexivity.
  - specialize (C3 ltac:(lia)). rewrite !(scaled_zero neg m (zlen t)) by (split || idtac; try apply zlen_nonneg; lia). reflexivity.
Qed.

Lemma literal_scaled t neg m f e : literal t neg m f e -> exponent_kept t e -> go_parse_float t = scaled neg m 10 (e - f) /\ 0 <= m.
Proof. intros H He. destruct (literal_reads t neg m f e H) as (z & -> & Hz & Hm). split; [eapply cut_scaled; eassumption|exact Hm]. Qed.
Lemma literal_nearest t neg m f e : literal t neg m f e -> exponent_kept t e -> rounded neg m (e - f) range_error (go_parse_float t).
Proof. intros H He. destruct (literal_scaled t neg m f e H He) as [-> Hm]. now apply scaled_spec. Qed.

(** A long text: 1, with a fraction of 200000 digits. *)
Definition long_one : bytes := lit "0." ++ repeat x30 (Z.to_nat 199999) ++ lit "1e200000".
Lemma zeros_value n a : digits_value (repeat x30 n) a = a * 10 ^ Z.of_nat n.
Proof.
  revert a. induction n as [|n IH]; intros a; [cbn [repeat digits_value]; change (Z.of_nat 0) with 0; lia|]. cbn [repeat digits_value]. rewrite IH. change (digit_val x30) with 0.
  rewrite Nat2Z.inj_succ, Z.pow_succ_r by lia. ring.
Qed.
Lemma zeros_digits n : forallb is_digit (repeat x30 n) = true.
Proof. induction n; [reflexivity|]. cbn [repeat forallb]. rewrite IHn. reflexivity. Qed.
Lemma long_one_literal : literal long_one false 1 200000 200000.
Proof.
  assert (E : long_one = [] ++ lit "0" ++ lit "." ++ (repeat x30 (Z.to_nat 199999) ++ lit "1") ++ lit "e200000").
  { unfold long_one. rewrite <- app_assoc. reflexivity. }
  rewrite E. clear E. assert (L : 200000 = zlen (repeat x30 (Z.to_nat 199999) ++ lit "1")) by (rewrite zlen_app; unfold zlen at 1; rewrite repeat_length, Z2Nat.id by lia; reflexivity).
  rewrite L at 1. clear L. generalize (Z.to_nat 199999). intros n.
  apply (literal_dot [] (lit "0") (repeat x30 n ++ lit "1") 1 (lit "e200000") 200000).
  - left. reflexivity.
  - apply decimal_spec. split; [discriminate|]. split; [rewrite !forallb_app, zeros_digits; reflexivity|].
    rewrite digits_value_app. change (digits_value (lit "0") 0) with 0. rewrite digits_value_app, zeros_value. reflexivity.
  - exact (ex_some x65 [] (lit "200000") 200000 ltac:(left; reflexivity) ltac:(left; reflexivity) ltac:(apply decimal_spec; split; [discriminate|split; reflexivity])).
Qed.
Lemma long_one_zero : go_parse_float long_one = Ok (S754_zero false).
Proof.
  destruct (literal_reads _ _ _ _ _ long_one_literal) as (z & -> & (_ & Hz & _) & _). specialize (Hz ltac:(lia)). apply (scaled_zero _ _ 1); [lia|split; [lia|reflexivity]|lia].
Qed.

(** *** Everything else in the same characters is refused *)
Lemma exponent_refused s : Forall (fun c => alph c = true) s ->
  (exists e, exponent s e) \/ match read_exponent false s with Some (_, _, []) => False | _ => True end.
Proof.
  intros H. destruct s as [|c r]; [left; exists 0; constructor|]. inversion H as [|? ? Hc Hr]. subst. cbn [read_exponent].
  destruct (lower c =? 101) eqn:E; [|right; exact I].
  assert (Hin : In c (lit "eE")) by (destruct c; try (vm_compute in E; discriminate E); vm_compute in Hc; try discriminate Hc; cbn; tauto).
  assert (K : forall sg ds, In sg [[]; lit "+"; lit "-"] -> r = sg ++ ds -> Forall (fun c => alph c = true) ds ->
    (exists e, exponent (c :: r) e) \/ forall neg : bool, match match ds with d :: _ => if is_digit d then let '(e, u, rest) := read_digits ds 0 false in Some (if neg then - e else e, u, rest) else None | [] => None end with Some (_, _, []) => False | _ => True end).
  { intros sg ds Hs -> Hds. destruct (span_digits ds) as (a & b & -> & Ha & Hb). destruct b as [|b bs].
    - rewrite app_nil_r. destruct a as [|a0 a]; [right; intros; exact I|]. left. eexists. apply ex_some; [exact Hin|exact Hs|]. apply decimal_spec. split; [discriminate|]. split; [exact Ha|reflexivity].
    - right. intros neg. apply Forall_app in Hds as [_ Hds]. inversion Hds as [|? ? Hbb _]. subst.
      destruct (read_digits_rest a (b :: bs) 0 false Ha) as (z & ->). { split; [exact Hb|]. destruct b; try reflexivity. vm_compute in Hbb. discriminate Hbb. }
      destruct (a ++ b :: bs) as [|d l]; [exact I|]. destruct (is_digit d); exact I. }
  assert (A : forall x r', r = x :: r' -> Forall (fun c => alph c = true) r') by (intros x r' ->; now inversion Hr).
  destruct r as [|x r']; [destruct (K [] []) as [K'|K']; [cbn; tauto|reflexivity|constructor|left; exact K'|right; exact (K' false)]|].
  specialize (A x r' eq_refl).
  destruct (K [] (x :: r')) as [K'|K']; [cbn; tauto|reflexivity|exact Hr|left; exact K'|].
  destruct (beqb x x2b) eqn:E1; [apply beqb_eq in E1 as ->|].
  { destruct (K (lit "+") r') as [K2|K2]; [cbn; tauto|reflexivity|exact A|left; exact K2|right; exact (K2 false)]. }
  destruct (beqb x x2d) eqn:E2; [apply beqb_eq in E2 as ->|].
  { destruct (K (lit "-") r') as [K2|K2]; [cbn; tauto|reflexivity|exact A|left; exact K2|right; exact (K2 true)]. }
  right. pose proof (K' false) as K2. destruct x; try exact K2; discriminate.
Qed.

Lemma literal_refused t : Forall (fun c => alph c = true) t -> (exists neg m f e, literal t neg m f e) \/ go_parse_float t = Err syntax_error.
Proof.
  intros H. rewrite alph_parse by exact H.
  assert (S : exists sg, In sg [[]; lit "+"; lit "-"] /\ t = sg ++ unsigned t).
  { destruct t as [|c t]; [exists []; cbn; auto|]. destruct (beqb c x2b) eqn:E1; [apply beqb_eq in E1 as ->; exists (lit "+"); cbn; auto|].
    destruct (beqb c x2d) eqn:E2; [apply beqb_eq in E2 as ->; exists (lit "-"); cbn; auto|]. exists []. split; [cbn; auto|]. destruct c; try reflexivity; discriminate. }
  destruct S as (sg & Hs & Et). set (neg := negative t). set (ok := underscores_ok t). clearbody neg ok. rewrite Et in H. apply Forall_app in H as [_ H]. set (s := unsigned t) in *. clearbody s. subst t.
  destruct (span_digits s) as (ds & rest & -> & Hd & Hr). rewrite read_mantissa_digits by exact Hd. apply Forall_app in H as [_ H].
  assert (Under : forall c, alph c = true -> beqb c "_" = false) by (intros c Hc; destruct c; try reflexivity; vm_compute in Hc; discriminate Hc).
  destruct (dot_first rest) eqn:Edf.
  - destruct rest as [|c r]; [discriminate|]. cbn [dot_first] in Edf. apply beqb_eq in Edf. subst c. inversion H as [|? ? _ H2]. subst.
    cbn [read_mantissa]. change (beqb "." "_") with false. change (beqb "." ".") with true. cbn [start mt_dot mt_digits mt_value mt_frac mt_under orb]. cbv iota.
    destruct (span_digits r) as (fs & rest2 & -> & Hf & Hr2). rewrite read_mantissa_digits by exact Hf. apply Forall_app in H2 as [_ H2]. cbn [mt_dot mt_digits mt_value mt_frac mt_under].
    assert (St : stops rest2) by (destruct rest2 as [|c r2]; [exact I|]; inversion H2; subst; split; [exact Hr2|auto]).
    rewrite read_mantissa_stop by (auto; intros; reflexivity). cbn [mt_dot mt_digits mt_value mt_frac mt_under].
    destruct ((match ds with [] => false | _ => true end) || (match fs with [] => false | _ => true end))%bool eqn:D; [|right; reflexivity]. cbn [negb].
    destruct (exponent_refused rest2 H2) as [(e & He)|He].
    + left. do 4 eexists. change ("."%byte :: fs ++ rest2) with (lit "." ++ fs ++ rest2). apply literal_dot; [exact Hs| |exact He]. apply decimal_spec.
      split; [intros X; apply app_eq_nil in X as [-> ->]; discriminate D|]. split; [rewrite forallb_app, Hd, Hf; reflexivity|reflexivity].
    + right. destruct (read_exponent false rest2) as [[[e u] [|b l]]|]; [contradiction|reflexivity|reflexivity].
  - assert (St : stops rest) by (destruct rest as [|c r2]; [exact I|]; inversion H; subst; split; [exact Hr|auto]).
    rewrite read_mantissa_stop by (auto; rewrite Edf; discriminate). cbn [start mt_dot mt_digits mt_value mt_frac mt_under orb].
    destruct ds as [|d ds]; [right; reflexivity|]. cbn [negb]. destruct (exponent_refused rest H) as [(e & He)|He].
    + left. do 4 eexists. apply literal_whole; [exact Hs| |exact He]. apply decimal_spec. split; [discriminate|]. split; [exact Hd|reflexivity].
    + right. destruct (read_exponent false rest) as [[[e u] [|b l]]|]; [contradiction|reflexivity|reflexivity].
Qed.
