(** Numbers are read again as they were, and shown as they were read. *)
From Coq Require Import List ZArith Lia Bool String.
From Coq Require Import Strings.Byte Floats.SpecFloat.
From Verif Require Import Base Codec Value GoStrings SpecText StringsFacts Utf8Facts Json SpecJson JsonFacts Parser FloatText SpecFloatText FloatTextFacts FloatTextFacts2 SpecFloatFormat FloatFormat FloatFormatFacts FloatFormatFacts2 FloatFormatFacts3 FloatFormatFacts4 FloatFormatFacts5.
Import ListNotations.
Open Scope Z_scope.

Lemma literal_scaled t neg m f e : literal t neg m f e -> exponent_kept t e -> go_parse_float t = nearest neg (numer m (e - f)) (denom (e - f)) /\ 0 <= m.
Proof. exact (FloatTextFacts.literal_scaled t neg m f e). Qed.
Lemma numer_nonneg m e : 0 <= m -> 0 <= numer m e.
Proof. intros. apply Z.mul_nonneg_nonneg; [assumption|]. pose proof (pow10_pos e). lia. Qed.

Lemma nearest_neg neg n d m k : nearest neg n d = Ok (S754_finite neg (Z.to_pos m) (k - 1074)) <-> nearest false n d = Ok (S754_finite false (Z.to_pos m) (k - 1074)).
Proof.
  destruct neg; [|reflexivity]. rewrite nearest_opposite. split; [|intros ->; reflexivity]. destruct (nearest false n d) as [f| | |]; try discriminate.
  intros H. assert (E : opposite f = S754_finite true (Z.to_pos m) (k - 1074)) by congruence. destruct f; cbn [opposite] in E; try discriminate. f_equal. destruct s; [discriminate|]. congruence.
Qed.
Lemma nearest_sign neg n d f : nearest neg n d = Ok f -> sign f = neg.
Proof.
  unfold nearest. cbv zeta. destruct (if _ =? 2 ^ 53 then _ else _) as [m2 k2]. destruct (2045 <? k2); [discriminate|]. destruct m2; intros H; assert (E : f = _) by (symmetry; injection H as H; exact H); subst f; reflexivity.
Qed.

(** Reading a literal as a float64, in terms of the interval. *)
Lemma literal_within t neg m f e s p x : literal t neg m f e -> exponent_kept t e -> valid_binary 53 1024 (S754_finite s p x) = true ->
  (go_parse_float t = Ok (S754_finite s p x) <-> s = neg /\ within (Zpos p) (x + 1074) (numer m (e - f)) (denom (e - f))).
Proof.
  intros L He Hv. destruct (literal_scaled _ _ _ _ _ L He) as [-> Hm]. apply valid_canonical in Hv.
  assert (E : forall s, S754_finite s p x = S754_finite s (Z.to_pos (Zpos p)) (x + 1074 - 1074)) by (intros s'; cbn [Z.to_pos]; f_equal; lia).
  split.
  - intros H. pose proof (nearest_sign _ _ _ _ H) as S. cbn [sign] in S. split; [exact S|]. subst s. rewrite E in H. apply nearest_neg in H.
    apply nearest_within; [now apply numer_nonneg|apply pow10_pos|lia|exact H].
  - intros [-> W]. rewrite E. apply nearest_neg. apply within_nearest; [apply pow10_pos|lia|exact Hv|exact W].
Qed.

Lemma same_within m k a e a' e' : same_number a e a' e' -> within m k (numer a e) (denom e) -> within m k (numer a' e') (denom e').
Proof. intros H. apply within_ratio; [apply pow10_pos|apply pow10_pos|exact H]. Qed.
Lemma shift_same d q j e : 0 <= j -> e = q - j -> same_number (d * 10 ^ j) e d q.
Proof. intros Hj ->. unfold same_number. symmetry. replace j with (q - (q - j)) at 2 by lia. apply numer_shift. lia. Qed.
Lemma same_sym a e a' e' : same_number a e a' e' -> same_number a' e' a e.
Proof. unfold same_number. congruence. Qed.

Lemma zero_text neg : json_float (S754_zero neg) = sign_text neg ++ [x30] ++ [] ++ [].
Proof. destruct neg; reflexivity. Qed.

(** *** Read again *)
Lemma read_back f : float64 f -> go_parse_float (json_float f) = Ok f.
Proof.
  intros [Hv Hf]. destruct f as [s|s| |s m e]; try contradiction; [destruct s; vm_compute; reflexivity|].
  destruct (json_float_shown s m e Hv) as (d & q & Sh & _ & _ & W & _). destruct (shown_literal _ _ _ _ Sh) as (a & f & x & j & L & Hx & Hj & Ea & Ex).
  apply (literal_within _ _ _ _ _ s m e L ltac:(left; lia) Hv). split; [reflexivity|]. apply (same_within _ _ d q); [|exact W]. apply same_sym. subst a. apply shift_same; assumption.
Qed.
Lemma float_number f : is_number f = true -> number_text (json_float f).
Proof.
  destruct f as [s|s| |s m e]; try discriminate; intros _.
  - rewrite zero_text. apply number_shape; left; reflexivity.
  - unfold json_float. destruct (valid_binary 53 1024 (S754_finite s m e)) eqn:E; [|reflexivity]. destruct (json_float_shown s m e E) as (d & q & Sh & _). apply shown_number in Sh. unfold json_float in Sh. rewrite E in Sh. exact Sh.
Qed.

(** *** The fewest digits *)
Lemma zero_literal s : literal (json_float (S754_zero s)) s 0 0 0.
Proof. rewrite zero_text. exact (literal_shape s [x30] [] [] (or_introl eq_refl) (or_introl eq_refl) (or_introl eq_refl)). Qed.
Lemma zero_digits n : 0 <= n -> at_most_digits n 0.
Proof. intros Hn. exists 0, 0. split; [lia|]. split; [reflexivity|]. apply Z.pow_pos_nonneg; lia. Qed.

Lemma abs_digits c n j : 0 < c * 10 ^ j -> 0 <= j -> Z.abs c < 10 ^ n -> 0 < c < 10 ^ n.
Proof. intros H Hj Hc. assert (0 < 10 ^ j) by (apply Z.pow_pos_nonneg; lia). assert (0 < c) by nia. lia. Qed.
Lemma within_numer m k a e : 0 < m -> 0 <= k -> within m k (numer a e) (denom e) -> 0 < a.
Proof. intros. eapply within_pos; eassumption. Qed.

Lemma shortest_text f : float64 f -> exists m g e, literal (json_float f) (sign f) m g e /\ at_most_digits 17 m /\
  (forall n t m' g' e', 0 <= n -> literal t (sign f) m' g' e' -> exponent_kept t e' -> go_parse_float t = Ok f -> at_most_digits n m' -> at_most_digits n m).
Proof.
  intros [Hv Hf]. destruct f as [s|s| |s m e]; try contradiction.
  - exists 0, 0, 0. split; [apply zero_literal|]. split; [apply zero_digits; lia|]. intros. now apply zero_digits.
  - destruct (json_float_shown s m e Hv) as (d & q & Sh & Hd & _ & W & Hh & _). destruct (shown_literal _ _ _ _ Sh) as (a & f & x & j & L & Hx & Hj & Ea & Ex).
    exists a, f, x. split; [exact L|]. pose proof Hv as C. apply valid_canonical in C. destruct C as (C1 & C2 & _). split.
    + exists d, j. split; [exact Hj|]. split; [exact Ea|]. lia.
    + intros n t m' g' e' Hn L' He' P (c & i & Hi & Ec & Hc). apply (literal_within _ _ _ _ _ s m e L' He' Hv) in P as [_ P].
      pose proof (within_numer (Zpos m) (e + 1074) _ _ ltac:(lia) ltac:(lia) P) as Hm'. subst m'. destruct (abs_digits c n i Hm' Hi Hc) as [Hc1 Hc2].
      assert (W' : within (Zpos m) (e + 1074) (numer c (e' - g' + i)) (denom (e' - g' + i))) by (apply (same_within _ _ (c * 10 ^ i) (e' - g')); [apply shift_same; lia|exact P]).
      exists d, j. split; [exact Hj|]. split; [exact Ea|]. pose proof (fewest (Zpos m) (e + 1074) ltac:(lia) ltac:(lia) d q W Hh c _ n Hn W' Hc2). lia.
Qed.

(** *** The nearest of them *)
Lemma far_distance s m e x q : distance (signed s (numer x q)) (denom q) (S754_finite s m e) = far (Zpos m) (e + 1074) x q.
Proof.
  unfold distance, far, units. rewrite unit_numer. change (scale_of q) with (denom q). set (b := 2 ^ 1074). set (t := 2 ^ (e + 1074)). clearbody b t. unfold signed. destruct s; [rewrite <- Z.abs_opp|]; apply (f_equal Z.abs); ring.
Qed.
Lemma closest_text f : float64 f -> units f <> 0 -> exists m g e d q, literal (json_float f) (sign f) m g e /\ same_number m (e - g) d q /\ d mod 10 <> 0 /\
  (forall t m' g' e' x, literal t (sign f) m' g' e' -> exponent_kept t e' -> go_parse_float t = Ok f -> same_number m' (e' - g') x q ->
    distance (signed (sign f) (numer d q)) (denom q) f <= distance (signed (sign f) (numer x q)) (denom q) f).
Proof.
  intros [Hv Hf] Hu. destruct f as [s|s| |s m e]; try contradiction.
  destruct (json_float_shown s m e Hv) as (d & q & Sh & _ & Hl & W & _ & Hn). destruct (shown_literal _ _ _ _ Sh) as (a & f & x & j & L & Hx & Hj & Ea & Ex).
  exists a, f, x, d, q. split; [exact L|]. split; [subst a; apply shift_same; assumption|]. split; [exact Hl|]. cbn [sign].
  intros t m' g' e' y L' He' P Hs. rewrite !far_distance. apply Hn. apply (literal_within _ _ _ _ _ s m e L' He' Hv) in P as [_ P]. exact (same_within _ _ _ _ _ _ Hs P).
Qed.

(** *** Fifteen digits are kept *)
Lemma kept f t neg m g e : float64 f -> normal f -> literal t neg m g e -> exponent_kept t e -> at_most_digits 15 m -> go_parse_float t = Ok f ->
  exists m' g' e', literal (json_float f) neg m' g' e' /\ same_number m (e - g) m' (e' - g').
Proof.
  intros [Hv Hf] Hn L He (c & i & Hi & Ec & Hc) P. destruct f as [s|s| |s p x]; try contradiction.
  destruct (json_float_shown s p x Hv) as (d & q & Sh & _ & _ & W & Hh & _). destruct (shown_literal _ _ _ _ Sh) as (a & f & z & j & L' & Hz & Hj & Ea & Ez).
  apply (literal_within _ _ _ _ _ s p x L He Hv) in P as [<- P]. exists a, f, z. split; [exact L'|]. pose proof Hv as C. apply valid_canonical in C. destruct C as (C1 & C2 & C3).
  pose proof (within_numer (Zpos p) (x + 1074) _ _ ltac:(lia) ltac:(lia) P) as Hm. subst m. destruct (abs_digits c 15 i Hm Hi Hc) as [Hc1 Hc2].
  assert (W' : within (Zpos p) (x + 1074) (numer c (e - g + i)) (denom (e - g + i))) by (apply (same_within _ _ (c * 10 ^ i) (e - g)); [apply shift_same; lia|exact P]).
  assert (Hp : 2 ^ 52 <= Zpos p). { destruct C3 as [C3|C3]; [|exact C3]. unfold normal, units in Hn. rewrite C3 in Hn. destruct s; lia. }
  destruct (fifteen (Zpos p) (x + 1074) ltac:(lia) d q W Hh c _ Hp W' Hc2) as [Hq Ecd].
  assert (S1 : same_number (c * 10 ^ i) (e - g) c (e - g + i)) by (apply shift_same; lia). assert (S2 : same_number a (z - f) d q) by (subst a; apply shift_same; assumption).
  assert (S3 : same_number c (e - g + i) d q) by (rewrite Ecd; apply shift_same; lia).
  unfold same_number in *. pose proof (pow10_pos (- (e - g + i))). pose proof (pow10_pos (- q)). unfold denom in *.
  set (A := numer (c * 10 ^ i) (e - g)) in *. set (A' := 10 ^ Z.max 0 (- (e - g))) in *. set (B := numer c (e - g + i)) in *. set (B' := 10 ^ Z.max 0 (- (e - g + i))) in *.
  set (D := numer d q) in *. set (D' := 10 ^ Z.max 0 (- q)) in *. set (E := numer a (z - f)) in *. set (E' := 10 ^ Z.max 0 (- (z - f))) in *. clearbody A A' B B' D D' E E'.
  apply (Z.mul_cancel_r _ _ (B' * D')); [assert (0 < B' * D') by (apply Z.mul_pos_pos; assumption); lia|].
  transitivity ((A * B') * (E' * D')); [ring|]. rewrite S1. transitivity ((B * D') * (A' * E')); [ring|]. rewrite S3. transitivity ((D * E') * (A' * B')); [ring|]. rewrite <- S2. ring.
Qed.

Lemma nearest_zero neg d : 0 < d -> nearest neg 0 d = Ok (S754_zero neg).
Proof.
  intros Hd. rewrite (nearest_at neg 0 d 0 0 0); [|lia|lia|lia|now left|lia|change (2 ^ 0) with 1; lia]. cbv zeta. change (2 ^ 0) with 1. rewrite Z.mul_1_r. change (2 * 0) with 0.
  replace (d <? 0) with false by (symmetry; apply Z.ltb_ge; lia). replace (d =? 0) with false by (symmetry; apply Z.eqb_neq; lia). reflexivity.
Qed.

Lemma column_kept sc cs rs neg m g e : scalar sc -> Forall scalar cs -> Forall scalar rs -> literal (written sc cs rs) neg m g e -> exponent_kept (written sc cs rs) e -> at_most_digits 15 m ->
  (m = 0 \/ denom (e - g) <= numer m (e - g) * 10 ^ 307) -> ~ too_large (numer m (e - g)) (denom (e - g)) ->
  exists v t m' g' e', parse_float_value go_parse_float (text [sc]) (text cs) (text rs) = Ok v /\ json_encode json_float v = Ok t /\ literal t neg m' g' e' /\ same_number m (e - g) m' (e' - g').
Proof.
  intros Hs Hc Hr L He Hd Hsize Hlarge. destruct (literal_scaled _ _ _ _ _ L He) as [P Hm]. pose proof (numer_nonneg m (e - g) Hm) as Hn. assert (Hden : 0 < denom (e - g)) by apply pow10_pos.
  destruct (nearest_spec neg (numer m (e - g)) (denom (e - g)) Hn Hden) as [[T _]|(_ & f & Ef & Sf & Hf & Hnear & _)]; [contradiction|].
  assert (V : parse_float_value go_parse_float (text [sc]) (text cs) (text rs) = Ok (VFloat f)) by (rewrite float_written by assumption; rewrite P, Ef; reflexivity).
  assert (J : json_encode json_float (VFloat f) = Ok (json_float f)) by (destruct Hf as [_ Hf]; destruct f; try contradiction; reflexivity).
  exists (VFloat f), (json_float f). rewrite V, J. destruct Hsize as [->|Hsize].
  - assert (E0 : nearest neg (numer 0 (e - g)) (denom (e - g)) = Ok (S754_zero neg)) by (apply nearest_zero; exact Hden). rewrite E0 in Ef. assert (f = S754_zero neg) by congruence. subst f.
    exists 0, 0, 0. split; [reflexivity|]. split; [reflexivity|]. split; [apply zero_literal|]. reflexivity.
  - destruct (kept f (written sc cs rs) neg m g e Hf) as (m' & g' & e' & L' & S'); [|exact L|exact He|exact Hd|congruence|].
    2:{ exists m', g', e'. auto. }
    pose proof pow2_1074 as H2. set (n := numer m (e - g)) in *. set (d := denom (e - g)) in *.
    assert (Big : 2 ^ 54 * d <= 4 * (n * 2 ^ 1074)).
    { apply (Z.mul_le_mono_pos_r _ _ (10 ^ 307)); [apply Z.pow_pos_nonneg; lia|]. apply Z.le_trans with (4 * 2 ^ 1074 * d).
      - replace (2 ^ 54 * d * 10 ^ 307) with (2 ^ 54 * 10 ^ 307 * d) by ring. apply Z.mul_le_mono_nonneg_r; [lia|]. vm_compute. discriminate.
      - replace (4 * (n * 2 ^ 1074) * 10 ^ 307) with (4 * 2 ^ 1074 * (n * 10 ^ 307)) by ring. apply Z.mul_le_mono_nonneg_l; [lia|exact Hsize]. }
    destruct Hf as [Hv Hf]. destruct f as [s|s| |s p x]; try contradiction.
    + exfalso. specialize (Hnear (S754_finite neg 1 (-1074)) ltac:(split; [reflexivity|exact I])). unfold distance, units in Hnear. rewrite Z.mul_0_r, Z.sub_0_r in Hnear. change (-1074 + 1074) with 0 in Hnear. change (2 ^ 0) with 1 in Hnear.
      assert (0 <= n * 2 ^ 1074) by (apply Z.mul_nonneg_nonneg; lia). assert (2 ^ 54 = 18014398509481984) by reflexivity. destruct neg; [replace (- n * 2 ^ 1074) with (- (n * 2 ^ 1074)) in Hnear by ring|]; lia.
    + assert (W : within (Zpos p) (x + 1074) n d). { eapply literal_within; [exact L|exact He|exact Hv|]. rewrite P, Ef. reflexivity. }
      apply valid_canonical in Hv. destruct Hv as (C1 & _). destruct (bounds_around (Zpos p) (x + 1074) ltac:(lia) ltac:(lia)) as (_ & _ & U & _). unfold normal, units.
      assert (0 < 2 ^ (x + 1074)) by (apply Z.pow_pos_nonneg; lia). set (v := Zpos p * 2 ^ (x + 1074)) in *.
      assert (Ev : Z.abs ((if s then -1 else 1) * Zpos p * 2 ^ (x + 1074)) = v) by (subst v; destruct s; lia). rewrite Ev. clearbody v.
      destruct W as [_ W]. assert (W' : 4 * (n * 2 ^ 1074) <= upper (Zpos p) (x + 1074) * d) by (destruct W as [W|[_ W]]; lia).
      assert (W2 : upper (Zpos p) (x + 1074) * d <= 6 * v * d) by (apply Z.mul_le_mono_nonneg_r; lia).
      destruct (Z_le_gt_dec (2 ^ 52) v) as [|Lv]; [assumption|exfalso].
      assert (Z1 : 4 * (n * 2 ^ 1074) <= 6 * 2 ^ 52 * d). { etransitivity; [exact W'|]. etransitivity; [exact W2|]. apply Z.mul_le_mono_nonneg_r; lia. }
      assert (Z2 : 4 * 2 ^ 1074 * d <= 6 * 2 ^ 52 * 10 ^ 307 * d).
      { apply Z.le_trans with (4 * (n * 2 ^ 1074) * 10 ^ 307); [replace (4 * (n * 2 ^ 1074) * 10 ^ 307) with (4 * 2 ^ 1074 * (n * 10 ^ 307)) by ring; apply Z.mul_le_mono_nonneg_l; [lia|exact Hsize]|].
        replace (6 * 2 ^ 52 * 10 ^ 307 * d) with (6 * 2 ^ 52 * d * 10 ^ 307) by ring. apply Z.mul_le_mono_nonneg_r; [apply Z.pow_nonneg; lia|exact Z1]. }
      apply Z.mul_le_mono_pos_r in Z2; [|exact Hden]. vm_compute in Z2. congruence.
Qed.
