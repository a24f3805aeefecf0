(** Facts about the float parser. *)
From Coq Require Import List ZArith Lia Bool String.
From Coq Require Import Strings.Byte Floats.SpecFloat.
From Verif Require Import Base BaseFacts Value Codec GoStrings SpecText StringsFacts Utf8Facts Parser Regex RegexFacts RouteFacts Route SpecRoute RouteFacts3 RouteFacts4 FloatText SpecFloatText FloatTextFacts.
Import ListNotations.
Open Scope Z_scope.

(** *** Equal numbers, ordered numbers *)
Lemma nearest_scale neg n d c : 0 <= n -> 0 < d -> 0 < c -> nearest neg (n * c) (d * c) = nearest neg n d.
Proof.
  intros Hn Hd Hc. unfold nearest. cbv zeta.
  replace (n * c * 2 ^ 1074) with (n * 2 ^ 1074 * c) by ring. set (num := n * 2 ^ 1074).
  rewrite Z.div_mul_cancel_r by lia. set (k := Z.max 0 (Z.log2 (num / d) - 52)).
  assert (Hk : 0 < 2 ^ k) by (apply Z.pow_pos_nonneg; unfold k; lia).
  replace (d * c * 2 ^ k) with (d * 2 ^ k * c) by ring. set (u := d * 2 ^ k). assert (Hu : 0 < u) by (unfold u; apply Z.mul_pos_pos; assumption).
  rewrite Z.div_mul_cancel_r by lia. rewrite Z.mul_mod_distr_r by lia.
  assert (E1 : (u * c <? 2 * (num mod u * c)) = (u <? 2 * (num mod u))).
  { generalize (num mod u). intros r. destruct (u <? 2 * r) eqn:E; [apply Z.ltb_lt in E; apply Z.ltb_lt|apply Z.ltb_ge in E; apply Z.ltb_ge]; rewrite Z.mul_assoc;
      [apply Z.mul_lt_mono_pos_r|apply Z.mul_le_mono_nonneg_r]; lia. }
  assert (E2 : (u * c =? 2 * (num mod u * c)) = (u =? 2 * (num mod u))).
  { generalize (num mod u). intros r. destruct (u =? 2 * r) eqn:E; [apply Z.eqb_eq in E; apply Z.eqb_eq; rewrite E; ring|apply Z.eqb_neq in E; apply Z.eqb_neq].
    intros X. apply E. rewrite Z.mul_assoc in X. apply Z.mul_cancel_r in X; lia. }
  rewrite E1, E2. reflexivity.
Qed.

Lemma nearest_ratio neg n d n' d' : 0 <= n -> 0 < d -> 0 <= n' -> 0 < d' -> n * d' = n' * d -> nearest neg n d = nearest neg n' d'.
Proof.
  intros. rewrite <- (nearest_scale neg n d d') by assumption. rewrite <- (nearest_scale neg n' d' d) by assumption. f_equal; [assumption|ring].
Qed.

Lemma denom_pos e : 0 < denom e.
Proof. apply Z.pow_pos_nonneg; lia. Qed.
Lemma numer_pos m e : 0 <= m -> 0 <= numer m e.
Proof. intros. apply Z.mul_nonneg_nonneg; [assumption|apply Z.pow_nonneg; lia]. Qed.

Lemma same_number t neg m f e t' m' f' e' : literal t neg m f e -> literal t' neg m' f' e' -> exponent_kept t e -> exponent_kept t' e' ->
  numer m (e - f) * denom (e' - f') = numer m' (e' - f') * denom (e - f) -> go_parse_float t = go_parse_float t'.
Proof.
  intros H H' B B' E. destruct (literal_scaled _ _ _ _ _ H B) as [-> Hm]. destruct (literal_scaled _ _ _ _ _ H' B') as [-> Hm'].
  unfold scaled. fold (denom (e - f)) (denom (e' - f')) (numer m (e - f)) (numer m' (e' - f')).
  apply nearest_ratio; auto using denom_pos, numer_pos.
Qed.

Lemma nearest_order n d f n' d' f' : 0 < d -> 0 < d' -> n * d' < n' * d -> nearest_to n d f -> nearest_to n' d' f' -> units f <= units f'.
Proof.
  intros Hd Hd' Hlt (F1 & F2 & _) (G1 & G2 & _). destruct (Z_le_gt_dec (units f) (units f')) as [H|H]; [exact H|exfalso].
  specialize (F2 f' G1). specialize (G2 f F1). unfold distance in *.
  assert (HP : 0 < 2 ^ 1074) by (apply Z.pow_pos_nonneg; lia). set (P := 2 ^ 1074) in *. clearbody P.
  set (a := units f) in *. set (b := units f') in *. clearbody a b. clear F1 G1.
  (* x >= (a + b) / 2 and y <= (a + b) / 2 *)
  assert (X : d * (a + b) <= 2 * (n * P)) by (assert (d * b < d * a) by (apply Z.mul_lt_mono_pos_l; lia); rewrite Z.mul_add_distr_l; generalize dependent (d * a); generalize dependent (d * b); intros; lia).
  assert (Y : 2 * (n' * P) <= d' * (a + b)) by (assert (d' * b < d' * a) by (apply Z.mul_lt_mono_pos_l; lia); rewrite Z.mul_add_distr_l; generalize dependent (d' * a); generalize dependent (d' * b); intros; lia).
  assert (X' : d * (a + b) * d' <= 2 * (n * P) * d') by (apply Z.mul_le_mono_nonneg_r; lia).
  assert (Y' : 2 * (n' * P) * d <= d' * (a + b) * d) by (apply Z.mul_le_mono_nonneg_r; lia).
  assert (L : n * d' * P < n' * d * P) by (apply Z.mul_lt_mono_pos_r; lia). nia.
Qed.

Lemma ordered t neg m f e x t' neg' m' f' e' x' : literal t neg m f e -> literal t' neg' m' f' e' -> exponent_kept t e -> exponent_kept t' e' ->
  signed neg (numer m (e - f)) * denom (e' - f') < signed neg' (numer m' (e' - f')) * denom (e - f) ->
  go_parse_float t = Ok x -> go_parse_float t' = Ok x' -> units x <= units x'.
Proof.
  intros H H' B B' E Hx Hx'. destruct (literal_nearest _ _ _ _ _ H B) as [[_ X]|(_ & y & Y1 & _ & Y2)]; [congruence|].
  destruct (literal_nearest _ _ _ _ _ H' B') as [[_ X]|(_ & y' & Y1' & _ & Y2')]; [congruence|]. rewrite Y1 in Hx. rewrite Y1' in Hx'. injection Hx as ->. injection Hx' as ->.
  eapply nearest_order; [| |exact E|exact Y2|exact Y2']; apply denom_pos.
Qed.

Lemma float_quiet s : (exists f, go_parse_float s = Ok f) \/ (exists e, go_parse_float s = Err e).
Proof.
  assert (N : forall neg n d, (exists f, nearest neg n d = Ok f) \/ (exists e, nearest neg n d = Err e)).
  { intros. unfold nearest. cbv zeta. destruct (if _ =? 2 ^ 53 then _ else _) as [m2 k2]. destruct (2045 <? k2); [eauto|]. destruct m2; eauto. }
  unfold go_parse_float. destruct (special_float s); [eauto|]. cbv zeta. destruct (match unsigned s with [] => _ | _ => _ end) as [hex s2].
  destruct (read_mantissa hex s2 _) as [a s3]. destruct (negb (mt_digits a)); [eauto|]. destruct (read_exponent hex s3) as [[[e u] [|]]|]; eauto.
  destruct ((mt_under a || u) && negb (underscores_ok s))%bool; [eauto|]. destruct hex; apply N.
Qed.

Lemma refused t : Forall (fun c => In c (lit "0123456789+-.eE")) t -> (forall neg m f e, ~ literal t neg m f e) -> go_parse_float t = Err syntax_error.
Proof.
  intros H N. destruct (literal_refused t) as [(neg & m & f & e & L)|E]; [|destruct (N _ _ _ _ L)|exact E].
  eapply Forall_impl; [|exact H]. intros c Hc. cbn in Hc. repeat destruct Hc as [<-|Hc]; try reflexivity. destruct Hc.
Qed.

(** *** Numbers which are float64 themselves *)
Lemma nearest_exact n d f g : 0 < d -> nearest_to n d f -> float64 g -> n * 2 ^ 1074 = d * units g -> units f = units g.
Proof.
  intros Hd (_ & H & _) Hg E. specialize (H g Hg). unfold distance in H. rewrite E in H. rewrite Z.sub_diag in H. change (Z.abs 0) with 0 in H.
  assert (X : d * units g - d * units f = 0) by lia. apply Z.mul_cancel_l with (p := d); lia.
Qed.

Lemma integer_float m : 0 <= m <= 2 ^ 53 -> exists g, float64 g /\ units g = m * 2 ^ 1074.
Proof.
  intros Hm. destruct (Z.eq_dec m 0) as [->|H0]; [exists (S754_zero false); repeat split|].
  destruct (Z.eq_dec m (2 ^ 53)) as [->|H1]; [exists (S754_finite false (2 ^ 52)%positive 1); repeat split|].
  set (s := 52 - Z.log2 m). pose proof (Z.log2_spec m ltac:(lia)) as [L1 L2]. pose proof (Z.log2_nonneg m) as L0.
  assert (L3 : Z.log2 m < 53) by (apply Z.log2_lt_pow2; lia). assert (Hs : 0 <= s <= 52) by (unfold s; lia).
  assert (Hp : 0 < 2 ^ s) by (apply Z.pow_pos_nonneg; lia).
  assert (B : 2 ^ 52 <= m * 2 ^ s < 2 ^ 53).
  { replace 52 with (Z.log2 m + s) by (unfold s; lia). replace 53 with (Z.succ (Z.log2 m) + s) by (unfold s; lia). rewrite !Z.pow_add_r by lia.
    split; [apply Z.mul_le_mono_nonneg_r; lia|apply Z.mul_lt_mono_pos_r; lia]. }
  exists (S754_finite false (Z.to_pos (m * 2 ^ s)) (- s)). assert (E : Z.pos (Z.to_pos (m * 2 ^ s)) = m * 2 ^ s) by (apply Z2Pos.id; lia).
  split; [split; [|exact I]|].
  - apply valid_canonical. rewrite E. unfold canonical. clearbody s. clear E. generalize dependent (m * 2 ^ s). intros. lia.
  - cbn [units]. rewrite E, Z.mul_1_l, <- Z.mul_assoc, <- Z.pow_add_r by lia. f_equal. f_equal. lia.
Qed.

Lemma integer_exact t neg m : literal t neg m 0 0 -> m <= 2 ^ 53 -> exists f, go_parse_float t = Ok f /\ sign f = neg /\ float64 f /\ units f = (if neg then - m else m) * 2 ^ 1074.
Proof.
  intros H Hm. assert (Hm0 : 0 <= m) by (destruct (literal_reads _ _ _ _ _ H) as (_ & _ & _ & X); exact X).
  destruct (literal_nearest _ _ _ _ _ H ltac:(left; lia)) as [[T _]|(_ & f & E & S & N)].
  - exfalso. unfold too_large, numer in T. change (denom (0 - 0)) with 1 in T. change (10 ^ Z.max 0 (0 - 0)) with 1 in T. rewrite Z.mul_1_r, Z.mul_1_l, Z.abs_eq in T by lia.
    assert (2 ^ 53 < (2 ^ 54 - 1) * 2 ^ 970) by (vm_compute; reflexivity). lia.
  - exists f. split; [exact E|]. split; [exact S|]. split; [exact (proj1 N)|].
    change (denom (0 - 0)) with 1 in N. unfold numer, signed in N. change (10 ^ Z.max 0 (0 - 0)) with 1 in N. rewrite Z.mul_1_r in N.
    destruct (integer_float m ltac:(lia)) as (g & Hg & Eg). destruct neg.
    + rewrite (nearest_exact _ _ f (opposite g) Z.lt_0_1 N (opposite_float g Hg)); rewrite opposite_units, Eg; [|rewrite Z.mul_1_l]; apply Z.mul_opp_l || (symmetry; apply Z.mul_opp_l).
    + rewrite (nearest_exact _ _ f g Z.lt_0_1 N Hg); [exact Eg|]. rewrite Eg, Z.mul_1_l. reflexivity.
Qed.

(** *** The float parser *)
Lemma split_go_nonempty sep s : forall k cur, split_go sep s k cur <> [].
Proof. induction s as [|x s IH]; intros k cur; cbn [split_go]; [discriminate|]. destruct k; [|apply IH]. destruct (has_prefix sep (x :: s)); [discriminate|apply IH]. Qed.

Lemma join_cons new x l : l <> [] -> join_strings new (x :: l) = x ++ new ++ join_strings new l.
Proof. destruct l; [congruence|reflexivity]. Qed.

Lemma join_cur sep new s : forall k cur, join_strings new (split_go sep s k cur) = rev cur ++ join_strings new (split_go sep s k []).
Proof.
  induction s as [|x s IH]; intros k cur; cbn [split_go].
  - cbn. rewrite app_nil_r. reflexivity.
  - destruct k as [|k]; [|apply IH]. destruct (has_prefix sep (x :: s)); [rewrite !join_cons by apply split_go_nonempty; reflexivity|].
    rewrite IH, (IH 0%nat [x]). cbn [rev app]. rewrite <- app_assoc. reflexivity.
Qed.

Lemma join_cont c new t rest : scalar c -> Forall (fun b => cont_byte b = true) t ->
  join_strings new (split_go (encode_rune c) (t ++ rest) 0 []) = t ++ join_strings new (split_go (encode_rune c) rest 0 []).
Proof.
  intros Hc. induction 1 as [|b t Hb _ IH]; [reflexivity|]. cbn [app split_go]. rewrite cont_not_prefix by assumption. rewrite join_cur, IH. reflexivity.
Qed.

(** One character replaced by another. *)
Lemma replace_one c d rs : scalar c -> Forall scalar rs -> replace_all (text rs) (encode_rune c) (encode_rune d) = text (map (fun r => if r =? c then d else r) rs).
Proof.
  intros Hc. unfold replace_all. induction 1 as [|r rs Hr _ IH]; [reflexivity|]. cbn [map]. unfold text at 1 2. cbn [flat_map]. fold (text rs).
  pose proof (encode_prefix c r (text rs) Hc Hr) as Hp. destruct (encode_shape r Hr) as (b0 & t & E & H0 & Ht). rewrite E in Hp |- *. cbn [app split_go] in Hp |- *.
  rewrite Hp. destruct (r =? c) eqn:Er.
  - apply Z.eqb_eq in Er. subst r. rewrite join_cons by apply split_go_nonempty. cbn [rev app].
    rewrite E. cbn [List.length pred]. rewrite split_go_skip by (rewrite app_length; lia). rewrite skipn_app_exact. rewrite <- E, IH. reflexivity.
  - rewrite join_cur. cbn [rev app]. rewrite join_cont by assumption. rewrite IH. rewrite E. reflexivity.
Qed.

Lemma float_written pf sc cs rs : scalar sc -> Forall scalar cs -> Forall scalar rs ->
  parse_float_value pf (text [sc]) (text cs) (text rs) = rlet f := pf (written sc cs rs) in Ok (VFloat f).
Proof.
  intros Hs Hc Hr. unfold parse_float_value. cbv zeta. rewrite remove_text by assumption. unfold written. change (fun r => negb (existsb (Z.eqb r) cs)) with (not_in cs).
  assert (Ht : text [sc] = encode_rune sc) by (unfold text; cbn [flat_map]; apply app_nil_r). rewrite Ht. 
  assert (E46 : encode_rune 46 = [x2e]) by reflexivity. rewrite <- E46.
  destruct (bytes_eqb (encode_rune sc) (encode_rune 46)) eqn:E.
  - apply bytes_eqb_eq in E. assert (X : sc = 46).
    { pose proof (decode_encode sc [] Hs) as D. rewrite E, decode_encode in D by (unfold scalar; lia). injection D as D. lia. }
    subst sc. do 2 f_equal. generalize (filter (not_in cs) rs). intros l. induction l as [|x l IH]; [reflexivity|]. cbn [map]. unfold text in *. cbn [flat_map]. rewrite IH.
    destruct (x =? 46) eqn:Ex; [apply Z.eqb_eq in Ex as ->|]; reflexivity.
  - rewrite replace_one by (auto using Forall_filter). reflexivity.
Qed.

Lemma float_column sc cs rs neg m f e : scalar sc -> Forall scalar cs -> Forall scalar rs -> literal (written sc cs rs) neg m f e -> exponent_kept (written sc cs rs) e ->
  exists r, rounded neg m (e - f) range_error r /\ parse_float_value go_parse_float (text [sc]) (text cs) (text rs) = (rlet x := r in Ok (VFloat x)).
Proof.
  intros Hs Hc Hr Hl He. exists (go_parse_float (written sc cs rs)). split; [now apply literal_nearest|]. now apply float_written.
Qed.

(** *** The pattern of the float parser *)
Lemma text_digits rs : Forall (fun c => 48 <= c <= 57) rs -> forallb is_digit (text rs) = true /\ List.length (text rs) = List.length rs.
Proof.
  induction 1 as [|c rs Hc _ [IH1 IH2]]; [split; reflexivity|]. unfold text in *. cbn [flat_map].
  assert (Ec : exists b, encode_rune c = [b] /\ Z_of_byte b = c).
  { pose proof (encode_encoding c ltac:(unfold scalar; lia)) as He. destruct He; try lia. eauto. }
  destruct Ec as (b & -> & Hb). cbn [app forallb List.length]. rewrite IH1, IH2. split; [|reflexivity]. rewrite andb_true_r. apply is_digit_spec. lia.
Qed.

Lemma map_digits sc l : ~ 48 <= sc <= 57 -> Forall (fun c => 48 <= c <= 57) l -> map (fun r => if r =? sc then 46 else r) l = l.
Proof. intros Hs. induction 1 as [|c l Hc _ IH]; [reflexivity|]. cbn [map]. rewrite IH. destruct (c =? sc) eqn:E; [lia|reflexivity]. Qed.

Lemma float_text_literal sc cs s : sc <> 45 -> ~ 48 <= sc <= 57 -> ~ In 45 cs ->
  (exists a b, s = a ++ b /\ number_text cs a /\ fraction_text [sc] cs b) -> (exists c, In c s /\ 48 <= c <= 57 /\ ~ In c cs) ->
  exists neg m f, literal (written sc cs s) neg m f 0.
Proof.
  intros Hs45 Hsd H45 (a & b & -> & (i & sg & d & -> & Hi & Hsg & Hd & HF) & Hb) (c & Hin & Hc & Hnc).
  assert (Hni : forall x, In x cs -> not_in cs x = false).
  { intros x Hx. unfold not_in. apply negb_false_iff, existsb_exists. exists x. split; [exact Hx|apply Z.eqb_refl]. }
  assert (Hnn : forall x, not_in cs x = true -> ~ In x cs) by (intros x H1 H2; rewrite (Hni x H2) in H1; discriminate).
  assert (Hna : forall x, ~ In x cs -> not_in cs x = true).
  { intros x Hx. unfold not_in. apply negb_true_iff, not_true_iff_false. intros H. apply existsb_exists in H as (y & Hy & Ey). apply Z.eqb_eq in Ey as ->. exact (Hx Hy). }
  assert (Dig : forall l, Forall (digit_or cs) l -> Forall (fun c => 48 <= c <= 57) (filter (not_in cs) l)).
  { intros l Hl. apply Forall_forall. intros x Hx. apply filter_In in Hx as [Hx Hy]. rewrite Forall_forall in Hl. destruct (Hl x Hx) as [H|H]; [exact H|]. exfalso. exact (Hnn x Hy H). }
  unfold written. change (fun r => negb (existsb (Z.eqb r) cs)) with (not_in cs).
  assert (Ea : filter (not_in cs) (i ++ sg ++ d) = sg ++ filter (not_in cs) d).
  { rewrite !filter_app. rewrite filter_none by (eapply Forall_impl; [|exact Hi]; exact Hni). cbn [app]. f_equal.
    destruct Hsg as [->| ->]; [reflexivity|]. cbn [filter]. rewrite Hna by exact H45. reflexivity. }
  rewrite filter_app, Ea, !map_app, !text_app. pose proof (Dig d HF) as D1. rewrite (map_digits sc (filter (not_in cs) d)) by assumption.
  assert (Esg : exists sg', In sg' [[]; lit "+"; lit "-"] /\ text (map (fun r => if r =? sc then 46 else r) sg) = sg').
  { destruct Hsg as [->| ->]; [exists []; cbn; auto|]. exists (lit "-"). split; [cbn; auto|]. cbn [map]. replace (45 =? sc) with false by lia. reflexivity. }
  destruct Esg as (sg' & Hsg' & ->). destruct (text_digits _ D1) as [T1 T2].
  assert (Cin : In c (filter (not_in cs) d ++ filter (not_in cs) b)).
  { rewrite <- filter_app. apply filter_In. split; [|now apply Hna]. apply in_app_iff. apply in_app_iff in Hin as [Hin|H]; [left|now right]. apply in_app_iff in Hin as [H|Hin]; [|apply in_app_iff in Hin as [H|H]; [|exact H]]; exfalso.
    - apply Hnc. rewrite Forall_forall in Hi. now apply Hi.
    - destruct Hsg as [->| ->]; cbn in H; [exact H|]. lia. }
  assert (W : text (filter (not_in cs) d) <> [] -> exists neg m f, literal (sg' ++ text (filter (not_in cs) d)) neg m f 0).
  { intros H. do 3 eexists. rewrite <- (app_nil_r (text (filter (not_in cs) d))). apply literal_whole; [exact Hsg'| |constructor]. apply decimal_spec. split; [exact H|]. split; [exact T1|reflexivity]. }
  destruct Hb as [->|(x & fd & -> & Hx & Hfd & HFd)].
  - cbn [filter map] in *. rewrite app_nil_r in Cin. change (text []) with (@nil byte). rewrite app_nil_r. apply W. intros H. rewrite H in T2. destruct (filter (not_in cs) d); [destruct Cin|discriminate].
  - destruct Hx as [Hx|[]]. subst x. pose proof (Dig fd HFd) as D2. destruct (text_digits _ D2) as [T3 T4]. cbn [filter] in *. destruct (not_in cs sc) eqn:Esc.
    + cbn [map]. rewrite Z.eqb_refl, map_digits by assumption. change (text (46 :: filter (not_in cs) fd)) with (lit "." ++ text (filter (not_in cs) fd)).
      do 3 eexists. rewrite <- (app_nil_r (text (filter (not_in cs) fd))). rewrite <- app_assoc. apply literal_dot; [exact Hsg'| |constructor]. apply decimal_spec.
      split; [|split; [rewrite forallb_app, T1, T3; reflexivity|reflexivity]]. intros H. apply app_eq_nil in H as [H1 H2]. rewrite H1 in T2. rewrite H2 in T4.
      destruct (filter (not_in cs) d); [|discriminate]. destruct (filter (not_in cs) fd); [|discriminate]. destruct Cin as [<-|[]]. now apply Hsd.
    + rewrite map_digits by assumption. do 3 eexists. rewrite <- app_assoc, <- text_app. rewrite <- (app_nil_r (text _)). apply literal_whole; [exact Hsg'| |constructor].
      rewrite text_app. apply decimal_spec. split; [|split; [rewrite forallb_app, T1, T3; reflexivity|reflexivity]]. intros H. apply app_eq_nil in H as [H1 H2]. rewrite H1 in T2. rewrite H2 in T4.
      destruct (filter (not_in cs) d); [|discriminate]. destruct (filter (not_in cs) fd); [|discriminate]. destruct Cin.
Qed.

Lemma float_pattern sc cs s re caps : scalar sc -> sc <> 45 -> sc <> rune_error -> ~ 48 <= sc <= 57 -> Forall (fun c => scalar c /\ c <> 45 /\ c <> rune_error) cs ->
  compile (lit "^(" ++ pattern (PFloat (text [sc]) (text cs)) ++ lit ")$") = Ok re -> find_submatch re s = Some caps ->
  (exists c, In c (runes s) /\ 48 <= c <= 57 /\ ~ In c cs) ->
  exists neg m f r, literal (written sc cs (runes s)) neg m f 0 /\ rounded neg m (- f) range_error r /\
    parse_float_value go_parse_float (text [sc]) (text cs) s = (rlet x := r in Ok (VFloat x)).
Proof.
  intros Hs Hs45 Hse Hsd Hcs E Hm Hdig.
  assert (Hcs' : Forall scalar cs) by (eapply Forall_impl; [|exact Hcs]; intros x Hx; exact (proj1 Hx)).
  assert (Hc : clear (PFloat (text [sc]) (text cs))).
  { split; [|split].
    - unfold text. cbn [flat_map]. rewrite app_nil_r. destruct (encode_shape sc Hs) as (b0 & t & -> & _). discriminate.
    - exists [sc]. split; [reflexivity|]. apply Forall_cons; [split; assumption|apply Forall_nil].
    - exists cs. split; [reflexivity|]. eapply Forall_impl; [|exact Hcs]. intros x (H1 & H2 & _). auto. }
  pose proof (whole_sound _ _ _ _ Hc E Hm) as Hf. cbn [fits] in Hf. rewrite !runes_text in Hf by (exact Hcs' || (apply Forall_cons; [exact Hs|apply Forall_nil])).
  assert (H45 : ~ In 45 cs) by (intros H; rewrite Forall_forall in Hcs; destruct (Hcs 45 H) as (_ & H2 & _); congruence).
  destruct (float_text_literal sc cs (runes s) Hs45 Hsd H45 Hf Hdig) as (neg & m & f & Hl).
  assert (Hrs : Forall (fun c => scalar c /\ c <> rune_error) (runes s)).
  { assert (Ign : forall x, In x cs -> scalar x /\ x <> rune_error) by (intros x Hx; rewrite Forall_forall in Hcs; destruct (Hcs x Hx) as (H1 & _ & H3); auto).
    assert (Dg : forall l, Forall (digit_or cs) l -> Forall (fun c => scalar c /\ c <> rune_error) l).
    { intros l Hl'. eapply Forall_impl; [|exact Hl']. intros x [Hx|Hx]; [unfold scalar, rune_error; lia|auto]. }
    destruct Hf as (a & b & -> & (i & sg & d & -> & Hi & Hsg & _ & HF) & Hb). repeat (apply Forall_app; split).
    - eapply Forall_impl; [|exact Hi]. exact Ign.
    - destruct Hsg as [->| ->]; [apply Forall_nil|]. apply Forall_cons; [|apply Forall_nil]. unfold scalar, rune_error. lia.
    - now apply Dg.
    - destruct Hb as [->|(x & fd & -> & Hx & _ & HFd)]; [apply Forall_nil|]. destruct Hx as [<-|[]]. apply Forall_cons; [auto|now apply Dg]. }
  assert (Et : s = text (runes s)).
  { rewrite runes_chars in *. rewrite <- raw_lits; [symmetry; apply raw_chars|apply chars_shape|]. eapply Forall_impl; [|exact Hrs]. intros x Hx. exact (proj2 Hx). }
  exists neg, m, f, (go_parse_float (written sc cs (runes s))). split; [exact Hl|]. split; [apply (literal_nearest _ _ _ _ 0 Hl); left; lia|].
  rewrite Et at 1. apply float_written; auto. eapply Forall_impl; [|exact Hrs]. intros x Hx. exact (proj1 Hx).
Qed.

Lemma float_pattern_compiles sc cs : scalar sc -> sc <> 45 -> Forall (fun c => scalar c /\ c <> 45) cs ->
  exists re, compile (lit "^(" ++ pattern (PFloat (text [sc]) (text cs)) ++ lit ")$") = Ok re.
Proof.
  intros Hs Hs45 H. eexists. apply whole_ok. split; [|split].
  - unfold text. cbn [flat_map]. rewrite app_nil_r. destruct (encode_shape sc Hs) as (b0 & t & -> & _). discriminate.
  - exists [sc]. split; [reflexivity|]. apply Forall_cons; [split; assumption|apply Forall_nil].
  - exists cs. auto.
Qed.

(** A long text with a long exponent is misread: this one denotes 1. *)
Lemma long_misread : exists t f, literal t false 1 f f /\ numer 1 (f - f) = 1 /\ denom (f - f) = 1 /\ go_parse_float t = Ok (S754_zero false).
Proof. exists long_one, 200000. split; [exact long_one_literal|]. split; [reflexivity|]. split; [reflexivity|]. exact long_one_zero. Qed.
