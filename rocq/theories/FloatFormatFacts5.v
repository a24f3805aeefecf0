(** What the texts show. *)
From Coq Require Import List ZArith Lia Bool String.
From Coq Require Import Strings.Byte Floats.SpecFloat.
From Verif Require Import Base Codec GoStrings SpecText StringsFacts Utf8Facts Json SpecJson JsonFacts FloatText SpecFloatText FloatTextFacts FloatFormat FloatFormatFacts FloatFormatFacts2 FloatFormatFacts3 FloatFormatFacts4.
Import ListNotations.
Open Scope Z_scope.

(** A text which shows [d] * 10^[q], with zeros behind [d] perhaps. *)
Definition shown (neg : bool) (d q : Z) (t : bytes) : Prop :=
  exists i f x j, t = sign_text neg ++ i ++ f ++ x /\ whole_part i /\ fraction_part f /\ exponent_part x /\
    0 <= j /\ digits_value (i ++ tl f) 0 = d * 10 ^ j /\ exp_value x - zlen (tl f) + j = q /\ Z.abs (exp_value x) < 1000.

Lemma map_nth_skip {A} (l : list A) x a : map (fun i => nth (a + i) l x) (seq 0 (List.length l - a)) = skipn a l.
Proof.
  revert a. induction l as [|y l IH]; intros a; [now destruct a|]. destruct a as [|a].
  - cbn [List.length Nat.sub seq map skipn]. f_equal. rewrite <- seq_shift, map_map. pose proof (IH 0%nat) as H. rewrite Nat.sub_0_r in H. cbn [skipn] in H. exact H.
  - cbn [List.length Nat.sub skipn]. rewrite <- IH. apply map_ext. intros i. reflexivity.
Qed.

Lemma map_constant {A} (x : A) n : forall a, map (fun _ : nat => x) (seq a n) = repeat x n.
Proof. induction n as [|n IH]; intros a; [reflexivity|]. cbn [seq map repeat]. f_equal. apply IH. Qed.

Lemma fraction_digits ds dp : dp < zlen ds ->
  map (fun i => let j := dp + Z.of_nat i in if (0 <=? j) && (j <? zlen ds) then nth (Z.to_nat j) ds x30 else x30) (seq 0 (Z.to_nat (zlen ds - dp))) =
  repeat x30 (Z.to_nat (- dp)) ++ skipn (Z.to_nat dp) ds.
Proof.
  intros H. assert (El : zlen ds = Z.of_nat (List.length ds)) by reflexivity. destruct (Z_le_gt_dec 0 dp) as [L|L].
  - replace (Z.to_nat (- dp)) with 0%nat by lia. cbn [repeat app]. rewrite <- (map_nth_skip ds x30). replace (Z.to_nat (zlen ds - dp)) with (List.length ds - Z.to_nat dp)%nat by lia.
    apply map_ext_in. intros i Hi. apply in_seq in Hi. cbv zeta. replace (0 <=? dp + Z.of_nat i) with true by (symmetry; apply Z.leb_le; lia). replace (dp + Z.of_nat i <? zlen ds) with true by (symmetry; apply Z.ltb_lt; lia).
    cbn [andb]. f_equal. lia.
  - replace (Z.to_nat dp) with 0%nat by lia. cbn [skipn]. set (z := Z.to_nat (- dp)). assert (Ez : dp = - Z.of_nat z) by lia. clearbody z. subst dp.
    replace (Z.to_nat (zlen ds - - Z.of_nat z)) with (z + List.length ds)%nat by lia. rewrite seq_app, map_app. f_equal.
    + cbn [Nat.add]. transitivity (map (fun _ : nat => x30) (seq 0 z)); [|apply map_constant].
      apply map_ext_in. intros i Hi. apply in_seq in Hi. cbv zeta. replace (0 <=? - Z.of_nat z + Z.of_nat i) with false by (symmetry; apply Z.leb_gt; lia). reflexivity.
    + cbn [Nat.add]. transitivity (map (fun i => nth (0 + i) ds x30) (seq 0 (List.length ds - 0))); [|exact (map_nth_skip ds x30 0)]. rewrite Nat.sub_0_r.
      assert (G : forall n a, map (fun i => let j := - Z.of_nat z + Z.of_nat i in if (0 <=? j) && (j <? zlen ds) then nth (Z.to_nat j) ds x30 else x30) (seq (z + a) n) =
                              map (fun i => let j := Z.of_nat i in if (0 <=? j) && (j <? zlen ds) then nth (Z.to_nat j) ds x30 else x30) (seq a n)).
      { induction n as [|n IH]; intros a; [reflexivity|]. cbn [seq map]. f_equal; [|rewrite <- IH; f_equal; f_equal; lia]. cbv zeta. replace (- Z.of_nat z + Z.of_nat (z + a)) with (Z.of_nat a) by lia. reflexivity. }
      pose proof (G (List.length ds) 0%nat) as G0. rewrite Nat.add_0_r in G0. etransitivity; [exact G0|]. apply map_ext_in. intros i Hi. apply in_seq in Hi. cbv zeta.
      replace (0 <=? Z.of_nat i) with true by (symmetry; apply Z.leb_le; lia). replace (Z.of_nat i <? zlen ds) with true by (symmetry; apply Z.ltb_lt; lia). cbn [andb]. rewrite Nat2Z.id. reflexivity.
Qed.

Lemma forallb_firstn {A} (p : A -> bool) l n : forallb p l = true -> forallb p (firstn n l) = true.
Proof. rewrite !forallb_forall. intros H x Hx. apply H. rewrite <- (firstn_skipn n l). apply in_or_app. now left. Qed.
Lemma forallb_skipn {A} (p : A -> bool) l n : forallb p l = true -> forallb p (skipn n l) = true.
Proof. rewrite !forallb_forall. intros H x Hx. apply H. rewrite <- (firstn_skipn n l). apply in_or_app. now right. Qed.

Lemma fmt_f_shown neg d q : 0 < d -> shown neg d q (fmt_f neg (itoa d) (zlen (itoa d) + q)).
Proof.
  intros Hd. destruct (itoa_spec d Hd) as (c & r & Ei & Hc & Ha & Hv & _). set (ds := itoa d) in *. clearbody ds. unfold fmt_f.
  assert (Hn : 0 < zlen ds) by (rewrite Ei, zlen_nil_cons; unfold zlen; lia).
  destruct (Z_le_gt_dec 0 q) as [Hq|Hq]; [|destruct (Z_lt_le_dec 0 (zlen ds + q)) as [Hp|Hp]].
  - (* zeros before the decimal point *)
    exists (ds ++ repeat x30 (Z.to_nat q)), [], [], q. replace (Z.max (zlen ds - (zlen ds + q)) 0) with 0 by lia. replace (0 <? zlen ds + q) with true by (symmetry; apply Z.ltb_lt; lia).
    change (0 <? 0) with false. cbv iota. rewrite firstn_all2 by (unfold zlen in *; lia). replace (zlen ds + q - zlen ds) with q by lia. rewrite app_nil_r. cbn [tl]. rewrite app_nil_r.
    split; [rewrite ?app_nil_r; reflexivity|]. split; [right; exists c, (r ++ repeat x30 (Z.to_nat q)); split; [rewrite Ei; reflexivity|]; split; [exact Hc|]; rewrite forallb_app, Ha, zeros_digits; reflexivity|].
    split; [now left|]. split; [now left|]. split; [exact Hq|]. split; [rewrite ?app_nil_r, digits_value_app, digits_value_zeros, Hv, Z2Nat.id by lia; reflexivity|]. cbn. lia.
  - (* in the middle *)
    exists (firstn (Z.to_nat (zlen ds + q)) ds), (x2e :: skipn (Z.to_nat (zlen ds + q)) ds), [], 0. replace (Z.max (zlen ds - (zlen ds + q)) 0) with (zlen ds - (zlen ds + q)) by lia.
    replace (0 <? zlen ds + q) with true by (symmetry; apply Z.ltb_lt; lia). replace (0 <? zlen ds - (zlen ds + q)) with true by (symmetry; apply Z.ltb_lt; lia). rewrite fraction_digits by lia.
    replace (Z.to_nat (zlen ds + q - zlen ds)) with 0%nat by lia. replace (Z.to_nat (- (zlen ds + q))) with 0%nat by lia. cbn [repeat]. rewrite !app_nil_r. cbn [app tl].
    split; [reflexivity|]. split.
    { right. exists c, (firstn (Z.to_nat (zlen ds + q) - 1) r). split; [rewrite Ei; replace (Z.to_nat (zlen (c :: r) + q)) with (S (Z.to_nat (zlen (c :: r) + q) - 1)) by (rewrite <- Ei; lia); rewrite Nat.sub_succ, Nat.sub_0_r; cbn [firstn]; rewrite Ei in *; f_equal; f_equal; lia|]. split; [exact Hc|]. now apply forallb_firstn. }
    split; [right; eexists; split; [reflexivity|]; split; [|now apply forallb_skipn]; intros E0; apply (f_equal (@List.length byte)) in E0; rewrite skipn_length in E0; cbn in E0; unfold zlen in *; lia|].
    split; [now left|]. split; [lia|]. rewrite firstn_skipn. split; [rewrite Hv; lia|]. cbn [exp_value]. split; [|lia]. unfold zlen in *. rewrite skipn_length. lia.
  - (* zeros behind the decimal point *)
    exists [x30], (x2e :: repeat x30 (Z.to_nat (- (zlen ds + q))) ++ ds), [], 0. replace (Z.max (zlen ds - (zlen ds + q)) 0) with (zlen ds - (zlen ds + q)) by lia.
    replace (0 <? zlen ds + q) with false by (symmetry; apply Z.ltb_ge; lia). replace (0 <? zlen ds - (zlen ds + q)) with true by (symmetry; apply Z.ltb_lt; lia). rewrite fraction_digits by lia.
    replace (Z.to_nat (zlen ds + q)) with 0%nat by lia. cbn [skipn]. rewrite !app_nil_r. cbn [tl].
    split; [reflexivity|]. split; [now left|].
    split; [right; eexists; split; [reflexivity|]; split; [|rewrite forallb_app, zeros_digits, Ha; reflexivity]; intros E0; apply app_eq_nil in E0 as [_ E0]; rewrite Ei in E0; discriminate|].
    split; [now left|]. split; [lia|]. split; [rewrite !digits_value_app, digits_value_zeros; change (digits_value [x30] 0) with 0; rewrite Z.mul_0_l, Hv; lia|]. cbn [exp_value]. split; [|lia].
    unfold zlen in *. rewrite app_length, repeat_length. lia.
Qed.

(** *** Exponents *)
Lemma digit_byte_spec z : 0 <= z <= 9 -> is_digit (digit_byte z) = true /\ digit_val (digit_byte z) = z /\ (digit_byte z = x30 -> z = 0).
Proof.
  intros H. assert (C : z = 0 \/ z = 1 \/ z = 2 \/ z = 3 \/ z = 4 \/ z = 5 \/ z = 6 \/ z = 7 \/ z = 8 \/ z = 9) by lia.
  repeat (destruct C as [->|C]; [repeat split; vm_compute; congruence|]). subst z. repeat split; vm_compute; congruence.
Qed.
Lemma clean_two r s d1 d2 : clean_exponent (r ++ [x65; s; d1; d2]) = r ++ (if beqb s "-" && beqb d1 "0" then [x65; s; d2] else [x65; s; d1; d2]).
Proof.
  unfold clean_exponent. rewrite rev_app_distr. cbn [rev app]. destruct (Byte.byte_eq_dec d1 x30) as [->|N1]; [destruct (Byte.byte_eq_dec s x2d) as [->|N2]|].
  - rewrite rev_involutive. reflexivity.
  - replace (beqb s "-") with false by (destruct s; try reflexivity; congruence). cbn [andb]. destruct s; try reflexivity; congruence.
  - replace (beqb d1 "0") with false by (destruct d1; try reflexivity; congruence). rewrite andb_false_r. destruct d1; try reflexivity; congruence.
Qed.
Lemma clean_three r s d1 d2 d3 : is_digit d1 = true -> clean_exponent (r ++ [x65; s; d1; d2; d3]) = r ++ [x65; s; d1; d2; d3].
Proof.
  intros H. unfold clean_exponent. rewrite rev_app_distr. cbn [rev app]. destruct (Byte.byte_eq_dec d2 x30) as [->|N]; [|destruct d2; try reflexivity; congruence].
  destruct d1; try reflexivity; discriminate H.
Qed.

Lemma beqb_is a b : beqb a b = true -> a = b.
Proof. unfold beqb. intros H. apply Byte.byte_dec_bl. exact H. Qed.
(** The exponent after the cleaning. *)
Lemma exponent_shown r e : Z.abs e < 1000 -> exists x, exponent_part x /\ exp_value x = e /\
  clean_exponent (r ++ [x65] ++ (if e <? 0 then [x2d] else [x2b]) ++
      (if Z.abs e <? 10 then [x30; digit_byte (Z.abs e)]
      else if Z.abs e <? 100 then [digit_byte (Z.abs e / 10); digit_byte (Z.abs e mod 10)]
      else [digit_byte (Z.abs e / 100); digit_byte (Z.abs e / 10 mod 10); digit_byte (Z.abs e mod 10)])) = r ++ x.
Proof.
  intros He. set (sg := if e <? 0 then x2d else x2b). assert (Hs : sg = x2b \/ sg = x2d) by (subst sg; destruct (e <? 0); auto).
  assert (Es : forall l, (if e <? 0 then [x2d] else [x2b]) ++ l = sg :: l) by (intros l; subst sg; destruct (e <? 0); reflexivity). rewrite Es.
  assert (V : forall xs, digits_value xs 0 = Z.abs e -> exp_value (x65 :: sg :: xs) = e).
  { intros xs E. cbn [exp_value]. rewrite E. subst sg. destruct (e <? 0) eqn:E0; [apply Z.ltb_lt in E0; change (beqb x2d "-") with true|apply Z.ltb_ge in E0; change (beqb x2b "-") with false]; cbv iota; lia. }
  set (a := Z.abs e) in *. assert (Ha : 0 <= a < 1000) by lia. clearbody a sg. cbn [app].
  destruct (a <? 10) eqn:E1; [apply Z.ltb_lt in E1|apply Z.ltb_ge in E1; destruct (a <? 100) eqn:E2; [apply Z.ltb_lt in E2|apply Z.ltb_ge in E2]].
  - destruct (digit_byte_spec a ltac:(lia)) as (D1 & D2 & _). rewrite clean_two. eexists. split; [|split; [|reflexivity]].
    + destruct (beqb sg "-" && beqb x30 "0"); right; eexists _, _; (split; [reflexivity|]); (split; [exact Hs|]); (split; [discriminate|]); cbn [forallb]; rewrite D1; reflexivity.
    + destruct (beqb sg "-" && beqb x30 "0"); apply V; cbn [digits_value]; rewrite D2; change (digit_val x30) with 0; lia.
  - assert (Q : 1 <= a / 10 <= 9) by (split; [apply Z.div_le_lower_bound; lia|apply Z.lt_succ_r; apply Z.div_lt_upper_bound; lia]). pose proof (Z.mod_pos_bound a 10 ltac:(lia)). pose proof (Z.div_mod a 10 ltac:(lia)).
    destruct (digit_byte_spec (a / 10) ltac:(lia)) as (D1 & D2 & D3). destruct (digit_byte_spec (a mod 10) ltac:(lia)) as (D4 & D5 & _). rewrite clean_two.
    replace (beqb sg "-" && beqb (digit_byte (a / 10)) "0") with false.
    2:{ symmetry. apply andb_false_iff. right. destruct (beqb (digit_byte (a / 10)) "0") eqn:E; [|reflexivity]. specialize (D3 (beqb_is _ _ E)). lia. }
    eexists. split; [|split; [|reflexivity]]; [right; eexists _, _; (split; [reflexivity|]); (split; [exact Hs|]); (split; [discriminate|]); cbn [forallb]; rewrite D1, D4; reflexivity|].
    apply V. cbn [digits_value]. rewrite D2, D5. lia.
  - assert (Q : 1 <= a / 100 <= 9) by (split; [apply Z.div_le_lower_bound; lia|apply Z.lt_succ_r; apply Z.div_lt_upper_bound; lia]). pose proof (Z.mod_pos_bound a 10 ltac:(lia)). pose proof (Z.div_mod a 10 ltac:(lia)).
    pose proof (Z.mod_pos_bound (a / 10) 10 ltac:(lia)). pose proof (Z.div_mod (a / 10) 10 ltac:(lia)) as Dm. rewrite Z.div_div in Dm by lia. change (10 * 10) with 100 in Dm.
    destruct (digit_byte_spec (a / 100) ltac:(lia)) as (D1 & D2 & D3). destruct (digit_byte_spec (a / 10 mod 10) ltac:(lia)) as (D4 & D5 & _). destruct (digit_byte_spec (a mod 10) ltac:(lia)) as (D6 & D7 & _). rewrite clean_three by exact D1.
    eexists. split; [|split; [|reflexivity]]; [right; eexists _, _; (split; [reflexivity|]); (split; [exact Hs|]); (split; [discriminate|]); cbn [forallb]; rewrite D1, D4, D6; reflexivity|].
    apply V. cbn [digits_value]. rewrite D2, D5, D7. lia.
Qed.

Lemma fmt_e_shown neg d q : 0 < d -> Z.abs (zlen (itoa d) + q - 1) < 1000 -> shown neg d q (clean_exponent (fmt_e neg (itoa d) (zlen (itoa d) + q))).
Proof.
  intros Hd He. destruct (itoa_spec d Hd) as (c & r & Ei & Hc & Ha & Hv & _). set (ds := itoa d) in *. clearbody ds. rewrite Ei in *.
  set (f := match r with [] => [] | _ => x2e :: r end).
  destruct (exponent_shown (sign_text neg ++ [c] ++ f) (zlen (c :: r) + q - 1) He) as (x & Hx & Ex & Et).
  match type of Et with clean_exponent ?T = _ => replace (fmt_e neg (c :: r) (zlen (c :: r) + q)) with T by (unfold fmt_e; subst f; rewrite <- !app_assoc; destruct r; reflexivity) end.
  rewrite Et, <- !app_assoc.
  exists [c], f, x, 0. split; [reflexivity|]. cbn [forallb] in Ha. apply andb_true_iff in Ha as [Ha1 Ha2]. split; [right; exists c, []; cbn [forallb]; rewrite Ha1; auto|].
  assert (Et2 : tl f = r) by (subst f; destruct r; reflexivity).
  split; [subst f; destruct r; [now left|]; right; eexists; split; [reflexivity|]; split; [discriminate|exact Ha2]|].
  split; [exact Hx|]. split; [lia|]. rewrite Et2, Ex. cbn [app]. rewrite Hv. split; [lia|]. rewrite zlen_nil_cons in *. split; lia.
Qed.

(** *** Everything together *)
Lemma shown_number neg d q t : shown neg d q t -> number_text t.
Proof. intros (i & f & x & j & -> & Hi & Hf & Hx & _). now apply number_shape. Qed.
Lemma shown_literal neg d q t : shown neg d q t -> exists m f e j, literal t neg m f e /\ Z.abs e < 1000 /\ 0 <= j /\ m = d * 10 ^ j /\ e - f = q - j.
Proof. intros (i & f & x & j & -> & Hi & Hf & Hx & Hj & Hm & He & Hb). exists (digits_value (i ++ tl f) 0), (zlen (tl f)), (exp_value x), j. split; [now apply literal_shape|]. repeat split; lia. Qed.

(** The exponent has at most three digits. *)
Lemma exponent_range m k d q : 0 < m -> canonical m k -> 0 < d -> within m k (numer d q) (denom q) -> Z.abs (zlen (itoa d) + q - 1) < 1000.
Proof.
  intros Hm (Hk & Hm2 & _) Hd W. destruct (itoa_spec d Hd) as (_ & _ & _ & _ & _ & _ & B1 & B2). set (n := zlen (itoa d)) in *. assert (Hn : 0 <= n) by (unfold n, zlen; lia). clearbody n.
  destruct (bounds_around m k Hm ltac:(lia)) as (L0 & _ & U & _). destruct W as [Wl Wu]. unfold above_lower, below_upper in *.
  assert (Wl' : lower m k * denom q <= 4 * (numer d q * 2 ^ 1074)) by (destruct Wl as [Wl|[_ Wl]]; lia). assert (Wu' : 4 * (numer d q * 2 ^ 1074) <= upper m k * denom q) by (destruct Wu as [Wu|[_ Wu]]; lia).
  clear Wl Wu. unfold numer, denom in *. assert (E4 : 4 * 2 ^ 1074 = 2 ^ 1076) by (change 4 with (2 ^ 2) at 1; rewrite <- Z.pow_add_r by lia; reflexivity).
  destruct (Z_lt_le_dec (-999) (n + q - 1)) as [A|A]; [destruct (Z_lt_le_dec (n + q - 1) 999) as [B|B]; [lia|exfalso]|exfalso].
  - (* too large *)
    assert (P : 10 ^ 999 * 10 ^ Z.max 0 (- q) <= d * 10 ^ Z.max 0 q).
    { destruct (Z_le_gt_dec 0 q) as [Hq|Hq].
      - replace (Z.max 0 (- q)) with 0 by lia. replace (Z.max 0 q) with q by lia. rewrite Z.pow_0_r, Z.mul_1_r. destruct (Z.eq_dec n 0) as [->|]; [rewrite Z.pow_0_r in B2; lia|].
        apply Z.le_trans with (10 ^ (n - 1) * 10 ^ q); [|apply Z.mul_le_mono_nonneg_r; [apply Z.pow_nonneg; lia|exact B1]]. rewrite <- Z.pow_add_r by lia. apply Z.pow_le_mono_r; lia.
      - replace (Z.max 0 q) with 0 by lia. replace (Z.max 0 (- q)) with (- q) by lia. rewrite Z.pow_0_r, Z.mul_1_r, <- Z.pow_add_r by lia. etransitivity; [|exact B1]. apply Z.pow_le_mono_r; lia. }
    assert (V : upper m k <= 6 * (2 ^ 53 * 2 ^ 2045)).
    { etransitivity; [exact U|]. apply Z.mul_le_mono_nonneg_l; [lia|]. apply Z.mul_le_mono_nonneg; [lia|lia|apply Z.pow_nonneg; lia|apply Z.pow_le_mono_r; lia]. }
    pose proof (pow10_pos (- q)) as Hs. set (s := 10 ^ Z.max 0 (- q)) in *. set (t := d * 10 ^ Z.max 0 q) in *. clearbody s t.
    assert (C : 2 ^ 1076 * (10 ^ 999 * s) <= 6 * (2 ^ 53 * 2 ^ 2045) * s).
    { etransitivity; [apply Z.mul_le_mono_nonneg_l; [apply Z.pow_nonneg; lia|exact P]|]. etransitivity; [|apply Z.mul_le_mono_nonneg_r; [lia|exact V]]. rewrite <- E4. lia. }
    rewrite Z.mul_assoc in C. apply Z.mul_le_mono_pos_r in C; [|exact Hs]. vm_compute in C. congruence.
  - (* too small *)
    assert (Hq : q < 0) by lia. replace (Z.max 0 q) with 0 in * by lia. replace (Z.max 0 (- q)) with (- q) in * by lia. rewrite Z.pow_0_r, Z.mul_1_r in *.
    assert (P : 10 ^ (- q) < 2 ^ 1076 * 10 ^ n).
    { apply Z.le_lt_trans with (lower m k * 10 ^ (- q)); [rewrite <- (Z.mul_1_l (10 ^ (- q))) at 1; apply Z.mul_le_mono_nonneg_r; [apply Z.pow_nonneg; lia|lia]|]. eapply Z.le_lt_trans; [exact Wl'|]. rewrite <- E4.
      replace (4 * (d * 2 ^ 1074)) with (4 * 2 ^ 1074 * d) by ring. apply Z.mul_lt_mono_pos_l; [pose proof pow2_1074; lia|exact B2]. }
    assert (C : 10 ^ 998 * 10 ^ n <= 10 ^ (- q)) by (rewrite <- Z.pow_add_r by lia; apply Z.pow_le_mono_r; lia).
    assert (10 ^ 998 * 10 ^ n < 2 ^ 1076 * 10 ^ n) by lia. assert (D : 10 ^ 998 < 2 ^ 1076) by (apply (Z.mul_lt_mono_pos_r (10 ^ n)); [apply Z.pow_pos_nonneg; lia|assumption]). vm_compute in D. congruence.
Qed.

Lemma json_float_shown s m e : valid_binary 53 1024 (S754_finite s m e) = true -> exists d q,
  shown s d q (json_float (S754_finite s m e)) /\ 0 < d < 10 ^ 17 /\ d mod 10 <> 0 /\ within (Zpos m) (e + 1074) (numer d q) (denom q) /\
  (forall x p, within (Zpos m) (e + 1074) (numer x p) (denom p) -> p <= q) /\ (forall x, within (Zpos m) (e + 1074) (numer x q) (denom q) -> far (Zpos m) (e + 1074) d q <= far (Zpos m) (e + 1074) x q).
Proof.
  intros H. pose proof H as C. apply valid_canonical in C. destruct (shortest_spec (Zpos m) (e + 1074) ltac:(lia) C) as (d & q & E & Hd & R). exists d, q. split; [|auto].
  unfold json_float. rewrite H, E. destruct R as (_ & W & _). destruct (large_or_small _); [apply fmt_e_shown; [lia|]; eapply exponent_range; [|exact C| |exact W]; lia|apply fmt_f_shown; lia].
Qed.
