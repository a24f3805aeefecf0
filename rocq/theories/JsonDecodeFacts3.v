(** A text accepted by the scanner is one of SpecJsonDecode.v: values. *)
From Coq Require Import String List ZArith Lia Bool Arith.
From Coq Require Import Strings.Byte.
From Coq Require Import ZifyBool.
From Verif Require Import Base Codec Value GoStrings SpecJson Prog JsonReader SpecJsonFile JsonFacts JsonReaderFacts JsonReaderFacts2 SpecJsonDecode JsonDecode JsonDecodeFacts JsonDecodeFacts2.
Import ListNotations.
Open Scope Z_scope.

Definition good_value (n : nat) : Prop := forall K l, (length l <= n)%nat -> zlen K <= 10000 -> good (mkScanner BeginValue K) l ->
  exists j r, (forall fuel, (2 * length l <= fuel)%nat -> lvalue fuel l = Some (j, r)) /\ zlen K + jdepth j <= 10000 /\ good (mkScanner EndValue K) r /\ (length r < length l)%nat.
Definition good_items (n : nat) : Prop := forall K l, (length l <= n)%nat -> zlen K + 1 <= 10000 -> good (mkScanner BeginValue (ArrayValue :: K)) l ->
  exists js r, (forall fuel, (2 * length l < fuel)%nat -> litems fuel l = Some (js, r)) /\ zlen K + 1 + max_depth js <= 10000 /\ good (mkScanner EndValue K) r /\ (length r < length l)%nat.
Definition good_members (n : nat) : Prop := forall K l, (length l <= n)%nat -> zlen K + 1 <= 10000 -> good (mkScanner BeginString (ObjectKey :: K)) l ->
  exists ms r, (forall fuel, (2 * length l < fuel)%nat -> lmembers fuel l = Some (ms, r)) /\ zlen K + 1 + max_depth_m ms <= 10000 /\ good (mkScanner EndValue K) r /\ (length r < length l)%nat.

Lemma good_popped K r : good (match K with [] => mkScanner EndTop [] | _ => mkScanner EndValue K end) r -> good (mkScanner EndValue K) r.
Proof. destruct K; [apply good_top|auto]. Qed.

(** After an opening bracket. *)
Lemma good_array n K q : good_items n -> (length q <= n)%nat -> zlen K + 1 <= 10000 -> good (mkScanner BeginValueOrEmpty (ArrayValue :: K)) q ->
  exists js r, (forall fuel, (2 * length q < fuel)%nat -> (match skip_ws q with x5d :: r' => Some (JArr [], r') | _ => match litems fuel q with Some (l, r') => Some (JArr l, r') | None => None end end) = Some (JArr js, r)) /\
    zlen K + jdepth (JArr js) <= 10000 /\ good (mkScanner EndValue K) r /\ (length r < length q)%nat.
Proof.
  intros Hi Hl HK H. assert (Hw : good (mkScanner BeginValueOrEmpty (ArrayValue :: K)) (skip_ws q)) by (apply good_ws; [left; reflexivity|left; discriminate|exact H]). pose proof (skip_ws_head q) as Hh. pose proof (skip_ws_length q) as Hlen.
  destruct (skip_ws q) as [|c q'] eqn:Eq; [apply good_nil in Hw; contradiction Hw; reflexivity|].
  destruct (Byte.byte_eq_dec c x5d) as [->|Hc].
  - apply good_cons_eq with (1 := close_array K BeginValueOrEmpty (or_intror eq_refl)) in Hw as (_ & Hw). apply good_popped in Hw.
    exists [], q'. split; [intros fuel _; reflexivity|]. split; [cbn; lia|]. split; [exact Hw|]. cbn in Hlen. lia.
  - assert (Hg : good (mkScanner BeginValue (ArrayValue :: K)) q).
    { destruct (skip_ws_split q) as (ws & E & Hs & _). rewrite Eq in E. rewrite E.
      eapply good_app; [apply feeds_spaces; [discriminate|right; left; reflexivity|exact Hs]|].
      eapply good_same; [|exact Hw]. cbn. rewrite Hh. destruct c; try reflexivity. contradiction. }
    destruct (Hi K q Hl HK Hg) as (js & r & E & Hd & Hr & Hlr). exists js, r. split; [|split; [|split; [exact Hr|exact Hlr]]].
    + intros fuel Hf. rewrite E by exact Hf. destruct c; try reflexivity. contradiction.
    + change (jdepth (JArr js)) with (1 + max_depth js). lia.
Qed.
Lemma good_object n K q : good_members n -> (length q <= n)%nat -> zlen K + 1 <= 10000 -> good (mkScanner BeginStringOrEmpty (ObjectKey :: K)) q ->
  exists ms r, (forall fuel, (2 * length q < fuel)%nat -> (match skip_ws q with x7d :: r' => Some (JObj [], r') | _ => match lmembers fuel q with Some (l, r') => Some (JObj l, r') | None => None end end) = Some (JObj ms, r)) /\
    zlen K + jdepth (JObj ms) <= 10000 /\ good (mkScanner EndValue K) r /\ (length r < length q)%nat.
Proof.
  intros Hi Hl HK H. assert (Hw : good (mkScanner BeginStringOrEmpty (ObjectKey :: K)) (skip_ws q)) by (apply good_ws; [right; right; left; reflexivity|left; discriminate|exact H]). pose proof (skip_ws_head q) as Hh. pose proof (skip_ws_length q) as Hlen.
  destruct (skip_ws q) as [|c q'] eqn:Eq; [apply good_nil in Hw; contradiction Hw; reflexivity|].
  destruct (Byte.byte_eq_dec c x7d) as [->|Hc].
  - apply good_cons_eq with (1 := close_object K _ (or_intror eq_refl)) in Hw as (_ & Hw). apply good_popped in Hw.
    exists [], q'. split; [intros fuel _; reflexivity|]. split; [cbn; lia|]. split; [exact Hw|]. cbn in Hlen. lia.
  - assert (Hg : good (mkScanner BeginString (ObjectKey :: K)) q).
    { destruct (skip_ws_split q) as (ws & E & Hs & _). rewrite Eq in E. rewrite E.
      eapply good_app; [apply feeds_spaces; [discriminate|right; right; right; left; reflexivity|exact Hs]|].
      eapply good_same; [|exact Hw]. cbn. rewrite Hh. unfold begin_string. rewrite Hh. destruct c; try reflexivity. contradiction. }
    destruct (Hi K q Hl HK Hg) as (js & r & E & Hd & Hr & Hlr). exists js, r. split; [|split; [|split; [exact Hr|exact Hlr]]].
    + intros fuel Hf. rewrite E by exact Hf. destruct c; try reflexivity. contradiction.
    + change (jdepth (JObj js)) with (1 + max_depth_m js). lia.
Qed.

(** null, true and false *)
Lemma good_word s1 s2 s3 k1 k2 k3 K q : (forall c, s_step (mkScanner s1 K) c = JsonReader.literal k1 c s2 K) -> (forall c, s_step (mkScanner s2 K) c = JsonReader.literal k2 c s3 K) ->
  (forall c, s_step (mkScanner s3 K) c = JsonReader.literal k3 c EndValue K) -> s_eof (mkScanner s1 K) = OpError -> s_eof (mkScanner s2 K) = OpError -> s_eof (mkScanner s3 K) = OpError ->
  good (mkScanner s1 K) q -> exists r, q = k1 :: k2 :: k3 :: r /\ good (mkScanner EndValue K) r.
Proof.
  intros H1 H2 H3 E1 E2 E3 H.
  assert (Hone : forall s s' k q, (forall c, s_step (mkScanner s K) c = JsonReader.literal k c s' K) -> s_eof (mkScanner s K) = OpError -> good (mkScanner s K) q -> exists r, q = k :: r /\ good (mkScanner s' K) r).
  { intros s s' k [|c r] Hs Ee Hg; [apply good_nil in Hg; contradiction|]. apply good_cons in Hg as (x & op & E & Ho & Hg). rewrite Hs in E. unfold JsonReader.literal in E.
    destruct (beqb c k) eqn:Ec; [|injection E as <- <-; contradiction]. apply byte_dec_bl in Ec. subst c. injection E as <- <-. eauto. }
  destruct (Hone _ _ _ _ H1 E1 H) as (r1 & -> & Hg1). destruct (Hone _ _ _ _ H2 E2 Hg1) as (r2 & -> & Hg2). destruct (Hone _ _ _ _ H3 E3 Hg2) as (r3 & -> & Hg3). eauto.
Qed.

Lemma good_value_step n : good_items n -> good_members n -> good_value (S n).
Proof.
  intros Hi Hm K l Hl HK H. assert (Hw : good (mkScanner BeginValue K) (skip_ws l)) by (apply good_ws; [right; left; reflexivity|right; reflexivity|exact H]). pose proof (skip_ws_head l) as Hh. pose proof (skip_ws_length l) as Hlen.
  destruct (skip_ws l) as [|c q] eqn:Eq; [apply good_nil in Hw; contradiction Hw; destruct K; reflexivity|]. cbn [length] in Hlen.
  assert (Hfuel : forall j r, (forall fuel, (2 * length q < fuel)%nat -> match c with
      | x6e => keyword (lit "ull") q JNull | x74 => keyword (lit "rue") q (JBool true) | x66 => keyword (lit "alse") q (JBool false)
      | x22 => match lcharacters fuel q with Some (cs, r') => Some (JStr cs, r') | None => None end
      | x5b => match skip_ws q with x5d :: r' => Some (JArr [], r') | _ => match litems fuel q with Some (l, r') => Some (JArr l, r') | None => None end end
      | x7b => match skip_ws q with x7d :: r' => Some (JObj [], r') | _ => match lmembers fuel q with Some (m, r') => Some (JObj m, r') | None => None end end
      | _ => match number (c :: q) with Some (t, r) => Some (JNum t, r) | None => None end
      end = Some (j, r)) -> forall fuel, (2 * length l <= fuel)%nat -> lvalue fuel l = Some (j, r)).
  { intros j r Hx [|fuel] Hf; [lia|]. cbn [lvalue]. rewrite Eq. apply Hx. lia. }
  assert (Hdone : forall j r, (forall fuel, (2 * length l <= fuel)%nat -> lvalue fuel l = Some (j, r)) -> jdepth j = 0 -> good (mkScanner EndValue K) r -> (length r <= length q)%nat ->
    exists j r, (forall fuel, (2 * length l <= fuel)%nat -> lvalue fuel l = Some (j, r)) /\ zlen K + jdepth j <= 10000 /\ good (mkScanner EndValue K) r /\ (length r < length l)%nat).
  { intros j r H1 H2 H3 H4. exists j, r. split; [exact H1|]. split; [lia|]. split; [exact H3|lia]. }
  destruct (Byte.byte_eq_dec c x7b) as [->|N1].
  { apply good_cons in Hw as (s' & op & E & Ho & Hw). cbn in E. unfold push in E. rewrite zlen_cons' in E.
    destruct (1 + zlen K <=? max_nesting) eqn:Ed; [|injection E as <- <-; contradiction]. injection E as <- <-.
    destruct (good_object n K q Hm) as (js & r & E & Hd & Hr & Hlr); [lia|unfold max_nesting in Ed; lia|exact Hw|].
    exists (JObj js), r. split; [apply Hfuel; exact E|]. split; [exact Hd|]. split; [exact Hr|lia]. }
  destruct (Byte.byte_eq_dec c x5b) as [->|N2].
  { apply good_cons in Hw as (s' & op & E & Ho & Hw). cbn in E. unfold push in E. rewrite zlen_cons' in E.
    destruct (1 + zlen K <=? max_nesting) eqn:Ed; [|injection E as <- <-; contradiction]. injection E as <- <-.
    destruct (good_array n K q Hi) as (js & r & E & Hd & Hr & Hlr); [lia|unfold max_nesting in Ed; lia|exact Hw|].
    exists (JArr js), r. split; [apply Hfuel; exact E|]. split; [exact Hd|]. split; [exact Hr|lia]. }
  destruct (Byte.byte_eq_dec c x22) as [->|N3].
  { apply good_cons_eq with (s' := mkScanner InString K) (op := OpBeginLiteral) in Hw as (_ & Hw); [|reflexivity].
    destruct (good_string K (length q) q (le_n _) Hw) as (cs & r & E & Hr & Hlr).
    apply (Hdone (JStr cs) r); [|reflexivity|exact Hr|lia]. apply Hfuel. intros fuel Hf. rewrite E by lia. reflexivity. }
  destruct (Byte.byte_eq_dec c x6e) as [->|N4].
  { apply good_cons_eq with (s' := mkScanner SN K) (op := OpBeginLiteral) in Hw as (_ & Hw); [|reflexivity].
    apply (good_word SN SNu SNul x75 x6c x6c) in Hw as (r & -> & Hr); try reflexivity.
    apply (Hdone JNull r); [|reflexivity|exact Hr|cbn; lia]. apply Hfuel. intros fuel Hf. reflexivity. }
  destruct (Byte.byte_eq_dec c x74) as [->|N5].
  { apply good_cons_eq with (s' := mkScanner ST K) (op := OpBeginLiteral) in Hw as (_ & Hw); [|reflexivity].
    apply (good_word ST STr STru x72 x75 x65) in Hw as (r & -> & Hr); try reflexivity.
    apply (Hdone (JBool true) r); [|reflexivity|exact Hr|cbn; lia]. apply Hfuel. intros fuel Hf. reflexivity. }
  destruct (Byte.byte_eq_dec c x66) as [->|N6].
  { apply good_cons_eq with (s' := mkScanner SF K) (op := OpBeginLiteral) in Hw as (_ & Hw); [|reflexivity].
    destruct q as [|c q]; [apply good_nil in Hw; contradiction Hw; reflexivity|]. apply good_cons in Hw as (s' & op & E & Ho & Hw). cbn in E. unfold JsonReader.literal in E.
    destruct (beqb c x61) eqn:Ec; [|injection E as <- <-; contradiction]. apply byte_dec_bl in Ec. subst c. injection E as <- <-.
    apply (good_word SFa SFal SFals x6c x73 x65) in Hw as (r & -> & Hr); try reflexivity.
    apply (Hdone (JBool false) r); [|reflexivity|exact Hr|cbn; lia]. apply Hfuel. intros fuel Hf. reflexivity. }
  assert (Hc : is_digit c = true \/ c = x2d).
  { destruct (is_digit c) eqn:Ec; [left; reflexivity|]. apply good_cons in Hw as (s' & op & E & Ho & _). cbn in E. unfold begin_value in E. rewrite Hh, Ec in E.
    destruct c; try contradiction; try (right; reflexivity); try discriminate Ec; injection E as <- <-; contradiction. }
  destruct (good_number K c q Hw Hc) as (t & r & En & Hr & Hlr). cbn [length] in Hlr.
  apply (Hdone (JNum t) r); [|reflexivity|exact Hr|lia]. apply Hfuel. intros fuel Hf. rewrite En. destruct c; try reflexivity; contradiction.
Qed.

Lemma good_items_step n : good_value (S n) -> good_items n -> good_items (S n).
Proof.
  intros Hv Hi K l Hl HK H. destruct (Hv (ArrayValue :: K) l Hl) as (j & r & E & Hd & Hr & Hlr); [rewrite zlen_cons'; lia|exact H|]. rewrite zlen_cons' in Hd.
  assert (Hw : good (mkScanner EndValue (ArrayValue :: K)) (skip_ws r)) by (apply good_ws; [right; right; right; right; reflexivity|left; discriminate|exact Hr]).
  pose proof (skip_ws_head r) as Hh. pose proof (skip_ws_length r) as Hlen.
  destruct (skip_ws r) as [|c q] eqn:Eq; [apply good_nil in Hw; contradiction Hw; reflexivity|]. cbn [length] in Hlen.
  destruct (Byte.byte_eq_dec c x5d) as [->|N1].
  { apply good_cons_eq with (1 := close_array K EndValue (or_introl (or_introl eq_refl))) in Hw as (_ & Hw). apply good_popped in Hw.
    exists [j], q. split; [|split; [cbn; lia|split; [exact Hw|lia]]]. intros [|fuel] Hf; [lia|]. cbn [litems]. rewrite E by lia. rewrite Eq. reflexivity. }
  destruct (Byte.byte_eq_dec c x2c) as [->|N2].
  { apply good_cons_eq with (s' := mkScanner BeginValue (ArrayValue :: K)) (op := OpArrayValue) in Hw as (_ & Hw); [|reflexivity].
    destruct (Hi K q) as (js & r' & E' & Hd' & Hr' & Hlr'); [lia|lia|exact Hw|].
    exists (j :: js), r'. split; [|split; [|split; [exact Hr'|lia]]].
    - intros [|fuel] Hf; [lia|]. cbn [litems]. rewrite E by lia. rewrite Eq, E' by lia. reflexivity.
    - unfold max_depth in *. cbn [map fold_right]. lia. }
  exfalso. apply good_cons in Hw as (s' & op & Ew & Ho & _). cbn in Ew. rewrite Hh in Ew. destruct c; try contradiction; injection Ew as <- <-; contradiction.
Qed.

Lemma good_members_step n : good_value n -> good_members n -> good_members (S n).
Proof.
  intros Hv Hi K l Hl HK H. assert (Hw0 : good (mkScanner BeginString (ObjectKey :: K)) (skip_ws l)) by (apply good_ws; [right; right; right; left; reflexivity|left; discriminate|exact H]).
  pose proof (skip_ws_head l) as Hh0. pose proof (skip_ws_length l) as Hlen0.
  destruct (skip_ws l) as [|c0 q0] eqn:Eq0; [apply good_nil in Hw0; contradiction Hw0; reflexivity|]. cbn [length] in Hlen0.
  apply good_cons in Hw0 as (s0 & op0 & E0 & Ho0 & Hw0). cbn in E0. unfold begin_string in E0. rewrite Hh0 in E0.
  destruct (Byte.byte_eq_dec c0 x22) as [->|N0]; [|exfalso; destruct c0; try contradiction; injection E0 as <- <-; contradiction].
  injection E0 as <- <-. destruct (good_string _ (length q0) q0 (le_n _) Hw0) as (k & r1 & Ek & Hr1 & Hlr1).
  assert (Hw1 : good (mkScanner EndValue (ObjectKey :: K)) (skip_ws r1)) by (apply good_ws; [right; right; right; right; reflexivity|left; discriminate|exact Hr1]).
  pose proof (skip_ws_head r1) as Hh1. pose proof (skip_ws_length r1) as Hlen1.
  destruct (skip_ws r1) as [|c1 q1] eqn:Eq1; [apply good_nil in Hw1; contradiction Hw1; reflexivity|]. cbn [length] in Hlen1.
  apply good_cons in Hw1 as (s1 & op1 & E1 & Ho1 & Hw1). cbn in E1. rewrite Hh1 in E1.
  destruct (Byte.byte_eq_dec c1 x3a) as [->|N1]; [|exfalso; destruct c1; try contradiction; injection E1 as <- <-; contradiction].
  injection E1 as <- <-.
  destruct (Hv (ObjectValue :: K) q1) as (j & r & E & Hd & Hr & Hlr); [lia|rewrite zlen_cons'; lia|exact Hw1|]. rewrite zlen_cons' in Hd.
  assert (Hw : good (mkScanner EndValue (ObjectValue :: K)) (skip_ws r)) by (apply good_ws; [right; right; right; right; reflexivity|left; discriminate|exact Hr]).
  pose proof (skip_ws_head r) as Hh. pose proof (skip_ws_length r) as Hlen.
  destruct (skip_ws r) as [|c q] eqn:Eq; [apply good_nil in Hw; contradiction Hw; reflexivity|]. cbn [length] in Hlen.
  destruct (Byte.byte_eq_dec c x7d) as [->|N2].
  { apply good_cons_eq with (1 := close_object K _ (or_introl (ex_intro _ EndValue (conj (or_introl eq_refl) eq_refl)))) in Hw as (_ & Hw). apply good_popped in Hw.
    exists [(k, j)], q. split; [|split; [cbn; lia|split; [exact Hw|lia]]]. intros [|fuel] Hf; [lia|]. cbn [lmembers]. rewrite Eq0, Ek by lia. rewrite Eq1, E by lia. rewrite Eq. reflexivity. }
  destruct (Byte.byte_eq_dec c x2c) as [->|N3].
  { apply good_cons_eq with (s' := mkScanner BeginString (ObjectKey :: K)) (op := OpObjectValue) in Hw as (_ & Hw); [|reflexivity].
    destruct (Hi K q) as (ms & r' & E' & Hd' & Hr' & Hlr'); [lia|lia|exact Hw|].
    exists ((k, j) :: ms), r'. split; [|split; [|split; [exact Hr'|lia]]].
    - intros [|fuel] Hf; [lia|]. cbn [lmembers]. rewrite Eq0, Ek by lia. rewrite Eq1, E by lia. rewrite Eq, E' by lia. reflexivity.
    - unfold max_depth_m in *. cbn [map fold_right snd]. lia. }
  exfalso. apply good_cons in Hw as (s' & op & Ew & Ho & _). cbn in Ew. rewrite Hh in Ew. destruct c; try contradiction; injection Ew as <- <-; contradiction.
Qed.

Lemma good_all : forall n, good_value n /\ good_items n /\ good_members n.
Proof.
  induction n as [|n (Hv & Hi & Hm)].
  - split; [|split]; intros K l Hl HK H; (destruct l; [|cbn in Hl; lia]); apply good_nil in H; contradiction H; try reflexivity; destruct K; reflexivity.
  - pose proof (good_value_step n Hi Hm) as Hv'. split; [exact Hv'|]. split; [apply good_items_step; assumption|apply good_members_step; assumption].
Qed.

(** What the scanner accepts is a text of the grammar. *)
Lemma good_text b : good s_reset b -> exists j r, (forall fuel, (2 * length b <= fuel)%nat -> lvalue fuel b = Some (j, r)) /\ skip_ws r = [] /\ jdepth j <= 10000 /\ good (mkScanner EndValue []) r.
Proof.
  intros H. destruct (good_all (length b)) as (Hv & _). destruct (Hv [] b (le_n _) ltac:(discriminate) H) as (j & r & E & Hd & Hr & _).
  exists j, r. split; [exact E|]. change (zlen []) with 0 in Hd. split; [|split; [lia|exact Hr]].
  assert (Hs : forall r, good (mkScanner EndTop []) r -> skip_ws r = []).
  { clear. induction r as [|c r IH]; [reflexivity|]. intros H. apply good_cons in H as (s & op & E & _ & H). cbn in E. unfold end_top in E. cbn [skip_ws]. rewrite is_ws_space.
    destruct (is_space c); injection E as <- <-; [apply IH; exact H|contradiction (good_error _ _ H)]. }
  apply Hs. destruct r as [|c r]; [exists (mkScanner EndTop []); split; [reflexivity|discriminate]|]. eapply good_same; [|exact Hr]. reflexivity.
Qed.
Lemma valid_accepted b : check_valid b = true -> exists j, accepted_text b j.
Proof.
  intros H. apply check_valid_good, good_text in H as (j & r & E & H1 & H2 & _). exists j, (2 * length b)%nat, r. split; [apply E; lia|]. auto.
Qed.
