(** The scanner accepts the texts of SpecJsonDecode.v. *)
From Coq Require Import String List ZArith Lia Bool Arith.
From Coq Require Import Strings.Byte.
From Coq Require Import ZifyBool.
From Verif Require Import Base Codec Value GoStrings SpecJson Prog JsonReader SpecJsonFile JsonReaderFacts JsonReaderFacts2 SpecJsonDecode JsonDecode.
Import ListNotations.
Open Scope Z_scope.

(** *** Characters *)
Lemma character_is_lcharacter s cr : character s = Some cr -> lcharacter s = Some cr.
Proof.
  intros H. destruct s as [|b s]; [discriminate|]. destruct (Byte.byte_eq_dec b x5c) as [->|Hb].
  - destruct s as [|e s]; [exact H|]. destruct (Byte.byte_eq_dec e x75) as [->|He].
    + unfold lcharacter. cbn [character] in H |- *. destruct (hex4 s) as [[u r1]|]; [|discriminate]. rewrite H. reflexivity.
    + destruct e; try contradiction; exact H.
  - assert (E : lcharacter (b :: s) = if (Z_of_byte b <? 32) || beqb b x22 then None
      else match character (b :: s) with Some cr => Some cr | None => Some (65533, s) end) by (destruct b; try reflexivity; contradiction).
    assert (E2 : character (b :: s) = if (Z_of_byte b <? 32) || beqb b x22 || beqb b x5c then None
      else let '(c, w) := decode_rune (b :: s) in if (c =? rune_error) && Nat.eqb w 1 then None else Some (c, skipn w (b :: s))) by (destruct b; try reflexivity; contradiction).
    rewrite E. destruct ((Z_of_byte b <? 32) || beqb b x22) eqn:Eb; [rewrite E2 in H; discriminate H|]. rewrite H. reflexivity.
Qed.

(** The three kinds of characters. *)
Lemma lcharacter_cases s c r : lcharacter s = Some (c, r) ->
  character s = Some (c, r) \/
  (character s = None /\ c = 65533 /\ exists q u, s = x5c :: x75 :: q /\ hex4 q = Some (u, r)) \/
  (character s = None /\ c = 65533 /\ exists b, s = b :: r /\ 32 <= Z_of_byte b /\ b <> x22 /\ b <> x5c).
Proof.
  intros H. destruct s as [|b s]; [discriminate|]. destruct (Byte.byte_eq_dec b x5c) as [->|Hb].
  - destruct s as [|e s]; [left; exact H|]. destruct (Byte.byte_eq_dec e x75) as [->|He].
    + unfold lcharacter in H. destruct (hex4 s) as [[u r1]|] eqn:E; [|discriminate]. destruct (character _) as [cr|] eqn:Ec; [left; exact H|].
      injection H as <- <-. right. left. split; [reflexivity|]. split; [reflexivity|]. exists s, u. auto.
    + left. destruct e; try contradiction; exact H.
  - assert (E : lcharacter (b :: s) = if (Z_of_byte b <? 32) || beqb b x22 then None
      else match character (b :: s) with Some cr => Some cr | None => Some (65533, s) end) by (destruct b; try reflexivity; contradiction).
    rewrite E in H. destruct ((Z_of_byte b <? 32) || beqb b x22) eqn:Eb; [discriminate|]. destruct (character (b :: s)) as [cr|] eqn:Ec; [left; exact H|].
    injection H as <- <-. right. right. split; [reflexivity|]. split; [reflexivity|]. exists b. apply orb_false_iff in Eb as [E1 E2].
    split; [reflexivity|]. split; [lia|]. split; [intros ->; discriminate E2|exact Hb].
Qed.

Section Stack.
Variable K : list pstate.
Local Notation st s := (mkScanner s K).
Lemma lcharacter_split s c r : lcharacter s = Some (c, r) -> exists t, s = t ++ r /\ feeds (st InString) t (st InString).
Proof.
  intros H. apply lcharacter_cases in H as [H|[(_ & _ & q & u & -> & H)|(_ & _ & b & -> & H1 & H2 & H3)]].
  - eapply character_split. exact H.
  - destruct (hex4_split K _ _ _ H) as (t & -> & F). exists (x5c :: x75 :: t). split; [reflexivity|].
    eapply feeds_cons; [reflexivity|reflexivity|]. eapply feeds_cons; [reflexivity|reflexivity|exact F].
  - exists [b]. split; [reflexivity|]. eapply feeds_one; [apply in_string; assumption|reflexivity].
Qed.
Lemma lcharacters_split : forall fuel s cs r, lcharacters fuel s = Some (cs, r) ->
  exists t, s = t ++ r /\ feeds (st InString) t (st EndValue).
Proof.
  induction fuel as [|fuel IH]; intros s cs r H; [discriminate|]. cbn [lcharacters] in H.
  destruct s as [|b s]; [discriminate|].
  destruct (Byte.byte_eq_dec b x22) as [->|Hb].
  { injection H as _ <-. exists [x22]. split; [reflexivity|]. eapply feeds_one; reflexivity. }
  assert (H' : match lcharacter (b :: s) with None => None | Some (c, r) => match lcharacters fuel r with None => None | Some (cs, r') => Some (c :: cs, r') end end = Some (cs, r)).
  { destruct b; try exact H. contradiction. }
  clear H. destruct (lcharacter (b :: s)) as [[c r1]|] eqn:E1; [|discriminate].
  destruct (lcharacters fuel r1) as [[cs' r2]|] eqn:E2; [|discriminate]. injection H' as _ <-.
  destruct (lcharacter_split (b :: s) c r1 E1) as (t1 & Et & F1). destruct (IH r1 cs' r2 E2) as (t2 & -> & F2).
  exists (t1 ++ t2). split; [rewrite Et, app_assoc; reflexivity|]. eapply feeds_app; eassumption.
Qed.
End Stack.

(** *** Values, as in JsonReaderFacts2.v *)
Definition lvalues_ok (fuel : nat) : Prop := forall K s j r, K <> [] -> lvalue fuel s = Some (j, r) -> zlen K + jdepth j <= 10000 ->
  exists t s', s = t ++ r /\ value_end s' /\ feeds (mkScanner BeginValue K) t (mkScanner s' K).
Definition litems_ok (fuel : nat) : Prop := forall K s l r, litems fuel s = Some (l, r) -> zlen K + 1 + max_depth l <= 10000 ->
  exists t s', s = t ++ x5d :: r /\ value_end s' /\ feeds (mkScanner BeginValue (ArrayValue :: K)) t (mkScanner s' (ArrayValue :: K)).
Definition lmembers_ok (fuel : nat) : Prop := forall K s m r, lmembers fuel s = Some (m, r) -> zlen K + 1 + max_depth_m m <= 10000 ->
  exists t s', s = t ++ x7d :: r /\ value_end s' /\ feeds (mkScanner BeginString (ObjectKey :: K)) t (mkScanner s' (ObjectValue :: K)).

(** An array or an object from its opening bracket on. *)
Lemma larray_inside fuel K r j r' : litems_ok fuel -> zlen K + jdepth j <= 10000 ->
  match skip_ws r with x5d :: r' => Some (JArr [], r') | _ => match litems fuel r with Some (l, r') => Some (JArr l, r') | None => None end end = Some (j, r') ->
  exists t s', r = t ++ x5d :: r' /\ (value_end s' \/ s' = BeginValueOrEmpty) /\ feeds (mkScanner BeginValueOrEmpty (ArrayValue :: K)) t (mkScanner s' (ArrayValue :: K)).
Proof.
  intros Hi Hd H. destruct (skip_ws_split r) as (ws & E & Hw & Hc).
  assert (Hcase : (exists q, skip_ws r = x5d :: q /\ r' = q) \/ (forall q, skip_ws r <> x5d :: q) /\ match litems fuel r with Some (l, r') => Some (JArr l, r') | None => None end = Some (j, r')).
  { destruct (skip_ws r) as [|c q]; [right; split; [discriminate|exact H]|].
    destruct (Byte.byte_eq_dec c x5d) as [->|Hn]; [left; exists q; injection H as _ <-; auto|].
    right. split; [intros q' Eq; injection Eq as -> _; contradiction|]. destruct c; try exact H; contradiction. }
  destruct Hcase as [(q & Eq & ->)|(Hq & H')].
  - exists ws, BeginValueOrEmpty. rewrite Eq in E. split; [exact E|]. split; [right; reflexivity|].
    apply feeds_spaces; [discriminate|left; reflexivity|exact Hw].
  - destruct (litems fuel r) as [[l r1]|] eqn:Ei; [|discriminate]. injection H' as <- <-.
    destruct (Hi K r l r1 Ei) as (t & s' & Et & He & F).
    { change (jdepth (JArr l)) with (1 + max_depth l) in Hd. lia. }
    exists t, s'. split; [exact Et|]. split; [left; exact He|].
    eapply or_empty_array with (r := x5d :: r1); [apply value_end_not; exact He|exact F|]. intros q'. rewrite <- Et. apply Hq.
Qed.

Lemma lobject_inside fuel K r j r' : lmembers_ok fuel -> zlen K + jdepth j <= 10000 ->
  match skip_ws r with x7d :: r' => Some (JObj [], r') | _ => match lmembers fuel r with Some (m, r') => Some (JObj m, r') | None => None end end = Some (j, r') ->
  exists t s', r = t ++ x7d :: r' /\ ((exists e, value_end e /\ s' = mkScanner e (ObjectValue :: K)) \/ s' = mkScanner BeginStringOrEmpty (ObjectKey :: K))
    /\ feeds (mkScanner BeginStringOrEmpty (ObjectKey :: K)) t s'.
Proof.
  intros Hi Hd H. destruct (skip_ws_split r) as (ws & E & Hw & Hc).
  assert (Hcase : (exists q, skip_ws r = x7d :: q /\ r' = q) \/ (forall q, skip_ws r <> x7d :: q) /\ match lmembers fuel r with Some (m, r') => Some (JObj m, r') | None => None end = Some (j, r')).
  { destruct (skip_ws r) as [|c q]; [right; split; [discriminate|exact H]|].
    destruct (Byte.byte_eq_dec c x7d) as [->|Hn]; [left; exists q; injection H as _ <-; auto|].
    right. split; [intros q' Eq; injection Eq as -> _; contradiction|]. destruct c; try exact H; contradiction. }
  destruct Hcase as [(q & Eq & ->)|(Hq & H')].
  - exists ws, (mkScanner BeginStringOrEmpty (ObjectKey :: K)). rewrite Eq in E. split; [exact E|]. split; [right; reflexivity|].
    apply feeds_spaces; [discriminate|right; right; left; reflexivity|exact Hw].
  - destruct (lmembers fuel r) as [[l r1]|] eqn:Ei; [|discriminate]. injection H' as <- <-.
    destruct (Hi K r l r1 Ei) as (t & s' & Et & He & F).
    { change (jdepth (JObj l)) with (1 + max_depth_m l) in Hd. lia. }
    exists t, (mkScanner s' (ObjectValue :: K)). split; [exact Et|]. split; [left; exists s'; auto|].
    eapply or_empty_object with (r := x7d :: r1); [apply value_end_not; exact He|exact F|]. intros q'. rewrite <- Et. apply Hq.
Qed.

Lemma lvalues_step fuel : litems_ok fuel -> lmembers_ok fuel -> lvalues_ok (S fuel).
Proof.
  intros Hi Hm K s j r HK H Hd. cbn [lvalue] in H. destruct (skip_ws_split s) as (ws & E & Hw & Hc).
  destruct (skip_ws s) as [|c q]; [discriminate|]. subst s.
  pose proof (feeds_spaces K HK BeginValue ws (or_intror (or_introl eq_refl)) Hw) as Fw.
  assert (Hgoal : forall t s', c :: q = t ++ r -> value_end s' -> feeds (mkScanner BeginValue K) t (mkScanner s' K) ->
    exists t0 s'0, ws ++ c :: q = t0 ++ r /\ value_end s'0 /\ feeds (mkScanner BeginValue K) t0 (mkScanner s'0 K)).
  { intros t s' E1 E2 F. exists (ws ++ t), s'. split; [rewrite E1, app_assoc; reflexivity|]. split; [exact E2|]. eapply feeds_app; eassumption. }
  assert (Hlit : forall k, c :: q = k ++ r -> feeds (mkScanner BeginValue K) k (mkScanner EndValue K) -> exists t0 s'0, ws ++ c :: q = t0 ++ r /\ value_end s'0 /\ feeds (mkScanner BeginValue K) t0 (mkScanner s'0 K)).
  { intros k E1 F. eapply Hgoal; [exact E1|left; reflexivity|exact F]. }
  assert (Hnum : match number (c :: q) with Some (t, r) => Some (JNum t, r) | None => None end = Some (j, r) ->
     exists t0 s'0, ws ++ c :: q = t0 ++ r /\ value_end s'0 /\ feeds (mkScanner BeginValue K) t0 (mkScanner s'0 K)).
  { intros Hn. destruct (number (c :: q)) as [[t r1]|] eqn:En; [|discriminate]. injection Hn as _ <-.
    destruct (number_split K _ _ _ En) as (Et & s' & He & F). eapply Hgoal; eassumption. }
  destruct (Byte.byte_eq_dec c x7b) as [->|N1].
  { assert (Hdj : 1 <= jdepth j).
    { pose proof (bracket_depth j) as B. destruct (skip_ws q) as [|cc ?]; [|destruct cc]; try (injection H as <- _; exact B);
        (destruct (lmembers fuel q) as [[m r1]|]; [injection H as <- _; exact B|discriminate]). }
    destruct (lobject_inside fuel K q j r Hm Hd H) as (t & s' & Et & Hs & F).
    eapply Hgoal with (t := x7b :: t ++ [x7d]) (s' := EndValue); [cbn; rewrite Et, <- app_assoc; reflexivity|left; reflexivity|].
    eapply feeds_cons; [apply push_object; lia|reflexivity|]. eapply feeds_app; [exact F|].
    eapply feeds_close; [exact HK| |right; reflexivity]. rewrite (close_object K s' Hs). destruct K; [contradiction|reflexivity]. }
  destruct (Byte.byte_eq_dec c x5b) as [->|N2].
  { assert (Hdj : 1 <= jdepth j).
    { pose proof (bracket_depth j) as B. destruct (skip_ws q) as [|cc ?]; [|destruct cc]; try (injection H as <- _; exact B);
        (destruct (litems fuel q) as [[m r1]|]; [injection H as <- _; exact B|discriminate]). }
    destruct (larray_inside fuel K q j r Hi Hd H) as (t & s' & Et & Hs & F).
    eapply Hgoal with (t := x5b :: t ++ [x5d]) (s' := EndValue); [cbn; rewrite Et, <- app_assoc; reflexivity|left; reflexivity|].
    eapply feeds_cons; [apply push_array; lia|reflexivity|]. eapply feeds_app; [exact F|].
    eapply feeds_close; [exact HK| |left; reflexivity]. rewrite (close_array K s' Hs). destruct K; [contradiction|reflexivity]. }
  destruct (Byte.byte_eq_dec c x22) as [->|N3].
  { destruct (lcharacters fuel q) as [[cs r1]|] eqn:Ech; [|discriminate]. injection H as _ <-.
    destruct (lcharacters_split K _ _ _ _ Ech) as (t & Et & F).
    eapply Hgoal with (t := x22 :: t) (s' := EndValue); [cbn; rewrite Et; reflexivity|left; reflexivity|].
    eapply feeds_cons with (op := OpBeginLiteral); [reflexivity|reflexivity|exact F]. }
  destruct (Byte.byte_eq_dec c x6e) as [->|N4].
  { apply keyword_split in H. apply Hlit with (k := lit "null"); [rewrite H; reflexivity|]. intros n. reflexivity. }
  destruct (Byte.byte_eq_dec c x74) as [->|N5].
  { apply keyword_split in H. apply Hlit with (k := lit "true"); [rewrite H; reflexivity|]. intros n. reflexivity. }
  destruct (Byte.byte_eq_dec c x66) as [->|N6].
  { apply keyword_split in H. apply Hlit with (k := lit "false"); [rewrite H; reflexivity|]. intros n. reflexivity. }
  apply Hnum. destruct c; try exact H; contradiction.
Qed.

Lemma litems_step fuel : lvalues_ok fuel -> litems_ok fuel -> litems_ok (S fuel).
Proof.
  intros Hv Hi K s l r H Hd. cbn [litems] in H. destruct (lvalue fuel s) as [[j r1]|] eqn:Ej; [|discriminate].
  destruct (skip_ws_split r1) as (ws & E & Hw & Hc).
  assert (Hjd : forall l', l = j :: l' -> zlen (ArrayValue :: K) + jdepth j <= 10000 /\ zlen K + 1 + max_depth l' <= 10000).
  { intros l' ->. rewrite zlen_cons'. unfold max_depth in *. cbn [map fold_right] in Hd. lia. }
  assert (Hcase : (exists q, skip_ws r1 = x5d :: q /\ l = [j] /\ r = q) \/
     (exists q l', skip_ws r1 = x2c :: q /\ litems fuel q = Some (l', r) /\ l = j :: l')).
  { destruct (skip_ws r1) as [|c q]; [discriminate|]. destruct c; try discriminate.
    - destruct (litems fuel q) as [[l' r']|] eqn:Ei; [|discriminate]. injection H as <- <-. right. exists q, l'. auto.
    - injection H as <- <-. left. exists q. auto. }
  destruct Hcase as [(q & Eq & -> & ->)|(q & l' & Eq & Ei & ->)]; destruct (Hjd _ eq_refl) as (Hd1 & Hd2);
    destruct (Hv (ArrayValue :: K) s j r1 ltac:(discriminate) Ej Hd1) as (t & s' & Et & He & F); rewrite Eq in E;
    destruct (feeds_end_spaces (ArrayValue :: K) ltac:(discriminate) s' ws He Hw) as (s2 & He2 & F2).
  - exists (t ++ ws), s2. split; [rewrite Et, E at 1; rewrite <- app_assoc; reflexivity|]. split; [exact He2|]. eapply feeds_app; eassumption.
  - destruct (Hi K q l' r Ei Hd2) as (t3 & s3 & Et3 & He3 & F3).
    exists ((t ++ ws) ++ x2c :: t3), s3. split; [rewrite Et, E at 1; rewrite Et3, <- !app_assoc; reflexivity|]. split; [exact He3|].
    eapply feeds_app; [eapply feeds_app; eassumption|].
    eapply feeds_cons with (op := OpArrayValue); [rewrite value_end_step by (try exact He2; try discriminate; unfold follows; tauto); reflexivity|reflexivity|exact F3].
Qed.

Lemma lmembers_step fuel : lvalues_ok fuel -> lmembers_ok fuel -> lmembers_ok (S fuel).
Proof.
  intros Hv Hm K s m r H Hd. cbn [lmembers] in H.
  destruct (skip_ws_split s) as (ws0 & E0 & Hw0 & Hc0).
  destruct (skip_ws s) as [|c q0]; [discriminate|]. destruct (Byte.byte_eq_dec c x22) as [->|Hn]; [|destruct c; try discriminate; contradiction].
  destruct (lcharacters fuel q0) as [[k r1]|] eqn:Ech; [|discriminate].
  destruct (lcharacters_split (ObjectKey :: K) _ _ _ _ Ech) as (tk & Etk & Fk).
  destruct (skip_ws_split r1) as (ws1 & E1 & Hw1 & Hc1).
  destruct (skip_ws r1) as [|c q1]; [discriminate|]. destruct (Byte.byte_eq_dec c x3a) as [->|Hn]; [|destruct c; try discriminate; contradiction].
  destruct (lvalue fuel q1) as [[j r3]|] eqn:Ej; [|discriminate].
  assert (Fkey : feeds (mkScanner BeginString (ObjectKey :: K)) (ws0 ++ x22 :: tk ++ ws1 ++ [x3a]) (mkScanner BeginValue (ObjectValue :: K))).
  { eapply feeds_app; [apply feeds_spaces; [discriminate|right; right; right; left; reflexivity|exact Hw0]|].
    eapply feeds_cons with (op := OpBeginLiteral); [reflexivity|reflexivity|].
    eapply feeds_app; [exact Fk|]. eapply feeds_app; [apply feeds_spaces; [discriminate|right; right; right; right; reflexivity|exact Hw1]|].
    eapply feeds_one with (op := OpObjectKey); reflexivity. }
  destruct (skip_ws_split r3) as (ws & E & Hw & Hc).
  assert (Hjd : forall m', m = (k, j) :: m' -> zlen (ObjectValue :: K) + jdepth j <= 10000 /\ zlen K + 1 + max_depth_m m' <= 10000).
  { intros m' ->. rewrite zlen_cons'. unfold max_depth_m in *. cbn [map fold_right snd] in Hd. lia. }
  assert (Hcase : (exists q, skip_ws r3 = x7d :: q /\ m = [(k, j)] /\ r = q) \/
     (exists q m', skip_ws r3 = x2c :: q /\ lmembers fuel q = Some (m', r) /\ m = (k, j) :: m')).
  { destruct (skip_ws r3) as [|c q]; [discriminate|]. destruct c; try discriminate.
    - destruct (lmembers fuel q) as [[l' r']|] eqn:Ei; [|discriminate]. injection H as <- <-. right. exists q, l'. auto.
    - injection H as <- <-. left. exists q. auto. }
  destruct Hcase as [(q & Eq & -> & ->)|(q & m' & Eq & Ei & ->)]; destruct (Hjd _ eq_refl) as (Hd1 & Hd2);
    destruct (Hv (ObjectValue :: K) q1 j r3 ltac:(discriminate) Ej Hd1) as (t & s' & Et & He & F); rewrite Eq in E;
    destruct (feeds_end_spaces (ObjectValue :: K) ltac:(discriminate) s' ws He Hw) as (s2 & He2 & F2);
    assert (Eall : s = (ws0 ++ x22 :: tk ++ ws1 ++ [x3a]) ++ t ++ ws ++ skip_ws r3)
      by (rewrite Eq, <- E, <- Et, E0, Etk at 1; rewrite E1 at 1; rewrite <- !app_assoc; cbn [app]; rewrite <- !app_assoc; reflexivity);
    rewrite Eq in Eall.
  - exists ((ws0 ++ x22 :: tk ++ ws1 ++ [x3a]) ++ t ++ ws), s2. split; [rewrite Eall at 1; rewrite <- !app_assoc; reflexivity|].
    split; [exact He2|]. eapply feeds_app; [exact Fkey|]. eapply feeds_app; eassumption.
  - destruct (Hm K q m' r Ei Hd2) as (t3 & s3 & Et3 & He3 & F3).
    exists ((ws0 ++ x22 :: tk ++ ws1 ++ [x3a]) ++ t ++ ws ++ x2c :: t3), s3. split; [rewrite Eall at 1; rewrite Et3, <- !app_assoc; reflexivity|].
    split; [exact He3|]. eapply feeds_app; [exact Fkey|]. eapply feeds_app; [exact F|]. eapply feeds_app; [exact F2|].
    eapply feeds_cons with (op := OpObjectValue); [rewrite value_end_step by (try exact He2; try discriminate; unfold follows; tauto); reflexivity|reflexivity|exact F3].
Qed.

Lemma lall_ok : forall fuel, lvalues_ok fuel /\ litems_ok fuel /\ lmembers_ok fuel.
Proof.
  induction fuel as [|fuel (Hv & Hi & Hm)].
  - repeat split; intros K s j r; intros; discriminate.
  - split; [apply lvalues_step; assumption|]. split; [apply litems_step; assumption|apply lmembers_step; assumption].
Qed.


(** *** checkValid *)
Lemma feeds_check : forall t s s', feeds s t s' -> check_steps s t = Some s'.
Proof.
  induction t as [|c t IH]; intros s s' F; [specialize (F O); injection F as ->; reflexivity|].
  cbn [check_steps]. specialize (F O) as F0. cbn [scan] in F0. destruct (s_step s c) as [s1 op] eqn:E.
  assert (F1 : feeds s1 t s').
  { intros n. assert (Hshift : forall l s m m' x, scan s l m = More x -> scan s l m' = More x).
    { clear. induction l as [|c l IH]; intros s m m' x; cbn [scan]; [auto|]. destruct (s_step s c) as [s2 op].
      destruct op; try discriminate; try apply IH; destruct (sc_stack s2); try discriminate; apply IH. }
    destruct op; try discriminate; try (eapply Hshift; exact F0); destruct (sc_stack s1); try discriminate; eapply Hshift; exact F0. }
  destruct op; try discriminate; apply IH; exact F1.
Qed.
Lemma check_app : forall a s b, check_steps s (a ++ b) = match check_steps s a with Some s' => check_steps s' b | None => None end.
Proof.
  induction a as [|c a IH]; intros s b; [reflexivity|]. cbn [app check_steps]. destruct (s_step s c) as [s' op]. destruct op; try apply IH. reflexivity.
Qed.
(** The rest of a text accepted from a state. *)
Definition good (s : scanner) (l : bytes) : Prop := exists s', check_steps s l = Some s' /\ s_eof s' <> OpError.
Lemma good_app s t s' l : feeds s t s' -> good s' l -> good s (t ++ l).
Proof. intros F (x & H1 & H2). exists x. split; [|exact H2]. rewrite check_app, (feeds_check _ _ _ F). exact H1. Qed.
Lemma check_valid_good l : check_valid l = true <-> good s_reset l.
Proof.
  unfold check_valid, good. split.
  - destruct (check_steps s_reset l) as [s|]; [|discriminate]. intros H. exists s. split; [reflexivity|]. intros E. rewrite E in H. discriminate.
  - intros (s & -> & H). destruct (s_eof s); try reflexivity. contradiction.
Qed.
Lemma skip_ws_nil : forall r, skip_ws r = [] -> forallb is_space r = true.
Proof. induction r as [|c r IH]; [reflexivity|]. cbn [skip_ws forallb]. rewrite is_ws_space. destruct (is_space c); [exact IH|discriminate]. Qed.
Lemma good_spaces : forall r, forallb is_space r = true -> good (mkScanner EndTop []) r.
Proof.
  induction r as [|c r IH]; intros H; [eexists; split; [reflexivity|discriminate]|]. cbn [forallb] in H. apply andb_true_iff in H as [Hc H].
  destruct (IH H) as (s & H1 & H2). exists s. split; [|exact H2]. cbn. unfold end_top. rewrite Hc. exact H1.
Qed.
Lemma good_end s r : value_end s -> skip_ws r = [] -> good (mkScanner s []) r.
Proof.
  intros Hs H. apply skip_ws_nil in H. destruct r as [|c r].
  - eexists. split; [reflexivity|]. destruct Hs as [->|[->|[->|[->| ->]]]]; discriminate.
  - cbn [forallb] in H. apply andb_true_iff in H as [Hc H]. destruct (good_spaces r H) as (x & H1 & H2). exists x. split; [|exact H2].
    cbn [check_steps]. rewrite value_end_step by (assumption || left; exact Hc). cbn. unfold end_top. rewrite Hc. exact H1.
Qed.

Lemma accepted_valid b j : accepted_text b j -> check_valid b = true.
Proof.
  intros (fuel & r & H & Hr & Hd). apply check_valid_good. destruct fuel as [|fuel]; [discriminate|].
  destruct (lall_ok fuel) as (_ & Hi & Hm). cbn [lvalue] in H. destruct (skip_ws_split b) as (ws & E & Hw & Hc).
  destruct (skip_ws b) as [|c q]; [discriminate|]. subst b.
  assert (Fw : feeds s_reset ws s_reset).
  { clear - Hw. induction ws as [|c ws IH]; [apply feeds_nil|]. cbn in Hw. apply andb_true_iff in Hw as [Hc Hw].
    eapply feeds_cons with (op := OpSkipSpace); [cbn; unfold begin_value; rewrite Hc; reflexivity|reflexivity|apply IH; exact Hw]. }
  eapply good_app; [exact Fw|]. unfold s_reset.
  assert (Hgoal : forall t s', c :: q = t ++ r -> value_end s' -> feeds (mkScanner BeginValue []) t (mkScanner s' []) -> good (mkScanner BeginValue []) (c :: q)).
  { intros t s' -> He F. eapply good_app; [exact F|]. apply good_end; assumption. }
  assert (Hlit : forall k, c :: q = k ++ r -> feeds (mkScanner BeginValue []) k (mkScanner EndValue []) -> good (mkScanner BeginValue []) (c :: q)).
  { intros k E F. eapply Hgoal; [exact E|left; reflexivity|exact F]. }
  assert (Hbr : forall t s' c' s'' op, c :: q = t ++ c' :: r -> feeds (mkScanner BeginValue []) t s' -> s_step s' c' = (s'', op) -> op <> OpError ->
    s'' = mkScanner EndTop [] -> good (mkScanner BeginValue []) (c :: q)).
  { intros t s' c' s'' op -> F E Ho ->. eapply good_app; [exact F|]. destruct (good_spaces r (skip_ws_nil r Hr)) as (x & H1 & H2).
    exists x. split; [|exact H2]. cbn [check_steps]. rewrite E. destruct op; try contradiction; exact H1. }
  destruct (Byte.byte_eq_dec c x7b) as [->|N1].
  { destruct (lobject_inside fuel [] q j r Hm Hd H) as (t & s' & Et & Hs & F).
    eapply (Hbr (x7b :: t)); [cbn; rewrite Et; reflexivity| |rewrite (close_object [] s' Hs); reflexivity|discriminate|reflexivity].
    eapply feeds_cons; [apply push_object; discriminate|reflexivity|exact F]. }
  destruct (Byte.byte_eq_dec c x5b) as [->|N2].
  { destruct (larray_inside fuel [] q j r Hi Hd H) as (t & s' & Et & Hs & F).
    eapply (Hbr (x5b :: t)); [cbn; rewrite Et; reflexivity| |rewrite (close_array [] s' Hs); reflexivity|discriminate|reflexivity].
    eapply feeds_cons; [apply push_array; discriminate|reflexivity|exact F]. }
  destruct (Byte.byte_eq_dec c x22) as [->|N3].
  { destruct (lcharacters fuel q) as [[cs r1]|] eqn:Ech; [|discriminate]. injection H as _ <-.
    destruct (lcharacters_split [] _ _ _ _ Ech) as (t & Et & F).
    eapply Hlit with (k := x22 :: t); [cbn; rewrite Et; reflexivity|].
    eapply feeds_cons with (op := OpBeginLiteral); [reflexivity|reflexivity|exact F]. }
  destruct (Byte.byte_eq_dec c x6e) as [->|N4].
  { apply keyword_split in H. apply Hlit with (k := lit "null"); [rewrite H; reflexivity|]. intros n. reflexivity. }
  destruct (Byte.byte_eq_dec c x74) as [->|N5].
  { apply keyword_split in H. apply Hlit with (k := lit "true"); [rewrite H; reflexivity|]. intros n. reflexivity. }
  destruct (Byte.byte_eq_dec c x66) as [->|N6].
  { apply keyword_split in H. apply Hlit with (k := lit "false"); [rewrite H; reflexivity|]. intros n. reflexivity. }
  assert (Hn : match number (c :: q) with Some (t, r) => Some (JNum t, r) | None => None end = Some (j, r)) by (destruct c; try exact H; contradiction).
  destruct (number (c :: q)) as [[t r1]|] eqn:En; [|discriminate]. injection Hn as _ <-.
  destruct (number_split [] _ _ _ En) as (Et & s' & He & F). eapply Hgoal; eassumption.
Qed.
