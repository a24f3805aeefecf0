(** The scanner on values of the grammar. *)
From Coq Require Import String List ZArith Lia Bool Arith.
From Coq Require Import Strings.Byte.
From Coq Require Import ZifyBool.
From Verif Require Import Base Codec Value GoStrings SpecJson Prog JsonReader SpecJsonFile JsonReaderFacts.
Import ListNotations.
Open Scope Z_scope.

Lemma feeds_close K s c op : K <> [] -> s_step s c = (mkScanner EndValue K, op) -> op = OpEndArray \/ op = OpEndObject -> feeds s [c] (mkScanner EndValue K).
Proof.
  intros HK E Ho n. cbn [scan]. rewrite E. destruct K as [|p K]; [contradiction|].
  destruct Ho as [->| ->]; reflexivity.
Qed.

Lemma feeds_unique s t s1 s2 : feeds s t s1 -> feeds s t s2 -> s1 = s2.
Proof. intros H1 H2. specialize (H1 O). rewrite (H2 O) in H1. injection H1 as ->. reflexivity. Qed.

Lemma feeds_after_spaces K s1 ws t s' : K <> [] -> skips s1 -> forallb is_space ws = true -> feeds (mkScanner s1 K) (ws ++ t) s' -> feeds (mkScanner s1 K) t s'.
Proof.
  intros HK Hs Hw H n. pose proof (feeds_spaces K HK s1 ws Hs Hw) as Fw.
  assert (Hn : forall m, scan (mkScanner s1 K) t (m + length ws) = More s').
  { intros m. specialize (H m). rewrite scan_app, Fw in H. exact H. }
  clear H. revert Hn. generalize (mkScanner s1 K). intros sc Hn.
  assert (Hshift : forall l s m m' x, scan s l m = More x -> scan s l m' = More x).
  { induction l as [|c l IH]; intros s m m' x; cbn [scan]; [auto|]. destruct (s_step s c) as [s2 op].
    destruct op; try discriminate; try apply IH; destruct (sc_stack s2); try discriminate; apply IH. }
  eapply Hshift, (Hn O).
Qed.

(** The first byte of a value. *)
Lemma first_byte K s1 t s2 : K <> [] -> skips s1 -> s2 <> mkScanner s1 K -> feeds (mkScanner s1 K) t s2 -> exists ws c t', t = ws ++ c :: t' /\ forallb is_space ws = true /\ is_space c = false.
Proof.
  intros HK Hs Hne H. destruct (skip_ws_split t) as (ws & E & Hw & Hc). destruct (skip_ws t) as [|c t'].
  - exfalso. rewrite app_nil_r in E. subst t. apply Hne. eapply feeds_unique; [exact H|]. apply feeds_spaces; assumption.
  - exists ws, c, t'. auto.
Qed.

Lemma skip_ws_spaces ws c t : forallb is_space ws = true -> is_space c = false -> skip_ws (ws ++ c :: t) = c :: t.
Proof.
  induction ws as [|w ws IH]; cbn [app skip_ws forallb]; intros Hw Hc.
  - rewrite is_ws_space, Hc. reflexivity.
  - apply andb_true_iff in Hw as [H1 H2]. rewrite is_ws_space, H1. apply IH; assumption.
Qed.

Lemma or_empty K s1 s1' t r s2 stop : K <> [] -> skips s1 -> skips s1' ->
  (forall c, is_space c = false -> c <> stop -> s_step (mkScanner s1' K) c = s_step (mkScanner s1 K) c) ->
  s2 <> mkScanner s1 K -> feeds (mkScanner s1 K) t s2 -> (forall r', skip_ws (t ++ r) <> stop :: r') -> feeds (mkScanner s1' K) t s2.
Proof.
  intros HK Hs Hs' Hstep Hne H Hst. destruct (first_byte _ _ _ _ HK Hs Hne H) as (ws & c & t' & -> & Hw & Hc).
  rewrite <- app_assoc in Hst. cbn [app] in Hst. rewrite skip_ws_spaces in Hst by assumption.
  assert (Hc' : c <> stop) by (intros ->; eapply Hst; reflexivity).
  eapply feeds_app; [apply feeds_spaces; assumption|].
  apply feeds_after_spaces in H; try assumption. intros n. specialize (H n). cbn [scan] in H |- *.
  rewrite Hstep by assumption. exact H.
Qed.

Lemma or_empty_array K t r s2 : sc_step s2 <> BeginValue -> feeds (mkScanner BeginValue (ArrayValue :: K)) t s2 ->
  (forall r', skip_ws (t ++ r) <> x5d :: r') -> feeds (mkScanner BeginValueOrEmpty (ArrayValue :: K)) t s2.
Proof.
  intros Hne H Hst. eapply or_empty with (stop := x5d) (s1 := BeginValue); try exact Hst; try exact H; try discriminate.
  - right. left. reflexivity.
  - left. reflexivity.
  - intros c Hc Hc'. cbn. rewrite Hc. destruct c; try reflexivity. contradiction.
  - intros ->. apply Hne. reflexivity.
Qed.
Lemma or_empty_object K t r s2 : sc_step s2 <> BeginString -> feeds (mkScanner BeginString (ObjectKey :: K)) t s2 ->
  (forall r', skip_ws (t ++ r) <> x7d :: r') -> feeds (mkScanner BeginStringOrEmpty (ObjectKey :: K)) t s2.
Proof.
  intros Hne H Hst. eapply or_empty with (stop := x7d) (s1 := BeginString); try exact Hst; try exact H; try discriminate.
  - right. right. right. left. reflexivity.
  - right. right. left. reflexivity.
  - intros c Hc Hc'. cbn. unfold begin_string. rewrite Hc. destruct c; try reflexivity. contradiction.
  - intros ->. apply Hne. reflexivity.
Qed.

Definition max_depth (l : list json) : Z := fold_right Z.max 0 (map jdepth l).
Definition max_depth_m (m : list (list Z * json)) : Z := fold_right Z.max 0 (map (fun kj : list Z * json => jdepth (snd kj)) m).
Lemma max_depth_pos l : 0 <= max_depth l.
Proof. unfold max_depth. induction l; cbn; lia. Qed.
Lemma max_depth_m_pos l : 0 <= max_depth_m l.
Proof. unfold max_depth_m. induction l; cbn; lia. Qed.

Definition values_ok (fuel : nat) : Prop := forall K s j r, K <> [] -> jvalue fuel s = Some (j, r) -> zlen K + jdepth j <= 10000 ->
  exists t s', s = t ++ r /\ value_end s' /\ feeds (mkScanner BeginValue K) t (mkScanner s' K).
Definition items_ok (fuel : nat) : Prop := forall K s l r, jitems fuel s = Some (l, r) -> zlen K + 1 + max_depth l <= 10000 ->
  exists t s', s = t ++ x5d :: r /\ value_end s' /\ feeds (mkScanner BeginValue (ArrayValue :: K)) t (mkScanner s' (ArrayValue :: K)).
Definition members_ok (fuel : nat) : Prop := forall K s m r, jmembers fuel s = Some (m, r) -> zlen K + 1 + max_depth_m m <= 10000 ->
  exists t s', s = t ++ x7d :: r /\ value_end s' /\ feeds (mkScanner BeginString (ObjectKey :: K)) t (mkScanner s' (ObjectValue :: K)).

Lemma value_end_not s : value_end s -> s <> BeginValue /\ s <> BeginString.
Proof. intros [->|[->|[->|[->| ->]]]]; split; discriminate. Qed.

Lemma zlen_cons' {A} (a : A) l : zlen (a :: l) = 1 + zlen l.
Proof. unfold zlen. cbn [length]. lia. Qed.

(** An array or an object from its opening bracket on. *)
Lemma array_inside fuel K r j r' : items_ok fuel -> zlen K + jdepth j <= 10000 ->
  match skip_ws r with x5d :: r' => Some (JArr [], r') | _ => match jitems fuel r with Some (l, r') => Some (JArr l, r') | None => None end end = Some (j, r') ->
  exists t s', r = t ++ x5d :: r' /\ (value_end s' \/ s' = BeginValueOrEmpty) /\ feeds (mkScanner BeginValueOrEmpty (ArrayValue :: K)) t (mkScanner s' (ArrayValue :: K)).
Proof.
  intros Hi Hd H. destruct (skip_ws_split r) as (ws & E & Hw & Hc).
  assert (Hcase : (exists q, skip_ws r = x5d :: q /\ r' = q) \/ (forall q, skip_ws r <> x5d :: q) /\ match jitems fuel r with Some (l, r') => Some (JArr l, r') | None => None end = Some (j, r')).
  { destruct (skip_ws r) as [|c q]; [right; split; [discriminate|exact H]|].
    destruct (Byte.byte_eq_dec c x5d) as [->|Hn]; [left; exists q; injection H as _ <-; auto|].
    right. split; [intros q' Eq; injection Eq as -> _; contradiction|]. destruct c; try exact H; contradiction. }
  destruct Hcase as [(q & Eq & ->)|(Hq & H')].
  - exists ws, BeginValueOrEmpty. rewrite Eq in E. split; [exact E|]. split; [right; reflexivity|].
    apply feeds_spaces; [discriminate|left; reflexivity|exact Hw].
  - destruct (jitems fuel r) as [[l r1]|] eqn:Ei; [|discriminate]. injection H' as <- <-.
    destruct (Hi K r l r1 Ei) as (t & s' & Et & He & F).
    { change (jdepth (JArr l)) with (1 + max_depth l) in Hd. lia. }
    exists t, s'. split; [exact Et|]. split; [left; exact He|].
    eapply or_empty_array with (r := x5d :: r1); [apply value_end_not; exact He|exact F|]. intros q'. rewrite <- Et. apply Hq.
Qed.

Lemma object_inside fuel K r j r' : members_ok fuel -> zlen K + jdepth j <= 10000 ->
  match skip_ws r with x7d :: r' => Some (JObj [], r') | _ => match jmembers fuel r with Some (m, r') => Some (JObj m, r') | None => None end end = Some (j, r') ->
  exists t s', r = t ++ x7d :: r' /\ ((exists e, value_end e /\ s' = mkScanner e (ObjectValue :: K)) \/ s' = mkScanner BeginStringOrEmpty (ObjectKey :: K))
    /\ feeds (mkScanner BeginStringOrEmpty (ObjectKey :: K)) t s'.
Proof.
  intros Hi Hd H. destruct (skip_ws_split r) as (ws & E & Hw & Hc).
  assert (Hcase : (exists q, skip_ws r = x7d :: q /\ r' = q) \/ (forall q, skip_ws r <> x7d :: q) /\ match jmembers fuel r with Some (m, r') => Some (JObj m, r') | None => None end = Some (j, r')).
  { destruct (skip_ws r) as [|c q]; [right; split; [discriminate|exact H]|].
    destruct (Byte.byte_eq_dec c x7d) as [->|Hn]; [left; exists q; injection H as _ <-; auto|].
    right. split; [intros q' Eq; injection Eq as -> _; contradiction|]. destruct c; try exact H; contradiction. }
  destruct Hcase as [(q & Eq & ->)|(Hq & H')].
  - exists ws, (mkScanner BeginStringOrEmpty (ObjectKey :: K)). rewrite Eq in E. split; [exact E|]. split; [right; reflexivity|].
    apply feeds_spaces; [discriminate|right; right; left; reflexivity|exact Hw].
  - destruct (jmembers fuel r) as [[l r1]|] eqn:Ei; [|discriminate]. injection H' as <- <-.
    destruct (Hi K r l r1 Ei) as (t & s' & Et & He & F).
    { change (jdepth (JObj l)) with (1 + max_depth_m l) in Hd. lia. }
    exists t, (mkScanner s' (ObjectValue :: K)). split; [exact Et|]. split; [left; exists s'; auto|].
    eapply or_empty_object with (r := x7d :: r1); [apply value_end_not; exact He|exact F|]. intros q'. rewrite <- Et. apply Hq.
Qed.

Lemma close_array K s : (value_end s \/ s = BeginValueOrEmpty) ->
  s_step (mkScanner s (ArrayValue :: K)) x5d = (match K with [] => mkScanner EndTop [] | _ => mkScanner EndValue K end, OpEndArray).
Proof.
  intros [Hs| ->]; [rewrite value_end_step by (try exact Hs; try discriminate; unfold follows; tauto)|]; destruct K; reflexivity.
Qed.
Lemma close_object K s : ((exists e, value_end e /\ s = mkScanner e (ObjectValue :: K)) \/ s = mkScanner BeginStringOrEmpty (ObjectKey :: K)) ->
  s_step s x7d = (match K with [] => mkScanner EndTop [] | _ => mkScanner EndValue K end, OpEndObject).
Proof.
  intros [(e & He & ->)| ->]; [rewrite value_end_step by (try exact He; try discriminate; unfold follows; tauto)|]; destruct K; reflexivity.
Qed.

Lemma push_array K : zlen K + 1 <= 10000 -> s_step (mkScanner BeginValue K) x5b = (mkScanner BeginValueOrEmpty (ArrayValue :: K), OpBeginArray).
Proof. intros H. cbn. unfold push. rewrite zlen_cons'. destruct (1 + zlen K <=? max_nesting) eqn:E; [reflexivity|]. unfold max_nesting in E. lia. Qed.
Lemma push_object K : zlen K + 1 <= 10000 -> s_step (mkScanner BeginValue K) x7b = (mkScanner BeginStringOrEmpty (ObjectKey :: K), OpBeginObject).
Proof. intros H. cbn. unfold push. rewrite zlen_cons'. destruct (1 + zlen K <=? max_nesting) eqn:E; [reflexivity|]. unfold max_nesting in E. lia. Qed.

Lemma jdepth_pos j : 0 <= jdepth j.
Proof. destruct j; cbn [jdepth]; try lia; [pose proof (max_depth_pos l)|pose proof (max_depth_m_pos m)]; unfold max_depth, max_depth_m in *; lia. Qed.

Lemma bracket_depth j : match j with JArr _ | JObj _ => 1 <= jdepth j | _ => True end.
Proof. destruct j; try exact I; cbn [jdepth]; [pose proof (max_depth_pos l)|pose proof (max_depth_m_pos m)]; unfold max_depth, max_depth_m in *; lia. Qed.

Definition bracketed (o : option (json * bytes)) : Prop := match o with Some (JArr _, _) | Some (JObj _, _) | None => True | _ => False end.

Lemma values_step fuel : items_ok fuel -> members_ok fuel -> values_ok (S fuel).
Proof.
  intros Hi Hm K s j r HK H Hd. cbn [jvalue] in H. destruct (skip_ws_split s) as (ws & E & Hw & Hc).
  destruct (skip_ws s) as [|c q]; [discriminate|]. subst s.
  pose proof (feeds_spaces K HK BeginValue ws (or_intror (or_introl eq_refl)) Hw) as Fw.
  assert (Hgoal : forall t s', c :: q = t ++ r -> value_end s' -> feeds (mkScanner BeginValue K) t (mkScanner s' K) ->
    exists t0 s'0, ws ++ c :: q = t0 ++ r /\ value_end s'0 /\ feeds (mkScanner BeginValue K) t0 (mkScanner s'0 K)).
  { intros t s' E1 E2 F. exists (ws ++ t), s'. split; [rewrite E1, app_assoc; reflexivity|]. split; [exact E2|]. eapply feeds_app; eassumption. }
  assert (Hlit : forall k, c :: q = k ++ r -> feeds (mkScanner BeginValue K) k (mkScanner EndValue K) -> exists t0 s'0, ws ++ c :: q = t0 ++ r /\ value_end s'0 /\ feeds (mkScanner BeginValue K) t0 (mkScanner s'0 K)).
  { intros k E1 F. eapply Hgoal; [exact E1|left; reflexivity|exact F]. }
  assert (Hnum : match number (c :: q) with Some (t, r) => Some (JNum t, r) | None => None end = Some (j, r) ->
     exists t0 s'0, ws ++ c :: q = t0 ++ r /\ value_end s'0 /\ feeds (mkScanner BeginValue K) t0 (mkScanner s'0 K)).
  { intros Hn. destruct (number (c :: q)) as [[t r1]|] eqn:En; [|discriminate]. injection Hn as _ <-.
    destruct (number_split K _ _ _ En) as (Et & s' & He & F). eapply Hgoal; eassumption. }
  destruct (Byte.byte_eq_dec c x7b) as [->|N1].
  { assert (Hdj : 1 <= jdepth j).
    { pose proof (bracket_depth j) as B. destruct (skip_ws q) as [|cc ?]; [|destruct cc]; try (injection H as <- _; exact B);
        (destruct (jmembers fuel q) as [[m r1]|]; [injection H as <- _; exact B|discriminate]). }
    destruct (object_inside fuel K q j r Hm Hd H) as (t & s' & Et & Hs & F).
    eapply Hgoal with (t := x7b :: t ++ [x7d]) (s' := EndValue); [cbn; rewrite Et, <- app_assoc; reflexivity|left; reflexivity|].
    eapply feeds_cons; [apply push_object; lia|reflexivity|]. eapply feeds_app; [exact F|].
    eapply feeds_close; [exact HK| |right; reflexivity]. rewrite (close_object K s' Hs). destruct K; [contradiction|reflexivity]. }
  destruct (Byte.byte_eq_dec c x5b) as [->|N2].
  { assert (Hdj : 1 <= jdepth j).
    { pose proof (bracket_depth j) as B. destruct (skip_ws q) as [|cc ?]; [|destruct cc]; try (injection H as <- _; exact B);
        (destruct (jitems fuel q) as [[m r1]|]; [injection H as <- _; exact B|discriminate]). }
    destruct (array_inside fuel K q j r Hi Hd H) as (t & s' & Et & Hs & F).
    eapply Hgoal with (t := x5b :: t ++ [x5d]) (s' := EndValue); [cbn; rewrite Et, <- app_assoc; reflexivity|left; reflexivity|].
    eapply feeds_cons; [apply push_array; lia|reflexivity|]. eapply feeds_app; [exact F|].
    eapply feeds_close; [exact HK| |left; reflexivity]. rewrite (close_array K s' Hs). destruct K; [contradiction|reflexivity]. }
  destruct (Byte.byte_eq_dec c x22) as [->|N3].
  { destruct (characters fuel q) as [[cs r1]|] eqn:Ech; [|discriminate]. injection H as _ <-.
    destruct (characters_split K _ _ _ _ Ech) as (t & Et & F).
    eapply Hgoal with (t := x22 :: t) (s' := EndValue); [cbn; rewrite Et; reflexivity|left; reflexivity|].
    eapply feeds_cons with (op := OpBeginLiteral); [reflexivity|reflexivity|exact F]. }
  destruct (Byte.byte_eq_dec c x6e) as [->|N4].
  { apply keyword_split in H. apply Hlit with (k := lit "null"); [rewrite H; reflexivity|]. intros n. reflexivity. }
  destruct (Byte.byte_eq_dec c x74) as [->|N5].
  { apply keyword_split in H. apply Hlit with (k := lit "true"); [rewrite H; reflexivity|]. intros n. reflexivity. }
  destruct (Byte.byte_eq_dec c x66) as [->|N6].
  { apply keyword_split in H. apply Hlit with (k := lit "false"); [rewrite H; reflexivity|]. intros n. reflexivity. }
  apply Hnum. destruct c; try exact H; contradiction.
Qed.

Lemma items_step fuel : values_ok fuel -> items_ok fuel -> items_ok (S fuel).
Proof.
  intros Hv Hi K s l r H Hd. cbn [jitems] in H. destruct (jvalue fuel s) as [[j r1]|] eqn:Ej; [|discriminate].
  destruct (skip_ws_split r1) as (ws & E & Hw & Hc).
  assert (Hjd : forall l', l = j :: l' -> zlen (ArrayValue :: K) + jdepth j <= 10000 /\ zlen K + 1 + max_depth l' <= 10000).
  { intros l' ->. rewrite zlen_cons'. unfold max_depth in *. cbn [map fold_right] in Hd. lia. }
  assert (Hcase : (exists q, skip_ws r1 = x5d :: q /\ l = [j] /\ r = q) \/
     (exists q l', skip_ws r1 = x2c :: q /\ jitems fuel q = Some (l', r) /\ l = j :: l')).
  { destruct (skip_ws r1) as [|c q]; [discriminate|]. destruct c; try discriminate.
    - destruct (jitems fuel q) as [[l' r']|] eqn:Ei; [|discriminate]. injection H as <- <-. right. exists q, l'. auto.
    - injection H as <- <-. left. exists q. auto. }
  destruct Hcase as [(q & Eq & -> & ->)|(q & l' & Eq & Ei & ->)]; destruct (Hjd _ eq_refl) as (Hd1 & Hd2);
    destruct (Hv (ArrayValue :: K) s j r1 ltac:(discriminate) Ej Hd1) as (t & s' & Et & He & F); rewrite Eq in E;
    destruct (feeds_end_spaces (ArrayValue :: K) ltac:(discriminate) s' ws He Hw) as (s2 & He2 & F2).
  - exists (t ++ ws), s2. split; [rewrite Et, E at 1; rewrite <- app_assoc; reflexivity|]. split; [exact He2|]. eapply feeds_app; eassumption.
  - destruct (Hi K q l' r Ei Hd2) as (t3 & s3 & Et3 & He3 & F3).
    exists ((t ++ ws) ++ x2c :: t3), s3. split; [rewrite Et, E at 1; rewrite Et3, <- !app_assoc; reflexivity|]. split; [exact He3|].
    eapply feeds_app; [eapply feeds_app; eassumption|].
    eapply feeds_cons with (op := OpArrayValue); [rewrite value_end_step by (try exact He2; try discriminate; unfold follows; tauto); reflexivity|reflexivity|exact F3].
Qed.

Lemma members_step fuel : values_ok fuel -> members_ok fuel -> members_ok (S fuel).
Proof.
  intros Hv Hm K s m r H Hd. cbn [jmembers] in H.
  destruct (skip_ws_split s) as (ws0 & E0 & Hw0 & Hc0).
  destruct (skip_ws s) as [|c q0]; [discriminate|]. destruct (Byte.byte_eq_dec c x22) as [->|Hn]; [|destruct c; try discriminate; contradiction].
  destruct (characters fuel q0) as [[k r1]|] eqn:Ech; [|discriminate].
  destruct (characters_split (ObjectKey :: K) _ _ _ _ Ech) as (tk & Etk & Fk).
  destruct (skip_ws_split r1) as (ws1 & E1 & Hw1 & Hc1).
  destruct (skip_ws r1) as [|c q1]; [discriminate|]. destruct (Byte.byte_eq_dec c x3a) as [->|Hn]; [|destruct c; try discriminate; contradiction].
  destruct (jvalue fuel q1) as [[j r3]|] eqn:Ej; [|discriminate].
  assert (Fkey : feeds (mkScanner BeginString (ObjectKey :: K)) (ws0 ++ x22 :: tk ++ ws1 ++ [x3a]) (mkScanner BeginValue (ObjectValue :: K))).
  { eapply feeds_app; [apply feeds_spaces; [discriminate|right; right; right; left; reflexivity|exact Hw0]|].
    eapply feeds_cons with (op := OpBeginLiteral); [reflexivity|reflexivity|].
    eapply feeds_app; [exact Fk|]. eapply feeds_app; [apply feeds_spaces; [discriminate|right; right; right; right; reflexivity|exact Hw1]|].
    eapply feeds_one with (op := OpObjectKey); reflexivity. }
  destruct (skip_ws_split r3) as (ws & E & Hw & Hc).
  assert (Hjd : forall m', m = (k, j) :: m' -> zlen (ObjectValue :: K) + jdepth j <= 10000 /\ zlen K + 1 + max_depth_m m' <= 10000).
  { intros m' ->. rewrite zlen_cons'. unfold max_depth_m in *. cbn [map fold_right snd] in Hd. lia. }
  assert (Hcase : (exists q, skip_ws r3 = x7d :: q /\ m = [(k, j)] /\ r = q) \/
     (exists q m', skip_ws r3 = x2c :: q /\ jmembers fuel q = Some (m', r) /\ m = (k, j) :: m')).
  { destruct (skip_ws r3) as [|c q]; [discriminate|]. destruct c; try discriminate.
    - destruct (jmembers fuel q) as [[l' r']|] eqn:Ei; [|discriminate]. injection H as <- <-. right. exists q, l'. auto.
    - injection H as <- <-. left. exists q. auto. }
  destruct Hcase as [(q & Eq & -> & ->)|(q & m' & Eq & Ei & ->)]; destruct (Hjd _ eq_refl) as (Hd1 & Hd2);
    destruct (Hv (ObjectValue :: K) q1 j r3 ltac:(discriminate) Ej Hd1) as (t & s' & Et & He & F); rewrite Eq in E;
    destruct (feeds_end_spaces (ObjectValue :: K) ltac:(discriminate) s' ws He Hw) as (s2 & He2 & F2);
    assert (Eall : s = (ws0 ++ x22 :: tk ++ ws1 ++ [x3a]) ++ t ++ ws ++ skip_ws r3)
      by (rewrite Eq, <- E, <- Et, E0, Etk at 1; rewrite E1 at 1; rewrite <- !app_assoc; cbn [app]; rewrite <- !app_assoc; reflexivity);
    rewrite Eq in Eall.
  - exists ((ws0 ++ x22 :: tk ++ ws1 ++ [x3a]) ++ t ++ ws), s2. split; [rewrite Eall at 1; rewrite <- !app_assoc; reflexivity|].
    split; [exact He2|]. eapply feeds_app; [exact Fkey|]. eapply feeds_app; eassumption.
  - destruct (Hm K q m' r Ei Hd2) as (t3 & s3 & Et3 & He3 & F3).
    exists ((ws0 ++ x22 :: tk ++ ws1 ++ [x3a]) ++ t ++ ws ++ x2c :: t3), s3. split; [rewrite Eall at 1; rewrite Et3, <- !app_assoc; reflexivity|].
    split; [exact He3|]. eapply feeds_app; [exact Fkey|]. eapply feeds_app; [exact F|]. eapply feeds_app; [exact F2|].
    eapply feeds_cons with (op := OpObjectValue); [rewrite value_end_step by (try exact He2; try discriminate; unfold follows; tauto); reflexivity|reflexivity|exact F3].
Qed.

Lemma all_ok : forall fuel, values_ok fuel /\ items_ok fuel /\ members_ok fuel.
Proof.
  induction fuel as [|fuel (Hv & Hi & Hm)].
  - repeat split; intros K s j r; intros; discriminate.
  - split; [apply values_step; assumption|]. split; [apply items_step; assumption|apply members_step; assumption].
Qed.

(** A document is delimited exactly, whatever follows. *)
Lemma document_scan t : document t -> scan s_reset t 0 = ValueOf (length t).
Proof.
  intros (fuel & m & r & -> & H & Hd). destruct fuel as [|fuel]; [discriminate|].
  destruct (all_ok fuel) as (_ & _ & Hm).
  destruct (object_inside fuel [] r (JObj m) [] Hm Hd H) as (t & s' & -> & Hs & F).
  cbn [scan]. unfold s_reset. rewrite push_object by discriminate. rewrite scan_app, F. cbn [scan].
  rewrite (close_object [] s' Hs). cbn [sc_stack length]. f_equal. rewrite (app_length t [x7d]). cbn [length]. lia.
Qed.

Lemma scan_stops t u n : scan s_reset t 0 = ValueOf n -> scan s_reset (t ++ u) 0 = ValueOf n.
Proof. intros H. rewrite scan_app, H. reflexivity. Qed.

Lemma document_read t u : document t -> read_value (t ++ u) = Ok t.
Proof.
  intros H. unfold read_value. rewrite (scan_stops t u (length t)) by (apply document_scan; exact H).
  rewrite firstn_app, firstn_all, Nat.sub_diag, app_nil_r. reflexivity.
Qed.
