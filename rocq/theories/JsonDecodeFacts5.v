(** The decoder: values. *)
From Coq Require Import String List ZArith Lia Bool Arith.
From Coq Require Import Strings.Byte Floats.SpecFloat.
From Coq Require Import ZifyBool.
From Verif Require Import Base Codec Value GoStrings SpecText SpecJson Prog JsonReader SpecJsonFile JsonFacts JsonReaderFacts JsonReaderFacts2 FloatText FloatTextFacts2 SpecJsonDecode JsonDecode JsonDecodeFacts JsonDecodeFacts2 JsonDecodeFacts3 JsonDecodeFacts4.
Import ListNotations.
Open Scope Z_scope.

(** The value of the data, and whether a number in it is out of range. *)
Fixpoint go_value (j : json) : value :=
  match j with
  | JNull => VNil
  | JBool b => VBool b
  | JNum t => match go_parse_float t with Ok f => VFloat f | _ => VNil end
  | JStr cs => VString (text cs)
  | JArr l => VList (map go_value l)
  | JObj m => VMap (fold_left (fun acc kj => mset acc (text (fst kj)) (go_value (snd kj))) m [])
  end.
Definition put (acc : list (bytes * value)) (kj : list Z * json) : list (bytes * value) := mset acc (text (fst kj)) (go_value (snd kj)).
Fixpoint bad (j : json) : bool :=
  match j with
  | JNum t => match go_parse_float t with Ok _ => false | _ => true end
  | JArr l => existsb bad l
  | JObj m => existsb (fun kj : list Z * json => bad (snd kj)) m
  | _ => false
  end.
Definition add_error (b : bool) (saved : option err) : option err := match saved with Some e => Some e | None => if b then Some type_error else None end.
Lemma add_error_or a b saved : add_error b (add_error a saved) = add_error (a || b) saved.
Proof. destruct saved, a; reflexivity. Qed.
Lemma add_error_false saved : add_error false saved = saved.
Proof. destruct saved; reflexivity. Qed.

Lemma s3 : skips BeginStringOrEmpty.
Proof. right; right; left; reflexivity. Qed.
Lemma s4 : skips BeginString.
Proof. right; right; right; left; reflexivity. Qed.
Lemma s5 : skips EndValue.
Proof. right; right; right; right; reflexivity. Qed.
Lemma step_not_space s K c : skips s -> is_space c = false -> snd (s_step (mkScanner s K) c) <> OpSkipSpace.
Proof.
  intros Hs Hc. assert (Hp : forall K op, op <> OpSkipSpace -> snd (pop K op) <> OpSkipSpace) by (intros [|p [|p' K']] op; auto).
  assert (He : forall K, snd (end_value c K) <> OpSkipSpace).
  { intros [|p K']; [discriminate|]. unfold end_value. rewrite Hc. destruct p, c; try discriminate; apply Hp; discriminate. }
  assert (Hq : forall a b K op, op <> OpSkipSpace -> snd (push a b K op) <> OpSkipSpace).
  { intros a b K' op Hop. unfold push. destruct (_ <=? _); [exact Hop|discriminate]. }
  assert (Hb : snd (begin_value c K) <> OpSkipSpace).
  { unfold begin_value. rewrite Hc. destruct c; try discriminate; try (apply Hq; discriminate). }
  assert (Hst : forall s, snd (begin_string s c K) <> OpSkipSpace).
  { intros s'. unfold begin_string. rewrite Hc. destruct c; discriminate. }
  destruct Hs as [->|[->|[->|[->| ->]]]]; cbn [s_step sc_step sc_stack]; rewrite ?Hc; auto.
  - destruct c; auto.
  - destruct c; auto.
Qed.

Lemma scan_spaces_first : forall l last s K saved c q, skips s -> K <> [] \/ s = BeginValue -> skip_ws l = c :: q ->
  scan_spaces last (mkScanner s K) l saved = mkD c q (fst (s_step (mkScanner s K) c)) (snd (s_step (mkScanner s K) c)) saved.
Proof.
  induction l as [|b l IH]; intros last s K saved c q Hs HK E; [discriminate|]. cbn [skip_ws] in E. rewrite is_ws_space in E. cbn [scan_spaces]. destruct (is_space b) eqn:Eb.
  - assert (Est : s_step (mkScanner s K) b = (mkScanner s K, OpSkipSpace)).
    { destruct HK as [HK| ->]; [apply skips_step; assumption|]. cbn. unfold begin_value. rewrite Eb. reflexivity. }
    rewrite Est. apply IH; assumption.
  - injection E as <- <-. pose proof (step_not_space s K b Hs Eb) as Hn. destruct (s_step (mkScanner s K) b) as [s' op]. cbn [fst snd] in *. destruct op; try reflexivity. contradiction.
Qed.

Lemma cons_not_nil {A} (x : A) l : x :: l <> [].
Proof. discriminate. Qed.

(** The state after a value. *)
Definition after (r : bytes) (K : list pstate) (saved : option err) (d : dstate) : Prop :=
  d_saved d = saved /\ match r with [] => True | c :: r' => d = mkD c r' (fst (end_value c K)) (snd (end_value c K)) saved end.
Lemma after_skip r K saved d c q : after r K saved d -> K <> [] -> skip_ws r = c :: q ->
  skip_spaces d = mkD c q (fst (end_value c K)) (snd (end_value c K)) saved.
Proof.
  intros [Hs Ha] HK E. destruct r as [|b r]; [discriminate|]. subst d. unfold skip_spaces. cbn [d_op]. cbn [skip_ws] in E. rewrite is_ws_space in E. destruct (is_space b) eqn:Eb.
  - assert (Est : end_value b K = (mkScanner EndValue K, OpSkipSpace)) by (destruct K; [contradiction|]; cbn; rewrite Eb; reflexivity).
    rewrite Est. cbn [snd fst]. unfold scan_while. cbn [d_last d_scan d_rest d_saved].
    rewrite (scan_spaces_first r b EndValue K saved c q); [reflexivity|right; right; right; right; reflexivity|left; exact HK|exact E].
  - injection E as <- <-. pose proof (step_not_space EndValue K b s5 Eb) as Hn. cbn [s_step sc_step sc_stack] in Hn.
    destruct (snd (end_value b K)) eqn:Eo; try reflexivity. contradiction.
Qed.

Lemma follows_ends r c q : skip_ws r = c :: q -> follows c -> ends r.
Proof.
  destruct r as [|b r]; [discriminate|]. cbn [skip_ws ends]. rewrite is_ws_space. destruct (is_space b) eqn:Eb; [intros _ _; left; exact Eb|]. intros E. injection E as -> _. auto.
Qed.

(** A literal and what follows it. *)
Lemma rescan_after last rest s op saved t r : literal_end last rest = Some (t, r) ->
  exists d, rescan_literal (mkD last rest s op saved) = Ok (last :: t, d) /\ after r (sc_stack s) saved d.
Proof.
  intros H. unfold rescan_literal. cbn [d_last d_rest d_scan d_saved]. rewrite H. eexists. split; [reflexivity|].
  destruct r as [|c r]; [split; [reflexivity|exact I]|]. destruct (end_value c (sc_stack s)) eqn:E. split; [reflexivity|]. rewrite E. reflexivity.
Qed.

Lemma popped_step K c : s_step (match K with [] => mkScanner EndTop [] | _ => mkScanner EndValue K end) c = end_value c K.
Proof. destruct K; reflexivity. Qed.
Lemma scan_next_after r K saved last op : after r K saved (scan_next (mkD last r (match K with [] => mkScanner EndTop [] | _ => mkScanner EndValue K end) op saved)).
Proof.
  unfold scan_next. cbn [d_rest d_scan d_saved d_last]. destruct r as [|c r]; [split; [reflexivity|exact I]|].
  rewrite popped_step. destruct (end_value c K) eqn:E. split; [reflexivity|]. rewrite E. reflexivity.
Qed.

Definition value_read (fuel : nat) : Prop := forall K s j r last op saved, lvalue fuel s = Some (j, r) -> ends r -> zlen K + jdepth j <= 10000 ->
  exists d, value_interface (S fuel) (scan_while (mkD last s (mkScanner BeginValue K) op saved)) = Ok (go_value j, d) /\ after r K (add_error (bad j) saved) d.
Definition items_read (fuel : nat) : Prop := forall K s l r last op saved, litems fuel s = Some (l, r) -> zlen K + 1 + max_depth l <= 10000 ->
  array_interface (S fuel) (mkD last s (mkScanner BeginValue (ArrayValue :: K)) op saved) =
    Ok (map go_value l, mkD x5d r (match K with [] => mkScanner EndTop [] | _ => mkScanner EndValue K end) OpEndArray (add_error (existsb bad l) saved)).
Definition members_read (fuel : nat) : Prop := forall K s m r last op saved acc, lmembers fuel s = Some (m, r) -> zlen K + 1 + max_depth_m m <= 10000 ->
  object_interface (S fuel) (mkD last s (mkScanner BeginString (ObjectKey :: K)) op saved) acc =
    Ok (fold_left put m acc, mkD x7d r (match K with [] => mkScanner EndTop [] | _ => mkScanner EndValue K end) OpEndObject (add_error (existsb (fun kj : list Z * json => bad (snd kj)) m) saved)).

(** The first step of the loops. *)
Lemma array_first fuel d d' : scan_while d = scan_while d' -> array_interface (S fuel) d = array_interface (S fuel) d'.
Proof. intros E. cbn [array_interface]. rewrite E. reflexivity. Qed.
Lemma object_first fuel d d' acc : scan_while d = scan_while d' -> object_interface (S fuel) d acc = object_interface (S fuel) d' acc.
Proof. intros E. cbn [object_interface]. rewrite E. reflexivity. Qed.

Lemma array_read fuel K q j r last op saved : items_read fuel -> zlen K + jdepth j <= 10000 ->
  (match skip_ws q with x5d :: r' => Some (JArr [], r') | _ => match litems fuel q with Some (l, r') => Some (JArr l, r') | None => None end end) = Some (j, r) ->
  exists l, j = JArr l /\ array_interface (S fuel) (mkD last q (mkScanner BeginValueOrEmpty (ArrayValue :: K)) op saved) =
    Ok (map go_value l, mkD x5d r (match K with [] => mkScanner EndTop [] | _ => mkScanner EndValue K end) OpEndArray (add_error (bad j) saved)).
Proof.
  intros Hi Hd H. pose proof (skip_ws_head q) as Hh. destruct (skip_ws q) as [|c q'] eqn:Eq.
  { destruct (litems fuel q) as [[l r']|] eqn:El; [|discriminate]. exfalso. destruct fuel as [|fuel]; [discriminate|]. cbn [litems] in El. destruct fuel; [discriminate|]. cbn [lvalue] in El. rewrite Eq in El. discriminate. }
  pose proof (scan_spaces_first q last BeginValueOrEmpty (ArrayValue :: K) saved c q' (or_introl eq_refl) (or_introl (cons_not_nil _ _)) Eq) as Es.
  destruct (Byte.byte_eq_dec c x5d) as [->|Hc].
  - injection H as <- <-. exists []. split; [reflexivity|]. cbn [array_interface]. unfold scan_while. cbn [d_last d_scan d_rest d_saved]. rewrite Es.
    rewrite (close_array K BeginValueOrEmpty) by (right; reflexivity). cbn [fst snd d_op]. cbn [bad existsb map]. rewrite add_error_false. reflexivity.
  - assert (H' : match litems fuel q with Some (l, r') => Some (JArr l, r') | None => None end = Some (j, r)) by (destruct c; try exact H; contradiction).
    destruct (litems fuel q) as [[l r']|] eqn:El; [|discriminate]. injection H' as <- <-. exists l. split; [reflexivity|].
    change (jdepth (JArr l)) with (1 + max_depth l) in Hd. change (bad (JArr l)) with (existsb bad l).
    rewrite <- (Hi K q l r' last op saved El) by lia. apply array_first. unfold scan_while. cbn [d_last d_scan d_rest d_saved]. rewrite Es.
    rewrite (scan_spaces_first q last BeginValue (ArrayValue :: K) saved c q' (or_intror (or_introl eq_refl)) (or_introl (cons_not_nil _ _)) Eq).
    assert (Est : s_step (mkScanner BeginValueOrEmpty (ArrayValue :: K)) c = s_step (mkScanner BeginValue (ArrayValue :: K)) c) by (cbn; rewrite Hh; destruct c; try reflexivity; contradiction).
    rewrite Est. reflexivity.
Qed.
Lemma object_read fuel K q j r last op saved : members_read fuel -> zlen K + jdepth j <= 10000 ->
  (match skip_ws q with x7d :: r' => Some (JObj [], r') | _ => match lmembers fuel q with Some (l, r') => Some (JObj l, r') | None => None end end) = Some (j, r) ->
  exists m, j = JObj m /\ object_interface (S fuel) (mkD last q (mkScanner BeginStringOrEmpty (ObjectKey :: K)) op saved) [] =
    Ok (fold_left put m [], mkD x7d r (match K with [] => mkScanner EndTop [] | _ => mkScanner EndValue K end) OpEndObject (add_error (bad j) saved)).
Proof.
  intros Hi Hd H. pose proof (skip_ws_head q) as Hh. destruct (skip_ws q) as [|c q'] eqn:Eq.
  { destruct (lmembers fuel q) as [[l r']|] eqn:El; [|discriminate]. exfalso. destruct fuel as [|fuel]; [discriminate|]. cbn [lmembers] in El. rewrite Eq in El. discriminate. }
  pose proof (scan_spaces_first q last BeginStringOrEmpty (ObjectKey :: K) saved c q' s3 (or_introl (cons_not_nil _ _)) Eq) as Es.
  destruct (Byte.byte_eq_dec c x7d) as [->|Hc].
  - injection H as <- <-. exists []. split; [reflexivity|]. cbn [object_interface]. unfold scan_while. cbn [d_last d_scan d_rest d_saved]. rewrite Es.
    rewrite (close_object K (mkScanner BeginStringOrEmpty (ObjectKey :: K))) by (right; reflexivity). cbn [fst snd d_op]. cbn [bad existsb fold_left]. rewrite add_error_false. reflexivity.
  - assert (H' : match lmembers fuel q with Some (l, r') => Some (JObj l, r') | None => None end = Some (j, r)) by (destruct c; try exact H; contradiction).
    destruct (lmembers fuel q) as [[l r']|] eqn:El; [|discriminate]. injection H' as <- <-. exists l. split; [reflexivity|].
    change (jdepth (JObj l)) with (1 + max_depth_m l) in Hd. change (bad (JObj l)) with (existsb (fun kj : list Z * json => bad (snd kj)) l).
    rewrite <- (Hi K q l r' last op saved [] El) by lia. apply object_first. unfold scan_while. cbn [d_last d_scan d_rest d_saved]. rewrite Es.
    rewrite (scan_spaces_first q last BeginString (ObjectKey :: K) saved c q' s4 (or_introl (cons_not_nil _ _)) Eq).
    assert (Est : s_step (mkScanner BeginStringOrEmpty (ObjectKey :: K)) c = s_step (mkScanner BeginString (ObjectKey :: K)) c) by (cbn; unfold begin_string; rewrite Hh; destruct c; try reflexivity; contradiction).
    rewrite Est. reflexivity.
Qed.

Lemma value_literal fuel c rest s saved t r v (e : bool) : literal_end c rest = Some (t, r) ->
  (forall d, literal_interface (c :: t) d = Ok (v, if e then save_error type_error d else d)) ->
  exists d, value_interface (S fuel) (mkD c rest s OpBeginLiteral saved) = Ok (v, d) /\ after r (sc_stack s) (add_error e saved) d.
Proof.
  intros H Hl. destruct (rescan_after c rest s OpBeginLiteral saved t r H) as (d & Ed & Ha). cbn [value_interface d_op]. rewrite Ed. cbn [rbind fst snd]. rewrite Hl.
  eexists. split; [reflexivity|]. destruct Ha as [Hs Ha]. destruct e; [|rewrite add_error_false; split; assumption].
  split; [unfold save_error, add_error; cbn [d_saved]; rewrite Hs; destruct saved; reflexivity|].
  destruct r as [|b r]; [exact I|]. rewrite Ha. unfold save_error, add_error. cbn [d_last d_rest d_scan d_op d_saved]. destruct saved; reflexivity.
Qed.

Lemma value_read_step fuel : items_read fuel -> members_read fuel -> value_read (S fuel).
Proof.
  intros Hi Hm K s j r last op saved H Hr Hd. cbn [lvalue] in H. pose proof (skip_ws_head s) as Hh. destruct (skip_ws s) as [|c q] eqn:Eq; [discriminate|].
  unfold scan_while. cbn [d_last d_scan d_rest d_saved]. rewrite (scan_spaces_first s last BeginValue K saved c q (or_intror (or_introl eq_refl)) (or_intror eq_refl) Eq).
  assert (Hlit : forall s' t v (e : bool), s_step (mkScanner BeginValue K) c = (mkScanner s' K, OpBeginLiteral) -> literal_end c q = Some (t, r) -> go_value j = v -> bad j = e ->
    (forall d, literal_interface (c :: t) d = Ok (v, if e then save_error type_error d else d)) ->
    exists d, value_interface (S (S fuel)) (mkD c q (fst (s_step (mkScanner BeginValue K) c)) (snd (s_step (mkScanner BeginValue K) c)) saved) = Ok (go_value j, d) /\ after r K (add_error (bad j) saved) d).
  { intros s' t v e Est He <- <- Hl. rewrite Est. apply (value_literal (S fuel) c q (mkScanner s' K) saved t r (go_value j) (bad j) He Hl). }
  destruct (Byte.byte_eq_dec c x7b) as [->|N1].
  { destruct (object_read fuel K q j r x7b OpBeginObject saved Hm Hd H) as (m & -> & E).
    assert (H1 : zlen K + 1 <= 10000) by (pose proof (bracket_depth (JObj m)); cbn beta iota in *; lia). rewrite push_object by exact H1. cbn [fst snd].
    change (value_interface (S (S fuel)) (mkD x7b q (mkScanner BeginStringOrEmpty (ObjectKey :: K)) OpBeginObject saved))
      with (rlet r := object_interface (S fuel) (mkD x7b q (mkScanner BeginStringOrEmpty (ObjectKey :: K)) OpBeginObject saved) [] in Ok (VMap (fst r), scan_next (snd r))).
    rewrite E. cbn [rbind fst snd]. eexists. split; [reflexivity|]. apply scan_next_after. }
  destruct (Byte.byte_eq_dec c x5b) as [->|N2].
  { destruct (array_read fuel K q j r x5b OpBeginArray saved Hi Hd H) as (l & -> & E).
    assert (H1 : zlen K + 1 <= 10000) by (pose proof (bracket_depth (JArr l)); cbn beta iota in *; lia). rewrite push_array by exact H1. cbn [fst snd].
    change (value_interface (S (S fuel)) (mkD x5b q (mkScanner BeginValueOrEmpty (ArrayValue :: K)) OpBeginArray saved))
      with (rlet r := array_interface (S fuel) (mkD x5b q (mkScanner BeginValueOrEmpty (ArrayValue :: K)) OpBeginArray saved) in Ok (VList (fst r), scan_next (snd r))).
    rewrite E. cbn [rbind fst snd]. eexists. split; [reflexivity|]. apply scan_next_after. }
  destruct (Byte.byte_eq_dec c x22) as [->|N3].
  { destruct (lcharacters fuel q) as [[cs r1]|] eqn:Ech; [|discriminate]. injection H as <- <-.
    destruct (string_read _ _ _ _ Ech) as (t & Et & Hend & Hun). eapply (Hlit InString (t ++ [x22])); [reflexivity|exact Hend|reflexivity|reflexivity|].
    intros d. cbn [go_value bad]. unfold literal_interface. rewrite (unquote_read t cs Hun). reflexivity. }
  destruct (Byte.byte_eq_dec c x6e) as [->|N4].
  { pose proof H as Hk. apply keyword_split in Hk. unfold keyword in H. destruct (has_prefix _ _); [|discriminate]. injection H as <- _. subst q.
    eapply (Hlit SN (lit "ull")); [reflexivity|reflexivity|reflexivity|reflexivity|]. reflexivity. }
  destruct (Byte.byte_eq_dec c x74) as [->|N5].
  { pose proof H as Hk. apply keyword_split in Hk. unfold keyword in H. destruct (has_prefix _ _); [|discriminate]. injection H as <- _. subst q.
    eapply (Hlit ST (lit "rue")); [reflexivity|reflexivity|reflexivity|reflexivity|]. reflexivity. }
  destruct (Byte.byte_eq_dec c x66) as [->|N6].
  { pose proof H as Hk. apply keyword_split in Hk. unfold keyword in H. destruct (has_prefix _ _); [|discriminate]. injection H as <- _. subst q.
    eapply (Hlit SF (lit "alse")); [reflexivity|reflexivity|reflexivity|reflexivity|]. reflexivity. }
  assert (Hn : match number (c :: q) with Some (t, r) => Some (JNum t, r) | None => None end = Some (j, r)) by (destruct c; try exact H; contradiction).
  destruct (number (c :: q)) as [[t r1]|] eqn:En; [|discriminate]. injection Hn as <- <-.
  destruct (number_bytes _ _ _ En) as (Et & Hb & Hc). destruct t as [|c' t]; [contradiction|]. injection Et as <- Et.
  cbn [forallb] in Hb. apply andb_true_iff in Hb as [_ Hb].
  assert (Hst : exists s', s_step (mkScanner BeginValue K) c = (mkScanner s' K, OpBeginLiteral)).
  { destruct Hc as [Hc| ->]; [|eexists; reflexivity]. destruct c; try discriminate Hc; eexists; reflexivity. }
  destruct Hst as (s' & Est). eapply (Hlit s' t); [exact Est| |reflexivity|reflexivity|].
  - rewrite Et. assert (Hle : literal_end c (t ++ r1) = Some (number_end (t ++ r1))) by (destruct Hc as [Hc| ->]; [|reflexivity]; destruct c; try discriminate Hc; reflexivity).
    rewrite Hle, number_end_app by assumption. reflexivity.
  - intros d. assert (Hli : literal_interface (c :: t) d = match go_parse_float (c :: t) with Ok f => Ok (VFloat f, d) | Err _ => Ok (VNil, save_error type_error d) | Panic => Panic | NoFuel => NoFuel end).
    { destruct Hc as [Hc| ->]; [|reflexivity]. destruct c; try discriminate Hc; reflexivity. }
    rewrite Hli. cbn [go_value bad]. destruct (float_quiet (c :: t)) as [(f & Ef)|(e & Ef)]; rewrite Ef; reflexivity.
Qed.

Lemma not_end_array K c : snd (s_step (mkScanner BeginValue K) c) <> OpEndArray.
Proof.
  cbn. unfold begin_value. destruct (is_space c); [discriminate|]. destruct c; try discriminate; unfold push; destruct (_ <=? _); discriminate.
Qed.
Lemma array_more fuel d v d2 : d_op (scan_while d) <> OpEndArray -> value_interface fuel (scan_while d) = Ok (v, d2) ->
  array_interface (S fuel) d = match d_op (skip_spaces d2) with OpEndArray => Ok ([v], skip_spaces d2) | OpArrayValue => rlet q := array_interface fuel (skip_spaces d2) in Ok (v :: fst q, snd q) | _ => Panic end.
Proof. intros Hn E. cbn [array_interface]. rewrite E. cbn [rbind fst snd]. destruct (d_op (scan_while d)); try reflexivity. contradiction. Qed.

Lemma items_read_step fuel : value_read fuel -> items_read fuel -> items_read (S fuel).
Proof.
  intros Hv Hi K s l r last op saved H Hd. cbn [litems] in H. destruct (lvalue fuel s) as [[j r1]|] eqn:Ej; [|discriminate].
  assert (Hop : d_op (scan_while (mkD last s (mkScanner BeginValue (ArrayValue :: K)) op saved)) <> OpEndArray).
  { destruct (skip_ws s) as [|c q] eqn:Eq; [destruct fuel; [discriminate|]; cbn [lvalue] in Ej; rewrite Eq in Ej; discriminate|].
    unfold scan_while. cbn [d_last d_scan d_rest d_saved]. rewrite (scan_spaces_first s last BeginValue (ArrayValue :: K) saved c q (or_intror (or_introl eq_refl)) (or_introl (cons_not_nil _ _)) Eq).
    cbn [d_op]. apply not_end_array. }
  destruct (skip_ws r1) as [|c q] eqn:Eq; [discriminate|].
  assert (Hjd : forall l', l = j :: l' -> zlen (ArrayValue :: K) + jdepth j <= 10000 /\ zlen K + 1 + max_depth l' <= 10000).
  { intros l' ->. rewrite zlen_cons'. unfold max_depth in *. cbn [map fold_right] in Hd. lia. }
  assert (Hcase : (c = x5d /\ l = [j] /\ r = q) \/ (exists l', c = x2c /\ litems fuel q = Some (l', r) /\ l = j :: l')).
  { destruct c; try discriminate.
    - destruct (litems fuel q) as [[l' r']|] eqn:Ei; [|discriminate]. injection H as <- <-. right. eauto.
    - injection H as <- <-. left. auto. }
  destruct Hcase as [(-> & -> & ->)|(l' & -> & Ei & ->)]; destruct (Hjd _ eq_refl) as (Hd1 & Hd2);
    (destruct (Hv (ArrayValue :: K) s j r1 last op saved Ej) as (d2 & E2 & Ha);
      [eapply follows_ends; [exact Eq|unfold follows; tauto]|exact Hd1|]);
    rewrite (array_more (S fuel) _ _ _ Hop E2); rewrite (after_skip _ _ _ _ _ _ Ha (cons_not_nil _ _) Eq).
  - assert (Ec : end_value x5d (ArrayValue :: K) = (match K with [] => mkScanner EndTop [] | _ => mkScanner EndValue K end, OpEndArray)) by (destruct K; reflexivity).
    rewrite Ec. cbn [fst snd d_op map existsb]. rewrite orb_false_r. reflexivity.
  - change (end_value x2c (ArrayValue :: K)) with (mkScanner BeginValue (ArrayValue :: K), OpArrayValue). cbn [fst snd d_op].
    rewrite (Hi K q l' r _ _ _ Ei Hd2). cbn [rbind fst snd map existsb]. rewrite add_error_or. reflexivity.
Qed.

Lemma members_read_step fuel : value_read fuel -> members_read fuel -> members_read (S fuel).
Proof.
  intros Hv Hm K s m r last op saved acc H Hd. cbn [lmembers] in H.
  destruct (skip_ws s) as [|c q0] eqn:Eq0; [discriminate|]. destruct (Byte.byte_eq_dec c x22) as [->|Hn]; [|destruct c; try discriminate; contradiction].
  destruct (lcharacters fuel q0) as [[k r1]|] eqn:Ech; [|discriminate].
  destruct (skip_ws r1) as [|c q1] eqn:Eq1; [discriminate|]. destruct (Byte.byte_eq_dec c x3a) as [->|Hn]; [|destruct c; try discriminate; contradiction].
  destruct (lvalue fuel q1) as [[j r3]|] eqn:Ej; [|discriminate].
  destruct (skip_ws r3) as [|c q] eqn:Eq; [discriminate|].
  assert (Hjd : forall m', m = (k, j) :: m' -> zlen (ObjectValue :: K) + jdepth j <= 10000 /\ zlen K + 1 + max_depth_m m' <= 10000).
  { intros m' ->. rewrite zlen_cons'. unfold max_depth_m in *. cbn [map fold_right snd] in Hd. lia. }
  assert (Hcase : (c = x7d /\ m = [(k, j)] /\ r = q) \/ (exists m', c = x2c /\ lmembers fuel q = Some (m', r) /\ m = (k, j) :: m')).
  { destruct c; try discriminate.
    - destruct (lmembers fuel q) as [[l' r']|] eqn:Ei; [|discriminate]. injection H as <- <-. right. eauto.
    - injection H as <- <-. left. auto. }
  clear H. destruct (string_read _ _ _ _ Ech) as (t & Et & Hend & Hun).
  set (d1 := mkD x22 q0 (mkScanner InString (ObjectKey :: K)) OpBeginLiteral saved).
  assert (E1 : scan_while (mkD last s (mkScanner BeginString (ObjectKey :: K)) op saved) = d1).
  { unfold scan_while. cbn [d_last d_scan d_rest d_saved]. apply (scan_spaces_first s last BeginString (ObjectKey :: K) saved x22 q0); [right; right; right; left; reflexivity|left; discriminate|exact Eq0]. }
  destruct (rescan_after x22 q0 (mkScanner InString (ObjectKey :: K)) OpBeginLiteral saved (t ++ [x22]) r1 Hend) as (d2 & Ed2 & Ha2). cbn [sc_stack] in Ha2.
  pose proof (after_skip _ _ _ _ _ _ Ha2 (cons_not_nil _ _) Eq1) as Es2. change (end_value x3a (ObjectKey :: K)) with (mkScanner BeginValue (ObjectValue :: K), OpObjectKey) in Es2. cbn [fst snd] in Es2.
  assert (Hdj : exists d3, value_interface (S fuel) (scan_while (mkD x3a q1 (mkScanner BeginValue (ObjectValue :: K)) OpObjectKey saved)) = Ok (go_value j, d3) /\ after r3 (ObjectValue :: K) (add_error (bad j) saved) d3).
  { apply Hv; [exact Ej| |].
    - destruct Hcase as [(-> & _)|(m' & -> & _)]; (eapply follows_ends; [exact Eq|unfold follows; tauto]).
    - destruct Hcase as [(_ & -> & _)|(m' & _ & _ & ->)]; apply (Hjd _ eq_refl). }
  destruct Hdj as (d3 & E3 & Ha3). pose proof (after_skip _ _ _ _ _ _ Ha3 (cons_not_nil _ _) Eq) as Es3.
  assert (Eobj : object_interface (S (S fuel)) (mkD last s (mkScanner BeginString (ObjectKey :: K)) op saved) acc =
    match d_op (skip_spaces d3) with OpEndObject => Ok (mset acc (text k) (go_value j), skip_spaces d3) | OpObjectValue => object_interface (S fuel) (skip_spaces d3) (mset acc (text k) (go_value j)) | _ => Panic end).
  { remember (S fuel) as f eqn:Ef. cbn [object_interface]. rewrite E1. unfold d1 at 1. cbn [d_op]. change (rescan_literal d1) with (rescan_literal (mkD x22 q0 (mkScanner InString (ObjectKey :: K)) OpBeginLiteral saved)).
    rewrite Ed2. cbn [rbind fst snd]. rewrite (unquote_read t k Hun), Es2. cbn [d_op]. rewrite E3. reflexivity. }
  rewrite Eobj, Es3. destruct Hcase as [(-> & -> & ->)|(m' & -> & Ei & ->)]; destruct (Hjd _ eq_refl) as (Hd1 & Hd2).
  - assert (Ec : end_value x7d (ObjectValue :: K) = (match K with [] => mkScanner EndTop [] | _ => mkScanner EndValue K end, OpEndObject)) by (destruct K; reflexivity).
    rewrite Ec. cbn [fst snd d_op fold_left existsb]. rewrite orb_false_r. reflexivity.
  - change (end_value x2c (ObjectValue :: K)) with (mkScanner BeginString (ObjectKey :: K), OpObjectValue). cbn [fst snd d_op].
    rewrite (Hm K q m' r _ _ _ _ Ei Hd2). cbn [fold_left existsb snd]. rewrite add_error_or. reflexivity.
Qed.

Lemma all_read : forall fuel, value_read fuel /\ items_read fuel /\ members_read fuel.
Proof.
  induction fuel as [|fuel (Hv & Hi & Hm)].
  - split; [|split]; repeat intro; discriminate.
  - split; [apply value_read_step; assumption|]. split; [apply items_read_step; assumption|apply members_read_step; assumption].
Qed.
