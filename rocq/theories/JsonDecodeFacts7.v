(** The decoder: the data of the texts, files of documents. *)
From Coq Require Import String List ZArith Lia Bool Arith.
From Coq Require Import Strings.Byte Floats.SpecFloat.
From Coq Require Import ZifyBool.
From Verif Require Import Base BaseFacts Codec Value GoStrings SpecText SpecJson Prog ProgFacts JsonReader SpecJsonFile JsonFacts JsonReaderFacts JsonReaderFacts2 JsonReaderFacts3 FloatText FloatTextFacts2 OutputFacts SpecJsonDecode JsonDecode JsonDecodeFacts JsonDecodeFacts2 JsonDecodeFacts3 JsonDecodeFacts4 JsonDecodeFacts5 JsonDecodeFacts6.
Import ListNotations.
Open Scope Z_scope.

Lemma json_rec (P : json -> Prop) : P JNull -> (forall b, P (JBool b)) -> (forall t, P (JNum t)) -> (forall cs, P (JStr cs)) ->
  (forall l, Forall P l -> P (JArr l)) -> (forall m, Forall (fun kj : list Z * json => P (snd kj)) m -> P (JObj m)) -> forall j, P j.
Proof.
  intros H1 H2 H3 H4 H5 H6. fix IH 1. intros [|b|t|cs|l|m]; [exact H1|apply H2|apply H3|apply H4| |].
  - apply H5. induction l as [|j l IHl]; constructor; [apply IH|exact IHl].
  - apply H6. induction m as [|[k j] m IHm]; constructor; [apply IH|exact IHm].
Qed.

Lemma bad_range j : bad j = true <-> out_of_range j.
Proof.
  induction j as [|b|t|cs|l IH|m IH] using json_rec; cbn [bad]; try (split; [discriminate|inversion 1]; fail).
  - destruct (float_quiet t) as [(f & E)|(e & E)]; rewrite E; (split; [intros H|]); try discriminate.
    + inversion 1 as [? e E'|? ? ?|? ? ? ?]. congruence.
    + econstructor. exact E.
    + reflexivity.
  - rewrite existsb_exists. rewrite Forall_forall in IH. split.
    + intros (j & Hj & Hb). apply (oor_arr l j Hj). apply IH; assumption.
    + inversion 1 as [|? j Hj Hb|]; subst. exists j. split; [exact Hj|]. apply IH; assumption.
  - rewrite existsb_exists. rewrite Forall_forall in IH. split.
    + intros ([k j] & Hj & Hb). apply (oor_obj m k j Hj). apply (IH _ Hj). exact Hb.
    + inversion 1 as [| |? k j Hj Hb]; subst. exists (k, j). split; [exact Hj|]. apply (IH _ Hj). exact Hb.
Qed.

Lemma mset_keys {V} (m : list (bytes * V)) k v k' : In k' (map fst (mset m k v)) <-> k' = k \/ In k' (map fst m).
Proof.
  induction m as [|[k0 v0] m IH]; cbn; [intuition auto|]. destruct (bytes_eqb k0 k) eqn:E; cbn.
  - apply bytes_eqb_eq in E. subst k0. intuition auto.
  - rewrite IH. intuition auto.
Qed.
Lemma put_members (P : json -> value -> Prop) ms : (forall k j, In (k, j) ms -> P j (go_value j)) ->
  NoDup (map fst (fold_left put ms [])) /\ (forall k, In k (map fst (fold_left put ms [])) <-> In k (map (fun kj : list Z * json => text (fst kj)) ms)) /\
  (forall k v, In (k, v) (fold_left put ms []) -> exists before name j after, ms = before ++ (name, j) :: after /\ text name = k /\ ~ In k (map (fun kj : list Z * json => text (fst kj)) after) /\ P j v).
Proof.
  induction ms as [|[name j] ms IH] using rev_ind; intros HP; [split; [constructor|]; split; [reflexivity|]; intros k v []|].
  destruct IH as (Hnd & Hk & Hv); [intros k j' Hin; apply (HP k j'); apply in_app_iff; auto|].
  rewrite fold_left_app. cbn [fold_left]. unfold put at 1 3 5. cbn [fst snd]. split; [apply mset_keys_NoDup; exact Hnd|]. split.
  - intros k. rewrite mset_keys, Hk, map_app, in_app_iff. cbn. intuition auto.
  - intros k v Hin. apply In_mset in Hin as [[-> ->]|[Hne Hin]]; [| |exact Hnd].
    + exists ms, name, j, []. split; [reflexivity|]. split; [reflexivity|]. split; [intros []|]. apply (HP name j). apply in_app_iff. right. left. reflexivity.
    + destruct (Hv k v Hin) as (before & name' & j' & after & -> & Ht & Hna & Hp). exists before, name', j', (after ++ [(name, j)]). split; [rewrite <- app_assoc; reflexivity|].
      split; [exact Ht|]. split; [|exact Hp]. rewrite map_app, in_app_iff. cbn. intros [Hi|[Hi|[]]]; [contradiction|]. apply Hne. symmetry. exact Hi.
Qed.
Lemma value_represents j : bad j = false -> represents j (go_value j).
Proof.
  induction j as [|b|t|cs|l IH|m IH] using json_rec; intros Hb; cbn [go_value bad] in *; try (constructor; fail).
  - destruct (float_quiet t) as [(f & E)|(e & E)]; rewrite E in *; [constructor; exact E|discriminate].
  - constructor. induction l as [|j l IHl]; [constructor|]. cbn [existsb] in Hb. apply orb_false_iff in Hb as [Hj Hl]. inversion IH; subst. cbn [map]. constructor; auto.
  - change (fold_left (fun acc kj => mset acc (text (fst kj)) (go_value (snd kj))) m []) with (fold_left put m []).
    assert (HP : forall k j, In (k, j) m -> represents j (go_value j)).
    { intros k j Hin. rewrite Forall_forall in IH. apply (IH (k, j) Hin). destruct (bad j) eqn:E; [|exact E]. exfalso. assert (existsb (fun kj : list Z * json => bad (snd kj)) m = true) by (apply existsb_exists; exists (k, j); auto). congruence. }
    destruct (put_members represents m HP) as (H1 & H2 & H3). constructor; assumption.
Qed.

(** *** json.Unmarshal *)
Lemma unmarshal_ok t v : go_unmarshal t = Ok v -> exists j, accepted_text t j /\ ~ out_of_range j /\ represents j v.
Proof.
  intros H. destruct (check_valid t) eqn:E; [|unfold go_unmarshal in H; rewrite E in H; discriminate]. apply valid_accepted in E as (j & Hj). exists j. split; [exact Hj|].
  rewrite (unmarshal_accepted _ _ Hj) in H. unfold outcome in H. destruct (bad j) eqn:Eb; [discriminate|]. injection H as <-. split; [|apply value_represents; exact Eb].
  intros Ho. apply bad_range in Ho. congruence.
Qed.
Lemma unmarshal_reads t j : accepted_text t j -> ~ out_of_range j -> exists v, go_unmarshal t = Ok v /\ represents j v.
Proof.
  intros H Ho. exists (go_value j). rewrite (unmarshal_accepted _ _ H). unfold outcome. destruct (bad j) eqn:Eb; [apply bad_range in Eb; contradiction|].
  split; [reflexivity|]. apply value_represents. exact Eb.
Qed.
Lemma unmarshal_range t j : accepted_text t j -> out_of_range j -> go_unmarshal t = Err type_error.
Proof. intros H Ho. rewrite (unmarshal_accepted _ _ H). unfold outcome. apply bad_range in Ho. rewrite Ho. reflexivity. Qed.
Lemma unmarshal_quiet t : (exists v, go_unmarshal t = Ok v) \/ go_unmarshal t = Err type_error \/ go_unmarshal t = Err JsonReader.syntax_error.
Proof.
  destruct (check_valid t) eqn:E; [|right; right; unfold go_unmarshal; rewrite E; reflexivity]. apply valid_accepted in E as (j & Hj). rewrite (unmarshal_accepted _ _ Hj). unfold outcome. destruct (bad j); eauto.
Qed.

(** *** RFC 8259 texts are accepted *)
Lemma characters_lenient : forall fuel s x, characters fuel s = Some x -> lcharacters fuel s = Some x.
Proof.
  induction fuel as [|fuel IH]; intros s x H; [discriminate|]. cbn [characters lcharacters] in *.
  assert (Hc : match character s with None => None | Some (c, r) => match characters fuel r with None => None | Some (cs, r') => Some (c :: cs, r') end end = Some x ->
    match lcharacter s with None => None | Some (c, r) => match lcharacters fuel r with None => None | Some (cs, r') => Some (c :: cs, r') end end = Some x).
  { destruct (character s) as [[c r]|] eqn:Ec; [|discriminate]. rewrite (character_is_lcharacter _ _ Ec). destruct (characters fuel r) as [y|] eqn:E; [|discriminate]. rewrite (IH _ _ E). auto. }
  destruct s as [|b s]; [apply Hc; exact H|]. destruct b; try (apply Hc; exact H). exact H.
Qed.
Lemma strict_lenient : forall fuel, (forall s x, jvalue fuel s = Some x -> lvalue fuel s = Some x) /\ (forall s x, jitems fuel s = Some x -> litems fuel s = Some x) /\ (forall s x, jmembers fuel s = Some x -> lmembers fuel s = Some x).
Proof.
  induction fuel as [|fuel (Hv & Hi & Hm)]; [split; [|split]; intros; discriminate|]. split; [|split]; intros s x H.
  - cbn [jvalue lvalue] in *. destruct (skip_ws s) as [|c r]; [discriminate|].
    assert (Hstr : match characters fuel r with Some (cs, r') => Some (JStr cs, r') | None => None end = Some x -> match lcharacters fuel r with Some (cs, r') => Some (JStr cs, r') | None => None end = Some x).
    { intros Hs. destruct (characters fuel r) as [y|] eqn:E; [|discriminate]. rewrite (characters_lenient _ _ _ E). exact Hs. }
    assert (Hit : match jitems fuel r with Some (l, r') => Some (JArr l, r') | None => None end = Some x -> match litems fuel r with Some (l, r') => Some (JArr l, r') | None => None end = Some x).
    { intros Hs. destruct (jitems fuel r) as [y|] eqn:E; [|discriminate]. rewrite (Hi _ _ E). exact Hs. }
    assert (Hme : match jmembers fuel r with Some (l, r') => Some (JObj l, r') | None => None end = Some x -> match lmembers fuel r with Some (l, r') => Some (JObj l, r') | None => None end = Some x).
    { intros Hs. destruct (jmembers fuel r) as [y|] eqn:E; [|discriminate]. rewrite (Hm _ _ E). exact Hs. }
    assert (Hit2 : match skip_ws r with x5d :: r' => Some (JArr [], r') | _ => match jitems fuel r with Some (l, r') => Some (JArr l, r') | None => None end end = Some x ->
      match skip_ws r with x5d :: r' => Some (JArr [], r') | _ => match litems fuel r with Some (l, r') => Some (JArr l, r') | None => None end end = Some x).
    { destruct (skip_ws r) as [|b r']; [exact Hit|]. destruct b; try exact Hit. auto. }
    assert (Hme2 : match skip_ws r with x7d :: r' => Some (JObj [], r') | _ => match jmembers fuel r with Some (l, r') => Some (JObj l, r') | None => None end end = Some x ->
      match skip_ws r with x7d :: r' => Some (JObj [], r') | _ => match lmembers fuel r with Some (l, r') => Some (JObj l, r') | None => None end end = Some x).
    { destruct (skip_ws r) as [|b r']; [exact Hme|]. destruct b; try exact Hme. auto. }
    clear Hit Hme. destruct c; try exact H; auto.
  - cbn [jitems litems] in *. destruct (jvalue fuel s) as [[j r]|] eqn:E; [|discriminate]. rewrite (Hv _ _ E). destruct (skip_ws r) as [|b r']; [discriminate|]. destruct b; try exact H.
    destruct (jitems fuel r') as [y|] eqn:E'; [|discriminate]. rewrite (Hi _ _ E'). exact H.
  - cbn [jmembers lmembers] in *. destruct (skip_ws s) as [|b r]; [discriminate|]. destruct b; try discriminate.
    destruct (characters fuel r) as [[k r1]|] eqn:Ek; [|discriminate]. rewrite (characters_lenient _ _ _ Ek). destruct (skip_ws r1) as [|b r2]; [discriminate|]. destruct b; try discriminate.
    destruct (jvalue fuel r2) as [[j r3]|] eqn:E; [|discriminate]. rewrite (Hv _ _ E). destruct (skip_ws r3) as [|b r']; [discriminate|]. destruct b; try exact H.
    destruct (jmembers fuel r') as [y|] eqn:E'; [|discriminate]. rewrite (Hm _ _ E'). exact H.
Qed.
Lemma json_accepted t j : json_text t j -> jdepth j <= 10000 -> accepted_text t j.
Proof. intros (f & r & E & Hr) Hd. exists f, r. split; [apply strict_lenient; exact E|]. auto. Qed.

(** *** Files *)
Lemma decode_map_reads t m : accepted_text t (JObj m) -> ~ out_of_range (JObj m) -> exists data, decode_map t = Ok data /\ represents (JObj m) (VMap data).
Proof.
  intros H Ho. rewrite (decode_map_accepted _ _ H). unfold outcome. destruct (bad (JObj m)) eqn:Eb; [apply bad_range in Eb; contradiction|]. eexists. split; [reflexivity|].
  apply value_represents in Eb. exact Eb.
Qed.
Lemma decode_map_ok t data j : accepted_text t j -> decode_map t = Ok data -> (exists m, j = JObj m /\ represents j (VMap data)) \/ (j = JNull /\ data = []).
Proof.
  intros H. rewrite (decode_map_accepted _ _ H). destruct j as [|b|n|cs|l|m]; try discriminate; [intros E; injection E as <-; auto|].
  unfold outcome. destruct (bad (JObj m)) eqn:Eb; [discriminate|]. intros E. injection E as <-. left. exists m. split; [reflexivity|]. apply value_represents in Eb. exact Eb.
Qed.
Lemma documents_read : forall pos docs text, documents pos docs text -> Forall (fun pt => forall j, json_text (snd pt) j -> ~ out_of_range j) docs ->
  exists rows, Forall2 (fun pt r => fst pt = fst r /\ decode_map (snd pt) = Ok (snd r)) docs rows /\
    Forall2 (fun pt r => fst pt = fst r /\ exists m, json_text (snd pt) (JObj m) /\ represents (JObj m) (VMap (snd r))) docs rows.
Proof.
  intros pos docs text H. induction H as [pos ws Hw|pos ws t docs text Hw Hd H IH]; intros HF; [exists []; split; constructor|].
  inversion HF as [|? ? H1 H2]; subst. destruct (IH H2) as (rows & R1 & R2). destruct Hd as (f & m & r & -> & Ej & Hdep).
  assert (Ht : json_text (x7b :: r) (JObj m)) by (exists f, []; split; [exact Ej|reflexivity]).
  destruct (decode_map_reads (x7b :: r) m (json_accepted _ _ Ht Hdep) (H1 _ Ht)) as (data & Ed & Hr).
  exists ((pos + zlen ws, data) :: rows). split; constructor; auto. split; [reflexivity|]. exists m. auto.
Qed.
Lemma file_read file docs : documents 0 docs file -> Forall (fun pt => forall j, json_text (snd pt) j -> ~ out_of_range j) docs ->
  exists rows, json_iterate_all file decode_map = map Ok rows /\
    Forall2 (fun pt r => fst pt = fst r /\ exists m, json_text (snd pt) (JObj m) /\ represents (JObj m) (VMap (snd r))) docs rows.
Proof.
  intros H HF. destruct (documents_read _ _ _ H HF) as (rows & R1 & R2). exists rows. split; [|exact R2]. apply (json_documents _ _ docs); assumption.
Qed.

(** The decoder is only called with texts that it accepts. *)
Lemma iterate_ext file u1 u2 : (forall l t, read_value l = Ok t -> u1 t = u2 t) -> forall fuel pos, json_iterate file u1 fuel pos = json_iterate file u2 fuel pos.
Proof.
  intros Hu. induction fuel as [|fuel IH]; intros pos; [reflexivity|]. cbn [json_iterate]. cbv zeta. set (l1 := skipn (spaces _) _). clearbody l1.
  assert (E : match read_value l1 with Ok text => match u1 text with Ok data => Ok (pos + Z.of_nat (spaces (skipn (Z.to_nat pos) file)), data) :: json_iterate file u1 fuel (pos + Z.of_nat (spaces (skipn (Z.to_nat pos) file)) + zlen text) | Err e => [Err e] | Panic => [Panic] | NoFuel => [NoFuel] end
      | Err EEof => [] | Err e => [Err e] | Panic => [Panic] | NoFuel => [NoFuel] end =
    match read_value l1 with Ok text => match u2 text with Ok data => Ok (pos + Z.of_nat (spaces (skipn (Z.to_nat pos) file)), data) :: json_iterate file u2 fuel (pos + Z.of_nat (spaces (skipn (Z.to_nat pos) file)) + zlen text) | Err e => [Err e] | Panic => [Panic] | NoFuel => [NoFuel] end
      | Err EEof => [] | Err e => [Err e] | Panic => [Panic] | NoFuel => [NoFuel] end).
  { destruct (read_value l1) as [t| | |] eqn:Er; try reflexivity. rewrite (Hu _ _ Er). destruct (u2 t); try reflexivity. rewrite IH. reflexivity. }
  destruct l1 as [|c l]; [reflexivity|]. destruct c; first [reflexivity|exact E].
Qed.
Definition checked (t : bytes) : res (list (bytes * value)) := if check_valid t then decode_map t else Err type_error.
Lemma checked_quiet t : match checked t with Panic | NoFuel => False | _ => True end.
Proof.
  unfold checked. destruct (check_valid t) eqn:E; [|exact I]. apply valid_accepted in E as (j & Hj). rewrite (decode_map_accepted _ _ Hj). destruct j; try exact I. unfold outcome. destruct (bad _); exact I.
Qed.
Lemma read_checked l t : read_value l = Ok t -> decode_map t = checked t.
Proof. intros H. apply read_value_accepted in H as (j & Hj). unfold checked. rewrite (accepted_valid _ _ Hj). reflexivity. Qed.
Lemma file_quiet file : Forall (fun r => match r with Ok (p, _) => 0 <= p < zlen file | Err _ => True | _ => False end) (json_iterate_all file decode_map).
Proof. unfold json_iterate_all. rewrite (iterate_ext file decode_map checked read_checked). apply (json_increasing file checked checked_quiet). Qed.
Lemma get_quiet file chunk p s : match fst (exec (json_get_at file decode_map chunk p) s) with Panic | NoFuel => False | _ => True end.
Proof.
  rewrite get_exec. unfold got. destruct (p <? 0); [exact I|]. pose proof (read_value_err (skipn (Z.to_nat p) file)) as Hr.
  destruct (read_value (skipn (Z.to_nat p) file)) as [t|e| |] eqn:E; try contradiction; [|destruct e; exact I].
  rewrite (read_checked _ _ E). apply checked_quiet.
Qed.
