(** The map and noop indexes return exactly the selected records. *)
From Coq Require Import List ZArith Lia Bool String Permutation Sorted.
From Coq Require Import Strings.Byte Floats.SpecFloat.
From Verif Require Import Base BaseFacts Value Join SpecJoin JoinFacts Stream Node WildcardMeta Wildcard WildcardFacts WildcardFacts3 WildcardFacts7 Index SpecIndex.
Import ListNotations.
Open Scope Z_scope.

(** *** Equality of values *)
Lemma SFcompare_finite_eq s m e s' m' e' :
  SFcompare (S754_finite s m e) (S754_finite s' m' e') = Some Eq <-> s = s' /\ m = m' /\ e = e'.
Proof.
  unfold SFcompare. destruct s, s'; cbn; (split; [intros H|intros (H1 & H2 & H3)]); try discriminate.
  - destruct (e ?= e') eqn:E; try discriminate. apply Z.compare_eq in E.
    change ((m ?= m')%positive) with ((m ?= m')%positive) in H.
    destruct (Pos.compare_cont Eq m m') eqn:Em; try discriminate. apply Pos.compare_eq in Em. auto.
  - subst. rewrite Z.compare_refl, Pos.compare_cont_refl. reflexivity.
  - destruct (e ?= e') eqn:E; try discriminate. apply Z.compare_eq in E.
    destruct (Pos.compare_cont Eq m m') eqn:Em; try discriminate. apply Pos.compare_eq in Em. auto.
  - subst. rewrite Z.compare_refl, Pos.compare_cont_refl. reflexivity.
Qed.

Lemma SFeqb_spec x y : SFeqb x y = true <->
  (x = y /\ x <> S754_nan) \/ (exists s s', x = S754_zero s /\ y = S754_zero s').
Proof.
  unfold SFeqb. split.
  - intros H. destruct x as [s|s| |s m e], y as [s'|s'| |s' m' e'];
      try solve [cbn in H; try discriminate; try (destruct s; discriminate); try (destruct s'; discriminate); right; eauto].
    + left. cbn in H. destruct s, s'; try discriminate; split; congruence.
    + left. destruct (SFcompare (S754_finite s m e) (S754_finite s' m' e')) as [[]|] eqn:E; try discriminate.
      apply SFcompare_finite_eq in E as (-> & -> & ->). split; congruence.
  - intros [[-> Hn]|(s & s' & -> & ->)]; [|reflexivity].
    destruct y as [s|s| |s m e]; try congruence; try (destruct s; reflexivity).
    assert (E : SFcompare (S754_finite s m e) (S754_finite s m e) = Some Eq) by (apply SFcompare_finite_eq; auto).
    rewrite E. reflexivity.
Qed.

Lemma go_eq_spec a b : go_eq a b = Ok true <-> same_value a b.
Proof.
  split.
  - destruct a, b; cbn; intros H; try discriminate; try (injection H as H); try solve [constructor].
    + apply eqb_prop in H. subst. constructor.
    + apply Z.eqb_eq in H. subst. constructor.
    + apply SFeqb_spec in H as [[-> Hn]|(s & s' & -> & ->)]; constructor. assumption.
    + apply bytes_eqb_eq in H. subst. constructor.
  - destruct 1; cbn; try reflexivity.
    + rewrite eqb_reflx. reflexivity.
    + rewrite Z.eqb_refl. reflexivity.
    + rewrite bytes_eqb_refl. reflexivity.
    + f_equal. apply SFeqb_spec. auto.
Qed.

Lemma go_eq_primitive a b : primitive a \/ primitive b -> go_eq a b = Ok true \/ go_eq a b = Ok false.
Proof.
  destruct a, b; cbn; try tauto; intros _.
  - destruct (Bool.eqb b0 b); auto.
  - destruct (z =? z0); auto.
  - destruct (SFeqb f f0); auto.
  - destruct (bytes_eqb s s0); auto.
Qed.

Lemma same_sym a b : same_value a b -> same_value b a.
Proof. destruct 1; constructor; assumption. Qed.
Lemma same_trans a b c : same_value a b -> same_value b c -> same_value a c.
Proof. intros H H2. destruct H; inversion H2; subst; constructor; assumption. Qed.

Lemma key_eqb_spec a b : key_eqb a b = true <-> same_value a b.
Proof.
  rewrite <- go_eq_spec. unfold key_eqb. destruct (go_eq a b) as [[]|e| |]; split; congruence.
Qed.

Lemma key_eqb_trans a b c : key_eqb a b = true -> key_eqb a c = key_eqb b c.
Proof.
  intros H. apply key_eqb_spec in H. destruct (key_eqb b c) eqn:E.
  - apply key_eqb_spec. apply key_eqb_spec in E. eapply same_trans; eassumption.
  - destruct (key_eqb a c) eqn:E2; [|reflexivity]. apply key_eqb_spec in E2.
    rewrite <- E. symmetry. apply key_eqb_spec. eapply same_trans; [apply same_sym|]; eassumption.
Qed.

(** *** One property *)
Definition opt_list (o : option (list Z)) : list Z := match o with Some l => l | None => [] end.

Lemma pfind_padd m v pos k : pfind (padd m v pos) k =
  if key_eqb v k then Some (opt_list (pfind m k) ++ [pos]) else pfind m k.
Proof.
  induction m as [|[k' l] m IH]; cbn [padd pfind].
  - destruct (key_eqb v k); reflexivity.
  - destruct (key_eqb k' v) eqn:E; cbn [pfind].
    + rewrite (key_eqb_trans _ _ k E). destruct (key_eqb v k); reflexivity.
    + rewrite IH. destruct (key_eqb k' k) eqn:E2; [|reflexivity].
      destruct (key_eqb v k) eqn:E3; [|reflexivity]. exfalso.
      apply key_eqb_spec in E2, E3. enough (key_eqb k' v = true) by congruence.
      apply key_eqb_spec. eapply same_trans; [|apply same_sym]; eassumption.
Qed.

(** Positions of the records whose property [p] is [f]. *)
Definition vals (p : bytes) (rs : list rec) : list (Z * value) :=
  flat_map (fun r => match r_get r p with Ok v => [(r_pos r, v)] | _ => [] end) rs.
Definition hits (p : bytes) (f : value) (rs : list rec) : list Z :=
  map fst (filter (fun x => key_eqb (snd x) f) (vals p rs)).

Lemma hits_app p f a b : hits p f (a ++ b) = hits p f a ++ hits p f b.
Proof. unfold hits, vals. rewrite flat_map_app, filter_app, map_app. reflexivity. Qed.

Definition good_pindex (p : bytes) (rs : list rec) (m : pindex) : Prop :=
  forall k, pfind m k = if is_nil (hits p k rs) then None else Some (hits p k rs).

Lemma good_pindex_opt p rs m k : good_pindex p rs m -> opt_list (pfind m k) = hits p k rs.
Proof. intros H. rewrite H. destruct (hits p k rs); reflexivity. Qed.

Lemma map_add_value_primitive v m pos : primitive v -> map_add_value v m pos = Ok (padd m v pos).
Proof. destruct v; cbn; tauto || reflexivity. Qed.

Lemma good_padd p rs r v m : good_pindex p rs m -> r_get r p = Ok v -> good_pindex p (rs ++ [r]) (padd m v (r_pos r)).
Proof.
  intros Hm Hv k. rewrite pfind_padd, (good_pindex_opt _ _ _ _ Hm), hits_app.
  assert (E : hits p k [r] = if key_eqb v k then [r_pos r] else []).
  { unfold hits, vals. cbn. rewrite Hv. cbn. destruct (key_eqb v k); reflexivity. }
  rewrite E. destruct (key_eqb v k).
  - destruct (hits p k rs); reflexivity.
  - rewrite app_nil_r. apply Hm.
Qed.

(** *** All the properties *)
Definition good_mindex (props : list bytes) (rs : list rec) (idx : mindex) : Prop :=
  forall p, In p props -> exists m, mget idx p = Some m /\ good_pindex p rs m.

Lemma map_add_record_spec r rs : forall props done idx, NoDup (done ++ props) ->
  Forall (fun p => exists v, r_get r p = Ok v /\ primitive v) props ->
  good_mindex done (rs ++ [r]) idx -> good_mindex props rs idx ->
  exists idx', map_add_record props r idx = Ok idx' /\ good_mindex (done ++ props) (rs ++ [r]) idx'.
Proof.
  induction props as [|p props IH]; intros done idx Hnd Hp Hd Hg; cbn [map_add_record].
  - rewrite app_nil_r. eauto.
  - inversion Hp as [|? ? (v & Hv & Hprim) Hp']; subst. rewrite Hv. cbn [rbind].
    destruct (Hg p (or_introl eq_refl)) as (m & Em & Hm). rewrite Em.
    rewrite map_add_value_primitive by assumption.
    replace (done ++ p :: props) with ((done ++ [p]) ++ props) in Hnd |- * by (rewrite <- app_assoc; reflexivity).
    apply IH; auto.
    + intros q Hq. apply in_app_or in Hq as [Hq|[<-|[]]].
      * assert (p <> q).
        { intros ->. rewrite <- app_assoc in Hnd. apply NoDup_remove_2 in Hnd. apply Hnd. apply in_or_app. auto. }
        rewrite mget_mset_other by assumption. apply Hd. assumption.
      * rewrite mget_mset_same. eexists. split; [reflexivity|]. apply good_padd; assumption.
    + intros q Hq. assert (p <> q).
      { intros ->. rewrite <- app_assoc in Hnd. apply NoDup_remove_2 in Hnd. apply Hnd. apply in_or_app. auto. }
      rewrite mget_mset_other by assumption. apply Hg. right. assumption.
Qed.

Lemma map_add_all_spec props : NoDup props -> forall rs done idx, readable props rs ->
  good_mindex props done idx ->
  exists idx', map_add_all props (map Ok rs) idx = Ok idx' /\ good_mindex props (done ++ rs) idx'.
Proof.
  intros Hnd. induction rs as [|r rs IH]; intros done idx Hr Hg; cbn [map map_add_all].
  - rewrite app_nil_r. eauto.
  - inversion Hr as [|? ? Hr1 Hr2]; subst. cbn [rbind].
    destruct (map_add_record_spec r done props [] idx Hnd Hr1) as (idx1 & E & H1); auto.
    { intros q []. }
    rewrite E. cbn [rbind]. cbn [app] in H1.
    replace (done ++ r :: rs) with ((done ++ [r]) ++ rs) by (rewrite <- app_assoc; reflexivity).
    apply IH; auto.
Qed.

Lemma map_empty_spec props : forall done idx, good_mindex done [] idx -> good_mindex (done ++ props) [] (map_empty props idx).
Proof.
  induction props as [|p props IH]; intros done idx Hg; cbn [map_empty].
  - rewrite app_nil_r. assumption.
  - replace (done ++ p :: props) with ((done ++ [p]) ++ props) by (rewrite <- app_assoc; reflexivity).
    apply IH. intros q Hq. destruct (bytes_dec p q) as [<-|Hne].
    + rewrite mget_mset_same. exists []. split; [reflexivity|]. intros k. reflexivity.
    + rewrite mget_mset_other by assumption. apply Hg. apply in_app_or in Hq as [Hq|[Hq|[]]]; [assumption|congruence].
Qed.

Lemma map_reindex_spec cfg inp rs : NoDup (mc_props cfg) -> in_iter inp = map Ok rs -> readable (mc_props cfg) rs ->
  exists idx, map_reindex cfg inp = Ok idx /\ good_mindex (mc_props cfg) rs idx.
Proof.
  intros Hnd E Hr. unfold map_reindex. rewrite E.
  apply (map_add_all_spec (mc_props cfg) Hnd rs []); auto.
  apply (map_empty_spec (mc_props cfg) []). intros p [].
Qed.

(** *** Lookup *)
Definition fhits (rs : list rec) (f : bytes * value) : list Z := hits (fst f) (snd f) rs.

Lemma map_filter_iters_spec cfg idx rs fs : good_mindex (mc_props cfg) rs idx ->
  Forall (fun f => In (fst f) (mc_props cfg) /\ primitive (snd f)) fs ->
  map_filter_iters cfg idx fs = Ok (if existsb is_nil (map (fhits rs) fs) then None
    else Some (map list_iterate (map (fhits rs) fs))).
Proof.
  intros Hg. induction 1 as [|[p v] fs [Hp Hv] Hfs IH]; [reflexivity|].
  cbn [fst snd] in *. cbn [map_filter_iters]. rewrite handles_in by assumption. cbn [negb].
  destruct (Hg p Hp) as (m & Em & Hm). rewrite Em. unfold pget.
  replace (hashable v) with true by (destruct v; cbn in *; tauto || reflexivity). cbn [rbind].
  rewrite Hm. cbn [map existsb]. change (fhits rs (p, v)) with (hits p v rs).
  destruct (is_nil (hits p v rs)) eqn:En; [reflexivity|]. rewrite IH. cbn [rbind orb].
  destruct (existsb is_nil _); reflexivity.
Qed.

Lemma hits_sorted p f rs : in_file_order rs -> StronglySorted Z.lt (hits p f rs).
Proof.
  unfold in_file_order, hits. induction rs as [|r rs IH]; cbn; intros Hs; [constructor|].
  apply StronglySorted_inv in Hs as [Hs Hlt]. specialize (IH Hs).
  destruct (r_get r p) as [v|e| |]; cbn; auto. destruct (key_eqb v f); auto. cbn. constructor; [assumption|].
  apply Forall_forall. intros x Hx. apply in_map_iff in Hx as ([x' w] & <- & Hx). apply filter_In in Hx as [Hx _].
  unfold vals in Hx. apply in_flat_map in Hx as (r2 & Hr2 & Hx). destruct (r_get r2 p); cbn in Hx; try tauto.
  destruct Hx as [[= <- <-]|[]]. cbn. rewrite Forall_map in Hlt. rewrite Forall_forall in Hlt. auto.
Qed.

Lemma hits_in p f rs x : In x (hits p f rs) <-> exists r, In r rs /\ r_pos r = x /\ exists v, r_get r p = Ok v /\ same_value v f.
Proof.
  unfold hits. rewrite in_map_iff. split.
  - intros ([x' v] & <- & H). apply filter_In in H as [H1 H2]. unfold vals in H1. apply in_flat_map in H1 as (r & Hr & Hx).
    destruct (r_get r p) as [w|e| |] eqn:E; cbn in Hx; try tauto. destruct Hx as [[= <- <-]|[]].
    exists r. repeat split; auto. exists w. split; [assumption|]. apply key_eqb_spec. assumption.
  - intros (r & Hr & <- & v & Ev & Hs). exists (r_pos r, v). split; [reflexivity|]. apply filter_In. split.
    + unfold vals. apply in_flat_map. exists r. split; [assumption|]. rewrite Ev. left. reflexivity.
    + apply key_eqb_spec. assumption.
Qed.

Lemma file_order_inj rs r r' : in_file_order rs -> In r rs -> In r' rs -> r_pos r = r_pos r' -> r = r'.
Proof.
  unfold in_file_order. induction rs as [|r0 rs IH]; cbn; [intros _ []|].
  intros Hs. apply StronglySorted_inv in Hs as [Hs Hlt]. rewrite Forall_map, Forall_forall in Hlt.
  intros [->|H1] [->|H2] He; auto.
  - apply Hlt in H2. lia.
  - apply Hlt in H1. lia.
Qed.

(** A sorted list is the selection when it has the same elements. *)
Lemma selected_sorted P rs l : selected P rs l -> in_file_order rs ->
  StronglySorted Z.lt l /\ forall x, In x l <-> exists r, In r rs /\ r_pos r = x /\ P r.
Proof.
  unfold in_file_order. induction 1 as [|r rs l Hp H IH|r rs l Hn H IH]; cbn; intros Hs.
  - split; [constructor|]. intros x. split; [intros []|intros (r & [] & _)].
  - apply StronglySorted_inv in Hs as [Hs Hlt]. destruct (IH Hs) as [IH1 IH2]. split.
    + constructor; [assumption|]. apply Forall_forall. intros x Hx. apply IH2 in Hx as (r' & Hr' & <- & _).
      rewrite Forall_map, Forall_forall in Hlt. auto.
    + intros x. rewrite IH2. split.
      * intros [<-|(r' & H1 & H2 & H3)]; eauto 6.
      * intros (r' & [<-|H1] & H2 & H3); eauto 6.
  - apply StronglySorted_inv in Hs as [Hs Hlt]. destruct (IH Hs) as [IH1 IH2]. split; [assumption|].
    intros x. rewrite IH2. split.
    + intros (r' & H1 & H2 & H3). eauto 6.
    + intros (r' & [<-|H1] & H2 & H3); [contradiction|eauto 6].
Qed.

Lemma satisfies_dec fs r : Forall (fun f => exists v, r_get r (fst f) = Ok v /\ (primitive v \/ primitive (snd f))) fs ->
  satisfies fs r \/ ~ satisfies fs r.
Proof.
  induction 1 as [|f fs (v & Ev & Hp) _ IH]; [left; constructor|].
  destruct (go_eq_primitive v (snd f) Hp) as [E|E].
  - destruct IH as [IH|IH]; [left|right; inversion 1; contradiction].
    constructor; [|assumption]. exists v. split; [assumption|]. apply go_eq_spec. assumption.
  - right. inversion 1 as [|? ? (w & Ew & Hs) _]; subst. rewrite Ev in Ew. injection Ew as <-.
    apply go_eq_spec in Hs. congruence.
Qed.

Lemma selected_exists P rs : Forall (fun r => P r \/ ~ P r) rs -> exists l, selected P rs l.
Proof.
  induction 1 as [|r rs [H|H] _ (l & IH)].
  - exists []. constructor.
  - exists (r_pos r :: l). constructor; assumption.
  - exists l. constructor; assumption.
Qed.

Lemma selected_unique P rs l l' : selected P rs l -> selected P rs l' -> l = l'.
Proof.
  intros H. revert l'. induction H; intros l' H'; inversion H'; subst; auto; try contradiction. f_equal. auto.
Qed.

Lemma selected_ext P Q rs l : Forall (fun r => P r <-> Q r) rs -> selected P rs l -> selected Q rs l.
Proof. intros HF H. induction H; inversion HF; subst; constructor; auto; tauto. Qed.

Lemma readable_filters props rs fs : readable props rs -> Forall (fun f : bytes * value => In (fst f) props) fs ->
  Forall (fun r => Forall (fun f : bytes * value => exists v, r_get r (fst f) = Ok v /\ (primitive v \/ primitive (snd f))) fs) rs.
Proof.
  intros Hr Hfs. eapply Forall_impl; [|exact Hr]. intros r H. rewrite Forall_forall in H.
  eapply Forall_impl; [|exact Hfs]. intros f Hin. destruct (H _ Hin) as (v & Ev & Hv). eauto.
Qed.

Theorem map_exact cfg inp rs : NoDup (mc_props cfg) -> in_iter inp = map Ok rs ->
  readable (mc_props cfg) rs -> in_file_order rs ->
  exists idx, map_reindex cfg inp = Ok idx /\
  forall fs, fs <> [] -> Forall (fun f => In (fst f) (mc_props cfg) /\ primitive (snd f)) fs ->
  exists l, selected (satisfies fs) rs l /\ map_positions cfg idx (mc_input cfg) fs = Ok (map Ok l).
Proof.
  intros Hnd E Hr Hord. destruct (map_reindex_spec cfg inp rs Hnd E Hr) as (idx & Ei & Hg).
  exists idx. split; [assumption|]. intros fs Hne Hfs.
  destruct (selected_exists (satisfies fs) rs) as (l & Hl).
  { eapply Forall_impl; [|eapply readable_filters; [exact Hr|]].
    - intros r H. apply satisfies_dec. exact H.
    - eapply Forall_impl; [|exact Hfs]. intros f [Hf _]; exact Hf. }
  exists l. split; [assumption|]. destruct (selected_sorted _ _ _ Hl Hord) as [Hls Hin].
  set (ls := map (fhits rs) fs).
  assert (Hinter : exists l', map_positions cfg idx (mc_input cfg) fs = Ok (map Ok l') /\ is_intersection ls l').
  { unfold map_positions. rewrite bytes_eqb_refl. cbn [negb].
    pose proof (map_filter_iters_spec cfg idx rs fs Hg Hfs) as Ef. fold ls in Ef. destruct fs as [|f fs]; [congruence|].
    rewrite Ef. cbn [rbind]. destruct (existsb is_nil ls) eqn:En.
    - exists []. split; [reflexivity|]. apply intersection_nil. apply existsb_exists in En as (x & Hx & Hn).
      destruct x; [exact Hx|discriminate].
    - destruct (join_intersection ls) as (l' & El & Hl'); [discriminate| |].
      + apply Forall_map. apply Forall_forall. intros g _. apply strict_sorted_le. apply hits_sorted. assumption.
      + exists l'. split; [|assumption]. f_equal. exact El. }
  destruct Hinter as (l' & El & Hs & Hl'). rewrite El. do 2 f_equal.
  assert (Hocc : forall x, In x l' <-> (forall m, In m ls -> In x m)).
  { intros x. destruct (Hl' x) as [(m & Hm & Em) Hle]. unfold occ in *. split.
    - intros Hx m' Hm'. apply (count_occ_In Z.eq_dec) in Hx. apply (count_occ_In Z.eq_dec). specialize (Hle m' Hm'). lia.
    - intros Hall. apply (count_occ_In Z.eq_dec). rewrite Em. apply (count_occ_In Z.eq_dec). auto. }
  apply sorted_ext; [|assumption|].
  - apply sorted_nodup_strict; [assumption|]. apply (NoDup_count_occ Z.eq_dec). intros x.
    destruct (Hl' x) as [(m & Hm & Em) _]. unfold occ in Em. rewrite Em.
    apply in_map_iff in Hm as (g & <- & _). pose proof (hits_sorted (fst g) (snd g) rs Hord) as Hgs.
    apply strict_sorted_nodup in Hgs. apply (NoDup_count_occ Z.eq_dec); assumption.
  - intros x. rewrite Hocc, Hin. unfold satisfies. split.
    + intros Hall. destruct fs as [|g0 fs]; [congruence|].
      assert (Hg0 : forall g, In g (g0 :: fs) -> exists r, In r rs /\ r_pos r = x /\ exists v, r_get r (fst g) = Ok v /\ same_value v (snd g)).
      { intros g Hgin. apply hits_in. apply Hall. apply (in_map (fhits rs)). assumption. }
      destruct (Hg0 g0 (or_introl eq_refl)) as (r & H1 & H2 & _). exists r. split; [assumption|]. split; [assumption|].
      apply Forall_forall. intros g Hgin. destruct (Hg0 g Hgin) as (r' & H1' & H2' & H3).
      replace r with r'; [assumption|]. eapply file_order_inj; eauto. congruence.
    + intros (r & H1 & H2 & H3) m Hm. apply in_map_iff in Hm as (g & <- & Hgin). rewrite Forall_forall in H3.
      apply hits_in. exists r. split; [assumption|]. split; [assumption|]. auto.
Qed.

(** *** Noop *)
Lemma noop_matches_spec r fs : Forall (fun f => exists v, r_get r (fst f) = Ok v /\ (primitive v \/ primitive (snd f))) fs ->
  (noop_matches r fs = Ok true /\ satisfies fs r) \/ (noop_matches r fs = Ok false /\ ~ satisfies fs r).
Proof.
  induction 1 as [|[p f] fs (v & Ev & Hp) Hfs IH]; [left; split; [reflexivity|constructor]|].
  cbn [noop_matches]. cbn [fst] in Ev. rewrite Ev. cbn [rbind].
  assert (Hstep : (match v with VNil => match f with VNil => noop_matches r fs | _ => Ok false end
    | _ => rlet b := go_eq v f in if b then noop_matches r fs else Ok false end) =
    (if key_eqb v f then noop_matches r fs else Ok false)).
  { unfold key_eqb. destruct (go_eq_primitive v f Hp) as [E|E]; rewrite E; cbn [rbind];
      destruct v; try reflexivity; destruct f; try reflexivity; discriminate. }
  rewrite Hstep. destruct (key_eqb v f) eqn:E.
  - apply key_eqb_spec in E. destruct IH as [[IH1 IH2]|[IH1 IH2]]; [left|right]; (split; [assumption|]).
    + constructor; [eauto|assumption].
    + inversion 1; contradiction.
  - right. split; [reflexivity|]. inversion 1 as [|? ? (w & Ew & Hs) _]; subst. cbn [fst snd] in *.
    rewrite Ev in Ew. injection Ew as <-. apply key_eqb_spec in Hs. congruence.
Qed.

Lemma noop_iterate_spec fs rs : Forall (fun r => Forall (fun f : bytes * value => exists v, r_get r (fst f) = Ok v /\ (primitive v \/ primitive (snd f))) fs) rs ->
  exists l, selected (satisfies fs) rs l /\ noop_iterate fs (map Ok rs) = map Ok l.
Proof.
  induction 1 as [|r rs Hr _ (l & IH1 & IH2)]; [exists []; split; [constructor|reflexivity]|].
  cbn [map noop_iterate]. destruct (noop_matches_spec r fs Hr) as [[E H]|[E H]]; rewrite E, IH2.
  - exists (r_pos r :: l). split; [constructor; assumption|reflexivity].
  - exists l. split; [constructor; assumption|reflexivity].
Qed.

Theorem noop_exact inp rs fs : in_iter inp = map Ok rs -> comparable fs rs ->
  exists l, selected (satisfies fs) rs l /\ noop_positions inp fs = Ok (map Ok l).
Proof.
  intros E Hr. unfold noop_positions. rewrite E.
  destruct (noop_iterate_spec fs rs Hr) as (l & H1 & H2).
  exists l. split; [assumption|]. rewrite H2. reflexivity.
Qed.

Lemma noop_iterate_app fs a b : noop_iterate fs (a ++ b) = noop_iterate fs a ++ noop_iterate fs b.
Proof.
  induction a as [|[r|e| |] a IH]; cbn [app noop_iterate]; rewrite ?IH; try reflexivity.
  destruct (noop_matches r fs) as [[]|e| |]; reflexivity.
Qed.

Theorem noop_error inp rs e its fs : in_iter inp = map Ok rs ++ Err e :: its -> comparable fs rs ->
  exists l more, selected (satisfies fs) rs l /\ noop_positions inp fs = Ok (map Ok l ++ Err e :: more).
Proof.
  intros E Hr. unfold noop_positions. rewrite E, noop_iterate_app.
  destruct (noop_iterate_spec fs rs Hr) as (l & H1 & ->). cbn [noop_iterate]. eauto.
Qed.

Lemma satisfies_perm fs fs' r : Permutation fs fs' -> satisfies fs r <-> satisfies fs' r.
Proof.
  intros Hp. unfold satisfies. split; apply Permutation_Forall; [|apply Permutation_sym]; assumption.
Qed.

Lemma noop_all inp rs : in_iter inp = map Ok rs -> noop_positions inp [] = Ok (map Ok (map r_pos rs)).
Proof.
  intros E. unfold noop_positions. rewrite E. f_equal. clear E. induction rs as [|r rs IH]; [reflexivity|]. cbn. f_equal. assumption.
Qed.

Theorem map_noop cfg inp rs : NoDup (mc_props cfg) -> in_iter inp = map Ok rs ->
  readable (mc_props cfg) rs -> in_file_order rs ->
  exists idx, map_reindex cfg inp = Ok idx /\
  forall fs fs', fs <> [] -> Forall (fun f => In (fst f) (mc_props cfg) /\ primitive (snd f)) fs -> Permutation fs fs' ->
  map_positions cfg idx (mc_input cfg) fs = noop_positions inp fs'.
Proof.
  intros Hnd E Hr Hord. destruct (map_exact cfg inp rs Hnd E Hr Hord) as (idx & Ei & Hm).
  exists idx. split; [assumption|]. intros fs fs' Hne Hfs Hperm.
  destruct (Hm fs Hne Hfs) as (l & Hl & ->).
  destruct (noop_exact inp rs fs' E) as (l' & Hl' & ->).
  - apply (readable_filters (mc_props cfg)); [assumption|]. apply (Permutation_Forall Hperm).
    eapply Forall_impl; [|exact Hfs]. intros f [Hf _]. assumption.
  - do 2 f_equal. eapply selected_unique; [exact Hl|]. eapply selected_ext; [|exact Hl'].
    apply Forall_forall. intros r _. apply satisfies_perm. apply Permutation_sym. assumption.
Qed.

(** *** Arrays *)
Lemma map_add_list l m pos : (forall m', map_add_value (VList l) m pos <> Ok m').
Proof.
  intros m'. cbn [map_add_value]. match goal with |- context [rbind ?x _] => destruct x end; cbn [rbind]; discriminate.
Qed.

Lemma map_add_list_panics l m pos : Forall primitive l -> map_add_value (VList l) m pos = Panic.
Proof.
  intros Hp. cbn [map_add_value].
  match goal with |- rbind (?g l m) _ = _ => assert (H : exists m', g l m = Ok m') end.
  { clear -Hp. revert m. induction Hp as [|x l Hx _ IH]; intros m; [eauto|].
    rewrite map_add_value_primitive by assumption. cbn [rbind]. apply IH. }
  destruct H as (m' & ->). reflexivity.
Qed.

Lemma map_add_record_list r p l : forall props idx idx', In p props -> r_get r p = Ok (VList l) ->
  map_add_record props r idx <> Ok idx'.
Proof.
  induction props as [|q props IH]; intros idx idx' Hin Hv; [destruct Hin|]. cbn [map_add_record].
  destruct Hin as [->|Hin].
  - rewrite Hv. cbn [rbind]. destruct (mget idx p) as [m|]; [|discriminate].
    pose proof (map_add_list l m (r_pos r)) as Hn. destruct (map_add_value _ _ _) as [m'|e| |]; try discriminate.
    exfalso. eapply Hn. reflexivity.
  - destruct (r_get r q) as [v|e| |]; cbn [rbind]; try discriminate.
    destruct (mget idx q) as [m|]; [|discriminate]. destruct (map_add_value _ _ _); try discriminate. auto.
Qed.

Lemma map_list_never cfg inp r p l idx : In (Ok r) (in_iter inp) -> In p (mc_props cfg) -> r_get r p = Ok (VList l) ->
  map_reindex cfg inp <> Ok idx.
Proof.
  unfold map_reindex. generalize (map_empty (mc_props cfg) []) as i0. intros i0 Hr Hp Hv. revert i0.
  induction (in_iter inp) as [|it its IH]; intros i0; [destruct Hr|]. cbn [map_add_all].
  destruct it as [r0|e| |]; cbn [rbind]; try discriminate.
  pose proof (map_add_record_list r p l (mc_props cfg) i0) as Hn.
  destruct (map_add_record (mc_props cfg) r0 i0) as [i1|e| |] eqn:E; cbn [rbind]; try discriminate.
  destruct Hr as [[= ->]|Hr]; [|auto]. exfalso. eapply Hn; eauto.
Qed.

Lemma bind_Ok {A B} (f : M A) (g : A -> M B) s b s' : mbind f g s = (Ok b, s') ->
  exists a s1, f s = (Ok a, s1) /\ g a s1 = (Ok b, s').
Proof.
  intros E. apply bind_inv in E as [H|[(e & _ & [=])|[[_ [=]]|[_ [=]]]]]. assumption.
Qed.

Lemma add_value_list lower ic idx prop v pos s idx' s' :
  add_value lower ic idx prop v pos s = (Ok idx', s') -> exists x, v = VString x.
Proof.
  destruct v; cbn [add_value]; try (cbn; discriminate); [eauto|].
  intros H. exfalso. apply bind_Ok in H as (a & s1 & _ & H). discriminate H.
Qed.

Lemma index_props_list lower ic r p l : forall props idx s idx' s', In p props -> r_get r p = Ok (VList l) ->
  index_props lower ic idx props r s <> (Ok idx', s').
Proof.
  induction props as [|q props IH]; intros idx s idx' s' Hin Hv E; [destruct Hin|]. cbn [index_props] in E.
  apply bind_Ok in E as (v & s1 & Ev & E). apply bind_Ok in E as (i1 & s2 & Ea & E).
  destruct Hin as [->|Hin]; [|eapply IH; eauto].
  rewrite Hv in Ev. injection Ev as <- <-. apply add_value_list in Ea as (x & [=]).
Qed.

Lemma wildcard_list_never lower cfg inp r p l s0 idx s : In (Ok r) (in_iter inp) -> In p (wc_props cfg) -> r_get r p = Ok (VList l) ->
  create_index lower cfg inp s0 <> (Ok idx, s).
Proof.
  intros Hr Hp Hv E. unfold create_index, create_body in E.
  apply bind_Ok in E as ([i m] & s1 & E & _).
  apply bind_Ok in E as (m0 & s2 & _ & E). apply bind_Ok in E as ([i1 m1] & s3 & _ & E).
  apply bind_Ok in E as (u & s4 & _ & E). apply bind_Ok in E as (i2 & s5 & E & _).
  revert i1 s4 E. induction (in_iter inp) as [|it its IH]; intros i1 s4 E; [destruct Hr|]. cbn [index_records] in E.
  apply bind_Ok in E as (r0 & s6 & Er & E). apply bind_Ok in E as (i3 & s7 & Ep & E).
  destruct Hr as [->|Hr]; [|eapply IH; eauto].
  injection Er as <- <-. eapply index_props_list; eauto.
Qed.
