(** Inserting a leaf, a whole byte sequence, and looking one up. *)
From Coq Require Import List ZArith Lia Bool String Permutation.
From Coq Require Import Strings.Byte.
From Coq Require Import ZifyBool ZifyNat.
From Verif Require Import Base BaseFacts Codec CodecFacts Stream StreamFacts Node Heap Radix Located NodeFacts NodeFacts2.
Import ListNotations.
Open Scope Z_scope.

Lemma raw_upd H o c : not_raw H o -> raw_mono H (upd H o c).
Proof.
  intros (c0 & Hc0 & Hn) x bs E. rewrite upd_other; [assumption|]. intros ->.
  rewrite Hc0 in E. injection E as ->. exact Hn.
Qed.

Lemma rep_relink H next next' t :
  rep H next t -> NoDup (offs t) ->
  rep (upd H (lt_off t) (CNode (cell_of next' t))) next' t.
Proof.
  intros Hr Hnd. destruct t as [o voff l ps ch]. rewrite rep_unfold in Hr. destruct Hr as (H1 & H2 & H3 & H4).
  cbn [offs] in Hnd. apply NoDup_cons_iff in Hnd as [Hni _]. cbn [lt_off].
  assert (Hraw : raw_mono H (upd H o (CNode (cell_of next' (LN o voff l ps ch))))).
  { apply raw_upd. eapply not_raw_node; eassumption. }
  apply rep_unfold. split; [apply upd_same|]. split; [|split].
  - eapply val_raw; eassumption.
  - apply (reppos_frame H); [|assumption]. intros x Hx. apply upd_other. intros ->. apply Hni, in_or_app; auto.
  - apply (reps_frame H); [assumption| |assumption]. intros x Hx. apply upd_other. intros ->. apply Hni, in_or_app; auto.
Qed.

Lemma last_off_snoc ch c : last_off (ch ++ [c]) = lt_off c.
Proof. unfold last_off. rewrite map_app. apply last_last. Qed.

Lemma hd_off_app a b tn : hd_off (a ++ b) tn = hd_off a (hd_off b tn).
Proof. destruct a; reflexivity. Qed.

Lemma in_offs_range s H next t x : Rep s H -> rep H next t -> In x (offs t) -> header_last < x < zlen (flat s).
Proof.
  intros HR Hr Hx. pose proof (rep_range s H _ _ HR Hr) as Hrg. rewrite Forall_forall in Hrg. apply Hrg; assumption.
Qed.

Lemma h_append_child s H next o voff l ps ch new r s' :
  Rep s H -> rep H next (LN o voff l ps ch) -> rep H 0 new ->
  NoDup (offs (LN o voff l ps ch) ++ offs new) ->
  append_child (cell_of next (LN o voff l ps ch)) (lt_off new) s = (r, s') -> fits s' ->
  exists H', let t' := LN o voff l ps (ch ++ [new]) in
    r = Ok (cell_of next t') /\ rep H' next t' /\
    evo s H s' H' (offs (LN o voff l ps ch) ++ offs new) (offs t').
Proof.
  intros HR Hrep Hnew Hnd E Hb. set (t := LN o voff l ps ch) in *. set (t' := LN o voff l ps (ch ++ [new])).
  set (own := offs t ++ offs new) in *.
  pose proof Hrep as Hr0. unfold t in Hr0. rewrite rep_unfold in Hr0. destruct Hr0 as (Ho & Hval & Hps & Hch). fold t in Ho.
  pose proof (cell_node_fits _ _ _ _ HR Ho) as Hfit.
  assert (Hnewr : header_last < lt_off new < zlen (flat s)) by (eapply in_offs_range; eauto using lt_off_in).
  pose proof (NoDup_app_iff (offs t) (offs new)) as Hndi. destruct (proj1 Hndi Hnd) as (Hndt & Hndn & Hdis). clear Hndi.
  pose proof Hndt as Hndt0. unfold t in Hndt0. cbn [offs] in Hndt0. apply NoDup_cons_iff in Hndt0 as [Hni Hnd1].
  rewrite NoDup_app_iff in Hnd1. destruct Hnd1 as (_ & Hndch & Hdispc).
  unfold append_child in E.
  change (n_first (cell_of next t)) with (hd_off ch 0) in E.
  assert (Hcell : set_children (cell_of next t) (hd_off (ch ++ [new]) 0) (lt_off new) = cell_of next t').
  { unfold t', t, set_children. cbn [cell_of n_off n_voff n_vlen n_next n_fpos n_lpos]. rewrite last_off_snoc. reflexivity. }
  assert (Hin_o : In o own) by (unfold own, t; left; reflexivity).
  assert (Hperm : Permutation own (offs t')) by (unfold own, t, t'; perm_z).
  assert (Hfit' : fits s -> node_fits (cell_of next t')).
  { intros Hf. rewrite <- Hcell. destruct Hfit as (A1 & A2 & A3 & A4 & A5 & A6 & A7).
    assert (in_i64 (lt_off new)) by (apply (fits_i64 s); unfold header_last in *; [assumption|lia]).
    unfold node_fits, set_children, t in *. cbn [cell_of n_voff n_vlen n_next n_first n_last n_fpos n_lpos] in *.
    assert (in_i64 (hd_off (ch ++ [new]) 0)) by (rewrite hd_off_app; destruct ch; assumption).
    tauto. }
  destruct (hd_off ch 0 =? 0) eqn:Ez.
  - (* no child yet *)
    assert (ch = []) as ->.
    { destruct ch as [|c ch']; [reflexivity|]. cbn [hd_off] in Ez.
      assert (Hc : In (lt_off c) (offs t)).
      { unfold t. cbn [offs flat_map]. right. rewrite !in_app_iff. right; left. apply lt_off_in. }
      pose proof (in_offs_range s H next t _ HR Hrep Hc) as Hx. unfold header_last in Hx. lia. }
    change (lt_off new) with (hd_off ([] ++ [new]) 0) in E at 1. rewrite Hcell in E.
    getfits E HR Hb Hf.
    destruct (h_node_save s H (cell_of next t') _ HR Ho) as (s1 & E1 & HR1 & Hl1 & Hev1); [auto|].
    step E E1. injection E as <- <-. exists (upd H o (CNode (cell_of next t'))).
    assert (Hevo : evo s H s1 (upd H o (CNode (cell_of next t'))) own own).
    { apply evo_update; auto. eapply not_raw_node; eassumption. }
    split; [reflexivity|]. split; [|eapply evo_perm; eassumption].
    apply rep_unfold. fold t'. split; [apply upd_same|]. split; [|split].
    + eapply val_raw; [apply Hevo|assumption].
    + apply (reppos_frame H); [|assumption]. intros x Hx. apply upd_other. intros ->. apply Hni, in_or_app; auto.
    + cbn [app reps hd_off]. split; [|exact I]. apply (rep_frame new H); [apply Hevo| |assumption].
      intros x Hx. apply upd_other. intros ->. apply (Hdis o); [left; reflexivity|assumption].
  - (* link after the last child *)
    destruct (snoc_cases ch) as (a & c & ->); [intros ->; discriminate|].
    getfits E HR Hb Hf.
    pose proof Hch as Hch'. rewrite reps_app in Hch'. cbn [reps hd_off] in Hch'. destruct Hch' as (Ha & Hc & _).
    assert (Elc : last_child (cell_of next t) s = (Ok (Some (cell_of 0 c)), s)).
    { unfold last_child. change (n_last (cell_of next t)) with (last_off (a ++ [c])). rewrite last_off_snoc.
      apply (h_get_node s H); auto. apply rep_off; assumption. }
    step E Elc.
    assert (Ecn : set_next (cell_of 0 c) (lt_off new) = cell_of (lt_off new) c) by (destruct c; reflexivity).
    cbv beta iota in E. rewrite Ecn in E.
    assert (Hoc : H (lt_off c) = Some (CNode (cell_of 0 c))) by (apply rep_off; assumption).
    assert (Hcin : In (lt_off c) (flat_map offs (a ++ [c]))).
    { rewrite flat_map_app, in_app_iff. right. cbn [flat_map]. rewrite app_nil_r. apply lt_off_in. }
    assert (Hcint : In (lt_off c) (offs t)) by (unfold t; cbn [offs]; right; apply in_or_app; auto).
    assert (Hcno : lt_off c <> o) by (intros Heq; apply Hni, in_or_app; right; rewrite <- Heq; assumption).
    assert (Eoc : n_off (cell_of (lt_off new) c) = lt_off c) by (destruct c; reflexivity).
    destruct (h_node_save s H (cell_of (lt_off new) c) (cell_of 0 c) HR) as (s1 & E1 & HR1 & Hl1 & Hev1).
    { rewrite Eoc. assumption. }
    { pose proof (cell_node_fits _ _ _ _ HR Hoc) as Hfc. destruct c. unfold node_fits in *.
      cbn [cell_of n_voff n_vlen n_next n_first n_last n_fpos n_lpos] in *.
      assert (in_i64 (lt_off new)) by (apply (fits_i64 s); unfold header_last in *; [assumption|lia]). tauto. }
    rewrite Eoc in HR1. step E E1.
    set (H1 := upd H (lt_off c) (CNode (cell_of (lt_off new) c))) in *.
    assert (Ehd : hd_off (a ++ [c]) 0 = hd_off ((a ++ [c]) ++ [new]) 0).
    { rewrite !hd_off_app. destruct a; reflexivity. }
    rewrite Ehd, Hcell in E.
    assert (Ho1 : H1 o = Some (CNode (cell_of next t))) by (unfold H1; rewrite upd_other by auto; assumption).
    destruct (h_node_save s1 H1 (cell_of next t') _ HR1 Ho1) as (s2 & E2 & HR2 & Hl2 & Hev2); [auto|].
    change (n_off (cell_of next t')) with o in HR2.
    step E E2. injection E as <- <-. set (H2 := upd H1 o (CNode (cell_of next t'))) in *.
    assert (Hnr1 : not_raw H (lt_off c)) by (eapply not_raw_node; eassumption).
    assert (Hnr2 : not_raw H1 o) by (eapply not_raw_node; eassumption).
    assert (Hevo1 : evo s H s1 H1 own own).
    { apply evo_update; auto. unfold own. apply in_or_app; auto. }
    assert (Hevo2 : evo s1 H1 s2 H2 own own) by (apply evo_update; auto).
    assert (Hevo : evo s H s2 H2 own own) by (eapply evo_trans; eassumption).
    exists H2. split; [reflexivity|]. split; [|eapply evo_perm; eassumption].
    apply rep_unfold. fold t'. split; [apply upd_same|]. split; [|split].
    + eapply val_raw; [apply Hevo|assumption].
    + apply (reppos_frame H); [|assumption]. intros x Hx. unfold H2, H1. rewrite !upd_other; [reflexivity| |].
      * intros ->. apply (Hdispc (lt_off c)); assumption.
      * intros ->. apply Hni, in_or_app; auto.
    + rewrite <- app_assoc. cbn [app]. apply reps_app. cbn [hd_off reps].
      rewrite flat_map_app, NoDup_app_iff in Hndch. cbn [flat_map] in Hndch. rewrite app_nil_r in Hndch.
      destruct Hndch as (_ & Hndc & Hdac).
      assert (Hsub : forall x, In x (flat_map offs a) \/ In x (offs c) -> x <> o).
      { intros x Hx ->. apply Hni, in_or_app. right. rewrite flat_map_app, in_app_iff. cbn [flat_map]. rewrite app_nil_r. tauto. }
      split; [|split; [|split; [|exact I]]].
      * apply (reps_frame H); [apply Hevo| |assumption]. intros x Hx. unfold H2, H1. rewrite !upd_other; [reflexivity| |].
        -- intros ->. apply (Hdac (lt_off c)); [assumption|apply lt_off_in].
        -- apply Hsub; auto.
      * apply (rep_frame c H1); [apply Hevo2| |apply rep_relink with (next := 0); assumption].
        intros x Hx. unfold H2. apply upd_other. apply Hsub; auto.
      * apply (rep_frame new H); [apply Hevo| |assumption].
        intros x Hx. unfold H2, H1. rewrite !upd_other; [reflexivity| |].
        -- intros ->. apply (Hdis (lt_off c)); assumption.
        -- intros ->. apply (Hdis o); [left; reflexivity|assumption].
Qed.

Lemma h_add_leaf s H next o voff l ps ch rem roff pos r s' :
  Rep s H -> rep H next (LN o voff l ps ch) -> NoDup (offs (LN o voff l ps ch)) ->
  val H roff rem -> rem <> [] -> in_i64 pos ->
  add_leaf (cell_of next (LN o voff l ps ch)) rem roff pos s = (r, s') -> fits s' ->
  exists H' o2 po, let t' := LN o voff l ps (ch ++ [LN o2 roff rem [(po, pos)] []]) in
    r = Ok (cell_of next t') /\ rep H' next t' /\
    evo s H s' H' (offs (LN o voff l ps ch)) (offs t').
Proof.
  intros HR Hrep Hnd Hv Hne Hpos E Hb. set (t := LN o voff l ps ch) in *.
  unfold add_leaf in E.
  destruct (h_new_plist s H pos HR Hpos) as (s1 & E1 & HR1 & Hl1 & Hev1).
  step E E1. set (o1 := zlen (flat s)) in *. set (H1 := upd H o1 (CPos (mkPlist o1 pos 0))) in *.
  getfits E HR1 Hb Hf1.
  destruct (h_new_node s1 H1 HR1) as (s2 & E2 & HR2 & Hl2 & Hev2).
  step E E2. set (o2 := zlen (flat s1)) in *. set (H2 := upd H1 o2 (CNode (mkNode o2 0 0 0 0 0 0 0))) in *.
  cbn [n_off p_off] in E.
  assert (Hpl : zlen (flat s) < zlen (flat s1) /\ zlen (flat s1) < zlen (flat s2)) by lia.
  set (new := LN o2 roff rem [(o1, pos)] []).
  assert (Ecell : mkNode o2 roff (zlen rem) 0 0 0 o1 o1 = cell_of 0 new) by reflexivity.
  rewrite Ecell in E. getfits E HR2 Hb Hf2.
  assert (Hrg : forall x, In x (offs t) -> header_last < x < o1).
  { intros x Hx. eapply in_offs_range; eassumption. }
  pose proof HR as (_ & _ & Hcomp). fold o1 in Hcomp. unfold header_last in Hcomp.
  assert (Hv0 : in_i64 roff /\ in_i64 (zlen rem)).
  { destruct Hv as [->|(base & bs & Hbase & Hb1 & Hb2 & _)]; [congruence|].
    pose proof (ho_in _ _ (proj1 (proj2 HR)) _ _ Hbase) as Hi. unfold csize in Hi. cbn [cenc] in Hi.
    pose proof (zlen_nonneg rem). split; apply (fits_i64 s1); try assumption; lia. }
  destruct (h_node_save s2 H2 (cell_of 0 new) (mkNode o2 0 0 0 0 0 0 0) HR2 (upd_same _ _ _)) as (s3 & E3 & HR3 & Hl3 & Hev3).
  { rewrite <- Ecell. unfold node_fits. cbn [n_voff n_vlen n_next n_first n_last n_fpos n_lpos].
    assert (in_i64 o1) by (apply (fits_i64 s1); [assumption|lia]).
    repeat split; try apply Hv0; try apply H0; unfold in_i64, two63; lia. }
  change (n_off (cell_of 0 new)) with o2 in HR3. set (H3 := upd H2 o2 (CNode (cell_of 0 new))) in *.
  step E E3.
  assert (Hevo1 : evo s H s1 H1 (offs t) (offs t ++ [o1])).
  { apply (evo_alloc s H _ s1 _ HR HR1 Hev1 Hnd). apply Forall_forall. intros x Hx. apply Hrg in Hx. fold o1. lia. }
  assert (Hevo2 : evo s1 H1 s2 H2 (offs t ++ [o1]) ((offs t ++ [o1]) ++ [o2])).
  { apply (evo_alloc s1 H1 _ s2 _ HR1 HR2 Hev2); [apply Hevo1|]. apply Forall_forall. intros x Hx.
    rewrite in_app_iff in Hx. destruct Hx as [Hx|[<-|[]]]; [apply Hrg in Hx|]; lia. }
  assert (Hevo3 : evo s2 H2 s3 H3 ((offs t ++ [o1]) ++ [o2]) ((offs t ++ [o1]) ++ [o2])).
  { apply evo_update; auto.
    - eapply not_raw_node. unfold H2. apply upd_same.
    - apply Hevo2.
    - rewrite in_app_iff. simpl; auto. }
  assert (Hevo13 : evo s H s3 H3 (offs t) (offs t ++ offs new)).
  { eapply evo_perm; [eapply evo_trans; [exact Hevo1|eapply evo_trans; [exact Hevo2|exact Hevo3]]|].
    unfold new. perm_z. }
  assert (Hrep3 : rep H3 next t).
  { apply (rep_frame t H); [apply Hevo13| |assumption]. intros x Hx. apply Hrg in Hx.
    unfold H3, H2, H1. rewrite !upd_other by lia. reflexivity. }
  assert (Hnew3 : rep H3 0 new).
  { unfold new. apply rep_unfold. split; [apply upd_same|]. split; [eapply val_raw; [apply Hevo13|assumption]|].
    split; [|exact I]. cbn [reppos hd_poff]. split; [|exact I].
    unfold H3, H2, H1. rewrite !upd_other by lia. apply upd_same. }
  change o2 with (lt_off new) in E.
  destruct (h_append_child s3 H3 next o voff l ps ch new r s' HR3 Hrep3 Hnew3 (ev_nodup _ _ _ _ _ _ Hevo13) E Hb)
    as (H4 & -> & Hrep4 & Hevo4).
  exists H4, o2, o1. split; [reflexivity|]. split; [exact Hrep4|].
  eapply evo_trans; eassumption.
Qed.

(** Replacing one child by its evolved version. *)
Lemma h_child_replace s H s' H' next o voff l ps pre c c' post :
  Rep s H -> rep H next (LN o voff l ps (pre ++ c :: post)) ->
  NoDup (offs (LN o voff l ps (pre ++ c :: post))) ->
  evo s H s' H' (offs c) (offs c') -> rep H' (hd_off post 0) c' -> lt_off c' = lt_off c ->
  cell_of next (LN o voff l ps (pre ++ c' :: post)) = cell_of next (LN o voff l ps (pre ++ c :: post)) /\
  rep H' next (LN o voff l ps (pre ++ c' :: post)) /\
  evo s H s' H' (offs (LN o voff l ps (pre ++ c :: post))) (offs (LN o voff l ps (pre ++ c' :: post))).
Proof.
  intros HR Hrep Hnd Hevo Hc' Eoff.
  assert (Ecell : cell_of next (LN o voff l ps (pre ++ c' :: post)) = cell_of next (LN o voff l ps (pre ++ c :: post))).
  { cbn [cell_of]. f_equal.
    - rewrite !hd_off_app. cbn [hd_off]. rewrite Eoff. reflexivity.
    - unfold last_off. rewrite !map_app. cbn [map]. rewrite Eoff. reflexivity. }
  split; [exact Ecell|].
  set (A := o :: map fst ps ++ flat_map offs pre). set (C := flat_map offs post).
  assert (Eown : forall x, offs (LN o voff l ps (pre ++ x :: post)) = A ++ offs x ++ C).
  { intros x. unfold A, C. cbn [offs app]. rewrite flat_map_app. cbn [flat_map]. rewrite <- !app_assoc. reflexivity. }
  assert (Hrg : Forall (fun x => x < zlen (flat s)) (A ++ offs c ++ C)).
  { rewrite <- Eown. apply forall_lt_own. eapply rep_range; eassumption. }
  rewrite !Forall_app in Hrg. destruct Hrg as (HA & Hcr & HC).
  rewrite Eown in Hnd |- *. rewrite Eown.
  split; [|apply evo_frame_l; assumption].
  rewrite !NoDup_app_iff in Hnd. destruct Hnd as (_ & (_ & _ & HcC) & HAc).
  assert (Hfr : forall x, In x A \/ In x C -> H' x = H x).
  { intros x Hx. apply (ev_frame _ _ _ _ _ _ Hevo).
    - rewrite Forall_forall in HA, HC. destruct Hx; auto.
    - intros Hin. destruct Hx as [Hx|Hx].
      + apply (HAc x Hx). apply in_or_app; auto.
      + apply (HcC x); assumption. }
  rewrite rep_unfold in Hrep |- *. destruct Hrep as (H1 & H2 & H3 & H4).
  rewrite Ecell. split; [|split; [|split]].
  - rewrite Hfr; [assumption|]. left; left; reflexivity.
  - eapply val_raw; [apply Hevo|assumption].
  - apply (reppos_frame H); [|assumption]. intros x Hx. apply Hfr. left; right. apply in_or_app; auto.
  - rewrite reps_app in H4 |- *. cbn [hd_off reps] in *. rewrite Eoff. destruct H4 as (H5 & H6 & H7).
    split; [|split; [assumption|]].
    + apply (reps_frame H); [apply Hevo| |assumption]. intros x Hx. apply Hfr. left; right. apply in_or_app; auto.
    + apply (reps_frame H); [apply Hevo| |assumption]. intros x Hx. apply Hfr. right; assumption.
Qed.

Lemma erase_label t : t_label (erase t) = lt_label t.
Proof. destruct t; reflexivity. Qed.

Lemma erase_zero ch v :
  Forall (fun t => common_bytes (lt_label t) v = 0%nat) ch ->
  Forall (fun t => common_bytes (t_label t) v = 0%nat) (map erase ch).
Proof.
  intros Hf. apply Forall_map. eapply Forall_impl; [|exact Hf]. intros t Ht. rewrite erase_label. exact Ht.
Qed.

Lemma wfs_labels ch : wfs (map erase ch) -> Forall (fun t => lt_label t <> []) ch.
Proof.
  intros Hw. inversion Hw as [cs Hf _]; subst. rewrite Forall_map in Hf.
  eapply Forall_impl; [|exact Hf]. intros t Ht. rewrite <- erase_label. apply wft_label; assumption.
Qed.

Lemma addf_skip n pre rest s p : s <> [] ->
  Forall (fun t => common_bytes (t_label t) s = 0%nat) pre ->
  addf (S n) (pre ++ rest) s p = pre ++ addf (S n) rest s p.
Proof.
  intros Hs Hf. induction Hf as [|[l ps cs] pre Hc Hf IH]; [reflexivity|].
  cbn [app]. rewrite addf_unfold by assumption. cbn [t_label] in Hc. rewrite Hc. cbn [Nat.eqb]. cbv zeta. rewrite IH. reflexivity.
Qed.

Lemma h_add_loop fuel : forall s H next o voff l ps ch rem roff pos r s',
  Rep s H -> rep H next (LN o voff l ps ch) -> NoDup (offs (LN o voff l ps ch)) ->
  wfs (map erase ch) -> val H roff rem -> in_i64 pos -> (List.length rem < fuel)%nat ->
  add_loop fuel (cell_of next (LN o voff l ps ch)) rem roff pos s = (r, s') -> fits s' ->
  exists H' ch', r = Ok (cell_of next (LN o voff l ps ch')) /\ rep H' next (LN o voff l ps ch') /\
    map erase ch' = addf fuel (map erase ch) rem pos /\
    evo s H s' H' (offs (LN o voff l ps ch)) (offs (LN o voff l ps ch')).
Proof.
  induction fuel as [|fuel IH]; intros s H next o voff l ps ch rem roff pos r s' HR Hrep Hnd Hwf Hv Hpos Hfuel E Hb; [lia|].
  destruct rem as [|b rem0] eqn:Erem.
  - cbn [add_loop] in E. injection E as <- <-. exists H, ch. split; [reflexivity|]. split; [assumption|].
    split; [reflexivity|]. apply evo_refl; assumption.
  - rewrite <- Erem in *. assert (Hne : rem <> []) by (rewrite Erem; discriminate).
    assert (E0 : add_loop (S fuel) (cell_of next (LN o voff l ps ch)) rem roff pos =
      do r <- find_child_by_prefix (cell_of next (LN o voff l ps ch)) rem;
      match r with
      | None => add_leaf (cell_of next (LN o voff l ps ch)) rem roff pos
      | Some (existing, common) =>
        do existing1 <- (if common <? n_vlen existing then split_node existing common
                         else ret existing);
        do existing2 <- append_position_if_not_exists existing1 pos;
        do _ <- add_loop fuel existing2 (skipn (Z.to_nat common) rem) (roff + common) pos;
        ret (cell_of next (LN o voff l ps ch))
      end) by (rewrite Erem; reflexivity).
    rewrite E0 in E. clear E0.
    getfits E HR Hb Hf.
    pose proof Hrep as Hr0. rewrite rep_unfold in Hr0. destruct Hr0 as (_ & _ & _ & Hch).
    assert (Hndch : NoDup (flat_map offs ch)).
    { cbn [offs] in Hnd. apply NoDup_cons_iff in Hnd as [_ Hnd1]. rewrite NoDup_app_iff in Hnd1. apply Hnd1. }
    destruct (h_find s H ch (cell_of next (LN o voff l ps ch)) rem HR Hf Hch Hndch (wfs_labels _ Hwf) eq_refl) as (fr & Ef & Hfr).
    step E Ef.
    destruct Hfr as [Hall|pre c post Ech Hpre Hc].
    + (* a new leaf *)
      destruct (h_add_leaf s H next o voff l ps ch rem roff pos r s') as (H' & o2 & po & -> & Hrep' & Hevo'); auto.
      exists H', (ch ++ [LN o2 roff rem [(po, pos)] []]). split; [reflexivity|]. split; [assumption|].
      split; [|assumption].
      rewrite map_app. rewrite <- (app_nil_r (map erase ch)) at 2.
      rewrite addf_skip by (try apply erase_zero; assumption).
      rewrite addf_unfold by assumption. reflexivity.
    + destruct c as [co cvoff cl cps cch]. cbn [lt_label] in *.
      set (k := common_bytes cl rem) in *.
      destruct (common_bytes_le cl rem) as [Hk1 Hk2]. fold k in Hk1, Hk2.
      assert (Hwc : wft (erase (LN co cvoff cl cps cch))).
      { inversion Hwf as [cs Hfw _]; subst. rewrite Forall_map, Forall_forall in Hfw. apply Hfw. rewrite in_app_iff. simpl; auto. }
      assert (Hcps : cps <> []) by (inversion Hwc as [? ? ? _ Hx _]; intros ->; apply Hx; reflexivity).
      pose proof (wft_children _ _ _ Hwc) as Hwcc.
      assert (Hrc : rep H (hd_off post 0) (LN co cvoff cl cps cch)).
      { rewrite Ech, reps_app in Hch. cbn [reps] in Hch. tauto. }
      assert (Hndc : NoDup (offs (LN co cvoff cl cps cch))).
      { rewrite Ech, flat_map_app in Hndch. cbn [flat_map] in Hndch. rewrite !NoDup_app_iff in Hndch. tauto. }
      set (nx := hd_off post 0) in *.
      (* the two shapes of the child after the optional split *)
      assert (Hsplit : exists s1 H1 cl1 cch1,
        (if Z.of_nat k <? n_vlen (cell_of nx (LN co cvoff cl cps cch)) then split_node (cell_of nx (LN co cvoff cl cps cch)) (Z.of_nat k)
         else ret (cell_of nx (LN co cvoff cl cps cch))) s = (Ok (cell_of nx (LN co cvoff cl1 cps cch1)), s1) /\
        fits s1 /\ rep H1 nx (LN co cvoff cl1 cps cch1) /\
        evo s H s1 H1 (offs (LN co cvoff cl cps cch)) (offs (LN co cvoff cl1 cps cch1)) /\
        wfs (map erase cch1) /\
        addf (S fuel) (map erase (LN co cvoff cl cps cch :: post)) rem pos =
        Radix.Node cl1 (app_if (map snd cps) pos) (addf fuel (map erase cch1) (skipn k rem) pos) :: map erase post).
      { change (n_vlen (cell_of nx (LN co cvoff cl cps cch))) with (zlen cl) in *.
        cbn [map erase]. rewrite addf_unfold by assumption. cbv zeta. fold k.
        replace (k =? 0)%nat with false by lia.
        destruct (Z.of_nat k <? zlen cl) eqn:Ek.
        - unfold zlen in Ek. replace (k <? List.length cl)%nat with true by lia.
          unfold mbind at 1 in E.
          destruct (split_node (cell_of nx (LN co cvoff cl cps cch)) (Z.of_nat k) s) as [rs s1] eqn:Es.
          assert (Hf1 : fits s1).
          { assert (Hw1 : swf s1 /\ zlen (flat s) <= zlen (flat s1)) by (apply (mono_split _ _ _ _ _ (Rep_wf _ _ HR) Es)).
            destruct rs as [ex| | |]; try (injection E as <- <-; exact Hb).
            match type of E with ?prog s1 = _ => refine (mono_fits prog s1 _ _ _ (proj1 Hw1) E Hb) end. mono_tac. }
          destruct (h_split s H nx co cvoff cl cps cch k rs s1) as (H1 & o2 & ps2 & -> & Hrep1 & Hps2 & Hevo1); auto; [lia|].
          exists s1, H1, (firstn k cl), [LN o2 (cvoff + Z.of_nat k) (skipn k cl) ps2 cch].
          split; [reflexivity|]. split; [assumption|]. split; [assumption|]. split; [assumption|].
          cbn [map erase]. rewrite Hps2. split; [|reflexivity].
          apply wfs_single. constructor.
          + intros Hx. apply (f_equal (@List.length byte)) in Hx. rewrite skipn_length in Hx. simpl in Hx. lia.
          + destruct cps; [congruence|discriminate].
          + assumption.
        - unfold zlen in Ek. replace (k <? List.length cl)%nat with false by lia.
          exists s, H, cl, cch. split; [reflexivity|]. split; [assumption|]. split; [assumption|].
          split; [apply evo_refl; assumption|]. split; [assumption|reflexivity]. }
      destruct Hsplit as (s1 & H1 & cl1 & cch1 & E1 & Hf1 & Hrep1 & Hevo1 & Hwf1 & Eaddf).
      step E E1. pose proof (ev_rep _ _ _ _ _ _ Hevo1) as HR1.
      unfold mbind at 1 in E.
      destruct (append_position_if_not_exists (cell_of nx (LN co cvoff cl1 cps cch1)) pos s1) as [ra s2] eqn:Ea.
      assert (Hf2 : fits s2).
      { assert (Hw1 : swf s2 /\ zlen (flat s1) <= zlen (flat s2)) by (apply (mono_append_position _ _ _ _ _ (Rep_wf _ _ HR1) Ea)).
        destruct ra as [ex| | |]; try (injection E as <- <-; exact Hb).
        match type of E with ?prog s2 = _ => refine (mono_fits prog s2 _ _ _ (proj1 Hw1) E Hb) end. mono_tac. }
      destruct (h_append_position s1 H1 nx co cvoff cl1 cps cch1 pos ra s2) as (H2 & cps2 & -> & Hrep2 & Hps2 & Hevo2); auto.
      { apply Hevo1. }
      pose proof (ev_rep _ _ _ _ _ _ Hevo2) as HR2.
      unfold mbind in E. rewrite Nat2Z.id in E.
      destruct (add_loop fuel (cell_of nx (LN co cvoff cl1 cps2 cch1)) (skipn k rem) (roff + Z.of_nat k) pos s2) as [rl s3] eqn:El.
      assert (Hf3 : fits s3) by (destruct rl; injection E as <- <-; exact Hb).
      destruct (IH s2 H2 nx co cvoff cl1 cps2 cch1 (skipn k rem) (roff + Z.of_nat k) pos rl s3) as (H3 & cch3 & -> & Hrep3 & Ech3 & Hevo3); auto.
      { apply Hevo2. }
      { apply val_skip; [|assumption]. eapply val_raw; [|exact Hv].
        eapply raw_mono_trans; [apply Hevo1|apply Hevo2]. }
      { rewrite skipn_length. lia. }
      injection E as <- <-.
      assert (Hevo : evo s H s3 H3 (offs (LN co cvoff cl cps cch)) (offs (LN co cvoff cl1 cps2 cch3))).
      { eapply evo_trans; [exact Hevo1|]. eapply evo_trans; [exact Hevo2|exact Hevo3]. }
      rewrite Ech in Hrep, Hnd.
      destruct (h_child_replace s H s3 H3 next o voff l ps pre _ (LN co cvoff cl1 cps2 cch3) post HR Hrep Hnd Hevo Hrep3 eq_refl)
        as (Ecell & Hrep' & Hevo').
      exists H3, (pre ++ LN co cvoff cl1 cps2 cch3 :: post). rewrite Ecell, Ech.
      split; [reflexivity|]. split; [assumption|]. split; [|assumption].
      rewrite !map_app. rewrite addf_skip by (try apply erase_zero; assumption).
      rewrite Eaddf. cbn [map erase]. rewrite Ech3, Hps2. reflexivity.
Qed.

Lemma h_add_suffixes bs : forall s H next o voff l ps ch roff pos r s',
  Rep s H -> rep H next (LN o voff l ps ch) -> NoDup (offs (LN o voff l ps ch)) ->
  wfs (map erase ch) -> val H roff bs -> in_i64 pos ->
  add_suffixes (cell_of next (LN o voff l ps ch)) bs roff pos s = (r, s') -> fits s' ->
  exists H' ch', r = Ok (cell_of next (LN o voff l ps ch')) /\ rep H' next (LN o voff l ps ch') /\
    map erase ch' = add_all (map erase ch) bs pos /\
    evo s H s' H' (offs (LN o voff l ps ch)) (offs (LN o voff l ps ch')).
Proof.
  induction bs as [|b bs IH]; intros s H next o voff l ps ch roff pos r s' HR Hrep Hnd Hwf Hv Hpos E Hb.
  - injection E as <- <-. exists H, ch. split; [reflexivity|]. split; [assumption|].
    split; [reflexivity|]. apply evo_refl; assumption.
  - cbn [add_suffixes] in E. unfold mbind in E.
    destruct (add_sequence (cell_of next (LN o voff l ps ch)) (b :: bs) roff pos s) as [rl s1] eqn:El.
    assert (Hf1 : fits s1).
    { assert (Hw1 : swf s1 /\ zlen (flat s) <= zlen (flat s1)) by (apply (mono_add_sequence _ _ _ _ _ _ _ (Rep_wf _ _ HR) El)).
      destruct rl as [ex| | |]; try (injection E as <- <-; exact Hb).
      match type of E with ?prog s1 = _ => refine (mono_fits prog s1 _ _ _ (proj1 Hw1) E Hb) end. mono_tac. }
    unfold add_sequence in El.
    destruct (h_add_loop _ _ _ _ _ _ _ _ _ _ _ _ _ _ HR Hrep Hnd Hwf Hv Hpos (Nat.lt_succ_diag_r _) El Hf1)
      as (H1 & ch1 & -> & Hrep1 & Ech1 & Hevo1).
    destruct (IH s1 H1 next o voff l ps ch1 (roff + 1) pos r s') as (H2 & ch2 & -> & Hrep2 & Ech2 & Hevo2); auto.
    + apply Hevo1.
    + apply Hevo1.
    + rewrite Ech1. apply wfs_add; [assumption|lia].
    + change (roff + 1) with (roff + Z.of_nat 1). change bs with (skipn 1 (b :: bs)).
      apply val_skip; [|simpl; lia]. eapply val_raw; [apply Hevo1|assumption].
    + exists H2, ch2. split; [reflexivity|]. split; [assumption|]. split.
      * rewrite Ech2, Ech1. reflexivity.
      * eapply evo_trans; eassumption.
Qed.

Lemma h_add_raw s H bs s' r :
  Rep s H -> stream_add bs s = (r, s') ->
  exists H', r = Ok (zlen (flat s)) /\ val H' (zlen (flat s)) bs /\
    (forall own, NoDup own -> Forall (fun o => o < zlen (flat s)) own -> evo s H s' H' own own).
Proof.
  intros HR E. destruct bs as [|b bs].
  - destruct (h_add_empty s H HR) as (s1 & E1 & HR1 & Hl1 & Hev1). rewrite E1 in E. injection E as <- <-.
    exists H. split; [reflexivity|]. split; [left; reflexivity|]. intros own Hnd _.
    constructor; auto using raw_mono_refl.
  - destruct (h_add s H (CRaw (b :: bs)) HR) as (s1 & E1 & HR1 & Hl1 & Hev1).
    { unfold csize. cbn [cenc]. unfold zlen. simpl. lia. }
    { exact I. }
    cbn [cenc] in E1. rewrite E1 in E. injection E as <- <-.
    eexists. split; [reflexivity|]. split.
    + right. exists (zlen (flat s)), (b :: bs). split; [apply upd_same|]. split; [lia|]. split; [lia|].
      rewrite Z.sub_diag. apply slice_full. reflexivity.
    + intros own Hnd Hlt. eapply evo_weaken; [apply (evo_alloc s H _ s1 own); eassumption| |assumption].
      intros x Hx. apply in_or_app; auto.
Qed.

Theorem h_add_all s H next o voff l ps ch bs pos r s' :
  Rep s H -> rep H next (LN o voff l ps ch) -> NoDup (offs (LN o voff l ps ch)) ->
  wfs (map erase ch) -> in_i64 pos ->
  add_all_sequences (cell_of next (LN o voff l ps ch)) bs pos s = (r, s') -> fits s' ->
  exists H' ch', r = Ok (cell_of next (LN o voff l ps ch')) /\ rep H' next (LN o voff l ps ch') /\
    map erase ch' = add_all (map erase ch) bs pos /\
    evo s H s' H' (offs (LN o voff l ps ch)) (offs (LN o voff l ps ch')).
Proof.
  intros HR Hrep Hnd Hwf Hpos E Hb. unfold add_all_sequences, mbind in E.
  destruct (stream_add bs s) as [ra s1] eqn:Ea.
  destruct (h_add_raw s H bs s1 ra HR Ea) as (H1 & -> & Hv & Hev1).
  assert (Hevo1 : evo s H s1 H1 (offs (LN o voff l ps ch)) (offs (LN o voff l ps ch))).
  { apply Hev1; [assumption|]. apply forall_lt_own. eapply rep_range; eassumption. }
  assert (Hrep1 : rep H1 next (LN o voff l ps ch)).
  { apply (rep_frame _ H); [apply Hevo1| |assumption]. intros x Hx.
    pose proof (in_offs_range s H _ _ _ HR Hrep Hx).
    apply (ev_frame _ _ _ _ _ _ (Hev1 [] (NoDup_nil _) (Forall_nil _))); [lia|simpl; tauto]. }
  destruct (h_add_suffixes bs s1 H1 next o voff l ps ch (zlen (flat s)) pos r s') as (H2 & ch2 & -> & Hrep2 & Ech2 & Hevo2); auto.
  { apply Hevo1. }
  exists H2, ch2. split; [reflexivity|]. split; [assumption|]. split; [assumption|]. eapply evo_trans; eassumption.
Qed.

(** ** Lookup *)

Lemma h_get_loop fuel : forall s H next o voff l ps ch q,
  Rep s H -> fits s -> rep H next (LN o voff l ps ch) -> NoDup (offs (LN o voff l ps ch)) ->
  wfs (map erase ch) -> (List.length q < fuel)%nat -> q <> [] ->
  exists fps, get_loop fuel (cell_of next (LN o voff l ps ch)) q s = (Ok (phead fps), s) /\
    reppos H fps /\ NoDup (map fst fps) /\ map snd fps = searchf fuel (map erase ch) q.
Proof.
  induction fuel as [|fuel IH]; intros s H next o voff l ps ch q HR Hf Hrep Hnd Hwf Hfuel Hq; [lia|].
  assert (E0 : get_loop (S fuel) (cell_of next (LN o voff l ps ch)) q =
    do r <- find_child_by_prefix (cell_of next (LN o voff l ps ch)) q;
      match r with
      | None => ret None
      | Some (c, common) =>
        if (common <? n_vlen c) && (common <? zlen q) then ret None
        else get_loop fuel c (skipn (Z.to_nat (n_vlen c)) q)
      end) by (destruct q; [congruence|reflexivity]).
  rewrite E0. clear E0.
  pose proof Hrep as Hr0. rewrite rep_unfold in Hr0. destruct Hr0 as (_ & _ & _ & Hch).
  assert (Hndch : NoDup (flat_map offs ch)).
  { cbn [offs] in Hnd. apply NoDup_cons_iff in Hnd as [_ Hnd1]. rewrite NoDup_app_iff in Hnd1. apply Hnd1. }
  destruct (h_find s H ch (cell_of next (LN o voff l ps ch)) q HR Hf Hch Hndch (wfs_labels _ Hwf) eq_refl) as (fr & Ef & Hfr).
  unfold mbind. rewrite Ef.
  destruct Hfr as [Hall|pre c post Ech Hpre Hc].
  - exists []. split; [reflexivity|]. split; [exact I|]. split; [constructor|].
    rewrite searchf_skip by (apply erase_zero; assumption). reflexivity.
  - destruct c as [co cvoff cl cps cch]. cbn [lt_label] in *.
    destruct (common_bytes_le cl q) as [Hk1 Hk2].
    assert (Hwc : wft (erase (LN co cvoff cl cps cch))).
    { inversion Hwf as [cs Hfw _]; subst. rewrite Forall_map, Forall_forall in Hfw. apply Hfw. rewrite in_app_iff. simpl; auto. }
    pose proof (wft_children _ _ _ Hwc) as Hwcc.
    assert (Hrc : rep H (hd_off post 0) (LN co cvoff cl cps cch)).
    { rewrite Ech, reps_app in Hch. cbn [reps] in Hch. tauto. }
    assert (Hndc : NoDup (offs (LN co cvoff cl cps cch))).
    { rewrite Ech, flat_map_app in Hndch. cbn [flat_map] in Hndch. rewrite !NoDup_app_iff in Hndch. tauto. }
    rewrite Ech, map_app, searchf_skip_app by (apply erase_zero; assumption).
    cbn [map erase]. rewrite searchf_hit by assumption.
    change (n_vlen (cell_of (hd_off post 0) (LN co cvoff cl cps cch))) with (zlen cl).
    unfold zlen. rewrite Nat2Z.id.
    destruct ((common_bytes cl q <? List.length cl)%nat && (common_bytes cl q <? List.length q)%nat) eqn:Ek.
    + replace ((Z.of_nat (common_bytes cl q) <? Z.of_nat (List.length cl)) && (Z.of_nat (common_bytes cl q) <? Z.of_nat (List.length q))) with true by lia.
      exists []. split; [reflexivity|]. split; [exact I|]. split; [constructor|reflexivity].
    + replace ((Z.of_nat (common_bytes cl q) <? Z.of_nat (List.length cl)) && (Z.of_nat (common_bytes cl q) <? Z.of_nat (List.length q))) with false by lia.
      destruct (List.length q <=? List.length cl)%nat eqn:Eq.
      * rewrite skipn_all2 by lia. destruct fuel as [|fuel]; [destruct q; simpl in *; [congruence|lia]|].
        cbn [get_loop]. unfold first_position.
        change (n_fpos (cell_of (hd_off post 0) (LN co cvoff cl cps cch))) with (hd_poff cps).
        rewrite rep_unfold in Hrc. destruct Hrc as (_ & _ & Hrps & _).
        rewrite (h_phead s H cps HR Hf Hrps). exists cps. split; [reflexivity|]. split; [assumption|].
        split; [|reflexivity]. cbn [offs] in Hndc. apply NoDup_cons_iff in Hndc as [_ Hndc]. rewrite NoDup_app_iff in Hndc. apply Hndc.
      * destruct (IH s H (hd_off post 0) co cvoff cl cps cch (skipn (List.length cl) q)) as (fps & Eg & Hfp & Hndf & Es); auto.
        { rewrite skipn_length. destruct cl; [simpl in Hc; lia|]. simpl. lia. }
        { intros Hx. apply (f_equal (@List.length byte)) in Hx. rewrite skipn_length in Hx. simpl in Hx. lia. }
        exists fps. split; [exact Eg|]. split; [assumption|]. split; [assumption|]. exact Es.
Qed.
