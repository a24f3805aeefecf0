(** Searching, splitting and inserting: the remaining operations of Node.v on a
    tree located in the stream. *)
From Coq Require Import List ZArith Lia Bool String Permutation.
From Coq Require Import Strings.Byte.
From Coq Require Import ZifyBool ZifyNat.
From Verif Require Import Base BaseFacts Codec CodecFacts Stream StreamFacts Node Heap Radix Located NodeFacts.
Import ListNotations.
Open Scope Z_scope.

(** ** Finding a child *)

Definition nhead (tn : Z) (ch : list lt) : option node :=
  match ch with [] => None | c :: r => Some (cell_of (hd_off r tn) c) end.

Lemma h_nhead s H ch :
  Rep s H -> fits s -> reps H 0 ch -> get_node (hd_off ch 0) s = (Ok (nhead 0 ch), s).
Proof.
  intros HR Hf Hr. destruct ch as [|c r]; [reflexivity|].
  cbn [hd_off nhead reps] in *. apply (h_get_node s H); try assumption.
  apply rep_off. tauto.
Qed.

Inductive find_res (ch : list lt) (v : bytes) : option (node * Z) -> Prop :=
| find_none : Forall (fun t => common_bytes (lt_label t) v = 0%nat) ch -> find_res ch v None
| find_some pre t post :
    ch = pre ++ t :: post ->
    Forall (fun t => common_bytes (lt_label t) v = 0%nat) pre ->
    common_bytes (lt_label t) v <> 0%nat ->
    find_res ch v (Some (cell_of (hd_off post 0) t, Z.of_nat (common_bytes (lt_label t) v))).

Lemma rep_value s H next t :
  Rep s H -> fits s -> rep H next t -> lt_label t <> [] ->
  node_value (cell_of next t) s = (Ok (lt_label t), s).
Proof.
  intros HR Hf Hr Hne. destruct t as [o voff l ps ch]. rewrite rep_unfold in Hr.
  apply (h_value s H); try assumption; cbn [cell_of n_voff n_vlen lt_label]; try tauto.
Qed.

Lemma h_find_loop ch : forall fuel s H v,
  Rep s H -> fits s -> reps H 0 ch -> Forall (fun t => lt_label t <> []) ch ->
  (List.length ch < fuel)%nat ->
  exists r, find_loop fuel (nhead 0 ch) v s = (Ok r, s) /\ find_res ch v r.
Proof.
  induction ch as [|c ch IH]; intros fuel s H v HR Hf Hr Hl Hfuel.
  - destruct fuel; [simpl in Hfuel; lia|]. exists None. split; [reflexivity|]. constructor. constructor.
  - destruct fuel as [|fuel]; [simpl in Hfuel; lia|]. cbn [nhead find_loop].
    cbn [reps] in Hr. destruct Hr as [Hc Hr]. inversion Hl as [|? ? Hlc Hlr]; subst.
    unfold mbind. rewrite (rep_value s H) by assumption.
    destruct (0 <? Z.of_nat (common_bytes (lt_label c) v)) eqn:E.
    + eexists. split; [reflexivity|]. apply (find_some (c :: ch) v [] c ch); [reflexivity|constructor|lia].
    + unfold next_sibling.
      assert (En : n_next (cell_of (hd_off ch 0) c) = hd_off ch 0) by (destruct c; reflexivity).
      rewrite En, (h_nhead s H ch HR Hf Hr).
      destruct (IH fuel s H v HR Hf Hr Hlr ltac:(simpl in Hfuel; lia)) as (r & Er & Hres).
      exists r. split; [exact Er|].
      destruct Hres as [Hall|pre t post -> Hpre Ht].
      * constructor. constructor; [lia|assumption].
      * apply (find_some _ v (c :: pre) t post); [reflexivity|constructor; [lia|assumption]|assumption].
Qed.

Lemma map_off_in_offs ch o : In o (map lt_off ch) -> In o (flat_map offs ch).
Proof.
  intros H. apply in_map_iff in H as (t & <- & Ht). apply in_flat_map. exists t. split; [assumption|apply lt_off_in].
Qed.

Lemma NoDup_map_off ch : NoDup (flat_map offs ch) -> NoDup (map lt_off ch).
Proof.
  induction ch as [|c ch IH]; simpl; intros H; [constructor|].
  rewrite NoDup_app_iff in H. destruct H as (H1 & H2 & H3). constructor; [|auto].
  intros Hin. apply (H3 (lt_off c)); [apply lt_off_in|apply map_off_in_offs; assumption].
Qed.

Lemma chain_fuel_children s H ch :
  Rep s H -> reps H 0 ch -> NoDup (flat_map offs ch) -> (List.length ch < chain_fuel s)%nat.
Proof.
  intros HR Hr Hnd. unfold chain_fuel. destruct HR as (Hw & Hok & Hc). pose proof Hw as [_ ->].
  apply Nat.lt_succ_r. rewrite <- (map_length lt_off ch). apply NoDup_Z_bound.
  - apply NoDup_map_off; assumption.
  - apply Forall_forall. intros x Hx. apply map_off_in_offs in Hx.
    pose proof (reps_range s H 0 ch (conj Hw (conj Hok Hc)) Hr) as Hrg. rewrite Forall_forall in Hrg.
    specialize (Hrg _ Hx). unfold in_range, header_last in Hrg. lia.
Qed.

Lemma h_find s H ch n v :
  Rep s H -> fits s -> reps H 0 ch -> NoDup (flat_map offs ch) ->
  Forall (fun t => lt_label t <> []) ch -> n_first n = hd_off ch 0 ->
  exists r, find_child_by_prefix n v s = (Ok r, s) /\ find_res ch v r.
Proof.
  intros HR Hf Hr Hnd Hl Hn. unfold find_child_by_prefix, first_child, mbind.
  rewrite Hn, (h_nhead s H ch HR Hf Hr).
  apply (h_find_loop ch (chain_fuel s) s H); try assumption.
  eapply chain_fuel_children; eassumption.
Qed.

(** ** Splitting a node *)

Lemma evo_rep s H s' H' a b t next :
  evo s H s' H' a b -> Rep s H -> rep H next t -> (forall o, In o (offs t) -> ~ In o a) -> rep H' next t.
Proof.
  intros E HR Hr Hd. apply (rep_frame t H H'); [apply E| |assumption].
  intros o Ho. apply (ev_frame _ _ _ _ _ _ E); [|auto].
  pose proof (rep_range s H _ _ HR Hr) as Hrg. rewrite Forall_forall in Hrg. apply Hrg in Ho.
  unfold in_range in Ho. lia.
Qed.
Lemma evo_reps s H s' H' a b tn ch :
  evo s H s' H' a b -> Rep s H -> reps H tn ch -> (forall o, In o (flat_map offs ch) -> ~ In o a) -> reps H' tn ch.
Proof.
  intros E HR Hr Hd. apply (reps_frame H H'); [apply E| |assumption].
  intros o Ho. apply (ev_frame _ _ _ _ _ _ E); [|auto].
  pose proof (reps_range s H _ _ HR Hr) as Hrg. rewrite Forall_forall in Hrg. apply Hrg in Ho.
  unfold in_range in Ho. lia.
Qed.

Lemma forall_lt_own s own : Forall (in_range s) own -> Forall (fun o => o < zlen (flat s)) own.
Proof. apply Forall_impl. intros o Ho. unfold in_range in Ho. lia. Qed.

Lemma h_split s H next o voff l ps ch k r s' :
  Rep s H -> rep H next (LN o voff l ps ch) -> NoDup (offs (LN o voff l ps ch)) -> ps <> [] ->
  (0 < k < List.length l)%nat ->
  split_node (cell_of next (LN o voff l ps ch)) (Z.of_nat k) s = (r, s') -> fits s' ->
  exists H' o2 ps2, let t' := LN o voff (firstn k l) ps [LN o2 (voff + Z.of_nat k) (skipn k l) ps2 ch] in
    r = Ok (cell_of next t') /\ rep H' next t' /\ map snd ps2 = map snd ps /\
    evo s H s' H' (offs (LN o voff l ps ch)) (offs t').
Proof.
  intros HR Hrep Hnd Hne Hk E Hb.
  set (t := LN o voff l ps ch) in *.
  pose proof Hrep as Hrep0. unfold t in Hrep0. rewrite rep_unfold in Hrep0. destruct Hrep0 as (Ho & Hval & Hps & Hch).
  fold t in Ho.
  unfold split_node, first_position in E.
  getfits E HR Hb Hf.
  destruct ps as [|[po pp] ps]; [congruence|].
  change (n_fpos (cell_of next t)) with (hd_poff ((po, pp) :: ps)) in E.
  step E (h_phead s H _ HR Hf Hps). cbn [phead] in E.
  unfold mbind at 1 in E.
  destruct (plist_copy (mkPlist po pp (hd_poff ps)) s) as [rc s1] eqn:Ec.
  pose proof (rep_range s H _ _ HR Hrep) as Hrg.
  assert (Hmono : fits s1).
  { assert (Hw1 : swf s1 /\ zlen (flat s) <= zlen (flat s1)) by (apply (mono_plist_copy _ _ _ _ (Rep_wf _ _ HR) Ec)).
    destruct rc as [[fo lst]| | |]; try (injection E as <- <-; exact Hb).
    match type of E with ?prog s1 = _ => refine (mono_fits prog s1 _ _ _ (proj1 Hw1) E Hb) end. mono_tac. }
  destruct (h_copy s H po pp ps rc s1) as (H1 & ps2 & lst & -> & Hlst & Hmap & Hps2 & Hevo1); auto.
  { unfold t in Hnd. cbn [offs] in Hnd. apply NoDup_cons_iff in Hnd as [_ Hnd]. rewrite NoDup_app_iff in Hnd. apply Hnd. }
  cbn beta iota in E.
  pose proof (ev_rep _ _ _ _ _ _ Hevo1) as HR1.
  destruct (h_new_node s1 H1 HR1) as (s2 & E2 & HR2 & Hl2 & Hev2).
  step E E2. set (o2 := zlen (flat s1)) in *.
  set (H2 := upd H1 o2 (CNode (mkNode o2 0 0 0 0 0 0 0))) in *.
  getfits E HR2 Hb Hf2.
  pose proof (evo_size _ _ _ _ _ _ Hevo1) as Hsz1.
  (* ownership up to here *)
  assert (Hev_own1 : evo s H s1 H1 (offs t) (offs t ++ map fst ps2)).
  { eapply evo_perm. 
    - apply (evo_frame_l s H s1 H1 (offs t) [] (map fst ps2) []) in Hevo1.
      + rewrite !app_nil_r in Hevo1. exact Hevo1.
      + rewrite !app_nil_r. assumption.
      + apply forall_lt_own; assumption.
      + constructor.
    - apply Permutation_refl. }
  assert (Hlt1 : Forall (fun o => o < zlen (flat s1)) (offs t ++ map fst ps2)).
  { apply Forall_app. split.
    - apply forall_lt_own. eapply Forall_impl; [|exact Hrg]. intros x Hx. unfold in_range in *. lia.
    - apply forall_lt_own. eapply reppos_range; eassumption. }
  assert (Hevo2 : evo s1 H1 s2 H2 (offs t ++ map fst ps2) ((offs t ++ map fst ps2) ++ [o2])).
  { apply (evo_alloc s1 H1 _ s2 _ HR1 HR2 Hev2); [apply Hev_own1|assumption]. }
  assert (Hnd2 : NoDup ((offs t ++ map fst ps2) ++ [o2])) by apply Hevo2.
  set (nc := mkNode o2 (voff + Z.of_nat k) (zlen l - Z.of_nat k) 0 (hd_off ch 0) (last_off ch) (hd_poff ps2) (p_off lst)).
  assert (Enc : nc = cell_of 0 (LN o2 (voff + Z.of_nat k) (skipn k l) ps2 ch)).
  { unfold nc. cbn [cell_of]. rewrite Hlst. f_equal. unfold zlen. rewrite skipn_length. lia. }
  assert (Hfit_t : node_fits (cell_of next t)) by (apply (cell_node_fits _ _ _ _ HR Ho)).
  assert (Hps2ne : exists x y q, ps2 = (x, y) :: q).
  { destruct ps2 as [|[x y] q]; [discriminate|]. eauto. }
  assert (Hvr : in_i64 (voff + Z.of_nat k)).
  { destruct Hval as [->|(base & bs & Hbase & Hb1 & Hb2 & _)]; [simpl in Hk; lia|].
    pose proof (ho_in _ _ (proj1 (proj2 HR)) _ _ Hbase) as Hi. unfold csize in Hi. cbn [cenc] in Hi.
    apply (fits_i64 s); [assumption|]. unfold zlen in *. lia. }
  assert (Hhl : in_i64 (hd_poff ps2) /\ in_i64 (p_off lst)).
  { pose proof (reppos_range s1 H1 ps2 HR1 Hps2) as Hr2. rewrite Forall_forall in Hr2.
    assert (Hin : forall x, In x (map fst ps2) -> in_i64 x).
    { intros x Hx. specialize (Hr2 x Hx). unfold in_range, header_last in Hr2. apply (fits_i64 s1); [assumption|lia]. }
    rewrite Hlst. destruct Hps2ne as (x & y & q & ->). rewrite last_poff_cons. split.
    - apply Hin. left; reflexivity.
    - apply Hin. cbn [map fst]. destruct (map fst q) as [|z q'] eqn:Eq; [left; reflexivity|].
      right. rewrite last_cons. clear. revert z; induction q' as [|w q' IH]; intros z; [left; reflexivity|].
      rewrite last_cons. right. apply IH. }
  destruct Hhl as [Hhd Hla].
  cbn [n_off] in E.
  assert (Ho2 : H2 o2 = Some (CNode (mkNode o2 0 0 0 0 0 0 0))) by (unfold H2; apply upd_same).
  destruct (h_node_save s2 H2 nc _ HR2 Ho2) as (s3 & E3 & HR3 & Hl3 & Hev3).
  { destruct Hfit_t as (A1 & A2 & A3 & A4 & A5 & A6 & A7). unfold t in *. cbn [cell_of n_voff n_vlen n_next n_first n_last n_fpos n_lpos] in *.
    unfold node_fits, nc. cbn [n_voff n_vlen n_next n_first n_last n_fpos n_lpos].
    repeat split; auto.
    all: unfold in_i64, two63, zlen in *; lia. }
  cbn [n_off nc] in HR3. change (n_off nc) with o2 in HR3. set (H3 := upd H2 o2 (CNode nc)) in *.
  change (n_voff (cell_of next t)) with voff in E. change (n_vlen (cell_of next t)) with (zlen l) in E.
  change (n_first (cell_of next t)) with (hd_off ch 0) in E. change (n_last (cell_of next t)) with (last_off ch) in E.
  change (mkNode o2 (voff + Z.of_nat k) (zlen l - Z.of_nat k) 0 (hd_off ch 0) (last_off ch) (hd_poff ps2) (p_off lst)) with nc in E.
  step E E3.
  assert (Hevo3 : evo s2 H2 s3 H3 ((offs t ++ map fst ps2) ++ [o2]) ((offs t ++ map fst ps2) ++ [o2])).
  { apply evo_update; auto.
    - eapply not_raw_node; eassumption.
    - rewrite in_app_iff. simpl. auto. }
  set (t' := LN o voff (firstn k l) ((po, pp) :: ps) [LN o2 (voff + Z.of_nat k) (skipn k l) ps2 ch]).
  assert (Et' : set_vlen (set_children (cell_of next t) o2 o2) (Z.of_nat k) = cell_of next t').
  { unfold t', t, set_vlen, set_children. cbn [cell_of n_off n_voff n_vlen n_next n_first n_last n_fpos n_lpos].
    unfold hd_off at 1, last_off. cbn [map last lt_off]. f_equal. unfold zlen. rewrite firstn_length. lia. }
  rewrite Et' in E.
  assert (Hevo13 : evo s H s3 H3 (offs t) ((offs t ++ map fst ps2) ++ [o2])).
  { eapply evo_trans; [exact Hev_own1|]. eapply evo_trans; [exact Hevo2|exact Hevo3]. }
  assert (Ho_lt : o < o2 /\ header_last < o).
  { rewrite Forall_forall in Hrg. specialize (Hrg o (or_introl eq_refl)). unfold in_range in Hrg. unfold o2. lia. }
  assert (Hoff3 : H3 o = Some (CNode (cell_of next t))).
  { unfold H3, H2. rewrite !upd_other by lia. rewrite (ev_frame _ _ _ _ _ _ Hevo1); [assumption| |simpl; tauto].
    rewrite Forall_forall in Hrg. specialize (Hrg o (or_introl eq_refl)). unfold in_range in Hrg. lia. }
  getfits E HR3 Hb Hf3.
  destruct (h_node_save s3 H3 (cell_of next t') (cell_of next t) HR3 Hoff3) as (s4 & E4 & HR4 & Hl4 & Hev4).
  { rewrite <- Et'. unfold set_vlen, set_children, t in *. destruct Hfit_t as (A1 & A2 & A3 & A4 & A5 & A6 & A7).
    unfold node_fits. cbn [cell_of n_off n_voff n_vlen n_next n_first n_last n_fpos n_lpos] in *.
    pose proof (zlen_nonneg (flat s1)).
    repeat split; auto; try (unfold in_i64, two63, zlen in *; lia); apply (fits_i64 s2); try assumption; lia. }
  change (n_off (cell_of next t')) with o in HR4.
  set (H4 := upd H3 o (CNode (cell_of next t'))) in *.
  step E E4. injection E as <- <-.
  assert (Hevo4 : evo s3 H3 s4 H4 ((offs t ++ map fst ps2) ++ [o2]) ((offs t ++ map fst ps2) ++ [o2])).
  { apply evo_update; auto.
    - eapply not_raw_node; eassumption.
    - rewrite !in_app_iff. left; left; left; reflexivity. }
  assert (Hevo14 : evo s H s4 H4 (offs t) ((offs t ++ map fst ps2) ++ [o2])) by (eapply evo_trans; eassumption).
  exists H4, o2, ps2. fold t'. split; [reflexivity|]. split; [|split].
  - unfold t'. apply rep_unfold. fold t'. split; [apply upd_same|].
    assert (HpsFr : forall x, In x (map fst ((po, pp) :: ps) ++ flat_map offs ch) -> H4 x = H x).
    { intros x Hx. assert (Hxo : In x (offs t)) by (unfold t; cbn [offs]; right; assumption).
      assert (x <> o). { intros ->. unfold t in Hnd. cbn [offs] in Hnd. apply NoDup_cons_iff in Hnd as [Hni _]. contradiction. }
      rewrite Forall_forall in Hrg. specialize (Hrg _ Hxo). unfold in_range in Hrg.
      unfold H4, H3, H2. rewrite !upd_other by (unfold o2; lia).
      apply (ev_frame _ _ _ _ _ _ Hevo1); [lia|simpl; tauto]. }
    split; [|split].
    + apply val_take. eapply val_raw; [apply Hevo14|assumption].
    + apply (reppos_frame H); [|assumption]. intros x Hx. apply HpsFr. rewrite in_app_iff. auto.
    + cbn [reps hd_off]. split; [|exact I]. apply rep_unfold. split; [|split; [|split]].
      * unfold H4. rewrite upd_other by lia. unfold H3. rewrite upd_same, Enc. reflexivity.
      * apply val_skip; [|lia]. eapply val_raw; [apply Hevo14|assumption].
      * apply (reppos_frame H1); [|assumption]. intros x Hx.
        assert (x <> o2 /\ x <> o).
        { rewrite <- app_assoc in Hnd2. rewrite !NoDup_app_iff in Hnd2. destruct Hnd2 as (_ & (_ & _ & D1) & D2). split.
          - intros ->. apply (D1 o2); [assumption|left; reflexivity].
          - intros ->. apply (D2 o); [left; reflexivity|rewrite in_app_iff; auto]. }
        unfold H4, H3, H2. rewrite !upd_other by lia. reflexivity.
      * apply (reps_frame H); [apply Hevo14| |assumption]. intros x Hx. apply HpsFr. rewrite in_app_iff. auto.
  - rewrite Hmap. reflexivity.
  - eapply evo_perm; [exact Hevo14|]. unfold t, t'. perm_z.
Qed.
