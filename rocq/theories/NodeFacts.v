(** What the operations of Node.v do to a tree located in the stream. *)
From Coq Require Import List ZArith Lia Bool String Permutation.
From Coq Require Import Strings.Byte.
From Coq Require Import ZifyBool ZifyNat.
From Verif Require Import Base BaseFacts Codec CodecFacts Stream StreamFacts Node Heap Radix Located.
Import ListNotations.
Open Scope Z_scope.

Definition fits (s : stream) : Prop := zlen (flat s) < max_alloc.

(** [E : mbind f g s = (r, s')] with [L : f s = (Ok a, s1)] becomes
    [E : g a s1 = (r, s')]. *)
Lemma bind_ok {A B} (f : M A) (g : A -> M B) s a s1 r s' :
  mbind f g s = (r, s') -> f s = (Ok a, s1) -> g a s1 = (r, s').
Proof. intros E L. unfold mbind in E. rewrite L in E. exact E. Qed.

Ltac step E L := apply (bind_ok _ _ _ _ _ _ _) with (2 := L) in E; cbn beta in E.

Lemma mono_fits {A} (f : M A) s r s' : mono f -> swf s -> f s = (r, s') -> fits s' -> fits s.
Proof. intros Hm Hw E Hf. destruct (Hm _ _ _ Hw E) as [_ Hl]. unfold fits in *. lia. Qed.

Ltac getfits E HR Hb Hf :=
  match type of E with
  | ?prog ?s = (?r, ?s') =>
    assert (Hf : fits s) by (refine (mono_fits prog s r s' _ (Rep_wf _ _ HR) E Hb); mono_tac)
  end.

Lemma fits_i64 s o : fits s -> 0 <= o <= zlen (flat s) -> in_i64 o.
Proof. unfold fits, in_i64, max_alloc, two63. lia. Qed.

(** Permutations of offset lists, by counting occurrences. *)
Lemma count_cons (x y : Z) l :
  count_occ Z.eq_dec (x :: l) y = ((if Z.eq_dec x y then 1 else 0) + count_occ Z.eq_dec l y)%nat.
Proof. simpl. destruct (Z.eq_dec x y); reflexivity. Qed.
Lemma count_nil (y : Z) : count_occ Z.eq_dec [] y = 0%nat.
Proof. reflexivity. Qed.
Ltac perm_z :=
  apply (proj2 (Permutation_count_occ Z.eq_dec _ _)); intro;
  cbn [offs flat_map map fst app];
  rewrite ?map_app, ?flat_map_app; cbn [offs flat_map map fst app];
  repeat first [rewrite count_occ_app | rewrite count_cons | rewrite count_nil]; lia.

Lemma evo_perm s H s' H' a b b' : evo s H s' H' a b -> Permutation b b' -> evo s H s' H' a b'.
Proof.
  intros E Hp. eapply evo_weaken; [exact E| |].
  - intros o Ho. eapply Permutation_in; [symmetry; exact Hp|assumption].
  - eapply Permutation_NoDup; [exact Hp|apply E].
Qed.

(** ** Position chains *)

Definition phead (ps : list (Z * Z)) : option plist :=
  match ps with [] => None | (o, p) :: ps' => Some (mkPlist o p (hd_poff ps')) end.

Lemma h_phead s H ps :
  Rep s H -> fits s -> reppos H ps -> get_plist (hd_poff ps) s = (Ok (phead ps), s).
Proof.
  intros HR Hf Hp. destruct ps as [|[o p] ps]; [reflexivity|].
  simpl in *. apply (h_get_plist s H); tauto.
Qed.

Lemma cell_pos_fits s H o l : Rep s H -> H o = Some (CPos l) -> plist_fits l.
Proof. intros (_ & Hok & _) E. apply (ho_ok _ _ Hok) in E. apply E. Qed.
Lemma cell_node_fits s H o n : Rep s H -> H o = Some (CNode n) -> node_fits n.
Proof. intros (_ & Hok & _) E. apply (ho_ok _ _ Hok) in E. apply E. Qed.

Lemma not_raw_pos H o l : H o = Some (CPos l) -> not_raw H o.
Proof. intros E. eexists; split; [exact E|exact I]. Qed.
Lemma not_raw_node H o n : H o = Some (CNode n) -> not_raw H o.
Proof. intros E. eexists; split; [exact E|exact I]. Qed.

Lemma NoDup_single {A} (x : A) : NoDup [x].
Proof. constructor; [simpl; tauto|constructor]. Qed.

Lemma last_cons {A} (x : A) l d : last (x :: l) d = last l x.
Proof. revert x; induction l as [|y l IH]; intros x; [reflexivity|]. cbn [last] in *. destruct l; auto. Qed.

Lemma last_poff_cons o p ps : last_poff ((o, p) :: ps) = last (map fst ps) o.
Proof. unfold last_poff. cbn [map fst]. apply last_cons. Qed.

Lemma h_copy_loop ps : forall fuel s H last r s',
  Rep s H -> reppos H ps -> H (p_off last) = Some (CPos last) -> p_next last = 0 ->
  ~ In (p_off last) (map fst ps) -> (List.length ps < fuel)%nat ->
  copy_loop fuel last (phead ps) s = (r, s') -> fits s' ->
  exists H' ps2 lst, r = Ok lst /\
    p_off lst = last_poff ((p_off last, p_pos last) :: ps2) /\
    map snd ps2 = map snd ps /\
    reppos H' ((p_off last, p_pos last) :: ps2) /\
    evo s H s' H' [p_off last] (p_off last :: map fst ps2).
Proof.
  induction ps as [|[o p] ps IH]; intros fuel s H last r s' HR Hps Hlast Hnext Hni Hfuel E Hb.
  - destruct fuel as [|fuel]; [simpl in Hfuel; lia|]. cbn [copy_loop phead] in E.
    injection E as <- <-. exists H, [], last. cbn [map reppos hd_poff].
    split; [reflexivity|]. split; [reflexivity|]. split; [reflexivity|]. split; [split; [|exact I]|].
    + rewrite Hlast. destruct last; simpl in *; subst; reflexivity.
    + apply evo_refl; [assumption|]. apply NoDup_single.
  - destruct fuel as [|fuel]; [simpl in Hfuel; lia|].
    cbn [copy_loop phead] in E. cbn [reppos] in Hps. destruct Hps as [Ho Hps].
    pose proof (cell_pos_fits _ _ _ _ HR Ho) as [Hp _]. cbn [p_pos p_next] in Hp.
    cbn [p_pos] in E.
    destruct (h_new_plist s H p HR Hp) as (s1 & E1 & HR1 & Hl1 & Hev1).
    step E E1. set (o1 := zlen (flat s)) in *.
    set (H1 := upd H o1 (CPos (mkPlist o1 p 0))) in *.
    getfits E HR1 Hb Hf1.
    assert (Hlt : p_off last < o1 /\ 0 <= p_off last).
    { pose proof (ho_in _ _ (proj1 (proj2 HR)) _ _ Hlast) as Hi.
      unfold csize in Hi. fold o1 in Hi. lia. }
    cbn [p_off] in E.
    destruct (h_plist_save s1 H1 (mkPlist (p_off last) (p_pos last) o1) last HR1) as (s2 & E2 & HR2 & Hl2 & Hev2).
    { cbn [p_off]. unfold H1. rewrite upd_other by lia. assumption. }
    { split; cbn [p_pos p_next].
      - apply (cell_pos_fits _ _ _ _ HR Hlast).
      - apply (fits_i64 s1); [assumption|]. pose proof (zlen_nonneg (flat s)). lia. }
    cbn [p_off] in HR2. set (H2 := upd H1 (p_off last) (CPos (mkPlist (p_off last) (p_pos last) o1))) in *.
    step E E2. getfits E HR2 Hb Hf2.
    cbn [map fst] in Hni.
    assert (Hps2 : reppos H2 ps).
    { apply (reppos_frame H); [|assumption]. intros x Hx. unfold H2, H1.
      pose proof (reppos_range s H ps HR Hps) as Hrg. rewrite Forall_forall in Hrg.
      specialize (Hrg _ Hx). unfold in_range in Hrg. fold o1 in Hrg.
      rewrite !upd_other; [reflexivity|lia|]. intros ->. simpl in Hni. tauto. }
    unfold next_position in E. cbn [p_next] in E.
    step E (h_phead s2 H2 ps HR2 Hf2 Hps2).
    assert (Ho1 : H2 o1 = Some (CPos (mkPlist o1 p 0))).
    { unfold H2, H1. rewrite upd_other by lia. apply upd_same. }
    destruct (IH fuel s2 H2 (mkPlist o1 p 0) r s') as (H' & ps2 & lst & -> & Hlst & Hmap & Hrep & Hevo); auto.
    { cbn [p_off]. intros Hx. pose proof (reppos_range s H ps HR Hps) as Hrg. rewrite Forall_forall in Hrg.
      specialize (Hrg _ Hx). unfold in_range in Hrg. fold o1 in Hrg. lia. }
    { simpl in Hfuel. lia. }
    cbn [p_off p_pos] in *.
    exists H', ((o1, p) :: ps2), lst.
    split; [reflexivity|]. split; [|split; [|split; [split|]]].
    + rewrite Hlst, !last_poff_cons. cbn [map fst]. rewrite last_cons. reflexivity.
    + cbn [map snd]. rewrite Hmap. reflexivity.
    + rewrite (ev_frame _ _ _ _ _ _ Hevo).
      * unfold H2. apply upd_same.
      * lia.
      * cbn [In]. lia.
    + exact Hrep.
    + cbn [map fst].
      eapply evo_trans; [apply (evo_alloc s H (CPos (mkPlist o1 p 0)) s1 [p_off last] HR HR1 Hev1)|].
      { apply NoDup_single. }
      { repeat constructor. fold o1. lia. }
      fold o1. fold H1. cbn [app].
      eapply evo_trans.
      { apply (evo_update s1 H1 (p_off last) (CPos (mkPlist (p_off last) (p_pos last) o1)) s2 [p_off last; o1]); auto.
        - apply (not_raw_pos _ _ last). unfold H1. rewrite upd_other by lia. assumption.
        - constructor; [simpl; lia|apply NoDup_single].
        - left; reflexivity. }
      fold H2.
      apply (evo_frame_l s2 H2 s' H' [p_off last] [o1] (o1 :: map fst ps2) []) in Hevo.
      * cbn [app] in Hevo. rewrite app_nil_r in Hevo. exact Hevo.
      * cbn [app]. constructor; [simpl; lia|apply NoDup_single].
      * repeat constructor. lia.
      * constructor.
Qed.

Lemma h_copy s H o p ps r s' :
  Rep s H -> reppos H ((o, p) :: ps) -> NoDup (map fst ((o, p) :: ps)) ->
  plist_copy (mkPlist o p (hd_poff ps)) s = (r, s') -> fits s' ->
  exists H' ps2 lst, r = Ok (hd_poff ps2, lst) /\ p_off lst = last_poff ps2 /\
    map snd ps2 = p :: map snd ps /\ reppos H' ps2 /\ evo s H s' H' [] (map fst ps2).
Proof.
  intros HR Hps Hnd E Hb. unfold plist_copy in E. cbn [reppos] in Hps. destruct Hps as [Ho Hps].
  pose proof (cell_pos_fits _ _ _ _ HR Ho) as [Hp _]. cbn [p_pos] in Hp. cbn [p_pos] in E.
  destruct (h_new_plist s H p HR Hp) as (s1 & E1 & HR1 & Hl1 & Hev1).
  step E E1. set (o1 := zlen (flat s)) in *.
  set (H1 := upd H o1 (CPos (mkPlist o1 p 0))) in *.
  getfits E HR1 Hb Hf1.
  pose proof (reppos_range s H ps HR Hps) as Hrg.
  assert (Hni : ~ In o1 (map fst ps)).
  { intros Hx. rewrite Forall_forall in Hrg. specialize (Hrg _ Hx). unfold in_range in Hrg. fold o1 in Hrg. lia. }
  assert (Hps1 : reppos H1 ps).
  { apply (reppos_frame H); [|assumption]. intros x Hx. unfold H1. apply upd_other. intros ->. contradiction. }
  unfold next_position in E. cbn [p_next] in E. step E (h_phead s1 H1 ps HR1 Hf1 Hps1).
  cbn [map fst] in Hnd. inversion Hnd as [|? ? _ Hnd']; subst.
  unfold mbind in E. destruct (copy_loop (chain_fuel s) (mkPlist o1 p 0) (phead ps) s1) as [r2 s2] eqn:E2.
  assert (Hs2 : s' = s2 /\ r = match r2 with Ok last => Ok (o1, last) | Err e => Err e | Panic => Panic | NoFuel => NoFuel end).
  { destruct r2; injection E as <- <-; auto. }
  destruct Hs2 as [-> ->]. clear E.
  destruct (h_copy_loop ps (chain_fuel s) s1 H1 (mkPlist o1 p 0) r2 s2) as (H' & ps2 & lst & -> & Hlst & Hmap & Hrep & Hevo);
    auto; cbn [p_off p_pos p_next] in *.
  - unfold H1. apply upd_same.
  - unfold chain_fuel. destruct HR as (Hw & _ & _). destruct Hw as [_ ->].
    rewrite <- (map_length fst ps). apply Nat.lt_succ_r.
    apply NoDup_Z_bound; [assumption|]. eapply Forall_impl; [|exact Hrg].
    intros x Hx. unfold in_range, header_last in Hx. lia.
  - exists H', ((o1, p) :: ps2), lst.
    split; [reflexivity|]. split; [exact Hlst|]. split; [|split; [exact Hrep|]].
    + cbn [map snd]. rewrite Hmap. reflexivity.
    + cbn [map fst]. eapply evo_trans; [|exact Hevo].
      apply (evo_alloc s H (CPos (mkPlist o1 p 0)) s1 [] HR HR1 Hev1); constructor.
Qed.

(** ** Appending a position *)

Lemma last_In {A} (l : list A) x : In (last l x) (x :: l).
Proof.
  revert x; induction l as [|y l IH]; intros x; [left; reflexivity|].
  right. rewrite last_cons. apply IH.
Qed.

Lemma reppos_app H a b :
  reppos H (a ++ b) <->
  (forall pre o p post, a = pre ++ (o, p) :: post ->
     H o = Some (CPos (mkPlist o p (hd_poff (post ++ b))))) /\ reppos H b.
Proof.
  induction a as [|[o p] a IH]; simpl.
  - split; [|tauto]. intros Hb. split; [|assumption]. intros pre o p post Hx. destruct pre; discriminate.
  - rewrite IH. split.
    + intros (H1 & H2 & H3). split; [|assumption]. intros pre o' p' post Hx.
      destruct pre as [|[o'' p''] pre]; simpl in Hx; injection Hx.
      * intros <- <- <-. assumption.
      * intros Ha _ _. eapply H2. exact Ha.
    + intros (H1 & H2). split; [apply (H1 [] o p a); reflexivity|]. split; [|assumption].
      intros pre o' p' post Ha. apply (H1 ((o, p) :: pre) o' p' post). rewrite Ha. reflexivity.
Qed.

(** Every chain splits into its last element and what precedes it. *)
Lemma snoc_cases {A} (l : list A) : l <> [] -> exists l' x, l = l' ++ [x].
Proof. intros H. destruct (exists_last H) as (l' & x & ->). eauto. Qed.

Lemma reppos_snoc H a o p : reppos H (a ++ [(o, p)]) ->
  H o = Some (CPos (mkPlist o p 0)).
Proof. rewrite reppos_app. intros [_ H1]. simpl in H1. apply H1. Qed.

Lemma hd_poff_app a b : hd_poff (a ++ b) = match a with [] => hd_poff b | x :: _ => fst x end.
Proof. destruct a; reflexivity. Qed.

(** Linking a new last element. *)
Lemma reppos_link H a o p o2 p2 :
  reppos H (a ++ [(o, p)]) -> NoDup (map fst (a ++ [(o, p)])) ->
  H o2 = Some (CPos (mkPlist o2 p2 0)) -> o2 <> o ->
  reppos (upd H o (CPos (mkPlist o p o2))) (a ++ [(o, p); (o2, p2)]).
Proof.
  intros Hr Hnd Ho2 Hne. induction a as [|[o' p'] a IH]; cbn [app reppos] in *.
  - cbn [hd_poff fst]. rewrite upd_same, upd_other by assumption. auto.
  - cbn [map fst] in Hnd. inversion Hnd as [|? ? Hni Hnd']; subst. destruct Hr as [H1 H2].
    split; [|apply IH; assumption].
    rewrite upd_other.
    + rewrite H1. destruct a as [|[]]; reflexivity.
    + intros ->. apply Hni. rewrite map_app, in_app_iff. simpl. auto.
Qed.

Lemma app_if_snoc l x p : app_if (l ++ [x]) p = if x =? p then l ++ [x] else l ++ [x; p].
Proof.
  destruct l as [|y l]; simpl.
  - destruct (x =? p); reflexivity.
  - rewrite last_last. destruct (x =? p); [reflexivity|]. rewrite <- app_assoc. reflexivity.
Qed.

Lemma last_poff_snoc a o p : last_poff (a ++ [(o, p)]) = o.
Proof. unfold last_poff. rewrite map_app. cbn [map fst]. apply last_last. Qed.

Lemma lt_offs_not_raw H o voff l ps ch next :
  rep H next (LN o voff l ps ch) -> Forall (not_raw H) (map fst ps).
Proof. rewrite rep_unfold. intros (_ & _ & H3 & _). apply reppos_not_raw; assumption. Qed.

Lemma h_append_position s H next o voff l ps ch pos r s' :
  Rep s H -> rep H next (LN o voff l ps ch) -> NoDup (offs (LN o voff l ps ch)) -> ps <> [] ->
  in_i64 pos ->
  append_position_if_not_exists (cell_of next (LN o voff l ps ch)) pos s = (r, s') -> fits s' ->
  exists H' ps', r = Ok (cell_of next (LN o voff l ps' ch)) /\
    rep H' next (LN o voff l ps' ch) /\ map snd ps' = app_if (map snd ps) pos /\
    evo s H s' H' (offs (LN o voff l ps ch)) (offs (LN o voff l ps' ch)).
Proof.
  intros HR Hrep Hnd Hne Hpos E Hb.
  unfold append_position_if_not_exists in E.
  destruct (h_new_plist s H pos HR Hpos) as (s1 & E1 & HR1 & Hl1 & Hev1).
  step E E1. set (o1 := zlen (flat s)) in *.
  set (H1 := upd H o1 (CPos (mkPlist o1 pos 0))) in *.
  pose proof (rep_range s H _ _ HR Hrep) as Hrg.
  assert (Hrgf : forall x, In x (offs (LN o voff l ps ch)) -> x <> o1 /\ header_last < x < o1).
  { intros x Hx. rewrite Forall_forall in Hrg. specialize (Hrg _ Hx). unfold in_range in Hrg. fold o1 in Hrg. lia. }
  assert (Hevo1 : evo s H s1 H1 (offs (LN o voff l ps ch)) (offs (LN o voff l ps ch) ++ [o1])).
  { apply (evo_alloc s H _ s1 _ HR HR1 Hev1 Hnd). apply Forall_forall. intros x Hx. apply Hrgf in Hx. fold o1. lia. }
  assert (Hrep1 : rep H1 next (LN o voff l ps ch)).
  { apply (rep_frame _ H H1); [apply Hevo1| |assumption]. intros x Hx. unfold H1. apply upd_other. apply Hrgf; assumption. }
  assert (Hnd1 : NoDup (offs (LN o voff l ps ch) ++ [o1])) by apply Hevo1.
  destruct (snoc_cases ps Hne) as (a & [lo lp] & ->).
  pose proof Hrep1 as Hrep1'. rewrite rep_unfold in Hrep1'. destruct Hrep1' as (Ho & Hval & Hps & Hch).
  assert (Hfst : n_fpos (cell_of next (LN o voff l (a ++ [(lo, lp)]) ch)) <> 0).
  { cbn [cell_of n_fpos]. destruct a as [|[ao ap] a]; cbn [app hd_poff fst].
    - assert (In lo (offs (LN o voff l [(lo, lp)] ch))) by (simpl; auto).
      apply Hrgf in H0. unfold header_last in H0. lia.
    - assert (In ao (offs (LN o voff l (((ao, ap) :: a) ++ [(lo, lp)]) ch))) by (simpl; auto).
      apply Hrgf in H0. unfold header_last in H0. lia. }
  destruct (n_fpos (cell_of next (LN o voff l (a ++ [(lo, lp)]) ch)) =? 0) eqn:Ef; [lia|]. clear Ef Hfst.
  getfits E HR1 Hb Hf1.
  unfold last_position in E.
  assert (Hlo : H1 lo = Some (CPos (mkPlist lo lp 0))) by (eapply reppos_snoc; exact Hps).
  assert (El : get_plist (n_lpos (cell_of next (LN o voff l (a ++ [(lo, lp)]) ch))) s1 = (Ok (Some (mkPlist lo lp 0)), s1)).
  { cbn [cell_of n_lpos]. rewrite last_poff_snoc. apply (h_get_plist s1 H1); assumption. }
  step E El. cbn [p_pos p_off] in E.
  rewrite map_app. cbn [map snd]. rewrite app_if_snoc.
  destruct (lp =? pos) eqn:Ep; cbn [negb] in E.
  - injection E as <- <-. exists H1, (a ++ [(lo, lp)]).
    split; [reflexivity|]. split; [assumption|]. split.
    + rewrite map_app. reflexivity.
    + eapply evo_weaken; [exact Hevo1| |assumption]. intros x Hx. apply in_or_app; auto.
  - assert (Hin_lo : In lo (offs (LN o voff l (a ++ [(lo, lp)]) ch))).
    { cbn [offs]. right. rewrite map_app, !in_app_iff. simpl. auto. }
    pose proof (Hrgf _ Hin_lo) as Hlo_r.
    assert (Hin_o : In o (offs (LN o voff l (a ++ [(lo, lp)]) ch))) by (left; reflexivity).
    pose proof (Hrgf _ Hin_o) as Ho_r.
    assert (Hne_o : o <> lo).
    { cbn [offs] in Hnd. apply NoDup_cons_iff in Hnd as [Hni _]. intros ->. apply Hni.
      rewrite map_app, !in_app_iff. simpl. auto. }
    destruct (h_plist_save s1 H1 (mkPlist lo lp o1) (mkPlist lo lp 0) HR1 Hlo) as (s2 & E2 & HR2 & Hl2 & Hev2).
    { split; cbn [p_pos p_next].
      - apply (cell_pos_fits _ _ _ _ HR1 Hlo).
      - apply (fits_i64 s1); [assumption|]. pose proof (zlen_nonneg (flat s)). lia. }
    cbn [p_off] in HR2. set (H2 := upd H1 lo (CPos (mkPlist lo lp o1))) in *.
    step E E2. cbn [set_positions cell_of n_fpos n_off n_voff n_vlen n_next n_first n_last] in E.
    set (t' := LN o voff l ((a ++ [(lo, lp)]) ++ [(o1, pos)]) ch).
    assert (Hcell : mkNode o voff (zlen l) next (hd_off ch 0) (last_off ch) (hd_poff (a ++ [(lo, lp)])) o1 = cell_of next t').
    { unfold t'. cbn [cell_of]. rewrite last_poff_snoc. f_equal.
      rewrite !hd_poff_app. destruct a as [|[]]; reflexivity. }
    unfold set_positions in E. cbn [n_off n_voff n_vlen n_next n_first n_last n_fpos n_lpos] in E.
    rewrite Hcell in E.
    assert (Ho2 : H2 o = Some (CNode (cell_of next (LN o voff l (a ++ [(lo, lp)]) ch)))).
    { unfold H2. rewrite upd_other by assumption. assumption. }
    destruct (h_node_save s2 H2 (cell_of next t') _ HR2 Ho2) as (s3 & E3 & HR3 & Hl3 & Hev3).
    { pose proof (cell_node_fits _ _ _ _ HR2 Ho2) as Hfit. unfold node_fits in *.
      rewrite <- Hcell. cbn [n_off n_voff n_vlen n_next n_first n_last n_fpos n_lpos cell_of] in *.
      repeat split; try apply Hfit. all: apply (fits_i64 s1); [assumption|]; pose proof (zlen_nonneg (flat s)); lia. }
    rewrite <- Hcell in HR3 at 1. cbn [n_off] in HR3.
    set (H3 := upd H2 o (CNode (cell_of next t'))) in *.
    step E E3. injection E as <- <-.
    assert (Hevo : evo s H s3 H3 (offs (LN o voff l (a ++ [(lo, lp)]) ch)) (offs (LN o voff l (a ++ [(lo, lp)]) ch) ++ [o1])).
    { eapply evo_trans; [exact Hevo1|]. eapply evo_trans.
      - apply (evo_update s1 H1 lo (CPos (mkPlist lo lp o1)) s2); auto.
        + eapply not_raw_pos; eassumption.
        + apply in_or_app; auto.
      - fold H2. apply (evo_update s2 H2 o (CNode (cell_of next t')) s3); auto.
        + eapply not_raw_node; eassumption.
        + apply in_or_app; auto. }
    exists H3, ((a ++ [(lo, lp)]) ++ [(o1, pos)]). split; [reflexivity|]. split; [|split].
    + apply rep_unfold. split; [apply upd_same|]. split; [|split].
      * eapply val_raw; [|apply Hval]. eapply raw_mono_trans.
        -- apply (ev_raw _ _ _ _ _ _ (evo_update s1 H1 lo (CPos (mkPlist lo lp o1)) s2 _ HR2 Hev2 (not_raw_pos _ _ _ Hlo) Hnd1 (in_or_app _ [o1] lo (or_introl Hin_lo)))).
        -- apply (ev_raw _ _ _ _ _ _ (evo_update s2 H2 o (CNode (cell_of next t')) s3 _ HR3 Hev3 (not_raw_node _ _ _ Ho2) Hnd1 (in_or_app _ [o1] o (or_introl Hin_o)))).
      * assert (Hl : reppos H2 (a ++ [(lo, lp); (o1, pos)])).
        { apply reppos_link.
          - assumption.
          - cbn [offs] in Hnd. apply NoDup_cons_iff in Hnd as [_ Hnd2]. rewrite NoDup_app_iff in Hnd2. apply Hnd2.
          - unfold H1. apply upd_same.
          - lia. }
        rewrite <- app_assoc. apply (reppos_frame H2); [|exact Hl].
        intros x Hx. unfold H3. apply upd_other. intros ->.
        rewrite map_app, in_app_iff in Hx. cbn [map fst In] in Hx.
        cbn [offs] in Hnd. apply NoDup_cons_iff in Hnd as [Hni _]. rewrite map_app, !in_app_iff in Hni. simpl in Hni.
        destruct Hx as [Hx|[Hx|[Hx|[]]]]; [tauto|tauto|simpl in Hx; lia].
      * apply (reps_frame H1); [| |assumption].
        -- intros x bs Hx. unfold H3, H2. rewrite !upd_other; [assumption| |]; intros ->; congruence.
        -- intros x Hx. unfold H3, H2. cbn [offs] in Hnd. apply NoDup_cons_iff in Hnd as [Hni Hnd2].
           rewrite NoDup_app_iff in Hnd2. destruct Hnd2 as (_ & _ & Hdis).
           rewrite !upd_other; [reflexivity| |].
           ++ intros ->. apply (Hdis lo); [rewrite map_app, in_app_iff; simpl; auto|assumption].
           ++ intros ->. apply Hni. rewrite in_app_iff. auto.
    + rewrite !map_app. cbn [map snd]. rewrite <- app_assoc. reflexivity.
    + eapply evo_perm; [exact Hevo|]. perm_z.
Qed.
