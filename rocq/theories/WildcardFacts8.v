(** The wildcard index as the endpoints use it. *)
From Coq Require Import List ZArith Lia Bool String Permutation Sorted.
From Coq Require Import Strings.Byte.
From Verif Require Import Base BaseFacts Codec Stream StreamFacts Node Heap Radix Located.
From Verif Require Import NodeFacts NodeFacts2 NodeFacts3 Value Join SpecJoin JoinFacts WildcardMeta MetaFacts.
From Verif Require Import Wildcard WildcardFacts WildcardFacts2 SpecIndex SpecWildcard WildcardFacts3 WildcardFacts7 IndexFacts Output SpecOutput OutputFacts4.
Import ListNotations.
Open Scope Z_scope.

Section W.
Variable lower : bytes -> bytes.
Notation fold_case := (fold_case lower).

(** *** Empty queries *)
Lemma w_filter_empty cfg inp mtime size f H s fs : created lower cfg inp mtime size f H s -> fits s ->
  Forall (fun g : bytes * bytes => In (fst g) (wc_props cfg)) fs -> Exists (fun g => fold_case (wc_ic cfg) (snd g) = []) fs ->
  filter_iters lower cfg (idx_of f) s (vfilters fs) = Ok None.
Proof.
  intros Hcr Hb Hfs He. pose proof (cr_inv _ _ _ _ _ _ _ _ Hcr) as HI. pose proof (cr_props _ _ _ _ _ _ _ _ Hcr) as Hk.
  induction Hfs as [|[p q] fs Hp Hfs IH]; [inversion He|]. cbn [fst snd vfilters map filter_iters] in *. fold (vfilters fs).
  rewrite handles_in by assumption. cbn [negb].
  assert (Hin : exists t, In (p, t) f). { rewrite <- Hk in Hp. apply in_map_iff in Hp as ([p' t] & <- & Hin). exists t. exact Hin. }
  destruct Hin as (t & Hin). rewrite (mget_idx f p t (wi_keys _ _ _ _ HI) Hin).
  destruct (fold_case (wc_ic cfg) q) as [|b bs] eqn:Eq.
  - pose proof (wi_trees _ _ _ _ HI) as Ht. rewrite Forall_forall in Ht. destruct (Ht _ Hin) as [_ (o & ch & Et & _)]. cbn [snd] in Et. subst t. reflexivity.
  - destruct (w_query lower s H _ f p t (b :: bs) HI Hb Hin ltac:(discriminate)) as (fps & E & _). rewrite E. cbn [fst].
    destruct fps as [|[o z] fps]; [reflexivity|]. cbn [phead]. rewrite IH; [reflexivity|]. inversion He as [? ? H0|? ? H0]; subst; [cbn in H0; congruence|exact H0].
Qed.

Lemma wildcard_empty cfg inp r s : NoDup (wc_props cfg) -> indexable (wc_props cfg) inp ->
  create_index lower cfg inp created_stream = (r, s) -> zlen (st_file s ++ st_buf s) < max_alloc ->
  exists idx, r = Ok idx /\
    forall fs, Forall (fun g => In (fst g) (wc_props cfg)) fs -> Exists (fun g => fold_case (wc_ic cfg) (snd g) = []) fs ->
    wildcard_positions lower cfg idx s (wc_input cfg) (map (fun f => (fst f, VString (snd f))) fs) = Ok [].
Proof.
  intros Hnd Hin E Hb. destruct (wildcard_build lower cfg inp r s Hnd Hin E Hb) as (mtime & size & f & H & -> & Hc).
  exists (idx_of f). split; [reflexivity|]. intros fs Hfs He. unfold wildcard_positions. rewrite bytes_eqb_refl. cbn [negb].
  pose proof (w_filter_empty _ _ _ _ _ _ _ _ Hc Hb Hfs He) as Hf. unfold vfilters in Hf. destruct fs as [|g fs]; [inversion He|]. cbn [map] in *. rewrite Hf. reflexivity.
Qed.

(** *** As an index of the endpoints *)
Lemma indexable_rows props inp rs : in_iter inp = map Ok rs -> indexable props inp ->
  forall r, In r rs -> forall p, In p props -> exists w, r_get r p = Ok (VString w).
Proof.
  intros Ei (_ & _ & H) r Hr p Hp. rewrite Ei, Forall_forall in H. destruct (H (Ok r) (in_map Ok _ _ Hr)) as (r' & Er & _ & Hv). injection Er as <-.
  rewrite Forall_forall in Hv. apply Hv, Hp.
Qed.

Lemma strings_of (fs : filters) : Forall (fun f => exists s, snd f = VString s) fs -> exists qs : list (bytes * bytes), fs = map (fun f => (fst f, VString (snd f))) qs.
Proof.
  induction 1 as [|[p x] fs (s & Hs) H (qs & ->)]; [exists []; reflexivity|]. cbn [snd] in Hs. subst x. exists ((p, s) :: qs). reflexivity.
Qed.

Lemma substring_dec q v : substring q v \/ ~ substring q v.
Proof. destruct (containsb q v) eqn:E; [left; apply containsb_spec, E|right; intros H; apply containsb_spec in H; congruence]. Qed.

Lemma containing_dec fold (qs : list (bytes * bytes)) r : Forall (fun f => exists w, r_get r (fst f) = Ok (VString w)) qs ->
  found_by (containing fold) (map (fun f => (fst f, VString (snd f))) qs) r \/ ~ found_by (containing fold) (map (fun f => (fst f, VString (snd f))) qs) r.
Proof.
  unfold found_by. induction 1 as [|[p q] qs (w & Hw) H IH]; [left; constructor|]. cbn [map fst snd] in *.
  assert (G : s_finds (containing fold) (has_property r) p (VString q) \/ ~ s_finds (containing fold) (has_property r) p (VString q)).
  { destruct (fold q) as [|b bs] eqn:Eq.
    - right. intros (v & _ & (v' & s & _ & [= <-] & Hne & _)). congruence.
    - destruct (substring_dec (fold q) (fold w)) as [Hs|Hs].
      + left. exists (VString w). split; [exact Hw|]. exists w, q. repeat split; [congruence|exact Hs].
      + right. intros (v & Hv & (v' & s & -> & [= <-] & _ & Hs')). unfold has_property in Hv. rewrite Hw in Hv. injection Hv as <-. contradiction. }
  destruct G as [G|G]; [|right; intros F; inversion F; subst; contradiction]. destruct IH as [IH|IH]; [left; constructor; assumption|right; intros F; inversion F; subst; contradiction].
Qed.

Theorem wildcard_suits cfg inp rs r s : in_name inp = wc_input cfg -> NoDup (wc_props cfg) -> indexable (wc_props cfg) inp ->
  in_iter inp = map Ok rs -> in_file_order rs ->
  create_index lower cfg inp created_stream = (r, s) -> zlen (st_file s ++ st_buf s) < max_alloc ->
  exists idx, r = Ok idx /\ index_exact (containing (fold_case (wc_ic cfg))) (wildcard_index lower cfg idx s) inp rs (wc_props cfg).
Proof.
  intros Hn Hnd Hin Ei Hord E Hb.
  assert (Hsort : StronglySorted Z.lt (iter_positions (in_iter inp))).
  { rewrite Ei. unfold iter_positions. replace (flat_map _ (map Ok rs)) with (map r_pos rs); [exact Hord|]. clear. induction rs as [|x rs IH]; [reflexivity|]. cbn. f_equal. exact IH. }
  destruct (wildcard_exact lower cfg inp r s Hnd Hin Hsort E Hb) as (idx & -> & Hex).
  destruct (wildcard_empty cfg inp _ s Hnd Hin E Hb) as (idx' & [= <-] & Hem).
  exists idx. split; [reflexivity|]. intros fs Hne _ Hfs.
  destruct (strings_of fs) as (qs & ->).
  { eapply Forall_impl; [|exact Hfs]. intros f [_ (w & Hw)]. exists w. exact Hw. }
  rewrite Forall_map in Hfs. cbn [fst snd] in Hfs. unfold wildcard_index. rewrite Hn.
  assert (Hrow : forall x, In x rs -> Forall (fun f => exists w, r_get x (fst f) = Ok (VString w)) qs).
  { intros x Hx. eapply Forall_impl; [|exact Hfs]. intros f [Hf _]. apply (indexable_rows _ _ _ Ei Hin x Hx _ Hf). }
  destruct (Exists_dec (fun g : bytes * bytes => fold_case (wc_ic cfg) (snd g) = []) qs) as [He|He].
  { intros g. destruct (fold_case _ _); [left; reflexivity|right; discriminate]. }
  - exists []. split; [|rewrite (Hem qs); [reflexivity| |exact He]; eapply Forall_impl; [|exact Hfs]; intros g [Hg _]; exact Hg].
    assert (Hno : forall x, ~ found_by (containing (fold_case (wc_ic cfg))) (map (fun f => (fst f, VString (snd f))) qs) x).
    { intros x Hf. unfold found_by in Hf. rewrite Forall_map, Forall_forall in Hf. apply Exists_exists in He as (g & Hg & Eg). destruct (Hf g Hg) as (v & _ & (v' & s' & _ & [= <-] & Hx & _)). contradiction. }
    clear - Hno. induction rs as [|x rs IH]; [constructor|]. apply sel_drop; [apply Hno|exact IH].
  - destruct (selected_exists (found_by (containing (fold_case (wc_ic cfg))) (map (fun f => (fst f, VString (snd f))) qs)) rs) as (l & Hl).
    { apply Forall_forall. intros x Hx. apply containing_dec, Hrow, Hx. }
    exists l. split; [exact Hl|].
    assert (Hq : Forall (fun g => In (fst g) (wc_props cfg) /\ fold_case (wc_ic cfg) (snd g) <> []) qs).
    { apply Forall_forall. rewrite Forall_forall in Hfs. intros g Hg. split; [apply Hfs, Hg|]. intros Eg. apply He. apply Exists_exists. eauto. }
    destruct (Hex qs) as (l' & (Hs' & Hin') & Hp); [intros ->; apply Hne; reflexivity|exact Hq|]. rewrite (Hp qs (Permutation_refl _)). do 2 f_equal.
    destruct (selected_sorted _ _ _ Hl Hord) as [Hls Hli]. apply sorted_ext; [exact Hs'|exact Hls|]. intros x. rewrite Hin', Hli. split.
    + intros (y & Hy & <- & Hm). rewrite Ei in Hy. apply in_map_iff in Hy as (y' & [= ->] & Hy). exists y. split; [exact Hy|]. split; [reflexivity|]. unfold found_by. rewrite Forall_map. rewrite Forall_forall in *.
      intros g Hg. destruct (Hm g Hg) as (w & Hw & Hs''). exists (VString w). split; [exact Hw|]. exists w, (snd g). repeat split; [apply Hq, Hg|exact Hs''].
    + intros (y & Hy & <- & Hm). exists y. split; [rewrite Ei; apply in_map, Hy|]. split; [reflexivity|]. unfold found_by in Hm. rewrite Forall_map in Hm. rewrite Forall_forall in *.
      intros g Hg. destruct (Hm g Hg) as (v & Hv & (w & s' & -> & [= <-] & _ & Hs'')). exists w. split; assumption.
Qed.

(** The same of a file that was created earlier. *)
Theorem wildcard_reload_suits cfg inp rs r s : in_name inp = wc_input cfg -> NoDup (wc_props cfg) -> indexable (wc_props cfg) inp ->
  in_iter inp = map Ok rs -> in_file_order rs ->
  create_index lower cfg inp created_stream = (r, s) -> zlen (st_file s ++ st_buf s) < max_alloc ->
  exists idx s2, load_index cfg inp (loaded_stream (st_file s)) = (Ok idx, s2) /\
    index_exact (containing (fold_case (wc_ic cfg))) (wildcard_index lower cfg idx s2) inp rs (wc_props cfg).
Proof.
  intros Hn Hnd Hin Ei Hord E Hb. destruct (wildcard_suits cfg inp rs r s Hn Hnd Hin Ei Hord E Hb) as (idx & -> & Hex).
  destruct (wildcard_reload lower cfg inp idx s Hnd Hin E Hb) as (s2 & El & Heq). exists idx, s2. split; [exact El|].
  intros fs Hne Hnd' Hfs. destruct (Hex fs Hne Hnd' Hfs) as (l & H1 & H2). exists l. split; [exact H1|]. unfold wildcard_index in *. rewrite Heq. exact H2.
Qed.

(** *** The index comes back on any filter. *)
Lemma iterate_returns (l : list Z) : Forall (returns (A := Z)) (list_iterate l).
Proof. induction l; constructor; [exact I|assumption]. Qed.

Lemma w_filters_safe cfg inp mtime size f H s fs : created lower cfg inp mtime size f H s -> fits s ->
  returns (filter_iters lower cfg (idx_of f) s fs) /\ forall its, filter_iters lower cfg (idx_of f) s fs = Ok (Some its) -> Forall (Forall returns) its.
Proof.
  intros Hcr Hb. pose proof (cr_inv _ _ _ _ _ _ _ _ Hcr) as HI. pose proof (cr_props _ _ _ _ _ _ _ _ Hcr) as Hk.
  induction fs as [|[p x] fs [I1 I2]]; cbn [filter_iters]; [split; [exact I|intros its [= <-]; constructor]|].
  destruct (negb _) eqn:Eh; [split; [exact I|discriminate]|].
  assert (Hp : In p (wc_props cfg)). { apply negb_false_iff in Eh. unfold does_handle_property in Eh. apply existsb_exists in Eh as (p' & Hp & Ep). apply bytes_eqb_eq in Ep. congruence. }
  assert (Hin : exists t, In (p, t) f). { rewrite <- Hk in Hp. apply in_map_iff in Hp as ([p' t] & <- & Hin). exists t. exact Hin. }
  destruct Hin as (t & Hin). rewrite (mget_idx f p t (wi_keys _ _ _ _ HI) Hin).
  destruct x; try (split; [exact I|discriminate]).
  assert (Hq : exists fps, fst (get_sequence (cell_of 0 t) (fold_case (wc_ic cfg) s0) s) = Ok (phead fps) /\ reppos H fps /\ NoDup (map fst fps)).
  { destruct (fold_case (wc_ic cfg) s0) as [|b bs] eqn:Eq.
    - pose proof (wi_trees _ _ _ _ HI) as Ht. rewrite Forall_forall in Ht. destruct (Ht _ Hin) as [_ (o & ch & Et & _)]. cbn [snd] in Et. subst t.
      exists []. split; [reflexivity|split; [exact I|constructor]].
    - destruct (w_query lower s H _ f p t (b :: bs) HI Hb Hin ltac:(discriminate)) as (fps & E & H1 & H2 & _). exists fps. rewrite E. auto. }
  destruct Hq as (fps & -> & H1 & H2). destruct fps as [|[o z] fps]; [split; [exact I|discriminate]|].
  pose proof (h_plist_iterate _ s H (wi_rep _ _ _ _ HI) Hb H1 H2) as E. cbn [phead] in *. rewrite E. clear E. generalize (map snd ((o, z) :: fps)). intros l.
  destruct (filter_iters lower cfg (idx_of f) s fs) as [[its|]|e| |]; cbn [rbind returns] in *; try contradiction; try (split; [exact I|discriminate]).
  split; [exact I|]. intros ? [= <-]. constructor; [apply iterate_returns|apply I2; reflexivity].
Qed.

Theorem wildcard_index_returns cfg inp idx s : NoDup (wc_props cfg) -> indexable (wc_props cfg) inp ->
  create_index lower cfg inp created_stream = (Ok idx, s) -> zlen (st_file s ++ st_buf s) < max_alloc ->
  forall inp' fs, returns (wildcard_index lower cfg idx s inp' fs) /\ forall it, wildcard_index lower cfg idx s inp' fs = Ok it -> Forall returns it.
Proof.
  intros Hnd Hin E Hb inp' fs. destruct (wildcard_build lower cfg inp _ s Hnd Hin E Hb) as (mtime & size & f & H & [= ->] & Hc).
  unfold wildcard_index, wildcard_positions. destruct (negb _); [split; [exact I|discriminate]|].
  destruct fs as [|g fs]; [split; [exact I|discriminate]|]. destruct (w_filters_safe cfg inp mtime size f H s (g :: fs) Hc Hb) as [H1 H2].
  destruct (filter_iters lower cfg (idx_of f) s (g :: fs)) as [[its|]|e| |]; cbn [rbind returns] in *; try contradiction; (split; [exact I|]); try discriminate.
  - intros ? [= <-]. apply join_positions_safe. apply H2. reflexivity.
  - intros ? [= <-]. constructor.
Qed.
End W.
