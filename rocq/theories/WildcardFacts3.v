(** Queries, reloading and crashes of the wildcard index. *)
From Coq Require Import List ZArith Lia Bool String Permutation Sorted.
From Coq Require Import Strings.Byte.
From Coq Require Import ZifyBool ZifyNat.
From Verif Require Import Base BaseFacts Codec CodecFacts Stream StreamFacts Node Heap Radix Located.
From Verif Require Import NodeFacts NodeFacts2 NodeFacts3 Value Join SpecJoin JoinFacts WildcardMeta MetaFacts.
From Verif Require Import Wildcard WildcardFacts WildcardFacts2 SpecWildcard.
Import ListNotations.
Open Scope Z_scope.

Section Final.
Variable lower : bytes -> bytes.
Notation fold_case := (fold_case lower).

Lemma winv_flat s s' H b f : winv s H b f -> swf s' -> flat s' = flat s -> winv s' H b f.
Proof.
  intros [(Hw & Hok & Hc) Hm Ht Hnd Hk] Hw' Hf. constructor; auto.
  split; [assumption|]. rewrite Hf. auto.
Qed.

(** State after a successful creation. *)
Record created (cfg : wconfig) (inp : input) (mtime size : Z) (f : list ftree) (H : heap) (s : stream) : Prop := {
  cr_mtime : in_mtime inp = Ok mtime;
  cr_size : in_size inp = Ok size;
  cr_props : map fst f = wc_props cfg;
  cr_inv : winv s H (meta_serialize (set_completed (body_meta cfg mtime size f) true)) f;
  cr_buf : st_buf s = [];
  cr_recs : Forall (rec_ok (wc_props cfg)) (in_iter inp);
  cr_forest : Forall (fun x => forest (snd x) = build [] (rows lower (wc_ic cfg) (fst x) (in_iter inp))) f;
}.

Lemma w_create_index cfg inp r s' :
  NoDup (wc_props cfg) -> good_input (wc_props cfg) inp ->
  create_index lower cfg inp created_stream = (r, s') -> fits s' ->
  safe r /\ (forall idx, r = Ok idx -> exists mtime size f H, idx = idx_of f /\ created cfg inp mtime size f H s') /\
  (forall e, r = Err e -> is_ok (in_size inp) = false \/ is_ok (in_mtime inp) = false \/ ~ Forall (rec_ok (wc_props cfg)) (in_iter inp)).
Proof.
  intros Hnd Hin E Hb. unfold create_index in E.
  assert (Hbody : exists r0 s0, create_body lower cfg inp created_stream = (r0, s0)) by (destruct (create_body lower cfg inp created_stream); eauto).
  destruct Hbody as (r0 & s0 & E0).
  assert (Hm0 : mono (create_body lower cfg inp)).
  { unfold create_body, new_metadata. mono_tac. }
  assert (Hw0 : swf s0) by (eapply Hm0; [apply (new_stream_wf [])|exact E0]).
  assert (Hf0 : fits s0).
  { pose proof E as E'. apply bind_inv in E' as [([idx m1] & s1 & E1 & E')|E'].
    - rewrite E0 in E1. injection E1 as _ ->.
      refine (mono_fits (do _ <- meta_save (set_completed m1 true); do _ <- stream_flush; ret idx) _ _ _ _ Hw0 E' Hb).
      mono_tac.
    - destruct E' as [(e & E' & _)|[[E' _]|[E' _]]]; rewrite E0 in E'; injection E' as _ ->; assumption. }
  destruct (w_create_body lower cfg inp r0 s0 Hnd Hin E0 Hf0) as (Hs0 & Hcase).
  apply bind_inv in E as [([idx m1] & s0' & E0' & E)|E].
  2: { split.
       - destruct E as [(e & _ & ->)|[[E ->]|[E ->]]]; [exact I| |]; rewrite E0 in E; injection E as -> _; exact Hs0.
       - split; [intros idx ->; destruct E as [(e & _ & E)|[[_ E]|[_ E]]]; discriminate|].
         intros e ->. assert (Ee : r0 = Err e).
         { destruct E as [(e' & E & Er)|[[_ Er]|[_ Er]]]; try discriminate. rewrite E0 in E. congruence. }
         destruct Hcase as [(_ & _ & [Hz|Hz])|(mtime & size & H & f & _ & _ & _ & _ & _ & _ & Herr)]; [auto|auto|].
         right. right. exact (Herr e Ee). }
  rewrite E0 in E0'. injection E0' as -> ->.
  destruct Hcase as [(_ & [e Ee] & _)|(mtime & size & H & f & Hmt & Hsz & Hk & HI & Hws & Hok & _)]; [discriminate|].
  destruct (Hok _ eq_refl) as (Ex & Hrec & Hfo). injection Ex as -> ->.
  destruct (w_meta_save s0' H _ f (set_completed (body_meta cfg mtime size f) true) HI) as (s2 & H2 & E2 & HI2 & Hl2 & _).
  { rewrite !meta_len by reflexivity. reflexivity. }
  { reflexivity. }
  step E E2.
  destruct (flush_spec s2 (Rep_wf _ _ (wi_rep _ _ _ _ HI2))) as (s3 & E3 & Hw3 & Hfl3 & Hbuf & _).
  step E E3. injection E as <- <-. split; [exact I|]. split; [|discriminate].
  intros idx [= <-]. exists mtime, size, f, H2. split; [reflexivity|].
  constructor; auto. eapply winv_flat; eassumption.
Qed.

(** ** Queries *)

Lemma w_query s H b f p t q : winv s H b f -> fits s -> In (p, t) f -> q <> [] ->
  exists fps, get_sequence (cell_of 0 t) q s = (Ok (phead fps), s) /\ reppos H fps /\ NoDup (map fst fps) /\
    map snd fps = searchf (List.length q) (forest t) q.
Proof.
  intros HI Hb Hin Hq. pose proof HI as [HR Hm Ht Hnd Hk].
  rewrite Forall_forall in Ht. destruct (Ht _ Hin) as [Hrep (o & ch & Et & Hwf)]. cbn [snd] in *. subst t.
  assert (Hndt : NoDup (offs (LN o 0 [] [] ch))).
  { clear - Hnd Hin. induction f as [|x f IH]; [destruct Hin|]. unfold foffs in Hnd. cbn [flat_map] in Hnd.
    apply NoDup_app_iff in Hnd as (Hx & Hnd & _). destruct Hin as [->|Hin]; [assumption|auto]. }
  destruct (h_get_loop (S (List.length q)) s H 0 o 0 [] [] ch q HR Hb Hrep Hndt Hwf ltac:(lia) Hq)
    as (fps & E & H1 & H2 & H3).
  exists fps. split; [exact E|]. split; [assumption|]. split; [assumption|].
  rewrite H3. cbn [forest]. apply searchf_fuel; lia.
Qed.

Lemma rows_positions ic props its p : In p props -> Forall (rec_ok props) its ->
  map fst (rows lower ic p its) = iter_positions its.
Proof.
  intros Hp HF. induction HF as [|it its (r & -> & Hr) HF IH]; [reflexivity|].
  rewrite Forall_forall in Hr. destruct (Hr p Hp) as (v & Hv). cbn [rows iter_positions flat_map]. rewrite Hv.
  cbn [map fst app]. f_equal. exact IH.
Qed.

Lemma rows_in ic props its p x v : In p props -> Forall (rec_ok props) its ->
  In (x, v) (rows lower ic p its) <-> exists r w, In (Ok r) its /\ r_pos r = x /\ r_get r p = Ok (VString w) /\ v = fold_case ic w.
Proof.
  intros Hp HF. induction HF as [|it its (r & -> & Hr) HF IH].
  - cbn [rows]. split; [intros []|intros (r & w & [] & _)].
  - rewrite Forall_forall in Hr. destruct (Hr p Hp) as (w & Hw). cbn [rows]. rewrite Hw. cbn [In]. rewrite IH. split.
    + intros [[= <- <-]|(r' & w' & H1 & H2 & H3 & H4)].
      * exists r, w. auto.
      * exists r', w'. auto.
    + intros (r' & w' & [[= <-]|H1] & H2 & H3 & H4).
      * left. rewrite Hw in H3. injection H3 as <-. congruence.
      * right. exists r', w'. auto.
Qed.

Definition answer (cfg : wconfig) (its : list (res rec)) (f : bytes * bytes) : list Z :=
  matching (fold_case (wc_ic cfg) (snd f)) (rows lower (wc_ic cfg) (fst f) its).

Definition vfilters (fs : list (bytes * bytes)) : list (bytes * value) := map (fun f => (fst f, VString (snd f))) fs.

Lemma filter_sorted {A} (R : Z -> Z -> Prop) (g : A -> bool) (h : A -> Z) l :
  StronglySorted R (map h l) -> StronglySorted R (map h (filter g l)).
Proof.
  induction l as [|x l IH]; intros Hs; [constructor|]. cbn [map] in Hs. apply StronglySorted_inv in Hs as [Hs Hx].
  cbn [filter]. destruct (g x); [|auto]. cbn [map]. constructor; [auto|].
  rewrite Forall_map in *. rewrite Forall_forall in *. intros y Hy. apply filter_In in Hy as [Hy _]. auto.
Qed.

Lemma answer_sorted cfg its f : In (fst f) (wc_props cfg) -> Forall (rec_ok (wc_props cfg)) its ->
  StronglySorted Z.lt (iter_positions its) -> StronglySorted Z.lt (answer cfg its f).
Proof.
  intros Hp HF Hs. unfold answer, matching. apply filter_sorted.
  rewrite (rows_positions (wc_ic cfg) (wc_props cfg)) by assumption. assumption.
Qed.

Lemma answer_in cfg its f pos : In (fst f) (wc_props cfg) -> Forall (rec_ok (wc_props cfg)) its ->
  In pos (answer cfg its f) <-> exists r, In (Ok r) its /\ r_pos r = pos /\ row_matches (fold_case (wc_ic cfg)) r f.
Proof.
  intros Hp HF. unfold answer, matching. rewrite in_map_iff. split.
  - intros ([x v] & <- & Hin). apply filter_In in Hin as [Hin Hc]. cbn [fst snd] in *.
    apply (rows_in (wc_ic cfg) (wc_props cfg)) in Hin; auto. destruct Hin as (r & w & H1 & H2 & H3 & ->).
    exists r. split; [assumption|]. split; [assumption|]. exists w. split; [assumption|].
    apply containsb_spec in Hc. exact Hc.
  - intros (r & H1 & H2 & w & H3 & H4). exists (pos, fold_case (wc_ic cfg) w). split; [reflexivity|].
    apply filter_In. split.
    + apply (rows_in (wc_ic cfg) (wc_props cfg)); auto. exists r, w. auto.
    + apply containsb_spec. exact H4.
Qed.

Definition is_nil {A} (l : list A) : bool := match l with [] => true | _ => false end.

Lemma mget_idx f p t : NoDup (map fst f) -> In (p, t) f -> mget (idx_of f) p = Some (Some (cell_of 0 t)).
Proof.
  intros Hnd Hin. apply in_split in Hin as (A & B & ->). rewrite idx_app. cbn [idx_of map fst snd].
  apply mget_mid. rewrite idx_keys. rewrite map_app in Hnd. cbn [map fst] in Hnd.
  apply NoDup_remove in Hnd as [_ Hn]. intros H. apply Hn. apply in_or_app. auto.
Qed.

Lemma handles_in props p : In p props -> does_handle_property props p = true.
Proof. intros Hin. unfold does_handle_property. apply existsb_exists. exists p. split; [assumption|apply bytes_eqb_refl]. Qed.

Lemma w_filter_iters cfg inp mtime size f H s fs :
  created cfg inp mtime size f H s -> fits s ->
  StronglySorted Z.lt (iter_positions (in_iter inp)) ->
  Forall (fun g => In (fst g) (wc_props cfg) /\ fold_case (wc_ic cfg) (snd g) <> []) fs ->
  filter_iters lower cfg (idx_of f) s (vfilters fs) =
  Ok (if existsb is_nil (map (answer cfg (in_iter inp)) fs) then None
      else Some (map list_iterate (map (answer cfg (in_iter inp)) fs))).
Proof.
  intros Hcr Hb Hsort Hfs. induction Hfs as [|[p q] fs [Hp Hq] Hfs IH]; [reflexivity|].
  cbn [fst snd] in *. cbn [vfilters map filter_iters fst snd]. fold (vfilters fs).
  rewrite handles_in by assumption. cbn [negb].
  pose proof (cr_inv _ _ _ _ _ _ _ Hcr) as HI. pose proof (cr_props _ _ _ _ _ _ _ Hcr) as Hk.
  assert (Hin : exists t, In (p, t) f).
  { rewrite <- Hk in Hp. apply in_map_iff in Hp as ([p' t] & <- & Hin). exists t. exact Hin. }
  destruct Hin as (t & Hin). rewrite (mget_idx f p t (wi_keys _ _ _ _ HI) Hin).
  destruct (w_query s H _ f p t (fold_case (wc_ic cfg) q) HI Hb Hin Hq) as (fps & E & H1 & H2 & H3).
  rewrite E. cbn [fst].
  pose proof (cr_forest _ _ _ _ _ _ _ Hcr) as Hfo. rewrite Forall_forall in Hfo. specialize (Hfo _ Hin). cbn [fst snd] in Hfo.
  rewrite Hfo in H3. rewrite search_build in H3; [|assumption|].
  2: { rewrite (rows_positions (wc_ic cfg) (wc_props cfg)); [assumption|assumption|apply Hcr]. }
  change (matching (fold_case (wc_ic cfg) q) (rows lower (wc_ic cfg) p (in_iter inp))) with (answer cfg (in_iter inp) (p, q)) in H3.
  destruct fps as [|[o z] fps].
  - cbn [phead]. rewrite <- H3. reflexivity.
  - cbn [phead]. rewrite IH. cbn [rbind existsb].
    change (Some (mkPlist o z (hd_poff fps))) with (phead ((o, z) :: fps)).
    rewrite (h_plist_iterate _ s H (wi_rep _ _ _ _ HI) Hb H1 H2), H3.
    assert (Hnn : is_nil (answer cfg (in_iter inp) (p, q)) = false) by (rewrite <- H3; reflexivity).
    rewrite Hnn. cbn [orb]. destruct (existsb is_nil _); reflexivity.
Qed.

Lemma intersection_nil ls : In [] ls -> is_intersection ls [].
Proof.
  intros Hin. split; [constructor|]. intros x. split; [exists []; auto|].
  intros m _. unfold occ. simpl. lia.
Qed.

Lemma strict_sorted_le l : StronglySorted Z.lt l -> StronglySorted Z.le l.
Proof. induction 1 as [|x l Hs IH Hx]; constructor; auto. eapply Forall_impl; [|exact Hx]. simpl; lia. Qed.

Lemma strict_sorted_nodup l : StronglySorted Z.lt l -> NoDup l.
Proof.
  induction 1 as [|x l Hs IH Hx]; constructor; auto. rewrite Forall_forall in Hx. intros Hin. apply Hx in Hin. lia.
Qed.

Lemma sorted_nodup_strict l : StronglySorted Z.le l -> NoDup l -> StronglySorted Z.lt l.
Proof.
  induction 1 as [|x l Hs IH Hx]; intros Hnd; constructor; apply NoDup_cons_iff in Hnd as [Hni Hnd]; auto.
  rewrite Forall_forall in *. intros y Hy. specialize (Hx y Hy). assert (x <> y) by (intros ->; contradiction). lia.
Qed.

(** Positions of distinct records are distinct. *)
Lemma positions_inj its r r' : StronglySorted Z.lt (iter_positions its) ->
  In (Ok r) its -> In (Ok r') its -> r_pos r = r_pos r' -> r = r'.
Proof.
  induction its as [|it its IH]; [intros _ []|]. intros Hs. unfold iter_positions in Hs. cbn [flat_map] in Hs.
  fold (iter_positions its) in Hs.
  assert (Hpin : forall r, In (Ok r) its -> In (r_pos r) (iter_positions its)).
  { intros x Hx. apply in_flat_map. exists (Ok x). split; [assumption|left; reflexivity]. }
  destruct it as [r0|e| |]; cbn [app] in Hs.
  - apply StronglySorted_inv in Hs as [Hs Hlt]. rewrite Forall_forall in Hlt.
    intros [[= ->]|H1] [[= ->]|H2] He; auto.
    + apply Hpin in H2. apply Hlt in H2. lia.
    + apply Hpin in H1. apply Hlt in H1. lia.
  - intros [[=]|H1] [[=]|H2] He; auto.
  - intros [[=]|H1] [[=]|H2] He; auto.
  - intros [[=]|H1] [[=]|H2] He; auto.
Qed.

Theorem w_positions cfg inp mtime size f H s fs :
  created cfg inp mtime size f H s -> fits s ->
  StronglySorted Z.lt (iter_positions (in_iter inp)) -> fs <> [] ->
  Forall (fun g => In (fst g) (wc_props cfg) /\ fold_case (wc_ic cfg) (snd g) <> []) fs ->
  exists l, wildcard_positions lower cfg (idx_of f) s (wc_input cfg) (vfilters fs) = Ok (list_iterate l) /\
    exact_answer (fold_case (wc_ic cfg)) (in_iter inp) fs l.
Proof.
  intros Hcr Hb Hsort Hne Hfs. unfold wildcard_positions. rewrite bytes_eqb_refl. cbn [negb].
  set (ls := map (answer cfg (in_iter inp)) fs).
  assert (Hrecs : Forall (rec_ok (wc_props cfg)) (in_iter inp)) by apply Hcr.
  assert (Hls : Forall (StronglySorted Z.lt) ls).
  { apply Forall_map. eapply Forall_impl; [|exact Hfs]. intros g [Hg _]. apply answer_sorted; assumption. }
  assert (Hinter : exists l, wildcard_positions lower cfg (idx_of f) s (wc_input cfg) (vfilters fs) = Ok (list_iterate l) /\ is_intersection ls l).
  { unfold wildcard_positions. rewrite bytes_eqb_refl. cbn [negb].
    pose proof (w_filter_iters cfg inp mtime size f H s fs Hcr Hb Hsort Hfs) as E.
    destruct fs as [|g fs]; [congruence|]. cbn [vfilters map] in *. rewrite E. cbn [rbind].
    destruct (existsb is_nil _) eqn:En.
    - exists []. split; [reflexivity|]. apply intersection_nil. apply existsb_exists in En as (x & Hx & Hn).
      destruct x; [exact Hx|discriminate].
    - destruct (join_intersection ls) as (l & El & Hl); [discriminate| |].
      + eapply Forall_impl; [|exact Hls]. apply strict_sorted_le.
      + exists l. split; [|assumption]. f_equal. exact El. }
  destruct Hinter as (l & El & Hs & Hl). exists l. unfold wildcard_positions in El. rewrite bytes_eqb_refl in El.
  split; [exact El|].
  assert (Hocc : forall x, In x l <-> (forall m, In m ls -> In x m)).
  { intros x. destruct (Hl x) as [(m & Hm & Em) Hle]. unfold occ in *. split.
    - intros Hx m' Hm'. apply (count_occ_In Z.eq_dec) in Hx. apply (count_occ_In Z.eq_dec). specialize (Hle m' Hm'). lia.
    - intros Hall. apply (count_occ_In Z.eq_dec). rewrite Em. apply (count_occ_In Z.eq_dec). auto. }
  split.
  - apply sorted_nodup_strict; [assumption|]. apply (NoDup_count_occ Z.eq_dec). intros x.
    destruct (Hl x) as [(m & Hm & Em) _]. unfold occ in Em. rewrite Em.
    rewrite Forall_forall in Hls. specialize (Hls m Hm). apply strict_sorted_nodup in Hls.
    apply (NoDup_count_occ Z.eq_dec); assumption.
  - intros pos. rewrite Hocc. split.
    + intros Hall. rewrite Forall_forall in Hfs.
      assert (Hg : forall g, In g fs -> exists r, In (Ok r) (in_iter inp) /\ r_pos r = pos /\ row_matches (fold_case (wc_ic cfg)) r g).
      { intros g Hin. apply (answer_in cfg); [apply Hfs; assumption|assumption|]. apply Hall. apply in_map. assumption. }
      destruct fs as [|g0 fs]; [congruence|]. destruct (Hg g0 (or_introl eq_refl)) as (r & Hr1 & Hr2 & _).
      exists r. split; [assumption|]. split; [assumption|]. apply Forall_forall. intros g Hin.
      destruct (Hg g Hin) as (r' & Hr1' & Hr2' & Hm). replace r with r'; [assumption|].
      eapply positions_inj; eauto. congruence.
    + intros (r & Hr1 & Hr2 & Hm) m Hin. apply in_map_iff in Hin as (g & <- & Hin).
      rewrite Forall_forall in Hfs, Hm. apply answer_in; [apply Hfs; assumption|assumption|]. eauto.
Qed.
End Final.
