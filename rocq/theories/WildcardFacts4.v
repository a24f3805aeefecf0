(** Reloading the file of a finished index, and files left by crashes. *)
From Coq Require Import List ZArith Lia Bool String Permutation Sorted.
From Coq Require Import Strings.Byte.
From Coq Require Import ZifyBool ZifyNat.
From Verif Require Import Base BaseFacts Codec CodecFacts Stream StreamFacts Node Heap Radix Located.
From Verif Require Import NodeFacts NodeFacts2 NodeFacts3 Value Join SpecJoin JoinFacts WildcardMeta MetaFacts.
From Verif Require Import Wildcard WildcardFacts WildcardFacts2 SpecWildcard WildcardFacts3.
Import ListNotations.
Open Scope Z_scope.

(** ** Readers only depend on the contents *)

Definition same (s s' : stream) : Prop :=
  st_file s = st_file s' /\ st_size s = st_size s' /\ st_boff s = st_boff s' /\ st_buf s = st_buf s'.

Definition reader {A} (f : M A) : Prop := forall s s', same s s' ->
  fst (f s) = fst (f s') /\ snd (f s) = s /\ snd (f s') = s'.

Lemma reader_ret {A} (a : A) : reader (ret a).
Proof. intros s s' _. auto. Qed.
Lemma reader_panic {A} : reader (@panic A).
Proof. intros s s' _. auto. Qed.
Lemma reader_nofuel {A} : reader (@nofuel A).
Proof. intros s s' _. auto. Qed.
Lemma reader_bind {A B} (f : M A) (g : A -> M B) : reader f -> (forall a, reader (g a)) -> reader (mbind f g).
Proof.
  intros Hf Hg s s' Hs. destruct (Hf s s' Hs) as (E1 & E2 & E3). unfold mbind.
  destruct (f s) as [r1 s1], (f s') as [r2 s2]. cbn [fst snd] in *. subst.
  destruct r2; cbn [fst snd]; auto. apply Hg. assumption.
Qed.
Lemma reader_get off n : reader (stream_get off n).
Proof.
  intros s s' (H1 & H2 & H3 & H4). unfold stream_get, get_from_buffer. cbn [fst snd].
  rewrite H1, H3, H4. auto.
Qed.
Create HintDb reader.
Global Hint Resolve reader_ret reader_panic reader_nofuel reader_get : reader.
Ltac reader_tac :=
  repeat first
    [ solve [eauto with reader]
    | apply reader_bind; [|intros]
    | match goal with
      | |- reader (if ?c then _ else _) => destruct c
      | |- reader (match ?x with _ => _ end) => destruct x
      | |- reader (let '(_, _) := ?x in _) => destruct x
      end ].
Lemma reader_get_plist o : reader (get_plist o).
Proof. unfold get_plist. reader_tac. Qed.
Lemma reader_get_node o : reader (get_node o).
Proof. unfold get_node. reader_tac. Qed.
Global Hint Resolve reader_get_plist reader_get_node : reader.
Lemma reader_find_loop fuel : forall c v, reader (find_loop fuel c v).
Proof. induction fuel; intros; cbn [find_loop]; unfold node_value, next_sibling; reader_tac. Qed.
Lemma reader_find n v : reader (find_child_by_prefix n v).
Proof.
  intros s s' Hs. unfold find_child_by_prefix.
  assert (E : chain_fuel s = chain_fuel s') by (unfold chain_fuel; destruct Hs as (_ & -> & _); reflexivity).
  rewrite E. assert (Hr : reader (do child <- first_child n; find_loop (chain_fuel s') child v)).
  { unfold first_child. apply reader_bind; [auto with reader|intros; apply reader_find_loop]. }
  apply Hr. assumption.
Qed.
Global Hint Resolve reader_find : reader.
Lemma reader_get_loop fuel : forall n q, reader (get_loop fuel n q).
Proof. induction fuel; intros; cbn [get_loop]; unfold first_position; reader_tac. Qed.

Lemma plist_iterate_same s s' : same s s' -> forall fuel l, plist_iterate fuel s l = plist_iterate fuel s' l.
Proof.
  intros Hs. induction fuel as [|fuel IH]; intros l; [reflexivity|]. cbn [plist_iterate].
  destruct l as [c|]; [|reflexivity]. unfold next_position.
  rewrite (proj1 (reader_get_plist (p_next c) s s' Hs)).
  destruct (fst (get_plist (p_next c) s')); [rewrite IH|..]; reflexivity.
Qed.

Lemma load_of_file cfg inp file :
  load_index cfg inp (loaded_stream file) =
  (do m <- lift (meta_unserialize file);
   do _ <- lift (assert_valid m (mkMetaInput inp (wc_ic cfg) (zlen (wc_props cfg))));
   load_roots (wc_props cfg) (md_roots m) []) (loaded_stream file).
Proof. reflexivity. Qed.

Lemma winv_roots_i64 s H b f : winv s H b f -> fits s -> Forall in_i64 (map foff f) /\ 8 * zlen (map foff f) <= max_alloc.
Proof.
  intros HI Hb. pose proof HI as [HR Hm Ht Hnd Hk].
  pose proof (foffs_range s H f HR Ht) as Hrg.
  assert (Hin : forall x, In x f -> In (foff x) (foffs f)).
  { intros x Hx. apply in_flat_map. exists x. split; [assumption|]. apply lt_off_in. }
  split.
  - apply Forall_map, Forall_forall. intros x Hx. rewrite Forall_forall in Hrg. specialize (Hrg _ (Hin x Hx)).
    unfold in_range, header_last in Hrg. unfold fits in Hb. unfold in_i64, max_alloc, two63 in *. lia.
  - (* the nodes of the roots are disjoint, 56 bytes each *)
    unfold fits in Hb.
    assert (Hsum : forall g, incl g f -> NoDup (map foff g) -> 56 * Z.of_nat (List.length g) <= zlen (flat s)).
    { intros g Hincl Hndg.
      assert (Hmult : forall l : list Z, NoDup l -> (forall o, In o l -> 0 <= o /\ o + 56 <= zlen (flat s)) ->
        (forall o1 o2, In o1 l -> In o2 l -> o1 <> o2 -> o1 + 56 <= o2 \/ o2 + 56 <= o1) ->
        56 * Z.of_nat (List.length l) <= zlen (flat s)).
      { intros l Hndl Hr Hd.
        (* spread each offset into 56 distinct values *)
        set (spread := flat_map (fun o => map (fun i => o + Z.of_nat i) (seq 0 56)) l).
        assert (Hlen : forall k : list Z, List.length (flat_map (fun o => map (fun i => o + Z.of_nat i) (seq 0 56)) k) = (56 * List.length k)%nat).
        { induction k as [|o k IHk]; [reflexivity|]. cbn [flat_map]. rewrite app_length, map_length, seq_length, IHk. simpl List.length. lia. }
        assert (Hnds : forall k, NoDup k -> (forall o1 o2, In o1 k -> In o2 k -> o1 <> o2 -> o1 + 56 <= o2 \/ o2 + 56 <= o1) ->
          NoDup (flat_map (fun o => map (fun i => o + Z.of_nat i) (seq 0 56)) k)).
        { induction k as [|o k IHk]; intros Hk1 Hk2; [constructor|]. cbn [flat_map].
          apply NoDup_cons_iff in Hk1 as [Hno Hk1]. apply NoDup_app_iff. split; [|split].
          - apply FinFun.Injective_map_NoDup; [intros i1 i2 Hab; lia|apply seq_NoDup].
          - apply IHk; [assumption|]. intros; apply Hk2; simpl; auto.
          - intros x Hx Hx2. apply in_map_iff in Hx as (i & <- & Hi). apply in_seq in Hi.
            apply in_flat_map in Hx2 as (o2 & Ho2 & Hx2). apply in_map_iff in Hx2 as (j & Ej & Hj). apply in_seq in Hj.
            destruct (Hk2 o o2); [left; reflexivity|right; assumption|intros ->; contradiction|lia|lia]. }
        assert (Hle : (List.length spread <= Z.to_nat (zlen (flat s)))%nat).
        { apply NoDup_Z_bound; [apply Hnds; assumption|]. apply Forall_forall. intros x Hx.
          apply in_flat_map in Hx as (o & Ho & Hx). apply in_map_iff in Hx as (i & <- & Hi). apply in_seq in Hi.
          specialize (Hr o Ho). lia. }
        unfold spread in Hle. rewrite Hlen in Hle. pose proof (zlen_nonneg (flat s)). lia. }
      rewrite <- (map_length foff g). apply Hmult; [assumption| |].
      - intros o Ho. apply in_map_iff in Ho as (x & <- & Hx). apply Hincl in Hx.
        rewrite Forall_forall in Ht. destruct (Ht x Hx) as [Hrx _]. apply rep_off in Hrx.
        pose proof (ho_in _ _ (proj1 (proj2 HR)) _ _ Hrx) as Hi. unfold csize in Hi. cbn [cenc] in Hi.
        rewrite node_serialize_len in Hi. unfold foff. lia.
      - intros o1 o2 Ho1 Ho2 Hne. apply in_map_iff in Ho1 as (x1 & <- & Hx1). apply in_map_iff in Ho2 as (x2 & <- & Hx2).
        apply Hincl in Hx1, Hx2. rewrite Forall_forall in Ht. destruct (Ht x1 Hx1) as [Hr1 _]. destruct (Ht x2 Hx2) as [Hr2 _].
        apply rep_off in Hr1, Hr2.
        pose proof (ho_disj _ _ (proj1 (proj2 HR)) _ _ _ _ Hr1 Hr2 Hne) as Hd. unfold csize in Hd. cbn [cenc] in Hd.
        rewrite !node_serialize_len in Hd. exact Hd. }
    assert (Hndf : NoDup (map foff f)).
    { clear - Hnd. induction f as [|x f IH]; [constructor|]. unfold foffs in Hnd. cbn [flat_map] in Hnd.
      apply NoDup_app_iff in Hnd as (_ & Hnd & Hd). cbn [map]. constructor; [|auto].
      intros Hin. apply in_map_iff in Hin as (y & Ey & Hy). apply (Hd (foff x)); [apply lt_off_in|].
      apply in_flat_map. exists y. split; [assumption|]. rewrite <- Ey. apply lt_off_in. }
    specialize (Hsum f (incl_refl f) Hndf). unfold zlen at 1. rewrite map_length. lia.
Qed.

Section Reload.
Variable lower : bytes -> bytes.

Lemma filter_iters_same cfg idx s s' : same s s' -> forall fs,
  filter_iters lower cfg idx s fs = filter_iters lower cfg idx s' fs.
Proof.
  intros Hs. induction fs as [|[p f] fs IH]; [reflexivity|]. cbn [filter_iters].
  destruct (negb _); [reflexivity|]. destruct (mget idx p) as [[n|]|]; try reflexivity.
  destruct f; try reflexivity.
  unfold get_sequence. rewrite (proj1 (reader_get_loop _ _ _ s s' Hs)).
  destruct (fst (get_loop _ _ _ s')) as [[l|]| | |]; try reflexivity.
  rewrite IH. destruct (filter_iters lower cfg idx s' fs) as [[its|]| | |]; try reflexivity.
  cbn [rbind]. assert (E : chain_fuel s = chain_fuel s') by (unfold chain_fuel; destruct Hs as (_ & -> & _); reflexivity).
  rewrite E, (plist_iterate_same s s' Hs). reflexivity.
Qed.

Lemma wildcard_positions_same cfg idx s s' name fs : same s s' ->
  wildcard_positions lower cfg idx s name fs = wildcard_positions lower cfg idx s' name fs.
Proof.
  intros Hs. unfold wildcard_positions. destruct (negb _); [reflexivity|]. destruct fs; [reflexivity|].
  rewrite (filter_iters_same _ _ _ _ Hs). reflexivity.
Qed.

(** ** Reload *)

Lemma w_load_roots s H b : fits s -> forall f g, winv s H b (g ++ f) ->
  load_roots (map fst f) (map foff f) (idx_of g) s = (Ok (idx_of (g ++ f)), s).
Proof.
  intros Hb. induction f as [|[p t] f IH]; intros g HI.
  - rewrite app_nil_r. reflexivity.
  - change (foff (p, t)) with (lt_off t). cbn [map fst load_roots]. change (foff (p, t)) with (lt_off t). unfold mbind. pose proof HI as [HR Hm Ht Hnd Hk].
    apply Forall_app in Ht as [_ Ht]. apply Forall_cons_iff in Ht as [[Hr _] _]. cbn [snd] in Hr.
    rewrite (h_get_node s H (lt_off t) _ HR Hb (rep_off _ _ _ Hr)).
    rewrite mset_new.
    2: { rewrite idx_keys. rewrite map_app in Hk. cbn [map fst] in Hk. apply NoDup_remove in Hk as [_ Hk].
         intros Hin. apply Hk, in_or_app. auto. }
    replace (idx_of g ++ [(p, Some (cell_of 0 t))]) with (idx_of (g ++ [(p, t)])) by (rewrite idx_app; reflexivity).
    replace (g ++ (p, t) :: f) with ((g ++ [(p, t)]) ++ f) in * by (rewrite <- app_assoc; reflexivity).
    apply IH. exact HI.
Qed.

Theorem w_reload cfg inp mtime size f H s :
  in_i64 mtime -> in_i64 size ->
  created lower cfg inp mtime size f H s -> fits s ->
  let s2 := loaded_stream (st_file s) in
  load_index cfg inp s2 = (Ok (idx_of f), s2) /\
  forall name fs, wildcard_positions lower cfg (idx_of f) s2 name fs = wildcard_positions lower cfg (idx_of f) s name fs.
Proof.
  intros Him His Hcr Hb s2. pose proof (cr_inv _ _ _ _ _ _ _ _ Hcr) as HI. pose proof (cr_buf _ _ _ _ _ _ _ _ Hcr) as Hbuf.
  pose proof HI as [HR Hm Ht Hnd Hk]. pose proof (Rep_wf _ _ HR) as Hwf. pose proof (swf_size _ Hwf) as Hsz. pose proof Hwf as [Hbo Hzo].
  assert (Hflat : flat s = st_file s) by (unfold flat; rewrite Hbuf, app_nil_r; reflexivity).
  assert (Hsame : same s2 s).
  { unfold s2, loaded_stream, new_stream, same. cbn [st_file st_size st_boff st_buf].
    rewrite Hzo, Hflat, Hbo, Hbuf. auto. }
  assert (HI2 : winv s2 H (meta_serialize (set_completed (body_meta cfg mtime size f) true)) f).
  { eapply winv_flat; [exact HI|apply new_stream_wf|]. unfold s2, loaded_stream. rewrite new_stream_flat. congruence. }
  split; [|intros; apply wildcard_positions_same; assumption].
  assert (Hb2 : fits s2).
  { unfold fits in *. unfold s2, loaded_stream. rewrite new_stream_flat, <- Hflat. assumption. }
  destruct (winv_roots_i64 s H _ f HI Hb) as [Hr1 Hr2].
  set (m := set_completed (body_meta cfg mtime size f) true) in *.
  assert (Hfile : exists rest, st_file s = meta_serialize m ++ rest).
  { pose proof (ho_enc _ _ (proj1 (proj2 HR)) _ _ Hm) as He. pose proof (ho_in _ _ (proj1 (proj2 HR)) _ _ Hm) as Hi.
    unfold csize in *. cbn [cenc] in *. rewrite <- Hflat. exists (skipn (Z.to_nat (zlen (meta_serialize m))) (flat s)).
    rewrite <- He at 1. unfold slice. cbn [Z.to_nat skipn]. rewrite firstn_skipn. reflexivity. }
  destruct Hfile as (rest & Hfile).
  unfold s2. rewrite load_of_file. fold s2. unfold mbind, lift. rewrite Hfile at 1.
  rewrite meta_roundtrip.
  2: { split; [reflexivity|]. split; [unfold m; cbn; unfold CurrentVersion; lia|]. split; [exact Him|]. split; [exact His|].
       split; [exact Hr2|exact Hr1]. }
  unfold assert_valid. cbn [mi_input mi_ic mi_roots]. unfold m at 1. cbn [set_completed body_meta md_version md_magic md_mtime md_size md_ic md_completed md_roots].
  rewrite Z.eqb_refl. cbn [negb]. rewrite bytes_eqb_refl. cbn [negb].
  rewrite (cr_mtime _ _ _ _ _ _ _ _ Hcr), (cr_size _ _ _ _ _ _ _ _ Hcr). cbn [rbind]. rewrite !Z.eqb_refl, Bool.eqb_reflx. cbn [negb].
  assert (El : zlen (md_roots m) =? zlen (wc_props cfg) = true).
  { unfold m. cbn. rewrite <- (cr_props _ _ _ _ _ _ _ _ Hcr). unfold zlen. rewrite !map_length. lia. }
  rewrite El. cbn [negb]. rewrite <- (cr_props _ _ _ _ _ _ _ _ Hcr).
  change (md_roots m) with (map foff f). change (@nil (bytes * option node)) with (idx_of []).
  apply (w_load_roots s2 H (meta_serialize m) Hb2 f []). exact HI2.
Qed.
End Reload.

(** ** Crashes *)

(** A file that agrees with a header as far as it goes. *)
Definition agree (hdr f : bytes) : Prop :=
  forall i, 0 <= i <= header_last -> i < zlen f -> nth (Z.to_nat i) f x00 = nth (Z.to_nat i) hdr x00.

Lemma agree_write hdr f o bs : agree hdr f -> 0 <= o <= zlen f -> hsafe hdr (o, bs) -> agree hdr (file_write_at f o bs).
Proof.
  intros Ha Ho Hs i Hi Hlt. rewrite file_write_at_in in * by assumption. rewrite zlen_overwrite in Hlt by lia.
  destruct (Z_lt_dec i o).
  - rewrite nth_overwrite_out by lia. apply Ha; lia.
  - destruct (Z_lt_dec i (o + zlen bs)).
    + rewrite nth_overwrite_in by lia. replace (Z.to_nat i - Z.to_nat o)%nat with (Z.to_nat (i - o)) by lia.
      apply Hs; cbn [fst snd]; lia.
    + rewrite nth_overwrite_out by lia. apply Ha; lia.
Qed.

Lemma chain_split w : forall f pre g, chain f (pre ++ w) g -> exists h, chain f pre h /\ chain h w g.
Proof.
  intros f pre. revert f. induction pre as [|[o bs] pre IH]; intros f g Hc; cbn [app] in Hc.
  - exists f. split; [constructor|assumption].
  - inversion Hc; subst. destruct (IH _ _ H5) as (h & H1 & H2). exists h. split; [constructor; assumption|assumption].
Qed.

Lemma chain_join w : forall f pre g h, chain f pre h -> chain h w g -> chain f (pre ++ w) g.
Proof. intros f pre g h H. induction H; intros Hc; cbn [app]; [assumption|]. constructor; auto. Qed.

Lemma chain_apply f w g : chain f w g -> apply_writes file_write_at f w = g.
Proof. induction 1; [reflexivity|]. cbn [apply_writes]. assumption. Qed.

Lemma chain_agree hdr f w g : chain f w g -> Forall (hsafe hdr) w -> agree hdr f -> agree hdr g.
Proof.
  induction 1; intros Hs Ha; [assumption|]. apply Forall_cons_iff in Hs as [Hs1 Hs]. apply IHchain; [assumption|].
  apply agree_write; assumption.
Qed.

Lemma hsafe_torn hdr o bs k : hsafe hdr (o, bs) -> hsafe hdr (o, firstn k bs).
Proof.
  unfold hsafe. cbn [fst snd]. intros Hs i Hi Hlt. unfold zlen in *. rewrite firstn_length in Hlt.
  rewrite nth_firstn_lt by lia. apply Hs; lia.
Qed.

Lemma crash_agree hdr s f : wsafe hdr s -> crash_file file_write_at (st_wlog s) f -> agree hdr f.
Proof.
  intros (_ & Hlog & Hlg) (pre & post & torn & Ew & Htorn & ->). unfold logged in Hlg. rewrite Ew in *.
  apply chain_split in Hlg as (h & Hpre & Hpost). apply Forall_app in Hlog as [Hlpre Hlpost].
  assert (Ha : agree hdr h).
  { eapply chain_agree; [exact Hpre|assumption|]. intros i Hi Hlt. cbn in Hlt. lia. }
  destruct Htorn as [->|(o & bs & k & rest & -> & ->)].
  - rewrite app_nil_r, (chain_apply _ _ _ Hpre). assumption.
  - inversion Hpost as [|? ? ? ? ? Ho Hc']; subst. apply Forall_cons_iff in Hlpost as [Hs _].
    rewrite (chain_apply [] (pre ++ [(o, firstn k bs)]) (file_write_at h o (firstn k bs))).
    + apply agree_write; [assumption|assumption|apply hsafe_torn; assumption].
    + apply chain_snoc; assumption.
Qed.

Lemma agree_cases m f : List.length (md_magic m) = 19%nat -> agree (header m) f ->
  (List.length f < 47)%nat \/ exists rest, f = header m ++ rest.
Proof.
  intros Hm Ha. destruct (Nat.lt_ge_cases (List.length f) 47) as [Hl|Hl]; [left; assumption|right].
  exists (skipn 47 f). rewrite <- (firstn_skipn 47 f) at 1. f_equal.
  apply (nth_ext _ _ x00 x00).
  - rewrite firstn_length, header_len by assumption. lia.
  - intros n Hn. rewrite firstn_length in Hn. rewrite nth_firstn_lt by lia.
    specialize (Ha (Z.of_nat n)). rewrite Nat2Z.id in Ha. apply Ha; unfold header_last, zlen; lia.
Qed.

Lemma assert_valid_incomplete m mi : md_completed m = false -> safe (in_mtime (mi_input mi)) -> safe (in_size (mi_input mi)) ->
  exists e, assert_valid m mi = Err e.
Proof.
  intros Hc Hs1 Hs2. unfold assert_valid.
  destruct (negb (md_version m =? CurrentVersion)); [eauto|].
  destruct (negb (bytes_eqb (md_magic m) ExpectedMagicBytes)); [eauto|].
  destruct (in_mtime (mi_input mi)); try contradiction; cbn [rbind]; [|eauto].
  destruct (negb (md_mtime m =? a)); [eauto|].
  destruct (in_size (mi_input mi)); try contradiction; cbn [rbind]; [|eauto].
  destruct (negb (md_size m =? a0)); [eauto|].
  destruct (negb (Bool.eqb (md_ic m) (mi_ic mi))); [eauto|].
  rewrite Hc. cbn [negb]. eauto.
Qed.

(** Any file whose header is that of an incomplete index is refused. *)
Lemma agree_rejected m file cfg inp : meta_fits m -> md_completed m = false ->
  safe (in_mtime inp) -> safe (in_size inp) -> agree (header m) file ->
  exists e, fst (load_index cfg inp (loaded_stream file)) = Err e.
Proof.
  intros Hfit Hc Hs1 Hs2 Ha. rewrite load_of_file. unfold mbind, lift.
  destruct (agree_cases m file (proj1 Hfit) Ha) as [Hs|(rest & ->)].
  - rewrite meta_unserialize_short by assumption. cbn. eauto.
  - destruct (meta_unserialize_header m rest Hfit) as [(roots & ->)| ->]; [|cbn; eauto].
    match goal with |- context [assert_valid ?m ?mi] => destruct (assert_valid_incomplete m mi) as (e & ->) end; auto.
    cbn. eauto.
Qed.

Section CrashSafe.
Variable lower : bytes -> bytes.

Theorem w_crash cfg inp r s file cfg' inp' :
  NoDup (wc_props cfg) -> good_input (wc_props cfg) inp ->
  create_body lower cfg inp created_stream = (r, s) -> fits s ->
  crash_file file_write_at (st_wlog s) file ->
  safe (in_mtime inp') -> safe (in_size inp') ->
  exists e, fst (load_index cfg' inp' (loaded_stream file)) = Err e.
Proof.
  intros Hnd Hin E Hb Hcr Hs1 Hs2.
  destruct (w_create_body lower cfg inp r s Hnd Hin E Hb) as (_ & [(-> & _ & _)|(mtime & size & H & f & Hmt & Hsz & Hk & HI & Hws & _)]).
  - destruct Hcr as (pre & post & torn & Ew & Htorn & ->). cbn [created_stream new_stream st_wlog] in Ew.
    symmetry in Ew. apply app_eq_nil in Ew as [-> ->].
    destruct Htorn as [->|(o & bs & k & rest & [=] & _)]. cbn. eauto.
  - destruct Hin as (_ & _ & Hi1 & Hi2 & _). destruct (winv_roots_i64 s H _ f HI Hb) as [Hr1 Hr2].
    eapply (agree_rejected (body_meta cfg mtime size f)); try eassumption.
    + split; [reflexivity|]. split; [cbn; unfold CurrentVersion; lia|]. split; [apply Hi2; assumption|].
      split; [apply Hi1; assumption|]. split; assumption.
    + reflexivity.
    + eapply crash_agree; eassumption.
Qed.
End CrashSafe.
