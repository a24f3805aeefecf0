(** Creation of a whole wildcard index: metadata, roots, records, final save. *)
From Coq Require Import List ZArith Lia Bool String Permutation Sorted.
From Coq Require Import Strings.Byte.
From Coq Require Import ZifyBool ZifyNat.
From Verif Require Import Base BaseFacts Codec CodecFacts Stream StreamFacts Node Heap Radix Located.
From Verif Require Import NodeFacts NodeFacts2 NodeFacts3 Value Join JoinFacts WildcardMeta MetaFacts Wildcard WildcardFacts.
Import ListNotations.
Open Scope Z_scope.

Definition with_roots (m : metadata) (l : list Z) : metadata :=
  mkMeta (md_magic m) (md_version m) (md_mtime m) (md_size m) (md_ic m) (md_completed m) l.

Definition foff (x : ftree) : Z := lt_off (snd x).

(** A new, empty tree. *)
Lemma winv_new s H meta f p s' r : winv s H meta f -> ~ In p (map fst f) ->
  (do n <- new_empty_node; do _ <- node_save n; ret n) s = (r, s') ->
  exists H', let t := LN (zlen (flat s)) 0 [] [] [] in
    r = Ok (cell_of 0 t) /\ winv s' H' meta (f ++ [(p, t)]) /\ ev s s'.
Proof.
  intros [HR Hm Ht Hnd Hk] Hp E.
  destruct (h_new_node s H HR) as (s1 & E1 & HR1 & Hl1 & Hev1). step E E1.
  set (o := zlen (flat s)) in *. set (n := mkNode o 0 0 0 0 0 0 0) in *.
  destruct (h_node_save s1 (upd H o (CNode n)) n n HR1) as (s2 & E2 & HR2 & Hl2 & Hev2).
  { unfold n. cbn [n_off]. apply upd_same. }
  { pose proof (ho_ok _ _ (proj1 (proj2 HR1)) o (CNode n) (upd_same _ _ _)) as (_ & _ & Hfit). exact Hfit. }
  step E E2. injection E as <- <-. set (t := LN o 0 [] [] []).
  set (H1 := upd H o (CNode n)) in *. set (H2 := upd H1 (n_off n) (CNode n)) in *.
  assert (Hevo : evo s H s2 H2 [] [o]).
  { eapply evo_trans.
    - apply (evo_alloc s H (CNode n) s1 []); auto; constructor.
    - cbn [app]. apply (evo_update s1 H1 o (CNode n) s2 [o]); auto.
      + eexists. split; [apply upd_same|exact I].
      + apply NoDup_single.
      + left. reflexivity. }
  exists H2. cbv zeta. split; [reflexivity|]. split; [|eapply ev_trans; eassumption].
  assert (Hrg : Forall (in_range s) (foffs f)) by (eapply foffs_range; eassumption).
  constructor.
  - exact HR2.
  - rewrite (ev_frame _ _ _ _ _ _ Hevo); [assumption| |intros []].
    destruct HR as (_ & _ & Hl). unfold header_last in Hl. lia.
  - apply Forall_app. split.
    + apply Forall_forall. intros x Hx. pose proof (proj1 (Forall_forall _ _) Ht x Hx) as [Hrx Hroot].
      split; [|assumption]. eapply (evo_rep _ _ _ _ _ _ _ _ Hevo HR Hrx). intros ? _ [].
    + constructor; [|constructor]. cbn [snd]. split.
      * unfold t; rewrite rep_unfold. split; [|split; [left; reflexivity|split; exact I]]. unfold H2. apply upd_same.
      * exists o, []. split; [reflexivity|]. apply wfs_nil.
  - unfold foffs. rewrite flat_map_app. cbn [flat_map snd t offs map app].
    apply NoDup_app_iff. split; [assumption|]. split; [apply NoDup_single|].
    intros x Hx [<-|[]]. rewrite Forall_forall in Hrg. apply Hrg in Hx. unfold in_range, o in Hx. lia.
  - rewrite map_app. cbn [map fst]. apply NoDup_app_iff. split; [assumption|]. split; [apply NoDup_single|].
    intros x Hx [<-|[]]. contradiction.
Qed.

Lemma mono_make_roots props : forall i idx m, mono (make_roots i props idx m).
Proof. induction props; intros; cbn [make_roots]; mono_tac. Qed.
Global Hint Resolve mono_make_roots : mono.

Lemma set_root_at m (a : list Z) z b n :
  md_roots m = a ++ z :: b -> set_root m (List.length a) n = with_roots m (a ++ n_off n :: b).
Proof.
  intros E. unfold set_root, with_roots. f_equal. rewrite E.
  rewrite firstn_app, firstn_all, Nat.sub_diag. cbn [firstn]. rewrite app_nil_r. f_equal. f_equal.
  replace (S (List.length a)) with (List.length (a ++ [z])) by (rewrite app_length; simpl; lia).
  replace (a ++ z :: b) with ((a ++ [z]) ++ b) by (rewrite <- app_assoc; reflexivity).
  rewrite skipn_app, skipn_all, Nat.sub_diag. reflexivity.
Qed.

Lemma w_make_roots props : forall s H meta f m r s',
  winv s H meta f -> NoDup props -> (forall p, In p props -> ~ In p (map fst f)) ->
  md_roots m = map foff f ++ repeat 0 (List.length props) ->
  make_roots (List.length f) props (idx_of f) m s = (r, s') ->
  exists H' f', r = Ok (idx_of (f ++ f'), with_roots m (map foff (f ++ f'))) /\
    winv s' H' meta (f ++ f') /\ map fst f' = props /\ Forall (fun x => forest (snd x) = []) f' /\ ev s s'.
Proof.
  induction props as [|p props IH]; intros s H meta f m r s' HI Hnd Hdis Hm E.
  - injection E as <- <-. exists H, []. cbn [List.length repeat] in Hm. rewrite app_nil_r in *.
    split; [|split; [assumption|split; [reflexivity|split; [constructor|apply ev_refl]]]].
    f_equal. f_equal. rewrite <- Hm. destruct m; reflexivity.
  - cbn [make_roots] in E.
    destruct ((do n <- new_empty_node; do _ <- node_save n; ret n) s) as [rn s1] eqn:En.
    pose proof En as En0.
    destruct (winv_new s H meta f p s1 rn HI (Hdis p (or_introl eq_refl)) En) as (H1 & -> & HI1 & Hev1).
    set (t := LN (zlen (flat s)) 0 [] [] []) in *.
    assert (E2 : make_roots (S (List.length f)) props (mset (idx_of f) p (Some (cell_of 0 t))) (set_root m (List.length f) (cell_of 0 t)) s1 = (r, s')).
    { unfold mbind in E, En. destruct (new_empty_node s) as [[n|e| |] s2]; try discriminate.
      destruct (node_save n s2) as [[[]|e| |] s3]; try discriminate. unfold ret in En.
      assert (En1 : n = cell_of 0 t) by congruence. assert (En2 : s3 = s1) by congruence. rewrite En1, En2 in E. exact E. }
    apply NoDup_cons_iff in Hnd as [Hnp Hnd].
    cbn [List.length repeat] in Hm.
    rewrite <- (map_length foff f), (set_root_at m _ _ _ _ Hm), map_length in E2.
    rewrite mset_new in E2 by (rewrite idx_keys; apply Hdis; left; reflexivity).
    replace (idx_of f ++ [(p, Some (cell_of 0 t))]) with (idx_of (f ++ [(p, t)])) in E2 by (rewrite idx_app; reflexivity).
    replace (S (List.length f)) with (List.length (f ++ [(p, t)])) in E2 by (rewrite app_length; simpl; lia).
    set (m2 := with_roots m (map foff f ++ n_off (cell_of 0 t) :: repeat 0 (List.length props))) in *.
    destruct (IH s1 H1 meta (f ++ [(p, t)]) m2 r s' HI1 Hnd) as (H' & f' & -> & HI' & Hk' & Hfo & Hev').
    { intros q Hq. rewrite map_app, in_app_iff. intros [Hq2|[Hq2|[]]].
      - exact (Hdis q (or_intror Hq) Hq2).
      - cbn [fst] in Hq2. subst. contradiction. }
    { unfold m2. cbn [with_roots md_roots]. rewrite map_app. cbn [map]. rewrite <- app_assoc. reflexivity. }
    { exact E2. }
    exists H', ((p, t) :: f'). rewrite <- app_assoc in HI'. cbn [app] in HI'.
    rewrite <- !app_assoc. cbn [app].
    split; [reflexivity|]. split; [assumption|]. split; [cbn [map fst]; congruence|].
    split; [constructor; [reflexivity|assumption]|]. eapply ev_trans; eassumption.
Qed.

(** Saving the metadata over an earlier version of the same length. *)
Lemma w_meta_save s H b0 f m : winv s H b0 f -> zlen (meta_serialize m) = zlen b0 -> List.length (md_magic m) = 19%nat ->
  exists s' H', meta_save m s = (Ok tt, s') /\ winv s' H' (meta_serialize m) f /\ zlen (flat s') = zlen (flat s) /\
    (wsafe (header m) s -> wsafe (header m) s').
Proof.
  intros [HR Hm Ht Hnd Hk] Hl Hmag. pose proof HR as (Hwf & Hok & Hc).
  pose proof (ho_in _ _ Hok _ _ Hm) as Hi. unfold csize in Hi. cbn [cenc] in Hi.
  destruct (replace_spec s 0 (meta_serialize m) Hwf) as (s' & E & Hwf' & Hf & _); [lia|].
  assert (Hz : zlen (flat s') = zlen (flat s)) by (rewrite Hf, zlen_overwrite; lia).
  exists s', (upd H 0 (CMeta (meta_serialize m))).
  assert (HR' : Rep s' (upd H 0 (CMeta (meta_serialize m)))).
  { split; [assumption|]. split; [|lia]. rewrite Hf.
    apply (heap_ok_update (flat s) H 0 (CMeta b0) (CMeta (meta_serialize m))); auto. reflexivity. }
  split; [exact E|]. split; [|split; [assumption|]].
  - constructor; auto.
    + pose proof (foffs_range s H f HR Ht) as Hrg. rewrite Forall_forall in Hrg.
      apply Forall_forall. intros x Hx. pose proof (proj1 (Forall_forall _ _) Ht x Hx) as [Hrx Hroot].
      split; [|assumption]. apply (rep_frame _ H); [| |assumption].
      * intros o bs Eo. rewrite upd_other; [assumption|]. intros ->. rewrite Hm in Eo. discriminate.
      * intros o Ho. apply upd_other. intros ->.
        assert (Hin : In 0 (foffs f)) by (apply in_flat_map; eauto). apply Hrg in Hin. unfold in_range, header_last in Hin. lia.
  - intros Hs. apply (replace_wsafe (header m) s 0 (meta_serialize m)); try assumption; [lia|].
    intros i Hi1 Hi2. cbn [fst snd] in *. rewrite meta_serialize_header, Z.sub_0_r.
    apply app_nth1. rewrite header_len by assumption. unfold header_last in Hi1. lia.
Qed.

(** The first save, on the empty stream. *)
Lemma w_meta_first m : List.length (md_magic m) = 19%nat ->
  exists s H, meta_save m created_stream = (Ok tt, s) /\ winv s H (meta_serialize m) [] /\ wsafe (header m) s.
Proof.
  intros Hmag. pose proof (meta_len m Hmag) as Hlen. pose proof (zlen_nonneg (md_roots m)).
  assert (Hwf : swf created_stream) by apply (new_stream_wf []).
  destruct (replace_spec created_stream 0 (meta_serialize m) Hwf) as (s & E & Hwf' & Hf & _ & d & fl & Hw & Hd & Hfl).
  { cbn. lia. }
  assert (Hflat : flat s = meta_serialize m).
  { rewrite Hf. unfold overwrite. cbn [Z.to_nat firstn app plus created_stream flat new_stream st_file st_buf].
    rewrite skipn_nil, app_nil_r. reflexivity. }
  exists s, (upd (fun _ => None) 0 (CMeta (meta_serialize m))).
  split; [exact E|]. split.
  - constructor; try constructor; auto.
    + split; [|unfold header_last; rewrite Hflat; lia]. rewrite Hflat.
      change (meta_serialize m) with ([] ++ cenc (CMeta (meta_serialize m))) at 1.
      change 0 with (zlen (@nil byte)).
      apply heap_ok_alloc; [|unfold csize; cbn [cenc]; lia|reflexivity].
      constructor; discriminate.
  - assert (Hb : forall i, 0 <= i <= header_last -> nth (Z.to_nat i) (flat s) x00 = nth (Z.to_nat i) (header m) x00).
    { intros i Hi. rewrite Hflat, meta_serialize_header. apply app_nth1. rewrite header_len by assumption.
      unfold header_last in Hi. lia. }
    split; [assumption|]. split; [|eapply replace_logged; [exact Hwf| |exact E|constructor]; cbn; lia].
    rewrite Hw. cbn [created_stream new_stream st_wlog app]. apply Forall_app. split.
    + destruct Hd as [->|(k & -> & Hlt)]; [constructor|]. cbn in Hlt. lia.
    + destruct Hfl as [->|(o & -> & Ho)]; constructor; auto.
      intros i Hi Hlt. cbn [fst snd] in *. rewrite nth_skipn.
      replace (Z.to_nat o + Z.to_nat (i - o))%nat with (Z.to_nat i) by lia. apply Hb. lia.
Qed.

Lemma mono_meta_save m : mono (meta_save m).
Proof. apply mono_replace. Qed.
Global Hint Resolve mono_meta_save : mono.

Lemma header_roots m l : List.length l = List.length (md_roots m) -> header (with_roots m l) = header m.
Proof. intros E. unfold header, with_roots, zlen. cbn. rewrite E. reflexivity. Qed.

Lemma Forall2_same_map {A} (R : ftree -> ftree -> Prop) (g : ftree -> A) f f' :
  (forall x y, R x y -> g y = g x) -> Forall2 R f f' -> map g f' = map g f.
Proof. intros Hg HF. induction HF; cbn [map]; [reflexivity|]. f_equal; auto. Qed.

Section Body.
Variable lower : bytes -> bytes.

(** Preconditions on the input: the sizes are int64, and neither the iterator
    nor the records crash. *)
Definition good_input (props : list bytes) (inp : input) : Prop :=
  safe (in_size inp) /\ safe (in_mtime inp) /\
  (forall z, in_size inp = Ok z -> in_i64 z) /\ (forall z, in_mtime inp = Ok z -> in_i64 z) /\
  Forall (input_safe props) (in_iter inp).

Definition body_meta (cfg : wconfig) (mtime size : Z) (f : list ftree) : metadata :=
  mkMeta ExpectedMagicBytes CurrentVersion mtime size (wc_ic cfg) false (map foff f).

Lemma w_create_body cfg inp r s' :
  NoDup (wc_props cfg) -> good_input (wc_props cfg) inp ->
  create_body lower cfg inp created_stream = (r, s') -> fits s' ->
  safe r /\
  ((s' = created_stream /\ (exists e, r = Err e) /\ (is_ok (in_size inp) = false \/ is_ok (in_mtime inp) = false)) \/
   exists mtime size H f,
     in_mtime inp = Ok mtime /\ in_size inp = Ok size /\
     map fst f = wc_props cfg /\
     winv s' H (meta_serialize (body_meta cfg mtime size f)) f /\
     wsafe (header (body_meta cfg mtime size f)) s' /\
     (forall x, r = Ok x -> x = (idx_of f, body_meta cfg mtime size f) /\
        Forall (rec_ok (wc_props cfg)) (in_iter inp) /\
        Forall (fun x => forest (snd x) = build [] (rows lower (wc_ic cfg) (fst x) (in_iter inp))) f) /\
     (forall e, r = Err e -> ~ Forall (rec_ok (wc_props cfg)) (in_iter inp))).
Proof.
  intros Hnd (Hs1 & Hs2 & _ & _ & Hin) E Hb. unfold create_body in E.
  apply bind_inv in E as [(m0 & s0 & E0 & E)|E].
  2: { (* new_metadata fails *)
    assert (Hx : exists r0, new_metadata (mkMetaInput inp (wc_ic cfg) (zlen (wc_props cfg))) created_stream = (r0, s') /\
              is_ok r = false /\ (forall e, r0 = Err e -> r = Err e) /\ is_ok r0 = false).
    { destruct E as [(e & E & ->)|[[E ->]|[E ->]]]; eexists; (split; [exact E|]); (split; [reflexivity|]); (split; [intros ? [=]; subst; reflexivity|reflexivity]). }
    destruct Hx as (r0 & Ex & Hno & Herr & Hno0). unfold new_metadata in Ex. cbn [mi_input mi_ic mi_roots] in Ex.
    unfold mbind, lift in Ex.
    destruct (in_size inp) as [size|e| |] eqn:Esz; try contradiction.
    2: { injection Ex as <- <-. rewrite (Herr e eq_refl). split; [exact I|]. left. eauto. }
    destruct (in_mtime inp) as [mtime|e| |] eqn:Emt; try contradiction.
    2: { injection Ex as <- <-. rewrite (Herr e eq_refl). split; [exact I|]. left. eauto. }
    destruct (w_meta_first (mkMeta ExpectedMagicBytes CurrentVersion mtime size (wc_ic cfg) false (repeat 0 (Z.to_nat (zlen (wc_props cfg)))))) as (s1 & H1 & Es & _); [reflexivity|].
    rewrite Es in Ex. injection Ex as <- <-. discriminate. }
  unfold new_metadata in E0. cbn [mi_input mi_ic mi_roots] in E0. unfold mbind, lift in E0.
  destruct (in_size inp) as [size|e| |] eqn:Esz; try discriminate.
  destruct (in_mtime inp) as [mtime|e| |] eqn:Emt; try discriminate.
  set (m := mkMeta ExpectedMagicBytes CurrentVersion mtime size (wc_ic cfg) false (repeat 0 (Z.to_nat (zlen (wc_props cfg))))) in *.
  destruct (w_meta_first m) as (s1 & H1 & Es & HI1 & Hsafe1); [reflexivity|].
  rewrite Es in E0. injection E0 as <- <-.
  assert (Er1 : exists r1 s2, make_roots 0 (wc_props cfg) [] m s1 = (r1, s2)) by (destruct (make_roots 0 (wc_props cfg) [] m s1); eauto).
  destruct Er1 as (r1 & s2 & Er1).
  destruct (w_make_roots (wc_props cfg) s1 H1 (meta_serialize m) [] m r1 s2 HI1 Hnd) as (H2 & f & -> & HI2 & Hk & Hfo & Hev2).
  { intros p _ []. }
  { unfold m. cbn [md_roots map app]. unfold zlen. rewrite Nat2Z.id. reflexivity. }
  { exact Er1. }
  cbn [app] in *. step E Er1. cbv beta iota in E.
  set (m1 := with_roots m (map foff f)) in *.
  assert (Hlf : List.length f = List.length (wc_props cfg)) by (rewrite <- Hk, map_length; reflexivity).
  assert (Hlr : List.length (map foff f) = List.length (md_roots m)).
  { unfold m. cbn [md_roots]. rewrite repeat_length, map_length. unfold zlen. lia. }
  destruct (w_meta_save s2 H2 (meta_serialize m) f m1 HI2) as (s3 & H3 & E3 & HI3 & Hl3 & Hsafe3).
  { rewrite !meta_len by reflexivity. unfold m1. cbn [with_roots md_roots]. unfold zlen. lia. }
  { reflexivity. }
  step E E3.
  assert (Hh : header m1 = header m) by (apply header_roots; assumption).
  assert (Hws3 : wsafe (header m1) s3).
  { apply Hsafe3. rewrite Hh. apply Hev2. assumption. }
  assert (Em1 : m1 = body_meta cfg mtime size f) by reflexivity.
  apply bind_inv in E.
  assert (Hx : exists r4, index_records lower (wc_ic cfg) (idx_of f) (wc_props cfg) (in_iter inp) s3 = (r4, s') /\
            (safe r4 -> safe r) /\ (forall x, r = Ok x -> exists idx, r4 = Ok idx /\ x = (idx, m1)) /\ (forall e, r = Err e -> r4 = Err e)).
  { destruct E as [(idx & s4 & E4 & E)|[(e & E & ->)|[[E ->]|[E ->]]]].
    - injection E as <- <-. eexists. split; [exact E4|]. split; [simpl; tauto|]. split; [|discriminate]. intros x [= <-]. eauto.
    - eexists. split; [exact E|]. split; [simpl; tauto|]. split; [discriminate|]; congruence.
    - eexists. split; [exact E|]. split; [simpl; tauto|]. split; [discriminate|]; congruence.
    - eexists. split; [exact E|]. split; [simpl; tauto|]. split; [discriminate|]; congruence. }
  destruct Hx as (r4 & E4 & Hsr & Hok4 & Herr4). rewrite <- Hk in E4, Hin.
  destruct (w_index_records lower (wc_ic cfg) (in_iter inp) s3 H3 _ f r4 s' HI3 Hin E4 Hb) as (H5 & f' & HI5 & Hids & Hev5 & Hs5 & Hok5 & Herr5).
  split; [auto|]. right. exists mtime, size, H5, f'.
  assert (Em2 : body_meta cfg mtime size f' = m1).
  { rewrite Em1. unfold body_meta. f_equal. apply Hids. }
  split; [reflexivity|]. split; [reflexivity|]. split; [rewrite (proj1 Hids); assumption|].
  split; [rewrite Em2; assumption|]. split; [rewrite Em2; apply Hev5; assumption|].
  split; [|intros e Ee; rewrite <- Hk; exact (Herr5 e (Herr4 e Ee))].
  intros x Ex. destruct (Hok4 x Ex) as (idx & -> & ->). destruct (Hok5 idx eq_refl) as (-> & Hrec & HF).
  rewrite Em2. split; [reflexivity|]. split; [rewrite <- Hk; assumption|].
  destruct Hids as [Hids _]. clear - HF Hfo Hids. revert Hfo Hids.
  induction HF as [|x x' f f' Hx HF IH]; intros Hfo Hids; [constructor|].
  apply Forall_cons_iff in Hfo as [Hfx Hfo]. cbn [map] in Hids. injection Hids as Hi1 Hi2.
  constructor; [|auto]. rewrite Hx, Hfx, Hi1. reflexivity.
Qed.
End Body.
