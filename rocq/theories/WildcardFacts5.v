(** Crashes during the whole creation, and opening arbitrary files. *)
From Coq Require Import List ZArith Lia Bool String Permutation Sorted.
From Coq Require Import Strings.Byte.
From Coq Require Import ZifyBool ZifyNat.
From Verif Require Import Base BaseFacts Codec CodecFacts Stream StreamFacts Node Heap Radix Located.
From Verif Require Import NodeFacts NodeFacts2 NodeFacts3 Value Join SpecJoin JoinFacts WildcardMeta MetaFacts.
From Verif Require Import Wildcard WildcardFacts WildcardFacts2 SpecWildcard WildcardFacts3 WildcardFacts4.
Import ListNotations.
Open Scope Z_scope.

(** ** The end of the creation *)

(** Writes of parts of the final file [F]. *)
Definition part_of (F : bytes) (w : Z * bytes) : Prop :=
  forall i, 0 <= i < zlen (snd w) -> fst w + i < zlen F /\ nth (Z.to_nat i) (snd w) x00 = nth (Z.to_nat (fst w + i)) F x00.

(** A file which is like the beginning of [F], except perhaps for byte 38. *)
Definition almost (F f : bytes) : Prop :=
  zlen f <= zlen F /\
  forall i, 0 <= i < zlen f -> nth (Z.to_nat i) f x00 = nth (Z.to_nat i) F x00 \/ (i = 38 /\ nth (Z.to_nat i) f x00 = x00).

Lemma almost_write F f o bs : almost F f -> 0 <= o <= zlen f -> part_of F (o, bs) -> almost F (file_write_at f o bs).
Proof.
  intros [Hl Ha] Ho Hp. rewrite file_write_at_in by assumption. unfold part_of in Hp. cbn [fst snd] in Hp.
  assert (Hlen : zlen (overwrite f o bs) = Z.max (zlen f) (o + zlen bs)) by (apply zlen_overwrite; lia).
  split.
  - rewrite Hlen. destruct (Z_le_dec (zlen bs) 0); [pose proof (zlen_nonneg bs); lia|].
    specialize (Hp (zlen bs - 1) ltac:(lia)). lia.
  - intros i Hi. rewrite Hlen in Hi. destruct (Z_lt_dec i o).
    + rewrite nth_overwrite_out by lia. apply Ha. lia.
    + destruct (Z_lt_dec i (o + zlen bs)).
      * rewrite nth_overwrite_in by lia. left. destruct (Hp (i - o) ltac:(lia)) as [_ E].
        replace (Z.to_nat i - Z.to_nat o)%nat with (Z.to_nat (i - o)) by lia. rewrite E. f_equal. f_equal. lia.
      * rewrite nth_overwrite_out by lia. apply Ha. lia.
Qed.

Lemma chain_almost F f w g : chain f w g -> Forall (part_of F) w -> almost F f -> almost F g.
Proof.
  induction 1; intros Hs Ha; [assumption|]. apply Forall_cons_iff in Hs as [Hs1 Hs]. apply IHchain; [assumption|].
  apply almost_write; assumption.
Qed.

Lemma part_torn F o bs k : part_of F (o, bs) -> part_of F (o, firstn k bs).
Proof.
  unfold part_of. cbn [fst snd]. intros Hp i Hi. unfold zlen in Hi. rewrite firstn_length in Hi.
  rewrite nth_firstn_lt by lia. apply Hp. unfold zlen. lia.
Qed.

Lemma chain_fun f w g h : chain f w g -> chain f w h -> g = h.
Proof. intros H1 H2. apply chain_apply in H1, H2. congruence. Qed.

(** A crash file is either a crash file of the first part of the log, or the
    result of the first part followed by some of the second. *)
Lemma crash_split w1 w2 f g : chain [] (w1 ++ w2) g -> crash_file file_write_at (w1 ++ w2) f ->
  crash_file file_write_at w1 f \/
  exists h w, chain [] w1 h /\ chain h w f /\
    (exists post, w2 = w ++ post \/ exists a o bs k b, w2 = a ++ (o, bs) :: b /\ w = a ++ [(o, firstn k bs)]).
Proof.
  intros Hc (pre & post & torn & Ew & Htorn & ->).
  destruct (chain_split _ _ _ _ Hc) as (h & Hc1 & Hc2).
  destruct (Nat.lt_ge_cases (List.length pre) (List.length w1)) as [Hlt|Hge].
  - left. assert (Hw1 : exists post1, w1 = pre ++ post1 /\ post = post1 ++ w2).
    { clear - Ew Hlt. revert w1 Ew Hlt. induction pre as [|x pre IH]; intros w1 Ew Hlt.
      - exists w1. auto.
      - destruct w1 as [|y w1]; [cbn in Hlt; lia|]. cbn [app] in Ew. injection Ew as -> Ew.
        destruct (IH w1 Ew ltac:(cbn in Hlt; lia)) as (p1 & -> & ->). exists p1. auto. }
    destruct Hw1 as (post1 & -> & Epost). exists pre, post1, torn. split; [reflexivity|]. split; [|reflexivity].
    destruct Htorn as [->|(o & bs & k & rest & E & ->)]; [left; reflexivity|right].
    destruct post1 as [|[o1 b1] post1]; [rewrite app_nil_r in Hlt; lia|].
    rewrite Epost in E. cbn [app] in E. injection E as -> -> _. eauto 10.
  - right. assert (Hw1 : exists pre2, pre = w1 ++ pre2 /\ w2 = pre2 ++ post).
    { clear - Ew Hge. revert pre Ew Hge. induction w1 as [|x w1 IH]; intros pre Ew Hge.
      - exists pre. auto.
      - destruct pre as [|y pre]; [cbn in Hge; lia|]. cbn [app] in Ew. injection Ew as -> Ew.
        destruct (IH pre Ew ltac:(cbn in Hge; lia)) as (p1 & -> & ->). exists p1. auto. }
    destruct Hw1 as (pre2 & -> & ->). exists h, (pre2 ++ torn). split; [assumption|].
    destruct (chain_split _ _ _ _ Hc2) as (h2 & Hc3 & Hc4).
    destruct Htorn as [->|(o & bs & k & rest & -> & ->)].
    + rewrite !app_nil_r. split; [|exists post; left; reflexivity].
      assert (Hall : chain [] (w1 ++ pre2) h2) by (apply chain_join with h; assumption).
      rewrite (chain_apply _ _ _ Hall). assumption.
    + inversion Hc4 as [|? ? ? ? ? Ho _]; subst.
      assert (Hall : chain [] ((w1 ++ pre2) ++ [(o, firstn k bs)]) (file_write_at h2 o (firstn k bs))).
      { apply chain_snoc; [|assumption]. apply chain_join with h; assumption. }
      rewrite <- app_assoc in Hall. rewrite <- app_assoc, (chain_apply _ _ _ Hall). split.
      * apply chain_snoc; assumption.
      * exists []. right. exists pre2, o, bs, k, rest. auto.
Qed.

(** Byte 38 is the only one changed by [SetCompleted]. *)
Lemma completed_bytes m : List.length (md_magic m) = 19%nat -> md_completed m = false ->
  exists a b, List.length a = 38%nat /\ meta_serialize m = a ++ x00 :: b /\ meta_serialize (set_completed m true) = a ++ x01 :: b.
Proof.
  intros Hm Hc. unfold meta_serialize, set_completed. cbn [md_magic md_version md_mtime md_size md_ic md_completed md_roots].
  rewrite Hc. exists (md_magic m ++ put_u16 (md_version m) ++ put_u64 (md_mtime m) ++ put_u64 (md_size m) ++ [bool_byte (md_ic m)]),
    (put_u64 (zlen (md_roots m)) ++ flat_map put_u64 (md_roots m)).
  split; [rewrite !app_length, !put_u64_length, Hm; reflexivity|]. rewrite <- !app_assoc. split; reflexivity.
Qed.

Lemma prefix_nth (f F : bytes) : zlen f <= zlen F ->
  (forall i, 0 <= i < zlen f -> nth (Z.to_nat i) f x00 = nth (Z.to_nat i) F x00) -> exists rest, F = f ++ rest.
Proof.
  intros Hl H. exists (skipn (List.length f) F). rewrite <- (firstn_skipn (List.length f) F) at 1. f_equal.
  unfold zlen in *. apply (nth_ext _ _ x00 x00).
  - rewrite firstn_length. lia.
  - intros n Hn. rewrite firstn_length in Hn. rewrite nth_firstn_lt by lia.
    specialize (H (Z.of_nat n)). rewrite Nat2Z.id in H. rewrite H by lia. reflexivity.
Qed.

Section CrashSafe.
Variable lower : bytes -> bytes.

Theorem w_crash_all cfg inp r s file :
  NoDup (wc_props cfg) -> good_input (wc_props cfg) inp ->
  create_index lower cfg inp created_stream = (r, s) -> fits s ->
  crash_file file_write_at (st_wlog s) file ->
  (forall cfg' inp', safe (in_mtime inp') -> safe (in_size inp') ->
     exists e, fst (load_index cfg' inp' (loaded_stream file)) = Err e) \/
  (is_ok r = true /\ exists rest, st_file s = file ++ rest).
Proof.
  intros Hnd Hin E Hb Hcr. unfold create_index in E.
  assert (Hbody : exists r0 s0, create_body lower cfg inp created_stream = (r0, s0)) by (destruct (create_body lower cfg inp created_stream); eauto).
  destruct Hbody as (r0 & s0 & E0).
  assert (Hm0 : mono (create_body lower cfg inp)).
  { unfold create_body, new_metadata. mono_tac. }
  assert (Hw0 : swf s0) by (eapply Hm0; [apply (new_stream_wf [])|exact E0]).
  apply bind_inv in E as [([idx m1] & s0' & E0' & E)|E].
  2: { left. assert (s = s0) by (destruct E as [(e & E & _)|[[E _]|[E _]]]; rewrite E0 in E; congruence). subst.
       intros. eapply (w_crash lower cfg inp); eassumption. }
  rewrite E0 in E0'. injection E0' as -> <-.
  assert (Hf0 : fits s0).
  { refine (mono_fits (do _ <- meta_save (set_completed m1 true); do _ <- stream_flush; ret idx) _ _ _ _ Hw0 E Hb). mono_tac. }
  pose proof (w_create_body lower cfg inp _ s0 Hnd Hin E0 Hf0) as (_ & Hcase).
  destruct Hcase as [(_ & [e Ee] & _)|(mtime & size & H & f & Hmt & Hsz & Hk & HI & Hws & Hok & _)]; [discriminate|].
  destruct (Hok _ eq_refl) as (Ex & _ & _). injection Ex as -> ->. clear Hok.
  set (m := body_meta cfg mtime size f) in *.
  pose proof HI as [HR Hm Ht Hndf Hkf].
  pose proof (ho_enc _ _ (proj1 (proj2 HR)) _ _ Hm) as He. pose proof (ho_in _ _ (proj1 (proj2 HR)) _ _ Hm) as Hi.
  unfold csize in *. cbn [cenc] in *.
  destruct (completed_bytes m eq_refl eq_refl) as (a & b & Ha & Em & Em').
  assert (Hlm : zlen (meta_serialize (set_completed m true)) = zlen (meta_serialize m)).
  { rewrite Em, Em'. unfold zlen. rewrite !app_length. reflexivity. }
  destruct (replace_spec s0 0 (meta_serialize (set_completed m true)) Hw0) as (s2 & E2 & Hwf2 & Hfl2 & _ & dir & fls & Hlog & Hdir & Hfls); [lia|].
  unfold meta_save, mbind in E. rewrite E2 in E.
  destruct (flush_spec s2 Hwf2) as (s3 & E3 & Hw3 & Hfl3 & Hbuf3 & Hlog3). rewrite E3 in E. injection E as <- <-.
  destruct Hws as (Hhdr & Hhs & Hlg0).
  pose proof (replace_logged s0 0 _ s2 Hw0 ltac:(lia) E2 Hlg0) as Hlg2.
  pose proof (flush_logged s2 s3 (proj1 Hwf2) E3 Hlg2) as Hlg3.
  assert (HF : st_file s3 = flat s2).
  { rewrite <- Hfl3. unfold flat. rewrite Hbuf3, app_nil_r. reflexivity. }
  set (F := st_file s3) in *.
  set (w2 := dir ++ fls ++ (if zlen (st_buf s2) =? 0 then [] else [(st_boff s2, st_buf s2)])).
  assert (Hlogs : st_wlog s3 = st_wlog s0 ++ w2).
  { rewrite Hlog3, Hlog. unfold w2. rewrite <- !app_assoc. reflexivity. }
  assert (Hover : F = overwrite (flat s0) 0 (meta_serialize (set_completed m true))) by congruence.
  assert (HlenF : zlen F = zlen (flat s0)) by (rewrite Hover, zlen_overwrite; lia).
  (* the bytes of F *)
  assert (HFin : forall i, 0 <= i < zlen (meta_serialize m) -> nth (Z.to_nat i) F x00 = nth (Z.to_nat i) (meta_serialize (set_completed m true)) x00).
  { intros i Hi2. rewrite Hover, nth_overwrite_in by lia. f_equal. lia. }
  assert (HFout : forall i, zlen (meta_serialize m) <= i -> nth (Z.to_nat i) F x00 = nth (Z.to_nat i) (flat s0) x00).
  { intros i Hi2. rewrite Hover, nth_overwrite_out by lia. reflexivity. }
  assert (H0in : forall i, 0 <= i < zlen (meta_serialize m) -> nth (Z.to_nat i) (flat s0) x00 = nth (Z.to_nat i) (meta_serialize m) x00).
  { intros i Hi2. rewrite <- He at 1. rewrite nth_slice by lia. f_equal. }
  assert (Hdiff : forall i, 0 <= i -> i <> 38 -> nth (Z.to_nat i) (meta_serialize (set_completed m true)) x00 = nth (Z.to_nat i) (meta_serialize m) x00).
  { intros i Hi2 Hne. rewrite Em, Em'. destruct (Z_lt_dec i 38).
    - rewrite !app_nth1 by lia. reflexivity.
    - rewrite !app_nth2 by lia. rewrite Ha. destruct (Z.to_nat i - 38)%nat eqn:Ei; [lia|reflexivity]. }
  assert (Hb38 : nth (Z.to_nat 38) (meta_serialize m) x00 = x00).
  { rewrite Em, app_nth2 by lia. rewrite Ha. reflexivity. }
  assert (Hb38' : nth (Z.to_nat 38) (meta_serialize (set_completed m true)) x00 = x01).
  { rewrite Em', app_nth2 by lia. rewrite Ha. reflexivity. }
  assert (Hlen38 : 47 <= zlen (meta_serialize m)).
  { rewrite meta_len by reflexivity. pose proof (zlen_nonneg (md_roots m)). lia. }
  assert (Halm0 : almost F (st_file s0)).
  { assert (Hfz : zlen (st_file s0) <= zlen (flat s0)) by (unfold flat; rewrite zlen_app; pose proof (zlen_nonneg (st_buf s0)); lia).
    split; [lia|]. intros i Hi2.
    assert (En : nth (Z.to_nat i) (st_file s0) x00 = nth (Z.to_nat i) (flat s0) x00).
    { unfold flat. rewrite app_nth1; [reflexivity|unfold zlen in *; lia]. }
    rewrite En. destruct (Z_lt_dec i (zlen (meta_serialize m))).
    - rewrite HFin, H0in by lia. destruct (Z.eq_dec i 38) as [->|Hne].
      + right. split; [reflexivity|assumption].
      + left. rewrite Hdiff by lia. reflexivity.
    - rewrite HFout by lia. left. reflexivity. }
  assert (Hparts : Forall (part_of F) w2).
  { unfold w2. rewrite !Forall_app. repeat split.
    - destruct Hdir as [->|(k & -> & _)]; [constructor|]. constructor; [|constructor]. apply part_torn.
      intros i Hi2. cbn [fst snd] in *. rewrite Hlm in Hi2. split; [lia|]. rewrite Z.add_0_l. rewrite HFin by lia. reflexivity.
    - destruct Hfls as [->|(o & -> & Ho)]; [constructor|]. constructor; [|constructor].
      intros i Hi2. cbn [fst snd] in *. rewrite <- HF in *. unfold zlen in Hi2. rewrite skipn_length in Hi2. split; [unfold zlen; lia|].
      rewrite nth_skipn. f_equal. lia.
    - destruct (zlen (st_buf s2) =? 0); [constructor|]. constructor; [|constructor].
      intros i Hi2. cbn [fst snd] in *. rewrite HF. unfold flat. destruct Hwf2 as [Hbo _]. rewrite Hbo.
      rewrite zlen_app. split; [lia|]. pose proof (zlen_nonneg (st_file s2)). rewrite app_nth2 by (unfold zlen in *; lia). f_equal. unfold zlen. lia. }
  assert (Hchain : chain [] (st_wlog s0 ++ w2) F) by (rewrite <- Hlogs; exact Hlg3).
  rewrite Hlogs in Hcr.
  destruct (crash_split _ _ _ _ Hchain Hcr) as [Hcr0|(h & w & Hc1 & Hc2 & Hw)].
  - left. intros. eapply (w_crash lower cfg inp); eassumption.
  - assert (h = st_file s0) by (eapply chain_fun; eassumption). subst h.
    assert (Hpw : Forall (part_of F) w).
    { destruct Hw as (post & [Ew|(a1 & o & bs & k & b1 & Ew & ->)]).
      - rewrite Ew in Hparts. apply Forall_app in Hparts. tauto.
      - rewrite Ew in Hparts. apply Forall_app in Hparts as [Hp1 Hp2]. apply Forall_cons_iff in Hp2 as [Hp2 _].
        apply Forall_app. split; [assumption|]. constructor; [apply part_torn; assumption|constructor]. }
    destruct (chain_almost F _ _ _ Hc2 Hpw Halm0) as [Hlenf Halm].
    destruct (Z_lt_dec 38 (zlen file)) as [H38|H38].
    2: { right. split; [reflexivity|]. apply prefix_nth; [assumption|]. intros i Hi2. destruct (Halm i Hi2) as [?|[-> _]]; [assumption|lia]. }
    destruct (byte_eq_dec (nth (Z.to_nat 38) file x00) x00) as [Hz|Hnz].
    + left. intros cfg' inp' Hs1 Hs2. destruct Hin as (_ & _ & Hi1 & Hi2 & _).
      destruct (winv_roots_i64 s0 H _ f HI Hf0) as [Hr1 Hr2].
      apply (agree_rejected m); try assumption; try reflexivity.
      * split; [reflexivity|]. split; [cbn; unfold CurrentVersion; lia|]. split; [apply Hi2; assumption|].
        split; [apply Hi1; assumption|]. split; assumption.
      * intros i Hii Hlt. unfold header_last in Hii.
        assert (Eh : nth (Z.to_nat i) (header m) x00 = nth (Z.to_nat i) (meta_serialize m) x00).
        { rewrite meta_serialize_header, app_nth1; [reflexivity|]. rewrite header_len by reflexivity. lia. }
        rewrite Eh. destruct (Z.eq_dec i 38) as [->|Hne]; [congruence|].
        destruct (Halm i ltac:(lia)) as [->|[-> _]]; [|congruence]. rewrite HFin by lia. apply Hdiff; lia.
    + right. split; [reflexivity|]. apply prefix_nth; [assumption|]. intros i Hi2.
      destruct (Halm i Hi2) as [?|[-> Hz]]; [assumption|contradiction].
Qed.
End CrashSafe.
