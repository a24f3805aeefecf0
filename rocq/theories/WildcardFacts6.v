(** Opening arbitrary files as a wildcard index. *)
From Coq Require Import List ZArith Lia Bool String.
From Coq Require Import Strings.Byte.
From Coq Require Import ZifyBool ZifyNat.
From Verif Require Import Base BaseFacts Codec CodecFacts Stream StreamFacts Node Heap.
From Verif Require Import Value WildcardMeta MetaFacts.
From Verif Require Import Wildcard WildcardFacts SpecWildcard WildcardFacts4.
Import ListNotations.
Open Scope Z_scope.

(** The fields of a header, by position. *)
Lemma meta_unserialize_fields d : (47 <= List.length d)%nat ->
  meta_unserialize d =
  let n := get_i64 (slice d 39 8) in
  if (n <? 0) || (max_alloc <? 8 * n) then Panic
  else rlet roots := read_offsets (List.length (skipn 47 d)) n (skipn 47 d) in
       Ok (mkMeta (slice d 0 19) (get_be (slice d 19 2)) (get_i64 (slice d 21 8)) (get_i64 (slice d 29 8))
                  (bool_of (slice d 37 1)) (bool_of (slice d 38 1)) roots).
Proof.
  intros H. unfold meta_unserialize.
  rewrite read_bytes_split by lia. cbn [rbind].
  do 6 (rewrite read_bytes_split by (rewrite !skipn_length; lia); cbn [rbind]).
  rewrite !skipn_skipn. reflexivity.
Qed.

Lemma read_offsets_len fuel : forall n d l, 0 <= n -> read_offsets fuel n d = Ok l -> zlen l = n /\ 8 * n <= zlen d.
Proof.
  induction fuel as [|fuel IH]; intros n d l Hn E; cbn [read_offsets] in E; destruct (n <=? 0) eqn:En; try discriminate.
  - injection E as <-. rewrite zlen_nil. pose proof (zlen_nonneg d). lia.
  - injection E as <-. rewrite zlen_nil. pose proof (zlen_nonneg d). lia.
  - unfold read_bytes in E. destruct (List.length d <? 8)%nat eqn:E8; [discriminate|]. cbn [rbind] in E.
    destruct (read_offsets fuel (n - 1) (skipn 8 d)) as [r| | |] eqn:Er; try discriminate. cbn [rbind] in E. injection E as <-.
    apply IH in Er as [H1 H2]; [|lia]. rewrite zlen_cons. unfold zlen in *. rewrite skipn_length in H2. lia.
Qed.

Lemma assert_valid_iff m mi : assert_valid m mi = Ok tt <->
  md_version m = CurrentVersion /\ md_magic m = ExpectedMagicBytes /\ in_mtime (mi_input mi) = Ok (md_mtime m) /\
  in_size (mi_input mi) = Ok (md_size m) /\ md_ic m = mi_ic mi /\ md_completed m = true /\ zlen (md_roots m) = mi_roots mi.
Proof.
  unfold assert_valid. split.
  - destruct (md_version m =? CurrentVersion) eqn:E1; cbn [negb]; [|discriminate].
    destruct (bytes_eqb (md_magic m) ExpectedMagicBytes) eqn:E2; cbn [negb]; [|discriminate].
    destruct (in_mtime (mi_input mi)) as [mt| | |]; cbn [rbind]; try discriminate.
    destruct (md_mtime m =? mt) eqn:E3; cbn [negb]; [|discriminate].
    destruct (in_size (mi_input mi)) as [sz| | |]; cbn [rbind]; try discriminate.
    destruct (md_size m =? sz) eqn:E4; cbn [negb]; [|discriminate].
    destruct (Bool.eqb (md_ic m) (mi_ic mi)) eqn:E5; cbn [negb]; [|discriminate].
    destruct (md_completed m) eqn:E6; cbn [negb]; [|discriminate].
    destruct (zlen (md_roots m) =? mi_roots mi) eqn:E7; cbn [negb]; [|discriminate]. intros _.
    apply bytes_eqb_eq in E2. apply eqb_prop in E5.
    assert (md_mtime m = mt) by lia. assert (md_size m = sz) by lia. subst mt sz. repeat split; auto; lia.
  - intros (H1 & H2 & H3 & H4 & H5 & H6 & H7). rewrite H3, H4, H5, H6, H1, H2, H7.
    cbn [rbind]. rewrite !Z.eqb_refl, bytes_eqb_refl, Bool.eqb_reflx. reflexivity.
Qed.

Lemma bool_of_true d i : 0 <= i < zlen d -> bool_of (slice d i 1) = true <-> nth (Z.to_nat i) d x00 <> x00.
Proof.
  intros Hi. assert (E : slice d i 1 = [nth (Z.to_nat i) d x00]).
  { apply (nth_ext _ _ x00 x00).
    - pose proof (slice_length d i 1) as Hl. unfold zlen in *. cbn [List.length]. lia.
    - intros n Hn. assert (n = 0%nat) as ->.
      { pose proof (slice_length d i 1) as Hl. unfold zlen in *. lia. }
      change 0%nat with (Z.to_nat 0) at 1. rewrite nth_slice by lia. cbn [nth]. f_equal. lia. }
  rewrite E. unfold bool_of. destruct (beqb (nth (Z.to_nat i) d x00) x00) eqn:Eb; cbn [negb].
  - apply beqb_eq in Eb. split; [discriminate|intros H; contradiction].
  - apply beqb_neq in Eb. tauto.
Qed.

(** Every file that is accepted. *)
Theorem load_accepts cfg inp file idx s :
  load_index cfg inp (loaded_stream file) = (Ok idx, s) -> header_matches cfg inp file.
Proof.
  rewrite load_of_file. unfold mbind, lift. intros E.
  destruct (Nat.lt_ge_cases (List.length file) 47) as [Hl|Hl].
  { rewrite meta_unserialize_short in E by assumption. discriminate. }
  rewrite meta_unserialize_fields in E by assumption. cbv zeta in E.
  destruct ((get_i64 (slice file 39 8) <? 0) || (max_alloc <? 8 * get_i64 (slice file 39 8))) eqn:En; [discriminate|].
  destruct (read_offsets _ _ _) as [roots| | |] eqn:Er; try discriminate. cbn [rbind] in E.
  destruct (assert_valid _ _) as [[]| | |] eqn:Ea; try discriminate.
  apply assert_valid_iff in Ea as (H1 & H2 & H3 & H4 & H5 & H6 & H7). cbn [md_version md_magic md_mtime md_size md_ic md_completed md_roots mi_input mi_ic mi_roots] in *.
  assert (Hz : zlen file = Z.of_nat (List.length file)) by reflexivity.
  apply bool_of_true in H6; [|lia].
  apply read_offsets_len in Er as [Hr _]; [|lia].
  unfold header_matches. repeat split; auto.
  - lia.
  - intros Hic. rewrite Hic in H5. apply bool_of_true in H5; [assumption|lia].
  - intros Hnz. rewrite <- H5. apply bool_of_true; [lia|assumption].
  - lia.
Qed.

(** Reading a root. *)
Lemma get_node_safe file o : in_i64 o -> 56 <= zlen file < max_alloc -> safe (fst (get_node o (loaded_stream file))).
Proof.
  intros Ho Hz. unfold get_node. destruct (o =? 0); [exact I|]. unfold mbind, stream_get, TreeNodeSize.
  cbn [loaded_stream new_stream st_boff st_buf st_file]. change ((56 <? 0) || (max_alloc <? 56)) with false. cbv beta iota.
  unfold in_i64, two63, max_alloc in *.
  assert (Hbuf : forall part cur rem, zlen file <= cur -> 0 < rem <= 56 -> cur < 9223372036854775808 ->
     exists e, get_from_buffer (loaded_stream file) part cur rem 56 = Err e).
  { intros part cur rem Hc Hr Hm. unfold get_from_buffer. cbn [loaded_stream new_stream st_boff st_buf].
    rewrite zlen_nil. rewrite wrap64_id by (unfold in_i64, two63; lia).
    replace (0 <? cur - zlen file + rem) with true by lia. eauto. }
  destruct (o <? zlen file) eqn:E.
  - rewrite wrap64_id by (unfold in_i64, two63; lia).
    destruct (zlen file <? o + 56) eqn:E2.
    + unfold file_read_at. replace (zlen file - o <=? 0) with false by lia.
      replace (zlen file <? o + (zlen file - o)) with false by lia.
      destruct (o <? 0) eqn:E0; [lia|].
      replace (zlen file - o <? 56) with true by lia.
      destruct (Hbuf (slice file o (zlen file - o)) (zlen file) (56 - (zlen file - o))) as (e & He); [lia|lia|lia|].
      rewrite He. exact I.
    + destruct (file_read_at file o 56) eqn:Er; try exact I.
      * unfold file_read_at in Er. destruct (56 <=? 0), (o <? 0), (zlen file <? o + 56); discriminate.
      * unfold file_read_at in Er. destruct (56 <=? 0), (o <? 0), (zlen file <? o + 56); discriminate.
  - destruct (Hbuf [] o 56) as (e & He); [lia|lia|lia|]. rewrite He. exact I.
Qed.

Lemma get_i64_range bs : in_i64 (get_i64 bs).
Proof. apply wrap64_range. Qed.

Lemma read_offsets_range fuel : forall n d l, read_offsets fuel n d = Ok l -> Forall in_i64 l.
Proof.
  induction fuel as [|fuel IH]; intros n d l E; cbn [read_offsets] in E; destruct (n <=? 0); try discriminate.
  - injection E as <-. constructor.
  - injection E as <-. constructor.
  - unfold read_bytes in E. destruct (List.length d <? 8)%nat; [discriminate|]. cbn [rbind] in E.
    destruct (read_offsets fuel (n - 1) (skipn 8 d)) as [r| | |] eqn:Er; try discriminate. cbn [rbind] in E. injection E as <-.
    constructor; [apply get_i64_range|eauto].
Qed.

Lemma get_node_state o s : snd (get_node o s) = s.
Proof.
  unfold get_node. destruct (o =? 0); [reflexivity|]. unfold mbind. pose proof (get_state s o TreeNodeSize) as H.
  destruct (stream_get o TreeNodeSize s) as [[] s']; cbn [snd] in *; subst; reflexivity.
Qed.

Lemma load_roots_safe file props : forall roots idx, zlen roots = zlen props -> Forall in_i64 roots ->
  56 <= zlen file < max_alloc -> safe (fst (load_roots props roots idx (loaded_stream file))).
Proof.
  induction props as [|p props IH]; intros roots idx Hl Hr Hz; [exact I|].
  destruct roots as [|o roots]; [rewrite zlen_nil, zlen_cons in Hl; pose proof (zlen_nonneg props); lia|].
  cbn [load_roots]. unfold mbind. apply Forall_cons_iff in Hr as [Ho Hr].
  pose proof (get_node_safe file o Ho Hz) as Hs. pose proof (get_node_state o (loaded_stream file)) as Hst.
  destruct (get_node o (loaded_stream file)) as [[n|e| |] s']; cbn [fst snd safe] in *; try contradiction; subst; [|exact I].
  apply IH; [rewrite !zlen_cons in Hl; lia|assumption|assumption].
Qed.

(** Opening any other file is safe. *)
Theorem load_safe cfg inp file :
  safe (in_mtime inp) -> safe (in_size inp) -> zlen file < max_alloc ->
  (47 <= zlen file -> 0 <= get_i64 (slice file 39 8) <= 35184372088832) -> zlen file <> 55 ->
  safe (fst (load_index cfg inp (loaded_stream file))).
Proof.
  intros Hs1 Hs2 Hz63 Hcnt H55. rewrite load_of_file. unfold mbind, lift.
  destruct (Nat.lt_ge_cases (List.length file) 47) as [Hl|Hl].
  { rewrite meta_unserialize_short by assumption. exact I. }
  rewrite meta_unserialize_fields by assumption. cbv zeta.
  assert (Hz : zlen file = Z.of_nat (List.length file)) by reflexivity.
  specialize (Hcnt ltac:(lia)).
  replace (_ || _) with false by (unfold max_alloc; lia).
  destruct (read_offsets_err (List.length (skipn 47 file)) (get_i64 (slice file 39 8)) (skipn 47 file)) as [[roots Er]| ->]; [|exact I].
  rewrite Er. cbn [rbind].
  assert (Hsafe : forall m mi, safe (in_mtime (mi_input mi)) -> safe (in_size (mi_input mi)) -> safe (assert_valid m mi)).
  { intros m mi Ha Hb. unfold assert_valid. 
    repeat match goal with
    | |- safe (if ?c then _ else _) => destruct c; try exact I
    | |- safe (rbind ?x _) => destruct x; try contradiction; cbn [rbind]; try exact I
    end. }
  match goal with |- context [assert_valid ?m ?mi] => pose proof (Hsafe m mi Hs1 Hs2) as Hsv; destruct (assert_valid m mi) as [[]| | |] eqn:Ea end; cbn [safe] in Hsv; try contradiction; [|exact I].
  apply assert_valid_iff in Ea as (_ & _ & _ & _ & _ & _ & H7). cbn [md_roots mi_roots] in *.
  pose proof (read_offsets_range _ _ _ _ Er) as Hrg. apply read_offsets_len in Er as [Hr Hlen]; [|lia].
  destruct (wc_props cfg) as [|p props] eqn:Ep.
  - rewrite zlen_nil in H7. exact I.
  - apply load_roots_safe; [lia|assumption|].
    rewrite zlen_cons in H7. assert (zlen (skipn 47 file) = zlen file - 47) by (unfold zlen; rewrite skipn_length; lia). pose proof (zlen_nonneg props). lia.
Qed.

Lemma safe_of {A} (r : res A) : (forall x, r = x -> x <> Panic /\ x <> NoFuel) -> safe r.
Proof. intros H. destruct r; cbn; auto; destruct (H _ eq_refl); congruence. Qed.

Theorem load_safe' cfg inp file :
  (forall x, in_mtime inp = x -> x <> Panic /\ x <> NoFuel) -> (forall x, in_size inp = x -> x <> Panic /\ x <> NoFuel) ->
  zlen file < max_alloc ->
  (47 <= zlen file -> 0 <= get_i64 (slice file 39 8) <= 35184372088832) -> zlen file <> 55 ->
  match fst (load_index cfg inp (loaded_stream file)) with Ok _ | Err _ => True | _ => False end.
Proof. intros. apply load_safe; auto using safe_of. Qed.
