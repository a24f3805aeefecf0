(** The stream is a flat byte array: refinement lemmas for Stream.v. *)
From Coq Require Import List ZArith Lia Bool String.
From Coq Require Import Strings.Byte.
From Coq Require Import ZifyBool ZifyNat.
From Verif Require Import Base BaseFacts Stream.
Import ListNotations.
Open Scope Z_scope.

(** Logical contents of a stream. *)
Definition flat (s : stream) : bytes := st_file s ++ st_buf s.

Definition swf (s : stream) : Prop :=
  st_boff s = zlen (st_file s) /\ st_size s = zlen (flat s).

Lemma swf_size s : swf s -> st_size s = st_boff s + zlen (st_buf s).
Proof. intros [H1 H2]. rewrite H2, H1. apply zlen_app. Qed.

Lemma new_stream_wf f : swf (new_stream f (zlen f)).
Proof. split; simpl; unfold flat; simpl; rewrite ?app_nil_r; reflexivity. Qed.

Lemma new_stream_flat f n : flat (new_stream f n) = f.
Proof. unfold flat; simpl. apply app_nil_r. Qed.

Lemma file_write_at_in f off bs :
  0 <= off <= zlen f -> file_write_at f off bs = overwrite f off bs.
Proof.
  intros H. unfold file_write_at. destruct bs as [|b bs].
  - unfold overwrite, zlen in *. simpl. rewrite Nat.add_0_r, firstn_skipn. reflexivity.
  - replace (Z.to_nat (off - zlen f)) with 0%nat by lia. simpl. rewrite app_nil_r. reflexivity.
Qed.

Lemma flush_spec s :
  swf s -> exists s', stream_flush s = (Ok tt, s') /\ swf s' /\ flat s' = flat s /\
    st_buf s' = [] /\
    st_wlog s' = st_wlog s ++ (if zlen (st_buf s) =? 0 then [] else [(st_boff s, st_buf s)]).
Proof.
  intros Hwf. pose proof (swf_size _ Hwf) as Hs. destruct Hwf as [Hb Hz].
  unfold stream_flush. destruct (zlen (st_buf s) =? 0) eqn:E.
  - exists s. repeat split; auto; [apply zlen_zero_nil; lia | rewrite app_nil_r; reflexivity].
  - unfold mbind, do_write. replace (st_boff s <? 0) with false
      by (pose proof (zlen_nonneg (st_file s)); lia).
    assert (HF : file_write_at (st_file s) (st_boff s) (st_buf s) = st_file s ++ st_buf s).
    { rewrite Hb, file_write_at_in by (pose proof (zlen_nonneg (st_file s)); lia). apply overwrite_end. }
    rewrite HF. eexists. split; [reflexivity|]. unfold swf, flat in *. simpl.
    rewrite !app_nil_r. auto.
Qed.

(** ** Reads *)

Lemma get_spec s off n :
  swf s -> st_size s < two63 -> 0 <= off -> 0 <= n <= max_alloc -> off + n <= zlen (flat s) ->
  stream_get off n s = (Ok (slice (flat s) off n), s).
Proof.
  intros Hwf Hbig Ho Hn Hr. pose proof (swf_size _ Hwf) as Hs. destruct Hwf as [Hb Hz].
  unfold max_alloc, two63 in *.
  pose proof (zlen_nonneg (st_buf s)). pose proof (zlen_nonneg (st_file s)).
  assert (Hfl : zlen (flat s) = zlen (st_file s) + zlen (st_buf s)) by apply zlen_app.
  unfold stream_get, max_alloc. f_equal.
  replace ((n <? 0) || (281474976710656 <? n)) with false by lia.
  assert (Hw : wrap64 (off + n) = off + n) by (apply wrap64_id; unfold in_i64, two63; lia).
  rewrite Hw.
  destruct (off <? st_boff s) eqn:E1.
  - destruct (st_boff s <? off + n) eqn:E2.
    + unfold file_read_at.
      replace (st_boff s - off <=? 0) with false by lia.
      replace (off <? 0) with false by lia.
      replace (zlen (st_file s) <? off + (st_boff s - off)) with false by lia.
      replace (st_boff s - off <? n) with true by lia.
      unfold get_from_buffer.
      replace (st_boff s - st_boff s) with 0 by lia.
      rewrite wrap64_id by (unfold in_i64, two63; lia).
      replace (zlen (st_buf s) <? 0 + (n - (st_boff s - off))) with false by lia.
      replace ((0 <? 0) || (0 + (n - (st_boff s - off)) <? 0)) with false by lia.
      rewrite zlen_app.
      rewrite !slice_length by lia.
      replace (0 <? st_boff s - off) with true by lia.
      match goal with |- context [?a =? n] => replace (a =? n) with true by lia end.
      f_equal. unfold flat. rewrite slice_app_mid by lia.
      f_equal; unfold slice; do 2 f_equal; lia.
    + unfold file_read_at.
      destruct (n <=? 0) eqn:E3.
      * replace (n <? n) with false by lia. replace n with 0 by lia. reflexivity.
      * replace (off <? 0) with false by lia.
        replace (zlen (st_file s) <? off + n) with false by lia.
        replace (n <? n) with false by lia. unfold flat. rewrite slice_app_l by lia. reflexivity.
  - unfold get_from_buffer. change (zlen (@nil byte)) with 0.
    rewrite wrap64_id by (unfold in_i64, two63; lia).
    replace (zlen (st_buf s) <? off - st_boff s + n) with false by lia.
    replace ((off - st_boff s <? 0) || (off - st_boff s + n <? off - st_boff s)) with false by lia.
    replace (0 <? 0) with false by lia.
    f_equal. unfold flat. rewrite slice_app_r by lia. f_equal; lia.
Qed.

Lemma get_out_of_range s off n :
  swf s -> st_size s < two63 - max_alloc -> 0 <= off -> off < two63 - max_alloc ->
  0 <= n <= max_alloc -> zlen (flat s) < off + n -> n <> 0 \/ st_boff s <= off ->
  exists e, stream_get off n s = (Err e, s).
Proof.
  intros Hwf Hbig Ho Ho2 Hn Hr Hn0. pose proof (swf_size _ Hwf) as Hs. destruct Hwf as [Hb Hz].
  unfold max_alloc, two63 in *.
  pose proof (zlen_nonneg (st_buf s)). pose proof (zlen_nonneg (st_file s)).
  assert (Hfl : zlen (flat s) = zlen (st_file s) + zlen (st_buf s)) by apply zlen_app.
  unfold stream_get, max_alloc.
  replace ((n <? 0) || (281474976710656 <? n)) with false by lia.
  rewrite wrap64_id by (unfold in_i64, two63; lia).
  destruct (off <? st_boff s) eqn:E1.
  - replace (st_boff s <? off + n) with true by lia.
    unfold file_read_at.
    replace (st_boff s - off <=? 0) with false by lia.
    replace (off <? 0) with false by lia.
    replace (zlen (st_file s) <? off + (st_boff s - off)) with false by lia.
    replace (st_boff s - off <? n) with true by lia.
    unfold get_from_buffer.
    rewrite wrap64_id by (unfold in_i64, two63; lia).
    match goal with |- context [if ?c then Err _ else _] => replace c with true by lia end.
    eauto.
  - unfold get_from_buffer.
    rewrite wrap64_id by (unfold in_i64, two63; lia).
    match goal with |- context [if ?c then Err _ else _] => replace c with true by lia end.
    eauto.
Qed.

Lemma get_state s off n : snd (stream_get off n s) = s.
Proof. reflexivity. Qed.

(** ** Writes *)

Lemma buffer_overlay_spec buf start rem :
  0 <= start <= zlen buf -> buffer_overlay buf start rem = Ok (overwrite buf start rem).
Proof.
  intros H. unfold buffer_overlay.
  destruct (0 <? zlen rem - (zlen buf - start)) eqn:E.
  - replace (zlen rem <? zlen rem - (zlen buf - start)) with false by lia.
    f_equal. unfold overwrite, zlen in *.
    rewrite (skipn_all2 buf) by lia. rewrite !app_nil_r, <- app_assoc. f_equal.
    replace (Z.to_nat (Z.of_nat (List.length rem) - (Z.of_nat (List.length rem) - (Z.of_nat (List.length buf) - start))))
      with (Z.to_nat (Z.of_nat (List.length buf) - start)) by lia.
    apply firstn_skipn.
  - f_equal. unfold overwrite, zlen in *. f_equal. f_equal. apply firstn_all2. lia.
Qed.

Lemma overwrite_app_l {A} (a b bs : list A) off :
  0 <= off -> off + zlen bs <= zlen a -> overwrite a off bs ++ b = overwrite (a ++ b) off bs.
Proof.
  intros. unfold overwrite, zlen in *. rewrite firstn_app, skipn_app.
  replace (Z.to_nat off - List.length a)%nat with 0%nat by lia.
  replace (Z.to_nat off + List.length bs - List.length a)%nat with 0%nat by lia.
  simpl. rewrite app_nil_r, <- !app_assoc. reflexivity.
Qed.

Lemma overwrite_app_r {A} (a b bs : list A) off :
  zlen a <= off -> a ++ overwrite b (off - zlen a) bs = overwrite (a ++ b) off bs.
Proof.
  intros. unfold overwrite, zlen in *. rewrite firstn_app, skipn_app.
  rewrite (firstn_all2 a) by lia. rewrite (skipn_all2 a) by lia.
  rewrite <- app_assoc. f_equal. simpl. f_equal; [f_equal; lia|]. f_equal. f_equal. lia.
Qed.

Lemma overwrite_app_mid {A} (a b bs1 bs2 : list A) off :
  0 <= off -> off + zlen bs1 = zlen a ->
  overwrite a off bs1 ++ overwrite b 0 bs2 = overwrite (a ++ b) off (bs1 ++ bs2).
Proof.
  intros. unfold overwrite, zlen in *. rewrite firstn_app, skipn_app, app_length.
  replace (Z.to_nat off - List.length a)%nat with 0%nat by lia.
  rewrite (skipn_all2 a) by lia. rewrite (skipn_all2 a) by lia.
  simpl. rewrite !app_nil_r, <- !app_assoc. do 3 f_equal. f_equal. lia.
Qed.

(** What [Replace] issues as direct writes: nothing, or one write of a prefix
    of the given bytes at the given offset; then possibly a flush of the
    buffer. *)
Lemma replace_spec s off bs :
  swf s -> 0 <= off <= zlen (flat s) ->
  exists s', stream_replace off bs s = (Ok tt, s') /\ swf s' /\
    flat s' = overwrite (flat s) off bs /\ st_bmax s' = st_bmax s /\
    exists direct flushed,
      st_wlog s' = st_wlog s ++ direct ++ flushed /\
      (direct = [] \/ exists k, direct = [(off, firstn k bs)] /\ off < st_boff s) /\
      (flushed = [] \/ exists o, flushed = [(o, skipn (Z.to_nat o) (flat s'))] /\ 0 <= o <= zlen (flat s')).
Proof.
  intros Hwf Hoff. pose proof (swf_size _ Hwf) as Hs. pose proof Hwf as [Hb Hz].
  pose proof (zlen_nonneg (st_buf s)). pose proof (zlen_nonneg (st_file s)). pose proof (zlen_nonneg bs).
  assert (Hfl : zlen (flat s) = zlen (st_file s) + zlen (st_buf s)) by apply zlen_app.
  assert (Hstep : exists s1 direct,
    replace_parts off bs s = (Ok tt, s1) /\
    st_boff s1 = zlen (st_file s1) /\ st_boff s1 = st_boff s /\ st_size s1 = st_size s /\ st_bmax s1 = st_bmax s /\
    flat s1 = overwrite (flat s) off bs /\
    st_wlog s1 = st_wlog s ++ direct /\
    (direct = [] \/ exists k, direct = [(off, firstn k bs)] /\ off < st_boff s)).
  { unfold replace_parts. destruct (off <? st_boff s) eqn:E1.
    - unfold mbind, do_write. replace (off <? 0) with false by lia.
      destruct (st_boff s <? off + zlen bs) eqn:E2.
      + replace (st_boff s - off <? zlen bs) with true by lia.
        unfold lift. rewrite buffer_overlay_spec by lia. unfold set_buf. simpl.
        eexists _, [_]. split; [reflexivity|]. simpl.
        set (b1 := firstn (Z.to_nat (st_boff s - off)) bs).
        assert (Hb1 : zlen b1 = st_boff s - off) by (unfold b1, zlen in *; rewrite firstn_length; lia).
        rewrite !file_write_at_in by lia.
        repeat split; eauto.
        * rewrite zlen_overwrite by lia. lia.
        * unfold flat; simpl. rewrite overwrite_app_mid by lia. unfold b1. rewrite firstn_skipn. reflexivity.
        * right. eexists. split; [reflexivity|]. lia.
      + replace (zlen bs <? zlen bs) with false by lia. unfold ret. simpl.
        eexists _, [_]. split; [reflexivity|]. simpl.
        rewrite !firstn_all2 by (unfold zlen; lia).
        rewrite !file_write_at_in by lia.
        repeat split; eauto.
        * rewrite zlen_overwrite by lia. lia.
        * unfold flat; simpl. rewrite overwrite_app_l by lia. reflexivity.
        * right. exists (List.length bs). rewrite firstn_all. split; [reflexivity|]. lia.
    - unfold mbind, lift. rewrite buffer_overlay_spec by lia. unfold set_buf.
      eexists _, []. split; [reflexivity|]. simpl. rewrite app_nil_r. repeat split; auto.
      unfold flat; simpl. rewrite Hb. rewrite overwrite_app_r by lia. reflexivity. }
  destruct Hstep as (s1 & direct & E & Hb1 & Hb2 & Hs1 & Hm1 & Hf1 & Hw1 & Hd).
  assert (Hsz : zlen (flat s1) = Z.max (zlen (flat s)) (off + zlen bs)).
  { rewrite Hf1. apply zlen_overwrite. lia. }
  assert (H2 : exists s2, grow_size (off + zlen bs) s1 = (Ok tt, s2) /\
     swf s2 /\ flat s2 = flat s1 /\ st_bmax s2 = st_bmax s1 /\ st_wlog s2 = st_wlog s1).
  { unfold grow_size. destruct (st_size s1 <? off + zlen bs) eqn:E'; eexists; (split; [reflexivity|]);
      unfold swf, flat in *; simpl; repeat split; auto; rewrite Hsz; lia. }
  destruct H2 as (s2 & E2 & Hwf2 & Hf2 & Hm2 & Hw2).
  unfold stream_replace, mbind. rewrite E, E2. unfold flush_if_full. clear E E2.
  destruct (st_bmax s2 <? zlen (st_buf s2)) eqn:E3.
  - destruct (flush_spec s2 Hwf2) as (s3 & E4 & Hwf3 & Hf3 & Hbuf3 & Hw3).
    assert (Hm3 : st_bmax s3 = st_bmax s2).
    { unfold stream_flush, mbind, do_write in E4.
      destruct (zlen (st_buf s2) =? 0); [congruence|].
      destruct (st_boff s2 <? 0); [discriminate|]. injection E4 as <-. reflexivity. }
    exists s3. split; [exact E4|]. split; [assumption|]. split; [congruence|]. split; [congruence|].
    exists direct. eexists. split; [rewrite Hw3, Hw2, Hw1, <- app_assoc; reflexivity|].
    split; [assumption|].
    destruct (zlen (st_buf s2) =? 0); [left; reflexivity|right].
    exists (st_boff s2). destruct Hwf2 as [Hb3 Hz3]. split.
    + do 2 f_equal. rewrite Hf3. unfold flat. rewrite Hb3. unfold zlen. rewrite Nat2Z.id.
      rewrite skipn_app, skipn_all, Nat.sub_diag. reflexivity.
    + rewrite Hf3. unfold flat. rewrite zlen_app, Hb3. pose proof (zlen_nonneg (st_buf s2)). pose proof (zlen_nonneg (st_file s2)). lia.
  - exists s2. split; [reflexivity|]. split; [assumption|]. split; [congruence|]. split; [congruence|].
    exists direct, []. rewrite Hw2, Hw1, app_nil_r. auto.
Qed.

Lemma replace_past_end s off bs :
  swf s -> zlen (flat s) < off -> stream_replace off bs s = (Panic, s).
Proof.
  intros Hwf Hoff. pose proof (swf_size _ Hwf) as Hs. pose proof Hwf as [Hb Hz].
  pose proof (zlen_nonneg (st_buf s)). pose proof (zlen_nonneg bs).
  assert (Hfl : zlen (flat s) = zlen (st_file s) + zlen (st_buf s)) by apply zlen_app.
  unfold stream_replace, replace_parts, mbind, lift, buffer_overlay.
  replace (off <? st_boff s) with false by lia.
  replace (0 <? zlen bs - (zlen (st_buf s) - (off - st_boff s))) with true by lia.
  replace (zlen bs <? zlen bs - (zlen (st_buf s) - (off - st_boff s))) with true by lia.
  reflexivity.
Qed.

Lemma replace_negative s off bs :
  swf s -> off < 0 -> exists r, stream_replace off bs s = (r, s) /\ is_ok r = false.
Proof.
  intros Hwf Hoff. destruct Hwf as [Hb Hz].
  unfold stream_replace, replace_parts, mbind, do_write.
  replace (off <? st_boff s) with true by (pose proof (zlen_nonneg (st_file s)); lia).
  replace (off <? 0) with true by lia. eexists. split; reflexivity.
Qed.

Lemma add_spec s bs :
  swf s ->
  exists s', stream_add bs s = (Ok (zlen (flat s)), s') /\ swf s' /\
    flat s' = flat s ++ bs /\ st_bmax s' = st_bmax s /\
    exists flushed,
      st_wlog s' = st_wlog s ++ flushed /\
      (flushed = [] \/ exists o, flushed = [(o, skipn (Z.to_nat o) (flat s'))] /\ 0 <= o <= zlen (flat s')).
Proof.
  intros Hwf. pose proof Hwf as [Hb Hz]. pose proof (swf_size _ Hwf) as Hs.
  destruct (replace_spec s (st_size s) bs Hwf) as (s' & E & Hwf' & Hf & Hm & d & fl & Hw & Hd & Hfl).
  { rewrite Hz. pose proof (zlen_nonneg (flat s)). lia. }
  exists s'. unfold stream_add, mbind, ret. rewrite E, Hz. rewrite Hz, overwrite_end in Hf.
  repeat split; auto; try apply Hwf'.
  exists fl. destruct Hd as [->|(k & -> & Hlt)].
  - auto.
  - exfalso. pose proof (zlen_nonneg (st_buf s)). lia.
Qed.

(** ** Monotonicity: whatever happens, the stream stays well-formed and never
    shrinks. *)
Definition mono {A} (f : M A) : Prop :=
  forall s r s', swf s -> f s = (r, s') -> swf s' /\ zlen (flat s) <= zlen (flat s').

Lemma mono_ret {A} (a : A) : mono (ret a).
Proof. intros s r s' H E. injection E as <- <-. split; [assumption | lia]. Qed.
Lemma mono_fail {A} e : mono (@fail A e).
Proof. intros s r s' H E. injection E as <- <-. split; [assumption | lia]. Qed.
Lemma mono_panic {A} : mono (@panic A).
Proof. intros s r s' H E. injection E as <- <-. split; [assumption | lia]. Qed.
Lemma mono_nofuel {A} : mono (@nofuel A).
Proof. intros s r s' H E. injection E as <- <-. split; [assumption | lia]. Qed.
Lemma mono_lift {A} (x : res A) : mono (lift x).
Proof. intros s r s' H E. injection E as <- <-. split; [assumption | lia]. Qed.
Lemma mono_bind {A B} (f : M A) (g : A -> M B) :
  mono f -> (forall a, mono (g a)) -> mono (mbind f g).
Proof.
  intros Hf Hg s r s' Hwf E. unfold mbind in E.
  destruct (f s) as [r1 s1] eqn:E1. destruct (Hf _ _ _ Hwf E1) as [Hwf1 Hl1].
  destruct r1; try (injection E as <- <-; split; [assumption | lia]).
  destruct (Hg _ _ _ _ Hwf1 E). split; [assumption | lia].
Qed.
Lemma mono_get off n : mono (stream_get off n).
Proof. intros s r s' H E. unfold stream_get in E. injection E as <- <-. split; [assumption | lia]. Qed.
Lemma mono_flush : mono stream_flush.
Proof.
  intros s r s' H E. destruct (flush_spec s H) as (s1 & E1 & Hwf & Hf & _).
  rewrite E1 in E. injection E as <- <-. split; [assumption|]. rewrite Hf. lia.
Qed.
Lemma mono_replace off bs : mono (stream_replace off bs).
Proof.
  intros s r s' H E.
  destruct (Z_lt_dec off 0) as [Hn|Hn].
  - destruct (replace_negative s off bs H Hn) as (r1 & E1 & _).
    rewrite E1 in E. injection E as <- <-. split; [assumption | lia].
  - destruct (Z_lt_dec (zlen (flat s)) off).
    + rewrite replace_past_end in E by assumption. injection E as <- <-. split; [assumption | lia].
    + destruct (replace_spec s off bs H) as (s1 & E1 & Hwf & Hf & _); [lia|].
      rewrite E1 in E. injection E as <- <-. split; [assumption|].
      rewrite Hf, zlen_overwrite by lia. lia.
Qed.
Lemma mono_add bs : mono (stream_add bs).
Proof.
  intros s r s' H E. destruct (add_spec s bs H) as (s1 & E1 & Hwf & Hf & _).
  rewrite E1 in E. injection E as <- <-. split; [assumption|].
  rewrite Hf, zlen_app. pose proof (zlen_nonneg bs). lia.
Qed.

(** ** The log of writes *)

(** [chain f w g]: the writes [w], none of which leaves a gap, turn the file
    [f] into [g]. *)
Inductive chain : bytes -> list (Z * bytes) -> bytes -> Prop :=
| chain_nil f : chain f [] f
| chain_cons f o bs w g : 0 <= o <= zlen f -> chain (file_write_at f o bs) w g -> chain f ((o, bs) :: w) g.

Lemma chain_snoc f w g o bs : chain f w g -> 0 <= o <= zlen g -> chain f (w ++ [(o, bs)]) (file_write_at g o bs).
Proof.
  induction 1; intros Ho; cbn [app].
  - constructor; [assumption|]. constructor.
  - constructor; auto.
Qed.

Definition logged (s : stream) : Prop := chain [] (st_wlog s) (st_file s).

Lemma flush_logged s s' : st_boff s = zlen (st_file s) -> stream_flush s = (Ok tt, s') -> logged s -> logged s'.
Proof.
  intros Hb E Hl. unfold stream_flush in E. destruct (zlen (st_buf s) =? 0); [injection E as <-; assumption|].
  unfold mbind, do_write in E. pose proof (zlen_nonneg (st_file s)).
  replace (st_boff s <? 0) with false in E by lia. injection E as <-. unfold logged. cbn [st_wlog st_file].
  apply chain_snoc; [assumption|lia].
Qed.

Lemma replace_logged s off bs s' :
  swf s -> 0 <= off <= zlen (flat s) -> stream_replace off bs s = (Ok tt, s') -> logged s -> logged s'.
Proof.
  intros Hwf Hoff E Hl. pose proof Hwf as [Hb Hz]. unfold stream_replace in E. unfold mbind at 1 in E.
  assert (Hp : forall s1, replace_parts off bs s = (Ok tt, s1) -> logged s1 /\ st_boff s1 = zlen (st_file s1)).
  { intros s1 Ep. unfold replace_parts in Ep. destruct (off <? st_boff s) eqn:E1.
    - unfold mbind, do_write in Ep. replace (off <? 0) with false in Ep by lia.
      set (k := if st_boff s <? off + zlen bs then st_boff s - off else zlen bs) in *.
      set (s2 := {| st_file := file_write_at (st_file s) off (firstn (Z.to_nat k) bs); st_size := st_size s;
        st_boff := st_boff s; st_bmax := st_bmax s; st_buf := st_buf s;
        st_wlog := st_wlog s ++ [(off, firstn (Z.to_nat k) bs)] |}) in *.
      assert (Hl2 : chain [] (st_wlog s2) (st_file s2)) by (apply chain_snoc; [assumption|lia]).
      assert (Hb2 : st_boff s2 = zlen (st_file s2)).
      { unfold s2. cbn [st_boff st_file]. rewrite file_write_at_in by lia. rewrite zlen_overwrite by lia.
        assert (zlen (firstn (Z.to_nat k) bs) <= st_boff s - off).
        { unfold zlen in *. rewrite firstn_length. destruct (st_boff s <? off + Z.of_nat (List.length bs)) eqn:E2; unfold k; lia. }
        lia. }
      destruct (k <? zlen bs).
      + unfold lift in Ep. destruct (buffer_overlay _ _ _); try discriminate. injection Ep as <-. split; assumption.
      + injection Ep as <-. split; assumption.
    - unfold mbind, lift in Ep. destruct (buffer_overlay _ _ _); try discriminate. injection Ep as <-. split; assumption. }
  destruct (replace_parts off bs s) as [[[]|e| |] s1]; try discriminate.
  destruct (Hp s1 eq_refl) as [Hl1 Hb1]. unfold mbind, grow_size, set_size in E.
  destruct (st_size s1 <? off + zlen bs); cbv beta iota in E; unfold flush_if_full in E.
  - match type of E with (if ?c then _ else _) = _ => destruct c end;
      [eapply flush_logged; [|exact E|]; assumption|injection E as <-; assumption].
  - match type of E with (if ?c then _ else _) = _ => destruct c end;
      [eapply flush_logged; [|exact E|]; assumption|injection E as <-; assumption].
Qed.
