(** A heap view of the index stream: which objects live at which offsets, and
    what every primitive operation of Node.v does to it. *)
From Coq Require Import List ZArith Lia Bool String.
From Coq Require Import Strings.Byte.
From Coq Require Import ZifyBool ZifyNat.
From Verif Require Import Base BaseFacts Codec CodecFacts Stream StreamFacts Node.
Import ListNotations.
Open Scope Z_scope.

(** ** Monotonicity of every program *)

Create HintDb mono.
Global Hint Resolve mono_ret mono_fail mono_panic mono_nofuel mono_lift mono_get mono_flush
  mono_replace mono_add : mono.

Ltac mono_tac :=
  repeat first
    [ solve [eauto with mono]
    | apply mono_bind; [|intros]
    | match goal with
      | |- mono (if ?c then _ else _) => destruct c
      | |- mono (match ?x with _ => _ end) => destruct x
      | |- mono (let '(_, _) := ?x in _) => destruct x
      end ].

Lemma mono_eta {A} (f : stream -> M A) : (forall s, mono (f s)) -> mono (fun s => f s s).
Proof. intros H s r s' Hw E. exact (H s s r s' Hw E). Qed.

Lemma mono_get_plist off : mono (get_plist off).
Proof. unfold get_plist. mono_tac. Qed.
Lemma mono_plist_save l : mono (plist_save l).
Proof. unfold plist_save. mono_tac. Qed.
Global Hint Resolve mono_get_plist mono_plist_save : mono.
Lemma mono_new_plist p : mono (new_plist p).
Proof. unfold new_plist. mono_tac. Qed.
Lemma mono_next_position l : mono (next_position l).
Proof. unfold next_position. mono_tac. Qed.
Global Hint Resolve mono_new_plist mono_next_position : mono.
Lemma mono_copy_loop fuel : forall last cur, mono (copy_loop fuel last cur).
Proof. induction fuel as [|fuel IH]; intros; simpl; mono_tac. Qed.
Global Hint Resolve mono_copy_loop : mono.
Lemma mono_plist_copy l : mono (plist_copy l).
Proof. unfold plist_copy. apply (mono_eta (fun s => _)). intros s. mono_tac. Qed.
Global Hint Resolve mono_plist_copy : mono.
Lemma mono_new_empty_node : mono new_empty_node.
Proof. unfold new_empty_node. mono_tac. Qed.
Lemma mono_get_node off : mono (get_node off).
Proof. unfold get_node. mono_tac. Qed.
Lemma mono_node_save n : mono (node_save n).
Proof. unfold node_save. mono_tac. Qed.
Lemma mono_node_value n : mono (node_value n).
Proof. unfold node_value. mono_tac. Qed.
Global Hint Resolve mono_new_empty_node mono_get_node mono_node_save mono_node_value : mono.
Lemma mono_append_child n c : mono (append_child n c).
Proof. unfold append_child, last_child. mono_tac. Qed.
Lemma mono_find_loop fuel : forall c v, mono (find_loop fuel c v).
Proof. induction fuel as [|fuel IH]; intros; simpl; unfold next_sibling; mono_tac. Qed.
Global Hint Resolve mono_append_child mono_find_loop : mono.
Lemma mono_find_child n v : mono (find_child_by_prefix n v).
Proof.
  unfold find_child_by_prefix, first_child. apply (mono_eta (fun s => _)). intros s. mono_tac.
Qed.
Lemma mono_append_position n p : mono (append_position_if_not_exists n p).
Proof. unfold append_position_if_not_exists, last_position. mono_tac. Qed.
Lemma mono_split n k : mono (split_node n k).
Proof. unfold split_node, first_position. mono_tac. Qed.
Lemma mono_add_leaf n rem roff p : mono (add_leaf n rem roff p).
Proof. unfold add_leaf. mono_tac. Qed.
Global Hint Resolve mono_find_child mono_append_position mono_split mono_add_leaf : mono.
Lemma mono_add_loop fuel : forall n rem roff p, mono (add_loop fuel n rem roff p).
Proof. induction fuel as [|fuel IH]; intros; simpl; mono_tac. Qed.
Lemma mono_add_sequence n bs off p : mono (add_sequence n bs off p).
Proof. apply mono_add_loop. Qed.
Global Hint Resolve mono_add_loop mono_add_sequence : mono.
Lemma mono_add_suffixes bs : forall n off p, mono (add_suffixes n bs off p).
Proof. induction bs; intros; simpl; mono_tac. Qed.
Global Hint Resolve mono_add_suffixes : mono.
Lemma mono_add_all n bs p : mono (add_all_sequences n bs p).
Proof. unfold add_all_sequences. mono_tac. Qed.
Global Hint Resolve mono_add_all : mono.

(** From [E : prog s = (r, s')], the size of [s] is at most that of [s']. *)
Ltac szmono E Hwf :=
  match type of E with
  | ?prog ?s = (?r, ?s') =>
    let H := fresh "Hsz" in
    assert (H : mono prog) by mono_tac;
    let H2 := fresh "Hsz" in
    destruct (H _ _ _ Hwf E) as [_ H2]; clear H
  end.

(** ** Serialisation of the objects *)

Definition plist_fits (l : plist) : Prop := in_i64 (p_pos l) /\ in_i64 (p_next l).
Definition node_fits (n : node) : Prop :=
  in_i64 (n_voff n) /\ in_i64 (n_vlen n) /\ in_i64 (n_next n) /\ in_i64 (n_first n) /\
  in_i64 (n_last n) /\ in_i64 (n_fpos n) /\ in_i64 (n_lpos n).

Lemma zlen_put_u64 z : zlen (put_u64 z) = 8.
Proof. unfold zlen. rewrite put_u64_length. reflexivity. Qed.

Lemma slice_skip {A} (a b : list A) off n :
  zlen a = 8 -> 8 <= off -> 0 <= n -> slice (a ++ b) off n = slice b (off - 8) n.
Proof. intros H ? ?. rewrite slice_app_r by lia. rewrite H. reflexivity. Qed.

Lemma slice_take {A} (a b : list A) : zlen a = 8 -> slice (a ++ b) 0 8 = a.
Proof. intros H. rewrite slice_app_l by lia. apply slice_full. lia. Qed.

Ltac dec_field :=
  repeat (rewrite slice_skip by (rewrite ?zlen_put_u64; lia); cbn [Z.sub Z.add Z.opp Z.pos_sub]);
  first [ rewrite slice_take by apply zlen_put_u64
        | rewrite slice_full by (rewrite zlen_put_u64; reflexivity) ];
  apply get_i64_put; assumption.

Lemma plist_roundtrip l : plist_fits l ->
  plist_unserialize (p_off l) (plist_serialize l) = l.
Proof.
  intros [H1 H2]. unfold plist_unserialize, plist_serialize. destruct l as [o p nx]; cbn [p_off p_pos p_next] in *.
  f_equal.
  - rewrite slice_take by apply zlen_put_u64. apply get_i64_put. assumption.
  - rewrite slice_skip by (rewrite ?zlen_put_u64; lia).
    rewrite slice_full by (rewrite zlen_put_u64; reflexivity). apply get_i64_put. assumption.
Qed.

Lemma node_roundtrip n : node_fits n ->
  node_unserialize (n_off n) (node_serialize n) = n.
Proof.
  intros (H1 & H2 & H3 & H4 & H5 & H6 & H7).
  unfold node_unserialize, node_serialize. destruct n as [o f1 f2 f3 f4 f5 f6 f7]; cbn [n_off n_voff n_vlen n_next n_first n_last n_fpos n_lpos] in *.
  f_equal; dec_field.
Qed.

Lemma plist_serialize_len l : zlen (plist_serialize l) = 16.
Proof. unfold plist_serialize. rewrite zlen_app, !zlen_put_u64. reflexivity. Qed.
Lemma node_serialize_len n : zlen (node_serialize n) = 56.
Proof. unfold node_serialize. rewrite !zlen_app, !zlen_put_u64. reflexivity. Qed.

(** ** Heaps *)

Inductive cell :=
| CNode (n : node)
| CPos (l : plist)
| CRaw (bs : bytes)
| CMeta (bs : bytes).

Definition cenc (c : cell) : bytes :=
  match c with
  | CNode n => node_serialize n
  | CPos l => plist_serialize l
  | CRaw bs => bs
  | CMeta bs => bs
  end.
Definition csize (c : cell) : Z := zlen (cenc c).

Definition heap := Z -> option cell.
Definition upd (H : heap) (o : Z) (c : cell) : heap := fun x => if x =? o then Some c else H x.

Lemma upd_same H o c : upd H o c o = Some c.
Proof. unfold upd. rewrite Z.eqb_refl. reflexivity. Qed.
Lemma upd_other H o c x : x <> o -> upd H o c x = H x.
Proof. unfold upd. intros. replace (x =? o) with false by lia. reflexivity. Qed.

(** Offset of the last byte of the fixed part of the metadata (everything but
    the root offsets), which starts the file. *)
Definition header_last : Z := 46.

Definition cell_ok (o : Z) (c : cell) : Prop :=
  match c with
  | CNode n => n_off n = o /\ header_last < o /\ node_fits n
  | CPos l => p_off l = o /\ header_last < o /\ plist_fits l
  | CRaw bs => True
  | CMeta bs => o = 0
  end.

Record heap_ok (m : bytes) (H : heap) : Prop := {
  ho_in : forall o c, H o = Some c -> 0 <= o /\ o + csize c <= zlen m /\ 0 < csize c;
  ho_enc : forall o c, H o = Some c -> slice m o (csize c) = cenc c;
  ho_ok : forall o c, H o = Some c -> cell_ok o c;
  ho_disj : forall o1 o2 c1 c2, H o1 = Some c1 -> H o2 = Some c2 -> o1 <> o2 ->
    o1 + csize c1 <= o2 \/ o2 + csize c2 <= o1;
}.

Definition Rep (s : stream) (H : heap) : Prop :=
  swf s /\ heap_ok (flat s) H /\ header_last < zlen (flat s).

Lemma Rep_wf s H : Rep s H -> swf s.
Proof. intros [Hw _]; exact Hw. Qed.

(** Log safety: no byte differing from [hdr] was ever written in the header. *)
Definition hsafe (hdr : bytes) (w : Z * bytes) : Prop :=
  forall i, fst w <= i <= header_last -> i - fst w < zlen (snd w) ->
    nth (Z.to_nat (i - fst w)) (snd w) Byte.x00 = nth (Z.to_nat i) hdr Byte.x00.
Definition wsafe (hdr : bytes) (s : stream) : Prop :=
  (forall i, 0 <= i <= header_last -> nth (Z.to_nat i) (flat s) Byte.x00 = nth (Z.to_nat i) hdr Byte.x00) /\
  Forall (hsafe hdr) (st_wlog s) /\ logged s.

(** ** Primitive operations on heaps *)

Lemma fresh_none m H : heap_ok m H -> H (zlen m) = None.
Proof.
  intros Hok. destruct (H (zlen m)) as [c|] eqn:E; [|reflexivity].
  apply (ho_in _ _ Hok) in E. lia.
Qed.

Lemma heap_ok_ge_none m H o : heap_ok m H -> zlen m <= o -> H o = None.
Proof.
  intros Hok Ho. destruct (H o) as [c|] eqn:E; [|reflexivity].
  apply (ho_in _ _ Hok) in E. lia.
Qed.

Lemma heap_ok_alloc m H c :
  heap_ok m H -> 0 < csize c -> cell_ok (zlen m) c ->
  heap_ok (m ++ cenc c) (upd H (zlen m) c).
Proof.
  intros Hok Hpos Hc. pose proof (zlen_nonneg m) as Hm0.
  assert (Hl : zlen (m ++ cenc c) = zlen m + csize c) by apply zlen_app.
  constructor.
  - intros o c' E. unfold upd in E. destruct (o =? zlen m) eqn:Eo.
    + injection E as <-. lia.
    + apply (ho_in _ _ Hok) in E. lia.
  - intros o c' E. unfold upd in E. destruct (o =? zlen m) eqn:Eo.
    + injection E as <-. assert (o = zlen m) by lia. subst.
      rewrite slice_app_r by lia. rewrite Z.sub_diag. apply slice_full. reflexivity.
    + pose proof (ho_in _ _ Hok _ _ E) as Hr. rewrite slice_app_l by lia.
      apply (ho_enc _ _ Hok). assumption.
  - intros o c' E. unfold upd in E. destruct (o =? zlen m) eqn:Eo.
    + injection E as <-. assert (o = zlen m) by lia. subst. assumption.
    + apply (ho_ok _ _ Hok). assumption.
  - intros o1 o2 c1 c2 E1 E2 Hne. unfold upd in *.
    destruct (o1 =? zlen m) eqn:Eo1; destruct (o2 =? zlen m) eqn:Eo2; try lia.
    + injection E1 as <-. apply (ho_in _ _ Hok) in E2. lia.
    + injection E2 as <-. apply (ho_in _ _ Hok) in E1. lia.
    + eapply (ho_disj _ _ Hok); eassumption.
Qed.

Lemma heap_ok_update m H o c0 c :
  heap_ok m H -> H o = Some c0 -> csize c = csize c0 -> cell_ok o c ->
  heap_ok (overwrite m o (cenc c)) (upd H o c).
Proof.
  intros Hok Ho Hs Hc. pose proof (ho_in _ _ Hok _ _ Ho) as Hr.
  assert (Hcl : zlen (cenc c) = csize c0) by exact Hs.
  assert (Hl : zlen (overwrite m o (cenc c)) = zlen m) by (rewrite zlen_overwrite; lia).
  constructor.
  - intros o' c' E. rewrite Hl. unfold upd in E. destruct (o' =? o) eqn:Eo.
    + injection E as <-. lia.
    + apply (ho_in _ _ Hok) in E. lia.
  - intros o' c' E. unfold upd in E. destruct (o' =? o) eqn:Eo.
    + injection E as <-. assert (o' = o) by lia. subst. apply slice_overwrite_same. lia.
    + pose proof (ho_in _ _ Hok _ _ E) as Hr'.
      destruct (ho_disj _ _ Hok _ _ _ _ E Ho ltac:(lia)).
      * rewrite slice_overwrite_below by lia. apply (ho_enc _ _ Hok). assumption.
      * rewrite slice_overwrite_above by lia. apply (ho_enc _ _ Hok). assumption.
  - intros o' c' E. unfold upd in E. destruct (o' =? o) eqn:Eo.
    + injection E as <-. assert (o' = o) by lia. subst. assumption.
    + apply (ho_ok _ _ Hok). assumption.
  - intros o1 o2 c1 c2 E1 E2 Hne. unfold upd in *.
    destruct (o1 =? o) eqn:Eo1; destruct (o2 =? o) eqn:Eo2; try lia.
    + injection E1 as <-. assert (o1 = o) by lia. subst.
      rewrite Hs. eapply (ho_disj _ _ Hok); eassumption.
    + injection E2 as <-. assert (o2 = o) by lia. subst.
      rewrite Hs. eapply (ho_disj _ _ Hok); eassumption.
    + eapply (ho_disj _ _ Hok); eassumption.
Qed.

(** Log safety of a replacement that does not touch the header, or writes the
    same bytes there. *)
Lemma nth_firstn_lt {A} k i (l : list A) d : (i < k)%nat -> nth i (firstn k l) d = nth i l d.
Proof.
  revert i l; induction k; intros i l Hl; [lia|].
  destruct l; [destruct i; reflexivity|]. destruct i; simpl; [reflexivity|]. apply IHk. lia.
Qed.

Lemma replace_wsafe hdr s off bs s' :
  swf s -> 0 <= off <= zlen (flat s) -> hsafe hdr (off, bs) ->
  stream_replace off bs s = (Ok tt, s') -> wsafe hdr s -> wsafe hdr s'.
Proof.
  intros Hwf Hoff Hz E (Hf & Hlog & Hlg).
  pose proof (replace_logged _ _ _ _ Hwf Hoff E Hlg) as Hlg'.
  destruct (replace_spec s off bs Hwf Hoff) as (s1 & E1 & Hwf1 & Hfl & _ & d & fl & Hw & Hd & Hflush).
  rewrite E1 in E. injection E as <-.
  assert (Hf1 : forall i, 0 <= i <= header_last -> nth (Z.to_nat i) (flat s1) x00 = nth (Z.to_nat i) hdr x00).
  { intros i Hi. rewrite Hfl. unfold hsafe in Hz. cbn [fst snd] in Hz.
    destruct (Z_lt_dec i off).
    - rewrite nth_overwrite_out by lia. auto.
    - destruct (Z_lt_dec i (off + zlen bs)).
      + rewrite nth_overwrite_in by lia.
        specialize (Hz i ltac:(lia) ltac:(lia)).
        replace (Z.to_nat i - Z.to_nat off)%nat with (Z.to_nat (i - off)) by lia. exact Hz.
      + rewrite nth_overwrite_out by lia. auto. }
  split; [assumption|]. split; [|assumption]. rewrite Hw, !Forall_app. repeat split; auto.
  - destruct Hd as [->|(k & -> & _)]; constructor; auto.
    unfold hsafe in *. cbn [fst snd] in *. intros i Hi Hlt. unfold zlen in *. rewrite firstn_length in Hlt.
    rewrite nth_firstn_lt by lia. apply Hz; lia.
  - destruct Hflush as [->|(o & -> & Ho)]; constructor; auto.
    unfold hsafe. cbn [fst snd]. intros i Hi Hlt. rewrite nth_skipn.
    replace (Z.to_nat o + Z.to_nat (i - o))%nat with (Z.to_nat i) by lia. apply Hf1. lia.
Qed.

Lemma hsafe_past hdr o bs : header_last < o -> hsafe hdr (o, bs).
Proof. intros H i Hi. cbn [fst] in Hi. lia. Qed.

Lemma add_wsafe hdr s bs s' r :
  swf s -> header_last < zlen (flat s) -> stream_add bs s = (r, s') -> wsafe hdr s -> wsafe hdr s'.
Proof.
  intros Hwf Hc E Hs. unfold stream_add, mbind, ret in E.
  destruct Hwf as [Hb Hz]. assert (Hwf : swf s) by (split; assumption).
  destruct (replace_spec s (st_size s) bs Hwf) as (s1 & E1 & _);
    [rewrite Hz; pose proof (zlen_nonneg (flat s)); lia|].
  rewrite E1 in E. injection E as _ <-.
  eapply replace_wsafe; try eassumption.
  - rewrite Hz; pose proof (zlen_nonneg (flat s)); lia.
  - apply hsafe_past. lia.
Qed.

Lemma h_get_node s H o n :
  Rep s H -> zlen (flat s) < max_alloc -> H o = Some (CNode n) ->
  get_node o s = (Ok (Some n), s).
Proof.
  intros (Hwf & Hok & Hc) Hb Ho. pose proof (ho_in _ _ Hok _ _ Ho) as Hi.
  pose proof (ho_ok _ _ Hok _ _ Ho) as (Hoff & Hlt & Hfit).
  pose proof (ho_enc _ _ Hok _ _ Ho) as He.
  unfold csize in *. simpl in *. rewrite node_serialize_len in *. unfold header_last in *.
  unfold get_node. replace (o =? 0) with false by lia. unfold mbind.
  rewrite get_spec; [|assumption|destruct Hwf as [_ ->]; unfold max_alloc, two63 in *; lia|lia|unfold TreeNodeSize, max_alloc; lia|unfold TreeNodeSize; lia].
  unfold TreeNodeSize, ret. rewrite He. rewrite <- Hoff, node_roundtrip by assumption. reflexivity.
Qed.

Lemma h_get_plist s H o l :
  Rep s H -> zlen (flat s) < max_alloc -> H o = Some (CPos l) ->
  get_plist o s = (Ok (Some l), s).
Proof.
  intros (Hwf & Hok & Hc) Hb Ho. pose proof (ho_in _ _ Hok _ _ Ho) as Hi.
  pose proof (ho_ok _ _ Hok _ _ Ho) as (Hoff & Hlt & Hfit).
  pose proof (ho_enc _ _ Hok _ _ Ho) as He.
  unfold csize in *. simpl in *. rewrite plist_serialize_len in *. unfold header_last in *.
  unfold get_plist. replace (o =? 0) with false by lia. unfold mbind.
  rewrite get_spec; [|assumption|destruct Hwf as [_ ->]; unfold max_alloc, two63 in *; lia|lia|unfold PositionLinkedListSize, max_alloc; lia|unfold PositionLinkedListSize; lia].
  unfold PositionLinkedListSize, ret. rewrite He. rewrite <- Hoff, plist_roundtrip by assumption. reflexivity.
Qed.

Lemma h_get_node_0 s : get_node 0 s = (Ok None, s).
Proof. reflexivity. Qed.
Lemma h_get_plist_0 s : get_plist 0 s = (Ok None, s).
Proof. reflexivity. Qed.

(** Size and log relation between two states. *)
Definition ev (s s' : stream) : Prop :=
  zlen (flat s) <= zlen (flat s') /\ (forall hdr, wsafe hdr s -> wsafe hdr s').
Lemma ev_refl s : ev s s.
Proof. split; [lia | auto]. Qed.
Lemma ev_trans s1 s2 s3 : ev s1 s2 -> ev s2 s3 -> ev s1 s3.
Proof. intros [H1 H2] [H3 H4]. split; [lia | auto]. Qed.

Lemma h_replace s H o c0 c :
  Rep s H -> H o = Some c0 -> csize c = csize c0 -> cell_ok o c -> header_last < o ->
  exists s', stream_replace o (cenc c) s = (Ok tt, s') /\ Rep s' (upd H o c) /\
    zlen (flat s') = zlen (flat s) /\ ev s s'.
Proof.
  intros (Hwf & Hok & Hc) Ho Hs Hcell Hz. pose proof (ho_in _ _ Hok _ _ Ho) as Hi.
  assert (Hcl : zlen (cenc c) = csize c0) by exact Hs.
  destruct (replace_spec s o (cenc c) Hwf) as (s' & E & Hwf' & Hf & _); [lia|].
  assert (Hl : zlen (flat s') = zlen (flat s)) by (rewrite Hf, zlen_overwrite; lia).
  exists s'. split; [assumption|]. split; [|split; [assumption|]].
  - split; [assumption|]. split; [|rewrite Hl; assumption].
    rewrite Hf. eapply heap_ok_update; eassumption.
  - split; [lia|]. intros. apply (replace_wsafe hdr s o (cenc c)); try assumption; [lia|apply hsafe_past; assumption].
Qed.

Lemma h_node_save s H n n0 :
  Rep s H -> H (n_off n) = Some (CNode n0) -> node_fits n ->
  exists s', node_save n s = (Ok tt, s') /\ Rep s' (upd H (n_off n) (CNode n)) /\
    zlen (flat s') = zlen (flat s) /\ ev s s'.
Proof.
  intros HR Ho Hfit. unfold node_save.
  change (node_serialize n) with (cenc (CNode n)).
  pose proof (ho_ok _ _ (proj1 (proj2 HR)) _ _ Ho) as (_ & Hlt & _).
  eapply h_replace; try eassumption.
  - unfold csize; cbn [cenc]. rewrite !node_serialize_len. reflexivity.
  - simpl. auto.
Qed.

Lemma h_plist_save s H l l0 :
  Rep s H -> H (p_off l) = Some (CPos l0) -> plist_fits l ->
  exists s', plist_save l s = (Ok l, s') /\ Rep s' (upd H (p_off l) (CPos l)) /\
    zlen (flat s') = zlen (flat s) /\ ev s s'.
Proof.
  intros HR Ho Hfit. unfold plist_save.
  pose proof (ho_ok _ _ (proj1 (proj2 HR)) _ _ Ho) as (_ & Hlt & _). unfold header_last in Hlt.
  replace (p_off l =? 0) with false by lia. unfold mbind, ret.
  destruct (h_replace s H (p_off l) (CPos l0) (CPos l) HR Ho) as (s' & E & HR' & Hl & Hev).
  - unfold csize; cbn [cenc]. rewrite !plist_serialize_len. reflexivity.
  - simpl. auto.
  - unfold header_last. lia.
  - simpl in E. rewrite E. eauto.
Qed.

Lemma h_add s H c :
  Rep s H -> 0 < csize c -> cell_ok (zlen (flat s)) c ->
  exists s', stream_add (cenc c) s = (Ok (zlen (flat s)), s') /\
    Rep s' (upd H (zlen (flat s)) c) /\
    zlen (flat s') = zlen (flat s) + csize c /\ ev s s'.
Proof.
  intros (Hwf & Hok & Hc) Hp Hcell.
  destruct (add_spec s (cenc c) Hwf) as (s' & E & Hwf' & Hf & _).
  assert (Hl : zlen (flat s') = zlen (flat s) + csize c) by (rewrite Hf; apply zlen_app).
  exists s'. split; [assumption|]. split; [|split; [assumption|]].
  - split; [assumption|]. split; [|lia]. rewrite Hf. apply heap_ok_alloc; assumption.
  - split; [lia|]. intros. eapply (add_wsafe hdr s); eassumption.
Qed.

Lemma h_add_empty s H :
  Rep s H ->
  exists s', stream_add [] s = (Ok (zlen (flat s)), s') /\ Rep s' H /\
    zlen (flat s') = zlen (flat s) /\ ev s s'.
Proof.
  intros (Hwf & Hok & Hc).
  destruct (add_spec s [] Hwf) as (s' & E & Hwf' & Hf & _). rewrite app_nil_r in Hf.
  exists s'. split; [assumption|]. split; [|split; [congruence|]].
  - split; [assumption|]. rewrite Hf. auto.
  - split; [rewrite Hf; lia|]. intros. eapply (add_wsafe hdr s); eassumption.
Qed.

Lemma node_zeros : repeat x00 (Z.to_nat TreeNodeSize) = node_serialize (mkNode 0 0 0 0 0 0 0 0).
Proof. reflexivity. Qed.

Lemma h_new_node s H :
  Rep s H ->
  exists s', let o := zlen (flat s) in
    new_empty_node s = (Ok (mkNode o 0 0 0 0 0 0 0), s') /\
    Rep s' (upd H o (CNode (mkNode o 0 0 0 0 0 0 0))) /\
    zlen (flat s') = zlen (flat s) + 56 /\ ev s s'.
Proof.
  intros HR. pose proof HR as (_ & _ & Hc).
  set (o := zlen (flat s)) in *.
  destruct (h_add s H (CNode (mkNode o 0 0 0 0 0 0 0)) HR) as (s' & E & HR' & Hl & Hev).
  - unfold csize; cbn [cenc]. rewrite node_serialize_len. lia.
  - simpl. fold o. unfold node_fits, in_i64, two63; simpl. repeat split; auto; lia.
  - exists s'. unfold csize in Hl. cbn [cenc] in Hl. rewrite node_serialize_len in Hl.
    split; [|split; [exact HR'|split; [exact Hl|exact Hev]]].
    unfold new_empty_node, mbind, ret. rewrite node_zeros.
    change (node_serialize (mkNode 0 0 0 0 0 0 0 0)) with (cenc (CNode (mkNode o 0 0 0 0 0 0 0))).
    rewrite E. reflexivity.
Qed.

Lemma h_new_plist s H pos :
  Rep s H -> in_i64 pos ->
  exists s', let o := zlen (flat s) in
    new_plist pos s = (Ok (mkPlist o pos 0), s') /\
    Rep s' (upd H o (CPos (mkPlist o pos 0))) /\
    zlen (flat s') = zlen (flat s) + 16 /\ ev s s'.
Proof.
  intros HR Hpos. pose proof HR as (_ & _ & Hc).
  set (o := zlen (flat s)) in *.
  destruct (h_add s H (CPos (mkPlist o pos 0)) HR) as (s' & E & HR' & Hl & Hev).
  - unfold csize; cbn [cenc]. rewrite plist_serialize_len. lia.
  - simpl. fold o. unfold plist_fits, in_i64, two63 in *; simpl. repeat split; auto; lia.
  - exists s'. unfold csize in Hl. cbn [cenc] in Hl. rewrite plist_serialize_len in Hl.
    split; [|split; [exact HR'|split; [exact Hl|exact Hev]]].
    unfold new_plist, plist_save. simpl. unfold mbind, ret.
    change (plist_serialize (mkPlist 0 pos 0)) with (cenc (CPos (mkPlist o pos 0))).
    rewrite E. reflexivity.
Qed.

(** A label stored somewhere in the raw bytes of the stream. *)
Definition val (H : heap) (voff : Z) (v : bytes) : Prop :=
  v = [] \/ exists base bs, H base = Some (CRaw bs) /\ base <= voff /\
    voff + zlen v <= base + zlen bs /\ slice bs (voff - base) (zlen v) = v.

Lemma val_skip H voff v k :
  val H voff v -> (k <= List.length v)%nat -> val H (voff + Z.of_nat k) (skipn k v).
Proof.
  intros [->|(base & bs & Hb & H1 & H2 & H3)] Hk.
  - left. destruct k; reflexivity.
  - right. exists base, bs.
    assert (Hl : zlen (skipn k v) = zlen v - Z.of_nat k) by (unfold zlen; rewrite skipn_length; lia).
    repeat split; try lia; auto. rewrite Hl.
    rewrite <- H3 at 2.
    unfold slice. rewrite skipn_firstn_comm, skipn_skipn. f_equal; [unfold zlen in *; lia|]. f_equal. lia.
Qed.

Lemma val_take H voff v k :
  val H voff v -> val H voff (firstn k v).
Proof.
  intros [->|(base & bs & Hb & H1 & H2 & H3)].
  - left. destruct k; reflexivity.
  - right. exists base, bs.
    assert (Hl : zlen (firstn k v) <= zlen v) by (unfold zlen; rewrite firstn_length; lia).
    repeat split; try lia; auto.
    rewrite <- H3 at 2. unfold slice. rewrite firstn_firstn. f_equal.
    unfold zlen. rewrite firstn_length. lia.
Qed.

Lemma h_value s H n v :
  Rep s H -> zlen (flat s) < max_alloc -> v <> [] -> val H (n_voff n) v -> n_vlen n = zlen v ->
  node_value n s = (Ok v, s).
Proof.
  intros (Hwf & Hok & Hc) Hb Hne [->|(base & bs & Hbase & H1 & H2 & H3)] Hlen; [congruence|].
  pose proof (ho_in _ _ Hok _ _ Hbase) as Hi. pose proof (ho_enc _ _ Hok _ _ Hbase) as He.
  unfold csize in *. simpl in *. unfold node_value. rewrite Hlen.
  pose proof (zlen_nonneg v).
  rewrite get_spec; [|assumption|destruct Hwf as [_ ->]; unfold max_alloc, two63 in *; lia|lia|lia|lia].
  do 2 f_equal. rewrite <- H3 at 2. rewrite <- He.
  rewrite slice_slice by lia. f_equal. lia.
Qed.
