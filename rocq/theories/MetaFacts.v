(** Serialisation and validation of the metadata. *)
From Coq Require Import List ZArith Lia Bool String.
From Coq Require Import Strings.Byte.
From Coq Require Import ZifyBool ZifyNat.
From Verif Require Import Base BaseFacts Codec CodecFacts Stream StreamFacts Node Heap Value WildcardMeta.
Import ListNotations.
Open Scope Z_scope.

Definition meta_fits (m : metadata) : Prop :=
  List.length (md_magic m) = 19%nat /\ 0 <= md_version m < 65536 /\ in_i64 (md_mtime m) /\
  in_i64 (md_size m) /\ 8 * zlen (md_roots m) <= max_alloc /\ Forall in_i64 (md_roots m).

Lemma read_bytes_app n (a b : bytes) : List.length a = n -> read_bytes n (a ++ b) = Ok (a, b).
Proof.
  intros <-. unfold read_bytes. rewrite app_length.
  replace (List.length a + List.length b <? List.length a)%nat with false by lia.
  rewrite firstn_app, firstn_all, Nat.sub_diag, skipn_app, skipn_all, Nat.sub_diag. cbn [firstn skipn app].
  rewrite app_nil_r. reflexivity.
Qed.

Lemma read_offsets_app l : forall fuel rest, (List.length l <= fuel)%nat -> Forall in_i64 l ->
  read_offsets fuel (zlen l) (flat_map put_u64 l ++ rest) = Ok l.
Proof.
  induction l as [|x l IH]; intros fuel rest Hf Hi.
  - destruct fuel; reflexivity.
  - destruct fuel as [|fuel]; [simpl in Hf; lia|]. inversion Hi; subst.
    cbn [read_offsets]. replace (zlen (x :: l) <=? 0) with false by (unfold zlen; simpl; lia).
    cbn [flat_map]. rewrite <- app_assoc, read_bytes_app by apply put_u64_length. cbn [rbind].
    replace (zlen (x :: l) - 1) with (zlen l) by (unfold zlen; simpl List.length; lia).
    rewrite IH by (simpl in Hf; auto; lia). cbn [rbind]. rewrite get_i64_put by assumption. reflexivity.
Qed.

Lemma flat_put_len l : List.length (flat_map put_u64 l) = (8 * List.length l)%nat.
Proof. induction l as [|x l IH]; [reflexivity|]. cbn [flat_map]. rewrite app_length, put_u64_length, IH. simpl. lia. Qed.

Lemma put_u16_length z : List.length (put_u16 z) = 2%nat.
Proof. reflexivity. Qed.

Lemma bool_of_byte b : bool_of [bool_byte b] = b.
Proof. destruct b; reflexivity. Qed.

Lemma meta_roundtrip m rest : meta_fits m -> meta_unserialize (meta_serialize m ++ rest) = Ok m.
Proof.
  intros (H1 & H2 & H3 & H4 & H5 & H6). unfold meta_unserialize, meta_serialize. rewrite <- !app_assoc.
  rewrite read_bytes_app by assumption. cbn [rbind].
  rewrite read_bytes_app by apply put_u16_length. cbn [rbind].
  rewrite read_bytes_app by apply put_u64_length. cbn [rbind].
  rewrite read_bytes_app by apply put_u64_length. cbn [rbind].
  rewrite read_bytes_app by reflexivity. cbn [rbind].
  rewrite read_bytes_app by reflexivity. cbn [rbind].
  rewrite read_bytes_app by apply put_u64_length. cbn [rbind].
  assert (Hz : in_i64 (zlen (md_roots m))).
  { unfold in_i64, two63, max_alloc in *. pose proof (zlen_nonneg (md_roots m)). lia. }
  rewrite !get_i64_put by assumption.
  pose proof (zlen_nonneg (md_roots m)).
  replace (zlen (md_roots m) <? 0) with false by lia.
  replace (max_alloc <? 8 * zlen (md_roots m)) with false by lia. cbn [orb].
  rewrite read_offsets_app; [|rewrite app_length, flat_put_len; lia|assumption].
  cbn [rbind]. rewrite get_put_u16 by assumption. rewrite !bool_of_byte. destruct m; reflexivity.
Qed.

(** The fixed part of the header. *)
Definition header (m : metadata) : bytes :=
  md_magic m ++ put_u16 (md_version m) ++ put_u64 (md_mtime m) ++ put_u64 (md_size m) ++
  [bool_byte (md_ic m)] ++ [bool_byte (md_completed m)] ++ put_u64 (zlen (md_roots m)).

Lemma meta_serialize_header m : meta_serialize m = header m ++ flat_map put_u64 (md_roots m).
Proof. unfold meta_serialize, header. rewrite <- !app_assoc. reflexivity. Qed.

Lemma header_len m : List.length (md_magic m) = 19%nat -> List.length (header m) = 47%nat.
Proof. intros H. unfold header. rewrite !app_length, !put_u64_length, H. reflexivity. Qed.

Lemma meta_len m : List.length (md_magic m) = 19%nat -> zlen (meta_serialize m) = 47 + 8 * zlen (md_roots m).
Proof.
  intros H. rewrite meta_serialize_header. unfold zlen. rewrite app_length, header_len, flat_put_len by assumption. lia.
Qed.

(** Unserialising any file that starts with the header of an incomplete index
    never gives a completed metadata, nor panics. *)
Lemma read_offsets_err fuel : forall n d, (exists l, read_offsets fuel n d = Ok l) \/ read_offsets fuel n d = Err EEof.
Proof.
  induction fuel as [|fuel IH]; intros n d; cbn [read_offsets]; destruct (n <=? 0); eauto.
  unfold read_bytes. destruct (List.length d <? 8)%nat; [right; reflexivity|]. cbn [rbind].
  destruct (IH (n - 1) (skipn 8 d)) as [[l ->]| ->]; cbn [rbind]; eauto.
Qed.

Lemma meta_unserialize_header m rest : meta_fits m ->
  (exists roots, meta_unserialize (header m ++ rest) = Ok (mkMeta (md_magic m) (md_version m) (md_mtime m) (md_size m) (md_ic m) (md_completed m) roots))
  \/ meta_unserialize (header m ++ rest) = Err EEof.
Proof.
  intros (H1 & H2 & H3 & H4 & H5 & H6). unfold meta_unserialize, header. rewrite <- !app_assoc.
  rewrite read_bytes_app by assumption. cbn [rbind].
  rewrite read_bytes_app by apply put_u16_length. cbn [rbind].
  rewrite read_bytes_app by apply put_u64_length. cbn [rbind].
  rewrite read_bytes_app by apply put_u64_length. cbn [rbind].
  rewrite read_bytes_app by reflexivity. cbn [rbind].
  rewrite read_bytes_app by reflexivity. cbn [rbind].
  rewrite read_bytes_app by apply put_u64_length. cbn [rbind].
  assert (Hz : in_i64 (zlen (md_roots m))).
  { unfold in_i64, two63, max_alloc in *. pose proof (zlen_nonneg (md_roots m)). lia. }
  rewrite !get_i64_put by assumption.
  pose proof (zlen_nonneg (md_roots m)).
  replace (zlen (md_roots m) <? 0) with false by lia.
  replace (max_alloc <? 8 * zlen (md_roots m)) with false by lia. cbn [orb].
  destruct (read_offsets_err (List.length rest) (zlen (md_roots m)) rest) as [[l ->]| ->]; cbn [rbind].
  - left. exists l. rewrite get_put_u16 by assumption. rewrite !bool_of_byte. reflexivity.
  - right. reflexivity.
Qed.

Lemma read_bytes_short n (d : bytes) : (List.length d < n)%nat -> read_bytes n d = Err EEof.
Proof. intros H. unfold read_bytes. replace (List.length d <? n)%nat with true by lia. reflexivity. Qed.
Lemma read_bytes_split n (d : bytes) : (n <= List.length d)%nat -> read_bytes n d = Ok (firstn n d, skipn n d).
Proof. intros H. unfold read_bytes. replace (List.length d <? n)%nat with false by lia. reflexivity. Qed.

Lemma meta_unserialize_short d : (List.length d < 47)%nat -> meta_unserialize d = Err EEof.
Proof.
  intros H. unfold meta_unserialize.
  destruct (Nat.lt_ge_cases (List.length d) 19) as [Hs|Hs]; [rewrite read_bytes_short by assumption; reflexivity|].
  rewrite read_bytes_split by assumption. cbn [rbind]. set (d1 := skipn 19 d).
  assert (L1 : (List.length d1 = List.length d - 19)%nat) by apply skipn_length.
  destruct (Nat.lt_ge_cases (List.length d1) 2) as [Hs1|Hs1]; [rewrite read_bytes_short by assumption; reflexivity|].
  rewrite read_bytes_split by assumption. cbn [rbind]. set (d2 := skipn 2 d1).
  assert (L2 : (List.length d2 = List.length d1 - 2)%nat) by apply skipn_length.
  destruct (Nat.lt_ge_cases (List.length d2) 8) as [Hs2|Hs2]; [rewrite read_bytes_short by assumption; reflexivity|].
  rewrite read_bytes_split by assumption. cbn [rbind]. set (d3 := skipn 8 d2).
  assert (L3 : (List.length d3 = List.length d2 - 8)%nat) by apply skipn_length.
  destruct (Nat.lt_ge_cases (List.length d3) 8) as [Hs3|Hs3]; [rewrite read_bytes_short by assumption; reflexivity|].
  rewrite read_bytes_split by assumption. cbn [rbind]. set (d4 := skipn 8 d3).
  assert (L4 : (List.length d4 = List.length d3 - 8)%nat) by apply skipn_length.
  destruct (Nat.lt_ge_cases (List.length d4) 1) as [Hs4|Hs4]; [rewrite read_bytes_short by assumption; reflexivity|].
  rewrite read_bytes_split by assumption. cbn [rbind]. set (d5 := skipn 1 d4).
  assert (L5 : (List.length d5 = List.length d4 - 1)%nat) by apply skipn_length.
  destruct (Nat.lt_ge_cases (List.length d5) 1) as [Hs5|Hs5]; [rewrite read_bytes_short by assumption; reflexivity|].
  rewrite read_bytes_split by assumption. cbn [rbind]. set (d6 := skipn 1 d5).
  assert (L6 : (List.length d6 = List.length d5 - 1)%nat) by apply skipn_length.
  rewrite read_bytes_short by lia. reflexivity.
Qed.
