(** Properties of the wildcard index storage: C06, and C07 for nodes and
    positions. *)
From Coq Require Import List ZArith Lia Bool String.
From Coq Require Import Strings.Byte.
From Verif Require Import Base BaseFacts Codec CodecFacts Stream StreamFacts Node Heap SpecStorage StorageFacts.
Import ListNotations.
Open Scope Z_scope.

(** C06.  Any sequence of in-range operations on a stream opened on any file,
    whatever the buffer limit, observes exactly what a plain byte array would
    answer, and after a flush the file is that array. *)
Theorem C06_storage_is_flat_array : forall file bmax os,
  zlen file < 281474976710656 -> arr_all_valid file os ->
  exists s', stream_run os (opened file bmax) = (Ok (snd (arr_run file os)), s') /\
    exists s'', stream_flush s' = (Ok tt, s'') /\ st_file s'' = fst (arr_run file os).
Proof. exact storage_is_array. Qed.
Print Assumptions C06_storage_is_flat_array.

(** A read straddling file and buffer, a replace straddling both, an automatic
    flush (limit 5). *)
Definition C06_ops : list sop :=
  [OpGet 1 2; OpAdd (lit "xyz"); OpGet 2 4; OpReplace 2 (lit "QRSTU"); OpGet 0 7; OpAdd (lit "0123"); OpGet 5 6; OpFlush; OpReplace 0 (lit "!"); OpGet 0 11].
Example C06_example :
  arr_all_valid (lit "abcd") C06_ops /\
  fst (stream_run C06_ops (opened (lit "abcd") 5)) =
  Ok [ObsBytes (lit "bc"); ObsOffset 4; ObsBytes (lit "cdxy"); ObsUnit; ObsBytes (lit "abQRSTU");
      ObsOffset 7; ObsBytes (lit "TU0123"); ObsUnit; ObsUnit; ObsBytes (lit "!bQRSTU0123")].
Proof. split; [repeat split; vm_compute; congruence | vm_compute; reflexivity]. Qed.

(** C07 for nodes and positions: any int64 fields survive. *)
Theorem C07_node_round_trip : forall n, node_fits n -> node_unserialize (n_off n) (node_serialize n) = n.
Proof. exact node_roundtrip. Qed.
Print Assumptions C07_node_round_trip.
Example C07_node_example :
  let n := mkNode 77 (-1) 9223372036854775807 (-9223372036854775808) 0 255 256 (-256) in
  node_fits n /\ node_unserialize 77 (node_serialize n) = n.
Proof. split; [repeat split; vm_compute; congruence | vm_compute; reflexivity]. Qed.

Theorem C07_position_round_trip : forall l, plist_fits l -> plist_unserialize (p_off l) (plist_serialize l) = l.
Proof. exact plist_roundtrip. Qed.
Print Assumptions C07_position_round_trip.
Example C07_position_example :
  let l := mkPlist 5 (-3) 9223372036854775807 in
  plist_fits l /\ plist_unserialize 5 (plist_serialize l) = l.
Proof. split; [repeat split; vm_compute; congruence | vm_compute; reflexivity]. Qed.
