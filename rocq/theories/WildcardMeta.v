(** pkg/index/wildcard/metadata.go: the header of a wildcard index file. *)
From Coq Require Import List ZArith Lia Bool String.
From Coq Require Import Strings.Byte.
From Verif Require Import Base Codec Stream Node Value.
Import ListNotations.
Open Scope Z_scope.

(** pkg/index/wildcard/metadata.go:13 *)
Definition CurrentVersion : Z := 1.
(** pkg/index/wildcard/metadata.go:16 *)
Definition ExpectedMagicBytes : bytes := lit "RODB/INDEX/WILDCARD".

(** pkg/index/wildcard/metadata.go:18-27; the modification time is kept as
    [Unix()] seconds, the only part of it the code ever uses. *)
Record metadata := mkMeta {
  md_magic : bytes;
  md_version : Z;
  md_mtime : Z;
  md_size : Z;
  md_ic : bool;
  md_completed : bool;
  md_roots : list Z;
}.

(** pkg/index/wildcard/metadata.go:29-33 *)
Record meta_input := mkMetaInput { mi_input : input; mi_ic : bool; mi_roots : Z }.

Definition bool_byte (b : bool) : byte := if b then Byte.x01 else Byte.x00.

(** pkg/index/wildcard/metadata.go:96-127 *)
Definition meta_serialize (m : metadata) : bytes :=
  md_magic m ++ put_u16 (md_version m) ++ put_u64 (md_mtime m) ++ put_u64 (md_size m) ++
  [bool_byte (md_ic m)] ++ [bool_byte (md_completed m)] ++
  put_u64 (zlen (md_roots m)) ++ flat_map put_u64 (md_roots m).

(** One [binary.Read] of [n] bytes: io.EOF or io.ErrUnexpectedEOF when there
    are fewer. *)
Definition read_bytes (n : nat) (d : bytes) : res (bytes * bytes) :=
  if (List.length d <? n)%nat then Err EEof else Ok (firstn n d, skipn n d).
(** [binary.Read] of a bool: any non-zero byte is true. *)
Definition bool_of (bs : bytes) : bool :=
  match bs with b :: _ => negb (beqb b Byte.x00) | [] => false end.

(** pkg/index/wildcard/metadata.go:160-164; [fuel] bounds the iterations by the
    bytes that are left, reading past them is the io error. *)
Fixpoint read_offsets (fuel : nat) (n : Z) (d : bytes) : res (list Z) :=
  if n <=? 0 then Ok []
  else match fuel with
  | O => Err EEof
  | S fuel' =>
    rlet (h, d1) := read_bytes 8 d in
    rlet r := read_offsets fuel' (n - 1) d1 in
    Ok (get_i64 h :: r)
  end.

(** pkg/index/wildcard/metadata.go:129-167.  [make([]TreeNodeOffset, n)] on
    line 159 panics when [n] is negative or [8*n] bytes exceed the address
    space.  (Simplification: an allocation that the address space allows
    succeeds.) *)
Definition meta_unserialize (d : bytes) : res metadata :=
  rlet (magic, d) := read_bytes 19 d in
  rlet (ver, d) := read_bytes 2 d in
  rlet (mtime, d) := read_bytes 8 d in
  rlet (size, d) := read_bytes 8 d in
  rlet (ic, d) := read_bytes 1 d in
  rlet (comp, d) := read_bytes 1 d in
  rlet (cnt, d) := read_bytes 8 d in
  let n := get_i64 cnt in
  if (n <? 0) || (max_alloc <? 8 * n) then Panic
  else
    rlet roots := read_offsets (List.length d) n d in
    Ok (mkMeta magic (get_be ver) (get_i64 mtime) (get_i64 size) (bool_of ic) (bool_of comp) roots).

(** pkg/index/wildcard/metadata.go:169-180 *)
Definition meta_save (m : metadata) : M unit := stream_replace 0 (meta_serialize m).

(** pkg/index/wildcard/metadata.go:35-63 *)
Definition new_metadata (mi : meta_input) : M metadata :=
  do size <- lift (in_size (mi_input mi));
  do mtime <- lift (in_mtime (mi_input mi));
  let m := mkMeta ExpectedMagicBytes CurrentVersion mtime size (mi_ic mi) false
                  (repeat 0 (Z.to_nat (mi_roots mi))) in
  do _ <- meta_save m;
  ret m.

(** pkg/index/wildcard/metadata.go:65-80 *)
Definition load_metadata : M metadata :=
  do d <- stream_reader_from 0;
  lift (meta_unserialize d).

(** pkg/index/wildcard/metadata.go:82-84 *)
Definition set_root (m : metadata) (i : nat) (n : node) : metadata :=
  mkMeta (md_magic m) (md_version m) (md_mtime m) (md_size m) (md_ic m) (md_completed m)
         (firstn i (md_roots m) ++ n_off n :: skipn (S i) (md_roots m)).
(** pkg/index/wildcard/metadata.go:88-90 *)
Definition set_completed (m : metadata) (b : bool) : metadata :=
  mkMeta (md_magic m) (md_version m) (md_mtime m) (md_size m) (md_ic m) b (md_roots m).

(** pkg/index/wildcard/metadata.go:184-221, in the order of the code. *)
Definition assert_valid (m : metadata) (mi : meta_input) : res unit :=
  if negb (md_version m =? CurrentVersion) then Err (EMsg "version")
  else if negb (bytes_eqb (md_magic m) ExpectedMagicBytes) then Err (EMsg "not a wildcard index")
  else
    rlet mtime := in_mtime (mi_input mi) in
    if negb (md_mtime m =? mtime) then Err (EMsg "input modified")
    else
      rlet size := in_size (mi_input mi) in
      if negb (md_size m =? size) then Err (EMsg "input size changed")
      else if negb (Bool.eqb (md_ic m) (mi_ic mi)) then Err (EMsg "ignoreCase")
      else if negb (md_completed m) then Err (EMsg "not completed")
      else if negb (zlen (md_roots m) =? mi_roots mi) then Err (EMsg "properties")
      else Ok tt.
