(** A reader without buffer: the position is the only state. *)
From Coq Require Import List ZArith Bool.
From Coq Require Import Strings.Byte.
From Verif Require Import Base Bufio.
Import ListNotations.
Open Scope Z_scope.

(** [op_at file cap pos o out pos']: what the operation gives at the position
    [pos] of the file, and the position after it. *)
Inductive op_at (file : bytes) (cap : nat) : Z -> rop -> rout -> Z -> Prop :=
| at_byte pos b : nth_error file (Z.to_nat pos) = Some b -> op_at file cap pos OpByte (OutByte (Ok (Some b))) (pos + 1)
| at_byte_end pos : zlen file <= pos -> op_at file cap pos OpByte (OutByte (Ok None)) pos
| at_slice pos d l : slice file pos (zlen l + 1) = l ++ [d] -> ~ In d l -> (List.length l < cap)%nat ->
    op_at file cap pos (OpSlice d) (OutSlice (Ok (l ++ [d], Found))) (pos + zlen l + 1)
| at_slice_full pos d l : slice file pos (zlen l) = l -> ~ In d l -> List.length l = cap ->
    op_at file cap pos (OpSlice d) (OutSlice (Ok (l, BufferFull))) (pos + zlen l)
| at_slice_end pos d l : skipn (Z.to_nat pos) file = l -> ~ In d l -> (List.length l < cap)%nat ->
    op_at file cap pos (OpSlice d) (OutSlice (Ok (l, AtEof))) (pos + zlen l)
| at_offset pos : op_at file cap pos OpOffset (OutOffset pos) pos
| at_set pos p : 0 <= p -> op_at file cap pos (OpSet p) (OutSet (Ok tt)) p
| at_set_bad pos p : p < 0 -> op_at file cap pos (OpSet p) (OutSet (Err EIo)) pos.

Inductive ops_at (file : bytes) (cap : nat) : Z -> list rop -> list rout -> Z -> Prop :=
| ops_none pos : ops_at file cap pos [] [] pos
| ops_one pos o r p1 os rs p2 : op_at file cap pos o r p1 -> ops_at file cap p1 os rs p2 -> ops_at file cap pos (o :: os) (r :: rs) p2.
