(** Big-endian integers, as in Go's encoding/binary. *)
From Coq Require Import List ZArith Lia Bool.
From Coq Require Import Strings.Byte.
From Verif Require Import Base.
Import ListNotations.
Open Scope Z_scope.

(** [byte(z)]: the low 8 bits. *)
Definition byte_of_Z (z : Z) : byte :=
  match Byte.of_N (Z.to_N (z mod 256)) with Some b => b | None => Byte.x00 end.

Definition Z_of_byte (b : byte) : Z := Z.of_N (Byte.to_N b).

(** [binary.BigEndian.PutUint64] for [n = 8], [PutUint16] for [n = 2]:
    the [n] low bytes of the two's complement representation of [z]
    (used in pkg/index/wildcard/{node,position,metadata}.go). *)
Fixpoint put_be (n : nat) (z : Z) : bytes :=
  match n with
  | O => []
  | S n' => byte_of_Z (z / 256 ^ Z.of_nat n') :: put_be n' z
  end.

(** [binary.BigEndian.Uint64]/[Uint16]: the unsigned value of the bytes. *)
Definition get_be (bs : bytes) : Z :=
  fold_left (fun acc b => acc * 256 + Z_of_byte b) bs 0.

(** [int64(u)] of an unsigned 64-bit value. *)
Definition to_i64 (u : Z) : Z := wrap64 u.

Definition put_u64 (z : Z) : bytes := put_be 8 z.
Definition get_i64 (bs : bytes) : Z := to_i64 (get_be bs).
Definition put_u16 (z : Z) : bytes := put_be 2 z.
