(** Specification of the index storage: a plain growing byte array
    (independent of Stream.v except for the result type). *)
From Coq Require Import List ZArith Lia Bool String.
From Coq Require Import Strings.Byte.
From Verif Require Import Base.
Import ListNotations.
Open Scope Z_scope.

Inductive sop :=
| OpAdd (bs : bytes)             (* append, observes the offset *)
| OpReplace (off : Z) (bs : bytes)
| OpFlush
| OpGet (off n : Z).             (* observes the bytes *)

Inductive sobs := ObsUnit | ObsOffset (z : Z) | ObsBytes (bs : bytes).

(** The array after [bs] was stored at [off] (growing it at the end). *)
Definition arr_store (a : bytes) (off : Z) (bs : bytes) : bytes :=
  firstn (Z.to_nat off) a ++ bs ++ skipn (Z.to_nat (off + zlen bs)) a.

Definition arr_step (a : bytes) (o : sop) : bytes * sobs :=
  match o with
  | OpAdd bs => (a ++ bs, ObsOffset (zlen a))
  | OpReplace off bs => (arr_store a off bs, ObsUnit)
  | OpFlush => (a, ObsUnit)
  | OpGet off n => (a, ObsBytes (firstn (Z.to_nat n) (skipn (Z.to_nat off) a)))
  end.

(** Operations the code performs: in-range accesses. *)
Definition arr_valid (a : bytes) (o : sop) : Prop :=
  match o with
  | OpAdd _ | OpFlush => True
  | OpReplace off _ => 0 <= off <= zlen a
  | OpGet off n => 0 <= off /\ 0 <= n /\ off + n <= zlen a
  end.

Fixpoint arr_run (a : bytes) (os : list sop) : bytes * list sobs :=
  match os with
  | [] => (a, [])
  | o :: os' => let '(a1, b) := arr_step a o in let '(a2, bs) := arr_run a1 os' in (a2, b :: bs)
  end.

(** Every operation is in range and the array stays below 2^48 bytes. *)
Fixpoint arr_all_valid (a : bytes) (os : list sop) : Prop :=
  match os with
  | [] => True
  | o :: os' => arr_valid a o /\ zlen (fst (arr_step a o)) < 281474976710656 /\ arr_all_valid (fst (arr_step a o)) os'
  end.
