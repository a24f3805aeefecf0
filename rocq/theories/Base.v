(** Shared conventions: bytes, Go results, Z-indexed slices.
    Model-wide vocabulary; it has no counterpart in /repo except where cited. *)
From Coq Require Import List ZArith Lia Bool String.
From Coq Require Import Strings.Byte.
Import ListNotations.
Open Scope Z_scope.

(** A Go [[]byte] or [string]: a finite byte sequence. *)
Definition bytes := list byte.

(** Byte sequence of a literal. *)
Definition lit (s : string) : bytes := list_byte_of_string s.

Definition beqb (a b : byte) : bool := Byte.eqb a b.

Fixpoint bytes_eqb (a b : bytes) : bool :=
  match a, b with
  | [], [] => true
  | x :: a', y :: b' => beqb x y && bytes_eqb a' b'
  | _, _ => false
  end.

(** Go errors, only as precise as the callers distinguish them:
    [RecordNotFoundError] (pkg/input/record/record.go:29) is recognised by
    pkg/service/http.go:240; every other error is only a message, of which we
    keep a small tag for readability. *)
Inductive err :=
| ENotFound                 (* record.RecordNotFoundError *)
| EEof                      (* io.EOF / io.ErrUnexpectedEOF *)
| EIo                       (* any operating system error *)
| EMsg (tag : string).      (* errors.New / fmt.Errorf *)

(** Outcome of a Go call.  [Panic] is a run-time panic, [NoFuel] is the
    explicit "did not finish within the given number of iterations" value. *)
Inductive res (A : Type) :=
| Ok (a : A)
| Err (e : err)
| Panic
| NoFuel.
Arguments Ok {A} a.
Arguments Err {A} e.
Arguments Panic {A}.
Arguments NoFuel {A}.

Definition rbind {A B} (x : res A) (f : A -> res B) : res B :=
  match x with
  | Ok a => f a
  | Err e => Err e
  | Panic => Panic
  | NoFuel => NoFuel
  end.
Notation "'rlet' x ':=' e1 'in' e2" := (rbind e1 (fun x => e2))
  (at level 200, x pattern, e1 at level 200, e2 at level 200).

Definition rmap {A B} (f : A -> B) (x : res A) : res B := rlet a := x in Ok (f a).

(** [for ... { v, err := f(x); if err != nil { return err }; append }] *)
Fixpoint rmapM {A B} (f : A -> res B) (l : list A) : res (list B) :=
  match l with
  | [] => Ok []
  | x :: l' => rlet y := f x in rlet ys := rmapM f l' in Ok (y :: ys)
  end.

(** [len] *)
Definition zlen {A} (l : list A) : Z := Z.of_nat (List.length l).

(** [l[off : off+n]] for in-range arguments. *)
Definition slice {A} (l : list A) (off n : Z) : list A :=
  firstn (Z.to_nat n) (skipn (Z.to_nat off) l).

(** [copy(l[off:], bs)], growing the slice when [bs] reaches past the end
    ([off <= len l] assumed). *)
Definition overwrite {A} (l : list A) (off : Z) (bs : list A) : list A :=
  firstn (Z.to_nat off) l ++ bs ++ skipn (Z.to_nat off + List.length bs) l.

(** 64-bit two's complement wrap-around of Go's [int64]/[int] arithmetic. *)
Definition two63 : Z := 9223372036854775808.
Definition two64 : Z := 18446744073709551616.
Definition wrap64 (z : Z) : Z := (z + two63) mod two64 - two63.
Definition in_i64 (z : Z) : Prop := - two63 <= z < two63.

(** Go maps: association lists; the first binding of a key is the one that
    counts, [mset] replaces. *)
Fixpoint mget {V} (m : list (bytes * V)) (k : bytes) : option V :=
  match m with
  | [] => None
  | (k', v) :: m' => if bytes_eqb k' k then Some v else mget m' k
  end.

Fixpoint mset {V} (m : list (bytes * V)) (k : bytes) (v : V) : list (bytes * V) :=
  match m with
  | [] => [(k, v)]
  | (k', v') :: m' => if bytes_eqb k' k then (k', v) :: m' else (k', v') :: mset m' k v
  end.

Definition is_ok {A} (r : res A) : bool := match r with Ok _ => true | _ => false end.
