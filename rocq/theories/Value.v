(** Dynamic Go values ([interface{}]) that travel between inputs, parsers,
    indexes and outputs, and the record/input interfaces. *)
From Coq Require Import List ZArith Lia Bool String.
From Coq Require Import Strings.Byte.
From Coq Require Import Floats.SpecFloat.
From Verif Require Import Base.
Import ListNotations.
Open Scope Z_scope.

(** nil, bool, int64 (also int: json and Atoi results are converted), float64,
    string, []interface{}, map[string]interface{}.  float64 is the stdlib's
    [spec_float] (IEEE 754 data, including NaN, infinities, signed zero). *)
Inductive value :=
| VNil
| VBool (b : bool)
| VInt (z : Z)
| VFloat (f : spec_float)
| VString (s : bytes)
| VList (l : list value)
| VMap (m : list (bytes * value)).

Section value_ind.
  Variable P : value -> Prop.
  Hypothesis Hnil : P VNil.
  Hypothesis Hbool : forall b, P (VBool b).
  Hypothesis Hint : forall z, P (VInt z).
  Hypothesis Hfloat : forall f, P (VFloat f).
  Hypothesis Hstring : forall s, P (VString s).
  Hypothesis Hlist : forall l, Forall P l -> P (VList l).
  Hypothesis Hmap : forall m, Forall (fun kv => P (snd kv)) m -> P (VMap m).
  Fixpoint value_ind' (v : value) : P v :=
    match v with
    | VNil => Hnil
    | VBool b => Hbool b
    | VInt z => Hint z
    | VFloat f => Hfloat f
    | VString s => Hstring s
    | VList l => Hlist l
        ((fix go (l : list value) : Forall P l :=
            match l with [] => Forall_nil P | x :: r => Forall_cons x (value_ind' x) (go r) end) l)
    | VMap m => Hmap m
        ((fix go (m : list (bytes * value)) : Forall (fun kv => P (snd kv)) m :=
            match m with
            | [] => Forall_nil _
            | x :: r => Forall_cons x (value_ind' (snd x)) (go r)
            end) m)
    end.
End value_ind.

(** pkg/input/record/record.go:31-42: a record gives its position, one value by
    path, and all its values. *)
Record rec := mkRec {
  r_pos : Z;
  r_get : bytes -> res value;
  r_all : res (list (bytes * value));
}.

(** pkg/input/input.go (interface Input) as seen by indexes and outputs: size,
    modification time (Unix seconds), the outcome of a complete iteration (the
    results of the successive calls of the iterator up to the end), random
    access by position.  The name stands for the identity of the object. *)
Record input := mkInput {
  in_name : bytes;
  in_size : res Z;
  in_mtime : res Z;
  in_iter : list (res rec);
  in_get : Z -> res rec;
}.

(** Go's [a == b] on interface values of these types: [None] is the run-time
    panic "comparing uncomparable type". Different dynamic types are unequal;
    two slices (or two maps) are uncomparable; NaN differs from itself and
    0 = -0. *)
Definition go_eq (a b : value) : res bool :=
  match a, b with
  | VNil, VNil => Ok true
  | VBool x, VBool y => Ok (Bool.eqb x y)
  | VInt x, VInt y => Ok (x =? y)
  | VFloat x, VFloat y => Ok (SFeqb x y)
  | VString x, VString y => Ok (bytes_eqb x y)
  | VList _, VList _ => Panic
  | VMap _, VMap _ => Panic
  | _, _ => Ok false
  end.

(** pkg/input/record/record.go:8-15: an iterator, as the list of the results of
    its successive calls; exhausted iterators keep returning (nil, nil). *)
Definition iter := list (res Z).
