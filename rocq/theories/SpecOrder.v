(** Order of parsed values and of records, independently of the comparison
    functions. *)
From Coq Require Import List ZArith Bool Sorted Permutation.
From Coq Require Import Strings.Byte Floats.SpecFloat.
From Verif Require Import Base Codec Value SpecIndex Sort.
Import ListNotations.
Open Scope Z_scope.

(** Lexicographic order of byte strings. *)
Inductive lex : bytes -> bytes -> Prop :=
| lex_nil y b : lex [] (y :: b)
| lex_here x y a b : Z_of_byte x < Z_of_byte y -> lex (x :: a) (y :: b)
| lex_next x a b : lex a b -> lex (x :: a) (x :: b).

(** A finite float is [fst * 2 ^ snd]. *)
Definition float_num (f : spec_float) : option (Z * Z) :=
  match f with
  | S754_zero _ => Some (0, 0)
  | S754_finite s m e => Some (if s then - Zpos m else Zpos m, e)
  | _ => None
  end.

(** Order of the real numbers, completed by the infinities. *)
Inductive float_before : spec_float -> spec_float -> Prop :=
| fb_num x y a e b e' : float_num x = Some (a, e) -> float_num y = Some (b, e') ->
    a * 2 ^ (e - Z.min e e') < b * 2 ^ (e' - Z.min e e') -> float_before x y
| fb_minus y : y <> S754_nan -> y <> S754_infinity true -> float_before (S754_infinity true) y
| fb_plus x : x <> S754_nan -> x <> S754_infinity false -> float_before x (S754_infinity false).

(** Strict order of two values of the same primitive type. *)
Inductive before : value -> value -> Prop :=
| bf_int x y : x < y -> before (VInt x) (VInt y)
| bf_bool : before (VBool false) (VBool true)
| bf_string x y : lex x y -> before (VString x) (VString y)
| bf_float x y : float_before x y -> before (VFloat x) (VFloat y).

Inductive vtype := TBool | TInt | TFloat | TString.

(** Values of a type; a float64 must be a number, in the normal form of the
    binary64 format. *)
Definition has_type (t : vtype) (v : value) : Prop :=
  match t, v with
  | TBool, VBool _ | TInt, VInt _ | TString, VString _ => True
  | TFloat, VFloat f => f <> S754_nan /\ valid_binary 53 1024 f = true
  | _, _ => False
  end.

(** [a] comes before [b]: decided by the first criterion on which they
    differ. *)
Inductive precedes : list sort_criterion -> rec -> rec -> Prop :=
| prec_here p (asc : bool) cs a b va vb : r_get a p = Ok va -> r_get b p = Ok vb ->
    (if asc then before va vb else before vb va) -> precedes ((p, asc) :: cs) a b
| prec_next p asc cs a b va vb : r_get a p = Ok va -> r_get b p = Ok vb -> same_value va vb ->
    precedes cs a b -> precedes ((p, asc) :: cs) a b.

(** Every criterion finds values of one type in all the records. *)
Definition sortable (cs : list sort_criterion) (l : list rec) : Prop :=
  Forall (fun c => exists t, Forall (fun r => exists v, r_get r (fst c) = Ok v /\ has_type t v) l) cs.

(** The documented contract of a sorting algorithm (Go: package sort): for a
    strict weak order on the elements, the result is a sorted permutation. *)
Definition strict_weak {A} (l : list A) (lt : A -> A -> bool) : Prop :=
  (forall a b, In a l -> In b l -> lt a b = true -> lt b a = false) /\
  (forall a b c, In a l -> In b l -> In c l -> lt b a = false -> lt c b = false -> lt c a = false).
Definition sorts {A} (alg : (A -> A -> bool) -> list A -> list A) : Prop :=
  forall lt l, strict_weak l lt -> Permutation l (alg lt l) /\ StronglySorted (fun a b => lt b a = false) (alg lt l).
