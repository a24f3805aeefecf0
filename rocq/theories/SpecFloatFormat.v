(** Numbers as they are shown. *)
From Coq Require Import List ZArith Bool.
From Coq Require Import Floats.SpecFloat.
From Verif Require Import Base SpecFloatText.
Import ListNotations.
Open Scope Z_scope.

(** [m] has at most [n] digits, without the zeros at its end. *)
Definition at_most_digits (n m : Z) : Prop := exists c j, 0 <= j /\ m = c * 10 ^ j /\ Z.abs c < 10 ^ n.

(** [m] * 10^[e] and [m'] * 10^[e'] are one number. *)
Definition same_number (m e m' e' : Z) : Prop := numer m e * denom e' = numer m' e' * denom e.

(** At least 2^-1022: the float64 has all its 53 bits. *)
Definition normal (f : spec_float) : Prop := 2 ^ 52 <= Z.abs (units f).
