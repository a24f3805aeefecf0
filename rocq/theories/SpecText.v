(** Text-level specifications: occurrences, splitting, decimal numbers, UTF-8
    text as a sequence of code points. *)
From Coq Require Import List ZArith Bool.
From Coq Require Import Strings.Byte.
From Coq Require DecimalString.
From Verif Require Import Base Codec GoStrings.
Import ListNotations.
Open Scope Z_scope.

Definition occurs (p s : bytes) : Prop := exists a b, s = a ++ p ++ b.

(** [l] are the pieces of [s] between the leftmost non-overlapping occurrences
    of [sep]: a piece [a] followed by a separator ends at the first one. *)
Inductive pieces (sep : bytes) : bytes -> list bytes -> Prop :=
| pieces_last s : ~ occurs sep s -> pieces sep s [s]
| pieces_cut a s l : ~ occurs sep (a ++ removelast sep) -> pieces sep s l -> pieces sep (a ++ sep ++ s) (a :: l).

(** Value of a non-empty sequence of decimal digits. *)
Inductive decimal : bytes -> Z -> Prop :=
| dec_one d : 48 <= Z_of_byte d <= 57 -> decimal [d] (Z_of_byte d - 48)
| dec_snoc ds z d : decimal ds z -> 48 <= Z_of_byte d <= 57 -> decimal (ds ++ [d]) (10 * z + (Z_of_byte d - 48)).

(** Decimal numbers with an optional sign. *)
Inductive signed_decimal : bytes -> Z -> Prop :=
| sd_none ds z : decimal ds z -> signed_decimal ds z
| sd_plus ds z : decimal ds z -> signed_decimal (x2b :: ds) z
| sd_minus ds z : decimal ds z -> signed_decimal (x2d :: ds) (- z).

(** Unicode scalar values, and the text made of a list of them. *)
Definition scalar (r : Z) : Prop := 0 <= r <= 55295 \/ 57344 <= r <= 1114111.
Definition text (rs : list Z) : bytes := flat_map encode_rune rs.

(** The decimal notation of an integer, by the standard library. *)
Definition dec_text (z : Z) : bytes := lit (DecimalString.NilZero.string_of_int (Z.to_int z)).
