(** Decimal numbers and the float64 nearest to them. *)
From Coq Require Import List ZArith Bool String.
From Coq Require Import Strings.Byte Floats.SpecFloat.
From Verif Require Import Base Codec SpecText.
Import ListNotations.
Open Scope Z_scope.

(** An exponent: e or E, an optional sign, digits. *)
Inductive exponent : bytes -> Z -> Prop :=
| ex_none : exponent [] 0
| ex_some c sg ds z : In c (lit "eE") -> In sg [[]; lit "+"; lit "-"] -> decimal ds z -> exponent (c :: sg ++ ds) (if bytes_eqb sg (lit "-") then - z else z).

(** A decimal number: whether it has a "-", and [m], [f] and [e] such that it is [m] * 10^([e] - [f]):
    its digits, how many of them follow the decimal point, the exponent. *)
Inductive literal : bytes -> bool -> Z -> Z -> Z -> Prop :=
| literal_whole sg ds m x e : In sg [[]; lit "+"; lit "-"] -> decimal ds m -> exponent x e -> literal (sg ++ ds ++ x) (bytes_eqb sg (lit "-")) m 0 e
| literal_dot sg ds fs m x e : In sg [[]; lit "+"; lit "-"] -> decimal (ds ++ fs) m -> exponent x e ->
    literal (sg ++ ds ++ lit "." ++ fs ++ x) (bytes_eqb sg (lit "-")) m (zlen fs) e.

(** The finite float64 of the standard library's specification of IEEE 754. *)
Definition float64 (f : spec_float) : Prop := valid_binary 53 1024 f = true /\ match f with S754_zero _ | S754_finite _ _ _ => True | _ => False end.

(** Their values, in units of 2^-1074. *)
Definition units (f : spec_float) : Z :=
  match f with S754_finite s m e => (if s then -1 else 1) * Zpos m * 2 ^ (e + 1074) | _ => 0 end.
Definition sign (f : spec_float) : bool := match f with S754_zero s | S754_finite s _ _ => s | _ => false end.
Definition even_mantissa (f : spec_float) : Prop := match f with S754_finite _ m _ => Z.even (Zpos m) = true | _ => True end.

(** How far [g] is from [n]/[d], in units of 2^-1074 / [d]. *)
Definition distance (n d : Z) (g : spec_float) : Z := Z.abs (n * 2 ^ 1074 - d * units g).

(** [f] is a float64 nearest to [n]/[d], and of two of them the one with an even mantissa. *)
Definition nearest_to (n d : Z) (f : spec_float) : Prop :=
  float64 f /\
  (forall g, float64 g -> distance n d f <= distance n d g) /\
  (forall g, float64 g -> distance n d g = distance n d f -> units g <> units f -> even_mantissa f).

(** [n]/[d] is too large: at least half way from the largest float64 to 2^1024. *)
Definition too_large (n d : Z) : Prop := d * (2 ^ 54 - 1) * 2 ^ 970 <= Z.abs n.

(** The number [m] * 10^[e] is [numer m e] / [denom e]. *)
Definition numer (m e : Z) : Z := m * 10 ^ Z.max 0 e.
Definition denom (e : Z) : Z := 10 ^ Z.max 0 (- e).
Definition signed (neg : bool) (n : Z) : Z := if neg then - n else n.

(** Go stops to read the digits of an exponent at 10000.  This changes nothing for exponents of
    at most five digits, nor in texts of at most 9000 bytes, where all the others are out of range. *)
Definition exponent_kept (t : bytes) (e : Z) : Prop := Z.abs e < 100000 \/ zlen t <= 9000.

(** What reading it gives. *)
Definition rounded (neg : bool) (m e : Z) (out_of_range : err) (r : res spec_float) : Prop :=
  (too_large (numer m e) (denom e) /\ r = Err out_of_range) \/
  (~ too_large (numer m e) (denom e) /\ exists f, r = Ok f /\ sign f = neg /\ nearest_to (signed neg (numer m e)) (denom e) f).

(** A text without the ignored characters [cs], with a dot for the separator [sc]. *)
Definition written (sc : Z) (cs rs : list Z) : bytes :=
  text (map (fun r => if r =? sc then 46 else r) (filter (fun r => negb (existsb (Z.eqb r) cs)) rs)).
