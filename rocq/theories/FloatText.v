(** strconv.ParseFloat(s, 64) of Go 1.16, called by pkg/parser/float.go:46 and by encoding/json.
    Its syntax (special, readFloat, underscoreOK) is modelled function by function from memory;
    the conversion, which in Go has three algorithms, is the rounding to nearest, ties to even, that
    its documentation promises.
    Simplified: readFloat keeps 19 digits and a flag, here the mantissa is exact. *)
From Coq Require Import List ZArith Lia Bool String.
From Coq Require Import Strings.Byte Floats.SpecFloat.
From Verif Require Import Base Codec GoStrings.
Import ListNotations.
Open Scope Z_scope.

(** c | ('x' - 'X') *)
Definition lower (c : byte) : Z := Z.lor (Z_of_byte c) 32.

Definition range_error : err := EMsg "value out of range".
Definition syntax_error : err := EMsg "invalid syntax".

(** The float64 nearest to n/d, for 0 <= n and 0 < d.  All finite float64 are multiples
    of 2^-1074: [q] is n/d in this unit, the result is [m] times 2^[k] of them. *)
Definition nearest (neg : bool) (n d : Z) : res spec_float :=
  let num := n * 2 ^ 1074 in
  let q := num / d in
  let k := Z.max 0 (Z.log2 q - 52) in
  let u := d * 2 ^ k in
  let m := num / u in
  let r := num mod u in
  let m1 := if (u <? 2 * r) || ((u =? 2 * r) && Z.odd m) then m + 1 else m in
  let '(m2, k2) := if m1 =? 2 ^ 53 then (2 ^ 52, k + 1) else (m1, k) in
  if 2045 <? k2 then Err range_error
  else match m2 with
       | Zpos p => Ok (S754_finite neg p (k2 - 1074))
       | _ => Ok (S754_zero neg)
       end.

(** strconv.special: the whole text, as ParseFloat wants it. *)
Definition same_letters (s : bytes) (name : string) : bool :=
  (List.length s =? List.length (lit name))%nat && forallb (fun ab => (Z_of_byte (fst ab) =? Z_of_byte (snd ab)) || ((65 <=? Z_of_byte (fst ab)) && (Z_of_byte (fst ab) <=? 90) && (Z_of_byte (fst ab) + 32 =? Z_of_byte (snd ab)))) (combine s (lit name)).
Definition infinity (s : bytes) : bool := same_letters s "inf" || same_letters s "infinity".
Definition special_float (s : bytes) : option spec_float :=
  match s with
  | x2d :: r => if infinity r then Some (S754_infinity true) else None
  | x2b :: r => if infinity r then Some (S754_infinity false) else None
  | _ => if infinity s then Some (S754_infinity false) else if same_letters s "nan" then Some S754_nan else None
  end.

(** The first loop of readFloat: whether a dot and a digit were seen, the value of the digits, how many
    of them follow the dot, whether an underscore was seen. *)
Record mantissa := mkMant { mt_dot : bool; mt_digits : bool; mt_value : Z; mt_frac : Z; mt_under : bool }.
Definition add_digit (base d : Z) (a : mantissa) : mantissa :=
  mkMant (mt_dot a) true (mt_value a * base + d) (if mt_dot a then mt_frac a + 1 else mt_frac a) (mt_under a).
Fixpoint read_mantissa (hex : bool) (s : bytes) (a : mantissa) : mantissa * bytes :=
  match s with
  | [] => (a, [])
  | c :: s' =>
    if beqb c "_" then read_mantissa hex s' (mkMant (mt_dot a) (mt_digits a) (mt_value a) (mt_frac a) true)
    else if beqb c "." then
      if mt_dot a then (a, s) else read_mantissa hex s' (mkMant true (mt_digits a) (mt_value a) (mt_frac a) (mt_under a))
    else if is_digit c then read_mantissa hex s' (add_digit (if hex then 16 else 10) (digit_val c) a)
    else if hex && (97 <=? lower c) && (lower c <=? 102) then read_mantissa hex s' (add_digit 16 (lower c - 87) a)
    else (a, s)
  end.

(** The loop over the digits of the exponent; it stops to grow at 10000. *)
Fixpoint read_digits (s : bytes) (e : Z) (under : bool) : Z * bool * bytes :=
  match s with
  | [] => (e, under, [])
  | c :: s' =>
    if beqb c "_" then read_digits s' e true
    else if is_digit c then read_digits s' (if e <? 10000 then e * 10 + digit_val c else e) under
    else (e, under, s)
  end.

(** The exponent: [None] when it is malformed. *)
Definition read_exponent (hex : bool) (s : bytes) : option (Z * bool * bytes) :=
  match s with
  | c :: r =>
    if lower c =? (if hex then 112 else 101) then
      let '(neg, ds) := match r with x2b :: ds => (false, ds) | x2d :: ds => (true, ds) | _ => (false, r) end in
      match ds with
      | d :: _ => if is_digit d then let '(e, u, rest) := read_digits ds 0 false in Some (if neg then - e else e, u, rest) else None
      | [] => None
      end
    else if hex then None else Some (0, false, s)
  | [] => if hex then None else Some (0, false, [])
  end.

(** strconv.underscoreOK after the sign and the base prefix; [saw]: a digit, an underscore, something else. *)
Inductive seen := SDigit | SUnder | SOther.
Fixpoint underscores_in (hex : bool) (s : bytes) (saw : seen) : bool :=
  match s with
  | [] => match saw with SUnder => false | _ => true end
  | c :: s' =>
    if is_digit c || (hex && (97 <=? lower c) && (lower c <=? 102)) then underscores_in hex s' SDigit
    else if beqb c "_" then match saw with SDigit => underscores_in hex s' SUnder | _ => false end
    else match saw with SUnder => false | _ => underscores_in hex s' SOther end
  end.
Definition unsigned (s : bytes) : bytes := match s with x2d :: r | x2b :: r => r | _ => s end.
Definition underscores_ok (s : bytes) : bool :=
  match unsigned s with
  | x30 :: c :: r =>
    if (lower c =? 98) || (lower c =? 111) || (lower c =? 120) then underscores_in (lower c =? 120) r SDigit
    else underscores_in false (unsigned s) SOther
  | r => underscores_in false r SOther
  end.

(** The value m * base^exp, rounded. *)
Definition scaled (neg : bool) (m base e : Z) : res spec_float :=
  nearest neg (m * base ^ Z.max 0 e) (base ^ Z.max 0 (- e)).

(** strconv.ParseFloat(s, 64) *)
Definition go_parse_float (s : bytes) : res spec_float :=
  match special_float s with
  | Some f => Ok f
  | None =>
    let neg := match s with x2d :: _ => true | _ => false end in
    let s1 := unsigned s in
    let '(hex, s2) := match s1 with x30 :: c :: r => match r with _ :: _ => if lower c =? 120 then (true, r) else (false, s1) | [] => (false, s1) end | _ => (false, s1) end in
    let '(a, s3) := read_mantissa hex s2 (mkMant false false 0 0 false) in
    if negb (mt_digits a) then Err syntax_error
    else match read_exponent hex s3 with
         | Some (e, u, []) =>
           if (mt_under a || u) && negb (underscores_ok s) then Err syntax_error
           else if hex then scaled neg (mt_value a) 2 (e - 4 * mt_frac a) else scaled neg (mt_value a) 10 (e - mt_frac a)
         | _ => Err syntax_error
         end
  end.
