(** The text of a float64 in JSON: floatEncoder.encode of encoding/json (encode.go), called for the
    response bodies by pkg/output/json_array.go:135 and json_object.go:118, and strconv.AppendFloat(f, fmt, -1, 64) (ftoa.go)
    of Go 1.16, from memory of their sources.
    Simplified: the shortest digits are found as by roundShortest; Go tries first a faster
    algorithm, which is meant to give the same digits.  roundShortest compares texts of digits of three
    decimals, here numbers are compared; its test for numbers which are short already is left out. *)
From Coq Require Import List ZArith Lia Bool String.
From Coq Require Import Strings.Byte Floats.SpecFloat.
From Verif Require Import Base Codec GoStrings Json.
Import ListNotations.
Open Scope Z_scope.

(** *** roundShortest, for the number [m] * 2^[k] in units of 2^-1074 *)
Section Shortest.
Variables m k : Z.
(** Half way to the next float64, and to the one before, in units of 2^-1076. *)
Definition upper : Z := (4 * m + 2) * 2 ^ k.
Definition lower : Z := if (2 ^ 52 <? m) || (k =? 0) then (4 * m - 2) * 2 ^ k else (4 * m - 1) * 2 ^ k.
(** The bounds are read as this number themselves. *)
Definition inclusive : bool := Z.even m.

(** The digits of the number up to the one of 10^[p], and the remainder. *)
Definition unit_of (p : Z) : Z := 2 ^ 1074 * 10 ^ Z.max 0 p.
Definition scale_of (p : Z) : Z := 10 ^ Z.max 0 (- p).
Definition head_digits (p : Z) : Z := (m * 2 ^ k * scale_of p) / unit_of p.
Definition tail_digits (p : Z) : Z := (m * 2 ^ k * scale_of p) mod unit_of p.

(** Whether [d] * 10^[p] is above the lower bound, below the upper one. *)
Definition ok_down (p d : Z) : bool :=
  (lower * scale_of p <? 4 * (d * unit_of p)) || (inclusive && (lower * scale_of p =? 4 * (d * unit_of p))).
Definition ok_up (p d : Z) : bool :=
  (4 * (d * unit_of p) <? upper * scale_of p) || (inclusive && (4 * (d * unit_of p) =? upper * scale_of p)).

(** decimal.Round: to nearest, half way to even *)
Definition round_digits (p : Z) : Z :=
  let d := head_digits p in
  let r := tail_digits p in
  if (unit_of p <? 2 * r) || ((unit_of p =? 2 * r) && Z.odd d) then d + 1 else d.

(** The loop, from the digit of 10^[p] on: the digits and the power of ten of the last one. *)
Fixpoint round_shortest (fuel : nat) (p : Z) : option (Z * Z) :=
  match fuel with
  | O => None
  | S fuel' =>
    let d := head_digits p in
    match ok_down p d, ok_up p (d + 1) with
    | true, true => Some (round_digits p, p)
    | true, false => Some (d, p)
    | false, true => Some (d + 1, p)
    | false, false => round_shortest fuel' (p - 1)
    end
  end.
(** roundShortest starts with the first digit of the upper bound; here with a digit at or before it:
    the bound is less than 2^[x]. *)
Definition first_digit : Z :=
  let x := Z.log2 (m * 2 ^ k) - 1072 in
  if 0 <=? x then x / 3 + 1 else - (3 * (- x / 10)).
Definition shortest : option (Z * Z) := round_shortest 1450 first_digit.
End Shortest.

(** *** %e and %f, for the digits [ds] with the decimal point after [dp] of them *)
Definition sign_text (neg : bool) : bytes := if neg then [x2d] else [].
Definition digit_byte (z : Z) : byte := byte_of_Z (48 + z).
(** fmtE with prec = nd - 1 *)
Definition fmt_e (neg : bool) (ds : bytes) (dp : Z) : bytes :=
  let e := match ds with [] => 0 | _ => dp - 1 end in
  let a := Z.abs e in
  sign_text neg ++ (match ds with [] => [x30] | c :: _ => [c] end)
  ++ (match ds with _ :: (_ :: _) as r => x2e :: r | _ => [] end)
  ++ [x65] ++ (if e <? 0 then [x2d] else [x2b])
  ++ (if a <? 10 then [x30; digit_byte a]
      else if a <? 100 then [digit_byte (a / 10); digit_byte (a mod 10)]
      else [digit_byte (a / 100); digit_byte (a / 10 mod 10); digit_byte (a mod 10)]).
(** fmtF with prec = max(nd - dp, 0) *)
Definition fmt_f (neg : bool) (ds : bytes) (dp : Z) : bytes :=
  let nd := zlen ds in
  let prec := Z.max (nd - dp) 0 in
  sign_text neg
  ++ (if 0 <? dp then firstn (Z.to_nat dp) ds ++ repeat x30 (Z.to_nat (dp - nd)) else [x30])
  ++ (if 0 <? prec then
        x2e :: map (fun i => let j := dp + Z.of_nat i in if (0 <=? j) && (j <? nd) then nth (Z.to_nat j) ds x30 else x30) (seq 0 (Z.to_nat prec))
      else []).

(** *** floatEncoder.encode *)
(** e-09 becomes e-9 *)
Definition clean_exponent (b : bytes) : bytes :=
  match rev b with
  | d :: x30 :: x2d :: x65 :: r => rev r ++ [x65; x2d; d]
  | _ => b
  end.
(** abs < 1e-6 || abs >= 1e21, for the float64 1e-6 (see C63_example) and 1e21 *)
Definition large_or_small (v : Z) : bool := (v <? 4722366482869645 * 2 ^ 1002) || (10 ^ 21 * 2 ^ 1074 <=? v).
(** NaN and infinities are refused before; the two last cases are not reached (see C63_read_back). *)
Definition json_float (f : spec_float) : bytes :=
  match f with
  | S754_finite neg m e =>
    if valid_binary 53 1024 f then
      let k := e + 1074 in
      match shortest (Zpos m) k with
      | Some (d, p) =>
        let ds := itoa d in
        let dp := zlen ds + p in
        if large_or_small (Zpos m * 2 ^ k) then clean_exponent (fmt_e neg ds dp) else fmt_f neg ds dp
      | None => [x30]
      end
    else [x30]
  | S754_zero neg => fmt_f neg [] 0
  | _ => [x30]
  end.
