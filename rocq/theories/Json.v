(** encoding/json (Go 1.16), as used by the outputs: Encoder.Encode and
    Marshal on maps, slices and primitive values. *)
From Coq Require Import List ZArith Lia Bool String.
From Coq Require Import Strings.Byte Floats.SpecFloat.
From Coq Require DecimalString.
From Verif Require Import Base Codec Value GoStrings Parser.
Import ListNotations.
Open Scope Z_scope.

(** encoding/json/encode.go: [const hex = "0123456789abcdef"] *)
Definition hex_digit (z : Z) : byte := byte_of_Z (if z <? 10 then 48 + z else 87 + z).

(** htmlSafeSet *)
Definition html_safe (b : byte) : bool :=
  let z := Z_of_byte b in
  (32 <=? z) && (z <? 128) && negb (existsb (Z.eqb z) [34; 92; 60; 62; 38]).

(** encodeState.string with escapeHTML, one ASCII byte. *)
Definition escape_byte (b : byte) : bytes :=
  match b with
  | x22 | x5c => [x5c; b]
  | x0a => [x5c; x6e]
  | x0d => [x5c; x72]
  | x09 => [x5c; x74]
  | _ => [x5c; x75; x30; x30; hex_digit (Z_of_byte b / 16); hex_digit (Z_of_byte b mod 16)]
  end.

(** encodeState.string: the characters between the quotes.  [skip]: bytes of
    the current rune that remain, to be copied or (already escaped) dropped. *)
Fixpoint json_chars (s : bytes) (skip : nat) (keep : bool) : bytes :=
  match s with
  | [] => []
  | b :: s' =>
    match skip with
    | S k => (if keep then [b] else []) ++ json_chars s' k keep
    | O =>
      if Z_of_byte b <? 128 then (if html_safe b then [b] else escape_byte b) ++ json_chars s' 0 true
      else
        let '(r, w) := decode_rune s in
        if (r =? rune_error) && Nat.eqb w 1 then [x5c; x75; x66; x66; x66; x64] ++ json_chars s' 0 true
        else if (r =? 8232) || (r =? 8233) then
          [x5c; x75; x32; x30; x32; hex_digit (r mod 16)] ++ json_chars s' (pred w) false
        else b :: json_chars s' (pred w) true
    end
  end.
Definition json_string (s : bytes) : bytes := [x22] ++ json_chars s 0 true ++ [x22].

(** strconv.AppendInt, base 10 *)
Definition itoa (z : Z) : bytes := lit (DecimalString.NilZero.string_of_int (Z.to_int z)).

(** mapEncoder.encode: [sort.Slice] of the keys, which are distinct, so that
    the algorithm does not matter. *)
Fixpoint insert_key {A} (k : bytes) (v : A) (l : list (bytes * A)) : list (bytes * A) :=
  match l with
  | [] => [(k, v)]
  | (k', v') :: l' => if bytes_ltb k k' then (k, v) :: l else (k', v') :: insert_key k v l'
  end.
Fixpoint sort_keys {A} (l : list (bytes * A)) : list (bytes * A) :=
  match l with
  | [] => []
  | (k, v) :: l' => insert_key k v (sort_keys l')
  end.

Definition json_member (kv : bytes * bytes) : bytes := json_string (fst kv) ++ [x3a] ++ snd kv.

Section Encode.
(** floatEncoder on a number: strconv.AppendFloat with 'f' or 'e' format. *)
Variable fmt_float : spec_float -> bytes.

Fixpoint json_encode (v : value) : res bytes :=
  match v with
  | VNil => Ok (lit "null")
  | VBool b => Ok (lit (if b then "true" else "false"))
  | VInt z => Ok (itoa z)
  | VFloat f =>
    match f with
    | S754_nan | S754_infinity _ => Err (EMsg "json: unsupported value")
    | _ => Ok (fmt_float f)
    end
  | VString s => Ok (json_string s)
  | VList l =>
    rlet items := rmapM (fun x => x) (map json_encode l) in
    Ok ([x5b] ++ join_strings [x2c] items ++ [x5d])
  | VMap m =>
    rlet items := rmapM (fun x => x) (map (fun kv : bytes * value => rlet t := json_encode (snd kv) in Ok (fst kv, t)) m) in
    Ok ([x7b] ++ join_strings [x2c] (map json_member (sort_keys items)) ++ [x7d])
  end.
End Encode.
