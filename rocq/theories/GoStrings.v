(** The functions of Go's strings, strconv and unicode/utf8 packages used by
    the modelled code (Go 1.16, go.mod:3). *)
From Coq Require Import List ZArith Lia Bool String.
From Coq Require Import Strings.Byte.
From Verif Require Import Base Codec.
Import ListNotations.
Open Scope Z_scope.

(** strings.HasPrefix(s, p) *)
Fixpoint has_prefix (p s : bytes) : bool :=
  match p, s with
  | [], _ => true
  | _, [] => false
  | x :: p', y :: s' => beqb x y && has_prefix p' s'
  end.

(** strings.Contains(s, p) *)
Fixpoint contains (p s : bytes) : bool :=
  has_prefix p s || match s with [] => false | _ :: s' => contains p s' end.

(** strings.Split(s, sep) for a non-empty [sep]: leftmost, non-overlapping.
    [cur] is the current piece, reversed; [skip] the number of bytes of the
    separator that remain to be skipped. *)
Fixpoint split_go (sep s : bytes) (skip : nat) (cur : bytes) : list bytes :=
  match s with
  | [] => [rev cur]
  | x :: s' =>
    match skip with
    | S k => split_go sep s' k cur
    | O => if has_prefix sep s then rev cur :: split_go sep s' (pred (List.length sep)) []
           else split_go sep s' O (x :: cur)
    end
  end.

(** strings.Join *)
Fixpoint join_strings (sep : bytes) (l : list bytes) : bytes :=
  match l with
  | [] => []
  | [x] => x
  | x :: l' => x ++ sep ++ join_strings sep l'
  end.

(** utf8.RuneError *)
Definition rune_error : Z := 65533.

Definition cont_byte (b : byte) : bool := (128 <=? Z_of_byte b) && (Z_of_byte b <=? 191).
Definition in_range (lo hi : Z) (b : byte) : bool := (lo <=? Z_of_byte b) && (Z_of_byte b <=? hi).

(** utf8.DecodeRuneInString on a non-empty string: rune and width.  An invalid
    sequence gives RuneError with width 1. *)
Definition decode_rune (s : bytes) : Z * nat :=
  match s with
  | [] => (rune_error, 0%nat)
  | b0 :: s1 =>
    let c0 := Z_of_byte b0 in
    if c0 <? 128 then (c0, 1%nat)
    else if c0 <? 194 then (rune_error, 1%nat)
    else if c0 <? 224 then
      match s1 with
      | b1 :: _ => if cont_byte b1 then ((c0 - 192) * 64 + (Z_of_byte b1 - 128), 2%nat) else (rune_error, 1%nat)
      | _ => (rune_error, 1%nat)
      end
    else if c0 <? 240 then
      match s1 with
      | b1 :: b2 :: _ =>
        if in_range (if c0 =? 224 then 160 else 128) (if c0 =? 237 then 159 else 191) b1 && cont_byte b2
        then ((c0 - 224) * 4096 + (Z_of_byte b1 - 128) * 64 + (Z_of_byte b2 - 128), 3%nat)
        else (rune_error, 1%nat)
      | _ => (rune_error, 1%nat)
      end
    else if c0 <? 245 then
      match s1 with
      | b1 :: b2 :: b3 :: _ =>
        if in_range (if c0 =? 240 then 144 else 128) (if c0 =? 244 then 143 else 191) b1 && cont_byte b2 && cont_byte b3
        then ((c0 - 240) * 262144 + (Z_of_byte b1 - 128) * 4096 + (Z_of_byte b2 - 128) * 64 + (Z_of_byte b3 - 128), 4%nat)
        else (rune_error, 1%nat)
      | _ => (rune_error, 1%nat)
      end
    else (rune_error, 1%nat)
  end.

(** utf8.EncodeRune / string(rune).  Surrogates and out of range values become
    RuneError. *)
Definition encode_rune (r : Z) : bytes :=
  let r := if (r <? 0) || (1114111 <? r) || ((55296 <=? r) && (r <=? 57343)) then rune_error else r in
  if r <? 128 then [byte_of_Z r]
  else if r <? 2048 then [byte_of_Z (192 + r / 64); byte_of_Z (128 + r mod 64)]
  else if r <? 65536 then [byte_of_Z (224 + r / 4096); byte_of_Z (128 + r / 64 mod 64); byte_of_Z (128 + r mod 64)]
  else [byte_of_Z (240 + r / 262144); byte_of_Z (128 + r / 4096 mod 64); byte_of_Z (128 + r / 64 mod 64); byte_of_Z (128 + r mod 64)].

(** [for _, c := range s]: the runes of a string. [skip]: remaining bytes of
    the current rune. *)
Fixpoint runes_go (s : bytes) (skip : nat) : list Z :=
  match s with
  | [] => []
  | _ :: s' =>
    match skip with
    | S k => runes_go s' k
    | O => let '(r, w) := decode_rune s in r :: runes_go s' (pred w)
    end
  end.
Definition runes (s : bytes) : list Z := runes_go s 0.

(** strings.Split(s, sep).  With an empty separator, strings.explode: one piece
    per rune, invalid bytes being replaced (Go 1.16). *)
Definition go_split (s sep : bytes) : list bytes :=
  match sep with
  | [] => map encode_rune (runes s)
  | _ :: _ => split_go sep s 0 []
  end.

(** strings.ReplaceAll(s, old, new) for a non-empty [old]. *)
Definition replace_all (s old new : bytes) : bytes := join_strings new (split_go old s 0 []).

(** *** strconv *)
Definition is_digit (b : byte) : bool := (48 <=? Z_of_byte b) && (Z_of_byte b <=? 57).
Definition digit_val (b : byte) : Z := Z_of_byte b - 48.

Fixpoint digits_value (ds : bytes) (acc : Z) : Z :=
  match ds with
  | [] => acc
  | d :: ds' => digits_value ds' (10 * acc + digit_val d)
  end.

(** strconv.Atoi on a 64-bit platform. *)
Definition atoi (s : bytes) : res Z :=
  let '(neg, ds) :=
    match s with
    | x2d :: r => (true, r)
    | x2b :: r => (false, r)
    | _ => (false, s)
    end in
  match ds with
  | [] => Err (EMsg "invalid syntax")
  | _ :: _ =>
    if forallb is_digit ds then
      let z := if neg then - digits_value ds 0 else digits_value ds 0 in
      if (- two63 <=? z) && (z <? two63) then Ok z else Err (EMsg "value out of range")
    else Err (EMsg "invalid syntax")
  end.

(** pkg/util/utils.go:8-14 *)
Definition remove_characters (value chars : bytes) : bytes :=
  fold_left (fun v c => replace_all v (encode_rune c) []) (runes chars) value.

(** pkg/util/utils.go:16-24 *)
Definition is_in_array (value : bytes) (a : list bytes) : bool := existsb (fun x => bytes_eqb x value) a.
