(** encoding/json's decode.go (Go 1.16, from memory of its sources): json.Unmarshal into an interface{},
    called by pkg/parser/json.go:32-36, and Decoder.Decode into a map[string]interface{},
    called by pkg/input/json.go:78-81 and 136-141. *)
From Coq Require Import List ZArith Lia Bool String.
From Coq Require Import Strings.Byte Floats.SpecFloat.
From Verif Require Import Base Codec Value GoStrings JsonReader FloatText.
Import ListNotations.
Open Scope Z_scope.

(** *** scanner.go *)

(** scanner.eof *)
Definition s_eof (s : scanner) : opcode :=
  match sc_step s with
  | JError => OpError
  | EndTop => OpEnd
  | _ => match sc_step (fst (s_step s x20)) with EndTop => OpEnd | _ => OpError end
  end.
(** The loop of checkValid: [None] after an error. *)
Fixpoint check_steps (s : scanner) (l : bytes) : option scanner :=
  match l with
  | [] => Some s
  | c :: l' => match s_step s c with (_, OpError) => None | (s', _) => check_steps s' l' end
  end.
(** checkValid *)
Definition check_valid (l : bytes) : bool :=
  match check_steps s_reset l with
  | None => false
  | Some s => match s_eof s with OpError => false | _ => true end
  end.

(** *** decode.go *)

(** decodeState: [d_last] is data[off-1], [d_rest] is data[off:], [d_saved] is savedError. *)
Record dstate := mkD { d_last : byte; d_rest : bytes; d_scan : scanner; d_op : opcode; d_saved : option err }.
Definition save_error (e : err) (d : dstate) : dstate :=
  mkD (d_last d) (d_rest d) (d_scan d) (d_op d) (match d_saved d with None => Some e | Some _ => d_saved d end).

(** scanNext *)
Definition scan_next (d : dstate) : dstate :=
  match d_rest d with
  | c :: l => let '(s, op) := s_step (d_scan d) c in mkD c l s op (d_saved d)
  | [] => mkD (d_last d) [] (d_scan d) (s_eof (d_scan d)) (d_saved d)
  end.

(** scanWhile(scanSkipSpace) *)
Fixpoint scan_spaces (last : byte) (s : scanner) (l : bytes) (saved : option err) : dstate :=
  match l with
  | c :: l' => let '(s', op) := s_step s c in match op with OpSkipSpace => scan_spaces c s' l' saved | _ => mkD c l' s' op saved end
  | [] => mkD last [] s (s_eof s) saved
  end.
Definition scan_while (d : dstate) : dstate := scan_spaces (d_last d) (d_scan d) (d_rest d) (d_saved d).
(** if d.opcode == scanSkipSpace { d.scanWhile(scanSkipSpace) } *)
Definition skip_spaces (d : dstate) : dstate := match d_op d with OpSkipSpace => scan_while d | _ => d end.

(** The loops of rescanLiteral: what belongs to the literal, and the rest.  In a string the
    byte after a backslash is skipped; [None]: past the end of the data. *)
Fixpoint string_end (l : bytes) : option (bytes * bytes) :=
  match l with
  | [] => Some ([], [])
  | x22 :: l' => Some ([x22], l')
  | x5c :: l' =>
    match l' with
    | [] => None
    | c :: l'' => match string_end l'' with Some (t, r) => Some (x5c :: c :: t, r) | None => None end
    end
  | c :: l' => match string_end l' with Some (t, r) => Some (c :: t, r) | None => None end
  end.
Definition number_byte (c : byte) : bool := is_digit c || match c with x2e | x65 | x45 | x2b | x2d => true | _ => false end.
Fixpoint number_end (l : bytes) : bytes * bytes :=
  match l with
  | c :: l' => if number_byte c then let '(t, r) := number_end l' in (c :: t, r) else ([], l)
  | [] => ([], [])
  end.
Definition keyword_end (n : nat) (l : bytes) : option (bytes * bytes) :=
  if (n <=? List.length l)%nat then Some (firstn n l, skipn n l) else None.
Definition literal_end (c : byte) (l : bytes) : option (bytes * bytes) :=
  match c with
  | x22 => string_end l
  | x74 | x6e => keyword_end 3 l
  | x66 => keyword_end 4 l
  | _ => if is_digit c || beqb c "-" then Some (number_end l) else Some ([], l)
  end.
(** rescanLiteral, and data[start:readIndex()] with start the readIndex before it.  A slice beyond the
    data panics (in Go only beyond its capacity). *)
Definition rescan_literal (d : dstate) : res (bytes * dstate) :=
  match literal_end (d_last d) (d_rest d) with
  | None => Panic
  | Some (t, r) =>
    Ok (d_last d :: t,
        match r with
        | c :: r' => let '(s, op) := end_value c (sc_stack (d_scan d)) in mkD c r' s op (d_saved d)
        | [] => mkD (d_last d) [] (d_scan d) OpEnd (d_saved d)
        end)
  end.

(** getu4, without its backslash and its u *)
Definition hex_digit (b : byte) : option Z :=
  let z := Z_of_byte b in
  if (48 <=? z) && (z <=? 57) then Some (z - 48)
  else if (97 <=? z) && (z <=? 102) then Some (z - 97 + 10)
  else if (65 <=? z) && (z <=? 70) then Some (z - 65 + 10) else None.
Fixpoint get_hex (n : nat) (s : bytes) (r : Z) : option Z :=
  match n with
  | O => Some r
  | S n' => match s with c :: s' => match hex_digit c with Some d => get_hex n' s' (r * 16 + d) | None => None end | [] => None end
  end.
Definition getu4 (s : bytes) : option Z :=
  match s with x5c :: x75 :: s' => get_hex 4 s' 0 | _ => None end.
(** utf16.IsSurrogate, utf16.DecodeRune *)
Definition is_surrogate (r : Z) : bool := (55296 <=? r) && (r <? 57344).
Definition decode_pair (r1 r2 : Z) : Z :=
  if (55296 <=? r1) && (r1 <? 56320) && (56320 <=? r2) && (r2 <? 57344) then (r1 - 55296) * 1024 + (r2 - 56320) + 65536 else rune_error.
Definition simple_escape (c : byte) : option byte :=
  match c with
  | x22 | x5c | x2f | x27 => Some c
  | x62 => Some x08 | x66 => Some x0c | x6e => Some x0a | x72 => Some x0d | x74 => Some x09
  | _ => None
  end.
(** The second loop of unquoteBytes; the first one, which copies what needs no change, is not
    modelled separately.  [skip] bytes have been consumed already. *)
Fixpoint unquote_go (s : bytes) (skip : nat) : option bytes :=
  match s with
  | [] => Some []
  | c :: s' =>
    match skip with
    | S n => unquote_go s' n
    | O =>
      let add b n := match unquote_go s' n with Some t => Some (b ++ t) | None => None end in
      match c with
      | x5c =>
        match s' with
        | [] => None
        | x75 :: _ =>
          match getu4 s with
          | None => None
          | Some rr =>
            if is_surrogate rr then
              let dec := match getu4 (skipn 6 s) with Some rr1 => decode_pair rr rr1 | None => rune_error end in
              if dec =? rune_error then add (encode_rune rune_error) 5%nat else add (encode_rune dec) 11%nat
            else add (encode_rune rr) 5%nat
          end
        | e :: _ => match simple_escape e with Some b => add [b] 1%nat | None => None end
        end
      | x22 => None
      | _ =>
        if Z_of_byte c <? 32 then None
        else if Z_of_byte c <? 128 then add [c] O
        else let '(rr, size) := decode_rune s in add (encode_rune rr) (pred size)
      end
    end
  end.
(** unquote *)
Definition unquote (item : bytes) : option bytes :=
  match item with
  | x22 :: s =>
    match rev s with
    | x22 :: _ => unquote_go (removelast s) O
    | _ => None
    end
  | _ => None
  end.

(** UnmarshalTypeError *)
Definition type_error : err := EMsg "json: cannot unmarshal".
(** literalInterface with convertNumber; the number of an error is nil. *)
Definition literal_interface (item : bytes) (d : dstate) : res (value * dstate) :=
  match item with
  | x6e :: _ => Ok (VNil, d)
  | x74 :: _ => Ok (VBool true, d)
  | x66 :: _ => Ok (VBool false, d)
  | x22 :: _ => match unquote item with Some s => Ok (VString s, d) | None => Panic end
  | c :: _ =>
    if is_digit c || beqb c "-" then
      match go_parse_float item with
      | Ok f => Ok (VFloat f, d)
      | Err _ => Ok (VNil, save_error type_error d)
      | Panic => Panic | NoFuel => NoFuel
      end
    else Panic
  | [] => Panic
  end.

(** valueInterface, arrayInterface, objectInterface (with what was put in the map so far).  The panics
    are those of phasePanicMsg. *)
Fixpoint value_interface (fuel : nat) (d : dstate) : res (value * dstate) :=
  match fuel with
  | O => NoFuel
  | S fuel' =>
    match d_op d with
    | OpBeginArray => rlet r := array_interface fuel' d in Ok (VList (fst r), scan_next (snd r))
    | OpBeginObject => rlet r := object_interface fuel' d [] in Ok (VMap (fst r), scan_next (snd r))
    | OpBeginLiteral => rlet r := rescan_literal d in literal_interface (fst r) (snd r)
    | _ => Panic
    end
  end
with array_interface (fuel : nat) (d : dstate) : res (list value * dstate) :=
  match fuel with
  | O => NoFuel
  | S fuel' =>
    let d1 := scan_while d in
    match d_op d1 with
    | OpEndArray => Ok ([], d1)
    | _ =>
      rlet r := value_interface fuel' d1 in
      let d2 := skip_spaces (snd r) in
      match d_op d2 with
      | OpEndArray => Ok ([fst r], d2)
      | OpArrayValue => rlet q := array_interface fuel' d2 in Ok (fst r :: fst q, snd q)
      | _ => Panic
      end
    end
  end
with object_interface (fuel : nat) (d : dstate) (m : list (bytes * value)) : res (list (bytes * value) * dstate) :=
  match fuel with
  | O => NoFuel
  | S fuel' =>
    let d1 := scan_while d in
    match d_op d1 with
    | OpEndObject => Ok (m, d1)
    | OpBeginLiteral =>
      rlet k := rescan_literal d1 in
      match unquote (fst k) with
      | None => Panic
      | Some key =>
        let d2 := skip_spaces (snd k) in
        match d_op d2 with
        | OpObjectKey =>
          rlet r := value_interface fuel' (scan_while d2) in
          let m1 := mset m key (fst r) in
          let d3 := skip_spaces (snd r) in
          match d_op d3 with
          | OpEndObject => Ok (m1, d3)
          | OpObjectValue => object_interface fuel' d3 m1
          | _ => Panic
          end
        | _ => Panic
        end
      end
    | _ => Panic
    end
  end.

(** d.init, then scan.reset and scanWhile in unmarshal *)
Definition d_init (data : bytes) : dstate := scan_while (mkD x00 data s_reset OpContinue None).
Definition decode_fuel (data : bytes) : nat := S (S (2 * List.length data)).
Definition finished {A} (r : A * dstate) : res A := match d_saved (snd r) with Some e => Err e | None => Ok (fst r) end.

(** decodeState.unmarshal into an interface{} *)
Definition decode_any (data : bytes) : res value :=
  rlet r := value_interface (decode_fuel data) (d_init data) in finished r.
(** decodeState.unmarshal into a map[string]interface{}: object (whose members are decoded as in
    objectInterface), null, or an UnmarshalTypeError; array skips the value, which cannot fail. *)
Definition decode_map (data : bytes) : res (list (bytes * value)) :=
  let d := d_init data in
  match d_op d with
  | OpBeginObject => rlet r := object_interface (decode_fuel data) d [] in finished r
  | OpBeginArray => Err type_error
  | OpBeginLiteral =>
    rlet r := rescan_literal d in
    match fst r with x6e :: _ => Ok [] | _ => Err type_error end
  | _ => Panic
  end.

(** json.Unmarshal into an interface{}, pkg/parser/json.go:32-36 *)
Definition go_unmarshal (data : bytes) : res value :=
  if check_valid data then decode_any data else Err JsonReader.syntax_error.
