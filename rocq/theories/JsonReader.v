(** encoding/json's scanner and Decoder (Go 1.16, from its sources), and
    pkg/input/json.go. *)
From Coq Require Import List ZArith Lia Bool String.
From Coq Require Import Strings.Byte.
From Verif Require Import Base Codec Value GoStrings Records Prog.
Import ListNotations.
Open Scope Z_scope.

(** *** encoding/json/scanner.go *)

(** The functions stateBeginValueOrEmpty, stateBeginValue, ... *)
Inductive jstate :=
| BeginValueOrEmpty | BeginValue | BeginStringOrEmpty | BeginString | EndValue | EndTop
| InString | InStringEsc | EscU | EscU1 | EscU12 | EscU123
| Neg | Digits1 | Digits0 | Dot | Dot0 | Exp | ExpSign | Exp0
| ST | STr | STru | SF | SFa | SFal | SFals | SN | SNu | SNul | JError.
Inductive pstate := ObjectKey | ObjectValue | ArrayValue.
(** The current function and the stack parseState. *)
Record scanner := mkScanner { sc_step : jstate; sc_stack : list pstate }.
Inductive opcode :=
| OpContinue | OpBeginLiteral | OpBeginObject | OpObjectKey | OpObjectValue | OpEndObject
| OpBeginArray | OpArrayValue | OpEndArray | OpSkipSpace | OpEnd | OpError.

Definition is_space (c : byte) : bool := match c with x20 | x09 | x0d | x0a => true | _ => false end.
Definition is_hex (c : byte) : bool :=
  let z := Z_of_byte c in ((48 <=? z) && (z <=? 57)) || ((97 <=? z) && (z <=? 102)) || ((65 <=? z) && (z <=? 70)).
Definition max_nesting : Z := 10000.

Definition s_error (st : list pstate) : scanner * opcode := (mkScanner JError st, OpError).
Definition go_to (s : jstate) (st : list pstate) (op : opcode) : scanner * opcode := (mkScanner s st, op).
(** pushParseState *)
Definition push (s : jstate) (p : pstate) (st : list pstate) (op : opcode) : scanner * opcode :=
  if zlen (p :: st) <=? max_nesting then go_to s (p :: st) op else s_error (p :: st).
(** popParseState *)
Definition pop (st : list pstate) (op : opcode) : scanner * opcode :=
  match st with
  | _ :: (_ :: _) as st' => go_to EndValue (List.tl st) op
  | _ => go_to EndTop [] op
  end.
(** stateEndTop: the error after the value only matters to later steps. *)
Definition end_top (c : byte) (st : list pstate) : scanner * opcode :=
  go_to (if is_space c then EndTop else JError) st OpEnd.
(** stateEndValue *)
Definition end_value (c : byte) (st : list pstate) : scanner * opcode :=
  match st with
  | [] => end_top c st
  | p :: st' =>
    if is_space c then go_to EndValue st OpSkipSpace
    else match p, c with
         | ObjectKey, x3a => go_to BeginValue (ObjectValue :: st') OpObjectKey
         | ObjectValue, x2c => go_to BeginString (ObjectKey :: st') OpObjectValue
         | ObjectValue, x7d => pop st OpEndObject
         | ArrayValue, x2c => go_to BeginValue st OpArrayValue
         | ArrayValue, x5d => pop st OpEndArray
         | _, _ => s_error st
         end
  end.
(** stateBeginValue *)
Definition begin_value (c : byte) (st : list pstate) : scanner * opcode :=
  if is_space c then go_to BeginValue st OpSkipSpace
  else match c with
       | x7b => push BeginStringOrEmpty ObjectKey st OpBeginObject
       | x5b => push BeginValueOrEmpty ArrayValue st OpBeginArray
       | x22 => go_to InString st OpBeginLiteral
       | x2d => go_to Neg st OpBeginLiteral
       | x30 => go_to Digits0 st OpBeginLiteral
       | x74 => go_to ST st OpBeginLiteral
       | x66 => go_to SF st OpBeginLiteral
       | x6e => go_to SN st OpBeginLiteral
       | _ => if is_digit c then go_to Digits1 st OpBeginLiteral else s_error st
       end.
(** stateBeginString *)
Definition begin_string (s : jstate) (c : byte) (st : list pstate) : scanner * opcode :=
  if is_space c then go_to s st OpSkipSpace
  else match c with x22 => go_to InString st OpBeginLiteral | _ => s_error st end.
Definition literal (expected c : byte) (next : jstate) (st : list pstate) : scanner * opcode :=
  if beqb c expected then go_to next st OpContinue else s_error st.

(** One step of the scanner. *)
Definition s_step (s : scanner) (c : byte) : scanner * opcode :=
  let st := sc_stack s in
  match sc_step s with
  | BeginValueOrEmpty =>
    if is_space c then go_to BeginValueOrEmpty st OpSkipSpace
    else match c with x5d => end_value c st | _ => begin_value c st end
  | BeginValue => begin_value c st
  | BeginStringOrEmpty =>
    if is_space c then go_to BeginStringOrEmpty st OpSkipSpace
    else match c with
         | x7d => end_value c (match st with [] => [] | _ :: st' => ObjectValue :: st' end)
         | _ => begin_string BeginStringOrEmpty c st
         end
  | BeginString => begin_string BeginString c st
  | EndValue => end_value c st
  | EndTop => end_top c st
  | InString =>
    match c with
    | x22 => go_to EndValue st OpContinue
    | x5c => go_to InStringEsc st OpContinue
    | _ => if Z_of_byte c <? 32 then s_error st else go_to InString st OpContinue
    end
  | InStringEsc =>
    match c with
    | x62 | x66 | x6e | x72 | x74 | x5c | x2f | x22 => go_to InString st OpContinue
    | x75 => go_to EscU st OpContinue
    | _ => s_error st
    end
  | EscU => if is_hex c then go_to EscU1 st OpContinue else s_error st
  | EscU1 => if is_hex c then go_to EscU12 st OpContinue else s_error st
  | EscU12 => if is_hex c then go_to EscU123 st OpContinue else s_error st
  | EscU123 => if is_hex c then go_to InString st OpContinue else s_error st
  | Neg => match c with x30 => go_to Digits0 st OpContinue | _ => if is_digit c then go_to Digits1 st OpContinue else s_error st end
  | Digits1 | Digits0 =>
    if (match sc_step s with Digits1 => true | _ => false end) && is_digit c then go_to Digits1 st OpContinue
    else match c with
         | x2e => go_to Dot st OpContinue
         | x65 | x45 => go_to Exp st OpContinue
         | _ => end_value c st
         end
  | Dot => if is_digit c then go_to Dot0 st OpContinue else s_error st
  | Dot0 =>
    if is_digit c then go_to Dot0 st OpContinue
    else match c with x65 | x45 => go_to Exp st OpContinue | _ => end_value c st end
  | Exp =>
    match c with
    | x2b | x2d => go_to ExpSign st OpContinue
    | _ => if is_digit c then go_to Exp0 st OpContinue else s_error st
    end
  | ExpSign => if is_digit c then go_to Exp0 st OpContinue else s_error st
  | Exp0 => if is_digit c then go_to Exp0 st OpContinue else end_value c st
  | ST => literal x72 c STr st
  | STr => literal x75 c STru st
  | STru => literal x65 c EndValue st
  | SF => literal x61 c SFa st
  | SFa => literal x6c c SFal st
  | SFal => literal x73 c SFals st
  | SFals => literal x65 c EndValue st
  | SN => literal x75 c SNu st
  | SNu => literal x6c c SNul st
  | SNul => literal x6c c EndValue st
  | JError => s_error st
  end.

(** scanner.reset *)
Definition s_reset : scanner := mkScanner BeginValue [].

(** *** encoding/json/stream.go *)

(** The outcome of the loop of Decoder.readValue over the buffered bytes. *)
Inductive scan_result := More (s : scanner) | ValueOf (n : nat) | Bad.
Fixpoint scan (s : scanner) (l : bytes) (n : nat) : scan_result :=
  match l with
  | [] => More s
  | c :: l' =>
    let '(s', op) := s_step s c in
    match op with
    | OpEnd => ValueOf n
    | OpEndObject | OpEndArray => match sc_stack s' with [] => ValueOf (S n) | _ => scan s' l' (S n) end
    | OpError => Bad
    | _ => scan s' l' (S n)
    end
  end.
Definition syntax_error : err := EMsg "invalid character".
(** At the end of the file. *)
Definition at_eof (s : scanner) (buf : bytes) : res bytes :=
  match snd (s_step s x20) with
  | OpEnd => Ok buf
  | _ => if forallb is_space buf then Err EEof else Err (EMsg "unexpected EOF")
  end.
(** Decoder.readValue on the rest of a file: the text of the next value.  The
    buffer of the decoder and the unread part of the file are taken together. *)
Definition read_value (l : bytes) : res bytes :=
  match scan s_reset l 0 with
  | ValueOf n => Ok (firstn n l)
  | Bad => Err syntax_error
  | More s => at_eof s l
  end.

(** *** pkg/input/json.go *)
Section Input.
Variable file : bytes.
(** json.Unmarshal of a syntactically correct text into a map[string]interface{}
    (decode.go). *)
Variable unmarshal : bytes -> res (list (bytes * value)).

Fixpoint spaces (l : bytes) : nat := match l with c :: l' => if is_space c then S (spaces l') else O | [] => O end.

(** The iterator called until the end or an error, pkg/input/json.go:119-157.
    [pos] is what the decoder consumed; the iterator's file is its own.
    Decoder.More and InputOffset: the next character that is not a space, and
    its offset. *)
Fixpoint json_iterate (fuel : nat) (pos : Z) : list (res (Z * list (bytes * value))) :=
  match fuel with
  | O => [NoFuel]
  | S fuel' =>
    let l := skipn (Z.to_nat pos) file in
    let position := pos + Z.of_nat (spaces l) in
    let l1 := skipn (spaces l) l in
    match l1 with
    | [] => []
    | x5d :: _ | x7d :: _ => []
    | _ =>
      match read_value l1 with
      | Ok text =>
        match unmarshal text with
        | Ok data => Ok (position, data) :: json_iterate fuel' (position + zlen text)
        | Err e => [Err e] | Panic => [Panic] | NoFuel => [NoFuel]
        end
      | Err EEof => []
      | Err e => [Err e] | Panic => [Panic] | NoFuel => [NoFuel]
      end
    end
  end.
Definition json_iterate_all : list (res (Z * list (bytes * value))) := json_iterate (S (List.length file)) 0.

(** The shared file descriptor of Get: its offset, and the number of reads. *)
Record jfile := mkJfile { j_off : Z; j_reads : nat }.
(** How many bytes each read(2) gives, when there are enough: at least one. *)
Variable chunk : nat -> nat.
Definition j_read (s : jfile) : bytes := firstn (S (chunk (j_reads s))) (skipn (Z.to_nat (j_off s)) file).
Definition j_advance (s : jfile) : jfile := mkJfile (j_off s + zlen (j_read s)) (S (j_reads s)).

(** Decoder.readValue of a new decoder: [buf] has been scanned up to the state
    [s], [n] bytes. *)
Fixpoint j_load (fuel : nat) (s : scanner) (buf : bytes) : prog jfile (res bytes) :=
  match fuel with
  | O => Ret NoFuel
  | S fuel' =>
    plet f := get in
    plet _ := modify j_advance in
    let got := j_read f in
    match got with
    | [] => Ret (at_eof s buf)
    | _ =>
      match scan s got (List.length buf) with
      | ValueOf n => Ret (Ok (firstn n (buf ++ got)))
      | Bad => Ret (Err syntax_error)
      | More s' => j_load fuel' s' (buf ++ got)
      end
    end
  end.

(** Get between Lock and Unlock, pkg/input/json.go:65-88. *)
Definition json_get_at (position : Z) : prog jfile (res (list (bytes * value))) :=
  if position <? 0 then plet _ := get in Ret (Err EIo)
  else
    plet _ := modify (fun f => mkJfile position (j_reads f)) in
    plet r := j_load (S (S (List.length file))) s_reset [] in
    match r with
    | Ok text => Ret (unmarshal text)
    | Err EEof => Ret (Err (EMsg "Cannot read json data: EOF"))
    | Err e => Ret (Err e) | Panic => Ret Panic | NoFuel => Ret NoFuel
    end.
End Input.

(** The input seen by indexes and outputs; [s] is the state of the shared file
    when Get is called. *)
Definition json_input (name file : bytes) (mtime : res Z) (unmarshal : bytes -> res (list (bytes * value))) (chunk : nat -> nat) (s : jfile) : input :=
  mkInput name (Ok (zlen file)) mtime
    (map (rmap (fun pd => json_record (snd pd) (fst pd))) (json_iterate_all file unmarshal))
    (fun position => rmap (fun data => json_record data position) (fst (exec (json_get_at file unmarshal chunk position) s))).
