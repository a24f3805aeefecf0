(** golang.org/x/text/transform's Reader on a shared decoder, as used by
    pkg/parser/string.go:47-59, and goroutines without a lock. *)
From Coq Require Import String List ZArith Lia Bool.
From Coq Require Import Strings.Byte.
From Verif Require Import Base Codec Value Prog.
Import ListNotations.
Open Scope Z_scope.

(** The outcome of a call of Transform: the bytes written, the number of bytes
    consumed and the error. *)
Inductive tstatus := TDone | ShortDst | ShortSrc | TFailed (e : err).
Record tresult := mkT { t_dst : bytes; t_src : nat; t_status : tstatus }.

(** Size of the buffer of the Reader (transform.go: defaultBufSize). *)
Definition buf_size : nat := Z.to_nat 4096.

Section Decoder.
(** The mutable state of the decoder, with the two methods of Transformer. *)
Variable D : Type.
Variable reset : D -> D.
Variable transform : D -> bytes -> bool -> tresult * D.

Definition call (src : bytes) (at_eof : bool) : prog D tresult :=
  plet d := get in
  plet _ := modify (fun _ => snd (transform d src at_eof)) in
  Ret (fst (transform d src at_eof)).

(** transform.Reader.Read called by ioutil.ReadAll until the end: [src] is the
    pending part of the source buffer, [rest] the unread text, [eof] whether the
    text ended, [out] what was read so far.  strings.Reader gives io.EOF after the
    last byte, in a call of its own. *)
Fixpoint read_all (fuel : nat) (src rest : bytes) (eof : bool) (out : bytes) : prog D (res bytes) :=
  match fuel with
  | O => Ret NoFuel
  | S fuel' =>
    let room := (buf_size - List.length src)%nat in
    let fill := fun src' out' =>
      let room' := (buf_size - List.length src')%nat in
      match rest with
      | [] => read_all fuel' src' [] true out'
      | _ => read_all fuel' (src' ++ firstn room' rest) (skipn room' rest) false out'
      end in
    match src, eof with
    | [], false => fill src out
    | _, _ =>
      plet r := call src eof in
      let src' := skipn (t_src r) src in
      let out' := out ++ t_dst r in
      match t_status r with
      | TDone =>
        match src' with
        | _ :: _ => Ret (Err (EMsg "transform: inconsistent byte count returned"))
        | [] => if eof then Ret (Ok out') else fill [] out'
        end
      | ShortDst =>
        if Nat.eqb (List.length (t_dst r)) 0 && Nat.eqb (t_src r) 0 then Ret (Err (EMsg "transform: short destination buffer"))
        else read_all fuel' src' rest eof out'
      | ShortSrc =>
        if negb (Nat.eqb (List.length src') buf_size) && negb eof then fill src' out'
        else Ret (Err (EMsg "transform: short source buffer"))
      | TFailed e => Ret (Err e)
      end
    end
  end.

(** String.Parse, pkg/parser/string.go:47-59; NewReader calls Reset.  [convert]
    is whether convertFromCharset is set. *)
Definition parse_string (convert : bool) (fuel : nat) (text : bytes) : prog D (res value) :=
  if convert then
    plet _ := modify reset in
    plet r := read_all fuel [] text false [] in
    match r with
    | Ok s => Ret (Ok (VString s))
    | Err e => Ret (Err e) | Panic => Ret Panic | NoFuel => Ret NoFuel
    end
  else Ret (Ok (VString text)).
End Decoder.

(** *** Goroutines which share a state without a lock *)
Section Free.
Variables S A Q : Type.
Variable body : Q -> prog S A.
Inductive free_step : S * list (thread S A Q) -> S * list (thread S A Q) -> Prop :=
| free_begin s l1 q todo answers l2 :
    free_step (s, l1 ++ Idle (q :: todo) answers :: l2) (s, l1 ++ Busy q (body q) todo answers :: l2)
| free_act s l1 q f k todo answers l2 :
    free_step (s, l1 ++ Busy q (Act f k) todo answers :: l2) (f s, l1 ++ Busy q (k (f s)) todo answers :: l2)
| free_end s l1 q a todo answers l2 :
    free_step (s, l1 ++ Busy q (Ret a) todo answers :: l2) (s, l1 ++ Idle todo (answers ++ [(q, a)]) :: l2).
Inductive free_steps : S * list (thread S A Q) -> S * list (thread S A Q) -> Prop :=
| free_none c : free_steps c c
| free_more c c' c'' : free_steps c c' -> free_step c' c'' -> free_steps c c''.
Definition free_start (s : S) (qss : list (list Q)) : S * list (thread S A Q) := (s, map (fun qs => Idle qs []) qss).
End Free.

(** *** Two decoders of golang.org/x/text, for the examples *)

(** UTF-8 bytes of a character below 0x10000. *)
Definition utf8 (c : Z) : bytes :=
  if c <? 128 then [byte_of_Z c]
  else if c <? 2048 then [byte_of_Z (192 + c / 64); byte_of_Z (128 + c mod 64)]
  else [byte_of_Z (224 + c / 4096); byte_of_Z (128 + (c / 64) mod 64); byte_of_Z (128 + c mod 64)].

(** encoding/charmap.ISO8859_1: every byte is the character of that number. *)
Definition latin1_reset (d : unit) : unit := d.
Definition latin1_transform (d : unit) (src : bytes) (at_eof : bool) : tresult * unit :=
  (mkT (flat_map (fun b => utf8 (Z_of_byte b)) src) (List.length src) TDone, d).

(** encoding/japanese.ISO2022JP, without the sets of two bytes: its state is the
    current set, chosen by escape sequences. *)
Inductive jp_state := JpAscii | JpKatakana.
Definition jp_reset (d : jp_state) : jp_state := JpAscii.
Fixpoint jp_loop (d : jp_state) (src : bytes) (at_eof : bool) (out : bytes) (n : nat) (fuel : nat) : tresult * jp_state :=
  match fuel with
  | O => (mkT out n ShortDst, d)
  | S fuel' =>
    match src with
    | [] => (mkT out n TDone, d)
    | x1b :: x28 :: x42 :: src' => jp_loop JpAscii src' at_eof out (n + 3) fuel'
    | x1b :: x28 :: x49 :: src' => jp_loop JpKatakana src' at_eof out (n + 3) fuel'
    | x1b :: ([] | [_]) => if at_eof then (mkT (out ++ utf8 65533) (n + 1) TDone, d) else (mkT out n ShortSrc, d)
    | c :: src' =>
      let z := Z_of_byte c in
      let r := if 128 <=? z then 65533 else
        match d with
        | JpAscii => z
        | JpKatakana => if (z <? 33) || (96 <=? z) then 65533 else z + 65344
        end in
      jp_loop d src' at_eof (out ++ utf8 r) (n + 1) fuel'
    end
  end.
Definition jp_transform (d : jp_state) (src : bytes) (at_eof : bool) : tresult * jp_state :=
  jp_loop d src at_eof [] 0 (S (List.length src)).
