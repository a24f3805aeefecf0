(** encoding/csv's Reader (Go 1.16, from its sources) over the buffered reader, and
    pkg/input/csv.go. *)
From Coq Require Import List ZArith Lia Bool String.
From Coq Require Import Strings.Byte.
From Verif Require Import Base Value Records Prog Bufio.
Import ListNotations.
Open Scope Z_scope.

Definition LF : byte := x0a.
Definition CR : byte := x0d.
Definition quote : byte := x22.

Definition pbind {S A B} (p : prog S (res A)) (k : A -> prog S (res B)) : prog S (res B) :=
  bind p (fun r => match r with Ok a => k a | Err e => Ret (Err e) | Panic => Ret Panic | NoFuel => Ret NoFuel end).

(** *** The lines *)

(** A final CR is dropped. *)
Definition drop_cr (line : bytes) : bytes :=
  match rev line with c :: l => if beqb c CR then rev l else line | [] => line end.
(** A final CR LF becomes LF. *)
Definition unify_end (line : bytes) : bytes :=
  match rev line with c :: c' :: l => if beqb c LF && beqb c' CR then rev (LF :: l) else line | _ => line end.
(** Reader.readLine after the accumulation: a last line which is not empty has no
    end-of-file error, and loses a final CR; CR LF becomes LF. *)
Definition normalize (line : bytes) (eof : bool) : bytes * bool :=
  match line with
  | [] => ([], eof)
  | _ => (unify_end (if eof then drop_cr line else line), false)
  end.

(** [len(line) == lengthNL(line)] *)
Definition blank (line : bytes) : bool := match line with [] => true | [c] => beqb c LF | _ => false end.

(** [line[:len(line)-lengthNL(line)]] *)
Definition chomp (line : bytes) : bytes :=
  match rev line with c :: l => if beqb c LF then rev l else line | [] => line end.

Definition bare_quote : err := EMsg "bare quote".
Definition bad_quote : err := EMsg "extraneous or missing quote".

(** *** The records *)
Section Records.
Variable St : Type.
(** Reader.readLine; [true] is io.EOF. *)
Variable next_line : prog St (res (bytes * bool)).
(** Reader.Comma *)
Variable comma : byte.

(** The first line which is not empty; [None] is io.EOF. *)
Fixpoint first_line (fuel : nat) : prog St (res (option bytes)) :=
  match fuel with
  | O => Ret NoFuel
  | S fuel' =>
    pbind next_line (fun r =>
      if snd r then Ret (Ok None)
      else if blank (fst r) then first_line fuel'
      else Ret (Ok (Some (fst r))))
  end.

(** The label parseField (outside quotes, [q = None]) and the inner loop (inside
    quotes, [q] is the field so far). *)
Fixpoint fields (fuel : nat) (q : option bytes) (line : bytes) (done : list bytes) : prog St (res (list bytes)) :=
  match fuel with
  | O => Ret NoFuel
  | S fuel' =>
    match q with
    | None =>
      match line with
      | c :: line' =>
        if beqb c quote then fields fuel' (Some []) line' done
        else
          match cut_byte comma line with
          | Some (a, line2) =>
            if existsb (beqb quote) a then Ret (Err bare_quote) else fields fuel' None line2 (done ++ [a])
          | None =>
            let a := chomp line in
            if existsb (beqb quote) a then Ret (Err bare_quote) else Ret (Ok (done ++ [a]))
          end
      | [] => Ret (Ok (done ++ [[]]))
      end
    | Some acc =>
      match cut_byte quote line with
      | Some (a, line2) =>
        match line2 with
        | [] => Ret (Ok (done ++ [acc ++ a]))
        | c :: line3 =>
          if beqb c quote then fields fuel' (Some (acc ++ a ++ [quote])) line3 done
          else if beqb c comma then fields fuel' None line3 (done ++ [acc ++ a])
          else if blank line2 then Ret (Ok (done ++ [acc ++ a]))
          else Ret (Err bad_quote)
        end
      | None =>
        match line with
        | [] => Ret (Err bad_quote)
        | _ => pbind next_line (fun r => fields fuel' (Some (acc ++ line)) (fst r) done)
        end
      end
    end
  end.

(** validDelim; the delimiter is one byte (pkg/input/csv_config.go:84-91), a byte
    from 0x80 on is not a character. *)
Definition valid_delim (c : byte) : bool :=
  negb (beqb c x00 || beqb c quote || beqb c CR || beqb c LF || (128 <=? Z.of_N (Byte.to_N c))).

(** Reader.Read; [None] is io.EOF.  The check of the number of fields is left to
    the callers. *)
Definition read_row (fuel : nat) : prog St (res (option (list bytes))) :=
  if valid_delim comma then
    pbind (first_line fuel) (fun l =>
      match l with
      | None => Ret (Ok None)
      | Some line => pbind (fields fuel None line []) (fun row => Ret (Ok (Some row)))
      end)
  else plet _ := get in Ret (Err (EMsg "invalid delimiter")).
End Records.

(** *** On the buffered reader *)
Section Input.
Variable file : bytes.
Variable cap : nat.
Variable chunk : nat -> nat.

(** The accumulation of Reader.readLine when the line does not fit in the buffer. *)
Fixpoint raw_line (fuel : nat) (acc : bytes) : prog reader (res (bytes * bool)) :=
  match fuel with
  | O => Ret NoFuel
  | S fuel' =>
    pbind (read_slice file cap chunk (S (S cap)) LF) (fun r =>
      match snd r with
      | BufferFull => raw_line fuel' (acc ++ fst r)
      | Found => Ret (Ok (acc ++ fst r, false))
      | AtEof => Ret (Ok (acc ++ fst r, true))
      end)
  end.
Definition line_fuel : nat := S (S (List.length file)).
Definition next_line : prog reader (res (bytes * bool)) :=
  pbind (raw_line line_fuel []) (fun r => Ret (Ok (normalize (fst r) (snd r)))).

Variable comma : byte.
Definition read_csv : prog reader (res (option (list bytes))) := read_row reader next_line comma line_fuel.

(** pkg/input/csv.go:85-108, between Lock and Unlock; a wrong number of cells is
    only a warning. *)
Definition get_row (position : Z) : prog reader (res (list bytes)) :=
  pbind (set_buffered_offset position) (fun _ =>
    pbind read_csv (fun r =>
      match r with
      | None => Ret (Err (EMsg "Cannot read csv data: EOF"))
      | Some row => Ret (Ok row)
      end)).

(** pkg/input/csv.go:178-221, the iterator called until the end or an error. *)
Fixpoint iterate (fuel : nat) (s : reader) : list (res (Z * list bytes)) :=
  match fuel with
  | O => [NoFuel]
  | S fuel' =>
    let position := buffered_offset s in
    match exec read_csv s with
    | (Ok None, _) => []
    | (Ok (Some row), s') => Ok (position, row) :: iterate fuel' s'
    | (Err e, _) => [Err e]
    | (Panic, _) => [Panic]
    | (NoFuel, _) => [NoFuel]
    end
  end.

(** IterateAll: the header is skipped, with a check of its number of cells
    ([columns] is len(config.Columns), at least 1). *)
Definition iterate_all (ignore_first : bool) (columns : nat) : list (res (Z * list bytes)) :=
  if ignore_first then
    match exec read_csv new_reader with
    | (Ok None, _) => [Err EEof]
    | (Ok (Some row), s') =>
      if (List.length row =? columns)%nat then iterate line_fuel s' else [Err (EMsg "wrong number of fields")]
    | (Err e, _) => [Err e]
    | (Panic, _) => [Panic]
    | (NoFuel, _) => [NoFuel]
    end
  else iterate line_fuel new_reader.

(** pkg/input/csv.go:128-155 *)
Definition detect_columns : res (list bytes) :=
  match fst (exec read_csv new_reader) with
  | Ok None => Err (EMsg "Cannot read csv data: EOF")
  | Ok (Some row) => autodetect row []
  | Err e => Err e
  | Panic => Panic
  | NoFuel => NoFuel
  end.
End Input.

(** The input seen by indexes and outputs.  [s] is the state of the shared reader
    when Get is called. *)
Definition csv_input (name file : bytes) (mtime : res Z) (cap : nat) (chunk : nat -> nat) (comma : byte)
  (ignore_first : bool) (names : list bytes) (ps : list parser_fun) (s : reader) : input :=
  mkInput name (Ok (zlen file)) mtime
    (map (rmap (fun pr => csv_record names ps (snd pr) (fst pr))) (iterate_all file cap chunk comma ignore_first (List.length names)))
    (fun position => rmap (fun row => csv_record names ps row position) (fst (exec (get_row file cap chunk comma position) s))).
