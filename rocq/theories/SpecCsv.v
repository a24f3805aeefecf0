(** Specification of the CSV input. *)
From Coq Require Import List ZArith Bool.
From Coq Require Import Strings.Byte.
From Verif Require Import Base Prog Bufio CsvReader.
Import ListNotations.
Open Scope Z_scope.

(** The states of the shared reader: after any sequence of operations, complete
    reads and lookups, started on the open file. *)
Inductive used (file : bytes) (cap : nat) (chunk : nat -> nat) (comma : byte) : reader -> Prop :=
| used_new : used file cap chunk comma new_reader
| used_op o s : used file cap chunk comma s -> used file cap chunk comma (snd (run_op file cap chunk o s))
| used_read s : used file cap chunk comma s -> used file cap chunk comma (snd (exec (read_csv file cap chunk comma) s))
| used_get p s : used file cap chunk comma s -> used file cap chunk comma (snd (exec (get_row file cap chunk comma p) s)).

(** *** Texts that stand for rows (RFC 4180 with LF or CR LF line ends) *)

(** The quotes of a cell are doubled. *)
Fixpoint escaped (cell : bytes) : bytes :=
  match cell with
  | [] => []
  | c :: cell' => if beqb c quote then quote :: quote :: escaped cell' else c :: escaped cell'
  end.

(** [cell_text comma cell text]: the cell as such, or between quotes. *)
Inductive cell_text (comma : byte) : bytes -> bytes -> Prop :=
| plain_cell cell : ~ In quote cell -> ~ In comma cell -> ~ In LF cell -> ~ In CR cell -> cell_text comma cell cell
| quoted_cell cell : ~ In CR cell -> cell_text comma cell (quote :: escaped cell ++ [quote]).

Inductive row_text (comma : byte) : list bytes -> bytes -> Prop :=
| row_one cell t : cell_text comma cell t -> row_text comma [cell] t
| row_more cell t cells ts : cell_text comma cell t -> row_text comma cells ts -> row_text comma (cell :: cells) (t ++ comma :: ts).

Inductive line_end : bytes -> Prop :=
| end_lf : line_end [LF]
| end_crlf : line_end [CR; LF].

(** [csv_text comma pos rows text]: the text, found at the position [pos] of a
    file, stands for these rows, which start at these positions.  The last line
    may lack its end.  A row never is an empty line. *)
Inductive csv_text (comma : byte) : Z -> list (Z * list bytes) -> bytes -> Prop :=
| csv_none pos : csv_text comma pos [] []
| csv_last pos row t : row_text comma row t -> t <> [] -> csv_text comma pos [(pos, row)] t
| csv_row pos row t e rows ts : row_text comma row t -> t <> [] -> line_end e ->
    csv_text comma (pos + zlen (t ++ e)) rows ts -> csv_text comma pos ((pos, row) :: rows) (t ++ e ++ ts).
