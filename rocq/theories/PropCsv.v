(** Properties C36, C38, C44 and C49: buffered offsets and CSV files. *)
From Coq Require Import List ZArith Lia Bool String Sorted.
From Coq Require Import Strings.Byte.
From Verif Require Import Base Value Records SpecIndex SpecOutput Prog Bufio SpecBufio BufioFacts CsvReader SpecCsv CsvFacts4.
Import ListNotations.
Open Scope Z_scope.

(** C44: whatever the buffering does, the operations on the reader give what they
    would give on the file at a position which is advanced by what they consume;
    the offset is that position, and setting an offset moves it there. *)
Theorem C44_offsets_exact : forall file cap chunk, (0 < cap)%nat -> forall ops,
  exists pos, ops_at file cap 0 ops (fst (run_ops file cap chunk ops new_reader)) pos.
Proof. exact run_ops_new. Qed.
Print Assumptions C44_offsets_exact.

Definition ex_file : bytes := lit "abc" ++ [LF] ++ lit "defghij".
Example C44_example :
  let ops := [OpByte; OpOffset; OpSlice LF; OpOffset; OpSlice LF; OpOffset; OpSet 2; OpByte; OpOffset; OpSet (-1); OpSlice LF; OpSet 20; OpByte; OpOffset; OpSet 9; OpSlice LF; OpSlice LF; OpOffset] in
  fst (run_ops ex_file 4 (fun n => n) ops new_reader) =
    [OutByte (Ok (Some x61)); OutOffset 1; OutSlice (Ok (lit "bc" ++ [LF], Found)); OutOffset 4; OutSlice (Ok (lit "defg", BufferFull)); OutOffset 8;
     OutSet (Ok tt); OutByte (Ok (Some x63)); OutOffset 3; OutSet (Err EIo); OutSlice (Ok ([LF], Found)); OutSet (Ok tt); OutByte (Ok None); OutOffset 20;
     OutSet (Ok tt); OutSlice (Ok (lit "ij", AtEof)); OutSlice (Ok ([], AtEof)); OutOffset 11] /\
  f_off (snd (run_ops ex_file 4 (fun n => n) [OpByte; OpOffset] new_reader)) = 1 /\
  f_off (snd (run_ops ex_file 4 (fun n => 3%nat) [OpByte; OpOffset] new_reader)) = 4.
Proof. vm_compute. repeat split. Qed.

(** C36: a record found by an iteration is read again from its position, with the
    same cells, in whatever state previous reads left the shared reader and
    whatever sizes the reads of the file have. *)
Theorem C36_reread_exact : forall file cap chunk chunk' comma ignore_first columns s p row,
  (0 < cap)%nat -> used file cap chunk' comma s -> In (Ok (p, row)) (iterate_all file cap chunk comma ignore_first columns) ->
  fst (exec (get_row file cap chunk' comma p) s) = Ok row.
Proof. exact reread. Qed.
Print Assumptions C36_reread_exact.

(** The positions are in the file and increase strictly; the iteration ends. *)
Theorem C36_positions_increase : forall file cap chunk comma ignore_first columns, (0 < cap)%nat ->
  Forall (fun r => match r with Ok (p, _) => 0 <= p < zlen file | Err _ => True | _ => False end) (iterate_all file cap chunk comma ignore_first columns) /\
  StronglySorted Z.lt (flat_map (fun r => match r with Ok (p, _) => [p] | _ => [] end) (iterate_all file cap chunk comma ignore_first columns)).
Proof. exact increasing. Qed.
Print Assumptions C36_positions_increase.

Theorem C36_buffering_is_invisible : forall file cap cap' chunk chunk' comma ignore_first columns, (0 < cap)%nat -> (0 < cap')%nat ->
  iterate_all file cap chunk comma ignore_first columns = iterate_all file cap' chunk' comma ignore_first columns.
Proof. exact buffering. Qed.
Print Assumptions C36_buffering_is_invisible.

(** A CSV file without syntax error is an input in the sense of C20 to C25. *)
Theorem C36_csv_input_suits : forall name file mtime cap chunk comma ignore_first names ps s rs,
  (0 < cap)%nat -> used file cap chunk comma s ->
  in_iter (csv_input name file mtime cap chunk comma ignore_first names ps s) = map Ok rs ->
  input_ok (csv_input name file mtime cap chunk comma ignore_first names ps s) rs.
Proof. exact csv_input_ok. Qed.
Print Assumptions C36_csv_input_suits.

(** A header, an empty line, a quoted cell of two lines with quotes, rows that are
    too short and too long, no final newline; 3 bytes of buffer. *)
Definition ex_csv : bytes :=
  lit "id,name" ++ [CR; LF] ++ [LF] ++ lit "1,""a" ++ [LF] ++ lit "b""""c"",x" ++ [LF] ++ lit "2" ++ [CR; LF] ++ lit ",".
Definition ex_used : reader := snd (exec (get_row ex_csv 3 (fun n => n) x2c 10) new_reader).
Example C36_example :
  iterate_all ex_csv 3 (fun n => n) x2c true 2 =
    [Ok (9, [lit "1"; lit "a" ++ [LF] ++ lit "b""c"; lit "x"]); Ok (23, [lit "2"]); Ok (26, [[]; []])] /\
  used ex_csv 3 (fun n => n) x2c ex_used /\ b_buf ex_used <> [] /\
  fst (exec (get_row ex_csv 3 (fun n => n) x2c 9) ex_used) = Ok [lit "1"; lit "a" ++ [LF] ++ lit "b""c"; lit "x"] /\
  fst (exec (get_row ex_csv 3 (fun n => n) x2c 15) ex_used) = Err (EMsg "bare quote") /\
  iterate_all (ex_csv ++ lit "a""b") 3 (fun n => n) x2c false 2 =
    [Ok (0, [lit "id"; lit "name"]); Ok (9, [lit "1"; lit "a" ++ [LF] ++ lit "b""c"; lit "x"]); Ok (23, [lit "2"]); Err (EMsg "bare quote")].
Proof. split; [vm_compute; reflexivity|]. split; [apply used_get, used_new|]. vm_compute. repeat split. discriminate. Qed.

(** C38 for CSV inputs (JSON: PropJson; XML: missing): goroutines which read records of the same input by position, in whatever
    interleaving of their steps, each get what they would get alone. *)
Theorem C38_csv_answers_exact_partial : forall file cap chunk comma, (0 < cap)%nat -> forall s positions c,
  used file cap chunk comma s -> steps _ _ _ (get_row file cap chunk comma) (start _ _ _ s positions) c ->
  Forall (fun t => Forall (fun qa => snd qa = fst (exec (get_row file cap chunk comma (fst qa)) new_reader)) (answers_of _ _ _ t)) (c_threads _ _ _ c).
Proof. exact concurrent_answers. Qed.
Print Assumptions C38_csv_answers_exact_partial.

(** No execution goes on forever ... *)
Theorem C38_csv_no_endless_execution_partial : forall file cap chunk comma, (0 < cap)%nat -> forall s positions, used file cap chunk comma s ->
  Acc (fun c' c => step _ _ _ (get_row file cap chunk comma) c c') (start _ _ _ s positions).
Proof. exact concurrent_acc. Qed.
Print Assumptions C38_csv_no_endless_execution_partial.

(** ... and where no step is possible any more, every goroutine has all its
    answers: nobody is blocked. *)
Theorem C38_csv_all_answered_partial : forall file cap chunk comma, (0 < cap)%nat -> forall s positions c,
  used file cap chunk comma s -> steps _ _ _ (get_row file cap chunk comma) (start _ _ _ s positions) c ->
  (forall c', ~ step _ _ _ (get_row file cap chunk comma) c c') ->
  c_threads _ _ _ c = map (fun qs => Idle [] (map (fun p => (p, fst (exec (get_row file cap chunk comma p) new_reader))) qs)) positions.
Proof. exact concurrent_end. Qed.
Print Assumptions C38_csv_all_answered_partial.

(** Without the lock, two reads disturb each other: the second sets the offset
    after the first one did. *)
Example C38_lock_needed :
  let s1 := snd (exec (set_buffered_offset 9) new_reader) in
  let s2 := snd (exec (set_buffered_offset 23) s1) in
  fst (exec (read_csv ex_csv 3 (fun n => n) x2c) s1) = Ok (Some [lit "1"; lit "a" ++ [LF] ++ lit "b""c"; lit "x"]) /\
  fst (exec (read_csv ex_csv 3 (fun n => n) x2c) s2) = Ok (Some [lit "2"]).
Proof. vm_compute. repeat split. Qed.

(** Two goroutines, the second waits for the lock. *)
Example C38_example : exists c,
  steps _ _ _ (get_row ex_csv 3 (fun n => n) x2c) (start _ _ _ new_reader [[9]; [23; 26]]) c /\
  c_locked _ _ _ c = true /\ (forall k, nth_error (c_threads _ _ _ c) 1 = Some k -> k = Idle [23; 26] []).
Proof.
  eexists. split; [|split].
  - eapply steps_more; [apply steps_none|]. unfold start. cbn [map].
    apply (step_lock _ _ _ _ _ [] 9 [] [] [Idle [23; 26] []]).
  - reflexivity.
  - intros k H. injection H as <-. reflexivity.
Qed.

(** C49 (missing: cells with carriage returns, see C49_crlf_cell_refuted).  A text
    that stands for a list of rows, with cells quoted or not, is read as exactly
    these rows with their positions, whatever the number of cells of each. *)
Theorem C49_written_rows_read_partial : forall file cap chunk comma rows columns, (0 < cap)%nat -> valid_delim comma = true ->
  csv_text comma 0 rows file -> iterate_all file cap chunk comma false columns = map Ok rows.
Proof. exact written_read. Qed.
Print Assumptions C49_written_rows_read_partial.

Theorem C49_header_skipped_partial : forall file cap chunk comma p header rows columns, (0 < cap)%nat -> valid_delim comma = true ->
  csv_text comma 0 ((p, header) :: rows) file -> List.length header = columns -> iterate_all file cap chunk comma true columns = map Ok rows.
Proof. exact written_read_header. Qed.
Print Assumptions C49_header_skipped_partial.

Example C49_example :
  csv_text x2c 0 [(0, [lit "a"; lit "x""y" ++ [LF] ++ lit ","; []]); (15, [[]]); (18, [lit "end"])]
    (lit "a,""x""""y" ++ [LF] ++ lit ","","""++ lit """" ++ [CR; LF] ++ lit """""" ++ [LF] ++ lit "end").
Proof.
  change (lit "a,""x""""y" ++ [LF] ++ lit ","","""++ lit """" ++ [CR; LF] ++ lit """""" ++ [LF] ++ lit "end")
    with ((lit "a" ++ x2c :: (quote :: escaped (lit "x""y" ++ [LF] ++ lit ",") ++ [quote]) ++ x2c :: (quote :: escaped [] ++ [quote])) ++ [CR; LF]
          ++ ((quote :: escaped [] ++ [quote]) ++ [LF] ++ lit "end")).
  apply csv_row; [|discriminate|constructor|].
  - apply row_more; [apply plain_cell; vm_compute; intuition discriminate|].
    apply row_more; [apply quoted_cell; vm_compute; intuition discriminate|].
    apply row_one, quoted_cell. vm_compute. intuition discriminate.
  - apply csv_row; [|discriminate|constructor|].
    + apply row_one, quoted_cell. vm_compute. intuition discriminate.
    + apply csv_last; [|discriminate]. apply row_one, plain_cell; vm_compute; intuition discriminate.
Qed.

(** A line break in a cell, written as CR LF, is read as LF. *)
Theorem C49_crlf_cell_refuted : exists file, file = quote :: escaped (lit "a" ++ [CR; LF] ++ lit "b") ++ [quote] /\
  iterate_all file 4096 (fun n => n) x2c false 1 = [Ok (0, [lit "a" ++ [LF] ++ lit "b"])].
Proof. eexists. split; [reflexivity|vm_compute; reflexivity]. Qed.
Print Assumptions C49_crlf_cell_refuted.

(** A row with another number of cells is only warned about, except the header,
    which makes the whole input unusable. *)
Theorem C49_header_count_refuted : exists file,
  iterate_all file 4096 (fun n => n) x2c false 1 = [Ok (0, [lit "a"; lit "b"]); Ok (4, [lit "1"])] /\
  iterate_all file 4096 (fun n => n) x2c true 1 = [Err (EMsg "wrong number of fields")].
Proof. exists (lit "a,b" ++ [LF] ++ lit "1"). vm_compute. split; reflexivity. Qed.
Print Assumptions C49_header_count_refuted.
