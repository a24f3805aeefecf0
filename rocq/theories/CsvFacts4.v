(** Proofs about the CSV input, as stated in PropCsv.v. *)
From Coq Require Import String List ZArith Lia Bool Arith Sorted.
From Coq Require Import Strings.Byte.
From Verif Require Import Base Value Records SpecIndex SpecOutput Prog ProgFacts Bufio SpecBufio BufioFacts CsvReader SpecCsv CsvFacts CsvFacts2 CsvFacts3.
Import ListNotations.
Open Scope Z_scope.

Lemma reread file cap chunk chunk' comma ignore_first columns s p row :
  (0 < cap)%nat -> used file cap chunk' comma s -> In (Ok (p, row)) (iterate_all file cap chunk comma ignore_first columns) ->
  fst (exec (get_row file cap chunk' comma p) s) = Ok row.
Proof.
  intros Hc Hu Hi. rewrite iterate_all_rows in Hi by exact Hc.
  destruct (used_inv file cap chunk' Hc comma s Hu) as [pos Hinv].
  destruct (get_row_exec file cap chunk' Hc comma p pos s Hinv) as [-> _].
  destruct (all_rows_ok file comma ignore_first columns) as (_ & H & _). apply (H p row Hi).
Qed.

Lemma increasing file cap chunk comma ignore_first columns : (0 < cap)%nat ->
  Forall (fun r => match r with Ok (p, _) => 0 <= p < zlen file | Err _ => True | _ => False end) (iterate_all file cap chunk comma ignore_first columns) /\
  StronglySorted Z.lt (flat_map (fun r => match r with Ok (p, _) => [p] | _ => [] end) (iterate_all file cap chunk comma ignore_first columns)).
Proof.
  intros Hc. rewrite iterate_all_rows by exact Hc. destruct (all_rows_ok file comma ignore_first columns) as (H1 & H2 & H3).
  split; [|exact H3]. apply Forall_forall. intros r Hr. rewrite Forall_forall in H1. specialize (H1 r Hr).
  destruct r as [[p row]| | |]; try exact H1. apply (H2 p row Hr).
Qed.

Lemma buffering file cap cap' chunk chunk' comma ignore_first columns : (0 < cap)%nat -> (0 < cap')%nat ->
  iterate_all file cap chunk comma ignore_first columns = iterate_all file cap' chunk' comma ignore_first columns.
Proof. intros H H'. rewrite !iterate_all_rows by assumption. reflexivity. Qed.

Lemma csv_input_ok name file mtime cap chunk comma ignore_first names ps s rs :
  (0 < cap)%nat -> used file cap chunk comma s ->
  in_iter (csv_input name file mtime cap chunk comma ignore_first names ps s) = map Ok rs ->
  input_ok (csv_input name file mtime cap chunk comma ignore_first names ps s) rs.
Proof.
  intros Hc Hu. unfold csv_input. cbn [in_iter in_get]. intros E. split; [exact E|].
  pose proof (increasing file cap chunk comma ignore_first (length names) Hc) as [_ Hs].
  pose proof (fun p row => reread file cap chunk chunk comma ignore_first (length names) s p row Hc Hu) as Hr.
  set (its := iterate_all file cap chunk comma ignore_first (length names)) in *. clearbody its.
  assert (Hrec : forall r, In r rs -> exists p row, In (Ok (p, row)) its /\ r = csv_record names ps row p).
  { intros r Hi. assert (Hi' : In (Ok r) (map Ok rs)) by (apply in_map; exact Hi).
    rewrite <- E in Hi'. apply in_map_iff in Hi' as ([[p row]| | |] & E' & Hi'); cbn in E'; try discriminate.
    injection E' as <-. exists p, row. split; [exact Hi'|reflexivity]. }
  split.
  - unfold in_file_order. replace (map r_pos rs) with (flat_map (fun r : res (Z * list bytes) => match r with Ok (p, _) => [p] | _ => [] end) its); [exact Hs|].
    clear -E. revert rs E. induction its as [|[[p row]| | |] its IH]; intros [|r rs] E; cbn in *; try discriminate; [reflexivity|].
    injection E as <- E. cbn. f_equal. apply IH. exact E.
  - intros r Hi. destruct (Hrec r Hi) as (p & row & Hin & ->). change (r_pos (csv_record names ps row p)) with p. cbn beta.
    change (rmap (fun row0 => csv_record names ps row0 p) (fst (exec (get_row file cap chunk comma p) s)) = Ok (csv_record names ps row p)).
    rewrite (Hr p row Hin). reflexivity.
Qed.

Section Conc.
Variable file : bytes.
Variable cap : nat.
Variable chunk : nat -> nat.
Variable comma : byte.
Hypothesis Hc : (0 < cap)%nat.
Local Notation body := (get_row file cap chunk comma).
Local Notation alone p := (fst (exec (body p) new_reader)).

Lemma alone_got p : alone p = got file comma p.
Proof. apply (get_row_exec file cap chunk Hc comma p 0 new_reader (inv_new file cap Hc)). Qed.

Lemma body_ok p s : (exists pos, inv file cap pos s) -> fst (exec (body p) s) = alone p /\ exists pos, inv file cap pos (snd (exec (body p) s)).
Proof.
  intros [pos Hi]. destruct (get_row_exec file cap chunk Hc comma p pos s Hi) as [E H].
  split; [rewrite E, alone_got; reflexivity|exact H].
Qed.

Lemma concurrent_answers s qss c : used file cap chunk comma s -> steps _ _ _ body (start _ _ _ s qss) c ->
  Forall (fun t => Forall (fun qa => snd qa = alone (fst qa)) (answers_of _ _ _ t)) (c_threads _ _ _ c).
Proof.
  intros Hu Hs. apply (start_answers _ _ _ body (fun s => exists pos, inv file cap pos s) (fun p => alone p) body_ok s qss c); [|exact Hs].
  apply (used_inv file cap chunk Hc comma s Hu).
Qed.
Lemma concurrent_end s qss c : used file cap chunk comma s -> steps _ _ _ body (start _ _ _ s qss) c ->
  (forall c', ~ step _ _ _ body c c') ->
  c_threads _ _ _ c = map (fun qs => Idle [] (map (fun p => (p, alone p)) qs)) qss.
Proof.
  intros Hu Hs. apply (start_finished _ _ _ body (fun s => exists pos, inv file cap pos s) (fun p => alone p) body_ok s qss c); [|exact Hs].
  apply (used_inv file cap chunk Hc comma s Hu).
Qed.
Lemma concurrent_acc s qss : used file cap chunk comma s -> Acc (fun c' c => step _ _ _ body c c') (start _ _ _ s qss).
Proof.
  intros Hu. apply (start_acc _ _ _ body (fun s => exists pos, inv file cap pos s) (fun p => alone p) body_ok).
  apply (used_inv file cap chunk Hc comma s Hu).
Qed.
End Conc.

Lemma written_read file cap chunk comma rows columns : (0 < cap)%nat -> valid_delim comma = true ->
  csv_text comma 0 rows file -> iterate_all file cap chunk comma false columns = map Ok rows.
Proof. intros Hc Hd H. rewrite iterate_all_rows by exact Hc. apply all_rows_text; assumption. Qed.
Lemma written_read_header file cap chunk comma p header rows columns : (0 < cap)%nat -> valid_delim comma = true ->
  csv_text comma 0 ((p, header) :: rows) file -> length header = columns -> iterate_all file cap chunk comma true columns = map Ok rows.
Proof. intros Hc Hd H Hl. rewrite iterate_all_rows by exact Hc. eapply all_rows_header; eassumption. Qed.
