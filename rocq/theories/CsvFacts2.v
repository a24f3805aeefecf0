(** Proofs about the CSV reader: rows of a list of bytes, positions. *)
From Coq Require Import String List ZArith Lia Bool Arith.
From Coq Require Import Strings.Byte Sorting.Sorted.
From Verif Require Import Base Value Records Prog Bufio SpecBufio BufioFacts CsvReader SpecCsv CsvFacts.
Import ListNotations.
Open Scope Z_scope.

Definition answered {A} (r : res A) : Prop := match r with Ok _ | Err _ => True | _ => False end.

Lemma drop_cr_le l : (length (drop_cr l) <= length l)%nat.
Proof.
  unfold drop_cr. destruct (rev l) as [|c l0] eqn:E; [lia|]. destruct (beqb c CR); [|lia].
  apply (f_equal (@length byte)) in E. rewrite rev_length in E. rewrite rev_length. cbn [length] in *. lia.
Qed.
Lemma unify_end_le l : (length (unify_end l) <= length l)%nat.
Proof.
  unfold unify_end. destruct (rev l) as [|c [|c' l0]] eqn:E; try lia. destruct (beqb c LF && beqb c' CR); [|lia].
  rewrite rev_length. apply (f_equal (@length byte)) in E. rewrite rev_length in E. cbn [length] in *. lia.
Qed.
Lemma normalize_le line eof : (length (fst (normalize line eof)) <= length line)%nat.
Proof.
  unfold normalize. destruct line as [|x line]; [cbn; lia|]. cbn [fst]. etransitivity; [apply unify_end_le|].
  destruct eof; [apply drop_cr_le|lia].
Qed.

Lemma pure_line_le l : (length (snd (exec pure_line l)) + length (fst (fst (cut_line l))) = length l)%nat.
Proof.
  rewrite pure_line_exec. cbn [snd]. pose proof (cut_line_split l) as H. apply (f_equal (@length byte)) in H.
  rewrite app_length in H. lia.
Qed.

(** What pure_line gives. *)
Lemma pure_line_ok l : exists line eof l', exec pure_line l = (Ok (line, eof), l') /\ (length line + length l' <= length l)%nat
  /\ (eof = false -> (length l' < length l)%nat).
Proof.
  rewrite pure_line_exec. pose proof (normalize_le (fst (fst (cut_line l))) (snd (fst (cut_line l)))) as Hn.
  pose proof (cut_line_split l) as Hs. apply (f_equal (@length byte)) in Hs. rewrite app_length in Hs.
  destruct (normalize (fst (fst (cut_line l))) (snd (fst (cut_line l)))) as [line eof] eqn:E.
  exists line, eof, (snd (cut_line l)). cbn [fst] in Hn. split; [reflexivity|]. split; [lia|].
  intros ->. destruct (fst (fst (cut_line l))) as [|x y] eqn:Ey; [|cbn [length] in Hs; lia].
  cbn in E. injection E as _ E.
  unfold cut_line in Ey, E. destruct (cut_byte LF l) as [[a b]|]; cbn [fst snd] in *; [|discriminate].
  destruct a; discriminate Ey.
Qed.

Section Pure.
Variable comma : byte.

Lemma first_line_ok : forall fuel l, (length l < fuel)%nat ->
  exists r l', exec (first_line bytes pure_line fuel) l = (Ok r, l') /\
    match r with Some line => (length line + length l' <= length l)%nat /\ (length l' < length l)%nat | None => (length l' <= length l)%nat end.
Proof.
  induction fuel as [|fuel IH]; intros l Hf; [lia|]. cbn [first_line]. rewrite exec_pbind.
  destruct (pure_line_ok l) as (line & eof & l' & -> & H1 & H2). cbn [fst snd].
  destruct eof.
  - exists None, l'. split; [reflexivity|lia].
  - specialize (H2 eq_refl). destruct (blank line).
    + destruct (IH l') as (r & l2 & E & H); [lia|]. exists r, l2. split; [exact E|]. destruct r; lia.
    + exists (Some line), l'. split; [reflexivity|lia].
Qed.

Lemma fields_ok : forall fuel q line done l, (length line + length l < fuel)%nat ->
  answered (fst (exec (fields bytes pure_line comma fuel q line done) l)) /\
  (length (snd (exec (fields bytes pure_line comma fuel q line done) l)) <= length l)%nat.
Proof.
  induction fuel as [|fuel IH]; intros q line done l Hf; [lia|].
  assert (Hret : forall r : res (list bytes), answered r -> answered (fst (exec (Ret (S := bytes) r) l)) /\ (length (snd (exec (Ret (S := bytes) r) l)) <= length l)%nat).
  { intros r Hr. split; [exact Hr|]. cbn. lia. }
  cbn [fields]. destruct q as [acc|].
  - destruct (cut_byte quote line) as [[a l2]|] eqn:Ec.
    + apply cut_byte_Some in Ec as [El _]. apply (f_equal (@length byte)) in El. rewrite app_length in El. cbn [length] in El.
      destruct l2 as [|c l3]; [apply Hret; exact I|]. cbn [length] in El.
      destruct (beqb c quote); [apply IH; lia|]. destruct (beqb c comma); [apply IH; lia|].
      destruct (blank (c :: l3)); apply Hret; exact I.
    + destruct line as [|x line]; [apply Hret; exact I|]. cbn [length] in Hf.
      rewrite exec_pbind. destruct (pure_line_ok l) as (line' & eof & l' & -> & H1 & _). cbn [fst snd].
      destruct (IH (Some (acc ++ x :: line)) line' done l') as [HA HB]; [lia|]. split; [exact HA|lia].
  - destruct line as [|c line']; [apply Hret; exact I|].
    destruct (beqb c quote); [apply IH; cbn [length] in Hf; lia|].
    destruct (cut_byte comma (c :: line')) as [[a l2]|] eqn:Ec.
    + apply cut_byte_Some in Ec as [El _]. apply (f_equal (@length byte)) in El. rewrite app_length in El. cbn [length] in El, Hf.
      destruct (existsb (beqb quote) a); [apply Hret; exact I|apply IH; lia].
    + cbv zeta. destruct (existsb (beqb quote) (chomp (c :: line'))); apply Hret; exact I.
Qed.

Lemma read_row_ok fuel l : (length l < fuel)%nat ->
  answered (fst (exec (read_row bytes pure_line comma fuel) l)) /\
  (length (snd (exec (read_row bytes pure_line comma fuel) l)) <= length l)%nat /\
  (forall row, fst (exec (read_row bytes pure_line comma fuel) l) = Ok (Some row) -> (length (snd (exec (read_row bytes pure_line comma fuel) l)) < length l)%nat).
Proof.
  intros Hf. unfold read_row. destruct (valid_delim comma).
  - rewrite exec_pbind. destruct (first_line_ok fuel l Hf) as (r & l' & -> & H). destruct r as [line|].
    + rewrite exec_pbind. destruct (fields_ok fuel None line [] l') as [HA HB]; [lia|].
      destruct (exec (fields bytes pure_line comma fuel None line []) l') as [r l2]. cbn [fst snd] in *.
      destruct r; cbn [exec fst snd answered] in *; try contradiction; (split; [exact I|]; split; [lia|]); intros row E; [lia|discriminate].
    + cbn [exec fst snd answered]. split; [exact I|]. split; [lia|discriminate].
  - cbn. split; [exact I|]. split; [lia|discriminate].
Qed.
End Pure.

Section Positions.
Variable file : bytes.
Variable comma : byte.
Local Notation rest p := (skipn (Z.to_nat p) file).
Local Notation row_at := (row_at file comma).
Local Notation rows_at := (rows_at file comma).

Lemma row_at_ok pos :
  answered (fst (row_at (rest pos))) /\ (length (snd (row_at (rest pos))) <= length (rest pos))%nat /\
  (forall row, fst (row_at (rest pos)) = Ok (Some row) -> (length (snd (row_at (rest pos))) < length (rest pos))%nat).
Proof.
  assert (Hlen : (length (rest pos) <= length file)%nat) by (rewrite skipn_length; lia).
  unfold row_at. apply read_row_ok. unfold line_fuel. lia.
Qed.

Lemma rows_at_ok : forall fuel pos, 0 <= pos -> (length (rest pos) < fuel)%nat ->
  Forall answered (rows_at fuel pos) /\
  (forall p row, In (Ok (p, row)) (rows_at fuel pos) -> pos <= p < zlen file /\ got file comma p = Ok row) /\
  StronglySorted Z.lt (flat_map (fun r => match r with Ok (p, _) => [p] | _ => [] end) (rows_at fuel pos)).
Proof.
  induction fuel as [|fuel IH]; intros pos Hp Hf; [lia|]. cbn [CsvFacts.rows_at].
  destruct (row_at_ok pos) as (HA & HB & HC).
  assert (Hg : got file comma pos = match fst (row_at (rest pos)) with
     | Ok None => Err (EMsg "Cannot read csv data: EOF") | Ok (Some row) => Ok row | Err e => Err e | Panic => Panic | NoFuel => NoFuel end).
  { unfold got. destruct (Z.ltb_spec pos 0); [lia|reflexivity]. }
  destruct (row_at (rest pos)) as [r l'] eqn:Er. cbn [fst snd] in *.
  destruct r as [[row|]| | |]; cbn [answered] in HA; try contradiction.
  - specialize (HC row eq_refl).
    assert (Hlen : (length (rest pos) = length file - Z.to_nat pos)%nat) by apply skipn_length.
    set (pos' := pos + zlen (rest pos) - zlen l').
    assert (Hlt : pos < pos') by (unfold pos', zlen; lia).
    assert (Hlen' : (length (rest pos') <= length l')%nat).
    { rewrite skipn_length. unfold pos', zlen in *. lia. }
    destruct (IH pos') as (H1 & H2 & H3); [lia|lia|].
    split; [constructor; [exact I|exact H1]|]. split.
    + intros p row' [E|Hi].
      * injection E as <- <-. split; [unfold zlen; lia|]. exact Hg.
      * destruct (H2 p row' Hi). split; [lia|assumption].
    + cbn [flat_map app]. constructor; [exact H3|]. apply Forall_forall. intros p Hi.
      apply in_flat_map in Hi as ([[p' row']| | |] & Hi & Hj); cbn in Hj; try tauto. destruct Hj as [->|[]].
      destruct (H2 p row' Hi). lia.
  - split; [constructor|]. split; [intros ? ? []|constructor].
  - split; [constructor; [exact I|constructor]|]. split; [intros ? ? [E|[]]; discriminate|constructor].
Qed.

Lemma all_rows_ok ignore_first columns :
  Forall answered (all_rows file comma ignore_first columns) /\
  (forall p row, In (Ok (p, row)) (all_rows file comma ignore_first columns) -> 0 <= p < zlen file /\ got file comma p = Ok row) /\
  StronglySorted Z.lt (flat_map (fun r => match r with Ok (p, _) => [p] | _ => [] end) (all_rows file comma ignore_first columns)).
Proof.
  assert (Herr : forall e : err, Forall answered [Err (A := Z * list bytes) e] /\
    (forall p row, In (Ok (p, row)) [Err (A := Z * list bytes) e] -> 0 <= p < zlen file /\ got file comma p = Ok row) /\
    StronglySorted Z.lt (flat_map (fun r => match r with Ok (p, _) => [p] | _ => [] end) [Err (A := Z * list bytes) e])).
  { intros e. split; [constructor; [exact I|constructor]|]. split; [intros ? ? [E|[]]; discriminate|constructor]. }
  unfold all_rows. destruct ignore_first.
  - pose proof (row_at_ok 0) as (HA & HB & _). cbn [Z.to_nat skipn] in HA, HB.
    destruct (row_at file) as [r l'] eqn:Er. cbn [fst snd] in *.
    destruct r as [[row|]| | |]; cbn [answered] in HA; try contradiction; try apply Herr.
    destruct (length row =? columns)%nat; [|apply Herr].
    assert (Hp : 0 <= zlen file - zlen l') by (unfold zlen; lia).
    destruct (rows_at_ok (line_fuel file) (zlen file - zlen l') Hp) as (H1 & H2 & H3).
    { rewrite skipn_length. unfold line_fuel. lia. }
    split; [exact H1|]. split; [|exact H3]. intros p row' Hi. destruct (H2 p row' Hi). split; [lia|assumption].
  - apply rows_at_ok; [lia|]. cbn [Z.to_nat skipn]. unfold line_fuel. lia.
Qed.
End Positions.
