(** Proofs about the CSV reader: reading back written texts. *)
From Coq Require Import String List ZArith Lia Bool Arith.
From Coq Require Import Strings.Byte.
From Verif Require Import Base Value Records Prog Bufio SpecBufio BufioFacts CsvReader SpecCsv CsvFacts CsvFacts2.
Import ListNotations.
Open Scope Z_scope.

(** The line at the start of a text, as pure_line gives it, and what follows. *)
Definition norm (l : bytes) : bytes := fst (normalize (fst (fst (cut_line l))) (snd (fst (cut_line l)))).
Definition tail (l : bytes) : bytes := snd (cut_line l).

Definition plain (c : byte) : Prop := c <> LF /\ c <> CR.

Lemma beqb_neq (a b : byte) : a <> b -> beqb a b = false.
Proof. intro H. destruct (beqb a b) eqn:E; [apply beqb_true in E; contradiction|reflexivity]. Qed.

Lemma cut_line_cons c l : c <> LF -> cut_line (c :: l) = ((c :: fst (fst (cut_line l)), snd (fst (cut_line l))), snd (cut_line l)).
Proof.
  intro H. unfold cut_line. cbn [cut_byte]. rewrite beqb_neq by exact H.
  destruct (cut_byte LF l) as [[a b]|]; reflexivity.
Qed.

Lemma unify_end_cons c l : plain c -> unify_end (c :: l) = c :: unify_end l.
Proof.
  intros [H1 H2]. unfold unify_end. cbn [rev]. destruct (rev l) as [|a [|b l1]] eqn:E; cbn [app].
  - reflexivity.
  - rewrite (beqb_neq c CR) by exact H2. rewrite andb_false_r. reflexivity.
  - destruct (beqb a LF && beqb b CR); [|reflexivity]. cbn [rev]. rewrite rev_app_distr. reflexivity.
Qed.
Lemma drop_cr_cons c l : plain c -> drop_cr (c :: l) = c :: drop_cr l.
Proof.
  intros [H1 H2]. unfold drop_cr. cbn [rev]. destruct (rev l) as [|a l1] eqn:E; cbn [app].
  - rewrite beqb_neq by exact H2. apply (f_equal (@rev byte)) in E. rewrite rev_involutive in E. rewrite E. reflexivity.
  - destruct (beqb a CR); [rewrite rev_app_distr|]; reflexivity.
Qed.
Lemma normalize_cons c l e : plain c -> fst (normalize (c :: l) e) = c :: fst (normalize l e).
Proof.
  intros H. unfold normalize. cbn [fst]. destruct l as [|x l].
  - destruct e; [rewrite drop_cr_cons by exact H|]; rewrite unify_end_cons by exact H; reflexivity.
  - cbn [fst]. destruct e; [rewrite (drop_cr_cons c) by exact H|]; apply unify_end_cons; exact H.
Qed.

Lemma norm_cons c l : plain c -> norm (c :: l) = c :: norm l.
Proof. intros H. unfold norm. rewrite cut_line_cons by apply H. cbn [fst snd]. apply normalize_cons. exact H. Qed.
Lemma tail_cons c l : c <> LF -> tail (c :: l) = tail l.
Proof. intros H. unfold tail. rewrite cut_line_cons by exact H. reflexivity. Qed.
Lemma norm_LF l : norm (LF :: l) = [LF].
Proof. reflexivity. Qed.
Lemma tail_LF l : tail (LF :: l) = l.
Proof. reflexivity. Qed.

Lemma norm_app a l : Forall plain a -> norm (a ++ l) = a ++ norm l.
Proof. induction 1 as [|c a Hc _ IH]; [reflexivity|]. cbn [app]. rewrite norm_cons by exact Hc. now rewrite IH. Qed.
Lemma tail_app a l : Forall plain a -> tail (a ++ l) = tail l.
Proof. induction 1 as [|c a Hc _ IH]; [reflexivity|]. cbn [app]. rewrite tail_cons by apply Hc. exact IH. Qed.

(** The rest of a file after a row. *)
Inductive stop : bytes -> bytes -> Prop :=
| stop_eof : stop [] []
| stop_line e ts : line_end e -> stop (e ++ ts) ts.

Lemma stop_norm T ts : stop T ts -> tail T = ts /\ (norm T = [] \/ norm T = [LF]).
Proof. intros [|e ts0 [|]]; (split; [reflexivity|]); [left|right|right]; reflexivity. Qed.

Section Runs.
Variable comma : byte.
Hypothesis Hcomma : valid_delim comma = true.

Lemma comma_plain : plain comma /\ comma <> quote.
Proof.
  unfold valid_delim in Hcomma. apply negb_true_iff in Hcomma. rewrite !orb_false_iff in Hcomma.
  destruct Hcomma as ((((_ & H1) & H2) & H3) & _).
  repeat split; intros ->; rewrite beqb_same in *; discriminate.
Qed.
Lemma quote_plain : plain quote.
Proof. split; discriminate. Qed.

Definition runs (q : option bytes) (line l : bytes) (done : list bytes) (r : res (list bytes)) (l' : bytes) : Prop :=
  forall fuel, (length line + length l < fuel)%nat -> exec (fields bytes pure_line comma fuel q line done) l = (r, l').

Lemma runs_char c acc T done r l' : plain c -> c <> quote -> norm T <> [] ->
  runs (Some (acc ++ [c])) (norm T) (tail T) done r l' -> runs (Some acc) (norm (c :: T)) (tail (c :: T)) done r l'.
Proof.
  intros Hc Hq Hn H fuel Hf. rewrite norm_cons in Hf by exact Hc. rewrite norm_cons by exact Hc.
  rewrite tail_cons in Hf by apply Hc. rewrite tail_cons by apply Hc. cbn [length] in Hf.
  rewrite <- (H fuel) by lia. destruct fuel as [|fuel]; [lia|].
  cbn [fields cut_byte]. rewrite beqb_neq by exact Hq.
  destruct (cut_byte quote (norm T)) as [[a b]|].
  - rewrite <- !app_assoc. cbn [app]. reflexivity.
  - destruct (norm T) as [|x y]; [contradiction|]. rewrite <- app_assoc. reflexivity.
Qed.

Lemma runs_newline acc T done r l' :
  runs (Some (acc ++ [LF])) (norm T) (tail T) done r l' -> runs (Some acc) (norm (LF :: T)) (tail (LF :: T)) done r l'.
Proof.
  intros H fuel Hf. rewrite norm_LF, tail_LF in *. cbn [length] in Hf. destruct fuel as [|fuel]; [lia|].
  cbn [fields cut_byte]. change (beqb LF quote) with false. cbn [fields]. rewrite exec_pbind, pure_line_exec.
  cbn [fst]. change (fst (normalize (fst (fst (cut_line T))) (snd (fst (cut_line T))))) with (norm T).
  change (snd (cut_line T)) with (tail T). apply H.
  pose proof (normalize_le (fst (fst (cut_line T))) (snd (fst (cut_line T)))) as Hl.
  pose proof (cut_line_split T) as Hs. apply (f_equal (@length byte)) in Hs. rewrite app_length in Hs.
  change (fst (normalize (fst (fst (cut_line T))) (snd (fst (cut_line T))))) with (norm T) in Hl.
  change (snd (cut_line T)) with (tail T) in Hs. lia.
Qed.

Lemma runs_double acc T done r l' :
  runs (Some (acc ++ [quote])) (norm T) (tail T) done r l' ->
  runs (Some acc) (norm (quote :: quote :: T)) (tail (quote :: quote :: T)) done r l'.
Proof.
  intros H fuel Hf. rewrite !norm_cons in * by apply quote_plain. rewrite !tail_cons in * by discriminate.
  cbn [length] in Hf. destruct fuel as [|fuel]; [lia|].
  cbn [fields cut_byte]. change (beqb quote quote) with true. cbn [app]. apply H. lia.
Qed.

Lemma norm_escaped cell T : ~ In CR cell -> norm (escaped cell ++ quote :: T) <> [].
Proof.
  intros Hn. destruct cell as [|c cell]; cbn [escaped].
  - cbn [app]. rewrite norm_cons by apply quote_plain. discriminate.
  - destruct (beqb c quote); cbn [app]; [rewrite norm_cons by apply quote_plain; discriminate|].
    destruct (Byte.byte_eq_dec c LF) as [->|H]; [rewrite norm_LF; discriminate|].
    rewrite norm_cons; [discriminate|]. split; [exact H|]. intros ->. apply Hn. now left.
Qed.

Lemma runs_escaped T done r l' : forall cell acc, ~ In CR cell ->
  runs (Some (acc ++ cell)) (norm (quote :: T)) (tail (quote :: T)) done r l' ->
  runs (Some acc) (norm (escaped cell ++ quote :: T)) (tail (escaped cell ++ quote :: T)) done r l'.
Proof.
  induction cell as [|c cell IH]; intros acc Hn H; cbn [escaped].
  - rewrite app_nil_r in H. exact H.
  - assert (Hn' : ~ In CR cell) by (intro; apply Hn; now right).
    assert (H' : runs (Some ((acc ++ [c]) ++ cell)) (norm (quote :: T)) (tail (quote :: T)) done r l') by (rewrite <- app_assoc; exact H).
    specialize (IH (acc ++ [c]) Hn' H').
    destruct (beqb c quote) eqn:Eq; cbn [app].
    + apply beqb_true in Eq. subst c. apply runs_double. exact IH.
    + destruct (Byte.byte_eq_dec c LF) as [->|Hl]; [apply runs_newline; exact IH|].
      apply runs_char; [split; [exact Hl|intros ->; apply Hn; now left]| |apply norm_escaped; exact Hn'|exact IH].
      intros ->. rewrite beqb_same in Eq. discriminate.
Qed.

Lemma not_in_plain cell : ~ In LF cell -> ~ In CR cell -> Forall plain cell.
Proof. intros H1 H2. apply Forall_forall. intros c Hc. split; intros ->; contradiction. Qed.
Lemma no_quote cell : ~ In quote cell -> existsb (beqb quote) cell = false.
Proof.
  intros H. destruct (existsb (beqb quote) cell) eqn:E; [|reflexivity]. apply existsb_exists in E as (c & Hc & E).
  apply beqb_true in E. subst c. contradiction.
Qed.

(** A cell followed by the delimiter. *)
Lemma runs_cell cell t T done r l' : cell_text comma cell t ->
  runs None (norm T) (tail T) (done ++ [cell]) r l' ->
  runs None (norm (t ++ comma :: T)) (tail (t ++ comma :: T)) done r l'.
Proof.
  destruct comma_plain as [Hp Hq].
  intros [cell' Hc1 Hc2 Hc3 Hc4|cell' Hc] H.
  - pose proof (not_in_plain cell' Hc3 Hc4) as Hpl. intros fuel Hf.
    rewrite norm_app, norm_cons in * by assumption. rewrite tail_app, tail_cons in * by (assumption || apply Hp).
    rewrite app_length in Hf. cbn [length] in Hf. destruct fuel as [|fuel]; [lia|]. cbn [fields].
    assert (Hcut : cut_byte comma (cell' ++ comma :: norm T) = Some (cell', norm T)) by (apply cut_byte_app; exact Hc2).
    destruct (cell' ++ comma :: norm T) as [|c line'] eqn:El; [destruct cell'; discriminate|].
    assert (Hcq : beqb c quote = false).
    { apply beqb_neq. intros ->. destruct cell' as [|x y]; injection El as -> _; [congruence|]. apply Hc1. now left. }
    rewrite Hcq, Hcut, no_quote by exact Hc1. apply H. lia.
  - intros fuel Hf. cbn [app] in *. rewrite norm_cons in * by apply quote_plain. rewrite tail_cons in * by discriminate.
    cbn [length] in Hf. destruct fuel as [|fuel]; [lia|]. cbn [fields]. change (beqb quote quote) with true. cbn match.
    rewrite <- !app_assoc in *. cbn [app] in *.
    apply (runs_escaped (comma :: T) done r l' cell' [] Hc); [|lia].
    cbn [app]. intros fuel2 Hf2. rewrite norm_cons in * by apply quote_plain. rewrite norm_cons in * by exact Hp.
    rewrite tail_cons in * by discriminate. rewrite tail_cons in * by apply Hp.
    cbn [length] in Hf2. destruct fuel2 as [|fuel2]; [lia|]. cbn [fields cut_byte]. change (beqb quote quote) with true.
    cbn match. rewrite beqb_neq by exact Hq. rewrite beqb_same, app_nil_r. apply H. lia.
Qed.

(** The last cell of a row. *)
Lemma chomp_LF cell : chomp (cell ++ [LF]) = cell.
Proof. unfold chomp. rewrite rev_app_distr. cbn. apply rev_involutive. Qed.
Lemma chomp_none cell : ~ In LF cell -> chomp cell = cell.
Proof.
  intros H. unfold chomp. destruct (rev cell) as [|c l] eqn:E; [reflexivity|].
  rewrite beqb_neq; [reflexivity|]. intros ->. apply H. apply in_rev. rewrite E. now left.
Qed.

Lemma runs_last cell t T ts done : cell_text comma cell t -> stop T ts ->
  runs None (norm (t ++ T)) (tail (t ++ T)) done (Ok (done ++ [cell])) ts.
Proof.
  destruct comma_plain as [Hp Hq]. intros Hc Hs. destruct (stop_norm T ts Hs) as [Ht HT].
  destruct Hc as [cell' Hc1 Hc2 Hc3 Hc4|cell' Hc].
  - pose proof (not_in_plain cell' Hc3 Hc4) as Hpl. intros fuel Hf.
    rewrite norm_app in * by assumption. rewrite tail_app in * by assumption. rewrite Ht in *.
    destruct fuel as [|fuel]; [lia|]. cbn [fields].
    assert (Hcut : cut_byte comma (cell' ++ norm T) = None).
    { apply cut_byte_notin. rewrite in_app_iff. intros [H|H]; [contradiction|].
      destruct HT as [E|E]; rewrite E in H; [destruct H|]. destruct H as [H|[]]. apply (proj1 Hp). symmetry. exact H. }
    assert (Hch : chomp (cell' ++ norm T) = cell').
    { destruct HT as [E|E]; rewrite E; [rewrite app_nil_r; apply chomp_none; exact Hc3|apply chomp_LF]. }
    destruct (cell' ++ norm T) as [|c line'] eqn:El.
    + destruct cell'; [reflexivity|discriminate].
    + assert (Hcq : beqb c quote = false).
      { apply beqb_neq. intros ->. destruct cell' as [|x y].
        - cbn [app] in El. destruct HT as [E|E]; rewrite E in El; discriminate.
        - injection El as -> _. apply Hc1. now left. }
      rewrite Hcq, Hcut. cbv zeta. rewrite Hch, no_quote by exact Hc1. reflexivity.
  - intros fuel Hf. cbn [app] in *. rewrite norm_cons in * by apply quote_plain. rewrite tail_cons in * by discriminate.
    cbn [length] in Hf. destruct fuel as [|fuel]; [lia|]. cbn [fields]. change (beqb quote quote) with true. cbn match.
    rewrite <- !app_assoc in *. cbn [app] in *.
    apply (runs_escaped T done _ ts cell' [] Hc); [|lia].
    cbn [app]. intros fuel2 Hf2. rewrite norm_cons in * by apply quote_plain. rewrite tail_cons in * by discriminate.
    rewrite Ht in *. destruct fuel2 as [|fuel2]; [lia|]. cbn [fields cut_byte]. change (beqb quote quote) with true.
    cbn match. destruct HT as [E|E]; rewrite E; rewrite app_nil_r; [reflexivity|].
    change (beqb LF quote) with false. rewrite beqb_neq; [reflexivity|]. intros H. apply (proj1 Hp). symmetry. exact H.
Qed.

Lemma runs_row row t T ts : row_text comma row t -> stop T ts -> forall done,
  runs None (norm (t ++ T)) (tail (t ++ T)) done (Ok (done ++ row)) ts.
Proof.
  intros Hr Hs. induction Hr as [cell t Hc|cell t cells tr Hc _ IH]; intros done.
  - apply runs_last; assumption.
  - rewrite <- app_assoc. cbn [app]. apply runs_cell with (cell := cell); [exact Hc|].
    replace (done ++ cell :: cells) with ((done ++ [cell]) ++ cells) by (rewrite <- app_assoc; reflexivity). apply IH.
Qed.

(** The first character of a row which is not empty. *)
Lemma row_head row t : row_text comma row t -> t <> [] -> exists c t', t = c :: t' /\ plain c.
Proof.
  destruct comma_plain as [Hp _].
  assert (Hcell : forall cell t, cell_text comma cell t -> t <> [] -> exists c t', t = c :: t' /\ plain c).
  { intros cell t0 [cell' H1 H2 H3 H4|cell' H] Hn.
    - destruct cell' as [|c cell']; [contradiction|]. exists c, cell'. split; [reflexivity|].
      split; intros ->; [apply H3|apply H4]; now left.
    - exists quote, (escaped cell' ++ [quote]). split; [reflexivity|apply quote_plain]. }
  intros [cell t0 Hc|cell t0 cells ts Hc _] Hn.
  - apply (Hcell cell t0 Hc Hn).
  - destruct t0 as [|c t0].
    + exists comma, ts. split; [reflexivity|exact Hp].
    + destruct (Hcell cell (c :: t0) Hc) as (c' & t' & E & Hpl); [discriminate|]. injection E as -> ->.
      exists c', (t' ++ comma :: ts). split; [reflexivity|exact Hpl].
Qed.

Lemma read_row_text row t T ts fuel : row_text comma row t -> t <> [] -> stop T ts -> (length (t ++ T) < fuel)%nat ->
  exec (read_row bytes pure_line comma fuel) (t ++ T) = (Ok (Some row), ts).
Proof.
  intros Hr Hn Hs Hf. unfold read_row. rewrite Hcomma. rewrite exec_pbind.
  destruct (row_head row t Hr Hn) as (c & t' & Et & Hc).
  assert (Hfirst : exec (first_line bytes pure_line fuel) (t ++ T) = (Ok (Some (norm (t ++ T))), tail (t ++ T))).
  { destruct fuel as [|fuel]; [lia|]. cbn [first_line]. rewrite exec_pbind, pure_line_exec. cbn [fst snd].
    change (fst (normalize (fst (fst (cut_line (t ++ T)))) (snd (fst (cut_line (t ++ T)))))) with (norm (t ++ T)).
    assert (Hb : blank (norm (t ++ T)) = false).
    { rewrite Et. cbn [app]. rewrite norm_cons by exact Hc. cbn. destruct (norm (t' ++ T)); [|reflexivity].
      apply beqb_neq, Hc. }
    assert (He : snd (normalize (fst (fst (cut_line (t ++ T)))) (snd (fst (cut_line (t ++ T))))) = false).
    { rewrite Et. cbn [app]. rewrite cut_line_cons by apply Hc. cbn [fst snd]. unfold normalize.
      destruct (snd (fst (cut_line (t' ++ T)))); reflexivity. }
    rewrite He, Hb. reflexivity. }
  rewrite Hfirst. rewrite exec_pbind.
  rewrite (runs_row row t T ts Hr Hs [] fuel); [reflexivity|].
  pose proof (normalize_le (fst (fst (cut_line (t ++ T)))) (snd (fst (cut_line (t ++ T))))) as Hl.
  pose proof (cut_line_split (t ++ T)) as Hsp. apply (f_equal (@length byte)) in Hsp. rewrite app_length in Hsp.
  change (fst (normalize (fst (fst (cut_line (t ++ T)))) (snd (fst (cut_line (t ++ T)))))) with (norm (t ++ T)) in Hl.
  change (snd (cut_line (t ++ T))) with (tail (t ++ T)) in Hsp. lia.
Qed.

Lemma rows_at_text file : forall pos rows text, csv_text comma pos rows text -> 0 <= pos -> skipn (Z.to_nat pos) file = text ->
  forall fuel, (length text < fuel)%nat -> rows_at file comma fuel pos = map Ok rows.
Proof.
  intros pos rows text H. induction H as [pos|pos row t Hr Hn|pos row t e rows ts Hr Hn He Hrows IH]; intros Hp Hsk fuel Hf.
  - destruct fuel as [|fuel]; [cbn in Hf; lia|]. cbn [rows_at]. rewrite Hsk. unfold row_at, read_row. rewrite Hcomma.
    unfold line_fuel. reflexivity.
  - destruct fuel as [|fuel]; [lia|]. cbn [rows_at]. rewrite Hsk. unfold row_at.
    pose proof (read_row_text row t [] [] (line_fuel file) Hr Hn stop_eof) as E. rewrite app_nil_r in E.
    rewrite E by (rewrite <- Hsk, skipn_length; unfold line_fuel; lia). cbn [map]. f_equal.
    set (p' := pos + zlen t - zlen (A := byte) []).
    assert (Hr0 : skipn (Z.to_nat p') file = []).
    { apply skipn_all2. apply (f_equal (@length byte)) in Hsk. rewrite skipn_length in Hsk. unfold p', zlen. cbn [length]. lia. }
    destruct fuel as [|fuel]; [destruct t; [contradiction|cbn in Hf; lia]|]. cbn [rows_at]. rewrite Hr0.
    unfold row_at, read_row. rewrite Hcomma. unfold line_fuel. reflexivity.
  - destruct fuel as [|fuel]; [lia|]. cbn [rows_at]. rewrite Hsk. unfold row_at.
    pose proof (read_row_text row t (e ++ ts) ts (line_fuel file) Hr Hn (stop_line e ts He)) as E.
    rewrite E by (rewrite <- Hsk, skipn_length; unfold line_fuel; lia). cbn [map]. f_equal.
    replace (pos + zlen (t ++ e ++ ts) - zlen ts) with (pos + zlen (t ++ e)) by (unfold zlen; rewrite !app_length; lia).
    apply IH.
    + unfold zlen; lia.
    + unfold zlen. rewrite Z2Nat.inj_add by lia. rewrite Nat2Z.id. eapply skipn_over; [|reflexivity].
      rewrite Hsk, app_assoc. reflexivity.
    + rewrite !app_length in Hf. destruct t; [contradiction|]. cbn [length] in Hf. lia.
Qed.

Lemma all_rows_text file rows columns : csv_text comma 0 rows file -> all_rows file comma false columns = map Ok rows.
Proof. intros H. unfold all_rows. apply (rows_at_text file 0 rows file H); [lia|reflexivity|unfold line_fuel; lia]. Qed.

Lemma all_rows_header file p header rows columns : csv_text comma 0 ((p, header) :: rows) file -> length header = columns ->
  all_rows file comma true columns = map Ok rows.
Proof.
  intros H Hl. unfold all_rows, row_at. inversion H as [|pos row t Hr Hn E1 E2 E3|pos row t e rows' ts Hr Hn He Hrows E1 E2 E3]; subst.
  - pose proof (read_row_text header file [] [] (line_fuel file) Hr Hn stop_eof) as E. rewrite app_nil_r in E.
    rewrite E by (unfold line_fuel; lia). rewrite Nat.eqb_refl.
    unfold line_fuel. cbn [rows_at].
    assert (Hr0 : skipn (Z.to_nat (zlen file - zlen (A := byte) [])) file = []) by (apply skipn_all2; unfold zlen; cbn [length]; lia).
    rewrite Hr0. unfold row_at, read_row. rewrite Hcomma. reflexivity.
  - pose proof (read_row_text header t (e ++ ts) ts (line_fuel (t ++ e ++ ts)) Hr Hn (stop_line e ts He)) as E.
    rewrite E by (unfold line_fuel; lia). rewrite Nat.eqb_refl.
    replace (zlen (t ++ e ++ ts) - zlen ts) with (zlen (t ++ e)) by (unfold zlen; rewrite !app_length; lia).
    rewrite Z.add_0_l in Hrows.
    apply (rows_at_text _ _ _ _ Hrows).
    + unfold zlen; lia.
    + unfold zlen. rewrite Nat2Z.id. apply (skipn_over (t ++ e ++ ts) 0 (length (t ++ e)) (t ++ e)); [|reflexivity].
      cbn. rewrite app_assoc. reflexivity.
    + unfold line_fuel. rewrite !app_length. lia.
Qed.
End Runs.
