(** Proofs about the CSV reader: buffering does not matter. *)
From Coq Require Import String List ZArith Lia Bool Arith.
From Coq Require Import Strings.Byte.
From Verif Require Import Base Value Records Prog Bufio SpecBufio BufioFacts CsvReader SpecCsv.
Import ListNotations.
Open Scope Z_scope.

Lemma exec_pbind S A B (p : prog S (res A)) (k : A -> prog S (res B)) s :
  exec (pbind p k) s =
  (let '(r, s') := exec p s in
   match r with Ok a => exec (k a) s' | Err e => (Err e, s') | Panic => (Panic, s') | NoFuel => (NoFuel, s') end).
Proof. unfold pbind. rewrite exec_bind. destruct (exec p s) as [[]]; reflexivity. Qed.

(** *** Simulation of one line source by another *)
Section Sim.
Variables S1 S2 : Type.
Variable R : S1 -> S2 -> Prop.

Definition sim {A} (p1 : prog S1 A) (p2 : prog S2 A) : Prop :=
  forall s1 s2, R s1 s2 -> fst (exec p1 s1) = fst (exec p2 s2) /\ R (snd (exec p1 s1)) (snd (exec p2 s2)).

Lemma sim_ret A (a : A) : sim (Ret a) (Ret a).
Proof. intros s1 s2 H. split; [reflexivity|exact H]. Qed.

Lemma sim_pbind A B (p1 : prog S1 (res A)) p2 (k1 : A -> prog S1 (res B)) k2 :
  sim p1 p2 -> (forall a, sim (k1 a) (k2 a)) -> sim (pbind p1 k1) (pbind p2 k2).
Proof.
  intros Hp Hk s1 s2 HR. unfold pbind. rewrite !exec_bind.
  destruct (Hp s1 s2 HR) as [E HR'].
  destruct (exec p1 s1) as [r1 s1'], (exec p2 s2) as [r2 s2']. cbn [fst snd] in *. subst r2.
  destruct r1; [apply Hk; exact HR'|..]; apply sim_ret; exact HR'.
Qed.

Variable n1 : prog S1 (res (bytes * bool)).
Variable n2 : prog S2 (res (bytes * bool)).
Hypothesis Hn : sim n1 n2.
Variable comma : byte.

Lemma sim_first_line : forall fuel, sim (first_line S1 n1 fuel) (first_line S2 n2 fuel).
Proof.
  induction fuel as [|fuel IH]; cbn [first_line]; [apply sim_ret|].
  apply sim_pbind; [exact Hn|]. intros [l e]. cbn [fst snd].
  destruct e; [apply sim_ret|]. destruct (blank l); [exact IH|apply sim_ret].
Qed.

Lemma sim_fields : forall fuel q line done, sim (fields S1 n1 comma fuel q line done) (fields S2 n2 comma fuel q line done).
Proof.
  induction fuel as [|fuel IH]; intros q line done; cbn [fields]; [apply sim_ret|].
  destruct q as [acc|].
  - destruct (cut_byte quote line) as [[a [|c l2]]|]; [apply sim_ret| |].
    + destruct (beqb c quote); [apply IH|]. destruct (beqb c comma); [apply IH|].
      destruct (blank (c :: l2)); apply sim_ret.
    + destruct line; [apply sim_ret|]. apply sim_pbind; [exact Hn|]. intros r. apply IH.
  - destruct line as [|c l]; [apply sim_ret|]. destruct (beqb c quote); [apply IH|].
    destruct (cut_byte comma (c :: l)) as [[a l2]|].
    + destruct (existsb (beqb quote) a); [apply sim_ret|apply IH].
    + cbv zeta. destruct (existsb (beqb quote) (chomp (c :: l))); apply sim_ret.
Qed.

Lemma sim_read_row fuel : sim (read_row S1 n1 comma fuel) (read_row S2 n2 comma fuel).
Proof.
  unfold read_row. destruct (valid_delim comma).
  - apply sim_pbind; [apply sim_first_line|]. intros [line|]; [|apply sim_ret].
    apply sim_pbind; [apply sim_fields|]. intros row. apply sim_ret.
  - intros s1 s2 HR. cbn. split; [reflexivity|exact HR].
Qed.
End Sim.

(** *** Lines of a list of bytes *)
Definition cut_line (l : bytes) : (bytes * bool) * bytes :=
  match cut_byte LF l with
  | Some (a, b) => ((a ++ [LF], false), b)
  | None => ((l, true), [])
  end.
Definition pure_line : prog bytes (res (bytes * bool)) :=
  plet l := get in
  plet _ := modify (fun l => snd (cut_line l)) in
  Ret (Ok (normalize (fst (fst (cut_line l))) (snd (fst (cut_line l))))).

Lemma pure_line_exec l : exec pure_line l = (Ok (normalize (fst (fst (cut_line l))) (snd (fst (cut_line l)))), snd (cut_line l)).
Proof. reflexivity. Qed.

Lemma cut_line_split l : fst (fst (cut_line l)) ++ snd (cut_line l) = l.
Proof.
  unfold cut_line. destruct (cut_byte LF l) as [[a b]|] eqn:E; cbn [fst snd].
  - apply cut_byte_Some in E as [-> _]. rewrite <- app_assoc. reflexivity.
  - apply app_nil_r.
Qed.

Lemma skipn_over {A} (l : list A) (p : nat) (n : nat) (a b : list A) : skipn p l = a ++ b -> n = length a -> skipn (p + n) l = b.
Proof. intros H ->. rewrite skipn_plus, H, skipn_app, skipn_all, Nat.sub_diag. reflexivity. Qed.

Section Facts.
Variable file : bytes.
Variable cap : nat.
Variable chunk : nat -> nat.
Hypothesis cap_pos : (0 < cap)%nat.
Local Notation rest p := (skipn (Z.to_nat p) file).
Local Notation inv := (inv file cap).

Lemma rest_after pos a b : 0 <= pos -> rest pos = a ++ b -> rest (pos + zlen a) = b.
Proof.
  intros Hp H. unfold zlen. rewrite Z2Nat.inj_add by lia. rewrite Nat2Z.id.
  eapply skipn_over; [exact H|reflexivity].
Qed.

Lemma slice_of_split l d : exists b, l = fst (slice_of cap d l) ++ b.
Proof.
  unfold slice_of. destruct (cut_byte d (firstn cap l)) as [[a b]|] eqn:E.
  - apply cut_byte_Some in E as [E _]. exists (b ++ skipn cap l). cbn [fst].
    rewrite <- (firstn_skipn cap l) at 1. rewrite E, <- !app_assoc. reflexivity.
  - destruct (cap <=? length l)%nat; cbn [fst].
    + exists (skipn cap l). symmetry. apply firstn_skipn.
    + exists []. now rewrite app_nil_r.
Qed.

Lemma raw_line_exec : forall fuel pos s acc, inv pos s -> (length (rest pos) < fuel)%nat ->
  exists s', exec (raw_line file cap chunk fuel acc) s = (Ok (acc ++ fst (fst (cut_line (rest pos))), snd (fst (cut_line (rest pos)))), s')
    /\ inv (pos + zlen (fst (fst (cut_line (rest pos))))) s'.
Proof.
  induction fuel as [|fuel IH]; intros pos s acc Hi Hf; [lia|].
  cbn [raw_line]. unfold pbind. rewrite exec_bind.
  destruct (read_slice_exec file cap chunk cap_pos LF (S (S cap)) pos s Hi) as (s' & -> & Hi').
  { destruct (b_eof s); lia. }
  pose proof (inv_pos _ _ _ _ Hi) as Hp.
  destruct (slice_of_split (rest pos) LF) as [b Hb].
  pose proof (rest_after pos _ _ Hp Hb) as Hr.
  unfold slice_of in *. destruct (cut_byte LF (firstn cap (rest pos))) as [[a a']|] eqn:Ec.
  - cbn [fst snd exec] in *. exists s'.
    assert (El : cut_line (rest pos) = ((a ++ [LF], false), b)).
    { apply cut_byte_Some in Ec as [_ Hn]. rewrite Hb. unfold cut_line. rewrite <- app_assoc. cbn [app].
      rewrite cut_byte_app by exact Hn. reflexivity. }
    rewrite El. cbn [fst snd]. split; [reflexivity|exact Hi'].
  - apply cut_byte_None in Ec. destruct (Nat.leb_spec cap (length (rest pos))) as [H|H]; cbn [fst snd] in *.
    + assert (El : cut_line (rest pos) = ((firstn cap (rest pos) ++ fst (fst (cut_line b)), snd (fst (cut_line b))), snd (cut_line b))).
      { rewrite Hb at 1. unfold cut_line at 1. destruct (cut_byte LF b) as [[x y]|] eqn:E.
        - pose proof E as E'. apply cut_byte_Some in E as [-> Hn].
          rewrite app_assoc, cut_byte_app by (rewrite in_app_iff; tauto).
          unfold cut_line. rewrite E'. cbn [fst snd]. rewrite app_assoc. reflexivity.
        - pose proof E as E'. apply cut_byte_None in E.
          rewrite cut_byte_notin by (rewrite in_app_iff; tauto).
          unfold cut_line. rewrite E'. reflexivity. }
      assert (Hlen : length (firstn cap (rest pos)) = cap) by (rewrite firstn_length; lia).
      destruct (IH (pos + zlen (firstn cap (rest pos))) s' (acc ++ firstn cap (rest pos)) Hi') as (s2 & E2 & Hi2).
      { rewrite Hr. apply (f_equal (@length byte)) in Hb. rewrite app_length in Hb. lia. }
      exists s2. rewrite Hr in E2, Hi2. rewrite El. cbn [fst snd]. split.
      * rewrite <- app_assoc in E2. exact E2.
      * replace (pos + zlen (firstn cap (rest pos) ++ fst (fst (cut_line b))))
          with (pos + zlen (firstn cap (rest pos)) + zlen (fst (fst (cut_line b)))) by (unfold zlen; rewrite app_length; lia).
        exact Hi2.
    + exists s'. rewrite firstn_all2 in Ec by lia.
      assert (El : cut_line (rest pos) = ((rest pos, true), [])) by (unfold cut_line; rewrite cut_byte_notin by exact Ec; reflexivity).
      rewrite El. cbn [fst snd exec]. split; [reflexivity|exact Hi'].
Qed.

(** The buffered reader and what is left of the file; [K] does not change. *)
Definition at_rest (K : Z) (s : reader) (l : bytes) : Prop := exists pos, inv pos s /\ l = rest pos /\ pos + zlen l = K.

Lemma sim_next_line K : sim reader bytes (at_rest K) (next_line file cap chunk) pure_line.
Proof.
  intros s l (pos & Hi & -> & HK). rewrite pure_line_exec. cbn [fst snd].
  unfold next_line, pbind. rewrite exec_bind.
  assert (Hlen : (length (rest pos) <= length file)%nat) by (rewrite skipn_length; lia).
  destruct (raw_line_exec (line_fuel file) pos s [] Hi) as (s' & -> & Hi'); [unfold line_fuel; lia|].
  cbn [exec fst snd app]. split; [reflexivity|].
  pose proof (cut_line_split (rest pos)) as Hs.
  eexists. split; [exact Hi'|]. split.
  - symmetry. apply rest_after; [apply (inv_pos _ _ _ _ Hi)|]. symmetry. exact Hs.
  - apply (f_equal (@zlen byte)) in Hs. unfold zlen in *. rewrite app_length in Hs. lia.
Qed.

Variable comma : byte.
Definition row_at (l : bytes) : res (option (list bytes)) * bytes := exec (read_row bytes pure_line comma (line_fuel file)) l.

Lemma read_csv_exec pos s : inv pos s ->
  fst (exec (read_csv file cap chunk comma) s) = fst (row_at (rest pos)) /\
  (let l' := snd (row_at (rest pos)) in let pos' := pos + zlen (rest pos) - zlen l' in
   inv pos' (snd (exec (read_csv file cap chunk comma) s)) /\ l' = rest pos').
Proof.
  intros Hi. destruct (sim_read_row reader bytes (at_rest (pos + zlen (rest pos))) _ _ (sim_next_line _) comma (line_fuel file) s (rest pos)) as [E (p & Hi' & El & EK)].
  { exists pos. split; [exact Hi|]. split; reflexivity. }
  split; [exact E|]. cbv zeta. unfold row_at.
  replace (pos + zlen (rest pos) - zlen (snd (exec (read_row bytes pure_line comma (line_fuel file)) (rest pos)))) with p by lia.
  split; [exact Hi'|exact El].
Qed.

(** Get, from any state. *)
Definition got (position : Z) : res (list bytes) :=
  if position <? 0 then Err EIo
  else match fst (row_at (rest position)) with
       | Ok None => Err (EMsg "Cannot read csv data: EOF")
       | Ok (Some row) => Ok row
       | Err e => Err e | Panic => Panic | NoFuel => NoFuel
       end.
Lemma get_row_exec position pos s : inv pos s ->
  fst (exec (get_row file cap chunk comma position) s) = got position /\
  exists pos', inv pos' (snd (exec (get_row file cap chunk comma position) s)).
Proof.
  intros Hi. unfold get_row, got. rewrite exec_pbind.
  destruct (set_offset_exec file cap cap_pos position pos s Hi) as (s1 & -> & Hi1).
  destruct (position <? 0).
  - cbn [exec fst snd]. split; [reflexivity|]. exists pos. exact Hi1.
  - rewrite exec_pbind. destruct (read_csv_exec position s1 Hi1) as [E [Hi2 _]].
    destruct (exec (read_csv file cap chunk comma) s1) as [r s2]. cbn [fst snd] in *. rewrite <- E.
    destruct r as [[row|]| | |]; cbn [exec fst snd]; (split; [reflexivity|eexists; exact Hi2]).
Qed.

Lemma used_inv s : used file cap chunk comma s -> exists pos, inv pos s.
Proof.
  induction 1 as [|o s _ [pos Hi]|s _ [pos Hi]|p s _ [pos Hi]].
  - exists 0. apply inv_new; exact cap_pos.
  - destruct (run_op_at file cap chunk cap_pos o pos s Hi) as (p' & _ & H). exists p'. exact H.
  - destruct (read_csv_exec pos s Hi) as [_ [H _]]. eexists. exact H.
  - apply (get_row_exec p pos s Hi).
Qed.

(** *** Iterating over a list of bytes *)
Fixpoint rows_at (fuel : nat) (pos : Z) : list (res (Z * list bytes)) :=
  match fuel with
  | O => [NoFuel]
  | S fuel' =>
    match row_at (rest pos) with
    | (Ok None, _) => []
    | (Ok (Some row), l') => Ok (pos, row) :: rows_at fuel' (pos + zlen (rest pos) - zlen l')
    | (Err e, _) => [Err e]
    | (Panic, _) => [Panic]
    | (NoFuel, _) => [NoFuel]
    end
  end.

Lemma iterate_rows : forall fuel pos s, inv pos s -> iterate file cap chunk comma fuel s = rows_at fuel pos.
Proof.
  induction fuel as [|fuel IH]; intros pos s Hi; cbn [iterate rows_at]; [reflexivity|].
  rewrite (inv_offset file cap cap_pos pos s Hi). destruct (read_csv_exec pos s Hi) as [E [Hi' _]].
  destruct (exec (read_csv file cap chunk comma) s) as [r s'], (row_at (rest pos)) as [r' l']. cbn [fst snd] in *. subst r'.
  destruct r as [[row|]| | |]; try reflexivity. f_equal. apply IH. exact Hi'.
Qed.

Definition all_rows (ignore_first : bool) (columns : nat) : list (res (Z * list bytes)) :=
  if ignore_first then
    match row_at file with
    | (Ok None, _) => [Err EEof]
    | (Ok (Some row), l') =>
      if (length row =? columns)%nat then rows_at (line_fuel file) (zlen file - zlen l') else [Err (EMsg "wrong number of fields")]
    | (Err e, _) => [Err e]
    | (Panic, _) => [Panic]
    | (NoFuel, _) => [NoFuel]
    end
  else rows_at (line_fuel file) 0.
Lemma iterate_all_rows ignore_first columns : iterate_all file cap chunk comma ignore_first columns = all_rows ignore_first columns.
Proof.
  unfold iterate_all, all_rows. destruct ignore_first; [|apply iterate_rows, inv_new; exact cap_pos].
  destruct (read_csv_exec 0 new_reader (inv_new file cap cap_pos)) as [E [Hi' _]].
  cbn [Z.to_nat skipn] in *.
  destruct (exec (read_csv file cap chunk comma) new_reader) as [r s'], (row_at file) as [r' l']. cbn [fst snd] in *. subst r'.
  destruct r as [[row|]| | |]; try reflexivity. destruct (length row =? columns)%nat; [|reflexivity].
  apply iterate_rows. exact Hi'.
Qed.
End Facts.
