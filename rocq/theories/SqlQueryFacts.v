(** Answers of a finished SQLite index. *)
From Coq Require Import List ZArith Lia Bool String Permutation.
From Coq Require Import Strings.Byte.
From Coq Require Import Floats.SpecFloat.
From Verif Require Import Base BaseFacts Value Json Index Sql SqlIndex SqlFacts SqlRunFacts SpecSql SqlInvFacts SqlLifeFacts SqlHistoryFacts.
Import ListNotations.
Open Scope Z_scope.

Lemma find_col_at cols : forall i c, distinct_names (map c_name cols) = true -> nth_error cols i = Some c ->
  find_col cols (c_name c) = Some (i, c).
Proof.
  induction cols as [|c0 cols IH]; intros i c D N; [destruct i; discriminate|].
  cbn [map distinct_names] in D. apply andb_true_iff in D as [D1 D2]. cbn [find_col].
  destruct i as [|i]; cbn [nth_error] in N.
  - injection N as ->. now rewrite name_eqb_refl.
  - destruct (name_eqb (c_name c0) (c_name c)) eqn:E.
    + apply negb_true_iff in D1. assert (X : existsb (name_eqb (c_name c0)) (map c_name cols) = true).
      { apply existsb_exists. exists (c_name c). split; [|exact E]. apply in_map. eapply nth_error_In; eassumption. }
      congruence.
    + now rewrite (IH i c D2 N).
Qed.

Lemma forall2_nth {A B} (P : A -> B -> Prop) l l' : Forall2 P l l' ->
  forall j a, nth_error l j = Some a -> exists b, nth_error l' j = Some b /\ P a b.
Proof.
  induction 1 as [|x y l l' H F IH]; intros j a N; [destruct j; discriminate|].
  destruct j as [|j]; cbn [nth_error] in *; [injection N as <-; eauto|eauto].
Qed.

Lemma stored_bind v s : stored v s -> bind_value v = Ok s.
Proof. destruct 1; try reflexivity. destruct f; try reflexivity. contradiction. Qed.

Lemma sql_eqb_go coll v f a s : stored v a -> bind_value f = Ok s -> coll = lit "BINARY" ->
  same_kind v f = true -> ~ (v = VNil /\ f = VNil) ->
  (if match v with VNil => true | _ => false end then sql_eqb coll a s = false /\ f <> VNil
   else go_eq v f = Ok (sql_eqb coll a s)).
Proof.
  intros S B -> K N. destruct S; cbn [same_kind is_number negb andb] in *; cbn iota.
  - split; [destruct s; reflexivity|]. intros ->. apply N. auto.
  - destruct f as [|[|]|z|f|t| |]; cbn in K, B; try discriminate; try (injection B as <-; reflexivity).
  - destruct f as [|[|]|z|f|t| |]; cbn in K, B; try discriminate; try (injection B as <-; reflexivity).
  - destruct f as [|[|]|x|f|t| |]; cbn in K, B; try discriminate; try (injection B as <-; reflexivity).
  - destruct f as [|[|]|x|f|t| |]; cbn in K, B; try discriminate; try (injection B as <-; reflexivity).
    destruct f; injection B as <-; reflexivity.
  - destruct f as [|[|]|x|g|t| |]; cbn in K, B; try discriminate; try (injection B as <-; reflexivity).
    assert (X : SFeqb f0 S754_nan = false) by (destruct f0 as [[|]|[|]| |[|] ? ?]; reflexivity).
    destruct g; injection B as <-; cbn [go_eq sql_eqb]; try reflexivity. now rewrite X.
  - destruct f as [|[|]|x|f|t| |]; cbn in K, B; try discriminate; try (injection B as <-; reflexivity).
    destruct f; injection B as <-; reflexivity.
Qed.

Lemma bind_primitive f : is_primitive f = true -> exists s, bind_value f = Ok s.
Proof. destruct f as [|b|z|f|s| |]; cbn; intros H; try discriminate; eauto. destruct f; eauto. Qed.

Section Query.
Variable visit : list (list sqlv) -> list (res (list sqlv)).
Variable fts_ok : list bytes -> bytes -> bytes -> bool.
Variable fts_match : table -> sqlv -> res (list (list sqlv)).
Notation run := (srun visit fts_ok fts_match).

Variable c : sconfig.
Let k := ISqlite c.

Lemma bind_filters fs : Forall (handled c) fs -> exists args, rmapM bind_value (map snd fs) = Ok args.
Proof.
  induction 1 as [|pf fs [_ H] F IH]; cbn [map rmapM]; [eauto|].
  destruct (bind_primitive _ H) as [s ->]. destruct IH as [args ->]. cbn [rbind]. eauto.
Qed.

Lemma row_matches rows r row : distinct_names (map c_name (index_cols k)) = true ->
  row_of (map fst (sq_props c)) (Ok r) row ->
  forall fs args, Forall (handled c) fs -> Forall (agree r) fs -> rmapM bind_value (map snd fs) = Ok args ->
  noop_matches r fs = Ok (eqs_hold (mkTable (index_cols k) rows) row (map (fun pf => until_nul (property_name (fst pf))) fs) args).
Proof.
  intros D R. inversion R as [r0 gs vs G S]; subst. clear R.
  induction fs as [|[p f] fs IH]; intros args Hh Ha B; cbn [map rmapM] in B.
  - injection B as <-. reflexivity.
  - inversion Hh as [|? ? [Hin Hp] Hh']; subst. inversion Ha as [|? ? Ha1 Ha']; subst. cbn [fst snd] in *.
    destruct (bind_value f) as [s| | |] eqn:Bf; cbn [rbind] in B; try discriminate.
    destruct (rmapM bind_value (map snd fs)) as [ss| | |] eqn:Bs; cbn [rbind] in B; try discriminate.
    injection B as <-. cbn [noop_matches map eqs_hold fst].
    apply In_nth_error in Hin as [j Hj].
    destruct (forall2_nth _ _ _ G j p) as [g [Hg Gg]]; [now rewrite nth_error_map, Hj|].
    destruct (forall2_nth _ _ _ S j g Hg) as [a [Hv Sv]].
    assert (FC : find_col (index_cols k) (until_nul (property_name p)) = Some (Datatypes.S j, blob_col (property_name p, lit "BINARY"))).
    { change (until_nul (property_name p)) with (c_name (blob_col (property_name p, lit "BINARY"))).
      apply find_col_at; [exact D|]. cbn [index_cols k nth_error]. rewrite nth_error_map, Hj. reflexivity. }
    unfold column_collation, column_value. cbn [t_cols]. rewrite FC. cbn [nth]. rewrite (nth_error_nth _ _ SNull Hv).
    cbn [blob_col c_collate snd]. rewrite Gg. cbn [rbind].
    destruct (Ha1 g Gg) as [K N]. cbn [snd] in K, N.
    pose proof (sql_eqb_go (lit "BINARY") g f a s Sv Bf eq_refl K N) as Q.
    assert (Q' : (g = VNil /\ sql_eqb (lit "BINARY") a s = false /\ f <> VNil) \/
                 (g <> VNil /\ go_eq g f = Ok (sql_eqb (lit "BINARY") a s))).
    { destruct g; cbn iota in Q; [left; split; [reflexivity|exact Q]|..]; right; (split; [discriminate|exact Q]). }
    destruct Q' as [[-> [-> Hf]]|[Hg0 E]].
    + destruct f; try reflexivity. now elim Hf.
    + pose proof (IH ss Hh' Ha' eq_refl) as I. destruct (sql_eqb (lit "BINARY") a s); cbn [andb];
        destruct g; try (rewrite E; cbn [rbind]; first [exact I|reflexivity]); now elim Hg0.
Qed.

(** The positions of the records that satisfy the filters, as rows. *)
Lemma rows_positions trows fs args : distinct_names (map c_name (index_cols k)) = true ->
  Forall (handled c) fs -> rmapM bind_value (map snd fs) = Ok args ->
  forall its rows, Forall2 (row_of (map fst (sq_props c))) its rows ->
  (forall r, In (Ok r) its -> Forall (agree r) fs) ->
  exists zs, noop_iterate fs its = map Ok zs /\
    map (fun row => map (column_value (mkTable (index_cols k) trows) row) [lit "offset"])
        (filter (fun row => eqs_hold (mkTable (index_cols k) trows) row (map (fun pf => until_nul (property_name (fst pf))) fs) args) rows)
    = map (fun z => [SInt z]) zs.
Proof.
  intros D Hh B its rows F. induction F as [|it row its rows R F IH]; intros A; [exists []; auto|].
  destruct IH as [zs [E1 E2]]; [intros r Hr; apply A; now right|].
  inversion R as [r gs vs G S Ei Er]. subst it.
  assert (M : noop_matches r fs = Ok (eqs_hold (mkTable (index_cols k) trows) row (map (fun pf => until_nul (property_name (fst pf))) fs) args)).
  { apply row_matches; auto. apply A. now left. }
  cbn [noop_iterate filter]. rewrite M. rewrite <- Er in *.
  destruct (eqs_hold _ (SInt (r_pos r) :: vs) _ args).
  - exists (r_pos r :: zs). cbn [map]. rewrite E1. split; [reflexivity|]. f_equal. exact E2.
  - exists zs. auto.
Qed.

(** The configuration the query is made with. *)
Variable c' : sconfig.
Notation listed := (fun pf : bytes * value => In (fst pf) (map fst (sq_props c'))).

Lemma run_clauses fs d : Forall listed fs ->
  run (smapM (filter_clause c') fs) d = (d, Ok (map (fun pf => (quote (property_name (fst pf)) ++ lit " = ?", snd pf)) fs)).
Proof.
  induction 1 as [|pf fs H F IH]; cbn [smapM map]; [reflexivity|].
  rewrite run_bind. unfold filter_clause at 1.
  assert (E : existsb (fun p => bytes_eqb (fst pf) (fst p)) (sq_props c') = true).
  { apply in_map_iff in H as [p [E H]]. apply existsb_exists. exists p. split; [exact H|]. now apply bytes_eqb_eq. }
  rewrite E. cbn [negb]. unfold property_identifier. rewrite run_bind, run_sanitize. cbn [srun].
  rewrite run_bind, IH. cbn [srun]. reflexivity.
Qed.

Lemma rows_iterate_ok zs : rows_iterate (map Ok (map (fun z => [SInt z]) zs)) = map Ok zs.
Proof. induction zs as [|z zs IH]; cbn [map rows_iterate]; [reflexivity|]. now rewrite IH. Qed.

Theorem positions_noop inp d fs : nul_free (sq_name c) -> has_rows k inp d -> sq_name c' = sq_name c ->
  fs <> [] -> Forall (handled c) fs -> Forall listed fs -> (forall r, In (Ok r) (in_iter inp) -> Forall (agree r) fs) ->
  exists zs, noop_iterate fs (in_iter inp) = map Ok zs /\
    run (sqlite_positions c' (sq_input c') fs) d = (d, Ok (rows_iterate (visit (map (fun z => [SInt z]) zs)))).
Proof.
  intros Hn [rows [T [R D]]] En Nf Hh Hl A. destruct (bind_filters fs Hh) as [args B].
  destruct (rows_positions rows fs args D Hh B _ _ R A) as [zs [E1 E2]]. exists zs. split; [exact E1|].
  unfold sqlite_positions. replace (bytes_eqb (sq_input c') (sq_input c')) with true by (symmetry; now apply bytes_eqb_eq).
  cbn [negb]. destruct fs as [|pf0 fs0] eqn:Ef; [contradiction|]. rewrite <- Ef in *.
  unfold rows_identifier. rewrite En, run_bind, run_sanitize, run_bind, (run_clauses fs d Hl), run_bind.
  rewrite !map_map. cbn [fst snd srun]. change (map (fun x : bytes * value => snd x) fs) with (map snd fs). rewrite B. cbv beta iota. rewrite run_bind. unfold sql_rows. cbn [srun].
  assert (P : parse (positions_sql (quote (rows_name (sq_name c))) (map (fun x => quote (property_name (fst x)) ++ lit " = ?") fs))
              = Some (Select [lit "offset"] (rows_name (sq_name c)) (map (fun pf => until_nul (property_name (fst pf))) fs))).
  { pose proof (parse_positions (rows_name (sq_name c)) (map (fun x => property_name (fst x)) fs)) as P.
    rewrite !map_map, (until_rows _ Hn) in P. apply P. rewrite Ef. discriminate. }
  rewrite (execq_parse _ _ _ _ _ _ _ P). cbn [exec_stmt].
  rewrite find_tables. change (sq_name c) with (kind_name k). rewrite T.
  assert (L : List.length (map (fun pf => until_nul (property_name (fst pf))) fs) = List.length args).
  { rewrite map_length. clear -B. revert args B. induction fs as [|pf fs IH]; cbn [map rmapM]; intros args B.
    - injection B as <-. reflexivity.
    - destruct (bind_value (snd pf)); cbn [rbind] in B; try discriminate.
      destruct (rmapM bind_value (map snd fs)); cbn [rbind] in B; try discriminate. injection B as <-. cbn [List.length]. f_equal. now apply IH. }
  rewrite L, Nat.eqb_refl. cbn [negb t_rows]. 
  change (map (fun z => [SInt z]) zs) with (map (fun z => [SInt z]) zs) in E2. rewrite E2.
  rewrite Ef at 1. cbn [map fst snd srun]. reflexivity.
Qed.

Theorem positions_permuted inp d fs : nul_free (sq_name c) -> has_rows k inp d -> sq_name c' = sq_name c ->
  every_row visit -> fs <> [] -> Forall (handled c) fs -> Forall listed fs ->
  (forall r, In (Ok r) (in_iter inp) -> Forall (agree r) fs) ->
  exists it, run (sqlite_positions c' (sq_input c') fs) d = (d, Ok it) /\ Permutation it (noop_iterate fs (in_iter inp)).
Proof.
  intros Hn T En V Nf Hh Hl A. destruct (positions_noop inp d fs Hn T En Nf Hh Hl A) as [zs [E1 E2]].
  destruct (V (map (fun z => [SInt z]) zs)) as [l' [E3 P]].
  rewrite E2, E3. rewrite E1.
  apply Permutation_sym in P. pose proof (Permutation_map_inv _ _ P) as [zs' [-> P']].
  rewrite rows_iterate_ok. eexists. split; [reflexivity|]. apply Permutation_map. now apply Permutation_sym.
Qed.

Lemma rows_iterate_only zs : forall a : answer, (forall x, In x a -> match x with Ok row => In row (map (fun z => [SInt z]) zs) | Err _ => True | _ => False end) ->
  forall x, In x (rows_iterate a) -> In x (map Ok zs).
Proof.
  induction a as [|y a IH]; intros H x Hx; cbn [rows_iterate] in Hx; [destruct Hx|].
  pose proof (H y (or_introl eq_refl)) as Hy. destruct y as [row|e| |]; try (destruct Hx; fail); try (destruct Hy; fail).
  apply in_map_iff in Hy as [z [<- Hz]]. destruct Hx as [<-|Hx]; [now apply in_map|].
  apply IH; [|exact Hx]. intros w Hw. apply H. now right.
Qed.

Theorem positions_only inp d fs : nul_free (sq_name c) -> has_rows k inp d -> sq_name c' = sq_name c ->
  only_rows visit -> fs <> [] -> Forall (handled c) fs -> Forall listed fs ->
  (forall r, In (Ok r) (in_iter inp) -> Forall (agree r) fs) ->
  exists it, run (sqlite_positions c' (sq_input c') fs) d = (d, Ok it) /\ forall x, In x it -> In x (noop_iterate fs (in_iter inp)).
Proof.
  intros Hn T En V Nf Hh Hl A. destruct (positions_noop inp d fs Hn T En Nf Hh Hl A) as [zs [E1 E2]].
  rewrite E2, E1. eexists. split; [reflexivity|]. apply rows_iterate_only. apply V.
Qed.

End Query.
