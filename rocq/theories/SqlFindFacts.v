(** What a SQLite index finds, proofs. *)
From Coq Require Import List ZArith Lia Bool String Permutation.
From Coq Require Import Strings.Byte.
From Coq Require Import Floats.SpecFloat.
From Verif Require Import Base BaseFacts Codec Value SpecIndex IndexFacts Output SpecOutput Json Index Sql SqlIndex SqlFacts SqlRunFacts SpecSql SpecSqlFind SqlInvFacts SqlLifeFacts SqlHistoryFacts SqlQueryFacts SqlCreateFacts SqlNameFacts.
Import ListNotations.
Open Scope Z_scope.

Lemma int_real_spec z f : int_real_eqb z f = true <-> float_is f z.
Proof.
  destruct f as [s|s| |s m e]; cbn [int_real_eqb float_is]; [apply Z.eqb_eq|split; [discriminate|contradiction]|split; [discriminate|contradiction]|].
  destruct (0 <=? e) eqn:E.
  - apply Z.leb_le in E. rewrite Z.max_l, Z.max_r by lia. rewrite Z.eqb_eq, Z.pow_0_r, Z.mul_1_r. reflexivity.
  - apply Z.leb_gt in E. rewrite Z.max_r, Z.max_l by lia. rewrite Z.eqb_eq, Z.pow_0_r, Z.mul_1_r. reflexivity.
Qed.

Lemma float_same x y : x <> S754_nan -> y <> S754_nan -> SFeqb x y = true <-> same_value (VFloat x) (VFloat y).
Proof.
  intros Hx Hy. split.
  - intros H. assert (G : go_eq (VFloat x) (VFloat y) = Ok true) by (cbn; now rewrite H). now apply go_eq_spec in G.
  - intros H. assert (G : go_eq (VFloat x) (VFloat y) = Ok true) by (now apply go_eq_spec). cbn in G. congruence.
Qed.

Lemma lower_code c : Z_of_byte (lower_ascii c) = if (65 <=? Z_of_byte c) && (Z_of_byte c <=? 90) then Z_of_byte c + 32 else Z_of_byte c.
Proof. destruct c; reflexivity. Qed.
Lemma z_inj x y : Z_of_byte x = Z_of_byte y -> x = y.
Proof.
  unfold Z_of_byte. intros H. apply N2Z.inj in H. apply (f_equal Byte.of_N) in H. rewrite !Byte.of_to_N in H. congruence.
Qed.

Lemma lower_spec x y : beqb (lower_ascii x) (lower_ascii y) = true <-> same_letter x y.
Proof.
  rewrite beqb_eq. unfold same_letter. split.
  - intros H. apply (f_equal Z_of_byte) in H. rewrite !lower_code in H.
    destruct ((65 <=? Z_of_byte x) && (Z_of_byte x <=? 90)) eqn:Ex, ((65 <=? Z_of_byte y) && (Z_of_byte y <=? 90)) eqn:Ey.
    + left. apply z_inj. lia.
    + right. exists (Z_of_byte x), (Z_of_byte y). repeat split; lia.
    + right. exists (Z_of_byte y), (Z_of_byte x). repeat split; lia.
    + left. now apply z_inj.
  - intros [->|(u & l & Hu & -> & [[Hx Hy]|[Hx Hy]])]; [reflexivity| |]; apply z_inj; rewrite !lower_code, Hx, Hy;
      (destruct (65 <=? u) eqn:E1; [|lia]; destruct (u <=? 90) eqn:E2; [|lia]; destruct (65 <=? u + 32) eqn:E3; [|lia]; destruct (u + 32 <=? 90) eqn:E4; [lia|]; reflexivity).
Qed.

Lemma code_zero x : code x = 0 -> x = x00.
Proof. intros H. apply z_inj. exact H. Qed.
Lemma letter_nul y : same_letter x00 y -> y = x00.
Proof. intros [<-|(u & l & Hu & -> & [[Hx Hy]|[Hx Hy]])]; [reflexivity| |]; change (Z_of_byte x00) with 0 in Hx; lia. Qed.

Lemma nocase_length a b : nocase a b -> List.length a = List.length b.
Proof. induction 1; cbn [List.length]; congruence. Qed.
Lemma nocase_spec a : forall b, Nat.eqb (List.length a) (List.length b) && nocase_prefix a b = true <-> nocase a b.
Proof.
  induction a as [|x a IH]; intros [|y b]; cbn [List.length Nat.eqb nocase_prefix andb].
  - split; [constructor|reflexivity].
  - split; [discriminate|intros H; inversion H].
  - split; [discriminate|intros H; inversion H].
  - rewrite !andb_true_iff, orb_true_iff, lower_spec. split.
    + intros (Hl & Hs & Hn). destruct Hn as [Hn|Hn].
      * apply Z.eqb_eq, code_zero in Hn. subst x. apply letter_nul in Hs. subst y. apply nocase_nul. now apply Nat.eqb_eq.
      * apply nocase_more; [exact Hs|]. apply IH. now rewrite Hl, Hn.
    + intros H. pose proof (nocase_length _ _ H) as Hl. injection Hl as Hl. split; [now apply Nat.eqb_eq|]. inversion H as [|? ? Hn|? ? ? ? Hs Hn]; subst.
      * split; [left; reflexivity|left; reflexivity].
      * split; [exact Hs|right]. apply IH in Hn. apply andb_true_iff in Hn. tauto.
Qed.

Lemma collate_spec c a b : In c [lit "BINARY"; lit "NOCASE"] -> collate_eqb c a b = true <-> same_text c a b.
Proof.
  intros [<-|[<-|[]]].
  - change (collate_eqb (lit "BINARY") a b) with (bytes_eqb a b). rewrite bytes_eqb_eq. split; [intros ->; constructor|inversion 1; reflexivity].
  - change (collate_eqb (lit "NOCASE") a b) with (Nat.eqb (List.length a) (List.length b) && nocase_prefix a b). rewrite nocase_spec.
    split; [intros H; now constructor|]. inversion 1; subst. assumption.
Qed.

Lemma sql_eqb_spec c v f a s : In c [lit "BINARY"; lit "NOCASE"] -> stored v a -> bind_value f = Ok s -> sql_eqb c a s = true <-> sql_same c v f.
Proof.
  intros Hc S B.
  assert (W : forall z, whole v z -> a = SInt z). { intros z W. inversion W; subst; inversion S; reflexivity. }
  assert (W' : forall z, whole f z -> s = SInt z). { intros z Wf. inversion Wf; subst; cbn in B; congruence. }
  assert (F : forall x z, v = VFloat x -> float_is x z -> a = SReal x). { intros x z -> Hx. inversion S; subst; [contradiction|reflexivity]. }
  assert (F' : forall x z, f = VFloat x -> float_is x z -> s = SReal x). { intros x z -> Hx. destruct x; cbn in B; try congruence. contradiction. }
  split.
  - intros E.
    assert (V : (exists z, whole v z /\ a = SInt z) \/ (exists x, v = VFloat x /\ x <> S754_nan /\ a = SReal x) \/ (exists t, v = VString t /\ a = SText t) \/ a = SNull).
    { destruct S as [| | |z| |x Hx|t]; eauto 6 using whole_int; left; [exists 0|exists 1]; (split; [|reflexivity]); [exact (whole_bool false)|exact (whole_bool true)]. }
    assert (G : (exists z, whole f z /\ s = SInt z) \/ (exists x, f = VFloat x /\ x <> S754_nan /\ s = SReal x) \/ (exists t, f = VString t /\ s = SText t) \/ s = SNull).
    { destruct f as [|b|n|y|u| |]; cbn in B; try discriminate; try (injection B as <-); eauto 6 using whole_int, whole_bool.
      destruct y; injection B as <-; eauto 6; right; left; eexists; repeat split; discriminate. }
    destruct V as [(z & Wv & ->)|[(x & -> & Hx & ->)|[(t & -> & ->)| ->]]]; destruct G as [(n & Wf & ->)|[(y & -> & Hy & ->)|[(u & -> & ->)| ->]]];
      cbn [sql_eqb] in E; try discriminate.
    + apply Z.eqb_eq in E. subst n. now apply (sql_whole c v f z).
    + apply int_real_spec in E. now apply (sql_whole_float c v y z).
    + apply int_real_spec in E. now apply (sql_float_whole c x f n).
    + apply sql_float. now apply float_same.
    + apply sql_text. now apply collate_spec.
  - intros H. destruct H as [v f z Wv Wf|x y Hxy|v y z Wv Hy|x f z Hx Wf|t u Ht].
    + rewrite (W z Wv), (W' z Wf). cbn. apply Z.eqb_refl.
    + assert (Hx : x <> S754_nan) by (inversion Hxy; subst; [assumption|discriminate]).
      assert (Hy : y <> S754_nan) by (inversion Hxy; subst; [assumption|discriminate]).
      assert (Ea : a = SReal x) by (inversion S; subst; [contradiction|reflexivity]).
      assert (Es : s = SReal y) by (destruct y; cbn in B; try congruence; contradiction).
      subst. cbn [sql_eqb]. now apply float_same.
    + rewrite (W z Wv), (F' y z eq_refl Hy). cbn [sql_eqb]. now apply int_real_spec.
    + rewrite (F x z eq_refl Hx), (W' z Wf). cbn [sql_eqb]. now apply int_real_spec.
    + inversion S; subst. cbn in B. injection B as <-. cbn [sql_eqb]. now apply collate_spec.
Qed.

(** A newly created index. *)
Section Rows.
Variable visit : list (list sqlv) -> list (res (list sqlv)).
Variable fts_ok : list bytes -> bytes -> bytes -> bool.
Variable fts_match : table -> sqlv -> res (list (list sqlv)).
Notation run := (srun visit fts_ok fts_match).
Variable k : index_kind.
Hypothesis Hn : nul_free (kind_name k).
Hypothesis Hv : validated_collations k.

Lemma created_rows inp d d' : tables_of d (meta_name (kind_name k)) = [] -> tables_of d (rows_name (kind_name k)) = [] ->
  run (start k inp) d = (d', Ok tt) -> complete k inp d'.
Proof.
  intros Tm Tr E. rewrite (first_start visit fts_ok fts_match k inp d Hn Tm) in E.
  pose proof (validated_word k Hv) as Hw. destruct k as [c|c].
  - exact (holds_run _ _ _ _ _ _ _ _ _ (create_sqlite_holds visit fts_ok fts_match c inp d Hn Hw Tm Tr) E).
  - exact (holds_run _ _ _ _ _ _ _ _ _ (create_fts_holds visit fts_ok fts_match c inp d Hn Tm Tr) E).
Qed.

Lemma starts_inv inp d : left_by_starts visit fts_ok fts_match k inp d -> inv_of (eq inp) k d.
Proof.
  pose proof (validated_word k Hv) as Hw. induction 1 as [d Tm Tr|d0 d1 d H IH H1 Em Er]; [now left|].
  apply (inv_of_frame (eq inp) k d1 d Em Er).
  destruct (start_holds_of visit fts_ok fts_match (eq inp) k inp d0 eq_refl Hn Hw IH) as [F _].
  rewrite Forall_forall in F. exact (F d1 H1).
Qed.

Lemma prepared_frame inp d d' : tables_of d' (meta_name (kind_name k)) = tables_of d (meta_name (kind_name k)) ->
  tables_of d' (rows_name (kind_name k)) = tables_of d (rows_name (kind_name k)) ->
  prepared visit fts_ok fts_match k inp d -> prepared visit fts_ok fts_match k inp d'.
Proof.
  intros Em Er [H|[H|H]]; unfold prepared, left_by_start in *; cbv zeta in *; rewrite Em, Er; [now left|right; now left|].
  right. right. destruct H as [d Tm Tr|d0 d1 d H H1 Em' Er']; [apply never_started; congruence|].
  apply (next_start visit fts_ok fts_match k inp d0 d1 d' H H1); congruence.
Qed.

Lemma prepared_rows inp d d' : prepared visit fts_ok fts_match k inp d -> run (start k inp) d = (d', Ok tt) -> has_rows k inp d'.
Proof.
  intros [[Tm Tr]|[(d0 & d1 & Tm & Tr & E0 & Em & Er)|Hs]] E; [apply (created_rows inp d d' Tm Tr E)| |].
  2:{ pose proof (validated_word k Hv) as Hw.
      destruct (start_holds_of visit fts_ok fts_match (eq inp) k inp d eq_refl Hn Hw (starts_inv inp d Hs)) as [_ H].
      destruct (H d' E) as (inp0 & <- & _ & _ & [R _]). exact R. }
  destruct (created_rows inp d0 d1 Tm Tr E0) as [R (m & M1 & M2 & M3 & M4 & M5)]. rewrite <- Em in M5.
  assert (S : start k inp = open_or_create (kind_name k) inp (match k with ISqlite c => create_sqlite c inp | IFts c => create_fts c inp end)) by (destruct k; reflexivity).
  destruct (open_holds visit fts_ok fts_match (kind_name k) inp (match k with ISqlite c => create_sqlite c inp | IFts c => create_fts c inp end) d _ Hn M5) as [O _].
  rewrite S, O in E. injection E as <- _. apply (has_rows_frame k inp d1); [exact Er|exact R].
Qed.
End Rows.

Section Query.
Variable visit : list (list sqlv) -> list (res (list sqlv)).
Variable fts_ok : list bytes -> bytes -> bytes -> bool.
Variable fts_match : table -> sqlv -> res (list (list sqlv)).
Notation run := (srun visit fts_ok fts_match).
Variable c : sconfig.
Let k := ISqlite c.
Hypothesis Hcoll : collated (sq_props c).
Notation askable := (fun f : bytes * value => In (fst f) (map fst (sq_props c)) /\ primitive (snd f)).

Lemma cell_at rows r row p coll : distinct_names (map c_name (index_cols k)) = true ->
  row_of (map fst (sq_props c)) (Ok r) row -> In (p, coll) (sq_props c) ->
  exists g, r_get r p = Ok g /\ stored g (column_value (mkTable (index_cols k) rows) row (until_nul (property_name p))) /\
    column_collation (mkTable (index_cols k) rows) (until_nul (property_name p)) = coll.
Proof.
  intros D R Hin. inversion R as [r0 gs vs G S]; subst. apply In_nth_error in Hin as [j Hj].
  destruct (forall2_nth _ _ _ G j p) as [g [Hg Gg]]; [now rewrite nth_error_map, Hj|].
  destruct (forall2_nth _ _ _ S j g Hg) as [a [Hv Sv]].
  assert (FC : find_col (index_cols k) (until_nul (property_name p)) = Some (Datatypes.S j, blob_col (property_name p, coll))).
  { change (until_nul (property_name p)) with (c_name (blob_col (property_name p, coll))).
    apply find_col_at; [exact D|]. cbn [index_cols k nth_error]. rewrite nth_error_map, Hj. reflexivity. }
  exists g. split; [exact Gg|]. unfold column_collation, column_value. cbn [t_cols]. rewrite FC. cbn [nth]. rewrite (nth_error_nth _ _ SNull Hv).
  split; [exact Sv|reflexivity].
Qed.

Lemma row_found rows r row : distinct_names (map c_name (index_cols k)) = true -> row_of (map fst (sq_props c)) (Ok r) row ->
  forall fs args, Forall askable fs -> rmapM bind_value (map snd fs) = Ok args ->
  eqs_hold (mkTable (index_cols k) rows) row (map (fun pf => until_nul (property_name (fst pf))) fs) args = true <-> found_by (by_sql (sq_props c)) fs r.
Proof.
  intros D R. unfold found_by. induction fs as [|[p f] fs IH]; intros args Ha B; cbn [map rmapM] in B.
  - injection B as <-. split; [constructor|reflexivity].
  - inversion Ha as [|? ? [Hp _] Ha']; subst. cbn [fst snd] in *.
    destruct (bind_value f) as [s| | |] eqn:Bf; cbn [rbind] in B; try discriminate.
    destruct (rmapM bind_value (map snd fs)) as [ss| | |] eqn:Bs; cbn [rbind] in B; try discriminate. injection B as <-.
    cbn [map eqs_hold fst]. rewrite andb_true_iff, (IH ss Ha' eq_refl).
    assert (Hco : forall coll, In (p, coll) (sq_props c) -> In coll [lit "BINARY"; lit "NOCASE"]).
    { intros coll Hi. unfold collated in Hcoll. rewrite Forall_forall in Hcoll. exact (Hcoll _ Hi). }
    split.
    + intros [H1 H2]. constructor; [|exact H2]. cbn [fst snd s_finds by_sql]. apply in_map_iff in Hp as ([p' coll] & <- & Hin). cbn [fst] in *.
      destruct (cell_at rows r row p' coll D R Hin) as (g & Hg & Sg & Ec). exists coll, g. split; [exact Hin|]. split; [exact Hg|].
      rewrite Ec in H1. now apply (sql_eqb_spec coll g f _ s (Hco _ Hin) Sg Bf).
    + intros H. inversion H as [|? ? (coll & v & Hin & Hv & Hs) H2]; subst. unfold has_property in Hv. cbn [fst snd] in *. split; [|exact H2].
      destruct (cell_at rows r row p coll D R Hin) as (g & Hg & Sg & Ec). rewrite Hv in Hg. injection Hg as <-. rewrite Ec.
      now apply (sql_eqb_spec coll v f _ s (Hco _ Hin) Sg Bf).
Qed.

Lemma rows_found trows fs args : distinct_names (map c_name (index_cols k)) = true -> Forall askable fs -> rmapM bind_value (map snd fs) = Ok args ->
  forall its rows, Forall2 (row_of (map fst (sq_props c))) its rows ->
  exists rs zs, its = map Ok rs /\ selected (found_by (by_sql (sq_props c)) fs) rs zs /\
    map (fun row => map (column_value (mkTable (index_cols k) trows) row) [lit "offset"])
        (filter (fun row => eqs_hold (mkTable (index_cols k) trows) row (map (fun pf => until_nul (property_name (fst pf))) fs) args) rows)
    = map (fun z => [SInt z]) zs.
Proof.
  intros D Ha B its rows F. induction F as [|it row its rows R F (rs & zs & -> & E1 & E2)]; [exists [], []; repeat split; constructor|].
  inversion R as [r gs vs G S Ei Er]. subst it row. pose proof (row_found trows r _ D R fs args Ha B) as M.
  cbn [filter]. destruct (eqs_hold _ (SInt (r_pos r) :: vs) _ args) eqn:Eh.
  - exists (r :: rs), (r_pos r :: zs). split; [reflexivity|]. split; [apply sel_keep; [now apply M|exact E1]|]. cbn [map]. f_equal. exact E2.
  - exists (r :: rs), zs. split; [reflexivity|]. split; [apply sel_drop; [rewrite <- M; congruence|exact E1]|exact E2].
Qed.

Theorem positions_found inp d fs : nul_free (sq_name c) -> has_rows k inp d -> fs <> [] -> Forall askable fs ->
  exists rs zs, in_iter inp = map Ok rs /\ selected (found_by (by_sql (sq_props c)) fs) rs zs /\
    run (sqlite_positions c (sq_input c) fs) d = (d, Ok (rows_iterate (visit (map (fun z => [SInt z]) zs)))).
Proof.
  intros Hn [rows [T [R D]]] Nf Ha.
  assert (Hb : exists args, rmapM bind_value (map snd fs) = Ok args).
  { clear - Ha. induction Ha as [|pf fs [_ H] F [args IH]]; cbn [map rmapM]; [eauto|].
    destruct (bind_primitive (snd pf)) as [s ->]; [destruct (snd pf); try reflexivity; contradiction|]. rewrite IH. cbn [rbind]. eauto. }
  destruct Hb as [args B]. destruct (rows_found rows fs args D Ha B _ _ R) as (rs & zs & E0 & E1 & E2). exists rs, zs. split; [exact E0|]. split; [exact E1|].
  assert (Hl : Forall (fun pf : bytes * value => In (fst pf) (map fst (sq_props c))) fs) by (eapply Forall_impl; [|exact Ha]; intros ? [? _]; assumption).
  unfold sqlite_positions. rewrite bytes_eqb_refl.
  cbn [negb]. destruct fs as [|pf0 fs0] eqn:Ef; [contradiction|]. rewrite <- Ef in *.
  unfold rows_identifier. rewrite run_bind, run_sanitize, run_bind, (run_clauses visit fts_ok fts_match c fs d Hl), run_bind.
  rewrite !map_map. cbn [fst snd srun]. change (map (fun x : bytes * value => snd x) fs) with (map snd fs). rewrite B. cbv beta iota. rewrite run_bind. unfold sql_rows. cbn [srun].
  assert (P : parse (positions_sql (quote (rows_name (sq_name c))) (map (fun x => quote (property_name (fst x)) ++ lit " = ?") fs))
              = Some (Select [lit "offset"] (rows_name (sq_name c)) (map (fun pf => until_nul (property_name (fst pf))) fs))).
  { pose proof (parse_positions (rows_name (sq_name c)) (map (fun x => property_name (fst x)) fs)) as P.
    rewrite !map_map, (until_rows _ Hn) in P. apply P. rewrite Ef. discriminate. }
  rewrite (execq_parse _ _ _ _ _ _ _ P). cbn [exec_stmt].
  rewrite find_tables. change (sq_name c) with (kind_name k). rewrite T.
  assert (L : List.length (map (fun pf => until_nul (property_name (fst pf))) fs) = List.length args).
  { rewrite map_length. clear -B. revert args B. induction fs as [|pf fs IH]; cbn [map rmapM]; intros args B.
    - injection B as <-. reflexivity.
    - destruct (bind_value (snd pf)); cbn [rbind] in B; try discriminate.
      destruct (rmapM bind_value (map snd fs)); cbn [rbind] in B; try discriminate. injection B as <-. cbn [List.length]. f_equal. now apply IH. }
  rewrite L, Nat.eqb_refl. cbn [negb t_rows]. rewrite E2. rewrite Ef at 1. cbn [map fst snd srun]. reflexivity.
Qed.

Lemma collated_valid : validated_collations (ISqlite c).
Proof. eapply Forall_impl; [|exact Hcoll]. intros p Hp. cbn [In] in *. tauto. Qed.

Theorem sqlite_finds inp d d' fs : nul_free (sq_name c) -> every_row visit -> prepared visit fts_ok fts_match (ISqlite c) inp d ->
  run (start (ISqlite c) inp) d = (d', Ok tt) ->
  fs <> [] -> Forall (fun f => In (fst f) (map fst (sq_props c)) /\ primitive (snd f)) fs ->
  exists rs l l', in_iter inp = map Ok rs /\ selected (found_by (by_sql (sq_props c)) fs) rs l /\ Permutation l l' /\
    run (sqlite_positions c (sq_input c) fs) d' = (d', Ok (map Ok l')).
Proof.
  intros Hn V Hp E Nf Ha. pose proof (prepared_rows visit fts_ok fts_match (ISqlite c) Hn collated_valid inp d d' Hp E) as R.
  destruct (positions_found inp d' fs Hn R Nf Ha) as (rs & zs & E0 & E1 & E2). rewrite E2.
  destruct (V (map (fun z => [SInt z]) zs)) as (l' & E3 & P). apply Permutation_sym in P. pose proof (Permutation_map_inv _ _ P) as (zs' & -> & P').
  exists rs, zs, zs'. split; [exact E0|]. split; [exact E1|]. split; [now apply Permutation_sym|]. rewrite E3, rows_iterate_ok. reflexivity.
Qed.

(** As an index of the endpoints. *)
Lemma selected_iff (P Q : rec -> Prop) rs l : (forall r, P r <-> Q r) -> selected P rs l -> selected Q rs l.
Proof. intros H. induction 1; [constructor|apply sel_keep|apply sel_drop]; try assumption; now rewrite <- H. Qed.

Lemma same_records (l l' : list rec) : map Ok l = map Ok l' -> l' = l.
Proof. revert l'. induction l as [|x l IH]; intros [|y l'] E; try discriminate; [reflexivity|]. injection E as -> E. f_equal. now apply IH. Qed.

Lemma rows_suit inp rs d : in_name inp = sq_input c -> nul_free (sq_name c) ->
  in_order visit -> in_iter inp = map Ok rs -> has_rows k inp d ->
  index_exact (by_sql (sq_props c)) (sqlite_index visit fts_ok fts_match c d) inp rs (map fst (sq_props c)).
Proof.
  intros Hi Hn V Er R fs Nf _ Ha.
  destruct (positions_found inp d fs Hn R Nf Ha) as (rs' & zs & E0 & E1 & E2).
  assert (rs' = rs) as -> by (apply same_records; congruence). exists zs. split; [exact E1|].
  unfold sqlite_index. rewrite Hi, E2. cbn [snd]. now rewrite V, rows_iterate_ok.
Qed.
Theorem sqlite_suits inp rs d d' : in_name inp = sq_input c -> nul_free (sq_name c) ->
  in_order visit -> in_iter inp = map Ok rs -> prepared visit fts_ok fts_match (ISqlite c) inp d -> run (start (ISqlite c) inp) d = (d', Ok tt) ->
  index_exact (by_sql (sq_props c)) (sqlite_index visit fts_ok fts_match c d') inp rs (map fst (sq_props c)).
Proof. intros Hi Hn V Er Hp E. apply rows_suit; try assumption. apply (prepared_rows visit fts_ok fts_match (ISqlite c) Hn collated_valid inp d d' Hp E). Qed.
End Query.

(** *** Full-text indexes *)
Section Fulltext.
Variable visit : list (list sqlv) -> list (res (list sqlv)).
Variable fts_ok : list bytes -> bytes -> bytes -> bool.
Variable fts_match : table -> sqlv -> res (list (list sqlv)).
Notation run := (srun visit fts_ok fts_match).
Variable c : fconfig.
Let k := IFts c.
Variable F : fulltext.
Notation search := (by_fts F (ft_props c) (ft_prefix c) (ft_tokenize c)).

Lemma until_all l : Forall nul_free l -> map until_nul l = l.
Proof. induction 1 as [|x l H _ IH]; [reflexivity|]. cbn [map]. now rewrite (until_nul_free x H), IH. Qed.

Lemma stored_det v a b : stored v a -> stored v b -> a = b.
Proof. intros H1 H2. apply stored_bind in H1, H2. congruence. Qed.
Lemma stored_all_det vs : forall xs ys, Forall2 stored vs xs -> Forall2 stored vs ys -> xs = ys.
Proof.
  induction vs as [|v vs IH]; intros xs ys H1 H2; inversion H1; inversion H2; subst; [reflexivity|]. f_equal; [eapply stored_det; eassumption|now apply IH].
Qed.
Lemma gets_det r ps : forall gs gs', Forall2 (fun p g => r_get r p = Ok g) ps gs -> Forall2 (has_property r) ps gs' -> gs = gs'.
Proof.
  unfold has_property. induction ps as [|p ps IH]; intros gs gs' H1 H2; inversion H1; inversion H2; subst; [reflexivity|]. f_equal; [congruence|now apply IH].
Qed.

Lemma row_matched r row f q : row_of (ft_props c) (Ok r) row -> stored f q ->
  fx_matches F (ft_props c) (ft_prefix c) (ft_tokenize c) (tl row) q <-> s_finds search (has_property r) (lit "match") f.
Proof.
  intros R Sf. inversion R as [r0 gs vs G S]; subst. cbn [tl s_finds by_fts]. split.
  - intros H. exists gs, vs, q. auto.
  - intros (gs' & cells & q' & G' & S' & Sf' & H). rewrite <- (gets_det r _ _ _ G G') in S'. rewrite (stored_all_det _ _ _ S S'), (stored_det _ _ _ Sf Sf'). exact H.
Qed.

Lemma rows_matched f q found its rows : stored f q -> Forall2 (row_of (ft_props c)) its rows ->
  kept (fun row => fx_matches F (ft_props c) (ft_prefix c) (ft_tokenize c) (tl row) q) rows found ->
  exists rs zs, its = map Ok rs /\ selected (found_by search [(lit "match", f)]) rs zs /\ map (fun row => nth 0 row SNull) found = map SInt zs.
Proof.
  intros Sf R. revert found. induction R as [|it row its rows Ri R IH]; intros found K.
  - inversion K; subst. exists [], []. repeat split; constructor.
  - inversion Ri as [r gs vs G S Ei Er]. subst it. pose proof (row_matched r row f q Ri Sf) as M.
    inversion K as [|? ? l Hy K'|? ? l Hy K']; subst; destruct (IH _ K') as (rs & zs & -> & E1 & E2).
    + exists (r :: rs), (r_pos r :: zs). split; [reflexivity|]. split; [|cbn [map nth]; f_equal; exact E2]. apply sel_keep; [|exact E1].
      constructor; [|constructor]. apply M, Hy.
    + exists (r :: rs), zs. split; [reflexivity|]. split; [|exact E2]. apply sel_drop; [|exact E1]. intros H. inversion H; subst. apply Hy, M. assumption.
Qed.

Lemma matched_rows_suit inp rs d : in_name inp = ft_input c -> nul_free (ft_name c) -> Forall nul_free (ft_tokenize c :: ft_props c) ->
  in_order visit -> searched_by fts_match F -> in_iter inp = map Ok rs -> has_rows k inp d ->
  index_exact search (fts_index visit fts_ok fts_match c d) inp rs [lit "match"].
Proof.
  intros Hi Hn Hf V HF Er [rows [T [R D]]] fs Nf Nd Ha. inversion Hf as [|? ? Ht Hp]; subst.
  destruct fs as [|[p f] fs]; [congruence|]. inversion Ha as [|? ? [Hin (q & Sf & Hq)] Ha']; subst. cbn [fst snd] in *. destruct Hin as [<-|[]].
  assert (fs = []) as ->.
  { destruct fs as [|[p' f'] fs]; [reflexivity|]. inversion Ha' as [|? ? [[E|[]] _] _]; subst. cbn [fst] in E. inversion Nd as [|? ? Hni _]; subst. exfalso. apply Hni. left. cbn [fst]. congruence. }
  destruct (HF (ft_props c) (ft_prefix c) (ft_tokenize c) rows q Hq) as (found & E1 & K).
  destruct (rows_matched f q found _ _ Sf R K) as (rs' & zs & E0 & Se & Ez). assert (rs' = rs) as -> by (apply same_records; congruence).
  exists zs. split; [exact Se|]. unfold fts_index, fts_positions. rewrite Hi, bytes_eqb_refl. cbn [negb]. rewrite bytes_eqb_refl. cbn [negb].
  unfold rows_identifier. rewrite run_bind, run_sanitize, run_bind. cbn [srun]. rewrite (stored_bind _ _ Sf). cbv beta iota. rewrite run_bind. unfold sql_rows. cbn [srun].
  pose proof (parse_match (rows_name (ft_name c))) as P. rewrite (until_rows _ Hn) in P. rewrite (execq_parse _ _ _ _ _ _ _ P). cbn [exec_stmt].
  rewrite find_tables. change (ft_name c) with (kind_name k). rewrite T. rewrite name_eqb_refl. cbn [negb].
  cbn [index_cols k]. rewrite (until_all _ Hp), (until_nul_free _ Ht), E1. cbn [rbind]. rewrite V. cbn [map fst snd srun]. do 2 f_equal.
  rewrite <- (rows_iterate_ok zs). do 2 f_equal. clear - Ez. revert zs Ez. induction found as [|row found IH]; intros [|z zs] E; try discriminate; [reflexivity|].
  injection E as E E'. cbn [map]. rewrite (IH zs E'). do 2 f_equal. exact E.
Qed.
Theorem fts_suits inp rs d d' : in_name inp = ft_input c -> nul_free (ft_name c) -> Forall nul_free (ft_tokenize c :: ft_props c) ->
  in_order visit -> searched_by fts_match F -> in_iter inp = map Ok rs -> prepared visit fts_ok fts_match (IFts c) inp d -> run (start (IFts c) inp) d = (d', Ok tt) ->
  index_exact search (fts_index visit fts_ok fts_match c d') inp rs [lit "match"].
Proof. intros Hi Hn Hf V HF Er Hp E. apply matched_rows_suit; try assumption. apply (prepared_rows visit fts_ok fts_match (IFts c) Hn I inp d d' Hp E). Qed.
End Fulltext.

(** The index comes back on any filter. *)
Section Safe.
Variable visit : list (list sqlv) -> list (res (list sqlv)).
Variable fts_ok : list bytes -> bytes -> bytes -> bool.
Variable fts_match : table -> sqlv -> res (list (list sqlv)).
Hypothesis Hvisit : only_rows visit.
Hypothesis Hfts : forall t a, returns (fts_match t a).
Notation run := (srun visit fts_ok fts_match).

Definition answered (r : res answer) : Prop := returns r /\ forall a, r = Ok a -> Forall returns a.

Lemma visit_returns l : Forall returns (visit l).
Proof. apply Forall_forall. intros x Hx. pose proof (Hvisit l x Hx) as H. destruct x; cbn in *; auto. Qed.
Lemma oks_return {A} (l : list A) : Forall returns (map Ok l).
Proof. apply Forall_forall. intros x Hx. apply in_map_iff in Hx as (y & <- & _). exact I. Qed.

Lemma exec_answered q args d : answered (snd (exec_sql visit fts_ok fts_match q args d)).
Proof.
  unfold exec_sql, answered. destruct (parse q) as [s|]; [|split; [exact I|discriminate]].
  assert (G : returns (exec_stmt visit fts_ok fts_match s args d) /\ forall d' a, exec_stmt visit fts_ok fts_match s args d = Ok (d', a) -> Forall returns a).
  { assert (O : forall (d0 : db) a0, Forall (returns (A := list sqlv)) a0 -> returns (Ok (d0, a0)) /\ forall d' a, Ok (d0, a0) = Ok (d', a) -> Forall returns a).
    { intros d0 a0 H. split; [exact I|]. intros d' a [= _ <-]. exact H. }
    assert (N : forall e, returns (@Err (db * answer) e) /\ forall d' a, @Err (db * answer) e = Ok (d', a) -> Forall returns a).
    { intros e. split; [exact I|discriminate]. }
    destruct s; cbn [exec_stmt];
      repeat match goal with
             | |- context [match ?x with _ => _ end] => destruct x
             | |- _ => first [apply N | apply O; solve [constructor | repeat constructor; exact I | apply oks_return | apply visit_returns]]
             end.
    match goal with |- context [fts_match ?x ?y] => pose proof (Hfts x y) as Hf; destruct (fts_match x y) end; cbn [rbind] in *; try contradiction; [apply O, visit_returns|apply N]. }
  destruct G as [G1 G2]. destruct (exec_stmt visit fts_ok fts_match s args d) as [[d' a]| | |]; cbn [snd] in *; try contradiction.
  - split; [exact I|]. intros a' [= <-]. exact (G2 d' a eq_refl).
  - split; [exact I|discriminate].
Qed.

Definition good {A} (P : A -> Prop) (r : res A) : Prop := match r with Ok a => P a | Err _ => True | Panic | NoFuel => False end.
Fixpoint safe {A} (P : A -> Prop) (p : sprog A) : Prop :=
  match p with
  | SRet r => good P r
  | SDo q args k => forall r, answered r -> safe P (k r)
  end.
Lemma safe_run {A} (P : A -> Prop) (p : sprog A) : safe P p -> forall d, good P (snd (run p d)).
Proof. induction p as [r|q args k IH]; intros H d; cbn [srun]; [exact H|]. apply IH, H, exec_answered. Qed.
Lemma safe_bind {A B} (P : A -> Prop) (Q : B -> Prop) (p : sprog A) f : safe P p -> (forall a, P a -> safe Q (f a)) -> safe Q (sbind p f).
Proof.
  induction p as [r|q args k IH]; intros H Hf; cbn [sbind safe] in *.
  - destruct r; cbn [good] in H; try contradiction; [now apply Hf|exact I].
  - intros r Hr. apply IH; [now apply H|exact Hf].
Qed.
Lemma safe_row q args : safe (fun _ => True) (sql_row q args).
Proof.
  cbn [sql_row safe]. intros r [H1 H2]. destruct r as [a| | |]; cbn [rbind good] in *; try contradiction; [|exact I].
  destruct a as [|x a]; [exact I|]. specialize (H2 _ eq_refl). inversion H2 as [|y l Hx Hl]; subst. destruct x; cbn in *; auto.
Qed.
Lemma safe_rows q args : safe (Forall returns) (sql_rows q args).
Proof. cbn [sql_rows safe]. intros r [H1 H2]. destruct r as [a| | |]; cbn [good] in *; try contradiction; [now apply H2|exact I]. Qed.
Lemma safe_sanitize n : safe (fun _ => True) (sanitize_identifier n).
Proof.
  unfold sanitize_identifier. eapply safe_bind; [apply safe_row|]. intros row _.
  destruct row as [|[| | |] [|]]; exact I.
Qed.
Lemma safe_mapM {A B} (f : A -> sprog B) l : (forall x, safe (fun _ => True) (f x)) -> safe (fun _ => True) (smapM f l).
Proof.
  intros H. induction l as [|x l IH]; [exact I|]. cbn [smapM]. eapply safe_bind; [apply H|]. intros y _. eapply safe_bind; [exact IH|]. intros ys _. exact I.
Qed.
Lemma iterate_returns a : Forall returns a -> Forall returns (rows_iterate a).
Proof.
  induction 1 as [|x a Hx Ha IH]; cbn [rows_iterate]; [constructor|]. destruct x as [row| | |]; cbn in Hx; try contradiction; [|constructor].
  destruct row as [|[] [|]]; repeat constructor; exact IH.
Qed.
Lemma bind_values_return l : good (fun _ => True) (rmapM bind_value l).
Proof.
  induction l as [|v l IH]; [exact I|]. cbn [rmapM]. destruct (bind_value v) eqn:E; cbn [rbind]; try (destruct v as [| | |f| | |]; try destruct f; cbn in E; discriminate); [|exact I].
  destruct (rmapM bind_value l); cbn [rbind good] in *; auto.
Qed.

Theorem sqlite_returns c d inp fs : returns (sqlite_index visit fts_ok fts_match c d inp fs) /\
  forall it, sqlite_index visit fts_ok fts_match c d inp fs = Ok it -> Forall returns it.
Proof.
  assert (H : safe (Forall returns) (sqlite_positions c (in_name inp) fs)).
  { unfold sqlite_positions. destruct (negb _); [exact I|]. destruct fs as [|f fs]; [exact I|]. remember (f :: fs) as l eqn:El. clear.
    eapply safe_bind; [apply safe_sanitize|]. intros tid _.
    eapply safe_bind. { apply safe_mapM. intros x. unfold filter_clause. destruct (negb _); [exact I|]. eapply safe_bind; [apply safe_sanitize|]. intros y _. exact I. }
    intros cs _. eapply safe_bind; [apply (bind_values_return (map snd cs))|]. intros args _.
    eapply safe_bind; [apply safe_rows|]. intros a Ha. cbn. now apply iterate_returns. }
  pose proof (safe_run _ _ H d) as G. unfold sqlite_index. destruct (snd _); cbn [good returns] in *; try contradiction.
  - split; [exact I|]. intros it [= <-]. exact G.
  - split; [exact I|discriminate].
Qed.

Lemma safe_rows_identifier n : safe (fun _ => True) (rows_identifier n).
Proof. apply safe_sanitize. Qed.
Theorem fts_returns c d inp fs : returns (fts_index visit fts_ok fts_match c d inp fs) /\
  forall it, fts_index visit fts_ok fts_match c d inp fs = Ok it -> Forall returns it.
Proof.
  assert (H : safe (Forall returns) (fts_positions c (in_name inp) fs)).
  { unfold fts_positions. destruct (negb _); [exact I|]. destruct fs as [|[p f] [|]]; try exact I. destruct (negb _); [exact I|].
    eapply safe_bind; [apply safe_rows_identifier|]. intros tid _.
    eapply (safe_bind (fun _ => True)); [destruct f as [| | |x| | |]; try exact I; destruct x; exact I|]. intros arg _.
    eapply safe_bind; [apply safe_rows|]. intros a Ha. cbn. now apply iterate_returns. }
  pose proof (safe_run _ _ H d) as G. unfold fts_index. destruct (snd _); cbn [good returns] in *; try contradiction.
  - split; [exact I|]. intros it [= <-]. exact G.
  - split; [exact I|discriminate].
Qed.
End Safe.
