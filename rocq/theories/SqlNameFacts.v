(** Names and identifiers; several indexes in one database. *)
From Coq Require Import List ZArith Lia Bool String Permutation.
From Coq Require Import Strings.Byte.
From Coq Require Import Floats.SpecFloat.
From Verif Require Import Base BaseFacts Value Json Index Sql SqlIndex SqlFacts SqlRunFacts SpecSql SqlInvFacts SqlLifeFacts SqlHistoryFacts SqlQueryFacts SqlCreateFacts.
Import ListNotations.
Open Scope Z_scope.

(** *** Distinct names *)

Lemma shadow_shadow a b x y : In x shadow_suffixes -> In y shadow_suffixes ->
  name_eqb (rows_name a ++ x) (rows_name b ++ y) = true -> fold_name a = fold_name b.
Proof.
  intros Hx Hy. rewrite name_eqb_iff, !fold_app, !fold_rows, <- !app_assoc. intros E. apply app_inv_head in E.
  unfold shadow_suffixes in *. cbn [In] in Hx, Hy.
  assert (K : forall (u v : bytes) (n : nat), u = v -> skipn (List.length u - n) u = skipn (List.length v - n) v) by (intros; subst; reflexivity).
  assert (Suf : forall (s t p q : bytes) n, (n <= List.length s)%nat -> (n <= List.length t)%nat ->
    skipn (List.length s - n) s <> skipn (List.length t - n) t -> p ++ s = q ++ t -> False).
  { intros s t p q n Ls Lt N X. apply (K _ _ n) in X. rewrite !app_length in X.
    replace (List.length p + List.length s - n)%nat with (List.length p + (List.length s - n))%nat in X by lia.
    replace (List.length q + List.length t - n)%nat with (List.length q + (List.length t - n))%nat in X by lia.
    rewrite !skipn_app in X. rewrite (skipn_all2 p), (skipn_all2 q) in X by lia. cbn [app] in X.
    replace (List.length p + (List.length s - n) - List.length p)%nat with (List.length s - n)%nat in X by lia.
    replace (List.length q + (List.length t - n) - List.length q)%nat with (List.length t - n)%nat in X by lia.
    contradiction. }
  destruct Hx as [<-|[<-|[<-|[<-|[<-|[]]]]]], Hy as [<-|[<-|[<-|[<-|[<-|[]]]]]];
    try (now apply app_inv_tail in E);
    (exfalso; revert E; apply (Suf _ _ _ _ 3%nat); [vm_compute; lia|vm_compute; lia|vm_compute; discriminate]).
Qed.

Lemma own_disjoint a b x y : fold_name a <> fold_name b -> In x (own_tables a) -> In y (own_tables b) -> fold_name x <> fold_name y.
Proof.
  intros N Hx Hy. apply name_eqb_false.
  destruct Hy as [<-|[<-|Hy]].
  - apply (other_tables a b); [assumption|assumption|now left].
  - apply (other_tables a b); [assumption|assumption|right; now left].
  - destruct Hx as [<-|[<-|Hx]].
    + rewrite name_eqb_false. intros E. symmetry in E. revert E. apply name_eqb_false. apply (other_tables b a); [congruence| |now left].
      right. now right.
    + rewrite name_eqb_false. intros E. symmetry in E. revert E. apply name_eqb_false. apply (other_tables b a); [congruence| |right; now left].
      right. now right.
    + apply in_map_iff in Hx as [s [<- Hs]], Hy as [t [<- Ht]].
      destruct (name_eqb _ _) eqn:E; [|reflexivity]. apply shadow_shadow in E; auto. contradiction.
Qed.

Lemma columns_distinct p q : fold_name p <> fold_name q -> fold_name (property_name p) <> fold_name (property_name q).
Proof. unfold property_name. rewrite !fold_app. intros N E. apply app_inv_head in E. contradiction. Qed.

Lemma column_offset p : fold_name (property_name p) <> fold_name (lit "offset").
Proof. intros E. apply (not_offset [p]). cbn [map]. left. exact E. Qed.

Lemma surjective_pairing_ok {A B} (p : A * B) b : snd p = b -> p = (fst p, b).
Proof. destruct p. cbn. now intros ->. Qed.

Section Names.
Variable visit : list (list sqlv) -> list (res (list sqlv)).
Variable fts_ok : list bytes -> bytes -> bytes -> bool.
Variable fts_match : table -> sqlv -> res (list (list sqlv)).
Notation exec := (exec_stmt visit fts_ok fts_match).
Notation run := (srun visit fts_ok fts_match).
Notation states := (sstates visit fts_ok fts_match).

(** *** Answers depend on the table of the index only *)

Lemma clauses_any c fs : exists r, (forall d, run (smapM (filter_clause c) fs) d = (d, r)) /\
  (forall cs, r = Ok cs -> map fst cs = map (fun pf => quote (property_name (fst pf)) ++ lit " = ?") fs).
Proof.
  induction fs as [|pf fs [r [H1 H2]]]; cbn [smapM].
  - exists (Ok []). split; [reflexivity|]. intros cs [= <-]. reflexivity.
  - destruct (existsb (fun p => bytes_eqb (fst pf) (fst p)) (sq_props c)) eqn:E.
    + exists (rlet ys := r in Ok ((quote (property_name (fst pf)) ++ lit " = ?", snd pf) :: ys)). split.
      * intros d. rewrite run_bind. unfold filter_clause at 1. rewrite E. cbn [negb]. unfold property_identifier.
        rewrite run_bind, run_sanitize. cbn [srun]. rewrite run_bind, H1. destruct r; reflexivity.
      * intros cs. destruct r as [ys| | |]; cbn [rbind]; try discriminate. intros [= <-]. cbn [map fst]. now rewrite (H2 ys eq_refl).
    + exists (Err (EMsg "This index does not handle the property")). split; [|discriminate].
      intros d. rewrite run_bind. unfold filter_clause at 1. rewrite E. reflexivity.
Qed.

Lemma sqlite_answer_frame c inp_name fs d d' : nul_free (sq_name c) ->
  tables_of d' (rows_name (sq_name c)) = tables_of d (rows_name (sq_name c)) ->
  snd (run (sqlite_positions c inp_name fs) d') = snd (run (sqlite_positions c inp_name fs) d).
Proof.
  intros Hn T. unfold sqlite_positions. destruct (negb _); [reflexivity|].
  destruct fs as [|pf0 fs0] eqn:Ef; [reflexivity|]. rewrite <- Ef in *.
  unfold rows_identifier. rewrite !run_bind, !run_sanitize. cbv beta iota. rewrite !run_bind.
  destruct (clauses_any c fs) as [r [H1 H2]]. rewrite !H1. destruct r as [cs| | |]; try reflexivity.
  rewrite !run_bind. cbn [srun]. destruct (rmapM bind_value (map snd cs)) as [args| | |]; try reflexivity.
  rewrite !run_bind. unfold sql_rows. cbn [srun]. rewrite (H2 cs eq_refl).
  pose proof (parse_positions (rows_name (sq_name c)) (map (fun x => property_name (fst x)) fs)) as P.
  rewrite !map_map, (until_rows _ Hn) in P.
  assert (N : map (fun x => property_name (fst x)) fs <> []) by (rewrite Ef; discriminate).
  rewrite !(execq_parse _ _ _ _ _ _ _ (P N)). cbn [exec_stmt]. rewrite !find_tables, T.
  destruct (tables_of d (rows_name (sq_name c))) as [|[m t] l]; [reflexivity|].
  destruct (negb _); [reflexivity|]. reflexivity.
Qed.

Lemma fts_answer_frame c inp_name fs d d' : nul_free (ft_name c) ->
  tables_of d' (rows_name (ft_name c)) = tables_of d (rows_name (ft_name c)) ->
  snd (run (fts_positions c inp_name fs) d') = snd (run (fts_positions c inp_name fs) d).
Proof.
  intros Hn T. unfold fts_positions. destruct (negb _); [reflexivity|].
  destruct fs as [|[p f] [|]]; try reflexivity. destruct (negb _); [reflexivity|].
  unfold rows_identifier. rewrite !run_bind, !run_sanitize. cbv beta iota. rewrite !run_bind. cbn [srun].
  destruct (bind_value f) as [a| | |]; try reflexivity. rewrite !run_bind. unfold sql_rows. cbn [srun].
  rewrite !(execq_parse _ _ _ _ _ _ _ (parse_match _)), (until_rows _ Hn). cbn [exec_stmt]. rewrite !find_tables, T.
  destruct (tables_of d (rows_name (ft_name c))) as [|[m t] l]; [reflexivity|].
  destruct (negb _); [reflexivity|]. destruct (fts_match t a); reflexivity.
Qed.

Theorem other_start a b inp d d' inp_name fs : nul_free (kind_name a) -> nul_free (kind_name b) -> validated_collations b ->
  fold_name (kind_name a) <> fold_name (kind_name b) -> In d' (states (start b inp) d) ->
  answers visit fts_ok fts_match a inp_name fs d' = answers visit fts_ok fts_match a inp_name fs d /\
  tables_of d' (meta_name (kind_name a)) = tables_of d (meta_name (kind_name a)).
Proof.
  intros Ha Hb Vb N H.
  assert (K : forall x, In x [meta_name (kind_name a); rows_name (kind_name a)] -> tables_of d' x = tables_of d x).
  { intros x Hx.
    pose proof (start_keeps visit fts_ok fts_match b inp d x Hb (validated_word _ Vb)
      (fun y Hy => other_tables (kind_name b) (kind_name a) y x (fun e => N (eq_sym e)) Hy Hx)) as S.
    apply holds_states in S. rewrite Forall_forall in S. now apply S. }
  split; [|apply K; now left].
  pose proof (K (rows_name (kind_name a)) (or_intror (or_introl eq_refl))) as T.
  destruct a as [c|c]; cbn [answers kind_name] in *; [now apply sqlite_answer_frame|now apply fts_answer_frame].
Qed.

(** *** Answers after a start *)

Theorem sqlite_positions_exact c inp d d' fs : nul_free (sq_name c) -> validated_collations (ISqlite c) -> every_row visit ->
  tables_of d (meta_name (sq_name c)) = [] -> tables_of d (rows_name (sq_name c)) = [] ->
  run (start (ISqlite c) inp) d = (d', Ok tt) ->
  fs <> [] -> Forall (handled c) fs -> (forall r, In (Ok r) (in_iter inp) -> Forall (agree r) fs) ->
  exists it it', run (sqlite_positions c (sq_input c) fs) d' = (d', Ok it) /\ noop_positions inp fs = Ok it' /\ Permutation it it'.
Proof.
  intros Hn Vc V Tm Tr E Nf Hh A.
  rewrite (first_start visit fts_ok fts_match (ISqlite c) inp d Hn Tm) in E.
  pose proof (create_sqlite_holds visit fts_ok fts_match c inp d Hn (validated_word (ISqlite c) Vc) Tm Tr) as H.
  destruct (holds_run _ _ _ _ _ _ _ _ _ H E) as [R _].
  destruct (positions_permuted visit fts_ok fts_match c c inp d' fs Hn R eq_refl V Nf Hh) as [it [E1 P]]; auto.
  { eapply Forall_impl; [|exact Hh]. cbn beta. intros pf [Hi _]. apply in_map_iff. exists (fst pf, lit "BINARY"). auto. }
  exists it, (noop_iterate fs (in_iter inp)). auto.
Qed.

Theorem sqlite_positions_reopened ks c inp d d' : good_names ks -> Forall validated_collations ks -> every_row visit ->
  history visit fts_ok fts_match ks d -> In (ISqlite c) ks -> run (start (ISqlite c) inp) d = (d', Ok tt) ->
  exists inp0, in_size inp0 = in_size inp /\ in_mtime inp0 = in_mtime inp /\
  forall fs, fs <> [] -> Forall (handled c) fs -> (forall r, In (Ok r) (in_iter inp0) -> Forall (agree r) fs) ->
  exists it it', run (sqlite_positions c (sq_input c) fs) d' = (d', Ok it) /\ noop_positions inp0 fs = Ok it' /\ Permutation it it'.
Proof.
  intros G Vs V H Hk E. pose proof (history_inv visit fts_ok fts_match ks d G Vs H _ Hk) as I. destruct G as [G1 _].
  rewrite Forall_forall in G1, Vs. pose proof (G1 _ Hk) as Hn.
  destruct (start_holds visit fts_ok fts_match _ inp d Hn (validated_word _ (Vs _ Hk)) I) as [_ F].
  destruct (F d' E) as [inp0 [H1 [H2 [R _]]]]. exists inp0. split; [exact H1|]. split; [exact H2|]. intros fs Nf Hh A.
  destruct (positions_permuted visit fts_ok fts_match c c inp0 d' fs Hn R eq_refl V Nf Hh) as [it [E1 P]]; auto.
  { eapply Forall_impl; [|exact Hh]. cbn beta. intros pf [Hi _]. apply in_map_iff. exists (fst pf, lit "BINARY"). auto. }
  exists it, (noop_iterate fs (in_iter inp0)). auto.
Qed.

(** Only rows that are there, even when SQLite fails half-way. *)
Theorem sqlite_positions_sound c inp d d' fs : nul_free (sq_name c) -> validated_collations (ISqlite c) -> only_rows visit ->
  tables_of d (meta_name (sq_name c)) = [] -> tables_of d (rows_name (sq_name c)) = [] ->
  run (start (ISqlite c) inp) d = (d', Ok tt) ->
  fs <> [] -> Forall (handled c) fs -> (forall r, In (Ok r) (in_iter inp) -> Forall (agree r) fs) ->
  exists it it', run (sqlite_positions c (sq_input c) fs) d' = (d', Ok it) /\ noop_positions inp fs = Ok it' /\
    (forall x, In x it -> In x it').
Proof.
  intros Hn Vc V Tm Tr E Nf Hh A.
  rewrite (first_start visit fts_ok fts_match (ISqlite c) inp d Hn Tm) in E.
  pose proof (create_sqlite_holds visit fts_ok fts_match c inp d Hn (validated_word (ISqlite c) Vc) Tm Tr) as H.
  destruct (holds_run _ _ _ _ _ _ _ _ _ H E) as [R _].
  destruct (positions_only visit fts_ok fts_match c c inp d' fs Hn R eq_refl V Nf Hh) as [it [E1 P]]; auto.
  { eapply Forall_impl; [|exact Hh]. cbn beta. intros pf [Hi _]. apply in_map_iff. exists (fst pf, lit "BINARY"). auto. }
  exists it, (noop_iterate fs (in_iter inp)). auto.
Qed.

(** The configuration has changed since the creation, the input has not. *)
Theorem sqlite_changed_config c c' inp inp' d d' : nul_free (sq_name c) -> validated_collations (ISqlite c) -> every_row visit ->
  tables_of d (meta_name (sq_name c)) = [] -> tables_of d (rows_name (sq_name c)) = [] ->
  run (start (ISqlite c) inp) d = (d', Ok tt) ->
  sq_name c' = sq_name c -> in_size inp' = in_size inp -> in_mtime inp' = in_mtime inp ->
  run (start (ISqlite c') inp') d' = (d', Ok tt) /\
  forall fs, fs <> [] -> Forall (handled c) fs -> Forall (fun pf => In (fst pf) (map fst (sq_props c'))) fs ->
  (forall r, In (Ok r) (in_iter inp) -> Forall (agree r) fs) ->
  exists it it', run (sqlite_positions c' (sq_input c') fs) d' = (d', Ok it) /\ noop_positions inp fs = Ok it' /\ Permutation it it'.
Proof.
  intros Hn Vc V Tm Tr E En Es Et.
  rewrite (first_start visit fts_ok fts_match (ISqlite c) inp d Hn Tm) in E.
  pose proof (create_sqlite_holds visit fts_ok fts_match c inp d Hn (validated_word (ISqlite c) Vc) Tm Tr) as H.
  destruct (holds_run _ _ _ _ _ _ _ _ _ H E) as [R [m [M1 [M2 [M3 [M4 M5]]]]]]. cbn [kind_name] in M5.
  split.
  - cbn [start]. unfold new_sqlite. rewrite En.
    destruct (open_holds visit fts_ok fts_match (sq_name c) inp' (create_sqlite c' inp') d' _ Hn M5) as [O _].
    rewrite O. f_equal. rewrite run_bind, (run_load _ _ _ _ _ _ Hn M5). rewrite (meta_values m _ M4).
    change ((0 <=? sqlite_version) && (sqlite_version <? 65536)) with true. cbv iota. cbn [srun snd].
    apply assert_ok; [reflexivity|]. cbn [sm_mtime sm_size sm_completed]. rewrite M3. repeat split; congruence.
  - intros fs Nf Hh Hl A.
    destruct (positions_permuted visit fts_ok fts_match c c' inp d' fs Hn R En V Nf Hh Hl A) as [it [E1 P]].
    exists it, (noop_iterate fs (in_iter inp)). auto.
Qed.

(** *** Identifiers *)

Theorem quoting n : nul_free n ->
  exists q, (forall d, run (sanitize_identifier n) d = (d, Ok q)) /\
  forall rest ts, hd_error rest <> Some dquote -> lex rest = Some ts -> lex (q ++ rest) = Some (TQuoted n :: ts).
Proof.
  intros Hn. exists (quote n). split; [intros d; apply run_sanitize|]. intros rest ts Hr Hl.
  apply lex_quote_text; [now apply nul_free_no_nul| |exact Hl].
  destruct rest as [|c rest]; cbn [starts_not hd_error] in *; [exact I|]. intros ->. now apply Hr.
Qed.

(** Every text the indexes send, for names without NUL. *)
Theorem texts_read n i p tok prefix props coll : nul_free n -> nul_free i -> nul_free p -> nul_free tok ->
  Forall nul_free props -> props <> [] ->
  In coll [lit "BINARY"; lit "NOCASE"; lit "RTIRM"] ->
  (forall d, run (sanitize_identifier n) d = (d, Ok (quote n))) /\
  parse (create_meta_sql (quote n)) = Some (CreateTable true n smeta_cols) /\
  parse (delete_meta_sql (quote n)) = Some (DeleteFrom n) /\
  parse (insert_meta_sql (quote n)) = Some (InsertInto n smeta_names 4) /\
  parse (load_sql (quote n)) = Some (Select smeta_names n []) /\
  parse (has_sql (quote n)) = Some (CountMaster n) /\
  parse (count_sql (quote n)) = Some (CountRows n) /\
  parse (create_index_sql (quote i) (quote n) (quote p)) = Some (CreateIndex i n p) /\
  parse (match_sql (quote n)) = Some (SelectMatch (lit "__offset") n n) /\
  parse (create_rows_sql (quote n) (map (fun q => quote q ++ lit " BLOB COLLATE " ++ coll) props))
    = Some (CreateTable false n (int_col (lit "offset") :: map (fun q => mkCol q (lit "BLOB") false coll) props)) /\
  parse (insert_rows_sql (quote n) (map quote props)) = Some (InsertInto n (lit "offset" :: props) (S (List.length props))) /\
  parse (positions_sql (quote n) (map (fun q => quote q ++ lit " = ?") props)) = Some (Select [lit "offset"] n props) /\
  parse (create_fts_sql (quote n) (map quote props) (prefix_string prefix) (quote tok))
    = Some (CreateFts n (lit "__offset" :: props) (prefix_string prefix) tok) /\
  parse (insert_fts_sql (quote n) (map quote props)) = Some (InsertInto n (lit "__offset" :: props) (S (List.length props))).
Proof.
  intros Hn Hi Hp Ht Hs Ns Hc.
  assert (U : map until_nul props = props).
  { rewrite <- (map_id props) at 2. apply map_ext_in. intros q Hq. apply until_nul_free. rewrite Forall_forall in Hs. now apply Hs. }
  split; [intros d; apply run_sanitize|].
  rewrite parse_create_meta, parse_delete_meta, parse_insert_meta, parse_load, parse_has, parse_count, parse_create_index,
    parse_match, parse_insert_rows, parse_positions, parse_create_fts, parse_insert_fts, U by (assumption || apply digits_prefix).
  rewrite !(until_nul_free n), (until_nul_free i), (until_nul_free p), (until_nul_free tok) by assumption.
  repeat (split; [reflexivity|]). split; [|repeat split].
  pose proof (parse_create_rows n (map (fun q => (q, coll)) props) (map_ne _ _ Ns)) as P.
  rewrite !map_map, (until_nul_free n Hn) in P. unfold blob_def, blob_col in P. cbn [fst snd] in P.
  etransitivity; [apply P; apply Forall_map, Forall_forall; intros q _; now apply collation_word|].
  do 3 f_equal. apply map_ext_in. intros q Hq. f_equal. apply until_nul_free. rewrite Forall_forall in Hs. now apply Hs.
Qed.

End Names.
