(** Properties C15, C16, C17, C54, C55: the SQLite and full-text indexes. *)
From Coq Require Import List ZArith Lia Bool String Permutation.
From Coq Require Import Strings.Byte Floats.SpecFloat.
From Verif Require Import Base BaseFacts Value Json Index Sql SqlIndex SpecSql.
From Verif Require Import SqlFacts SqlHistoryFacts SqlQueryFacts SqlCreateFacts SqlNameFacts.
Import ListNotations.
Open Scope Z_scope.

(** *** Some data *)

(** A database that returns the rows in order, accepts every full-text table, and
    matches everything. *)
Definition plain {A} : sprog A -> db -> db * res A := @srun (map Ok) (fun _ _ _ => true) (fun t _ => Ok (t_rows t)) A.
Definition plain_states {A} : sprog A -> db -> list db := @sstates (map Ok) (fun _ _ _ => true) (fun t _ => Ok (t_rows t)) A.

Definition person (pos : Z) (id age : value) : res rec :=
  Ok (mkRec pos (fun p => if bytes_eqb p (lit "id") then Ok id else if bytes_eqb p (lit "age""; DROP TABLE x --") then Ok age else Ok VNil) (Ok [])).
Definition one_half : spec_float := S754_finite false 1 (-1).
Definition three : spec_float := S754_finite false 3 0.
Definition people : input :=
  mkInput (lit "people") (Ok 100) (Ok 1600000000)
    [person 0 (VInt 1) (VInt 30); person 10 (VInt 2) VNil; person 20 (VInt 3) (VFloat three); person 30 (VInt 4) (VBool true)]
    (fun _ => Err EIo).
Definition age : bytes := lit "age""; DROP TABLE x --".
Definition by_age : sconfig := mkSconfig (lit "by ""age""") (lit "people") [(lit "id", lit "BINARY"); (age, lit "BINARY")].
Definition words : fconfig := mkFconfig (lit "words") (lit "people") [2; 3] (lit "unicode61 tokenchars '-'") [lit "id"; age].
Definition after (k : index_kind) (d : db) : db := fst (plain (start k people) d).
Definition by_age_db : db := after (ISqlite by_age) empty_db.

Example people_ok :
  plain (start (ISqlite by_age) people) empty_db = (by_age_db, Ok tt) /\
  snd (plain (start (IFts words) people) by_age_db) = Ok tt /\
  snd (plain (sqlite_positions by_age (lit "people") [(lit "id", VInt 3)]) by_age_db) = Ok [Ok 20] /\
  snd (plain (sqlite_positions by_age (lit "people") [(age, VInt 30); (lit "id", VInt 1)]) by_age_db) = Ok [Ok 0] /\
  snd (plain (fts_positions words (lit "people") [(lit "match", VString (lit "x"))]) (after (IFts words) by_age_db)) = Ok [Ok 0; Ok 10; Ok 20; Ok 30].
Proof. vm_compute. auto. Qed.

(** *** C15 *)

(** A newly created index gives the positions the default index gives. *)
Theorem C15_same_positions : forall visit fts_ok fts_match c inp d d' fs,
  nul_free (sq_name c) -> validated_collations (ISqlite c) -> every_row visit ->
  tables_of d (meta_name (sq_name c)) = [] -> tables_of d (rows_name (sq_name c)) = [] ->
  srun visit fts_ok fts_match (start (ISqlite c) inp) d = (d', Ok tt) ->
  fs <> [] -> Forall (handled c) fs -> (forall r, In (Ok r) (in_iter inp) -> Forall (agree r) fs) ->
  exists it it', srun visit fts_ok fts_match (sqlite_positions c (sq_input c) fs) d' = (d', Ok it) /\
    noop_positions inp fs = Ok it' /\ Permutation it it'.
Proof. exact sqlite_positions_exact. Qed.
Print Assumptions C15_same_positions.

(** An index created by an earlier start gives the positions the default index gives
    for some input of the same size and modification time. *)
Theorem C15_same_positions_reopened : forall visit fts_ok fts_match ks c inp d d',
  good_names ks -> Forall validated_collations ks -> every_row visit ->
  history visit fts_ok fts_match ks d -> In (ISqlite c) ks ->
  srun visit fts_ok fts_match (start (ISqlite c) inp) d = (d', Ok tt) ->
  exists inp0, in_size inp0 = in_size inp /\ in_mtime inp0 = in_mtime inp /\
  forall fs, fs <> [] -> Forall (handled c) fs -> (forall r, In (Ok r) (in_iter inp0) -> Forall (agree r) fs) ->
  exists it it', srun visit fts_ok fts_match (sqlite_positions c (sq_input c) fs) d' = (d', Ok it) /\
    noop_positions inp0 fs = Ok it' /\ Permutation it it'.
Proof. exact sqlite_positions_reopened. Qed.
Print Assumptions C15_same_positions_reopened.

(** The creation succeeds. *)
Theorem C15_creation_succeeds : forall visit fts_ok fts_match k inp d,
  creatable fts_ok k d -> readable inp -> Forall (indexable (kind_props k)) (in_iter inp) ->
  exists d', srun visit fts_ok fts_match (start k inp) d = (d', Ok tt).
Proof. exact creation_succeeds. Qed.
Print Assumptions C15_creation_succeeds.

Lemma plain_every_row : every_row (map Ok).
Proof. intros l. exists l. auto. Qed.

Ltac no_dup := repeat (constructor; [let H := fresh in intros H; cbn [In] in H; repeat (destruct H as [H|H]; [vm_compute in H; discriminate H|]); exact H|]); constructor.
Ltac nuls := let H := fresh in intros H; vm_compute in H; repeat (destruct H as [H|H]; [discriminate H|]); exact H.

Example C15_example :
  nul_free (sq_name by_age) /\ validated_collations (ISqlite by_age) /\ every_row (map Ok) /\
  tables_of empty_db (meta_name (sq_name by_age)) = [] /\ tables_of empty_db (rows_name (sq_name by_age)) = [] /\
  Forall (handled by_age) [(lit "id", VInt 3); (age, VString (lit "x"))] /\
  (forall r, In (Ok r) (in_iter people) -> Forall (agree r) [(lit "id", VInt 3); (age, VString (lit "x"))]) /\
  creatable (fun _ _ _ => true) (ISqlite by_age) empty_db /\ readable people /\
  Forall (indexable (kind_props (ISqlite by_age))) (in_iter people) /\
  creatable (fun _ _ _ => true) (IFts words) by_age_db.
Proof.
  assert (N : nul_free (sq_name by_age)) by nuls. assert (P : Forall nul_free [lit "id"; age]) by (repeat constructor; nuls).
  split; [exact N|]. split; [repeat constructor|]. split; [exact plain_every_row|]. split; [reflexivity|]. split; [reflexivity|].
  split; [repeat (constructor; [split; [cbn [In fst sq_props by_age]; tauto|reflexivity]|]); constructor|].
  split.
  { intros r H. cbn [in_iter people In] in H.
    destruct H as [H|[H|[H|[H|[]]]]]; injection H as <-;
      (constructor; [|constructor; [|constructor]]); intros v E; vm_compute in E; injection E as <-;
      (split; [reflexivity|intros [X Y]; discriminate]). }
  split; [split; [exact N|]; split; [discriminate|]; split; [exact P|]; split; [split; [reflexivity|constructor]|];
          split; [split; [reflexivity|constructor]|]; split; [vm_compute; no_dup|];
          split; [repeat constructor|]; repeat constructor|].
  split; [split; eauto; [exists 100|exists 1600000000]; reflexivity|].
  split; [repeat constructor; (eexists; split; [reflexivity|]; repeat constructor; eexists; split; reflexivity)|].
  split; [nuls|]. split; [discriminate|]. split; [exact P|].
  assert (I : forall x, hd_error (fold_name x) = Some Byte.x72 -> Forall (fun i => fold_name (fst i) <> fold_name x) (d_indexes by_age_db)).
  { intros x Hx. apply Forall_forall. intros i Hi E. rewrite <- E in Hx. vm_compute in Hi.
    destruct Hi as [<-|[<-|[]]]; vm_compute in Hx; discriminate Hx. }
  split; [split; [vm_compute; reflexivity|apply I; vm_compute; reflexivity]|].
  split; [split; [vm_compute; reflexivity|apply I; vm_compute; reflexivity]|].
  split; [vm_compute; no_dup|]. split; [reflexivity|].
  repeat (constructor; [split; [vm_compute; reflexivity|apply I; vm_compute; reflexivity]|]). constructor.
Qed.

(** [NULL = NULL] is not true: a filter for null finds nothing. *)
Theorem C15_null_refuted : exists c inp d' fs, plain (start (ISqlite c) inp) empty_db = (d', Ok tt) /\
  Forall (handled c) fs /\ fs <> [] /\
  snd (plain (sqlite_positions c (sq_input c) fs) d') = Ok [] /\ noop_positions inp fs = Ok [Ok 10].
Proof.
  exists by_age, people, by_age_db, [(age, VNil)]. repeat split; try (vm_compute; reflexivity); try discriminate.
  constructor; [|constructor]. split; [cbn [fst]; right; left; reflexivity|reflexivity].
Qed.
Print Assumptions C15_null_refuted.

(** Integers, floats and booleans are equal in SQLite and different in Go. *)
Theorem C15_numbers_refuted : exists c inp d' fs gs, plain (start (ISqlite c) inp) empty_db = (d', Ok tt) /\
  Forall (handled c) fs /\ Forall (handled c) gs /\
  snd (plain (sqlite_positions c (sq_input c) fs) d') = Ok [Ok 20] /\ noop_positions inp fs = Ok [] /\
  snd (plain (sqlite_positions c (sq_input c) gs) d') = Ok [Ok 30] /\ noop_positions inp gs = Ok [].
Proof.
  exists by_age, people, by_age_db, [(age, VInt 3)], [(age, VInt 1)]. repeat split; try (vm_compute; reflexivity);
    (constructor; [|constructor]; split; [cbn [fst]; right; left; reflexivity|reflexivity]).
Qed.
Print Assumptions C15_numbers_refuted.

(** A list which the default index could ignore stops the creation. *)
Theorem C15_list_value_refuted : exists c inp, creatable (fun _ _ _ => true) (ISqlite c) empty_db /\ readable inp /\
  snd (plain (start (ISqlite c) inp) empty_db) = Err (EMsg "unsupported type") /\
  noop_positions inp [(lit "id", VInt 2)] = Ok [Ok 7].
Proof.
  exists (mkSconfig (lit "i") (lit "people") [(lit "id", lit "BINARY")]),
    (mkInput (lit "people") (Ok 9) (Ok 1) [person 0 (VList [VInt 2]) VNil; person 7 (VInt 2) VNil] (fun _ => Err EIo)).
  split; [|split; [split; [exists 9|exists 1]; reflexivity|split; vm_compute; reflexivity]].
  split; [nuls|]. split; [discriminate|]. split; [repeat constructor; nuls|].
  repeat (split; [split; [reflexivity|constructor]|]). split; [vm_compute; no_dup|]. split; repeat constructor.
Qed.
Print Assumptions C15_list_value_refuted.

(** The collation the configuration knows as RTIRM is not one of SQLite's. *)
Theorem C15_rtirm_refuted : exists c inp, validated_collations (ISqlite c) /\ readable inp /\
  Forall (indexable (kind_props (ISqlite c))) (in_iter inp) /\
  snd (plain (start (ISqlite c) inp) empty_db) = Err (EMsg "no such collation sequence").
Proof.
  exists (mkSconfig (lit "i") (lit "people") [(lit "id", lit "RTIRM")]), people.
  split; [repeat constructor; cbn [In snd]; tauto|]. split; [split; [exists 100|exists 1600000000]; reflexivity|].
  split; [repeat constructor; (eexists; split; [reflexivity|]; repeat constructor; eexists; split; reflexivity)|].
  vm_compute. reflexivity.
Qed.
Print Assumptions C15_rtirm_refuted.

(** *** C16 *)

(** Whatever starts there were before, finished or stopped between two statements:
    an index that starts holds all the records of an input of this size and
    modification time. *)
Theorem C16_accepted_is_complete : forall visit fts_ok fts_match ks d k inp d',
  good_names ks -> Forall validated_collations ks -> history visit fts_ok fts_match ks d -> In k ks ->
  srun visit fts_ok fts_match (start k inp) d = (d', Ok tt) ->
  exists inp0, in_size inp0 = in_size inp /\ in_mtime inp0 = in_mtime inp /\ filled k inp0 d'.
Proof. exact accepted_is_complete. Qed.
Print Assumptions C16_accepted_is_complete.

(** A start that succeeded is followed by starts that succeed and change nothing, as
    long as the size and the modification time stay. *)
Theorem C16_finished_accepted : forall visit fts_ok fts_match ks d k inp d' inp',
  good_names ks -> Forall validated_collations ks -> history visit fts_ok fts_match ks d -> In k ks ->
  srun visit fts_ok fts_match (start k inp) d = (d', Ok tt) ->
  in_size inp' = in_size inp -> in_mtime inp' = in_mtime inp ->
  srun visit fts_ok fts_match (start k inp') d' = (d', Ok tt).
Proof. exact finished_accepted. Qed.
Print Assumptions C16_finished_accepted.

(** A creation stopped after two records: the start that follows refuses. *)
Definition stopped : db := nth 16 (plain_states (start (ISqlite by_age) people) empty_db) empty_db.
Definition both : list index_kind := [ISqlite by_age; IFts words].

Example C16_example :
  good_names both /\ Forall validated_collations both /\
  history (map Ok) (fun _ _ _ => true) (fun t _ => Ok (t_rows t)) both stopped /\
  map (fun t => List.length (t_rows (snd t))) (d_tables stopped) = [1; 2]%nat /\
  snd (plain (start (ISqlite by_age) people) stopped) = Err (EMsg "The previous indexing process has not ended properly.") /\
  snd (plain (start (IFts words) people) stopped) = Ok tt.
Proof.
  split.
  { split; [repeat constructor; nuls|]. intros a b Ha Hb E. destruct Ha as [<-|[<-|[]]], Hb as [<-|[<-|[]]]; try reflexivity; vm_compute in E; discriminate E. }
  split; [repeat constructor|]. split.
  { apply history_start with (d := empty_db) (k := ISqlite by_age) (inp := people).
    - apply history_begin. intros k [<-|[<-|[]]]; split; reflexivity.
    - now left.
    - unfold stopped, plain_states. apply nth_In.
      assert (H : (List.length (plain_states (start (ISqlite by_age) people) empty_db) > 16)%nat) by (vm_compute; lia). exact H. }
  split; [vm_compute; reflexivity|]. split; vm_compute; reflexivity.
Qed.

(** *** C17 *)

(** Quoting: in any text, the identifier of a name without NUL is read as exactly
    that name. *)
Theorem C17_quoting : forall visit fts_ok fts_match n, nul_free n ->
  exists q, (forall d, srun visit fts_ok fts_match (sanitize_identifier n) d = (d, Ok q)) /\
  forall rest ts, hd_error rest <> Some dquote -> lex rest = Some ts -> lex (q ++ rest) = Some (TQuoted n :: ts).
Proof. exact quoting. Qed.
Print Assumptions C17_quoting.

(** All the texts that are sent are read as the statements they are meant to be. *)
Theorem C17_texts : forall visit fts_ok fts_match n i p tok prefix props coll,
  nul_free n -> nul_free i -> nul_free p -> nul_free tok -> Forall nul_free props -> props <> [] ->
  In coll [lit "BINARY"; lit "NOCASE"; lit "RTIRM"] ->
  (forall d, srun visit fts_ok fts_match (sanitize_identifier n) d = (d, Ok (quote n))) /\
  parse (create_meta_sql (quote n)) = Some (CreateTable true n smeta_cols) /\
  parse (delete_meta_sql (quote n)) = Some (DeleteFrom n) /\
  parse (insert_meta_sql (quote n)) = Some (InsertInto n smeta_names 4) /\
  parse (load_sql (quote n)) = Some (Select smeta_names n []) /\
  parse (has_sql (quote n)) = Some (CountMaster n) /\
  parse (count_sql (quote n)) = Some (CountRows n) /\
  parse (create_index_sql (quote i) (quote n) (quote p)) = Some (CreateIndex i n p) /\
  parse (match_sql (quote n)) = Some (SelectMatch (lit "__offset") n n) /\
  parse (create_rows_sql (quote n) (map (fun q => quote q ++ lit " BLOB COLLATE " ++ coll) props))
    = Some (CreateTable false n (int_col (lit "offset") :: map (fun q => mkCol q (lit "BLOB") false coll) props)) /\
  parse (insert_rows_sql (quote n) (map quote props)) = Some (InsertInto n (lit "offset" :: props) (S (List.length props))) /\
  parse (positions_sql (quote n) (map (fun q => quote q ++ lit " = ?") props)) = Some (Select [lit "offset"] n props) /\
  parse (create_fts_sql (quote n) (map quote props) (prefix_string prefix) (quote tok))
    = Some (CreateFts n (lit "__offset" :: props) (prefix_string prefix) tok) /\
  parse (insert_fts_sql (quote n) (map quote props)) = Some (InsertInto n (lit "__offset" :: props) (S (List.length props))).
Proof. exact texts_read. Qed.
Print Assumptions C17_texts.

(** Names that differ in more than ASCII case have no table in common ... *)
Theorem C17_tables_distinct : forall a b x y, fold_name a <> fold_name b ->
  In x (own_tables a) -> In y (own_tables b) -> fold_name x <> fold_name y.
Proof. exact own_disjoint. Qed.
Print Assumptions C17_tables_distinct.

(** ... and properties no column. *)
Theorem C17_columns_distinct : forall p q,
  (fold_name p <> fold_name q -> fold_name (property_name p) <> fold_name (property_name q)) /\
  fold_name (property_name p) <> fold_name (lit "offset").
Proof. exact (fun p q => conj (columns_distinct p q) (column_offset p)). Qed.
Print Assumptions C17_columns_distinct.

(** Starting an index, even if the start is interrupted, changes nothing for an
    index of another name in the same database. *)
Theorem C17_other_index_kept : forall visit fts_ok fts_match a b inp d d' inp_name fs,
  nul_free (kind_name a) -> nul_free (kind_name b) -> validated_collations b ->
  fold_name (kind_name a) <> fold_name (kind_name b) ->
  In d' (sstates visit fts_ok fts_match (start b inp) d) ->
  answers visit fts_ok fts_match a inp_name fs d' = answers visit fts_ok fts_match a inp_name fs d /\
  tables_of d' (meta_name (kind_name a)) = tables_of d (meta_name (kind_name a)).
Proof. exact other_start. Qed.
Print Assumptions C17_other_index_kept.

Example C17_example :
  parse (create_index_sql (quote (lit "index_x")) (quote (lit "a"" (b); DROP TABLE c; --")) (quote (lit "")))
    = Some (CreateIndex (lit "index_x") (lit "a"" (b); DROP TABLE c; --") []) /\
  fold_name (kind_name (ISqlite by_age)) <> fold_name (kind_name (IFts words)) /\
  answers (map Ok) (fun _ _ _ => true) (fun t _ => Ok (t_rows t)) (ISqlite by_age) (lit "people") [(lit "id", VInt 4)] (after (IFts words) by_age_db)
    = Ok [Ok 30].
Proof. split; [vm_compute; reflexivity|]. split; [vm_compute; discriminate|vm_compute; reflexivity]. Qed.

(** The indexes of the columns: [a_b] with [c] and [a] with [b_c] both want
    index_a_b_c, and the second one cannot be created. *)
Theorem C17_index_names_refuted : exists a b inp, nul_free (kind_name a) /\ nul_free (kind_name b) /\
  fold_name (kind_name a) <> fold_name (kind_name b) /\
  snd (plain (start a inp) empty_db) = Ok tt /\ snd (plain (start b inp) empty_db) = Ok tt /\
  snd (plain (start b inp) (fst (plain (start a inp) empty_db))) = Err (EMsg "already exists").
Proof.
  exists (ISqlite (mkSconfig (lit "a") (lit "people") [(lit "b_c", lit "BINARY")])),
    (ISqlite (mkSconfig (lit "a_b") (lit "people") [(lit "c", lit "BINARY")])), people.
  split; [nuls|]. split; [nuls|]. split; [vm_compute; discriminate|]. repeat split; vm_compute; reflexivity.
Qed.
Print Assumptions C17_index_names_refuted.

(** Two names that differ in case only: the start of the second index fails, and
    has marked the first one as incomplete. *)
Theorem C17_case_refuted : exists a b inp d, kind_name a <> kind_name b /\
  plain (start a inp) empty_db = (d, Ok tt) /\ snd (plain (start a inp) d) = Ok tt /\
  snd (plain (start b inp) d) = Err (EMsg "table already exists") /\
  snd (plain (start a inp) (fst (plain (start b inp) d))) = Err (EMsg "The previous indexing process has not ended properly.").
Proof.
  set (a := ISqlite (mkSconfig (lit "people") (lit "people") [(lit "id", lit "BINARY")])).
  exists a, (ISqlite (mkSconfig (lit "People") (lit "people") [(lit "id", lit "BINARY")])), people, (fst (plain (start a people) empty_db)).
  split; [discriminate|]. repeat split; vm_compute; reflexivity.
Qed.
Print Assumptions C17_case_refuted.

(** A NUL cuts the name: both tables of the index get the same one. *)
Theorem C17_nul_refuted : exists c inp, ~ nul_free (sq_name c) /\
  snd (plain (start (ISqlite c) inp) empty_db) = Err (EMsg "table already exists").
Proof.
  exists (mkSconfig (lit "a" ++ [Byte.x00]) (lit "people") [(lit "id", lit "BINARY")]), people.
  split; [intros H; apply H; vm_compute; auto|vm_compute; reflexivity].
Qed.
Print Assumptions C17_nul_refuted.

(** Two properties that differ in case only: the index cannot be created. *)
Theorem C17_property_case_refuted : exists c inp, nul_free (sq_name c) /\ NoDup (kind_props (ISqlite c)) /\
  snd (plain (start (ISqlite c) inp) empty_db) = Err (EMsg "duplicate column name").
Proof.
  exists (mkSconfig (lit "a") (lit "people") [(lit "id", lit "BINARY"); (lit "ID", lit "BINARY")]), people.
  split; [nuls|]. split; [vm_compute; no_dup|vm_compute; reflexivity].
Qed.
Print Assumptions C17_property_case_refuted.

(** *** C54 *)

(** The configuration of an index changes, its name and its input do not: the start
    succeeds, and the properties the index was created with are still answered. *)
Theorem C54_kept_properties_partial : forall visit fts_ok fts_match c c' inp inp' d d',
  nul_free (sq_name c) -> validated_collations (ISqlite c) -> every_row visit ->
  tables_of d (meta_name (sq_name c)) = [] -> tables_of d (rows_name (sq_name c)) = [] ->
  srun visit fts_ok fts_match (start (ISqlite c) inp) d = (d', Ok tt) ->
  sq_name c' = sq_name c -> in_size inp' = in_size inp -> in_mtime inp' = in_mtime inp ->
  srun visit fts_ok fts_match (start (ISqlite c') inp') d' = (d', Ok tt) /\
  forall fs, fs <> [] -> Forall (handled c) fs -> Forall (fun pf => In (fst pf) (map fst (sq_props c'))) fs ->
  (forall r, In (Ok r) (in_iter inp) -> Forall (agree r) fs) ->
  exists it it', srun visit fts_ok fts_match (sqlite_positions c' (sq_input c') fs) d' = (d', Ok it) /\
    noop_positions inp fs = Ok it' /\ Permutation it it'.
Proof. exact sqlite_changed_config. Qed.
Print Assumptions C54_kept_properties_partial.

(** Of a new property nothing is found; and every record is found when the filter
    is the name of the missing column, which SQLite takes for a text. *)
Theorem C54_new_property_refuted : exists c c' inp d p, sq_name c' = sq_name c /\
  plain (start (ISqlite c) inp) empty_db = (d, Ok tt) /\ plain (start (ISqlite c') inp) d = (d, Ok tt) /\
  snd (plain (sqlite_positions c' (sq_input c') [(p, VInt 2)]) d) = Ok [] /\ noop_positions inp [(p, VInt 2)] = Ok [Ok 10] /\
  snd (plain (sqlite_positions c' (sq_input c') [(p, VString (lit "property_id"))]) d) = Ok [Ok 0; Ok 10; Ok 20; Ok 30] /\
  noop_positions inp [(p, VString (lit "property_id"))] = Ok [].
Proof.
  set (c := mkSconfig (lit "people") (lit "people") [(age, lit "BINARY")]).
  exists c, (mkSconfig (lit "people") (lit "people") [(age, lit "BINARY"); (lit "id", lit "BINARY")]),
    people, (fst (plain (start (ISqlite c) people) empty_db)), (lit "id").
  split; [reflexivity|]. repeat split; vm_compute; reflexivity.
Qed.
Print Assumptions C54_new_property_refuted.

(** *** C55 *)

(** When SQLite fails while it returns rows, the positions up to there are right ... *)
Theorem C55_rows_right_partial : forall visit fts_ok fts_match c inp d d' fs,
  nul_free (sq_name c) -> validated_collations (ISqlite c) -> only_rows visit ->
  tables_of d (meta_name (sq_name c)) = [] -> tables_of d (rows_name (sq_name c)) = [] ->
  srun visit fts_ok fts_match (start (ISqlite c) inp) d = (d', Ok tt) ->
  fs <> [] -> Forall (handled c) fs -> (forall r, In (Ok r) (in_iter inp) -> Forall (agree r) fs) ->
  exists it it', srun visit fts_ok fts_match (sqlite_positions c (sq_input c) fs) d' = (d', Ok it) /\
    noop_positions inp fs = Ok it' /\ (forall x, In x it -> In x it').
Proof. exact sqlite_positions_sound. Qed.
Print Assumptions C55_rows_right_partial.

(** ... but the failure is not reported: the answer looks complete. *)
Definition breaking (l : list (list sqlv)) : list (res (list sqlv)) :=
  match l with [] => [] | row :: _ => [Ok row; Err EIo] end.

Theorem C55_failure_hidden_refuted : exists visit c inp d' fs it',
  only_rows visit /\
  srun visit (fun _ _ _ => true) (fun t _ => Ok (t_rows t)) (start (ISqlite c) inp) empty_db = (d', Ok tt) /\
  noop_positions inp fs = Ok it' /\ List.length it' = 2%nat /\
  snd (srun visit (fun _ _ _ => true) (fun t _ => Ok (t_rows t)) (sqlite_positions c (sq_input c) fs) d') = Ok (firstn 1 it').
Proof.
  exists breaking, by_age,
    (mkInput (lit "people") (Ok 9) (Ok 1) [person 0 (VInt 2) VNil; person 7 (VInt 2) VNil] (fun _ => Err EIo)).
  eexists. exists [(lit "id", VInt 2)], [Ok 0; Ok 7].
  split.
  { intros l x H. destruct l as [|row l]; cbn [breaking In] in H; [destruct H|]. destruct H as [<-|[<-|[]]]; cbn [In]; auto. }
  split; [apply surjective_pairing_ok; vm_compute; reflexivity|]. repeat split; vm_compute; reflexivity.
Qed.
Print Assumptions C55_failure_hidden_refuted.
