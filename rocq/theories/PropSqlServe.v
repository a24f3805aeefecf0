(** Properties C15, C20 and C22: what a SQLite index finds, and its use by the endpoints. *)
From Coq Require Import List ZArith Lia Bool String Permutation.
From Coq Require Import Strings.Byte Floats.SpecFloat.
From Verif Require Import Base BaseFacts Value Json Sql SqlIndex SpecSql SpecIndex Index SpecSqlFind SqlFindFacts.
From Verif Require Import Output SpecOutput Http SpecHttp OutputExample PropSqlite.
Import ListNotations.
Open Scope Z_scope.

(** C15.  What is found, numbers of different types included: an index which is
    created, or found as earlier starts for the same data left it (finished, or stopped
    between any two of their statements), gives the
    positions of the records found by all the filters, in some order. *)
Theorem C15_finds : forall visit fts_ok fts_match c, collated (sq_props c) ->
  forall inp d d' fs, nul_free (sq_name c) -> every_row visit -> prepared visit fts_ok fts_match (ISqlite c) inp d ->
  srun visit fts_ok fts_match (start (ISqlite c) inp) d = (d', Ok tt) ->
  fs <> [] -> Forall (fun f => In (fst f) (map fst (sq_props c)) /\ primitive (snd f)) fs ->
  exists rs l l', in_iter inp = map Ok rs /\ selected (found_by (by_sql (sq_props c)) fs) rs l /\ Permutation l l' /\
    srun visit fts_ok fts_match (sqlite_positions c (sq_input c) fs) d' = (d', Ok (map Ok l')).
Proof. exact sqlite_finds. Qed.
Print Assumptions C15_finds.

Definition names : list (res rec) :=
  [ Ok (ex_rec 0 [(lit "name", VString (lit "Ann")); (lit "city", VString (lit "Rome"))]);
    Ok (ex_rec 9 [(lit "name", VString (lit "ANN")); (lit "city", VString (lit "rome"))]);
    Ok (ex_rec 15 [(lit "name", VString (lit "anne")); (lit "city", VString (lit "Rome"))]) ].
Definition named : input := mkInput (lit "people") (Ok 100) (Ok 1) names (fun _ => Err EIo).
Definition by_name : sconfig := mkSconfig (lit "names") (lit "people") [(lit "name", lit "NOCASE"); (lit "city", lit "BINARY")].
Definition by_name_db : db := fst (plain (start (ISqlite by_name) named) by_age_db).
Definition asked (c : sconfig) (d : db) (fs : list (bytes * value)) : res iter := snd (plain (sqlite_positions c (lit "people") fs) d).

Example C15_finds_example :
  (collated (sq_props by_age) /\ collated (sq_props by_name)) /\
  prepared (map Ok) (fun _ _ _ => true) (fun t _ => Ok (t_rows t)) (ISqlite by_age) people empty_db /\
  prepared (map Ok) (fun _ _ _ => true) (fun t _ => Ok (t_rows t)) (ISqlite by_age) people by_name_db /\
  plain (start (ISqlite by_age) people) by_name_db = (by_name_db, Ok tt) /\
  asked by_age by_name_db [(age, VInt 3)] = Ok [Ok 20] /\
  asked by_age by_name_db [(age, VInt 1)] = Ok [Ok 30] /\
  asked by_age by_name_db [(lit "id", VFloat three)] = Ok [Ok 20] /\
  asked by_age by_name_db [(lit "id", VFloat one_half)] = Ok [] /\
  asked by_age by_name_db [(age, VNil)] = Ok [] /\
  asked by_name by_name_db [(lit "name", VString (lit "aNN"))] = Ok [Ok 0; Ok 9] /\
  asked by_name by_name_db [(lit "name", VString (lit "aNN")); (lit "city", VString (lit "rome"))] = Ok [Ok 9].
Proof.
  split; [split; repeat (apply Forall_cons; [cbn; auto|]); apply Forall_nil|]. split; [left; split; reflexivity|]. split.
  { right. left. exists empty_db, by_age_db. repeat split; vm_compute; reflexivity. }
  repeat split; vm_compute; reflexivity.
Qed.

(** A start which is stopped leaves what the next one refuses, or accepts with all of the records in it. *)
Definition stopped_dbs : list db := sstates (map Ok) (fun _ _ _ => true) (fun t _ => Ok (t_rows t)) (start (ISqlite by_age) people) empty_db.
Definition starts_again (d : db) : bool := match plain (start (ISqlite by_age) people) d with (_, Ok _) => true | _ => false end.
Example C15_stopped_example :
  Forall (prepared (map Ok) (fun _ _ _ => true) (fun t _ => Ok (t_rows t)) (ISqlite by_age) people) stopped_dbs /\
  map starts_again stopped_dbs = (repeat true 4%nat ++ repeat false 18%nat ++ repeat true 2%nat)%list /\
  map (fun d => asked by_age (fst (plain (start (ISqlite by_age) people) d)) [(age, VInt 3)]) (filter starts_again stopped_dbs) = repeat (Ok [Ok 20]) 6%nat.
Proof.
  split; [|split; vm_compute; reflexivity]. apply Forall_forall. intros d Hd. right. right.
  apply (next_start _ _ _ _ _ empty_db d d); [apply never_started; reflexivity|exact Hd|reflexivity|reflexivity].
Qed.

(** C20.  When rows come as they were inserted, the index is exact for the endpoints. *)
Theorem C20_sqlite_index_suits : forall visit fts_ok fts_match c, collated (sq_props c) ->
  forall inp rs d d', in_name inp = sq_input c -> nul_free (sq_name c) ->
  in_order visit -> in_iter inp = map Ok rs -> prepared visit fts_ok fts_match (ISqlite c) inp d ->
  srun visit fts_ok fts_match (start (ISqlite c) inp) d = (d', Ok tt) ->
  index_exact (by_sql (sq_props c)) (sqlite_index visit fts_ok fts_match c d') inp rs (map fst (sq_props c)).
Proof. exact sqlite_suits. Qed.
Print Assumptions C20_sqlite_index_suits.

(** The people of OutputExample.v by their names. *)
Definition ex_names : sconfig := mkSconfig (lit "by_name") (lit "people") [(lit "name", lit "BINARY")].
Definition ex_names_db (visit : list (list sqlv) -> list (res (list sqlv))) : db :=
  fst (srun visit (fun _ _ _ => true) (fun t _ => Ok (t_rows t)) (start (ISqlite ex_names) ex_pin) empty_db).
Definition ex_names_index (visit : list (list sqlv) -> list (res (list sqlv))) : index :=
  sqlite_index visit (fun _ _ _ => true) (fun t _ => Ok (t_rows t)) ex_names (ex_names_db visit).
Definition ex_names_env visit : env := mkEnv (e_inputs ex_env) (e_default ex_env) ((lit "by_name", ex_names_index visit) :: e_indexes ex_env) (e_parsers ex_env) (e_sort ex_env).
Definition ex_names_array : array_config := mkArray (lit "people") 2 10 (lit "limit") (lit "offset")
  [(lit "name", mkParam (lit "name") (lit "by_name") (lit "string")); (lit "id", mkParam (lit "id") (lit "default") (lit "integer"))] [].
Definition ann : object := [(lit "id", VInt 1); (lit "name", VString (lit "ann"))].
Definition backwards (l : list (list sqlv)) : list (res (list sqlv)) := map Ok (rev l).

Example C20_sqlite_example :
  in_name ex_pin = sq_input ex_names /\ in_iter ex_pin = map Ok ex_people /\ in_order (map Ok) /\
  prepared (map Ok) (fun _ _ _ => true) (fun t _ => Ok (t_rows t)) (ISqlite ex_names) ex_pin empty_db /\
  plain (start (ISqlite ex_names) ex_pin) empty_db = (ex_names_db (map Ok), Ok tt) /\
  ex_names_index (map Ok) ex_pin [(lit "name", VString (lit "ann"))] = Ok [Ok 0; Ok 15] /\
  computes (ex_names_env (map Ok)) ex_ord (OArray ex_names_array) [(lit "name", lit "ann"); (lit "id", lit "1")] (VList [VMap ann]).
Proof.
  split; [reflexivity|]. split; [reflexivity|]. split; [intros l; reflexivity|]. split; [left; split; reflexivity|].
  split; [vm_compute; reflexivity|]. split; [vm_compute; reflexivity|]. intros W se ss wr enc w. vm_compute. reflexivity.
Qed.

(** The same for FTS5, matching as [F] tells, for the expressions without an error in
    their syntax. *)
Theorem C20_fts_index_suits : forall visit fts_ok fts_match c F inp rs d d', in_name inp = ft_input c ->
  nul_free (ft_name c) -> Forall nul_free (ft_tokenize c :: ft_props c) -> in_order visit -> searched_by fts_match F ->
  in_iter inp = map Ok rs -> prepared visit fts_ok fts_match (IFts c) inp d ->
  srun visit fts_ok fts_match (start (IFts c) inp) d = (d', Ok tt) ->
  index_exact (by_fts F (ft_props c) (ft_prefix c) (ft_tokenize c)) (fts_index visit fts_ok fts_match c d') inp rs [lit "match"].
Proof. exact fts_suits. Qed.
Print Assumptions C20_fts_index_suits.

(** The people with a text which begins with the asked one. *)
Definition beginning (cells : list sqlv) (q : sqlv) : bool :=
  match q with SText w => existsb (fun cell => match cell with SText s => bytes_eqb w (firstn (List.length w) s) | _ => false end) cells | _ => false end.
Definition ex_begin : fulltext := mkFulltext (fun _ _ _ q => exists w, q = SText w) (fun _ _ _ cells q => beginning cells q = true).
Definition ex_begins (t : table) (q : sqlv) : res (list (list sqlv)) :=
  match q with SText _ => Ok (filter (fun row => beginning (tl row) q) (t_rows t)) | _ => Err EIo end.
Definition ex_texts : fconfig := mkFconfig (lit "texts") (lit "people") [2] (lit "unicode61") [lit "name"].
Definition ex_texts_db : db := fst (srun (map Ok) (fun _ _ _ => true) ex_begins (start (IFts ex_texts) ex_pin) empty_db).
Definition ex_texts_index : index := fts_index (map Ok) (fun _ _ _ => true) ex_begins ex_texts ex_texts_db.
Definition ex_texts_env : env := mkEnv (e_inputs ex_env) (e_default ex_env) ((lit "texts", ex_texts_index) :: e_indexes ex_env) (e_parsers ex_env) (e_sort ex_env).
Definition ex_texts_array : array_config := mkArray (lit "people") 2 10 (lit "limit") (lit "offset")
  [(lit "text", mkParam (lit "match") (lit "texts") (lit "string")); (lit "id", mkParam (lit "id") (lit "default") (lit "integer"))] [].

Example C20_fts_example :
  in_name ex_pin = ft_input ex_texts /\ Forall nul_free (ft_tokenize ex_texts :: ft_props ex_texts) /\ searched_by ex_begins ex_begin /\
  prepared (map Ok) (fun _ _ _ => true) ex_begins (IFts ex_texts) ex_pin empty_db /\
  srun (map Ok) (fun _ _ _ => true) ex_begins (start (IFts ex_texts) ex_pin) empty_db = (ex_texts_db, Ok tt) /\
  ex_texts_index ex_pin [(lit "match", VString (lit "an"))] = Ok [Ok 0; Ok 15] /\
  computes ex_texts_env ex_ord (OArray ex_texts_array) [(lit "text", lit "an"); (lit "id", lit "1")] (VList [VMap ann]).
Proof.
  split; [reflexivity|]. split; [repeat constructor; vm_compute; intuition discriminate|]. split.
  { intros props prefix tokenize rows q (w & ->). eexists. split; [reflexivity|]. cbn [t_rows fx_matches ex_begin].
    induction rows as [|row rows IH]; [constructor|]. cbn [filter]. destruct (beginning (tl row) (SText w)) eqn:E; [apply kept_yes|apply kept_no]; try exact IH; congruence. }
  split; [left; split; reflexivity|].
  split; [vm_compute; reflexivity|]. split; [vm_compute; reflexivity|]. intros W se ss wr enc w. vm_compute. reflexivity.
Qed.

(** In another order, which SQL allows since the query does not ask for one
    (sqlite.go:248-252), records are lost when the endpoint joins two indexes: the
    record has the asked name and number. *)
Theorem C20_sqlite_order_refuted : exists visit r, every_row visit /\
  snd (srun visit (fun _ _ _ => true) (fun t _ => Ok (t_rows t)) (start (ISqlite ex_names) ex_pin) empty_db) = Ok tt /\
  In (Ok r) (in_iter ex_pin) /\ r_get r (lit "name") = Ok (VString (lit "ann")) /\ r_get r (lit "id") = Ok (VInt 1) /\
  computes (ex_names_env visit) ex_ord (OArray ex_names_array) [(lit "name", lit "ann")] (VList [VMap [(lit "id", VInt 3); (lit "name", VString (lit "ann"))]; VMap ann]) /\
  computes (ex_names_env visit) ex_ord (OArray ex_names_array) [(lit "name", lit "ann"); (lit "id", lit "1")] (VList []).
Proof.
  exists backwards, (ex_rec 0 ann).
  split; [intros l; exists (rev l); split; [reflexivity|apply Permutation_rev]|]. split; [vm_compute; reflexivity|].
  split; [left; reflexivity|]. split; [vm_compute; reflexivity|]. split; [vm_compute; reflexivity|].
  split; intros W se ss wr enc w; vm_compute; reflexivity.
Qed.
Print Assumptions C20_sqlite_order_refuted.

(** C22.  On any database, and whatever SQLite does, the index comes back. *)
Theorem C22_sqlite_index_returns : forall visit fts_ok fts_match, only_rows visit -> (forall t a, returns (fts_match t a)) ->
  forall c d inp fs, returns (sqlite_index visit fts_ok fts_match c d inp fs) /\
    forall it, sqlite_index visit fts_ok fts_match c d inp fs = Ok it -> Forall returns it.
Proof. exact sqlite_returns. Qed.
Print Assumptions C22_sqlite_index_returns.
Theorem C22_fts_index_returns : forall visit fts_ok fts_match, only_rows visit -> (forall t a, returns (fts_match t a)) ->
  forall c d inp fs, returns (fts_index visit fts_ok fts_match c d inp fs) /\
    forall it, fts_index visit fts_ok fts_match c d inp fs = Ok it -> Forall returns it.
Proof. exact fts_returns. Qed.
Print Assumptions C22_fts_index_returns.

Example C22_sqlite_example : only_rows breaking /\
  ex_names_index breaking ex_pin [(lit "name", VString (lit "ann"))] = Ok [Ok 0] /\
  ex_names_index (map Ok) ex_pin [(lit "name", VList [])] = Err (EMsg "unsupported type") /\
  ex_names_index (map Ok) ex_pin [(lit "other", VNil)] = Err (EMsg "This index does not handle the property").
Proof.
  split.
  { intros l x H. destruct l as [|row l]; cbn [breaking In] in H; [destruct H|]. destruct H as [<-|[<-|[]]]; cbn [In]; auto. }
  repeat split; vm_compute; reflexivity.
Qed.
