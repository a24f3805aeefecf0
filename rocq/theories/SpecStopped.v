(** What starts of the program that are stopped leave in the databases and in the files of the wildcard indexes. *)
From Coq Require Import List ZArith String.
From Coq Require Import Strings.Byte.
From Verif Require Import Sql SqlIndex SpecSql.
From Verif Require Import Stream Wildcard SpecWildcard.
From Verif Require Import Base Value Index Config.
Import ListNotations.
Open Scope Z_scope.

(** Any number of starts, each of which was stopped (killed, or failed) after any of
    the statements that it sends to any of the databases: the statements of the start of
    an index come one after another (sqlite.go:21-63, fts5.go:21-62), and the indexes
    one after another in some order (index.go:50-66). *)
Inductive interrupted visit fts_ok fts_match (v : vconfig) (inputs : list (bytes * input)) (dbs : bytes -> db) : (bytes -> db) -> Prop :=
| untouched : interrupted visit fts_ok fts_match v inputs dbs dbs
| in_sqlite dbs1 n dsn input props inp d : interrupted visit fts_ok fts_match v inputs dbs dbs1 ->
    mget (vc_indexes v) n = Some (VISqlite dsn input props) -> mget inputs input = Some inp ->
    In d (sstates visit fts_ok fts_match (SpecSql.start (ISqlite (mkSconfig n input props)) inp) (dbs1 dsn)) ->
    interrupted visit fts_ok fts_match v inputs dbs (fun x => if bytes_eqb x dsn then d else dbs1 x)
| in_fts dbs1 n dsn input prefix tokenize props inp d : interrupted visit fts_ok fts_match v inputs dbs dbs1 ->
    mget (vc_indexes v) n = Some (VIFts5 dsn input prefix tokenize props) -> mget inputs input = Some inp ->
    In d (sstates visit fts_ok fts_match (SpecSql.start (IFts (mkFconfig n input prefix tokenize props)) inp) (dbs1 dsn)) ->
    interrupted visit fts_ok fts_match v inputs dbs (fun x => if bytes_eqb x dsn then d else dbs1 x).

(** The files of the wildcard indexes: each is as it was, or finished, or as the first
    writes of the records leave it, the last of them perhaps in part (wildcard.go:54-135).
    After that the file is marked as complete, before the last flush (wildcard.go:137-146): stops in
    between are left out, see C04_complete_but_unflushed_refuted. *)
Definition files_left (lower : bytes -> bytes) (v : vconfig) (inputs : list (bytes * input)) (before after : bytes -> option bytes) : Prop :=
  forall n path input props ic, mget (vc_indexes v) n = Some (VIWildcard path input props ic) ->
    let cfg := mkWconfig input props ic in
    after path = before path \/
    exists inp, mget inputs input = Some inp /\
      ((exists r s, create_index lower cfg inp created_stream = (r, s) /\ after path = Some (st_file s)) \/
       (exists r s file, create_body lower cfg inp created_stream = (r, s) /\ crash_file file_write_at (st_wlog s) file /\ after path = Some file)).
