(** pkg/index/sqlite/sanitize.go, pkg/index/sqlite/metadata.go, pkg/index/sqlite.go
    and pkg/index/fts5.go: programs that send SQL text.

    Simplified: runs of white space in the texts are one space; Open and its two
    pragmas are left out (journal_mode and synchronous do not change what a
    statement does); Prepare is part of the first execution, it can fail only where
    the preceding CREATE TABLE fails; logging and progress are left out. *)
From Coq Require Import List ZArith Lia Bool String.
From Coq Require Import Strings.Byte.
From Verif Require Import Base Value Json Sql.
Import ListNotations.
Open Scope Z_scope.

(** [db.Exec] *)
Definition sql_exec (q : bytes) (args : list sqlv) : sprog unit :=
  SDo q args (fun r => SRet (rlet _ := r in Ok tt)).

(** [db.QueryRow] followed by [Scan]: the first row, or sql.ErrNoRows. *)
Definition sql_row (q : bytes) (args : list sqlv) : sprog (list sqlv) :=
  SDo q args (fun r => SRet (rlet a := r in
    match a with
    | [] => Err (EMsg "sql: no rows in result set")
    | row :: _ => row
    end)).

(** [db.Query]: the results of the successive calls of [rows.Next]. *)
Definition sql_rows (q : bytes) (args : list sqlv) : sprog answer := SDo q args SRet.

Fixpoint smapM {A B} (f : A -> sprog B) (l : list A) : sprog (list B) :=
  match l with
  | [] => SRet (Ok [])
  | x :: l' => slet y := f x in slet ys := smapM f l' in SRet (Ok (y :: ys))
  end.

(** [strings.Join] *)
Fixpoint join (sep : bytes) (l : list bytes) : bytes :=
  match l with
  | [] => []
  | [x] => x
  | x :: l' => x ++ sep ++ join sep l'
  end.

(** *** pkg/index/sqlite/sanitize.go:8-20 *)
Definition escape_sql : bytes := lit "SELECT printf('%w', ?)".

Definition sanitize_identifier (n : bytes) : sprog bytes :=
  slet row := sql_row escape_sql [SText n] in
  match row with
  | [SText s] => SRet (Ok ([dquote] ++ s ++ [dquote]))
  | _ => SRet (Err (EMsg "Scan"))
  end.

(** *** pkg/index/sqlite/metadata.go *)

(** metadata.go:12 *)
Definition sqlite_version : Z := 1.

(** metadata.go:14-21, without the database and the name; the time in seconds is all
    that is stored and compared. *)
Record smeta := mkSmeta { sm_version : Z; sm_mtime : Z; sm_size : Z; sm_completed : bool }.

(** metadata.go:23-48 *)
Definition new_smeta (inp : input) : res smeta :=
  rlet size := in_size inp in
  rlet mtime := in_mtime inp in
  Ok (mkSmeta sqlite_version mtime size false).

(** metadata.go:115-117 *)
Definition meta_name (n : bytes) : bytes := lit "rodb_" ++ n ++ lit "_metadata".
Definition meta_identifier (n : bytes) : sprog bytes := sanitize_identifier (meta_name n).

(** metadata.go:62-69 *)
Definition load_sql (tid : bytes) : bytes :=
  lit "SELECT ""version"", ""inputFileModificationTime"", ""inputFileSize"", ""completed"" FROM " ++ tid ++ lit ";".

(** metadata.go:50-81.  The driver turns the integers of a BOOLEAN column into
    booleans (positive is true); the version is read into a uint16. *)
Definition load_smeta (n : bytes) : sprog smeta :=
  slet tid := meta_identifier n in
  slet row := sql_row (load_sql tid) [] in
  match row with
  | [SInt v; SInt t; SInt s; SInt c] =>
    if (0 <=? v) && (v <? 65536) then SRet (Ok (mkSmeta v t s (0 <? c))) else SRet (Err (EMsg "Scan"))
  | _ => SRet (Err (EMsg "Scan"))
  end.

(** metadata.go:97-102 *)
Definition has_sql (tid : bytes) : bytes :=
  lit "SELECT COUNT(*) FROM sqlite_master WHERE type = 'table' AND name = " ++ tid ++ lit ";".

(** metadata.go:83-113 *)
Definition has_smeta (n : bytes) : sprog bool :=
  slet tid := meta_identifier n in
  slet row := sql_row (has_sql tid) [] in
  match row with
  | [SInt c] => SRet (Ok (0 <? c))
  | _ => SRet (Err (EMsg "Scan"))
  end.

(** metadata.go:131-138, 143-145, 150-158 *)
Definition create_meta_sql (tid : bytes) : bytes :=
  lit "CREATE TABLE IF NOT EXISTS " ++ tid
    ++ lit " ( ""version"" INTEGER NOT NULL, ""inputFileModificationTime"" INTEGER NOT NULL, ""inputFileSize"" INTEGER NOT NULL, ""completed"" BOOLEAN NOT NULL );".
Definition delete_meta_sql (tid : bytes) : bytes := lit "DELETE FROM " ++ tid ++ lit ";".
Definition insert_meta_sql (tid : bytes) : bytes :=
  lit "INSERT INTO " ++ tid
    ++ lit " ( ""version"", ""inputFileModificationTime"", ""inputFileSize"", ""completed"" ) VALUES (?, ?, ?, ?);".

Definition smeta_row (m : smeta) : list sqlv :=
  [SInt (sm_version m); SInt (sm_mtime m); SInt (sm_size m); SInt (if sm_completed m then 1 else 0)].

(** metadata.go:125-169 *)
Definition save_smeta (n : bytes) (m : smeta) : sprog unit :=
  slet tid := meta_identifier n in
  slet _ := sql_exec (create_meta_sql tid) [] in
  slet _ := sql_exec (delete_meta_sql tid) [] in
  sql_exec (insert_meta_sql tid) (smeta_row m).

(** metadata.go:121-123 *)
Definition complete_smeta (m : smeta) : smeta := mkSmeta (sm_version m) (sm_mtime m) (sm_size m) true.

(** metadata.go:173-199 *)
Definition assert_smeta (m : smeta) (inp : input) : res unit :=
  if negb (sm_version m =? sqlite_version) then Err (EMsg "The index file is not compatible with the current version of this software.") else
  rlet mtime := in_mtime inp in
  if negb (sm_mtime m =? mtime) then Err (EMsg "The input file has been modified since the index generation.") else
  rlet size := in_size inp in
  if negb (sm_size m =? size) then Err (EMsg "The input file size has changed since the index generation.") else
  if negb (sm_completed m) then Err (EMsg "The previous indexing process has not ended properly.") else
  Ok tt.

(** *** pkg/index/sqlite.go *)

(** sqlite_config.go:14-26: name, input, properties with their collation. *)
Record sconfig := mkSconfig { sq_name : bytes; sq_input : bytes; sq_props : list (bytes * bytes) }.

(** sqlite.go:200-213 *)
Definition property_name (p : bytes) : bytes := lit "property_" ++ p.
Definition index_name (n p : bytes) : bytes := lit "index_" ++ n ++ lit "_" ++ p.
Definition rows_name (n : bytes) : bytes := lit "rodb_" ++ n ++ lit "_index".

Definition property_identifier (p : bytes) : sprog bytes := sanitize_identifier (property_name p).
Definition index_identifier (n p : bytes) : sprog bytes := sanitize_identifier (index_name n p).
Definition rows_identifier (n : bytes) : sprog bytes := sanitize_identifier (rows_name n).

(** sqlite.go:102-116, one property: column definition, column identifier, index
    identifier. *)
Definition property_parts (n : bytes) (p : bytes * bytes) : sprog (bytes * bytes * bytes) :=
  slet col := property_identifier (fst p) in
  slet idx := index_identifier n (fst p) in
  SRet (Ok (col ++ lit " BLOB COLLATE " ++ snd p, col, idx)).

(** sqlite.go:123-128, 134-136, 142-147, 184 *)
Definition create_rows_sql (tid : bytes) (defs : list bytes) : bytes :=
  lit "CREATE TABLE " ++ tid ++ lit " ( ""offset"" INTEGER NOT NULL, " ++ join (lit ", ") defs ++ lit " );".
Definition create_index_sql (iid tid col : bytes) : bytes :=
  lit "CREATE INDEX " ++ iid ++ lit " ON " ++ tid ++ lit " (" ++ col ++ lit ");".
Definition placeholders (n : nat) : list bytes := repeat (lit "?") n.
Definition insert_rows_sql (tid : bytes) (cols : list bytes) : bytes :=
  lit "INSERT INTO " ++ tid ++ lit " ( ""offset"", " ++ join (lit ", ") cols
    ++ lit " ) VALUES (?, " ++ join (lit ", ") (placeholders (List.length cols)) ++ lit ");".
Definition count_sql (tid : bytes) : bytes := lit "SELECT COUNT(1) FROM " ++ tid ++ lit ";".

(** sqlite.go:163-176, one record; the values are converted by Exec. *)
Definition insert_record (q : bytes) (props : list bytes) (r : rec) : sprog unit :=
  slet vs := SRet (rmapM (r_get r) props) in
  slet args := SRet (rmapM bind_value vs) in
  sql_exec q (SInt (r_pos r) :: args).

(** sqlite.go:153-180 *)
Fixpoint insert_records (q : bytes) (props : list bytes) (its : list (res rec)) : sprog unit :=
  match its with
  | [] => SRet (Ok tt)
  | it :: its' =>
    slet r := SRet it in
    slet _ := insert_record q props r in
    insert_records q props its'
  end.

(** The common end of both createIndex (sqlite.go:182-193, fts5.go:167-178). *)
Definition finish_index (n tid : bytes) (m : smeta) : sprog unit :=
  slet _ := save_smeta n (complete_smeta m) in
  slet row := sql_row (count_sql tid) [] in
  match row with
  | [SInt _] => SRet (Ok tt)
  | _ => SRet (Err (EMsg "Scan"))
  end.

(** sqlite.go:69-198.  IterateAll itself is taken to succeed. *)
Definition create_sqlite (c : sconfig) (inp : input) : sprog unit :=
  slet m := SRet (new_smeta inp) in
  slet _ := save_smeta (sq_name c) m in
  slet parts := smapM (property_parts (sq_name c)) (sq_props c) in
  slet tid := rows_identifier (sq_name c) in
  slet _ := sql_exec (create_rows_sql tid (map (fun x => fst (fst x)) parts)) [] in
  slet _ := smapM (fun x => sql_exec (create_index_sql (snd x) tid (snd (fst x))) []) parts in
  slet _ := insert_records (insert_rows_sql tid (map (fun x => snd (fst x)) parts)) (map fst (sq_props c)) (in_iter inp) in
  finish_index (sq_name c) tid m.

(** The life cycle both constructors share (sqlite.go:43-60, fts5.go:42-59). *)
Definition open_or_create (n : bytes) (inp : input) (create : sprog unit) : sprog unit :=
  slet exists_ := has_smeta n in
  if exists_ : bool then
    slet m := load_smeta n in
    SRet (assert_smeta m inp)
  else create.

(** sqlite.go:21-63; the look-up of the input is in Start.v. *)
Definition new_sqlite (c : sconfig) (inp : input) : sprog unit :=
  open_or_create (sq_name c) inp (create_sqlite c inp).

(** sqlite.go:248-252 *)
Definition positions_sql (tid : bytes) (clauses : list bytes) : bytes :=
  lit "SELECT ""offset"" FROM " ++ tid ++ lit " WHERE " ++ join (lit " AND ") clauses ++ lit ";".

(** sqlite.go:257-270, fts5.go:231-244: the results of the successive calls.  When
    [rows.Next] fails it returns false, and the error is not looked at. *)
Fixpoint rows_iterate (a : answer) : iter :=
  match a with
  | [] => []
  | Ok [SInt z] :: a' => Ok z :: rows_iterate a'
  | Ok _ :: _ => [Err (EMsg "Scan")]
  | Err _ :: _ => []
  | Panic :: _ => [Panic]
  | NoFuel :: _ => [NoFuel]
  end.

(** sqlite.go:232-246: one filter. *)
Definition filter_clause (c : sconfig) (f : bytes * value) : sprog (bytes * value) :=
  if negb (existsb (fun p => bytes_eqb (fst f) (fst p)) (sq_props c))
  then SRet (Err (EMsg "This index does not handle the property"))
  else slet col := property_identifier (fst f) in
       SRet (Ok (col ++ lit " = ?", snd f)).

(** sqlite.go:215-271; [filters] in the order in which Go visits it. *)
Definition sqlite_positions (c : sconfig) (inp_name : bytes) (filters : list (bytes * value)) : sprog iter :=
  if negb (bytes_eqb inp_name (sq_input c)) then SRet (Err (EMsg "This index does not handle the input"))
  else match filters with
  | [] => SRet (Err (EMsg "This index requires at least one filter."))
  | _ :: _ =>
    slet tid := rows_identifier (sq_name c) in
    slet cs := smapM (filter_clause c) filters in
    slet args := SRet (rmapM bind_value (map snd cs)) in
    slet a := sql_rows (positions_sql tid (map fst cs)) args in
    SRet (Ok (rows_iterate a))
  end.

(** *** pkg/index/fts5.go *)

(** fts5_config.go:12-21 *)
Record fconfig := mkFconfig { ft_name : bytes; ft_input : bytes; ft_prefix : list Z; ft_tokenize : bytes; ft_props : list bytes }.

(** fts5.go:91-103 *)
Definition fts_column (p : bytes) : sprog bytes :=
  if bytes_eqb p (lit "__offset") then SRet (Err (EMsg "__offset is a reserved property name for the fts5 index."))
  else sanitize_identifier p.

(** fts5.go:110-116: numbers separated by a space. *)
Definition prefix_string (l : list Z) : bytes :=
  fold_left (fun acc z => (match acc with [] => [] | _ :: _ => acc ++ lit " " end) ++ itoa z) l [].

(** fts5.go:123-130, 135-140 *)
Definition create_fts_sql (tid : bytes) (cols : list bytes) (prefix tok : bytes) : bytes :=
  lit "CREATE VIRTUAL TABLE " ++ tid ++ lit " USING fts5( ""__offset"" UNINDEXED, " ++ join (lit ", ") cols
    ++ lit ", prefix = '" ++ prefix ++ lit "', tokenize = " ++ tok ++ lit " );".
Definition insert_fts_sql (tid : bytes) (cols : list bytes) : bytes :=
  lit "INSERT INTO " ++ tid ++ lit " ( ""__offset"", " ++ join (lit ", ") cols
    ++ lit " ) VALUES (?, " ++ join (lit ", ") (placeholders (List.length cols)) ++ lit ");".

(** fts5.go:69-183 *)
Definition create_fts (c : fconfig) (inp : input) : sprog unit :=
  slet m := SRet (new_smeta inp) in
  slet _ := save_smeta (ft_name c) m in
  slet cols := smapM fts_column (ft_props c) in
  slet tid := rows_identifier (ft_name c) in
  slet tok := sanitize_identifier (ft_tokenize c) in
  slet _ := sql_exec (create_fts_sql tid cols (prefix_string (ft_prefix c)) tok) [] in
  slet _ := insert_records (insert_fts_sql tid cols) (ft_props c) (in_iter inp) in
  finish_index (ft_name c) tid m.

(** fts5.go:21-62 *)
Definition new_fts (c : fconfig) (inp : input) : sprog unit :=
  open_or_create (ft_name c) inp (create_fts c inp).

(** fts5.go:223-227 *)
Definition match_sql (tid : bytes) : bytes :=
  lit "SELECT ""__offset"" FROM " ++ tid ++ lit " WHERE " ++ tid ++ lit " MATCH ?".

(** fts5.go:196-245 *)
Definition fts_positions (c : fconfig) (inp_name : bytes) (filters : list (bytes * value)) : sprog iter :=
  if negb (bytes_eqb inp_name (ft_input c)) then SRet (Err (EMsg "This index does not handle the input"))
  else match filters with
  | [(p, f)] =>
    if negb (bytes_eqb p (lit "match")) then SRet (Err (EMsg "This index must receive a single filter named 'match'."))
    else
      slet tid := rows_identifier (ft_name c) in
      slet arg := SRet (bind_value f) in
      slet a := sql_rows (match_sql tid) [arg] in
      SRet (Ok (rows_iterate a))
  | _ => SRet (Err (EMsg "This index can only have one filter at a time."))
  end.

(** An index on a database, for the endpoints (sqlite.go:215-271, fts5.go:196-245). *)
Definition sqlite_index visit fts_ok fts_match (c : sconfig) (d : db) (inp : input) (filters : list (bytes * value)) : res iter :=
  snd (srun visit fts_ok fts_match (sqlite_positions c (in_name inp) filters) d).
Definition fts_index visit fts_ok fts_match (c : fconfig) (d : db) (inp : input) (filters : list (bytes * value)) : res iter :=
  snd (srun visit fts_ok fts_match (fts_positions c (in_name inp) filters) d).
