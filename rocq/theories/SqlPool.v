(** database/sql's pool of connections, as sqlite.go and fts5.go use it: sql.Open
    without limits (pkg/index/sqlite/open.go:10-24), one pool for each index
    (sqlite.go:31, fts5.go:34).

    Exec, QueryRow and a prepared statement take a free connection, or open one, and
    give it back at once.  Query keeps its connection until the rows are read to
    their end or a Scan fails (sqlite.go:248-270, fts5.go:238-260).  At most two connections
    are kept idle, the others are closed (database/sql, defaultMaxIdleConns).

    A connection to ":memory:" (docs/schema/indexes/indexes.yaml:18) has a database of its
    own, empty at first; all connections to a file see one database.

    Simplified: the rows are what the database holds when the query is sent;
    a failed statement gives its connection back; connections do not break and
    do not expire. *)
From Coq Require Import List ZArith Lia Bool String.
From Coq Require Import Strings.Byte.
From Verif Require Import Base Value Json Index Sql SqlIndex.
Import ListNotations.
Open Scope Z_scope.

Inductive conn_state := CFree | CBusy | CClosed.
Record conn := mkConn { cn_db : db; cn_state : conn_state }.

(** What GetRecordPositions returned: the connection, and the calls to come. *)
Record cursor := mkCursor { cu_conn : nat; cu_rest : iter; cu_open : bool }.

(** [p_file]: the database of the file; [p_conns]: all connections ever opened;
    [p_cursors]: all iterators ever returned. *)
Record pool := mkPool { p_file : db; p_conns : list conn; p_cursors : list cursor }.

Definition is_free (c : conn) : bool := match cn_state c with CFree => true | _ => false end.

Fixpoint positions_where {A} (f : A -> bool) (i : nat) (l : list A) : list nat :=
  match l with
  | [] => []
  | x :: l' => if f x then i :: positions_where f (S i) l' else positions_where f (S i) l'
  end.
Definition free_conns (p : pool) : list nat := positions_where is_free 0 (p_conns p).

Fixpoint update {A} (l : list A) (i : nat) (x : A) : list A :=
  match l, i with
  | [], _ => []
  | _ :: l', O => x :: l'
  | y :: l', S i' => y :: update l' i' x
  end.

Definition conn_at (p : pool) (i : nat) : conn := nth i (p_conns p) (mkConn empty_db CClosed).
Definition set_conn (p : pool) (i : nat) (c : conn) : pool := mkPool (p_file p) (update (p_conns p) i c) (p_cursors p).

(** What callers of one index do: ask for positions, and call the [j]-th iterator
    they were given. *)
Inductive event := EOpen (fs : list (bytes * value)) | ENext (j : nat).
Inductive outcome := OOpen (r : res unit) | ONext (r : res (option Z)).

Section Pool.
(** The DSN is ":memory:". *)
Variable memory : bool.
(** Which of the free connections is taken. *)
Variable pick : list nat -> nat.
Variable visit : list (list sqlv) -> list (res (list sqlv)).
Variable fts_ok : list bytes -> bytes -> bytes -> bool.
Variable fts_match : table -> sqlv -> res (list (list sqlv)).

(** database/sql: DB.conn *)
Definition acquire (p : pool) : pool * nat :=
  match free_conns p with
  | [] => (mkPool (p_file p) (p_conns p ++ [mkConn empty_db CFree]) (p_cursors p), List.length (p_conns p))
  | l => (p, pick l)
  end.

(** A statement on a connection. *)
Definition exec_on (i : nat) (q : bytes) (args : list sqlv) (p : pool) : pool * res answer :=
  let c := conn_at p i in
  let dr := exec_sql visit fts_ok fts_match q args (if memory then cn_db c else p_file p) in
  (if memory then set_conn p i (mkConn (fst dr) (cn_state c))
   else mkPool (fst dr) (p_conns p) (p_cursors p), snd dr).

(** A program, and the connection of its last statement. *)
Fixpoint pool_run {A} (prog : sprog A) (last : nat) (p : pool) : pool * res A * nat :=
  match prog with
  | SRet r => (p, r, last)
  | SDo q args k =>
    let '(p1, i) := acquire p in
    let '(p2, r) := exec_on i q args p1 in
    pool_run (k r) i p2
  end.

(** database/sql: DB.putConnDBLocked *)
Definition release (i : nat) (p : pool) : pool :=
  set_conn p i (mkConn (cn_db (conn_at p i)) (if Nat.leb 2 (List.length (free_conns p)) then CClosed else CFree)).

Section Index.
(** GetRecordPositions of the index. *)
Variable positions : list (bytes * value) -> sprog iter.

(** The rows keep the connection of their statement, the last one. *)
Definition open_rows (fs : list (bytes * value)) (p : pool) : pool * outcome :=
  let '(p1, r, i) := pool_run (positions fs) O p in
  match r with
  | Ok it =>
    let p2 := set_conn p1 i (mkConn (cn_db (conn_at p1 i)) CBusy) in
    (mkPool (p_file p2) (p_conns p2) (p_cursors p2 ++ [mkCursor i it true]), OOpen (Ok tt))
  | Err e => (p1, OOpen (Err e))
  | Panic => (p1, OOpen Panic)
  | NoFuel => (p1, OOpen NoFuel)
  end.

(** sqlite.go:257-270, fts5.go:247-260; [Ok None] is the end. *)
Definition next_row (j : nat) (p : pool) : pool * outcome :=
  match nth_error (p_cursors p) j with
  | Some (mkCursor i it true) =>
    match it with
    | Ok z :: it' => (mkPool (p_file p) (p_conns p) (update (p_cursors p) j (mkCursor i it' true)), ONext (Ok (Some z)))
    | x :: _ =>
      let p1 := release i p in
      (mkPool (p_file p1) (p_conns p1) (update (p_cursors p1) j (mkCursor i [] false)), ONext (rlet z := x in Ok (Some z)))
    | [] =>
      let p1 := release i p in
      (mkPool (p_file p1) (p_conns p1) (update (p_cursors p1) j (mkCursor i [] false)), ONext (Ok None))
    end
  | _ => (p, ONext (Ok None))
  end.

Definition pool_step (e : event) (p : pool) : pool * outcome :=
  match e with EOpen fs => open_rows fs p | ENext j => next_row j p end.

Fixpoint pool_events (es : list event) (p : pool) : list outcome :=
  match es with
  | [] => []
  | e :: es' => let '(p', o) := pool_step e p in o :: pool_events es' p'
  end.
End Index.
End Pool.
