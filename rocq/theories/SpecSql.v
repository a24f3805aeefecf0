(** What is expected of the SQLite and FTS5 indexes. *)
From Coq Require Import List ZArith Lia Bool String Permutation.
From Coq Require Import Strings.Byte.
From Coq Require Import Floats.SpecFloat.
From Verif Require Import Base Value Sql SqlIndex.
Import ListNotations.
Open Scope Z_scope.

Definition nul_free (n : bytes) : Prop := ~ In Byte.x00 n.

(** The tables that SQLite takes for [x]. *)
Definition tables_of (d : db) (x : bytes) : list (bytes * table) :=
  filter (fun mt => bytes_eqb (fold_name (fst mt)) (fold_name x)) (d_tables d).

Inductive index_kind := ISqlite (c : sconfig) | IFts (c : fconfig).

Definition kind_name (k : index_kind) : bytes := match k with ISqlite c => sq_name c | IFts c => ft_name c end.
Definition kind_props (k : index_kind) : list bytes :=
  match k with ISqlite c => map fst (sq_props c) | IFts c => ft_props c end.

(** The tables an index of this name can have. *)
Definition own_tables (n : bytes) : list bytes :=
  meta_name n :: rows_name n :: map (fun x => rows_name n ++ x) shadow_suffixes.

(** What a start of rodb does for an index. *)
Definition start (k : index_kind) (inp : input) : sprog unit :=
  match k with ISqlite c => new_sqlite c inp | IFts c => new_fts c inp end.

(** How a value is kept in a column. *)
Inductive stored : value -> sqlv -> Prop :=
| stored_nil : stored VNil SNull
| stored_false : stored (VBool false) (SInt 0)
| stored_true : stored (VBool true) (SInt 1)
| stored_int z : stored (VInt z) (SInt z)
| stored_nan : stored (VFloat S754_nan) SNull
| stored_float f : f <> S754_nan -> stored (VFloat f) (SReal f)
| stored_string s : stored (VString s) (SText s).

(** The row of a record: its position, then each property. *)
Inductive row_of (props : list bytes) : res rec -> list sqlv -> Prop :=
| row_of_record r gs vs :
    Forall2 (fun p g => r_get r p = Ok g) props gs -> Forall2 stored gs vs ->
    row_of props (Ok r) (SInt (r_pos r) :: vs).

(** The table of an index holds one row per record of the input, in order. *)
Definition filled (k : index_kind) (inp : input) (d : db) : Prop :=
  exists t, tables_of d (rows_name (kind_name k)) = [(rows_name (kind_name k), t)] /\
            List.length (t_cols t) = S (List.length (kind_props k)) /\
            Forall2 (row_of (kind_props k)) (in_iter inp) (t_rows t).

Section History.
Variable visit : list (list sqlv) -> list (res (list sqlv)).
Variable fts_ok : list bytes -> bytes -> bytes -> bool.
Variable fts_match : table -> sqlv -> res (list (list sqlv)).

(** What an index answers. *)
Definition answers (k : index_kind) (inp_name : bytes) (fs : list (bytes * value)) (d : db) : res iter :=
  match k with
  | ISqlite c => snd (srun visit fts_ok fts_match (sqlite_positions c inp_name fs) d)
  | IFts c => snd (srun visit fts_ok fts_match (fts_positions c inp_name fs) d)
  end.

(** What a database can look like after any number of starts of the indexes [ks],
    each with an input of its own and each finished or stopped between any two
    statements.  In the beginning there are no tables of these indexes. *)
Inductive history (ks : list index_kind) : db -> Prop :=
| history_begin d :
    (forall k, In k ks -> tables_of d (meta_name (kind_name k)) = [] /\ tables_of d (rows_name (kind_name k)) = []) ->
    history ks d
| history_start d k inp d' :
    history ks d -> In k ks -> In d' (sstates visit fts_ok fts_match (start k inp) d) -> history ks d'.
End History.

(** Index names that differ in more than ASCII case, and have no NUL. *)
Definition good_names (ks : list index_kind) : Prop :=
  Forall (fun k => nul_free (kind_name k)) ks /\
  (forall a b, In a ks -> In b ks -> fold_name (kind_name a) = fold_name (kind_name b) -> a = b).

(** The collations a validated configuration can have (Config.v, [collations]). *)
Definition validated_collations (k : index_kind) : Prop :=
  match k with
  | ISqlite c => Forall (fun p => In (snd p) [lit "BINARY"; lit "NOCASE"; lit "RTIRM"]) (sq_props c)
  | IFts _ => True
  end.

(** Two values Go compares the way SQLite does: the filter is not null, and booleans,
    integers and floats are not mixed. *)
Definition is_number (v : value) : bool := match v with VBool _ | VInt _ | VFloat _ => true | _ => false end.
Definition same_kind (v f : value) : bool :=
  match v, f with
  | VBool _, VBool _ | VInt _, VInt _ | VFloat _, VFloat _ => true
  | _, _ => negb (is_number v && is_number f)
  end.
Definition is_primitive (v : value) : bool := match v with VList _ | VMap _ => false | _ => true end.

(** Go's comparison and SQLite's give the same for this filter and this record. *)
Definition agree (r : rec) (pf : bytes * value) : Prop :=
  forall v, r_get r (fst pf) = Ok v -> same_kind v (snd pf) = true /\ ~ (v = VNil /\ snd pf = VNil).

(** The index has the property, compared byte by byte, and SQLite takes the value. *)
Definition handled (c : sconfig) (pf : bytes * value) : Prop :=
  In (fst pf, lit "BINARY") (sq_props c) /\ is_primitive (snd pf) = true.

(** SQLite returns every row once, in some order. *)
Definition every_row (visit : list (list sqlv) -> list (res (list sqlv))) : Prop :=
  forall l, exists l', visit l = map Ok l' /\ Permutation l l'.

(** SQLite returns rows that are there, and may fail. *)
Definition only_rows (visit : list (list sqlv) -> list (res (list sqlv))) : Prop :=
  forall l x, In x (visit l) -> match x with Ok row => In row l | Err _ => True | _ => False end.

(** What an index can hold: records that can be read, with primitive values. *)
Definition indexable (props : list bytes) (it : res rec) : Prop :=
  exists r, it = Ok r /\ Forall (fun p => exists v, r_get r p = Ok v /\ is_primitive v = true) props.

Definition readable (inp : input) : Prop := (exists s, in_size inp = Ok s) /\ (exists t, in_mtime inp = Ok t).

(** Nothing in the database has the name. *)
Definition unused (d : db) (x : bytes) : Prop :=
  tables_of d x = [] /\ Forall (fun i => fold_name (fst i) <> fold_name x) (d_indexes d).

(** A configuration and a database for which an index can be created. *)
Definition creatable (fts_ok : list bytes -> bytes -> bytes -> bool) (k : index_kind) (d : db) : Prop :=
  nul_free (kind_name k) /\ kind_props k <> [] /\ Forall nul_free (kind_props k) /\
  unused d (meta_name (kind_name k)) /\ unused d (rows_name (kind_name k)) /\
  match k with
  | ISqlite c =>
    NoDup (map fold_name (kind_props k)) /\
    Forall (fun p => In (snd p) [lit "BINARY"; lit "NOCASE"]) (sq_props c) /\
    Forall (fun p => unused d (index_name (sq_name c) p)) (kind_props k)
  | IFts c =>
    NoDup (map fold_name (lit "__offset" :: lit "rank" :: lit "rowid" :: kind_props k)) /\
    fts_ok (lit "__offset" :: ft_props c) (prefix_string (ft_prefix c)) (until_nul (ft_tokenize c)) = true /\
    Forall (fun x => unused d (rows_name (ft_name c) ++ x)) shadow_suffixes
  end.
