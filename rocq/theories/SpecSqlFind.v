(** What SQLite and FTS5 indexes find. *)
From Coq Require Import List ZArith Bool String Permutation.
From Coq Require Import Strings.Byte Floats.SpecFloat.
From Verif Require Import Base Codec Value SpecIndex Output SpecOutput Sql SqlIndex SpecSql.
Import ListNotations.
Open Scope Z_scope.

(** Booleans are the integers 0 and 1. *)
Inductive whole : value -> Z -> Prop :=
| whole_bool (b : bool) : whole (VBool b) (if b then 1 else 0)
| whole_int z : whole (VInt z) z.

(** The float is the integer [z]. *)
Definition float_is (f : spec_float) (z : Z) : Prop :=
  match f with
  | S754_zero _ => z = 0
  | S754_finite s m e => z * 2 ^ Z.max 0 (- e) = (if s then Zneg m else Zpos m) * 2 ^ Z.max 0 e
  | _ => False
  end.

(** Equal, or the same ASCII letter. *)
Definition same_letter (x y : byte) : Prop :=
  x = y \/ exists u l, 65 <= u <= 90 /\ l = u + 32 /\ (Z_of_byte x = u /\ Z_of_byte y = l \/ Z_of_byte x = l /\ Z_of_byte y = u).

(** Collations.  After a NUL only the length is compared. *)
Inductive nocase : bytes -> bytes -> Prop :=
| nocase_end : nocase [] []
| nocase_nul a b : List.length a = List.length b -> nocase (x00 :: a) (x00 :: b)
| nocase_more x y a b : same_letter x y -> nocase a b -> nocase (x :: a) (y :: b).
Inductive same_text : bytes -> bytes -> bytes -> Prop :=
| text_binary a : same_text (lit "BINARY") a a
| text_nocase a b : nocase a b -> same_text (lit "NOCASE") a b.

(** The value [v] is found by the filter [f]. *)
Inductive sql_same (collation : bytes) : value -> value -> Prop :=
| sql_whole v f z : whole v z -> whole f z -> sql_same collation v f
| sql_float x y : same_value (VFloat x) (VFloat y) -> sql_same collation (VFloat x) (VFloat y)
| sql_whole_float v y z : whole v z -> float_is y z -> sql_same collation v (VFloat y)
| sql_float_whole x f z : float_is x z -> whole f z -> sql_same collation (VFloat x) f
| sql_text a b : same_text collation a b -> sql_same collation (VString a) (VString b).

(** A row is found by the properties, each being compared by its collation. *)
Definition by_sql (props : list (bytes * bytes)) : search :=
  mkSearch primitive (fun has p f => exists collation v, In (p, collation) props /\ has p v /\ sql_same collation v f).

(** *** Full-text indexes *)

(** What FTS5 does with the columns and the options of a table (prefix and tokenize, see
    https://sqlite.org/fts5.html): the expressions without an error in the syntax, and
    the rows of values that an expression matches. *)
Record fulltext := mkFulltext {
  fx_valid : list bytes -> list Z -> bytes -> sqlv -> Prop;
  fx_matches : list bytes -> list Z -> bytes -> list sqlv -> sqlv -> Prop;
}.
(** A row is found when the expression matches its properties. *)
Definition by_fts (F : fulltext) (props : list bytes) (prefix : list Z) (tokenize : bytes) : search :=
  mkSearch (fun f => exists q, stored f q /\ fx_valid F props prefix tokenize q)
    (fun has _ f => exists gs cells q, Forall2 has props gs /\ Forall2 stored gs cells /\ stored f q /\ fx_matches F props prefix tokenize cells q).

(** The tables are searched as [F] tells, row by row; the first column is the position. *)
Definition searched_by (fts_match : table -> sqlv -> res (list (list sqlv))) (F : fulltext) : Prop :=
  forall props prefix tokenize rows q, fx_valid F props prefix tokenize q -> exists found,
    fts_match (mkTable (fts_columns (lit "__offset" :: props) (prefix_string prefix) tokenize) rows) q = Ok found /\
    kept (fun row => fx_matches F props prefix tokenize (tl row) q) rows found.

(** Rows come in the order in which they were inserted. *)
Definition in_order (visit : list (list sqlv) -> list (res (list sqlv))) : Prop := forall l, visit l = map Ok l.

(** The collations which exist. *)
Definition collated (props : list (bytes * bytes)) : Prop := Forall (fun p => In (snd p) [lit "BINARY"; lit "NOCASE"]) props.

(** The tables of the index are as a start for the same data left them. *)
Definition left_by_start visit fts_ok fts_match (k : index_kind) (inp : input) (d : db) : Prop :=
  let n := kind_name k in
  exists d0 d1, tables_of d0 (meta_name n) = [] /\ tables_of d0 (rows_name n) = [] /\
    srun visit fts_ok fts_match (start k inp) d0 = (d1, Ok tt) /\
    tables_of d (meta_name n) = tables_of d1 (meta_name n) /\ tables_of d (rows_name n) = tables_of d1 (rows_name n).

(** They are as any number of starts for the same data left them, each of which
    finished, failed, or was stopped between any two of its statements. *)
Inductive left_by_starts visit fts_ok fts_match (k : index_kind) (inp : input) : db -> Prop :=
| never_started d : tables_of d (meta_name (kind_name k)) = [] -> tables_of d (rows_name (kind_name k)) = [] ->
    left_by_starts visit fts_ok fts_match k inp d
| next_start d0 d1 d : left_by_starts visit fts_ok fts_match k inp d0 ->
    In d1 (sstates visit fts_ok fts_match (start k inp) d0) ->
    tables_of d (meta_name (kind_name k)) = tables_of d1 (meta_name (kind_name k)) ->
    tables_of d (rows_name (kind_name k)) = tables_of d1 (rows_name (kind_name k)) ->
    left_by_starts visit fts_ok fts_match k inp d.

(** They are not in the database, or they are as starts for the same data left them. *)
Definition prepared visit fts_ok fts_match (k : index_kind) (inp : input) (d : db) : Prop :=
  let n := kind_name k in
  (tables_of d (meta_name n) = [] /\ tables_of d (rows_name n) = []) \/ left_by_start visit fts_ok fts_match k inp d \/
  left_by_starts visit fts_ok fts_match k inp d.
