(** What the start of the program needs from the files and the databases. *)
From Coq Require Import List ZArith Bool String.
From Coq Require Import Strings.Byte.
From Verif Require Import Start.
From Verif Require Import Sql SqlIndex SpecSql SpecSqlFind.
From Verif Require Import XmlStream XmlInput.
From Verif Require Import Bufio CsvReader System.
From Verif Require Import Stream Wildcard.
From Verif Require Import Base Codec Value GoStrings Parser SpecIndex SpecHttp SpecCsv Records Output Http Regex Route Config SpecConfig SpecSystem.
Import ListNotations.
Open Scope Z_scope.

(** There are such values in all the properties of all the rows. *)
Definition all_hold (P : value -> Prop) (t : table) (props : list bytes) : Prop :=
  forall a p, In a (t_rows t) -> In p props -> exists x, row_value (t_closed t) a p x /\ P x.
Definition a_string (x : value) : Prop := exists s, x = VString s.

Definition path_of (c : vinput) : bytes :=
  match c with VCsv path _ _ _ _ _ | VJsonFile path _ | VXml path _ _ _ => path end.

(** The names of the columns' indexes in the database [dsn]. *)
Definition column_names (dsn : bytes) (nc : bytes * vindex) : list bytes :=
  match snd nc with
  | VISqlite dsn' _ props => if bytes_eqb dsn' dsn then map (fun p => SqlIndex.index_name (fst nc) (fst p)) props else []
  | _ => []
  end.

(** The routes of the services of a configuration. *)
Definition serves (v : vconfig) (services : list (bytes * list route)) : Prop :=
  Forall2 (fun c s => fst s = fst c /\
    Forall2 (fun op r => exists out, mget (vc_outputs v) (fst op) = Some (VOutput out) /\ new_route (vc_parsers v) (snd op) out = Ok r) (vs_routes (snd c)) (snd s))
    (vc_services v) services.

Section Started.
Variable files : bytes -> bytes.
Variable mtime : bytes -> res Z.
(** The input for a configuration, see System.v. *)
Variable input_of : bytes -> vinput -> input -> Prop.
Variable lower : bytes -> bytes.
Variable index_file : bytes -> option bytes.
Variable visit : list (list sqlv) -> list (res (list sqlv)).
Variable fts_ok : list bytes -> bytes -> bytes -> bool.
Variable fts_match : Sql.table -> sqlv -> res (list (list sqlv)).
Variable databases : bytes -> db.
Variable v : vconfig.
Variable tables : bytes -> option table.

(** The size and the time of change of the file of an input are int64. *)
Definition dated (input : bytes) : Prop :=
  forall c, mget (vc_inputs v) input = Some c ->
    zlen (files (path_of c)) < two63 /\ exists time, mtime (path_of c) = Ok time /\ in_i64 time.

(** The file written for a wildcard index is smaller than 2^48 bytes. *)
Definition small (cfg : wconfig) : Prop :=
  forall c inp r s, mget (vc_inputs v) (wc_input cfg) = Some c -> input_of (wc_input cfg) c inp ->
    create_index lower cfg inp created_stream = (r, s) -> zlen (st_file s ++ st_buf s) < max_alloc.

(** There is no file, or the one that an earlier start wrote for this data. *)
Definition file_usable (path : bytes) (cfg : wconfig) : Prop :=
  index_file path = None \/
  forall c inp r s, mget (vc_inputs v) (wc_input cfg) = Some c -> input_of (wc_input cfg) c inp ->
    create_index lower cfg inp created_stream = (r, s) -> index_file path = Some (st_file s).

(** The tables can be created, or they are what an earlier start left for this data. *)
Definition tables_usable (input : bytes) (k : index_kind) (d : db) : Prop :=
  nul_free (kind_name k) /\ Forall nul_free (kind_props k) /\
  (creatable fts_ok k d \/
   forall c inp, mget (vc_inputs v) input = Some c -> input_of input c inp -> left_by_start visit fts_ok fts_match k inp d).

(** The index can be built: its properties are there and hold values that it can hold,
    and no other file or table is in the way. *)
Definition buildable (n : bytes) (x : vindex) : Prop :=
  match x with
  | VINoop => True
  | VIMap input props => exists t, tables input = Some t /\ all_hold primitive t props
  | VIWildcard path input props ic => exists t, tables input = Some t /\ all_hold a_string t props /\ dated input /\
      small (mkWconfig input props ic) /\ file_usable path (mkWconfig input props ic)
  | VISqlite dsn input props => exists t, tables input = Some t /\ all_hold primitive t (map fst props) /\ dated input /\
      tables_usable input (ISqlite (mkSconfig n input props)) (databases dsn)
  | VIFts5 dsn input prefix tokenize props => exists t, tables input = Some t /\ all_hold primitive t props /\ dated input /\
      tables_usable input (IFts (mkFconfig n input prefix tokenize props)) (databases dsn)
  end.

(** The files, the ports and the character sets are there, and the header of a file
    whose columns are read from it; every parameter of the path of a route is one of its
    output, and the path is a regular expression; the indexes can be built, and no two
    of them use one file, or one name in a database. *)
Record startable (new_charset open_file : bytes -> res unit) (listen : vservice -> res unit) : Prop := mkStartable {
  sa_charset : forall n c, In (n, PString c) (vc_parsers v) -> c <> [] -> new_charset c = Ok tt;
  sa_open : forall path, open_file path = Ok tt;
  sa_header : forall n path die first delimiter columns, In (n, VCsv path die first true delimiter columns) (vc_inputs v) ->
    exists d p header rest, delimiter = [d] /\ separator d /\ csv_text d 0 ((p, header) :: rest) (files path) /\ NoDup header /\ ~ In [] header;
  sa_listen : forall s, listen s = Ok tt;
  sa_outputs : forall n, ~ In (n, VGraphql) (vc_outputs v);
  sa_routes : forall n s o path out, In (n, s) (vc_services v) -> In (o, path) (vs_routes s) -> mget (vc_outputs v) o = Some (VOutput out) ->
    (forall name, In name (snd (split_path path 0 [])) -> has (out_params out) name) /\
    exists r, new_route (vc_parsers v) path out = Ok r;
  sa_indexes : forall n x, In (n, x) (vc_indexes v) -> buildable n x;
  sa_paths : NoDup (flat_map wildcard_path (vc_indexes v));
  sa_names : NoDup (map fold_name (map fst (filter in_database (vc_indexes v))));
  sa_columns : forall dsn, NoDup (map fold_name (flat_map (column_names dsn) (vc_indexes v)));
}.
End Started.

(** The program can be started [n] times, one after the other, with the databases and
    the files of the wildcard indexes as the start before left them; every time the
    services are those of the configuration, and the indexes can be used (C64). *)
Section Restarts.
Variable boot_leaving : (bytes -> option bytes) -> (bytes -> db) -> vconfig -> outcome (list (bytes * list route) * env * ((bytes -> db) * (bytes -> option bytes))).
Variable indexes_ready : (bytes -> option bytes) -> (bytes -> db) -> vconfig -> env -> Prop.
Inductive starts_often (v : vconfig) : nat -> (bytes -> option bytes) -> (bytes -> db) -> Prop :=
| never : forall index_file databases, starts_often v 0 index_file databases
| once_more : forall n index_file databases services E databases' index_file',
    boot_leaving index_file databases v = Done (services, E, (databases', index_file')) ->
    serves v services -> indexes_ready index_file databases v E ->
    starts_often v n index_file' databases' -> starts_often v (S n) index_file databases.
End Restarts.
