(** Reference semantics of the whole program on tables: what the files hold, what
    a request selects and what the relationships add, without positions, indexes
    and parsers of files. *)
From Coq Require Import List ZArith Bool String Permutation Sorted.
From Coq Require Import Strings.Byte.
From Verif Require Import Sql SqlIndex SpecSql SpecSqlFind.
From Verif Require Import XmlStream SpecXml SpecXmlNest SpecXmlValue XmlInput.
From Verif Require Import Bufio CsvReader System.
From Verif Require Import Stream Wildcard SpecWildcard.
From Verif Require Import Base Codec Value GoStrings Prog Parser SpecIndex SpecText SpecOrder SpecHttp SpecCsv SpecJsonFile SpecJson Records SpecRecords JsonDecode Sort Output SpecOutput Http Config.
Import ListNotations.
Open Scope Z_scope.

(** The rows of a file, in order.  In a closed table the rows have the columns of
    the file and asking for another one is an error. *)
Record table := mkTable { t_closed : bool; t_rows : list object }.

(** [x] stands at the path [p] of the row [a]. *)
Definition row_value (closed : bool) (a : object) (p : bytes) (x : value) : Prop :=
  exists k segs, dotted p (k :: segs) /\ at_path (VMap a) (k :: segs) x /\ (closed = true -> In k (map fst a)).

(** How the indexes of a configuration search, by name: a wildcard index for the
    strings that contain a part, a SQLite index as its collations tell, a full-text index
    for the rows that an expression matches, the others for equal values. *)
Definition kind_of (lower : bytes -> bytes) (F : fulltext) (v : vconfig) (i : bytes) : search :=
  match mget (vc_indexes v) i with
  | Some (VIWildcard _ _ _ ignore_case) => containing (fold_case lower ignore_case)
  | Some (VISqlite _ _ props) => by_sql props
  | Some (VIFts5 _ _ prefix tokenize props) => by_fts F props prefix tokenize
  | _ => equality
  end.

(** The row has all the values that are searched. *)
Definition meets (kind : bytes -> search) (closed : bool) (fs : list (place * value)) (a : object) : Prop :=
  Forall (fun f => s_finds (kind (fst (fst f))) (row_value closed a) (snd (fst f)) (snd f)) fs.

(** *** Order of rows *)

Inductive row_precedes (closed : bool) : list sort_criterion -> object -> object -> Prop :=
| rp_here p (asc : bool) cs a b x y : row_value closed a p x -> row_value closed b p y ->
    (if asc then before x y else before y x) -> row_precedes closed ((p, asc) :: cs) a b
| rp_next p asc cs a b x y : row_value closed a p x -> row_value closed b p y -> same_value x y ->
    row_precedes closed cs a b -> row_precedes closed ((p, asc) :: cs) a b.

Definition rows_sortable (closed : bool) (cs : list sort_criterion) (l : list object) : Prop :=
  Forall (fun c => exists t, Forall (fun a => exists x, row_value closed a (fst c) x /\ has_type t x) l) cs.

(** The same rows; in the same order without criteria, sorted when the values of
    each criterion can be compared. *)
Definition rows_arranged (closed : bool) (cs : list sort_criterion) (l out : list object) : Prop :=
  Permutation l out /\ (cs = [] -> out = l) /\
  (rows_sortable closed cs l -> StronglySorted (fun a b => ~ row_precedes closed cs b a) out).

(** *** Relationships *)

Section Tables.
Variable kind : bytes -> search.
Variable tables : bytes -> option table.

(** [v] is what the relationship [c] adds to the row [data]. *)
Inductive joined : relationship -> object -> value -> Prop :=
| joined_intro c data t fs sel arranged taken items :
    tables (rel_input c) = Some t ->
    Forall2 (fun m f => mget data (m_parent m) = Some (snd f) /\ fst f = (m_index m, m_child m)) (rel_match c) fs ->
    kept (meets kind (t_closed t) fs) (t_rows t) sel ->
    rows_arranged (t_closed t) (rel_sort c) sel arranged ->
    taken = (if rel_is_array c then
               if rel_limit c =? 0 then arranged else firstn (Z.to_nat (rel_limit c)) arranged
             else firstn 1 arranged) ->
    Forall2 (fun a d => NoDup (map fst d) /\
      (forall name c', In (name, c') (rel_children c) -> exists v, mget d name = Some v /\ joined c' a v) /\
      (forall k, ~ In k (map fst (rel_children c)) -> mget d k = mget a k)) taken items ->
    joined c data (if rel_is_array c then VList (map VMap items)
                   else match items with [] => VNil | d :: _ => VMap d end).

(** [d] is the row [a] with its relationships. *)
Definition completed (rels : list (bytes * relationship)) (a d : object) : Prop :=
  NoDup (map fst d) /\
  (forall name c', In (name, c') rels -> exists v, mget d name = Some v /\ joined c' a v) /\
  (forall k, ~ In k (map fst rels) -> mget d k = mget a k).

(** *** Configurations that are covered *)

(** The index [i] can be asked for the property [p] of the table: it is a map
    index, or a SQLite index with collations that exist, or a full-text index, or a
    wildcard index and there are strings in all its properties, or all the rows are read
    and have a comparable value there. *)
Definition searchable (v : vconfig) (t : table) (i p : bytes) : Prop :=
  (exists input props, mget (vc_indexes v) i = Some (VIMap input props)) \/
  (exists path input props ic, mget (vc_indexes v) i = Some (VIWildcard path input props ic) /\
     forall a p', In a (t_rows t) -> In p' props -> exists s, row_value (t_closed t) a p' (VString s)) \/
  (exists dsn input props, mget (vc_indexes v) i = Some (VISqlite dsn input props) /\ collated props) \/
  (exists dsn input prefix tokenize props, mget (vc_indexes v) i = Some (VIFts5 dsn input prefix tokenize props) /\
     Forall nul_free (tokenize :: props)) \/
  (mget (vc_indexes v) i = Some VINoop /\ forall a, In a (t_rows t) -> exists x, row_value (t_closed t) a p x /\ primitive x).

(** The relationships of the rows of a table: between tables that are known, the
    limits fit in an int, the properties of the parent exist, hold values that can
    be asked for, and are not replaced by a relationship. *)
Inductive joinable (v : vconfig) : table -> list (bytes * relationship) -> Prop :=
| joinable_intro t rels :
    NoDup (map fst rels) ->
    (forall name c, In (name, c) rels -> exists t', tables (rel_input c) = Some t' /\ 0 <= rel_limit c < two63 /\
      (forall m, In m (rel_match c) -> ~ In (m_parent m) (map fst rels) /\ searchable v t' (m_index m) (m_child m) /\
        (forall a, In a (t_rows t) -> exists x, mget a (m_parent m) = Some x /\ s_accepts (kind (m_index m)) x)) /\
      joinable v t' (rel_children c)) ->
    joinable v t rels.

(** All the numbers can be shown in JSON. *)
Definition numbers_tables : Prop := forall n t a, tables n = Some t -> In a (t_rows t) -> numbers_only (VMap a).
End Tables.

(** *** Requests *)

Section Requests.
Variable v : vconfig.
(** The parsers of the configuration, by name. *)
Variable cell : bytes -> parser_fun.

(** Wildcard indexes are asked for strings, full-text indexes for expressions. *)
Variable F : fulltext.
Definition askable (i : bytes) (x : value) : Prop :=
  match mget (vc_indexes v) i with
  | Some (VIWildcard _ _ _ _) => exists s, x = VString s
  | Some (VIFts5 _ _ prefix tokenize props) => exists q, stored x q /\ fx_valid F props prefix tokenize q
  | _ => True
  end.

(** The filters of the parameters which are given.  [missing]: what a parameter
    reads as when it is absent. *)
Inductive asked (params : list (bytes * bytes)) (missing : option bytes) : list (bytes * param) -> list (place * value) -> Prop :=
| asked_nil : asked params missing [] []
| asked_skip name pc pcs fs : mget params name = None -> missing = None ->
    asked params missing pcs fs -> asked params missing ((name, pc) :: pcs) fs
| asked_take name pc pcs fs s x :
    (mget params name = Some s \/ mget params name = None /\ missing = Some s) -> cell (pm_parser pc) s = Ok x -> askable (pm_index pc) x ->
    asked params missing pcs fs -> asked params missing ((name, pc) :: pcs) ((pm_index pc, pm_property pc, x) :: fs).

End Requests.

(** A value that the request gives is refused: the number of rows or the row to start
    at is not a number in range, or the parser of a parameter does not take it. *)
Inductive refused (cell : bytes -> parser_fun) (params : list (bytes * bytes)) : output -> Prop :=
| refused_limit c s : mget params (ac_limit_param c) = Some s -> (forall z, signed_decimal s z -> in_i64 z -> z <= 0) -> refused cell params (OArray c)
| refused_offset c s : mget params (ac_offset_param c) = Some s -> (forall z, signed_decimal s z -> in_i64 z -> z < 0) -> refused cell params (OArray c)
| refused_list c name pc s e : In (name, pc) (ac_params c) -> mget params name = Some s -> cell (pm_parser pc) s = Err e -> refused cell params (OArray c)
| refused_object c name pc s e : In (name, pc) (oc_params c) -> (mget params name = Some s \/ mget params name = None /\ s = []) ->
    cell (pm_parser pc) s = Err e -> refused cell params (OObject c).

(** A value, or an error with a message of its own. *)
Definition told {A} (r : res A) : Prop := match r with Ok _ | Err (EMsg _) => True | _ => False end.

(** The response is an error with this status, in JSON. *)
Definition error_response (err_text : err -> bytes) (status : Z) (r : Http.response) : Prop :=
  exists (b : bytes) (m : string), r = [Header status (lit "application/json; charset=UTF-8"); Body b] /\
    json_text b (JObj [(runes (lit "error"), JStr (runes (err_text (EMsg m))))]).

(** *** Files *)

Section Files.
Variable cell : bytes -> parser_fun.
(** The parsers of the configuration, the packages for XML, and the files. *)
Variable parsers : list (bytes * pconfig).
Variable xml : xml_package.
Variable files : bytes -> bytes.

(** A byte that separates the cells of CSV files. *)
Definition separator (d : byte) : Prop := ~ In d [x00; x22; x0d; x0a] /\ Z_of_byte d < 128.

(** The row of a table for a row of a CSV file; [columns]: names and parsers. *)
Definition cells_row (columns : list (bytes * bytes)) (row : list bytes) (a : object) : Prop :=
  map fst a = map fst columns /\
  forall i name parser x, nth_error columns i = Some (name, parser) -> nth_error (map snd a) i = Some x ->
    cell_value row i (cell parser) x.

(** The type of a parser. *)
Definition typed_parser (name : bytes) (t : xparser) : Prop :=
  match mget parsers name, t with
  | Some (PString _), XPString | Some (PInteger _), XPInteger | Some (PFloat _ _), XPFloat | Some (PBoolean _ _), XPBoolean => True
  | _, _ => False
  end.

(** The name of an element: letters, digits and underscores. *)
Definition name_byte (b : byte) : Prop :=
  let z := Z_of_byte b in 48 <= z <= 57 \/ 65 <= z <= 90 \/ z = 95 \/ 97 <= z <= 122.

(** The table that the file of an input holds. *)
Inductive provides : vinput -> table -> Prop :=
| provides_csv path die (ignore_first detect : bool) d given columns all rows trows :
    separator d -> csv_text d 0 all (files path) ->
    (if detect then exists p header rest, all = (p, header) :: rest /\ columns = map (fun n => (n, lit "string")) header
     else columns = given) ->
    (if ignore_first then exists p header, all = (p, header) :: rows /\ List.length header = List.length columns
     else rows = all) ->
    Forall2 (fun r a => cells_row columns (snd r) a) rows trows ->
    provides (VCsv path die ignore_first detect [d] given) (mkTable true trows)
| provides_json path die docs trows :
    documents 0 docs (files path) -> Forall2 (fun d a => decode_map (snd d) = Ok a) docs trows ->
    provides (VJsonFile path die) (mkTable false trows)
| provides_xml path die props name recs trows :
    let file := xml_tokens xml (files path) in
    name <> [] -> Forall name_byte name ->
    Forall (fun tn => (0 < snd tn)%nat) file -> Z.of_nat (list_sum (map snd file)) = zlen (files path) ->
    flat name recs (map fst file) -> closed_elements (map fst file) ->
    Forall2 (fun r a => node_row xnode (xml_query xml) (xml_evaluate xml) (xml_integer xml) typed_parser cell (snd r, []) props a) recs trows ->
    provides (VXml path die props (lit "//" ++ name)) (mkTable true trows).
End Files.

(** The parsers of a configuration. *)
Definition named_parser (decode_charset : bytes -> bytes -> res bytes) (regexp_split : bytes -> bytes -> list bytes) (v : vconfig) (name : bytes) : parser_fun :=
  match mget (vc_parsers v) name with
  | Some c => parser_of decode_charset regexp_split (vc_parsers v) c
  | None => fun _ => Err (EMsg "no such parser")
  end.

(** The files hold the tables, which only hold numbers that JSON can show; the
    shared readers of the CSV and XML files are in any state that the program leaves them
    in, by reading records; the index used when nothing is asked is the built-in one. *)
Record ready (files : bytes -> bytes) (cap : nat) (chunk : nat -> nat) (csv_state : bytes -> reader) (xml : xml_package) (cell : bytes -> parser_fun)
  (v : vconfig) (tables : bytes -> option table) : Prop := mkReady {
  rd_buffer : (0 < cap)%nat;
  rd_reader : forall n path die first detect delimiter columns,
    mget (vc_inputs v) n = Some (VCsv path die first detect delimiter columns) ->
    used (files path) cap chunk (comma_of delimiter) (csv_state n);
  rd_tables : forall n t, tables n = Some t -> exists c, mget (vc_inputs v) n = Some c /\ provides cell (vc_parsers v) xml files c t;
  rd_xml : forall n t path die props xpath, tables n = Some t -> mget (vc_inputs v) n = Some (VXml path die props xpath) ->
    let file := xml_tokens xml (files path) in
    exists positions, xml_state xml n = gets file (xml_ahead xml) (xpath_pattern xpath) positions new_xparser /\
      forall z, In z positions -> exists u, In (Ok (z, u)) (xml_iterate_all file (xml_ahead xml) (xpath_pattern xpath));
  rd_numbers : numbers_tables tables;
  rd_default : mget (vc_indexes v) (lit "default") = Some VINoop;
}.

(** The files of the wildcard indexes: no two indexes use the same file, the sizes and
    times of their inputs are int64, they are smaller than 2^48 bytes, and each of them
    either does not exist before the start of the program, or is what an earlier start
    wrote for the same data. *)
Definition wildcard_path (nc : bytes * vindex) : list bytes := match snd nc with VIWildcard path _ _ _ => [path] | _ => [] end.
Definition wildcards_ready (lower : bytes -> bytes) (index_file : bytes -> option bytes) (v : vconfig) (E : env) : Prop :=
  NoDup (flat_map wildcard_path (vc_indexes v)) /\
  forall n path input props ic inp, mget (vc_indexes v) n = Some (VIWildcard path input props ic) -> mget (e_inputs E) input = Some inp ->
    (exists size time, in_size inp = Ok size /\ size < two63 /\ in_mtime inp = Ok time /\ in_i64 time) /\
    forall r s, create_index lower (mkWconfig input props ic) inp created_stream = (r, s) ->
      zlen (st_file s ++ st_buf s) < max_alloc /\ (index_file path = None \/ index_file path = Some (st_file s)).

(** The databases of the SQLite and full-text indexes: SQLite gives rows in the order in
    which they were inserted, and full-text tables are searched row by row; the names of the indexes have no NUL and differ in more
    than the case of letters; and the tables of each index do not exist before the
    start of the program, or are as earlier starts left them for the same data, finished or
    stopped. *)
Definition in_database (nc : bytes * vindex) : bool :=
  match snd nc with VISqlite _ _ _ | VIFts5 _ _ _ _ _ => true | _ => false end.
Definition databases_ready visit fts_ok fts_match (F : fulltext) (databases : bytes -> db) (v : vconfig) (E : env) : Prop :=
  let names := map fst (filter in_database (vc_indexes v)) in
  in_order visit /\ searched_by fts_match F /\ Forall nul_free names /\ NoDup (map fold_name names) /\
  forall n dsn input inp k, mget (e_inputs E) input = Some inp ->
    (exists props, mget (vc_indexes v) n = Some (VISqlite dsn input props) /\ k = ISqlite (mkSconfig n input props)) \/
    (exists prefix tokenize props, mget (vc_indexes v) n = Some (VIFts5 dsn input prefix tokenize props) /\ k = IFts (mkFconfig n input prefix tokenize props)) ->
    prepared visit fts_ok fts_match k inp (databases dsn).

(** An endpoint on the table [t]. *)
Record covered (kind : bytes -> search) (v : vconfig) (tables : bytes -> option table) (input : bytes) (params : list (bytes * param))
  (rels : list (bytes * relationship)) (t : table) : Prop := mkCovered {
  co_table : tables input = Some t;
  co_rels : joinable kind tables v t rels;
  co_distinct : NoDup (map (fun np => (pm_index (snd np), pm_property (snd np))) params);
  co_search : forall name pc, In (name, pc) params -> searchable v t (pm_index pc) (pm_property pc);
}.
