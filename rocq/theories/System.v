(** The whole program: from a validated configuration and the contents of files
    to the routes of the services and the objects that they use.  Puts together
    Start.v (which names are looked up) and the models of the inputs, indexes and
    parsers. *)
From Coq Require Import List ZArith Bool String.
From Coq Require Import Strings.Byte.
From Verif Require Import Sql SqlIndex XmlStream XmlInput.
From Verif Require Import Base Codec Value GoStrings Parser FloatText JsonDecode Records Prog Bufio CsvReader JsonReader.
From Verif Require Import Stream Wildcard Join Index Output Http Regex Route Config Start.
Import ListNotations.
Open Scope Z_scope.

Section System.
(** The files: contents and modification times, by path. *)
Variable files : bytes -> bytes.
Variable mtime : bytes -> res Z.
(** The buffers of package bufio, and how much each read of a file gives. *)
Variable cap : nat.
Variable chunk : nat -> nat.
(** The charsets of golang.org/x/text, and the package regexp. *)
Variable decode_charset : bytes -> bytes -> res bytes.
Variable regexp_split : bytes -> bytes -> list bytes.
Variable new_charset : bytes -> res unit.
(** The shared reader of each CSV and JSON input when it is used. *)
Variable csv_state : bytes -> reader.
Variable json_state : bytes -> jfile.
(** Go's strings.ToLower, and the files of the wildcard indexes before the start of
    the program, when they exist. *)
Variable lower : bytes -> bytes.
Variable index_file : bytes -> option bytes.
(** SQLite (see Sql.v), and the databases before the start of the program, by their
    DSN, which is the path of a file (databases in memory are in SqlPool.v). *)
Variable visit : list (list sqlv) -> list (res (list sqlv)).
Variable fts_ok : list bytes -> bytes -> bytes -> bool.
Variable fts_match : table -> sqlv -> res (list (list sqlv)).
Variable databases : bytes -> db.
(** The packages for XML. *)
Variable xml : xml_package.
(** The package sort. *)
Variable alg : (rec -> rec -> bool) -> list rec -> list rec.
(** Opening a file and a port. *)
Variable open_file : bytes -> res unit.
Variable listen : vservice -> res unit.

(** The Parse method of a parser; a chain of split parsers longer than the list
    of all the parsers does not end. *)
Definition parser_of (ps : list (bytes * pconfig)) (c : pconfig) : parser_fun :=
  parse go_parse_float go_unmarshal decode_charset regexp_split (S (List.length ps)) ps c.

(** pkg/input/csv.go:171: [ []rune(config.Delimiter)[0] ] *)
Definition comma_of (delimiter : bytes) : byte := hd x2c delimiter.

(** pkg/input/csv.go:128-132 *)
Definition first_row (path delimiter : bytes) : res (list bytes) :=
  match fst (exec (read_csv (files path) cap chunk (comma_of delimiter)) new_reader) with
  | Ok (Some row) => Ok row
  | Ok None => Err (EMsg "Cannot read csv data: EOF")
  | Err e => Err e
  | Panic => Panic
  | NoFuel => NoFuel
  end.

(** pkg/input/xml_record.go:130,189-191,205 *)
Definition parser_type (c : pconfig) : xparser :=
  match c with PString _ => XPString | PInteger _ => XPInteger | PFloat _ _ => XPFloat | PBoolean _ _ => XPBoolean | _ => XPOther end.

(** pkg/input/input.go:34-48, csv.go:29-75, json.go:29-64, xml.go:41-85 *)
Definition make_input (ps : list (bytes * pconfig)) (name : bytes) (c : vinput) (s : sinput) : input :=
  match c, s with
  | VCsv path _ ignore_first _ delimiter _, SCsv columns =>
    csv_input name (files path) (mtime path) cap chunk (comma_of delimiter) ignore_first
      (map fst columns) (map (fun c => parser_of ps (snd c)) columns) (csv_state name)
  | VJsonFile path _, _ => json_input name (files path) (mtime path) decode_map chunk (json_state name)
  | VXml path _ props xpath, _ =>
    xml_input xml name (files path) (mtime path) (map (fun nc : bytes * pconfig => (fst nc, (parser_type (snd nc), parser_of ps (snd nc)))) ps) props xpath
  | VCsv _ _ _ _ _ _, _ => mkInput name Panic Panic [] (fun _ => Panic)  (* does not happen, see new_input in Start.v *)
  end.

(** [make_input] for an input that can be created. *)
Definition made_input (ps : list (bytes * pconfig)) (name : bytes) (c : vinput) (inp : input) : Prop :=
  exists s, new_input open_file first_row ps c = Done s /\ inp = make_input ps name c s.

(** pkg/index/sqlite.go:21-63, fts5.go:21-62: what the creation of an index does to
    its database. *)
Definition open_database (inputs : list (bytes * input)) (dbs : bytes -> db) (nc : bytes * vindex) : res (bytes -> db) :=
  let go dsn name (p : input -> sprog unit) :=
    match mget inputs name with
    | None => Err (EMsg "Input not found in inputs list.")
    | Some inp =>
      let dr := srun visit fts_ok fts_match (p inp) (dbs dsn) in
      rlet _ := snd dr in Ok (fun x => if bytes_eqb x dsn then fst dr else dbs x)
    end in
  match snd nc with
  | VISqlite dsn input props => go dsn input (new_sqlite (mkSconfig (fst nc) input props))
  | VIFts5 dsn input prefix tokenize props => go dsn input (new_fts (mkFconfig (fst nc) input prefix tokenize props))
  | _ => Ok dbs
  end.
Fixpoint open_databases (inputs : list (bytes * input)) (dbs : bytes -> db) (l : list (bytes * vindex)) : res (bytes -> db) :=
  match l with
  | [] => Ok dbs
  | nc :: l' => rlet dbs' := open_database inputs dbs nc in open_databases inputs dbs' l'
  end.

(** pkg/index/index.go:30-48, map.go:22-44, noop.go:17-25, wildcard.go:22-50; [dbs]:
    the databases when all the indexes are created; [kept]: the files of the wildcard
    indexes before and after.  Simplification: two paths that differ are two files. *)
Definition make_index (kept : bytes -> option bytes) (inputs : list (bytes * input)) (dbs : bytes -> db) (name : bytes) (c : vindex)
  : res (index * (bytes -> option bytes)) :=
  match c with
  | VIMap input props =>
    match mget inputs input with
    | None => Err (EMsg "Input not found in inputs list.")
    | Some inp => rlet idx := map_reindex (mkMconfig input props) inp in Ok (map_index (mkMconfig input props) idx, kept)
    end
  | VINoop => Ok (noop_positions, kept)
  | VIWildcard path input props ignore_case =>
    match mget inputs input with
    | None => Err (EMsg "Input not found in inputs list.")
    | Some inp =>
      let cfg := mkWconfig input props ignore_case in
      match kept path with
      | None =>
        let (r, s) := create_index lower cfg inp created_stream in
        rlet idx := r in Ok (wildcard_index lower cfg idx s, fun x => if bytes_eqb x path then Some (st_file s) else kept x)
      | Some file =>
        let (r, s) := load_index cfg inp (loaded_stream file) in
        rlet idx := r in Ok (wildcard_index lower cfg idx s, kept)
      end
    end
  | VISqlite dsn input props => Ok (sqlite_index visit fts_ok fts_match (mkSconfig name input props) (dbs dsn), kept)
  | VIFts5 dsn input prefix tokenize props => Ok (fts_index visit fts_ok fts_match (mkFconfig name input prefix tokenize props) (dbs dsn), kept)
  end.
(** pkg/index/index.go:50-66, one index after the other. *)
Fixpoint make_indexes (kept : bytes -> option bytes) (inputs : list (bytes * input)) (dbs : bytes -> db) (l : list (bytes * vindex))
  : res (list (bytes * index) * (bytes -> option bytes)) :=
  match l with
  | [] => Ok ([], kept)
  | nc :: l' =>
    rlet ik := make_index kept inputs dbs (fst nc) (snd nc) in
    rlet rest := make_indexes (snd ik) inputs dbs l' in
    Ok ((fst nc, fst ik) :: fst rest, snd rest)
  end.

(** The lists given to the outputs, pkg/output/json_array.go:24-53,
    json_object.go:23-60, and the databases and files that are left. *)
Definition assemble (v : vconfig) (st : started) : res (env * ((bytes -> db) * (bytes -> option bytes))) :=
  let ps := st_parsers st in
  rlet inputs := rmapM (fun nc : bytes * vinput =>
                   match mget (st_inputs st) (fst nc) with
                   | None => Panic
                   | Some s => Ok (fst nc, make_input ps (fst nc) (snd nc) s)
                   end) (vc_inputs v) in
  rlet dbs := open_databases inputs databases (vc_indexes v) in
  rlet ik := make_indexes index_file inputs dbs (vc_indexes v) in
  match mget (fst ik) (lit "default") with
  | None => Err (EMsg "Index not found in indexes list.")
  | Some d => Ok (mkEnv inputs d (fst ik) (map (fun nc : bytes * pconfig => (fst nc, parser_of ps (snd nc))) ps) alg, (dbs, snd ik))
  end.

(** cmd/main.go:49-104.  The indexes are built when everything else has been
    created, which only changes the error that is reported when there are
    several. *)
Definition boot_leaving (v : vconfig) : outcome (list (bytes * list route) * env * ((bytes -> db) * (bytes -> option bytes))) :=
  olet st := start new_charset open_file first_row (fun _ => Ok tt) listen v in
  olet Ed := other (assemble v st) in
  Done (st_services st, fst Ed, snd Ed).
Definition boot (v : vconfig) : outcome (list (bytes * list route) * env) :=
  olet r := boot_leaving v in Done (fst r).
End System.
