(** C67 and C68: the program starts, and can be stopped and started again. *)
From Coq Require Import List ZArith Lia Bool String.
From Coq Require Import Strings.Byte Floats.SpecFloat.
From Verif Require Import Start.
From Verif Require Import Sql SqlIndex SpecSql SpecSqlFind.
From Verif Require Import XmlStream XmlInput.
From Verif Require Import Bufio CsvReader System.
From Verif Require Import Stream Wildcard.
From Verif Require Import FloatFormat Base Codec Value GoStrings Parser SpecIndex SpecHttp SpecCsv Records SpecRecords Sort JsonDecode JsonReader Output Json Http Regex Route Config SpecConfig SpecSystem SpecStart.
From Verif Require Import SystemStartFacts SystemExample SystemStartExample.
Import ListNotations.
Open Scope Z_scope.

(** With an accepted configuration, files that hold tables, and indexes that can be built
    from them ([startable]), the program starts: its services have the routes of the
    configuration, and the indexes are those that C64 asks for.  Missing: [startable]
    asks that the file written for a wildcard index be smaller than 2^48 bytes. *)
Theorem C67_starts_partial : forall stat regexp_ok xpath_ok upper p v
  files mtime cap chunk decode_charset regexp_split new_charset csv_state json_state lower index_file visit fts_ok fts_match databases xml alg open_file listen F tables,
  load stat regexp_ok xpath_ok upper p = Ok v -> unsigned_limits p ->
  ready files cap chunk csv_state xml (named_parser decode_charset regexp_split v) v tables ->
  startable files mtime (made_input files mtime cap chunk decode_charset regexp_split csv_state json_state xml open_file (vc_parsers v)) lower index_file visit fts_ok fts_match databases v tables
    new_charset open_file listen ->
  in_order visit -> searched_by fts_match F ->
  exists services E,
    boot files mtime cap chunk decode_charset regexp_split new_charset csv_state json_state lower index_file visit fts_ok fts_match databases xml alg open_file listen v = Done (services, E) /\
    serves v services /\ wildcards_ready lower index_file v E /\ databases_ready visit fts_ok fts_match F databases v E.
Proof. exact system_starts. Qed.
Print Assumptions C67_starts_partial.

(** The start succeeds as often as one likes on the same files: every time with what
    the start before left in the databases and in the files of the wildcard indexes.
    Missing: as above. *)
Theorem C68_restarts_partial : forall stat regexp_ok xpath_ok upper p v
  files mtime cap chunk decode_charset regexp_split new_charset csv_state json_state lower index_file visit fts_ok fts_match databases xml alg open_file listen F tables n,
  load stat regexp_ok xpath_ok upper p = Ok v -> unsigned_limits p ->
  ready files cap chunk csv_state xml (named_parser decode_charset regexp_split v) v tables ->
  startable files mtime (made_input files mtime cap chunk decode_charset regexp_split csv_state json_state xml open_file (vc_parsers v)) lower index_file visit fts_ok fts_match databases v tables
    new_charset open_file listen ->
  in_order visit -> searched_by fts_match F ->
  starts_often (fun kept dbs => boot_leaving files mtime cap chunk decode_charset regexp_split new_charset csv_state json_state lower kept visit fts_ok fts_match dbs xml alg open_file listen)
    (fun kept dbs v E => wildcards_ready lower kept v E /\ databases_ready visit fts_ok fts_match F dbs v E) v n index_file databases.
Proof. exact system_restarts. Qed.
Print Assumptions C68_restarts_partial.

(** The installation of SystemExample.v meets the hypotheses. *)
Example C67_example : ex_load ex_parsed = Ok ex_v /\ unsigned_limits ex_parsed /\ ready ex_files 7 (fun _ => 5%nat) (fun _ => new_reader) ex_xml ex_cell ex_v ex_tables /\
  startable ex_files (fun _ => Ok 0) ex_input_of ex_lower (fun _ => None) (map Ok) (fun _ _ _ => true) ex_matches (fun _ => empty_db) ex_v ex_tables
    (fun _ => Ok tt) (fun _ => Ok tt) (fun _ => Ok tt) /\
  in_order (map Ok) /\ searched_by ex_matches ex_fulltext.
Proof.
  split; [exact ex_loaded|]. split; [exact ex_limits|]. split; [exact ex_ready|]. split; [exact ex_startable|]. split; [intros l; reflexivity|exact ex_searched].
Qed.

(** What its first start leaves: the file of the wildcard index, and the tables of three
    indexes in one database; the second start changes nothing. *)
Example C68_example :
  match ex_boot_leaving (fun _ => None) (fun _ => empty_db) ex_v with
  | Done (_, _, (dbs, kept)) =>
    match ex_boot_leaving kept dbs ex_v with
    | Done (_, _, (dbs', kept')) =>
      (match kept (lit "cities.idx"), kept' (lit "cities.idx") with Some f, Some f' => (zlen f, bytes_eqb f f') | _, _ => (0, false) end,
       List.length (d_tables (dbs (lit "cities.db"))), List.length (d_tables (dbs' (lit "cities.db"))))
    | _ => ((0, false), O, O)
    end
  | _ => ((0, false), O, O)
  end = ((1504, true), 11%nat, 11%nat).
Proof. vm_compute. reflexivity. Qed.

(** The hypothesis that no two wildcard indexes use one file is needed: the
    configuration is accepted and the program starts, but the second index answers from
    the values of the first.  There is a city whose name contains the value of the first
    request, and none whose name contains that of the second. *)
Theorem C67_shared_file_refuted : exists p v services E s routes,
  ex_load p = Ok v /\ unsigned_limits p /\ ex_boot v = Done (services, E) /\ In (s, routes) services /\
  mget (vc_inputs v) (lit "cities") = Some (VCsv (lit "cities.csv") true true true (lit ",") []) /\ ex_files (lit "cities.csv") = cities_csv /\
  mget (vc_indexes v) (lit "name_part") = Some (VIWildcard (lit "cities.idx") (lit "cities") [lit "name"] false) /\
  map (fun rq => show (ex_serve routes E rq)) [get (lit "/cities") [(lit "part", lit "slo")]; get (lit "/cities") [(lit "part", lit "3")]] =
    [(200, lit "[]" ++ nl); (200, lit "[{""id"":""3"",""name"":""Oslo""}]" ++ nl)].
Proof.
  destruct (shown [get (lit "/cities") [(lit "part", lit "slo")]; get (lit "/cities") [(lit "part", lit "3")]]
    [(200, lit "[]" ++ nl); (200, lit "[{""id"":""3"",""name"":""Oslo""}]" ++ nl)]) as (services & E & s & routes & H1 & H2 & H3); [vm_compute; reflexivity|discriminate|].
  exists ex_shared, ex_shared_v, services, E, s, routes. split; [exact ex_shared_loaded|]. split; [exact ex_shared_limits|]. split; [exact H1|]. split; [exact H2|].
  split; [reflexivity|]. split; [reflexivity|]. split; [reflexivity|exact H3].
Qed.
Print Assumptions C67_shared_file_refuted.
