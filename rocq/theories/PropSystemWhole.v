(** C64, C67 and C69 together: from the configuration and the files to the answers. *)
From Coq Require Import List ZArith Lia Bool String Permutation Sorted.
From Coq Require Import Strings.Byte Floats.SpecFloat.
From Verif Require Import Start.
From Verif Require Import Sql SqlIndex SpecSql SpecSqlFind.
From Verif Require Import XmlStream XmlInput.
From Verif Require Import Stream Wildcard.
From Verif Require Import FloatFormat Base Codec Value GoStrings Parser FloatText JsonDecode Records SpecRecords SpecText Prog Bufio CsvReader SpecCsv.
From Verif Require Import JsonReader SpecJsonFile Join Index SpecIndex Sort SpecOrder Output SpecOutput SpecJson Json Http SpecHttp Regex Route Config SpecConfig.
From Verif Require Import SpecWildcard OrderFacts GoSort GoSortFacts System SpecSystem SpecStart SystemFacts4 SystemStartFacts SystemExample SystemStartExample.
Import ListNotations.
Open Scope Z_scope.

(** An accepted configuration whose files hold tables: the program starts, with the sort.Sort of Go, and from then on it
    answers every request that matches a list endpoint, in any order of the maps of Go, by the page of the rows that are
    asked for, each completed by its relationships.  Missing: as in C64_list_partial and C67_starts_partial. *)
Theorem C64_whole_list_partial : forall stat regexp_ok xpath_ok upper p v
  files mtime cap chunk decode_charset regexp_split new_charset csv_state json_state lower index_file visit fts_ok fts_match databases xml open_file listen F tables,
  load stat regexp_ok xpath_ok upper p = Ok v -> unsigned_limits p ->
  ready files cap chunk csv_state xml (named_parser decode_charset regexp_split v) v tables ->
  startable files mtime (made_input files mtime cap chunk decode_charset regexp_split csv_state json_state xml open_file (vc_parsers v)) lower index_file visit fts_ok fts_match databases v tables
    new_charset open_file listen ->
  in_order visit -> searched_by fts_match F ->
  exists services E,
    boot files mtime cap chunk decode_charset regexp_split new_charset csv_state json_state lower index_file visit fts_ok fts_match databases xml go_sort open_file listen v = Done (services, E) /\
    serves v services /\
    forall ord err_text write_ok s routes rq r c params t fs off lim,
    order_ok ord -> In (s, routes) services -> first_match routes rq r -> rt_output r = OArray c -> get_params r rq = Ok params ->
    covered (kind_of lower F v) v tables (ac_input c) (ac_params c) (ac_relationships c) t ->
    asked v (named_parser decode_charset regexp_split v) F params None (ac_params c) fs -> page_request c params off lim -> lim < two63 ->
    exists sel rows b j, kept (meets (kind_of lower F v) (t_closed t) fs) (t_rows t) sel /\
      Forall2 (completed (kind_of lower F v) tables (ac_relationships c)) (page off lim sel) rows /\
      fst (serve E ord json_float err_text write_ok routes rq) = [Header 200 (lit "application/json; charset=UTF-8"); Body b] /\
      json_text b j /\ denotes json_float j (VList (map VMap rows)).
Proof.
  intros stat regexp_ok xpath_ok upper p v files mtime cap chunk decode_charset regexp_split new_charset csv_state json_state lower index_file visit fts_ok fts_match databases xml open_file listen F tables Hl Hu Hr Hs Hv Hf.
  destruct (system_starts stat regexp_ok xpath_ok upper p v files mtime cap chunk decode_charset regexp_split new_charset csv_state json_state lower index_file visit fts_ok fts_match databases xml (@go_sort rec) open_file listen F tables Hl Hu Hr Hs Hv Hf)
    as (services & E & Hb & Hsv & Hw & Hd).
  exists services, E. split; [exact Hb|]. split; [exact Hsv|]. intros ord err_text write_ok s routes rq r c params t fs off lim Ho.
  exact (system_list stat regexp_ok xpath_ok upper p v files mtime cap chunk decode_charset regexp_split new_charset csv_state json_state lower index_file visit fts_ok fts_match databases xml (@go_sort rec) open_file listen services E F tables
    ord err_text write_ok s routes rq r c params t fs off lim Hl Hu Hb Hr Ho (fun lt l => proj2 (go_sort_returns lt l)) go_sort_sorts Hw Hd).
Qed.
Print Assumptions C64_whole_list_partial.

(** So it does every request that matches an endpoint for one object. *)
Theorem C64_whole_object_partial : forall stat regexp_ok xpath_ok upper p v
  files mtime cap chunk decode_charset regexp_split new_charset csv_state json_state lower index_file visit fts_ok fts_match databases xml open_file listen F tables,
  load stat regexp_ok xpath_ok upper p = Ok v -> unsigned_limits p ->
  ready files cap chunk csv_state xml (named_parser decode_charset regexp_split v) v tables ->
  startable files mtime (made_input files mtime cap chunk decode_charset regexp_split csv_state json_state xml open_file (vc_parsers v)) lower index_file visit fts_ok fts_match databases v tables
    new_charset open_file listen ->
  in_order visit -> searched_by fts_match F ->
  exists services E,
    boot files mtime cap chunk decode_charset regexp_split new_charset csv_state json_state lower index_file visit fts_ok fts_match databases xml go_sort open_file listen v = Done (services, E) /\
    serves v services /\
    forall ord err_text write_ok s routes rq r c params t fs,
    order_ok ord -> In (s, routes) services -> first_match routes rq r -> rt_output r = OObject c -> get_params r rq = Ok params ->
    covered (kind_of lower F v) v tables (oc_input c) (oc_params c) (oc_relationships c) t ->
    asked v (named_parser decode_charset regexp_split v) F params (Some []) (oc_params c) fs ->
    exists sel b j, kept (meets (kind_of lower F v) (t_closed t) fs) (t_rows t) sel /\ json_text b j /\
      match sel with
      | [] => fst (serve E ord json_float err_text write_ok routes rq) = [Header 404 (lit "application/json; charset=UTF-8"); Body b]
      | a :: _ => exists d, completed (kind_of lower F v) tables (oc_relationships c) a d /\
          fst (serve E ord json_float err_text write_ok routes rq) = [Header 200 (lit "application/json; charset=UTF-8"); Body b] /\
          denotes json_float j (VMap d)
      end.
Proof.
  intros stat regexp_ok xpath_ok upper p v files mtime cap chunk decode_charset regexp_split new_charset csv_state json_state lower index_file visit fts_ok fts_match databases xml open_file listen F tables Hl Hu Hr Hs Hv Hf.
  destruct (system_starts stat regexp_ok xpath_ok upper p v files mtime cap chunk decode_charset regexp_split new_charset csv_state json_state lower index_file visit fts_ok fts_match databases xml (@go_sort rec) open_file listen F tables Hl Hu Hr Hs Hv Hf)
    as (services & E & Hb & Hsv & Hw & Hd).
  exists services, E. split; [exact Hb|]. split; [exact Hsv|]. intros ord err_text write_ok s routes rq r c params t fs Ho.
  exact (system_object stat regexp_ok xpath_ok upper p v files mtime cap chunk decode_charset regexp_split new_charset csv_state json_state lower index_file visit fts_ok fts_match databases xml (@go_sort rec) open_file listen services E F tables
    ord err_text write_ok s routes rq r c params t fs Hl Hu Hb Hr Ho (fun lt l => proj2 (go_sort_returns lt l)) go_sort_sorts Hw Hd).
Qed.
Print Assumptions C64_whole_object_partial.

(** The installation of SystemExample.v. *)
Example C64_whole_example : ex_load ex_parsed = Ok ex_v /\ unsigned_limits ex_parsed /\ ready ex_files 7 (fun _ => 5%nat) (fun _ => new_reader) ex_xml ex_cell ex_v ex_tables /\
  startable ex_files (fun _ => Ok 0) ex_input_of ex_lower (fun _ => None) (map Ok) (fun _ _ _ => true) ex_matches (fun _ => empty_db) ex_v ex_tables
    (fun _ => Ok tt) (fun _ => Ok tt) (fun _ => Ok tt) /\
  in_order (map Ok) /\ searched_by ex_matches ex_fulltext /\
  covered (kind_of ex_lower ex_fulltext ex_v) ex_v ex_tables (ac_input ex_list) (ac_params ex_list) (ac_relationships ex_list) ex_cities.
Proof.
  split; [exact ex_loaded|]. split; [exact ex_limits|]. split; [exact ex_ready|]. split; [exact ex_startable|]. split; [intros l; reflexivity|].
  split; [exact ex_searched|exact ex_covered_list].
Qed.
