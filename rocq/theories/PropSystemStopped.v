(** C68: starts that are stopped. *)
From Coq Require Import List ZArith Lia Bool String Permutation Sorted.
From Coq Require Import Strings.Byte Floats.SpecFloat.
From Verif Require Import Start.
From Verif Require Import Sql SqlIndex SpecSql SpecSqlFind.
From Verif Require Import XmlStream XmlInput.
From Verif Require Import Stream Wildcard.
From Verif Require Import FloatFormat Base BaseFacts Codec Value GoStrings Parser FloatText JsonDecode Records SpecRecords SpecText Prog Bufio CsvReader SpecCsv.
From Verif Require Import JsonReader SpecJsonFile Join Index SpecIndex Sort SpecOrder Output SpecOutput SpecJson Json Http SpecHttp Regex Route Config SpecConfig.
From Verif Require Import SpecWildcard OrderFacts GoSort GoSortFacts System SpecSystem SpecStart SpecStopped SystemFacts4 SystemStartFacts SystemStoppedFacts SystemExample SystemStartExample.
Import ListNotations.
Open Scope Z_scope.

(** However often the program was killed while it filled its databases and the files of
    its wildcard indexes, and wherever it was: when a later start on the same files
    succeeds, its answers are those of the tables, as if the program had never been
    stopped.  Missing: a wildcard file that is stopped after it was marked as complete
    and before the last flush (C04_complete_but_unflushed_refuted); and as in
    C64_list_partial and C67_starts_partial. *)
Theorem C68_stopped_partial : forall stat regexp_ok xpath_ok upper p v
  files mtime cap chunk decode_charset regexp_split new_charset csv_state json_state lower index_file index_file' visit fts_ok fts_match databases databases' xml open_file listen F tables services0 E0 services E,
  load stat regexp_ok xpath_ok upper p = Ok v -> unsigned_limits p ->
  ready files cap chunk csv_state xml (named_parser decode_charset regexp_split v) v tables ->
  startable files mtime (made_input files mtime cap chunk decode_charset regexp_split csv_state json_state xml open_file (vc_parsers v)) lower index_file visit fts_ok fts_match databases v tables
    new_charset open_file listen ->
  in_order visit -> searched_by fts_match F ->
  boot files mtime cap chunk decode_charset regexp_split new_charset csv_state json_state lower index_file visit fts_ok fts_match databases xml go_sort open_file listen v = Done (services0, E0) ->
  interrupted visit fts_ok fts_match v (e_inputs E0) databases databases' -> files_left lower v (e_inputs E0) index_file index_file' ->
  boot files mtime cap chunk decode_charset regexp_split new_charset csv_state json_state lower index_file' visit fts_ok fts_match databases' xml go_sort open_file listen v = Done (services, E) ->
  forall ord err_text write_ok s routes rq r c params t fs off lim,
    order_ok ord -> In (s, routes) services -> first_match routes rq r -> rt_output r = OArray c -> get_params r rq = Ok params ->
    covered (kind_of lower F v) v tables (ac_input c) (ac_params c) (ac_relationships c) t ->
    asked v (named_parser decode_charset regexp_split v) F params None (ac_params c) fs -> page_request c params off lim -> lim < two63 ->
    exists sel rows b j, kept (meets (kind_of lower F v) (t_closed t) fs) (t_rows t) sel /\
      Forall2 (completed (kind_of lower F v) tables (ac_relationships c)) (page off lim sel) rows /\
      fst (serve E ord json_float err_text write_ok routes rq) = [Header 200 (lit "application/json; charset=UTF-8"); Body b] /\
      json_text b j /\ denotes json_float j (VList (map VMap rows)).
Proof.
  intros stat regexp_ok xpath_ok upper p v files mtime cap chunk decode_charset regexp_split new_charset csv_state json_state lower index_file index_file' visit fts_ok fts_match databases databases' xml open_file listen F tables services0 E0 services E Hl Hu Hr Hs Hv Hf B0 Hi Hw0 B.
  destruct (system_stopped stat regexp_ok xpath_ok upper p v files mtime cap chunk decode_charset regexp_split new_charset csv_state json_state lower index_file index_file' visit fts_ok fts_match databases databases' xml (@go_sort rec) open_file listen F tables services0 E0 services E Hl Hu Hr Hs Hv Hf B0 Hi Hw0 B)
    as (Hw & Hd).
  intros ord err_text write_ok s routes rq r c params t fs off lim Ho.
  exact (system_list stat regexp_ok xpath_ok upper p v files mtime cap chunk decode_charset regexp_split new_charset csv_state json_state lower index_file' visit fts_ok fts_match databases' xml (@go_sort rec) open_file listen services E F tables
    ord err_text write_ok s routes rq r c params t fs off lim Hl Hu B Hr Ho (fun lt l => proj2 (go_sort_returns lt l)) go_sort_sorts Hw Hd).
Qed.
Print Assumptions C68_stopped_partial.

(** The installation of SystemExample.v, stopped in the start of its first index in a
    database or, when that has finished, of the second. *)
Definition ex_go_boot_from (index_file : bytes -> option bytes) (databases : bytes -> db) :=
  boot ex_files (fun _ => Ok 0) 7 (fun _ => 5%nat) (fun _ s => Ok s) (fun _ s => [s]) (fun _ => Ok tt)
    (fun _ => new_reader) (fun _ => mkJfile 0 O) ex_lower index_file (map Ok) (fun _ _ _ => true) ex_matches databases
    ex_xml go_sort (fun _ => Ok tt) (fun _ => Ok tt) ex_v.
Definition ex_go_boot := ex_go_boot_from (fun _ => None).
Definition inputs_of (o : outcome (list (bytes * list route) * env)) : list (bytes * input) := match o with Done r => e_inputs (snd r) | _ => [] end.
Definition ex_inputs : list (bytes * input) := inputs_of (ex_go_boot (fun _ => empty_db)).
Definition states_of (k : index_kind) (i : option input) (d : db) : list db :=
  match i with Some inp => sstates (map Ok) (fun _ _ _ => true) ex_matches (SpecSql.start k inp) d | None => [] end.
Definition ex_states (k : index_kind) (input : bytes) (d : db) : list db := states_of k (mget ex_inputs input) d.
Definition by_name_states : list db := ex_states (ISqlite (mkSconfig (lit "by_name") (lit "cities") [(lit "name", lit "NOCASE"); (lit "id", lit "BINARY")])) (lit "cities") empty_db.
Definition by_city_states : list db := ex_states (ISqlite (mkSconfig (lit "by_city") (lit "people") [(lit "city", lit "BINARY"); (lit "age", lit "BINARY")])) (lit "people") (last by_name_states empty_db).
Definition at_db (d : db) : bytes -> db := fun x => if bytes_eqb x (lit "cities.db") then d else empty_db.
Definition went (d : db) : option (list (Z * bytes)) :=
  match ex_go_boot (at_db d) with
  | Done ((_, routes) :: _, E) => Some (map (fun rq => show (ex_serve routes E rq)) [get (lit "/cities") [(lit "name", lit "OSLO")]; get (lit "/cities/2") []])
  | _ => None
  end.

Lemma ex_in_by_name d : In d by_name_states -> interrupted (map Ok) (fun _ _ _ => true) ex_matches ex_v ex_inputs (fun _ => empty_db) (at_db d).
Proof.
  unfold by_name_states, ex_states, states_of. destruct (mget ex_inputs (lit "cities")) as [inp|] eqn:M; [|intros []]. intros H.
  apply (in_sqlite (map Ok) (fun _ _ _ => true) ex_matches ex_v ex_inputs (fun _ => empty_db) (fun _ => empty_db) (lit "by_name") (lit "cities.db") (lit "cities") [(lit "name", lit "NOCASE"); (lit "id", lit "BINARY")] inp d);
    [constructor|reflexivity|exact M|exact H].
Qed.

(** It starts again when it was stopped before there was a row in the table of the
    metadata, or after the row says that the index is complete; and then it answers. *)
Definition ex_stops : list db := [nth 2 by_name_states empty_db; nth 9 by_name_states empty_db; last by_name_states empty_db; nth 9 by_city_states empty_db].
Example C68_stopped_example :
  (exists services E, ex_go_boot (fun _ => empty_db) = Done (services, E) /\ e_inputs E = ex_inputs) /\
  Forall (fun d => interrupted (map Ok) (fun _ _ _ => true) ex_matches ex_v ex_inputs (fun _ => empty_db) (at_db d)) by_name_states /\
  map (fun d => match went d with Some _ => true | None => false end) ex_stops = [true; false; true; false] /\
  Forall (fun d => went d = went empty_db) [nth 2 by_name_states empty_db; last by_name_states empty_db].
Proof.
  split; [|split; [apply Forall_forall; exact ex_in_by_name|split; [vm_compute; reflexivity|repeat (constructor; [vm_compute; reflexivity|]); constructor]]].
  assert (B : match ex_go_boot (fun _ => empty_db) with Done _ => true | _ => false end = true) by (vm_compute; reflexivity).
  unfold ex_inputs, inputs_of. destruct (ex_go_boot (fun _ => empty_db)) as [[services E]| | |]; [exists services, E; split; reflexivity|discriminate B..].
Qed.

(** The file of its wildcard index, of a finished start and of one that was stopped at once. *)
Definition ex_wildcard : wconfig := mkWconfig (lit "cities") [lit "name"] true.
Definition built_file (i : option input) : bytes := match i with Some inp => st_file (snd (create_index ex_lower ex_wildcard inp created_stream)) | None => [] end.
Definition ex_built_file : bytes := built_file (mget ex_inputs (lit "cities")).
Lemma ex_wildcards n path input props ic : mget (vc_indexes ex_v) n = Some (VIWildcard path input props ic) -> mkWconfig input props ic = ex_wildcard.
Proof. intros M. apply mget_In in M. vm_compute in M. repeat (destruct M as [M|M]; [first [discriminate M|inversion M; subst; reflexivity]|]). destruct M. Qed.
Lemma ex_finished inp n path input props ic : mget (vc_indexes ex_v) n = Some (VIWildcard path input props ic) ->
  exists r s, create_index ex_lower (mkWconfig input props ic) inp created_stream = (r, s) /\ Some (built_file (Some inp)) = Some (st_file s).
Proof.
  intros M. rewrite (ex_wildcards _ _ _ _ _ M). unfold built_file. destruct (create_index ex_lower ex_wildcard inp created_stream) as [r s]. exists r, s. split; reflexivity.
Qed.
Lemma ex_unfinished inp n path input props ic : mget (vc_indexes ex_v) n = Some (VIWildcard path input props ic) ->
  exists r s file, create_body ex_lower (mkWconfig input props ic) inp created_stream = (r, s) /\ crash_file file_write_at (st_wlog s) file /\ Some [] = Some file.
Proof.
  intros _. destruct (create_body ex_lower (mkWconfig input props ic) inp created_stream) as [r s]. exists r, s, []. split; [reflexivity|]. split; [|reflexivity].
  exists [], (st_wlog s), []. split; [reflexivity|]. split; [left; reflexivity|reflexivity].
Qed.
Lemma ex_cities n path input props ic : mget (vc_indexes ex_v) n = Some (VIWildcard path input props ic) -> exists inp, mget ex_inputs input = Some inp /\ ex_built_file = built_file (Some inp).
Proof.
  intros M. apply ex_wildcards in M. injection M as -> _ _. unfold ex_built_file.
  assert (M0 : match mget ex_inputs (lit "cities") with Some _ => true | None => false end = true) by (vm_compute; reflexivity).
  destruct (mget ex_inputs (lit "cities")) as [inp|]; [|discriminate M0]. exists inp. split; reflexivity.
Qed.
Example C68_stopped_files_example :
  files_left ex_lower ex_v ex_inputs (fun _ => None) (fun _ => Some ex_built_file) /\
  files_left ex_lower ex_v ex_inputs (fun _ => None) (fun _ => Some []).
Proof.
  split; intros n path input props ic M cfg; right; destruct (ex_cities _ _ _ _ _ M) as (inp & Mi & Eb); exists inp; (split; [exact Mi|]).
  - left. rewrite Eb. exact (ex_finished inp _ _ _ _ _ M).
  - right. exact (ex_unfinished inp _ _ _ _ _ M).
Qed.
