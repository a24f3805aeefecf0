(** C64: what the program answers, from the configuration and the contents of the
    files. *)
From Coq Require Import List ZArith Lia Bool String Permutation Sorted.
From Coq Require Import Strings.Byte Floats.SpecFloat.
From Verif Require Import XmlStream XmlInput.
From Verif Require Import Sql SqlIndex SpecSql SpecSqlFind.
From Verif Require Import FloatFormat Base Codec Value GoStrings Parser FloatText JsonDecode Records SpecRecords SpecText Prog Bufio CsvReader SpecCsv.
From Verif Require Import JsonReader SpecJsonFile Join Index SpecIndex Sort SpecOrder Output SpecOutput SpecJson Json Http SpecHttp Regex Route Config SpecConfig Start.
From Verif Require Import SpecWildcard OrderFacts System SpecSystem SystemFacts4 SystemFacts5 SystemExample.
Import ListNotations.
Open Scope Z_scope.

(** A request that matches a list endpoint is answered by the page of the rows of
    the table found by all the given values (equal to them; containing them for the
    parameters on a wildcard index; as SQLite compares them for the parameters on a
    SQLite index; matched by them as FTS5 matches them for the parameters on an FTS5
    index), in the order of the file, each completed by its relationships, in JSON.
    Missing: XML files with their records elsewhere than in one element ([provides]
    does not hold for them) and SQLite indexes with the collation which does not exist
    ([searchable] does not). *)
Theorem C64_list_partial : forall stat regexp_ok xpath_ok upper p v
  files mtime cap chunk decode_charset regexp_split new_charset csv_state json_state lower index_file visit fts_ok fts_match databases xml alg open_file listen
  services E F tables ord err_text write_ok s routes rq r c params t fs off lim,
  load stat regexp_ok xpath_ok upper p = Ok v -> unsigned_limits p ->
  boot files mtime cap chunk decode_charset regexp_split new_charset csv_state json_state lower index_file visit fts_ok fts_match databases xml alg open_file listen v = Done (services, E) ->
  ready files cap chunk csv_state xml (named_parser decode_charset regexp_split v) v tables ->
  order_ok ord -> (forall lt l, Permutation l (alg lt l)) -> sorts alg -> wildcards_ready lower index_file v E -> databases_ready visit fts_ok fts_match F databases v E ->
  In (s, routes) services -> first_match routes rq r -> rt_output r = OArray c -> get_params r rq = Ok params ->
  covered (kind_of lower F v) v tables (ac_input c) (ac_params c) (ac_relationships c) t ->
  asked v (named_parser decode_charset regexp_split v) F params None (ac_params c) fs -> page_request c params off lim -> lim < two63 ->
  exists sel rows b j, kept (meets (kind_of lower F v) (t_closed t) fs) (t_rows t) sel /\
    Forall2 (completed (kind_of lower F v) tables (ac_relationships c)) (page off lim sel) rows /\
    fst (serve E ord json_float err_text write_ok routes rq) = [Header 200 (lit "application/json; charset=UTF-8"); Body b] /\
    json_text b j /\ denotes json_float j (VList (map VMap rows)).
Proof. exact system_list. Qed.
Print Assumptions C64_list_partial.

(** A request that matches an endpoint for one object is answered by the first row
    of the table found by all the values, completed by its relationships, or by 404 when
    there is none.  Missing: as above. *)
Theorem C64_object_partial : forall stat regexp_ok xpath_ok upper p v
  files mtime cap chunk decode_charset regexp_split new_charset csv_state json_state lower index_file visit fts_ok fts_match databases xml alg open_file listen
  services E F tables ord err_text write_ok s routes rq r c params t fs,
  load stat regexp_ok xpath_ok upper p = Ok v -> unsigned_limits p ->
  boot files mtime cap chunk decode_charset regexp_split new_charset csv_state json_state lower index_file visit fts_ok fts_match databases xml alg open_file listen v = Done (services, E) ->
  ready files cap chunk csv_state xml (named_parser decode_charset regexp_split v) v tables ->
  order_ok ord -> (forall lt l, Permutation l (alg lt l)) -> sorts alg -> wildcards_ready lower index_file v E -> databases_ready visit fts_ok fts_match F databases v E ->
  In (s, routes) services -> first_match routes rq r -> rt_output r = OObject c -> get_params r rq = Ok params ->
  covered (kind_of lower F v) v tables (oc_input c) (oc_params c) (oc_relationships c) t ->
  asked v (named_parser decode_charset regexp_split v) F params (Some []) (oc_params c) fs ->
  exists sel b j, kept (meets (kind_of lower F v) (t_closed t) fs) (t_rows t) sel /\ json_text b j /\
    match sel with
    | [] => fst (serve E ord json_float err_text write_ok routes rq) = [Header 404 (lit "application/json; charset=UTF-8"); Body b]
    | a :: _ => exists d, completed (kind_of lower F v) tables (oc_relationships c) a d /\
        fst (serve E ord json_float err_text write_ok routes rq) = [Header 200 (lit "application/json; charset=UTF-8"); Body b] /\
        denotes json_float j (VMap d)
    end.
Proof. exact system_object. Qed.
Print Assumptions C64_object_partial.

(** A request that no route takes is answered by 404 and an error in JSON. *)
Theorem C64_no_route : forall v
  files mtime cap chunk decode_charset regexp_split new_charset csv_state json_state lower index_file visit fts_ok fts_match databases xml alg open_file listen
  services E ord err_text write_ok s routes rq,
  boot files mtime cap chunk decode_charset regexp_split new_charset csv_state json_state lower index_file visit fts_ok fts_match databases xml alg open_file listen v = Done (services, E) ->
  In (s, routes) services -> (forall r, ~ first_match routes rq r) ->
  error_response err_text 404 (fst (serve E ord json_float err_text write_ok routes rq)).
Proof. exact system_no_route. Qed.
Print Assumptions C64_no_route.

(** A request with a number of rows or a row to start at which is not a number in
    range, or with a value that the parser of its parameter refuses, is answered by 500
    and an error in JSON, whatever the files hold and the types of inputs and indexes. *)
Theorem C64_refused : forall stat regexp_ok xpath_ok upper p v
  files mtime cap chunk decode_charset regexp_split new_charset csv_state json_state lower index_file visit fts_ok fts_match databases xml alg open_file listen
  services E ord err_text write_ok s routes rq r params,
  load stat regexp_ok xpath_ok upper p = Ok v ->
  boot files mtime cap chunk decode_charset regexp_split new_charset csv_state json_state lower index_file visit fts_ok fts_match databases xml alg open_file listen v = Done (services, E) ->
  order_ok ord -> (forall c s, told (decode_charset c s)) ->
  In (s, routes) services -> first_match routes rq r -> get_params r rq = Ok params ->
  refused (named_parser decode_charset regexp_split v) params (rt_output r) ->
  error_response err_text 500 (fst (serve E ord json_float err_text write_ok routes rq)).
Proof. exact system_refused. Qed.
Print Assumptions C64_refused.

(** The example of SystemExample.v: the hypotheses hold, and the responses. *)
Example C64_list_example : exists services E s routes r,
  ex_load ex_parsed = Ok ex_v /\ unsigned_limits ex_parsed /\ ex_boot ex_v = Done (services, E) /\
  ready ex_files 7 (fun _ => 5%nat) (fun _ => new_reader) ex_xml ex_cell ex_v ex_tables /\
  order_ok ex_ord /\ sorts (@insertion_sort rec) /\ wildcards_ready ex_lower (fun _ => None) ex_v E /\
  databases_ready (map Ok) (fun _ _ _ => true) ex_matches ex_fulltext (fun _ => empty_db) ex_v E /\
  In (s, routes) services /\ first_match routes (get (lit "/cities") [(lit "part", lit "O"); (lit "same", lit "oslo"); (lit "word", lit "OSLO"); (lit "from", lit "0")]) r /\ rt_output r = OArray ex_list /\
  get_params r (get (lit "/cities") [(lit "part", lit "O"); (lit "same", lit "oslo"); (lit "word", lit "OSLO"); (lit "from", lit "0")]) = Ok [(lit "part", lit "O"); (lit "same", lit "oslo"); (lit "word", lit "OSLO"); (lit "from", lit "0")] /\
  covered (kind_of ex_lower ex_fulltext ex_v) ex_v ex_tables (ac_input ex_list) (ac_params ex_list) (ac_relationships ex_list) ex_cities /\
  asked ex_v ex_cell ex_fulltext [(lit "part", lit "O"); (lit "same", lit "oslo"); (lit "word", lit "OSLO"); (lit "from", lit "0")] None (ac_params ex_list) [(lit "by_part", lit "name", VString (lit "O")); (lit "by_name", lit "name", VString (lit "oslo")); (lit "by_word", lit "match", VString (lit "OSLO"))] /\
  page_request ex_list [(lit "part", lit "O"); (lit "same", lit "oslo"); (lit "word", lit "OSLO"); (lit "from", lit "0")] 0 2.
Proof.
  destruct (ex_route (get (lit "/cities") [(lit "part", lit "O"); (lit "same", lit "oslo"); (lit "word", lit "OSLO"); (lit "from", lit "0")]) (OArray ex_list) [(lit "part", lit "O"); (lit "same", lit "oslo"); (lit "word", lit "OSLO"); (lit "from", lit "0")]) as (services & E & s & routes & r & H1 & H2 & H3 & H4 & H5); [vm_compute; reflexivity|].
  exists services, E, s, routes, r. split; [exact ex_loaded|]. split; [exact ex_limits|]. split; [exact H1|]. split; [exact ex_ready|].
  split; [exact ex_order|]. split; [exact insertion_sort_sorts|]. split; [apply (ex_wildcards services E H1)|]. split; [apply ex_databases|]. split; [exact H2|]. split; [exact H3|]. split; [exact H4|]. split; [exact H5|].
  split; [exact ex_covered_list|]. split.
  - apply asked_skip; [reflexivity|reflexivity|]. apply asked_take with (s := lit "O"); [left; reflexivity|vm_compute; reflexivity|eexists; reflexivity|].
    apply asked_take with (s := lit "oslo"); [left; reflexivity|vm_compute; reflexivity|exact I|]. apply asked_skip; [reflexivity|reflexivity|].
    apply asked_take with (s := lit "OSLO"); [left; reflexivity|vm_compute; reflexivity|exists (SText (lit "OSLO")); split; [constructor|vm_compute; reflexivity]|constructor].
  - split; [reflexivity|]. split; [|split; [split; reflexivity || discriminate|discriminate]]. apply sd_none. apply (dec_one "0"%byte). split; discriminate.
Qed.

Example C64_object_example : exists services E s routes r,
  ex_load ex_parsed = Ok ex_v /\ unsigned_limits ex_parsed /\ ex_boot ex_v = Done (services, E) /\
  In (s, routes) services /\ first_match routes (get (lit "/cities/3") []) r /\ rt_output r = OObject ex_city /\
  get_params r (get (lit "/cities/3") []) = Ok [(lit "id", lit "3")] /\
  covered (kind_of ex_lower ex_fulltext ex_v) ex_v ex_tables (oc_input ex_city) (oc_params ex_city) (oc_relationships ex_city) ex_cities /\
  asked ex_v ex_cell ex_fulltext [(lit "id", lit "3")] (Some []) (oc_params ex_city) [(lit "by_id", lit "id", VString (lit "3"))].
Proof.
  destruct (ex_route (get (lit "/cities/3") []) (OObject ex_city) [(lit "id", lit "3")]) as (services & E & s & routes & r & H1 & H2 & H3 & H4 & H5); [vm_compute; reflexivity|].
  exists services, E, s, routes, r. split; [exact ex_loaded|]. split; [exact ex_limits|]. split; [exact H1|].
  split; [exact H2|]. split; [exact H3|]. split; [exact H4|]. split; [exact H5|].
  split; [exact ex_covered_city|]. apply asked_take with (s := lit "3"); [left; reflexivity|vm_compute; reflexivity|exact I|constructor].
Qed.

Example C64_no_route_example : exists services E s routes,
  ex_boot ex_v = Done (services, E) /\ In (s, routes) services /\ forall r, ~ first_match routes (get (lit "/towns") []) r.
Proof. apply ex_no_route. vm_compute. reflexivity. Qed.

Example C64_refused_example : exists services E s routes r,
  ex_load ex_parsed = Ok ex_v /\ ex_boot ex_v = Done (services, E) /\ In (s, routes) services /\
  first_match routes (get (lit "/cities") [(lit "same", lit "oslo"); (lit "nr", lit "three")]) r /\
  get_params r (get (lit "/cities") [(lit "same", lit "oslo"); (lit "nr", lit "three")]) = Ok [(lit "same", lit "oslo"); (lit "nr", lit "three")] /\
  refused ex_cell [(lit "same", lit "oslo"); (lit "nr", lit "three")] (rt_output r).
Proof.
  destruct (ex_route (get (lit "/cities") [(lit "same", lit "oslo"); (lit "nr", lit "three")]) (OArray ex_list) [(lit "same", lit "oslo"); (lit "nr", lit "three")]) as (services & E & s & routes & r & H1 & H2 & H3 & H4 & H5); [vm_compute; reflexivity|].
  exists services, E, s, routes, r. split; [exact ex_loaded|]. split; [exact H1|]. split; [exact H2|]. split; [exact H3|]. split; [exact H5|].
  rewrite H4. eapply refused_list; [right; right; right; left; reflexivity|reflexivity|vm_compute; reflexivity].
Qed.

Example C64_responses : map show (run ex_parsed ex_requests) =
  [(200, lit "[{""first"":{""age"":7,""city"":""1"",""name"":""Bob""},""id"":""1"",""mayor"":{""city"":""1"",""names"":[""Zoe"",""Z.""],""wards"":1},""name"":""Rome"",""people"":[{""age"":7,""city"":""1"",""name"":""Bob""}]},{""first"":{""age"":15,""city"":""2"",""name"":""Ann""},""id"":""2"",""mayor"":null,""name"":""New, York"",""people"":[{""age"":0.1,""city"":""2"",""name"":""Cid""},{""age"":15,""city"":""2"",""name"":""Ann""}]}]" ++ nl);
   (200, lit "[{""first"":{""age"":15,""city"":""2"",""name"":""Ann""},""id"":""2"",""mayor"":null,""name"":""New, York"",""people"":[{""age"":0.1,""city"":""2"",""name"":""Cid""},{""age"":15,""city"":""2"",""name"":""Ann""}]}]" ++ nl);
   (200, lit "[{""first"":{""age"":15,""city"":""2"",""name"":""Ann""},""id"":""2"",""mayor"":null,""name"":""New, York"",""people"":[{""age"":0.1,""city"":""2"",""name"":""Cid""},{""age"":15,""city"":""2"",""name"":""Ann""}]},{""first"":null,""id"":""3"",""mayor"":{""city"":""3"",""names"":[],""wards"":0},""name"":""Oslo"",""people"":[]}]" ++ nl);
   (200, lit "[]" ++ nl);
   (200, lit "[{""first"":null,""id"":""3"",""mayor"":{""city"":""3"",""names"":[],""wards"":0},""name"":""Oslo"",""people"":[]}]" ++ nl);
   (200, lit "[{""first"":{""age"":15,""city"":""2"",""name"":""Ann""},""id"":""2"",""mayor"":null,""name"":""New, York"",""people"":[{""age"":0.1,""city"":""2"",""name"":""Cid""},{""age"":15,""city"":""2"",""name"":""Ann""}]}]" ++ nl);
   (500, lit "{""error"":""""}");
   (200, lit "{""id"":""3"",""name"":""Oslo""}" ++ nl);
   (404, lit "{""error"":""""}"); (500, lit "{""error"":""""}"); (500, lit "{""error"":""""}"); (404, lit "{""error"":""""}")].
Proof. vm_compute. reflexivity. Qed.
