(** C69: a program that has started answers every request with one response, whatever
    is in its files. *)
From Coq Require Import List ZArith Lia Bool String Permutation.
From Coq Require Import Strings.Byte.
From Verif Require Import Sql SqlIndex SpecSql SpecSqlFind.
From Verif Require Import XmlStream XmlInput.
From Verif Require Import FloatFormat Base Codec Value GoStrings Parser Records SpecRecords SpecText Prog Bufio CsvReader JsonReader.
From Verif Require Import Join Index SpecIndex Sort Output SpecOutput SpecJson Json Http SpecHttp Regex Route Config SpecConfig Start.
From Verif Require Import Stream Wildcard SpecWildcard System SpecSystem SpecRobust HttpFacts SystemSafeFacts SystemExample SystemSafeExample.
Import ListNotations.
Open Scope Z_scope.

(** C69 (missing: configurations that are not [robust], some of which stop the program,
    see C69_negative_refuted and the refuted theorems of C22, C28, C31 and C59).  Any
    program which loads and starts answers any request, in any order of the maps of Go, with one
    header, whatever the files of the inputs contain.  The status is 200, for what the
    output computes, or 404 or 500 with an error written in JSON. *)
Theorem C69_one_response_partial : forall stat regexp_ok xpath_ok upper p v
  files mtime cap chunk decode_charset regexp_split new_charset csv_state json_state lower index_file visit fts_ok fts_match databases xml alg open_file listen
  services E ord err_text write_ok s routes rq,
  load stat regexp_ok xpath_ok upper p = Ok v ->
  boot files mtime cap chunk decode_charset regexp_split new_charset csv_state json_state lower index_file visit fts_ok fts_match databases xml alg open_file listen v = Done (services, E) ->
  robust files cap chunk decode_charset csv_state lower index_file visit fts_match v E ->
  order_ok ord -> (forall lt l, Permutation l (alg lt l)) -> In (s, routes) services ->
  exists st rest, fst (serve E ord json_float err_text write_ok routes rq) = Header st json_type :: rest /\
    ((st = 200 /\ exists r params x, first_match routes rq r /\ get_params r rq = Ok params /\ computes E ord (rt_output r) params x /\
        (rest = [] \/ exists b, rest = [Body b])) \/
     ((st = 404 \/ st = 500) /\ exists b text, rest = [Body b] /\ json_text b (JObj [(runes (lit "error"), JStr text)]))).
Proof. exact system_one_response. Qed.
Print Assumptions C69_one_response_partial.

(** ... and a response with the status 200 has one body, the JSON of what the output
    computes, when no float parser reads an infinite or a not-a-number (C23_nan_refuted). *)
Theorem C69_complete_partial : forall stat regexp_ok xpath_ok upper p v
  files mtime cap chunk decode_charset regexp_split new_charset csv_state json_state lower index_file visit fts_ok fts_match databases xml alg open_file listen
  services E ord err_text write_ok s routes rq ct rest,
  load stat regexp_ok xpath_ok upper p = Ok v ->
  boot files mtime cap chunk decode_charset regexp_split new_charset csv_state json_state lower index_file visit fts_ok fts_match databases xml alg open_file listen v = Done (services, E) ->
  robust files cap chunk decode_charset csv_state lower index_file visit fts_match v E -> numeric v E ->
  order_ok ord -> (forall lt l, Permutation l (alg lt l)) -> In (s, routes) services ->
  fst (serve E ord json_float err_text write_ok routes rq) = Header 200 ct :: rest ->
  exists r params x b j, first_match routes rq r /\ get_params r rq = Ok params /\ computes E ord (rt_output r) params x /\
    rest = [Body b] /\ json_text b j /\ denotes json_float j x.
Proof. exact system_complete. Qed.
Print Assumptions C69_complete_partial.

(** The records of the torn files: those before the tear are answered, and the requests
    that come to it get an error. *)
Example C69_example : exists services E s routes,
  ex_load torn_parsed = Ok torn_v /\ torn_boot torn_v = Done (services, E) /\
  robust torn_files 7 (fun _ => 5%nat) (fun _ s => Ok s) (fun _ => new_reader) ex_lower (fun _ => None) (map Ok) ex_matches torn_v E /\ numeric torn_v E /\
  order_ok ex_ord /\ (forall lt l, Permutation l (insertion_sort (A := rec) lt l)) /\ In (s, routes) services /\
  map (fun rq => show (ex_serve routes E rq)) torn_requests =
    [(200, lit "[{""id"":""1"",""name"":""Rome"",""town"":[{""id"":""1"",""name"":""Rome""}]}]" ++ nl);
     (500, lit "{""error"":""""}"); (404, lit "{""error"":""""}"); (500, lit "{""error"":""""}"); (500, lit "{""error"":""""}");
     (200, lit "[{""age"":15,""city"":""2"",""name"":""Ann""}]" ++ nl); (500, lit "{""error"":""""}")].
Proof.
  assert (H : match torn_boot torn_v with Done ([(_, routes)], E) => map (fun rq => show (ex_serve routes E rq)) torn_requests =
    [(200, lit "[{""id"":""1"",""name"":""Rome"",""town"":[{""id"":""1"",""name"":""Rome""}]}]" ++ nl);
     (500, lit "{""error"":""""}"); (404, lit "{""error"":""""}"); (500, lit "{""error"":""""}"); (500, lit "{""error"":""""}");
     (200, lit "[{""age"":15,""city"":""2"",""name"":""Ann""}]" ++ nl); (500, lit "{""error"":""""}")] | _ => False end) by (vm_compute; reflexivity).
  destruct (torn_boot torn_v) as [[[|[s routes] [|? ?]] E]| | |] eqn:Hb; try contradiction.
  exists [(s, routes)], E, s, routes. split; [exact torn_loaded|]. split; [reflexivity|]. split; [exact (torn_robust _ _ Hb)|]. split; [apply torn_numeric|].
  split; [exact ex_order|]. split; [exact insertion_perm|]. split; [left; reflexivity|exact H].
Qed.

(** A parameter for the last item of a list: the configuration is accepted, and the
    request stops the goroutine that serves it, without a response. *)
Theorem C69_negative_refuted : exists v services E s routes rq,
  ex_load last_parsed = Ok v /\ last_boot v = Done (services, E) /\ In (s, routes) services /\
  serve E ex_ord json_float (fun _ => []) (fun _ _ => true) routes rq = ([], Panic).
Proof. exact last_stops. Qed.
Print Assumptions C69_negative_refuted.
