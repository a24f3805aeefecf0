(** Properties C42, C43, C45, C46, C50, C51, C52: configurations. *)
From Coq Require Import List ZArith Lia Bool String Permutation.
From Coq Require Import Strings.Byte Floats.SpecFloat.
From Verif Require Import Base BaseFacts Codec Value Join GoStrings Parser Sort Wildcard Index Output SpecOutput Http Records Regex Route Config Start SpecConfig.
From Verif Require Import ConfigFacts ConfigFacts2 ConfigFacts3 ConfigFacts4 ConfigFacts5 ConfigFacts6 StartFacts StartFacts2 ServeFacts ServeFacts2.
Import ListNotations.
Open Scope Z_scope.

(** *** A configuration *)

Definition some_file (path : bytes) : stat_result :=
  if existsb (bytes_eqb path) [lit "cities.csv"; lit "people.json"] then SFile
  else if bytes_eqb path (lit "/secret/cities.csv") then SError else SNotExist.
(** The part of unicode.ToUpper which matters. *)
Definition some_upper (r : Z) : Z :=
  if (97 <=? r) && (r <=? 122) then r - 32 else if r =? 305 then 73 else if r =? 383 then 83 else r.
Definition ok_load := load some_file (fun _ => true) (fun _ => true) (to_upper some_upper).
Definition ok_start := start (fun _ => Ok tt) (fun _ => Ok tt) (fun _ _ => Ok []) (fun _ => Ok tt) (fun _ => Ok tt).

Definition cities : input_config :=
  CCsv (lit "cities") (lit "cities.csv") None true false [] [Some (lit "id", lit "integer"); Some (lit "name", []); Some (lit "tags", lit "words")].
Definition people : input_config := CJsonFile (lit "people") (lit "people.json") (Some false).
Definition words : parser_config := CSplit (lit "words") (Some (lit " ")) None (lit "string").
Definition by_id : index_config := CMap (lit "by_id") (lit "cities") [lit "id"].
Definition city_people : raw_relationship :=
  mkRawRel (lit "people") true 10 [Some (lit "name", None)] [Some (lit "id", lit "city", [])] [].
Definition city_list : output_config :=
  CArray (lit "list") (lit "cities") 20 0 [] (lit "from") [(lit "id", Some (mkParam (lit "id") (lit "by_id") (lit "integer")))] [].
Definition city : output_config :=
  CObject (lit "city") (lit "cities") [(lit "id", Some (mkParam (lit "id") [] (lit "integer")))] [(lit "people", Some city_people)].
Definition web : service_config :=
  mkServiceConfig (lit "web") (Some (lit ":8080")) None [] [Some (lit "list", lit "/cities"); Some (lit "city", lit "/cities/{id}")].
Definition sample : parsed :=
  mkParsed [Some words] [Some cities; Some people] [Some by_id] [Some web] [Some city_list; Some city].
Definition with_outputs (os : list (option output_config)) : parsed :=
  mkParsed [Some words] [Some cities; Some people] [Some by_id] [] os.

(** *** C42 *)

(** Every name in a configuration which passes validation is the name of an
    object. *)
Theorem C42_references_resolve : forall stat regexp_ok xpath_ok upper p v,
  load stat regexp_ok xpath_ok upper p = Ok v -> references_resolve v.
Proof. exact load_references. Qed.
Print Assumptions C42_references_resolve.

(** Creating the objects never fails because of a missing name, whatever the
    files, charsets, indexes and ports do. *)
Theorem C42_start : forall stat regexp_ok xpath_ok upper p v, load stat regexp_ok xpath_ok upper p = Ok v ->
  forall new_charset open_file first_row build_index listen name,
  start new_charset open_file first_row build_index listen v <> Missing name.
Proof. intros stat rx xp up p v H a b c d e. exact (start_found a b c d e v (load_references stat rx xp up p v H)). Qed.
Print Assumptions C42_start.

Theorem C42_names_kept : forall new_charset open_file first_row build_index listen v s,
  start new_charset open_file first_row build_index listen v = Done s ->
  map fst (st_parsers s) = map fst (vc_parsers v) /\ map fst (st_inputs s) = map fst (vc_inputs v) /\
  map fst (st_indexes s) = map fst (vc_indexes v) /\ map fst (st_outputs s) = map fst (vc_outputs v) /\
  map fst (st_services s) = map fst (vc_services v).
Proof. exact start_names. Qed.
Print Assumptions C42_names_kept.

(** Serving: the errors given to sendError, and the result of Handle. *)
Definition note_error (e : err) (w : list err) : list err * res unit := (e :: w, Ok tt).
Definition no_write (_ : bytes) (w : list err) : list err * res unit := (w, Ok tt).

Theorem C42_serve_list : forall stat regexp_ok xpath_ok upper p v, load stat regexp_ok xpath_ok upper p = Ok v ->
  forall E ord json_encode, quiet_env v E -> order_ok ord -> (forall x, quiet (json_encode x)) ->
  forall name c params, In (name, VOutput (OArray c)) (vc_outputs v) ->
  let r := handle_array E ord (list err) note_error (fun w => w) no_write json_encode c params [] in
  quiet (snd r) /\ forall e, In e (fst r) -> ~ missing e.
Proof.
  intros stat rx xp up p v H E ord enc Q O J name c params I.
  destruct (array_silent v E ord (load_references stat rx xp up p v H) Q O (list err) note_error (fun w => w) no_write enc (fun w => w)
    (fun e w => conj eq_refl (quiet_ok tt)) (fun w => eq_refl) (fun b w => conj eq_refl (quiet_ok tt)) J name c params [] I) as [A B].
  exact (conj A (fun e Ie M => B e Ie M)).
Qed.
Print Assumptions C42_serve_list.

Theorem C42_serve_object : forall stat regexp_ok xpath_ok upper p v, load stat regexp_ok xpath_ok upper p = Ok v ->
  forall E ord json_encode, quiet_env v E -> order_ok ord -> (forall x, quiet (json_encode x)) ->
  forall name c params, In (name, VOutput (OObject c)) (vc_outputs v) ->
  let r := handle_object E ord (list err) note_error (fun w => w) no_write json_encode c params [] in
  quiet (snd r) /\ forall e, In e (fst r) -> ~ missing e.
Proof.
  intros stat rx xp up p v H E ord enc Q O J name c params I.
  destruct (object_silent v E ord (load_references stat rx xp up p v H) Q O (list err) note_error (fun w => w) no_write enc (fun w => w)
    (fun e w => conj eq_refl (quiet_ok tt)) (fun w => eq_refl) (fun b w => conj eq_refl (quiet_ok tt)) J name c params [] I) as [A B].
  exact (conj A (fun e Ie M => B e Ie M)).
Qed.
Print Assumptions C42_serve_object.

(** The objects behind [quiet_env] report no missing name: parsers (whatever the
    depth of split parsers), the records of the three kinds of files, the map
    index and the default index. *)
Theorem C42_parsers : forall stat regexp_ok xpath_ok upper p v, load stat regexp_ok xpath_ok upper p = Ok v ->
  forall parse_float json_decode decode_charset regexp_split,
  (forall s, quiet (parse_float s)) -> (forall s, quiet (json_decode s)) -> (forall c s, quiet (decode_charset c s)) ->
  forall fuel n c s, In (n, c) (vc_parsers v) ->
  quiet (parse parse_float json_decode decode_charset regexp_split fuel (vc_parsers v) c s).
Proof.
  intros stat rx xp up p v H pf jd dc rs Hf Hj Hc.
  exact (parse_quiet pf jd dc rs Hf Hj Hc (vc_parsers v) (ref_split v (load_references stat rx xp up p v H))).
Qed.
Print Assumptions C42_parsers.

Theorem C42_xml_records : forall stat regexp_ok xpath_ok upper p v, load stat regexp_ok xpath_ok upper p = Ok v ->
  forall node query evaluate (parsers : list (bytes * (xparser * parser_fun))) int_of_float,
  (forall n, has (vc_parsers v) n -> has parsers n) -> (forall n t f s, In (n, (t, f)) parsers -> quiet (f s)) ->
  forall name path die props xpath, In (name, VXml path die props xpath) (vc_inputs v) ->
  forall n pos, quiet_rec (xml_record node query evaluate parsers int_of_float n props pos).
Proof.
  intros stat rx xp up p v H node query evaluate ps iof K Q name path die props xpath I n pos.
  exact (xml_quiet node query evaluate ps iof Q n props pos
    (fun c Ic nm x q S => K q (ref_xml v (load_references stat rx xp up p v H) _ _ _ _ _ _ _ _ _ I Ic S))).
Qed.
Print Assumptions C42_xml_records.

Theorem C42_csv_records : forall names ps row pos, Forall (fun p : parser_fun => forall s, quiet (p s)) ps -> quiet_rec (csv_record names ps row pos).
Proof. exact csv_quiet. Qed.
Print Assumptions C42_csv_records.

Theorem C42_json_records : forall data pos, quiet_rec (json_record data pos).
Proof. exact json_quiet. Qed.
Print Assumptions C42_json_records.

Theorem C42_map_index : forall cfg idx name fs, quiet (map_positions cfg idx name fs) /\
  forall it, map_positions cfg idx name fs = Ok it -> Forall quiet it.
Proof. exact map_index_quiet. Qed.
Print Assumptions C42_map_index.

Theorem C42_default_index : forall inp fs, Forall (fun r => quiet r /\ forall a, r = Ok a -> quiet_rec a) (in_iter inp) ->
  quiet (noop_positions inp fs) /\ forall it, noop_positions inp fs = Ok it -> Forall quiet it.
Proof. exact noop_index_quiet. Qed.
Print Assumptions C42_default_index.

(** The sample configuration is accepted and starts. *)
Definition sample_v : vconfig :=
  mkVConfig
    [(lit "words", PSplit (lit " ") false (lit "string")); (lit "string", PString []); (lit "integer", PInteger []);
     (lit "float", PFloat (lit ".") []); (lit "boolean", PBoolean [lit "true"; lit "1"; lit "TRUE"] [lit "false"; lit "0"; lit "FALSE"]);
     (lit "json", PJson)]
    [(lit "cities", VCsv (lit "cities.csv") true true false (lit ",") [(lit "id", lit "integer"); (lit "name", lit "string"); (lit "tags", lit "words")]);
     (lit "people", VJsonFile (lit "people.json") false)]
    [(lit "by_id", VIMap (lit "cities") [lit "id"]); (lit "default", VINoop)]
    [(lit "web", mkVService (Some (lit ":8080")) None [(lit "list", lit "/cities"); (lit "city", lit "/cities/{id}")])]
    [(lit "list", VOutput (OArray (mkArray (lit "cities") 20 1000 (lit "limit") (lit "from")
        [(lit "id", mkParam (lit "id") (lit "by_id") (lit "integer"))] [])));
     (lit "city", VOutput (OObject (mkObject (lit "cities") [(lit "id", mkParam (lit "id") (lit "default") (lit "integer"))]
        [(lit "people", mkRel (lit "people") true 10 [(lit "name", true)] [(lit "id", lit "city", lit "default")] [])])))].
Example C42_sample : ok_load sample = Ok sample_v.
Proof. vm_compute. reflexivity. Qed.
Example C42_sample_starts : exists s, ok_start sample_v = Done s /\ List.length (st_outputs s) = 2%nat /\
  mget (st_inputs s) (lit "cities") = Some (SCsv [(lit "id", PInteger []); (lit "name", PString []); (lit "tags", PSplit (lit " ") false (lit "string"))]).
Proof. eexists. split; [vm_compute; reflexivity|]. vm_compute. split; reflexivity. Qed.

(** Objects for the sample: [quiet_env] holds, and a city with its people is sent. *)
Definition sample_record : rec := json_record [(lit "id", VInt 7); (lit "city", VInt 7)] 0.
Definition sample_input (name : bytes) : input :=
  mkInput name (Ok 0) (Ok 0) [Ok sample_record] (fun p => if p =? 0 then Ok sample_record else Err EEof).
Definition sample_env : env :=
  mkEnv [(lit "cities", sample_input (lit "cities")); (lit "people", sample_input (lit "people"))]
        noop_positions [(lit "by_id", noop_positions); (lit "default", noop_positions)]
        (map (fun nc => (fst nc, fun s => match snd nc with PInteger _ => Ok (VInt 7) | _ => Ok (VString s) end)) (vc_parsers sample_v))
        (fun _ l => l).
Definition sample_city : object_config :=
  mkObject (lit "cities") [(lit "id", mkParam (lit "id") (lit "default") (lit "integer"))]
    [(lit "people", mkRel (lit "people") true 10 [(lit "name", true)] [(lit "id", lit "city", lit "default")] [])].
Example C42_quiet : quiet_env sample_v
  (mkEnv (e_inputs sample_env) (fun _ => noop_positions (sample_input (lit "cities")))
     [(lit "by_id", fun _ => noop_positions (sample_input (lit "cities"))); (lit "default", fun _ => noop_positions (sample_input (lit "cities")))]
     (e_parsers sample_env) (e_sort sample_env)).
Proof.
  assert (QR : quiet_rec sample_record) by apply C42_json_records.
  assert (QN : forall fs, quiet (noop_positions (sample_input (lit "cities")) fs) /\
            forall it, noop_positions (sample_input (lit "cities")) fs = Ok it -> Forall quiet it).
  { intro fs. apply C42_default_index. constructor; [|constructor]. split; [apply quiet_ok|]. intros a E. injection E as <-. exact QR. }
  constructor; cbn [e_inputs e_default e_indexes e_parsers e_sort sample_env vc_inputs vc_indexes vc_parsers sample_v].
  - intros n H. apply has_mget in H. destruct H as (a & H). cbn [mget] in *.
    repeat match goal with |- context [bytes_eqb ?x ?y] => destruct (bytes_eqb x y); [eauto|] end. discriminate.
  - intros n H. apply has_mget in H. destruct H as (a & H). cbn [mget] in *.
    repeat match goal with |- context [bytes_eqb ?x ?y] => destruct (bytes_eqb x y); [eauto|] end. discriminate.
  - intros n H. apply has_mget in H. destruct H as (a & H). cbn [mget map fst snd] in *.
    repeat match goal with |- context [bytes_eqb ?x ?y] => destruct (bytes_eqb x y); [eauto|] end. discriminate.
  - assert (QI : forall n, quiet_input (sample_input n)).
    { intro n. split; cbn [in_get sample_input]; intro p; destruct (p =? 0); try apply quiet_ok.
      - apply quiet_err. cbn [missing In]. intuition discriminate.
      - intros r E. injection E as <-. exact QR.
      - discriminate. }
    intros n inp H. apply mget_In in H. destruct H as [E|[E|[]]]; injection E as <- <-; apply QI.
  - intros n ix inp fs H. apply mget_In in H. destruct H as [E|[E|[]]]; injection E as <- <-; apply QN.
  - intros inp fs. apply QN.
  - intros n p s H. apply mget_In in H. apply in_map_iff in H. destruct H as ([m c] & E & _). injection E as <- <-.
    cbn [snd]. destruct c; apply quiet_ok.
  - intros f l. apply Permutation_refl.
Qed.
Example C42_served :
  handle_object sample_env (fun _ _ l => l) (list value) (fun e w => (w, Ok tt)) (fun w => w) (fun _ w => (w, Ok tt)) (fun _ => Ok [])
    sample_city [(lit "id", lit "7")] [] = ([], Ok tt) /\
  data_from_position sample_env (fun _ _ l => l) 0 (oc_relationships sample_city) (lit "cities") [] =
    Ok [(lit "id", VInt 7); (lit "city", VInt 7); (lit "people", VList [VMap [(lit "id", VInt 7); (lit "city", VInt 7)]])].
Proof. vm_compute. split; reflexivity. Qed.

(** *** C43 *)

(** Without null entries, and when os.Stat fails on the files only because they do
    not exist, validation succeeds or returns an error. *)
Theorem C43_no_crash_partial : forall stat regexp_ok xpath_ok upper p,
  complete p -> (forall path, checked_file p path -> stat path <> SError) ->
  load stat regexp_ok xpath_ok upper p <> Panic /\ load stat regexp_ok xpath_ok upper p <> NoFuel.
Proof. exact load_returns. Qed.
Print Assumptions C43_no_crash_partial.

Example C43_example : complete sample /\ (forall path, checked_file sample path -> some_file path <> SError).
Proof.
  split.
  - constructor; cbn [sample pd_parsers pd_inputs pd_indexes pd_services pd_outputs].
    + intros [H|[]]; discriminate.
    + repeat constructor; eexists; (split; [reflexivity|]); cbn [complete_input cities people]; [|exact I].
      intro H. repeat destruct H as [H|H]; try discriminate; exact H.
    + repeat constructor. eexists. split; [reflexivity|exact I].
    + repeat constructor. eexists. split; [reflexivity|]. intro H. repeat destruct H as [H|H]; try discriminate; exact H.
    + constructor; [|constructor; [|constructor]]; eexists; (split; [reflexivity|]); cbn [complete_output city_list city]; split.
      * constructor; [discriminate|constructor].
      * constructor.
      * constructor; [discriminate|constructor].
      * constructor; [|constructor]. eexists. split; [reflexivity|]. constructor.
        -- intros [H|[]]; discriminate.
        -- intros [H|[]]; discriminate.
        -- constructor.
  - intros path [(c & H & ->)|(c & l & ct & k & H & E & _)].
    + destruct H as [H|[H|[]]]; injection H as <-; vm_compute; discriminate.
    + destruct H as [H|[]]. injection H as <-. discriminate E.
Qed.

(** A path in a directory which cannot be searched: os.Stat returns a permission
    error and a nil FileInfo, whose method IsDir is then called. *)
Theorem C43_stat_error_refuted : exists stat p, complete p /\ load stat (fun _ => true) (fun _ => true) (fun s => s) p = Panic.
Proof.
  exists some_file, (mkParsed [] [Some (CJsonFile (lit "a") (lit "/secret/cities.csv") None)] [] [] []). split; [|vm_compute; reflexivity].
  constructor; cbn [pd_parsers pd_inputs pd_indexes pd_services pd_outputs]; try constructor; try constructor.
  - intros [].
  - eexists. split; [reflexivity|exact I].
Qed.
Print Assumptions C43_stat_error_refuted.

(** A null column, a null entry of the list of inputs. *)
Theorem C43_null_refuted : exists stat p q, (forall path, stat path <> SError) /\
  load stat (fun _ => true) (fun _ => true) (fun s => s) p = Panic /\ load stat (fun _ => true) (fun _ => true) (fun s => s) q = Panic.
Proof.
  exists (fun _ => SFile), (mkParsed [] [None] [] [] []), (mkParsed [] [Some (CCsv (lit "a") (lit "a.csv") None false false [] [None])] [] [] []).
  split; [discriminate|]. split; vm_compute; reflexivity.
Qed.
Print Assumptions C43_null_refuted.

(** *** C45 *)

(** Among the strings of ASCII characters exactly binary, nocase and rtirm (sic),
    in any case, are accepted. *)
Theorem C45_collations_partial : forall rune_upper s, forallb (in_range 0 127) s = true ->
  ((exists c, validate_collate (to_upper rune_upper) s = Ok c) <->
   s = [] \/ same_letters s (lit "binary") \/ same_letters s (lit "nocase") \/ same_letters s (lit "rtirm")).
Proof. exact collate_ascii. Qed.
Print Assumptions C45_collations_partial.

(** The collation given to SQLite is one of three. *)
Theorem C45_result : forall upper s c, validate_collate upper s = Ok c -> In c [lit "BINARY"; lit "NOCASE"; lit "RTIRM"].
Proof. exact collate_result. Qed.
Print Assumptions C45_result.

Example C45_example : validate_collate (to_upper some_upper) (lit "NoCase") = Ok (lit "NOCASE") /\
  validate_collate (to_upper some_upper) [] = Ok (lit "BINARY") /\
  validate_collate (to_upper some_upper) (lit "binary ") = Err (EMsg "collate value is invalid.").
Proof. vm_compute. repeat split. Qed.

(** A documented collation is refused in every case. *)
Theorem C45_rtrim_refuted : exists s, In s documented /\ forall rune_upper t, same_letters t s ->
  forall c, validate_collate (to_upper rune_upper) t <> Ok c.
Proof.
  exists (lit "rtrim"). split; [right; right; left; reflexivity|]. intros ru t H c E.
  assert (A : forallb (in_range 0 127) t = true) by (apply (same_letters_ascii (lit "rtrim") eq_refl t H)).
  destruct (proj1 (collate_ascii ru t A) (ex_intro _ c E)) as [W|[W|[W|W]]]; unfold same_letters in *.
  - subst. discriminate H.
  - rewrite W in H. discriminate H.
  - rewrite W in H. discriminate H.
  - rewrite W in H. discriminate H.
Qed.
Print Assumptions C45_rtrim_refuted.

(** A collation which does not exist is accepted; so is one written with a
    dotless i, the upper case of which is I. *)
Theorem C45_rtirm_refuted : exists s, ~ In s documented /\ validate_collate (to_upper some_upper) s = Ok (lit "RTIRM").
Proof. exists (lit "rtirm"). split; [|vm_compute; reflexivity]. intros [H|[H|[H|[]]]]; discriminate. Qed.
Print Assumptions C45_rtirm_refuted.

Theorem C45_dotless_i_refuted : exists s, (forall t, In t documented -> ~ same_letters s t) /\
  validate_collate (to_upper some_upper) s = Ok (lit "BINARY").
Proof.
  exists ([x62; xc4; xb1] ++ lit "nary")%list. split; [|vm_compute; reflexivity].
  intros t [<-|[<-|[<-|[]]]]; vm_compute; discriminate.
Qed.
Print Assumptions C45_dotless_i_refuted.

(** *** C46 *)

(** Two objects of the same kind and name: refused. *)
Theorem C46_duplicates_refused : forall stat regexp_ok xpath_ok upper p,
  no_null p -> ~ names_distinct_all p -> exists e, load stat regexp_ok xpath_ok upper p = Err e.
Proof. exact duplicates_refused. Qed.
Print Assumptions C46_duplicates_refused.

(** The names alone are never a reason to refuse other configurations. *)
Theorem C46_distinct_accepted : forall p, no_null p -> (names_distinct_all p <-> exists c, config_of_parsed p = Ok c).
Proof. exact names_accepted. Qed.
Print Assumptions C46_distinct_accepted.

(** The objects of the user are found under their names.  Where the user has no
    such object, the built-in parsers and the default index are.  There is nothing
    else. *)
Theorem C46_objects : forall stat regexp_ok xpath_ok upper p v, load stat regexp_ok xpath_ok upper p = Ok v ->
  (forall c, In (Some c) (pd_parsers p) -> exists q, mget (vc_parsers v) (parser_name c) = Some q /\ means_parser c q) /\
  (forall c, In (Some c) (pd_indexes p) -> exists q, mget (vc_indexes v) (index_name c) = Some q /\ means_index upper c q) /\
  (forall n q, In (n, q) built_in -> ~ In n (names parser_name (pd_parsers p)) -> mget (vc_parsers v) n = Some q) /\
  (~ In (lit "default") (names index_name (pd_indexes p)) -> mget (vc_indexes v) (lit "default") = Some VINoop) /\
  (forall n, has (vc_parsers v) n -> In n (names parser_name (pd_parsers p)) \/ exists q, In (n, q) built_in) /\
  (forall n, has (vc_indexes v) n -> In n (names index_name (pd_indexes p)) \/ n = lit "default").
Proof.
  intros stat rx xp up p v H. destruct (load_means stat rx xp up p v H) as [P _ X _ _ B D O].
  exact (conj P (conj X (conj B (conj D (conj (fun n => proj1 (O n)) (fun n => proj1 (proj2 (proj2 (O n))))))))).
Qed.
Print Assumptions C46_objects.

Example C46_precedence : exists v, ok_load (mkParsed [Some (CString (lit "integer") (lit "utf-8"))] [Some cities; Some people] [Some (CMap (lit "default") (lit "people") [])] [] []) = Err (EMsg "Parser not found in parsers list.") /\
  ok_load (mkParsed [Some (CString (lit "integer") (lit "utf-8"))] [Some people] [Some (CMap (lit "default") (lit "people") [])] [] []) = Ok v /\
  mget (vc_parsers v) (lit "integer") = Some (PString (lit "utf-8")) /\ mget (vc_parsers v) (lit "json") = Some PJson /\
  mget (vc_indexes v) (lit "default") = Some (VIMap (lit "people") []).
Proof. eexists. split; [vm_compute; reflexivity|]. split; [vm_compute; reflexivity|]. vm_compute. repeat split. Qed.
Example C46_refused : ok_load (mkParsed [Some words; Some words] [] [] [] []) = Err (EMsg "Duplicate name for parser.").
Proof. vm_compute. reflexivity. Qed.

(** *** C50 *)

(** The index of every parameter and match handles the input and contains the
    property; the parser of a parameter gives a comparable value. *)
Theorem C50_indexes_fit : forall stat regexp_ok xpath_ok upper p v,
  load stat regexp_ok xpath_ok upper p = Ok v -> indexes_fit v.
Proof. exact load_fits. Qed.
Print Assumptions C50_indexes_fit.

Example C50_example :
  ok_load (with_outputs [Some (CObject (lit "o") (lit "people") [(lit "p", Some (mkParam (lit "id") (lit "by_id") []))] [])]) =
    Err (EMsg "Index does not handle input.") /\
  ok_load (with_outputs [Some (CObject (lit "o") (lit "cities") [(lit "p", Some (mkParam (lit "name") (lit "by_id") []))] [])]) =
    Err (EMsg "Index does not handle property.") /\
  ok_load (with_outputs [Some (CObject (lit "o") (lit "cities") [(lit "p", Some (mkParam (lit "name") [] (lit "words")))] [])]) =
    Err (EMsg "The parser is not a primitive type and cannot be used as a parameter.") /\
  exists v, ok_load (with_outputs [Some city_list; Some city]) = Ok v.
Proof. repeat split; try (vm_compute; reflexivity). eexists. vm_compute. reflexivity. Qed.

(** An output without parameters asks the index named default for all the records
    (pkg/output/json_common.go:37-41).  The user may have given that name to an
    index of another input. *)
Theorem C50_default_refuted : exists p v x c,
  ok_load p = Ok v /\ mget (vc_indexes v) (lit "default") = Some x /\ mget (vc_outputs v) (lit "list") = Some (VOutput (OArray c)) /\
  ac_params c = [] /\ ~ accepts_input x (ac_input c) /\ (exists s, ok_start v = Done s).
Proof.
  exists (mkParsed [Some words] [Some cities; Some people] [Some (CMap (lit "default") (lit "people") [])] []
    [Some (CArray (lit "list") (lit "cities") 0 0 [] [] [] [])]).
  do 3 eexists. split; [vm_compute; reflexivity|]. split; [vm_compute; reflexivity|]. split; [vm_compute; reflexivity|].
  split; [reflexivity|]. split; [|eexists; vm_compute; reflexivity].
  intros [H|H]; vm_compute in H; discriminate.
Qed.
Print Assumptions C50_default_refuted.

(** *** C51 *)

(** Parameters differ from the limit and offset parameters, limits are positive and
    consistent, the names of columns and properties and the paths of routes are
    distinct, relationships match every child property at most once and sort on
    every property at most once. *)
Theorem C51_unambiguous_partial : forall stat regexp_ok xpath_ok upper p v,
  unsigned_limits p -> load stat regexp_ok xpath_ok upper p = Ok v -> unambiguous v.
Proof. exact load_unambiguous. Qed.
Print Assumptions C51_unambiguous_partial.

Example C51_example : unsigned_limits sample /\
  ok_load (with_outputs [Some (CArray (lit "l") (lit "cities") 0 0 [] [] [(lit "offset", Some (mkParam (lit "id") [] []))] [])]) =
    Err (EMsg "Parameter is already used for the offset") /\
  ok_load (with_outputs [Some (CArray (lit "l") (lit "cities") 0 50 [] [] [] [])]) = Err (EMsg "default is higher than the max value.").
Proof.
  split; [|split; vm_compute; reflexivity]. intros n i d mx lp op ps rs [H|[H|[]]]; [|discriminate].
  injection H as <- <- <- <- <- <- <- <-. lia.
Qed.

(** One parameter may be both the limit and the offset. *)
Theorem C51_limit_is_offset_refuted : exists p v n c, unsigned_limits p /\ ok_load p = Ok v /\
  mget (vc_outputs v) n = Some (VOutput (OArray c)) /\ ac_limit_param c = ac_offset_param c.
Proof.
  exists (with_outputs [Some (CArray (lit "l") (lit "cities") 0 0 (lit "n") (lit "n") [] [])]). eexists. exists (lit "l"). eexists. split; [|split; [vm_compute; reflexivity|split; [vm_compute; reflexivity|reflexivity]]].
  intros n i d mx lp op ps rs [H|[]]. injection H as <- <- <- <- <- <- <- <-. lia.
Qed.
Print Assumptions C51_limit_is_offset_refuted.

(** Two parameters may filter the same property with the same index: the value of
    one of them is then forgotten, which one depends on the iteration order. *)
Theorem C51_same_property_refuted : exists p v n c, ok_load p = Ok v /\ mget (vc_outputs v) n = Some (VOutput (OArray c)) /\
  (let filters ord := array_filters sample_env [(lit "a", lit "x"); (lit "b", lit "y")] (ord (ac_params c)) [] in
   exists f g, filters (fun l => l) = Ok f /\ filters (@rev _) = Ok g /\
     mget f (lit "default") = Some [(lit "name", VString (lit "y"))] /\ mget g (lit "default") = Some [(lit "name", VString (lit "x"))]).
Proof.
  exists (with_outputs [Some (CArray (lit "l") (lit "cities") 0 0 [] []
    [(lit "a", Some (mkParam (lit "name") [] [])); (lit "b", Some (mkParam (lit "name") [] []))] [])]).
  eexists. exists (lit "l"). eexists. split; [vm_compute; reflexivity|]. split; [vm_compute; reflexivity|].
  do 2 eexists. split; [vm_compute; reflexivity|]. split; [vm_compute; reflexivity|]. vm_compute. split; reflexivity.
Qed.
Print Assumptions C51_same_property_refuted.

(** *** C52 *)

Theorem C52_starts_partial : forall stat regexp_ok xpath_ok upper p v, load stat regexp_ok xpath_ok upper p = Ok v ->
  forall new_charset open_file first_row build_index listen, possible new_charset open_file first_row build_index listen v ->
  exists s, start new_charset open_file first_row build_index listen v = Done s.
Proof. intros stat rx xp up p v H a b c d e. exact (start_done a b c d e v (load_references stat rx xp up p v H)). Qed.
Print Assumptions C52_starts_partial.

(** A graphql output passes validation but cannot be created. *)
Theorem C52_graphql_refuted : exists p v e, ok_load p = Ok v /\ ok_start v = Fail e.
Proof. exists (with_outputs [Some (CGraphql (lit "g"))]). do 2 eexists. split; vm_compute; reflexivity. Qed.
Print Assumptions C52_graphql_refuted.

(** A parameter in the path of a route which the output does not have. *)
Theorem C52_path_parameter_refuted : exists p v e, ok_load p = Ok v /\ (forall n, ~ In (n, VGraphql) (vc_outputs v)) /\ ok_start v = Fail e.
Proof.
  exists (mkParsed [Some words] [Some cities] [Some by_id] [Some (mkServiceConfig (lit "web") (Some []) None [] [Some (lit "list", lit "/{city}")])] [Some city_list]).
  do 2 eexists. split; [vm_compute; reflexivity|]. split; [|vm_compute; reflexivity]. intros n [H|[]]. discriminate.
Qed.
Print Assumptions C52_path_parameter_refuted.

Example C52_example : possible (fun _ => Ok tt) (fun _ => Ok tt) (fun _ _ => Ok [lit "id"]) (fun _ => Ok tt) (fun _ => Ok tt) sample_v.
Proof.
  constructor; try reflexivity.
  - intros n path die first delimiter columns H. cbn [vc_inputs sample_v In] in H.
    repeat destruct H as [H|H]; try discriminate; destruct H.
  - intros n H. cbn [vc_outputs sample_v In] in H. repeat destruct H as [H|H]; try discriminate; exact H.
  - intros n s o path out [H|[]]. injection H as <- <-. cbn [vs_routes]. intros [H|[H|[]]]; injection H as <- <-; intro M.
    + vm_compute in M. injection M as <-. split; [intros name []|]. eexists. vm_compute. reflexivity.
    + vm_compute in M. injection M as <-. split; [|eexists; vm_compute; reflexivity].
      intros name [<-|[]]. eexists. left. reflexivity.
Qed.

(** *** C53 *)

(** The validated configuration is the configuration of the user, completed with
    the documented defaults, and nothing else. *)
Theorem C53_meaning : forall stat regexp_ok xpath_ok upper p v, load stat regexp_ok xpath_ok upper p = Ok v -> means upper p v.
Proof. exact load_means. Qed.
Print Assumptions C53_meaning.

Example C53_example : exists v, ok_load sample = Ok v /\ v = sample_v /\
  mget (vc_inputs v) (lit "people") = Some (VJsonFile (lit "people.json") false).
Proof. exists sample_v. split; [exact C42_sample|]. split; [reflexivity|]. vm_compute. reflexivity. Qed.
