(** A small installation for the theorems of C64: cities in a CSV file, people in a
    JSON file, mayors in an XML file. *)
From Coq Require Import List ZArith Lia Bool String Permutation Sorted.
From Coq Require Import Strings.Byte Floats.SpecFloat.
From Verif Require Import Sql SqlIndex SpecSql SpecSqlFind.
From Verif Require Import XmlStream SpecXml SpecXmlNest SpecXmlValue XmlInput.
From Verif Require Import FloatFormat Base Codec Value GoStrings Parser FloatText JsonDecode Records SpecRecords SpecText Prog Bufio CsvReader SpecCsv.
From Verif Require Import JsonReader SpecJsonFile Join Index SpecIndex Sort SpecOrder Output SpecOutput SpecJson Json Http SpecHttp Regex Route Config SpecConfig Start.
From Verif Require Import Stream Wildcard SpecWildcard System SpecSystem BaseFacts HttpFacts.
Import ListNotations.
Open Scope Z_scope.

Definition nl : bytes := [LF].
Definition cities_csv : bytes :=
  lit "id,name" ++ nl ++ lit "1,Rome" ++ nl ++ lit "2,""New, York""" ++ nl ++ lit "3,Oslo" ++ nl.
Definition people_json : bytes :=
  lit "{""name"":""Ann"",""city"":""2"",""age"":1.5e1}" ++ nl ++ lit "{""name"":""Bob"",""city"":""1"",""age"":7}" ++ lit "{""name"":""Cid"",""city"":""2"",""age"":0.1}" ++ nl.
(** The XML file, with its tokens. *)
Definition mayors_parts : list (bytes * rawtok) :=
  [(lit "<?xml version=""1.0""?>", RProc (lit "xml") false); (lit "<mayors>", RStart (lit "mayors") []); (lit " ", RText (lit " "));
   (lit "<mayor city=""1"">", RStart (lit "mayor") [(lit "city", lit "1")]);
   (lit "<name>", RStart (lit "name") []); (lit "Zoe", RText (lit "Zoe")); (lit "</name>", XmlStream.REnd (lit "name"));
   (lit "<name>", RStart (lit "name") []); (lit "Z.", RText (lit "Z.")); (lit "</name>", XmlStream.REnd (lit "name")); (lit "<ward/>", RVoid (lit "ward") []);
   (lit "</mayor>", XmlStream.REnd (lit "mayor")); (lit " ", RText (lit " "));
   (lit "<mayor city=""3"">", RStart (lit "mayor") [(lit "city", lit "3")]); (lit "</mayor>", XmlStream.REnd (lit "mayor")); (lit "</mayors>", XmlStream.REnd (lit "mayors"))].
Definition mayors_xml : bytes := List.concat (map fst mayors_parts).
Definition ex_files (path : bytes) : bytes :=
  if bytes_eqb path (lit "cities.csv") then cities_csv else if bytes_eqb path (lit "mayors.xml") then mayors_xml else people_json.

(** A few XPaths. *)
Definition tree_named (name : bytes) (t : xtree) : bool := match t with XElem n _ _ => bytes_eqb n name | _ => false end.
Fixpoint tree_text (t : xtree) : bytes :=
  match t with
  | XText s => s
  | XElem _ _ kids => flat_map tree_text kids
  | _ => []
  end.
Fixpoint tree_at (t : xtree) (place : list nat) : xtree :=
  match place, t with
  | i :: place', XElem _ _ kids => match nth_error kids i with Some k => tree_at k place' | None => t end
  | _, _ => t
  end.
Definition tree_kids (t : xtree) : list xtree := match t with XElem _ _ kids => kids | _ => [] end.
Fixpoint numbered {A} (i : nat) (l : list A) : list (nat * A) := match l with [] => [] | x :: l' => (i, x) :: numbered (S i) l' end.
Definition ex_query (n : xnode) (xpath : bytes) : list xnode :=
  map (fun k => (fst n, snd n ++ [fst k])) (filter (fun k => tree_named xpath (snd k)) (numbered 0 (tree_kids (tree_at (fst n) (snd n))))).
Definition ex_evaluate (n : xnode) (xpath : bytes) : xresult :=
  let t := tree_at (fst n) (snd n) in
  if bytes_eqb xpath (lit "string(.)") then XString (tree_text t)
  else if bytes_eqb xpath (lit "string(@city)") then match t with XElem _ a _ => XString (match mget a (lit "city") with Some s => s | None => [] end) | _ => XString [] end
  else if bytes_eqb xpath (lit "count(ward)") then XNumber (binary_normalize 53 1024 (Z.of_nat (List.length (filter (tree_named (lit "ward")) (tree_kids t)))) 0 false)
  else XNodes [].
Definition ex_integer (f : spec_float) : Z :=
  match f with
  | S754_finite s m e => let z := if e <? 0 then Z.pos m / 2 ^ (- e) else Z.pos m * 2 ^ e in if s then - z else z
  | _ => 0
  end.
Definition ex_xml : xml_package :=
  mkXmlPackage (fun text => if bytes_eqb text mayors_xml then map (fun p => (snd p, List.length (fst p))) mayors_parts else []) 0 ex_query ex_evaluate ex_integer (fun _ => new_xparser).

Definition ex_parsed : parsed :=
  mkParsed []
    [Some (CCsv (lit "cities") (lit "cities.csv") None true true (lit ",") []);
     Some (CJsonFile (lit "people") (lit "people.json") None);
     Some (CXml (lit "mayors") (lit "mayors.xml") None
       [Some (mkXmlProp (lit "city") [] [] (lit "string(@city)") None []); Some (mkXmlProp (lit "wards") (lit "primitive") (lit "integer") (lit "count(ward)") None []);
        Some (mkXmlProp (lit "names") (lit "array") [] (lit "name") (Some (mkXmlProp [] [] (lit "string") (lit "string(.)") None [])) [])] (lit "//mayor"))]
    [Some (CMap (lit "by_id") (lit "cities") [lit "id"; lit "name"]);
     Some (CWildcard (lit "by_part") (lit "cities.idx") (lit "cities") [lit "name"] (Some true));
     Some (CSqlite (lit "by_name") (lit "cities.db") (lit "cities") [Some (lit "name", lit "nocase"); Some (lit "id", lit "binary")]);
     Some (CSqlite (lit "by_city") (lit "cities.db") (lit "people") [Some (lit "city", []); Some (lit "age", lit "BINARY")]);
     Some (CFts5 (lit "by_word") (lit "cities.db") (lit "cities") [2; 3] [] [lit "name"])]
    [Some (mkServiceConfig (lit "web") (Some (lit ":8080")) None (lit "application/json")
       [Some (lit "list", lit "/cities"); Some (lit "city", lit "/cities/{id}")])]
    [Some (CArray (lit "list") (lit "cities") 2 1000 (lit "limit") (lit "from")
        [(lit "name", Some (mkParam (lit "name") (lit "by_id") (lit "string"))); (lit "part", Some (mkParam (lit "name") (lit "by_part") (lit "string")));
         (lit "same", Some (mkParam (lit "name") (lit "by_name") (lit "string"))); (lit "nr", Some (mkParam (lit "id") (lit "by_id") (lit "integer")));
         (lit "word", Some (mkParam (lit "match") (lit "by_word") (lit "string")))]
        [(lit "people", Some (mkRawRel (lit "people") true 10 [Some (lit "name", Some false)] [Some (lit "id", lit "city", lit "default")] []));
         (lit "first", Some (mkRawRel (lit "people") false 0 [] [Some (lit "id", lit "city", lit "by_city")] []));
         (lit "mayor", Some (mkRawRel (lit "mayors") false 0 [] [Some (lit "id", lit "city", lit "default")] []))]);
     Some (CObject (lit "city") (lit "cities") [(lit "id", Some (mkParam (lit "id") (lit "by_id") (lit "string")))] [])].

Definition ex_rel : relationship := mkRel (lit "people") true 10 [(lit "name", false)] [(lit "id", lit "city", lit "default")] [].
Definition ex_first : relationship := mkRel (lit "people") false 0 [] [(lit "id", lit "city", lit "by_city")] [].
Definition ex_mayor : relationship := mkRel (lit "mayors") false 0 [] [(lit "id", lit "city", lit "default")] [].
Definition ex_list : array_config :=
  mkArray (lit "cities") 2 1000 (lit "limit") (lit "from") [(lit "name", mkParam (lit "name") (lit "by_id") (lit "string")); (lit "part", mkParam (lit "name") (lit "by_part") (lit "string")); (lit "same", mkParam (lit "name") (lit "by_name") (lit "string")); (lit "nr", mkParam (lit "id") (lit "by_id") (lit "integer"));
    (lit "word", mkParam (lit "match") (lit "by_word") (lit "string"))]
    [(lit "people", ex_rel); (lit "first", ex_first); (lit "mayor", ex_mayor)].
Definition ex_city : object_config := mkObject (lit "cities") [(lit "id", mkParam (lit "id") (lit "by_id") (lit "string"))] [].

(** Lower case, of ASCII letters. *)
Definition ex_lower (s : bytes) : bytes :=
  map (fun b => let z := Z_of_byte b in if (65 <=? z) && (z <=? 90) then byte_of_Z (z + 32) else b) s.

(** Upper case, of ASCII letters. *)
Definition ex_upper (s : bytes) : bytes :=
  map (fun b => let z := Z_of_byte b in if (97 <=? z) && (z <=? 122) then byte_of_Z (z - 32) else b) s.

Definition ex_load := load (fun _ => SFile) (fun _ => true) (fun _ => true) ex_upper.

(** Full-text search, of one word in any case. *)
Definition letter (b : byte) : bool := let z := Z_of_byte b in (65 <=? z) && (z <=? 90) || (97 <=? z) && (z <=? 122).
Fixpoint words (cur s : bytes) : list bytes :=
  match s with
  | [] => [cur]
  | b :: s' => if letter b then words (cur ++ [b]) s' else cur :: words [] s'
  end.
Definition has_word (w : bytes) (cell : sqlv) : bool :=
  match cell with SText s => existsb (fun x => bytes_eqb (ex_lower x) (ex_lower w)) (words [] s) | _ => false end.
Definition one_word (q : sqlv) : bool := match q with SText (b :: w) => forallb letter (b :: w) | _ => false end.
Definition word_in (cells : list sqlv) (q : sqlv) : bool := match q with SText w => existsb (has_word w) cells | _ => false end.
Definition ex_fulltext : fulltext := mkFulltext (fun _ _ _ q => one_word q = true) (fun _ _ _ cells q => word_in cells q = true).
Definition ex_matches (t : Sql.table) (q : sqlv) : res (list (list sqlv)) :=
  if one_word q then Ok (filter (fun row => word_in (tl row) q) (Sql.t_rows t)) else Err (EMsg "fts5: syntax error").
Definition ex_boot : vconfig -> outcome (list (bytes * list route) * env) :=
  boot ex_files (fun _ => Ok 0) 7 (fun _ => 5%nat) (fun _ s => Ok s) (fun _ s => [s]) (fun _ => Ok tt)
    (fun _ => new_reader) (fun _ => mkJfile 0 O) ex_lower (fun _ => None) (map Ok) (fun _ _ _ => true) ex_matches (fun _ => empty_db)
    ex_xml insertion_sort (fun _ => Ok tt) (fun _ => Ok tt).
Definition ex_ord : order := fun _ _ l => rev l.
Definition ex_serve (routes : list route) (E : env) (rq : request) : response :=
  fst (serve E ex_ord json_float (fun _ => []) (fun _ _ => true) routes rq).

Definition get (path : bytes) (query : list (bytes * bytes)) : request := mkRequest (lit "GET") path query.
Definition ex_requests : list request :=
  [get (lit "/cities") [];
   get (lit "/cities") [(lit "name", lit "New, York"); (lit "from", lit "0")];
   get (lit "/cities") [(lit "part", lit "O"); (lit "from", lit "1")];
   get (lit "/cities") [(lit "part", lit "")];
   get (lit "/cities") [(lit "same", lit "oSLO"); (lit "part", lit "o")];
   get (lit "/cities") [(lit "word", lit "YORK"); (lit "part", lit "o")];
   get (lit "/cities") [(lit "word", lit "York and")];
   get (lit "/cities/3") [];
   get (lit "/cities/4") [];
   get (lit "/cities") [(lit "from", lit "-1")];
   get (lit "/cities") [(lit "same", lit "oslo"); (lit "nr", lit "three")];
   get (lit "/towns") []].

Definition run (p : parsed) (rqs : list request) : list response :=
  match ex_load p with
  | Ok v =>
    match ex_boot v with
    | Done (services, E) => flat_map (fun s => map (ex_serve (snd s) E) rqs) services
    | _ => []
    end
  | _ => []
  end.
Definition show (r : response) : Z * bytes :=
  match r with [Header status _; Body b] => (status, b) | _ => (0, []) end.

(** The configuration after validation. *)
Definition ex_props : list xprop :=
  [XPrimitive (lit "city") (lit "string(@city)") (lit "string"); XPrimitive (lit "wards") (lit "count(ward)") (lit "integer");
   XArray (lit "names") (lit "name") (XPrimitive [] (lit "string(.)") (lit "string"))].
Definition ex_v : vconfig :=
  mkVConfig
    [(lit "string", PString []); (lit "integer", PInteger []); (lit "float", PFloat (lit ".") []);
     (lit "boolean", PBoolean [lit "true"; lit "1"; lit "TRUE"] [lit "false"; lit "0"; lit "FALSE"]); (lit "json", PJson)]
    [(lit "cities", VCsv (lit "cities.csv") true true true (lit ",") []); (lit "people", VJsonFile (lit "people.json") true);
     (lit "mayors", VXml (lit "mayors.xml") true ex_props (lit "//mayor"))]
    [(lit "by_id", VIMap (lit "cities") [lit "id"; lit "name"]); (lit "by_part", VIWildcard (lit "cities.idx") (lit "cities") [lit "name"] true);
     (lit "by_name", VISqlite (lit "cities.db") (lit "cities") [(lit "name", lit "NOCASE"); (lit "id", lit "BINARY")]);
     (lit "by_city", VISqlite (lit "cities.db") (lit "people") [(lit "city", lit "BINARY"); (lit "age", lit "BINARY")]);
     (lit "by_word", VIFts5 (lit "cities.db") (lit "cities") [2; 3] (lit "unicode61") [lit "name"]); (lit "default", VINoop)]
    [(lit "web", mkVService (Some (lit ":8080")) None [(lit "list", lit "/cities"); (lit "city", lit "/cities/{id}")])]
    [(lit "list", VOutput (OArray ex_list)); (lit "city", VOutput (OObject ex_city))].

(** The tables. *)
Definition city (id name : bytes) : object := [(lit "id", VString id); (lit "name", VString name)].
Definition person (name city : bytes) (age : value) : object := [(lit "name", VString name); (lit "city", VString city); (lit "age", age)].
Definition ex_cities : table := mkTable true [city (lit "1") (lit "Rome"); city (lit "2") (lit "New, York"); city (lit "3") (lit "Oslo")].
Definition fl (m e : Z) : value := VFloat (binary_normalize 53 1024 m e false).
Definition ex_people : table := mkTable false
  [person (lit "Ann") (lit "2") (fl 15 0); person (lit "Bob") (lit "1") (fl 7 0);
   person (lit "Cid") (lit "2") (fl 7205759403792794 (-56))].
Definition mayor (city : bytes) (wards : Z) (names : list bytes) : object := [(lit "city", VString city); (lit "wards", VInt wards); (lit "names", VList (map VString names))].
Definition ex_mayors : table := mkTable true [mayor (lit "1") 1 [lit "Zoe"; lit "Z."]; mayor (lit "3") 0 []].
Definition ex_tables (n : bytes) : option table :=
  if bytes_eqb n (lit "cities") then Some ex_cities else if bytes_eqb n (lit "people") then Some ex_people else if bytes_eqb n (lit "mayors") then Some ex_mayors else None.
Definition ex_cell := named_parser (fun _ s => Ok s) (fun _ s => [s]) ex_v.

Lemma ex_loaded : ex_load ex_parsed = Ok ex_v.
Proof. vm_compute. reflexivity. Qed.

Ltac plain := apply plain_cell; vm_compute; intuition discriminate.
Lemma ex_cities_text :
  csv_text x2c 0 [(0, [lit "id"; lit "name"]); (8, [lit "1"; lit "Rome"]); (15, [lit "2"; lit "New, York"]); (29, [lit "3"; lit "Oslo"])] cities_csv.
Proof.
  assert (R : forall a b, cell_text x2c a a -> cell_text x2c b b -> row_text x2c [a; b] (a ++ x2c :: b)).
  { intros a b H1 H2. apply row_more; [exact H1|]. apply row_one. exact H2. }
  change cities_csv with ((lit "id" ++ x2c :: lit "name") ++ nl ++ (lit "1" ++ x2c :: lit "Rome") ++ nl ++
    (lit "2" ++ x2c :: (quote :: escaped (lit "New, York") ++ [quote])) ++ nl ++ (lit "3" ++ x2c :: lit "Oslo") ++ nl ++ []).
  apply csv_row; [apply R; plain|discriminate|constructor|].
  change (0 + zlen ((lit "id" ++ x2c :: lit "name") ++ nl)) with 8.
  apply csv_row; [apply R; plain|discriminate|constructor|].
  change (8 + zlen ((lit "1" ++ x2c :: lit "Rome") ++ nl)) with 15.
  apply csv_row; [apply row_more; [plain|apply row_one; apply quoted_cell; vm_compute; intuition discriminate]|discriminate|constructor|].
  change (15 + zlen ((lit "2" ++ x2c :: (quote :: escaped (lit "New, York") ++ [quote])) ++ nl)) with 29.
  apply csv_row; [apply R; plain|discriminate|constructor|constructor].
Qed.

Definition ex_docs : list (Z * bytes) :=
  [(0, lit "{""name"":""Ann"",""city"":""2"",""age"":1.5e1}"); (38, lit "{""name"":""Bob"",""city"":""1"",""age"":7}"); (71, lit "{""name"":""Cid"",""city"":""2"",""age"":0.1}")].
Lemma ex_people_text : documents 0 ex_docs people_json.
Proof.
  assert (D : forall t m r, t = x7b :: r -> jvalue 100 t = Some (JObj m, []) -> (jdepth (JObj m) <=? 10000) = true -> document t).
  { intros t m r H1 H2 H3. exists 100%nat, m, r. apply Z.leb_le in H3. auto. }
  change people_json with ([] ++ lit "{""name"":""Ann"",""city"":""2"",""age"":1.5e1}" ++ nl ++ lit "{""name"":""Bob"",""city"":""1"",""age"":7}" ++ [] ++ lit "{""name"":""Cid"",""city"":""2"",""age"":0.1}" ++ nl).
  unfold ex_docs.
  change 0 with (0 + zlen (@nil byte)) at 2. apply docs_more; [reflexivity|eapply D; vm_compute; reflexivity|].
  match goal with |- documents ?p _ _ => change p with 37 end.
  change 38 with (37 + zlen nl). apply docs_more; [reflexivity|eapply D; vm_compute; reflexivity|].
  match goal with |- documents ?p _ _ => change p with 71 end.
  change 71 with (71 + zlen (@nil byte)) at 2. apply docs_more; [reflexivity|eapply D; vm_compute; reflexivity|].
  apply docs_end. reflexivity.
Qed.

Lemma ex_cells_row a b : cells_row ex_cell [(lit "id", lit "string"); (lit "name", lit "string")] [a; b] (city a b).
Proof.
  split; [reflexivity|]. intros [|[|i]] name parser x H1 H2; cbn [nth_error map snd city] in H1, H2; try (destruct i; discriminate);
    injection H1 as <- <-; injection H2 as <-; reflexivity.
Qed.

Definition mayor_trees : list xtree :=
  [XElem (lit "mayor") [(lit "city", lit "1")] [XElem (lit "name") [] [XText (lit "Zoe")]; XElem (lit "name") [] [XText (lit "Z.")]; XElem (lit "ward") [] []];
   XElem (lit "mayor") [(lit "city", lit "3")] []].
Lemma ex_mayors_flat : exists recs, flat (lit "mayor") recs (map snd mayors_parts) /\ map snd recs = mayor_trees.
Proof.
  eexists. split.
  - change (map snd mayors_parts) with ([RProc (lit "xml") false] ++ ([RStart (lit "mayors") []] ++ []) ++ (([RText (lit " ")] ++ []) ++
      (RStart (lit "mayor") [(lit "city", lit "1")] :: ((RStart (lit "name") [] :: ([RText (lit "Zoe")] ++ []) ++ [XmlStream.REnd (lit "name")]) ++
         (RStart (lit "name") [] :: ([RText (lit "Z.")] ++ []) ++ [XmlStream.REnd (lit "name")]) ++ [RVoid (lit "ward") []] ++ []) ++ [XmlStream.REnd (lit "mayor")]) ++
      (([RText (lit " ")] ++ []) ++ (RStart (lit "mayor") [(lit "city", lit "3")] :: [] ++ [XmlStream.REnd (lit "mayor")]) ++ [])) ++ [XmlStream.REnd (lit "mayors")]).
    apply flat_some.
    + constructor; [reflexivity|constructor].
    + apply opening_elem; [discriminate|]. constructor.
    + apply listed_record with (gap := [XText (lit " ")]) (a := [(lit "city", lit "1")]) (kids := tree_kids (nth 0 mayor_trees (XText []))).
      * constructor; constructor.
      * repeat constructor.
      * apply written_elem. constructor; [repeat constructor|]. constructor; [repeat constructor|]. constructor; [repeat constructor|constructor].
      * apply listed_record with (gap := [XText (lit " ")]) (a := [(lit "city", lit "3")]) (kids := []).
        -- constructor; constructor.
        -- repeat constructor.
        -- repeat constructor.
        -- constructor.
    + constructor; [exact I|constructor].
  - reflexivity.
Qed.
Lemma ex_mayors_closed : closed_elements (map snd mayors_parts).
Proof.
  exists [RProc (lit "xml") false], (map snd (tl mayors_parts)). split; [reflexivity|].
  split; [constructor; [reflexivity|constructor]|]. repeat constructor.
Qed.
Lemma ex_mayors_rows : Forall2 (fun t a => node_row xnode ex_query ex_evaluate ex_integer (typed_parser (vc_parsers ex_v)) ex_cell (t, []) ex_props a) mayor_trees (t_rows ex_mayors).
Proof.
  assert (T : typed_parser (vc_parsers ex_v) (lit "integer") XPInteger) by exact I.
  assert (P : forall t c w l, ex_evaluate (t, []) (lit "string(@city)") = XString c -> (exists f, ex_evaluate (t, []) (lit "count(ward)") = XNumber f /\ ex_integer f = w) ->
    Forall2 (fun n s => ex_evaluate n (lit "string(.)") = XString s) (ex_query (t, []) (lit "name")) l ->
    node_row xnode ex_query ex_evaluate ex_integer (typed_parser (vc_parsers ex_v)) ex_cell (t, []) ex_props (mayor c w l)).
  { intros t c w l H1 (f & H2 & <-) H3. exists [VString c; VInt (ex_integer f); VList (map VString l)]. split; [reflexivity|].
    constructor; [eapply nv_text; [exact H1|reflexivity]|]. constructor; [apply nv_integer; [exact H2|exact T]|]. constructor; [|constructor].
    apply nv_array. induction H3 as [|n s ns l Hn Hl IH]; constructor; [|exact IH]. eapply nv_text; [exact Hn|reflexivity]. }
  constructor; [|constructor; [|constructor]]; apply P; try (vm_compute; reflexivity); try (eexists; split; vm_compute; reflexivity).
  - vm_compute. repeat constructor.
  - vm_compute. constructor.
Qed.

Lemma ex_provides n t : ex_tables n = Some t -> exists c, mget (vc_inputs ex_v) n = Some c /\ provides ex_cell (vc_parsers ex_v) ex_xml ex_files c t.
Proof.
  unfold ex_tables. cbn [vc_inputs ex_v mget].
  rewrite (bytes_eqb_sym n (lit "cities")), (bytes_eqb_sym n (lit "people")), (bytes_eqb_sym n (lit "mayors")).
  destruct (bytes_eqb (lit "cities") n) eqn:E1; [|destruct (bytes_eqb (lit "people") n) eqn:E2; [|destruct (bytes_eqb (lit "mayors") n) eqn:E3; [|discriminate]]]; intro H; injection H as <-.
  - eexists. split; [reflexivity|].
    refine (provides_csv ex_cell (vc_parsers ex_v) ex_xml ex_files (lit "cities.csv") true true true x2c [] _ _ _ _ _ ex_cities_text _ _ _).
    + split; [vm_compute; intuition discriminate|reflexivity].
    + do 3 eexists. split; reflexivity.
    + do 2 eexists. split; reflexivity.
    + repeat (constructor; [apply ex_cells_row|]). constructor.
  - eexists. split; [reflexivity|].
    apply (provides_json ex_cell (vc_parsers ex_v) ex_xml ex_files (lit "people.json") true ex_docs (t_rows ex_people) ex_people_text).
    repeat (constructor; [vm_compute; reflexivity|]). constructor.
  - eexists. split; [reflexivity|]. destruct ex_mayors_flat as (recs & Hf & Hr).
    refine (provides_xml ex_cell (vc_parsers ex_v) ex_xml ex_files (lit "mayors.xml") true ex_props (lit "mayor") recs (t_rows ex_mayors) _ _ _ _ Hf ex_mayors_closed _).
    + discriminate.
    + repeat constructor; unfold name_byte; vm_compute; intuition discriminate.
    + vm_compute. repeat constructor.
    + vm_compute. reflexivity.
    + pose proof ex_mayors_rows as Hrows. rewrite <- Hr in Hrows. revert Hrows. generalize (t_rows ex_mayors). clear. induction recs as [|r recs IH]; intros l H; inversion H; subst; constructor; auto.
Qed.

Lemma ex_ready : ready ex_files 7 (fun _ => 5%nat) (fun _ => new_reader) ex_xml ex_cell ex_v ex_tables.
Proof.
  split.
  - lia.
  - intros. apply used_new.
  - exact ex_provides.
  - intros n t path die props xpath _ _. exists []. split; [reflexivity|intros ? []].
  - intros n t a. unfold ex_tables. destruct (bytes_eqb n _); [|destruct (bytes_eqb n _); [|destruct (bytes_eqb n _); [|discriminate]]]; intros H; injection H as <-;
      intros Ha; repeat (destruct Ha as [<-|Ha]; [repeat constructor; vm_compute; try discriminate; intuition discriminate|]); destruct Ha.
  - reflexivity.
Qed.

Lemma plain_path k : k <> [] -> ~ In x2e k -> dotted k [k].
Proof.
  intros H0 H. split; [exact H0|]. apply pieces_last. intros (a & b & E). apply H. rewrite E. apply in_or_app. right. left. reflexivity.
Qed.
Ltac plain_name := apply plain_path; [discriminate|vm_compute; intuition discriminate].

Lemma ex_covered_list : covered (kind_of ex_lower ex_fulltext ex_v) ex_v ex_tables (ac_input ex_list) (ac_params ex_list) (ac_relationships ex_list) ex_cities.
Proof.
  constructor.
  - reflexivity.
  - constructor; [repeat constructor; cbn; intuition discriminate|].
    intros name c Hin; destruct Hin as [Hin|[Hin|[Hin|[]]]]; injection Hin as <- <-; [exists ex_people|exists ex_people|exists ex_mayors]; (split; [reflexivity|]; split; [split; reflexivity || discriminate|]; split; [|constructor; [constructor|intros ? ? []]]).
    + intros m [<-|[]]. split; [|split].
      * intros [G|[G|[G|[]]]]; discriminate G.
      * right. right. right. right. split; [reflexivity|]. intros a [<-|[<-|[<-|[]]]]; (eexists; split;
          [exists (lit "city"), []; split; [plain_name|]; split; [eapply ap_key; [vm_compute; reflexivity|constructor]|discriminate]|exact I]).
      * intros a [<-|[<-|[<-|[]]]]; eexists; (split; [vm_compute; reflexivity|exact I]).
    + intros m [<-|[]]. split; [|split].
      * intros [G|[G|[G|[]]]]; discriminate G.
      * right. right. left. do 3 eexists. split; [reflexivity|]. repeat (constructor; [cbn; auto|]). constructor.
      * intros a [<-|[<-|[<-|[]]]]; eexists; (split; [vm_compute; reflexivity|exact I]).
    + intros m [<-|[]]. split; [|split].
      * intros [G|[G|[G|[]]]]; discriminate G.
      * right. right. right. right. split; [reflexivity|]. intros a [<-|[<-|[]]]; (eexists; split;
          [exists (lit "city"), []; split; [plain_name|]; split; [eapply ap_key; [vm_compute; reflexivity|constructor]|intros _; vm_compute; intuition congruence]|exact I]).
      * intros a [<-|[<-|[<-|[]]]]; eexists; (split; [vm_compute; reflexivity|exact I]).
  - repeat constructor; cbn; intuition discriminate.
  - assert (C : collated [(lit "name", lit "NOCASE"); (lit "id", lit "BINARY")]) by (repeat (constructor; [cbn; auto|]); constructor).
    intros name pc [H|[H|[H|[H|[H|[]]]]]]; injection H as <- <-; [left; do 2 eexists; reflexivity| |right; right; left; do 3 eexists; split; [reflexivity|exact C]|left; do 2 eexists; reflexivity|].
    + right. left. do 4 eexists. split; [reflexivity|].
      intros a p [<-|[<-|[<-|[]]]] [<-|[]]; (eexists; exists (lit "name"), []; split; [plain_name|]; split; [eapply ap_key; [vm_compute; reflexivity|constructor]|intros _; right; left; reflexivity]).
    + right. right. right. left. do 5 eexists. split; [reflexivity|]. repeat constructor; vm_compute; intuition discriminate.
Qed.

Lemma ex_covered_city : covered (kind_of ex_lower ex_fulltext ex_v) ex_v ex_tables (oc_input ex_city) (oc_params ex_city) (oc_relationships ex_city) ex_cities.
Proof.
  constructor.
  - reflexivity.
  - constructor; [constructor|intros ? ? []].
  - repeat constructor; intros [].
  - intros name pc [H|[]]. injection H as <- <-. left. do 2 eexists. reflexivity.
Qed.

(** What the program does with a request: the output and its parameters. *)
Definition routed_by (b : outcome (list (bytes * list route) * env)) (rq : request) : option (output * res (list (bytes * bytes))) :=
  match b with
  | Done ([(_, routes)], _) =>
    match matching_route routes rq with Some r => Some (rt_output r, get_params r rq) | None => None end
  | _ => None
  end.
Definition ex_routed (rq : request) : option (output * res (list (bytes * bytes))) := routed_by (ex_boot ex_v) rq.

Lemma ex_route rq o params : ex_routed rq = Some (o, Ok params) ->
  exists services E s routes r, ex_boot ex_v = Done (services, E) /\ In (s, routes) services /\ first_match routes rq r /\ rt_output r = o /\ get_params r rq = Ok params.
Proof.
  unfold ex_routed, routed_by. destruct (ex_boot ex_v) as [[[|[s routes] [|? ?]] E]| | |]; try discriminate.
  destruct (matching_route routes rq) as [r|] eqn:M; [|discriminate]. intro H. apply matching_first in M.
  exists [(s, routes)], E, s, routes, r. repeat split; try congruence. left. reflexivity.
Qed.

Lemma ex_no_route rq : match ex_boot ex_v with Done ([(_, routes)], _) => matching_route routes rq = None | _ => False end ->
  exists services E s routes, ex_boot ex_v = Done (services, E) /\ In (s, routes) services /\ forall r, ~ first_match routes rq r.
Proof.
  destruct (ex_boot ex_v) as [[[|[s routes] [|? ?]] E]| | |]; try contradiction. intro M. exists [(s, routes)], E, s, routes.
  split; [reflexivity|]. split; [left; reflexivity|]. intros r Hr. apply matching_first in Hr. congruence.
Qed.

(** The file of the wildcard index. *)
Definition ex_created (E : env) : bool :=
  match mget (e_inputs E) (lit "cities") with
  | Some inp =>
    match in_size inp, in_mtime inp with
    | Ok size, Ok time =>
      (size <? two63) && (- two63 <=? time) && (time <? two63) &&
      let s := snd (create_index ex_lower (mkWconfig (lit "cities") [lit "name"] true) inp created_stream) in zlen (st_file s ++ st_buf s) <? max_alloc
    | _, _ => false
    end
  | None => false
  end.
Lemma ex_wildcards services E : ex_boot ex_v = Done (services, E) -> wildcards_ready ex_lower (fun _ => None) ex_v E.
Proof.
  intros Hb. assert (H : ex_created E = true).
  { change (match Done (services, E) with Done (_, E) => ex_created E | _ => false end = true). rewrite <- Hb. vm_compute. reflexivity. }
  split; [vm_compute; repeat constructor; intros []|]. intros n path input props ic inp Hn Hi. cbn [vc_indexes ex_v mget] in Hn.
  destruct (bytes_eqb (lit "by_id") n); [discriminate|]. destruct (bytes_eqb (lit "by_part") n); [|destruct (bytes_eqb (lit "by_name") n); [discriminate|]; destruct (bytes_eqb (lit "by_city") n); [discriminate|]; destruct (bytes_eqb (lit "by_word") n); [discriminate|]; destruct (bytes_eqb (lit "default") n); discriminate].
  injection Hn as <- <- <- <-. unfold ex_created in H. rewrite Hi in H.
  destruct (in_size inp) as [size| | |]; try discriminate H. destruct (in_mtime inp) as [time| | |]; try discriminate H.
  apply andb_true_iff in H as [H H4]. apply andb_true_iff in H as [H H3]. apply andb_true_iff in H as [H1 H2].
  split; [exists size, time; unfold in_i64; repeat split; (apply Z.ltb_lt || apply Z.leb_le); assumption|].
  intros r s Hc. rewrite Hc in H4. cbv zeta in H4. cbn [snd] in H4. apply Z.ltb_lt in H4. split; [exact H4|left; reflexivity].
Qed.

(** The databases: new ones. *)
Lemma filter_kept {A} (P : A -> Prop) (f : A -> bool) : (forall x, f x = true <-> P x) -> forall l, kept P l (filter f l).
Proof.
  intros H. induction l as [|x l IH]; [constructor|]. cbn [filter]. destruct (f x) eqn:E; [apply kept_yes|apply kept_no]; try exact IH; rewrite <- H; congruence.
Qed.
Lemma ex_searched : searched_by ex_matches ex_fulltext.
Proof.
  intros props prefix tokenize rows q H. cbn [fx_valid ex_fulltext] in H. eexists. unfold ex_matches. rewrite H. split; [reflexivity|].
  apply filter_kept. intros x. reflexivity.
Qed.
Lemma ex_databases E : databases_ready (map Ok) (fun _ _ _ => true) ex_matches ex_fulltext (fun _ => empty_db) ex_v E.
Proof.
  split; [intros l; reflexivity|]. split; [exact ex_searched|]. split; [repeat constructor; vm_compute; intuition discriminate|]. split.
  - vm_compute. repeat constructor; cbn; intuition discriminate.
  - intros. left. split; reflexivity.
Qed.

Lemma ex_order : order_ok ex_ord.
Proof. intros loc A l. apply Permutation_rev. Qed.

Lemma ex_limits : unsigned_limits ex_parsed.
Proof.
  intros n i d mx lp op params rels [H|[H|[]]]; [|discriminate H]. injection H; intros; subst. split; discriminate.
Qed.
