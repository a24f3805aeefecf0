(** The installation of SystemExample.v, with files that are broken. *)
From Coq Require Import List ZArith Lia Bool String Permutation.
From Coq Require Import Strings.Byte.
From Verif Require Import Sql SqlIndex SpecSql SpecSqlFind.
From Verif Require Import XmlStream XmlInput.
From Verif Require Import FloatFormat Base BaseFacts Codec Value GoStrings SpecText Parser ParserFacts Records SpecRecords Prog Bufio CsvReader SpecCsv JsonReader.
From Verif Require Import Join Index SpecIndex Sort Output SpecOutput Http SpecHttp Route SpecRoute Config SpecConfig Start.
From Verif Require Import Stream Wildcard SpecWildcard System SpecSystem SystemExample SpecRobust OrderFacts.
Import ListNotations.
Open Scope Z_scope.

(** A quote is not closed in the list of cities, a document is cut in the list of people,
    and the list of mayors ends in a record. *)
Definition torn_cities : bytes := cities_csv ++ lit "4,""Bergen".
Definition torn_people : bytes := people_json ++ lit "{""name"":".
Definition torn_parts : list (bytes * rawtok) := firstn 11 mayors_parts.
Definition torn_mayors : bytes := List.concat (map fst torn_parts).
Definition torn_files (path : bytes) : bytes :=
  if bytes_eqb path (lit "cities.csv") then torn_cities else if bytes_eqb path (lit "mayors.xml") then torn_mayors
  else if bytes_eqb path (lit "towns.csv") then cities_csv else torn_people.
Definition torn_xml : xml_package :=
  mkXmlPackage (fun text => if bytes_eqb text torn_mayors then map (fun p => (snd p, List.length (fst p))) torn_parts else []) 0 ex_query ex_evaluate ex_integer (fun _ => new_xparser).

Definition torn_parsed : parsed :=
  mkParsed []
    [Some (CCsv (lit "cities") (lit "cities.csv") None true true (lit ",") []);
     Some (CCsv (lit "towns") (lit "towns.csv") None true true (lit ",") []);
     Some (CJsonFile (lit "people") (lit "people.json") None);
     Some (CXml (lit "mayors") (lit "mayors.xml") None
       [Some (mkXmlProp (lit "city") [] [] (lit "string(@city)") None [])] (lit "//mayor"))]
    [Some (CWildcard (lit "by_part") (lit "towns.idx") (lit "towns") [lit "name"] (Some true));
     Some (CSqlite (lit "by_name") (lit "towns.db") (lit "towns") [Some (lit "name", lit "nocase")])]
    [Some (mkServiceConfig (lit "web") (Some (lit ":8080")) None (lit "application/json")
       [Some (lit "list", lit "/cities"); Some (lit "town", lit "/towns/{id}"); Some (lit "mayors", lit "/mayors"); Some (lit "people", lit "/people")])]
    [Some (CArray (lit "list") (lit "cities") 2 1000 (lit "limit") (lit "from")
        [(lit "id", Some (mkParam (lit "id") (lit "default") (lit "string")))]
        [(lit "town", Some (mkRawRel (lit "towns") true 3 [Some (lit "name", Some false)] [Some (lit "name", lit "name", lit "by_part")] []))]);
     Some (CObject (lit "town") (lit "towns") [(lit "id", Some (mkParam (lit "id") (lit "default") (lit "string")))]
        [(lit "people", Some (mkRawRel (lit "people") true 10 [] [Some (lit "id", lit "city", lit "default")] []))]);
     Some (CArray (lit "mayors") (lit "mayors") 2 1000 (lit "limit") (lit "from") [] [(lit "town", Some (mkRawRel (lit "towns") false 0 [] [Some (lit "city", lit "name", lit "by_name")] []))]);
     Some (CArray (lit "people") (lit "people") 2 1000 (lit "limit") (lit "from") [] [])].

Definition torn_boot : vconfig -> outcome (list (bytes * list route) * env) :=
  boot torn_files (fun _ => Ok 0) 7 (fun _ => 5%nat) (fun _ s => Ok s) (fun _ s => [s]) (fun _ => Ok tt)
    (fun _ => new_reader) (fun _ => mkJfile 0 O) ex_lower (fun _ => None) (map Ok) (fun _ _ _ => true) ex_matches (fun _ => empty_db)
    torn_xml insertion_sort (fun _ => Ok tt) (fun _ => Ok tt).
Definition torn_requests : list request :=
  [get (lit "/cities") [(lit "limit", lit "1")]; get (lit "/cities") [(lit "from", lit "2")]; get (lit "/towns/9") []; get (lit "/towns/1") []; get (lit "/mayors") [];
   get (lit "/people") [(lit "limit", lit "1")]; get (lit "/people") [(lit "from", lit "3")]].

(** The configuration after validation. *)
Definition torn_outputs : list (bytes * voutput) :=
  [(lit "list", VOutput (OArray (mkArray (lit "cities") 2 1000 (lit "limit") (lit "from") [(lit "id", mkParam (lit "id") (lit "default") (lit "string"))]
      [(lit "town", mkRel (lit "towns") true 3 [(lit "name", false)] [(lit "name", lit "name", lit "by_part")] [])])));
   (lit "town", VOutput (OObject (mkObject (lit "towns") [(lit "id", mkParam (lit "id") (lit "default") (lit "string"))]
      [(lit "people", mkRel (lit "people") true 10 [] [(lit "id", lit "city", lit "default")] [])])));
   (lit "mayors", VOutput (OArray (mkArray (lit "mayors") 2 1000 (lit "limit") (lit "from") []
      [(lit "town", mkRel (lit "towns") false 0 [] [(lit "city", lit "name", lit "by_name")] [])])));
   (lit "people", VOutput (OArray (mkArray (lit "people") 2 1000 (lit "limit") (lit "from") [] [])))].
Definition torn_v : vconfig :=
  mkVConfig (vc_parsers ex_v)
    [(lit "cities", VCsv (lit "cities.csv") true true true (lit ",") []); (lit "towns", VCsv (lit "towns.csv") true true true (lit ",") []);
     (lit "people", VJsonFile (lit "people.json") true);
     (lit "mayors", VXml (lit "mayors.xml") true [XPrimitive (lit "city") (lit "string(@city)") (lit "string")] (lit "//mayor"))]
    [(lit "by_part", VIWildcard (lit "towns.idx") (lit "towns") [lit "name"] true);
     (lit "by_name", VISqlite (lit "towns.db") (lit "towns") [(lit "name", lit "NOCASE")]); (lit "default", VINoop)]
    [(lit "web", mkVService (Some (lit ":8080")) None [(lit "list", lit "/cities"); (lit "town", lit "/towns/{id}"); (lit "mayors", lit "/mayors"); (lit "people", lit "/people")])]
    torn_outputs.
Lemma torn_loaded : ex_load torn_parsed = Ok torn_v.
Proof. vm_compute. reflexivity. Qed.

(** A path without a minus sign. *)
Lemma piece_bytes sep s l : pieces sep s l -> forall k, In k l -> incl k s.
Proof.
  induction 1 as [s N|a s l N H IH]; intros k [<-|Hk] b Hb; try (destruct Hk; fail).
  - exact Hb.
  - apply in_or_app. left. exact Hb.
  - apply in_or_app. right. apply in_or_app. right. exact (IH k Hk b Hb).
Qed.
Lemma decimal_nonneg ds z : decimal ds z -> 0 <= z.
Proof. induction 1; lia. Qed.
Lemma no_minus p : ~ In x2d p -> unsigned_path p.
Proof.
  intros H segs [_ Hp] k i Hk Hs. pose proof (piece_bytes _ _ _ Hp k Hk) as I. destruct Hs as [ds z D|ds z D|ds z D]; try (eapply decimal_nonneg; exact D).
  destruct H. apply I. left. reflexivity.
Qed.
Ltac unsigned := apply no_minus; vm_compute; intuition discriminate.

(** The record of a town can be indexed, and its file is small. *)
Definition string_in (r : rec) (p : bytes) : bool := match r_get r p with Ok (VString _) => true | _ => false end.
Definition in_int64 (z : Z) : bool := (- two63 <=? z) && (z <? two63).
Definition torn_towns (E : env) : bool :=
  match mget (e_inputs E) (lit "towns") with
  | Some inp =>
    match in_size inp, in_mtime inp with
    | Ok size, Ok time =>
      in_int64 size && in_int64 time &&
      (let s := snd (create_index ex_lower (mkWconfig (lit "towns") [lit "name"] true) inp created_stream) in zlen (st_file s ++ st_buf s) <? max_alloc) &&
      forallb (fun it => match it with Ok r => in_int64 (r_pos r) && string_in r (lit "name") | _ => false end) (in_iter inp)
    | _, _ => false
    end
  | None => false
  end.
Lemma int64_spec z : in_int64 z = true -> in_i64 z.
Proof. unfold in_int64, in_i64. intros H. apply andb_true_iff in H as [H1 H2]. apply Z.leb_le in H1. apply Z.ltb_lt in H2. auto. Qed.
Lemma torn_indexed services E : torn_boot torn_v = Done (services, E) ->
  wildcards_ready ex_lower (fun _ => None) torn_v E /\
  forall n path input props ic inp, mget (vc_indexes torn_v) n = Some (VIWildcard path input props ic) ->
    mget (e_inputs E) input = Some inp -> SpecWildcard.indexable props inp.
Proof.
  intros Hb. assert (H : torn_towns E = true).
  { change (match Done (services, E) with Done (_, E) => torn_towns E | _ => false end = true). rewrite <- Hb. vm_compute. reflexivity. }
  assert (W : forall n path input props ic, mget (vc_indexes torn_v) n = Some (VIWildcard path input props ic) ->
    path = lit "towns.idx" /\ input = lit "towns" /\ props = [lit "name"] /\ ic = true).
  { intros n path input props ic Hn. cbn [vc_indexes torn_v mget] in Hn. destruct (bytes_eqb (lit "by_part") n); [injection Hn as <- <- <- <-; auto|].
    destruct (bytes_eqb (lit "by_name") n); [discriminate|]. destruct (bytes_eqb (lit "default") n); discriminate. }
  unfold torn_towns in H. destruct (mget (e_inputs E) (lit "towns")) as [i|] eqn:Hi; [|discriminate H].
  destruct (in_size i) as [size| | |] eqn:Hs; try discriminate H. destruct (in_mtime i) as [time| | |] eqn:Ht; try discriminate H.
  apply andb_true_iff in H as [H H4]. apply andb_true_iff in H as [H H3]. apply andb_true_iff in H as [H1 H2]. apply int64_spec in H1, H2.
  split; [split; [vm_compute; repeat constructor; intros []|]|].
  - intros n path input props ic inp Hn Hin. apply W in Hn. destruct Hn as (-> & -> & -> & ->). rewrite Hi in Hin. injection Hin as <-.
    split; [exists size, time; repeat split; try assumption; try apply H1; apply H2|].
    intros r s Hc. rewrite Hc in H3. cbv zeta in H3. cbn [snd] in H3. apply Z.ltb_lt in H3. split; [exact H3|left; reflexivity].
  - intros n path input props ic inp Hn Hin. apply W in Hn. destruct Hn as (-> & -> & -> & ->). rewrite Hi in Hin. injection Hin as <-.
    split; [exists size; auto|]. split; [exists time; auto|]. apply Forall_forall. intros it Hit.
    rewrite forallb_forall in H4. specialize (H4 it Hit). destruct it as [r| | |]; try discriminate H4. exists r. split; [reflexivity|].
    apply andb_true_iff in H4 as [H4 H5]. split; [exact (int64_spec _ H4)|]. constructor; [|constructor].
    unfold string_in in H5. destruct (r_get r (lit "name")) as [[| | | |v| |]| | |]; try discriminate H5. exists v. reflexivity.
Qed.

Lemma torn_string v : vc_parsers v = vc_parsers ex_v -> gives_primitive v (lit "string").
Proof. intros E c. rewrite E. intros H. vm_compute in H. injection H as <-. exact I. Qed.
Lemma modest_none v E input : modest v E input [].
Proof. constructor. intros ? ? []. Qed.
Ltac plain_text l := exists l; split; [vm_compute; reflexivity|repeat (apply Forall_cons; [split; [unfold scalar; lia|split; [discriminate|cbn [In]; intuition discriminate]]|]); apply Forall_nil].

Lemma torn_robust services E : torn_boot torn_v = Done (services, E) ->
  robust torn_files 7 (fun _ => 5%nat) (fun _ s => Ok s) (fun _ => new_reader) ex_lower (fun _ => None) (map Ok) ex_matches torn_v E.
Proof.
  intros Hb. split.
  - lia.
  - intros. apply used_new.
  - intros c s. exact I.
  - split; [intros l x Hx; apply in_map_iff in Hx; destruct Hx as (row & <- & Hx); exact Hx|].
    intros t a. unfold ex_matches. destruct (one_word a); exact I.
  - exists (fun _ => 0%nat). intros name d r sub c H _. cbn [vc_parsers torn_v ex_v mget] in H.
    repeat (match type of H with (if ?b then _ else _) = _ => destruct b; [discriminate|] end). discriminate.
  - exact (torn_indexed services E Hb).
  - intros n o name pc Ho Hp. cbn [vc_outputs torn_v torn_outputs] in Ho.
    destruct Ho as [Ho|[Ho|[Ho|[Ho|[]]]]]; injection Ho as <- <-; cbn in Hp; try contradiction; destruct Hp as [Hp|[]]; injection Hp as <- <-; unsigned.
  - intros n o Ho. cbn [vc_outputs torn_v torn_outputs] in Ho. destruct Ho as [Ho|[Ho|[Ho|[Ho|[]]]]]; injection Ho as <- <-; constructor; intros name c Hc;
      cbn in Hc; try contradiction; destruct Hc as [Hc|[]]; injection Hc as <- <-; (split; [split; [discriminate|reflexivity]|]; split; [intros m [<-|[]]; split; [|split]|split; [|apply modest_none]]).
    + intros [G|[]]; discriminate G.
    + unsigned.
    + intros c Hc. vm_compute in Hc. injection Hc as <-. apply torn_string. reflexivity.
    + intros s [<-|[]]. unsigned.
    + intros [G|[]]; discriminate G.
    + unsigned.
    + intros c Hc. vm_compute in Hc. injection Hc as <-. apply torn_string. reflexivity.
    + intros s [].
    + intros [G|[]]; discriminate G.
    + unsigned.
    + intros c Hc. vm_compute in Hc. injection Hc as <-. intros x [<-|[]] _. apply torn_string. reflexivity.
    + intros s [].
  - intros n sc name path o Hn Hr Ho. cbn [vc_services torn_v] in Hn. destruct Hn as [Hn|[]]. injection Hn as <- <-. cbn [vs_routes] in Hr.
    destruct Hr as [Hr|[Hr|[Hr|[Hr|[]]]]]; injection Hr as <- <-; vm_compute in Ho; injection Ho as <-.
    + exists [lit "/cities"], [], []. split; [reflexivity|]. split; [reflexivity|]. split; [|split; constructor].
      constructor; [plain_text [47; 99; 105; 116; 105; 101; 115]|constructor].
    + exists [lit "/towns/"; []], [lit "id"], [PString []]. split; [reflexivity|]. split; [reflexivity|]. split; [|split].
      * constructor; [plain_text [47; 116; 111; 119; 110; 115; 47]|]. constructor; [plain_text (@nil Z)|constructor].
      * constructor; [split; [discriminate|vm_compute; intuition discriminate]|constructor].
      * constructor; [|constructor]. split; [eexists; split; reflexivity|exact I].
    + exists [lit "/mayors"], [], []. split; [reflexivity|]. split; [reflexivity|]. split; [|split; constructor].
      constructor; [plain_text [47; 109; 97; 121; 111; 114; 115]|constructor].
    + exists [lit "/people"], [], []. split; [reflexivity|]. split; [reflexivity|]. split; [|split; constructor].
      constructor; [plain_text [47; 112; 101; 111; 112; 108; 101]|constructor].
Qed.

Lemma torn_numeric E : numeric torn_v E.
Proof.
  intros n c Hc. left. cbn [vc_inputs torn_v mget] in Hc.
  assert (S : number_parser (vc_parsers torn_v) (lit "string")) by (apply np_simple; intros d Hd; vm_compute in Hd; injection Hd as <-; exact I).
  repeat (match type of Hc with (if ?b then _ else _) = _ => destruct b; [injection Hc as <-|] end); [exact S|exact S|exact I| |discriminate].
  constructor; [|constructor]. apply npr_primitive. exact S.
Qed.

Lemma insertion_perm {A} (lt : A -> A -> bool) l : Permutation l (insertion_sort lt l).
Proof.
  unfold insertion_sort. rewrite <- Permutation_rev. change l with ([] ++ l) at 1. generalize (@nil A) as acc.
  induction l as [|x l IH]; intros acc; cbn [fold_left]; [rewrite app_nil_r; reflexivity|].
  rewrite <- IH. rewrite <- (ins_rev_perm lt x acc). rewrite <- Permutation_middle. reflexivity.
Qed.

(** A parameter of a negative path. *)
Definition last_parsed : parsed :=
  mkParsed [] [Some (CJsonFile (lit "people") (lit "people.json") None)] []
    [Some (mkServiceConfig (lit "web") (Some (lit ":8080")) None (lit "application/json") [Some (lit "people", lit "/people")])]
    [Some (CArray (lit "people") (lit "people") 2 1000 (lit "limit") (lit "from") [(lit "last", Some (mkParam (lit "cities.-1") (lit "default") (lit "string")))] [])].
Definition last_boot : vconfig -> outcome (list (bytes * list route) * env) :=
  boot (fun _ => lit "{""cities"":[""Rome""]}") (fun _ => Ok 0) 7 (fun _ => 5%nat) (fun _ s => Ok s) (fun _ s => [s]) (fun _ => Ok tt)
    (fun _ => new_reader) (fun _ => mkJfile 0 O) ex_lower (fun _ => None) (map Ok) (fun _ _ _ => true) ex_matches (fun _ => empty_db)
    torn_xml insertion_sort (fun _ => Ok tt) (fun _ => Ok tt).
Definition last_result : option (response * res unit) :=
  match ex_load last_parsed with
  | Ok v =>
    match last_boot v with
    | Done ([(s, routes)], E) => Some (serve E ex_ord json_float (fun _ => []) (fun _ _ => true) routes (get (lit "/people") [(lit "last", lit "Rome")]))
    | _ => None
    end
  | _ => None
  end.
Lemma last_stops : exists v services E s routes rq,
  ex_load last_parsed = Ok v /\ last_boot v = Done (services, E) /\ In (s, routes) services /\
  serve E ex_ord json_float (fun _ => []) (fun _ _ => true) routes rq = ([], Panic).
Proof.
  assert (H : last_result = Some ([], Panic)) by (vm_compute; reflexivity). unfold last_result in H.
  destruct (ex_load last_parsed) as [v| | |] eqn:El; try discriminate. destruct (last_boot v) as [[[|[s routes] [|? ?]] E]| | |] eqn:Eb; try discriminate.
  injection H as H. exists v, [(s, routes)], E, s, routes, (get (lit "/people") [(lit "last", lit "Rome")]). rewrite Eb. split; [reflexivity|]. split; [reflexivity|]. split; [left; reflexivity|exact H].
Qed.
