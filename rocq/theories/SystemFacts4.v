(** From the configuration to the answers. *)
From Coq Require Import List ZArith Lia Bool String Permutation Sorted.
From Coq Require Import Strings.Byte Floats.SpecFloat.
From Verif Require Import XmlStream XmlInput.
From Verif Require Import Sql SqlIndex SpecSql SpecSqlFind.
From Verif Require Import FloatFormat Base Codec Value GoStrings Parser FloatText JsonDecode Records SpecRecords RecordsFacts SpecText Prog Bufio CsvReader SpecCsv.
From Verif Require Import JsonReader SpecJsonFile Join Index SpecIndex Sort SpecOrder Output SpecOutput SpecJson Json Http SpecHttp Regex Route Config SpecConfig Start.
From Verif Require Import System SpecSystem ConfigFacts4 SystemFacts SystemFacts3.
Import ListNotations.
Open Scope Z_scope.

Lemma named_well c : (forall name xp l, sub_prop (XObject name xp l) c -> NoDup (map x_name l)) -> well_named c.
Proof.
  induction c as [n x p|n x c IH|n x props IH] using xprop_ind'; intros H.
  - constructor.
  - constructor. apply IH. intros name xp l Hs. apply (H name xp l). constructor. exact Hs.
  - constructor; [apply (H n x props); constructor|]. rewrite Forall_forall in IH. intros c Hc. apply (IH c Hc). intros name xp l Hs. apply (H name xp l). apply (sub_member _ n x props c Hc Hs).
Qed.
Lemma names_well v : unambiguous v -> forall n path die props xpath, In (n, VXml path die props xpath) (vc_inputs v) ->
  NoDup (map x_name props) /\ forall c, In c props -> well_named c.
Proof.
  intros Hun n path die props xpath I. split; [apply (un_props v Hun _ _ _ _ _ I)|]. intros c Hc. apply named_well. intros name xp l Hs. apply (un_subprops v Hun _ _ _ _ _ c name xp l I Hc Hs).
Qed.

Lemma system_list : forall stat regexp_ok xpath_ok upper p v
  files mtime cap chunk decode_charset regexp_split new_charset csv_state json_state lower index_file visit fts_ok fts_match databases xml alg open_file listen
  services E F tables ord err_text write_ok s routes rq r c params t fs off lim,
  load stat regexp_ok xpath_ok upper p = Ok v -> unsigned_limits p ->
  boot files mtime cap chunk decode_charset regexp_split new_charset csv_state json_state lower index_file visit fts_ok fts_match databases xml alg open_file listen v = Done (services, E) ->
  ready files cap chunk csv_state xml (named_parser decode_charset regexp_split v) v tables ->
  order_ok ord -> (forall lt l, Permutation l (alg lt l)) -> sorts alg -> wildcards_ready lower index_file v E -> databases_ready visit fts_ok fts_match F databases v E ->
  In (s, routes) services -> first_match routes rq r -> rt_output r = OArray c -> get_params r rq = Ok params ->
  covered (kind_of lower F v) v tables (ac_input c) (ac_params c) (ac_relationships c) t ->
  asked v (named_parser decode_charset regexp_split v) F params None (ac_params c) fs -> page_request c params off lim -> lim < two63 ->
  exists sel rows b j, kept (meets (kind_of lower F v) (t_closed t) fs) (t_rows t) sel /\
    Forall2 (completed (kind_of lower F v) tables (ac_relationships c)) (page off lim sel) rows /\
    fst (serve E ord json_float err_text write_ok routes rq) = [Header 200 (lit "application/json; charset=UTF-8"); Body b] /\
    json_text b j /\ denotes json_float j (VList (map VMap rows)).
Proof.
  intros until lim. intros Hl Hu Hb [R1 R2 R3 R6 R4 R5] Ho Hp Hs Hw Hd Is Hm Hc Hg [C1 C2 C3 C4] Ha Hpr Hlim.
  pose proof (load_unambiguous _ _ _ _ _ _ Hu Hl) as Hun. apply boot_booted in Hb. destruct Hb as (dbs & Hb).
  assert (H0 : 0 <= lim). { destruct (routed _ _ _ _ _ _ _ _ _ _ _ _ _ _ _ _ _ _ _ _ _ Hb s routes rq r Is Hm) as (n & I). rewrite Hc in I. apply (page_positive c params off lim (un_limits v Hun _ _ I) Hpr). }
  exact (list_served files mtime cap chunk decode_charset regexp_split csv_state json_state lower index_file visit fts_ok fts_match databases xml alg open_file dbs v F R1 R2
    (un_columns v Hun) (names_well v Hun) services E Hb (fun n i ps => load_map_props _ _ _ _ _ _ n i ps Hl)
    (fun n pa i ps ic => load_wildcard_props _ _ _ _ _ _ n pa i ps ic Hl)
    (fun n dsn i ps => load_collations _ _ _ _ _ _ n dsn i ps Hl) Hd Hw tables R3 R6 (load_fits _ _ _ _ _ _ Hl) Hun R5 ord err_text write_ok
    Ho Hp Hs R4 s routes rq r c params t fs off lim Is Hm Hc Hg C1 C2 C3 C4 Ha Hpr (conj H0 Hlim)).
Qed.

Lemma system_object : forall stat regexp_ok xpath_ok upper p v
  files mtime cap chunk decode_charset regexp_split new_charset csv_state json_state lower index_file visit fts_ok fts_match databases xml alg open_file listen
  services E F tables ord err_text write_ok s routes rq r c params t fs,
  load stat regexp_ok xpath_ok upper p = Ok v -> unsigned_limits p ->
  boot files mtime cap chunk decode_charset regexp_split new_charset csv_state json_state lower index_file visit fts_ok fts_match databases xml alg open_file listen v = Done (services, E) ->
  ready files cap chunk csv_state xml (named_parser decode_charset regexp_split v) v tables ->
  order_ok ord -> (forall lt l, Permutation l (alg lt l)) -> sorts alg -> wildcards_ready lower index_file v E -> databases_ready visit fts_ok fts_match F databases v E ->
  In (s, routes) services -> first_match routes rq r -> rt_output r = OObject c -> get_params r rq = Ok params ->
  covered (kind_of lower F v) v tables (oc_input c) (oc_params c) (oc_relationships c) t ->
  asked v (named_parser decode_charset regexp_split v) F params (Some []) (oc_params c) fs ->
  exists sel b j, kept (meets (kind_of lower F v) (t_closed t) fs) (t_rows t) sel /\ json_text b j /\
    match sel with
    | [] => fst (serve E ord json_float err_text write_ok routes rq) = [Header 404 (lit "application/json; charset=UTF-8"); Body b]
    | a :: _ => exists d, completed (kind_of lower F v) tables (oc_relationships c) a d /\
        fst (serve E ord json_float err_text write_ok routes rq) = [Header 200 (lit "application/json; charset=UTF-8"); Body b] /\
        denotes json_float j (VMap d)
    end.
Proof.
  intros until fs. intros Hl Hu Hb [R1 R2 R3 R6 R4 R5] Ho Hp Hs Hw Hd Is Hm Hc Hg [C1 C2 C3 C4] Ha.
  pose proof (load_unambiguous _ _ _ _ _ _ Hu Hl) as Hun. apply boot_booted in Hb. destruct Hb as (dbs & Hb).
  exact (object_served files mtime cap chunk decode_charset regexp_split csv_state json_state lower index_file visit fts_ok fts_match databases xml alg open_file dbs v F R1 R2
    (un_columns v Hun) (names_well v Hun) services E Hb (fun n i ps => load_map_props _ _ _ _ _ _ n i ps Hl)
    (fun n pa i ps ic => load_wildcard_props _ _ _ _ _ _ n pa i ps ic Hl)
    (fun n dsn i ps => load_collations _ _ _ _ _ _ n dsn i ps Hl) Hd Hw tables R3 R6 (load_fits _ _ _ _ _ _ Hl) Hun R5 ord err_text write_ok
    Ho Hp Hs R4 s routes rq r c params t fs Is Hm Hc Hg C1 C2 C3 C4 Ha).
Qed.
