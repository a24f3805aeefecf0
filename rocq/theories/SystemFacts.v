(** Facts about the whole program: what is created from the configuration, and the
    tables that the inputs deliver. *)
From Coq Require Import List ZArith Lia Bool String Permutation Sorted.
From Coq Require Import Strings.Byte.
From Verif Require Import XmlStream XmlInput.
From Verif Require Import Sql SqlIndex SpecSql SpecSqlFind.
From Verif Require Import Base BaseFacts Codec Value GoStrings Parser ParserFacts FloatText JsonDecode Records SpecRecords RecordsFacts.
From Verif Require Import SpecText Prog Bufio CsvReader SpecCsv BufioFacts CsvFacts CsvFacts3 CsvFacts4 JsonReader SpecJsonFile JsonReaderFacts3.
From Verif Require Import Join JoinFacts Index SpecIndex Sort SpecOrder Output SpecOutput Http Regex Route Config SpecConfig ConfigFacts Start StartFacts StartFacts2.
From Verif Require Import System SpecSystem.
Import ListNotations.
Open Scope Z_scope.

Lemma forall2_named {A B} (R : A -> B -> Prop) (l : list (bytes * A)) (m : list (bytes * B)) :
  Forall2 (fun na nb => fst na = fst nb /\ R (snd na) (snd nb)) l m -> forall k a, mget l k = Some a ->
  exists b, mget m k = Some b /\ R a b.
Proof.
  induction 1 as [|[n a] [n' b] l m [E H] F IH]; intros k a0 M; [discriminate|].
  cbn [fst snd] in *. subst. cbn [mget] in *. destruct (bytes_eqb n' k); [|apply IH, M]. injection M as <-. eauto.
Qed.

Lemma forall2_named_r {A B} (R : A -> B -> Prop) (l : list (bytes * A)) (m : list (bytes * B)) :
  Forall2 (fun na nb => fst na = fst nb /\ R (snd na) (snd nb)) l m -> forall k b, mget m k = Some b ->
  exists a, mget l k = Some a /\ R a b.
Proof.
  induction 1 as [|[n a] [n' b] l m [E H] F IH]; intros k b0 M; [discriminate|].
  cbn [fst snd] in *. subst. cbn [mget] in *. destruct (bytes_eqb n' k); [|apply IH, M]. injection M as <-. eauto.
Qed.

(** The properties of a map index are distinct. *)
Lemma load_map_props stat rx xp up p v n i ps : load stat rx xp up p = Ok v -> In (n, VIMap i ps) (vc_indexes v) -> NoDup ps.
Proof.
  unfold load, validate. intros H I. inv_ok. pose proof (validate_all_spec _ _ _ E2) as FX. cbn [vc_indexes] in I.
  destruct (forall2_right _ _ _ FX _ I) as ([n' xc] & _ & _ & Ev). cbn [snd] in Ev. unfold validate_index in Ev. inv_ok.
  destruct xc; inv_ok; try discriminate.
  match goal with H : check_distinct _ = Ok _ |- _ => apply check_distinct_spec in H; destruct H as [-> N] end. exact N.
Qed.

Lemma load_wildcard_props stat rx xp up p v n path i ps ic : load stat rx xp up p = Ok v -> In (n, VIWildcard path i ps ic) (vc_indexes v) -> NoDup ps.
Proof.
  unfold load, validate. intros H I. inv_ok. pose proof (validate_all_spec _ _ _ E2) as FX. cbn [vc_indexes] in I.
  destruct (forall2_right _ _ _ FX _ I) as ([n' xc] & _ & _ & Ev). cbn [snd] in Ev. unfold validate_index in Ev. inv_ok.
  destruct xc; inv_ok; try discriminate.
  match goal with H : check_distinct _ = Ok _ |- _ => apply check_distinct_spec in H; destruct H as [-> N] end. exact N.
Qed.

Lemma load_collations stat rx xp up p v n dsn i ps : load stat rx xp up p = Ok v -> In (n, VISqlite dsn i ps) (vc_indexes v) ->
  Forall (fun pc => In (snd pc) [lit "BINARY"; lit "NOCASE"; lit "RTIRM"]) ps.
Proof.
  unfold load, validate. intros H I. inv_ok. pose proof (validate_all_spec _ _ _ E2) as FX. cbn [vc_indexes] in I.
  destruct (forall2_right _ _ _ FX _ I) as ([n' xc] & _ & _ & Ev). cbn [snd] in Ev. unfold validate_index in Ev. inv_ok.
  destruct xc; inv_ok; try discriminate.
  match goal with H : validate_items _ _ _ _ _ = Ok _ |- _ => apply validate_items_spec in H; destruct H as (as_ & _ & F & _) end.
  apply Forall_forall. intros pc Hpc. destruct (forall2_right _ _ _ F _ Hpc) as (q & _ & Hq). unfold validate_sqlite_property, validate_collate in Hq.
  destruct (is_nil (fst q)); [discriminate|]. destruct (is_in_array _ collations) eqn:Ea; [|discriminate]. cbn [rbind] in Hq. injection Hq as <-. cbn [snd].
  unfold is_in_array in Ea. apply existsb_exists in Ea as (x & Hx & Ex). apply bytes_eqb_eq in Ex. subst x. exact Hx.
Qed.

Lemma separator_valid d : separator d -> valid_delim d = true.
Proof.
  intros [H1 H2]. unfold valid_delim. apply negb_true_iff. cbn [In] in H1.
  assert (forall b, d <> b -> beqb d b = false) as Hb by (intros b Hne; destruct (beqb d b) eqn:E; [apply beqb_eq in E; contradiction|reflexivity]).
  rewrite !orb_false_iff. repeat split; try (apply Hb; intros ->; apply H1; cbn; tauto).
  apply Z.leb_gt. unfold Z_of_byte in H2. exact H2.
Qed.

Lemma NoDup_tail {A} (l m : list A) : NoDup (l ++ m) -> NoDup m.
Proof. induction l as [|a l IH]; intros N; [exact N|]. inversion N; auto. Qed.

Section Boot.
Variable files : bytes -> bytes.
Variable mtime : bytes -> res Z.
Variable cap : nat.
Variable chunk : nat -> nat.
Variable decode_charset : bytes -> bytes -> res bytes.
Variable regexp_split : bytes -> bytes -> list bytes.
Variable new_charset : bytes -> res unit.
Variable csv_state : bytes -> reader.
Variable json_state : bytes -> jfile.
Variable lower : bytes -> bytes.
Variable index_file : bytes -> option bytes.
Variable visit : list (list sqlv) -> list (res (list sqlv)).
Variable fts_ok : list bytes -> bytes -> bytes -> bool.
Variable fts_match : Sql.table -> sqlv -> res (list (list sqlv)).
Variable databases : bytes -> db.
Variable xml : xml_package.
Variable alg : (rec -> rec -> bool) -> list rec -> list rec.
Variable open_file : bytes -> res unit.
Variable listen : vservice -> res unit.
Notation parser_of := (parser_of decode_charset regexp_split).
Notation make_input := (make_input files mtime cap chunk decode_charset regexp_split csv_state json_state xml).
Notation make_index := (make_index lower visit fts_ok fts_match).
Notation make_indexes := (make_indexes lower visit fts_ok fts_match).
Notation open_databases := (open_databases visit fts_ok fts_match).
Notation first_row := (first_row files cap chunk).
Notation boot := (boot files mtime cap chunk decode_charset regexp_split new_charset csv_state json_state lower index_file visit fts_ok fts_match databases xml alg open_file listen).
Notation named := (named_parser decode_charset regexp_split).

(** What [boot] gives. *)
Record booted (dbs : bytes -> db) (v : vconfig) (services : list (bytes * list route)) (E : env) : Prop := mkBooted {
  bt_databases : open_databases (e_inputs E) databases (vc_indexes v) = Ok dbs;
  bt_input : forall n c, mget (vc_inputs v) n = Some c ->
    exists s, new_input open_file first_row (vc_parsers v) c = Done s /\ mget (e_inputs E) n = Some (make_input (vc_parsers v) n c s);
  bt_index : forall n c, mget (vc_indexes v) n = Some c -> exists kept ix kept', make_index kept (e_inputs E) dbs n c = Ok (ix, kept') /\ mget (e_indexes E) n = Some ix /\
    (NoDup (flat_map wildcard_path (vc_indexes v)) -> forall path, In path (wildcard_path (n, c)) -> kept path = index_file path);
  bt_default : mget (vc_indexes v) (lit "default") = Some VINoop -> e_default E = noop_positions;
  bt_parser : forall n c, mget (vc_parsers v) n = Some c -> mget (e_parsers E) n = Some (parser_of (vc_parsers v) c);
  bt_sort : e_sort E = alg;
  bt_output : forall s routes r, In (s, routes) services -> In r routes -> exists n, In (n, VOutput (rt_output r)) (vc_outputs v);
  bt_names : map fst (e_inputs E) = map fst (vc_inputs v) /\ map fst (e_indexes E) = map fst (vc_indexes v) /\ map fst (e_parsers E) = map fst (vc_parsers v);
  bt_found : mget (e_indexes E) (lit "default") = Some (e_default E);
  bt_route : forall s routes r, In (s, routes) services -> In r routes -> exists sc name path, In (s, sc) (vc_services v) /\ In (name, path) (vs_routes sc) /\
    mget (vc_outputs v) name = Some (VOutput (rt_output r)) /\ new_route (vc_parsers v) path (rt_output r) = Ok r;
}.

Lemma mget_map {A B} (f : A -> B) (l : list (bytes * A)) n : mget (map (fun nc => (fst nc, f (snd nc))) l) n = option_map f (mget l n).
Proof. induction l as [|[k a] l IH]; [reflexivity|]. cbn [map fst snd mget]. destruct (bytes_eqb k n); [reflexivity|exact IH]. Qed.

Lemma new_parser_same a b : new_parser new_charset a = Done b -> a = b.
Proof.
  unfold new_parser. destruct a as [[|x cs]| | | | |]; try (intros [= <-]; reflexivity).
  intro H. apply obind_done in H. destruct H as (? & _ & H). injection H as <-. reflexivity.
Qed.
Lemma new_index_same build is a b : new_index build is a = Done b -> a = b.
Proof.
  unfold new_index. destruct a; try (intros [= <-]; reflexivity); intro H; apply obind_done in H; destruct H as (? & _ & H);
    apply obind_done in H; destruct H as (? & _ & H); injection H as <-; reflexivity.
Qed.
Lemma new_output_same ps is xs c o : new_output ps is xs c = Done o -> c = VOutput o.
Proof.
  unfold new_output. intro H. apply obind_done in H. destruct H as (? & _ & H). destruct c as [|[c|c]]; [discriminate| |];
    repeat (apply obind_done in H; destruct H as (? & _ & H)); injection H as <-; reflexivity.
Qed.
Lemma new_route_output parsers path o r : new_route parsers path o = Ok r -> rt_output r = o.
Proof. unfold new_route. intro H. inv_ok. destruct a as [re names]. injection H as <-. reflexivity. Qed.

Lemma omapM_forall2 {A B} (f : A -> outcome B) l : forall ys, omapM f l = Done ys -> Forall2 (fun x y => f x = Done y) l ys.
Proof.
  induction l as [|x l IH]; intros ys H; cbn [omapM] in H; [injection H as <-; constructor|].
  apply obind_done in H. destruct H as (y & H1 & H). apply obind_done in H. destruct H as (zs & H2 & H). injection H as <-. constructor; auto.
Qed.

Lemma other_done {A} (r : res A) a : other r = Done a -> r = Ok a.
Proof. destruct r; cbn; intro H; try discriminate. congruence. Qed.

Lemma make_index_kept kept inputs dbs n c ix kept' path : make_index kept inputs dbs n c = Ok (ix, kept') -> ~ In path (wildcard_path (n, c)) -> kept' path = kept path.
Proof.
  unfold System.make_index. destruct c as [i props|p i props ic|dsn i props|dsn i pf tk props|]; cbn [wildcard_path snd]; intros H N; try (injection H as <- <-; reflexivity).
  - destruct (mget inputs i); [|discriminate]. destruct (map_reindex _ _); try discriminate. injection H as <- <-. reflexivity.
  - destruct (mget inputs i) as [inp|]; [|discriminate]. cbv zeta in H. destruct (kept p).
    + destruct (Wildcard.load_index _ _ _) as [[r| | |] s]; try discriminate. injection H as <- <-. reflexivity.
    + destruct (Wildcard.create_index _ _ _ _) as [[r| | |] s]; try discriminate. injection H as <- <-. destruct (bytes_eqb path p) eqn:E; [|reflexivity].
      apply bytes_eqb_eq in E. subst. destruct N. now left.
Qed.

Lemma make_indexes_found : forall l kept inputs dbs r, make_indexes kept inputs dbs l = Ok r -> forall n c, mget l n = Some c ->
  exists k ix k', make_index k inputs dbs n c = Ok (ix, k') /\ mget (fst r) n = Some ix /\
    (NoDup (flat_map wildcard_path l) -> forall path, In path (wildcard_path (n, c)) -> k path = kept path).
Proof.
  induction l as [|[m c0] l IH]; intros kept inputs dbs r H n c M; [discriminate|]. cbn [System.make_indexes fst snd] in H.
  destruct (make_index kept inputs dbs m c0) as [[ix kept1]| | |] eqn:Em; try discriminate. cbn [rbind fst snd] in H.
  destruct (make_indexes kept1 inputs dbs l) as [[ixs kept2]| | |] eqn:El; try discriminate. cbn [rbind fst snd] in H. injection H as <-. cbn [fst snd mget] in *.
  destruct (bytes_eqb m n) eqn:E.
  - apply bytes_eqb_eq in E. injection M as ->. subst. exists kept, ix, kept1. auto.
  - destruct (IH _ _ _ _ El n c M) as (k & ix' & k' & H1 & H2 & H3). exists k, ix', k'. split; [exact H1|]. split; [exact H2|]. intros Nd path Hp.
    cbn [flat_map] in Nd. assert (Nt : ~ In path (wildcard_path (m, c0))).
    { intros Hin. apply mget_In in M. assert (Hf : In path (flat_map wildcard_path l)) by (apply in_flat_map; exists (n, c); split; assumption).
      unfold wildcard_path in Hin, Nd at 1. cbn [snd] in *. destruct c0; cbn [app In] in *; try contradiction. destruct Hin as [->|[]]. inversion Nd; contradiction. }
    rewrite (H3 (NoDup_tail _ _ Nd) path Hp). apply (make_index_kept _ _ _ _ _ _ _ _ Em Nt).
Qed.

Lemma make_indexes_kept : forall l kept inputs dbs r path, make_indexes kept inputs dbs l = Ok r -> ~ In path (flat_map wildcard_path l) -> snd r path = kept path.
Proof.
  induction l as [|[m c0] l IH]; intros kept inputs dbs r path H N; cbn [System.make_indexes fst snd] in H; [injection H as <-; reflexivity|].
  destruct (make_index kept inputs dbs m c0) as [[ix kept1]| | |] eqn:Em; try discriminate. cbn [rbind fst snd] in H.
  destruct (make_indexes kept1 inputs dbs l) as [[ixs kept2]| | |] eqn:El; try discriminate. cbn [rbind fst snd] in H. injection H as <-. cbn [snd flat_map] in *.
  transitivity (kept1 path); [apply (IH _ _ _ _ path El); intros Hp; apply N, in_or_app; now right|]. apply (make_index_kept _ _ _ _ _ _ _ _ Em). intros Hp. apply N, in_or_app. now left.
Qed.

Lemma make_indexes_names : forall l kept inputs dbs r, make_indexes kept inputs dbs l = Ok r -> map fst (fst r) = map fst l.
Proof.
  induction l as [|[m c0] l IH]; intros kept inputs dbs r H; cbn [System.make_indexes fst snd] in H; [injection H as <-; reflexivity|].
  destruct (make_index kept inputs dbs m c0) as [[ix kept1]| | |] eqn:Em; try discriminate. cbn [rbind fst snd] in H.
  destruct (make_indexes kept1 inputs dbs l) as [[ixs kept2]| | |] eqn:El; try discriminate. cbn [rbind fst snd] in H. injection H as <-. cbn [fst map].
  f_equal. exact (IH _ _ _ _ El).
Qed.

Theorem boot_booted v services E : boot v = Done (services, E) -> exists dbs, booted dbs v services E.
Proof.
  unfold System.boot, System.boot_leaving. intro H. apply obind_done in H. destruct H as (r & Hr & H). apply obind_done in Hr. destruct Hr as (st & Hst & Hr). apply obind_done in Hr. destruct Hr as (E' & HE & Hr).
  injection Hr as <-. cbn [fst] in H. injection H as <- <-. apply other_done in HE.
  unfold start in Hst. apply obind_done in Hst. destruct Hst as (ps & Hps & Hst). apply obind_done in Hst. destruct Hst as (is & His & Hst).
  apply obind_done in Hst. destruct Hst as (xs & Hxs & Hst). apply obind_done in Hst. destruct Hst as (os & Hos & Hst).
  apply obind_done in Hst. destruct Hst as (ss & Hss & Hst). injection Hst as <-.
  apply (create_same _ new_parser_same) in Hps. subst ps. apply create_all_spec in His, Hos, Hss.
  unfold assemble in HE. cbn [st_parsers st_inputs st_services] in *.
  destruct (rmapM _ (vc_inputs v)) as [inputs| | |] eqn:Ei; try discriminate. cbn [rbind] in HE.
  destruct (open_databases inputs databases (vc_indexes v)) as [dbs| | |] eqn:Eb; try discriminate. cbn [rbind] in HE.
  destruct (make_indexes _ _ _ (vc_indexes v)) as [[indexes kept]| | |] eqn:Ex; try discriminate. cbn [rbind fst snd] in HE.
  destruct (mget indexes (lit "default")) as [d|] eqn:Ed; [|discriminate]. injection HE as <-.
  apply rmapM_Forall2 in Ei. pose proof (make_indexes_found _ _ _ _ _ Ex) as HX. cbn [fst] in *.
  assert (HI : forall n c, mget (vc_inputs v) n = Some c ->
    exists s, mget is n = Some s /\ mget inputs n = Some (make_input (vc_parsers v) n c s)).
  { clear - Ei. revert inputs Ei. generalize (vc_inputs v) as l. induction l as [|[k c0] l IH]; intros inputs F n c M; [discriminate|].
    inversion F as [|x y l' m' Hxy F' E1 E2]; subst. cbn [fst snd] in Hxy. cbn [mget] in M. destruct (bytes_eqb k n) eqn:Ek.
    - apply bytes_eqb_eq in Ek. subst k. injection M as ->. destruct (mget is n) as [s|] eqn:Es; [|discriminate]. injection Hxy as <-.
      exists s. split; [reflexivity|]. cbn [mget]. rewrite bytes_eqb_refl. reflexivity.
    - destruct (IH _ F' _ _ M) as (s & H1 & H2). exists s. split; [exact H1|]. destruct (mget is k); [|discriminate]. injection Hxy as <-. cbn [mget]. rewrite Ek. exact H2. }
  exists dbs. constructor; cbn [e_inputs e_indexes e_default e_parsers e_sort].
  - exact Eb.
  - intros n c M. destruct (HI _ _ M) as (s & H1 & H2). exists s. split; [|exact H2].
    destruct (forall2_named (fun c s => new_input open_file first_row (vc_parsers v) c = Done s) _ _ His _ _ M) as (s' & H3 & H4). congruence.
  - exact HX.
  - intros M. destruct (HX _ _ M) as (k & ix & k' & H1 & H2 & _). cbn in H1. congruence.
  - intros n c M. rewrite (mget_map (parser_of (vc_parsers v))), M. reflexivity.
  - reflexivity.
  - intros s routes r Is Ir. destruct (forall2_right _ _ _ Hss _ Is) as ([s' sc] & _ & _ & Hs). cbn [snd] in Hs.
    unfold new_service in Hs. apply obind_done in Hs. destruct Hs as (rs & Hrs & Hs). apply obind_done in Hs. destruct Hs as (? & _ & Hs). injection Hs as ->.
    apply omapM_forall2 in Hrs. destruct (forall2_right _ _ _ Hrs _ Ir) as ([o path] & _ & Hr).
    unfold new_service_route in Hr. cbn [fst snd] in Hr. apply obind_done in Hr. destruct Hr as (out & Hout & Hr). apply obind_done in Hr. destruct Hr as (? & _ & Hr).
    apply other_done in Hr. apply new_route_output in Hr. rewrite Hr. unfold look_up in Hout. destruct (mget os o) as [o'|] eqn:Eo; [|discriminate]. injection Hout as ->.
    apply mget_In in Eo. destruct (forall2_right _ _ _ Hos _ Eo) as ([n c] & In' & En & Hc). cbn [fst snd] in *. apply new_output_same in Hc. subst. eauto.
  - split; [|split].
    + clear - Ei. induction Ei as [|[k c0] y l m Hxy F IH]; [reflexivity|]. cbn [map fst snd] in *. destruct (mget is k); [|discriminate]. injection Hxy as <-. cbn [fst]. f_equal. exact IH.
    + apply (make_indexes_names _ _ _ _ _ Ex).
    + rewrite map_map. reflexivity.
  - exact Ed.
  - intros s routes r Is Ir. destruct (forall2_right _ _ _ Hss _ Is) as ([s' sc] & Isc & Es & Hs). cbn [fst snd] in Hs, Es. subst s'.
    unfold new_service in Hs. apply obind_done in Hs. destruct Hs as (rs & Hrs & Hs). apply obind_done in Hs. destruct Hs as (? & _ & Hs). injection Hs as ->.
    apply omapM_forall2 in Hrs. destruct (forall2_right _ _ _ Hrs _ Ir) as ([o path] & Io & Hr).
    unfold new_service_route in Hr. cbn [fst snd] in Hr. apply obind_done in Hr. destruct Hr as (out & Hout & Hr). apply obind_done in Hr. destruct Hr as (? & _ & Hr).
    apply other_done in Hr. pose proof (new_route_output _ _ _ _ Hr) as Ho. unfold look_up in Hout. destruct (mget os o) as [o'|] eqn:Eo; [|discriminate]. injection Hout as ->.
    destruct (forall2_named_r (fun c o => new_output (vc_parsers v) is xs c = Done o) _ _ Hos _ _ Eo) as (c & Mc & Hc). apply new_output_same in Hc. subst c.
    exists sc, o, path. rewrite Ho. auto.
Qed.

(** *** Rows *)

(** The record [r] of an input and the row [a] of a table are the same. *)
Definition same_row (closed : bool) (r : rec) (a : object) : Prop :=
  r_all r = Ok a /\ NoDup (map fst a) /\ forall p x, r_get r p = Ok x <-> row_value closed a p x.

Lemma segments_cons p : p <> [] -> exists k segs, segments p = k :: segs /\ dotted p (k :: segs).
Proof.
  intros Hp. pose proof (segments_pieces p) as H. destruct (dotted_segments p (segments p) (conj Hp H)) as (_ & _ & Hn).
  destruct (segments p) as [|k segs] eqn:E; [congruence|]. exists k, segs. split; [reflexivity|]. split; [exact Hp|exact H].
Qed.

Lemma json_same_row a pos : NoDup (map fst a) -> same_row false (json_record a pos) a.
Proof.
  intros Hn. split; [reflexivity|]. split; [exact Hn|]. intros p x. cbn [json_record r_get]. split.
  - intros H. assert (Hp : p <> []) by (intros ->; discriminate). destruct (segments_cons p Hp) as (k & segs & _ & Hd).
    exists k, segs. split; [exact Hd|]. split; [apply (json_get_exact _ _ _ _ Hd); exact H|discriminate].
  - intros (k & segs & Hd & Ha & _). apply (json_get_exact _ _ _ _ Hd). exact Ha.
Qed.

Lemma csv_same_row names ps row pos a : NoDup names -> csv_all names ps row = Ok a -> map fst a = names -> same_row true (csv_record names ps row pos) a.
Proof.
  intros Hn Ha Hf. split; [exact Ha|]. split; [rewrite Hf; exact Hn|]. intros p x. cbn [csv_record r_get]. split.
  - intros H. assert (Hp : p <> []) by (intros ->; discriminate). destruct (segments_cons p Hp) as (k & segs & _ & Hd).
    destruct (in_dec bytes_dec k names) as [Hin|Hni].
    + exists k, segs. split; [exact Hd|]. split; [apply (csv_get_exact names ps row a p k segs x Hn Ha Hd Hin); exact H|]. intros _. rewrite Hf. exact Hin.
    + exfalso. destruct (csv_get_unknown names ps row p k segs Hd Hni) as (e & He). congruence.
  - intros (k & segs & Hd & Hp & Hin). rewrite Hf in Hin. apply (csv_get_exact names ps row a p k segs x Hn Ha Hd (Hin eq_refl)). exact Hp.
Qed.

Lemma object_keys fuel : forall d m r, object_interface fuel d m = Ok r -> NoDup (map fst m) -> NoDup (map fst (fst r)).
Proof.
  induction fuel as [|fuel IH]; intros d m r H Hm; [discriminate|]. cbn [object_interface] in H.
  repeat match type of H with
  | Ok _ = Ok _ => injection H as <-; cbn [fst]; try apply mset_keys_NoDup; exact Hm
  | object_interface fuel _ _ = Ok _ => apply (IH _ _ _ H); apply mset_keys_NoDup; exact Hm
  | (match ?x with _ => _ end) = Ok _ => destruct x; try discriminate H
  | rbind ?x _ = Ok _ => destruct x; try discriminate H; cbn [rbind] in H
  | (let _ := _ in _) = Ok _ => cbv zeta in H
  end.
Qed.
Lemma decode_map_keys t a : decode_map t = Ok a -> NoDup (map fst a).
Proof.
  unfold decode_map. cbv zeta. destruct (d_op (d_init t)); try discriminate.
  - destruct (rescan_literal (d_init t)) as [r| | |]; try discriminate. cbn [rbind]. intros H. destruct (fst r) as [|b bs]; [discriminate H|]. destruct b; try discriminate H. injection H as <-. constructor.
  - destruct (object_interface _ _ _) as [r| | |] eqn:E; try discriminate. cbn [rbind]. unfold JsonDecode.finished. intros H. destruct (d_saved (snd r)); [discriminate H|]. injection H as <-.
    apply (object_keys _ _ _ _ E). constructor.
Qed.

Lemma first_row_text path d p header rest row : (0 < cap)%nat -> valid_delim d = true -> csv_text d 0 ((p, header) :: rest) (files path) ->
  first_row path [d] = Ok row -> row = header.
Proof.
  intros Hc Hd Ht. unfold System.first_row. cbn [comma_of hd].
  destruct (read_csv_exec (files path) cap chunk Hc d 0 new_reader (inv_new (files path) cap Hc)) as [E _]. cbn [Z.to_nat skipn] in E. rewrite E.
  destruct (row_at (files path) d (files path)) as [r l'] eqn:Er. cbn [fst].
  intros H. destruct r as [[row'|]| | |]; try discriminate. injection H as ->.
  pose proof (written_read (files path) cap chunk d _ 0%nat Hc Hd Ht) as Hw. rewrite iterate_all_rows in Hw by exact Hc. unfold all_rows in Hw.
  unfold line_fuel in Hw. cbn [rows_at Z.to_nat skipn] in Hw. change (S (List.length (files path))) with (line_fuel (files path)) in Hw.
  rewrite Er in Hw. cbn [map] in Hw. congruence.
Qed.

End Boot.
