(** Proofs about the start of the whole program: when it succeeds. *)
From Coq Require Import List ZArith Lia Bool String Permutation Sorted.
From Coq Require Import Strings.Byte Floats.SpecFloat.
From Verif Require Import Sql SqlIndex SpecSql SpecSqlFind SqlFindFacts SqlCreateFacts SqlHistoryFacts.
From Verif Require Import XmlStream SpecXml SpecXmlNest SpecXmlValue XmlInput.
From Verif Require Import Base BaseFacts Codec Value GoStrings Parser JsonDecode Records.
From Verif Require Import Prog Bufio CsvReader SpecCsv BufioFacts CsvFacts CsvFacts3 CsvFacts4 JsonReader.
From Verif Require Import Join JoinFacts ParserFacts Index SpecIndex IndexFacts Sort Output SpecOutput OutputFacts OutputFacts2.
From Verif Require Import Http SpecHttp Regex Route Config SpecConfig ConfigFacts ConfigFacts2 ConfigFacts4 Start StartFacts StartFacts2.
From Verif Require Import Stream Wildcard SpecWildcard WildcardFacts8.
From Verif Require Import System SpecSystem SpecStart SystemFacts SystemFacts2 SystemSqlFacts SystemSqlFacts2 SystemFacts3 SystemFacts4.
Import ListNotations.
Open Scope Z_scope.

Lemma rmapM_done {A B} (f : A -> res B) l : (forall a, In a l -> exists b, f a = Ok b) -> exists bs, rmapM f l = Ok bs.
Proof.
  induction l as [|a l IH]; intros H; [eexists; reflexivity|]. cbn [rmapM]. destruct (H a (or_introl eq_refl)) as (b & ->). cbn [rbind].
  destruct IH as (bs & ->); [intros; apply H; now right|]. cbn [rbind]. eauto.
Qed.

Lemma nodup_app_disjoint {A} (l m : list A) x : NoDup (l ++ m) -> In x l -> ~ In x m.
Proof. induction l as [|a l IH]; intros N H Hm; [destruct H|]. inversion N as [|? ? N1 N2]; subst. destruct H as [->|H]; [apply N1, in_or_app; now right|apply (IH N2 H Hm)]. Qed.
Lemma nodup_app_r {A} (l m : list A) : NoDup (l ++ m) -> NoDup m.
Proof. induction l as [|a l IH]; intros N; [exact N|]. inversion N; auto. Qed.

Lemma forall2_named_back {A B} (R : A -> B -> Prop) (l : list (bytes * A)) (m : list (bytes * B)) :
  Forall2 (fun na nb => fst na = fst nb /\ R (snd na) (snd nb)) l m -> forall k b, mget m k = Some b -> exists a, mget l k = Some a /\ R a b.
Proof.
  induction 1 as [|[k a] [k' b] l m [E H] F IH]; intros q y M; [discriminate|]. cbn [fst snd] in *. subst k'. cbn [mget] in *.
  destruct (bytes_eqb k q); [injection M as <-; eauto|apply (IH _ _ M)].
Qed.

(** Distinct names are those of indexes that are apart. *)
Lemma all_apart : forall l, NoDup (map fold_name (map fst (filter in_database l))) ->
  (forall dsn, NoDup (map fold_name (flat_map (column_names dsn) l))) ->
  (forall nc dsn name k, In nc l -> index_kind_of nc = Some (dsn, name, k) -> nul_free (kind_name k) /\ Forall nul_free (kind_props k)) ->
  ForallOrdPairs apart_in l.
Proof.
  intros l N C K. 
  assert (Q : forall nc dsn name k x, In nc l -> index_kind_of nc = Some (dsn, name, k) -> In x (column_indexes k) -> In (fold_name x) (map fold_name (column_names dsn nc))).
  { intros nc dsn name k x Hin Hk Hx. destruct (K nc dsn name k Hin Hk) as [K1 K2]. destruct nc as [n c]. destruct c; try discriminate Hk; cbn [index_kind_of snd fst] in Hk; injection Hk as <- <- <-; [|destruct Hx].
    cbn [column_indexes column_names snd fst sq_name sq_props kind_name kind_props] in *. rewrite bytes_eqb_refl. apply in_map_iff in Hx as (q & <- & Hq). rewrite Forall_map, Forall_forall in K2.
    rewrite until_index; [|exact K1|apply K2; exact Hq]. apply in_map, in_map_iff. exists q. split; [reflexivity|exact Hq]. }
  clear K. induction l as [|nc l IH]; constructor.
  - apply Forall_forall. intros nc' Hin dsn name k dsn' name' k' Ek Ek' <-. destruct (kind_of_name _ _ _ _ Ek) as [Kn Kd]. destruct (kind_of_name _ _ _ _ Ek') as [Kn' Kd']. split.
    + cbn [filter] in N. rewrite Kd in N. cbn [map] in N. inversion N as [|? ? N1 N2]; subst. intros E. apply N1. rewrite <- Kn, E, Kn'. apply in_map, in_map, filter_In. split; assumption.
    + intros x y Hx Hy E. pose proof (Q nc dsn name k x (or_introl eq_refl) Ek Hx) as Q1. pose proof (Q nc' dsn name' k' y (or_intror Hin) Ek' Hy) as Q2.
      specialize (C dsn). cbn [flat_map] in C. rewrite map_app in C. apply (nodup_app_disjoint _ _ _ C Q1). rewrite E.
      apply in_map_iff in Q2 as (z & Ez & Hz). rewrite <- Ez. apply in_map, in_flat_map. exists nc'. split; assumption.
  - apply IH.
    + cbn [filter] in N. destruct (in_database nc); [cbn [map] in N; now inversion N|exact N].
    + intros dsn. specialize (C dsn). cbn [flat_map] in C. rewrite map_app in C. apply (nodup_app_r _ _ C).
    + intros nc' dsn name k x Hin. apply (Q nc' dsn name k x (or_intror Hin)).
Qed.

Section Start.
Variable files : bytes -> bytes.
Variable mtime : bytes -> res Z.
Variable cap : nat.
Variable chunk : nat -> nat.
Variable decode_charset : bytes -> bytes -> res bytes.
Variable regexp_split : bytes -> bytes -> list bytes.
Variable new_charset : bytes -> res unit.
Variable csv_state : bytes -> reader.
Variable json_state : bytes -> jfile.
Variable lower : bytes -> bytes.
Variable index_file : bytes -> option bytes.
Variable visit : list (list sqlv) -> list (res (list sqlv)).
Variable fts_ok : list bytes -> bytes -> bytes -> bool.
Variable fts_match : Sql.table -> sqlv -> res (list (list sqlv)).
Variable databases : bytes -> db.
Variable xml : xml_package.
Variable alg : (rec -> rec -> bool) -> list rec -> list rec.
Variable open_file : bytes -> res unit.
Variable listen : vservice -> res unit.
Notation parser_of := (parser_of decode_charset regexp_split).
Notation make_input := (make_input files mtime cap chunk decode_charset regexp_split csv_state json_state xml).
Notation make_index := (make_index lower visit fts_ok fts_match).
Notation make_indexes := (make_indexes lower visit fts_ok fts_match).
Notation first_row := (first_row files cap chunk).
Notation input_of := (made_input files mtime cap chunk decode_charset regexp_split csv_state json_state xml open_file).

Lemma first_row_header path d p header rest : (0 < cap)%nat -> valid_delim d = true -> csv_text d 0 ((p, header) :: rest) (files path) ->
  first_row path [d] = Ok header.
Proof.
  intros Hc Hd Ht. unfold System.first_row. cbn [comma_of hd].
  destruct (read_csv_exec (files path) cap chunk Hc d 0 new_reader (inv_new (files path) cap Hc)) as [E _]. cbn [Z.to_nat skipn] in E. rewrite E.
  destruct (row_at (files path) d (files path)) as [r l'] eqn:Er. cbn [fst].
  pose proof (written_read (files path) cap chunk d _ 0%nat Hc Hd Ht) as Hw. rewrite iterate_all_rows in Hw by exact Hc. unfold all_rows in Hw.
  unfold line_fuel in Hw. cbn [rows_at Z.to_nat skipn] in Hw. change (S (List.length (files path))) with (line_fuel (files path)) in Hw.
  rewrite Er in Hw. destruct r as [[row'|]| | |]; cbn [map] in Hw; try discriminate Hw; congruence.
Qed.

Lemma input_dated ps n c s : new_input open_file first_row ps c = Done s ->
  in_size (make_input ps n c s) = Ok (zlen (files (path_of c))) /\ in_mtime (make_input ps n c s) = mtime (path_of c).
Proof.
  intros H. destruct c as [path die first detect de columns|path die|path die props xp]; [|split; reflexivity..].
  unfold new_input in H. apply obind_done in H. destruct H as (? & _ & H). apply obind_done in H. destruct H as (cols & _ & H). apply obind_done in H. destruct H as (cs & _ & H).
  injection H as <-. split; reflexivity.
Qed.

Variable v : vconfig.
Variable tables : bytes -> option table.
Variable F : fulltext.
Notation boot_leaving := (boot_leaving files mtime cap chunk decode_charset regexp_split new_charset csv_state json_state lower index_file visit fts_ok fts_match databases xml alg open_file listen).
Hypothesis Hready : ready files cap chunk csv_state xml (named_parser decode_charset regexp_split v) v tables.
Hypothesis Hstart : startable files mtime (input_of (vc_parsers v)) lower index_file visit fts_ok fts_match databases v tables new_charset open_file listen.
Hypothesis Hrefs : references_resolve v.
Hypothesis Hun : unambiguous v.
Hypothesis Hprops : forall n i ps, In (n, VIMap i ps) (vc_indexes v) -> NoDup ps.
Hypothesis Hwprops : forall n path i ps ic, In (n, VIWildcard path i ps ic) (vc_indexes v) -> NoDup ps.
Hypothesis Hcollations : forall n dsn i ps, In (n, VISqlite dsn i ps) (vc_indexes v) -> Forall (fun pc => In (snd pc) [lit "BINARY"; lit "NOCASE"; lit "RTIRM"]) ps.

Lemma startable_possible : possible new_charset open_file first_row (fun _ => Ok tt) listen v.
Proof.
  destruct Hstart as [A1 A2 A3 A4 A5 A6 _ _ _ _]. constructor; try assumption.
  - intros n path die first de columns I. destruct (A3 n path die first de columns I) as (d & p & header & rest & -> & Hd & Ht & Hn & Hne).
    exists header. split; [apply (first_row_header path d p header rest (rd_buffer _ _ _ _ _ _ _ _ Hready) (separator_valid d Hd) Ht)|]. split; assumption.
  - reflexivity.
Qed.

(** What is known about the inputs of a table. *)
Definition linked (E : env) : Prop := forall n t, tables n = Some t -> exists inp rs, link E n t inp rs /\
  (dated files mtime v n -> exists size time, in_size inp = Ok size /\ size < two63 /\ in_mtime inp = Ok time /\ in_i64 time) /\
  exists c, mget (vc_inputs v) n = Some c /\ input_of (vc_parsers v) n c inp.

Lemma inputs_linked E : (forall n c, mget (vc_inputs v) n = Some c -> exists s, new_input open_file first_row (vc_parsers v) c = Done s /\
    mget (e_inputs E) n = Some (make_input (vc_parsers v) n c s)) -> linked E.
Proof.
  intros HI n t Ht. destruct Hready as [R1 R2 R3 R6 R4 R5]. destruct (R3 _ _ Ht) as (c & M & P).
  destruct (provided_linked files mtime cap chunk decode_charset regexp_split csv_state json_state lower index_file databases xml alg open_file databases v R1 R2 (un_columns v Hun) (names_well v Hun) E HI n c t M P) as (inp & rs & L).
  { intros path die props xpath ->. apply (R6 n t path die props xpath Ht M). }
  exists inp, rs. split; [exact L|]. destruct (HI n c M) as (s & Hs & Hm). destruct L as (L1 & _). rewrite Hm in L1. injection L1 as <-.
  split; [|exists c; split; [exact M|exists s; split; [exact Hs|reflexivity]]]. intros D. destruct (D c M) as (D1 & time & D2 & D3).
  destruct (input_dated _ n _ _ Hs) as [I1 I2]. exists (zlen (files (path_of c))), time. rewrite I1, I2. auto.
Qed.

Lemma all_hold_rows P closed rs rows props : Forall2 (same_row closed) rs rows -> all_hold P (mkTable closed rows) props ->
  Forall (fun r => Forall (fun p => exists x, r_get r p = Ok x /\ P x) props) rs.
Proof.
  intros HF H. apply Forall_forall. intros r Hr. apply Forall_forall. intros p Hp. destruct (forall2_In_l _ _ _ _ HF Hr) as (a & Ha & (_ & _ & Hra)).
  destruct (H a p Ha Hp) as (x & Hx & Hpx). exists x. split; [apply Hra; exact Hx|exact Hpx].
Qed.

Lemma wildcard_records n t inp rs props E : link E n t inp rs -> all_hold a_string t props ->
  (exists size time, in_size inp = Ok size /\ size < two63 /\ in_mtime inp = Ok time /\ in_i64 time) -> SpecWildcard.indexable props inp.
Proof.
  intros (_ & _ & (Hit & _) & HF & (size' & Hsz2 & Hsz3 & Hpos)) Hh (size & time & Hsz & Hsz' & Htm & Htm'). rewrite Hsz in Hsz2. injection Hsz2 as <-.
  split; [exists size; split; [exact Hsz|unfold in_i64, two63 in *; lia]|]. split; [exists time; auto|]. destruct t as [closed rows].
  pose proof (all_hold_rows _ _ _ _ _ HF Hh) as Hr. rewrite Hit, Forall_map. rewrite Forall_forall in *. intros r Hin. exists r. split; [reflexivity|].
  specialize (Hpos r Hin). split; [unfold in_i64, two63 in *; lia|]. eapply Forall_impl; [|apply (Hr r Hin)]. cbn beta. intros p (x & Hx & s & ->). eauto.
Qed.

Lemma prim_is x : primitive x -> SpecSql.is_primitive x = true.
Proof. destruct x; intros H; try reflexivity; destruct H. Qed.

Lemma used_tables n dsn input k : (exists props, In (n, VISqlite dsn input props) (vc_indexes v) /\ k = ISqlite (mkSconfig n input props)) \/
    (exists pf tk props, In (n, VIFts5 dsn input pf tk props) (vc_indexes v) /\ k = IFts (mkFconfig n input pf tk props)) ->
  exists t, tables input = Some t /\ all_hold primitive t (kind_props k) /\ dated files mtime v input /\ tables_usable (input_of (vc_parsers v)) visit fts_ok fts_match v input k (databases dsn).
Proof.
  intros [(props & Hin & ->)|(pf & tk & props & Hin & ->)]; pose proof (sa_indexes _ _ _ _ _ _ _ _ _ _ _ _ _ _ Hstart _ _ Hin) as B; exact B.
Qed.

Lemma kind_used nc dsn name k : In nc (vc_indexes v) -> index_kind_of nc = Some (dsn, name, k) ->
  exists t, tables name = Some t /\ all_hold primitive t (kind_props k) /\ dated files mtime v name /\ tables_usable (input_of (vc_parsers v)) visit fts_ok fts_match v name k (databases dsn).
Proof.
  intros Hin Hk. destruct nc as [n x]. apply (used_tables n). destruct x; try discriminate Hk; cbn [index_kind_of snd fst] in Hk; injection Hk as <- <- <-; [left|right]; eauto 6.
Qed.

Lemma index_names : Forall nul_free (map fst (filter in_database (vc_indexes v))).
Proof.
  rewrite Forall_map. apply Forall_forall. intros [n x] H. apply filter_In in H as [H D]. cbn [fst].
  destruct x as [| |dsn i props|dsn i pf tk props|]; try discriminate D.
  - destruct (kind_used _ dsn i _ H eq_refl) as (t & _ & _ & _ & (B & _)). exact B.
  - destruct (kind_used _ dsn i _ H eq_refl) as (t & _ & _ & _ & (B & _)). exact B.
Qed.

Lemma databases_open inputs E : e_inputs E = inputs -> linked E ->
  exists dbs, open_databases visit fts_ok fts_match inputs databases (vc_indexes v) = Ok dbs /\
    forall nc dsn name k inp, In nc (vc_indexes v) -> index_kind_of nc = Some (dsn, name, k) -> mget inputs name = Some inp -> left_by_start visit fts_ok fts_match k inp (dbs dsn).
Proof.
  intros <- L. pose proof (valid_databases v Hcollations index_names) as V.
  apply open_all.
  - apply all_apart; [apply (sa_names _ _ _ _ _ _ _ _ _ _ _ _ _ _ Hstart)|apply (sa_columns _ _ _ _ _ _ _ _ _ _ _ _ _ _ Hstart)|].
    intros nc dsn name k Hin Hk. destruct (kind_used nc dsn name k Hin Hk) as (t & _ & _ & _ & (C1 & C2 & _)). split; assumption.
  - apply (sa_names _ _ _ _ _ _ _ _ _ _ _ _ _ _ Hstart).
  - apply Forall_forall. intros nc Hin dsn name k Hk. destruct (kind_used nc dsn name k Hin Hk) as (t & Ht & Hh & Hd & (_ & _ & Hc)). destruct (L name t Ht) as (inp & rs & HL & HD & (c & Mc & Ic)). exists inp.
    destruct (V nc dsn name k Hin Hk) as [V1 V2]. destruct (HD Hd) as (size & time & Hs & _ & Htm & _). pose proof HL as (L1 & _ & (L2 & _) & L3 & _).
    split; [exact L1|]. split; [exact V1|]. split; [exact V2|]. split; [split; eauto|]. split; [|destruct Hc as [Hc|Hc]; [left; exact Hc|right; apply (Hc c inp Mc Ic)]].
    rewrite L2, Forall_map. destruct t as [closed rows]. eapply Forall_impl; [|apply (all_hold_rows _ _ _ _ _ L3 Hh)]. cbn beta. intros r Hr. exists r. split; [reflexivity|].
    eapply Forall_impl; [|exact Hr]. cbn beta. intros p (x & Hx & Hp). exists x. split; [exact Hx|apply prim_is; exact Hp].
Qed.

Definition written (cfg : wconfig) (inp : input) : bytes := st_file (snd (create_index lower cfg inp created_stream)).

Lemma index_made inputs E dbs kept n x : e_inputs E = inputs -> linked E -> In (n, x) (vc_indexes v) ->
  (forall path, In path (wildcard_path (n, x)) -> kept path = index_file path) ->
  exists ix kept', make_index kept inputs dbs n x = Ok (ix, kept') /\
    forall path input props ic inp, x = VIWildcard path input props ic -> mget inputs input = Some inp -> kept' path = Some (written (mkWconfig input props ic) inp).
Proof.
  intros <- L Hin Hk. pose proof (sa_indexes _ _ _ _ _ _ _ _ _ _ _ _ _ _ Hstart n x Hin) as B.
  destruct x as [input props|path input props ic|dsn input props|dsn input pf tk props|]; cbn [System.make_index buildable] in *; [| |eexists _, _; split; [reflexivity|discriminate]..].
  - destruct B as (t & Ht & Hh). destruct (L input t Ht) as (inp & rs & (L1 & _ & (L2 & _) & L3 & _) & _). rewrite L1. destruct t as [closed rows].
    destruct (map_reindex_spec (mkMconfig input props) inp rs (Hprops _ _ _ Hin) L2 (all_hold_rows _ _ _ _ _ L3 Hh)) as (idx & -> & _). cbn [rbind]. eexists _, _. split; [reflexivity|discriminate].
  - destruct B as (t & Ht & Hh & Hd & Hs & Hf). destruct (L input t Ht) as (inp & rs & HL & HD & (c & Hc & Hi)). pose proof HL as (L1 & Ln & (L2 & Lo & _) & L3 & _). rewrite L1, (Hk path (or_introl eq_refl)).
    destruct (create_index lower (mkWconfig input props ic) inp created_stream) as [r s] eqn:Ec. pose proof (Hs c inp r s Hc Hi Ec) as Hfit.
    destruct Hf as [Hf|Hf].
    + rewrite Hf. destruct (wildcard_suits lower (mkWconfig input props ic) inp rs r s Ln (Hwprops _ _ _ _ _ Hin) (wildcard_records _ _ _ _ _ _ HL Hh (HD Hd)) L2 Lo Ec Hfit) as (idx & -> & _). try rewrite Ec. cbn [rbind].
      eexists _, _. split; [reflexivity|]. intros path' input' props' ic' inp' [= <- <- <- <-] Hm. rewrite bytes_eqb_refl. assert (inp' = inp) as -> by congruence. unfold written. rewrite Ec. reflexivity.
    + specialize (Hf c inp r s Hc Hi Ec). rewrite Hf.
      destruct (wildcard_reload_suits lower (mkWconfig input props ic) inp rs r s Ln (Hwprops _ _ _ _ _ Hin) (wildcard_records _ _ _ _ _ _ HL Hh (HD Hd)) L2 Lo Ec Hfit) as (idx & s2 & El & _).
      rewrite El. cbn [rbind]. eexists _, _. split; [reflexivity|]. intros path' input' props' ic' inp' [= <- <- <- <-] Hm. rewrite (Hk path (or_introl eq_refl)), Hf.
      assert (inp' = inp) as -> by congruence. unfold written. rewrite Ec. reflexivity.
Qed.

Lemma indexes_made inputs E dbs : e_inputs E = inputs -> linked E -> forall l kept, (forall nc, In nc l -> In nc (vc_indexes v)) -> NoDup (flat_map wildcard_path l) ->
  (forall path, In path (flat_map wildcard_path l) -> kept path = index_file path) ->
  exists ixs kept', make_indexes kept inputs dbs l = Ok (ixs, kept') /\ map fst ixs = map fst l /\
    forall n path input props ic inp, In (n, VIWildcard path input props ic) l -> mget inputs input = Some inp -> kept' path = Some (written (mkWconfig input props ic) inp).
Proof.
  intros He L. induction l as [|[n x] l IH]; intros kept Hl Nd Hk; [exists [], kept; split; [reflexivity|]; split; [reflexivity|intros ? ? ? ? ? ? []]|].
  cbn [flat_map] in Nd, Hk. destruct (index_made inputs E dbs kept n x He L (Hl _ (or_introl eq_refl))) as (ix & kept1 & E1 & H1).
  { intros path Hp. apply Hk, in_or_app. now left. }
  destruct (IH kept1) as (ixs & kept2 & E2 & F2 & H2).
  { intros nc Hin. apply Hl. now right. }
  { apply (nodup_app_r _ _ Nd). }
  { intros path Hp. rewrite (make_index_kept _ _ _ _ _ _ _ _ _ _ _ _ E1); [apply Hk, in_or_app; now right|]. intros Hq. apply (nodup_app_disjoint _ _ _ Nd Hq Hp). }
  exists ((n, ix) :: ixs), kept2. cbn [System.make_indexes fst snd]. rewrite E1. cbn [rbind fst snd]. rewrite E2. cbn [rbind fst snd map]. split; [reflexivity|]. split; [f_equal; exact F2|].
  intros m path input props ic inp [[= -> ->]|Hin] Hm; [|apply (H2 m path input props ic inp Hin Hm)].
  pose proof (make_indexes_kept _ _ _ _ _ _ _ _ _ path E2) as K. cbn [snd] in K. rewrite K; [apply (H1 _ _ _ _ inp eq_refl Hm)|]. intros Hq.
  apply (nodup_app_disjoint _ _ path Nd); [now left|exact Hq].
Qed.

Lemma started_ready E : linked E -> in_order visit -> searched_by fts_match F ->
  wildcards_ready lower index_file v E /\ databases_ready visit fts_ok fts_match F databases v E.
Proof.
  intros L Hv HF. pose proof (sa_indexes _ _ _ _ _ _ _ _ _ _ _ _ _ _ Hstart) as SI. split; [split; [apply (sa_paths _ _ _ _ _ _ _ _ _ _ _ _ _ _ Hstart)|]|].
  - intros n path input props ic inp Hx Hm. apply mget_In in Hx. specialize (SI _ _ Hx). cbn [buildable] in SI. destruct SI as (t & Ht & Hh & Hd & Hs & Hf).
    destruct (L input t Ht) as (inp' & rs & HL & HD & (c & Hc & Hi)). pose proof HL as (L1 & _). rewrite Hm in L1. injection L1 as <-. split; [apply (HD Hd)|].
    intros r s Ec. split; [apply (Hs c inp r s Hc Hi Ec)|]. destruct Hf as [Hf|Hf]; [left; exact Hf|right; apply (Hf c inp r s Hc Hi Ec)].
  - split; [exact Hv|]. split; [exact HF|]. split; [exact index_names|]. split; [apply (sa_names _ _ _ _ _ _ _ _ _ _ _ _ _ _ Hstart)|].
    intros n dsn input inp k Hm H.
    destruct (used_tables n dsn input k) as (t & Ht & _ & _ & (_ & _ & [C|C])).
    { destruct H as [(props & Hx & ->)|(pf & tk & props & Hx & ->)]; apply mget_In in Hx; [left|right]; eauto 6. }
    + left. destruct C as (_ & _ & _ & [C1 _] & [C2 _] & _). split; assumption.
    + right. left. destruct (L input t Ht) as (inp' & rs & (L1 & _) & _ & (c & Hc & Hi)). rewrite Hm in L1. injection L1 as <-. apply (C c inp Hc Hi).
Qed.

Lemma input_of_unique ps n c i j : input_of ps n c i -> input_of ps n c j -> i = j.
Proof. intros (s & Hs & ->) (s' & Hs' & ->). congruence. Qed.

(** What is left can be used for a start of the same configuration. *)
Lemma started_again E dbs kept : linked E ->
  (forall nc dsn name k inp, In nc (vc_indexes v) -> index_kind_of nc = Some (dsn, name, k) -> mget (e_inputs E) name = Some inp -> left_by_start visit fts_ok fts_match k inp (dbs dsn)) ->
  (forall n path input props ic inp, In (n, VIWildcard path input props ic) (vc_indexes v) -> mget (e_inputs E) input = Some inp -> kept path = Some (written (mkWconfig input props ic) inp)) ->
  startable files mtime (input_of (vc_parsers v)) lower kept visit fts_ok fts_match dbs v tables new_charset open_file listen.
Proof.
  intros L Hd Hk. destruct Hstart as [A1 A2 A3 A4 A5 A6 A7 A8 A9 A10]. constructor; try assumption. intros n x Hin. pose proof (A7 n x Hin) as B.
  assert (S : forall t input dsn k, tables input = Some t -> index_kind_of (n, x) = Some (dsn, input, k) ->
    tables_usable (input_of (vc_parsers v)) visit fts_ok fts_match v input k (databases dsn) -> tables_usable (input_of (vc_parsers v)) visit fts_ok fts_match v input k (dbs dsn)).
  { intros t input dsn k Ht Ek (U1 & U2 & _). split; [exact U1|]. split; [exact U2|]. right. intros c inp Hc Hi. destruct (L input t Ht) as (inp' & rs & (L1 & _) & _ & (c' & Hc' & Hi')).
    rewrite Hc in Hc'. injection Hc' as <-. rewrite (input_of_unique _ _ _ _ _ Hi Hi'). apply (Hd (n, x) dsn input k inp' Hin Ek L1). }
  destruct x as [input props|path input props ic|dsn input props|dsn input pf tk props|]; cbn [buildable] in *; [exact B| | | |exact I].
  - destruct B as (t & Ht & Hh & Hdt & Hs & _). exists t. repeat (split; [assumption|]). right. cbn [wc_input]. intros c inp r s Hc Hi Ec.
    destruct (L input t Ht) as (inp' & rs & (L1 & _) & _ & (c' & Hc' & Hi')). rewrite Hc in Hc'. injection Hc' as <-. rewrite (input_of_unique _ _ _ _ _ Hi Hi') in Ec.
    rewrite (Hk n path input props ic inp' Hin L1). unfold written. rewrite Ec. reflexivity.
  - destruct B as (t & Ht & Hh & Hdt & Hu). exists t. repeat (split; [assumption|]). apply (S t input dsn _ Ht eq_refl Hu).
  - destruct B as (t & Ht & Hh & Hdt & Hu). exists t. repeat (split; [assumption|]). apply (S t input dsn _ Ht eq_refl Hu).
Qed.

Lemma starts : in_order visit -> searched_by fts_match F ->
  exists services E dbs kept, boot_leaving v = Done (services, E, (dbs, kept)) /\ serves v services /\
    (wildcards_ready lower index_file v E /\ databases_ready visit fts_ok fts_match F databases v E) /\
    startable files mtime (input_of (vc_parsers v)) lower kept visit fts_ok fts_match dbs v tables new_charset open_file listen.
Proof.
  intros Hv HF. destruct (start_done _ _ _ _ _ v Hrefs startable_possible) as (st & Hst). unfold System.boot_leaving. rewrite Hst. cbn [obind].
  unfold start in Hst. apply obind_done in Hst. destruct Hst as (ps & Hps & Hst). apply obind_done in Hst. destruct Hst as (is & His & Hst).
  apply obind_done in Hst. destruct Hst as (xs & Hxs & Hst). apply obind_done in Hst. destruct Hst as (os & Hos & Hst).
  apply obind_done in Hst. destruct Hst as (ss & Hss & Hst). injection Hst as <-.
  apply (create_same _ (new_parser_same new_charset)) in Hps. subst ps. apply create_all_spec in His, Hss.
  unfold assemble. cbn [st_parsers st_inputs st_services].
  destruct (rmapM_done (fun nc : bytes * vinput => match mget is (fst nc) with None => Panic | Some s => Ok (fst nc, make_input (vc_parsers v) (fst nc) (snd nc) s) end) (vc_inputs v)) as (inputs & Ei).
  { intros [n c] Hin. cbn [fst snd]. destruct (forall2_In_l _ _ _ _ His Hin) as ([n' s] & Hs & E & _). cbn [fst] in E. subst n'.
    destruct (has_mget is n) as (s' & ->); [|eauto]. exists s. exact Hs. }
  rewrite Ei. cbn [rbind]. apply rmapM_Forall2 in Ei.
  assert (HI : forall n c, mget (vc_inputs v) n = Some c ->
    exists s, mget is n = Some s /\ mget inputs n = Some (make_input (vc_parsers v) n c s)).
  { clear - Ei. revert inputs Ei. generalize (vc_inputs v) as l. induction l as [|[k c0] l IH]; intros inputs HF n c M; [discriminate|].
    inversion HF as [|x y l' m' Hxy F' E1 E2]; subst. cbn [fst snd] in Hxy. cbn [mget] in M. destruct (bytes_eqb k n) eqn:Ek.
    - apply bytes_eqb_eq in Ek. subst k. injection M as ->. destruct (mget is n) as [s|] eqn:Es; [|discriminate]. injection Hxy as <-.
      exists s. split; [reflexivity|]. cbn [mget]. rewrite bytes_eqb_refl. reflexivity.
    - destruct (IH _ F' _ _ M) as (s & H1 & H2). exists s. split; [exact H1|]. destruct (mget is k); [|discriminate]. injection Hxy as <-. cbn [mget]. rewrite Ek. exact H2. }
  assert (HL : forall d ixs pz al, linked (mkEnv inputs d ixs pz al)).
  { intros. apply inputs_linked. intros n c M. destruct (HI _ _ M) as (s & H1 & H2). exists s. split; [|exact H2].
    destruct (forall2_named (fun c s => new_input open_file first_row (vc_parsers v) c = Done s) _ _ His _ _ M) as (s' & H3 & H4). congruence. }
  destruct (databases_open inputs (mkEnv inputs noop_positions [] [] alg) eq_refl (HL _ _ _ _)) as (dbs & Eb & Hleft). rewrite Eb. cbn [rbind].
  destruct (indexes_made inputs (mkEnv inputs noop_positions [] [] alg) dbs eq_refl (HL _ _ _ _) (vc_indexes v) index_file (fun _ H => H) (sa_paths _ _ _ _ _ _ _ _ _ _ _ _ _ _ Hstart) (fun _ _ => eq_refl))
    as (indexes & kept & Ex & Ef & Hkept).
  rewrite Ex. cbn [rbind fst snd].
  assert (HD : exists d, mget indexes (lit "default") = Some d).
  { apply has_mget. pose proof (rd_default _ _ _ _ _ _ _ _ Hready) as M. apply mget_In in M. apply (in_map fst) in M. cbn [fst] in M. rewrite <- Ef in M.
    apply in_map_iff in M as ([n ix] & En & Hin). cbn [fst] in En. subst n. exists ix. exact Hin. }
  destruct HD as (d & ->). cbn [other obind fst snd]. eexists _, _, _, _. split; [reflexivity|].
  split; [|split; [apply started_ready; auto|apply (started_again (mkEnv inputs noop_positions [] [] alg)); auto]].
  apply create_all_spec in Hos. unfold serves. eapply JoinFacts.Forall2_impl; [|exact Hss]. cbn beta. intros [n c] [n' rs] [En Hc]. cbn [fst snd] in *. split; [congruence|].
  unfold new_service in Hc. apply obind_done in Hc. destruct Hc as (rs' & Hrs & Hc). apply obind_done in Hc. destruct Hc as (? & _ & Hc). injection Hc as <-.
  apply omapM_forall2 in Hrs. eapply JoinFacts.Forall2_impl; [|exact Hrs]. cbn beta. intros [o path] r Hr. cbn [fst snd] in *.
  unfold new_service_route in Hr. cbn [fst snd] in Hr. apply obind_done in Hr. destruct Hr as (out & Hout & Hr). apply obind_done in Hr. destruct Hr as (? & _ & Hr). apply other_done in Hr.
  exists out. split; [|exact Hr]. unfold look_up in Hout. destruct (mget os o) as [o'|] eqn:Eo; [|discriminate]. injection Hout as ->.
  destruct (forall2_named_back (fun c o => new_output (vc_parsers v) is xs c = Done o) _ _ Hos _ _ Eo) as (c' & Hc' & Ho). apply new_output_same in Ho. subst c'. exact Hc'.
Qed.
End Start.

Lemma system_starts : forall stat regexp_ok xpath_ok upper p v
  files mtime cap chunk decode_charset regexp_split new_charset csv_state json_state lower index_file visit fts_ok fts_match databases xml alg open_file listen F tables,
  load stat regexp_ok xpath_ok upper p = Ok v -> unsigned_limits p ->
  ready files cap chunk csv_state xml (named_parser decode_charset regexp_split v) v tables ->
  startable files mtime (made_input files mtime cap chunk decode_charset regexp_split csv_state json_state xml open_file (vc_parsers v)) lower index_file visit fts_ok fts_match databases v tables
    new_charset open_file listen ->
  in_order visit -> searched_by fts_match F ->
  exists services E, 
    boot files mtime cap chunk decode_charset regexp_split new_charset csv_state json_state lower index_file visit fts_ok fts_match databases xml alg open_file listen v = Done (services, E) /\
    serves v services /\ wildcards_ready lower index_file v E /\ databases_ready visit fts_ok fts_match F databases v E.
Proof.
  intros until tables. intros Hl Hu Hr Hs Hv HF.
  destruct (starts files mtime cap chunk decode_charset regexp_split new_charset csv_state json_state lower index_file visit fts_ok fts_match databases xml alg open_file listen v tables F Hr Hs
    (load_references _ _ _ _ _ _ Hl) (load_unambiguous _ _ _ _ _ _ Hu Hl) (fun n i ps => load_map_props _ _ _ _ _ _ n i ps Hl)
    (fun n pa i ps ic => load_wildcard_props _ _ _ _ _ _ n pa i ps ic Hl) (fun n dsn i ps => load_collations _ _ _ _ _ _ n dsn i ps Hl) Hv HF) as (services & E & dbs & kept & Hb & H1 & (H2 & H3) & _).
  exists services, E. split; [|auto]. unfold boot. rewrite Hb. reflexivity.
Qed.

Lemma system_restarts : forall stat regexp_ok xpath_ok upper p v
  files mtime cap chunk decode_charset regexp_split new_charset csv_state json_state lower index_file visit fts_ok fts_match databases xml alg open_file listen F tables n,
  load stat regexp_ok xpath_ok upper p = Ok v -> unsigned_limits p ->
  ready files cap chunk csv_state xml (named_parser decode_charset regexp_split v) v tables ->
  startable files mtime (made_input files mtime cap chunk decode_charset regexp_split csv_state json_state xml open_file (vc_parsers v)) lower index_file visit fts_ok fts_match databases v tables
    new_charset open_file listen ->
  in_order visit -> searched_by fts_match F ->
  starts_often (fun kept dbs => boot_leaving files mtime cap chunk decode_charset regexp_split new_charset csv_state json_state lower kept visit fts_ok fts_match dbs xml alg open_file listen)
    (fun kept dbs v E => wildcards_ready lower kept v E /\ databases_ready visit fts_ok fts_match F dbs v E) v n index_file databases.
Proof.
  intros until n. intros Hl Hu Hr Hs Hv HF. revert index_file databases Hs. induction n as [|n IH]; intros index_file databases Hs; [constructor|].
  destruct (starts files mtime cap chunk decode_charset regexp_split new_charset csv_state json_state lower index_file visit fts_ok fts_match databases xml alg open_file listen v tables F Hr Hs
    (load_references _ _ _ _ _ _ Hl) (load_unambiguous _ _ _ _ _ _ Hu Hl) (fun n i ps => load_map_props _ _ _ _ _ _ n i ps Hl)
    (fun n pa i ps ic => load_wildcard_props _ _ _ _ _ _ n pa i ps ic Hl) (fun n dsn i ps => load_collations _ _ _ _ _ _ n dsn i ps Hl) Hv HF) as (services & E & dbs & kept & Hb & H1 & H2 & H3).
  apply (once_more _ _ v n index_file databases services E dbs kept Hb H1 H2 (IH kept dbs H3)).
Qed.
