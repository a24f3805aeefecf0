(** Facts about the whole program: the endpoints of a configuration that was
    loaded and started. *)
From Coq Require Import List ZArith Lia Bool String Permutation Sorted.
From Coq Require Import Strings.Byte Floats.SpecFloat.
From Verif Require Import Sql SqlIndex SpecSql SpecSqlFind SqlFindFacts.
From Verif Require Import XmlStream SpecXml SpecXmlNest SpecXmlValue XmlValueFacts XmlInput XmlInputFacts.
From Verif Require Import FloatFormat FloatFormatFacts6.
From Verif Require Import Base BaseFacts Codec Value GoStrings Parser ParserFacts FloatText JsonDecode Records SpecRecords RecordsFacts.
From Verif Require Import SpecText Prog Bufio CsvReader SpecCsv CsvFacts CsvFacts3 CsvFacts4 JsonReader SpecJsonFile JsonReaderFacts3.
From Verif Require Import Join JoinFacts Index SpecIndex IndexFacts Sort SpecOrder Output SpecOutput OutputFacts OutputFacts2 OutputFacts3 OutputFacts6.
From Verif Require Import SpecJson Json JsonFacts Http SpecHttp HttpFacts Regex Route Config SpecConfig ConfigFacts ConfigFacts2 ConfigFacts4 Start StartFacts.
From Verif Require Import Stream Wildcard SpecWildcard WildcardFacts8.
From Verif Require Import System SpecSystem SystemFacts SystemFacts2 SystemSqlFacts.
Import ListNotations.
Open Scope Z_scope.

Lemma params_of {A} (f : A -> bytes) (g : A -> bytes) (l : list A) (i : bytes) a : In a l -> g a = i -> In (f a) (map f (filter (fun a => bytes_eqb (g a) i) l)).
Proof. intros H <-. apply in_map, filter_In. split; [exact H|apply bytes_eqb_refl]. Qed.

(** Positions are in the file. *)
Lemma csv_text_positions d p all text : csv_text d p all text -> Forall (fun r => p <= fst r <= p + zlen text) all.
Proof.
  induction 1 as [pos|pos row t H H'|pos row t e rows ts H H' He Ht IH].
  - constructor.
  - pose proof (zlen_nonneg t). constructor; [cbn [fst]; lia|constructor].
  - rewrite !zlen_app in *. pose proof (zlen_nonneg t). pose proof (zlen_nonneg e). pose proof (zlen_nonneg ts).
    constructor; [cbn [fst]; lia|]. eapply Forall_impl; [|exact IH]. cbn beta. intros r Hr. lia.
Qed.
Lemma documents_positions p docs text : documents p docs text -> Forall (fun d => p <= fst d <= p + zlen text) docs.
Proof.
  induction 1 as [pos ws H|pos ws t docs text H Hd Ht IH]; [constructor|].
  rewrite !zlen_app in *. pose proof (zlen_nonneg ws). pose proof (zlen_nonneg t). pose proof (zlen_nonneg text).
  constructor; [cbn [fst]; lia|]. eapply Forall_impl; [|exact IH]. cbn beta. intros r Hr. lia.
Qed.

Section System.
Variable files : bytes -> bytes.
Variable mtime : bytes -> res Z.
Variable cap : nat.
Variable chunk : nat -> nat.
Variable decode_charset : bytes -> bytes -> res bytes.
Variable regexp_split : bytes -> bytes -> list bytes.
Variable csv_state : bytes -> reader.
Variable json_state : bytes -> jfile.
Variable lower : bytes -> bytes.
Variable index_file : bytes -> option bytes.
Variable visit : list (list sqlv) -> list (res (list sqlv)).
Variable fts_ok : list bytes -> bytes -> bytes -> bool.
Variable fts_match : Sql.table -> sqlv -> res (list (list sqlv)).
Variable databases : bytes -> db.
Variable xml : xml_package.
Variable alg : (rec -> rec -> bool) -> list rec -> list rec.
Variable open_file : bytes -> res unit.
Variable dbs : bytes -> db.
Notation booted := (booted files mtime cap chunk decode_charset regexp_split csv_state json_state lower index_file visit fts_ok fts_match databases xml alg open_file dbs).
Variable v : vconfig.
Notation cell := (named_parser decode_charset regexp_split v).
Variable fx : fulltext.
Notation kind := (kind_of lower fx v).
Hypothesis Hcap : (0 < cap)%nat.
(** The shared readers of the CSV files are only used by the program. *)
Definition readers_used : Prop := forall n path die first detect delimiter columns,
  mget (vc_inputs v) n = Some (VCsv path die first detect delimiter columns) ->
  used (files path) cap chunk (comma_of delimiter) (csv_state n).
Hypothesis Hused : readers_used.
Hypothesis Hcolumns : forall n path die first detect delimiter columns, In (n, VCsv path die first detect delimiter columns) (vc_inputs v) ->
  NoDup (map fst columns).
Hypothesis Hnames : forall n path die props xpath, In (n, VXml path die props xpath) (vc_inputs v) ->
  NoDup (map x_name props) /\ forall c, In c props -> well_named c.
(** *** Inputs *)
Lemma columns_parsers columns cs : omapM (fun c : bytes * bytes => olet p := look_up (vc_parsers v) (snd c) in Done (fst c, p)) columns = Done cs ->
  map fst cs = map fst columns /\ map (fun c => parser_of decode_charset regexp_split (vc_parsers v) (snd c)) cs = map (fun c => cell (snd c)) columns.
Proof.
  intro H. apply omapM_forall2 in H. induction H as [|[n p] [n' c] l m H F IH]; [split; reflexivity|].
  cbn [fst snd] in H. apply obind_done in H. destruct H as (q & Hq & H). injection H as <- <-. destruct IH as [I1 I2]. cbn [map fst snd]. rewrite I1, I2. split; [reflexivity|]. f_equal.
  unfold look_up in Hq. unfold named_parser. destruct (mget (vc_parsers v) p); [|discriminate]. injection Hq as ->. reflexivity.
Qed.

Lemma csv_rows names ps columns rows trows : NoDup names -> names = map fst columns -> ps = map (fun c => cell (snd c)) columns ->
  Forall2 (fun (r : Z * list bytes) a => cells_row cell columns (snd r) a) rows trows ->
  Forall2 (same_row true) (map (fun pr => csv_record names ps (snd pr) (fst pr)) rows) trows.
Proof.
  intros Hn En Ep F. induction F as [|r a rows trows [H1 H2] F IH]; [constructor|]. cbn [map]. constructor; [|exact IH].
  apply csv_same_row; [exact Hn| |congruence]. apply csv_all_exact; [exact Hn|subst; rewrite !map_length; reflexivity|]. split; [congruence|].
  intros i p x Hp Hx. subst ps. rewrite nth_error_map in Hp. destruct (nth_error columns i) as [[n q]|] eqn:Ec; [|discriminate]. injection Hp as <-. cbn [snd]. apply (H2 i n q x Ec Hx).
Qed.

(** The shared parser of an XML file has read some records. *)
Definition records_read (n path xpath : bytes) : Prop :=
  exists positions, xml_state xml n = gets (xml_tokens xml (files path)) (xml_ahead xml) (xpath_pattern xpath) positions new_xparser /\
    forall z, In z positions -> exists u, In (Ok (z, u)) (xml_iterate_all (xml_tokens xml (files path)) (xml_ahead xml) (xpath_pattern xpath)).

Lemma typed_listed ps p t : typed_parser ps p t ->
  exists f, mget (map (fun nc : bytes * pconfig => (fst nc, (parser_type (snd nc), parser_of decode_charset regexp_split ps (snd nc)))) ps) p = Some (t, f).
Proof.
  unfold typed_parser. rewrite (mget_map (fun c => (parser_type c, parser_of decode_charset regexp_split ps c)) ps p).
  destruct (mget ps p) as [[]|]; destruct t; intros H; try destruct H; eexists; reflexivity.
Qed.
Lemma cell_listed p s x : cell p s = Ok x ->
  exists t f, mget (map (fun nc : bytes * pconfig => (fst nc, (parser_type (snd nc), parser_of decode_charset regexp_split (vc_parsers v) (snd nc)))) (vc_parsers v)) p = Some (t, f) /\ f s = Ok x.
Proof.
  unfold named_parser. rewrite (mget_map (fun c => (parser_type c, parser_of decode_charset regexp_split (vc_parsers v) c)) (vc_parsers v) p).
  destruct (mget (vc_parsers v) p) as [c|]; [|discriminate]. intros H. cbn [option_map]. eauto.
Qed.

Lemma xml_same_row query evaluate parsers int_of_float (typed : bytes -> xparser -> Prop) (t : xnode) props z a :
  (forall p t, typed p t -> exists f, mget parsers p = Some (t, f)) -> (forall p s x, cell p s = Ok x -> exists t f, mget parsers p = Some (t, f) /\ f s = Ok x) ->
  NoDup (map x_name props) -> (forall c, In c props -> well_named c) ->
  node_row xnode query evaluate int_of_float typed cell t props a -> same_row true (xml_record xnode query evaluate parsers int_of_float t props z) a.
Proof.
  intros Ht Hc Hd Hw Hr. assert (Hk : map fst a = map x_name props).
  { destruct Hr as (vs & -> & F). apply combine_fst. rewrite map_length. apply (forall2_len _ _ _ F). }
  split; [apply (row_all _ _ _ _ _ typed cell Ht Hc); assumption|]. split; [rewrite Hk; exact Hd|]. intros p x. cbn [xml_record r_get]. split.
  - intros H. assert (Hp : p <> []) by (intros ->; discriminate). destruct (segments_cons p Hp) as (k & segs & _ & Hdo).
    destruct (in_dec bytes_dec k (map x_name props)) as [Hin|Hni].
    + exists k, segs. split; [exact Hdo|]. split; [apply (row_get _ _ _ _ _ typed cell Ht Hc t props a p k segs x Hd Hw Hr Hdo Hin); exact H|]. intros _. rewrite Hk. exact Hin.
    + exfalso. destruct (xml_get_unknown xnode query evaluate parsers int_of_float t props p k segs Hdo Hni) as (e & He). congruence.
  - intros (k & segs & Hdo & Hp & Hin). rewrite Hk in Hin. apply (row_get _ _ _ _ _ typed cell Ht Hc t props a p k segs x Hd Hw Hr Hdo (Hin eq_refl)). exact Hp.
Qed.

Section Inputs.
Variable E : env.
Hypothesis Hinput : forall n c, mget (vc_inputs v) n = Some c ->
  exists s, new_input open_file (first_row files cap chunk) (vc_parsers v) c = Done s /\
    mget (e_inputs E) n = Some (make_input files mtime cap chunk decode_charset regexp_split csv_state json_state xml (vc_parsers v) n c s).

Lemma provided_linked n c t : mget (vc_inputs v) n = Some c -> provides cell (vc_parsers v) xml files c t ->
  (forall path die props xpath, c = VXml path die props xpath -> records_read n path xpath) -> exists inp rs, link E n t inp rs.
Proof.
  intros M P Hx. destruct (Hinput n c M) as (s & Hs & Hm). unfold link.
  destruct P as [path die first detect d given columns all rows trows Hd Ht Hc Hf HF|path die docs trows Hd HF|path die props name recs trows file Hn0 Hn Hpos Hsum Hflat Hclosed HF].
  - unfold new_input in Hs. apply obind_done in Hs. destruct Hs as (? & _ & Hs). apply obind_done in Hs. destruct Hs as (cols & Hcols & Hs).
    apply obind_done in Hs. destruct Hs as (cs & Hcs & Hs). injection Hs as <-.
    pose proof (separator_valid d Hd) as Hv.
    assert (cols = columns /\ NoDup (map fst columns)) as [-> Hn].
    { destruct detect.
      - destruct Hc as (p & header & rest & -> & ->). apply obind_done in Hcols. destruct Hcols as (row & Hrow & Hcols). apply other_done in Hrow.
        apply (first_row_text files cap chunk path d p header rest row Hcap Hv Ht) in Hrow. subst row.
        apply obind_done in Hcols. destruct Hcols as (names & Hna & Hcols). apply other_done in Hna. injection Hcols as <-.
        apply autodetect_spec in Hna as (-> & _ & Hnd & _). split; [reflexivity|]. rewrite map_map. cbn [fst]. rewrite map_id. exact Hnd.
      - injection Hcols as <-. subst columns. split; [reflexivity|]. apply mget_In in M. apply (Hcolumns _ _ _ _ _ _ _ M). }
    destruct (columns_parsers _ _ Hcs) as [E1 E2]. eexists. exists (map (fun pr => csv_record (map fst cs) (map (fun c => parser_of decode_charset regexp_split (vc_parsers v) (snd c)) cs) (snd pr) (fst pr)) rows).
    split; [exact Hm|]. cbn [System.make_input comma_of hd]. split; [reflexivity|]. split.
    + apply csv_input_ok; [exact Hcap|apply (Hused _ _ _ _ _ _ _ M)|]. cbn [csv_input in_iter].
      assert (Hit : iterate_all (files path) cap chunk d first (List.length (map fst cs)) = map Ok rows).
      { destruct first; [|subst rows; apply written_read; assumption]. destruct Hf as (p & header & -> & Hl).
        apply (written_read_header _ _ _ _ p header); [exact Hcap|exact Hv|exact Ht|]. rewrite E1, map_length. exact Hl. }
      rewrite Hit, !map_map. reflexivity.
    + cbn [t_closed t_rows]. split; [apply (csv_rows _ _ columns); [rewrite E1; exact Hn|exact E1|exact E2|exact HF]|].
      exists (zlen (files path)). split; [reflexivity|]. split; [apply zlen_nonneg|]. rewrite Forall_map. cbn [csv_record r_pos].
      assert (Hr : forall r, In r rows -> In r all). { destruct first; [destruct Hf as (p & header & -> & _); intros r Hr; right; exact Hr|subst rows; auto]. }
      pose proof (csv_text_positions _ _ _ _ Ht) as Hp. rewrite Forall_forall in *. intros r Hin. apply (Hp r (Hr r Hin)).
  - eexists. exists (map (fun pd : Z * object => json_record (snd pd) (fst pd)) (combine (map fst docs) trows)). split; [exact Hm|].
    cbn [System.make_input]. split; [reflexivity|].
    assert (Hr : Forall2 (fun pt (r : Z * object) => fst pt = fst r /\ decode_map (snd pt) = Ok (snd r)) docs (combine (map fst docs) trows)).
    { clear - HF. induction HF as [|[p t] a docs trows H F IH]; [constructor|]. cbn [map combine]. constructor; [split; [reflexivity|exact H]|exact IH]. }
    split.
    + apply json_input_ok. cbn [json_input in_iter]. rewrite (json_documents _ _ _ _ Hd Hr), !map_map. reflexivity.
    + cbn [t_closed t_rows]. split.
      * clear - HF. induction HF as [|[p t] a docs trows H F IH]; [constructor|]. cbn [map combine]. constructor; [|exact IH].
        apply json_same_row. apply (decode_map_keys _ _ H).
      * exists (zlen (files path)). split; [reflexivity|]. split; [apply zlen_nonneg|]. rewrite Forall_map. cbn [json_record r_pos].
        pose proof (documents_positions _ _ _ Hd) as Hp. rewrite Forall_forall in *. intros [q b] Hin. apply in_combine_l in Hin. apply in_map_iff in Hin as (x & <- & Hx'). apply (Hp x Hx').
  - destruct (Hx _ _ _ _ eq_refl) as (positions & Hst & Hread). destruct (Hnames _ _ _ _ _ (mget_In _ _ _ M)) as [Hnd Hwn].
    assert (Hslash : ~ In "/"%byte name). { intros Hin. rewrite Forall_forall in Hn. specialize (Hn _ Hin). unfold name_byte in Hn. vm_compute in Hn. intuition congruence. }
    eexists. eexists. split; [exact Hm|]. cbn [System.make_input]. split; [reflexivity|]. split; [|split].
    + apply (xml_input_ok xml n (files path) (mtime path) _ props name recs Hslash Hpos Hflat Hclosed positions Hst Hread).
    + cbn [t_closed t_rows]. unfold xml_records. pose proof (places_trees xml (files path) recs) as Ht. revert Ht HF. fold file. generalize (places file 0 recs) as zts. clear - Hnd Hwn.
      intros zts. revert recs trows. induction zts as [|[z t] zts IH]; intros [|[toks t'] recs] trows Ht HF; try discriminate Ht; inversion HF as [|? a ? trows' H1 H2]; subst; cbn [map]; constructor.
      * cbn [map snd] in *. injection Ht as -> Ht. apply (xml_same_row _ _ _ _ (typed_parser (vc_parsers v))); [apply typed_listed|apply cell_listed|exact Hnd|exact Hwn|exact H1].
      * cbn [map snd] in Ht. injection Ht as _ Ht. apply (IH recs trows' Ht H2).
    + exists (zlen (files path)). split; [reflexivity|]. split; [apply zlen_nonneg|]. apply xml_records_bounded. exact Hsum.
Qed.
End Inputs.

Variable services : list (bytes * list route).
Variable E : env.
Hypothesis Hboot : booted v services E.

(** *** Indexes *)
Hypothesis Hprops : forall n i ps, In (n, VIMap i ps) (vc_indexes v) -> NoDup ps.
Hypothesis Hwprops : forall n path i ps ic, In (n, VIWildcard path i ps ic) (vc_indexes v) -> NoDup ps.
Hypothesis Hcollations : forall n dsn i ps, In (n, VISqlite dsn i ps) (vc_indexes v) -> Forall (fun pc => In (snd pc) [lit "BINARY"; lit "NOCASE"; lit "RTIRM"]) ps.
Hypothesis Hdata : databases_ready visit fts_ok fts_match fx databases v E.
Hypothesis Hwild : wildcards_ready lower index_file v E.

Lemma valid_databases : Forall nul_free (map fst (filter in_database (vc_indexes v))) -> all_valid (vc_indexes v).
Proof.
  intros D2 nc ds nm k Hin Hk. destruct (kind_of_name _ _ _ _ Hk) as [Kn Kd]. split.
  - rewrite Kn. rewrite Forall_forall in D2. apply D2. apply in_map, filter_In. split; assumption.
  - destruct nc as [nn cc]. destruct cc; cbn [index_kind_of snd] in Hk; try discriminate Hk; injection Hk as <- <- <-; cbn [validated_collations sq_props]; [|exact I].
    apply (Hcollations _ _ _ _ Hin).
Qed.

(** An index that is asked for some properties of a table. *)
Lemma searched_exact t n inp rs i asked : link E n t inp rs -> asked <> [] ->
  (forall p, In p asked -> searchable v t i p /\ exists x, mget (vc_indexes v) i = Some x /\ contains_property x n p) ->
  exists ix props, mget (e_indexes E) i = Some ix /\ index_exact (kind i) ix inp rs props /\ forall p, In p asked -> In p props.
Proof.
  intros (Hm & Hname & (Hit & Hord & Hget) & HF & Hpos) Hne H.
  assert (Hx : exists x, mget (vc_indexes v) i = Some x). { destruct asked as [|p asked]; [congruence|]. destruct (H p (or_introl eq_refl)) as (_ & x & Hx & _). eauto. }
  destruct Hx as (x & Hx). destruct (bt_index _ _ _ _ _ _ _ _ _ _ _ _ _ _ _ _ _ _ _ _ _ Hboot i x Hx) as (kept & ix & kept' & Hmk & Hix & Hkept).
  assert (Hkind : (exists input props, x = VIMap input props) \/ x = VINoop \/
    (exists dsn input props, x = VISqlite dsn input props /\ collated props) \/
    (exists dsn input prefix tokenize props, x = VIFts5 dsn input prefix tokenize props /\ Forall nul_free (tokenize :: props)) \/
    exists path input props ic, x = VIWildcard path input props ic /\ forall a p', In a (t_rows t) -> In p' props -> exists s, row_value (t_closed t) a p' (VString s)).
  { destruct asked as [|p asked]; [congruence|].
    destruct (H p (or_introl eq_refl)) as ([(i0 & ps0 & G)|[(pa & i0 & ps0 & ic & G & G')|[(ds & i0 & ps0 & G & G')|[(ds & i0 & pf & tk & ps0 & G & G')|(G & _)]]]] & _); rewrite Hx in G; injection G as ->; eauto 15. }
  unfold kind_of. rewrite Hx. destruct Hkind as [(input & props & ->)|[->|[(dsn & input & props & -> & Hcoll)|[(dsn & input & prefix & tokenize & props & -> & Hfree)|(path & input & props & ic & -> & Hstr)]]]].
  - assert (Hc : forall p, In p asked -> input = n /\ In p props).
    { intros p Hp. destruct (H p Hp) as (_ & x & Hx' & Hc). rewrite Hx in Hx'. injection Hx' as <-. exact Hc. }
    assert (input = n) as ->. { destruct asked as [|p asked]; [congruence|]. apply (Hc p (or_introl eq_refl)). }
    cbn [make_index] in Hmk. rewrite Hm in Hmk. destruct (map_reindex (mkMconfig n props) inp) as [idx| | |] eqn:Er; try discriminate. cbn [rbind] in Hmk. injection Hmk as <- <-.
    exists (map_index (mkMconfig n props) idx), props. split; [exact Hix|]. split; [|intros p Hp; apply (Hc p Hp)].
    assert (Hread : readable props rs). { unfold map_reindex in Er. rewrite Hit in Er. apply (map_add_all_reads _ _ _ _ Er). }
    destruct (map_suits (mkMconfig n props) inp rs Hname (Hprops _ _ _ (mget_In _ _ _ Hx)) Hit Hread Hord) as (idx' & Er' & Hex). rewrite Er in Er'. injection Er' as <-. exact Hex.
  - cbn [make_index] in Hmk. injection Hmk as <- <-. exists noop_positions, asked. split; [exact Hix|]. split; [|auto]. apply noop_suits; [exact Hit|].
    apply Forall_forall. intros r Hr. apply Forall_forall. intros p Hp. destruct (H p Hp) as ([(i0 & ps0 & G)|[(pa & i0 & ps0 & ic & G & _)|[(ds & i0 & ps0 & G & _)|[(ds & i0 & pf & tk & ps0 & G & _)|(_ & G)]]]] & _); [congruence|congruence|congruence|congruence|].
    destruct (forall2_In_l _ _ _ _ HF Hr) as (a & Ha & (_ & _ & Hra)). destruct (G a Ha) as (y & Hy & Hpy). exists y. split; [apply Hra; exact Hy|exact Hpy].
  - assert (Hc : forall p, In p asked -> input = n /\ In p (map fst props)).
    { intros p Hp. destruct (H p Hp) as (_ & x & Hx' & Hc). rewrite Hx in Hx'. injection Hx' as <-. destruct Hc as (-> & co & Hin). split; [reflexivity|]. apply (in_map fst) in Hin. exact Hin. }
    assert (input = n) as ->. { destruct asked as [|p asked]; [congruence|]. apply (Hc p (or_introl eq_refl)). }
    cbn [make_index] in Hmk. injection Hmk as <- <-. exists (sqlite_index visit fts_ok fts_match (mkSconfig i n props) (dbs dsn)), (map fst props). split; [exact Hix|].
    split; [|intros p Hp; apply (Hc p Hp)]. pose proof Hdata as (D1 & _ & D2 & D3 & D4). pose proof (valid_databases D2) as Hall.
    assert (Hn : nul_free i) by (apply (Hall _ dsn n _ (mget_In _ _ _ Hx) eq_refl)).
    apply (rows_suit visit fts_ok fts_match (mkSconfig i n props) Hcoll inp rs (dbs dsn) Hname Hn D1 Hit).
    apply (opened_rows visit fts_ok fts_match (e_inputs E) (i, VISqlite dsn n props) dsn n _ inp (vc_indexes v) databases dbs Hall D3
      (bt_databases _ _ _ _ _ _ _ _ _ _ _ _ _ _ _ _ _ _ _ _ _ Hboot) (mget_In _ _ _ Hx) eq_refl Hm).
    apply (D4 i dsn n inp _ Hm). left. exists props. split; [exact Hx|reflexivity].
  - assert (Hc : forall p, In p asked -> input = n /\ p = lit "match").
    { intros p Hp. destruct (H p Hp) as (_ & x & Hx' & Hc). rewrite Hx in Hx'. injection Hx' as <-. exact Hc. }
    assert (input = n) as ->. { destruct asked as [|p asked]; [congruence|]. apply (Hc p (or_introl eq_refl)). }
    cbn [make_index] in Hmk. injection Hmk as <- <-. exists (fts_index visit fts_ok fts_match (mkFconfig i n prefix tokenize props) (dbs dsn)), [lit "match"]. split; [exact Hix|].
    split; [|intros p Hp; left; symmetry; apply (Hc p Hp)]. pose proof Hdata as (D1 & DF & D2 & D3 & D4). pose proof (valid_databases D2) as Hall.
    assert (Hn : nul_free i) by (apply (Hall _ dsn n _ (mget_In _ _ _ Hx) eq_refl)).
    apply (matched_rows_suit visit fts_ok fts_match (mkFconfig i n prefix tokenize props) fx inp rs (dbs dsn) Hname Hn Hfree D1 DF Hit).
    apply (opened_rows visit fts_ok fts_match (e_inputs E) (i, VIFts5 dsn n prefix tokenize props) dsn n _ inp (vc_indexes v) databases dbs Hall D3
      (bt_databases _ _ _ _ _ _ _ _ _ _ _ _ _ _ _ _ _ _ _ _ _ Hboot) (mget_In _ _ _ Hx) eq_refl Hm).
    apply (D4 i dsn n inp _ Hm). right. exists prefix, tokenize, props. split; [exact Hx|reflexivity].
  - assert (Hc : forall p, In p asked -> input = n /\ In p props).
    { intros p Hp. destruct (H p Hp) as (_ & x & Hx' & Hc). rewrite Hx in Hx'. injection Hx' as <-. exact Hc. }
    assert (input = n) as ->. { destruct asked as [|p asked]; [congruence|]. apply (Hc p (or_introl eq_refl)). }
    destruct Hwild as (Hpaths & Hwild'). specialize (Hkept Hpaths path (or_introl eq_refl)). destruct (Hwild' _ _ _ _ _ _ Hx Hm) as ((size & time & Hsz & Hsz' & Htm & Htm') & Hcr).
    cbn [make_index] in Hmk. rewrite Hm in Hmk. set (cfg := mkWconfig n props ic) in *.
    assert (Hin : indexable props inp).
    { destruct Hpos as (size' & Hsz2 & Hsz3 & Hpos). rewrite Hsz in Hsz2. injection Hsz2 as <-. split; [exists size; split; [exact Hsz|unfold in_i64, two63 in *; lia]|]. split; [exists time; auto|].
      rewrite Hit, Forall_map. apply Forall_forall. intros r Hr. exists r. split; [reflexivity|]. rewrite Forall_forall in Hpos. specialize (Hpos r Hr). split; [unfold in_i64, two63 in *; lia|].
        apply Forall_forall. intros p Hp. destruct (forall2_In_l _ _ _ _ HF Hr) as (a & Ha & (_ & _ & Hra)). destruct (Hstr a p Ha Hp) as (s & Hs). exists s. apply Hra, Hs. }
    destruct (create_index lower cfg inp created_stream) as [r s] eqn:Ec. destruct (Hcr r s eq_refl) as (Hfit & Hfile).
    destruct Hfile as [Hfile|Hfile]; rewrite Hkept, Hfile in Hmk.
    + destruct (wildcard_suits lower cfg inp rs r s Hname (Hwprops _ _ _ _ _ (mget_In _ _ _ Hx)) Hin Hit Hord Ec Hfit) as (idx & -> & Hex).
      try rewrite Ec in Hmk. cbn [rbind] in Hmk. injection Hmk as <- <-. eexists _, props. split; [exact Hix|]. split; [exact Hex|]. intros p Hp. apply (Hc p Hp).
    + destruct (wildcard_reload_suits lower cfg inp rs r s Hname (Hwprops _ _ _ _ _ (mget_In _ _ _ Hx)) Hin Hit Hord Ec Hfit) as (idx & s2 & El & Hex).
      rewrite El in Hmk. cbn [rbind] in Hmk. injection Hmk as <- <-. eexists _, props. split; [exact Hix|]. split; [exact Hex|]. intros p Hp. apply (Hc p Hp).
Qed.

(** *** Relationships *)
Variable tables : bytes -> option table.
Hypothesis Htables : forall n t, tables n = Some t -> exists c, mget (vc_inputs v) n = Some c /\ provides cell (vc_parsers v) xml files c t.
Hypothesis Hxml : forall n t path die props xpath, tables n = Some t -> mget (vc_inputs v) n = Some (VXml path die props xpath) -> records_read n path xpath.

Lemma tables_linked n t : tables n = Some t -> exists inp rs, link E n t inp rs.
Proof. intros H. destruct (Htables _ _ H) as (c & H1 & H2). apply (provided_linked E (bt_input _ _ _ _ _ _ _ _ _ _ _ _ _ _ _ _ _ _ _ _ _ Hboot) n c t H1 H2). intros path die props xpath ->. apply (Hxml n t path die props xpath H H1). Qed.

Definition rel_valid (r : relationship) : Prop :=
  (rel_match r <> [] /\ NoDup (map m_child (rel_match r))) /\
  forall m, In m (rel_match r) -> exists x, mget (vc_indexes v) (m_index m) = Some x /\ contains_property x (rel_input r) (m_child m).

Lemma rels_step t n inp rs rels : link E n t inp rs -> joinable kind tables v t rels -> (forall r, sub_rel r rels -> rel_valid r) ->
  (forall name c, In (name, c) rels -> forall t' n' inp' rs', link E n' t' inp' rs' -> joinable kind tables v t' (rel_children c) ->
     (forall r, sub_rel r (rel_children c) -> rel_valid r) -> rels_ok kind E rs' (rel_children c)) ->
  rels_ok kind E rs rels.
Proof.
  intros (Hm & Hname & Hio & HF & _) J Hv Hrec. inversion J as [t0 rels0 Hnd H]; subst. constructor; [exact Hnd|].
  intros name c I. destruct (H _ _ I) as (t' & Ht & Hlim & Hms & Hj). destruct (tables_linked _ _ Ht) as (inp' & rs' & L). exists inp', rs'.
  destruct (Hv c (sub_here c name rels I)) as (Hvm & Hvx). pose proof L as (L1 & L2 & L3 & L4 & _).
  split; [split; assumption|]. split; [exact Hvm|]. split; [|split; [|split; [exact Hlim|]]].
  - intros m Im. destruct (Hms m Im) as (G1 & G2 & G3). split; [exact G1|]. split.
    + destruct (searched_exact t' (rel_input c) inp' rs' (m_index m) (map m_child (filter (fun m' => bytes_eqb (m_index m') (m_index m)) (rel_match c))) L) as (ix & props & Hi & He & Hp).
      * intros Hnil. pose proof (params_of m_child m_index (rel_match c) (m_index m) m Im eq_refl) as Hin. rewrite Hnil in Hin. destruct Hin.
      * intros p Hp. apply in_map_iff in Hp as (m' & <- & Hp). apply filter_In in Hp as [Im' Eq]. apply bytes_eqb_eq in Eq. rewrite <- Eq. split; [apply (Hms m' Im')|apply (Hvx m' Im')].
      * exists ix, props. split; [exact Hi|]. split; [exact He|]. intros m' Im' Eq. apply Hp. apply params_of; assumption.
    + intros r a Hr Ha. destruct (forall2_In_l _ _ _ _ HF Hr) as (a' & Ha' & (Hall & _)). assert (a' = a) as -> by congruence. apply (G3 a Ha').
  - intros r Hr. destruct (forall2_In_l _ _ _ _ L4 Hr) as (a & _ & (Hall & Hn & _)). exists a. split; assumption.
  - apply (Hrec _ _ I t' (rel_input c) inp' rs' L Hj). intros r Hr. apply Hv. apply (sub_below r name c rels I Hr).
Qed.

Lemma children_ok c : forall t n inp rs, link E n t inp rs -> joinable kind tables v t (rel_children c) ->
  (forall r, sub_rel r (rel_children c) -> rel_valid r) -> rels_ok kind E rs (rel_children c).
Proof.
  induction c as [i ia lim so ms ch IH] using relationship_ind'. intros t n inp rs L J Hv. cbn [rel_children] in *.
  apply (rels_step t n inp rs ch L J Hv). intros name c I t' n' inp' rs' L' J' Hv'. rewrite Forall_forall in IH. apply (IH (name, c) I t' n' inp' rs' L' J' Hv').
Qed.

Lemma relationships_ok t n inp rs rels : link E n t inp rs -> joinable kind tables v t rels -> (forall r, sub_rel r rels -> rel_valid r) -> rels_ok kind E rs rels.
Proof. intros L J Hv. apply (rels_step t n inp rs rels L J Hv). intros name c I t' n' inp' rs' L' J' Hv'. apply (children_ok c t' n' inp' rs' L' J' Hv'). Qed.

(** *** Endpoints *)
Hypothesis Hfit : indexes_fit v.
Hypothesis Hun : unambiguous v.
Hypothesis Hdefault : mget (vc_indexes v) (lit "default") = Some VINoop.

Lemma output_valid n o : In (n, VOutput o) (vc_outputs v) -> forall r, sub_rel r (out_rels o) -> rel_valid r.
Proof.
  intros I r Hr. split; [apply (un_match v Hun _ _ _ I Hr)|]. intros [[parent child] index] Im. apply (fit_match v Hfit _ _ _ parent child index I Hr Im).
Qed.

Lemma output_endpoint n o t : In (n, VOutput o) (vc_outputs v) -> tables (out_input o) = Some t -> joinable kind tables v t (out_rels o) ->
  NoDup (map (fun np => (pm_index (snd np), pm_property (snd np))) (out_params o)) ->
  (forall name pc, In (name, pc) (out_params o) -> searchable v t (pm_index pc) (pm_property pc)) ->
  exists inp rs, link E (out_input o) t inp rs /\ endpoint_ok kind E (out_input o) (out_params o) (out_rels o) inp rs.
Proof.
  intros I Ht J Hnd Hse. destruct (tables_linked _ _ Ht) as (inp & rs & L). exists inp, rs. split; [exact L|]. pose proof L as (L1 & L2 & L3 & L4 & _). pose proof L3 as (L5 & _).
  split; [exact L1|]. split; [exact L3|]. split; [rewrite (bt_default _ _ _ _ _ _ _ _ _ _ _ _ _ _ _ _ _ _ _ _ _ Hboot Hdefault); apply noop_suits_default; exact L5|].
  split; [split; [exact Hnd|]|split].
  - intros name pc Ip.
    destruct (searched_exact t (out_input o) inp rs (pm_index pc) (map (fun np => pm_property (snd np)) (filter (fun np => bytes_eqb (pm_index (snd np)) (pm_index pc)) (out_params o))) L) as (ix & props & Hi & He & Hp).
    + intros Hnil. pose proof (params_of (fun np : bytes * param => pm_property (snd np)) (fun np => pm_index (snd np)) (out_params o) (pm_index pc) (name, pc) Ip eq_refl) as Hin. cbn beta in Hin. rewrite Hnil in Hin. destruct Hin.
    + intros p Hp. apply in_map_iff in Hp as ([name' pc'] & <- & Hp). apply filter_In in Hp as [Ip' Eq]. apply bytes_eqb_eq in Eq. cbn [snd] in *. rewrite <- Eq.
      split; [apply (Hse _ _ Ip')|]. apply (fit_param v Hfit _ _ _ _ I Ip').
    + exists ix, props. split; [exact Hi|]. split; [exact He|]. intros name' pc' Ip' Eq. apply Hp.
      apply (params_of (fun np : bytes * param => pm_property (snd np)) (fun np => pm_index (snd np)) (out_params o) (pm_index pc) (name', pc') Ip' Eq).
  - intros r Hr. destruct (forall2_In_l _ _ _ _ L4 Hr) as (a & _ & (Hall & Hn & _)). exists a. split; assumption.
  - apply (relationships_ok t (out_input o) inp rs (out_rels o) L J). apply (output_valid n o I).
Qed.

Lemma primitive_parsed c s x : match c with PString _ | PInteger _ | PFloat _ _ | PBoolean _ _ => True | PJson | PSplit _ _ _ => False end ->
  parser_of decode_charset regexp_split (vc_parsers v) c s = Ok x -> primitive x.
Proof.
  intros Hc H. unfold parser_of in H. cbn [parse] in H. destruct c; try destruct Hc.
  - unfold parse_string in H. destruct charset; [injection H as <-; exact I|]. destruct (decode_charset _ s); try discriminate. injection H as <-. exact I.
  - unfold parse_integer in H. destruct (atoi _); try discriminate. injection H as <-. exact I.
  - unfold parse_float_value in H. cbv zeta in H. match type of H with rbind ?y _ = _ => destruct y; try discriminate H end. injection H as <-. exact I.
  - unfold parse_boolean in H. destruct (is_in_array s trues); [injection H as <-; exact I|]. destruct (is_in_array s falses); [injection H as <-; exact I|discriminate].
Qed.

Lemma askable_accepted i x : askable v fx i x -> primitive x -> s_accepts (kind i) x.
Proof. unfold askable, kind_of. intros H Hx. destruct (mget (vc_indexes v) i) as [[]|]; try exact Hx; exact H. Qed.

Lemma asked_given n o params missing : In (n, VOutput o) (vc_outputs v) -> forall pcs fs, (forall np, In np pcs -> In np (out_params o)) ->
  asked v cell fx params missing pcs fs -> given kind E params missing pcs fs.
Proof.
  intros I pcs fs Hin H. induction H as [|name pc pcs fs H1 H2 H IH|name pc pcs fs s x H1 H2 Hask H IH]; [constructor| |].
  - apply given_skip; [exact H1|exact H2|]. apply IH. intros np Hnp. apply Hin. right. exact Hnp.
  - destruct (fit_param v Hfit _ _ name pc I (Hin _ (or_introl eq_refl))) as (_ & c & Mc & Pc). unfold named_parser in H2. rewrite Mc in H2.
    apply given_take with (s := s) (parse := parser_of decode_charset regexp_split (vc_parsers v) c); [exact H1|apply (bt_parser _ _ _ _ _ _ _ _ _ _ _ _ _ _ _ _ _ _ _ _ _ Hboot _ _ Mc)|exact H2|apply askable_accepted; [exact Hask|apply (primitive_parsed c s x Pc H2)]|].
    apply IH. intros np Hnp. apply Hin. right. exact Hnp.
Qed.

(** *** Answers *)
Variable ord : order.
Variable err_text : err -> bytes.
Variable write_ok : response -> bytes -> bool.
Hypothesis Hord : order_ok ord.
Hypothesis Hperm : forall lt l, Permutation l (alg lt l).
Hypothesis Hsorts : sorts alg.
Hypothesis Hnum : numbers_tables tables.
Notation serve := (serve E ord json_float err_text write_ok).

Lemma sent o params x routes rq r : first_match routes rq r -> rt_output r = o -> get_params r rq = Ok params ->
  computes E ord o params x -> numbers_only x ->
  exists b j, fst (serve routes rq) = [Header 200 (lit "application/json; charset=UTF-8"); Body b] /\ json_text b j /\ denotes json_float j x.
Proof.
  intros Hm Ho Hp Hc Hn. destruct (numbers_encode json_float x Hn) as (b & Eb). destruct (encode_complete json_float float_number x b Eb) as (j & H1 & H2).
  exists (b ++ [x0a]), j. split; [|split; assumption]. unfold Http.serve. rewrite (proj2 (matching_first routes rq r) Hm), Hp, Ho.
  specialize (Hc response (send_error json_float err_text write_ok) send_success (write write_ok) (json_encode json_float) []).
  unfold handle. destruct o; rewrite Hc; unfold encode; rewrite Eb; reflexivity.
Qed.

Lemma routed s routes rq r : In (s, routes) services -> first_match routes rq r -> exists n, In (n, VOutput (rt_output r)) (vc_outputs v).
Proof.
  intros Is Hm. apply (bt_output _ _ _ _ _ _ _ _ _ _ _ _ _ _ _ _ _ _ _ _ _ Hboot s routes r Is). clear - Hm. induction Hm as [|r r' routes rq H Hm IH]; [left; reflexivity|right; exact IH].
Qed.

Lemma list_served s routes rq r c params t fs off lim :
  In (s, routes) services -> first_match routes rq r -> rt_output r = OArray c -> get_params r rq = Ok params ->
  tables (ac_input c) = Some t -> joinable kind tables v t (ac_relationships c) ->
  NoDup (map (fun np => (pm_index (snd np), pm_property (snd np))) (ac_params c)) ->
  (forall name pc, In (name, pc) (ac_params c) -> searchable v t (pm_index pc) (pm_property pc)) ->
  asked v cell fx params None (ac_params c) fs -> page_request c params off lim -> 0 <= lim < two63 ->
  exists sel rows b j, kept (meets kind (t_closed t) fs) (t_rows t) sel /\
    Forall2 (completed kind tables (ac_relationships c)) (page off lim sel) rows /\
    fst (serve routes rq) = [Header 200 (lit "application/json; charset=UTF-8"); Body b] /\
    json_text b j /\ denotes json_float j (VList (map VMap rows)).
Proof.
  intros Is Hm Ho Hp Ht J Hnd Hse Ha Hpr Hlim. destruct (routed _ _ _ _ Is Hm) as (n & I). rewrite Ho in I.
  destruct (output_endpoint n (OArray c) t I Ht J Hnd Hse) as (inp & rs & L & Hep). cbn [out_input out_params out_rels] in *.
  pose proof (asked_given n (OArray c) params None I (ac_params c) fs (fun _ h => h) Ha) as Hg.
  pose proof (bt_sort _ _ _ _ _ _ _ _ _ _ _ _ _ _ _ _ _ _ _ _ _ Hboot) as Hal.
  assert (Hs' : sorts (e_sort E)) by (rewrite Hal; exact Hsorts). assert (Hp' : forall lt l, Permutation l (e_sort E lt l)) by (rewrite Hal; exact Hperm).
  destruct (array_rows kind E ord Hord arrangement (arrangement_self E Hs' Hp') Hp' c params inp rs fs off lim Hep Hg Hpr Hlim) as (sel & rows & K1 & K2 & K3).
  destruct L as (_ & _ & _ & LF & _). destruct (kept_transport _ _ _ (fun r a => selects_meets kind (t_closed t) fs r a (kind_values lower fx v)) _ _ K1 _ LF) as (sel' & K' & F').
  assert (HF : Forall2 (completed kind tables (ac_relationships c)) (page off lim sel') rows).
  { refine (forall2_match _ _ _ _ _ _ K2 _ (forall2_page _ off lim _ _ F')). intros r0 d a (Hr & _) (a0 & (Ha0 & _) & Hl). assert (a0 = a) as -> by congruence.
    apply (loaded_completed kind E tables tables_linked (kind_values lower fx v) v t (ac_relationships c) a d J Hl). }
  assert (Hnr : numbers_only (VList (map VMap rows))).
  { constructor. apply Forall_forall. intros y Hy. apply in_map_iff in Hy as (d & <- & Hd). destruct (forall2_In_r _ _ _ _ HF Hd) as (a & Hain & Hc).
    apply (completed_numbers kind tables Hnum (ac_relationships c) a d); [|exact Hc]. apply (Hnum _ _ _ Ht). apply (kept_In _ _ _ K'). revert Hain. unfold page. intros Hain. apply firstn_In' in Hain.
    rewrite <- (firstn_skipn (Z.to_nat off) sel'). apply in_or_app. right. exact Hain. }
  assert (Hc : computes E ord (OArray c) params (VList (map VMap rows))) by (intros W se ss wr enc w; apply K3).
  destruct (sent _ _ _ _ _ _ Hm Ho Hp Hc Hnr) as (b & j & B1 & B2 & B3). exists sel', rows, b, j. auto.
Qed.

Lemma object_served s routes rq r c params t fs :
  In (s, routes) services -> first_match routes rq r -> rt_output r = OObject c -> get_params r rq = Ok params ->
  tables (oc_input c) = Some t -> joinable kind tables v t (oc_relationships c) ->
  NoDup (map (fun np => (pm_index (snd np), pm_property (snd np))) (oc_params c)) ->
  (forall name pc, In (name, pc) (oc_params c) -> searchable v t (pm_index pc) (pm_property pc)) ->
  asked v cell fx params (Some []) (oc_params c) fs ->
  exists sel b j, kept (meets kind (t_closed t) fs) (t_rows t) sel /\ json_text b j /\
    match sel with
    | [] => fst (serve routes rq) = [Header 404 (lit "application/json; charset=UTF-8"); Body b]
    | a :: _ => exists d, completed kind tables (oc_relationships c) a d /\
        fst (serve routes rq) = [Header 200 (lit "application/json; charset=UTF-8"); Body b] /\ denotes json_float j (VMap d)
    end.
Proof.
  intros Is Hm Ho Hp Ht J Hnd Hse Ha. destruct (routed _ _ _ _ Is Hm) as (n & I). rewrite Ho in I.
  destruct (output_endpoint n (OObject c) t I Ht J Hnd Hse) as (inp & rs & L & Hep). cbn [out_input out_params out_rels] in *.
  pose proof (asked_given n (OObject c) params (Some []) I (oc_params c) fs (fun _ h => h) Ha) as Hg.
  pose proof (bt_sort _ _ _ _ _ _ _ _ _ _ _ _ _ _ _ _ _ _ _ _ _ Hboot) as Hal.
  assert (Hs' : sorts (e_sort E)) by (rewrite Hal; exact Hsorts). assert (Hp' : forall lt l, Permutation l (e_sort E lt l)) by (rewrite Hal; exact Hperm).
  destruct (object_row kind E ord Hord arrangement (arrangement_self E Hs' Hp') Hp' c params inp rs fs Hep Hg) as (sel & K1 & K2).
  destruct L as (_ & _ & _ & LF & _). destruct (kept_transport _ _ _ (fun r a => selects_meets kind (t_closed t) fs r a (kind_values lower fx v)) _ _ K1 _ LF) as (sel' & K' & F').
  destruct F' as [|r0 a sel sel' Hra F'].
  - destruct (error_text json_float err_text ENotFound) as (b & Eb). pose proof (error_json json_float err_text ENotFound b Eb) as Hj.
    eexists [], b, _. split; [exact K'|]. split; [exact Hj|]. unfold Http.serve. rewrite (proj2 (matching_first routes rq r) Hm), Hp, Ho. unfold handle. rewrite K2.
    unfold send_error, send_error_response. rewrite Eb. reflexivity.
  - destruct K2 as (a0 & d & (Ha0 & _) & Hl & K2). destruct Hra as (Hr & _). assert (a0 = a) as -> by congruence.
    pose proof (loaded_completed kind E tables tables_linked (kind_values lower fx v) v t (oc_relationships c) a d J Hl) as Hcd.
    assert (Hnd' : numbers_only (VMap d)).
    { apply (completed_numbers kind tables Hnum (oc_relationships c) a d); [|exact Hcd]. apply (Hnum _ _ _ Ht). apply (kept_In _ _ _ K'). left. reflexivity. }
    assert (Hc : computes E ord (OObject c) params (VMap d)) by (intros W se ss wr enc w; apply K2).
    destruct (sent _ _ _ _ _ _ Hm Ho Hp Hc Hnd') as (b & j & B1 & B2 & B3). exists (a :: sel'), b, j. split; [exact K'|]. split; [exact B2|]. exists d. auto.
Qed.
End System.

Lemma page_positive c params off lim : 1 <= ac_default c <= ac_max c -> page_request c params off lim -> 0 <= lim.
Proof. intros H (H1 & _). destruct (mget params (ac_limit_param c)); [destruct H1 as (z & _ & _ & Hz & ->)|subst]; lia. Qed.
