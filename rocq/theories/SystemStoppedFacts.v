(** Proofs about the starts of the program that are stopped. *)
From Coq Require Import List ZArith Lia Bool String Permutation.
From Coq Require Import Strings.Byte.
From Verif Require Import Sql SqlIndex SpecSql SpecSqlFind SqlFacts SqlRunFacts SqlLifeFacts SqlInvFacts SqlHistoryFacts SqlFindFacts.
From Verif Require Import XmlStream XmlInput.
From Verif Require Import Stream StreamFacts Heap WildcardFacts NodeFacts Wildcard WildcardMeta SpecWildcard WildcardFacts3 WildcardFacts4 WildcardFacts5 WildcardFacts7.
From Verif Require Import Base BaseFacts Codec Value Records Bufio CsvReader Index SpecIndex Sort Output SpecOutput Http Regex Route Config SpecConfig ConfigFacts ConfigFacts4 Start StartFacts StartFacts2.
From Verif Require Import System SpecSystem SpecStart SystemFacts SystemSqlFacts SystemFacts3 SystemFacts4 SystemStartFacts SpecStopped.
Import ListNotations.
Open Scope Z_scope.

Lemma same_folded l n x n' x' : NoDup (map fold_name (map fst (filter in_database l))) ->
  mget l n = Some x -> mget l n' = Some x' -> in_database (n, x) = true -> in_database (n', x') = true ->
  fold_name n = fold_name n' -> n = n'.
Proof.
  intros N M M' D D' E. apply mget_In in M, M'.
  assert (I : In (n, x) (filter in_database l)) by (apply filter_In; auto).
  assert (I' : In (n', x') (filter in_database l)) by (apply filter_In; auto). clear M M' D D'.
  induction (filter in_database l) as [|[k c] m IH]; [destruct I|]. cbn [map fst] in N. inversion N as [|? ? N1 N2]; subst.
  destruct I as [I|I], I' as [I'|I']; [congruence| | |auto].
  - injection I as -> ->. exfalso. apply N1. rewrite E. apply in_map. change n' with (fst (n', x')). apply in_map. exact I'.
  - injection I' as -> ->. exfalso. apply N1. rewrite <- E. apply in_map. change n with (fst (n, x)). apply in_map. exact I.
Qed.

Section Stopped.
Variable visit : list (list sqlv) -> list (res (list sqlv)).
Variable fts_ok : list bytes -> bytes -> bytes -> bool.
Variable fts_match : Sql.table -> sqlv -> res (list (list sqlv)).
Notation run := (srun visit fts_ok fts_match).
Notation states := (sstates visit fts_ok fts_match).

Lemma last_state {A} (p : sprog A) : forall d, In (fst (run p d)) (states p d).
Proof. induction p as [r|q args k IH]; intros d; cbn [srun sstates fst]; [now left|]. right. apply IH. Qed.

Lemma prepared_starts k inp d : prepared visit fts_ok fts_match k inp d -> left_by_starts visit fts_ok fts_match k inp d.
Proof.
  intros [[Tm Tr]|[(d0 & d1 & Tm & Tr & E & Em & Er)|H]]; [now apply never_started| |exact H].
  apply (next_start _ _ _ _ _ d0 d1 d); [now apply never_started| |exact Em|exact Er].
  pose proof (last_state (SpecSql.start k inp) d0) as L. rewrite E in L. exact L.
Qed.

Lemma others_kept n k inp d d' : nul_free (kind_name k) -> validated_collations k -> fold_name (kind_name k) <> fold_name n ->
  In d' (states (SpecSql.start k inp) d) -> kept_tables n d d'.
Proof.
  intros Hn Hv N Hd.
  assert (K : forall x, In x [meta_name n; rows_name n] -> tables_of d' x = tables_of d x).
  { intros x Hx.
    pose proof (start_keeps visit fts_ok fts_match k inp d x Hn (validated_word _ Hv) (fun y Hy => other_tables (kind_name k) n y x N Hy Hx)) as S.
    apply holds_states in S. rewrite Forall_forall in S. exact (S d' Hd). }
  split; apply K; cbn; auto.
Qed.

Variable v : vconfig.
Variable inputs : list (bytes * input).
Hypothesis Hvalid : all_valid (vc_indexes v).
Hypothesis Hnames : NoDup (map fold_name (map fst (filter in_database (vc_indexes v)))).

Definition all_prepared (dbs : bytes -> db) : Prop :=
  forall n x dsn name k inp, mget (vc_indexes v) n = Some x -> index_kind_of (n, x) = Some (dsn, name, k) -> mget inputs name = Some inp ->
    prepared visit fts_ok fts_match k inp (dbs dsn).

Lemma stopped_one dbs n x dsn name k inp d : all_prepared dbs -> mget (vc_indexes v) n = Some x -> index_kind_of (n, x) = Some (dsn, name, k) ->
  mget inputs name = Some inp -> In d (states (SpecSql.start k inp) (dbs dsn)) -> all_prepared (fun y => if bytes_eqb y dsn then d else dbs y).
Proof.
  intros P M K Mi Hd n' x' dsn' name' k' inp' M' K' Mi'. cbv beta. destruct (bytes_eqb dsn' dsn) eqn:Eq; [|apply (P n' x' dsn' name' k' inp' M' K' Mi')].
  apply bytes_eqb_eq in Eq. subst dsn'. destruct (kind_of_name _ _ _ _ K) as [Kn Kd], (kind_of_name _ _ _ _ K') as [Kn' Kd']. cbn [fst] in Kn, Kn'.
  pose proof (P n' x' dsn name' k' inp' M' K' Mi') as Hp. destruct (bytes_eqb n n') eqn:En.
  - apply bytes_eqb_eq in En. rewrite <- En in M', K'. rewrite M in M'. injection M' as <-. rewrite K in K'. injection K' as <- <-. rewrite Mi in Mi'. injection Mi' as <-.
    right. right. apply (next_start _ _ _ _ _ (dbs dsn) d d); [apply prepared_starts; exact Hp|exact Hd|reflexivity|reflexivity].
  - destruct (Hvalid (n, x) dsn name k (mget_In _ _ _ M) K) as [V1 V2].
    destruct (others_kept (kind_name k') k inp (dbs dsn) d V1 V2) as [K1 K2]; [|exact Hd|exact (prepared_frame visit fts_ok fts_match k' inp' _ _ K1 K2 Hp)].
    rewrite Kn, Kn'. intros F. pose proof (same_folded _ _ _ _ _ Hnames M M' Kd Kd' F) as E. rewrite E, bytes_eqb_refl in En. discriminate.
Qed.

Lemma stopped_prepared dbs dbs' : interrupted visit fts_ok fts_match v inputs dbs dbs' -> all_prepared dbs -> all_prepared dbs'.
Proof.
  intros H P. induction H as [|dbs1 n dsn input props inp d H IH M Mi Hd|dbs1 n dsn input prefix tokenize props inp d H IH M Mi Hd]; [exact P| |].
  - apply (stopped_one dbs1 n _ dsn input _ inp d IH M eq_refl Mi Hd).
  - apply (stopped_one dbs1 n _ dsn input _ inp d IH M eq_refl Mi Hd).
Qed.
End Stopped.

Lemma stopped_ready visit fts_ok fts_match F v E inputs dbs dbs' :
  (forall n dsn i ps, In (n, VISqlite dsn i ps) (vc_indexes v) -> Forall (fun pc => In (snd pc) [lit "BINARY"; lit "NOCASE"; lit "RTIRM"]) ps) ->
  (forall n inp, mget inputs n = Some inp <-> mget (e_inputs E) n = Some inp) ->
  interrupted visit fts_ok fts_match v inputs dbs dbs' ->
  databases_ready visit fts_ok fts_match F dbs v E -> databases_ready visit fts_ok fts_match F dbs' v E.
Proof.
  intros Hc Hi H (D1 & D2 & D3 & D4 & D5). split; [exact D1|]. split; [exact D2|]. split; [exact D3|]. split; [exact D4|].
  assert (P : all_prepared visit fts_ok fts_match v inputs dbs).
  { intros n x dsn name k inp M K Mi. apply Hi in Mi. apply (D5 n dsn name inp k Mi).
    destruct x; try discriminate K; cbn [index_kind_of snd fst] in K; injection K as <- <- <-; [left|right]; eauto 6. }
  apply (stopped_prepared visit fts_ok fts_match v inputs (valid_databases v Hc D3) D4 dbs dbs' H) in P.
  intros n dsn name inp k Mi Hk. apply Hi in Mi. destruct Hk as [(props & M & ->)|(prefix & tokenize & props & M & ->)]; eapply P; try exact M; try exact Mi; reflexivity.
Qed.

(** What is written before the file is marked as complete is smaller than the file. *)
Lemma body_fits lower cfg inp r0 s0 r s : create_body lower cfg inp created_stream = (r0, s0) -> create_index lower cfg inp created_stream = (r, s) ->
  NodeFacts.fits s -> NodeFacts.fits s0.
Proof.
  intros E0 E Hb. unfold create_index in E.
  assert (Hm0 : mono (create_body lower cfg inp)). { unfold create_body, new_metadata. mono_tac. }
  assert (Hw0 : swf s0) by (eapply Hm0; [apply (new_stream_wf [])|exact E0]).
  apply bind_inv in E as [([idx m1] & s0' & E0' & E)|E].
  - rewrite E0 in E0'. injection E0' as -> <-.
    refine (mono_fits (do _ <- meta_save (set_completed m1 true); do _ <- stream_flush; ret idx) _ _ _ _ Hw0 E Hb). mono_tac.
  - assert (s = s0) by (destruct E as [(e & E & _)|[[E _]|[E _]]]; rewrite E0 in E; congruence). subst. exact Hb.
Qed.

(** Two starts read the same files. *)
Lemma same_inputs files mtime cap chunk decode_charset regexp_split new_charset csv_state json_state lower index_file index_file' visit fts_ok fts_match databases databases' xml alg open_file listen v services E services' E' :
  boot files mtime cap chunk decode_charset regexp_split new_charset csv_state json_state lower index_file visit fts_ok fts_match databases xml alg open_file listen v = Done (services, E) ->
  boot files mtime cap chunk decode_charset regexp_split new_charset csv_state json_state lower index_file' visit fts_ok fts_match databases' xml alg open_file listen v = Done (services', E') ->
  forall n, mget (e_inputs E) n = mget (e_inputs E') n.
Proof.
  intros B B' n. apply boot_booted in B, B'. destruct B as (dbs & B), B' as (dbs' & B').
  destruct (mget (vc_inputs v) n) as [c|] eqn:M.
  - destruct (bt_input _ _ _ _ _ _ _ _ _ _ _ _ _ _ _ _ _ _ _ _ _ B n c M) as (s & H1 & H2).
    destruct (bt_input _ _ _ _ _ _ _ _ _ _ _ _ _ _ _ _ _ _ _ _ _ B' n c M) as (s' & H1' & H2'). rewrite H2, H2'. rewrite H1 in H1'. injection H1' as <-. reflexivity.
  - assert (Q : forall A (m : list (bytes * A)), map fst m = map fst (vc_inputs v) -> mget m n = None).
    { intros A m Em. destruct (mget m n) as [a|] eqn:Ma; [|reflexivity]. exfalso. apply mget_In in Ma. apply (in_map fst) in Ma. rewrite Em in Ma.
      apply in_map_iff in Ma as ([n' c] & En & Hin). cbn [fst] in En. subst n'. destruct (has_mget (vc_inputs v) n) as (c' & Mc); [exists c; exact Hin|congruence]. }
    destruct (bt_names _ _ _ _ _ _ _ _ _ _ _ _ _ _ _ _ _ _ _ _ _ B) as (N & _), (bt_names _ _ _ _ _ _ _ _ _ _ _ _ _ _ _ _ _ _ _ _ _ B') as (N' & _).
    rewrite (Q _ _ N), (Q _ _ N'). reflexivity.
Qed.

Lemma system_stopped : forall stat regexp_ok xpath_ok upper p v
  files mtime cap chunk decode_charset regexp_split new_charset csv_state json_state lower index_file index_file' visit fts_ok fts_match databases databases' xml alg open_file listen F tables services0 E0 services E,
  load stat regexp_ok xpath_ok upper p = Ok v -> unsigned_limits p ->
  ready files cap chunk csv_state xml (named_parser decode_charset regexp_split v) v tables ->
  startable files mtime (made_input files mtime cap chunk decode_charset regexp_split csv_state json_state xml open_file (vc_parsers v)) lower index_file visit fts_ok fts_match databases v tables
    new_charset open_file listen ->
  in_order visit -> searched_by fts_match F ->
  boot files mtime cap chunk decode_charset regexp_split new_charset csv_state json_state lower index_file visit fts_ok fts_match databases xml alg open_file listen v = Done (services0, E0) ->
  interrupted visit fts_ok fts_match v (e_inputs E0) databases databases' -> files_left lower v (e_inputs E0) index_file index_file' ->
  boot files mtime cap chunk decode_charset regexp_split new_charset csv_state json_state lower index_file' visit fts_ok fts_match databases' xml alg open_file listen v = Done (services, E) ->
  wildcards_ready lower index_file' v E /\ databases_ready visit fts_ok fts_match F databases' v E.
Proof.
  intros until E. intros Hl Hu Hr Hs Hv HF B0 Hi Hf B.
  destruct (system_starts stat regexp_ok xpath_ok upper p v files mtime cap chunk decode_charset regexp_split new_charset csv_state json_state lower index_file visit fts_ok fts_match databases xml alg open_file listen F tables Hl Hu Hr Hs Hv HF)
    as (services1 & E1 & B1 & _ & Hw & Hd). rewrite B0 in B1. injection B1 as <- <-.
  pose proof (same_inputs _ _ _ _ _ _ _ _ _ _ _ _ _ _ _ _ _ _ _ _ _ _ _ _ _ _ B0 B) as S. split.
  - destruct Hw as [W1 W2]. split; [exact W1|]. intros n path input props ic inp M Mi. pose proof Mi as Mi'. rewrite <- S in Mi.
    destruct (W2 n path input props ic inp M Mi) as [W3 W4]. split; [exact W3|]. intros r s Ec. destruct (W4 r s Ec) as [W5 W6]. split; [exact W5|].
    destruct (Hf n path input props ic M) as [->|(inp0 & Mi0 & Hf')]; [exact W6|]. rewrite Mi in Mi0. injection Mi0 as <-.
    destruct Hf' as [(r' & s' & Ec' & ->)|(r' & s' & file & Eb & Hcr & Hfile)].
    { right. rewrite Ec in Ec'. injection Ec' as _ <-. reflexivity. }
    exfalso. pose proof (mget_In _ _ _ M) as Hin.
    pose proof (sa_indexes _ _ _ _ _ _ _ _ _ _ _ _ _ _ Hs _ _ Hin) as Bd. cbn [buildable] in Bd. destruct Bd as (t & Ht & Hh & _).
    apply boot_booted in B. destruct B as (dbs & B).
    destruct (inputs_linked files mtime cap chunk decode_charset regexp_split csv_state json_state lower index_file databases xml alg open_file v tables Hr (load_unambiguous _ _ _ _ _ _ Hu Hl) E
      (bt_input _ _ _ _ _ _ _ _ _ _ _ _ _ _ _ _ _ _ _ _ _ B) input t Ht) as (inp1 & rs & L & _). pose proof L as (L1 & _). rewrite Mi' in L1. injection L1 as <-.
    assert (Hix : indexable props inp).
    { eapply wildcard_records; try exact L; try exact Hh; try exact W3; [exact alg|intros ? ? ?; apply (load_map_props _ _ _ _ _ _ _ _ _ Hl)|intros ? ? ? ? ?; apply (load_wildcard_props _ _ _ _ _ _ _ _ _ _ _ Hl)|intros ? ? ? ?; apply (load_collations _ _ _ _ _ _ _ _ _ _ Hl)]. }
    destruct (bt_index _ _ _ _ _ _ _ _ _ _ _ _ _ _ _ _ _ _ _ _ _ B n _ M) as (kept0 & ix & kept1 & Hmk & _ & Hk).
    assert (K : kept0 path = Some file). { rewrite (Hk W1 path); [exact Hfile|]. now left. }
    cbn [make_index] in Hmk. rewrite Mi', K in Hmk. cbv zeta in Hmk.
    destruct (wildcard_interrupted lower (mkWconfig input props ic) inp r' s' file (mkWconfig input props ic) inp) as (e & He); try assumption.
    { apply (load_wildcard_props _ _ _ _ _ _ n path input props ic Hl Hin). }
    { exact (body_fits lower _ inp r' s' r s Eb Ec W5). }
    destruct (load_index (mkWconfig input props ic) inp (loaded_stream file)) as [r2 s2]. cbn [fst] in He. subst r2. discriminate Hmk.
  - apply (stopped_ready visit fts_ok fts_match F v E (e_inputs E0) databases databases' (fun n dsn i ps => load_collations _ _ _ _ _ _ n dsn i ps Hl)); [intros n inp; rewrite S; reflexivity|exact Hi|].
    destruct Hd as (D1 & D2 & D3 & D4 & D5). split; [exact D1|]. split; [exact D2|]. split; [exact D3|]. split; [exact D4|].
    intros n dsn input inp k Mi. rewrite <- S in Mi. exact (D5 n dsn input inp k Mi).
Qed.
