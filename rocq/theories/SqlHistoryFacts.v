(** Several indexes in one database, over any number of starts. *)
From Coq Require Import List ZArith Lia Bool String.
From Coq Require Import Strings.Byte.
From Coq Require Import Floats.SpecFloat.
From Verif Require Import Base BaseFacts Value Json Sql SqlIndex SqlFacts SqlRunFacts SpecSql SqlInvFacts SqlLifeFacts.
Import ListNotations.
Open Scope Z_scope.

Section History.
Variable visit : list (list sqlv) -> list (res (list sqlv)).
Variable fts_ok : list bytes -> bytes -> bytes -> bool.
Variable fts_match : table -> sqlv -> res (list (list sqlv)).

Notation exec := (exec_stmt visit fts_ok fts_match).
Notation run := (srun visit fts_ok fts_match).
Notation states := (sstates visit fts_ok fts_match).
Notation holds := (holds visit fts_ok fts_match).

(** *** A start leaves other names alone *)

(** The names of the indexes that a statement adds. *)
Definition adds (s : stmt) : list bytes := match s with CreateIndex i _ _ => [i] | _ => [] end.

(** [same] holds as long as no statement changes the tables named [x], or adds an
    index that is not [free]. *)
Section Frame.
Variable x : bytes.
Variable free : bytes -> Prop.
Variable same : db -> Prop.
Hypothesis Hsame : forall s args d d' a, exec s args d = Ok (d', a) -> (forall y, In y (touches s) -> name_eqb y x = false) -> Forall free (adds s) ->
  same d -> same d'.
Notation keeps p := (forall d, same d -> holds same (fun d' _ => same d') p d).

Lemma keep_bind {A B} (p : sprog A) (f : A -> sprog B) : keeps p -> (forall a, keeps (f a)) -> keeps (sbind p f).
Proof.
  intros Hp Hf d Hd. apply holds_bind. eapply holds_weaken; [| |apply (Hp d Hd)]; cbn beta; [auto|].
  intros y a _ Hy. now apply Hf.
Qed.

Lemma keep_ret {A} (r : res A) : keeps (SRet r).
Proof. intros d Hd. now apply holds_ret. Qed.

Lemma keep_sanitize {B} n (f : bytes -> sprog B) : keeps (f (quote n)) -> keeps (sbind (sanitize_identifier n) f).
Proof. intros Hf d Hd. apply holds_bind, holds_sanitize; [assumption|]. now apply Hf. Qed.

Lemma keep_exec q s args : parse q = Some s -> (forall y, In y (touches s) -> name_eqb y x = false) -> Forall free (adds s) -> keeps (sql_exec q args).
Proof.
  intros P N Fr d Hd. eapply holds_exec; [exact P|assumption|]. intros d' a E.
  pose proof (Hsame _ _ _ _ _ E N Fr Hd). auto.
Qed.

Lemma keep_syntax q args : parse q = None -> keeps (sql_exec q args).
Proof. intros P d Hd. now apply holds_syntax. Qed.

Lemma keep_row q s args : parse q = Some s -> touches s = [] -> adds s = [] -> keeps (sql_row q args).
Proof.
  intros P N A d Hd.
  assert (F : forall d' a, exec s args d = Ok (d', a) -> same d').
  { intros d' a E. apply (Hsame _ _ _ _ _ E); [rewrite N; intros y []|rewrite A; constructor|exact Hd]. }
  eapply holds_row; [exact P|assumption| |].
  - intros d' row a E. eapply F, E.
  - exact F.
Qed.

Lemma keep_smapM {A B} (f : A -> sprog B) l : Forall (fun a => keeps (f a)) l -> keeps (smapM f l).
Proof.
  intros F. induction F as [|a l Ha F IH]; cbn [smapM]; [apply keep_ret|].
  apply keep_bind; [exact Ha|]. intros b. apply keep_bind; [exact IH|]. intros bs. apply keep_ret.
Qed.

Variable n : bytes.
Hypothesis Hn : nul_free n.
Hypothesis Hx : forall y, In y (own_tables n) -> name_eqb y x = false.

Lemma hx_meta : name_eqb (meta_name n) x = false.
Proof. apply Hx. now left. Qed.
Lemma hx_rows : name_eqb (rows_name n) x = false.
Proof. apply Hx. right. now left. Qed.

Lemma keep_save m : keeps (save_smeta n m).
Proof.
  unfold save_smeta, meta_identifier. apply keep_sanitize.
  apply keep_bind; [|intros _; apply keep_bind; [|intros _]].
  - eapply keep_exec; [apply parse_create_meta| |constructor]. rewrite (until_meta n Hn). cbn. intros y [<-|[]]. apply hx_meta.
  - eapply keep_exec; [apply parse_delete_meta| |constructor]. rewrite (until_meta n Hn). cbn. intros y [<-|[]]. apply hx_meta.
  - eapply keep_exec; [apply parse_insert_meta| |constructor]. rewrite (until_meta n Hn). cbn. intros y [<-|[]]. apply hx_meta.
Qed.

Lemma keep_finish m : keeps (finish_index n (quote (rows_name n)) m).
Proof.
  unfold finish_index. apply keep_bind; [apply keep_save|]. intros _. apply keep_bind.
  - eapply keep_row; [apply parse_count|reflexivity|reflexivity].
  - intros [|[| | |] [|]]; apply keep_ret.
Qed.

Lemma keep_records q cols k props its : parse q = Some (InsertInto (rows_name n) cols k) -> keeps (insert_records q props its).
Proof.
  intros P. induction its as [|it its IH]; cbn [insert_records]; [apply keep_ret|].
  apply keep_bind; [apply keep_ret|]. intros r. apply keep_bind; [|intros _; exact IH].
  unfold insert_record. apply keep_bind; [apply keep_ret|]. intros vs. apply keep_bind; [apply keep_ret|]. intros args.
  eapply keep_exec; [exact P| |constructor]. cbn. intros y [<-|[]]. apply hx_rows.
Qed.

Lemma keep_open inp create : keeps create -> keeps (open_or_create n inp create).
Proof.
  intros Hc. unfold open_or_create. apply keep_bind.
  - unfold has_smeta, meta_identifier. apply keep_sanitize. apply keep_bind.
    + eapply keep_row; [apply parse_has|reflexivity|reflexivity].
    + intros [|[| | |] [|]]; apply keep_ret.
  - intros [|]; [|exact Hc]. apply keep_bind; [|intros m; apply keep_ret].
    unfold load_smeta, meta_identifier. apply keep_sanitize. apply keep_bind.
    + eapply keep_row; [apply parse_load|reflexivity|reflexivity].
    + intros l. repeat (match goal with |- context [match ?e with _ => _ end] => destruct e end; try apply keep_ret).
Qed.

Lemma keep_create_sqlite c inp : sq_name c = n -> Forall (fun p => word (snd p)) (sq_props c) ->
  Forall (fun p => free (until_nul (index_name n (fst p)))) (sq_props c) -> keeps (create_sqlite c inp).
Proof.
  intros En Hw Hi. unfold create_sqlite. rewrite En. apply keep_bind; [apply keep_ret|]. intros m.
  apply keep_bind; [apply keep_save|]. intros _ d Hd.
  apply holds_bind, parts_holds; [assumption|]. revert d Hd. apply keep_sanitize.
  rewrite !map_map. cbn [fst snd].
  destruct (sq_props c) as [|p0 ps0] eqn:Eps.
  { intros d Hd. apply holds_bind, holds_syntax; [apply lex_create_rows_none|assumption]. }
  rewrite <- Eps in *.
  assert (Nps : sq_props c <> []) by (rewrite Eps; discriminate).
  set (ps := map (fun p => (property_name (fst p), snd p)) (sq_props c)).
  replace (map (fun x => blob_def (property_name (fst x), snd x)) (sq_props c)) with (map blob_def ps)
    by (unfold ps; now rewrite map_map).
  apply keep_bind.
  - eapply keep_exec; [apply (parse_create_rows _ ps); [now apply map_ne|apply Forall_map; exact Hw]| |constructor].
    rewrite (until_rows n Hn). cbn. intros y [<-|[]]. apply hx_rows.
  - intros _. apply keep_bind.
    + rewrite Forall_forall in Hi. apply keep_smapM, Forall_map, Forall_forall. intros p Hp. cbn [fst snd].
      eapply keep_exec; [apply parse_create_index|cbn; intros y []|]. constructor; [apply Hi; exact Hp|constructor].
    + intros _. apply keep_bind; [|intros _; apply keep_finish].
      eapply keep_records.
      replace (map (fun x => quote (property_name (fst x))) (sq_props c)) with (map quote (map fst ps))
        by (unfold ps; rewrite !map_map; reflexivity).
      rewrite parse_insert_rows by (now apply map_ne, map_ne). rewrite (until_rows n Hn). reflexivity.
Qed.

Lemma keep_create_fts c inp : ft_name c = n -> keeps (create_fts c inp).
Proof.
  intros En. unfold create_fts. rewrite En. apply keep_bind; [apply keep_ret|]. intros m.
  apply keep_bind; [apply keep_save|]. intros _ d Hd. apply holds_bind.
  assert (C : forall (Q : db -> list bytes -> Prop) l, Q d (map quote l) -> holds same Q (smapM fts_column l) d).
  { intros Q l. revert Q. induction l as [|p l IH]; intros Q HQ; cbn [smapM].
    - apply holds_ret; [assumption|]. intros a [= <-]. exact HQ.
    - apply holds_bind. unfold fts_column. destruct (bytes_eqb p (lit "__offset")).
      + apply holds_ret; [assumption|]. discriminate.
      + apply holds_sanitize; [assumption|]. apply holds_bind, IH. apply holds_ret; [assumption|].
        intros a [= <-]. exact HQ. }
  apply C. clear C. revert d Hd. apply keep_sanitize, keep_sanitize.
  destruct (ft_props c) as [|p0 ps0] eqn:Eps.
  { intros d Hd. apply holds_bind, holds_syntax; [apply parse_create_fts_none, digits_prefix|assumption]. }
  rewrite <- Eps in *.
  assert (Nps : ft_props c <> []) by (rewrite Eps; discriminate).
  apply keep_bind.
  - eapply keep_exec; [apply (parse_create_fts _ _ _ _ Nps (digits_prefix _))| |constructor].
    rewrite (until_rows n Hn). intros y Hy. apply Hx. right. exact Hy.
  - intros _. apply keep_bind; [|intros _; apply keep_finish].
    eapply keep_records. rewrite parse_insert_fts by assumption. rewrite (until_rows n Hn). reflexivity.
Qed.
End Frame.

(** The column indexes of an index. *)
Definition column_indexes (k : index_kind) : list bytes :=
  match k with ISqlite c => map (fun p => until_nul (index_name (sq_name c) (fst p))) (sq_props c) | IFts _ => [] end.

Lemma start_frame (same : db -> Prop) (free : bytes -> Prop) k inp d x : nul_free (kind_name k) -> word_collations k ->
  (forall y, In y (own_tables (kind_name k)) -> name_eqb y x = false) -> Forall free (column_indexes k) ->
  (forall s args d d' a, exec s args d = Ok (d', a) -> (forall y, In y (touches s) -> name_eqb y x = false) -> Forall free (adds s) -> same d -> same d') ->
  same d -> holds same (fun d' _ => same d') (start k inp) d.
Proof.
  intros Hn Hw Hx Hf Hs.
  destruct k as [c|c]; cbn [start kind_name word_collations column_indexes] in *; unfold new_sqlite, new_fts;
    apply (keep_open x free same Hs).
  - apply (keep_create_sqlite x free same Hs _ Hn Hx); [reflexivity|assumption|]. rewrite Forall_map in Hf. exact Hf.
  - apply (keep_create_fts x free same Hs _ Hn Hx). reflexivity.
Qed.

Lemma start_keeps k inp d x : nul_free (kind_name k) -> word_collations k ->
  (forall y, In y (own_tables (kind_name k)) -> name_eqb y x = false) ->
  holds (fun d' => tables_of d' x = tables_of d x) (fun d' _ => tables_of d' x = tables_of d x) (start k inp) d.
Proof.
  intros Hn Hw Hx. apply (start_frame (fun d' => tables_of d' x = tables_of d x) (fun _ => True) k inp d x Hn Hw Hx); [|intros s args d1 d2 a E N _ Hd; rewrite <- Hd; apply (exec_frame _ _ _ _ _ _ _ _ x E N)|reflexivity].
  apply Forall_forall. intros y _. exact I.
Qed.

(** *** Histories *)

Lemma validated_word k : validated_collations k -> word_collations k.
Proof.
  destruct k as [c|c]; cbn; [|auto]. intros F. eapply Forall_impl; [|exact F]. cbn beta. intros p Hp. now apply collation_word.
Qed.

Lemma inv_of_frame P k d d' :
  tables_of d' (meta_name (kind_name k)) = tables_of d (meta_name (kind_name k)) ->
  tables_of d' (rows_name (kind_name k)) = tables_of d (rows_name (kind_name k)) -> inv_of P k d -> inv_of P k d'.
Proof.
  intros E1 E2 [[H1 H2]|[rows [H1 H2]]].
  - left. split; congruence.
  - right. exists rows. split; [congruence|]. destruct H2 as [H2|[m [H2 [Hv H3]]]]; [now left|right].
    exists m. split; [assumption|]. split; [assumption|]. destruct H3 as [H3|[inp [HP [H3 [H4 H5]]]]]; [now left|right].
    exists inp. split; [assumption|]. repeat split; try assumption. now apply (has_rows_frame k inp d).
Qed.

Lemma inv_frame k d d' :
  tables_of d' (meta_name (kind_name k)) = tables_of d (meta_name (kind_name k)) ->
  tables_of d' (rows_name (kind_name k)) = tables_of d (rows_name (kind_name k)) -> inv k d -> inv k d'.
Proof. exact (inv_of_frame (fun _ => True) k d d'). Qed.

Lemma history_inv ks d : good_names ks -> Forall validated_collations ks -> history visit fts_ok fts_match ks d ->
  forall k, In k ks -> inv k d.
Proof.
  intros [G1 G2] V H. induction H as [d H0|d j inp d' H IH Hj Hd]; intros k Hk.
  - left. now apply H0.
  - rewrite Forall_forall in G1, V.
    destruct (list_eq_dec Byte.byte_eq_dec (fold_name (kind_name j)) (fold_name (kind_name k))) as [E|N].
    + pose proof (G2 _ _ Hj Hk E) as ->.
      destruct (start_holds visit fts_ok fts_match k inp d (G1 _ Hk) (validated_word _ (V _ Hk)) (IH _ Hk)) as [F _].
      rewrite Forall_forall in F. now apply F.
    + assert (K : forall x, In x [meta_name (kind_name k); rows_name (kind_name k)] -> tables_of d' x = tables_of d x).
      { intros x Hx.
        pose proof (start_keeps j inp d x (G1 _ Hj) (validated_word _ (V _ Hj))
          (fun y Hy => other_tables (kind_name j) (kind_name k) y x N Hy Hx)) as S.
        apply holds_states in S. rewrite Forall_forall in S. now apply S. }
      apply (inv_frame k d d'); [apply K; now left|apply K; right; now left|now apply IH].
Qed.

Lemma has_rows_filled k inp d : has_rows k inp d -> filled k inp d.
Proof.
  intros [rows [H1 [H2 H3]]]. exists (mkTable (index_cols k) rows). split; [assumption|]. split; [|assumption].
  destruct k; unfold index_cols, fts_columns; cbn [t_cols kind_props List.length]; now rewrite ?map_length; cbn [List.length]; rewrite ?map_length.
Qed.

Theorem accepted_is_complete ks d k inp d' : good_names ks -> Forall validated_collations ks ->
  history visit fts_ok fts_match ks d -> In k ks -> run (start k inp) d = (d', Ok tt) ->
  exists inp0, in_size inp0 = in_size inp /\ in_mtime inp0 = in_mtime inp /\ filled k inp0 d'.
Proof.
  intros G V H Hk E. pose proof (history_inv ks d G V H k Hk) as I. destruct G as [G1 _].
  rewrite Forall_forall in G1, V.
  destruct (start_holds visit fts_ok fts_match k inp d (G1 _ Hk) (validated_word _ (V _ Hk)) I) as [_ F].
  destruct (F d' E) as [inp0 [H1 [H2 [H3 _]]]]. exists inp0. eauto using has_rows_filled.
Qed.

(** A start on a complete index changes nothing. *)
Lemma complete_accepted k inp inp' d : nul_free (kind_name k) -> complete k inp d ->
  in_size inp' = in_size inp -> in_mtime inp' = in_mtime inp -> run (start k inp') d = (d, Ok tt).
Proof.
  intros Hn [_ [m [M1 [M2 [M3 [M4 M5]]]]]] Es Et.
  assert (X : start k inp' = open_or_create (kind_name k) inp' (match k with ISqlite c => create_sqlite c inp' | IFts c => create_fts c inp' end))
    by (destruct k; reflexivity).
  rewrite X. destruct (open_holds visit fts_ok fts_match (kind_name k) inp' (match k with ISqlite c => create_sqlite c inp' | IFts c => create_fts c inp' end) d _ Hn M5) as [O _].
  rewrite O. f_equal. rewrite run_bind, (run_load _ _ _ _ _ _ Hn M5). rewrite (meta_values m _ M4).
  change ((0 <=? sqlite_version) && (sqlite_version <? 65536)) with true. cbv iota. cbn [srun snd].
  apply assert_ok; [reflexivity|]. cbn [sm_mtime sm_size sm_completed]. rewrite M3. repeat split; congruence.
Qed.

Theorem finished_accepted ks d k inp d' inp' : good_names ks -> Forall validated_collations ks ->
  history visit fts_ok fts_match ks d -> In k ks -> run (start k inp) d = (d', Ok tt) ->
  in_size inp' = in_size inp -> in_mtime inp' = in_mtime inp -> run (start k inp') d' = (d', Ok tt).
Proof.
  intros G V H Hk E Es Et. pose proof (history_inv ks d G V H k Hk) as I. destruct G as [G1 _].
  rewrite Forall_forall in G1, V.
  destruct (start_holds visit fts_ok fts_match k inp d (G1 _ Hk) (validated_word _ (V _ Hk)) I) as [_ F].
  destruct (F d' E) as [inp0 [H1 [H2 C]]]. apply (complete_accepted k inp0 inp' d' (G1 _ Hk) C); congruence.
Qed.

End History.
