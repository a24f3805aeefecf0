(** Starts of an index: every state in between, and the result. *)
From Coq Require Import List ZArith Lia Bool String.
From Coq Require Import Strings.Byte.
From Coq Require Import Floats.SpecFloat.
From Coq Require Import DecimalString.
From Verif Require Import Base BaseFacts Value Json Sql SqlIndex SqlFacts SqlRunFacts SpecSql SqlInvFacts.
Import ListNotations.
Open Scope Z_scope.

Lemma code_zero c : code c = 0 -> c = Byte.x00.
Proof. destruct c; intros H; vm_compute in H; try discriminate; reflexivity. Qed.

Lemma nul_free_no_nul n : nul_free n <-> no_nul n.
Proof.
  unfold nul_free, no_nul. rewrite Forall_forall. split.
  - intros H c Hc E. apply H. now rewrite <- (code_zero c E).
  - intros H Hc. apply (H _ Hc). reflexivity.
Qed.

Lemma no_nul_lit (s : string) : forallb (fun c => negb (code c =? 0)) (lit s) = true -> no_nul (lit s).
Proof.
  intros H. unfold no_nul. apply Forall_forall. intros c Hc. rewrite forallb_forall in H. specialize (H c Hc).
  destruct (Z.eqb_spec (code c) 0); [discriminate|assumption].
Qed.

Lemma until_meta n : nul_free n -> until_nul (meta_name n) = meta_name n.
Proof.
  intros H. apply until_nul_id. unfold meta_name.
  repeat apply no_nul_app; try (apply no_nul_lit; reflexivity). now apply nul_free_no_nul.
Qed.
Lemma until_rows n : nul_free n -> until_nul (rows_name n) = rows_name n.
Proof.
  intros H. apply until_nul_id. unfold rows_name.
  repeat apply no_nul_app; try (apply no_nul_lit; reflexivity). now apply nul_free_no_nul.
Qed.

Lemma bind_stored v s : bind_value v = Ok s -> stored v s.
Proof.
  destruct v as [|b| |f| | |]; cbn [bind_value]; try discriminate.
  - intros [= <-]. constructor.
  - intros [= <-]. destruct b; constructor.
  - intros [= <-]. constructor.
  - destruct f; intros [= <-]; constructor; discriminate.
  - intros [= <-]. constructor.
Qed.

Lemma rmapM_forall2 {A B} (f : A -> res B) l : forall ys, rmapM f l = Ok ys -> Forall2 (fun x y => f x = Ok y) l ys.
Proof.
  induction l as [|x l IH]; intros ys E; cbn [rmapM] in E.
  - injection E as <-. constructor.
  - destruct (f x) as [y| | |] eqn:Ey; cbn [rbind] in E; try discriminate.
    destruct (rmapM f l) as [ys'| | |] eqn:El; cbn [rbind] in E; try discriminate.
    injection E as <-. constructor; auto.
Qed.

Lemma collation_word c : In c [lit "BINARY"; lit "NOCASE"; lit "RTIRM"] -> word c.
Proof. intros [<-|[<-|[<-|[]]]]; vm_compute; auto. Qed.

(** The texts of prefix lists have no quotes. *)
Lemma digits_app a b : digits a -> digits b -> digits (a ++ b).
Proof. unfold digits. intros. now apply Forall_app. Qed.

Lemma digits_lit_cons c s : digits (lit (String c EmptyString)) -> digits (lit s) -> digits (lit (String c s)).
Proof. intros H1 H2. change (lit (String c s)) with (lit (String c EmptyString) ++ lit s). now apply digits_app. Qed.

Lemma digits_uint d : digits (lit (NilEmpty.string_of_uint d)).
Proof.
  induction d; cbn [NilEmpty.string_of_uint]; try (constructor; fail); apply digits_lit_cons; try assumption;
    (constructor; [split; [reflexivity|discriminate]|constructor]).
Qed.

Lemma digits_nz_uint d : digits (lit (NilZero.string_of_uint d)).
Proof.
  unfold NilZero.string_of_uint. destruct d; try apply digits_uint.
  constructor; [split; [reflexivity|discriminate]|constructor].
Qed.

Lemma digits_itoa z : digits (itoa z).
Proof.
  unfold itoa, NilZero.string_of_int. destruct (Z.to_int z) as [d|d].
  - apply digits_nz_uint.
  - apply digits_lit_cons; [|apply digits_nz_uint]. constructor; [split; [reflexivity|discriminate]|constructor].
Qed.

Lemma digits_prefix l : digits (prefix_string l).
Proof.
  unfold prefix_string. match goal with |- digits (fold_left ?g _ _) => set (f := g) end.
  assert (G : forall acc, digits acc -> digits (fold_left f l acc)).
  { induction l as [|z l IH]; intros acc H; cbn [fold_left]; [assumption|].
    apply IH. unfold f. apply digits_app; [|apply digits_itoa]. destruct acc; [constructor|].
    apply digits_app; [assumption|]. constructor; [split; [reflexivity|discriminate]|constructor]. }
  apply G. constructor.
Qed.

Section Life.
Variable visit : list (list sqlv) -> list (res (list sqlv)).
Variable fts_ok : list bytes -> bytes -> bytes -> bool.
Variable fts_match : table -> sqlv -> res (list (list sqlv)).

Notation exec := (exec_stmt visit fts_ok fts_match).
Notation run := (srun visit fts_ok fts_match).
Notation states := (sstates visit fts_ok fts_match).
Notation holds := (holds visit fts_ok fts_match).

Definition meta_table (rows : list (list sqlv)) : table := mkTable smeta_cols rows.

Lemma smeta_distinct : distinct_names (map c_name smeta_cols) = true.
Proof. reflexivity. Qed.

(** metadata.Save, when the table is new or has the right columns. *)
Lemma save_holds n m d : nul_free n ->
  (tables_of d (meta_name n) = [] \/ exists rows, tables_of d (meta_name n) = [(meta_name n, meta_table rows)]) ->
  holds (fun d' => (forall x, name_eqb (meta_name n) x = false -> tables_of d' x = tables_of d x) /\
                   (tables_of d' (meta_name n) = tables_of d (meta_name n) \/
                    tables_of d' (meta_name n) = [(meta_name n, meta_table [])] \/
                    tables_of d' (meta_name n) = [(meta_name n, meta_table [smeta_row m])]))
        (fun d' _ => (forall x, name_eqb (meta_name n) x = false -> tables_of d' x = tables_of d x) /\
                     tables_of d' (meta_name n) = [(meta_name n, meta_table [smeta_row m])])
        (save_smeta n m) d.
Proof.
  intros Hn Hd. unfold save_smeta, meta_identifier. apply holds_bind, holds_sanitize; [auto|].
  apply holds_bind. eapply holds_exec; [apply parse_create_meta|auto|]. rewrite (until_meta n Hn). intros d1 a1 E1.
  assert (F1 : forall x, name_eqb (meta_name n) x = false -> tables_of d1 x = tables_of d x).
  { intros x Hx. eapply exec_frame; [eassumption|]. cbn. intros y [<-|[]]. assumption. }
  assert (M1 : exists rows, tables_of d1 (meta_name n) = [(meta_name n, meta_table rows)] /\
                (tables_of d (meta_name n) = tables_of d1 (meta_name n) \/ rows = [])).
  { destruct Hd as [Hd|[rows Hd]].
    - apply exec_create in E1 as [E1 _]; [|assumption]. exists []. split; [exact E1|now right].
    - pose proof (exec_create_again _ _ _ _ _ _ _ _ _ _ _ E1 Hd) as ->. exists rows. auto. }
  destruct M1 as [rows [M1 M1']].
  assert (I1 : (forall x, name_eqb (meta_name n) x = false -> tables_of d1 x = tables_of d x) /\
     (tables_of d1 (meta_name n) = tables_of d (meta_name n) \/
      tables_of d1 (meta_name n) = [(meta_name n, meta_table [])] \/
      tables_of d1 (meta_name n) = [(meta_name n, meta_table [smeta_row m])])).
  { split; [assumption|]. destruct M1' as [<-| ->]; auto. }
  split; [exact I1|].
  apply holds_bind. eapply holds_exec; [apply parse_delete_meta|exact I1|]. rewrite (until_meta n Hn). intros d2 a2 E2.
  pose proof (exec_delete _ _ _ _ _ _ _ _ _ _ E2 M1) as M2.
  assert (F2 : forall x, name_eqb (meta_name n) x = false -> tables_of d2 x = tables_of d x).
  { intros x Hx. rewrite <- (F1 x Hx). eapply exec_frame; [eassumption|]. cbn. intros y [<-|[]]. assumption. }
  split; [auto|].
  eapply holds_exec; [apply parse_insert_meta|auto|]. rewrite (until_meta n Hn). intros d3 a3 E3.
  pose proof (exec_insert _ _ _ _ _ _ _ _ _ _ (mkTable smeta_cols []) E3 M2 smeta_distinct) as [M3 _].
  assert (F3 : forall x, name_eqb (meta_name n) x = false -> tables_of d3 x = tables_of d x).
  { intros x Hx. rewrite <- (F2 x Hx). eapply exec_frame; [eassumption|]. cbn. intros y [<-|[]]. assumption. }
  auto.
Qed.

(** Inserting the records. *)
Lemma insert_holds q n m k cols props its : 
  parse q = Some (InsertInto n (map c_name cols) k) -> distinct_names (map c_name cols) = true ->
  forall rows d, tables_of d n = [(m, mkTable cols rows)] ->
  holds (fun d' => forall x, name_eqb n x = false -> tables_of d' x = tables_of d x)
        (fun d' _ => (forall x, name_eqb n x = false -> tables_of d' x = tables_of d x) /\
           exists rows', tables_of d' n = [(m, mkTable cols (rows ++ rows'))] /\ Forall2 (row_of props) its rows')
        (insert_records q props its) d.
Proof.
  intros P D. induction its as [|it its IH]; intros rows d E; cbn [insert_records].
  - apply holds_ret; [auto|]. intros a _. split; [auto|]. exists []. rewrite app_nil_r. split; [assumption|constructor].
  - apply holds_bind, holds_ret; [auto|]. intros r ->. unfold insert_record.
    apply holds_bind, holds_bind, holds_ret; [auto|]. intros gs Hg.
    apply holds_bind, holds_ret; [auto|]. intros vs Hv.
    eapply holds_exec; [exact P|auto|]. intros d1 a1 E1.
    assert (F1 : forall x, name_eqb n x = false -> tables_of d1 x = tables_of d x).
    { intros x Hx. eapply exec_frame; [eassumption|]. cbn. intros y [<-|[]]. assumption. }
    pose proof (exec_insert _ _ _ _ _ _ _ _ _ _ (mkTable cols rows) E1 E D) as [M1 _].
    split; [assumption|]. eapply holds_weaken; [| |exact (IH _ _ M1)].
    + cbn. intros y Hy x Hx. rewrite (Hy x Hx). auto.
    + cbn. intros y a _ [Hy [rows' [H1 H2]]]. split; [intros x Hx; rewrite (Hy x Hx); auto|].
      exists ((SInt (r_pos r) :: vs) :: rows'). split.
      * rewrite H1. cbn [t_rows t_cols]. now rewrite <- app_assoc.
      * constructor; [|assumption]. apply row_of_record with (gs := gs).
        -- apply rmapM_forall2. assumption.
        -- apply rmapM_forall2 in Hv. clear - Hv. induction Hv; constructor; auto using bind_stored.
Qed.

(** Creating the indexes of the columns leaves the tables alone. *)
Lemma create_indexes_holds tn (l : list (bytes * bytes * bytes)) : forall d,
  Forall (fun x => exists c i, snd (fst x) = quote c /\ snd x = quote i) l ->
  holds (fun d' => forall x, tables_of d' x = tables_of d x) (fun d' _ => forall x, tables_of d' x = tables_of d x)
        (smapM (fun x => sql_exec (create_index_sql (snd x) (quote tn) (snd (fst x))) []) l) d.
Proof.
  intros d F. revert d. induction F as [|[[a b] c] l [y [z [Hy Hz]]] F IH]; intros d; cbn [smapM].
  - apply holds_ret; auto.
  - cbn [fst snd] in *. subst. apply holds_bind. eapply holds_exec; [apply parse_create_index|auto|].
    intros d1 a1 E1.
    assert (F1 : forall x, tables_of d1 x = tables_of d x).
    { intros x. eapply exec_frame; [eassumption|]. cbn. intros w []. }
    split; [assumption|]. apply holds_bind. eapply holds_weaken; [| |apply (IH d1)]; cbn beta.
    + intros w Hw x. rewrite Hw. auto.
    + intros w b0 Hw _. apply holds_ret; [|intros _ _]; intros x; rewrite Hw; auto.
Qed.

Lemma parts_holds (I : db -> Prop) n ps : forall (Q : db -> list (bytes * bytes * bytes) -> Prop) d,
  I d ->
  Q d (map (fun p => (blob_def (property_name (fst p), snd p), quote (property_name (fst p)), quote (index_name n (fst p)))) ps) ->
  holds I Q (smapM (property_parts n) ps) d.
Proof.
  induction ps as [|p ps IH]; intros Q d Hi H; cbn [smapM].
  - apply holds_ret; [assumption|]. intros a [= <-]. exact H.
  - apply holds_bind. unfold property_parts, property_identifier, index_identifier.
    apply holds_bind, holds_sanitize; [assumption|]. apply holds_bind, holds_sanitize; [assumption|].
    apply holds_ret; [assumption|]. intros a [= <-]. apply holds_bind, IH; [assumption|].
    apply holds_ret; [assumption|]. intros a [= <-]. exact H.
Qed.

(** *** Invariant of one index *)

(** The columns of the table of an index. *)
Definition index_cols (k : index_kind) : list coldef :=
  match k with
  | ISqlite c => int_col (lit "offset") :: map (fun p => blob_col (property_name (fst p), snd p)) (sq_props c)
  | IFts c => fts_columns (lit "__offset" :: map until_nul (ft_props c)) (prefix_string (ft_prefix c)) (until_nul (ft_tokenize c))
  end.

Definition has_rows (k : index_kind) (inp : input) (d : db) : Prop :=
  exists rows, tables_of d (rows_name (kind_name k)) = [(rows_name (kind_name k), mkTable (index_cols k) rows)] /\
               Forall2 (row_of (kind_props k)) (in_iter inp) rows /\ distinct_names (map c_name (index_cols k)) = true.

(** The records are those of an input with [P]. *)
Definition inv_of (P : input -> Prop) (k : index_kind) (d : db) : Prop :=
  (tables_of d (meta_name (kind_name k)) = [] /\ tables_of d (rows_name (kind_name k)) = []) \/
  exists rows, tables_of d (meta_name (kind_name k)) = [(meta_name (kind_name k), meta_table rows)] /\
    (rows = [] \/ exists m, rows = [smeta_row m] /\ sm_version m = sqlite_version /\
       (sm_completed m = false \/
        exists inp, P inp /\ in_mtime inp = Ok (sm_mtime m) /\ in_size inp = Ok (sm_size m) /\ has_rows k inp d)).
Definition inv : index_kind -> db -> Prop := inv_of (fun _ => True).

(** After success. *)
Definition complete (k : index_kind) (inp : input) (d : db) : Prop :=
  has_rows k inp d /\
  exists m, in_mtime inp = Ok (sm_mtime m) /\ in_size inp = Ok (sm_size m) /\ sm_completed m = true /\
    sm_version m = sqlite_version /\
    tables_of d (meta_name (kind_name k)) = [(meta_name (kind_name k), meta_table [smeta_row m])].

Lemma complete_inv (P : input -> Prop) k inp d : P inp -> complete k inp d -> inv_of P k d.
Proof.
  intros HP [H [m [H1 [H2 [H3 [Hv H4]]]]]]. right. exists [smeta_row m]. split; [assumption|]. right. exists m.
  split; [reflexivity|]. split; [assumption|]. right. exists inp. auto.
Qed.

Lemma has_rows_frame k inp d d' : tables_of d' (rows_name (kind_name k)) = tables_of d (rows_name (kind_name k)) ->
  has_rows k inp d -> has_rows k inp d'.
Proof. intros E [rows H]. exists rows. now rewrite E. Qed.

(** The end of createIndex. *)
Lemma finish_holds (P : input -> Prop) k inp d m : P inp -> nul_free (kind_name k) -> new_smeta inp = Ok m -> has_rows k inp d ->
  tables_of d (meta_name (kind_name k)) = [(meta_name (kind_name k), meta_table [smeta_row m])] ->
  holds (inv_of P k) (fun d' _ => complete k inp d') (finish_index (kind_name k) (quote (rows_name (kind_name k))) m) d.
Proof.
  intros HP Hn Em R M. set (n := kind_name k) in *.
  assert (Hm : in_size inp = Ok (sm_size m) /\ in_mtime inp = Ok (sm_mtime m) /\ sm_completed m = false /\ sm_version m = sqlite_version).
  { unfold new_smeta in Em. destruct (in_size inp); cbn [rbind] in Em; try discriminate.
    destruct (in_mtime inp); cbn [rbind] in Em; try discriminate. injection Em as <-. auto. }
  destruct Hm as [Hs [Ht [Hc Hv]]].
  unfold finish_index. apply holds_bind.
  eapply holds_weaken; [| |apply (save_holds n (complete_smeta m) d Hn)]; cbn beta.
  - intros d' [F [E|[E|E]]].
    + right. exists [smeta_row m]. split; [etransitivity; [exact E|exact M]|]. right. exists m. auto.
    + right. exists []. auto.
    + right. exists [smeta_row (complete_smeta m)]. split; [assumption|]. right. exists (complete_smeta m).
      split; [reflexivity|]. split; [assumption|]. right. exists inp. repeat split; try assumption.
      apply (has_rows_frame k inp d); [|assumption]. apply F, meta_rows.
  - intros d' _ _ [F E].
    assert (C : complete k inp d').
    { split.
      - apply (has_rows_frame k inp d); [|assumption]. apply F, meta_rows.
      - exists (complete_smeta m). repeat split; try assumption. }
    apply holds_bind. eapply holds_row; [apply parse_count| | |].
    + apply (complete_inv P k inp _ HP). exact C.
    + cbn [exec_stmt]. destruct (find_table _ _); [|discriminate]. intros d2 row a [= <- <- _].
      apply holds_ret; [apply (complete_inv P k inp _ HP); exact C|]. intros _ _. exact C.
    + cbn [exec_stmt]. destruct (find_table _ _); [|discriminate]. intros d2 a [= <- _]. apply (complete_inv P k inp _ HP). exact C.
  - right. eexists. exact M.
Qed.

Lemma new_smeta_facts inp m : new_smeta inp = Ok m ->
  in_size inp = Ok (sm_size m) /\ in_mtime inp = Ok (sm_mtime m) /\ sm_completed m = false /\ sm_version m = sqlite_version.
Proof.
  unfold new_smeta. intros Em. destruct (in_size inp); cbn [rbind] in Em; try discriminate.
  destruct (in_mtime inp); cbn [rbind] in Em; try discriminate. injection Em as <-. auto.
Qed.

Lemma create_sqlite_holds_of (P : input -> Prop) c inp d : P inp -> let k := ISqlite c in
  nul_free (sq_name c) -> Forall (fun p => word (snd p)) (sq_props c) ->
  tables_of d (meta_name (sq_name c)) = [] -> tables_of d (rows_name (sq_name c)) = [] ->
  holds (inv_of P k) (fun d' _ => complete k inp d') (create_sqlite c inp) d.
Proof.
  intros HP k Hn Hw HM HR. set (n := sq_name c) in *.
  assert (I0 : inv_of P k d) by (left; auto).
  unfold create_sqlite. apply holds_bind, holds_ret; [assumption|]. intros m Em.
  destruct (new_smeta_facts _ _ Em) as [Hs [Ht [Hc Hv]]].
  apply holds_bind. fold n. eapply holds_weaken; [| |apply (save_holds n m d Hn); now left]; cbn beta.
  - intros d' [F [E|[E|E]]].
    + left. split; [now rewrite <- HM|]. cbn [kind_name k]. fold n. rewrite F by apply meta_rows. assumption.
    + right. exists []. auto.
    + right. exists [smeta_row m]. split; [assumption|]. right. exists m. auto.
  - intros d1 _ _ [F1 M1].
    assert (J : forall d', tables_of d' (meta_name n) = tables_of d1 (meta_name n) -> inv_of P k d').
    { intros d' E. right. exists [smeta_row m]. split; [cbn [kind_name k]; fold n; congruence|]. right. exists m. auto. }
    assert (R1 : tables_of d1 (rows_name n) = []) by (rewrite F1 by apply meta_rows; assumption).
    apply holds_bind, parts_holds; [now apply J|].
    apply holds_bind, holds_sanitize; [now apply J|].
    rewrite !map_map. cbn [fst snd].
    destruct (sq_props c) as [|p0 ps0] eqn:Eps.
    + apply holds_bind, holds_syntax; [apply lex_create_rows_none|now apply J].
    + rewrite <- Eps in *.
      assert (Nps : sq_props c <> []) by (rewrite Eps; discriminate).
      set (ps := map (fun p => (property_name (fst p), snd p)) (sq_props c)).
      assert (Pps : ps <> []) by (now apply map_ne).
      assert (Wps : Forall (fun p => word (snd p)) ps) by (apply Forall_map; exact Hw).
      replace (map (fun x => blob_def (property_name (fst x), snd x)) (sq_props c)) with (map blob_def ps)
        by (unfold ps; now rewrite map_map).
      apply holds_bind. eapply holds_exec; [apply (parse_create_rows _ ps Pps Wps)|now apply J|].
      rewrite (until_rows n Hn). intros d2 a2 E2.
      pose proof (exec_create _ _ _ _ _ _ _ _ _ _ E2 R1) as [R2 D2].
      assert (M2 : tables_of d2 (meta_name n) = tables_of d1 (meta_name n)).
      { eapply exec_frame; [eassumption|]. cbn. intros y [<-|[]]. apply rows_meta. }
      split; [now apply J|].
      apply holds_bind. eapply holds_weaken; [| |apply (create_indexes_holds (rows_name n))]; cbn beta.
      * intros d' H. apply J. rewrite H. exact M2.
      * intros d3 _ _ H3. apply holds_bind.
        assert (R3 : tables_of d3 (rows_name n) = [(rows_name n, mkTable (index_cols k) [])]).
        { rewrite H3, R2. unfold fresh_table, index_cols, k, ps. now rewrite map_map. }
        assert (D3 : distinct_names (map c_name (index_cols k)) = true).
        { rewrite <- D2. unfold index_cols, k, ps. now rewrite map_map. }
        assert (P3 : parse (insert_rows_sql (quote (rows_name n)) (map (fun x => quote (property_name (fst x))) (sq_props c)))
                     = Some (InsertInto (rows_name n) (map c_name (index_cols k)) (S (List.length (sq_props c))))).
        { replace (map (fun x => quote (property_name (fst x))) (sq_props c)) with (map quote (map fst ps))
            by (unfold ps; rewrite !map_map; reflexivity).
          rewrite parse_insert_rows by (now apply map_ne). rewrite (until_rows n Hn).
          unfold index_cols, k, ps. rewrite !map_map, !map_length. cbn [map c_name int_col].
          rewrite !map_map. reflexivity. }
        eapply holds_weaken; [| |apply (insert_holds _ _ _ _ _ (map fst (sq_props c)) (in_iter inp) P3 D3 [] d3 R3)]; cbn beta.
        -- intros d' H. apply J. rewrite H by apply rows_meta. rewrite H3. exact M2.
        -- intros d4 _ _ [F4 [rows [R4 H4]]].
           apply (finish_holds P k inp d4 m); [assumption|assumption|assumption| |].
           ++ exists rows. auto.
           ++ cbn [kind_name k]. fold n. rewrite F4 by apply rows_meta. rewrite H3, M2, M1. reflexivity.
      * apply Forall_map, Forall_forall. intros p _. cbn [fst snd]. eauto.
Qed.

Lemma create_fts_holds_of (P : input -> Prop) c inp d : P inp -> let k := IFts c in
  nul_free (ft_name c) ->
  tables_of d (meta_name (ft_name c)) = [] -> tables_of d (rows_name (ft_name c)) = [] ->
  holds (inv_of P k) (fun d' _ => complete k inp d') (create_fts c inp) d.
Proof.
  intros HP k Hn HM HR. set (n := ft_name c) in *.
  assert (I0 : inv_of P k d) by (left; auto).
  unfold create_fts. apply holds_bind, holds_ret; [assumption|]. intros m Em.
  destruct (new_smeta_facts _ _ Em) as [Hs [Ht [Hc Hv]]].
  apply holds_bind. fold n. eapply holds_weaken; [| |apply (save_holds n m d Hn); now left]; cbn beta.
  - intros d' [F [E|[E|E]]].
    + left. split; [now rewrite <- HM|]. cbn [kind_name k]. fold n. rewrite F by apply meta_rows. assumption.
    + right. exists []. auto.
    + right. exists [smeta_row m]. split; [assumption|]. right. exists m. auto.
  - intros d1 _ _ [F1 M1].
    assert (J : forall d', tables_of d' (meta_name n) = tables_of d1 (meta_name n) -> inv_of P k d').
    { intros d' E. right. exists [smeta_row m]. split; [cbn [kind_name k]; fold n; congruence|]. right. exists m. auto. }
    assert (R1 : tables_of d1 (rows_name n) = []) by (rewrite F1 by apply meta_rows; assumption).
    apply holds_bind.
    assert (C : forall (Q : db -> list bytes -> Prop) l, Q d1 (map quote l) -> holds (inv_of P k) Q (smapM fts_column l) d1).
    { intros Q l. revert Q. induction l as [|p l IH]; intros Q HQ; cbn [smapM].
      - apply holds_ret; [now apply J|]. intros a [= <-]. exact HQ.
      - apply holds_bind. unfold fts_column. destruct (bytes_eqb p (lit "__offset")).
        + apply holds_ret; [now apply J|]. discriminate.
        + apply holds_sanitize; [now apply J|]. apply holds_bind, IH. apply holds_ret; [now apply J|].
          intros a [= <-]. exact HQ. }
    apply C. clear C.
    apply holds_bind, holds_sanitize; [now apply J|].
    apply holds_bind, holds_sanitize; [now apply J|].
    destruct (ft_props c) as [|p0 ps0] eqn:Eps.
    + assert (E : parse (create_fts_sql (quote (rows_name n)) [] (prefix_string (ft_prefix c)) (quote (ft_tokenize c))) = None)
        by (apply parse_create_fts_none, digits_prefix).
      apply holds_bind, holds_syntax; [exact E|now apply J].
    + rewrite <- Eps in *.
      assert (Nps : ft_props c <> []) by (rewrite Eps; discriminate).
      apply holds_bind. eapply holds_exec; [apply (parse_create_fts _ _ _ _ Nps (digits_prefix _))|now apply J|].
      rewrite (until_rows n Hn). intros d2 a2 E2.
      pose proof (exec_create_fts _ _ _ _ _ _ _ _ _ _ _ E2 (fun x Hx => shadow_rows n n x Hx)) as [_ [R2 D2]].
      assert (M2 : tables_of d2 (meta_name n) = tables_of d1 (meta_name n)).
      { eapply exec_frame; [eassumption|]. intros y Hy. destruct Hy as [<-|Hy]; [apply rows_meta|].
        apply in_map_iff in Hy as [s [<- Hs']]. now apply shadow_meta. }
      split; [now apply J|].
      apply holds_bind.
      assert (EC : map c_name (index_cols k) = lit "__offset" :: map until_nul (ft_props c)).
      { unfold index_cols, fts_columns, k. rewrite map_map. cbn [c_name]. now rewrite map_id. }
      assert (P3 : parse (insert_fts_sql (quote (rows_name n)) (map quote (ft_props c)))
                   = Some (InsertInto (rows_name n) (map c_name (index_cols k)) (S (List.length (ft_props c))))).
      { rewrite parse_insert_fts by assumption. rewrite (until_rows n Hn), EC. reflexivity. }
      eapply holds_weaken; [| |apply (insert_holds _ _ _ _ (index_cols k) (ft_props c) (in_iter inp) P3 ltac:(rewrite EC; exact D2) [] d2 R2)]; cbn beta.
      -- intros d' H. apply J. rewrite H by apply rows_meta. exact M2.
      -- intros d4 _ _ [F4 [rows [R4 H4]]].
         apply (finish_holds P k inp d4 m); [assumption|assumption|assumption| |].
         ++ exists rows. split; [exact R4|]. split; [exact H4|]. rewrite EC. exact D2.
         ++ cbn [kind_name k]. fold n. rewrite F4 by apply rows_meta. rewrite M2, M1. reflexivity.
Qed.

Lemma create_sqlite_holds c inp d : let k := ISqlite c in
  nul_free (sq_name c) -> Forall (fun p => word (snd p)) (sq_props c) ->
  tables_of d (meta_name (sq_name c)) = [] -> tables_of d (rows_name (sq_name c)) = [] ->
  holds (inv k) (fun d' _ => complete k inp d') (create_sqlite c inp) d.
Proof. exact (create_sqlite_holds_of (fun _ => True) c inp d I). Qed.

Lemma create_fts_holds c inp d : let k := IFts c in
  nul_free (ft_name c) ->
  tables_of d (meta_name (ft_name c)) = [] -> tables_of d (rows_name (ft_name c)) = [] ->
  holds (inv k) (fun d' _ => complete k inp d') (create_fts c inp) d.
Proof. exact (create_fts_holds_of (fun _ => True) c inp d I). Qed.

(** *** Starts *)

Lemma filter_all {A} (f : A -> bool) l : (forall x, f x = true) -> filter f l = l.
Proof. intros H. induction l as [|x l IH]; cbn [filter]; [reflexivity|]. now rewrite H, IH. Qed.

(** The open path changes nothing. *)
Lemma count_exact d x : (forall m, In m (tables_of d x) -> fst m = x) ->
  filter (fun mt => bytes_eqb (fst mt) x) (d_tables d) = tables_of d x.
Proof.
  rewrite tables_of_name. induction (d_tables d) as [|[m t] ts IH]; cbn [filter fst]; intros H; [reflexivity|].
  destruct (name_eqb m x) eqn:E.
  - assert (m = x) by (apply (H (m, t)); now left). subst m.
    replace (bytes_eqb x x) with true by (symmetry; now apply bytes_eqb_eq).
    f_equal. apply IH. intros y Hy. apply H. now right.
  - destruct (bytes_eqb m x) eqn:F.
    + apply bytes_eqb_eq in F. subst. rewrite name_eqb_refl in E. discriminate.
    + apply IH. exact H.
Qed.

Lemma run_has n d : nul_free n -> (forall m, In m (tables_of d (meta_name n)) -> fst m = meta_name n) ->
  run (has_smeta n) d = (d, Ok (0 <? zlen (tables_of d (meta_name n)))).
Proof.
  intros Hn H. unfold has_smeta, meta_identifier. rewrite run_bind, run_sanitize, run_bind.
  unfold sql_row. cbn [srun]. rewrite (execq_parse _ _ _ _ _ _ _ (parse_has _)), (until_meta n Hn). cbn [exec_stmt].
  rewrite (count_exact d _ H). reflexivity.
Qed.

Lemma run_load n d rows : nul_free n -> tables_of d (meta_name n) = [(meta_name n, meta_table rows)] ->
  run (load_smeta n) d =
  (d, match rows with
      | [] => Err (EMsg "sql: no rows in result set")
      | row :: _ =>
        match map (column_value (meta_table rows) row) smeta_names with
        | [SInt v; SInt t; SInt s; SInt c] =>
          if (0 <=? v) && (v <? 65536) then Ok (mkSmeta v t s (0 <? c)) else Err (EMsg "Scan")
        | _ => Err (EMsg "Scan")
        end
      end).
Proof.
  intros Hn E. unfold load_smeta, meta_identifier. rewrite run_bind, run_sanitize, run_bind.
  unfold sql_row. cbn [srun]. rewrite (execq_parse _ _ _ _ _ _ _ (parse_load _)), (until_meta n Hn). cbn [exec_stmt].
  rewrite find_tables, E. cbn [List.length Nat.eqb negb t_rows meta_table].
  replace (filter (fun row => eqs_hold (meta_table rows) row [] []) rows) with rows.
  2:{ symmetry. now apply filter_all. }
  destruct rows as [|row rows]; cbn [map rbind fst snd].
  - reflexivity.
  - destruct (map (column_value (meta_table (row :: rows)) row) smeta_names) as [|[|v| |] [|[|t| |] [|[|s| |] [|[|c| |] [|]]]]]; try reflexivity.
    destruct ((0 <=? v) && (v <? 65536)); reflexivity.
Qed.

Lemma meta_values m rows : sm_version m = sqlite_version ->
  map (column_value (meta_table rows) (smeta_row m)) smeta_names
  = [SInt sqlite_version; SInt (sm_mtime m); SInt (sm_size m); SInt (if sm_completed m then 1 else 0)].
Proof. intros H. rewrite <- H. reflexivity. Qed.

Lemma assert_ok m inp : sm_version m = sqlite_version ->
  (assert_smeta m inp = Ok tt <-> in_mtime inp = Ok (sm_mtime m) /\ in_size inp = Ok (sm_size m) /\ sm_completed m = true).
Proof.
  intros Hv. unfold assert_smeta. rewrite Hv, Z.eqb_refl. cbn [negb].
  destruct (in_mtime inp) as [t| | |]; cbn [rbind]; try (split; [discriminate|intros [[=] _]]; fail).
  destruct (Z.eqb_spec (sm_mtime m) t) as [Et|Et]; cbn [negb].
  2:{ split; [discriminate|]. intros [[= E] _]. congruence. }
  destruct (in_size inp) as [s| | |]; cbn [rbind]; try (split; [discriminate|intros [_ [[=] _]]]; fail).
  destruct (Z.eqb_spec (sm_size m) s) as [Es|Es]; cbn [negb].
  2:{ split; [discriminate|]. intros [_ [[= E] _]]. congruence. }
  subst. destruct (sm_completed m); cbn [negb]; intuition discriminate.
Qed.

Lemma meta_singleton d n rows : tables_of d (meta_name n) = [(meta_name n, meta_table rows)] ->
  forall m, In m (tables_of d (meta_name n)) -> fst m = meta_name n.
Proof. intros -> m [<-|[]]. reflexivity. Qed.

(** With a metadata table, a start only reads. *)
Lemma open_holds n inp create d rows : nul_free n ->
  tables_of d (meta_name n) = [(meta_name n, meta_table rows)] ->
  run (open_or_create n inp create) d =
  (d, snd (run (slet m := load_smeta n in SRet (assert_smeta m inp)) d)) /\
  (forall d', In d' (states (open_or_create n inp create) d) -> d' = d).
Proof.
  intros Hn E. unfold open_or_create. split.
  - rewrite run_bind, (run_has n d Hn (meta_singleton d n rows E)), E. cbv beta iota.
    change (0 <? zlen [(meta_name n, meta_table rows)]) with true. cbv iota.
    rewrite run_bind, (run_load n d rows Hn E). cbn [snd].
    destruct rows as [|row rows]; [reflexivity|].
    destruct (map (column_value (meta_table (row :: rows)) row) smeta_names) as [|[|v| |] [|[|t| |] [|[|s| |] [|[|c| |] [|]]]]]; try reflexivity.
    destruct ((0 <=? v) && (v <? 65536)); reflexivity.
  - assert (H : holds (fun x => x = d) (fun _ _ => True) (open_or_create n inp create) d).
    { unfold open_or_create. apply holds_bind. unfold has_smeta, meta_identifier.
      apply holds_bind, holds_sanitize; [reflexivity|].
      apply holds_bind. eapply holds_row; [apply parse_has|reflexivity| |].
      - cbn [exec_stmt]. rewrite (until_meta n Hn), (count_exact d _ (meta_singleton d n rows E)), E.
        intros d' row a [= <- <- _]. apply holds_ret; [reflexivity|]. intros b [= <-].
        change (0 <? zlen [(meta_name n, meta_table rows)]) with true. cbv iota.
        apply holds_bind. unfold load_smeta, meta_identifier. apply holds_bind, holds_sanitize; [reflexivity|].
        apply holds_bind. eapply holds_row; [apply parse_load|reflexivity| |].
        + cbn [exec_stmt]. destruct (find_table _ _); [|discriminate]. cbn [List.length Nat.eqb negb]. intros d' row a0 [= <- _].
          assert (X : forall r, holds (fun x => x = d) (fun d' m => holds (fun x => x = d) (fun _ _ => True) (SRet (assert_smeta m inp)) d') (SRet r) d).
          { intros r. apply holds_ret; [reflexivity|]. intros m _. apply holds_ret; auto. }
          destruct row as [|[|v| |] [|[|t0| |] [|[|s| |] [|[|c| |] [|]]]]]; try apply X.
          destruct ((0 <=? v) && (v <? 65536)); apply X.
        + cbn [exec_stmt]. destruct (find_table _ _); [|discriminate]. cbn [List.length Nat.eqb negb]. intros d' a0 [= <- _]. reflexivity.
      - cbn [exec_stmt]. intros d' a0 [= <- _]. reflexivity. }
    intros d' Hd. apply holds_states in H. rewrite Forall_forall in H. exact (H d' Hd).
Qed.

Definition word_collations (k : index_kind) : Prop :=
  match k with ISqlite c => Forall (fun p => word (snd p)) (sq_props c) | IFts _ => True end.

(** A start of the index itself. *)
Lemma start_holds_of (P : input -> Prop) k inp d : P inp -> nul_free (kind_name k) -> word_collations k -> inv_of P k d ->
  Forall (inv_of P k) (states (start k inp) d) /\
  (forall d', run (start k inp) d = (d', Ok tt) ->
     exists inp0, P inp0 /\ in_size inp0 = in_size inp /\ in_mtime inp0 = in_mtime inp /\ complete k inp0 d').
Proof.
  intros HP Hn Hw Hi. pose proof Hi as Hi'. destruct Hi as [[HM HR]|[rows [HM H]]].
  - assert (X : holds (inv_of P k) (fun d' _ => complete k inp d') (start k inp) d).
    { assert (Y : holds (inv_of P k) (fun d' _ => complete k inp d')
         (open_or_create (kind_name k) inp (match k with ISqlite c => create_sqlite c inp | IFts c => create_fts c inp end)) d).
      { unfold open_or_create. apply holds_bind. unfold has_smeta, meta_identifier.
        apply holds_bind, holds_sanitize; [exact Hi'|].
        apply holds_bind. eapply holds_row; [apply parse_has|exact Hi'| |].
        - cbn [exec_stmt]. rewrite (until_meta _ Hn), count_exact by (rewrite HM; intros m []). rewrite HM.
          intros d' row a [= <- <- _]. apply holds_ret; [exact Hi'|]. intros b [= <-].
          change (0 <? zlen (@nil (bytes * table))) with false. cbv iota.
          destruct k as [c|c]; [apply create_sqlite_holds_of|apply create_fts_holds_of]; assumption.
        - cbn [exec_stmt]. intros d' a [= <- _]. exact Hi'. }
      destruct k; exact Y. }
    split; [exact (holds_states _ _ _ _ _ _ _ X)|].
    intros d' E. exists inp. split; [exact HP|]. split; [reflexivity|]. split; [reflexivity|]. exact (holds_run _ _ _ _ _ _ _ _ _ X E).
  - assert (E : start k inp = open_or_create (kind_name k) inp (match k with ISqlite c => create_sqlite c inp | IFts c => create_fts c inp end))
      by (destruct k; reflexivity).
    rewrite E. destruct (open_holds (kind_name k) inp (match k with ISqlite c => create_sqlite c inp | IFts c => create_fts c inp end) d rows Hn HM) as [H1 H2].
    split.
    + apply Forall_forall. intros d' Hd. rewrite (H2 d' Hd). exact Hi'.
    + intros d' Er. rewrite Er in H1. pose proof (f_equal fst H1) as Hd. pose proof (f_equal snd H1) as Hr. cbn [fst snd] in Hd, Hr. subst d'.
      rewrite run_bind in Hr.
      rewrite (run_load _ _ _ Hn HM) in Hr.
      destruct H as [->|[m [-> [Hv Hm]]]]; [discriminate|].
      rewrite (meta_values m _ Hv) in Hr.
      change ((0 <=? sqlite_version) && (sqlite_version <? 65536)) with true in Hr. cbv iota in Hr. cbn [srun snd] in Hr. symmetry in Hr.
      apply assert_ok in Hr; [|reflexivity]. cbn [sm_mtime sm_size sm_completed] in Hr. destruct Hr as [Ht [Hs Hc]].
      destruct Hm as [Hm|[inp0 [HP0 [Hmt [Hsz Hr0]]]]].
      * rewrite Hm in Hc. discriminate.
      * exists inp0. split; [exact HP0|]. split; [congruence|]. split; [congruence|]. split; [exact Hr0|].
        exists m. repeat split; try assumption. destruct (sm_completed m); [reflexivity|discriminate].
Qed.

Lemma start_holds k inp d : nul_free (kind_name k) -> word_collations k -> inv k d ->
  Forall (inv k) (states (start k inp) d) /\
  (forall d', run (start k inp) d = (d', Ok tt) ->
     exists inp0, in_size inp0 = in_size inp /\ in_mtime inp0 = in_mtime inp /\ complete k inp0 d').
Proof.
  intros Hn Hw Hi. destruct (start_holds_of (fun _ => True) k inp d I Hn Hw Hi) as [H1 H2]. split; [exact H1|].
  intros d' E. destruct (H2 d' E) as (inp0 & _ & H). exists inp0. exact H.
Qed.

End Life.
