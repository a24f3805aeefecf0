(** Creating an index succeeds. *)
From Coq Require Import List ZArith Lia Bool String.
From Coq Require Import Strings.Byte.
From Coq Require Import Floats.SpecFloat.
From Verif Require Import Base BaseFacts Value Json Sql SqlIndex SqlFacts SqlRunFacts SpecSql SqlInvFacts SqlLifeFacts SqlQueryFacts.
Import ListNotations.
Open Scope Z_scope.

(** *** Names *)

Lemma fold_first (c c' : byte) n n' : lower_ascii c <> lower_ascii c' -> name_eqb (c :: n) (c' :: n') = false.
Proof. intros H. rewrite name_eqb_false. cbn [fold_name map]. intros [= E _]. contradiction. Qed.

Lemma index_not_rodb n p x : name_eqb (lit "rodb_" ++ x) (until_nul (index_name n p)) = false.
Proof. apply fold_first. vm_compute. discriminate. Qed.

Lemma own_not_index n m p x : nul_free n -> In x (own_tables n) -> name_eqb x (until_nul (index_name m p)) = false.
Proof.
  intros _ [<-|[<-|H]]; [apply index_not_rodb|apply index_not_rodb|].
  apply in_map_iff in H as [s [<- _]]. unfold rows_name. rewrite <- app_assoc. apply index_not_rodb.
Qed.

Lemma distinct_intro l : NoDup (map fold_name l) -> distinct_names l = true.
Proof.
  induction l as [|n l IH]; cbn [map distinct_names]; intros H; [reflexivity|].
  inversion H as [|? ? N H']; subst. rewrite (IH H'), andb_true_r, negb_true_iff.
  destruct (existsb (name_eqb n) l) eqn:E; [|reflexivity].
  apply existsb_exists in E as [y [Hy Ey]]. elim N. rewrite name_eqb_iff in Ey. rewrite Ey. now apply in_map.
Qed.

Lemma until_nul_free n : nul_free n -> until_nul n = n.
Proof. intros H. apply until_nul_id. now apply nul_free_no_nul. Qed.

Lemma nul_free_app a b : nul_free a -> nul_free b -> nul_free (a ++ b).
Proof. unfold nul_free. intros H1 H2 H. apply in_app_or in H. tauto. Qed.

Lemma nul_free_lit (s : string) : forallb (fun c => negb (code c =? 0)) (lit s) = true -> nul_free (lit s).
Proof. intros H. now apply nul_free_no_nul, no_nul_lit. Qed.

Lemma until_property p : nul_free p -> until_nul (property_name p) = property_name p.
Proof. intros H. apply until_nul_free, nul_free_app; [now apply nul_free_lit|exact H]. Qed.

Lemma until_index n p : nul_free n -> nul_free p -> until_nul (index_name n p) = index_name n p.
Proof.
  intros H1 H2. apply until_nul_free, nul_free_app; [now apply nul_free_lit|].
  apply nul_free_app; [exact H1|]. apply nul_free_app; [now apply nul_free_lit|exact H2].
Qed.

Lemma nodup_prefixed (pre : bytes) (f : bytes -> bytes) l : (forall p, f p = pre ++ p) -> NoDup (map fold_name l) -> NoDup (map fold_name (map f l)).
Proof.
  intros Hf H. induction l as [|p l IH]; cbn [map] in *; [constructor|]. inversion H as [|? ? N H']; subst.
  constructor; [|now apply IH]. intros C. apply N. rewrite map_map in C. apply in_map_iff in C as [q [E Hq]].
  rewrite !Hf, !fold_app in E. apply app_inv_head in E. rewrite <- E. now apply in_map.
Qed.

Section Create.
Variable visit : list (list sqlv) -> list (res (list sqlv)).
Variable fts_ok : list bytes -> bytes -> bytes -> bool.
Variable fts_match : table -> sqlv -> res (list (list sqlv)).

Notation exec := (exec_stmt visit fts_ok fts_match).
Notation run := (srun visit fts_ok fts_match).

Definition ok {A} (p : sprog A) (d : db) (Q : db -> A -> Prop) : Prop :=
  exists d' a, run p d = (d', Ok a) /\ Q d' a.

Lemma ok_bind {A B} (p : sprog A) (f : A -> sprog B) d Q :
  ok p d (fun d' a => ok (f a) d' Q) -> ok (sbind p f) d Q.
Proof.
  intros [d' [a [E [d2 [b [E2 H]]]]]]. exists d2, b. split; [|exact H]. now rewrite run_bind, E.
Qed.

Lemma ok_ret {A} (a : A) d (Q : db -> A -> Prop) : Q d a -> ok (SRet (Ok a)) d Q.
Proof. intros H. exists d, a. auto. Qed.

Lemma ok_sanitize n d (Q : db -> bytes -> Prop) : Q d (quote n) -> ok (sanitize_identifier n) d Q.
Proof. intros H. exists d, (quote n). split; [apply run_sanitize|exact H]. Qed.

Lemma ok_exec q s args d d' a (Q : db -> unit -> Prop) : parse q = Some s -> exec s args d = Ok (d', a) -> Q d' tt ->
  ok (sql_exec q args) d Q.
Proof.
  intros P E H. exists d', tt. split; [|exact H]. unfold sql_exec. cbn [srun].
  now rewrite (execq_parse _ _ _ _ _ _ _ P), E.
Qed.

Lemma exec_indexes s args d d' a : exec s args d = Ok (d', a) -> (forall i n c, s <> CreateIndex i n c) ->
  d_indexes d' = d_indexes d.
Proof.
  intros E N. destruct s; cbn [exec_stmt] in E.
  - destruct (find_table _ _).
    + destruct if_not_exists; [|discriminate]. now injection E as <- _.
    + destruct (has_index _ _); [discriminate|]. destruct (negb _); [discriminate|]. destruct (negb _); [discriminate|].
      now injection E as <- _.
  - now elim (N i t c).
  - destruct (taken _ _); [discriminate|]. destruct (existsb _ _); [discriminate|].
    destruct (existsb _ _ || _ || _); [discriminate|]. now injection E as <- _.
  - destruct (find_table _ _); [|discriminate]. now injection E as <- _.
  - destruct (find_table _ _); [|discriminate]. destruct (negb _); [discriminate|]. destruct (negb _); [discriminate|].
    destruct (existsb _ _); [discriminate|]. now injection E as <- _.
  - destruct args as [|[| | |] [|]]; try discriminate. now injection E as <- _.
  - now injection E as <- _.
  - destruct (find_table _ _); [|discriminate]. now injection E as <- _.
  - destruct (find_table _ _); [|discriminate]. destruct (negb _); [discriminate|]. now injection E as <- _.
  - destruct (find_table _ _) as [tb|]; [|discriminate]. destruct args as [|v [|]]; try discriminate.
    destruct (negb _); [discriminate|]. destruct (fts_match tb v); cbn [rbind] in E; try discriminate.
    now injection E as <- _.
Qed.

Lemma find_col_member cols c : In c cols -> exists ic, find_col cols (c_name c) = Some ic.
Proof.
  induction cols as [|c0 cols IH]; intros H; [destruct H|]. cbn [find_col].
  destruct (name_eqb (c_name c0) (c_name c)) eqn:E; [eauto|].
  destruct H as [->|H]; [rewrite name_eqb_refl in E; discriminate|]. destruct (IH H) as [[i c'] ->]. eauto.
Qed.

Lemma insert_ok n k args d m t : tables_of d n = [(m, t)] -> distinct_names (map c_name (t_cols t)) = true ->
  k = List.length (t_cols t) -> List.length args = List.length (t_cols t) ->
  existsb (fun cv => c_notnull (fst cv) && is_null (snd cv)) (combine (t_cols t) args) = false ->
  exists d', exec (InsertInto n (map c_name (t_cols t)) k) args d = Ok (d', []).
Proof.
  intros T D -> L N. cbn [exec_stmt]. rewrite find_tables, T.
  assert (F : forallb (fun c => match find_col (t_cols t) c with Some _ => true | None => false end) (map c_name (t_cols t)) = true).
  { apply forallb_forall. intros x Hx. apply in_map_iff in Hx as [c [<- Hc]]. destruct (find_col_member _ _ Hc) as [ic ->]. reflexivity. }
  rewrite F, map_length, L, Nat.eqb_refl. cbn [negb andb]. rewrite insert_values by assumption. rewrite N. eauto.
Qed.

Lemma save_ok n m d : nul_free n ->
  (tables_of d (meta_name n) = [] /\ has_index d (meta_name n) = false \/
   exists rows, tables_of d (meta_name n) = [(meta_name n, meta_table rows)]) ->
  ok (save_smeta n m) d (fun d' _ =>
    (forall x, name_eqb (meta_name n) x = false -> tables_of d' x = tables_of d x) /\
    tables_of d' (meta_name n) = [(meta_name n, meta_table [smeta_row m])] /\ d_indexes d' = d_indexes d).
Proof.
  intros Hn Hd.
  assert (X : exists d', run (save_smeta n m) d = (d', Ok tt) /\ d_indexes d' = d_indexes d).
  { unfold save_smeta, meta_identifier.
    assert (Y : ok (slet tid := sanitize_identifier (meta_name n) in slet _ := sql_exec (create_meta_sql tid) [] in
                    slet _ := sql_exec (delete_meta_sql tid) [] in sql_exec (insert_meta_sql tid) (smeta_row m)) d
                   (fun d' _ => d_indexes d' = d_indexes d)).
    2:{ destruct Y as [d' [[] [E H]]]. eauto. }
    apply ok_bind, ok_sanitize, ok_bind.
    assert (C : exists d1, exec (CreateTable true (until_nul (meta_name n)) smeta_cols) [] d = Ok (d1, [])).
    { rewrite (until_meta n Hn). cbn [exec_stmt]. rewrite find_tables.
      destruct Hd as [[Hd Hi]|[rows Hd]]; rewrite Hd; [|eauto]. rewrite Hi, smeta_distinct. cbn [negb].
      change (forallb (fun c => known_collation (c_collate c)) smeta_cols) with true. cbn [negb]. eauto. }
    destruct C as [d1 E1]. eapply ok_exec; [apply parse_create_meta|exact E1|]. rewrite (until_meta n Hn) in E1.
    assert (M1 : exists rows, tables_of d1 (meta_name n) = [(meta_name n, meta_table rows)]).
    { destruct Hd as [[Hd _]|[rows Hd]].
      - apply exec_create in E1 as [E1 _]; [|assumption]. exists []. exact E1.
      - pose proof (exec_create_again _ _ _ _ _ _ _ _ _ _ _ E1 Hd) as ->. eauto. }
    destruct M1 as [rows M1]. apply exec_indexes in E1; [|discriminate].
    apply ok_bind.
    assert (C : exists d2, exec (DeleteFrom (until_nul (meta_name n))) [] d1 = Ok (d2, [])).
    { rewrite (until_meta n Hn). cbn [exec_stmt]. rewrite find_tables, M1. eauto. }
    destruct C as [d2 E2]. eapply ok_exec; [apply parse_delete_meta|exact E2|]. rewrite (until_meta n Hn) in E2.
    pose proof (exec_delete _ _ _ _ _ _ _ _ _ _ E2 M1) as M2. apply exec_indexes in E2; [|discriminate].
    assert (C : exists d3, exec (InsertInto (until_nul (meta_name n)) smeta_names 4) (smeta_row m) d2 = Ok (d3, [])).
    { rewrite (until_meta n Hn). apply (insert_ok (meta_name n) 4 (smeta_row m) d2 _ (mkTable smeta_cols []) M2 smeta_distinct); reflexivity. }
    destruct C as [d3 E3]. eapply ok_exec; [apply parse_insert_meta|exact E3|].
    apply exec_indexes in E3; [|discriminate]. congruence. }
  destruct X as [d' [E I]]. exists d', tt. split; [exact E|].
  assert (Hd' : tables_of d (meta_name n) = [] \/ exists rows, tables_of d (meta_name n) = [(meta_name n, meta_table rows)])
    by (destruct Hd as [[Hd _]|Hd]; auto).
  pose proof (save_holds visit fts_ok fts_match n m d Hn Hd') as H.
  destruct (holds_run _ _ _ _ _ _ _ _ _ H E) as [H1 H2]. auto.
Qed.

Lemma bind_record r props : Forall (fun p => exists v, r_get r p = Ok v /\ is_primitive v = true) props ->
  exists vs args, rmapM (r_get r) props = Ok vs /\ rmapM bind_value vs = Ok args /\ List.length args = List.length props.
Proof.
  induction 1 as [|p props [v [G P]] F IH]; cbn [rmapM].
  - exists [], []. auto.
  - destruct IH as [vs [args [E1 [E2 L]]]]. destruct (bind_primitive _ P) as [s B].
    exists (v :: vs), (s :: args). rewrite G, E1. cbn [rbind rmapM]. rewrite B, E2. cbn [rbind List.length]. auto.
Qed.

Lemma insert_records_ok q n cols props its : 
  parse q = Some (InsertInto n (map c_name cols) (List.length cols)) -> distinct_names (map c_name cols) = true ->
  List.length cols = S (List.length props) ->
  (forall z args, existsb (fun cv => c_notnull (fst cv) && is_null (snd cv)) (combine cols (SInt z :: args)) = false) ->
  Forall (indexable props) its ->
  forall m rows d, tables_of d n = [(m, mkTable cols rows)] ->
  ok (insert_records q props its) d (fun d' _ =>
    (forall x, name_eqb n x = false -> tables_of d' x = tables_of d x) /\ d_indexes d' = d_indexes d /\
    exists rows', tables_of d' n = [(m, mkTable cols rows')]).
Proof.
  intros P D L N F. induction F as [|it its [r [-> G]] F IH]; intros m rows d T; cbn [insert_records].
  - apply ok_ret. eauto.
  - apply ok_bind, ok_ret. apply ok_bind. unfold insert_record.
    destruct (bind_record r props G) as [vs [args [E1 [E2 La]]]].
    apply ok_bind. rewrite E1. apply ok_ret. apply ok_bind. rewrite E2. apply ok_ret.
    destruct (insert_ok n (List.length cols) (SInt (r_pos r) :: args) d m (mkTable cols rows) T D eq_refl) as [d1 E].
    { cbn [List.length t_cols]. lia. }
    { apply N. }
    eapply ok_exec; [exact P|exact E|].
    assert (F1 : forall x, name_eqb n x = false -> tables_of d1 x = tables_of d x).
    { intros x Hx. eapply exec_frame; [exact E|]. cbn. intros y [<-|[]]. exact Hx. }
    pose proof (exec_insert _ _ _ _ _ _ _ _ _ _ (mkTable cols rows) E T D) as [T1 _].
    pose proof (exec_indexes _ _ _ _ _ E ltac:(discriminate)) as I1.
    destruct (IH _ _ _ T1) as [d' [a [R [H1 [H2 H3]]]]]. exists d', a. split; [exact R|].
    split; [intros x Hx; rewrite H1 by exact Hx; now apply F1|]. split; [congruence|exact H3].
Qed.

Lemma finish_ok n m d t rows : nul_free n ->
  tables_of d (meta_name n) = [(meta_name n, meta_table rows)] -> tables_of d (rows_name n) = [(rows_name n, t)] ->
  ok (finish_index n (quote (rows_name n)) m) d (fun _ _ => True).
Proof.
  intros Hn M R. unfold finish_index. apply ok_bind.
  destruct (save_ok n (complete_smeta m) d Hn) as [d1 [[] [E [F [_ _]]]]]; [eauto|].
  exists d1, tt. split; [exact E|]. apply ok_bind.
  exists d1, [SInt (zlen (t_rows t))]. split; [|now apply ok_ret].
  unfold sql_row. cbn [srun]. rewrite (execq_parse _ _ _ _ _ _ _ (parse_count _)), (until_rows n Hn). cbn [exec_stmt].
  rewrite find_tables, (F (rows_name n) (meta_rows n n)), R. reflexivity.
Qed.

Lemma parts_ok n ps d (Q : db -> list (bytes * bytes * bytes) -> Prop) :
  Q d (map (fun p => (blob_def (property_name (fst p), snd p), quote (property_name (fst p)), quote (index_name n (fst p)))) ps) ->
  ok (smapM (property_parts n) ps) d Q.
Proof.
  revert Q. induction ps as [|p ps IH]; intros Q H; cbn [smapM]; [now apply ok_ret|].
  apply ok_bind. unfold property_parts at 1. apply ok_bind, ok_sanitize, ok_bind, ok_sanitize, ok_ret.
  apply ok_bind, IH, ok_ret. exact H.
Qed.

Lemma indexes_ok n tn t (ps : list (bytes * bytes)) : nul_free tn ->
  Forall (fun p => nul_free (fst p)) ps -> nul_free n -> NoDup (map fold_name (map fst ps)) ->
  (forall p, In p ps -> exists ic, find_col (t_cols t) (property_name (fst p)) = Some ic) ->
  forall d, tables_of d tn = [(tn, t)] ->
  (forall p, In p ps -> taken d (index_name n (fst p)) = false) ->
  ok (smapM (fun x => sql_exec (create_index_sql (snd x) (quote tn) (snd (fst x))) [])
        (map (fun p => (blob_def (property_name (fst p), snd p), quote (property_name (fst p)), quote (index_name n (fst p)))) ps)) d
     (fun d' _ => d_tables d' = d_tables d).
Proof.
  intros Ht Hp Hn. induction Hp as [|p ps Hp0 Hp IH]; intros Nd C d T K; cbn [map smapM]; [now apply ok_ret|].
  cbn [fst snd]. apply ok_bind.
  destruct (C p (or_introl eq_refl)) as [ic Eic].
  set (d1 := mkDb (d_tables d) (d_indexes d ++ [(index_name n (fst p), tn)])).
  assert (E : exec (CreateIndex (until_nul (index_name n (fst p))) (until_nul tn) (until_nul (property_name (fst p)))) [] d = Ok (d1, [])).
  { rewrite (until_index n _ Hn Hp0), (until_nul_free tn Ht), (until_property _ Hp0). cbn [exec_stmt].
    rewrite find_tables, T, (K p (or_introl eq_refl)), Eic. reflexivity. }
  eapply ok_exec; [apply parse_create_index|exact E|]. apply ok_bind.
  cbn [map] in Nd. inversion Nd as [|? ? Nin Nd']; subst.
  destruct (IH Nd' (fun q Hq => C q (or_intror Hq)) d1 T) as [d' [a [R Q]]].
  { intros q Hq. pose proof (K q (or_intror Hq)) as Kq. unfold taken in *. cbn [d1 d_tables].
    destruct (find_table (d_tables d) (index_name n (fst q))); [discriminate|].
    unfold has_index in *. cbn [d1 d_indexes]. rewrite existsb_app, Kq. cbn [existsb fst orb]. rewrite orb_false_r.
    rewrite name_eqb_false. unfold index_name. rewrite !fold_app. intros X. apply app_inv_head, app_inv_head, app_inv_head in X.
    apply Nin. rewrite X. now apply in_map, in_map. }
  exists d', a. split; [exact R|]. apply ok_ret. exact Q.
Qed.

Lemma new_smeta_ok inp : readable inp -> exists m, new_smeta inp = Ok m.
Proof. intros [[s Es] [t Et]]. unfold new_smeta. rewrite Es, Et. cbn [rbind]. eauto. Qed.

Lemma taken_tables d x : taken d x = false -> tables_of d x = [] /\ has_index d x = false.
Proof. unfold taken. rewrite find_tables. destruct (tables_of d x) as [|[m t] l]; [auto|discriminate]. Qed.

Lemma not_offset p : ~ In (fold_name (lit "offset")) (map fold_name (map property_name p)).
Proof.
  intros H. rewrite map_map in H. apply in_map_iff in H as [q [E _]]. unfold property_name in E.
  rewrite fold_app in E. apply (f_equal (fun l => hd_error l)) in E. vm_compute in E. discriminate.
Qed.

Theorem create_sqlite_ok c inp d : nul_free (sq_name c) -> sq_props c <> [] ->
  Forall (fun p => nul_free (fst p) /\ In (snd p) [lit "BINARY"; lit "NOCASE"]) (sq_props c) ->
  NoDup (map fold_name (map fst (sq_props c))) ->
  taken d (meta_name (sq_name c)) = false -> taken d (rows_name (sq_name c)) = false ->
  (forall p, In p (sq_props c) -> taken d (index_name (sq_name c) (fst p)) = false) ->
  readable inp -> Forall (indexable (map fst (sq_props c))) (in_iter inp) ->
  ok (create_sqlite c inp) d (fun _ _ => True).
Proof.
  set (n := sq_name c). intros Hn Nps Hps Nd Km Kr Ki Hr Hi.
  destruct (new_smeta_ok inp Hr) as [m Em]. apply taken_tables in Km, Kr. destruct Km as [Tm Im], Kr as [Tr Ir].
  assert (HP : Forall (fun p => nul_free (fst p)) (sq_props c)) by (eapply Forall_impl; [|exact Hps]; cbn beta; tauto).
  unfold create_sqlite. apply ok_bind. rewrite Em. apply ok_ret. apply ok_bind. fold n.
  destruct (save_ok n m d Hn) as [d1 [[] [E1 [F1 [M1 I1]]]]]; [auto|]. exists d1, tt. split; [exact E1|].
  apply ok_bind, parts_ok. apply ok_bind, ok_sanitize. rewrite !map_map. cbn [fst snd].
  set (ps := map (fun p => (property_name (fst p), snd p)) (sq_props c)).
  replace (map (fun x => blob_def (property_name (fst x), snd x)) (sq_props c)) with (map blob_def ps)
    by (unfold ps; now rewrite map_map).
  apply ok_bind.
  set (cols := index_cols (ISqlite c)).
  assert (EC : int_col (lit "offset") :: map blob_col ps = cols) by (unfold cols, ps; cbn [index_cols]; now rewrite map_map).
  assert (EN : map c_name cols = lit "offset" :: map property_name (map fst (sq_props c))).
  { unfold cols. cbn [index_cols map c_name int_col]. f_equal. rewrite !map_map. apply map_ext_in. intros p Hp.
    cbn [blob_col c_name fst]. apply until_property. rewrite Forall_forall in HP. now apply HP. }
  assert (D : distinct_names (map c_name cols) = true).
  { apply distinct_intro. rewrite EN. cbn [map]. constructor; [apply not_offset|].
    apply (nodup_prefixed (lit "property_")); [reflexivity|exact Nd]. }
  assert (C : exists d2, exec (CreateTable false (rows_name n) cols) [] d1 = Ok (d2, [])).
  { cbn [exec_stmt]. rewrite find_tables, F1 by apply meta_rows. rewrite Tr.
    unfold has_index in *. rewrite I1, Ir, D. cbn [negb].
    assert (K : forallb (fun c => known_collation (c_collate c)) cols = true).
    { unfold cols. cbn [index_cols forallb]. change (known_collation (c_collate (int_col (lit "offset")))) with true. cbn [andb].
      apply forallb_forall. intros x Hx. apply in_map_iff in Hx as [p [<- Hp]]. cbn [blob_col c_collate snd].
      rewrite Forall_forall in Hps. destruct (Hps p Hp) as [_ Hc]. cbn [In] in Hc. destruct Hc as [<-|[<-|[]]]; reflexivity. }
    rewrite K. cbn [negb]. eauto. }
  destruct C as [d2 E2].
  eapply ok_exec; [apply (parse_create_rows _ ps)| |].
  { unfold ps. now apply map_ne. }
  { apply Forall_map. eapply Forall_impl; [|exact Hps]. cbn beta. intros p [_ Hc]. apply collation_word. cbn [In snd] in *. tauto. }
  { rewrite (until_rows n Hn), EC. exact E2. }
  assert (F2 : forall x, name_eqb (rows_name n) x = false -> tables_of d2 x = tables_of d1 x).
  { intros x Hx. eapply exec_frame; [exact E2|]. cbn. intros y [<-|[]]. exact Hx. }
  pose proof (exec_indexes _ _ _ _ _ E2 ltac:(discriminate)) as I2.
  apply exec_create in E2 as [T2 _]; [|rewrite F1 by apply meta_rows; exact Tr].
  apply ok_bind.
  destruct (indexes_ok n (rows_name n) (fresh_table cols) (sq_props c)) with (d := d2) as [d3 [a3 [E3 H3]]]; try assumption.
  { apply nul_free_app; [now apply nul_free_lit|]. apply nul_free_app; [exact Hn|now apply nul_free_lit]. }
  { intros p Hp. cbn [t_cols fresh_table].
    assert (X : property_name (fst p) = c_name (blob_col (property_name (fst p), snd p))).
    { cbn [blob_col c_name fst]. symmetry. apply until_property. rewrite Forall_forall in HP. now apply HP. }
    rewrite X. apply find_col_member. unfold cols. cbn [index_cols]. right. apply in_map_iff. exists p. auto. }
  { intros p Hp. pose proof (Ki p Hp) as K. rewrite Forall_forall in HP. pose proof (HP p Hp) as Hp0.
    apply taken_tables in K as [K1 K2]. fold n in K1, K2.
    unfold taken. rewrite find_tables.
    rewrite <- (until_index n (fst p) Hn Hp0). rewrite F2, F1 by (apply (own_not_index n); [exact Hn|cbn; tauto]).
    rewrite (until_index n (fst p) Hn Hp0), K1. unfold has_index in *. now rewrite I2, I1. }
  exists d3, a3. split; [exact E3|].
  assert (T3 : forall x, tables_of d3 x = tables_of d2 x) by (intros x; rewrite !tables_of_name; now rewrite H3).
  apply ok_bind.
  destruct (insert_records_ok (insert_rows_sql (quote (rows_name n)) (map (fun x => quote (property_name (fst x))) (sq_props c)))
              (rows_name n) cols (map fst (sq_props c)) (in_iter inp)) with (m := rows_name n) (rows := @nil (list sqlv)) (d := d3)
    as [d4 [[] [E4 [F4 [I4 [rows' T4]]]]]]; try assumption.
  { replace (map (fun x => quote (property_name (fst x))) (sq_props c)) with (map quote (map fst ps))
      by (unfold ps; rewrite !map_map; reflexivity).
    rewrite parse_insert_rows by (unfold ps; now apply map_ne, map_ne). rewrite (until_rows n Hn), <- EC.
    cbn [map c_name int_col]. unfold ps. rewrite !map_map. cbn [List.length]. rewrite !map_length. reflexivity. }
  { unfold cols. cbn [index_cols List.length]. now rewrite !map_length. }
  { intros z args. unfold cols. cbn [index_cols combine existsb fst snd is_null]. rewrite andb_false_r. cbn [orb].
    apply not_true_iff_false. intros X. apply existsb_exists in X as [[cd v] [Hx Hy]]. apply in_combine_l in Hx.
    apply in_map_iff in Hx as [p [<- _]]. cbn [fst blob_col c_notnull] in Hy. discriminate. }
  { rewrite T3. exact T2. }
  exists d4, tt. split; [exact E4|].
  eapply finish_ok; [exact Hn| |exact T4].
  rewrite F4 by apply rows_meta. rewrite T3, F2 by apply rows_meta. exact M1.
Qed.

(** Full-text indexes. *)
Lemma fts_columns_ok l d (Q : db -> list bytes -> Prop) : ~ In (lit "__offset") l -> Q d (map quote l) ->
  ok (smapM fts_column l) d Q.
Proof.
  revert Q. induction l as [|p l IH]; intros Q N H; cbn [smapM]; [now apply ok_ret|].
  apply ok_bind. unfold fts_column at 1.
  assert (E : bytes_eqb p (lit "__offset") = false).
  { apply not_true_iff_false. rewrite bytes_eqb_eq. intros ->. apply N. now left. }
  rewrite E. apply ok_sanitize. apply ok_bind, IH; [intros X; apply N; now right|]. apply ok_ret. exact H.
Qed.

Theorem create_fts_ok c inp d : nul_free (ft_name c) -> ft_props c <> [] ->
  Forall nul_free (ft_props c) -> NoDup (map fold_name (lit "__offset" :: lit "rank" :: lit "rowid" :: ft_props c)) ->
  taken d (meta_name (ft_name c)) = false -> taken d (rows_name (ft_name c)) = false ->
  (forall x, In x shadow_suffixes -> taken d (rows_name (ft_name c) ++ x) = false) ->
  fts_ok (lit "__offset" :: ft_props c) (prefix_string (ft_prefix c)) (until_nul (ft_tokenize c)) = true ->
  readable inp -> Forall (indexable (ft_props c)) (in_iter inp) ->
  ok (create_fts c inp) d (fun _ _ => True).
Proof.
  set (n := ft_name c). intros Hn Nps HP Nd Km Kr Ks Ko Hr Hi.
  destruct (new_smeta_ok inp Hr) as [m Em]. apply taken_tables in Km, Kr. destruct Km as [Tm Im], Kr as [Tr Ir].
  assert (U : map until_nul (ft_props c) = ft_props c).
  { rewrite <- (map_id (ft_props c)) at 2. apply map_ext_in. intros p Hp. apply until_nul_free. rewrite Forall_forall in HP. now apply HP. }
  unfold create_fts. apply ok_bind. rewrite Em. apply ok_ret. apply ok_bind. fold n.
  destruct (save_ok n m d Hn) as [d1 [[] [E1 [F1 [M1 I1]]]]]; [auto|]. exists d1, tt. split; [exact E1|].
  cbn [map] in Nd. apply NoDup_cons_iff in Nd as [N1 Nd1]. apply NoDup_cons_iff in Nd1 as [N2 Nd2]. apply NoDup_cons_iff in Nd2 as [N3 Nd3].
  apply ok_bind, fts_columns_ok.
  { intros X. apply N1. right. right. now apply in_map. }
  apply ok_bind, ok_sanitize, ok_bind, ok_sanitize, ok_bind.
  set (cols := lit "__offset" :: ft_props c).
  assert (D : distinct_names cols = true).
  { apply distinct_intro. unfold cols. cbn [map]. constructor; [|exact Nd3]. intros X. apply N1. right. now right. }
  assert (R : existsb reserved_fts cols = false).
  { apply not_true_iff_false. intros X. apply existsb_exists in X as [x [Hx Hy]]. unfold reserved_fts in Hy.
    apply orb_true_iff in Hy. rewrite !name_eqb_iff in Hy. unfold cols in Hx. destruct Hx as [<-|Hx].
    - destruct Hy as [Hy|Hy]; vm_compute in Hy; discriminate.
    - destruct Hy as [Hy|Hy]; [apply N2; right|apply N3]; rewrite <- Hy; now apply in_map. }
  assert (C : exists d2, exec (CreateFts (rows_name n) cols (prefix_string (ft_prefix c)) (until_nul (ft_tokenize c))) [] d1 = Ok (d2, [])).
  { cbn [exec_stmt]. unfold taken at 1. rewrite find_tables, F1 by apply meta_rows. rewrite Tr.
    replace (has_index d1 (rows_name n)) with (has_index d (rows_name n)) by (unfold has_index; now rewrite I1). rewrite Ir.
    assert (S : existsb (fun x => taken d1 (rows_name n ++ x)) shadow_suffixes = false).
    { apply not_true_iff_false. intros X. apply existsb_exists in X as [x [Hx Hy]].
      pose proof (Ks x Hx) as K. fold n in K. unfold taken in *. rewrite find_tables in *. rewrite F1 in Hy.
      - unfold has_index in *. rewrite I1 in Hy. destruct (tables_of d (rows_name n ++ x)) as [|[]]; congruence.
      - rewrite name_eqb_false. intros E. symmetry in E. revert E. apply name_eqb_false. now apply shadow_meta. }
    rewrite S, R, D. cbn [negb orb]. unfold cols at 1. rewrite Ko. cbn [negb]. eauto. }
  destruct C as [d2 E2].
  eapply ok_exec; [apply (parse_create_fts _ _ _ _ Nps (digits_prefix _))| |].
  { rewrite (until_rows n Hn), U. exact E2. }
  pose proof (exec_create_fts _ _ _ _ _ _ _ _ _ _ _ E2 (fun x Hx => shadow_rows n n x Hx)) as [_ [R2 D2]].
  assert (M2 : tables_of d2 (meta_name n) = tables_of d1 (meta_name n)).
  { eapply exec_frame; [eassumption|]. intros y Hy. destruct Hy as [<-|Hy]; [apply rows_meta|].
    apply in_map_iff in Hy as [s [<- Hs']]. now apply shadow_meta. }
  apply ok_bind.
  match type of R2 with _ = [(_, fresh_table ?x)] => set (tc := x) in * end.
  assert (EC : map c_name tc = cols) by (unfold tc, fts_columns; rewrite map_map; cbn [c_name]; apply map_id).
  destruct (insert_records_ok (insert_fts_sql (quote (rows_name n)) (map quote (ft_props c)))
              (rows_name n) tc (ft_props c) (in_iter inp)) with (m := rows_name n) (rows := @nil (list sqlv)) (d := d2)
    as [d4 [[] [E4 [F4 [I4 [rows' T4]]]]]]; try assumption.
  { rewrite parse_insert_fts by assumption. rewrite (until_rows n Hn), EC, U. unfold tc, fts_columns, cols. cbn [List.length map]. now rewrite map_length. }
  { rewrite EC. exact D. }
  { unfold tc, fts_columns, cols. cbn [map List.length]. now rewrite map_length. }
  { intros z args. apply not_true_iff_false. intros X. apply existsb_exists in X as [[cd v] [Hx Hy]]. apply in_combine_l in Hx.
    apply in_map_iff in Hx as [p [<- _]]. cbn [fst c_notnull] in Hy. discriminate. }
  exists d4, tt. split; [exact E4|].
  eapply finish_ok; [exact Hn| |exact T4].
  rewrite F4 by apply rows_meta. rewrite M2. exact M1.
Qed.

(** The first start. *)
Lemma first_start k inp d : nul_free (kind_name k) -> tables_of d (meta_name (kind_name k)) = [] ->
  run (start k inp) d = run (match k with ISqlite c => create_sqlite c inp | IFts c => create_fts c inp end) d.
Proof.
  intros Hn T. assert (X : start k inp = open_or_create (kind_name k) inp (match k with ISqlite c => create_sqlite c inp | IFts c => create_fts c inp end))
    by (destruct k; reflexivity).
  rewrite X. unfold open_or_create. rewrite run_bind, (run_has _ _ _ _ _ Hn) by (rewrite T; intros m []). rewrite T. reflexivity.
Qed.

Lemma unused_taken d x : unused d x -> taken d x = false.
Proof.
  intros [T I]. unfold taken. rewrite find_tables, T. unfold has_index. apply not_true_iff_false. intros E.
  apply existsb_exists in E as [i [Hi Ei]]. rewrite Forall_forall in I. apply (I i Hi). now apply name_eqb_iff.
Qed.

Theorem creation_succeeds k inp d : creatable fts_ok k d -> readable inp -> Forall (indexable (kind_props k)) (in_iter inp) ->
  exists d', run (start k inp) d = (d', Ok tt).
Proof.
  intros [Hn [Np [Hp [Um [Ur Hk]]]]] Hr Hi. rewrite first_start by (assumption || apply Um).
  destruct k as [c|c]; cbn [kind_name kind_props] in *.
  - destruct Hk as [Nd [Hc Hx]]. destruct (create_sqlite_ok c inp d Hn) as [d' [[] [E _]]]; auto using unused_taken.
    + intros E. apply Np. now rewrite E.
    + rewrite Forall_map in Hp. clear - Hp Hc. induction Hc; constructor; inversion Hp; subst; auto.
    + intros p H. apply unused_taken. rewrite Forall_forall in Hx. apply Hx. now apply in_map.
    + eauto.
  - destruct Hk as [Nd [Hc Hx]]. destruct (create_fts_ok c inp d Hn) as [d' [[] [E _]]]; auto using unused_taken.
    + intros x H. apply unused_taken. rewrite Forall_forall in Hx. now apply Hx.
    + eauto.
Qed.

End Create.
