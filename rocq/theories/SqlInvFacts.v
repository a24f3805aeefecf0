(** The life of the tables of an index, through finished and interrupted starts. *)
From Coq Require Import List ZArith Lia Bool String.
From Coq Require Import Strings.Byte.
From Coq Require Import Floats.SpecFloat.
From Verif Require Import Base BaseFacts Value Json Sql SqlIndex SqlFacts SqlRunFacts SpecSql.
Import ListNotations.
Open Scope Z_scope.

(** *** Names *)

Lemma fold_app a b : fold_name (a ++ b) = fold_name a ++ fold_name b.
Proof. apply map_app. Qed.

Lemma name_eqb_iff a b : name_eqb a b = true <-> fold_name a = fold_name b.
Proof. unfold name_eqb. apply bytes_eqb_eq. Qed.

Lemma name_eqb_false a b : name_eqb a b = false <-> fold_name a <> fold_name b.
Proof. rewrite <- name_eqb_iff. destruct (name_eqb a b); split; congruence. Qed.

Lemma name_eqb_refl a : name_eqb a a = true.
Proof. now apply name_eqb_iff. Qed.

Lemma tail_eq (x y s t : bytes) : List.length s = List.length t -> x ++ s = y ++ t -> s = t.
Proof.
  intros L E. assert (L2 : List.length x = List.length y).
  { apply (f_equal (@List.length _)) in E. rewrite !app_length in E. lia. }
  revert y L2 E. induction x as [|a x IH]; intros [|b y] L2 E; cbn in *; try lia; [assumption|].
  injection E as _ E. apply (IH y); [lia|assumption].
Qed.

Lemma tail_neq (x y s t : bytes) : List.length s = List.length t -> s <> t -> x ++ s <> y ++ t.
Proof. intros L N E. apply N, (tail_eq x y s t L E). Qed.

Lemma fold_meta n : fold_name (meta_name n) = lit "rodb_" ++ fold_name n ++ lit "_metadata".
Proof. unfold meta_name. rewrite !fold_app. reflexivity. Qed.
Lemma fold_rows n : fold_name (rows_name n) = lit "rodb_" ++ fold_name n ++ lit "_index".
Proof. unfold rows_name. rewrite !fold_app. reflexivity. Qed.

Lemma meta_inj a b : name_eqb (meta_name a) (meta_name b) = true -> fold_name a = fold_name b.
Proof. rewrite name_eqb_iff, !fold_meta. intros E. apply app_inv_head in E. now apply app_inv_tail in E. Qed.
Lemma rows_inj a b : name_eqb (rows_name a) (rows_name b) = true -> fold_name a = fold_name b.
Proof. rewrite name_eqb_iff, !fold_rows. intros E. apply app_inv_head in E. now apply app_inv_tail in E. Qed.

Lemma suffix_neq x y s t : List.length (fold_name s) = List.length (fold_name t) -> fold_name s <> fold_name t ->
  name_eqb (x ++ s) (y ++ t) = false.
Proof. intros L N. rewrite name_eqb_false, !fold_app. now apply tail_neq. Qed.

Lemma meta_rows a b : name_eqb (meta_name a) (rows_name b) = false.
Proof.
  unfold meta_name, rows_name.
  replace (lit "rodb_" ++ a ++ lit "_metadata") with ((lit "rodb_" ++ a ++ lit "_meta") ++ lit "data").
  2:{ rewrite <- !app_assoc. reflexivity. }
  replace (lit "rodb_" ++ b ++ lit "_index") with ((lit "rodb_" ++ b ++ lit "_i") ++ lit "ndex").
  2:{ rewrite <- !app_assoc. reflexivity. }
  apply suffix_neq; [reflexivity|discriminate].
Qed.
Lemma rows_meta a b : name_eqb (rows_name a) (meta_name b) = false.
Proof. rewrite name_eqb_false. intros E. symmetry in E. revert E. apply name_eqb_false, meta_rows. Qed.

Lemma shadow_meta a b x : In x shadow_suffixes -> name_eqb (rows_name a ++ x) (meta_name b) = false.
Proof.
  intros H. unfold meta_name.
  replace (lit "rodb_" ++ b ++ lit "_metadata") with ((lit "rodb_" ++ b ++ lit "_me") ++ lit "tadata")
    by (rewrite <- !app_assoc; reflexivity).
  replace (rows_name a) with ((lit "rodb_" ++ a ++ lit "_") ++ lit "index")
    by (unfold rows_name; rewrite <- !app_assoc; reflexivity).
  unfold shadow_suffixes in H. cbn [In] in H. destruct H as [<-|[<-|[<-|[<-|[<-|[]]]]]].
  - rewrite <- app_assoc. 
    replace (lit "index" ++ lit "_data") with (lit "inde" ++ lit "x_data") by reflexivity.
    rewrite app_assoc. apply suffix_neq; [reflexivity|discriminate].
  - rewrite <- app_assoc. replace (lit "index" ++ lit "_idx") with (lit "ind" ++ lit "ex_idx") by reflexivity.
    rewrite app_assoc. apply suffix_neq; [reflexivity|discriminate].
  - replace (lit "_content") with (lit "_c" ++ lit "ontent") by reflexivity.
    rewrite app_assoc. apply suffix_neq; [reflexivity|discriminate].
  - replace (lit "_docsize") with (lit "_d" ++ lit "ocsize") by reflexivity.
    rewrite app_assoc. apply suffix_neq; [reflexivity|discriminate].
  - replace (lit "_config") with (lit "_" ++ lit "config") by reflexivity.
    rewrite app_assoc. apply suffix_neq; [reflexivity|discriminate].
Qed.

Lemma shadow_rows a b x : In x shadow_suffixes -> name_eqb (rows_name a ++ x) (rows_name b) = false.
Proof.
  intros H. unfold rows_name at 2.
  replace (lit "rodb_" ++ b ++ lit "_index") with ((lit "rodb_" ++ b ++ lit "_in") ++ lit "dex")
    by (rewrite <- !app_assoc; reflexivity).
  unfold shadow_suffixes in H. cbn [In] in H. destruct H as [<-|[<-|[<-|[<-|[<-|[]]]]]].
  - replace (lit "_data") with (lit "_d" ++ lit "ata") by reflexivity.
    rewrite app_assoc. apply suffix_neq; [reflexivity|discriminate].
  - replace (lit "_idx") with (lit "_" ++ lit "idx") by reflexivity.
    rewrite app_assoc. apply suffix_neq; [reflexivity|discriminate].
  - replace (lit "_content") with (lit "_cont" ++ lit "ent") by reflexivity.
    rewrite app_assoc. apply suffix_neq; [reflexivity|discriminate].
  - replace (lit "_docsize") with (lit "_docs" ++ lit "ize") by reflexivity.
    rewrite app_assoc. apply suffix_neq; [reflexivity|discriminate].
  - replace (lit "_config") with (lit "_con" ++ lit "fig") by reflexivity.
    rewrite app_assoc. apply suffix_neq; [reflexivity|discriminate].
Qed.

(** The tables of another index are none of [x]'s. *)
Lemma other_tables a b x y : fold_name a <> fold_name b -> In x (own_tables a) -> In y [meta_name b; rows_name b] ->
  name_eqb x y = false.
Proof.
  intros N Hx Hy. unfold own_tables in Hx.
  destruct Hx as [<-|[<-|Hx]], Hy as [<-|[<-|[]]].
  - destruct (name_eqb _ _) eqn:E; [|reflexivity]. apply meta_inj in E. contradiction.
  - apply meta_rows.
  - apply rows_meta.
  - destruct (name_eqb _ _) eqn:E; [|reflexivity]. apply rows_inj in E. contradiction.
  - apply in_map_iff in Hx as [s [<- Hs]]. now apply shadow_meta.
  - apply in_map_iff in Hx as [s [<- Hs]]. now apply shadow_rows.
Qed.

(** *** Tables by name *)

Lemma tables_of_name d x : tables_of d x = filter (fun mt => name_eqb (fst mt) x) (d_tables d).
Proof. reflexivity. Qed.

Lemma find_tables d x :
  find_table (d_tables d) x = match tables_of d x with (_, t) :: _ => Some t | [] => None end.
Proof.
  rewrite tables_of_name. induction (d_tables d) as [|[m t] ts IH]; cbn [find_table filter fst]; [reflexivity|].
  destruct (name_eqb m x); [reflexivity|exact IH].
Qed.

Lemma name_eqb_trans_false a b x : name_eqb a b = true -> name_eqb a x = false -> name_eqb b x = false.
Proof. rewrite name_eqb_iff, !name_eqb_false. intros ->. auto. Qed.

Lemma set_table_other ts n t x : name_eqb n x = false ->
  filter (fun mt => name_eqb (fst mt) x) (set_table ts n t) = filter (fun mt => name_eqb (fst mt) x) ts.
Proof.
  intros N. induction ts as [|[m u] ts IH]; cbn [set_table filter fst]; [reflexivity|].
  destruct (name_eqb m n) eqn:E; cbn [filter fst].
  - assert (F : name_eqb m x = false) by (rewrite name_eqb_iff in E; rewrite name_eqb_false in *; congruence).
    now rewrite F.
  - destruct (name_eqb m x); [now rewrite IH|exact IH].
Qed.

Lemma set_table_same ts n t : 
  filter (fun mt => name_eqb (fst mt) n) (set_table ts n t)
  = match filter (fun mt => name_eqb (fst mt) n) ts with [] => [] | (m, _) :: r => (m, t) :: r end.
Proof.
  induction ts as [|[m u] ts IH]; cbn [set_table filter fst]; [reflexivity|].
  destruct (name_eqb m n) eqn:E; cbn [filter fst]; rewrite E; [reflexivity|exact IH].
Qed.

Lemma with_rows_other d n t rows x : name_eqb n x = false -> tables_of (with_rows d n t rows) x = tables_of d x.
Proof. intros N. apply (set_table_other _ _ _ _ N). Qed.

Lemma with_rows_same d n m t0 t rows : tables_of d n = [(m, t0)] ->
  tables_of (with_rows d n t rows) n = [(m, mkTable (t_cols t) rows)].
Proof.
  intros E. rewrite tables_of_name. unfold with_rows. cbn [d_tables]. rewrite set_table_same.
  rewrite tables_of_name in E. now rewrite E.
Qed.

(** What a statement changes. *)
Definition touches (s : stmt) : list bytes :=
  match s with
  | CreateTable _ n _ | DeleteFrom n | InsertInto n _ _ => [n]
  | CreateFts n _ _ _ => n :: map (fun x => n ++ x) shadow_suffixes
  | _ => []
  end.

Section Life.
Variable visit : list (list sqlv) -> list (res (list sqlv)).
Variable fts_ok : list bytes -> bytes -> bytes -> bool.
Variable fts_match : table -> sqlv -> res (list (list sqlv)).

Notation exec := (exec_stmt visit fts_ok fts_match).
Notation run := (srun visit fts_ok fts_match).
Notation states := (sstates visit fts_ok fts_match).
Notation holds := (holds visit fts_ok fts_match).

Lemma filter_none {A} (f : A -> bool) l : (forall x, In x l -> f x = false) -> filter f l = [].
Proof.
  induction l as [|x l IH]; intros H; cbn [filter]; [reflexivity|].
  rewrite (H x) by (now left). apply IH. intros y Hy. apply H. now right.
Qed.

Lemma exec_frame s args d d' a x : exec s args d = Ok (d', a) ->
  (forall y, In y (touches s) -> name_eqb y x = false) -> tables_of d' x = tables_of d x.
Proof.
  intros E N. destruct s; cbn [exec_stmt touches] in *.
  - destruct (find_table _ _).
    + destruct if_not_exists; [|discriminate]. now injection E as <- _.
    + destruct (has_index _ _); [discriminate|]. destruct (negb _); [discriminate|]. destruct (negb _); [discriminate|].
      injection E as <- _. rewrite !tables_of_name. cbn [d_tables]. rewrite filter_app. cbn [filter fst].
      rewrite (N t) by (now left). apply app_nil_r.
  - destruct (find_table _ _); [|discriminate]. destruct (taken _ _); [discriminate|].
    destruct (find_col _ _); [|discriminate]. now injection E as <- _.
  - destruct (taken _ _); [discriminate|]. destruct (existsb _ _); [discriminate|].
    destruct (existsb _ _ || _ || _); [discriminate|]. injection E as <- _.
    rewrite !tables_of_name. cbn [d_tables]. rewrite filter_app. 
    rewrite (filter_none _ (_ :: _)); [apply app_nil_r|].
    intros y Hy. cbn in Hy. destruct Hy as [<-|Hy]; cbn [fst].
    + apply N. now left.
    + apply N. right. cbn. destruct Hy as [<-|[<-|[<-|[<-|[<-|[]]]]]]; cbn [fst]; tauto.
  - destruct (find_table _ _); [|discriminate]. injection E as <- _. apply with_rows_other, N. now left.
  - destruct (find_table _ _); [|discriminate]. destruct (negb _); [discriminate|]. destruct (negb _); [discriminate|].
    destruct (existsb _ _); [discriminate|]. injection E as <- _. apply with_rows_other, N. now left.
  - destruct args as [|[| | |] [|]]; try discriminate. now injection E as <- _.
  - now injection E as <- _.
  - destruct (find_table _ _); [|discriminate]. now injection E as <- _.
  - destruct (find_table _ _); [|discriminate]. destruct (negb _); [discriminate|]. now injection E as <- _.
  - destruct (find_table _ _) as [tb|]; [|discriminate]. destruct args as [|v [|]]; try discriminate.
    destruct (negb _); [discriminate|]. destruct (fts_match tb v); cbn [rbind] in E; try discriminate.
    now injection E as <- _.
Qed.

Lemma exec_create ine n cols args d d' a : exec (CreateTable ine n cols) args d = Ok (d', a) -> tables_of d n = [] ->
  tables_of d' n = [(n, fresh_table cols)] /\ distinct_names (map c_name cols) = true.
Proof.
  intros E N. cbn [exec_stmt] in E. rewrite find_tables, N in E.
  destruct (has_index _ _); [discriminate|]. destruct (distinct_names _); [|discriminate]. cbn [negb] in E.
  destruct (negb _); [discriminate|]. injection E as <- _. split; [|reflexivity].
  rewrite tables_of_name. cbn [d_tables]. rewrite filter_app. cbn [filter fst]. rewrite name_eqb_refl.
  rewrite tables_of_name in N. now rewrite N.
Qed.

Lemma exec_create_again n cols args d d' a e l : exec (CreateTable true n cols) args d = Ok (d', a) -> tables_of d n = e :: l -> d' = d.
Proof.
  intros E N. cbn [exec_stmt] in E. rewrite find_tables, N in E. destruct e. now injection E as <- _.
Qed.

Lemma exec_create_fts n cols p k args d d' a : exec (CreateFts n cols p k) args d = Ok (d', a) ->
  (forall x, In x shadow_suffixes -> name_eqb (n ++ x) n = false) ->
  tables_of d n = [] /\ tables_of d' n = [(n, fresh_table (fts_columns cols p k))] /\ distinct_names cols = true.
Proof.
  intros E Hs. cbn [exec_stmt] in E. unfold taken at 1 in E. rewrite find_tables in E.
  destruct (tables_of d n) as [|[m t] r] eqn:N; [|discriminate].
  destruct (has_index _ _); [discriminate|]. destruct (existsb _ _); [discriminate|].
  destruct (existsb _ _); [discriminate|]. destruct (distinct_names cols); [|discriminate].
  cbn [negb orb] in E. destruct (negb _); [discriminate|]. injection E as <- _. repeat split.
  rewrite tables_of_name. cbn [d_tables]. rewrite filter_app. rewrite tables_of_name in N. rewrite N.
  cbn [app]. match goal with |- filter ?f (?x :: ?l) = _ => change (filter f (x :: l)) with (if f x then x :: filter f l else filter f l) end.
  cbn [fst]. rewrite name_eqb_refl. f_equal.
  apply filter_none. intros y Hy.
  change (In y (map (fun x => (n ++ x, fresh_table [])) shadow_suffixes)) in Hy.
  apply in_map_iff in Hy as [x [<- Hx]]. cbn [fst]. now apply Hs.
Qed.

Lemma exec_delete n args d d' a m t : exec (DeleteFrom n) args d = Ok (d', a) -> tables_of d n = [(m, t)] ->
  tables_of d' n = [(m, mkTable (t_cols t) [])].
Proof.
  intros E N. cbn [exec_stmt] in E. rewrite find_tables, N in E. injection E as <- _.
  eapply with_rows_same. eassumption.
Qed.

(** All columns in order: the row is the list of the arguments. *)
Lemma insert_values cols : forall args, distinct_names (map c_name cols) = true -> List.length args = List.length cols ->
  map (fun c => insert_value c (map c_name cols) args) cols = args.
Proof.
  induction cols as [|c cols IH]; intros args D L.
  - destruct args; [reflexivity|discriminate].
  - destruct args as [|a args]; [discriminate|]. cbn [map distinct_names] in *. apply andb_true_iff in D as [D1 D2].
    cbn [insert_value]. rewrite name_eqb_refl. f_equal.
    transitivity (map (fun c' => insert_value c' (map c_name cols) args) cols); [|apply IH; [assumption|cbn in L; lia]].
    apply map_ext_in. intros c' Hc'.
    destruct (name_eqb (c_name c') (c_name c)) eqn:E; [|reflexivity].
    exfalso. rewrite negb_true_iff in D1. apply not_true_iff_false in D1. apply D1, existsb_exists.
    exists (c_name c'). split; [now apply in_map|]. rewrite name_eqb_iff in *. congruence.
Qed.

Lemma exec_insert n k args d d' a m t : exec (InsertInto n (map c_name (t_cols t)) k) args d = Ok (d', a) ->
  tables_of d n = [(m, t)] -> distinct_names (map c_name (t_cols t)) = true ->
  tables_of d' n = [(m, mkTable (t_cols t) (t_rows t ++ [args]))] /\ List.length args = List.length (t_cols t).
Proof.
  intros E N D. cbn [exec_stmt] in E. rewrite find_tables, N in E.
  destruct (negb _); [discriminate|].
  destruct (negb (Nat.eqb k (List.length (map c_name (t_cols t))) && Nat.eqb k (List.length args))) eqn:L; [discriminate|].
  rewrite negb_false_iff, andb_true_iff, !Nat.eqb_eq, map_length in L. destruct L as [L1 L2].
  destruct (existsb _ _); [discriminate|]. injection E as <- _.
  rewrite insert_values by (assumption || lia). split; [eapply with_rows_same; eassumption|lia].
Qed.

End Life.
