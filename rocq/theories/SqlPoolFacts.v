(** Facts about the pool of connections. *)
From Coq Require Import List ZArith Lia Bool String.
From Coq Require Import Strings.Byte.
From Verif Require Import Base BaseFacts Value Json Index Sql SqlIndex SqlFacts SqlRunFacts SpecSql SqlInvFacts SqlLifeFacts.
From Verif Require Import SqlHistoryFacts SqlQueryFacts SqlCreateFacts SqlNameFacts SqlPool SpecPool.
Import ListNotations.
Open Scope Z_scope.

Lemma update_split {A} (l : list A) : forall j x, (j < List.length l)%nat -> update l j x = firstn j l ++ x :: skipn (S j) l.
Proof.
  induction l as [|y l IH]; intros [|j] x H; cbn [List.length] in H; try lia; [reflexivity|].
  cbn [update firstn skipn app]. f_equal. rewrite IH by lia. reflexivity.
Qed.

Lemma update_map {A B} (f : A -> B) (l : list A) : forall j x, map f (update l j x) = update (map f l) j (f x).
Proof. induction l as [|y l IH]; intros [|j] x; cbn [update map]; [reflexivity..|]. now rewrite IH. Qed.

Section PoolFacts.
Variable pick : list nat -> nat.
Variable visit : list (list sqlv) -> list (res (list sqlv)).
Variable fts_ok : list bytes -> bytes -> bytes -> bool.
Variable fts_match : table -> sqlv -> res (list (list sqlv)).
Notation run := (srun visit fts_ok fts_match).
Notation pool_run m := (pool_run m pick visit fts_ok fts_match).
Notation pool_events m := (pool_events m pick visit fts_ok fts_match).

(** *** Queries change nothing *)

Lemma positions_read k n fs d : fst (run (positions_of k n fs) d) = d.
Proof.
  destruct k as [c|c]; cbn [positions_of].
  - unfold sqlite_positions. destruct (negb _); [reflexivity|].
    destruct fs as [|pf0 fs0] eqn:Ef; [reflexivity|]. rewrite <- Ef in *.
    unfold rows_identifier. rewrite !run_bind, !run_sanitize. cbv beta iota. rewrite !run_bind.
    destruct (clauses_any visit fts_ok fts_match c fs) as [r [H1 H2]]. rewrite !H1. destruct r as [cs| | |]; try reflexivity.
    rewrite !run_bind. cbn [srun]. destruct (rmapM bind_value (map snd cs)) as [args| | |]; try reflexivity.
    rewrite !run_bind. unfold sql_rows. cbn [srun]. rewrite (H2 cs eq_refl).
    pose proof (parse_positions (rows_name (sq_name c)) (map (fun x => property_name (fst x)) fs)) as P.
    rewrite !map_map in P.
    assert (N : map (fun x => property_name (fst x)) fs <> []) by (rewrite Ef; discriminate).
    rewrite !(execq_parse _ _ _ _ _ _ _ (P N)). cbn [exec_stmt]. destruct (find_table _ _); [|reflexivity].
    destruct (negb _); reflexivity.
  - unfold fts_positions. destruct (negb _); [reflexivity|].
    destruct fs as [|[p f] [|]]; try reflexivity. destruct (negb _); [reflexivity|].
    unfold rows_identifier. rewrite !run_bind, !run_sanitize. cbv beta iota. rewrite !run_bind. cbn [srun].
    destruct (bind_value f) as [a| | |]; try reflexivity. rewrite !run_bind. unfold sql_rows. cbn [srun].
    rewrite !(execq_parse _ _ _ _ _ _ _ (parse_match _)). cbn [exec_stmt]. destruct (find_table _ _) as [t|]; [|reflexivity].
    destruct (negb _); [reflexivity|]. destruct (fts_match t a); reflexivity.
Qed.

Lemma positions_answer k n fs d : snd (run (positions_of k n fs) d) = answers visit fts_ok fts_match k n fs d.
Proof. now destruct k. Qed.

(** *** A file *)

Lemma file_run {A} (prog : sprog A) : forall last p,
  let '(p', r, _) := pool_run false prog last p in
  p_file p' = fst (run prog (p_file p)) /\ r = snd (run prog (p_file p)) /\ p_cursors p' = p_cursors p.
Proof.
  induction prog as [r|q args k IH]; intros last p; cbn [SqlPool.pool_run srun]; [auto|].
  destruct (acquire pick p) as [p1 i] eqn:E.
  assert (F : p_file p1 = p_file p /\ p_cursors p1 = p_cursors p).
  { unfold acquire in E. destruct (free_conns p); injection E as <- <-; auto. }
  destruct F as [F1 F2]. unfold exec_on. cbv zeta. rewrite F1.
  match goal with |- context [pool_run false (k ?r) i ?q] => specialize (IH r i q); destruct (pool_run false (k r) i q) as [[p2 r2] i2] end.
  cbn [p_file p_cursors] in IH. rewrite F2 in IH. exact IH.
Qed.

Definition seen (c : cursor) : free_iter := if cu_open c then Some (cu_rest c) else None.

Lemma nth_error_short {A} (l : list A) j x : nth_error l j = Some x -> (j < List.length l)%nat.
Proof. intros H. apply nth_error_Some. congruence. Qed.

Lemma seen_update cs j i it o : (j < List.length cs)%nat ->
  map seen (update cs j (mkCursor i it o)) = firstn j (map seen cs) ++ (if o then Some it else None) :: skipn (S j) (map seen cs).
Proof. intros H. rewrite update_map, update_split by (now rewrite map_length). reflexivity. Qed.

(** What a call of an iterator returns does not depend on the connections. *)
Lemma next_seen answer j p :
  map seen (p_cursors (fst (next_row j p))) = fst (spec_step answer (ENext j) (map seen (p_cursors p))) /\
  snd (next_row j p) = snd (spec_step answer (ENext j) (map seen (p_cursors p))) /\
  p_file (fst (next_row j p)) = p_file p.
Proof.
  unfold next_row, spec_step. rewrite nth_error_map.
  destruct (nth_error (p_cursors p) j) as [[i it o]|] eqn:E; cbn [option_map]; [|auto].
  pose proof (nth_error_short _ _ _ E) as L. unfold seen at 2 4. cbn [cu_open cu_rest].
  destruct o; [|auto]. destruct it as [|[z|e| |] it]; cbn [fst snd p_cursors p_file release set_conn rbind]; rewrite seen_update by exact L; auto.
Qed.

Lemma file_events k n d : forall es p, p_file p = d ->
  pool_events false (positions_of k n) es p =
  spec_events (fun fs => answers visit fts_ok fts_match k n fs d) es (map seen (p_cursors p)).
Proof.
  induction es as [|e es IH]; intros p Hd; [reflexivity|].
  cbn [SqlPool.pool_events spec_events]. destruct e as [fs|j]; cbn [pool_step].
  - unfold open_rows. pose proof (file_run (positions_of k n fs) O p) as F.
    destruct (pool_run false (positions_of k n fs) 0 p) as [[p1 r] i]. destruct F as [F1 [F2 F3]].
    rewrite positions_read in F1. rewrite positions_answer, Hd in F2. cbn [spec_step]. rewrite <- F2.
    destruct r; cbn [fst snd]; f_equal; rewrite IH by (cbn [p_file set_conn]; congruence); cbn [p_cursors set_conn]; rewrite F3; [|reflexivity..].
    rewrite map_app. reflexivity.
  - pose proof (next_seen (fun fs => answers visit fts_ok fts_match k n fs d) j p) as [N1 [N2 N3]].
    destruct (next_row j p) as [p1 o]. cbn [fst snd] in N1, N2, N3. rewrite <- N1, <- N2. f_equal. apply IH. congruence.
Qed.

Theorem file_pool k n inp f d' evs : run (start k inp) f = (d', Ok tt) ->
  pool_events false (positions_of k n) evs (fst (fst (pool_run false (start k inp) O (new_pool f)))) =
  spec_events (fun fs => answers visit fts_ok fts_match k n fs d') evs [].
Proof.
  intros E. pose proof (file_run (start k inp) O (new_pool f)) as F.
  destruct (pool_run false (start k inp) 0 (new_pool f)) as [[p r] i]. cbn [fst]. destruct F as [F1 [_ F3]].
  cbn [new_pool p_file p_cursors] in F1, F3. rewrite E in F1. rewrite (file_events k n d' evs p F1), F3. reflexivity.
Qed.

(** *** ":memory:" *)

Hypothesis Hpick : takes_free pick.

Lemma pick_only i : pick [i] = i.
Proof. destruct (Hpick [i]) as [H|[]]; [discriminate|auto]. Qed.

Lemma memory_run {A} (prog : sprog A) : forall f d cs,
  pool_run true prog O (mkPool f [mkConn d CFree] cs) =
  (mkPool f [mkConn (fst (run prog d)) CFree] cs, snd (run prog d), O).
Proof.
  induction prog as [r|q args k IH]; intros f d cs; cbn [SqlPool.pool_run srun]; [reflexivity|].
  unfold acquire, free_conns. cbn [p_conns positions_where is_free cn_state]. rewrite pick_only.
  unfold exec_on. cbv zeta. unfold conn_at, set_conn. cbn [p_conns p_file p_cursors nth cn_db cn_state update]. apply IH.
Qed.

Lemma memory_first {A} (prog : sprog A) f : (forall r, prog <> SRet r) ->
  pool_run true prog O (new_pool f) =
  (mkPool f [mkConn (fst (run prog empty_db)) CFree] [], snd (run prog empty_db), O).
Proof.
  destruct prog as [r|q args k]; intros N; [now destruct (N r)|]. cbn [SqlPool.pool_run srun].
  unfold acquire, free_conns, new_pool. cbn [p_conns positions_where p_file app List.length p_cursors].
  unfold exec_on. cbv zeta. unfold conn_at, set_conn. cbn [p_conns p_file p_cursors nth cn_db cn_state update]. apply memory_run.
Qed.

(** Between two events: one connection, busy when the last iterator is open. *)
Inductive idle_or_last (f d : db) : pool -> Prop :=
| at_idle cs : Forall (fun c => seen c = None) cs -> idle_or_last f d (mkPool f [mkConn d CFree] cs)
| at_last cs it : Forall (fun c => seen c = None) cs -> idle_or_last f d (mkPool f [mkConn d CBusy] (cs ++ [mkCursor O it true])).

Lemma all_closed cs : Forall (fun it => it = None) (map seen cs) <-> Forall (fun c => seen c = None) cs.
Proof. apply Forall_map. Qed.

Lemma closed_cursor c : seen c = None -> cu_open c = false.
Proof. unfold seen. destruct (cu_open c); [discriminate|reflexivity]. Qed.

Lemma next_closed cs j p : p_cursors p = cs -> Forall (fun c => seen c = None) cs -> fst (next_row j p) = p.
Proof.
  intros <- H. unfold next_row. destruct (nth_error (p_cursors p) j) as [[i it o]|] eqn:E; [|reflexivity].
  apply nth_error_In in E. rewrite Forall_forall in H. apply H, closed_cursor in E. cbn in E. now rewrite E.
Qed.

Lemma update_last {A} (l : list A) x y : update (l ++ [x]) (List.length l) y = l ++ [y].
Proof. induction l as [|z l IH]; [reflexivity|]. cbn [app List.length update]. now rewrite IH. Qed.

Lemma next_idle f d j p : idle_or_last f d p -> idle_or_last f d (fst (next_row j p)).
Proof.
  intros [cs H|cs it H].
  - rewrite (next_closed cs) by auto. now constructor.
  - unfold next_row. cbn [p_cursors].
    destruct (Nat.lt_trichotomy j (List.length cs)) as [L|[->|L]].
    + rewrite nth_error_app1 by exact L. destruct (nth_error cs j) as [[i its o]|] eqn:E; [|now constructor].
      apply nth_error_In in E. pose proof (proj1 (Forall_forall _ _) H _ E) as S. apply closed_cursor in S. cbn in S. subst o. now constructor.
    + rewrite nth_error_app2 by lia. rewrite Nat.sub_diag. cbn [nth_error].
      assert (C : forall c, seen c = None -> idle_or_last f d (mkPool f [mkConn d CFree] (cs ++ [c]))).
      { intros c Hc. constructor. apply Forall_app. auto. }
      destruct it as [|[z|e| |] it];
        cbn [fst release set_conn p_file p_conns p_cursors conn_at nth cn_db free_conns positions_where is_free cn_state update List.length Nat.leb];
        rewrite update_last; [now apply C| |now apply C..]. now constructor.
    + rewrite (proj2 (nth_error_None _ j)) by (rewrite app_length; cbn; lia). now constructor.
Qed.

Lemma memory_events k n f d : forall es p, idle_or_last f d p ->
  one_at_a_time (fun fs => answers visit fts_ok fts_match k n fs d) es (map seen (p_cursors p)) ->
  pool_events true (positions_of k n) es p =
  spec_events (fun fs => answers visit fts_ok fts_match k n fs d) es (map seen (p_cursors p)).
Proof.
  induction es as [|e es IH]; intros p Hp Ho; [reflexivity|].
  cbn [one_at_a_time] in Ho. destruct Ho as [Hq Ho].
  cbn [SqlPool.pool_events spec_events]. destruct e as [fs|j]; cbn [pool_step].
  - rewrite all_closed in Hq. destruct Hp as [cs H|cs it H].
    2:{ cbn [p_cursors] in Hq. apply Forall_app in Hq as [_ Hq]. inversion Hq as [|? ? F]. discriminate F. }
    unfold open_rows. rewrite memory_run. rewrite positions_read, positions_answer.
    cbn [p_cursors] in *. cbn [spec_step] in *.
    destruct (answers visit fts_ok fts_match k n fs d) as [it|e| |]; cbn [fst snd] in *; f_equal.
    + cbn [set_conn conn_at p_file p_conns p_cursors nth cn_db update].
      replace (map seen cs ++ [Some it]) with (map seen (cs ++ [mkCursor O it true])) in * by (now rewrite map_app).
      apply (IH (mkPool f [mkConn d CBusy] (cs ++ [mkCursor O it true]))); [now constructor|exact Ho].
    + apply (IH (mkPool f [mkConn d CFree] cs)); [now constructor|exact Ho].
    + apply (IH (mkPool f [mkConn d CFree] cs)); [now constructor|exact Ho].
    + apply (IH (mkPool f [mkConn d CFree] cs)); [now constructor|exact Ho].
  - pose proof (next_seen (fun fs => answers visit fts_ok fts_match k n fs d) j p) as [N1 [N2 N3]].
    pose proof (next_idle f d j p Hp) as Hn.
    destruct (next_row j p) as [p1 o]. cbn [fst snd] in N1, N2, N3, Hn. rewrite <- N1, <- N2. f_equal.
    apply IH; [exact Hn|]. rewrite N1. exact Ho.
Qed.

Lemma start_does k inp r : start k inp <> SRet r.
Proof. destruct k; discriminate. Qed.

Theorem memory_pool k n inp f d' evs : run (start k inp) empty_db = (d', Ok tt) ->
  one_at_a_time (fun fs => answers visit fts_ok fts_match k n fs d') evs [] ->
  pool_events true (positions_of k n) evs (fst (fst (pool_run true (start k inp) O (new_pool f)))) =
  spec_events (fun fs => answers visit fts_ok fts_match k n fs d') evs [].
Proof.
  intros E H. rewrite memory_first by apply start_does. rewrite E. cbn [fst snd].
  apply (memory_events k n f d' evs (mkPool f [mkConn d' CFree] [])); [now constructor|exact H].
Qed.
End PoolFacts.
