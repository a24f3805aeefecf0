(** How many connections a pool has open. *)
From Coq Require Import List ZArith Lia Bool String.
From Coq Require Import Strings.Byte.
From Verif Require Import Base BaseFacts Value Json Index Sql SqlIndex SpecSql SqlPool SpecPool SqlPoolFacts.
Import ListNotations.
Open Scope nat_scope.

Lemma positions_length {A} (f : A -> bool) (l : list A) : forall i, List.length (positions_where f i l) = List.length (filter f l).
Proof. induction l as [|x l IH]; intros i; cbn [positions_where filter]; [reflexivity|]. destruct (f x); cbn [List.length]; now rewrite IH. Qed.

Lemma positions_in {A} (f : A -> bool) (l : list A) : forall i n, In n (positions_where f i l) <-> exists j x, n = i + j /\ nth_error l j = Some x /\ f x = true.
Proof.
  induction l as [|x l IH]; intros i n; cbn [positions_where].
  - split; [intros []|]. intros (j & y & _ & E & _). now destruct j.
  - assert (K : In n (positions_where f (S i) l) <-> exists j y, n = i + S j /\ nth_error (x :: l) (S j) = Some y /\ f y = true).
    { rewrite IH. cbn [nth_error]. split; intros (j & y & E & H); exists j, y; (split; [lia|exact H]). }
    destruct (f x) eqn:Ex; cbn [In]; rewrite K; split.
    + intros [<-|(j & y & H)]; [exists 0, x; split; [lia|auto]|exists (S j), y; exact H].
    + intros ([|j] & y & E & H1 & H2); [left; lia|right; exists j, y; auto].
    + intros (j & y & H). exists (S j), y. exact H.
    + intros ([|j] & y & E & H1 & H2); [injection H1 as <-; congruence|exists j, y; auto].
Qed.

Lemma positions_nodup {A} (f : A -> bool) (l : list A) : forall i, NoDup (positions_where f i l).
Proof.
  induction l as [|x l IH]; intros i; cbn [positions_where]; [constructor|]. destruct (f x); [|apply IH]. constructor; [|apply IH].
  intros H. apply positions_in in H as (j & y & E & _). lia.
Qed.

Lemma update_filter {A} (f : A -> bool) (l : list A) : forall i x, List.length (filter f (update l i x)) <= List.length (filter f l) + (if f x then 1 else 0).
Proof.
  induction l as [|y l IH]; intros [|i] x; cbn [update filter]; try (cbn [List.length]; lia).
  - destruct (f x), (f y); cbn [List.length]; lia.
  - specialize (IH i x). destruct (f y); cbn [List.length]; lia.
Qed.

Lemma update_keeps {A} (f : A -> bool) (l : list A) : forall i x y, nth_error l i = Some y -> f x = f y -> List.length (filter f (update l i x)) = List.length (filter f l).
Proof.
  induction l as [|z l IH]; intros [|i] x y E Ef; cbn [update filter nth_error] in *; try discriminate.
  - injection E as ->. now rewrite Ef; destruct (f y).
  - specialize (IH i x y E Ef). destruct (f z); cbn [List.length]; congruence.
Qed.

Lemma update_out {A} (l : list A) : forall i x, nth_error l i = None -> update l i x = l.
Proof. induction l as [|z l IH]; intros [|i] x E; cbn [update nth_error] in *; try reflexivity; try discriminate. now rewrite IH. Qed.

Lemma update_at {A} (l : list A) : forall i j x, nth_error (update l i x) j = if Nat.eqb j i then match nth_error l i with Some _ => Some x | None => None end else nth_error l j.
Proof.
  induction l as [|z l IH]; intros [|i] [|j] x; cbn [update nth_error Nat.eqb]; try reflexivity; [|apply IH]. now destruct (Nat.eqb j i).
Qed.

Section Connections.
Variable memory : bool.
Variable pick : list nat -> nat.
Variable visit : list (list sqlv) -> list (res (list sqlv)).
Variable fts_ok : list bytes -> bytes -> bytes -> bool.
Variable fts_match : table -> sqlv -> res (list (list sqlv)).
Notation acquire := (acquire pick).
Notation exec_on := (exec_on memory visit fts_ok fts_match).
Notation pool_run := (pool_run memory pick visit fts_ok fts_match).

(** Each busy connection is the one of an iterator that was not read to its end. *)
Definition busy_read (p : pool) : Prop :=
  forall i c, nth_error (p_conns p) i = Some c -> cn_state c = CBusy -> exists j cu, nth_error (p_cursors p) j = Some cu /\ cu_conn cu = i /\ cu_open cu = true.
Definition good (p : pool) : Prop := idle p <= 2 /\ busy_read p.

Lemma acquire_good p : good p -> good (fst (acquire p)).
Proof.
  intros [H1 H2]. unfold SqlPool.acquire. destruct (free_conns p) eqn:E; [|now split]. cbn [fst]. split.
  - unfold idle in *. cbn [p_conns]. unfold free_conns in E. apply (f_equal (@List.length _)) in E. rewrite positions_length in E. cbn [List.length] in E.
    rewrite filter_app, app_length, E. cbn. lia.
  - intros i c Hc Hb. cbn [p_conns p_cursors] in *. destruct (Nat.lt_ge_cases i (List.length (p_conns p))) as [Hi|Hi].
    + rewrite nth_error_app1 in Hc by exact Hi. exact (H2 i c Hc Hb).
    + rewrite nth_error_app2 in Hc by exact Hi. destruct (i - List.length (p_conns p)) as [|n]; [injection Hc as <-; discriminate|now destruct n].
Qed.

Lemma set_conn_good p i d : good p -> good (set_conn p i (mkConn d (cn_state (conn_at p i)))).
Proof.
  intros [H1 H2]. unfold set_conn, conn_at. destruct (nth_error (p_conns p) i) as [c|] eqn:E.
  - rewrite (nth_error_nth _ _ _ E). split.
    + unfold idle in *. cbn [p_conns]. rewrite (update_keeps is_free (p_conns p) i _ c E); [exact H1|reflexivity].
    + intros i' c' Hc Hb. cbn [p_conns p_cursors] in *. rewrite update_at in Hc. destruct (Nat.eqb_spec i' i) as [->|N]; [|exact (H2 _ _ Hc Hb)].
      rewrite E in Hc. injection Hc as <-. exact (H2 _ _ E Hb).
  - rewrite (update_out _ _ _ E). now split.
Qed.

Lemma exec_good i q args p : good p -> good (fst (exec_on i q args p)).
Proof. intros H. unfold SqlPool.exec_on. destruct memory; cbn [fst]; [now apply set_conn_good|]. exact H. Qed.

Lemma run_good {A} (prog : sprog A) : forall last p, good p -> good (fst (fst (pool_run prog last p))).
Proof.
  induction prog as [r|q args k IH]; intros last p H; cbn [SqlPool.pool_run]; [exact H|].
  destruct (acquire p) as [p1 i] eqn:E1. destruct (exec_on i q args p1) as [p2 r] eqn:E2. apply IH.
  change p2 with (fst (p2, r)). rewrite <- E2. apply exec_good. change p1 with (fst (p1, i)). rewrite <- E1. now apply acquire_good.
Qed.

Lemma busy_good p i it : good p ->
  good (mkPool (p_file p) (update (p_conns p) i (mkConn (cn_db (conn_at p i)) CBusy)) (p_cursors p ++ [mkCursor i it true])).
Proof.
  intros [H1 H2]. split.
  - unfold idle in *. cbn [p_conns]. pose proof (update_filter is_free (p_conns p) i (mkConn (cn_db (conn_at p i)) CBusy)) as K. cbn in K. lia.
  - intros i' c' Hc Hb. cbn [p_conns p_cursors] in *. rewrite update_at in Hc. destruct (Nat.eqb_spec i' i) as [->|N].
    + exists (List.length (p_cursors p)), (mkCursor i it true). split; [|auto]. rewrite nth_error_app2, Nat.sub_diag by lia. reflexivity.
    + destruct (H2 _ _ Hc Hb) as (j & cu & K1 & K2). exists j, cu. split; [|exact K2]. rewrite nth_error_app1; [exact K1|]. apply nth_error_Some. congruence.
Qed.

Lemma release_good p i j it : good p -> nth_error (p_cursors p) j = Some (mkCursor i it true) ->
  good (mkPool (p_file (release i p)) (p_conns (release i p)) (update (p_cursors (release i p)) j (mkCursor i [] false))).
Proof.
  intros [H1 H2] Hj. unfold release, set_conn. cbn [p_file p_conns p_cursors]. split.
  - unfold idle in *. cbn [p_conns]. unfold free_conns. rewrite positions_length.
    pose proof (update_filter is_free (p_conns p) i (mkConn (cn_db (conn_at p i)) (if 2 <=? List.length (filter is_free (p_conns p)) then CClosed else CFree))) as K.
    destruct (Nat.leb_spec 2 (List.length (filter is_free (p_conns p)))); cbn in K; lia.
  - intros i' c' Hc Hb. cbn [p_conns p_cursors] in *. rewrite update_at in Hc. destruct (Nat.eqb_spec i' i) as [->|N].
    + destruct (nth_error (p_conns p) i); [|discriminate]. injection Hc as <-. cbn in Hb. destruct (List.length (free_conns p)) as [|[|m]]; discriminate Hb.
    + destruct (H2 _ _ Hc Hb) as (j' & cu & K1 & K2 & K3). exists j', cu. split; [|auto]. rewrite update_at. destruct (Nat.eqb_spec j' j) as [->|]; [|exact K1].
      rewrite Hj in K1. injection K1 as <-. cbn [cu_conn] in K2. congruence.
Qed.

Variable positions : list (bytes * value) -> sprog iter.
Notation pool_step := (pool_step memory pick visit fts_ok fts_match positions).

Lemma step_good e p : good p -> good (fst (pool_step e p)).
Proof.
  intros H. destruct e as [fs|j]; cbn [SqlPool.pool_step].
  - unfold open_rows. destruct (pool_run (positions fs) 0 p) as [[p1 r] i] eqn:E.
    assert (H1 : good p1) by (change p1 with (fst (fst (p1, r, i))); rewrite <- E; now apply run_good).
    destruct r as [it|e| |]; cbn [fst]; try exact H1. unfold set_conn. cbn [p_file p_conns p_cursors]. now apply busy_good.
  - unfold next_row. destruct (nth_error (p_cursors p) j) as [[i it [|]]|] eqn:E; cbn [fst]; try exact H.
    assert (R := release_good p i j it H E). destruct it as [|[z|e| |] it]; cbn [fst]; try exact R. clear R.
    destruct H as [H1 H2]. split; [exact H1|]. intros i' c Hc Hb. cbn [p_conns p_cursors] in *. destruct (H2 _ _ Hc Hb) as (j' & cu & K1 & K2 & K3).
    destruct (Nat.eq_dec j' j) as [->|N].
    + exists j, (mkCursor i it true). rewrite update_at, Nat.eqb_refl, E. rewrite E in K1. injection K1 as <-. auto.
    + exists j', cu. rewrite update_at. destruct (Nat.eqb_spec j' j); [contradiction|auto].
Qed.

Lemma after_good es : forall p, good p -> good (pool_after memory pick visit fts_ok fts_match positions es p).
Proof. induction es as [|e es IH]; intros p H; [exact H|]. unfold pool_after. cbn [fold_left]. apply IH. now apply step_good. Qed.

Lemma good_counts p : good p -> idle p <= 2 /\ busy p <= unread p.
Proof.
  intros [H1 H2]. split; [exact H1|]. unfold busy, unread. rewrite <- (positions_length is_busy (p_conns p) 0), <- (map_length cu_conn).
  apply NoDup_incl_length; [apply positions_nodup|]. intros n Hn. apply positions_in in Hn as (i & c & -> & Hc & Hb). cbn [Nat.add].
  destruct (H2 i c Hc) as (j & cu & K1 & K2 & K3); [unfold is_busy in Hb; destruct (cn_state c); congruence|].
  apply in_map_iff. exists cu. split; [exact K2|]. apply filter_In. split; [exact (nth_error_In _ _ K1)|exact K3].
Qed.

Lemma connections {A} (prog : sprog A) f es :
  let p := pool_after memory pick visit fts_ok fts_match positions es (fst (fst (pool_run prog O (new_pool f)))) in
  idle p <= 2 /\ busy p <= unread p.
Proof.
  cbn zeta. apply good_counts, after_good, run_good. split; [cbn; lia|]. intros i c Hc. now destruct i.
Qed.
End Connections.
