From Coq Require Import List ZArith Lia Bool.
From Coq Require Import ZifyBool.
From Verif Require Import Base Value Join Handles.
Import ListNotations.
Open Scope Z_scope.

(** Forgetting the handles gives Join.v. *)
Lemma pull_erase h : fst (h_pull h) = fst (pull (h_left h)) /\ h_left (snd (h_pull h)) = snd (pull (h_left h)).
Proof. unfold h_pull. destruct (h_left h) as [|[]]; split; reflexivity. Qed.

Lemma first_values_erase : forall its, fst (h_first_values its) = fst (first_values (map h_left its)) /\
  map h_left (snd (h_first_values its)) = snd (first_values (map h_left its)).
Proof.
  induction its as [|it its IH]; [split; reflexivity|]. cbn [h_first_values first_values map].
  destruct (pull_erase it) as [E1 E2]. destruct (h_pull it) as [r it1]. destruct (pull (h_left it)) as [r' it1']. cbn [fst snd] in E1, E2. subst r' it1'.
  destruct r as [[p|]| | |]; try (split; reflexivity).
  destruct IH as [E1 E2]. destruct (h_first_values its) as [r its1]. destruct (first_values (map h_left its)) as [r' its1']. cbn [fst snd] in E1, E2. subst r' its1'.
  destruct r as [[ps|]| | |]; split; reflexivity.
Qed.

Lemma advance_erase o target : forall it cur, fst (h_advance cur it o target) = fst (advance cur it target) /\
  h_left (snd (h_advance cur it o target)) = snd (advance cur it target).
Proof.
  induction it as [|x it IH]; intros cur; cbn [h_advance advance]; destruct (cur <? target); try (split; reflexivity).
  destruct x; try (split; reflexivity). apply IH.
Qed.

Lemma sweep_erase target : forall curs its,
  fst (h_sweep curs its target) = fst (sweep curs (map h_left its) target) /\
  fst (snd (h_sweep curs its target)) = fst (snd (sweep curs (map h_left its) target)) /\
  map h_left (snd (snd (h_sweep curs its target))) = snd (snd (sweep curs (map h_left its) target)).
Proof.
  induction curs as [|c curs IH]; intros its; [destruct its; repeat split|]. destruct its as [|it its]; [repeat split|].
  cbn [h_sweep sweep map]. destruct (advance_erase (h_open it) target (h_left it) c) as [E1 E2].
  destruct (h_advance c (h_left it) (h_open it) target) as [r it1]. destruct (advance c (h_left it) target) as [r' it1']. cbn [fst snd] in E1, E2. subst r' it1'.
  destruct r as [[c1|]| | |]; try (repeat split; reflexivity).
  destruct (c1 =? target); [|repeat split; reflexivity].
  destruct (IH its) as (E1 & E2 & E3). destruct (h_sweep curs its target) as [r [cs is]]. destruct (sweep curs (map h_left its) target) as [r' [cs' is']].
  cbn [fst snd map] in *. subst. repeat split; reflexivity.
Qed.

Lemma join_loop_erase o : forall first curs its,
  fst (h_join_loop first o curs its) = fst (join_loop first curs (map h_left its)) /\
  h_left (fst (snd (h_join_loop first o curs its))) = fst (snd (join_loop first curs (map h_left its))) /\
  map h_left (snd (snd (h_join_loop first o curs its))) = snd (snd (join_loop first curs (map h_left its))).
Proof.
  induction first as [|x first IH]; intros curs its; [repeat split|]. cbn [h_join_loop join_loop].
  destruct x as [p|e| |]; try (repeat split; reflexivity).
  destruct (sweep_erase p curs its) as (E1 & E2 & E3). destruct (h_sweep curs its p) as [r [cs is]]. destruct (sweep curs (map h_left its) p) as [r' [cs' is']].
  cbn [fst snd] in E1, E2, E3. subst. destruct r' as [[[]|]| | |]; try (repeat split; reflexivity). apply IH.
Qed.

Lemma join_next_erase its : fst (h_join_next its) = fst (join_next (map h_left its)) /\ map h_left (snd (h_join_next its)) = snd (join_next (map h_left its)).
Proof.
  destruct its as [|first others]; [split; reflexivity|]. destruct others as [|o2 others].
  - cbn [h_join_next join_next map]. destruct (pull_erase first) as [E1 E2]. destruct (h_pull first), (pull (h_left first)). cbn [fst snd map] in *. subst. split; reflexivity.
  - set (os := o2 :: others). change (map h_left (first :: os)) with (h_left first :: map h_left os).
    assert (E : h_join_next (first :: os) = match h_first_values os with
      | (Ok (Some curs), others1) => let '(r, (first1, others2)) := h_join_loop (h_left first) (h_open first) curs others1 in (r, first1 :: others2)
      | (Ok None, others1) => (Ok None, first :: others1) | (Err e, others1) => (Err e, first :: others1)
      | (Panic, others1) => (Panic, first :: others1) | (NoFuel, others1) => (NoFuel, first :: others1) end) by reflexivity.
    assert (E' : join_next (h_left first :: map h_left os) = match first_values (map h_left os) with
      | (Ok (Some curs), others1) => let '(r, (first1, others2)) := join_loop (h_left first) curs others1 in (r, first1 :: others2)
      | (Ok None, others1) => (Ok None, h_left first :: others1) | (Err e, others1) => (Err e, h_left first :: others1)
      | (Panic, others1) => (Panic, h_left first :: others1) | (NoFuel, others1) => (NoFuel, h_left first :: others1) end) by reflexivity.
    rewrite E, E'. clear E E'. destruct (first_values_erase os) as [E1 E2]. destruct (h_first_values os) as [r its1]. destruct (first_values (map h_left os)) as [r' its1'].
    cbn [fst snd] in E1, E2. subst. destruct r' as [[curs|]| | |]; try (split; reflexivity).
    destruct (join_loop_erase (h_open first) (h_left first) curs its1) as (E1 & E2 & E3).
    destruct (h_join_loop (h_left first) (h_open first) curs its1) as [r [f1 o1]]. destruct (join_loop (h_left first) curs (map h_left its1)) as [r' [f1' o1']].
    cbn [fst snd map] in *. subst. split; reflexivity.
Qed.

(** What is closed stays closed, and nothing is opened. *)
Definition closed (h : hiter) : Prop := h_open h = false.
Lemma pull_closed h : closed h -> closed (snd (h_pull h)).
Proof. unfold h_pull, closed. intros H. destruct (h_left h) as [|[]]; cbn; auto. Qed.
Lemma first_values_closed : forall its, Forall closed its -> Forall closed (snd (h_first_values its)).
Proof.
  induction its as [|it its IH]; intros H; [constructor|]. inversion H; subst. cbn [h_first_values].
  pose proof (pull_closed it H2) as Hp. destruct (h_pull it) as [[[p|]| | |] it1]; cbn [snd] in *; try (constructor; assumption).
  specialize (IH H3). destruct (h_first_values its) as [[[ps|]| | |] its1]; cbn [snd] in *; constructor; assumption.
Qed.
Lemma advance_closed target : forall it cur, closed (snd (h_advance cur it false target)).
Proof. induction it as [|x it IH]; intros cur; cbn [h_advance]; destruct (cur <? target); try reflexivity. destruct x; try reflexivity. apply IH. Qed.
Lemma sweep_closed target : forall curs its, Forall closed its -> Forall closed (snd (snd (h_sweep curs its target))).
Proof.
  induction curs as [|c curs IH]; intros its H; [exact H|]. destruct its as [|it its]; [constructor|]. inversion H; subst. cbn [h_sweep].
  rewrite H2. pose proof (advance_closed target (h_left it) c) as Ha. destruct (h_advance c (h_left it) false target) as [[[c1|]| | |] it1]; cbn [snd] in *; try (constructor; assumption).
  destruct (c1 =? target); [|constructor; assumption]. specialize (IH its H3). destruct (h_sweep curs its target) as [r [cs is]]. cbn [snd] in *. constructor; assumption.
Qed.
Lemma join_loop_closed : forall first curs its, Forall closed its ->
  closed (fst (snd (h_join_loop first false curs its))) /\ Forall closed (snd (snd (h_join_loop first false curs its))).
Proof.
  induction first as [|x first IH]; intros curs its H; [split; [reflexivity|exact H]|]. cbn [h_join_loop].
  destruct x as [p|e| |]; try (split; [reflexivity|exact H]).
  pose proof (sweep_closed p curs its H) as Hs. destruct (h_sweep curs its p) as [[[[]|]| | |] [cs is]]; cbn [snd fst] in *; try (split; [reflexivity|exact Hs]). apply IH. exact Hs.
Qed.
Lemma join_next_closed its : Forall closed its -> Forall closed (snd (h_join_next its)).
Proof.
  intros H. destruct its as [|first others]; [constructor|]. inversion H as [|? ? H1 H2]; subst. destruct others as [|o2 others].
  - cbn [h_join_next]. pose proof (pull_closed first H1). destruct (h_pull first). cbn in *. constructor; [assumption|constructor].
  - pose proof (first_values_closed _ H2) as Hf. unfold h_join_next. destruct (h_first_values (o2 :: others)) as [[[curs|]| | |] its1]; cbn [snd] in *; try (constructor; assumption).
    rewrite H1. destruct (join_loop_closed (h_left first) curs its1 Hf) as [Ha Hb].
    destruct (h_join_loop (h_left first) false curs its1) as [r [f1 o1]]. cbn [fst snd] in *. constructor; assumption.
Qed.

Lemma skip_closed : forall fuel offset its, Forall closed its -> Forall closed (snd (h_skip fuel offset its)).
Proof.
  induction fuel as [|fuel IH]; intros offset its H; cbn [h_skip]; destruct (offset <=? 0); try exact H.
  pose proof (join_next_closed its H) as Hn. destruct (h_join_next its) as [[[p|]| | |] its1]; cbn [snd] in *; try exact Hn. apply IH. exact Hn.
Qed.
Lemma take_closed row limit : forall fuel n its, Forall closed its -> Forall closed (snd (h_take row fuel limit n its)).
Proof.
  induction fuel as [|fuel IH]; intros n its H; cbn [h_take]; destruct (negb (n <? limit)); try exact H.
  pose proof (join_next_closed its H) as Hn. destruct (h_join_next its) as [[[p|]| | |] its1]; cbn [snd] in *; try exact Hn.
  destruct (row p); try exact Hn. apply IH. exact Hn.
Qed.
Lemma all_closed get : forall fuel its, Forall closed its -> Forall closed (snd (h_all get fuel its)).
Proof.
  induction fuel as [|fuel IH]; intros its H; cbn [h_all]; try exact H.
  pose proof (join_next_closed its H) as Hn. destruct (h_join_next its) as [[[p|]| | |] its1]; cbn [snd] in *; try exact Hn.
  destruct (get p); try exact Hn. apply IH. exact Hn.
Qed.

Lemma closed_count its : Forall closed its -> left_open its = O.
Proof. unfold left_open. induction 1 as [|h its Hh _ IH]; [reflexivity|]. cbn. rewrite Hh. exact IH. Qed.
Lemma memory_indexes its row get fuel offset limit : left_open its = O ->
  left_open (snd (h_list row fuel offset limit its)) = O /\ left_open (snd (h_object its)) = O /\ left_open (snd (h_all get fuel its)) = O.
Proof.
  intros H. assert (Hc : Forall closed its).
  { apply Forall_forall. intros h Hi. unfold closed. destruct (h_open h) eqn:E; [|reflexivity]. exfalso.
    assert (Hf : In h (filter h_open its)) by (apply filter_In; auto). unfold left_open in H. destruct (filter h_open its); [destruct Hf|discriminate]. }
  split; [|split].
  - apply closed_count. unfold h_list. pose proof (skip_closed fuel offset its Hc) as Hs. destruct (h_skip fuel offset its) as [[u|e| |] its1]; cbn [snd] in *; try exact Hs.
    apply take_closed. exact Hs.
  - apply closed_count, join_next_closed. exact Hc.
  - apply closed_count, all_closed. exact Hc.
Qed.

(** *** One iterator without errors *)
Definition whole (l : list Z) : hiter := mkH (map Ok l) true.
Definition ended : hiter := mkH [] false.

Lemma zlen_c {A} (a : A) l : zlen (a :: l) = 1 + zlen l.
Proof. unfold zlen. cbn [length]. lia. Qed.

Lemma skip_one : forall l fuel offset, 0 <= offset -> (length l < fuel)%nat ->
  (offset <= zlen l -> exists l', h_skip fuel offset [whole l] = (Ok tt, [whole l']) /\ zlen l' = zlen l - offset) /\
  (zlen l < offset -> h_skip fuel offset [whole l] = (Ok tt, [ended])).
Proof.
  induction l as [|p l IH]; intros fuel offset Ho Hf; (destruct fuel as [|fuel]; [cbn in Hf; lia|]).
  - cbn [h_skip]. destruct (offset <=? 0) eqn:E; split; intros H; change (zlen (@nil Z)) with 0 in *; try lia.
    + exists []. split; [reflexivity|change (zlen (@nil Z)) with 0; lia].
    + reflexivity.
  - rewrite zlen_c. cbn [length] in Hf. cbn [h_skip]. destruct (offset <=? 0) eqn:E.
    + split; intros H; [|pose proof (Nat2Z.is_nonneg (length l)); unfold zlen in *; lia]. exists (p :: l). split; [reflexivity|rewrite zlen_c; lia].
    + cbn [h_join_next h_pull whole map h_left h_open]. change (mkH (map Ok l) true) with (whole l).
      destruct (IH fuel (offset - 1)) as [H1 H2]; [lia|lia|]. split; intros H; [destruct H1 as (l' & E1 & E2); [lia|]; exists l'; split; [exact E1|lia]|apply H2; lia].
Qed.

Lemma take_one row limit : (forall p, row p = Ok tt) -> forall l fuel n, (length l < fuel)%nat -> n <= limit ->
  h_take row fuel limit n [whole l] = (Ok tt, if limit - n <=? zlen l then [whole (skipn (Z.to_nat (limit - n)) l)] else [ended]).
Proof.
  intros Hrow. induction l as [|p l IH]; intros fuel n Hf Hn; (destruct fuel as [|fuel]; [cbn in Hf; lia|]); cbn [h_take].
  - change (zlen (@nil Z)) with 0. destruct (n <? limit) eqn:E; cbn [negb].
    + destruct (limit - n <=? 0) eqn:E2; [lia|]. reflexivity.
    + destruct (limit - n <=? 0) eqn:E2; [|lia]. rewrite skipn_nil. reflexivity.
  - rewrite zlen_c. cbn [length] in Hf. destruct (n <? limit) eqn:E; cbn [negb].
    + cbn [h_join_next h_pull whole map h_left h_open]. rewrite Hrow. change (mkH (map Ok l) true) with (whole l).
      rewrite IH by lia. replace (limit - (n + 1) <=? zlen l) with (limit - n <=? 1 + zlen l) by lia.
      destruct (limit - n <=? 1 + zlen l); [|reflexivity].
      replace (Z.to_nat (limit - n)) with (S (Z.to_nat (limit - (n + 1)))) by lia. reflexivity.
    + assert (limit = n) by lia. subst. replace (n - n) with 0 by lia. pose proof (Nat2Z.is_nonneg (length l)). unfold zlen in *.
      destruct (0 <=? 1 + Z.of_nat (length l)) eqn:E2; [reflexivity|lia].
Qed.

Lemma take_ended row limit fuel n : (0 < fuel)%nat -> h_take row fuel limit n [ended] = (Ok tt, [ended]).
Proof. intros H. destruct fuel; [lia|]. cbn [h_take]. destruct (negb (n <? limit)); reflexivity. Qed.

Lemma list_open_iff row l fuel offset limit : (forall p, row p = Ok tt) -> 0 <= offset -> 0 < limit -> (length l < fuel)%nat ->
  fst (h_list row fuel offset limit [whole l]) = Ok tt /\ left_open (snd (h_list row fuel offset limit [whole l])) = if offset + limit <=? zlen l then 1%nat else O.
Proof.
  intros Hrow Ho Hl Hf. unfold h_list. destruct (skip_one l fuel offset Ho Hf) as [H1 H2].
  destruct (Z.le_gt_cases offset (zlen l)) as [H|H].
  - destruct (H1 H) as (l' & E & Ez). rewrite E. rewrite (take_one row limit Hrow l' fuel 0) by (unfold zlen in *; lia).
    split; [reflexivity|]. cbn [snd]. replace (limit - 0 <=? zlen l') with (offset + limit <=? zlen l) by lia.
    destruct (offset + limit <=? zlen l); reflexivity.
  - rewrite H2 by lia. rewrite take_ended by lia. split; [reflexivity|]. destruct (offset + limit <=? zlen l) eqn:E; [lia|reflexivity].
Qed.

Lemma object_open_iff l : left_open (snd (h_object [whole l])) = match l with [] => O | _ => 1%nat end.
Proof. destruct l; reflexivity. Qed.

Lemma all_closes get : (forall p, get p = Ok tt) -> forall l fuel, (length l < fuel)%nat -> h_all get fuel [whole l] = (Ok tt, [ended]).
Proof.
  intros Hg. induction l as [|p l IH]; intros fuel Hf; (destruct fuel as [|fuel]; [cbn in Hf; lia|]); [reflexivity|].
  cbn [length] in Hf. cbn [h_all h_join_next h_pull whole map h_left h_open]. rewrite Hg. apply IH. lia.
Qed.
Lemma relationship_closes get l fuel : (forall p, get p = Ok tt) -> (length l < fuel)%nat ->
  fst (h_all get fuel [whole l]) = Ok tt /\ left_open (snd (h_all get fuel [whole l])) = O.
Proof. intros Hg Hf. rewrite all_closes by assumption. split; reflexivity. Qed.
