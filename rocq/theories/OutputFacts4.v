(** Facts about the endpoints: every request is answered. *)
From Coq Require Import List ZArith Lia Bool String Permutation Sorted.
From Coq Require Import Strings.Byte.
From Verif Require Import Base BaseFacts Value Join JoinFacts SpecIndex IndexFacts.
From Verif Require Import GoStrings SpecText StringsFacts Sort SpecOrder Output SpecOutput OutputFacts OutputFacts2 OutputFacts3.
Import ListNotations.
Open Scope Z_scope.

Lemma returns_Ok {A} (a : A) : returns (Ok a).
Proof. exact I. Qed.
Lemma returns_Err {A} e : returns (@Err A e).
Proof. exact I. Qed.
Lemma returns_bind {A B} (r : res A) (k : A -> res B) : returns r -> (forall a, r = Ok a -> returns (k a)) -> returns (rbind r k).
Proof. destruct r; cbn; auto. Qed.

Lemma returns_pull it : Forall returns it -> returns (fst (pull it)) /\ Forall returns (snd (pull it)).
Proof. intros H. destruct it as [|r it]; [split; constructor|]. inversion H as [|? ? H1 H2]; subst. destruct r; cbn in *; auto. Qed.

Notation good := (Forall (Forall returns)).

Lemma first_values_safe its : good its -> returns (fst (first_values its)) /\ good (snd (first_values its)).
Proof.
  induction its as [|it its IH]; intros H; [split; [exact I|constructor]|]. inversion H as [|? ? H1 H2]; subst. cbn [first_values].
  destruct (returns_pull it H1) as [P1 P2]. destruct (pull it) as [r it1]. cbn [fst snd] in P1, P2.
  destruct r as [[p|]|e| |]; try (split; [exact I|constructor; assumption]); try contradiction.
  destruct (IH H2) as [I1 I2]. destruct (first_values its) as [r its1]. cbn [fst snd] in I1, I2.
  destruct r as [[ps|]|e| |]; try contradiction; (split; [exact I|constructor; assumption]).
Qed.

Lemma advance_safe it : forall c p, Forall returns it -> returns (fst (advance c it p)) /\ Forall returns (snd (advance c it p)).
Proof.
  induction it as [|r it IH]; intros c p H; cbn [advance]; destruct (c <? p); try (split; [exact I|assumption]).
  inversion H as [|? ? H1 H2]; subst. destruct r; cbn in H1; try contradiction; [apply IH; assumption|split; [exact I|assumption]].
Qed.

Lemma sweep_safe cs : forall its p, good its -> returns (fst (sweep cs its p)) /\ good (snd (snd (sweep cs its p))).
Proof.
  induction cs as [|c cs IH]; intros its p H; cbn [sweep]; [split; [exact I|assumption]|].
  destruct its as [|it its]; [split; [exact I|constructor]|]. inversion H as [|? ? H1 H2]; subst.
  destruct (advance_safe it c p H1) as [A1 A2]. destruct (advance c it p) as [r it1]. cbn [fst snd] in A1, A2.
  destruct r as [[c1|]|e| |]; cbn in A1; try contradiction; try (split; [exact I|constructor; assumption]).
  destruct (c1 =? p); [|split; [exact I|constructor; assumption]].
  destruct (IH its p H2) as [I1 I2]. destruct (sweep cs its p) as [r [cs' is']]. cbn [fst snd] in *. split; [assumption|constructor; assumption].
Qed.

Lemma join_loop_safe first : forall cs its, Forall returns first -> good its ->
  returns (fst (join_loop first cs its)) /\ Forall returns (fst (snd (join_loop first cs its))) /\ good (snd (snd (join_loop first cs its))) /\
  forall p, fst (join_loop first cs its) = Ok (Some p) -> (List.length (fst (snd (join_loop first cs its))) < List.length first)%nat.
Proof.
  induction first as [|r first IH]; intros cs its H Hi; cbn [join_loop].
  - cbn [fst snd]. split; [exact I|]. split; [constructor|]. split; [assumption|]. discriminate.
  - inversion H as [|? ? H1 H2]; subst. destruct r as [p|e| |]; cbn in H1; try contradiction.
    + destruct (sweep_safe cs its p Hi) as [S1 S2]. destruct (sweep cs its p) as [r [cs1 its1]]. cbn [fst snd] in S1, S2.
      destruct r as [[[|]|]|e| |]; cbn in S1; try contradiction.
      * cbn [fst snd]. split; [exact I|]. split; [assumption|]. split; [assumption|]. intros. cbn. lia.
      * destruct (IH cs1 its1 H2 S2) as (I1 & I2 & I3 & I4). split; [assumption|]. split; [assumption|]. split; [assumption|].
        intros p' Hp'. apply I4 in Hp'. cbn. lia.
      * cbn [fst snd]. split; [exact I|]. split; [assumption|]. split; [assumption|]. discriminate.
      * cbn [fst snd]. split; [exact I|]. split; [assumption|]. split; [assumption|]. discriminate.
    + cbn [fst snd]. split; [exact I|]. split; [assumption|]. split; [assumption|]. discriminate.
Qed.

Lemma join_next_safe its : good its -> returns (fst (join_next its)) /\ good (snd (join_next its)) /\
  forall p, fst (join_next its) = Ok (Some p) -> (List.length (hd [] (snd (join_next its))) < List.length (hd [] its))%nat.
Proof.
  intros H. destruct its as [|first its]; [split; [exact I|]; split; [constructor|discriminate]|].
  inversion H as [|? ? H1 H2]; subst. destruct its as [|i2 its].
  - cbn [join_next]. destruct (returns_pull first H1) as [P1 P2].
    assert (Hl : forall p, fst (pull first) = Ok (Some p) -> (List.length (snd (pull first)) < List.length first)%nat).
    { intros p. destruct first as [|[q|e| |] first]; cbn; try discriminate. intros. lia. }
    destruct (pull first) as [r it1]. cbn [fst snd hd] in *. split; [assumption|]. split; [constructor; auto|assumption].
  - change (join_next (first :: i2 :: its)) with
      (match first_values (i2 :: its) with
       | (Ok (Some curs), others1) =>
         let '(r, (first1, others2)) := join_loop first curs others1 in (r, first1 :: others2)
       | (Ok None, others1) => (Ok None, first :: others1)
       | (Err e, others1) => (Err e, first :: others1)
       | (Panic, others1) => (Panic, first :: others1)
       | (NoFuel, others1) => (NoFuel, first :: others1)
       end).
    destruct (first_values_safe _ H2) as [F1 F2]. destruct (first_values (i2 :: its)) as [r o1]. cbn [fst snd] in F1, F2.
    destruct r as [[cs|]|e| |]; cbn in F1; try contradiction.
    + destruct (join_loop_safe first cs o1 H1 F2) as (J1 & J2 & J3 & J4). destruct (join_loop first cs o1) as [r [f1 o2]].
      cbn [fst snd hd] in *. split; [assumption|]. split; [constructor; assumption|assumption].
    + cbn [fst snd]. split; [exact I|]. split; [constructor; assumption|discriminate].
    + cbn [fst snd]. split; [exact I|]. split; [constructor; assumption|discriminate].
Qed.

Lemma join_calls_safe fuel : forall its, good its -> (List.length (hd [] its) < fuel)%nat -> Forall returns (join_calls fuel its).
Proof.
  induction fuel as [|fuel IH]; intros its H Hf; [lia|]. cbn [join_calls].
  destruct (join_next_safe its H) as (J1 & J2 & J3). destruct (join_next its) as [r its1]. cbn [fst snd] in *.
  destruct r as [[p|]|e| |]; cbn in J1; try contradiction; repeat constructor.
  apply IH; [assumption|]. specialize (J3 p eq_refl). lia.
Qed.

Lemma join_positions_safe its : good its -> Forall returns (join_positions its).
Proof. intros H. apply join_calls_safe; [assumption|]. lia. Qed.

Lemma rmapM_returns {A B} (f : A -> res B) l (P : B -> Prop) : (forall a, In a l -> returns (f a) /\ forall b, f a = Ok b -> P b) ->
  returns (rmapM f l) /\ forall bs, rmapM f l = Ok bs -> Forall P bs.
Proof.
  induction l as [|a l IH]; intros H; cbn [rmapM]; [split; [exact I|intros bs [= <-]; constructor]|].
  destruct (H a (or_introl eq_refl)) as [H1 H2]. destruct (f a) as [b|e| |]; cbn in *; try contradiction; [|split; [exact I|discriminate]].
  destruct IH as [I1 I2]; [intros; apply H; right; assumption|].
  destruct (rmapM f l) as [bs|e| |]; cbn in *; try contradiction; [|split; [exact I|discriminate]].
  split; [exact I|]. intros ? [= <-]. constructor; auto.
Qed.

Section Serve.
Variable E : env.
Variable ord : order.
Variable asked : bytes -> Prop.
Hypothesis Hsafe : env_safe asked E.

Notation prims := (Forall (fun f : bytes * value => asked (fst f) /\ primitive (snd f))).
Notation prims_all := (Forall (fun nf : bytes * filters => prims (snd nf))).

Lemma Forall_mset {A} (P : A -> Prop) (m : list (bytes * A)) k v : Forall (fun x => P (snd x)) m -> P v -> Forall (fun x => P (snd x)) (mset m k v).
Proof.
  intros H Hv. induction H as [|[k' v'] m H1 H2 IH]; cbn [mset]; [repeat constructor; assumption|].
  destruct (bytes_eqb k' k); constructor; auto.
Qed.

Lemma prims_mset (m : filters) p v : prims m -> asked p -> primitive v -> prims (mset m p v).
Proof.
  intros H Hp Hv. induction H as [|[k' v'] m H1 H2 IH]; cbn [mset]; [repeat constructor; assumption|].
  destruct (bytes_eqb k' p); constructor; auto. split; [apply H1|exact Hv].
Qed.

Lemma add_filter_prims fpi i p v : prims_all fpi -> asked p -> primitive v -> prims_all (add_filter fpi i p v).
Proof.
  intros H Hp Hv. unfold add_filter. apply (Forall_mset (fun fs : filters => prims fs)); [assumption|].
  apply prims_mset; try assumption. destruct (mget fpi i) as [fs|] eqn:Ei; [|constructor].
  apply mget_In in Ei. rewrite Forall_forall in H. apply (H _ Ei).
Qed.

Hypothesis Hord : order_ok ord.
Hypothesis Hperm : forall lt l, Permutation l (e_sort E lt l).

Lemma positions_safe loc n0 inp fpi : mget (e_inputs E) n0 = Some inp -> prims_all fpi ->
  returns (positions_per_index E ord loc inp fpi) /\ forall its, positions_per_index E ord loc inp fpi = Ok its -> good its.
Proof.
  intros Hinp Hf. destruct Hsafe as (Hi & Hd & Hx & Hp). unfold positions_per_index. destruct fpi as [|nf0 fpi0].
  - destruct (Hd n0 inp Hinp) as [D1 D2]. destruct (e_default E inp []) as [it|e| |]; cbn in *; try contradiction.
    + split; [exact I|]. intros its [= <-]. constructor; [|constructor]. apply D2. reflexivity.
    + split; [exact I|discriminate].
  - apply rmapM_returns. intros [i fs] Hin. cbn [fst snd]. destruct (mget (e_indexes E) i) as [ix|] eqn:Ei; [|split; [exact I|discriminate]].
    apply (Hx i ix Ei n0); [assumption|]. eapply Permutation_Forall; [apply Hord|].
    assert (Hin' : In (i, fs) (nf0 :: fpi0)) by (eapply Permutation_in; [symmetry; apply Hord|exact Hin]).
    rewrite Forall_forall in Hf. apply (Hf _ Hin').
Qed.

Lemma fetch_safe n0 inp it : mget (e_inputs E) n0 = Some inp -> Forall returns it ->
  returns (fetch inp it) /\ forall rs, fetch inp it = Ok rs -> Forall (fun r => returns (r_all r) /\ exists p, in_get inp p = Ok r) rs.
Proof.
  intros Hinp H. induction H as [|p it Hp H IH]; cbn [fetch]; [split; [exact I|intros rs [= <-]; constructor]|].
  destruct p as [p|e| |]; cbn in *; try contradiction; [|split; [exact I|discriminate]].
  destruct Hsafe as (Hi & _). destruct (Hi _ inp Hinp p) as [I1 I2].
  destruct (in_get inp p) as [r|e| |] eqn:Er; cbn in *; try contradiction; [|split; [exact I|discriminate]].
  destruct IH as [J1 J2]. destruct (fetch inp it) as [rs|e| |]; cbn in *; try contradiction; [|split; [exact I|discriminate]].
  split; [exact I|]. intros ? [= <-]. constructor; [split; eauto|auto].
Qed.

Lemma rel_filters_safe data ms : (forall m, In m ms -> asked (m_child m) /\ forall v, mget data (m_parent m) = Some v -> primitive v) ->
  forall fpi, prims_all fpi -> returns (relationship_filters data ms fpi) /\
    forall fpi', relationship_filters data ms fpi = Ok fpi' -> prims_all fpi'.
Proof.
  induction ms as [|[[p c] i] ms IH]; intros H fpi Hf; cbn [relationship_filters]; [split; [exact I|intros ? [= <-]; assumption]|].
  destruct (mget data p) as [v|] eqn:Ev; [|split; [exact I|discriminate]]. apply IH; [intros m Hm; apply H; right; assumption|].
  destruct (H (p, c, i) (or_introl eq_refl)) as [Hc Hv]. apply add_filter_prims; [assumption|exact Hc|]. apply Hv. assumption.
Qed.

(** The same value for every key which is not one of the names. *)
Definition keeps (names : list bytes) (a d : object) : Prop := forall k, ~ In k names -> mget d k = mget a k.

Lemma load_loop_safe names a ls loc : (forall name f, In (name, f) ls -> In name names /\ forall loc d, keeps names a d -> returns (f loc d)) ->
  forall data, keeps names a data -> returns (load_loop ls loc data).
Proof.
  induction ls as [|[name f] ls IH]; intros H data Hd; cbn [load_loop]; [exact I|].
  destruct (H name f (or_introl eq_refl)) as [H1 H2]. apply returns_bind; [apply H2; assumption|].
  intros v _. apply IH; [intros n' f' Hin; apply (H n' f'); right; assumption|].
  intros k Hk. rewrite mget_mset_other; [apply Hd; assumption|]. intros ->. contradiction.
Qed.

Definition row_safe (names : list bytes) (ls : list (bytes * loader)) (r : rec) : Prop :=
  returns (r_all r) /\ forall a, r_all r = Ok a ->
    forall name f, In (name, f) ls -> In name names /\ forall loc d, keeps names a d -> returns (f loc d).

Lemma load_items_safe names ls count loc : forall rs n, Forall (row_safe names ls) rs -> returns (load_items ord ls count loc n rs).
Proof.
  induction rs as [|r rs IH]; intros n Hr; cbn [load_items]; [exact I|]. inversion Hr as [|? ? [H1 H3] H2]; subst.
  apply returns_bind; [assumption|]. intros d Hd. apply returns_bind.
  - apply (load_loop_safe names d); [|intros k _; reflexivity]. intros name f Hin. apply (H3 d Hd name f).
    eapply Permutation_in; [symmetry; apply Hord|exact Hin].
  - intros d1 _. destruct (n + 1 >=? count); [exact I|]. apply returns_bind; [apply IH; assumption|]. intros; exact I.
Qed.

Lemma related_safe c : 0 <= rel_limit c < two63 ->
  (forall inp, mget (e_inputs E) (rel_input c) = Some inp ->
    (forall p r s, in_get inp p = Ok r -> In s (rel_sort c) -> returns (r_get r (fst s))) /\ rels_safe asked E inp (rel_children c)) ->
  forall loc data, (forall m, In m (rel_match c) -> asked (m_child m) /\ forall v, mget data (m_parent m) = Some v -> primitive v) ->
  returns (related E ord c loc data).
Proof.
  induction c as [i ia lim so ms ch IH] using relationship_ind'. intros Hlim Hch loc data Hdata.
  set (c := mkRel i ia lim so ms ch) in *.
  rewrite related_unfold. destruct (rel_filters_safe data (rel_match c) Hdata []) as [R1 R2]; [constructor|].
  apply returns_bind; [assumption|]. intros fpi Hfpi.
  destruct (mget (e_inputs E) (rel_input c)) as [inp|] eqn:Ei; [|exact I]. specialize (Hch inp eq_refl). destruct Hch as [_ Hch].
  pose proof Ei as Hinp.
  destruct (positions_safe loc _ inp fpi Hinp (R2 _ Hfpi)) as [P1 P2]. apply returns_bind; [assumption|]. intros its Hits.
  destruct (fetch_safe _ inp (join_positions its) Hinp (join_positions_safe _ (P2 _ Hits))) as [F1 F2].
  apply returns_bind; [assumption|]. intros rs Hrs. cbn zeta.
  set (arr := match rel_sort c with [] => rs | _ :: _ => sort_records (e_sort E) (rel_sort c) rs end).
  assert (Harr : Forall (fun r => returns (r_all r) /\ exists p, in_get inp p = Ok r) arr).
  { subst arr. destruct (rel_sort c); [exact (F2 _ Hrs)|]. eapply Permutation_Forall; [apply Hperm|]. exact (F2 _ Hrs). }
  destruct (item_count_spec c (zlen arr)) as (Hc & _); [apply zlen_nonneg|exact Hlim|].
  replace (item_count c (zlen arr) <? 0) with false by lia. apply returns_bind; [|intros; exact I].
  apply (load_items_safe (map fst (rel_children c))). eapply Forall_impl; [|exact Harr]. intros r [Hr1 (p & Hr2)]. split; [assumption|].
  intros a Ha name f Hin. unfold loaders in Hin. apply in_map_iff in Hin as ([n' c'] & He & Hin').
  cbn [fst snd] in He. injection He as <- <-. split; [apply (in_map fst) in Hin'; exact Hin'|].
  inversion Hch as [? ? Hall]; subst. destruct (Hall _ _ Hin') as (A1 & A2 & A3).
  intros loc' d Hd. rewrite Forall_forall in IH. apply (IH (n', c')); try assumption.
  intros m Hm. destruct (A2 m Hm) as (B1 & B2 & B3). split; [exact B2|]. intros v Hv. rewrite (Hd _ B1) in Hv. eapply B3; eassumption.
Qed.

Lemma data_safe inp p rels name loc : mget (e_inputs E) name = Some inp -> rels_safe asked E inp rels -> returns (data_from_position E ord p rels name loc).
Proof.
  intros Ei Hr. unfold data_from_position. rewrite Ei.
  pose proof Ei as Hinp.
  destruct Hsafe as (Hi & _). destruct (Hi _ inp Hinp p) as [I1 I2]. apply returns_bind; [assumption|]. intros r Er.
  apply returns_bind; [auto|]. intros a Ha. apply (load_loop_safe (map fst rels) a); [|intros k _; reflexivity]. intros n f Hin.
  assert (Hin' : In (n, f) (map (fun nc : bytes * relationship => (fst nc, related E ord (snd nc))) rels)).
  { eapply Permutation_in; [symmetry; apply Hord|exact Hin]. }
  apply in_map_iff in Hin' as ([n' c'] & He & Hin'). cbn [fst snd] in He. injection He as <- <-.
  split; [apply (in_map fst) in Hin'; exact Hin'|]. intros loc' d Hd. inversion Hr as [? ? Hall]; subst.
  destruct (Hall _ _ Hin') as (A1 & A2 & A3). apply related_safe; try assumption.
  intros m Hm. destruct (A2 m Hm) as (B1 & B2 & B3). split; [exact B2|]. intros v Hv. rewrite (Hd _ B1) in Hv. eapply B3; eassumption.
Qed.

Definition params_prim (pcs : list (bytes * param)) : Prop := forall name pc, In (name, pc) pcs -> asked (pm_property pc) /\
  forall parse s v, mget (e_parsers E) (pm_parser pc) = Some parse -> parse s = Ok v -> primitive v.

Lemma params_prim_perm pcs pcs' : Permutation pcs pcs' -> params_prim pcs -> params_prim pcs'.
Proof. intros Hp H name pc Hin. apply (H name pc). eapply Permutation_in; [symmetry; exact Hp|exact Hin]. Qed.

Lemma array_filters_safe params pcs : params_prim pcs -> forall fpi, prims_all fpi -> returns (array_filters E params pcs fpi) /\
  forall fpi', array_filters E params pcs fpi = Ok fpi' -> prims_all fpi'.
Proof.
  destruct Hsafe as (_ & _ & _ & Hp). induction pcs as [|[name pc] pcs IH]; intros Hpc fpi Hf; cbn [array_filters]; [split; [exact I|intros ? [= <-]; assumption]|].
  assert (Hpc' : params_prim pcs) by (intros n' pc' Hin; apply (Hpc n' pc'); right; exact Hin).
  destruct (Hpc name pc (or_introl eq_refl)) as [Q1 Q2].
  destruct (mget params name) as [s|]; [|apply IH; assumption].
  destruct (mget (e_parsers E) (pm_parser pc)) as [parse|] eqn:Ep; [|split; [exact I|discriminate]].
  pose proof (Hp _ _ Ep s) as P1. specialize (Q2 parse s). destruct (parse s) as [v|e| |]; cbn [rbind] in *; try contradiction; [|split; [exact I|discriminate]].
  apply IH; [exact Hpc'|]. apply add_filter_prims; auto.
Qed.

Lemma object_filters_safe params pcs : params_prim pcs -> forall fpi, prims_all fpi -> returns (object_filters E params pcs fpi) /\
  forall fpi', object_filters E params pcs fpi = Ok fpi' -> prims_all fpi'.
Proof.
  destruct Hsafe as (_ & _ & _ & Hp). induction pcs as [|[name pc] pcs IH]; intros Hpc fpi Hf; cbn [object_filters]; [split; [exact I|intros ? [= <-]; assumption]|].
  assert (Hpc' : params_prim pcs) by (intros n' pc' Hin; apply (Hpc n' pc'); right; exact Hin).
  destruct (Hpc name pc (or_introl eq_refl)) as [Q1 Q2].
  destruct (mget (e_parsers E) (pm_parser pc)) as [parse|] eqn:Ep; [|split; [exact I|discriminate]].
  set (s := match mget params name with Some s => s | None => [] end).
  pose proof (Hp _ _ Ep s) as P1. specialize (Q2 parse s). destruct (parse s) as [v|e| |]; cbn [rbind] in *; try contradiction; [|split; [exact I|discriminate]].
  apply IH; [exact Hpc'|]. apply add_filter_prims; auto.
Qed.

Lemma skip_rows_safe it : forall off, Forall returns it -> returns (skip_rows off it) /\ forall it', skip_rows off it = Ok it' -> Forall returns it'.
Proof.
  induction it as [|p it IH]; intros off H; cbn [skip_rows]; destruct (off <=? 0); try (split; [exact I|intros it' [= <-]; assumption]).
  inversion H as [|? ? H1 H2]; subst. destruct p; cbn in *; try contradiction; [apply IH; assumption|split; [exact I|discriminate]].
Qed.

Lemma take_rows_safe row limit it : (forall n p, returns (row n p)) -> Forall returns it -> forall n, returns (take_rows row limit n it).
Proof.
  intros Hr H. induction H as [|p it H1 H2 IH]; intros n; cbn [take_rows]; destruct (negb (n <? limit)); try exact I.
  apply returns_bind; [assumption|]. intros p' _. apply returns_bind; [apply Hr|]. intros d _. apply returns_bind; [apply IH|]. intros; exact I.
Qed.
End Serve.

Lemma rows_bound c params row it lim off rows : 0 <= ac_default c -> 0 <= ac_max c < two64 ->
  get_limit c params = Ok lim -> get_offset c params = Ok off -> take_rows row (wrap64 lim) 0 it = Ok rows ->
  zlen rows <= ac_max c /\
  match mget params (ac_limit_param c) with None => True | Some s => exists z, signed_decimal s z /\ 0 < z /\ zlen rows <= z end /\
  match mget params (ac_offset_param c) with None => True | Some s => exists z, signed_decimal s z /\ 0 <= z end.
Proof.
  intros Hdef Hmax Elim Eoff Erows. apply take_rows_length in Erows. rewrite Z.sub_0_r in Erows.
  assert (Hl0 : 0 <= lim).
  { unfold get_limit in Elim. destruct (mget params (ac_limit_param c)) as [s|].
    - destruct (atoi s) as [z|e| |]; try discriminate. cbn [rbind] in Elim. destruct (z <=? 0) eqn:Ez; try discriminate.
      cbn [rbind] in Elim. injection Elim as <-. destruct (z >? ac_max c); lia.
    - cbn [rbind] in Elim. injection Elim as <-. destruct (ac_default c >? ac_max c); lia. }
  destruct (get_limit_inv c params) as [(l2 & E2 & H2 & H3)|(e & E2)]; [|congruence]. rewrite Elim in E2. injection E2 as <-.
  destruct (get_offset_inv c params) as [(o2 & E2 & H4 & H5)|(e & E2)]; [|congruence]. rewrite Eoff in E2. injection E2 as <-.
  assert (Hw : wrap64 lim <= lim).
  { unfold wrap64, two63, two64 in *. destruct (Z_lt_le_dec lim (2 ^ 63)); [rewrite Z.mod_small by lia; lia|].
    pose proof (Z.mod_pos_bound (lim + 2 ^ 63) (2 ^ 64)). assert (lim + 2 ^ 63 - 2 ^ 64 = (lim + 2 ^ 63) mod 2 ^ 64).
    { apply Z.mod_unique with 1; lia. } lia. }
  split; [lia|]. split.
  - destruct (mget params (ac_limit_param c)) as [s|]; [|trivial]. destruct H3 as (z & Hz & _ & Hp & Hle). exists z. split; [assumption|]. lia.
  - destruct (mget params (ac_offset_param c)) as [s|]; [|trivial]. exists off. split; [apply H5|assumption].
Qed.

Section Shape.
Variable E : env.
Variable ord : order.
Variable W : Type.
Variable send_error : err -> W -> W * res unit.
Variable send_success : W -> W.
Variable write : bytes -> W -> W * res unit.
Variable json_encode : value -> res bytes.
Notation encode := (encode W write json_encode).
Notation check := (check W send_error).
Notation handle_array := (handle_array E ord W send_error send_success write json_encode).
Notation handle_object := (handle_object E ord W send_error send_success write json_encode).

Variable asked : bytes -> Prop.
Hypothesis Hsafe : env_safe asked E.
Hypothesis Hord : order_ok ord.
Hypothesis Hperm : forall lt l, Permutation l (e_sort E lt l).

Inductive answered (P : value -> Prop) (w : W) : W * res unit -> Prop :=
| ans_error e : answered P w (send_error e w)
| ans_success v : P v -> answered P w (encode v (send_success w)).

Lemma check_answered {A} P (r : res A) w k : returns r -> (forall a, r = Ok a -> answered P w (k a)) -> answered P w (check r w k).
Proof. intros Hr H. destruct r; cbn [Output.check]; [apply H; reflexivity|apply ans_error|contradiction|contradiction]. Qed.

Lemma array_answered c params w inp : mget (e_inputs E) (ac_input c) = Some inp -> rels_safe asked E inp (ac_relationships c) ->
  params_prim E asked (ac_params c) ->
  answered (fun v => exists rows, v = VList rows) w (handle_array c params w).
Proof.
  intros Ei Hr Hpr. unfold Output.handle_array. rewrite Ei.
  pose proof Ei as Hinp.
  apply check_answered.
  { destruct (get_limit_inv c params) as [(? & -> & _)|(? & ->)]; exact I. }
  intros lim _. apply check_answered.
  { destruct (get_offset_inv c params) as [(? & -> & _)|(? & ->)]; exact I. }
  intros off _. destruct (array_filters_safe E asked Hsafe params (ord [Key (lit "parameters")] _ (ac_params c))) with (fpi := @nil (bytes * filters)) as [A1 A2];
    [apply (params_prim_perm E asked _ _ (Hord _ _ _) Hpr)|constructor|].
  apply check_answered; [assumption|]. intros fpi Hfpi.
  destruct (positions_safe E ord asked Hsafe Hord [Key (lit "filters")] _ inp fpi Hinp (A2 _ Hfpi)) as [P1 P2].
  apply check_answered; [assumption|]. intros its Hits.
  destruct (skip_rows_safe (join_positions its) off (join_positions_safe _ (P2 _ Hits))) as [S1 S2].
  apply check_answered; [assumption|]. intros it Hit. apply check_answered.
  { apply take_rows_safe; [|exact (S2 _ Hit)]. intros. eapply data_safe; eassumption. }
  intros rows _. apply ans_success. eauto.
Qed.

Lemma object_answered c params w inp : mget (e_inputs E) (oc_input c) = Some inp -> rels_safe asked E inp (oc_relationships c) ->
  params_prim E asked (oc_params c) ->
  answered (fun v => exists d, v = VMap d) w (handle_object c params w).
Proof.
  intros Ei Hr Hpr. unfold Output.handle_object. rewrite Ei.
  pose proof Ei as Hinp.
  destruct (object_filters_safe E asked Hsafe params (ord [Key (lit "parameters")] _ (oc_params c))) with (fpi := @nil (bytes * filters)) as [A1 A2];
    [apply (params_prim_perm E asked _ _ (Hord _ _ _) Hpr)|constructor|].
  apply check_answered; [assumption|]. intros fpi Hfpi.
  destruct (positions_safe E ord asked Hsafe Hord [Key (lit "filters")] _ inp fpi Hinp (A2 _ Hfpi)) as [P1 P2].
  apply check_answered; [assumption|]. intros its Hits.
  apply check_answered; [apply returns_pull; apply join_positions_safe; auto|]. intros p _.
  destruct p as [p|]; [|apply ans_error]. apply check_answered; [eapply data_safe; eassumption|]. intros d _. apply ans_success. eauto.
Qed.
End Shape.
