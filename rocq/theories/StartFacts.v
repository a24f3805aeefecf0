(** Proofs about starting with a validated configuration. *)
From Coq Require Import List ZArith Lia Bool String Permutation.
From Coq Require Import Strings.Byte.
From Verif Require Import Base BaseFacts Codec Value GoStrings Parser Sort Output Http Records Regex Route Config Start SpecConfig ConfigFacts ConfigFacts2 OutputFacts2.
Import ListNotations.
Open Scope Z_scope.

Definition found {A} (x : outcome A) : Prop := forall n, x <> Missing n.

Lemma found_done {A} (a : A) : found (Done a).
Proof. intros n H. discriminate. Qed.
Lemma found_fail {A} e : found (@Fail A e).
Proof. intros n H. discriminate. Qed.
Lemma found_other {A} (r : res A) : found (other r).
Proof. intros n H. destruct r; discriminate. Qed.
Lemma found_bind {A B} (x : outcome A) (f : A -> outcome B) : found x -> (forall a, x = Done a -> found (f a)) -> found (obind x f).
Proof. intros H Hf n. destruct x; cbn [obind]; try discriminate; [apply Hf; reflexivity|intro E; injection E as ->; exact (H n eq_refl)]. Qed.
Lemma found_look_up {A} (m : list (bytes * A)) k : has m k -> found (look_up m k).
Proof. intro H. unfold look_up. destruct (has_mget _ _ H) as (a & ->). apply found_done. Qed.
Lemma found_map {A B} (f : A -> outcome B) l : (forall a, In a l -> found (f a)) -> found (omapM f l).
Proof.
  induction l as [|a l IH]; intro H; [apply found_done|]. cbn [omapM]. apply found_bind; [apply H; left; reflexivity|intros b _].
  apply found_bind; [apply IH; intros; apply H; right; assumption|intros; apply found_done].
Qed.
Lemma found_all {A B} (f : A -> outcome B) l : (forall n a, In (n, a) l -> found (f a)) -> found (create_all f l).
Proof.
  intro H. apply found_map. intros [n a] I. cbn [fst snd]. apply found_bind; [eapply H, I|intros; apply found_done].
Qed.

Ltac fbind := apply found_bind; [|intros].

Lemma obind_done {A B} (x : outcome A) (f : A -> outcome B) b : obind x f = Done b -> exists a, x = Done a /\ f a = Done b.
Proof. destruct x; cbn [obind]; intro H; try discriminate. eauto. Qed.

Lemma create_all_spec {A B} (f : A -> outcome B) : forall l m, create_all f l = Done m ->
  Forall2 (fun na nb => fst na = fst nb /\ f (snd na) = Done (snd nb)) l m.
Proof.
  induction l as [|[n a] l IH]; intros m H.
  - injection H as <-. constructor.
  - unfold create_all in H. cbn [omapM fst snd] in H. apply obind_done in H. destruct H as (y & H1 & H).
    apply obind_done in H1. destruct H1 as (b & H1 & Hy). injection Hy as <-. apply obind_done in H. destruct H as (ys & H2 & H). injection H as <-.
    constructor; [auto|]. apply IH, H2.
Qed.

Lemma create_all_has {A B} (f : A -> outcome B) l m k : create_all f l = Done m -> (has l k <-> has m k).
Proof.
  intro H. apply create_all_spec in H. split.
  - intros (a & I). destruct (forall2_left _ _ _ H _ I) as ([k' b] & I' & E & _). cbn [fst] in E. subst. exists b. exact I'.
  - intros (b & I). destruct (forall2_right _ _ _ H _ I) as ([k' a] & I' & E & _). cbn [fst] in E. subst. exists a. exact I'.
Qed.

Lemma create_all_names {A B} (f : A -> outcome B) l m : create_all f l = Done m -> map fst m = map fst l.
Proof. intro H. apply create_all_spec in H. induction H as [|a b l m [E _] F IH]; [reflexivity|]. cbn [map]. congruence. Qed.

Lemma check_relationship_matches_found inputs : forall r,
  (forall r', sub_rel r' (rel_children r) -> has inputs (rel_input r')) -> found (check_relationship_matches inputs r).
Proof.
  induction r as [inp ia lim so ms children IH] using relationship_ind'. intro H. cbn [check_relationship_matches rel_children] in *.
  assert (G : forall l, (forall x, In x l -> In x children) ->
    found ((fix go (l : list (bytes * relationship)) : outcome unit :=
       match l with
       | [] => Done tt
       | (_, child) :: l' =>
         olet _ := look_up inputs (rel_input child) in
         olet _ := check_relationship_matches inputs child in
         go l'
       end) l)).
  { induction l as [|[n child] l IHl]; intro S; [apply found_done|]. fbind; [|fbind].
    - apply found_look_up. apply H. eapply sub_here. apply S. left. reflexivity.
    - rewrite Forall_forall in IH. apply (IH (n, child)); [apply S; left; reflexivity|].
      cbn [snd]. intros r' Hr'. apply H. eapply sub_below; [apply S; left; reflexivity|exact Hr'].
    - apply IHl. intros x I. apply S. right. exact I. }
  apply G. auto.
Qed.

Section Start.
Variable new_charset open_file : bytes -> res unit.
Variable first_row : bytes -> bytes -> res (list bytes).
Variable build_index : vindex -> res unit.
Variable listen : vservice -> res unit.
Notation start := (start new_charset open_file first_row build_index listen).

Theorem start_found v : references_resolve v -> found (start v).
Proof.
  intro R. unfold Start.start. fbind; [|fbind; [|fbind; [|fbind; [|fbind; [|apply found_done]]]]].
  - apply found_all. intros n c _. unfold new_parser. destruct c as [[|x cs]| | | | |]; try apply found_done.
    fbind; [apply found_other|apply found_done].
  - apply found_all. intros n c I. unfold new_input.
    assert (KP : forall k, has (vc_parsers v) k -> has a k) by (intros k; apply (create_all_has _ _ _ k H)).
    destruct c as [path die first detect de columns|path die|path die props xp].
    + fbind; [apply found_other|]. fbind.
      * destruct detect; [|apply found_done]. fbind; [apply found_other|]. fbind; [apply found_other|]. apply found_done.
      * fbind; [|apply found_done]. apply found_map. intros [cn p] Ic. cbn [fst snd]. fbind; [|apply found_done].
        apply found_look_up, KP. destruct detect.
        -- apply obind_done in H1. destruct H1 as (row & _ & H1). apply obind_done in H1. destruct H1 as (ns & _ & H1).
           injection H1 as <-. apply in_map_iff in Ic. destruct Ic as (nm & Q & _). injection Q as <- <-. apply (ref_detected v R).
        -- injection H1 as <-. eapply ref_column; eauto.
    + fbind; [apply found_other|apply found_done].
    + fbind; [apply found_other|apply found_done].
  - apply found_all. intros n c I. unfold new_index.
    assert (KI : forall i, index_input c = Some i -> found (look_up a0 i)).
    { intros i Ei. apply found_look_up, (create_all_has _ _ _ i H0). eapply ref_index; eauto. }
    destruct c; cbn [index_input] in KI; try apply found_done; (fbind; [apply KI; reflexivity|fbind; [apply found_other|apply found_done]]).
  - apply found_all. intros n c I. unfold new_output. fbind.
    { apply found_look_up, (create_all_has _ _ _ _ H1). apply ref_default, R. }
    destruct c as [|o]; [apply found_fail|].
    assert (HI : found (look_up a0 (out_input o))).
    { apply found_look_up, (create_all_has _ _ _ _ H0). eapply ref_output; eauto. }
    assert (HR : found (omapM (fun r => check_relationship_matches a0 (snd r)) (out_rels o))).
    { apply found_map. intros [rn r] Ir. cbn [snd]. apply check_relationship_matches_found. intros r' S.
      apply (create_all_has _ _ _ _ H0). eapply ref_rel; eauto. eapply sub_below; eauto. }
    destruct o as [c|c]; cbn [out_input out_rels] in *.
    + fbind; [exact HI|]. fbind; [exact HR|apply found_done].
    + fbind.
      { apply found_map. intros [pn p] Ip. cbn [snd]. apply found_look_up, (create_all_has _ _ _ _ H).
        eapply (proj2 (ref_param v R _ _ _ _ I Ip)). }
      fbind; [exact HI|]. fbind; [exact HR|apply found_done].
  - apply found_all. intros n s I. unfold new_service. fbind; [|fbind; [apply found_other|apply found_done]].
    apply found_map. intros [on path] Ir. unfold new_service_route. cbn [fst snd]. fbind.
    { apply found_look_up, (create_all_has _ _ _ _ H2). eapply ref_route; eauto. }
    fbind; [|apply found_other]. apply found_map. intros name _.
    destruct (mget _ name) as [p|] eqn:M; [|apply found_fail]. fbind; [|apply found_done].
    apply found_look_up, (create_all_has _ _ _ _ H).
    unfold look_up in H3. destruct (mget a2 on) as [o|] eqn:Mo; [|discriminate]. injection H3 as <-.
    apply mget_In in Mo. apply create_all_spec in H2. destruct (forall2_right _ _ _ H2 _ Mo) as ([n' c] & Ic & En & Eo). cbn [fst snd] in *. subst n'.
    assert (c = VOutput o) as ->.
    { unfold new_output in Eo. apply obind_done in Eo. destruct Eo as (? & _ & Eo). destruct c as [|[c|c]]; [discriminate| |];
        repeat (apply obind_done in Eo; destruct Eo as (? & _ & Eo)); injection Eo as <-; reflexivity. }
    eapply (proj2 (ref_param v R on o name p Ic _)).
    Unshelve. destruct o; cbn [out_params]; apply mget_In, M.
Qed.

(** The objects created have the names of the configuration. *)
Theorem start_names v s : start v = Done s ->
  map fst (st_parsers s) = map fst (vc_parsers v) /\ map fst (st_inputs s) = map fst (vc_inputs v) /\
  map fst (st_indexes s) = map fst (vc_indexes v) /\ map fst (st_outputs s) = map fst (vc_outputs v) /\
  map fst (st_services s) = map fst (vc_services v).
Proof.
  unfold Start.start. intro H. repeat (apply obind_done in H; destruct H as (? & ? & H)). injection H as <-.
  cbn [st_parsers st_inputs st_indexes st_outputs st_services].
  repeat split; eapply create_all_names; eassumption.
Qed.
End Start.
