(** Proofs about starting: when it succeeds. *)
From Coq Require Import List ZArith Lia Bool String Permutation.
From Coq Require Import Strings.Byte.
From Verif Require Import Base BaseFacts Codec Value GoStrings Parser Sort Output Http Records Regex Route Config Start SpecConfig ConfigFacts ConfigFacts2 ConfigFacts4 OutputFacts2 StartFacts.
Import ListNotations.
Open Scope Z_scope.

Definition done {A} (x : outcome A) : Prop := exists a, x = Done a.

Lemma done_bind {A B} (x : outcome A) (f : A -> outcome B) : done x -> (forall a, x = Done a -> done (f a)) -> done (obind x f).
Proof. intros (a & ->) H. apply H. reflexivity. Qed.
Lemma done_done {A} (a : A) : done (Done a).
Proof. exists a. reflexivity. Qed.
Lemma done_map {A B} (f : A -> outcome B) l : (forall a, In a l -> done (f a)) -> done (omapM f l).
Proof.
  induction l as [|a l IH]; intro H; [apply done_done|]. cbn [omapM]. apply done_bind; [apply H; left; reflexivity|intros b _].
  apply done_bind; [apply IH; intros; apply H; right; assumption|intros; apply done_done].
Qed.
Lemma done_all {A B} (f : A -> outcome B) l : (forall n a, In (n, a) l -> done (f a)) -> done (create_all f l).
Proof. intro H. apply done_map. intros [n a] I. cbn [fst snd]. apply done_bind; [eapply H, I|intros; apply done_done]. Qed.
Lemma done_look_up {A} (m : list (bytes * A)) k : has m k -> done (look_up m k).
Proof. intro H. unfold look_up. destruct (has_mget _ _ H) as (a & ->). apply done_done. Qed.
Lemma done_other {A} (r : res A) a : r = Ok a -> done (other r).
Proof. intros ->. apply done_done. Qed.

Ltac dbind := apply done_bind; [|intros].

Lemma autodetect_ok : forall row seen, NoDup row -> ~ In [] row -> (forall c, In c row -> ~ In c seen) -> autodetect row seen = Ok row.
Proof.
  induction row as [|c row IH]; intros seen N E S; [reflexivity|]. cbn [autodetect]. inversion N; subst.
  destruct (bytes_eqb c []) eqn:B; [apply bytes_eqb_eq in B; subst; destruct E; left; reflexivity|].
  destruct (existsb (bytes_eqb c) seen) eqn:X; [apply existsb_eq in X; destruct (S c (or_introl eq_refl) X)|].
  rewrite IH; [reflexivity|assumption|intro I; apply E; right; exact I|].
  intros d I J. apply in_app_iff in J. destruct J as [J|[<-|[]]]; [exact (S d (or_intror I) J)|contradiction].
Qed.

Lemma check_relationship_matches_done inputs : forall r,
  (forall r', sub_rel r' (rel_children r) -> has inputs (rel_input r')) -> done (check_relationship_matches inputs r).
Proof.
  induction r as [inp ia lim so ms children IH] using relationship_ind'. intro H. cbn [check_relationship_matches rel_children] in *.
  assert (G : forall l, (forall x, In x l -> In x children) ->
    done ((fix go (l : list (bytes * relationship)) : outcome unit :=
       match l with
       | [] => Done tt
       | (_, child) :: l' =>
         olet _ := look_up inputs (rel_input child) in
         olet _ := check_relationship_matches inputs child in
         go l'
       end) l)).
  { induction l as [|[n child] l IHl]; intro S; [apply done_done|]. dbind; [|dbind].
    - apply done_look_up. apply H. eapply sub_here. apply S. left. reflexivity.
    - rewrite Forall_forall in IH. apply (IH (n, child)); [apply S; left; reflexivity|].
      cbn [snd]. intros r' Hr'. apply H. eapply sub_below; [apply S; left; reflexivity|exact Hr'].
    - apply IHl. intros x I. apply S. right. exact I. }
  apply G. auto.
Qed.

Lemma create_same {A} (f : A -> outcome A) : (forall a b, f a = Done b -> a = b) -> forall l m, create_all f l = Done m -> m = l.
Proof.
  intros H l m E. apply create_all_spec in E. induction E as [|[n a] [n' b] l m [E1 E2] F IH]; [reflexivity|].
  cbn [fst snd] in *. apply H in E2. subst. reflexivity.
Qed.

Section Start.
Variable new_charset open_file : bytes -> res unit.
Variable first_row : bytes -> bytes -> res (list bytes).
Variable build_index : vindex -> res unit.
Variable listen : vservice -> res unit.
Notation start := (start new_charset open_file first_row build_index listen).
Notation possible := (possible new_charset open_file first_row build_index listen).

Theorem start_done v : references_resolve v -> possible v -> exists s, start v = Done s.
Proof.
  intros R P. change (done (start v)). unfold Start.start. dbind; [|dbind; [|dbind; [|dbind; [|dbind; [|apply done_done]]]]].
  - apply done_all. intros n c I. unfold new_parser. destruct c as [[|x cs]| | | | |]; try apply done_done.
    dbind; [|apply done_done]. eapply done_other. eapply ps_charset; eauto. discriminate.
  - apply done_all. intros n c I. unfold new_input.
    assert (KP : forall k, has (vc_parsers v) k -> has a k) by (intros k; apply (create_all_has _ _ _ k H)).
    assert (OP : forall path, done (other (open_file path))) by (intro path; eapply done_other, (ps_open _ _ _ _ _ v P)).
    destruct c as [path die first detect de columns|path die|path die props xp].
    + dbind; [apply OP|]. dbind.
      * destruct detect; [|apply done_done]. destruct (ps_detect _ _ _ _ _ v P _ _ _ _ _ _ I) as (row & E1 & E2 & E3).
        dbind; [eapply done_other, E1|]. rewrite E1 in H1. injection H1 as <-.
        dbind; [eapply done_other, autodetect_ok; auto|]. apply done_done.
      * dbind; [|apply done_done]. apply done_map. intros [cn p] Ic. cbn [fst snd]. dbind; [|apply done_done].
        apply done_look_up, KP. destruct detect.
        -- apply obind_done in H1. destruct H1 as (row & _ & H1). apply obind_done in H1. destruct H1 as (ns & _ & H1).
           injection H1 as <-. apply in_map_iff in Ic. destruct Ic as (nm & Q & _). injection Q as <- <-. apply (ref_detected v R).
        -- injection H1 as <-. eapply ref_column; eauto.
    + dbind; [apply OP|apply done_done].
    + dbind; [apply OP|apply done_done].
  - apply done_all. intros n c I. unfold new_index.
    assert (KI : forall i, index_input c = Some i -> done (look_up a0 i)).
    { intros i Ei. apply done_look_up, (create_all_has _ _ _ i H0). eapply ref_index; eauto. }
    destruct c; cbn [index_input] in KI; try apply done_done;
      (dbind; [apply KI; reflexivity|dbind; [eapply done_other, (ps_build _ _ _ _ _ v P)|apply done_done]]).
  - apply done_all. intros n c I. unfold new_output. dbind.
    { apply done_look_up, (create_all_has _ _ _ _ H1). apply ref_default, R. }
    destruct c as [|o]; [destruct (ps_graphql _ _ _ _ _ v P n I)|].
    assert (HI : done (look_up a0 (out_input o))).
    { apply done_look_up, (create_all_has _ _ _ _ H0). eapply ref_output; eauto. }
    assert (HR : done (omapM (fun r => check_relationship_matches a0 (snd r)) (out_rels o))).
    { apply done_map. intros [rn r] Ir. cbn [snd]. apply check_relationship_matches_done. intros r' S.
      apply (create_all_has _ _ _ _ H0). eapply ref_rel; eauto. eapply sub_below; eauto. }
    destruct o as [c|c]; cbn [out_input out_rels] in *.
    + dbind; [exact HI|]. dbind; [exact HR|apply done_done].
    + dbind.
      { apply done_map. intros [pn p] Ip. cbn [snd]. apply done_look_up, (create_all_has _ _ _ _ H).
        eapply (proj2 (ref_param v R _ _ _ _ I Ip)). }
      dbind; [exact HI|]. dbind; [exact HR|apply done_done].
  - assert (a = vc_parsers v) as ->.
    { eapply create_same; [|exact H]. intros c c' E. unfold new_parser in E. destruct c as [[|x cs]| | | | |]; try congruence.
      apply obind_done in E. destruct E as (? & _ & E). congruence. }
    assert (OUT : forall c o, new_output (vc_parsers v) a0 a1 c = Done o -> c = VOutput o).
    { intros c o Eo. unfold new_output in Eo. apply obind_done in Eo. destruct Eo as (? & _ & Eo). destruct c as [|[c|c]]; [discriminate| |];
        repeat (apply obind_done in Eo; destruct Eo as (? & _ & Eo)); injection Eo as <-; reflexivity. }
    apply done_all. intros n s I. unfold new_service. dbind; [|dbind; [eapply done_other, (ps_listen _ _ _ _ _ v P)|apply done_done]].
    apply done_map. intros [on path] Ir. unfold new_service_route. cbn [fst snd]. dbind.
    { apply done_look_up, (create_all_has _ _ _ _ H2). eapply ref_route; eauto. }
    assert (M : mget (vc_outputs v) on = Some (VOutput a)).
    { unfold look_up in H3. destruct (mget a2 on) as [o|] eqn:Mo; [|discriminate]. injection H3 as <-.
      destruct (has_mget (vc_outputs v) on) as (c & Mc); [eapply ref_route; eauto|].
      apply create_all_spec in H2. destruct (forall2_mget (fun c o => new_output (vc_parsers v) a0 a1 c = Done o) _ _ H2 _ _ Mc) as (b & Mb & Eb).
      rewrite Mo in Mb. injection Mb as <-. apply OUT in Eb. congruence. }
    destruct (ps_route _ _ _ _ _ v P _ _ _ _ _ I Ir M) as [HP (r & HN)].
    dbind; [|eapply done_other, HN]. apply done_map. intros name In_.
    destruct (has_mget _ _ (HP name In_)) as (p & Mp). unfold out_params in Mp. rewrite Mp. dbind; [|apply done_done].
    apply done_look_up. apply mget_In in M, Mp. eapply (proj2 (ref_param v R on a name p M _)).
    Unshelve. destruct a; exact Mp.
Qed.
End Start.
