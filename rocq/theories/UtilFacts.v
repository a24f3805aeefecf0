(** Proofs about Util.v. *)
From Coq Require Import List ZArith Lia Bool String Permutation.
From Coq Require Import Strings.Byte.
From Verif Require Import Base BaseFacts GoStrings StringsFacts Util.
Import ListNotations.
Open Scope Z_scope.

Lemma rules_perm rules : Permutation address_rules rules -> rules = address_rules \/ rules = rev address_rules.
Proof.
  intros H. assert (Hl := Permutation_length H). destruct rules as [|a [|b [|c r]]]; try discriminate Hl.
  unfold address_rules in *. cbn [rev app]. apply Permutation_length_2 in H as [[-> ->]|[-> ->]]; auto.
Qed.
Lemma no_zero_prefix p : has_prefix (lit "0.0.0.0:") (lit "127.0.0.1:" ++ p) = false. Proof. reflexivity. Qed.
Lemma no_colon_prefix p : has_prefix (lit "[::]:") (lit "127.0.0.1:" ++ p) = false. Proof. reflexivity. Qed.
Lemma prefix_app p s : has_prefix p (p ++ s) = true. Proof. apply has_prefix_spec. eauto. Qed.
Lemma no_prefix p a : ~ (exists b, a = p ++ b) -> has_prefix p a = false.
Proof. intros H. apply not_true_iff_false. intros E. apply H, has_prefix_spec, E. Qed.

Theorem address_exact rules : Permutation address_rules rules -> forall a,
  (forall port, a = lit "[::]:" ++ port \/ a = lit "0.0.0.0:" ++ port -> get_address rules a = lit "127.0.0.1:" ++ port) /\
  (~ (exists port, a = lit "[::]:" ++ port \/ a = lit "0.0.0.0:" ++ port) -> get_address rules a = a).
Proof.
  intros H a. split.
  - intros port Ha. apply rules_perm in H as [->| ->]; destruct Ha as [->| ->]; cbn [rev app address_rules get_address].
    + rewrite prefix_app, skipn_app_exact, no_zero_prefix. reflexivity.
    + replace (has_prefix (lit "[::]:") (lit "0.0.0.0:" ++ port)) with false by reflexivity. rewrite prefix_app, skipn_app_exact. reflexivity.
    + replace (has_prefix (lit "0.0.0.0:") (lit "[::]:" ++ port)) with false by reflexivity. rewrite prefix_app, skipn_app_exact. reflexivity.
    + rewrite prefix_app, skipn_app_exact, no_colon_prefix. reflexivity.
  - intros Hn. assert (H1 : has_prefix (lit "[::]:") a = false) by (apply no_prefix; intros (b & E); apply Hn; exists b; auto).
    assert (H2 : has_prefix (lit "0.0.0.0:") a = false) by (apply no_prefix; intros (b & E); apply Hn; exists b; auto).
    apply rules_perm in H as [->| ->]; cbn [rev app address_rules get_address]; rewrite ?H1, ?H2, ?H1; reflexivity.
Qed.

Lemma watch_from die s ns : fold_left (watch_step die) ns s = Dead <->
  s = Dead \/ (s = Watching /\ die = true /\ exists a b ops, ns = a ++ Event ops :: b /\ op_write ops = true /\ ~ In EventsClosed a /\ ~ In ErrorsClosed a).
Proof.
  revert s. induction ns as [|n ns IH]; intros s; cbn [fold_left].
  - split; [auto|]. intros [H|(_ & _ & a & b & ops & E & _)]; [exact H|]. destruct a; discriminate E.
  - rewrite IH. clear IH. destruct s; cbn [watch_step].
    + destruct n as [ops| | |].
      * destruct (op_write ops) eqn:Ew.
        -- destruct die.
           ++ split; [|left; reflexivity]. intros _. right. split; [reflexivity|]. split; [reflexivity|]. exists [], ns, ops. auto.
           ++ split; intros [H|(_ & H & _)]; discriminate H.
        -- split; intros [H|(H1 & H2 & a & b & o & E & Ho & Ha & Hb)]; try discriminate H; right; (split; [reflexivity|]; split; [exact H2|]).
           ++ exists (Event ops :: a), b, o. rewrite E. split; [reflexivity|]. split; [exact Ho|]. split; (intros [H|H]; [discriminate H|contradiction]).
           ++ destruct a as [|x a]; [injection E as -> ->; congruence|]. injection E as <- E. exists a, b, o. split; [exact E|]. split; [exact Ho|]. split; intros H; [apply Ha|apply Hb]; right; exact H.
      * split; intros [H|(H1 & H2 & a & b & o & E & Ho & Ha & Hb)]; try discriminate H; right; (split; [reflexivity|]; split; [exact H2|]).
        -- exists (WatchError :: a), b, o. rewrite E. split; [reflexivity|]. split; [exact Ho|]. split; (intros [H|H]; [discriminate H|contradiction]).
        -- destruct a as [|x a]; [discriminate E|]. injection E as <- E. exists a, b, o. split; [exact E|]. split; [exact Ho|]. split; intros H; [apply Ha|apply Hb]; right; exact H.
      * split; [intros [H|(H & _)]; discriminate H|]. intros [H|(H1 & H2 & a & b & o & E & Ho & Ha & Hb)]; [discriminate H|].
        exfalso. destruct a as [|x a]; [discriminate E|]. injection E as <- E. apply Ha. left. reflexivity.
      * split; [intros [H|(H & _)]; discriminate H|]. intros [H|(H1 & H2 & a & b & o & E & Ho & Ha & Hb)]; [discriminate H|].
        exfalso. destruct a as [|x a]; [discriminate E|]. injection E as <- E. apply Hb. left. reflexivity.
    + split; intros [H|(H & _)]; discriminate H.
    + split; intros _; left; reflexivity.
Qed.

Theorem watch_dead config ns : watch (should_die config) ns = Dead <->
  config <> Some false /\ exists a b ops, ns = a ++ Event ops :: b /\ op_write ops = true /\ ~ In EventsClosed a /\ ~ In ErrorsClosed a.
Proof.
  unfold watch. rewrite watch_from. split.
  - intros [H|(_ & H & G)]; [discriminate H|]. split; [|exact G]. intros ->. discriminate H.
  - intros [H G]. right. split; [reflexivity|]. split; [|exact G]. destruct config as [[]|]; [reflexivity|congruence|reflexivity].
Qed.
