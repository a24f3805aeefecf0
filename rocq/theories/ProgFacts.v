(** Goroutines which hold a mutex while they run: every answer is the one of an
    undisturbed execution, and all the executions end. *)
From Coq Require Import List Lia Arith Bool.
From Verif Require Import Base Prog.
Import ListNotations.

Section Conc.
Variables S A Q : Type.
Variable body : Q -> prog S A.
Variable I : S -> Prop.
Variable ans : Q -> A.
Hypothesis body_ok : forall q s, I s -> fst (exec (body q) s) = ans q /\ I (snd (exec (body q) s)).

Local Notation step := (step S A Q body).
Local Notation steps := (steps S A Q body).
Local Notation config := (config S A Q).
Local Notation thread := (thread S A Q).
Local Notation mk := (mkConfig S A Q).

(** What has been and remains to be asked. *)
Definition asked (t : thread) : list Q :=
  match t with
  | Idle todo answers => map fst answers ++ todo
  | Busy q _ todo answers => map fst answers ++ q :: todo
  end.
Local Notation answers_of := (answers_of S A Q).
Local Notation start := (start S A Q).
Definition idle (t : thread) : Prop := match t with Idle _ _ => True | Busy _ _ _ _ => False end.
Definition right (t : thread) : Prop := Forall (fun qa => snd qa = ans (fst qa)) (answers_of t).

Inductive good : config -> Prop :=
| good_free s ts : I s -> Forall idle ts -> Forall right ts -> good (mk s false ts)
| good_held s l1 q p todo answers l2 : fst (exec p s) = ans q -> I (snd (exec p s)) ->
    Forall idle l1 -> Forall idle l2 -> Forall right (l1 ++ Busy q p todo answers :: l2) ->
    good (mk s true (l1 ++ Busy q p todo answers :: l2)).

Lemma middle_eq (l1 l2 l1' l2' : list thread) q p todo answers q' p' todo' answers' :
  Forall idle l1 -> Forall idle l2 ->
  l1 ++ Busy q p todo answers :: l2 = l1' ++ Busy q' p' todo' answers' :: l2' ->
  l1' = l1 /\ l2' = l2 /\ Busy q' p' todo' answers' = Busy q p todo answers.
Proof.
  revert l1'. induction l1 as [|t l1 IH]; intros l1' H1 H2 E.
  - destruct l1' as [|t' l1']; cbn [app] in E.
    + injection E as E1 E2 E3 E4 E5. subst. repeat split.
    + injection E as <- E. exfalso. subst l2. apply Forall_app in H2 as [_ H2]. inversion H2 as [|? ? Hb _]. exact Hb.
  - inversion H1 as [|? ? Ht H1']; subst. destruct l1' as [|t' l1']; cbn [app] in E.
    + injection E as -> E. destruct Ht.
    + injection E as -> E. destruct (IH l1' H1' H2 E) as (-> & -> & E'). repeat split. exact E'.
Qed.

Lemma good_inv s l1 q p todo answers l2 : good (mk s true (l1 ++ Busy q p todo answers :: l2)) ->
  fst (exec p s) = ans q /\ I (snd (exec p s)) /\ Forall idle l1 /\ Forall idle l2 /\ Forall right (l1 ++ Busy q p todo answers :: l2).
Proof.
  intros Hg. inversion Hg as [|s0 l3 q3 p3 t3 a3 l4 Ha Hi Hid1 Hid2 Hr]; subst.
  match goal with E : _ ++ _ :: _ = _ ++ _ :: _ |- _ => destruct (middle_eq _ _ _ _ _ _ _ _ _ _ _ _ Hid1 Hid2 E) as (-> & -> & Eb) end.
  injection Eb as -> -> -> ->. repeat split; assumption.
Qed.

Lemma Forall_replace (P : thread -> Prop) l1 t t' l2 : (P t -> P t') -> Forall P (l1 ++ t :: l2) -> Forall P (l1 ++ t' :: l2).
Proof.
  intros H HF. apply Forall_app in HF as [H1 H2]. inversion H2; subst. apply Forall_app. split; [exact H1|]. constructor; [apply H; assumption|assumption].
Qed.

Lemma good_step c c' : good c -> step c c' -> good c'.
Proof.
  intros Hg Hs. inversion Hs as [s l1 q todo answers l2 E1 E2|s l1 q f k todo answers l2 E1 E2|s l1 q a todo answers l2 E1 E2]; subst.
  - inversion Hg as [s0 ts Hi Hid Hr E1 |]; subst.
    apply Forall_app in Hid as [Hid1 Hid2]. inversion Hid2; subst.
    destruct (body_ok q s Hi) as [Ha Hi']. constructor; try assumption.
    apply Forall_replace with (t := Idle (q :: todo) answers); [intro H; exact H|exact Hr].
  - apply good_inv in Hg as (Ha & Hi & Hid1 & Hid2 & Hr).
    constructor; try assumption. apply Forall_replace with (t := Busy q (Act f k) todo answers); [intro H; exact H|exact Hr].
  - apply good_inv in Hg as (Ha & Hi & Hid1 & Hid2 & Hr).
    cbn [exec fst snd] in Ha, Hi. constructor; [exact Hi| |].
    + apply Forall_app. split; [exact Hid1|]. constructor; [exact Logic.I|exact Hid2].
    + apply Forall_replace with (t := Busy q (Ret a) todo answers); [|exact Hr].
      intros H. unfold right in *. cbn [Prog.answers_of] in *. apply Forall_app. split; [exact H|]. constructor; [exact Ha|constructor].
Qed.

Lemma good_steps c c' : good c -> steps c c' -> good c'.
Proof. intros Hg H. induction H as [|c c' c'' _ IH Hs]; [exact Hg|]. apply good_step with (c := c'); [apply IH; exact Hg|exact Hs]. Qed.

(** The questions stay the same. *)
Lemma asked_step c c' : step c c' -> map asked (c_threads _ _ _ c') = map asked (c_threads _ _ _ c).
Proof.
  intros Hs. destruct Hs; cbn [c_threads]; rewrite !map_app; cbn [map asked]; try reflexivity.
  do 2 f_equal. rewrite map_app. cbn [map fst]. rewrite <- app_assoc. reflexivity.
Qed.
Lemma asked_steps c c' : steps c c' -> map asked (c_threads _ _ _ c') = map asked (c_threads _ _ _ c).
Proof. intros H. induction H as [|c c' c'' _ IH Hs]; [reflexivity|]. rewrite <- IH. apply asked_step. exact Hs. Qed.

(** Somebody can always go on. *)
Lemma good_progress c : good c -> finished S A Q c \/ exists c', step c c'.
Proof.
  intros [s ts Hi Hid _|s l1 q p todo answers l2 _ _ _ _ _].
  - assert (H : Forall (fun t => match t with Idle [] _ => True | _ => False end) ts \/ exists l1 q todo answers l2, ts = l1 ++ Idle (q :: todo) answers :: l2).
    { induction Hid as [|t ts Ht _ IH]; [left; constructor|]. destruct t as [[|q todo] answers|]; [|right; exists [], q, todo, answers, ts; reflexivity|destruct Ht].
      destruct IH as [IH|(l1 & q & todo & an & l2 & ->)]; [left; constructor; [exact Logic.I|exact IH]|right].
      exists (Idle [] answers :: l1), q, todo, an, l2. reflexivity. }
    destruct H as [H|(l1 & q & todo & an & l2 & ->)]; [left; exact H|right]. eexists. apply step_lock.
  - right. destruct p as [a|f k]; eexists; [apply step_unlock|apply step_act].
Qed.

(** *** Termination *)
Fixpoint count {B} (p : prog S B) (s : S) : nat := match p with Ret _ => O | Act f k => Datatypes.S (count (k (f s)) (f s)) end.
Definition pending (t : thread) : nat := match t with Idle todo _ => length todo | Busy _ _ todo _ => Datatypes.S (length todo) end.
Definition total (c : config) : nat := list_sum (map pending (c_threads _ _ _ c)).
Lemma list_sum_mid (a : nat) l1 l2 : list_sum (l1 ++ a :: l2) = list_sum l1 + a + list_sum l2.
Proof. rewrite list_sum_app. change (list_sum (a :: l2)) with (a + list_sum l2). lia. Qed.

Lemma good_acc : forall n c, good c -> total c <= n -> Acc (fun c' c => step c c') c.
Proof.
  induction n as [n IHn] using lt_wf_ind.
  assert (Hheld : forall k c, good c -> total c <= n -> c_locked _ _ _ c = true ->
      (forall s l1 q p todo answers l2, c = mk s true (l1 ++ Busy q p todo answers :: l2) -> count p s <= k) ->
      Acc (fun c' c => step c c') c).
  { induction k as [k IHk] using lt_wf_ind. intros c Hg Hn Hl Hk. constructor. intros c' Hs.
    pose proof (good_step c c' Hg Hs) as Hg'.
    inversion Hs as [s l1 q todo answers l2 E1 E2|s l1 q f k0 todo answers l2 E1 E2|s l1 q a todo answers l2 E1 E2]; subst.
    - discriminate Hl.
    - specialize (Hk s l1 q (Act f k0) todo answers l2 eq_refl). cbn [count] in Hk.
      apply (IHk (count (k0 (f s)) (f s))); [lia|exact Hg'| |reflexivity|].
      { unfold total in *. cbn [c_threads] in *. rewrite map_app in *. exact Hn. }
      intros s' l1' q' p' todo' answers' l2' E.
      assert (Es : f s = s') by (injection E; auto).
      assert (El : l1 ++ Busy q (k0 (f s)) todo answers :: l2 = l1' ++ Busy q' p' todo' answers' :: l2') by (injection E; auto).
      assert (Hid : Forall idle l1 /\ Forall idle l2).
      { apply good_inv in Hg as (_ & _ & Hid1 & Hid2 & _). split; assumption. }
      destruct (middle_eq _ _ _ _ _ _ _ _ _ _ _ _ (proj1 Hid) (proj2 Hid) El) as (_ & _ & Eb). injection Eb as _ -> _ _. subst s'. lia.
    - assert (Hlt : total (mk s false (l1 ++ Idle todo (answers ++ [(q, a)]) :: l2)) < n).
      { unfold total in *. cbn [c_threads] in *. rewrite map_app in *. cbn [map pending] in *. rewrite list_sum_mid in *. lia. }
      apply (IHn (total (mk s false (l1 ++ Idle todo (answers ++ [(q, a)]) :: l2)))); [exact Hlt|exact Hg'|lia]. }
  intros c Hg Hn. destruct (c_locked _ _ _ c) eqn:El.
  - destruct Hg as [s ts Hi Hid Hr|s l1 q p todo answers l2 Ha Hi Hid1 Hid2 Hr]; [discriminate El|].
    apply (Hheld (count p s)); [constructor; assumption|exact Hn|reflexivity|].
    intros s' l1' q' p' todo' answers' l2' E.
    assert (Es : s = s') by (injection E; auto).
    assert (Em : l1 ++ Busy q p todo answers :: l2 = l1' ++ Busy q' p' todo' answers' :: l2') by (injection E; auto).
    destruct (middle_eq _ _ _ _ _ _ _ _ _ _ _ _ Hid1 Hid2 Em) as (_ & _ & Eb). injection Eb as _ -> _ _. subst s'. lia.
  - constructor. intros c' Hs. pose proof (good_step c c' Hg Hs) as Hg'.
    inversion Hs as [s l1 q todo answers l2 E1 E2|s l1 q f k0 todo answers l2 E1 E2|s l1 q a todo answers l2 E1 E2]; subst; try discriminate El.
    apply (Hheld (count (body q) s)); [exact Hg'| |reflexivity|].
    + unfold total in *. cbn [c_threads] in *. rewrite map_app in *. cbn [map pending length] in *. rewrite list_sum_mid in *. lia.
    + intros s' l1' q' p' todo' answers' l2' E.
      assert (Es : s = s') by (injection E; auto).
      assert (Em : l1 ++ Busy q (body q) todo answers :: l2 = l1' ++ Busy q' p' todo' answers' :: l2') by (injection E; auto).
      inversion Hg as [s0 ts _ Hid _ E1 |]; subst. apply Forall_app in Hid as [Hid1 Hid2]. inversion Hid2; subst.
      destruct (middle_eq _ _ _ _ _ _ _ _ _ _ _ _ Hid1 H2 Em) as (_ & _ & Eb). injection Eb as _ -> _ _. lia.
Qed.

(** *** From the start *)

Lemma good_start s qss : I s -> good (start s qss).
Proof.
  intros Hi. constructor; [exact Hi| |]; apply Forall_map; apply Forall_forall; intros qs _; [exact Logic.I|constructor].
Qed.

Lemma start_answers s qss c : I s -> steps (start s qss) c ->
  Forall (fun t => Forall (fun qa => snd qa = ans (fst qa)) (answers_of t)) (c_threads _ _ _ c).
Proof.
  intros Hi Hs. pose proof (good_steps _ _ (good_start s qss Hi) Hs) as Hg.
  inversion Hg; subst; assumption.
Qed.

Lemma start_finished s qss c : I s -> steps (start s qss) c -> (forall c', ~ step c c') ->
  c_threads _ _ _ c = map (fun qs => Idle [] (map (fun q => (q, ans q)) qs)) qss.
Proof.
  intros Hi Hs Hno. pose proof (good_steps _ _ (good_start s qss Hi) Hs) as Hg.
  destruct (good_progress c Hg) as [Hf|[c' Hc]]; [|destruct (Hno c' Hc)].
  pose proof (start_answers s qss c Hi Hs) as Hr. pose proof (asked_steps _ _ Hs) as Ha.
  unfold Prog.start in Ha. cbn [c_threads] in Ha. rewrite map_map in Ha. cbn [asked map app] in Ha. rewrite map_id in Ha.
  unfold finished in Hf. destruct c as [s' l ts]. cbn [c_threads] in *. clear Hs Hg Hno.
  revert qss Ha. induction ts as [|t ts IH]; intros [|qs qss] Ha; cbn [map] in *; try discriminate; [reflexivity|].
  injection Ha as Ht Ha. inversion Hf; subst. inversion Hr; subst. f_equal; [|apply IH; assumption || reflexivity].
  destruct t as [[|] answers|]; try contradiction. cbn [asked Prog.answers_of] in *. rewrite app_nil_r. f_equal.
  rewrite map_map. clear -H3. induction H3 as [|[q a] l H _ IH]; [reflexivity|]. cbn in *. subst a. f_equal. exact IH.
Qed.

Lemma start_acc s qss : I s -> Acc (fun c' c => step c c') (start s qss).
Proof. intros Hi. eapply good_acc; [apply good_start; exact Hi|apply Nat.le_refl]. Qed.
End Conc.
