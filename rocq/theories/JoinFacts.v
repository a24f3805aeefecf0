(** Joining sorted iterators computes the intersection. *)
From Coq Require Import List ZArith Lia Bool Sorted.
From Coq Require Import ZifyBool ZifyNat.
From Verif Require Import Base BaseFacts Value Join SpecJoin.
Import ListNotations.
Open Scope Z_scope.

Notation sorted := (StronglySorted Z.le).

Fixpoint mincnt (x : Z) (ls : list (list Z)) : nat :=
  match ls with
  | [] => 0
  | [l] => occ x l
  | l :: ls' => Nat.min (occ x l) (mincnt x ls')
  end.

Lemma mincnt_cons x l ls : ls <> [] -> mincnt x (l :: ls) = Nat.min (occ x l) (mincnt x ls).
Proof. destruct ls; [congruence|reflexivity]. Qed.

Lemma mincnt_le x ls : forall m, In m ls -> (mincnt x ls <= occ x m)%nat.
Proof.
  induction ls as [|l ls IH]; intros m Hm; [destruct Hm|].
  destruct ls as [|l2 ls]; [destruct Hm as [<-|[]]; simpl; lia|].
  rewrite mincnt_cons by discriminate. destruct Hm as [<-|Hm]; [lia|]. specialize (IH m Hm). lia.
Qed.

Lemma mincnt_ex x ls : ls <> [] -> exists m, In m ls /\ mincnt x ls = occ x m.
Proof.
  induction ls as [|l ls IH]; intros H; [congruence|].
  destruct ls as [|l2 ls]; [exists l; split; [left; reflexivity|reflexivity]|].
  rewrite mincnt_cons by discriminate. destruct IH as (m & Hm & Em); [discriminate|].
  destruct (Nat.le_gt_cases (occ x l) (mincnt x (l2 :: ls))).
  - exists l. split; [left; reflexivity|lia].
  - exists m. split; [right; assumption|lia].
Qed.

Lemma mincnt_eq x ls n :
  ls <> [] -> (exists m, In m ls /\ n = occ x m) -> (forall m, In m ls -> (n <= occ x m)%nat) -> n = mincnt x ls.
Proof.
  intros Hne (m & Hm & Em) Hall. pose proof (mincnt_le x ls m Hm).
  destruct (mincnt_ex x ls Hne) as (m2 & Hm2 & E2). specialize (Hall m2 Hm2). lia.
Qed.

Lemma occ_app x a b : occ x (a ++ b) = (occ x a + occ x b)%nat.
Proof. apply count_occ_app. Qed.
Lemma occ_cons x y l : occ x (y :: l) = ((if (y =? x)%Z then 1 else 0) + occ x l)%nat.
Proof. unfold occ. simpl. destruct (Z.eq_dec y x); destruct (y =? x) eqn:E; lia. Qed.
Lemma occ_zero x l : ~ In x l -> occ x l = 0%nat.
Proof. unfold occ. intros. apply count_occ_not_In. assumption. Qed.
Lemma occ_lt x d p : Forall (fun y => y < p) d -> p <= x -> occ x d = 0%nat.
Proof. intros H Hx. apply occ_zero. intros Hin. rewrite Forall_forall in H. apply H in Hin. lia. Qed.

Lemma sorted_app a b : sorted (a ++ b) -> sorted b.
Proof. induction a as [|x a IH]; simpl; intros H; [assumption|]. inversion H; auto. Qed.
Lemma sorted_cons x l : sorted (x :: l) -> sorted l /\ Forall (fun y => x <= y) l.
Proof. inversion 1; auto. Qed.

Definition oks (l : list Z) : iter := map Ok l.

(** *** One list *)
Lemma advance_spec l : forall cur p, sorted (cur :: l) ->
  (exists c' l' d, advance cur (oks l) p = (Ok (Some c'), oks l') /\ cur :: l = d ++ c' :: l' /\
      Forall (fun y => y < p) d /\ p <= c') \/
  (advance cur (oks l) p = (Ok None, []) /\ Forall (fun y => y < p) (cur :: l)).
Proof.
  induction l as [|y l IH]; intros cur p Hs; cbn [oks map advance].
  - destruct (cur <? p) eqn:E.
    + right. split; [reflexivity|]. repeat constructor; lia.
    + left. exists cur, [], []. repeat split; try constructor; lia.
  - destruct (cur <? p) eqn:E.
    + apply sorted_cons in Hs as [Hs _]. destruct (IH y p Hs) as [(c' & l' & d & E1 & E2 & Hd & Hc)|(E1 & Hall)].
      * left. exists c', l', (cur :: d). rewrite <- app_comm_cons, <- E2. repeat split; auto; constructor; auto; lia.
      * right. split; [exact E1|]. constructor; [lia|assumption].
    + left. exists cur, (y :: l), []. repeat split; try constructor; lia.
Qed.

Definition effs (cs : list Z) (ls : list (list Z)) : list (list Z) := map (fun cl => fst cl :: snd cl) (combine cs ls).

Definition dropped (p : Z) (E E' : list Z) : Prop := exists d, E = d ++ E' /\ Forall (fun y => y < p) d.

Lemma dropped_refl p E : dropped p E E.
Proof. exists []. split; [reflexivity|constructor]. Qed.

Lemma Forall2_refl {A} (R : A -> A -> Prop) l : (forall x, R x x) -> Forall2 R l l.
Proof. intros H. induction l; constructor; auto. Qed.

Lemma Forall2_impl {A B} (R S : A -> B -> Prop) l m : (forall a b, R a b -> S a b) -> Forall2 R l m -> Forall2 S l m.
Proof. intros H. induction 1; constructor; auto. Qed.

Inductive sweep_res (cs : list Z) (ls : list (list Z)) (p : Z) : res (option bool) * (list Z * list iter) -> Prop :=
| sweep_end cs' its' : Exists (fun E => Forall (fun y => y < p) E) (effs cs ls) -> 
    (exists ls', its' = map oks ls' /\ Forall2 (fun l l' => exists d, l = d ++ l') ls ls' /\ In [] ls') ->
    sweep_res cs ls p (Ok None, (cs', its'))
| sweep_true cs' ls' :
    Forall2 (fun E L' => exists d, E = d ++ p :: L' /\ Forall (fun y => y < p) d) (effs cs ls) ls' ->
    sweep_res cs ls p (Ok (Some true), (cs', map oks ls'))
| sweep_false cs' ls' : List.length cs' = List.length ls' ->
    Forall2 (dropped p) (effs cs ls) (effs cs' ls') ->
    Exists (fun E' => ~ In p E') (effs cs' ls') ->
    sweep_res cs ls p (Ok (Some false), (cs', map oks ls')).

Lemma sweep_spec cs : forall ls p, List.length cs = List.length ls ->
  Forall sorted (effs cs ls) -> sweep_res cs ls p (sweep cs (map oks ls) p).
Proof.
  induction cs as [|c cs IH]; intros [|l ls] p Hl Hs; try discriminate.
  - cbn [sweep map]. apply (sweep_true [] [] p [] []). constructor.
  - cbn [sweep map]. injection Hl as Hl. cbn [effs combine map fst snd] in Hs.
    inversion Hs as [|? ? Hs1 Hs2]; subst. fold (effs cs ls) in *.
    destruct (advance_spec l c p Hs1) as [(c' & l' & d & E1 & E2 & Hd & Hc)|(E1 & Hall)].
    + rewrite E1. destruct (c' =? p) eqn:Ep.
      * assert (c' = p) by lia. subst c'.
        specialize (IH ls p Hl Hs2).
        destruct (sweep cs (map oks ls) p) as [r [cs1 is1]].
        inversion IH as [cs' its' Hex Hits|cs' ls' Hf2|cs' ls' Hlen Hf2 Hex]; subst.
        -- apply sweep_end; [right; assumption|].
           destruct Hits as (ls' & -> & Hf2 & Hin). exists (l' :: ls'). split; [reflexivity|]. split; [|right; assumption].
           constructor; [|assumption]. destruct d as [|y d]; [injection E2 as -> ->; exists []; reflexivity|].
           injection E2 as -> E2. exists (d ++ [p]). rewrite <- app_assoc. exact E2.
        -- change (oks l' :: map oks ls') with (map oks (l' :: ls')). apply sweep_true.
           cbn [effs combine map fst snd]. constructor; [|assumption]. exists d. auto.
        -- change (oks l' :: map oks ls') with (map oks (l' :: ls')). apply sweep_false; [simpl; lia| |].
           ++ cbn [effs combine map fst snd]. constructor; [|assumption]. exists d. auto.
           ++ right. assumption.
      * change (oks l' :: map oks ls) with (map oks (l' :: ls)). apply sweep_false; [simpl; lia| |].
        -- cbn [effs combine map fst snd]. constructor; [exists d; auto|]. apply Forall2_refl. intros; apply dropped_refl.
        -- left. cbn [fst snd]. intros Hin. rewrite E2 in Hs1. apply sorted_app in Hs1. apply sorted_cons in Hs1 as [_ Hs1].
           destruct Hin as [Hin|Hin]; [lia|]. rewrite Forall_forall in Hs1. apply Hs1 in Hin. lia.
    + rewrite E1. apply sweep_end; [left; exact Hall|].
      exists ([] :: ls). split; [reflexivity|]. split; [|left; reflexivity].
      constructor; [exists l; rewrite app_nil_r; reflexivity|]. apply Forall2_refl. intros x. exists []. reflexivity.
Qed.

Lemma occ_dropped p E E' x : dropped p E E' -> p <= x -> occ x E = occ x E'.
Proof. intros (d & -> & Hd) Hx. rewrite occ_app, (occ_lt x d p Hd Hx). reflexivity. Qed.

Lemma mincnt_dropped p Es Es' x : Forall2 (dropped p) Es Es' -> p <= x -> mincnt x Es = mincnt x Es'.
Proof.
  intros H Hx. induction H as [|E E' Es Es' HE HEs IH]; [reflexivity|].
  destruct HEs as [|E2 E2' Es Es' HE2 HEs].
  - simpl. eapply occ_dropped; eassumption.
  - rewrite (mincnt_cons x E), (mincnt_cons x E'), IH by discriminate. f_equal. eapply occ_dropped; eassumption.
Qed.

Lemma mincnt_exists_zero x Es : Exists (fun E => occ x E = 0%nat) Es -> mincnt x Es = 0%nat.
Proof.
  intros H. apply Exists_exists in H as (E & HE & H0). pose proof (mincnt_le x Es E HE). lia.
Qed.

Lemma sorted_ge p F x : sorted (p :: F) -> x < p -> occ x (p :: F) = 0%nat.
Proof.
  intros Hs Hx. apply occ_zero. intros [->|Hin]; [lia|]. apply sorted_cons in Hs as [_ Hs].
  rewrite Forall_forall in Hs. apply Hs in Hin. lia.
Qed.

Definition incl_tail (l l' : list Z) : Prop := exists d, l = d ++ l'.

(** *** One call *)
Inductive call_res (F : list Z) (Es : list (list Z)) : res (option Z) * (iter * list iter) -> Prop :=
| call_end F' ls' : (forall x, mincnt x (F :: Es) = 0%nat) -> incl_tail F F' ->
    (F' = [] \/ In [] ls') ->
    call_res F Es (Ok None, (oks F', map oks ls'))
| call_some p F' ls' :
    (forall x, mincnt x (F :: Es) = ((if (p =? x)%Z then 1 else 0) + mincnt x (F' :: ls'))%nat) ->
    (exists d, F = d ++ p :: F') -> Forall2 incl_tail Es ls' ->
    call_res F Es (Ok (Some p), (oks F', map oks ls')).

Lemma effs_nonempty cs ls : List.length cs = List.length ls -> ls <> [] -> effs cs ls <> [].
Proof. destruct cs, ls; try discriminate; congruence. Qed.

Lemma Forall2_dropped_sorted p Es Es' : Forall2 (dropped p) Es Es' -> Forall sorted Es -> Forall sorted Es'.
Proof.
  induction 1 as [|E E' Es Es' (d & -> & _) _ IH]; intros Hs; [constructor|].
  inversion Hs; subst. constructor; [eapply sorted_app; eassumption|auto].
Qed.

Lemma join_loop_spec F : forall cs ls, List.length cs = List.length ls -> ls <> [] ->
  sorted F -> Forall sorted (effs cs ls) ->
  call_res F (effs cs ls) (join_loop (oks F) cs (map oks ls)).
Proof.
  induction F as [|p F IH]; intros cs ls Hlen Hne HF Hs.
  - cbn [oks map join_loop]. apply (call_end [] _ [] ls); [|exists []; reflexivity|auto].
    intros x. rewrite mincnt_cons by (apply effs_nonempty; assumption). reflexivity.
  - cbn [oks map join_loop]. fold (oks F).
    pose proof (effs_nonempty _ _ Hlen Hne) as Hene.
    pose proof (sweep_spec cs ls p Hlen Hs) as Hsw.
    destruct (sweep cs (map oks ls) p) as [r [cs1 is1]].
    inversion Hsw as [cs' its' Hex Hits|cs' ls' Hf2|cs' ls' Hlen' Hf2 Hex]; subst.
    + destruct Hits as (ls' & -> & Hf2 & Hin). apply call_end; [|exists [p]; reflexivity|auto].
      intros x. rewrite mincnt_cons by assumption. destruct (Z_lt_dec x p).
      * rewrite (sorted_ge p F x HF) by assumption. reflexivity.
      * rewrite (mincnt_exists_zero x (effs cs ls)); [lia|].
        eapply Exists_impl; [|exact Hex]. intros E HE. eapply occ_lt; [exact HE|lia].
    + apply call_some; [|exists []; reflexivity|].
      * intros x. assert (Hf2' : Forall2 (fun E L' => occ x E = ((if (p =? x)%Z then 1 else 0) + occ x L')%nat \/ x < p) (effs cs ls) ls').
        { eapply Forall2_impl; [|exact Hf2]. intros E L' (d & -> & Hd). destruct (Z_lt_dec x p); [right; assumption|left].
          rewrite occ_app, (occ_lt x d p Hd) by lia. rewrite occ_cons. reflexivity. }
        rewrite mincnt_cons by assumption.
        assert (Hne' : ls' <> []) by (intros ->; inversion Hf2; congruence).
        rewrite mincnt_cons by assumption.
        destruct (Z_lt_dec x p) as [Hx|Hx].
        -- pose proof (sorted_ge p F x HF Hx) as H0. rewrite H0. rewrite occ_cons in H0.
           replace (p =? x) with false in * by lia. lia.
        -- assert (Hm : mincnt x (effs cs ls) = ((if (p =? x)%Z then 1 else 0) + mincnt x ls')%nat).
           { clear - Hf2' Hx Hene. induction Hf2' as [|E L Es Ls HE HEs IHf]; [congruence|].
             destruct HE as [HE|HE]; [|lia].
             destruct HEs as [|E2 L2 Es Ls HE2 HEs]; [exact HE|].
             rewrite (mincnt_cons x E), (mincnt_cons x L), IHf by discriminate. lia. }
           rewrite Hm, occ_cons. lia.
      * eapply Forall2_impl; [|exact Hf2]. intros E L' (d & -> & _). exists (d ++ [p]). rewrite <- app_assoc. reflexivity.
    + assert (Hne' : ls' <> []).
      { intros ->. destruct cs1; [|discriminate]. inversion Hex. }
      apply sorted_cons in HF as [HF HpF].
      assert (Hstep : forall x, mincnt x ((p :: F) :: effs cs ls) = mincnt x (F :: effs cs1 ls')).
      { intros x. rewrite !mincnt_cons by (try assumption; apply effs_nonempty; assumption).
        rewrite occ_cons. destruct (p =? x) eqn:Ex.
        - assert (x = p) by lia. subst x. rewrite (mincnt_dropped p _ _ p Hf2) by lia.
          rewrite (mincnt_exists_zero p (effs cs1 ls')); [lia|].
          eapply Exists_impl; [|exact Hex]. intros E HE. apply occ_zero; assumption.
        - destruct (Z_lt_dec x p).
          + rewrite (occ_zero x F); [lia|]. intros Hin. rewrite Forall_forall in HpF. apply HpF in Hin. lia.
          + rewrite (mincnt_dropped p _ _ x Hf2) by lia. lia. }
      specialize (IH cs1 ls' Hlen' Hne' HF (Forall2_dropped_sorted _ _ _ Hf2 Hs)).
      inversion IH as [F' l2 Hz Htl Hend Heq|q F' l2 Hz Htl Hf Heq].
      * apply call_end; [|destruct Htl as [d ->]; exists (p :: d); reflexivity|assumption].
        intros x. rewrite Hstep. apply Hz.
      * apply call_some.
        -- intros x. rewrite Hstep. apply Hz.
        -- destruct Htl as [d ->]. exists (p :: d). reflexivity.
        -- clear - Hf2 Hf. revert l2 Hf. induction Hf2 as [|E E' Es Es' (d & -> & _) _ IHf]; intros l2 Hf; inversion Hf as [|? ? ? ? (d2 & ->)]; subst; constructor; auto.
           exists (d ++ d2). apply app_assoc.
Qed.

Lemma first_values_spec ls :
  (exists cs ls', first_values (map oks ls) = (Ok (Some cs), map oks ls') /\ List.length cs = List.length ls' /\ effs cs ls' = ls) \/
  (In [] ls /\ exists ls', first_values (map oks ls) = (Ok None, map oks ls') /\ In [] ls').
Proof.
  induction ls as [|l ls IH].
  - left. exists [], []. repeat split.
  - destruct l as [|x l].
    + right. split; [left; reflexivity|]. exists ([] :: ls). split; [reflexivity|left; reflexivity].
    + cbn [map first_values oks pull]. fold (oks l). destruct IH as [(cs & ls' & E & Hl & He)|(Hin & ls' & E & Hin')].
      * left. rewrite E. exists (x :: cs), (l :: ls'). split; [reflexivity|]. split; [simpl; lia|].
        cbn [effs combine map fst snd]. unfold effs in He. rewrite He. reflexivity.
      * right. split; [right; assumption|]. rewrite E. exists (l :: ls'). split; [reflexivity|right; assumption].
Qed.

Inductive next_res (ls : list (list Z)) : res (option Z) * list iter -> Prop :=
| next_end ls' : (forall x, mincnt x ls = 0%nat) -> In [] ls' -> next_res ls (Ok None, map oks ls')
| next_some p ls' :
    (forall x, mincnt x ls = ((if (p =? x)%Z then 1 else 0) + mincnt x ls')%nat) ->
    Forall2 incl_tail ls ls' -> (exists d, hd [] ls = d ++ p :: hd [] ls') ->
    next_res ls (Ok (Some p), map oks ls').

Lemma join_next_spec ls : ls <> [] -> Forall sorted ls -> next_res ls (join_next (map oks ls)).
Proof.
  intros Hne Hs. destruct ls as [|F ls]; [congruence|].
  inversion Hs as [|? ? HF Hls]; subst.
  destruct ls as [|l2 ls].
  - cbn [map join_next]. destruct F as [|p F]; cbn [oks map pull].
    + apply (next_end [[]] [[]]); [reflexivity|left; reflexivity].
    + apply (next_some [p :: F] p [F]).
      * intros x. cbn [mincnt]. apply occ_cons.
      * constructor; [exists [p]; reflexivity|constructor].
      * exists []. reflexivity.
  - unfold join_next. cbn [map]. change (oks l2 :: map oks ls) with (map oks (l2 :: ls)).
    set (others := l2 :: ls) in *. assert (Hon : others <> []) by discriminate.
    destruct (first_values_spec others) as [(cs & ls' & E & Hl & He)|(Hin & ls' & E & Hin')]; rewrite E.
    + assert (Hn' : ls' <> []) by (intros ->; destruct cs; [|discriminate]; unfold effs in He; simpl in He; congruence).
      pose proof (join_loop_spec F cs ls' Hl Hn' HF) as Hj. rewrite He in Hj. specialize (Hj Hls).
      destruct (join_loop (oks F) cs (map oks ls')) as [r [f1 o1]].
      inversion Hj as [F' l3 Hz Htl Hend|q F' l3 Hz Htl Hf]; subst.
      * change (oks F' :: map oks l3) with (map oks (F' :: l3)). apply next_end; [exact Hz|].
        destruct Hend as [->|Hend]; [left; reflexivity|right; assumption].
      * change (oks F' :: map oks l3) with (map oks (F' :: l3)). apply next_some; [exact Hz| |exact Htl].
        constructor; [|assumption]. destruct Htl as [d ->]. exists (d ++ [q]). rewrite <- app_assoc. reflexivity.
    + change (oks F :: map oks ls') with (map oks (F :: ls')). apply next_end; [|right; assumption].
      intros x. apply mincnt_exists_zero. apply Exists_exists. exists []. split; [right; assumption|reflexivity].
Qed.

Lemma incl_tail_sorted ls ls' : Forall2 incl_tail ls ls' -> Forall sorted ls -> Forall sorted ls'.
Proof.
  induction 1 as [|l l' ls ls' (d & ->) _ IH]; intros Hs; [constructor|].
  inversion Hs; subst. constructor; [eapply sorted_app; eassumption|auto].
Qed.

Lemma join_calls_spec fuel : forall ls, ls <> [] -> Forall sorted ls -> (List.length (hd [] ls) < fuel)%nat ->
  exists l, join_calls fuel (map oks ls) = oks l /\ (exists d, incl l (hd [] ls) /\ d = l) /\ sorted l /\ forall x, occ x l = mincnt x ls.
Proof.
  induction fuel as [|fuel IH]; intros ls Hne Hs Hf; [lia|].
  cbn [join_calls]. pose proof (join_next_spec ls Hne Hs) as Hn.
  destruct (join_next (map oks ls)) as [r its1].
  inversion Hn as [ls' Hz Hend|p ls' Hz Htl Hhd]; subst.
  - exists []. split; [reflexivity|]. split; [exists []; split; [intros x []|reflexivity]|]. split; [constructor|].
    intros x. rewrite Hz. reflexivity.
  - destruct Hhd as (d & Hhd).
    destruct (IH ls') as (l & El & (d2 & Hincl & _) & Hsl & Hocc).
    + intros ->. inversion Htl; subst. congruence.
    + eapply incl_tail_sorted; eassumption.
    + rewrite Hhd, app_length in Hf. simpl in Hf. lia.
    + exists (p :: l). rewrite El. split; [reflexivity|].
      assert (HsF : sorted (hd [] ls)) by (destruct ls; [congruence|inversion Hs; assumption]).
      rewrite Hhd in HsF. apply sorted_app in HsF. apply sorted_cons in HsF as [_ Hp].
      split; [|split].
      * exists (p :: l). split; [|reflexivity]. rewrite Hhd. intros x [<-|Hx]; apply in_or_app; right; [left; reflexivity|right; auto].
      * constructor; [assumption|]. rewrite Forall_forall in *. intros x Hx. apply Hp. apply Hincl. assumption.
      * intros x. rewrite occ_cons, Hz, Hocc. reflexivity.
Qed.

Lemma join_intersection ls :
  ls <> [] -> Forall sorted ls ->
  exists l, join_positions (map list_iterate ls) = list_iterate l /\ is_intersection ls l.
Proof.
  intros Hne Hs. unfold join_positions. change (map list_iterate ls) with (map oks ls).
  assert (El : List.length (hd [] (map oks ls)) = List.length (hd [] ls)).
  { destruct ls; [congruence|]. simpl. apply map_length. }
  rewrite El. destruct (join_calls_spec (S (List.length (hd [] ls))) ls Hne Hs) as (l & E & _ & Hsl & Hocc); [lia|].
  exists l. split; [exact E|]. split; [assumption|]. intros x. rewrite Hocc. split.
  - apply mincnt_ex; assumption.
  - apply mincnt_le.
Qed.

(** *** The end is permanent *)
Fixpoint iterate_next (n : nat) (its : list iter) : list iter :=
  match n with O => its | S n' => iterate_next n' (snd (join_next its)) end.

Lemma mincnt_nil_zero x ls : In [] ls -> mincnt x ls = 0%nat.
Proof. intros H. apply mincnt_exists_zero. apply Exists_exists. exists []. split; [assumption|reflexivity]. Qed.

(** Without any sortedness, on iterators that do not fail. *)
Lemma advance_shape l : forall cur p,
  (exists c' l', advance cur (oks l) p = (Ok (Some c'), oks l')) \/ advance cur (oks l) p = (Ok None, []).
Proof.
  induction l as [|y l IH]; intros cur p; cbn [oks map advance]; destruct (cur <? p); eauto.
  - left. exists cur, []. reflexivity.
  - left. exists cur, (y :: l). reflexivity.
Qed.

Lemma sweep_shape cs : forall ls p, exists r cs' ls', sweep cs (map oks ls) p = (Ok r, (cs', map oks ls')) /\
  (r = None -> In [] ls').
Proof.
  induction cs as [|c cs IH]; intros [|l ls] p; cbn [sweep map].
  - exists (Some true), [], []. split; [reflexivity|discriminate].
  - exists (Some true), [], (l :: ls). split; [reflexivity|discriminate].
  - exists (Some true), (c :: cs), []. split; [reflexivity|discriminate].
  - destruct (advance_shape l c p) as [(c' & l' & E)|E]; rewrite E.
    + destruct (c' =? p).
      * destruct (IH ls p) as (r & cs' & ls' & E2 & Hr). rewrite E2.
        exists r, (c' :: cs'), (l' :: ls'). split; [reflexivity|]. intros H; right; auto.
      * exists (Some false), (c' :: cs), (l' :: ls). split; [reflexivity|discriminate].
    + exists None, (c :: cs), ([] :: ls). split; [reflexivity|]. left; reflexivity.
Qed.

Lemma join_loop_shape F : forall cs ls, exists r F' ls', join_loop (oks F) cs (map oks ls) = (Ok r, (oks F', map oks ls')) /\
  (r = None -> F' = [] \/ In [] ls').
Proof.
  induction F as [|p F IH]; intros cs ls; cbn [oks map join_loop].
  - exists None, [], ls. split; [reflexivity|auto].
  - fold (oks F). destruct (sweep_shape cs ls p) as (r & cs' & ls' & E & Hr). rewrite E.
    destruct r as [[|]|].
    + exists (Some p), F, ls'. split; [reflexivity|discriminate].
    + apply IH.
    + exists None, F, ls'. split; [reflexivity|auto].
Qed.

Lemma join_next_exhausted ls : In [] ls ->
  exists ls', join_next (map oks ls) = (Ok None, map oks ls') /\ In [] ls'.
Proof.
  intros Hin. destruct ls as [|F ls]; [destruct Hin|]. destruct ls as [|l2 ls].
  - destruct Hin as [->|[]]. exists [[]]. split; [reflexivity|left; reflexivity].
  - unfold join_next. cbn [map]. change (oks l2 :: map oks ls) with (map oks (l2 :: ls)).
    destruct (first_values_spec (l2 :: ls)) as [(cs & ls' & E & Hl & He)|(Hin2 & ls' & E & Hin')]; rewrite E.
    + destruct Hin as [->|Hin].
      * cbn [oks map join_loop]. exists ([] :: ls'). split; [reflexivity|left; reflexivity].
      * rewrite <- He in Hin. unfold effs in Hin. apply in_map_iff in Hin as (? & Hx & _). discriminate.
    + exists (F :: ls'). split; [reflexivity|right; assumption].
Qed.

Lemma join_end_stable ls : ls <> [] -> fst (join_next (map list_iterate ls)) = Ok None ->
  forall n, fst (join_next (iterate_next n (map list_iterate ls))) = Ok None.
Proof.
  intros Hne H0 n. change (map list_iterate ls) with (map oks ls) in *.
  assert (Hgen : forall n ls, In [] ls -> fst (join_next (iterate_next n (map oks ls))) = Ok None).
  { clear. induction n as [|n IH]; intros ls Hin; cbn [iterate_next].
    - destruct (join_next_exhausted ls Hin) as (ls' & E & _). rewrite E. reflexivity.
    - destruct (join_next_exhausted ls Hin) as (ls' & E & Hin'). rewrite E. cbn [snd]. apply IH; assumption. }
  destruct n as [|n]; [exact H0|]. cbn [iterate_next].
  assert (Hs : exists ls', snd (join_next (map oks ls)) = map oks ls' /\ In [] ls').
  { destruct ls as [|F ls]; [congruence|]. destruct ls as [|l2 ls].
    - cbn [map join_next] in *. destruct F as [|p F]; [|discriminate]. exists [[]]. split; [reflexivity|left; reflexivity].
    - unfold join_next in *. cbn [map] in *. change (oks l2 :: map oks ls) with (map oks (l2 :: ls)) in *.
      destruct (first_values_spec (l2 :: ls)) as [(cs & ls' & E & Hl & He)|(Hin2 & ls' & E & Hin')]; rewrite E in *.
      + destruct (join_loop_shape F cs ls') as (r & F' & ls2 & Ej & Hr). rewrite Ej in *.
        cbn [fst snd] in *. injection H0 as ->. exists (F' :: ls2). split; [reflexivity|].
        destruct (Hr eq_refl) as [->|Hi]; [left; reflexivity|right; assumption].
      + exists (F :: ls'). split; [reflexivity|right; assumption]. }
  destruct Hs as (ls' & -> & Hin). apply Hgen; assumption.
Qed.

(** Intersections are unique. *)
Lemma sorted_occ_unique a : forall b, sorted a -> sorted b -> (forall x, occ x a = occ x b) -> a = b.
Proof.
  induction a as [|x a IH]; intros b Ha Hb Hocc.
  - destruct b as [|y b]; [reflexivity|]. specialize (Hocc y). rewrite occ_cons, Z.eqb_refl in Hocc. cbn in Hocc. discriminate.
  - destruct b as [|y b].
    + specialize (Hocc x). rewrite occ_cons, Z.eqb_refl in Hocc. cbn in Hocc. discriminate.
    + assert (x = y).
      { apply sorted_cons in Ha as [_ Ha]. apply sorted_cons in Hb as [_ Hb]. rewrite Forall_forall in *.
        assert (Hx : In x (y :: b)).
        { apply (proj2 (count_occ_In Z.eq_dec (y :: b) x)). fold (occ x (y :: b)). rewrite <- Hocc, occ_cons, Z.eqb_refl. lia. }
        assert (Hy : In y (x :: a)).
        { apply (proj2 (count_occ_In Z.eq_dec (x :: a) y)). fold (occ y (x :: a)). rewrite Hocc, occ_cons, Z.eqb_refl. lia. }
        destruct Hx as [->|Hx]; [reflexivity|]. destruct Hy as [->|Hy]; [reflexivity|].
        apply Ha in Hy. apply Hb in Hx. lia. }
      subst y. f_equal. apply IH.
      * apply sorted_cons in Ha. tauto.
      * apply sorted_cons in Hb. tauto.
      * intros z. specialize (Hocc z). rewrite !occ_cons in Hocc. lia.
Qed.

Lemma intersection_unique ls a b : is_intersection ls a -> is_intersection ls b -> a = b.
Proof.
  intros [Ha1 Ha2] [Hb1 Hb2]. apply sorted_occ_unique; auto. intros x.
  destruct (Ha2 x) as [(m & Hm & Em) Hma]. destruct (Hb2 x) as [(m2 & Hm2 & Em2) Hmb].
  specialize (Hma m2 Hm2). specialize (Hmb m Hm). lia.
Qed.

(** *** Every single call *)
Fixpoint nth_call (n : nat) (its : list iter) : res (option Z) :=
  match n with O => fst (join_next its) | S n' => nth_call n' (snd (join_next its)) end.

Lemma nth_call_iterate n : forall its, nth_call n its = fst (join_next (iterate_next n its)).
Proof. induction n; intros; cbn [nth_call iterate_next]; auto. Qed.

Lemma join_calls_nth fuel : forall ls l, ls <> [] -> Forall sorted ls -> join_calls fuel (map oks ls) = oks l ->
  forall n, nth_call n (map oks ls) = Ok (nth_error l n).
Proof.
  induction fuel as [|fuel IH]; intros ls l Hne Hs E n; [destruct l; discriminate|].
  cbn [join_calls] in E. pose proof (join_next_spec ls Hne Hs) as Hn.
  pose proof (join_end_stable ls Hne) as Hend. change (map list_iterate ls) with (map oks ls) in Hend.
  rewrite nth_call_iterate. destruct (join_next (map oks ls)) as [r its1] eqn:Ej.
  inversion Hn as [ls' Hz Hend'|p ls' Hz Htl Hhd]; subst.
  - destruct l; [|discriminate]. rewrite Hend by reflexivity. destruct n; reflexivity.
  - destruct l as [|q l]; [discriminate|]. injection E as -> E. destruct n as [|n]; cbn [iterate_next].
    + rewrite Ej. reflexivity.
    + rewrite Ej. cbn [snd]. rewrite <- nth_call_iterate. cbn [nth_error]. apply IH; auto.
      * intros ->. inversion Htl; subst. congruence.
      * eapply incl_tail_sorted; eassumption.
Qed.

Theorem join_nth ls : ls <> [] -> Forall sorted ls ->
  exists l, is_intersection ls l /\ forall n, nth_call n (map (map Ok) ls) = Ok (nth_error l n).
Proof.
  intros Hne Hs. destruct (join_intersection ls Hne Hs) as (l & E & Hl). exists l. split; [assumption|].
  apply (join_calls_nth _ ls l Hne Hs E).
Qed.
