(** Comparison is a total order on each type; sorting sorts. *)
From Coq Require Import List ZArith Lia Bool String Sorted Permutation.
From Coq Require Import Strings.Byte Floats.SpecFloat.
From Verif Require Import Base BaseFacts Codec CodecFacts Value Parser Sort SpecIndex IndexFacts SpecOrder.
Import ListNotations.
Open Scope Z_scope.

(** *** Floats *)
Lemma digits2_pos_bound m : 2 ^ (Zpos (digits2_pos m) - 1) <= Zpos m < 2 ^ Zpos (digits2_pos m).
Proof.
  induction m as [m IH|m IH|]; cbn [digits2_pos].
  - rewrite Pos2Z.inj_succ. replace (Z.succ (Zpos (digits2_pos m)) - 1) with (Z.succ (Zpos (digits2_pos m) - 1)) by lia.
    rewrite !Z.pow_succ_r by lia. lia.
  - rewrite Pos2Z.inj_succ. replace (Z.succ (Zpos (digits2_pos m)) - 1) with (Z.succ (Zpos (digits2_pos m) - 1)) by lia.
    rewrite !Z.pow_succ_r by lia. lia.
  - cbn. lia.
Qed.

Lemma canonical_lt m e m' e' : valid_binary 53 1024 (S754_finite false m e) = true ->
  valid_binary 53 1024 (S754_finite false m' e') = true -> e < e' ->
  Zpos m * 2 ^ (e - Z.min e e') < Zpos m' * 2 ^ (e' - Z.min e e').
Proof.
  unfold valid_binary, bounded, canonical_mantissa, fexp, SpecFloat.emin. intros H H' He.
  apply andb_prop in H as [H _]. apply andb_prop in H' as [H' _]. apply Zeq_bool_eq in H, H'.
  pose proof (digits2_pos_bound m) as B. pose proof (digits2_pos_bound m') as B'.
  assert (D : Zpos (digits2_pos m) <= 53) by lia. assert (D' : Zpos (digits2_pos m') = 53) by lia.
  rewrite Z.min_l by lia. rewrite Z.sub_diag, Z.mul_1_r.
  assert (Hm : Zpos m < 2 ^ 53) by (eapply Z.lt_le_trans; [apply B|apply Z.pow_le_mono_r; lia]).
  rewrite D' in B'. change (53 - 1) with 52 in B'.
  assert (H2 : 2 <= 2 ^ (e' - e)). { change 2 with (2 ^ 1) at 1. apply Z.pow_le_mono_r; lia. }
  change (2 ^ 53) with 9007199254740992 in *. change (2 ^ 52) with 4503599627370496 in *. nia.
Qed.

Lemma SFcompare_finite s m e s' m' e' :
  SFcompare (S754_finite s m e) (S754_finite s' m' e') =
  match s, s' with
  | true, false => Some Lt
  | false, true => Some Gt
  | true, true => Some (match e ?= e' with Lt => Gt | Gt => Lt | Eq => CompOpp (m ?= m')%positive end)
  | false, false => Some (match e ?= e' with Lt => Lt | Gt => Gt | Eq => (m ?= m')%positive end)
  end.
Proof. destruct s, s'; cbn; try reflexivity; destruct (e ?= e'); reflexivity. Qed.

Lemma scaled_same a b e : a * 2 ^ (e - Z.min e e) < b * 2 ^ (e - Z.min e e) <-> a < b.
Proof. rewrite Z.min_id, Z.sub_diag. cbn. lia. Qed.

Lemma pos_scaled m e e' : 0 < Zpos m * 2 ^ (e - Z.min e e').
Proof. apply Z.mul_pos_pos; [lia|]. apply Z.pow_pos_nonneg; lia. Qed.

Definition scaled_lt (a e b e' : Z) : Prop := a * 2 ^ (e - Z.min e e') < b * 2 ^ (e' - Z.min e e').

Lemma finite_lt_iff m e m' e' : valid_binary 53 1024 (S754_finite false m e) = true ->
  valid_binary 53 1024 (S754_finite false m' e') = true ->
  (match e ?= e' with Lt => Lt | Gt => Gt | Eq => (m ?= m')%positive end = Lt <-> scaled_lt (Zpos m) e (Zpos m') e').
Proof.
  intros V V'. unfold scaled_lt. destruct (Z.compare_spec e e') as [->|He|He].
  - rewrite scaled_same. change ((m ?= m')%positive = Lt <-> (Zpos m ?= Zpos m') = Lt). reflexivity.
  - split; [intros _; apply canonical_lt; assumption|reflexivity].
  - split; [discriminate|]. pose proof (canonical_lt m' e' m e V' V He) as H. rewrite Z.min_comm in H. lia.
Qed.

Lemma float_before_spec x y : x <> S754_nan -> y <> S754_nan ->
  valid_binary 53 1024 x = true -> valid_binary 53 1024 y = true ->
  (SFcompare x y = Some Lt <-> float_before x y).
Proof.
  intros Nx Ny Vx Vy. split.
  - destruct x as [s|s| |s m e], y as [s'|s'| |s' m' e']; try congruence; intros H.
    + discriminate.
    + destruct s'; [discriminate|]. apply fb_plus; congruence.
    + destruct s'; [discriminate|]. eapply fb_num; [reflexivity|reflexivity|]. rewrite Z.mul_0_l, (Z.min_comm 0). apply pos_scaled.
    + destruct s; [|discriminate]. apply fb_minus; congruence.
    + destruct s, s'; try discriminate. apply fb_minus; congruence.
    + destruct s; [|discriminate]. apply fb_minus; congruence.
    + destruct s; [|discriminate]. eapply fb_num; [reflexivity|reflexivity|]. rewrite Z.mul_0_l.
      pose proof (pos_scaled m e 0). lia.
    + destruct s'; [discriminate|]. apply fb_plus; congruence.
    + rewrite SFcompare_finite in H. eapply fb_num; [reflexivity|reflexivity|]. cbv beta iota.
      destruct s, s'; try discriminate.
      * assert (H2 : match e' ?= e with Lt => Lt | Gt => Gt | Eq => (m' ?= m)%positive end = Lt).
        { rewrite (Z.compare_antisym e e'), (Pos.compare_antisym m m'). destruct (e ?= e'); [|discriminate|reflexivity].
          injection H as H. cbn. exact H. }
        apply finite_lt_iff in H2; [|assumption..]. unfold scaled_lt in H2. rewrite Z.min_comm in H2. lia.
      * pose proof (pos_scaled m e e'). pose proof (pos_scaled m' e' e). rewrite Z.min_comm in H1. lia.
      * injection H as H. apply finite_lt_iff in H; assumption.
  - intros H. destruct H as [x y a e b e' Ex Ey H|y Hy Hn|x Hx Hn].
    + destruct x as [s|s| |s m e1], y as [s'|s'| |s' m' e2]; try discriminate; cbn [float_num] in Ex, Ey;
        injection Ex as <- <-; injection Ey as <- <-.
      * lia.
      * pose proof (pos_scaled m' e2 0). rewrite (Z.min_comm e2 0) in H0. destruct s'; [lia|reflexivity].
      * pose proof (pos_scaled m e1 0). destruct s; [reflexivity|lia].
      * rewrite SFcompare_finite. pose proof (pos_scaled m e1 e2). pose proof (pos_scaled m' e2 e1). rewrite (Z.min_comm e2 e1) in H1.
        destruct s, s'; try lia; try reflexivity.
        -- assert (H2 : scaled_lt (Zpos m') e2 (Zpos m) e1) by (unfold scaled_lt; rewrite (Z.min_comm e2 e1); lia).
           apply finite_lt_iff in H2; [|assumption..]. rewrite (Z.compare_antisym e1 e2), (Pos.compare_antisym m m') in H2.
           destruct (e1 ?= e2); cbn in H2 |- *; try discriminate; try reflexivity. f_equal. exact H2.
        -- f_equal. apply finite_lt_iff; assumption.
    + destruct y as [s'|s'| |s' m' e']; try congruence; try reflexivity. destruct s'; [congruence|reflexivity].
    + destruct x as [s|s| |s m e]; try congruence; try reflexivity. destruct s; [reflexivity|congruence].
Qed.

Lemma SFcompare_some x y : x <> S754_nan -> y <> S754_nan -> exists c, SFcompare x y = Some c.
Proof.
  intros. destruct x as [s|s| |s m e], y as [s'|s'| |s' m' e']; try congruence; cbn; try (destruct s); try (destruct s'); eauto.
Qed.

Lemma SFcompare_swap x y : SFcompare y x = option_map CompOpp (SFcompare x y).
Proof.
  destruct x as [s|s| |s m e], y as [s'|s'| |s' m' e']; try rewrite !SFcompare_finite; cbn; try (destruct s); try (destruct s'); try reflexivity.
  - rewrite (Z.compare_antisym e e'), (Pos.compare_antisym m m'). destruct (e ?= e'); cbn; rewrite ?CompOpp_involutive; reflexivity.
  - rewrite (Z.compare_antisym e e'), (Pos.compare_antisym m m'). destruct (e ?= e'); cbn; rewrite ?CompOpp_involutive; reflexivity.
Qed.

Lemma fin_trans (e e1 e2 : Z) (m m1 m2 : positive) :
  match e ?= e1 with Lt => Lt | Gt => Gt | Eq => (m ?= m1)%positive end = Lt ->
  match e1 ?= e2 with Lt => Lt | Gt => Gt | Eq => (m1 ?= m2)%positive end = Lt ->
  match e ?= e2 with Lt => Lt | Gt => Gt | Eq => (m ?= m2)%positive end = Lt.
Proof.
  destruct (Z.compare_spec e e1), (Z.compare_spec e1 e2); intros A B; try discriminate; destruct (Z.compare_spec e e2); try lia; try reflexivity; subst;
    rewrite ?Pos.compare_lt_iff in *; lia.
Qed.

Lemma SFcompare_trans x y z : SFcompare x y = Some Lt -> SFcompare y z = Some Lt -> SFcompare x z = Some Lt.
Proof.
  destruct x as [s|s| |s m e], y as [s1|s1| |s1 m1 e1], z as [s2|s2| |s2 m2 e2]; try rewrite !SFcompare_finite; cbn;
    try (destruct s); try (destruct s1); try (destruct s2); try discriminate; try reflexivity; intros H H'.
  - injection H as H. injection H' as H'. f_equal.
    assert (A : match e1 ?= e with Lt => Lt | Gt => Gt | Eq => (m1 ?= m)%positive end = Lt).
    { rewrite (Z.compare_antisym e e1), (Pos.compare_antisym m m1). destruct (e ?= e1); cbn in *; congruence. }
    assert (B : match e2 ?= e1 with Lt => Lt | Gt => Gt | Eq => (m2 ?= m1)%positive end = Lt).
    { rewrite (Z.compare_antisym e1 e2), (Pos.compare_antisym m1 m2). destruct (e1 ?= e2); cbn in *; congruence. }
    pose proof (fin_trans _ _ _ _ _ _ B A) as C.
    rewrite (Z.compare_antisym e e2), (Pos.compare_antisym m m2) in C. destruct (e ?= e2); cbn in *; congruence.
  - injection H as H. injection H' as H'. f_equal. eapply fin_trans; eassumption.
Qed.

(** *** Strings *)
Lemma Z_of_byte_inj x y : Z_of_byte x = Z_of_byte y -> x = y.
Proof. intros H. rewrite <- (byte_of_Z_of_byte x), <- (byte_of_Z_of_byte y), H. reflexivity. Qed.

Lemma bytes_ltb_spec a : forall b, bytes_ltb a b = true <-> lex a b.
Proof.
  induction a as [|x a IH]; intros [|y b]; cbn [bytes_ltb].
  - split; [discriminate|inversion 1].
  - split; [constructor|reflexivity].
  - split; [discriminate|inversion 1].
  - destruct (beqb x y) eqn:E.
    + apply beqb_eq in E. subst. rewrite IH. split; [apply lex_next|]. inversion 1; subst; [lia|assumption].
    + apply beqb_neq in E. split.
      * intros H. apply lex_here. lia.
      * inversion 1; subst; [lia|congruence].
Qed.

Lemma lex_irrefl a : ~ lex a a.
Proof. induction a; inversion 1; subst; [lia|auto]. Qed.
Lemma lex_trans a b c : lex a b -> lex b c -> lex a c.
Proof.
  intros H. revert c. induction H as [y b|x y a b Hxy|x a b H IH]; intros c H2; inversion H2 as [|? y' ? b' Hy|? ? b' Hb]; subst.
  - apply lex_nil.
  - apply lex_nil.
  - apply lex_here. lia.
  - apply lex_here. assumption.
  - apply lex_here. assumption.
  - apply lex_next. auto.
Qed.
Lemma lex_total a : forall b, a <> b -> lex a b \/ lex b a.
Proof.
  induction a as [|x a IH]; intros [|y b] H; [congruence|left; apply lex_nil|right; apply lex_nil|].
  destruct (Z.lt_trichotomy (Z_of_byte x) (Z_of_byte y)) as [L|[E|L]].
  - left. apply lex_here. assumption.
  - apply Z_of_byte_inj in E. subst. destruct (IH b) as [L|L]; [congruence| |]; [left|right]; apply lex_next; assumption.
  - right. apply lex_here. assumption.
Qed.

(** *** Comparison *)
Definition cmp_res (c : comparison) : res (option bool) :=
  Ok match c with Eq => None | Lt => Some true | Gt => Some false end.

Lemma compare_typed t a b : has_type t a -> has_type t b ->
  exists c, compare a b = cmp_res c /\ compare b a = cmp_res (CompOpp c) /\
    (c = Eq <-> same_value a b) /\ (c = Lt <-> before a b) /\ (c = Gt <-> before b a).
Proof.
  destruct t, a as [|x|x|x|x| |], b as [|y|y|y|y| |]; cbn [has_type]; try tauto; intros Ha Hb; cbn [compare].
  - exists (match x, y with false, true => Lt | true, false => Gt | _, _ => Eq end).
    destruct x, y; cbn; repeat split; try reflexivity; try discriminate; intros H; inversion H; subst; constructor.
  - exists (x ?= y). rewrite (Z.eqb_sym y x). destruct (Z.compare_spec x y) as [->|H|H]; cbn [CompOpp].
    + rewrite Z.eqb_refl. repeat split; try discriminate; intros H; try (inversion H; lia). constructor.
    + replace (x =? y) with false by lia. replace (x <? y) with true by lia. replace (y <? x) with false by lia.
      repeat split; try discriminate; intros H2; try (constructor; assumption); inversion H2; subst; lia.
    + replace (x =? y) with false by lia. replace (x <? y) with false by lia. replace (y <? x) with true by lia.
      repeat split; try discriminate; intros H2; try (constructor; assumption); inversion H2; subst; lia.
  - destruct Ha as [Nx Vx], Hb as [Ny Vy]. destruct (SFcompare_some x y Nx Ny) as (c & Ec). exists c.
    pose proof (SFcompare_swap x y) as Es. rewrite Ec in Es. cbn in Es.
    unfold SFeqb, SFltb. rewrite Ec, Es.
    pose proof (float_before_spec x y Nx Ny Vx Vy) as F1. pose proof (float_before_spec y x Ny Nx Vy Vx) as F2.
    rewrite Ec in F1. rewrite Es in F2.
    assert (B1 : before (VFloat x) (VFloat y) <-> c = Lt).
    { split; [inversion 1; subst; apply F1 in H2; congruence|intros ->; constructor; apply F1; reflexivity]. }
    assert (B2 : before (VFloat y) (VFloat x) <-> c = Gt).
    { split; [inversion 1; subst; apply F2 in H2; destruct c; cbn in H2; congruence|intros ->; constructor; apply F2; reflexivity]. }
    assert (B3 : same_value (VFloat x) (VFloat y) <-> c = Eq).
    { rewrite <- go_eq_spec. cbn. unfold SFeqb. rewrite Ec. destruct c; split; congruence. }
    rewrite B1, B2, B3. destruct c; cbn; repeat split; congruence.
  - pose proof (lex_irrefl x) as Ix. rewrite (bytes_eqb_sym y x). destruct (bytes_eqb x y) eqn:E.
    + apply bytes_eqb_eq in E. subst y. exists Eq. repeat split; try discriminate; intros H; try (inversion H; subst; contradiction). constructor.
    + apply bytes_eqb_neq in E. pose proof (bytes_ltb_spec x y) as L1. pose proof (bytes_ltb_spec y x) as L2.
      destruct (lex_total x y E) as [L|L].
      * exists Lt. assert (~ lex y x) by (intros L'; apply (lex_irrefl x); eapply lex_trans; eassumption).
        replace (bytes_ltb x y) with true by (symmetry; apply L1; assumption).
        replace (bytes_ltb y x) with false by (symmetry; apply not_true_iff_false; rewrite L2; assumption).
        repeat split; try discriminate; intros H2; try (constructor; assumption); inversion H2; subst; congruence.
      * exists Gt. assert (~ lex x y) by (intros L'; apply (lex_irrefl x); eapply lex_trans; eassumption).
        replace (bytes_ltb y x) with true by (symmetry; apply L2; assumption).
        replace (bytes_ltb x y) with false by (symmetry; apply not_true_iff_false; rewrite L1; assumption).
        repeat split; try discriminate; intros H2; try (constructor; assumption); inversion H2; subst; congruence.
Qed.

Lemma before_trans t a b c : has_type t a -> has_type t b -> has_type t c -> before a b -> before b c -> before a c.
Proof.
  intros Ha Hb Hc H1 H2. destruct H1; inversion H2; subst.
  - constructor. lia.
  - constructor. eapply lex_trans; eassumption.
  - destruct t; cbn in *; try tauto. constructor.
    apply float_before_spec; try tauto. eapply SFcompare_trans; [apply (float_before_spec x y)|apply (float_before_spec y y0)]; try tauto; assumption.
Qed.

Lemma before_same_l a a' b : same_value a a' -> before a b -> before a' b.
Proof.
  intros H H2. destruct H; inversion H2; subst; constructor; try assumption.
  match goal with H : float_before _ _ |- _ => rename H into F end.
  inversion F as [? ? ? ? ? ? Ex Ey L|?|? ? ?]; subst.
  - eapply fb_num; [|exact Ey|exact L]. rewrite <- Ex. reflexivity.
  - apply fb_plus; congruence.
Qed.
Lemma before_same_r a b b' : same_value b b' -> before a b -> before a b'.
Proof.
  intros H H2. destruct H; inversion H2; subst; constructor; try assumption.
  match goal with H : float_before _ _ |- _ => rename H into F end.
  inversion F as [? ? ? ? ? ? Ex Ey L|?|? ? ?]; subst.
  - eapply fb_num; [exact Ex| |exact L]. rewrite <- Ey. reflexivity.
  - apply fb_minus; congruence.
Qed.

Lemma compare_mixed a b : (forall t, ~ (has_type t a /\ has_type t b)) ->
  (forall f, a <> VFloat f) \/ (forall f, b <> VFloat f) -> exists e, compare a b = Err e.
Proof.
  intros H HF. destruct a, b; cbn; eauto; exfalso.
  - apply (H TBool). cbn. auto.
  - apply (H TInt). cbn. auto.
  - destruct HF as [HF|HF]; eapply HF; reflexivity.
  - apply (H TString). cbn. auto.
Qed.

(** *** Sorting *)
Lemma ins_rev_perm {A} lt (x : A) rl : Permutation (x :: rl) (ins_rev lt x rl).
Proof.
  induction rl as [|y rl IH]; [reflexivity|]. cbn [ins_rev]. destruct (lt x y); [|reflexivity].
  rewrite perm_swap. constructor. exact IH.
Qed.

Lemma ins_rev_sorted {A} (lt : A -> A -> bool) l x rl : strict_weak l lt -> In x l -> incl rl l ->
  StronglySorted (fun a b => lt a b = false) rl -> StronglySorted (fun a b => lt a b = false) (ins_rev lt x rl).
Proof.
  intros [Has Hnt] Hx Hin Hs. induction Hs as [|y rl Hs IH Hy]; [repeat constructor|].
  cbn [ins_rev]. assert (Hyl : In y l) by (apply Hin; left; reflexivity).
  assert (Hrl : incl rl l) by (intros z Hz; apply Hin; right; assumption).
  destruct (lt x y) eqn:E.
  - constructor; [apply IH; assumption|]. apply (Permutation_Forall (ins_rev_perm lt x rl)).
    constructor; [apply Has; assumption|assumption].
  - constructor; [constructor; assumption|]. constructor; [assumption|]. rewrite Forall_forall in *. intros z Hz.
    apply (Hnt z y x); auto.
Qed.

Lemma sorted_rev {A} (R : A -> A -> Prop) l : StronglySorted R l -> StronglySorted (fun a b => R b a) (rev l).
Proof.
  induction 1 as [|x l Hs IH Hx]; [constructor|]. cbn [rev].
  assert (HF : Forall (fun y => R x y) (rev l)) by (apply (Permutation_Forall (Permutation_rev l)); assumption).
  clear Hs Hx. revert IH HF. generalize (rev l) as m. induction m as [|y m IHm]; intros IH HF; cbn [app]; [repeat constructor|].
  apply StronglySorted_inv in IH as [IH1 IH2]. inversion HF; subst. constructor; [auto|].
  apply Forall_app. split; [assumption|]. repeat constructor. assumption.
Qed.

Lemma insertion_sort_sorts {A} : sorts (@insertion_sort A).
Proof.
  intros lt l Hw. unfold insertion_sort.
  assert (Hgen : forall xs rl, incl xs l -> incl rl l -> StronglySorted (fun a b => lt a b = false) rl ->
    Permutation (rl ++ xs) (fold_left (fun rl x => ins_rev lt x rl) xs rl) /\
    StronglySorted (fun a b => lt a b = false) (fold_left (fun rl x => ins_rev lt x rl) xs rl)).
  { induction xs as [|x xs IH]; intros rl Hxs Hrl Hs; cbn [fold_left]; [rewrite app_nil_r; auto|].
    assert (Hxl : In x l) by (apply Hxs; left; reflexivity).
    destruct (IH (ins_rev lt x rl)) as [IH1 IH2].
    - intros z Hz. apply Hxs. right. assumption.
    - intros z Hz. apply (Permutation_in _ (Permutation_sym (ins_rev_perm lt x rl))) in Hz as [<-|Hz]; auto.
    - eapply ins_rev_sorted; eassumption.
    - split; [|assumption]. rewrite <- IH1. rewrite <- (ins_rev_perm lt x rl).
      rewrite <- Permutation_middle. reflexivity. }
  destruct (Hgen l []) as [H1 H2]; [intros z Hz; exact Hz|intros z []|constructor|].
  split; [rewrite <- Permutation_rev; exact H1|]. apply (sorted_rev (fun a b => lt a b = false)). assumption.
Qed.

(** [less] is a strict weak order on sortable records, and is [precedes]. *)
Definition crit (p : bytes) (l : list rec) : Prop :=
  exists t, Forall (fun r => exists v, r_get r p = Ok v /\ has_type t v) l.

Lemma crit_cmp p l a b : crit p l -> In a l -> In b l -> exists va vb t,
  r_get a p = Ok va /\ r_get b p = Ok vb /\ sort_value a p = va /\ sort_value b p = vb /\ has_type t va /\ has_type t vb.
Proof.
  intros (t & H) Ha Hb. rewrite Forall_forall in H. destruct (H a Ha) as (va & Ea & Ta). destruct (H b Hb) as (vb & Eb & Tb).
  exists va, vb, t. unfold sort_value. rewrite Ea, Eb. auto 10.
Qed.

Lemma less_cons p asc cs l a b : crit p l -> In a l -> In b l -> exists va vb c,
  r_get a p = Ok va /\ r_get b p = Ok vb /\
  less ((p, asc) :: cs) a b = match c with Eq => less cs a b | Lt => asc | Gt => negb asc end /\
  less ((p, asc) :: cs) b a = match c with Eq => less cs b a | Lt => negb asc | Gt => asc end /\
  (c = Eq <-> same_value va vb) /\ (c = Lt <-> before va vb) /\ (c = Gt <-> before vb va).
Proof.
  intros Hc Ha Hb. destruct (crit_cmp p l a b Hc Ha Hb) as (va & vb & t & E1 & E2 & S1 & S2 & T1 & T2).
  destruct (compare_typed t va vb T1 T2) as (c & C1 & C2 & H). exists va, vb, c.
  split; [assumption|]. split; [assumption|]. split; [|split; [|exact H]].
  - cbn [less]. rewrite S1, S2, C1. destruct c; cbn; destruct asc; reflexivity.
  - cbn [less]. rewrite S1, S2, C2. destruct c; cbn; destruct asc; reflexivity.
Qed.

Lemma less_precedes cs l a b : sortable cs l -> In a l -> In b l -> (less cs a b = true <-> precedes cs a b).
Proof.
  intros Hs Ha Hb. induction Hs as [|[p asc] cs Hc Hs IH]; [split; [discriminate|inversion 1]|].
  destruct (less_cons p asc cs l a b Hc Ha Hb) as (va & vb & c & E1 & E2 & L1 & _ & Heq & Hlt & Hgt).
  rewrite L1. split.
  - destruct c; intros H.
    + eapply prec_next; eauto; [apply Heq; reflexivity|apply IH; assumption].
    + subst asc. eapply prec_here; eauto. apply Hlt; reflexivity.
    + destruct asc; [discriminate|]. eapply prec_here; eauto. apply Hgt; reflexivity.
  - intros H. inversion H as [? ? ? ? ? wa wb F1 F2 Hb' |? ? ? ? ? wa wb F1 F2 Hb' Hp]; subst;
      rewrite E1 in F1; rewrite E2 in F2; injection F1 as <-; injection F2 as <-.
    + destruct asc.
      * apply Hlt in Hb'. subst c. reflexivity.
      * apply Hgt in Hb'. subst c. reflexivity.
    + apply Heq in Hb'. subst c. apply IH. assumption.
Qed.

Lemma less_strict_weak cs l : sortable cs l -> strict_weak l (less cs).
Proof.
  intros Hs. induction Hs as [|[p asc] cs Hc Hs [IH1 IH2]]; [split; [discriminate|reflexivity]|]. split.
  - intros a b Ha Hb. destruct (less_cons p asc cs l a b Hc Ha Hb) as (va & vb & c & _ & _ & L1 & L2 & _).
    rewrite L1, L2. destruct c; [apply IH1; assumption| |]; destruct asc; auto.
  - intros a b c Ha Hb Hcl.
    destruct (less_cons p asc cs l b a Hc Hb Ha) as (vb & va & c1 & Eb & Ea & L1 & _ & Q1 & Lt1 & G1).
    destruct (less_cons p asc cs l c b Hc Hcl Hb) as (vc & vb' & c2 & Ec & Eb' & L2 & _ & Q2 & Lt2 & G2).
    destruct (less_cons p asc cs l c a Hc Hcl Ha) as (vc' & va' & c3 & Ec' & Ea' & L3 & _ & Q3 & Lt3 & G3).
    rewrite Eb in Eb'. injection Eb' as <-. rewrite Ec in Ec'. injection Ec' as <-. rewrite Ea in Ea'. injection Ea' as <-.
    destruct (crit_cmp p l c b Hc Hcl Hb) as (x & y & t & F1 & F2 & _ & _ & T1 & T2).
    destruct Hc as (t' & HT). rewrite Forall_forall in HT. cbn [fst] in HT.
    destruct (HT a Ha) as (wa & Wa & Ta). destruct (HT b Hb) as (wb & Wb & Tb). destruct (HT c Hcl) as (wc & Wc & Tc).
    rewrite Ea in Wa. injection Wa as <-. rewrite Eb in Wb. injection Wb as <-. rewrite Ec in Wc. injection Wc as <-.
    rewrite L1, L2, L3.
    assert (R : match c2, c1 with
                | Eq, k => c3 = k | k, Eq => c3 = k
                | Lt, Lt => c3 = Lt | Gt, Gt => c3 = Gt
                | _, _ => True end).
    { destruct c2, c1; try exact I.
      - apply Q3. eapply same_trans; [apply Q2; reflexivity|apply Q1; reflexivity].
      - apply Lt3. eapply before_same_l; [apply same_sym; apply Q2; reflexivity|apply Lt1; reflexivity].
      - apply G3. eapply before_same_r; [apply same_sym; apply Q2; reflexivity|apply G1; reflexivity].
      - apply Lt3. eapply before_same_r; [apply Q1; reflexivity|apply Lt2; reflexivity].
      - apply Lt3. eapply before_trans; [exact Tc|exact Tb|exact Ta|apply Lt2; reflexivity|apply Lt1; reflexivity].
      - apply G3. eapply before_same_l; [apply Q1; reflexivity|apply G2; reflexivity].
      - apply G3. eapply before_trans; [exact Ta|exact Tb|exact Tc|apply G1; reflexivity|apply G2; reflexivity]. }
    intros A B. destruct c2, c1; try (subst c3); try assumption; try (destruct asc; discriminate).
    eapply (IH2 a b c); assumption.
Qed.

Theorem sort_correct alg cs l : sorts alg -> sortable cs l ->
  Permutation l (sort_records alg cs l) /\ StronglySorted (fun a b => ~ precedes cs b a) (sort_records alg cs l).
Proof.
  intros Halg Hs. destruct (Halg (less cs) l (less_strict_weak cs l Hs)) as [Hp Hsort]. split; [assumption|].
  unfold sort_records. set (m := alg (less cs) l) in *.
  assert (Hin : incl m l) by (intros x Hx; apply (Permutation_in _ (Permutation_sym Hp)); assumption).
  clearbody m. clear Hp. induction Hsort as [|x m Hm IH Hx]; constructor.
  - apply IH. intros z Hz. apply Hin. right. assumption.
  - rewrite Forall_forall in *. intros y Hy Hpr. apply less_precedes with (l := l) in Hpr; [|assumption| |].
    + rewrite (Hx y Hy) in Hpr. discriminate.
    + apply Hin. right. assumption.
    + apply Hin. left. reflexivity.
Qed.
