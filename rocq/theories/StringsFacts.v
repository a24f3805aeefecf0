(** Facts about the string functions. *)
From Coq Require Import List ZArith Lia Bool String.
From Coq Require Import Strings.Byte.
From Verif Require Import Base BaseFacts Codec CodecFacts GoStrings SpecText.
Import ListNotations.
Open Scope Z_scope.

Lemma has_prefix_spec p s : has_prefix p s = true <-> exists b, s = p ++ b.
Proof.
  revert s. induction p as [|x p IH]; intros s; cbn [has_prefix].
  - split; [intros _; exists s; reflexivity|reflexivity].
  - destruct s as [|y s]; [split; [discriminate|intros (b & H); discriminate]|].
    rewrite andb_true_iff, beqb_eq, IH. split.
    + intros (-> & b & ->). exists b. reflexivity.
    + intros (b & H). injection H as -> ->. split; [reflexivity|exists b; reflexivity].
Qed.

Lemma contains_spec p s : contains p s = true <-> occurs p s.
Proof.
  induction s as [|y s IH]; cbn [contains]; rewrite orb_true_iff, has_prefix_spec.
  - split.
    + intros [(b & ->)|H]; [exists [], b; reflexivity|discriminate].
    + intros (a & b & H). left. destruct a as [|? ?]; [exists b; exact H|discriminate].
  - rewrite IH. split.
    + intros [(b & ->)|(a & b & ->)]; [exists [], b; reflexivity|exists (y :: a), b; reflexivity].
    + intros (a & b & H). destruct a as [|y' a]; [left; exists b; exact H|]. injection H as <- ->. right. exists a, b. reflexivity.
Qed.

Lemma occurs_dec p s : occurs p s \/ ~ occurs p s.
Proof.
  destruct (contains p s) eqn:E; [left; apply contains_spec; assumption|right].
  intros H. apply contains_spec in H. congruence.
Qed.

(** *** Splitting *)
Fixpoint cut (p s : bytes) : option (bytes * bytes) :=
  if has_prefix p s then Some ([], skipn (List.length p) s)
  else match s with
  | [] => None
  | x :: s' => match cut p s' with Some (a, b) => Some (x :: a, b) | None => None end
  end.

Lemma skipn_app_exact {A} (a b : list A) : skipn (List.length a) (a ++ b) = b.
Proof. induction a; [reflexivity|assumption]. Qed.

Lemma cut_spec p s : p <> [] -> match cut p s with
  | Some (a, b) => s = a ++ p ++ b /\ ~ occurs p (a ++ removelast p)
  | None => ~ occurs p s
  end.
Proof.
  intros Hp. induction s as [|x s IH]; cbn [cut].
  - destruct p as [|y p]; [congruence|]. cbn. intros (a & b & H). destruct a; discriminate.
  - destruct (has_prefix p (x :: s)) eqn:E.
    + apply has_prefix_spec in E as (b & E). rewrite E, skipn_app_exact. split; [reflexivity|].
      cbn [app]. intros (a & c & H). apply (f_equal (@List.length _)) in H.
      rewrite !app_length, removelast_firstn_len, firstn_length in H.
      assert (List.length p > 0)%nat by (destruct p; [congruence|cbn; lia]). lia.
    + destruct (cut p s) as [[a b]|] eqn:Ec.
      * destruct IH as [-> Hn]. split; [reflexivity|]. intros (u & v & H).
        destruct u as [|x' u].
        -- cbn [app] in H. apply not_true_iff_false in E. apply E. apply has_prefix_spec.
           cbn [app]. exists (skipn (List.length p) (x :: a ++ p ++ b)).
           assert (Hf : firstn (List.length p) (x :: a ++ p ++ b) = p).
           { assert (Hlen : (List.length p <= List.length (x :: a ++ removelast p))%nat).
             { cbn [List.length]. rewrite app_length, removelast_firstn_len, firstn_length. lia. }
             assert (E2 : x :: a ++ p ++ b = (x :: a ++ removelast p) ++ ([last p x00] ++ b)).
             { rewrite (app_removelast_last x00 Hp) at 1. cbn [app]. rewrite <- !app_assoc. reflexivity. }
             rewrite E2, firstn_app. replace (List.length p - _)%nat with 0%nat by lia.
             cbn [firstn]. rewrite app_nil_r. cbn [app] in H |- *. rewrite H.
             rewrite firstn_app, Nat.sub_diag, firstn_all. cbn [firstn]. apply app_nil_r. }
           transitivity (firstn (List.length p) (x :: a ++ p ++ b) ++ skipn (List.length p) (x :: a ++ p ++ b));
             [symmetry; apply firstn_skipn|rewrite Hf; reflexivity].
        -- cbn [app] in H. injection H as <- H. apply Hn. exists u, v. exact H.
      * intros (u & v & H). destruct u as [|x' u].
        -- apply not_true_iff_false in E. apply E. apply has_prefix_spec. exists v. exact H.
        -- injection H as <- ->. apply IH. exists u, v. reflexivity.
Qed.

Lemma split_go_skip sep s : forall k cur, (k <= List.length s)%nat -> split_go sep s k cur = split_go sep (skipn k s) 0 cur.
Proof.
  induction s as [|x s IH]; intros k cur Hk; [cbn in Hk; replace k with 0%nat by lia; reflexivity|].
  destruct k as [|k]; [reflexivity|]. cbn [split_go skipn]. apply IH. cbn in Hk. lia.
Qed.

Lemma has_prefix_length p s : has_prefix p s = true -> (List.length p <= List.length s)%nat.
Proof. intros H. apply has_prefix_spec in H as (b & ->). rewrite app_length. lia. Qed.

Lemma split_go_cut sep s : sep <> [] -> forall cur, split_go sep s 0 cur =
  match cut sep s with
  | None => [rev cur ++ s]
  | Some (a, b) => (rev cur ++ a) :: split_go sep b 0 []
  end.
Proof.
  intros Hsep. induction s as [|x s IH]; intros cur.
  - cbn [split_go cut]. destruct sep as [|y sep]; [congruence|]. cbn. rewrite app_nil_r. reflexivity.
  - cbn [split_go cut]. destruct (has_prefix sep (x :: s)) eqn:E.
    + pose proof (has_prefix_length _ _ E) as Hl. cbn in Hl. rewrite app_nil_r. f_equal.
      rewrite split_go_skip by lia. destruct sep as [|y sep]; [congruence|]. reflexivity.
    + rewrite IH. cbn [rev]. destruct (cut sep s) as [[a b]|]; rewrite <- app_assoc; reflexivity.
Qed.

Lemma split_pieces sep s : sep <> [] -> pieces sep s (split_go sep s 0 []).
Proof.
  intros Hsep. remember (List.length s) as n eqn:Hn. revert s Hn.
  induction n as [n IH] using lt_wf_ind. intros s ->.
  rewrite split_go_cut by assumption. pose proof (cut_spec sep s Hsep) as Hc.
  destruct (cut sep s) as [[a b]|]; cbn [rev app].
  - destruct Hc as [-> Hn]. constructor; [assumption|]. eapply IH; [|reflexivity].
    rewrite !app_length. assert (List.length sep > 0)%nat by (destruct sep; [congruence|cbn; lia]). lia.
  - constructor. assumption.
Qed.

Lemma pieces_nonempty sep s l : pieces sep s l -> l <> [].
Proof. destruct 1; discriminate. Qed.

Lemma pieces_join sep s l : pieces sep s l -> join_strings sep l = s.
Proof.
  induction 1 as [s Hn|a s l Hn H IH]; [reflexivity|].
  cbn [join_strings]. destruct l; [apply pieces_nonempty in H; congruence|]. rewrite IH. reflexivity.
Qed.

(** *** Decimal numbers *)
Lemma digits_value_app a b acc : digits_value (a ++ b) acc = digits_value b (digits_value a acc).
Proof. revert acc. induction a as [|x a IH]; intros acc; [reflexivity|]. cbn. apply IH. Qed.

Lemma is_digit_spec d : is_digit d = true <-> 48 <= Z_of_byte d <= 57.
Proof. unfold is_digit. lia. Qed.

Lemma decimal_spec ds z : decimal ds z <-> ds <> [] /\ forallb is_digit ds = true /\ digits_value ds 0 = z.
Proof.
  split.
  - induction 1 as [d Hd|ds z d H IH Hd].
    + split; [discriminate|]. cbn. rewrite andb_true_r, is_digit_spec. split; [assumption|unfold digit_val; lia].
    + destruct IH as (H1 & H2 & <-). split; [destruct ds; discriminate|].
      rewrite forallb_app, H2. cbn. rewrite andb_true_r, is_digit_spec. split; [assumption|].
      rewrite digits_value_app. reflexivity.
  - intros (Hne & Hd & <-). revert Hd. induction ds as [|d ds IH] using rev_ind; [congruence|].
    rewrite forallb_app, andb_true_iff. cbn. rewrite andb_true_r, is_digit_spec. intros [H1 H2].
    rewrite digits_value_app. cbn. destruct ds as [|d0 ds].
    + cbn. unfold digit_val. replace (10 * 0 + (Z_of_byte d - 48)) with (Z_of_byte d - 48) by lia. constructor. assumption.
    + constructor; [|assumption]. apply IH; [discriminate|assumption].
Qed.

Lemma decimal_not_sign ds z x : decimal (x :: ds) z -> x <> x2d /\ x <> x2b.
Proof.
  intros H. apply decimal_spec in H as (_ & H & _). cbn in H. apply andb_prop in H as [H _].
  apply is_digit_spec in H. split; intros ->; vm_compute in H; destruct H; congruence.
Qed.

Lemma atoi_Ok s z : atoi s = Ok z <-> signed_decimal s z /\ in_i64 z.
Proof.
  assert (Hgen : forall (neg : bool) ds, match ds with
      | [] => Err (EMsg "invalid syntax")
      | _ :: _ =>
        if forallb is_digit ds then
          let z := if neg then - digits_value ds 0 else digits_value ds 0 in
          if (- two63 <=? z) && (z <? two63) then Ok z else Err (EMsg "value out of range")
        else Err (EMsg "invalid syntax")
      end = Ok z <-> (exists v, decimal ds v /\ z = if neg then - v else v) /\ in_i64 z).
  { intros neg ds. destruct ds as [|d ds].
    - split; [discriminate|]. intros [(v & H & _) _]. apply decimal_spec in H as [H _]. congruence.
    - destruct (forallb is_digit (d :: ds)) eqn:E.
      + cbv zeta. remember (d :: ds) as l. split.
        * destruct (_ && _) eqn:E2; [|discriminate]. intros [= <-]. split.
          -- exists (digits_value l 0). split; [apply decimal_spec; subst; split; [discriminate|auto]|reflexivity].
          -- unfold in_i64. lia.
        * intros [(v & H & ->) Hr]. apply decimal_spec in H as (_ & _ & <-). unfold in_i64 in Hr.
          destruct (_ && _) eqn:E2; [reflexivity|lia].
      + split; [discriminate|]. intros [(v & H & _) _]. apply decimal_spec in H as (_ & H & _). congruence. }
  assert (Hpos : forall s, (forall r, s <> x2d :: r) -> (forall r, s <> x2b :: r) ->
    (signed_decimal s z <-> exists v, decimal s v /\ z = v)).
  { intros s0 H1 H2. split.
    - intros H. inversion H as [? ? Hd|? ? Hd|? ? Hd]; subst; [eauto| |]; exfalso; [eapply H2|eapply H1]; reflexivity.
    - intros (v & H & ->). constructor. assumption. }
  assert (Hm : forall r, signed_decimal (x2d :: r) z <-> exists v, decimal r v /\ z = - v).
  { intros r. split; [|intros (v & H & ->); constructor; assumption].
    intros H. inversion H; subst; eauto. apply decimal_not_sign in H0 as [H0 _]. congruence. }
  assert (Hp : forall r, signed_decimal (x2b :: r) z <-> exists v, decimal r v /\ z = v).
  { intros r. split; [|intros (v & H & ->); constructor; assumption].
    intros H. inversion H; subst; eauto. apply decimal_not_sign in H0 as [_ H0]. congruence. }
  unfold atoi. destruct s as [|x s]; [rewrite (Hgen false []), Hpos by discriminate; reflexivity|].
  destruct (Byte.byte_eq_dec x x2d) as [->|N1]; [rewrite (Hgen true s), Hm; reflexivity|].
  destruct (Byte.byte_eq_dec x x2b) as [->|N2]; [rewrite (Hgen false s), Hp; reflexivity|].
  rewrite Hpos by congruence. rewrite <- (Hgen false (x :: s)).
  destruct x; try reflexivity; congruence.
Qed.

Lemma atoi_safe s : (exists z, atoi s = Ok z) \/ (exists e, atoi s = Err e).
Proof.
  unfold atoi. destruct (match s with x2d :: r => (true, r) | x2b :: r => (false, r) | _ => (false, s) end) as [neg ds].
  destruct ds; [eauto|]. destruct (forallb _ _); [|eauto]. cbv zeta. destruct (_ && _); eauto.
Qed.
