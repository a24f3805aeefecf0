(** sort.Sort always returns a permutation, which is sorted if Less is a strict weak order. *)
From Coq Require Import List Bool Arith Lia Permutation Sorted FinFun.
From Verif Require Import Base GoSort SpecOrder.
Import ListNotations.

Section Sort.
Context {A : Type} (lt : A -> A -> bool) (d : A).
(** Whether the order is known to be weak, on the elements [Q]. *)
Variable W : Prop.
Variable Q : A -> Prop.
Hypothesis Qd : W -> Q d.
Hypothesis Hasym : W -> forall a b, Q a -> Q b -> lt a b = true -> lt b a = false.
Hypothesis Htrans : W -> forall a b c, Q a -> Q b -> Q c -> lt b a = false -> lt c b = false -> lt c a = false.

Definition get (l : list A) (i : nat) : A := match nth_error l i with Some x => x | None => d end.
Definition good (l : list A) : Prop := W -> Forall Q l.
Definition le (x y : A) : Prop := W -> Q x /\ Q y /\ lt y x = false.

Lemma get_Q l i : good l -> W -> Q (get l i).
Proof.
  intros G w. unfold get. destruct (nth_error l i) eqn:E; [|exact (Qd w)]. apply nth_error_In in E. exact (proj1 (Forall_forall _ _) (G w) _ E).
Qed.
Lemma le_tr x y z : le x y -> le y z -> le x z.
Proof. intros H1 H2 w. destruct (H1 w) as (A1 & A2 & A3). destruct (H2 w) as (_ & B2 & B3). repeat split; [assumption..|]. apply (Htrans w x y z); assumption. Qed.
Lemma nless_le l i j : good l -> lt (get l i) (get l j) = false -> le (get l j) (get l i).
Proof. intros G H w. repeat split; [apply get_Q; assumption..|exact H]. Qed.
Lemma less_le l i j : good l -> lt (get l i) (get l j) = true -> le (get l i) (get l j).
Proof. intros G H w. repeat split; [apply get_Q; assumption..|]. apply Hasym; [exact w|apply get_Q; assumption..|exact H]. Qed.
Lemma le_refl l i : good l -> le (get l i) (get l i).
Proof. intros G w. repeat split; [apply get_Q; assumption..|]. destruct (lt (get l i) (get l i)) eqn:E; [|reflexivity]. rewrite <- E. apply Hasym; [exact w|apply get_Q; assumption..|exact E]. Qed.

(** *** One step *)
Lemma get_at_ok l i : i < length l -> get_at l i = Ok (get l i).
Proof. intros H. unfold get_at, get. destruct (nth_error l i) eqn:E; [reflexivity|]. apply nth_error_None in E. lia. Qed.
Lemma less_at_ok l i j : i < length l -> j < length l -> less_at lt l i j = Ok (lt (get l i) (get l j)).
Proof. intros Hi Hj. unfold less_at. rewrite (get_at_ok l i Hi), (get_at_ok l j Hj). reflexivity. Qed.
Lemma put_length (l : list A) : forall i x, length (put l i x) = length l.
Proof. induction l as [|y l IH]; intros [|i] x; cbn; [reflexivity..|]. rewrite IH. reflexivity. Qed.
Lemma put_nth (l : list A) : forall i x k, i < length l -> nth_error (put l i x) k = if k =? i then Some x else nth_error l k.
Proof.
  induction l as [|y l IH]; intros i x k Hi; [cbn in Hi; lia|]. destruct i as [|i], k as [|k]; cbn [put nth_error Nat.eqb]; try reflexivity. cbn in Hi. apply IH. lia.
Qed.
Definition tr (i j k : nat) : nat := if k =? i then j else if k =? j then i else k.
Ltac eqbs := repeat match goal with |- context [Nat.eqb ?a ?b] => destruct (Nat.eqb_spec a b) end.
Lemma tr_inj i j : Injective (tr i j).
Proof. intros a b. unfold tr. eqbs; lia. Qed.

(** [l'] is [l] with elements moved between [a] and [b]. *)
Definition moved (a b : nat) (l l' : list A) : Prop :=
  length l' = length l /\ exists f, Injective f /\ (forall k, a <= k < b -> a <= f k < b) /\ (forall k, k < a \/ b <= k -> f k = k) /\ forall k, nth_error l' k = nth_error l (f k).
Lemma moved_refl a b l : moved a b l l.
Proof. split; [reflexivity|]. exists (fun k => k). repeat split; try lia. intros x y H. exact H. Qed.
Lemma moved_trans a b l l1 l2 : moved a b l l1 -> moved a b l1 l2 -> moved a b l l2.
Proof.
  intros (L1 & f & F1 & F2 & F3 & F4) (L2 & g & G1 & G2 & G3 & G4). split; [congruence|]. exists (fun k => f (g k)). repeat split.
  - intros x y H. apply G1, F1. exact H.
  - apply F2, G2. assumption.
  - apply F2, G2. assumption.
  - intros k Hk. rewrite (G3 k Hk). apply F3. exact Hk.
  - intros k. rewrite G4, F4. reflexivity.
Qed.
Lemma moved_wider a b a' b' l l' : moved a b l l' -> a' <= a -> b <= b' -> moved a' b' l l'.
Proof.
  intros (L & f & F1 & F2 & F3 & F4) Ha Hb. split; [exact L|]. exists f. split; [exact F1|]. split; [|split; [intros k Hk; apply F3; lia|exact F4]].
  intros k Hk. destruct (le_lt_dec a k), (le_lt_dec b k); try (rewrite F3 by lia; lia). specialize (F2 k). lia.
Qed.
Lemma moved_length a b l l' : moved a b l l' -> length l' = length l. Proof. intros (L & _). exact L. Qed.
Lemma moved_out a b l l' k : moved a b l l' -> k < a \/ b <= k -> get l' k = get l k.
Proof. intros (_ & f & _ & _ & F3 & F4) Hk. unfold get. rewrite F4, F3 by exact Hk. reflexivity. Qed.
Lemma moved_in a b l l' (P : A -> Prop) : moved a b l l' -> (forall k, a <= k < b -> P (get l k)) -> forall k, a <= k < b -> P (get l' k).
Proof. intros (_ & f & _ & F2 & _ & F4) H k Hk. unfold get. rewrite F4. exact (H (f k) (F2 k Hk)). Qed.
Lemma moved_permutation a b l l' : moved a b l l' -> Permutation l l'.
Proof. intros (L & f & F1 & _ & _ & F4). apply Permutation_nth_error. split; [congruence|]. exists f. split; assumption. Qed.
Lemma moved_good a b l l' : moved a b l l' -> good l -> good l'.
Proof. intros M G w. eapply Permutation_Forall; [eapply moved_permutation; exact M|exact (G w)]. Qed.

Lemma swap_ok a b l i j : a <= i < b -> a <= j < b -> b <= length l -> exists l', swap_at l i j = Ok l' /\ moved a b l l' /\ forall k, get l' k = get l (tr i j k).
Proof.
  intros Hi Hj Hb. unfold swap_at. rewrite (get_at_ok l i), (get_at_ok l j) by lia. cbn [rbind]. eexists. split; [reflexivity|].
  assert (E : forall k, nth_error (put (put l i (get l j)) j (get l i)) k = nth_error l (tr i j k)).
  { intros k. rewrite put_nth by (rewrite put_length; lia). rewrite put_nth by lia. unfold tr, get.
    assert (Ni : exists x, nth_error l i = Some x) by (destruct (nth_error l i) eqn:E; [eauto|apply nth_error_None in E; lia]).
    assert (Nj : exists y, nth_error l j = Some y) by (destruct (nth_error l j) eqn:E; [eauto|apply nth_error_None in E; lia]).
    destruct Ni as (x & Ni), Nj as (y & Nj). rewrite Ni, Nj. eqbs; subst; congruence. }
  split; [|intros k; unfold get at 1 2; rewrite E; reflexivity]. split; [rewrite !put_length; reflexivity|]. exists (tr i j). split; [apply tr_inj|].
  split; [intros k Hk; unfold tr; eqbs; lia|]. split; [intros k Hk; unfold tr; eqbs; lia|exact E].
Qed.

(** *** sort.medianOfThree *)
Lemma median_ok a b l m1 m0 m2 : good l -> a <= m0 < b -> a <= m1 < b -> a <= m2 < b -> m0 <> m1 -> m1 <> m2 -> m0 <> m2 -> b <= length l ->
  exists l', median lt l m1 m0 m2 = Ok l' /\ moved a b l l' /\ le (get l' m1) (get l' m2).
Proof.
  intros G H0 H1 H2 N1 N2 N3 Hb. unfold median. rewrite less_at_ok by lia. cbn [rbind].
  assert (S1 : exists l1, (if lt (get l m1) (get l m0) then swap_at l m1 m0 else Ok l) = Ok l1 /\ moved a b l l1 /\ le (get l1 m0) (get l1 m1)).
  { destruct (lt (get l m1) (get l m0)) eqn:E.
    - destruct (swap_ok a b l m1 m0 H1 H0 Hb) as (l1 & E1 & M1 & G1). exists l1. split; [exact E1|]. split; [exact M1|]. rewrite !G1. unfold tr. eqbs; try lia. apply less_le; assumption.
    - exists l. split; [reflexivity|]. split; [apply moved_refl|]. apply nless_le; assumption. }
  destruct S1 as (l1 & -> & M1 & O1). cbn [rbind]. pose proof (moved_good _ _ _ _ M1 G) as G1. pose proof (moved_length _ _ _ _ M1) as L1.
  rewrite less_at_ok by lia. cbn [rbind]. destruct (lt (get l1 m2) (get l1 m1)) eqn:E.
  - destruct (swap_ok a b l1 m2 m1 H2 H1 ltac:(lia)) as (l2 & -> & M2 & E2). cbn [rbind]. pose proof (moved_length _ _ _ _ M2) as L2. pose proof (moved_good _ _ _ _ M2 G1) as G2.
    rewrite less_at_ok by lia. cbn [rbind].
    assert (X : le (get l2 m1) (get l2 m2)) by (rewrite !E2; unfold tr; eqbs; try lia; apply less_le; assumption).
    assert (Y : le (get l2 m0) (get l2 m2)) by (rewrite !E2; unfold tr; eqbs; try lia; assumption).
    destruct (lt (get l2 m1) (get l2 m0)).
    + destruct (swap_ok a b l2 m1 m0 H1 H0 ltac:(lia)) as (l3 & -> & M3 & E3). exists l3. split; [reflexivity|]. split; [eapply moved_trans; [eapply moved_trans; eassumption|exact M3]|].
      rewrite !E3. unfold tr. eqbs; try lia. exact Y.
    + exists l2. split; [reflexivity|]. split; [eapply moved_trans; eassumption|exact X].
  - exists l1. split; [reflexivity|]. split; [exact M1|]. apply nless_le; assumption.
Qed.

(** *** The loops of sort.doPivot *)
Lemma scan_up_ok test (T : nat -> bool) : forall n b, (forall k, b <= k < b + n -> test k = Ok (T k)) ->
  exists b', scan_up test b n = Ok b' /\ b <= b' <= b + n /\ (forall k, b <= k < b' -> T k = true) /\ (b' < b + n -> T b' = false).
Proof.
  induction n as [|n IH]; intros b H; cbn [scan_up]; [exists b; repeat split; lia|]. rewrite H by lia. cbn [rbind]. destruct (T b) eqn:E.
  - destruct (IH (S b)) as (b' & E' & B & F & L); [intros k Hk; apply H; lia|]. exists b'. split; [exact E'|]. split; [lia|]. split; [|intros; apply L; lia].
    intros k Hk. destruct (Nat.eq_dec k b) as [->|]; [exact E|apply F; lia].
  - exists b. repeat split; try lia. intros _. exact E.
Qed.
Lemma scan_down_ok test (T : nat -> bool) : forall n c, n <= c -> (forall k, c - n <= k < c -> test k = Ok (T k)) ->
  exists c', scan_down test c n = Ok c' /\ c - n <= c' <= c /\ (forall k, c' <= k < c -> T k = true) /\ (c - n < c' -> T (c' - 1) = false).
Proof.
  induction n as [|n IH]; intros c Hn H; cbn [scan_down]; [exists c; repeat split; lia|]. rewrite H by lia. cbn [rbind]. destruct (T (c - 1)) eqn:E.
  - destruct (IH (c - 1)) as (c' & E' & B & F & L); [lia|intros k Hk; apply H; lia|]. exists c'. split; [exact E'|]. split; [lia|]. split; [|intros; apply L; lia].
    intros k Hk. destruct (Nat.eq_dec k (c - 1)) as [->|]; [exact E|apply F; lia].
  - exists c. repeat split; try lia. intros _. exact E.
Qed.

Lemma divide_ok pv : forall fuel l b c, good l -> pv < b -> b <= c -> c <= length l -> c - b < fuel ->
  exists l' b', divide lt fuel l pv b c = Ok (l', b', b') /\ b <= b' <= c /\ moved b c l l' /\
    (forall k, b <= k < b' -> le (get l' k) (get l' pv)) /\ (forall k, b' <= k < c -> le (get l' pv) (get l' k)).
Proof.
  induction fuel as [|fuel IH]; intros l b c G Hp Hbc Hc Hf; [lia|]. cbn [divide].
  destruct (scan_up_ok (fun k => rmap negb (less_at lt l pv k)) (fun k => negb (lt (get l pv) (get l k))) (c - b) b) as (b1 & -> & B1 & F1 & L1).
  { intros k Hk. rewrite less_at_ok by lia. reflexivity. }
  cbn [rbind]. destruct (scan_down_ok (fun k => less_at lt l pv k) (fun k => lt (get l pv) (get l k)) (c - b1) c) as (c1 & -> & B2 & F2 & L2); [lia|intros k Hk; rewrite less_at_ok by lia; reflexivity|].
  cbn [rbind]. destruct (Nat.leb_spec c1 b1) as [Hle|Hgt].
  - assert (c1 = b1) as -> by lia. exists l, b1. split; [reflexivity|]. split; [lia|]. split; [apply moved_refl|]. split.
    + intros k Hk. apply nless_le; [exact G|]. specialize (F1 k Hk). apply negb_true_iff in F1. exact F1.
    + intros k Hk. apply less_le; [exact G|]. apply F2. exact Hk.
  - assert (X1 : lt (get l pv) (get l b1) = true) by (apply negb_false_iff, L1; lia). assert (X2 : lt (get l pv) (get l (c1 - 1)) = false) by (apply L2; lia).
    assert (b1 <> c1 - 1) by congruence.
    destruct (swap_ok b c l b1 (c1 - 1) ltac:(lia) ltac:(lia) ltac:(lia)) as (l1 & -> & M1 & E1). cbn [rbind].
    destruct (IH l1 (S b1) (c1 - 1)) as (l2 & b2 & -> & B3 & M2 & O1 & O2); [eapply moved_good; eassumption|lia|lia|rewrite (moved_length _ _ _ _ M1); lia|lia|].
    assert (Pv : get l2 pv = get l pv) by (rewrite (moved_out _ _ _ _ pv M2) by lia; rewrite E1; unfold tr; eqbs; lia || reflexivity).
    exists l2, b2. split; [reflexivity|]. split; [lia|]. split; [eapply moved_trans; [exact M1|eapply moved_wider; [exact M2|lia|lia]]|].
    assert (Out : forall k, k < S b1 \/ c1 - 1 <= k -> get l2 k = get l (tr b1 (c1 - 1) k)) by (intros k Hk; rewrite (moved_out _ _ _ _ k M2 Hk); apply E1).
    split; intros k Hk.
    + destruct (le_lt_dec (S b1) k); [apply O1; lia|]. rewrite Pv, Out by lia. unfold tr. eqbs; subst; try lia.
      * apply nless_le; assumption.
      * apply nless_le; [exact G|]. specialize (F1 k ltac:(lia)). apply negb_true_iff in F1. exact F1.
    + destruct (le_lt_dec (c1 - 1) k); [|apply O2; lia]. rewrite Pv, Out by lia. unfold tr. eqbs; subst; try lia.
      * apply less_le; assumption.
      * apply less_le; [exact G|]. apply F2. lia.
Qed.

Lemma protect_ok pv : forall fuel l a b, good l -> pv < a -> a <= b -> b <= length l -> b - a < fuel ->
  exists l' b', protect lt fuel l pv a b = Ok (l', b') /\ a <= b' <= b /\ moved a b l l' /\ (forall k, b' <= k < b -> le (get l' pv) (get l' k)).
Proof.
  induction fuel as [|fuel IH]; intros l a b G Hp Hab Hb Hf; [lia|]. cbn [protect].
  destruct (scan_down_ok (fun k => rmap negb (less_at lt l k pv)) (fun k => negb (lt (get l k) (get l pv))) (b - a) b) as (b1 & -> & B1 & F1 & L1).
  { lia. } { intros k Hk. rewrite less_at_ok by lia. reflexivity. }
  cbn [rbind]. destruct (scan_up_ok (fun k => less_at lt l k pv) (fun k => lt (get l k) (get l pv)) (b1 - a) a) as (a1 & -> & B2 & F2 & L2); [intros k Hk; rewrite less_at_ok by lia; reflexivity|].
  cbn [rbind]. destruct (Nat.leb_spec b1 a1) as [Hle|Hgt].
  - exists l, b1. split; [reflexivity|]. split; [lia|]. split; [apply moved_refl|]. intros k Hk. apply nless_le; [exact G|]. specialize (F1 k Hk). apply negb_true_iff in F1. exact F1.
  - assert (X1 : lt (get l (b1 - 1)) (get l pv) = true) by (apply negb_false_iff, L1; lia). assert (X2 : lt (get l a1) (get l pv) = false) by (apply L2; lia).
    assert (a1 <> b1 - 1) by congruence.
    destruct (swap_ok a b l a1 (b1 - 1) ltac:(lia) ltac:(lia) ltac:(lia)) as (l1 & -> & M1 & E1). cbn [rbind].
    destruct (IH l1 (S a1) (b1 - 1)) as (l2 & b2 & -> & B3 & M2 & O1); [eapply moved_good; eassumption|lia|lia|rewrite (moved_length _ _ _ _ M1); lia|lia|].
    assert (Pv : get l2 pv = get l pv) by (rewrite (moved_out _ _ _ _ pv M2) by lia; rewrite E1; unfold tr; eqbs; lia || reflexivity).
    exists l2, b2. split; [reflexivity|]. split; [lia|]. split; [eapply moved_trans; [exact M1|eapply moved_wider; [exact M2|lia|lia]]|].
    intros k Hk. destruct (le_lt_dec (b1 - 1) k); [|apply O1; lia]. rewrite Pv, (moved_out _ _ _ _ k M2), E1 by lia. unfold tr. eqbs; subst; try lia.
    + apply nless_le; assumption.
    + apply nless_le; [exact G|]. specialize (F1 k ltac:(lia)). apply negb_true_iff in F1. exact F1.
Qed.

Lemma protect_any pv fuel l a b : good l -> pv < a -> pv < b -> b <= length l -> b - a < fuel ->
  exists l' b', protect lt fuel l pv a b = Ok (l', b') /\ pv < b' <= b /\ moved (S pv) b l l' /\ (forall k, b' <= k < b -> le (get l' pv) (get l' k)).
Proof.
  intros G Ha Hp Hb Hf. destruct (le_lt_dec a b) as [H|H].
  - destruct (protect_ok pv fuel l a b G Ha H Hb Hf) as (l' & b' & E & B & M & O). exists l', b'. split; [exact E|]. split; [lia|]. split; [eapply moved_wider; [exact M|lia|lia]|exact O].
  - destruct fuel as [|fuel]; [lia|]. cbn [protect]. replace (b - a) with 0 by lia. cbn [scan_down rbind]. replace (b - a) with 0 by lia. cbn [scan_up rbind].
    destruct (Nat.leb_spec b a); [|lia]. exists l, b. split; [reflexivity|]. split; [lia|]. split; [apply moved_refl|]. intros; lia.
Qed.

(** The elements around a pivot which is still at the beginning. *)
Definition around (l : list A) (lo b c hi : nat) : Prop :=
  (forall k, lo < k < b -> le (get l k) (get l lo)) /\ (forall k, b <= k < c -> le (get l k) (get l lo) /\ le (get l lo) (get l k)) /\ (forall k, c <= k < hi -> le (get l lo) (get l k)).

Lemma around_swap l lo b c hi i j l' : (forall k, get l' k = get l (tr i j k)) -> around l lo b c hi -> b <= c -> lo < i -> lo < j ->
  (i < b /\ j < b \/ b <= i < c /\ b <= j < c \/ c <= i < hi /\ c <= j < hi) -> around l' lo b c hi.
Proof.
  intros E (A1 & A2 & A3) Hbc Hi Hj H. assert (P : get l' lo = get l lo) by (rewrite E; unfold tr; eqbs; lia || reflexivity).
  split; [|split]; intros k Hk; rewrite P, E; unfold tr; eqbs; subst; first [apply A1; lia|apply A2; lia|apply A3; lia].
Qed.
Lemma around_up l lo b c hi : around l lo b c hi -> le (get l c) (get l lo) -> c < hi -> around l lo b (S c) hi.
Proof.
  intros (A1 & A2 & A3) H Hc. split; [exact A1|]. split; [|intros; apply A3; lia]. intros k Hk. destruct (Nat.eq_dec k c) as [->|]; [split; [exact H|apply A3; lia]|apply A2; lia].
Qed.
Lemma around_down l lo b c hi : around l lo b c hi -> le (get l lo) (get l (b - 1)) -> lo < b - 1 -> around l lo (b - 1) c hi.
Proof.
  intros (A1 & A2 & A3) H Hc. split; [intros; apply A1; lia|]. split; [|exact A3]. intros k Hk. destruct (Nat.eq_dec k (b - 1)) as [->|]; [split; [apply A1; lia|exact H]|apply A2; lia].
Qed.

Lemma duplicates_ok l lo m b hi : good l -> around l lo b b hi -> hi <= length l -> lo < m -> m + 3 < b -> b + 5 <= hi ->
  exists l' b' c' n, duplicates lt l lo m b b hi = Ok (l', b', c', n) /\ lo < b' <= c' /\ c' <= hi /\ moved (S lo) hi l l' /\ around l' lo b' c' hi.
Proof.
  intros G Ar Hl Hm Hmb Hbh. unfold duplicates. rewrite less_at_ok by lia. cbn [rbind].
  assert (S1 : exists l1 c1 n1, (if lt (get l lo) (get l (hi - 1)) then Ok (l, b, 0) else rlet l1 := swap_at l b (hi - 1) in Ok (l1, S b, 1)) = Ok (l1, c1, n1) /\
    b <= c1 <= b + 1 /\ moved (S lo) hi l l1 /\ around l1 lo b c1 hi).
  { destruct (lt (get l lo) (get l (hi - 1))) eqn:E; [exists l, b, 0; split; [reflexivity|]; split; [lia|]; split; [apply moved_refl|exact Ar]|].
    destruct (swap_ok (S lo) hi l b (hi - 1) ltac:(lia) ltac:(lia) Hl) as (l1 & -> & M1 & E1). cbn [rbind]. exists l1, (S b), 1. split; [reflexivity|]. split; [lia|]. split; [exact M1|].
    apply around_up; [|rewrite !E1; unfold tr; eqbs; try lia; apply nless_le; assumption|lia]. eapply around_swap; [exact E1|exact Ar|lia|lia|lia|lia]. }
  destruct S1 as (l1 & c1 & n1 & -> & Hc & M1 & A1). cbn [rbind]. pose proof (moved_length _ _ _ _ M1) as L1. pose proof (moved_good _ _ _ _ M1 G) as G1.
  rewrite less_at_ok by lia. cbn [rbind].
  assert (S2 : exists b1 n2, (if lt (get l1 (b - 1)) (get l1 lo) then (b, n1) else (b - 1, S n1)) = (b1, n2) /\ b - 1 <= b1 <= b /\ around l1 lo b1 c1 hi).
  { destruct (lt (get l1 (b - 1)) (get l1 lo)) eqn:E; [exists b, n1; split; [reflexivity|]; split; [lia|exact A1]|]. exists (b - 1), (S n1). split; [reflexivity|]. split; [lia|].
    apply around_down; [exact A1|apply nless_le; assumption|lia]. }
  destruct S2 as (b1 & n2 & -> & Hb1 & A2). rewrite less_at_ok by lia. cbn [rbind]. destruct (lt (get l1 m) (get l1 lo)) eqn:E.
  - exists l1, b1, c1, n2. split; [reflexivity|]. split; [lia|]. split; [lia|]. split; assumption.
  - destruct (swap_ok (S lo) hi l1 m (b1 - 1) ltac:(lia) ltac:(lia) ltac:(lia)) as (l2 & -> & M2 & E2). cbn [rbind]. exists l2, (b1 - 1), c1, (S n2). split; [reflexivity|]. split; [lia|]. split; [lia|].
    split; [eapply moved_trans; eassumption|]. apply around_down; [eapply around_swap; [exact E2|exact A2|lia|lia|lia|lia]| |lia].
    rewrite !E2. unfold tr. eqbs; try lia. apply nless_le; assumption.
Qed.

Lemma do_pivot_ok l lo hi : good l -> 12 < hi - lo -> hi <= length l -> exists l' mlo mhi, do_pivot lt l lo hi = Ok (l', mlo, mhi) /\ lo <= mlo < mhi /\ mhi <= hi /\ moved lo hi l l' /\
  (forall k, lo <= k < mlo -> le (get l' k) (get l' mlo)) /\ (forall k, mlo <= k < mhi -> le (get l' k) (get l' mlo) /\ le (get l' mlo) (get l' k)) /\ (forall k, mhi <= k < hi -> le (get l' mlo) (get l' k)).
Proof.
  intros G Hs Hl. unfold do_pivot. pose proof (Nat.div_mod (lo + hi) 2 ltac:(lia)) as D1. pose proof (Nat.mod_upper_bound (lo + hi) 2 ltac:(lia)) as D2.
  pose proof (Nat.div_mod (hi - lo) 8 ltac:(lia)) as D3. pose proof (Nat.mod_upper_bound (hi - lo) 8 ltac:(lia)) as D4.
  pose proof (Nat.div_mod (hi - lo) 4 ltac:(lia)) as D5. pose proof (Nat.mod_upper_bound (hi - lo) 4 ltac:(lia)) as D6.
  cbv zeta. set (m := (lo + hi) / 2) in *. set (s := (hi - lo) / 8) in *. set (q := (hi - lo) / 4) in *.
  assert (N : exists l0, (if 40 <? hi - lo then rlet l1 := median lt l lo (lo + s) (lo + 2 * s) in rlet l2 := median lt l1 m (m - s) (m + s) in median lt l2 (hi - 1) (hi - 1 - s) (hi - 1 - 2 * s) else Ok l) = Ok l0 /\ moved lo hi l l0).
  { destruct (Nat.ltb_spec 40 (hi - lo)) as [H|H]; [|exists l; split; [reflexivity|apply moved_refl]].
    destruct (median_ok lo hi l lo (lo + s) (lo + 2 * s) G) as (l1 & -> & M1 & _); [lia..|]. cbn [rbind]. pose proof (moved_length _ _ _ _ M1) as L1. pose proof (moved_good _ _ _ _ M1 G) as G1.
    destruct (median_ok lo hi l1 m (m - s) (m + s) G1) as (l2 & -> & M2 & _); [lia..|]. cbn [rbind]. pose proof (moved_length _ _ _ _ M2) as L2. pose proof (moved_good _ _ _ _ M2 G1) as G2.
    destruct (median_ok lo hi l2 (hi - 1) (hi - 1 - s) (hi - 1 - 2 * s) G2) as (l3 & -> & M3 & _); [lia..|]. exists l3. split; [reflexivity|].
    eapply moved_trans; [eapply moved_trans; eassumption|exact M3]. }
  destruct N as (l0 & -> & M0). cbn [rbind]. pose proof (moved_length _ _ _ _ M0) as L0. pose proof (moved_good _ _ _ _ M0 G) as G0.
  destruct (median_ok lo hi l0 lo m (hi - 1) G0) as (l1 & -> & M1 & Top); [lia..|]. cbn [rbind]. pose proof (moved_length _ _ _ _ M1) as L1. pose proof (moved_good _ _ _ _ M1 G0) as G1.
  destruct (scan_up_ok (fun k => less_at lt l1 k lo) (fun k => lt (get l1 k) (get l1 lo)) (hi - 1 - (lo + 1)) (lo + 1)) as (a & -> & Ba & Fa & _); [intros k Hk; rewrite less_at_ok by lia; reflexivity|].
  cbn [rbind]. destruct (divide_ok lo (S (hi - 1 - a)) l1 a (hi - 1) G1) as (l2 & b & -> & Bb & M2 & O1 & O2); [lia..|]. cbn [rbind].
  pose proof (moved_length _ _ _ _ M2) as L2. pose proof (moved_good _ _ _ _ M2 G1) as G2.
  assert (P2 : get l2 lo = get l1 lo) by (apply (moved_out _ _ _ _ lo M2); lia).
  assert (A2 : around l2 lo b b hi).
  { split; [|split; [intros; lia|]]; intros k Hk.
    - destruct (le_lt_dec a k); [apply O1; lia|]. rewrite P2, (moved_out _ _ _ _ k M2) by lia. apply less_le; [exact G1|]. apply Fa. lia.
    - destruct (Nat.eq_dec k (hi - 1)) as [->|]; [|apply O2; lia]. rewrite P2, (moved_out _ _ _ _ (hi - 1) M2) by lia. exact Top. }
  assert (S3 : exists l3 b3 c3 again, (if negb (hi - b <? 5) && (hi - b <? q) then rlet s0 := duplicates lt l2 lo m b b hi in Ok (fst s0, 1 <? snd s0) else Ok (l2, b, b, hi - b <? 5)) = Ok (l3, b3, c3, again) /\
    lo < b3 <= c3 /\ c3 <= hi /\ moved (S lo) hi l2 l3 /\ around l3 lo b3 c3 hi).
  { destruct (Nat.ltb_spec (hi - b) 5) as [H5|H5]; cbn [negb andb]; [exists l2, b, b, true; split; [reflexivity|]; split; [lia|]; split; [lia|]; split; [apply moved_refl|exact A2]|].
    destruct (Nat.ltb_spec (hi - b) q) as [H6|H6]; [|exists l2, b, b, false; split; [reflexivity|]; split; [lia|]; split; [lia|]; split; [apply moved_refl|exact A2]].
    destruct (duplicates_ok l2 lo m b hi G2 A2) as (l3 & b3 & c3 & n & -> & H1 & H2 & H3 & H4); [lia..|]. cbn [rbind fst snd]. exists l3, b3, c3, (1 <? n). auto. }
  destruct S3 as (l3 & b3 & c3 & again & -> & B3 & C3 & M3 & A3). cbn [rbind]. pose proof (moved_length _ _ _ _ M3) as L3. pose proof (moved_good _ _ _ _ M3 G2) as G3.
  assert (S4 : exists l4 b4, (if again then protect lt (S (b3 - a)) l3 lo a b3 else Ok (l3, b3)) = Ok (l4, b4) /\ lo < b4 <= b3 /\ moved (S lo) hi l3 l4 /\ around l4 lo b4 c3 hi).
  { destruct again; [|exists l3, b3; split; [reflexivity|]; split; [lia|]; split; [apply moved_refl|exact A3]].
    destruct (protect_any lo (S (b3 - a)) l3 a b3 G3) as (l4 & b4 & -> & B4 & M4 & O4); [lia..|]. exists l4, b4. split; [reflexivity|]. split; [lia|]. split; [eapply moved_wider; [exact M4|lia|lia]|].
    destruct A3 as (X1 & X2 & X3). assert (P4 : get l4 lo = get l3 lo) by (apply (moved_out _ _ _ _ lo M4); lia).
    assert (Y1 : forall k, S lo <= k < b3 -> le (get l4 k) (get l4 lo)) by (rewrite P4; apply (moved_in _ _ _ _ (fun x => le x (get l3 lo)) M4); intros; apply X1; lia).
    assert (Y2 : forall k, b3 <= k -> get l4 k = get l3 k) by (intros; apply (moved_out _ _ _ _ k M4); lia).
    split; [intros; apply Y1; lia|]. split; intros k Hk.
    - destruct (le_lt_dec b3 k); [rewrite P4, Y2 by lia; apply X2; lia|]. split; [apply Y1; lia|apply O4; lia].
    - rewrite P4, Y2 by lia. apply X3. exact Hk. }
  destruct S4 as (l4 & b4 & -> & B4 & M4 & (A4 & A5 & A6)). cbn [rbind]. pose proof (moved_length _ _ _ _ M4) as L4.
  destruct (swap_ok lo hi l4 lo (b4 - 1) ltac:(lia) ltac:(lia) ltac:(lia)) as (l5 & -> & M5 & E5). cbn [rbind]. exists l5, (b4 - 1), c3. split; [reflexivity|]. split; [lia|]. split; [lia|].
  pose proof (moved_good _ _ _ _ M4 G3) as G4.
  split.
  - eapply moved_trans; [|exact M5]. eapply moved_trans; [exact M0|]. eapply moved_trans; [exact M1|]. eapply moved_trans; [eapply moved_wider; [exact M2|lia|lia]|].
    eapply moved_trans; eapply moved_wider; [exact M3|lia|lia|exact M4|lia|lia].
  - assert (Pv : get l5 (b4 - 1) = get l4 lo) by (rewrite E5; unfold tr; eqbs; try lia; subst; f_equal; lia).
    assert (R := le_refl l4 lo G4). rewrite Pv. split; [|split]; intros k Hk.
    + rewrite E5. unfold tr. eqbs; subst; try lia; apply A4; lia.
    + destruct (Nat.eq_dec k (b4 - 1)) as [->|]; [rewrite Pv; split; exact R|]. rewrite E5. unfold tr. eqbs; subst; try lia. apply A5. lia.
    + rewrite E5. unfold tr. eqbs; subst; try lia. apply A6. lia.
Qed.

(** *** sort.insertionSort *)
Definition sorted (a b : nat) (l : list A) : Prop := forall i j, a <= i < j -> j < b -> le (get l i) (get l j).
Lemma move_left_ok a e : forall n l j, good l -> n = j - a -> a <= j <= e -> e < length l ->
  (forall i k, a <= i < k -> k <= e -> i <> j -> k <> j -> le (get l i) (get l k)) -> (forall k, j < k <= e -> le (get l j) (get l k)) ->
  exists l', move_left lt l j n = Ok l' /\ moved a (S e) l l' /\ sorted a (S e) l'.
Proof.
  induction n as [|n IH]; intros l j G Hn Hj He H1 H2; cbn [move_left].
  - exists l. split; [reflexivity|]. split; [apply moved_refl|]. intros i k Hi Hk. destruct (Nat.eq_dec i j) as [->|]; [apply H2; lia|]. apply H1; lia.
  - rewrite less_at_ok by lia. cbn [rbind]. destruct (lt (get l j) (get l (j - 1))) eqn:E.
    + destruct (swap_ok a (S e) l j (j - 1) ltac:(lia) ltac:(lia) ltac:(lia)) as (l1 & -> & M1 & E1). cbn [rbind].
      destruct (IH l1 (j - 1)) as (l2 & -> & M2 & S2); [eapply moved_good; eassumption|lia|lia|rewrite (moved_length _ _ _ _ M1); lia| | |].
      * intros i k Hi Hk Ni Nk. rewrite !E1. unfold tr. eqbs; subst; try lia; apply H1; lia.
      * intros k Hk. rewrite !E1. unfold tr. eqbs; subst; try lia; [apply less_le; assumption|apply H2; lia].
      * exists l2. split; [reflexivity|]. split; [eapply moved_trans; eassumption|exact S2].
    + exists l. split; [reflexivity|]. split; [apply moved_refl|]. intros i k Hi Hk. apply nless_le in E; [|exact G]. destruct (Nat.eq_dec i j) as [->|]; [apply H2; lia|].
      destruct (Nat.eq_dec k j) as [->|]; [|apply H1; lia]. destruct (Nat.eq_dec i (j - 1)) as [->|]; [exact E|]. eapply le_tr; [|exact E]. apply H1; lia.
Qed.
Lemma insert_all_ok a : forall n l i, good l -> a <= i -> i + n <= length l -> sorted a i l -> exists l', insert_all lt l a i n = Ok l' /\ moved a (i + n) l l' /\ sorted a (i + n) l'.
Proof.
  induction n as [|n IH]; intros l i G Hi Hn S; cbn [insert_all]; [exists l; rewrite Nat.add_0_r; split; [reflexivity|]; split; [apply moved_refl|exact S]|].
  destruct (move_left_ok a i (i - a) l i G eq_refl) as (l1 & -> & M1 & S1); [lia|lia|intros; apply S; lia|intros; lia|]. cbn [rbind].
  destruct (IH l1 (Datatypes.S i)) as (l2 & -> & M2 & S2); [eapply moved_good; eassumption|lia|rewrite (moved_length _ _ _ _ M1); lia|exact S1|].
  exists l2. replace (i + Datatypes.S n) with (Datatypes.S i + n) by lia. split; [reflexivity|]. split; [eapply moved_trans; [eapply moved_wider; [exact M1|lia|lia]|exact M2]|exact S2].
Qed.
Lemma shell_ok a b : forall n l i, good l -> a + 6 <= i -> i + n <= b -> b <= length l -> exists l', shell lt l i n = Ok l' /\ moved a b l l'.
Proof.
  induction n as [|n IH]; intros l i G Hi Hn Hl; cbn [shell]; [exists l; split; [reflexivity|apply moved_refl]|]. rewrite less_at_ok by lia. cbn [rbind].
  assert (S1 : exists l1, (if lt (get l i) (get l (i - 6)) then swap_at l i (i - 6) else Ok l) = Ok l1 /\ moved a b l l1).
  { destruct (lt _ _); [|exists l; split; [reflexivity|apply moved_refl]]. destruct (swap_ok a b l i (i - 6) ltac:(lia) ltac:(lia) Hl) as (l1 & E & M & _). exists l1. auto. }
  destruct S1 as (l1 & -> & M1). cbn [rbind]. destruct (IH l1 (S i)) as (l2 & -> & M2); [eapply moved_good; eassumption|lia|lia|rewrite (moved_length _ _ _ _ M1); lia|].
  exists l2. split; [reflexivity|]. eapply moved_trans; eassumption.
Qed.
Lemma sort_few_ok l a b : good l -> a <= b -> b <= length l -> exists l', sort_few lt l a b = Ok l' /\ moved a b l l' /\ sorted a b l'.
Proof.
  intros G Hab Hl. unfold sort_few. destruct (Nat.ltb_spec 1 (b - a)) as [H|H].
  - assert (S1 : exists l1, shell lt l (a + 6) (b - (a + 6)) = Ok l1 /\ moved a b l l1).
    { destruct (le_lt_dec (a + 6) b); [apply shell_ok; try assumption; lia|]. replace (b - (a + 6)) with 0 by lia. exists l. split; [reflexivity|apply moved_refl]. }
    destruct S1 as (l1 & -> & M1). cbn [rbind]. unfold insertion. destruct (insert_all_ok a (b - S a) l1 (S a)) as (l2 & -> & M2 & S2); [eapply moved_good; eassumption|lia|rewrite (moved_length _ _ _ _ M1); lia|intros i j Hi Hj; lia|].
    replace (S a + (b - S a)) with b in * by lia. exists l2. split; [reflexivity|]. split; [eapply moved_trans; eassumption|exact S2].
  - exists l. split; [reflexivity|]. split; [apply moved_refl|]. intros i j Hi Hj. lia.
Qed.

(** *** sort.heapSort *)
Section Heap.
Variable first : nat.
Definition child (i c : nat) : Prop := c = 2 * i + 1 \/ c = 2 * i + 2.
Definition heap (k hi : nat) (l : list A) : Prop := forall i c, k <= i -> child i c -> c < hi -> le (get l (first + c)) (get l (first + i)).
Lemma sift_ok lo hi : forall fuel l root, good l -> lo <= root -> hi - root < fuel -> first + hi <= length l ->
  (forall i c, lo <= i -> i <> root -> child i c -> c < hi -> le (get l (first + c)) (get l (first + i))) ->
  (forall i c, lo <= i -> child i root -> child root c -> c < hi -> le (get l (first + c)) (get l (first + i))) ->
  exists l', sift lt fuel l root hi first = Ok l' /\ moved first (first + hi) l l' /\ heap lo hi l'.
Proof.
  unfold child. induction fuel as [|fuel IH]; intros l root G Hr Hf Hl H1 H2; [lia|]. cbn [sift]. destruct (Nat.leb_spec hi (2 * root + 1)) as [Hc|Hc].
  - exists l. split; [reflexivity|]. split; [apply moved_refl|]. intros i c Hi Hic Hch. unfold child in Hic. apply H1; [exact Hi| |exact Hic|exact Hch]. intros ->. lia.
  - set (t := if 2 * root + 1 + 1 <? hi then lt (get l (first + (2 * root + 1))) (get l (first + (2 * root + 1 + 1))) else false).
    assert (Et : (if 2 * root + 1 + 1 <? hi then less_at lt l (first + (2 * root + 1)) (first + (2 * root + 1 + 1)) else Ok false) = Ok t).
    { unfold t. destruct (Nat.ltb_spec (2 * root + 1 + 1) hi); [|reflexivity]. apply less_at_ok; lia. }
    rewrite Et. cbn [rbind].
    assert (Hx : exists x, (if t then 2 * root + 1 + 1 else 2 * root + 1) = x /\ (x = 2 * root + 1 \/ x = 2 * root + 2) /\ x < hi /\
      forall c, (c = 2 * root + 1 \/ c = 2 * root + 2) -> c < hi -> le (get l (first + c)) (get l (first + x))).
    { unfold t. destruct (Nat.ltb_spec (2 * root + 1 + 1) hi) as [H|H].
      - destruct (lt (get l (first + (2 * root + 1))) (get l (first + (2 * root + 1 + 1)))) eqn:E; eexists; (split; [reflexivity|]); (split; [lia|]); (split; [lia|]); intros c [->| ->] Hh.
        + apply less_le; assumption.
        + replace (2 * root + 2) with (2 * root + 1 + 1) by lia. apply le_refl. exact G.
        + apply le_refl. exact G.
        + replace (2 * root + 2) with (2 * root + 1 + 1) by lia. apply nless_le; assumption.
      - eexists. split; [reflexivity|]. split; [lia|]. split; [lia|]. intros c [->| ->] Hh; [apply le_refl; exact G|lia]. }
    destruct Hx as (x & -> & Xc & Xh & Xm). rewrite less_at_ok by lia. cbn [rbind]. destruct (lt (get l (first + root)) (get l (first + x))) eqn:E.
    + destruct (swap_ok first (first + hi) l (first + root) (first + x) ltac:(lia) ltac:(lia) Hl) as (l1 & -> & M1 & E1). cbn [rbind]. pose proof (less_le _ _ _ G E) as Ele.
      destruct (IH l1 x) as (l2 & -> & M2 & S2); [eapply moved_good; eassumption|lia|lia|rewrite (moved_length _ _ _ _ M1); lia| | |].
      * intros i c Hi Hne Hic Hch. rewrite !E1. unfold tr. destruct (Nat.eq_dec i root) as [->|Hir].
        -- eqbs; try lia; [exact Ele|]. apply Xm; lia.
        -- destruct (Nat.eqb_spec (first + i) (first + root)); [lia|]. destruct (Nat.eqb_spec (first + i) (first + x)); [lia|].
           destruct (Nat.eqb_spec (first + c) (first + root)); [apply H2; [lia|lia|lia|lia]|]. destruct (Nat.eqb_spec (first + c) (first + x)); [lia|]. apply H1; assumption.
      * intros i c Hi Hix Hxc Hch. assert (i = root) as -> by lia. rewrite !E1. unfold tr. eqbs; try lia. apply H1; lia.
      * exists l2. split; [reflexivity|]. split; [eapply moved_trans; eassumption|exact S2].
    + exists l. split; [reflexivity|]. split; [apply moved_refl|]. intros i c Hi Hic Hch. unfold child in Hic. destruct (Nat.eq_dec i root) as [->|]; [|apply H1; assumption].
      eapply le_tr; [apply Xm; assumption|]. apply nless_le; assumption.
Qed.
Lemma heap_build_ok hi : forall n l, good l -> first + hi <= length l -> heap n hi l -> exists l', heap_build lt l n hi first = Ok l' /\ moved first (first + hi) l l' /\ heap 0 hi l'.
Proof.
  induction n as [|n IH]; intros l G Hl H; cbn [heap_build]; [exists l; split; [reflexivity|]; split; [apply moved_refl|exact H]|].
  destruct (sift_ok n hi (S hi) l n G) as (l1 & -> & M1 & H1); [lia|lia|exact Hl|intros i c Hi Hne; apply H; lia|unfold child; intros; lia|]. cbn [rbind].
  destruct (IH l1) as (l2 & -> & M2 & H2); [eapply moved_good; eassumption|rewrite (moved_length _ _ _ _ M1); exact Hl|exact H1|]. exists l2. split; [reflexivity|]. split; [eapply moved_trans; eassumption|exact H2].
Qed.
Lemma heap_top hi l : good l -> heap 0 hi l -> forall i, i < hi -> le (get l (first + i)) (get l first).
Proof.
  intros G H i. induction i as [i IH] using lt_wf_ind. intros Hi. destruct i as [|i]; [rewrite Nat.add_0_r; apply le_refl; exact G|].
  pose proof (Nat.div_mod i 2 ltac:(lia)) as D1. pose proof (Nat.mod_upper_bound i 2 ltac:(lia)) as D2.
  eapply le_tr; [apply (H (i / 2) (S i)); [lia|unfold child; lia|exact Hi]|]. apply IH; lia.
Qed.
Lemma heap_pop_ok hi : forall n l, good l -> n <= hi -> first + hi <= length l -> heap 0 n l -> sorted (first + n) (first + hi) l ->
  (forall i k, i < n -> n <= k < hi -> le (get l (first + i)) (get l (first + k))) -> exists l', heap_pop lt l n first = Ok l' /\ moved first (first + hi) l l' /\ sorted first (first + hi) l'.
Proof.
  induction n as [|n IH]; intros l G Hn Hl H S O; cbn [heap_pop]; [exists l; rewrite Nat.add_0_r in S; split; [reflexivity|]; split; [apply moved_refl|exact S]|].
  pose proof (heap_top _ _ G H) as Top.
  destruct (swap_ok first (first + Datatypes.S n) l first (first + n) ltac:(lia) ltac:(lia) ltac:(lia)) as (l1 & -> & M1 & E1). cbn [rbind]. pose proof (moved_good _ _ _ _ M1 G) as G1. pose proof (moved_length _ _ _ _ M1) as L1.
  destruct (sift_ok 0 n (Datatypes.S n) l1 0 G1) as (l2 & -> & M2 & H2); [lia|lia|lia| |unfold child; intros; lia|].
  { intros i c _ Hne Hc Hch. unfold child in Hc. rewrite !E1. unfold tr. eqbs; try lia. apply H; [lia|exact Hc|lia]. }
  cbn [rbind]. pose proof (moved_length _ _ _ _ M2) as L2.
  assert (Out : forall k, n <= k < hi -> get l2 (first + k) = get l (tr first (first + n) (first + k))) by (intros k Hk; rewrite (moved_out _ _ _ _ (first + k) M2) by lia; apply E1).
  assert (Last : get l2 (first + n) = get l first) by (rewrite Out by lia; unfold tr; eqbs; try lia; f_equal; lia).
  assert (Old : forall k, n < k < hi -> get l2 (first + k) = get l (first + k)) by (intros k Hk; rewrite Out by lia; unfold tr; eqbs; try lia; reflexivity).
  assert (Max : forall i, i < n -> le (get l2 (first + i)) (get l first)).
  { intros i Hi. apply (moved_in _ _ _ _ (fun x => le x (get l first)) M2); [|lia]. intros k Hk. rewrite E1. unfold tr. eqbs; subst; try lia.
    - apply Top. lia.
    - replace k with (first + (k - first)) by lia. apply Top. lia. }
  destruct (IH l2) as (l3 & -> & M3 & S3); [eapply moved_good; eassumption|lia|lia|exact H2| | |].
  - intros i j Hi Hj. replace i with (first + (i - first)) by lia. replace j with (first + (j - first)) by lia. set (i' := i - first). set (j' := j - first).
    assert (n <= i' < j' /\ j' < hi) as [Hi' Hj'] by (unfold i', j'; lia). rewrite (Old j') by lia. destruct (Nat.eq_dec i' n) as [->|]; [rewrite Last|rewrite (Old i') by lia; apply S; lia].
    rewrite <- (Nat.add_0_r first) at 1. apply O; lia.
  - intros i k Hi Hk. eapply le_tr; [apply Max; exact Hi|]. destruct (Nat.eq_dec k n) as [->|]; [rewrite Last; apply le_refl; exact G|]. rewrite (Old k) by lia. rewrite <- (Nat.add_0_r first) at 1. apply O; lia.
  - exists l3. split; [reflexivity|]. split; [|exact S3]. eapply moved_trans; [eapply moved_trans; [eapply moved_wider; [exact M1|lia|lia]|eapply moved_wider; [exact M2|lia|lia]]|exact M3].
Qed.
End Heap.
Lemma heap_sort_ok l a b : good l -> a <= b -> b <= length l -> exists l', heap_sort lt l a b = Ok l' /\ moved a b l l' /\ sorted a b l'.
Proof.
  intros G Hab Hl. unfold heap_sort. pose proof (Nat.div_mod (b - a - 1) 2 ltac:(lia)) as D1. pose proof (Nat.mod_upper_bound (b - a - 1) 2 ltac:(lia)) as D2.
  destruct (heap_build_ok a (b - a) (S ((b - a - 1) / 2)) l G) as (l1 & -> & M1 & H1); [lia|unfold heap, child; intros; lia|]. cbn [rbind].
  destruct (heap_pop_ok a (b - a) (b - a) l1) as (l2 & -> & M2 & S2); [eapply moved_good; eassumption|lia|rewrite (moved_length _ _ _ _ M1); lia|exact H1|intros i j Hi Hj; lia|intros; lia|].
  replace (a + (b - a)) with b in * by lia. exists l2. split; [reflexivity|]. split; [eapply moved_trans; eassumption|exact S2].
Qed.

(** *** sort.quickSort *)
Lemma quick_sort_ok : forall depth l a b, good l -> a <= b -> b <= length l -> exists l', quick_sort lt depth l a b = Ok l' /\ moved a b l l' /\ sorted a b l'.
Proof.
  induction depth as [|depth IH]; intros l a b G Hab Hl; cbn [quick_sort]; (destruct (Nat.leb_spec (b - a) 12) as [H|H]; [apply sort_few_ok; assumption|]); [apply heap_sort_ok; assumption|].
  destruct (do_pivot_ok l a b G H Hl) as (l1 & mlo & mhi & -> & B1 & B2 & M1 & P1 & P2 & P3). cbn [rbind]. pose proof (moved_good _ _ _ _ M1 G) as G1. pose proof (moved_length _ _ _ _ M1) as L1.
  assert (Fin : forall l2 l3 : list A, (moved a mlo l1 l2 /\ moved mhi b l2 l3 /\ sorted a mlo l2 /\ sorted mhi b l3) \/ (moved mhi b l1 l2 /\ moved a mlo l2 l3 /\ sorted mhi b l2 /\ sorted a mlo l3) -> moved a b l l3 /\ sorted a b l3).
  { intros l2 l3 Hc. set (p := get l1 mlo) in *.
    assert (Y : moved a b l1 l3 /\ sorted a mlo l3 /\ sorted mhi b l3 /\ (forall k, a <= k < mlo -> le (get l3 k) p) /\ (forall k, mhi <= k < b -> le p (get l3 k)) /\ (forall k, mlo <= k < mhi -> get l3 k = get l1 k)).
    { destruct Hc as [(M2 & M3 & S2 & S3)|(M2 & M3 & S2 & S3)]; (split; [eapply moved_trans; eapply moved_wider; eassumption || lia|]).
      - split; [intros i j Hi Hj; rewrite (moved_out _ _ _ _ i M3), (moved_out _ _ _ _ j M3) by lia; apply S2; assumption|]. split; [exact S3|]. split; [|split].
        + intros k Hk. rewrite (moved_out _ _ _ _ k M3) by lia. revert k Hk. apply (moved_in _ _ _ _ (fun x => le x p) M2). exact P1.
        + apply (moved_in _ _ _ _ (fun x => le p x) M3). intros k Hk. rewrite (moved_out _ _ _ _ k M2) by lia. apply P3. exact Hk.
        + intros k Hk. rewrite (moved_out _ _ _ _ k M3), (moved_out _ _ _ _ k M2) by lia. reflexivity.
      - split; [exact S3|]. split; [intros i j Hi Hj; rewrite (moved_out _ _ _ _ i M3), (moved_out _ _ _ _ j M3) by lia; apply S2; assumption|]. split; [|split].
        + apply (moved_in _ _ _ _ (fun x => le x p) M3). intros k Hk. rewrite (moved_out _ _ _ _ k M2) by lia. apply P1. exact Hk.
        + intros k Hk. rewrite (moved_out _ _ _ _ k M3) by lia. revert k Hk. apply (moved_in _ _ _ _ (fun x => le p x) M2). exact P3.
        + intros k Hk. rewrite (moved_out _ _ _ _ k M3), (moved_out _ _ _ _ k M2) by lia. reflexivity. }
    destruct Y as (M & S1 & S2 & Y1 & Y2 & Y3). split; [eapply moved_trans; eassumption|]. intros i j Hi Hj.
    assert (Lo : i < mhi -> le (get l3 i) p) by (intros; destruct (le_lt_dec mlo i); [rewrite Y3 by lia; apply P2; lia|apply Y1; lia]).
    assert (Up : mlo <= j -> le p (get l3 j)) by (intros; destruct (le_lt_dec mhi j); [apply Y2; lia|rewrite Y3 by lia; apply P2; lia]).
    destruct (le_lt_dec mlo j); [|apply S1; lia]. destruct (le_lt_dec mhi i); [apply S2; lia|]. eapply le_tr; [apply Lo|apply Up]; lia. }
  destruct (mlo - a <? b - mhi).
  - destruct (IH l1 a mlo G1) as (l2 & -> & M2 & S2); [lia|lia|]. cbn [rbind]. destruct (IH l2 mhi b) as (l3 & -> & M3 & S3); [eapply moved_good; eassumption|lia|rewrite (moved_length _ _ _ _ M2); lia|].
    exists l3. split; [reflexivity|]. apply (Fin l2). left. auto.
  - destruct (IH l1 mhi b G1) as (l2 & -> & M2 & S2); [lia|lia|]. cbn [rbind]. destruct (IH l2 a mlo) as (l3 & -> & M3 & S3); [eapply moved_good; eassumption|lia|rewrite (moved_length _ _ _ _ M2); lia|].
    exists l3. split; [reflexivity|]. apply (Fin l2). right. auto.
Qed.
End Sort.

Lemma sorted_list {A} (R : A -> A -> Prop) (l : list A) : (forall i j x y, i < j -> nth_error l i = Some x -> nth_error l j = Some y -> R x y) -> StronglySorted R l.
Proof.
  induction l as [|x l IH]; intros H; [constructor|]. constructor.
  - apply IH. intros i j a b Hij Ha Hb. apply (H (S i) (S j)); [lia|exact Ha|exact Hb].
  - apply Forall_forall. intros y Hy. apply In_nth_error in Hy as (j & Hj). apply (H 0 (S j)); [lia|reflexivity|exact Hj].
Qed.

Lemma go_sort_returns {A} (lt : A -> A -> bool) l : go_sort_steps lt l = Ok (go_sort lt l) /\ Permutation l (go_sort lt l).
Proof.
  unfold go_sort, go_sort_steps. destruct l as [|d l]; [split; [reflexivity|constructor]|].
  destruct (quick_sort_ok lt d False (fun _ => True) ltac:(tauto) ltac:(tauto) ltac:(tauto) (max_depth (length (d :: l))) (d :: l) 0 (length (d :: l))) as (l' & -> & M & _); [intros []|lia|lia|].
  split; [reflexivity|]. eapply moved_permutation. exact M.
Qed.
Lemma go_sort_sorts {A} : sorts (@go_sort A).
Proof.
  intros lt l [H1 H2]. split; [apply go_sort_returns|]. unfold go_sort, go_sort_steps. destruct l as [|d l]; [constructor|].
  destruct (quick_sort_ok lt d True (fun x => In x (d :: l)) (fun _ => or_introl eq_refl) (fun _ => H1) (fun _ => H2) (max_depth (length (d :: l))) (d :: l) 0 (length (d :: l))) as (l' & -> & M & S); [intros _; apply Forall_forall; auto|lia|lia|].
  apply sorted_list. intros i j x y Hij Hx Hy. pose proof (moved_length _ _ _ _ M) as L. assert (Hj : j < length l') by (apply nth_error_Some; congruence).
  specialize (S i j ltac:(lia) ltac:(lia) I). unfold get in S. rewrite Hx, Hy in S. apply S.
Qed.
