(** Facts about the running process. *)
From Coq Require Import List ZArith Lia Bool String Permutation Arith.
From Verif Require Import Base Lifecycle SpecLifecycle.
Import ListNotations.
Open Scope nat_scope.

Lemma update_length {A} (l : list A) : forall n a, List.length (update l n a) = List.length l.
Proof. induction l as [|x l IH]; intros [|n] a; cbn; auto. Qed.
Lemma update_same {A} (l : list A) : forall n a, n < List.length l -> nth_error (update l n a) n = Some a.
Proof. induction l as [|x l IH]; intros [|n] a H; cbn in *; try lia; auto. apply IH. lia. Qed.
Lemma update_other {A} (l : list A) : forall n m a, n <> m -> nth_error (update l n a) m = nth_error l m.
Proof. induction l as [|x l IH]; intros [|n] [|m] a H; cbn; auto; try lia. Qed.

Lemma server_some p k i v : server_at p k i = Some v -> exists s, nth_error (p_services p) k = Some s /\ nth_error s i = Some v.
Proof. unfold server_at. destruct (nth_error (p_services p) k) as [s|]; [|discriminate]. intros H. exists s. auto. Qed.

Lemma set_server_at p k i v v0 : server_at p k i = Some v0 -> forall k' i',
  server_at (set_server p k i v) k' i' = if andb (k' =? k) (i' =? i) then Some v else server_at p k' i'.
Proof.
  intros H k' i'. destruct (server_some _ _ _ _ H) as [s [Hk Hi]]. unfold set_server. rewrite Hk. unfold server_at at 1. cbn [p_services].
  assert (Lk : k < List.length (p_services p)) by (apply nth_error_Some; congruence).
  assert (Li : i < List.length s) by (apply nth_error_Some; congruence).
  destruct (Nat.eqb_spec k' k) as [->|Nk]; cbn [andb].
  - rewrite update_same by exact Lk. destruct (Nat.eqb_spec i' i) as [->|Ni]; [now apply update_same|].
    rewrite update_other by congruence. unfold server_at. now rewrite Hk.
  - rewrite update_other by congruence. reflexivity.
Qed.

Lemma set_server_fields p k i v : p_main (set_server p k i v) = p_main p /\ p_signal (set_server p k i v) = p_signal p /\ p_open (set_server p k i v) = p_open p.
Proof. unfold set_server. destruct (nth_error _ _); auto. Qed.

Lemma set_server_sizes p k i v : map (@List.length _) (p_services (set_server p k i v)) = map (@List.length _) (p_services p).
Proof.
  unfold set_server. destruct (nth_error (p_services p) k) as [s|] eqn:E; [|reflexivity]. cbn [p_services].
  revert k E. induction (p_services p) as [|x l IH]; intros [|k] E; cbn in *; try discriminate.
  - injection E as ->. now rewrite update_length.
  - f_equal. now apply IH.
Qed.

(** *** Wait *)

Lemma wait_all s r : wait_service s = Some r ->
  Forall (fun v => v_back v <> None) s /\ match r with None => Forall (fun v => v_back v = Some None) s | Some e => exists v, In v s /\ v_back v = Some (Some e) end.
Proof.
  revert r. induction s as [|v s IH]; intros r H; cbn [wait_service] in H.
  - injection H as <-. split; constructor.
  - destruct (v_back v) as [b|] eqn:Eb; [|discriminate]. destruct (wait_service s) as [r'|]; [|discriminate].
    injection H as <-. destruct (IH r' eq_refl) as [H1 H2]. split; [constructor; [congruence|exact H1]|].
    destruct b as [e|]; [exists v; split; [now left|exact Eb]|]. destruct r' as [e|].
    + destruct H2 as [w [W1 W2]]. exists w. split; [now right|exact W2].
    + constructor; [exact Eb|exact H2].
Qed.

Lemma wait_none s : Forall (fun v => v_back v = Some None) s -> wait_service s = Some None.
Proof. induction 1 as [|v s H _ IH]; [reflexivity|]. cbn [wait_service]. now rewrite H, IH. Qed.

Lemma wait_some s : Forall (fun v => v_back v <> None) s -> exists r, wait_service s = Some r.
Proof.
  induction 1 as [|v s H _ [r IH]]; [eexists; reflexivity|]. cbn [wait_service]. rewrite IH. destruct (v_back v) as [b|]; [eexists; reflexivity|contradiction].
Qed.

(** *** What holds all the time *)

Definition all_servers (p : process) (P : nat -> nat -> server -> Prop) : Prop := forall k i v, server_at p k i = Some v -> P k i v.

Definition main_ok (p : process) : Prop :=
  match p_main p with
  | MWait todo => p_open p = true /\ Forall (fun k => k < List.length (p_services p)) todo /\ all_servers p (fun k _ v => ~ In k todo -> v_back v = Some None)
  | MClose => all_servers p (fun _ _ v => v_back v = Some None)
  | MExit z => (z = 0%Z /\ p_open p = false /\ all_servers p (fun _ _ v => v_back v = Some None)) \/
               (z = 1%Z /\ p_open p = true /\ exists k i v e, server_at p k i = Some v /\ v_back v = Some (Some e))
  end.

Definition closed_shut (p : process) : Prop := all_servers p (fun _ _ v => v_back v = Some None -> v_shut v = true).

Lemma sizes_length p q : map (@List.length _) (p_services p) = map (@List.length server) (p_services q) -> List.length (p_services p) = List.length (p_services q).
Proof. intros H. apply (f_equal (@List.length nat)) in H. rewrite !map_length in H. exact H. Qed.

(** A change of one server that keeps what Serve returned. *)
Lemma main_ok_set p k i v v' : server_at p k i = Some v -> exited p = false -> (v_back v <> None -> v_back v' = v_back v) -> main_ok p -> main_ok (set_server p k i v').
Proof.
  intros Hs Hx Hb Hm. unfold main_ok, exited in *. destruct (set_server_fields p k i v') as [-> [_ ->]].
  assert (G : forall P : nat -> Prop, all_servers p (fun k _ v => P k -> v_back v = Some None) -> all_servers (set_server p k i v') (fun k _ v => P k -> v_back v = Some None)).
  { intros P H k' i' w Hw Hp. rewrite (set_server_at _ _ _ _ _ Hs) in Hw. destruct ((k' =? k) && (i' =? i)) eqn:E.
    - injection Hw as <-. apply andb_true_iff in E as [E1 E2]. apply Nat.eqb_eq in E1, E2. subst. rewrite Hb; [|rewrite (H _ _ _ Hs Hp); discriminate]. now apply (H _ _ _ Hs).
    - now apply (H _ _ _ Hw). }
  destruct (p_main p) as [todo| |z]; [| |discriminate].
  - destruct Hm as [H1 [H2 H3]]. split; [exact H1|]. split; [|now apply G].
    rewrite (sizes_length _ p) by apply set_server_sizes. exact H2.
  - intros k' i' w Hw. apply (G (fun _ => True) ltac:(intros ? ? ? Hq _; now apply (Hm _ _ _ Hq)) k' i' w Hw I).
Qed.

Lemma closed_shut_set p k i v v' : server_at p k i = Some v -> (v_back v' = Some None -> v_shut v' = true) -> closed_shut p -> closed_shut (set_server p k i v').
Proof.
  intros Hs Hv H k' i' w Hw. rewrite (set_server_at _ _ _ _ _ Hs) in Hw. destruct (_ && _); [injection Hw as <-; exact Hv|]. now apply (H _ _ _ Hw).
Qed.

Lemma happen_ok p ev p' : happen p ev = Some p' -> main_ok p -> closed_shut p -> main_ok p' /\ closed_shut p'.
Proof.
  intros H Hm Hc. unfold happen in H. destruct (exited p) eqn:Hx; [discriminate|].
  assert (Gset : forall k i v v', server_at p k i = Some v -> (v_back v <> None -> v_back v' = v_back v) -> (v_back v' = Some None -> v_shut v' = true) ->
     main_ok (set_server p k i v') /\ closed_shut (set_server p k i v')).
  { intros k i v v' Hs H1 H2. split; [eapply main_ok_set; eassumption|eapply closed_shut_set; eassumption]. }
  assert (Gsig : forall q g, main_ok q /\ closed_shut q -> main_ok (set_signal q g) /\ closed_shut (set_signal q g)) by (intros q g Hq; exact Hq).
  destruct ev as [k i|k i|k i e|k i|order| |].
  - destruct (server_at p k i) as [v|] eqn:Es; [|discriminate]. destruct (v_shut v) eqn:Eh; [discriminate|]. destruct (v_back v) eqn:Eb; [discriminate|]. injection H as <-.
    eapply Gset; [exact Es|intros Hq; now destruct Hq|cbn; congruence].
  - destruct (server_at p k i) as [v|] eqn:Es; [|discriminate]. destruct (v_running v) as [|n]; [discriminate|]. injection H as <-.
    eapply Gset; [exact Es|reflexivity|]. cbn. exact (Hc _ _ _ Es).
  - destruct (server_at p k i) as [v|] eqn:Es; [|discriminate]. destruct (v_shut v) eqn:Eh; [discriminate|]. destruct (v_back v) eqn:Eb; [discriminate|]. injection H as <-.
    eapply Gset; [exact Es|intros Hq; now destruct Hq|cbn; discriminate].
  - destruct (server_at p k i) as [v|] eqn:Es; [|discriminate]. destruct (v_shut v) eqn:Eh; [|discriminate]. destruct (v_back v) eqn:Eb; [discriminate|]. injection H as <-.
    eapply Gset; [exact Es|intros Hq; now destruct Hq|reflexivity].
  - destruct (p_signal p); try discriminate. injection H as <-. apply Gsig. auto.
  - destruct (p_signal p) as [|k i todo|k i todo|k todo|]; try discriminate.
    + destruct (server_at p k i) as [v|] eqn:Es; injection H as <-; apply Gsig; [|auto]. eapply Gset; [exact Es|reflexivity|reflexivity].
    + destruct (server_at p k i) as [v|]; [|discriminate]. destruct (_ =? _); [|discriminate]. injection H as <-. apply Gsig. auto.
    + destruct (nth_error _ _) as [s|]; [|discriminate]. destruct (wait_service s) as [[e|]|]; try discriminate; injection H as <-; apply Gsig; auto.
  - split; [|destruct (p_main p) as [[|k todo]| |z]; try discriminate;
      [injection H as <-; exact Hc|destruct (nth_error _ _) as [s|]; [|discriminate]; destruct (wait_service s) as [[e|]|]; try discriminate; injection H as <-; exact Hc|
       destruct (p_open p); injection H as <-; exact Hc]].
    unfold main_ok in *. destruct (p_main p) as [[|k todo]| |z] eqn:Em; [| | |discriminate].
    + injection H as <-. cbn [set_main p_main]. destruct Hm as [_ [_ Hm]]. intros k i v Hv. apply (Hm k i v Hv). intros [].
    + destruct (nth_error (p_services p) k) as [s|] eqn:Ek; [|discriminate]. destruct (wait_service s) as [[e|]|] eqn:Ew; try discriminate; injection H as <-; cbn [set_main p_main p_open].
      * right. split; [reflexivity|]. split; [apply Hm|]. destruct (wait_all _ _ Ew) as [_ [v [V1 V2]]]. apply In_nth_error in V1 as [i Hi].
        exists k, i, v, e. split; [|exact V2]. unfold server_at. cbn [set_main p_services]. now rewrite Ek.
      * destruct Hm as [H1 [H2 H3]]. inversion H2; subst. split; [exact H1|]. split; [assumption|]. intros k' i v Hv Hn.
        destruct (Nat.eq_dec k' k) as [->|Nk]; [|apply (H3 k' i v Hv); intros [->|?]; contradiction].
        destruct (wait_all _ _ Ew) as [_ V]. unfold server_at in Hv. cbn [set_main p_services] in Hv. rewrite Ek in Hv. apply nth_error_In in Hv. rewrite Forall_forall in V. now apply V.
    + destruct (p_open p) eqn:Eo; injection H as <-; cbn [set_main p_main p_open]; [exact Hm|]. left. auto.
Qed.

Lemma map_nth_error_none {A B} (f : A -> B) (l : list A) n : nth_error l n = None -> nth_error (map f l) n = None.
Proof. intros H. apply nth_error_None. rewrite map_length. now apply nth_error_None. Qed.

Lemma new_ok sizes order : Permutation order (seq 0 (List.length sizes)) -> main_ok (new_process sizes order) /\ closed_shut (new_process sizes order).
Proof.
  intros Hp.
  assert (Hn : all_servers (new_process sizes order) (fun k _ v => k < List.length sizes /\ v = new_server)).
  { intros k i v Hv. destruct (server_some _ _ _ _ Hv) as [s [H1 H2]]. cbn [new_process p_services] in H1.
    assert (k < List.length sizes) by (apply nth_error_Some; intros E; rewrite (map_nth_error_none _ _ _ E) in H1; discriminate).
    split; [assumption|]. apply nth_error_In, in_map_iff in H1 as [n [<- _]]. apply nth_error_In, repeat_spec in H2. exact H2. }
  split.
  - unfold main_ok. cbn [new_process p_main p_open p_services]. split; [reflexivity|]. split.
    + apply Forall_forall. intros k Hk. apply (Permutation_in k) in Hp; [|exact Hk]. apply in_seq in Hp. rewrite map_length. lia.
    + intros k i v Hv Hk. destruct (Hn _ _ _ Hv) as [Hl _]. exfalso. apply Hk. apply (Permutation_in k (Permutation_sym Hp)). apply in_seq. lia.
  - intros k i v Hv. destruct (Hn _ _ _ Hv) as [_ ->]. discriminate.
Qed.

Lemma run_ok evs : forall p p', run p evs = Some p' -> main_ok p -> closed_shut p -> main_ok p' /\ closed_shut p'.
Proof.
  induction evs as [|ev evs IH]; intros p p' H Hm Hc; cbn [run] in H; [injection H as <-; auto|].
  destruct (happen p ev) as [q|] eqn:E; [|discriminate]. destruct (happen_ok _ _ _ E Hm Hc) as [Hm' Hc']. eapply IH; eassumption.
Qed.

Lemma exit_status sizes order evs p z : Permutation order (seq 0 (List.length sizes)) -> run (new_process sizes order) evs = Some p -> p_main p = MExit z ->
  (z = 0%Z /\ p_open p = false /\ forall k i v, server_at p k i = Some v -> v_back v = Some None /\ v_shut v = true) \/
  (z = 1%Z /\ exists k i v e, server_at p k i = Some v /\ v_back v = Some (Some e)).
Proof.
  intros Hp Hr Hz. destruct (new_ok sizes order Hp) as [H1 H2]. destruct (run_ok _ _ _ Hr H1 H2) as [Hm Hc]. unfold main_ok in Hm. rewrite Hz in Hm.
  destruct Hm as [[A [B C]]|[A [B C]]]; [left|right; auto]. split; [exact A|]. split; [exact B|]. intros k i v Hv. split; [exact (C _ _ _ Hv)|]. exact (Hc _ _ _ Hv (C _ _ _ Hv)).
Qed.

(** *** Stopping *)

Definition no_failure (p : process) : Prop := all_servers p (fun _ _ v => v_back v = None \/ v_back v = Some None).

(** Which servers have been shut down. *)
Definition signal_ok (p : process) : Prop :=
  let n := List.length (p_services p) in
  match p_signal p with
  | GIdle => True
  | GShut k i todo => k < n /\ Forall (fun k => k < n) todo /\ all_servers p (fun k' i' v => (k' = k /\ i' < i) \/ (k' <> k /\ ~ In k' todo) -> v_shut v = true)
  | GDrain k i todo => k < n /\ Forall (fun k => k < n) todo /\ server_at p k i <> None /\ all_servers p (fun k' i' v => (k' = k /\ i' <= i) \/ (k' <> k /\ ~ In k' todo) -> v_shut v = true)
  | GWait k todo => k < n /\ Forall (fun k => k < n) todo /\ all_servers p (fun k' i' v => k' = k \/ ~ In k' todo -> v_shut v = true)
  | GDone => all_servers p (fun _ _ v => v_shut v = true)
  end.

Lemma signal_ok_ext p q : (forall k i v, server_at q k i = Some v -> exists w, server_at p k i = Some w /\ (v_shut w = true -> v_shut v = true)) ->
  (forall k i, server_at p k i <> None -> server_at q k i <> None) ->
  List.length (p_services q) = List.length (p_services p) -> p_signal q = p_signal p -> signal_ok p -> signal_ok q.
Proof.
  intros H H0 Hl Hs Hp. unfold signal_ok in *. rewrite Hl, Hs.
  assert (G : forall P : nat -> nat -> Prop, all_servers p (fun k i v => P k i -> v_shut v = true) -> all_servers q (fun k i v => P k i -> v_shut v = true)).
  { intros P HP k i v Hv Hki. destruct (H _ _ _ Hv) as [w [W1 W2]]. apply W2, (HP _ _ _ W1 Hki). }
  destruct (p_signal p) as [|k i todo|k i todo|k todo|].
  - exact I.
  - destruct Hp as [A [B C]]. split; [exact A|]. split; [exact B|]. apply (G (fun k' i' => (k' = k /\ i' < i) \/ (k' <> k /\ ~ In k' todo))). exact C.
  - destruct Hp as [A [B [D C]]]. split; [exact A|]. split; [exact B|]. split; [now apply H0|]. apply (G (fun k' i' => (k' = k /\ i' <= i) \/ (k' <> k /\ ~ In k' todo))). exact C.
  - destruct Hp as [A [B C]]. split; [exact A|]. split; [exact B|]. apply (G (fun k' i' => k' = k \/ ~ In k' todo)). exact C.
  - intros k i v Hv. destruct (H _ _ _ Hv) as [w [W1 W2]]. apply W2, (Hp _ _ _ W1).
Qed.

Lemma signal_ok_set p k i v v' : server_at p k i = Some v -> (v_shut v = true -> v_shut v' = true) -> signal_ok p -> signal_ok (set_server p k i v').
Proof.
  intros Hs Hv. apply signal_ok_ext.
  - intros k' i' w Hw. rewrite (set_server_at _ _ _ _ _ Hs) in Hw. destruct ((k' =? k) && (i' =? i)) eqn:E.
    + injection Hw as <-. apply andb_true_iff in E as [E1 E2]. apply Nat.eqb_eq in E1, E2. subst. exists v. auto.
    + exists w. auto.
  - intros k' i' Hk. rewrite (set_server_at _ _ _ _ _ Hs). destruct (_ && _); [discriminate|exact Hk].
  - apply sizes_length, set_server_sizes.
  - apply set_server_fields.
Qed.

Lemma no_failure_set p k i v v' : server_at p k i = Some v -> (v_back v' = None \/ v_back v' = Some None) -> no_failure p -> no_failure (set_server p k i v').
Proof.
  intros Hs Hv H k' i' w Hw. rewrite (set_server_at _ _ _ _ _ Hs) in Hw. destruct (_ && _); [injection Hw as <-; exact Hv|]. now apply (H _ _ _ Hw).
Qed.

Lemma next_close_ok p todo : Forall (fun k => k < List.length (p_services p)) todo -> all_servers p (fun k _ v => ~ In k todo -> v_shut v = true) -> signal_ok (set_signal p (next_close todo)).
Proof.
  intros Hf Ha. unfold signal_ok, next_close, set_signal. destruct todo as [|k todo]; cbn [p_signal p_services].
  - intros k i v Hv. apply (Ha k i v Hv). intros [].
  - inversion Hf; subst. split; [assumption|]. split; [assumption|]. intros k' i' v Hv [[_ ?]|[Hk Hn]]; [lia|]. apply (Ha k' i' v Hv). intros [->|?]; contradiction.
Qed.

Lemma happen_signal p ev p' : happen p ev = Some p' -> is_fail ev = false ->
  match ev with ESignal order => Permutation order (seq 0 (List.length (p_services p))) | _ => True end ->
  no_failure p -> signal_ok p -> no_failure p' /\ signal_ok p' /\ List.length (p_services p') = List.length (p_services p) /\
  (p_signal p <> GIdle \/ is_signal ev = true -> p_signal p' <> GIdle).
Proof.
  intros H Hf Ho Hn Hs. unfold happen in H. destruct (exited p); [discriminate|].
  assert (Hl : forall k i v, List.length (p_services (set_server p k i v)) = List.length (p_services p)) by (intros; apply sizes_length, set_server_sizes).
  assert (Hsig : forall k i v, p_signal (set_server p k i v) = p_signal p) by (intros; apply set_server_fields).
  destruct ev as [k i|k i|k i e|k i|order| |]; cbn [is_fail is_signal] in *; try discriminate Hf.
  - destruct (server_at p k i) as [v|] eqn:Es; [|discriminate]. destruct (v_shut v) eqn:Eh; [discriminate|]. destruct (v_back v) eqn:Eb; [discriminate|]. injection H as <-.
    split; [eapply no_failure_set; [exact Es|now left|exact Hn]|]. split; [eapply signal_ok_set; [exact Es|cbn; congruence|exact Hs]|]. rewrite Hl, Hsig. split; [reflexivity|]. intros [?|?]; [assumption|discriminate].
  - destruct (server_at p k i) as [v|] eqn:Es; [|discriminate]. destruct (v_running v) as [|m]; [discriminate|]. injection H as <-.
    split; [eapply no_failure_set; [exact Es|exact (Hn _ _ _ Es)|exact Hn]|]. split; [eapply signal_ok_set; [exact Es|auto|exact Hs]|]. rewrite Hl, Hsig. split; [reflexivity|]. intros [?|?]; [assumption|discriminate].
  - destruct (server_at p k i) as [v|] eqn:Es; [|discriminate]. destruct (v_shut v) eqn:Eh; [|discriminate]. destruct (v_back v) eqn:Eb; [discriminate|]. injection H as <-.
    split; [eapply no_failure_set; [exact Es|now right|exact Hn]|]. split; [eapply signal_ok_set; [exact Es|auto|exact Hs]|]. rewrite Hl, Hsig. split; [reflexivity|]. intros [?|?]; [assumption|discriminate].
  - destruct (p_signal p); try discriminate. injection H as <-. split; [exact Hn|]. split.
    + apply next_close_ok.
      * apply Forall_forall. intros k Hk. apply (Permutation_in k) in Ho; [|exact Hk]. apply in_seq in Ho. lia.
      * intros k i v Hv Hk. exfalso. apply Hk, (Permutation_in k (Permutation_sym Ho)), in_seq. destruct (server_some _ _ _ _ Hv) as [s [E _]].
        assert (k < List.length (p_services p)) by (apply nth_error_Some; congruence). lia.
    + split; [reflexivity|]. intros _. destruct order; discriminate.
  - unfold signal_ok in Hs. destruct (p_signal p) as [|k i todo|k i todo|k todo|] eqn:Eg; try discriminate.
    + destruct Hs as [A [B C]]. destruct (server_at p k i) as [v|] eqn:Es; injection H as <-.
      * split; [exact (no_failure_set p k i v (mkServer true (v_back v) (v_running v)) Es (Hn _ _ _ Es) Hn)|].
        split; [|split; [apply Hl|discriminate]]. unfold signal_ok. cbn [set_signal p_signal p_services]. rewrite Hl. split; [exact A|]. split; [exact B|]. split.
        -- change (server_at (set_server p k i (mkServer true (v_back v) (v_running v))) k i <> None). rewrite (set_server_at _ _ _ _ _ Es), !Nat.eqb_refl. discriminate.
        -- intros k' i' w Hw. change (server_at (set_server p k i (mkServer true (v_back v) (v_running v))) k' i' = Some w) in Hw. rewrite (set_server_at _ _ _ _ _ Es) in Hw.
           destruct ((k' =? k) && (i' =? i)) eqn:E; [injection Hw as <-; reflexivity|]. intros [[-> Hi]|Hk]; apply (C _ _ _ Hw); [left|right; exact Hk].
           split; [reflexivity|]. rewrite Nat.eqb_refl in E. cbn [andb] in E. apply Nat.eqb_neq in E. lia.
      * split; [exact Hn|]. split; [|split; [reflexivity|discriminate]]. unfold signal_ok. cbn [set_signal p_signal p_services]. split; [exact A|]. split; [exact B|].
        intros k' i' w Hw Hk. apply (C _ _ _ Hw). destruct (Nat.eq_dec k' k) as [->|Nk]; [left|right; tauto]. split; [reflexivity|].
        change (server_at p k i' = Some w) in Hw. clear -Es Hw. unfold server_at in *. destruct (nth_error (p_services p) k) as [s|]; [|discriminate].
        apply nth_error_None in Es. assert (i' < List.length s) by (apply nth_error_Some; congruence). lia.
    + destruct Hs as [A [B [D C]]]. destruct (server_at p k i) as [v|] eqn:Es; [|discriminate]. destruct (_ =? _); [|discriminate]. injection H as <-.
      split; [exact Hn|]. split; [|split; [reflexivity|discriminate]]. unfold signal_ok. cbn [set_signal p_signal p_services]. split; [exact A|]. split; [exact B|].
      intros k' i' w Hw Hk. apply (C k' i' w Hw). destruct Hk as [[-> Hi]|Hk]; [left; split; [reflexivity|lia]|right; exact Hk].
    + destruct Hs as [A [B C]]. destruct (nth_error (p_services p) k) as [s|] eqn:Ek; [|discriminate]. destruct (wait_service s) as [[e|]|] eqn:Ew; try discriminate; injection H as <-.
      * exfalso. destruct (wait_all _ _ Ew) as [_ [v [V1 V2]]]. apply In_nth_error in V1 as [i Hi].
        assert (Es : server_at p k i = Some v) by (unfold server_at; now rewrite Ek). destruct (Hn _ _ _ Es); congruence.
      * split; [exact Hn|]. split; [|split; [reflexivity|intros _; destruct todo; discriminate]]. apply next_close_ok; [exact B|]. intros k' i' v Hv Hk. apply (C _ _ _ Hv). now right.
  - assert (K : p_services p' = p_services p /\ p_signal p' = p_signal p).
    { destruct (p_main p) as [[|k todo]| |z]; try discriminate.
      - injection H as <-. auto.
      - destruct (nth_error _ _) as [s|]; [|discriminate]. destruct (wait_service s) as [[e|]|]; try discriminate; injection H as <-; auto.
      - destruct (p_open p); injection H as <-; auto. }
    destruct K as [K1 K2]. assert (K3 : forall k i, server_at p' k i = server_at p k i) by (intros; unfold server_at; now rewrite K1).
    split; [intros k i v Hv; rewrite K3 in Hv; exact (Hn _ _ _ Hv)|]. split; [|rewrite K1, K2; split; [reflexivity|intros [?|?]; [assumption|discriminate]]].
    apply (signal_ok_ext p p'); [|intros; now rewrite K3|now rewrite K1|exact K2|exact Hs]. intros k i v Hv. exists v. rewrite <- K3. auto.
Qed.

(** The events of a process with [n] services: the orders are orders of the
    services. *)
Definition possible (n : nat) (ev : event) : Prop := match ev with ESignal order => Permutation order (seq 0 n) | _ => True end.

Lemma run_signal evs : forall p p', run p evs = Some p' -> existsb is_fail evs = false -> Forall (possible (List.length (p_services p))) evs ->
  no_failure p -> signal_ok p -> no_failure p' /\ signal_ok p' /\ (p_signal p <> GIdle \/ existsb is_signal evs = true -> p_signal p' <> GIdle).
Proof.
  induction evs as [|ev evs IH]; intros p p' H Hf Hp Hn Hs; cbn [run existsb] in *.
  - injection H as <-. split; [exact Hn|]. split; [exact Hs|]. intros [?|?]; [assumption|discriminate].
  - destruct (happen p ev) as [q|] eqn:E; [|discriminate]. apply orb_false_iff in Hf as [Hf1 Hf2]. inversion Hp as [|? ? P1 P2]; subst.
    destruct (happen_signal _ _ _ E Hf1 P1 Hn Hs) as [A [B [C D]]]. rewrite <- C in P2. destruct (IH _ _ H Hf2 P2 A B) as [A' [B' D']].
    split; [exact A'|]. split; [exact B'|]. intros [Hg|Hg]; [apply D'; left; apply D; now left|]. apply D'. apply orb_true_iff in Hg as [Hg|Hg]; [left; apply D; now right|right; exact Hg].
Qed.

Lemma new_signal_ok sizes order : no_failure (new_process sizes order) /\ signal_ok (new_process sizes order).
Proof.
  split; [|exact I]. intros k i v Hv. destruct (server_some _ _ _ _ Hv) as [s [H1 H2]]. cbn [new_process p_services] in H1.
  apply nth_error_In, in_map_iff in H1 as [n [<- _]]. apply nth_error_In, repeat_spec in H2. subst v. left. reflexivity.
Qed.

(** Nothing but new requests and failures can happen: then the process is gone. *)
Lemma stuck_exited p : main_ok p -> closed_shut p -> no_failure p -> signal_ok p -> p_signal p <> GIdle ->
  (forall ev, is_request ev = false -> is_fail ev = false -> happen p ev = None) -> exited p = true.
Proof.
  intros Hm Hc Hn Hs Hg Hst. destruct (exited p) eqn:Hx; [reflexivity|exfalso].
  assert (Hrun : all_servers p (fun _ _ v => v_running v = 0)).
  { intros k i v Hv. specialize (Hst (EAnswer k i) eq_refl eq_refl). unfold happen in Hst. rewrite Hx, Hv in Hst. destruct (v_running v); [reflexivity|discriminate]. }
  assert (Hret : all_servers p (fun _ _ v => v_shut v = true -> v_back v = Some None)).
  { intros k i v Hv Hh. specialize (Hst (EReturn k i) eq_refl eq_refl). unfold happen in Hst. rewrite Hx, Hv, Hh in Hst. destruct (Hn _ _ _ Hv) as [E|E]; rewrite E in Hst; [discriminate|exact E]. }
  assert (Hdone : p_signal p = GDone).
  { pose proof (Hst EClose eq_refl eq_refl) as Hcl. unfold happen in Hcl. rewrite Hx in Hcl. unfold signal_ok in Hs. destruct (p_signal p) as [|k i todo|k i todo|k todo|].
    - now destruct Hg.
    - destruct (server_at p k i); discriminate.
    - destruct Hs as [_ [_ [D _]]]. destruct (server_at p k i) as [v|] eqn:Es; [|contradiction]. rewrite (Hrun _ _ _ Es) in Hcl. discriminate.
    - destruct Hs as [A [_ C]]. destruct (nth_error (p_services p) k) as [s|] eqn:Ek; [|apply nth_error_None in Ek; lia].
      rewrite wait_none in Hcl; [discriminate|]. apply Forall_forall. intros v Hv. apply In_nth_error in Hv as [i Hi].
      assert (Es : server_at p k i = Some v) by (unfold server_at; now rewrite Ek). apply (Hret _ _ _ Es), (C _ _ _ Es). now left.
    - reflexivity. }
  unfold signal_ok in Hs. rewrite Hdone in Hs.
  pose proof (Hst EMain eq_refl eq_refl) as Hma. unfold happen in Hma. rewrite Hx in Hma. unfold main_ok in Hm. unfold exited in Hx. destruct (p_main p) as [[|k todo]| |z]; try discriminate.
  - destruct Hm as [_ [Hl _]]. inversion Hl; subst. destruct (nth_error (p_services p) k) as [s|] eqn:Ek; [|apply nth_error_None in Ek; lia].
    rewrite wait_none in Hma; [discriminate|]. apply Forall_forall. intros v Hv. apply In_nth_error in Hv as [i Hi].
    assert (Es : server_at p k i = Some v) by (unfold server_at; now rewrite Ek). apply (Hret _ _ _ Es), (Hs _ _ _ Es).
  - destruct (p_open p); discriminate.
Qed.

Lemma stops sizes order evs p : Permutation order (seq 0 (List.length sizes)) -> Forall (possible (List.length sizes)) evs ->
  run (new_process sizes order) evs = Some p -> existsb is_fail evs = false -> existsb is_signal evs = true ->
  (forall ev, is_request ev = false -> is_fail ev = false -> happen p ev = None) -> p_main p = MExit 0.
Proof.
  intros Hp Hev Hr Hf Hsg Hst. destruct (new_ok sizes order Hp) as [H1 H2]. destruct (run_ok _ _ _ Hr H1 H2) as [Hm Hc].
  destruct (new_signal_ok sizes order) as [N1 N2].
  assert (El : List.length (p_services (new_process sizes order)) = List.length sizes) by (cbn [new_process p_services]; apply map_length).
  rewrite <- El in Hev. destruct (run_signal evs _ _ Hr Hf Hev N1 N2) as [A [B C]].
  pose proof (stuck_exited p Hm Hc A B (C (or_intror Hsg)) Hst) as Hx. unfold exited in Hx. destruct (p_main p) as [| |z] eqn:Em; try discriminate.
  destruct (exit_status sizes order evs p z Hp Hr Em) as [[-> _]|[_ (k & i & v & e & E1 & E2)]]; [reflexivity|]. destruct (A _ _ _ E1); congruence.
Qed.

(** *** Every execution without new requests ends *)

Definition server_weight (v : server) : nat := v_running v + match v_back v with None => 1 | Some _ => 0 end.
Definition weight (p : process) : nat := list_sum (map (fun s => list_sum (map server_weight s)) (p_services p)).
Definition close_cost (p : process) (k : nat) : nat := 2 * nth k (map (@List.length _) (p_services p)) 0 + 2.
Definition signal_weight (p : process) : nat :=
  match p_signal p with
  | GIdle | GDone => 0
  | GShut k i todo => 2 * (nth k (map (@List.length _) (p_services p)) 0 - i) + 2 + list_sum (map (close_cost p) todo)
  | GDrain k i todo => 2 * (nth k (map (@List.length _) (p_services p)) 0 - i) + 1 + list_sum (map (close_cost p) todo)
  | GWait k todo => 1 + list_sum (map (close_cost p) todo)
  end.
Definition main_weight (p : process) : nat :=
  match p_main p with MWait todo => 3 + List.length todo | MClose => if p_open p then 2 else 1 | MExit _ => 0 end.
Definition total_weight (p : process) : nat := weight p + signal_weight p + main_weight p.

Lemma sum_cons a l : list_sum (a :: l) = a + list_sum l.
Proof. reflexivity. Qed.

Lemma update_sum {A} (f : A -> nat) (l : list A) : forall n a b, nth_error l n = Some a -> list_sum (map f (update l n b)) + f a = list_sum (map f l) + f b.
Proof.
  induction l as [|x l IH]; intros [|n] a b H; cbn [nth_error] in H; try discriminate; cbn [update map]; rewrite !sum_cons.
  - injection H as ->. lia.
  - specialize (IH n a b H). lia.
Qed.

Lemma set_server_weight p k i v v' : server_at p k i = Some v -> weight (set_server p k i v') + server_weight v = weight p + server_weight v'.
Proof.
  intros H. destruct (server_some _ _ _ _ H) as [s [Hk Hi]]. unfold set_server. rewrite Hk. unfold weight. cbn [p_services].
  pose proof (update_sum (fun s => list_sum (map server_weight s)) (p_services p) k s (update s i v') Hk) as E1. cbn beta in E1.
  pose proof (update_sum server_weight s i v v' Hi) as E2. unfold service in *. lia.
Qed.

Lemma set_server_costs p k i v : signal_weight (set_server p k i v) = signal_weight p /\ main_weight (set_server p k i v) = main_weight p.
Proof.
  unfold signal_weight, main_weight, close_cost. destruct (set_server_fields p k i v) as [-> [-> ->]]. rewrite set_server_sizes. auto.
Qed.

Lemma happen_weight p ev p' : happen p ev = Some p' -> is_request ev = false -> is_signal ev = false -> total_weight p' < total_weight p /\ (p_signal p' = GIdle <-> p_signal p = GIdle).
Proof.
  intros H Hr Hs. unfold happen in H. destruct (exited p); [discriminate|].
  assert (G : forall k i v v', server_at p k i = Some v -> server_weight v' < server_weight v -> total_weight (set_server p k i v') < total_weight p /\ (p_signal (set_server p k i v') = GIdle <-> p_signal p = GIdle)).
  { intros k i v v' Hv Hw. unfold total_weight. destruct (set_server_costs p k i v') as [-> ->]. pose proof (set_server_weight p k i v v' Hv).
    destruct (set_server_fields p k i v') as [_ [-> _]]. split; [lia|tauto]. }
  destruct ev as [k i|k i|k i e|k i|order| |]; try discriminate.
  - destruct (server_at p k i) as [v|] eqn:Es; [|discriminate]. destruct (v_running v) as [|n] eqn:En; [discriminate|]. injection H as <-. apply (G k i v _ Es). unfold server_weight. cbn [v_running v_back]. lia.
  - destruct (server_at p k i) as [v|] eqn:Es; [|discriminate]. destruct (v_shut v); [discriminate|]. destruct (v_back v) eqn:Eb; [discriminate|]. injection H as <-. apply (G k i v _ Es). unfold server_weight. cbn [v_running v_back]. rewrite Eb. lia.
  - destruct (server_at p k i) as [v|] eqn:Es; [|discriminate]. destruct (v_shut v); [|discriminate]. destruct (v_back v) eqn:Eb; [discriminate|]. injection H as <-. apply (G k i v _ Es). unfold server_weight. cbn [v_running v_back]. rewrite Eb. lia.
  - destruct (p_signal p) as [|k i todo|k i todo|k todo|] eqn:Eg; try discriminate.
    + assert (W : signal_weight p = 2 * (nth k (map (@List.length _) (p_services p)) 0 - i) + 2 + list_sum (map (close_cost p) todo)) by (unfold signal_weight; now rewrite Eg).
      destruct (server_at p k i) as [v|] eqn:Es; injection H as <-; (split; [|split; discriminate]); unfold total_weight.
      * pose proof (set_server_weight p k i v (mkServer true (v_back v) (v_running v)) Es) as E1.
        change (server_weight (mkServer true (v_back v) (v_running v))) with (server_weight v) in E1.
        destruct (set_server_costs p k i (mkServer true (v_back v) (v_running v))) as [_ E2].
        change (weight (set_signal (set_server p k i (mkServer true (v_back v) (v_running v))) (GDrain k i todo))) with (weight (set_server p k i (mkServer true (v_back v) (v_running v)))).
        change (main_weight (set_signal (set_server p k i (mkServer true (v_back v) (v_running v))) (GDrain k i todo))) with (main_weight (set_server p k i (mkServer true (v_back v) (v_running v)))).
        rewrite E2, W. unfold signal_weight, close_cost. cbn [set_signal p_signal p_services]. rewrite set_server_sizes. fold (close_cost p).
        change (fun k0 : nat => 2 * nth k0 (map (@List.length _) (p_services p)) 0 + 2) with (close_cost p). lia.
      * rewrite W. change (weight (set_signal p (GWait k todo))) with (weight p). change (main_weight (set_signal p (GWait k todo))) with (main_weight p).
        change (signal_weight (set_signal p (GWait k todo))) with (1 + list_sum (map (close_cost p) todo)). lia.
    + assert (W : signal_weight p = 2 * (nth k (map (@List.length _) (p_services p)) 0 - i) + 1 + list_sum (map (close_cost p) todo)) by (unfold signal_weight; now rewrite Eg).
      destruct (server_at p k i) as [v|] eqn:Es; [|discriminate]. destruct (_ =? _); [|discriminate]. injection H as <-. split; [|split; discriminate]. unfold total_weight. rewrite W.
      change (weight (set_signal p (GShut k (S i) todo))) with (weight p). change (main_weight (set_signal p (GShut k (S i) todo))) with (main_weight p).
      change (signal_weight (set_signal p (GShut k (S i) todo))) with (2 * (nth k (map (@List.length _) (p_services p)) 0 - S i) + 2 + list_sum (map (close_cost p) todo)).
      destruct (server_some _ _ _ _ Es) as [s [Hk Hi]]. assert (i < List.length s) by (apply nth_error_Some; congruence).
      assert (E : nth k (map (@List.length _) (p_services p)) 0 = List.length s) by (apply nth_error_nth; now apply map_nth_error). rewrite E. lia.
    + assert (W : signal_weight p = 1 + list_sum (map (close_cost p) todo)) by (unfold signal_weight; now rewrite Eg).
      destruct (nth_error _ _) as [s|]; [|discriminate]. destruct (wait_service s) as [[e|]|]; try discriminate; injection H as <-; (split; [|destruct todo; split; discriminate]); unfold total_weight; rewrite W.
      * change (weight (set_signal p GDone)) with (weight p). change (main_weight (set_signal p GDone)) with (main_weight p). change (signal_weight (set_signal p GDone)) with 0. lia.
      * change (weight (set_signal p (next_close todo))) with (weight p). change (main_weight (set_signal p (next_close todo))) with (main_weight p).
        enough (signal_weight (set_signal p (next_close todo)) <= list_sum (map (close_cost p) todo)) by lia.
        destruct todo as [|k' todo]; [cbn; lia|]. cbn [next_close map]. rewrite sum_cons.
        change (signal_weight (set_signal p (GShut k' 0 todo))) with (2 * (nth k' (map (@List.length _) (p_services p)) 0 - 0) + 2 + list_sum (map (close_cost p) todo)). unfold close_cost at 2. lia.
  - destruct (p_main p) as [[|k todo]| |z] eqn:Em; try discriminate.
    + injection H as <-. split; [|tauto]. unfold total_weight. change (weight (set_main p MClose)) with (weight p). change (signal_weight (set_main p MClose)) with (signal_weight p).
      unfold main_weight. rewrite Em. cbn [set_main p_main p_open List.length]. destruct (p_open p); lia.
    + destruct (nth_error _ _) as [s|]; [|discriminate]. destruct (wait_service s) as [[e|]|]; try discriminate; injection H as <-; (split; [|tauto]); unfold total_weight.
      * change (weight (set_main p (MExit 1))) with (weight p). change (signal_weight (set_main p (MExit 1))) with (signal_weight p). unfold main_weight. rewrite Em. cbn [set_main p_main]. lia.
      * change (weight (set_main p (MWait todo))) with (weight p). change (signal_weight (set_main p (MWait todo))) with (signal_weight p). unfold main_weight. rewrite Em. cbn [set_main p_main List.length]. lia.
    + destruct (p_open p) eqn:Eo; injection H as <-; (split; [|tauto]); unfold total_weight.
      * change (weight (mkProcess (p_services p) MClose (p_signal p) false)) with (weight p). change (signal_weight (mkProcess (p_services p) MClose (p_signal p) false)) with (signal_weight p).
        unfold main_weight. rewrite Em, Eo. cbn [p_main p_open]. lia.
      * change (weight (set_main p (MExit 0))) with (weight p). change (signal_weight (set_main p (MExit 0))) with (signal_weight p). unfold main_weight. rewrite Em, Eo. cbn [set_main p_main]. lia.
Qed.

Lemma no_endless p : Acc (fun p' p => exists ev, is_request ev = false /\ happen p ev = Some p') p.
Proof.
  assert (H0 : forall n p, total_weight p <= n -> p_signal p <> GIdle -> Acc (fun p' p => exists ev, is_request ev = false /\ happen p ev = Some p') p).
  { induction n as [n IH] using lt_wf_ind. intros q Hn Hg. constructor. intros q' [ev [Hr He]]. destruct (is_signal ev) eqn:Es.
    - destruct ev; try discriminate. unfold happen in He. destruct (exited q); [discriminate|]. destruct (p_signal q); try discriminate. now destruct Hg.
    - destruct (happen_weight _ _ _ He Hr Es) as [Hw Hi]. apply (IH (total_weight q')); [lia|lia|tauto]. }
  assert (H1 : forall n p, total_weight p <= n -> Acc (fun p' p => exists ev, is_request ev = false /\ happen p ev = Some p') p).
  { induction n as [n IH] using lt_wf_ind. intros q Hn. constructor. intros q' [ev [Hr He]]. destruct (is_signal ev) eqn:Es.
    - destruct ev; try discriminate. unfold happen in He. destruct (exited q); [discriminate|]. destruct (p_signal q); try discriminate. injection He as <-.
      apply (H0 _ _ (Nat.le_refl _)). destruct order; discriminate.
    - destruct (happen_weight _ _ _ He Hr Es) as [Hw Hi]. apply (IH (total_weight q')); lia. }
  apply (H1 _ _ (Nat.le_refl _)).
Qed.

Lemma exit_status_execution sizes order evs p z : execution sizes order evs p -> p_main p = MExit z ->
  (z = 0%Z /\ p_open p = false /\ forall k i v, server_at p k i = Some v -> v_back v = Some None /\ v_shut v = true) \/ (z = 1%Z /\ failed_server p).
Proof. intros [H1 [_ H2]] Hz. exact (exit_status sizes order evs p z H1 H2 Hz). Qed.

Lemma stops_execution sizes order evs p : execution sizes order evs p -> existsb is_fail evs = false -> existsb is_signal evs = true -> at_rest p -> p_main p = MExit 0.
Proof. intros [H1 [H2 H3]] Hf Hs Hr. exact (stops sizes order evs p H1 H2 H3 Hf Hs Hr). Qed.

(** A server which was shut down takes no more requests. *)
Lemma shut_happen p ev p' k i v : happen p ev = Some p' -> server_at p k i = Some v -> v_shut v = true ->
  exists v', server_at p' k i = Some v' /\ v_shut v' = true /\ v_running v' <= v_running v.
Proof.
  intros H Hv Hs. unfold happen in H. destruct (exited p); [discriminate|].
  assert (Same : p_services p' = p_services p -> exists v', server_at p' k i = Some v' /\ v_shut v' = true /\ v_running v' <= v_running v).
  { intros E. exists v. unfold server_at in *. rewrite E. auto. }
  assert (Set_ : forall k0 i0 v0 w q, server_at p k0 i0 = Some v0 -> (v_shut v0 = true -> v_shut w = true /\ v_running w <= v_running v0) -> p_services q = p_services (set_server p k0 i0 w) ->
     exists v', server_at q k i = Some v' /\ v_shut v' = true /\ v_running v' <= v_running v).
  { intros k0 i0 v0 w q Hv0 Hw Hq. assert (E : server_at q k i = server_at (set_server p k0 i0 w) k i) by (unfold server_at; now rewrite Hq).
    rewrite E, (set_server_at _ _ _ _ _ Hv0). destruct ((k =? k0) && (i =? i0)) eqn:Ek; [|exists v; auto].
    apply andb_true_iff in Ek as [E1 E2]. apply Nat.eqb_eq in E1, E2. subst. rewrite Hv in Hv0. injection Hv0 as <-. destruct (Hw Hs). exists w. auto. }
  destruct ev as [k0 i0|k0 i0|k0 i0 e|k0 i0|order| |].
  - destruct (server_at p k0 i0) as [v0|] eqn:Es; [|discriminate]. destruct (v_shut v0) eqn:Eh; [discriminate|]. destruct (v_back v0); [discriminate|]. injection H as <-.
    refine (Set_ _ _ _ _ _ Es _ eq_refl). congruence.
  - destruct (server_at p k0 i0) as [v0|] eqn:Es; [|discriminate]. destruct (v_running v0) as [|n] eqn:En; [discriminate|]. injection H as <-.
    refine (Set_ _ _ _ _ _ Es _ eq_refl). intros Hq. cbn [v_shut v_running]. split; [exact Hq|lia].
  - destruct (server_at p k0 i0) as [v0|] eqn:Es; [|discriminate]. destruct (v_shut v0) eqn:Eh; [discriminate|]. destruct (v_back v0); [discriminate|]. injection H as <-.
    refine (Set_ _ _ _ _ _ Es _ eq_refl). congruence.
  - destruct (server_at p k0 i0) as [v0|] eqn:Es; [|discriminate]. destruct (v_shut v0) eqn:Eh; [|discriminate]. destruct (v_back v0); [discriminate|]. injection H as <-.
    refine (Set_ _ _ _ _ _ Es _ eq_refl). intros _. cbn [v_shut v_running]. auto.
  - destruct (p_signal p); try discriminate. injection H as <-. apply Same. reflexivity.
  - destruct (p_signal p) as [|k0 i0 todo|k0 i0 todo|k0 todo|]; try discriminate.
    + destruct (server_at p k0 i0) as [v0|] eqn:Es; injection H as <-; [|apply Same; reflexivity].
      refine (Set_ _ _ _ (mkServer true (v_back v0) (v_running v0)) _ Es _ eq_refl). intros _. cbn [v_shut v_running]. auto.
    + destruct (server_at p k0 i0) as [v0|]; [|discriminate]. destruct (_ =? _); [|discriminate]. injection H as <-. apply Same. reflexivity.
    + destruct (nth_error _ _) as [s|]; [|discriminate]. destruct (wait_service s) as [[e|]|]; try discriminate; injection H as <-; apply Same; reflexivity.
  - apply Same. destruct (p_main p) as [[|k0 todo]| |z]; try discriminate.
    + injection H as <-. reflexivity.
    + destruct (nth_error _ _) as [s|]; [|discriminate]. destruct (wait_service s) as [[e|]|]; try discriminate; injection H as <-; reflexivity.
    + destruct (p_open p); injection H as <-; reflexivity.
Qed.

Lemma shut_run evs : forall p p' k i v, run p evs = Some p' -> server_at p k i = Some v -> v_shut v = true ->
  exists v', server_at p' k i = Some v' /\ v_shut v' = true /\ v_running v' <= v_running v.
Proof.
  induction evs as [|ev evs IH]; intros p p' k i v H Hv Hs; cbn [run] in H.
  - injection H as <-. exists v. auto.
  - destruct (happen p ev) as [q|] eqn:E; [|discriminate]. destruct (shut_happen _ _ _ _ _ _ E Hv Hs) as [w [W1 [W2 W3]]].
    destruct (IH _ _ _ _ _ H W1 W2) as [u [U1 [U2 U3]]]. exists u. split; [exact U1|]. split; [exact U2|lia].
Qed.

(** *** Waiting for a server which was not told to stop *)

Lemma wait_blocked s i v : nth_error s i = Some v -> v_back v = None -> wait_service s = None.
Proof.
  intros H Hb. destruct (wait_service s) as [r|] eqn:E; [|reflexivity]. destruct (wait_all _ _ E) as [F _]. rewrite Forall_forall in F. destruct (F v (nth_error_In _ _ H) Hb).
Qed.

Definition blocked (p : process) (k i : nat) (g : signal_at) : Prop :=
  p_signal p = g /\ (exists todo, p_main p = MWait (k :: todo)) /\ exists v, server_at p k i = Some v /\ v_shut v = false /\ v_back v = None.

Lemma blocked_happen p ev p' k i g : happen p ev = Some p' -> blocked p k i g -> (g = GDone \/ (g = GIdle /\ is_signal ev = false)) -> is_fail ev = false -> blocked p' k i g.
Proof.
  intros H (Hg & [todo Hm] & v & Hv & Hs & Hb) Hk Hf. unfold happen in H. destruct (exited p); [discriminate|].
  assert (Set_ : forall k0 i0 v0 w, server_at p k0 i0 = Some v0 -> (v_shut v0 = false -> v_back v0 = None -> v_shut w = false /\ v_back w = None) -> blocked (set_server p k0 i0 w) k i g).
  { intros k0 i0 v0 w Hv0 Hw. unfold blocked. destruct (set_server_fields p k0 i0 w) as [-> [-> _]]. split; [exact Hg|]. split; [now exists todo|].
    rewrite (set_server_at _ _ _ _ _ Hv0). destruct ((k =? k0) && (i =? i0)) eqn:Ek; [|now exists v].
    apply andb_true_iff in Ek as [E1 E2]. apply Nat.eqb_eq in E1, E2. subst. rewrite Hv in Hv0. injection Hv0 as <-. exists w. auto. }
  destruct ev as [k0 i0|k0 i0|k0 i0 e|k0 i0|order| |]; try discriminate Hf.
  - destruct (server_at p k0 i0) as [v0|] eqn:Es; [|discriminate]. destruct (v_shut v0) eqn:Eh; [discriminate|]. destruct (v_back v0) eqn:Eb; [discriminate|]. injection H as <-. apply (Set_ _ _ _ _ Es). auto.
  - destruct (server_at p k0 i0) as [v0|] eqn:Es; [|discriminate]. destruct (v_running v0) as [|n]; [discriminate|]. injection H as <-. apply (Set_ _ _ _ _ Es). auto.
  - destruct (server_at p k0 i0) as [v0|] eqn:Es; [|discriminate]. destruct (v_shut v0) eqn:Eh; [|discriminate]. destruct (v_back v0); [discriminate|]. injection H as <-. apply (Set_ _ _ _ _ Es). intros Hq. congruence.
  - exfalso. destruct Hk as [->|[_ Hk]]; [|discriminate]. rewrite Hg in H. discriminate.
  - exfalso. destruct Hk as [->|[-> _]]; rewrite Hg in H; discriminate.
  - exfalso. rewrite Hm in H. destruct (server_some _ _ _ _ Hv) as [s [E1 E2]]. rewrite E1, (wait_blocked _ _ _ E2 Hb) in H. discriminate.
Qed.

Lemma blocked_done p k i : blocked p k i GDone -> never_exits p (fun _ => false).
Proof.
  intros H evs. revert p H. induction evs as [|ev evs IH]; intros p H p' Hf _ Hr; cbn [run existsb] in *.
  - injection Hr as <-. destruct H as (_ & [todo Hm] & _). unfold exited. now rewrite Hm.
  - apply orb_false_iff in Hf as [F1 F2]. destruct (happen p ev) as [q|] eqn:E; [|discriminate].
    apply (IH q); [|exact F2|clear; induction evs; auto|exact Hr]. apply (blocked_happen _ _ _ _ _ _ E H); auto.
Qed.

Lemma blocked_idle p k i : blocked p k i GIdle -> never_exits p is_signal.
Proof.
  intros H evs. revert p H. induction evs as [|ev evs IH]; intros p H p' Hf Hm0 Hr; cbn [run existsb] in *.
  - injection Hr as <-. destruct H as (_ & [todo Hm] & _). unfold exited. now rewrite Hm.
  - apply orb_false_iff in Hf as [F1 F2]. apply orb_false_iff in Hm0 as [M1 M2]. destruct (happen p ev) as [q|] eqn:E; [|discriminate].
    apply (IH q); [|exact F2|exact M2|exact Hr]. apply (blocked_happen _ _ _ _ _ _ E H); auto.
Qed.

(** *** All servers have returned, one with an error *)

Lemma failure_seen_wait todo : forall p, p_main p = MWait todo -> main_ok p -> (forall k i v, server_at p k i = Some v -> v_back v <> None) -> failed_server p ->
  exists n p', run p (repeat EMain n) = Some p' /\ p_main p' = MExit 1.
Proof.
  induction todo as [|k todo IH]; intros p Hm Hok Hb Hf.
  - exfalso. unfold main_ok in Hok. rewrite Hm in Hok. destruct Hf as (k & i & v & e & E1 & E2). destruct Hok as [_ [_ Hok]]. rewrite (Hok _ _ _ E1) in E2; [discriminate|intros []].
  - assert (Hl : k < List.length (p_services p)) by (unfold main_ok in Hok; rewrite Hm in Hok; destruct Hok as [_ [Hok _]]; now inversion Hok).
    destruct (nth_error (p_services p) k) as [s|] eqn:Ek; [|apply nth_error_None in Ek; lia].
    assert (Hx : exited p = false) by (unfold exited; now rewrite Hm).
    destruct (wait_some s) as [r Er]. { apply Forall_forall. intros v Hv. apply In_nth_error in Hv as [i Hi]. apply (Hb k i). unfold server_at. now rewrite Ek. }
    assert (E : happen p EMain = Some (set_main p match r with Some _ => MExit 1 | None => MWait todo end)).
    { unfold happen. rewrite Hx, Hm, Ek, Er. now destruct r. }
    destruct r as [e|].
    + exists 1, (set_main p (MExit 1)). cbn [repeat run]. rewrite E. auto.
    + destruct (IH (set_main p (MWait todo)) eq_refl) as [n [p' [R1 R2]]].
      * unfold main_ok in *. cbn [set_main p_main p_open p_services]. rewrite Hm in Hok. destruct Hok as [A [B C']]. inversion B; subst. split; [exact A|]. split; [assumption|].
        intros k' i' v Hv Hn. destruct (Nat.eq_dec k' k) as [->|Nk].
        -- destruct (wait_all _ _ Er) as [_ V]. unfold server_at in Hv. cbn [set_main p_services] in Hv. rewrite Ek in Hv. apply nth_error_In in Hv. rewrite Forall_forall in V. now apply V.
        -- apply (C' k' i' v Hv). intros [?|?]; [congruence|contradiction].
      * exact Hb.
      * exact Hf.
      * exists (S n), p'. cbn [repeat run]. rewrite E. auto.
Qed.

Lemma failure_seen sizes order evs p : execution sizes order evs p -> (forall k i v, server_at p k i = Some v -> v_back v <> None) -> failed_server p ->
  exists n p', run p (repeat EMain n) = Some p' /\ p_main p' = MExit 1.
Proof.
  intros [H1 [_ H2]] Hb Hf. destruct (new_ok sizes order H1) as [N1 N2]. destruct (run_ok _ _ _ H2 N1 N2) as [Hm _].
  destruct (p_main p) as [todo| |z] eqn:Em.
  - now apply (failure_seen_wait todo).
  - exfalso. unfold main_ok in Hm. rewrite Em in Hm. destruct Hf as (k & i & v & e & E1 & E2). rewrite (Hm _ _ _ E1) in E2. discriminate.
  - unfold main_ok in Hm. rewrite Em in Hm. destruct Hm as [[_ [_ Hm]]|[-> _]].
    + exfalso. destruct Hf as (k & i & v & e & E1 & E2). rewrite (Hm _ _ _ E1) in E2. discriminate.
    + exists 0, p. auto.
Qed.

Lemma server_back_shape p ev p' k i : happen p ev = Some p' -> server_at p k i = None -> server_at p' k i = None.
Proof.
  intros H Hv. assert (S : map (@List.length _) (p_services p') = map (@List.length _) (p_services p)).
  { unfold happen in H. destruct (exited p); [discriminate|]. destruct ev as [k0 i0|k0 i0|k0 i0 e|k0 i0|order| |].
    - destruct (server_at p k0 i0) as [v0|]; [|discriminate]. destruct (v_shut v0); [discriminate|]. destruct (v_back v0); [discriminate|]. injection H as <-. apply set_server_sizes.
    - destruct (server_at p k0 i0) as [v0|]; [|discriminate]. destruct (v_running v0); [discriminate|]. injection H as <-. apply set_server_sizes.
    - destruct (server_at p k0 i0) as [v0|]; [|discriminate]. destruct (v_shut v0); [discriminate|]. destruct (v_back v0); [discriminate|]. injection H as <-. apply set_server_sizes.
    - destruct (server_at p k0 i0) as [v0|]; [|discriminate]. destruct (v_shut v0); [|discriminate]. destruct (v_back v0); [discriminate|]. injection H as <-. apply set_server_sizes.
    - destruct (p_signal p); try discriminate. injection H as <-. reflexivity.
    - destruct (p_signal p) as [|k0 i0 todo|k0 i0 todo|k0 todo|]; try discriminate.
      + destruct (server_at p k0 i0) as [v0|]; injection H as <-; [|reflexivity]. exact (set_server_sizes p k0 i0 (mkServer true (v_back v0) (v_running v0))).
      + destruct (server_at p k0 i0) as [v0|]; [|discriminate]. destruct (_ =? _); [|discriminate]. injection H as <-. reflexivity.
      + destruct (nth_error _ _) as [s|]; [|discriminate]. destruct (wait_service s) as [[e|]|]; try discriminate; injection H as <-; reflexivity.
    - destruct (p_main p) as [[|k0 todo]| |z]; try discriminate.
      + injection H as <-. reflexivity.
      + destruct (nth_error _ _) as [s|]; [|discriminate]. destruct (wait_service s) as [[e|]|]; try discriminate; injection H as <-; reflexivity.
      + destruct (p_open p); injection H as <-; reflexivity. }
  unfold server_at in *. assert (N : nth_error (map (@List.length _) (p_services p')) k = nth_error (map (@List.length _) (p_services p)) k) by now rewrite S.
  destruct (nth_error (p_services p') k) as [s'|] eqn:E'; [|reflexivity]. rewrite (map_nth_error _ _ _ E') in N.
  destruct (nth_error (p_services p) k) as [s|] eqn:E.
  - rewrite (map_nth_error _ _ _ E) in N. injection N as N. apply nth_error_None. apply nth_error_None in Hv. unfold service in *. lia.
  - rewrite (map_nth_error_none _ _ _ E) in N. discriminate.
Qed.

Lemma run_shape evs : forall p p' k i, run p evs = Some p' -> server_at p k i = None -> server_at p' k i = None.
Proof.
  induction evs as [|ev evs IH]; intros p p' k i H Hv; cbn [run] in H; [now injection H as <-|].
  destruct (happen p ev) as [q|] eqn:E; [|discriminate]. eapply IH; [exact H|]. eapply server_back_shape; eassumption.
Qed.

(** One service with one server. *)
Lemma single_failure_seen evs p : execution [1] [0] evs p -> failed_server p -> exists n p', run p (repeat EMain n) = Some p' /\ p_main p' = MExit 1.
Proof.
  intros H Hf. apply (failure_seen [1] [0] evs p H); [|exact Hf]. destruct H as [_ [_ H]]. intros k i v Hv.
  assert (K : forall k i, (k, i) <> (0, 0) -> server_at p k i = None).
  { intros k0 i0 Hk. apply (run_shape _ _ _ _ _ H). destruct k0 as [|k0]; [destruct i0 as [|i0]; [congruence|cbn; now destruct i0]|cbn; now destruct k0]. }
  destruct Hf as (k1 & i1 & v1 & e & E1 & E2).
  assert (Q1 : (k1, i1) = (0, 0)) by (destruct k1; [destruct i1; [reflexivity|]|]; rewrite K in E1; discriminate).
  assert (Q2 : (k, i) = (0, 0)) by (destruct k; [destruct i; [reflexivity|]|]; rewrite K in Hv; discriminate).
  injection Q1 as -> ->. injection Q2 as -> ->. congruence.
Qed.
