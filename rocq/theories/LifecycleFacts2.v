(** What the closing goroutine has waited for. *)
From Coq Require Import List ZArith Lia Bool String Permutation.
From Verif Require Import Base Lifecycle SpecLifecycle LifecycleFacts.
Import ListNotations.
Open Scope nat_scope.

(** The servers whose Shutdown has returned.  At the end all of them, unless a server failed. *)
Definition passed (p : process) (k i : nat) : Prop :=
  match p_signal p with
  | GIdle => False
  | GShut k0 j todo | GDrain k0 j todo => (k = k0 /\ i < j) \/ (k <> k0 /\ ~ In k todo)
  | GWait k0 todo => k = k0 \/ ~ In k todo
  | GDone => ~ failed_server p
  end.

(** All services are in [order]: nothing is passed by the signal itself. *)
Definition drained (p : process) : Prop :=
  forall k i v, server_at p k i = Some v -> passed p k i -> v_shut v = true /\ v_running v = 0.

Lemma failed_happen p ev p' : happen p ev = Some p' -> failed_server p -> failed_server p'.
Proof.
  intros H (k & i & v & e & Hv & He). unfold happen in H. destruct (exited p); [discriminate|].
  assert (Same : p_services p' = p_services p -> failed_server p').
  { intros E. exists k, i, v, e. unfold server_at in *. rewrite E. auto. }
  assert (Set_ : forall k0 i0 v0 w q, server_at p k0 i0 = Some v0 -> (v_back v0 = Some (Some e) -> v_back w = v_back v0) -> p_services q = p_services (set_server p k0 i0 w) -> failed_server q).
  { intros k0 i0 v0 w q Hv0 Hw Hq. assert (E : server_at q k i = server_at (set_server p k0 i0 w) k i) by (unfold server_at; now rewrite Hq).
    rewrite (set_server_at _ _ _ _ _ Hv0) in E. destruct ((k =? k0) && (i =? i0)) eqn:Ek.
    - apply andb_true_iff in Ek as [E1 E2]. apply Nat.eqb_eq in E1, E2. subst. rewrite Hv in Hv0. injection Hv0 as <-. exists k0, i0, w, e. split; [exact E|]. now rewrite Hw.
    - exists k, i, v, e. rewrite E. auto. }
  destruct ev as [k0 i0|k0 i0|k0 i0 e0|k0 i0|order| |].
  - destruct (server_at p k0 i0) as [v0|] eqn:Es; [|discriminate]. destruct (v_shut v0) eqn:Eh; [discriminate|]. destruct (v_back v0) eqn:Eb; [discriminate|]. injection H as <-.
    refine (Set_ _ _ _ _ _ Es _ eq_refl). congruence.
  - destruct (server_at p k0 i0) as [v0|] eqn:Es; [|discriminate]. destruct (v_running v0) as [|n] eqn:En; [discriminate|]. injection H as <-.
    refine (Set_ _ _ _ _ _ Es _ eq_refl). reflexivity.
  - destruct (server_at p k0 i0) as [v0|] eqn:Es; [|discriminate]. destruct (v_shut v0) eqn:Eh; [discriminate|]. destruct (v_back v0) eqn:Eb; [discriminate|]. injection H as <-.
    refine (Set_ _ _ _ _ _ Es _ eq_refl). congruence.
  - destruct (server_at p k0 i0) as [v0|] eqn:Es; [|discriminate]. destruct (v_shut v0) eqn:Eh; [|discriminate]. destruct (v_back v0) eqn:Eb; [discriminate|]. injection H as <-.
    refine (Set_ _ _ _ _ _ Es _ eq_refl). congruence.
  - destruct (p_signal p); try discriminate. injection H as <-. apply Same. reflexivity.
  - destruct (p_signal p) as [|k0 i0 todo|k0 i0 todo|k0 todo|]; try discriminate.
    + destruct (server_at p k0 i0) as [v0|] eqn:Es; injection H as <-; [|apply Same; reflexivity].
      refine (Set_ _ _ _ (mkServer true (v_back v0) (v_running v0)) _ Es _ eq_refl). reflexivity.
    + destruct (server_at p k0 i0) as [v0|]; [|discriminate]. destruct (_ =? _); [|discriminate]. injection H as <-. apply Same. reflexivity.
    + destruct (nth_error _ _) as [s|]; [|discriminate]. destruct (wait_service s) as [[e1|]|]; try discriminate; injection H as <-; apply Same; reflexivity.
  - apply Same. destruct (p_main p) as [[|k0 todo]| |z]; try discriminate.
    + injection H as <-. reflexivity.
    + destruct (nth_error _ _) as [s|]; [|discriminate]. destruct (wait_service s) as [[e1|]|]; try discriminate; injection H as <-; reflexivity.
    + destruct (p_open p); injection H as <-; reflexivity.
Qed.

(** Where the goroutine stays where it is, nothing new is passed. *)
Lemma passed_same p ev p' k i : happen p ev = Some p' -> p_signal p' = p_signal p -> passed p' k i -> passed p k i.
Proof.
  intros H E. unfold passed. rewrite E. destruct (p_signal p); try tauto. intros Hf Hp. exact (Hf (failed_happen _ _ _ H Hp)).
Qed.

(** Nor is any server. *)
Lemma server_before p ev p' k i v' : happen p ev = Some p' -> server_at p' k i = Some v' -> exists v, server_at p k i = Some v.
Proof. intros H Hv. destruct (server_at p k i) as [v|] eqn:E; [now exists v|]. rewrite (server_back_shape _ _ _ _ _ H E) in Hv. discriminate. Qed.

Lemma drained_same p ev p' : happen p ev = Some p' -> p_signal p' = p_signal p -> drained p -> drained p'.
Proof.
  intros H E D k i v' Hv' Hp. destruct (server_before _ _ _ _ _ _ H Hv') as [v Hv].
  destruct (D _ _ _ Hv (passed_same _ _ _ _ _ H E Hp)) as [D1 D2]. destruct (shut_happen _ _ _ _ _ _ H Hv D1) as [w [W1 [W2 W3]]].
  rewrite W1 in Hv'. injection Hv' as <-. split; [exact W2|lia].
Qed.

(** A server that is shut and idle stays so; the rest was passed just now. *)
Lemma drained_step p ev p' : happen p ev = Some p' -> drained p ->
  (forall k i v, server_at p k i = Some v -> passed p' k i -> passed p k i \/ (v_shut v = true /\ v_running v = 0)) -> drained p'.
Proof.
  intros H D Hn k i v' Hv' Hp. destruct (server_before _ _ _ _ _ _ H Hv') as [v Hv].
  assert (K : v_shut v = true /\ v_running v = 0) by (destruct (Hn _ _ _ Hv Hp) as [?|?]; [now apply (D k i)|assumption]).
  destruct K as [K1 K2]. destruct (shut_happen _ _ _ _ _ _ H Hv K1) as [w [W1 [W2 W3]]].
  rewrite W1 in Hv'. injection Hv' as <-. split; [exact W2|lia].
Qed.

(** Shutdown drains a server that it has shut. *)
Definition drain_shut (p : process) : Prop := match p_signal p with GDrain k i _ => forall v, server_at p k i = Some v -> v_shut v = true | _ => True end.

Lemma passed_next p todo k i : passed (set_signal p (next_close todo)) k i -> ~ In k todo.
Proof.
  unfold passed. destruct todo as [|k0 todo]; cbn [next_close set_signal p_signal]; [intros _ []|].
  intros [[_ Hi]|[Hk Hn]]; [lia|]. intros [->|Hin]; contradiction.
Qed.

Lemma signal_change p ev p' : happen p ev = Some p' -> is_signal ev = false -> ev <> EClose -> p_signal p' = p_signal p.
Proof.
  intros H Hs Hc. unfold happen in H. destruct (exited p); [discriminate|].
  destruct ev as [k i|k i|k i e|k i|order| |]; cbn [is_signal] in Hs; try discriminate Hs; try (now destruct Hc).
  1,2,3,4: destruct (server_at p k i) as [v|]; [|discriminate]; destruct (v_shut v), (v_back v), (v_running v); try discriminate H; injection H as <-; apply set_server_fields.
  destruct (p_main p) as [[|k todo]| |z]; try discriminate.
  - now injection H as <-.
  - destruct (nth_error _ _) as [s|]; [|discriminate]. destruct (wait_service s) as [[e|]|]; try discriminate; now injection H as <-.
  - destruct (p_open p); now injection H as <-.
Qed.

Lemma drained_happen n p ev p' : List.length (p_services p) = n -> possible n ev -> happen p ev = Some p' -> drained p /\ drain_shut p -> drained p' /\ drain_shut p'.
Proof.
  intros Hn Hposs H [D S]. destruct (is_signal ev) eqn:Esig; [|destruct (match ev with EClose => true | _ => false end) eqn:Ecl].
  - destruct ev as [| | | |order| |]; try discriminate. cbn [possible] in Hposs. pose proof H as H0. unfold happen in H. destruct (exited p); [discriminate|].
    destruct (p_signal p) eqn:Eg; try discriminate. injection H as <-. split.
    + apply (drained_step p (ESignal order) _ H0 D). intros k i v Hv Hp. exfalso. apply (passed_next p order k i Hp).
      apply (Permutation_in k (Permutation_sym Hposs)), in_seq. destruct (server_some _ _ _ _ Hv) as [s [E _]].
      assert (k < List.length (p_services p)) by (apply nth_error_Some; congruence). lia.
    + unfold drain_shut. destruct order; exact I.
  - destruct ev; try discriminate. pose proof H as H0. unfold happen in H. destruct (exited p); [discriminate|].
    destruct (p_signal p) as [|k i todo|k i todo|k todo|] eqn:Eg; try discriminate.
    + destruct (server_at p k i) as [v|] eqn:Es; injection H as <-.
      * split.
        -- apply (drained_step p EClose _ H0 D). intros k' i' w Hw Hp. left. unfold passed in *. rewrite Eg. exact Hp.
        -- unfold drain_shut. cbn [set_signal p_signal]. intros w Hw. change (server_at (set_server p k i (mkServer true (v_back v) (v_running v))) k i = Some w) in Hw.
           rewrite (set_server_at _ _ _ _ _ Es), !Nat.eqb_refl in Hw. injection Hw as <-. reflexivity.
      * split; [|exact I]. apply (drained_step p EClose _ H0 D). intros k' i' w Hw Hp. left. unfold passed in *. rewrite Eg. cbn [set_signal p_signal] in Hp.
        destruct (Nat.eq_dec k' k) as [->|Nk]; [left|right; tauto]. split; [reflexivity|]. clear -Es Hw. unfold server_at in *. destruct (nth_error (p_services p) k) as [s|]; [|discriminate].
        apply nth_error_None in Es. assert (i' < List.length s) by (apply nth_error_Some; congruence). lia.
    + destruct (server_at p k i) as [v|] eqn:Es; [|discriminate]. destruct (Nat.eqb_spec (v_running v) 0) as [Er|]; [|discriminate]. injection H as <-. split; [|exact I].
      apply (drained_step p EClose _ H0 D). intros k' i' w Hw Hp. unfold passed in *. rewrite Eg. cbn [set_signal p_signal] in Hp.
      destruct Hp as [[-> Hi]|Hp]; [|left; right; exact Hp]. destruct (Nat.eq_dec i' i) as [->|Ni]; [|left; left; split; [reflexivity|lia]].
      right. rewrite Es in Hw. injection Hw as <-. unfold drain_shut in S. rewrite Eg in S. split; [now apply S|exact Er].
    + destruct (nth_error (p_services p) k) as [s|] eqn:Ek; [|discriminate]. destruct (wait_service s) as [[e|]|] eqn:Ew; try discriminate; injection H as <-.
      * split; [|exact I]. apply (drained_step p EClose _ H0 D). intros k' i' w Hw Hp. exfalso. apply Hp. destruct (wait_all _ _ Ew) as [_ [v [V1 V2]]]. apply In_nth_error in V1 as [i Hi].
        exists k, i, v, e. split; [|exact V2]. unfold server_at. cbn [set_signal p_services]. now rewrite Ek.
      * split; [|unfold drain_shut; destruct todo; exact I]. apply (drained_step p EClose _ H0 D). intros k' i' w Hw Hp. left. unfold passed. rewrite Eg. right.
        exact (passed_next p todo k' i' Hp).
  - assert (E : p_signal p' = p_signal p) by (apply (signal_change p ev p' H Esig); intros ->; discriminate).
    split; [exact (drained_same _ _ _ H E D)|]. unfold drain_shut in *. rewrite E. destruct (p_signal p) as [|k i todo|k i todo|k todo|]; try exact I.
    intros v' Hv'. destruct (server_before _ _ _ _ _ _ H Hv') as [v Hv]. destruct (shut_happen _ _ _ _ _ _ H Hv (S v Hv)) as [w [W1 [W2 W3]]].
    rewrite W1 in Hv'. now injection Hv' as <-.
Qed.

Lemma happen_services p ev p' : happen p ev = Some p' -> List.length (p_services p') = List.length (p_services p).
Proof.
  intros H. unfold happen in H. destruct (exited p); [discriminate|].
  assert (Hl : forall k i v, List.length (p_services (set_server p k i v)) = List.length (p_services p)) by (intros; apply sizes_length, set_server_sizes).
  destruct ev as [k i|k i|k i e|k i|order| |].
  1,2,3,4: destruct (server_at p k i) as [v|]; [|discriminate]; destruct (v_shut v), (v_back v), (v_running v); try discriminate H; injection H as <-; apply Hl.
  - destruct (p_signal p); try discriminate. now injection H as <-.
  - destruct (p_signal p) as [|k i todo|k i todo|k todo|]; try discriminate.
    + destruct (server_at p k i); injection H as <-; [apply Hl|reflexivity].
    + destruct (server_at p k i) as [v|]; [|discriminate]. destruct (_ =? _); [|discriminate]. now injection H as <-.
    + destruct (nth_error _ _) as [s|]; [|discriminate]. destruct (wait_service s) as [[e1|]|]; try discriminate; now injection H as <-.
  - destruct (p_main p) as [[|k todo]| |z]; try discriminate.
    + now injection H as <-.
    + destruct (nth_error _ _) as [s|]; [|discriminate]. destruct (wait_service s) as [[e|]|]; try discriminate; now injection H as <-.
    + destruct (p_open p); now injection H as <-.
Qed.

Lemma drained_run n evs : forall p p', List.length (p_services p) = n -> Forall (possible n) evs -> run p evs = Some p' -> drained p /\ drain_shut p -> drained p' /\ drain_shut p'.
Proof.
  induction evs as [|ev evs IH]; intros p p' Hn Hp H D; cbn [run] in H.
  - injection H as <-. exact D.
  - destruct (happen p ev) as [q|] eqn:E; [|discriminate]. inversion Hp as [|? ? P1 P2]; subst.
    apply (IH q p'); [exact (happen_services _ _ _ E)|exact P2|exact H|]. exact (drained_happen _ p ev q eq_refl P1 E D).
Qed.

Lemma drained_execution sizes order evs p : execution sizes order evs p -> drained p.
Proof.
  intros [H1 [H2 H3]]. apply (drained_run (List.length sizes) evs (new_process sizes order) p).
  - cbn [new_process p_services]. apply map_length.
  - exact H2.
  - exact H3.
  - split; [intros k i v _ []|exact I].
Qed.

(** For the property: the servers before the one being shut, and all of them at the end. *)
Lemma shutdown_waits sizes order evs p k i v : execution sizes order evs p -> server_at p k i = Some v ->
  (exists todo, p_signal p = GWait k todo) \/ (exists j todo, (p_signal p = GShut k j todo \/ p_signal p = GDrain k j todo) /\ i < j) ->
  v_shut v = true /\ v_running v = 0.
Proof.
  intros H Hv Hp. apply (drained_execution sizes order evs p H k i v Hv). unfold passed.
  destruct Hp as [[todo ->]|(j & todo & [-> | ->] & Hi)]; auto.
Qed.

Lemma close_waits sizes order evs p : execution sizes order evs p -> ~ failed_server p -> p_signal p = GDone -> ~ serving p.
Proof.
  intros H Hf Hg (k & i & v & Hv & Hr). destruct (drained_execution sizes order evs p H k i v Hv) as [_ E]; [unfold passed; now rewrite Hg|lia].
Qed.
