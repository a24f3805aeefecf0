(** C58 and C59: how the process stops. *)
From Coq Require Import List ZArith Bool String Permutation.
From Verif Require Import Base Lifecycle SpecLifecycle LifecycleFacts LifecycleFacts2.
Import ListNotations.
Open Scope nat_scope.

(** *** C58 *)

(** Whatever happens in whatever order: when the process is gone with status 0 each of its servers was shut down and its
    resources were closed; otherwise the status is 1 and a server has failed. *)
Theorem C58_exit_status sizes order evs p z : execution sizes order evs p -> p_main p = MExit z ->
  (z = 0%Z /\ p_open p = false /\ forall k i v, server_at p k i = Some v -> v_back v = Some None /\ v_shut v = true) \/ (z = 1%Z /\ failed_server p).
Proof. exact (exit_status_execution sizes order evs p z). Qed.
Print Assumptions C58_exit_status.

(** Partial: without failures only.  After the signal the process cannot come to rest before it is gone with status 0. *)
Theorem C58_stops_partial sizes order evs p : execution sizes order evs p -> existsb is_fail evs = false -> existsb is_signal evs = true -> at_rest p -> p_main p = MExit 0.
Proof. exact (stops_execution sizes order evs p). Qed.
Print Assumptions C58_stops_partial.

(** It comes to rest: only new requests can keep it going. *)
Theorem C58_no_endless_execution p : Acc (fun p' p => exists ev, is_request ev = false /\ happen p ev = Some p') p.
Proof. exact (no_endless p). Qed.
Print Assumptions C58_no_endless_execution.

(** Those end too: a server which was shut down takes no more requests. *)
Theorem C58_no_new_requests evs p p' k i v : run p evs = Some p' -> server_at p k i = Some v -> v_shut v = true ->
  exists v', server_at p' k i = Some v' /\ v_shut v' = true /\ v_running v' <= v_running v.
Proof. exact (shut_run evs p p' k i v). Qed.
Print Assumptions C58_no_new_requests.

(** The closing goroutine does wait: it leaves a server behind only when that one takes no more requests and has
    answered those it had, ... *)
Theorem C58_shutdown_waits sizes order evs p k i v : execution sizes order evs p -> server_at p k i = Some v ->
  (exists todo, p_signal p = GWait k todo) \/ (exists j todo, (p_signal p = GShut k j todo \/ p_signal p = GDrain k j todo) /\ i < j) ->
  v_shut v = true /\ v_running v = 0.
Proof. exact (shutdown_waits sizes order evs p k i v). Qed.
Print Assumptions C58_shutdown_waits.

(** ... and unless a server failed it comes to its end only when no request is being served.  But main does not wait
    for it: *)
Theorem C58_close_waits sizes order evs p : execution sizes order evs p -> ~ failed_server p -> p_signal p = GDone -> ~ serving p.
Proof. exact (close_waits sizes order evs p). Qed.
Print Assumptions C58_close_waits.

(** Refuted: the requests being served are finished.  One service, one server, one request: main does not wait for Shutdown. *)
Definition cut_events : list event := [ERequest 0 0; ESignal [0]; EClose; EReturn 0 0; EMain; EMain; EMain].
Theorem C58_cut_refuted :
  (exists evs p, execution [1] [0] evs p /\ existsb is_fail evs = false /\ p_main p = MExit 0 /\ serving p) /\
  (exists evs p, execution [1] [0] evs p /\ existsb is_fail evs = false /\ exited p = false /\ p_open p = false /\ serving p).
Proof.
  split.
  - exists (cut_events ++ [EMain]), (mkProcess [[mkServer true (Some None) 1]] (MExit 0) (GDrain 0 0 []) false).
    split; [|split; [reflexivity|split; [reflexivity|exists 0, 0, (mkServer true (Some None) 1); auto]]].
    split; [apply Permutation_refl|]. split; [|reflexivity]. repeat (apply Forall_cons; [try exact I; apply Permutation_refl|]). apply Forall_nil.
  - exists cut_events, (mkProcess [[mkServer true (Some None) 1]] MClose (GDrain 0 0 []) false).
    split; [|split; [reflexivity|split; [reflexivity|split; [reflexivity|exists 0, 0, (mkServer true (Some None) 1); auto]]]].
    split; [apply Permutation_refl|]. split; [|reflexivity]. repeat (apply Forall_cons; [try exact I; apply Permutation_refl|]). apply Forall_nil.
Qed.
Print Assumptions C58_cut_refuted.

(** Refuted: the process stops after the signal.  Two services, the server of one has failed, Close gives up
    there: the other one goes on for ever, whatever signals follow. *)
Definition hang_events : list event := [EFail 1 0 EIo; ESignal [1; 0]; EClose; EClose; EClose; EClose].
Theorem C58_hang_refuted : exists evs p, execution [1; 1] [0; 1] evs p /\ existsb is_signal evs = true /\ at_rest p /\ never_exits p (fun _ => false).
Proof.
  exists hang_events, (mkProcess [[new_server]; [mkServer true (Some (Some EIo)) 0]] (MWait [0; 1]) GDone true).
  split; [|split; [reflexivity|split]].
  - split; [apply Permutation_refl|]. split; [|reflexivity]. repeat (apply Forall_cons; [try exact I; apply perm_swap|]). apply Forall_nil.
  - intros [k i|k i|k i e|k i|o| |] H1 H2; try discriminate; try reflexivity; destruct k as [|[|[|k]]]; try reflexivity; destruct i as [|[|i]]; reflexivity.
  - apply (blocked_done _ 0 0). split; [reflexivity|]. split; [now exists [1]|]. exists new_server. auto.
Qed.
Print Assumptions C58_hang_refuted.

(** Non-vacuous: http and https in one service, another service with http; two requests. *)
Definition stop_events : list event :=
  [ERequest 0 1; ERequest 1 0; ESignal [1; 0]; EClose; EReturn 1 0; EAnswer 1 0; EClose; EClose; EClose; EClose; EReturn 0 0;
   EClose; EClose; EReturn 0 1; EAnswer 0 1; EClose; EClose; EClose; EMain; EMain; EMain; EMain; EMain].
Example C58_example : exists p, execution [2; 1] [0; 1] stop_events p /\ existsb is_fail stop_events = false /\ existsb is_signal stop_events = true /\ at_rest p /\ p_main p = MExit 0 /\ p_open p = false.
Proof.
  exists (mkProcess [[mkServer true (Some None) 0; mkServer true (Some None) 0]; [mkServer true (Some None) 0]] (MExit 0) GDone false).
  split; [|split; [reflexivity|split; [reflexivity|split; [|split; reflexivity]]]].
  - split; [apply Permutation_refl|]. split; [|reflexivity]. repeat (apply Forall_cons; [try exact I; apply perm_swap|]). apply Forall_nil.
  - intros ev _ _. reflexivity.
Qed.

(** Non-vacuous: the goroutine is past the first server of a service, and later at its end. *)
Example C58_waits_example :
  (exists p, execution [2; 1] [0; 1] (firstn 12 stop_events) p /\ p_signal p = GShut 0 1 [] /\ (~ failed_server p /\ serving p)) /\
  (exists p, execution [2; 1] [0; 1] (firstn 18 stop_events) p /\ p_signal p = GDone /\ (~ failed_server p /\ exited p = false)).
Proof.
  split; (eexists; split; [split; [apply Permutation_refl|]; split; [|reflexivity]; repeat (apply Forall_cons; [try exact I; apply perm_swap|]); apply Forall_nil|]);
    (split; [reflexivity|]); split; try reflexivity.
  - intros (k & i & v & e & Hv & He). destruct k as [|[|[|k]]]; destruct i as [|[|[|i]]]; cbn in Hv; try discriminate; injection Hv as <-; discriminate.
  - exists 0, 1, (mkServer false None 1). split; [reflexivity|repeat constructor].
  - intros (k & i & v & e & Hv & He). destruct k as [|[|[|k]]]; destruct i as [|[|[|i]]]; cbn in Hv; try discriminate; injection Hv as <-; discriminate.
Qed.

(** *** C59 *)

(** When all servers have returned, one of them with an error, main exits with status 1. *)
Theorem C59_failure_seen sizes order evs p : execution sizes order evs p -> (forall k i v, server_at p k i = Some v -> v_back v <> None) -> failed_server p ->
  exists n p', run p (repeat EMain n) = Some p' /\ p_main p' = MExit 1.
Proof. exact (failure_seen sizes order evs p). Qed.
Print Assumptions C59_failure_seen.

(** Partial: one service with one server. *)
Theorem C59_single_partial evs p : execution [1] [0] evs p -> failed_server p -> exists n p', run p (repeat EMain n) = Some p' /\ p_main p' = MExit 1.
Proof. exact (single_failure_seen evs p). Qed.
Print Assumptions C59_single_partial.

(** Refuted: with http and https in one service the failure of one of them is not seen. *)
Theorem C59_second_server_refuted : exists evs p, execution [2] [0] evs p /\ failed_server p /\ never_exits p is_signal.
Proof.
  exists [EFail 0 1 EIo], (mkProcess [[new_server; mkServer false (Some (Some EIo)) 0]] (MWait [0]) GIdle true).
  split; [|split].
  - split; [apply Permutation_refl|]. split; [|reflexivity]. apply Forall_cons; [exact I|apply Forall_nil].
  - exists 0, 1, (mkServer false (Some (Some EIo)) 0), EIo. auto.
  - apply (blocked_idle _ 0 0). split; [reflexivity|]. split; [now exists []|]. exists new_server. auto.
Qed.
Print Assumptions C59_second_server_refuted.

(** Refuted: with two services it depends on the order of the map. *)
Theorem C59_other_service_refuted : exists evs,
  (exists p, execution [1; 1] [0; 1] evs p /\ failed_server p /\ never_exits p is_signal) /\
  (exists p p', execution [1; 1] [1; 0] evs p /\ happen p EMain = Some p' /\ p_main p' = MExit 1).
Proof.
  exists [EFail 1 0 EIo]. split.
  - exists (mkProcess [[new_server]; [mkServer false (Some (Some EIo)) 0]] (MWait [0; 1]) GIdle true). split; [|split].
    + split; [apply Permutation_refl|]. split; [|reflexivity]. apply Forall_cons; [exact I|apply Forall_nil].
    + exists 1, 0, (mkServer false (Some (Some EIo)) 0), EIo. auto.
    + apply (blocked_idle _ 0 0). split; [reflexivity|]. split; [now exists [1]|]. exists new_server. auto.
  - exists (mkProcess [[new_server]; [mkServer false (Some (Some EIo)) 0]] (MWait [1; 0]) GIdle true). eexists. split; [|split; reflexivity].
    split; [apply perm_swap|]. split; [|reflexivity]. apply Forall_cons; [exact I|apply Forall_nil].
Qed.
Print Assumptions C59_other_service_refuted.

(** Non-vacuous. *)
Example C59_example : exists p, execution [1] [0] [ERequest 0 0; EFail 0 0 EIo] p /\ failed_server p /\ (forall k i v, server_at p k i = Some v -> v_back v <> None) /\ exited p = false.
Proof.
  exists (mkProcess [[mkServer false (Some (Some EIo)) 1]] (MWait [0]) GIdle true). split; [|split; [|split; [|reflexivity]]].
  - split; [apply Permutation_refl|]. split; [|reflexivity]. repeat (apply Forall_cons; [exact I|]). apply Forall_nil.
  - exists 0, 0, (mkServer false (Some (Some EIo)) 1), EIo. auto.
  - intros [|[|k]] [|[|i]] v H; cbn in H; try discriminate; injection H as <-; discriminate.
Qed.
