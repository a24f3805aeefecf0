(** The words of the properties about stopping. *)
From Coq Require Import List ZArith Bool Permutation.
From Verif Require Import Base Lifecycle.
Import ListNotations.

Definition is_fail (ev : event) : bool := match ev with EFail _ _ _ => true | _ => false end.
Definition is_request (ev : event) : bool := match ev with ERequest _ _ => true | _ => false end.
Definition is_signal (ev : event) : bool := match ev with ESignal _ => true | _ => false end.

(** [order] is an order in which a map of [n] services can be walked. *)
Definition map_order (n : nat) (order : list nat) : Prop := Permutation order (seq 0 n).

(** An execution of a process with services of [sizes] servers: [order] is the one of Wait, the signal carries
    the one of Close. *)
Definition execution (sizes order : list nat) (evs : list event) (p : process) : Prop :=
  map_order (List.length sizes) order /\
  Forall (fun ev => match ev with ESignal o => map_order (List.length sizes) o | _ => True end) evs /\
  run (new_process sizes order) evs = Some p.

(** Serve of a server has returned with an error. *)
Definition failed_server (p : process) : Prop := exists k i v e, server_at p k i = Some v /\ v_back v = Some (Some e).

(** A request is being served. *)
Definition serving (p : process) : Prop := exists k i v, server_at p k i = Some v /\ (0 < v_running v)%nat.

(** Nothing can happen any more, but requests and failures. *)
Definition at_rest (p : process) : Prop := forall ev, is_request ev = false -> is_fail ev = false -> happen p ev = None.

(** Whatever happens next, but further failures and the events [more]: the process goes on. *)
Definition never_exits (p : process) (more : event -> bool) : Prop :=
  forall evs p', existsb is_fail evs = false -> existsb more evs = false -> run p evs = Some p' -> exited p' = false.
