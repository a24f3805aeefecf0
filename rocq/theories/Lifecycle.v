(** The running process: cmd/main.go:48-118, pkg/service/service.go:54-72 and
    pkg/service/http.go:78-109, 301-327, as goroutines which take turns in any order.

    Simplified: a resource (index or input) is closed in one step; Shutdown of net/http
    does not fail (closing a listener could); a connection serves one request;
    nothing is said about the length of requests.  From the documentation of
    net/http: Serve returns ErrServerClosed as soon as Shutdown is called, Shutdown returns
    when no request is being served. *)
From Coq Require Import List ZArith Lia Bool String Permutation.
From Verif Require Import Base.
Import ListNotations.
Open Scope nat_scope.

(** httpServer or httpsServer: whether Shutdown was called, what Serve has returned
    ([Some None] is ErrServerClosed), how many requests are being served. *)
Record server := mkServer { v_shut : bool; v_back : option (option err); v_running : nat }.
Definition new_server : server := mkServer false None 0.

(** The servers of a service in the order http, https; http.go:78-106 starts one or
    both of them. *)
Definition service := list server.

(** Http.Wait, http.go:301-311: [None] while waitGroup.Wait blocks. *)
Fixpoint wait_service (s : service) : option (option err) :=
  match s with
  | [] => Some None
  | v :: s' =>
    match v_back v, wait_service s' with
    | Some r, Some r' => Some (match r with Some e => Some e | None => r' end)
    | _, _ => None
    end
  end.

(** main: waiting for the services left (service.go:54-62), closing what is open
    (main.go:54-94, deferred), or gone with an exit status. *)
Inductive main_at := MWait (todo : list nat) | MClose | MExit (status : Z).

(** The goroutine of main.go:102-111: not yet notified; before Shutdown of the [i]-th server of
    service [k]; in that call; in Wait of service [k] (http.go:326), with the services left; done. *)
Inductive signal_at :=
| GIdle
| GShut (k i : nat) (todo : list nat)
| GDrain (k i : nat) (todo : list nat)
| GWait (k : nat) (todo : list nat)
| GDone.

(** [p_open]: the resources are open. *)
Record process := mkProcess { p_services : list service; p_main : main_at; p_signal : signal_at; p_open : bool }.

(** [order]: the random order of the map in service.go:55. *)
Definition new_process (sizes : list nat) (order : list nat) : process :=
  mkProcess (map (fun n => repeat new_server n) sizes) (MWait order) GIdle true.

(** service.go:65-70: the next service to close. *)
Definition next_close (todo : list nat) : signal_at := match todo with [] => GDone | k :: todo' => GShut k 0 todo' end.

Fixpoint update {A} (l : list A) (n : nat) (a : A) : list A :=
  match l, n with
  | [], _ => []
  | _ :: l', O => a :: l'
  | x :: l', S n' => x :: update l' n' a
  end.

Definition server_at (p : process) (k i : nat) : option server :=
  match nth_error (p_services p) k with Some s => nth_error s i | None => None end.
Definition set_server (p : process) (k i : nat) (v : server) : process :=
  match nth_error (p_services p) k with
  | Some s => mkProcess (update (p_services p) k (update s i v)) (p_main p) (p_signal p) (p_open p)
  | None => p
  end.
Definition set_main (p : process) (m : main_at) : process := mkProcess (p_services p) m (p_signal p) (p_open p).
Definition set_signal (p : process) (g : signal_at) : process := mkProcess (p_services p) (p_main p) g (p_open p).

(** What can happen. *)
Inductive event :=
| ERequest (k i : nat)          (* a request arrives *)
| EAnswer (k i : nat)           (* a request is answered *)
| EFail (k i : nat) (e : err)   (* Serve returns an error *)
| EReturn (k i : nat)           (* Serve returns ErrServerClosed *)
| ESignal (order : list nat)    (* the interrupt; [order] of the map in service.go:65 *)
| EClose                        (* a step of the goroutine of main.go:102-111 *)
| EMain.                        (* a step of main *)

Definition exited (p : process) : bool := match p_main p with MExit _ => true | _ => false end.

(** [None]: the event cannot happen now. *)
Definition happen (p : process) (ev : event) : option process :=
  if exited p then None else
  match ev with
  | ERequest k i =>
    match server_at p k i with
    | Some v => if v_shut v then None else match v_back v with None => Some (set_server p k i (mkServer (v_shut v) (v_back v) (S (v_running v)))) | Some _ => None end
    | None => None
    end
  | EAnswer k i =>
    match server_at p k i with
    | Some v => match v_running v with S n => Some (set_server p k i (mkServer (v_shut v) (v_back v) n)) | O => None end
    | None => None
    end
  | EFail k i e =>
    match server_at p k i with
    | Some v => if v_shut v then None else match v_back v with None => Some (set_server p k i (mkServer false (Some (Some e)) (v_running v))) | Some _ => None end
    | None => None
    end
  | EReturn k i =>
    match server_at p k i with
    | Some v => if v_shut v then match v_back v with None => Some (set_server p k i (mkServer true (Some None) (v_running v))) | Some _ => None end else None
    | None => None
    end
  | ESignal order =>
    match p_signal p with
    | GIdle => Some (set_signal p (next_close order))
    | _ => None
    end
  | EClose =>
    match p_signal p with
    | GIdle | GDone => None
    | GShut k i todo =>
      match server_at p k i with
      | Some v => Some (set_signal (set_server p k i (mkServer true (v_back v) (v_running v))) (GDrain k i todo))
      | None => Some (set_signal p (GWait k todo))
      end
    | GDrain k i todo =>
      match server_at p k i with
      | Some v => if Nat.eqb (v_running v) 0 then Some (set_signal p (GShut k (S i) todo)) else None
      | None => None
      end
    | GWait k todo =>
      match nth_error (p_services p) k with
      | Some s => match wait_service s with
                  | None => None
                  | Some None => Some (set_signal p (next_close todo))
                  | Some (Some _) => Some (set_signal p GDone)
                  end
      | None => None
      end
    end
  | EMain =>
    match p_main p with
    | MWait [] => Some (set_main p MClose)
    | MWait (k :: todo) =>
      match nth_error (p_services p) k with
      | Some s => match wait_service s with
                  | None => None
                  | Some None => Some (set_main p (MWait todo))
                  | Some (Some _) => Some (set_main p (MExit 1))
                  end
      | None => None
      end
    | MClose => if p_open p then Some (mkProcess (p_services p) MClose (p_signal p) false) else Some (set_main p (MExit 0))
    | MExit _ => None
    end
  end.

Fixpoint run (p : process) (evs : list event) : option process :=
  match evs with
  | [] => Some p
  | ev :: evs' => match happen p ev with Some p' => run p' evs' | None => None end
  end.
