(** Programs as sequences of atomic actions on a shared state, run alone
    ([exec]) or by several goroutines holding a mutex in turn. *)
From Coq Require Import List ZArith Lia Bool.
From Verif Require Import Base.
Import ListNotations.

(** [Act f k]: change the state by [f] in one step, then go on with [k] which
    sees the new state. *)
Inductive prog (S A : Type) : Type :=
| Ret (a : A)
| Act (f : S -> S) (k : S -> prog S A).
Arguments Ret {S A} a.
Arguments Act {S A} f k.

Fixpoint bind {S A B} (p : prog S A) (k : A -> prog S B) : prog S B :=
  match p with
  | Ret a => k a
  | Act f k' => Act f (fun s => bind (k' s) k)
  end.
Notation "'plet' x ':=' e1 'in' e2" := (bind e1 (fun x => e2))
  (at level 200, x pattern, e1 at level 200, e2 at level 200).

(** Reading the state without changing it. *)
Definition get {S} : prog S S := Act (fun s => s) Ret.
Definition modify {S} (f : S -> S) : prog S unit := Act f (fun _ => Ret tt).

Fixpoint exec {S A} (p : prog S A) (s : S) : A * S :=
  match p with
  | Ret a => (a, s)
  | Act f k => exec (k (f s)) (f s)
  end.

(** *** Goroutines *)
Section Concurrent.
Variables S A Q : Type.
(** What a goroutine executes for a question, between Lock and Unlock. *)
Variable body : Q -> prog S A.

(** A goroutine: the questions to come and the answers so far, and what is left
    of the current program while it holds the lock. *)
Inductive thread :=
| Idle (todo : list Q) (answers : list (Q * A))
| Busy (q : Q) (p : prog S A) (todo : list Q) (answers : list (Q * A)).

Record config := mkConfig { c_shared : S; c_locked : bool; c_threads : list thread }.

(** One step of one goroutine: Lock waits until the mutex is free; Unlock is
    deferred, so that it happens at the end of the body. *)
Inductive step : config -> config -> Prop :=
| step_lock s l1 q todo answers l2 :
    step (mkConfig s false (l1 ++ Idle (q :: todo) answers :: l2)) (mkConfig s true (l1 ++ Busy q (body q) todo answers :: l2))
| step_act s l1 q f k todo answers l2 :
    step (mkConfig s true (l1 ++ Busy q (Act f k) todo answers :: l2)) (mkConfig (f s) true (l1 ++ Busy q (k (f s)) todo answers :: l2))
| step_unlock s l1 q a todo answers l2 :
    step (mkConfig s true (l1 ++ Busy q (Ret a) todo answers :: l2)) (mkConfig s false (l1 ++ Idle todo (answers ++ [(q, a)]) :: l2)).

Inductive steps : config -> config -> Prop :=
| steps_none c : steps c c
| steps_more c c' c'' : steps c c' -> step c' c'' -> steps c c''.

(** All the goroutines have nothing to do any more. *)
Definition finished (c : config) : Prop := Forall (fun t => match t with Idle [] _ => True | _ => False end) (c_threads c).

(** Goroutines which have a list of questions each. *)
Definition start (s : S) (qss : list (list Q)) : config := mkConfig s false (map (fun qs => Idle qs []) qss).
Definition answers_of (t : thread) : list (Q * A) := match t with Idle _ l => l | Busy _ _ _ l => l end.
End Concurrent.
Arguments Idle {S A Q}.
Arguments Busy {S A Q}.
