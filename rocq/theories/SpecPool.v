(** Specification of iterators that do not disturb each other (C56). *)
From Coq Require Import List ZArith Bool String.
From Coq Require Import Strings.Byte.
From Verif Require Import Base Value Json Index Sql SqlIndex SpecSql SqlPool.
Import ListNotations.
Open Scope Z_scope.

(** An iterator is a list of results, or finished. *)
Definition free_iter := option iter.

(** A query is answered by [answer], whatever else goes on; the iterator then gives
    the results one after the other. *)
Definition spec_step (answer : list (bytes * value) -> res iter) (e : event) (its : list free_iter) : list free_iter * outcome :=
  match e with
  | EOpen fs =>
    match answer fs with
    | Ok it => (its ++ [Some it], OOpen (Ok tt))
    | Err e => (its, OOpen (Err e))
    | Panic => (its, OOpen Panic)
    | NoFuel => (its, OOpen NoFuel)
    end
  | ENext j =>
    match nth_error its j with
    | Some (Some (Ok z :: it)) => (firstn j its ++ Some it :: skipn (S j) its, ONext (Ok (Some z)))
    | Some (Some (x :: _)) => (firstn j its ++ None :: skipn (S j) its, ONext (rlet z := x in Ok (Some z)))
    | Some (Some []) => (firstn j its ++ None :: skipn (S j) its, ONext (Ok None))
    | _ => (its, ONext (Ok None))
    end
  end.

Fixpoint spec_events (answer : list (bytes * value) -> res iter) (es : list event) (its : list free_iter) : list outcome :=
  match es with
  | [] => []
  | e :: es' => let r := spec_step answer e its in snd r :: spec_events answer es' (fst r)
  end.

(** No query is sent before every earlier iterator is finished. *)
Fixpoint one_at_a_time (answer : list (bytes * value) -> res iter) (es : list event) (its : list free_iter) : Prop :=
  match es with
  | [] => True
  | e :: es' =>
    match e with EOpen _ => Forall (fun it => it = None) its | ENext _ => True end /\
    one_at_a_time answer es' (fst (spec_step answer e its))
  end.

(** The query program of an index. *)
Definition positions_of (k : index_kind) (inp_name : bytes) (fs : list (bytes * value)) : sprog iter :=
  match k with ISqlite c => sqlite_positions c inp_name fs | IFts c => fts_positions c inp_name fs end.

(** A connection is taken from the free ones. *)
Definition takes_free (pick : list nat -> nat) : Prop := forall l, l <> [] -> In (pick l) l.

(** The pool of a new process, over the file [f]. *)
Definition new_pool (f : db) : pool := mkPool f [] [].

(** The pool after some events. *)
Definition pool_after (memory : bool) (pick : list nat -> nat) (visit : list (list sqlv) -> list (res (list sqlv)))
  (fts_ok : list bytes -> bytes -> bytes -> bool) (fts_match : table -> sqlv -> res (list (list sqlv)))
  (positions : list (bytes * value) -> sprog iter) (es : list event) (p : pool) : pool :=
  fold_left (fun p e => fst (pool_step memory pick visit fts_ok fts_match positions e p)) es p.

(** Its connections that wait for a statement, those that are kept by rows, and the iterators that were not read to
    their end. *)
Definition is_busy (c : conn) : bool := match cn_state c with CBusy => true | _ => false end.
Definition idle (p : pool) : nat := List.length (filter is_free (p_conns p)).
Definition busy (p : pool) : nat := List.length (filter is_busy (p_conns p)).
Definition unread (p : pool) : nat := List.length (filter cu_open (p_cursors p)).
