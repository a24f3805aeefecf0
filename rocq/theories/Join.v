(** pkg/input/record/join.go and record.go: position iterators. *)
From Coq Require Import List ZArith Lia Bool.
From Verif Require Import Base Value.
Import ListNotations.
Open Scope Z_scope.

(** One call of an iterator: [None] is (nil, nil). *)
Definition pull (it : iter) : res (option Z) * iter :=
  match it with
  | [] => (Ok None, [])
  | Ok p :: r => (Ok (Some p), r)
  | Err e :: r => (Err e, r)
  | Panic :: r => (Panic, r)
  | NoFuel :: r => (NoFuel, r)
  end.

(** pkg/input/record/join.go:17-27: one value from each of the other
    iterators.  Result [None]: one of them is exhausted (or failed, then the
    error); in any case the iterators already read have advanced. *)
Fixpoint first_values (its : list iter) : res (option (list Z)) * list iter :=
  match its with
  | [] => (Ok (Some []), [])
  | it :: its' =>
    match pull it with
    | (Ok (Some p), it1) =>
      match first_values its' with
      | (Ok (Some ps), its1) => (Ok (Some (p :: ps)), it1 :: its1)
      | (r, its1) => (r, it1 :: its1)
      end
    | (Ok None, it1) => (Ok None, it1 :: its')
    | (Err e, it1) => (Err e, it1 :: its')
    | (Panic, it1) => (Panic, it1 :: its')
    | (NoFuel, it1) => (NoFuel, it1 :: its')
    end
  end.

(** pkg/input/record/join.go:40-50: advance one list up to [target]. *)
Fixpoint advance (cur : Z) (it : iter) (target : Z) : res (option Z) * iter :=
  if cur <? target then
    match it with
    | [] => (Ok None, [])
    | Ok p :: r => advance p r target
    | Err e :: r => (Err e, r)
    | Panic :: r => (Panic, r)
    | NoFuel :: r => (NoFuel, r)
    end
  else (Ok (Some cur), it).

(** pkg/input/record/join.go:38-55: bring every list up to [target]; stops at
    the first list which does not have it.  [Ok (Some b)]: [b] tells whether
    all the lists have it. *)
Fixpoint sweep (curs : list Z) (its : list iter) (target : Z)
  : res (option bool) * (list Z * list iter) :=
  match curs, its with
  | c :: curs', it :: its' =>
    match advance c it target with
    | (Ok (Some c1), it1) =>
      if c1 =? target then
        let '(r, (cs, is)) := sweep curs' its' target in (r, (c1 :: cs, it1 :: is))
      else (Ok (Some false), (c1 :: curs', it1 :: its'))
    | (Ok None, it1) => (Ok None, (c :: curs', it1 :: its'))
    | (Err e, it1) => (Err e, (c :: curs', it1 :: its'))
    | (Panic, it1) => (Panic, (c :: curs', it1 :: its'))
    | (NoFuel, it1) => (NoFuel, (c :: curs', it1 :: its'))
    end
  | _, _ => (Ok (Some true), (curs, its))
  end.

(** pkg/input/record/join.go:29-60: the loop over the first iterator. *)
Fixpoint join_loop (first : iter) (curs : list Z) (its : list iter)
  : res (option Z) * (iter * list iter) :=
  match first with
  | [] => (Ok None, ([], its))
  | Ok p :: first' =>
    match sweep curs its p with
    | (Ok (Some true), (_, its1)) => (Ok (Some p), (first', its1))
    | (Ok (Some false), (curs1, its1)) => join_loop first' curs1 its1
    | (Ok None, (_, its1)) => (Ok None, (first', its1))
    | (Err e, (_, its1)) => (Err e, (first', its1))
    | (Panic, (_, its1)) => (Panic, (first', its1))
    | (NoFuel, (_, its1)) => (NoFuel, (first', its1))
    end
  | Err e :: first' => (Err e, (first', its))
  | Panic :: first' => (Panic, (first', its))
  | NoFuel :: first' => (NoFuel, (first', its))
  end.

(** pkg/input/record/join.go:5-62: one call of the joined iterator. *)
Definition join_next (its : list iter) : res (option Z) * list iter :=
  match its with
  | [] => (Ok None, [])
  | [it] => let '(r, it1) := pull it in (r, [it1])
  | first :: others =>
    match first_values others with
    | (Ok (Some curs), others1) =>
      let '(r, (first1, others2)) := join_loop first curs others1 in (r, first1 :: others2)
    | (Ok None, others1) => (Ok None, first :: others1)
    | (Err e, others1) => (Err e, first :: others1)
    | (Panic, others1) => (Panic, first :: others1)
    | (NoFuel, others1) => (NoFuel, first :: others1)
    end
  end.

(** The results of successive calls up to the first (nil, nil).  The callers
    stop at the first error or end.  Fuel: number of calls. *)
Fixpoint join_calls (fuel : nat) (its : list iter) : iter :=
  match fuel with
  | O => [NoFuel]
  | S fuel' =>
    match join_next its with
    | (Ok None, _) => []
    | (Ok (Some p), its1) => Ok p :: join_calls fuel' its1
    | (Err e, _) => [Err e]
    | (Panic, _) => [Panic]
    | (NoFuel, _) => [NoFuel]
    end
  end.

(** Every call that yields a position consumes one of the first iterator. *)
Definition join_positions (its : list iter) : iter :=
  join_calls (S (List.length (hd [] its))) its.

(** pkg/input/record/record.go:44-55 *)
Definition list_iterate (l : list Z) : iter := map Ok l.
