(** Position iterators which hold a file or a database cursor open: the loops
    of Join.v and Output.v, with the iterators left behind. *)
From Coq Require Import List ZArith Lia Bool.
From Verif Require Import Base Value Join.
Import ListNotations.
Open Scope Z_scope.

(** An iterator: the results to come, and whether it holds a handle.  The
    iterator of the noop index (pkg/index/noop.go:31-91) closes the file when it
    is called after the last record; rows.Next (pkg/index/sqlite.go:256-270,
    fts5.go:246-260) closes the cursor when there is no row left.  The iterators of
    the map and wildcard indexes hold nothing. *)
Record hiter := mkH { h_left : iter; h_open : bool }.

Definition h_pull (h : hiter) : res (option Z) * hiter :=
  match h_left h with
  | [] => (Ok None, mkH [] false)
  | Ok p :: r => (Ok (Some p), mkH r (h_open h))
  | Err e :: r => (Err e, mkH r (h_open h))
  | Panic :: r => (Panic, mkH r (h_open h))
  | NoFuel :: r => (NoFuel, mkH r (h_open h))
  end.

(** pkg/input/record/join.go:17-27 *)
Fixpoint h_first_values (its : list hiter) : res (option (list Z)) * list hiter :=
  match its with
  | [] => (Ok (Some []), [])
  | it :: its' =>
    match h_pull it with
    | (Ok (Some p), it1) =>
      match h_first_values its' with
      | (Ok (Some ps), its1) => (Ok (Some (p :: ps)), it1 :: its1)
      | (r, its1) => (r, it1 :: its1)
      end
    | (Ok None, it1) => (Ok None, it1 :: its')
    | (Err e, it1) => (Err e, it1 :: its')
    | (Panic, it1) => (Panic, it1 :: its')
    | (NoFuel, it1) => (NoFuel, it1 :: its')
    end
  end.

(** pkg/input/record/join.go:40-50 *)
Fixpoint h_advance (cur : Z) (it : iter) (is_open : bool) (target : Z) : res (option Z) * hiter :=
  if cur <? target then
    match it with
    | [] => (Ok None, mkH [] false)
    | Ok p :: r => h_advance p r is_open target
    | Err e :: r => (Err e, mkH r is_open)
    | Panic :: r => (Panic, mkH r is_open)
    | NoFuel :: r => (NoFuel, mkH r is_open)
    end
  else (Ok (Some cur), mkH it is_open).

(** pkg/input/record/join.go:38-55 *)
Fixpoint h_sweep (curs : list Z) (its : list hiter) (target : Z) : res (option bool) * (list Z * list hiter) :=
  match curs, its with
  | c :: curs', it :: its' =>
    match h_advance c (h_left it) (h_open it) target with
    | (Ok (Some c1), it1) =>
      if c1 =? target then
        let '(r, (cs, is)) := h_sweep curs' its' target in (r, (c1 :: cs, it1 :: is))
      else (Ok (Some false), (c1 :: curs', it1 :: its'))
    | (Ok None, it1) => (Ok None, (c :: curs', it1 :: its'))
    | (Err e, it1) => (Err e, (c :: curs', it1 :: its'))
    | (Panic, it1) => (Panic, (c :: curs', it1 :: its'))
    | (NoFuel, it1) => (NoFuel, (c :: curs', it1 :: its'))
    end
  | _, _ => (Ok (Some true), (curs, its))
  end.

(** pkg/input/record/join.go:29-60 *)
Fixpoint h_join_loop (first : iter) (is_open : bool) (curs : list Z) (its : list hiter) : res (option Z) * (hiter * list hiter) :=
  match first with
  | [] => (Ok None, (mkH [] false, its))
  | Ok p :: first' =>
    match h_sweep curs its p with
    | (Ok (Some true), (_, its1)) => (Ok (Some p), (mkH first' is_open, its1))
    | (Ok (Some false), (curs1, its1)) => h_join_loop first' is_open curs1 its1
    | (Ok None, (_, its1)) => (Ok None, (mkH first' is_open, its1))
    | (Err e, (_, its1)) => (Err e, (mkH first' is_open, its1))
    | (Panic, (_, its1)) => (Panic, (mkH first' is_open, its1))
    | (NoFuel, (_, its1)) => (NoFuel, (mkH first' is_open, its1))
    end
  | Err e :: first' => (Err e, (mkH first' is_open, its))
  | Panic :: first' => (Panic, (mkH first' is_open, its))
  | NoFuel :: first' => (NoFuel, (mkH first' is_open, its))
  end.

(** pkg/input/record/join.go:5-62 *)
Definition h_join_next (its : list hiter) : res (option Z) * list hiter :=
  match its with
  | [] => (Ok None, [])
  | [it] => let '(r, it1) := h_pull it in (r, [it1])
  | first :: others =>
    match h_first_values others with
    | (Ok (Some curs), others1) =>
      let '(r, (first1, others2)) := h_join_loop (h_left first) (h_open first) curs others1 in (r, first1 :: others2)
    | (Ok None, others1) => (Ok None, first :: others1)
    | (Err e, others1) => (Err e, first :: others1)
    | (Panic, others1) => (Panic, first :: others1)
    | (NoFuel, others1) => (NoFuel, first :: others1)
    end
  end.

(** The loops below give whether they went to their end, and the iterators.
    Fuel: the number of calls. *)

(** pkg/output/json_array.go:100-108 *)
Fixpoint h_skip (fuel : nat) (offset : Z) (its : list hiter) : res unit * list hiter :=
  if offset <=? 0 then (Ok tt, its)
  else match fuel with
  | O => (NoFuel, its)
  | S fuel' =>
    match h_join_next its with
    | (Ok None, its1) => (Ok tt, its1)
    | (Ok (Some _), its1) => h_skip fuel' (offset - 1) its1
    | (Err e, its1) => (Err e, its1)
    | (Panic, its1) => (Panic, its1)
    | (NoFuel, its1) => (NoFuel, its1)
    end
  end.

(** pkg/output/json_array.go:110-133; [row] is getDataFromPosition. *)
Fixpoint h_take (row : Z -> res unit) (fuel : nat) (limit n : Z) (its : list hiter) : res unit * list hiter :=
  if negb (n <? limit) then (Ok tt, its)
  else match fuel with
  | O => (NoFuel, its)
  | S fuel' =>
    match h_join_next its with
    | (Ok None, its1) => (Ok tt, its1)
    | (Ok (Some p), its1) =>
      match row p with
      | Ok _ => h_take row fuel' limit (n + 1) its1
      | r => (r, its1)
      end
    | (Err e, its1) => (Err e, its1)
    | (Panic, its1) => (Panic, its1)
    | (NoFuel, its1) => (NoFuel, its1)
    end
  end.

(** JsonArray.Handle after getFilteredRecordPositionsPerIndex,
    pkg/output/json_array.go:97-133. *)
Definition h_list (row : Z -> res unit) (fuel : nat) (offset limit : Z) (its : list hiter) : res unit * list hiter :=
  match h_skip fuel offset its with
  | (Ok _, its1) => h_take row fuel limit 0 its1
  | r => r
  end.

(** JsonObject.Handle, pkg/output/json_object.go:95-118: one call. *)
Definition h_object (its : list hiter) : res (option Z) * list hiter := h_join_next its.

(** loadRelationships, pkg/output/json_common.go:129-147: all of them; [get] is
    input.Get. *)
Fixpoint h_all (get : Z -> res unit) (fuel : nat) (its : list hiter) : res unit * list hiter :=
  match fuel with
  | O => (NoFuel, its)
  | S fuel' =>
    match h_join_next its with
    | (Ok None, its1) => (Ok tt, its1)
    | (Ok (Some p), its1) =>
      match get p with
      | Ok _ => h_all get fuel' its1
      | r => (r, its1)
      end
    | (Err e, its1) => (Err e, its1)
    | (Panic, its1) => (Panic, its1)
    | (NoFuel, its1) => (NoFuel, its1)
    end
  end.

(** The number of handles which nobody closes any more. *)
Definition left_open (its : list hiter) : nat := List.length (filter h_open its).
