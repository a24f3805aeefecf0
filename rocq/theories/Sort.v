(** pkg/input/record/sort.go *)
From Coq Require Import List ZArith Lia Bool String.
From Verif Require Import Base Value Parser.
Import ListNotations.

(** pkg/input/record/sort_config.go:8-15: property and direction. *)
Definition sort_criterion : Type := bytes * bool.

(** The value used for the comparison: when Get fails, [iValue] is nil (the
    error is only logged), pkg/input/record/sort.go:28-36. *)
Definition sort_value (r : rec) (p : bytes) : value :=
  match r_get r p with Ok v => v | _ => VNil end.

(** pkg/input/record/sort.go:24-55.  A failed comparison is logged and counts
    as "equal". *)
Fixpoint less (cs : list sort_criterion) (a b : rec) : bool :=
  match cs with
  | [] => false
  | (p, asc) :: cs' =>
    match compare (sort_value a p) (sort_value b p) with
    | Ok (Some r) => if asc then r else negb r
    | _ => less cs' a b
    end
  end.

(** A sorting algorithm for examples, which is sort.insertionSort on lists: every
    element moves left past the elements that it is less than.  [ins_rev] works on
    the reversed sorted prefix.  sort.Sort itself is in GoSort.v. *)
Fixpoint ins_rev {A} (lt : A -> A -> bool) (x : A) (rl : list A) : list A :=
  match rl with
  | [] => [x]
  | y :: rl' => if lt x y then y :: ins_rev lt x rl' else x :: rl
  end.
Definition insertion_sort {A} (lt : A -> A -> bool) (l : list A) : list A :=
  rev (fold_left (fun rl x => ins_rev lt x rl) l []).

(** pkg/input/record/sort.go:8-12, for a sorting algorithm. *)
Definition sort_records (alg : (rec -> rec -> bool) -> list rec -> list rec) (cs : list sort_criterion) (l : list rec) : list rec :=
  alg (less cs) l.
