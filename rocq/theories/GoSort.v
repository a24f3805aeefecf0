(** Package sort of Go 1.16: sort.Sort, used by pkg/input/record/sort.go:10.  Its source is not
    available here, this is modelled from memory of it.  [lt] is Less on the elements, which for
    recordListSorter (sort.go:24-55) depends on nothing else. *)
From Coq Require Import List Bool Arith NArith.
From Verif Require Import Base.
Import ListNotations.

Section Sort.
Context {A : Type} (lt : A -> A -> bool).

(** pkg/input/record/sort.go:24-25: sorter.records[i], and Less. *)
Definition get_at (l : list A) (i : nat) : res A := match nth_error l i with Some x => Ok x | None => Panic end.
Definition less_at (l : list A) (i j : nat) : res bool := rlet x := get_at l i in rlet y := get_at l j in Ok (lt x y).
(** pkg/input/record/sort.go:57-60: Swap. *)
Fixpoint put (l : list A) (i : nat) (x : A) : list A :=
  match l, i with
  | [], _ => []
  | _ :: l', O => x :: l'
  | y :: l', S i' => y :: put l' i' x
  end.
Definition swap_at (l : list A) (i j : nat) : res (list A) := rlet x := get_at l i in rlet y := get_at l j in Ok (put (put l i y) j x).

(** sort.insertionSort; [n] is how often a loop can run at most. *)
Fixpoint move_left (l : list A) (j n : nat) : res (list A) :=
  match n with
  | O => Ok l
  | S n' => rlet t := less_at l j (j - 1) in if t then rlet l1 := swap_at l j (j - 1) in move_left l1 (j - 1) n' else Ok l
  end.
Fixpoint insert_all (l : list A) (a i n : nat) : res (list A) :=
  match n with O => Ok l | S n' => rlet l1 := move_left l i (i - a) in insert_all l1 a (S i) n' end.
Definition insertion (l : list A) (a b : nat) : res (list A) := insert_all l a (S a) (b - S a).

(** sort.siftDown *)
Fixpoint sift (fuel : nat) (l : list A) (root hi first : nat) : res (list A) :=
  match fuel with
  | O => NoFuel
  | S fuel' =>
    let child := 2 * root + 1 in
    if hi <=? child then Ok l
    else
      rlet greater := if child + 1 <? hi then less_at l (first + child) (first + (child + 1)) else Ok false in
      let child := if greater then child + 1 else child in
      rlet below := less_at l (first + root) (first + child) in
      if below then rlet l1 := swap_at l (first + root) (first + child) in sift fuel' l1 child hi first else Ok l
  end.
(** sort.heapSort: its two loops, which count down to 0. *)
Fixpoint heap_build (l : list A) (n hi first : nat) : res (list A) :=
  match n with O => Ok l | S i => rlet l1 := sift (S hi) l i hi first in heap_build l1 i hi first end.
Fixpoint heap_pop (l : list A) (n first : nat) : res (list A) :=
  match n with O => Ok l | S i => rlet l1 := swap_at l first (first + i) in rlet l2 := sift (S i) l1 0 i first in heap_pop l2 i first end.
Definition heap_sort (l : list A) (a b : nat) : res (list A) :=
  rlet l1 := heap_build l (S ((b - a - 1) / 2)) (b - a) a in heap_pop l1 (b - a) a.

(** sort.medianOfThree *)
Definition median (l : list A) (m1 m0 m2 : nat) : res (list A) :=
  rlet t := less_at l m1 m0 in
  rlet l := if t then swap_at l m1 m0 else Ok l in
  rlet t := less_at l m2 m1 in
  if t then
    rlet l := swap_at l m2 m1 in
    rlet t := less_at l m1 m0 in
    if t then swap_at l m1 m0 else Ok l
  else Ok l.

(** The inner loops of sort.doPivot: up from [b], and down from [c] (looking at c - 1), [n] steps at most. *)
Fixpoint scan_up (test : nat -> res bool) (b n : nat) : res nat :=
  match n with O => Ok b | S n' => rlet t := test b in if t then scan_up test (S b) n' else Ok b end.
Fixpoint scan_down (test : nat -> res bool) (c n : nat) : res nat :=
  match n with O => Ok c | S n' => rlet t := test (c - 1) in if t then scan_down test (c - 1) n' else Ok c end.
(** Its first loop, and the one against duplicates. *)
Fixpoint divide (fuel : nat) (l : list A) (pivot b c : nat) : res (list A * nat * nat) :=
  match fuel with
  | O => NoFuel
  | S fuel' =>
    rlet b := scan_up (fun k => rmap negb (less_at l pivot k)) b (c - b) in
    rlet c := scan_down (fun k => less_at l pivot k) c (c - b) in
    if c <=? b then Ok (l, b, c)
    else rlet l := swap_at l b (c - 1) in divide fuel' l pivot (S b) (c - 1)
  end.
Fixpoint protect (fuel : nat) (l : list A) (pivot a b : nat) : res (list A * nat) :=
  match fuel with
  | O => NoFuel
  | S fuel' =>
    rlet b := scan_down (fun k => rmap negb (less_at l k pivot)) b (b - a) in
    rlet a := scan_up (fun k => less_at l k pivot) a (b - a) in
    if b <=? a then Ok (l, b)
    else rlet l := swap_at l a (b - 1) in protect fuel' l pivot (S a) (b - 1)
  end.
(** The three points that are compared with the pivot: the elements, b, c and dups. *)
Definition duplicates (l : list A) (pivot m b c hi : nat) : res (list A * nat * nat * nat) :=
  rlet t := less_at l pivot (hi - 1) in
  rlet s := if t then Ok (l, c, 0) else rlet l := swap_at l c (hi - 1) in Ok (l, S c, 1) in
  let '(l, c, dups) := s in
  rlet t := less_at l (b - 1) pivot in
  let '(b, dups) := if t then (b, dups) else (b - 1, S dups) in
  rlet t := less_at l m pivot in
  if t then Ok (l, b, c, dups) else rlet l := swap_at l m (b - 1) in Ok (l, b - 1, c, S dups).
(** sort.doPivot: the elements, midlo and midhi. *)
Definition do_pivot (l : list A) (lo hi : nat) : res (list A * nat * nat) :=
  let m := (lo + hi) / 2 in
  rlet l :=
    if 40 <? hi - lo then
      let s := (hi - lo) / 8 in
      rlet l := median l lo (lo + s) (lo + 2 * s) in
      rlet l := median l m (m - s) (m + s) in
      median l (hi - 1) (hi - 1 - s) (hi - 1 - 2 * s)
    else Ok l in
  rlet l := median l lo m (hi - 1) in
  rlet a := scan_up (fun k => less_at l k lo) (lo + 1) (hi - 1 - (lo + 1)) in
  rlet lbc := divide (S (hi - 1 - a)) l lo a (hi - 1) in
  let '(l, b, c) := lbc in
  let sure := hi - c <? 5 in
  rlet s := if negb sure && (hi - c <? (hi - lo) / 4) then rlet s := duplicates l lo m b c hi in Ok (fst s, 1 <? snd s) else Ok (l, b, c, sure) in
  let '(l, b, c, again) := s in
  rlet lb := if again then protect (S (b - a)) l lo a b else Ok (l, b) in
  let '(l, b) := lb in
  rlet l := swap_at l lo (b - 1) in
  Ok (l, b - 1, c).

(** sort.quickSort: what it does with at most 12 elements, and the rest, by recursion on maxDepth. *)
Fixpoint shell (l : list A) (i n : nat) : res (list A) :=
  match n with O => Ok l | S n' => rlet t := less_at l i (i - 6) in rlet l := if t then swap_at l i (i - 6) else Ok l in shell l (S i) n' end.
Definition sort_few (l : list A) (a b : nat) : res (list A) :=
  if 1 <? b - a then rlet l := shell l (a + 6) (b - (a + 6)) in insertion l a b else Ok l.
Fixpoint quick_sort (depth : nat) (l : list A) (a b : nat) : res (list A) :=
  if b - a <=? 12 then sort_few l a b
  else
    match depth with
    | O => heap_sort l a b
    | S depth' =>
      rlet s := do_pivot l a b in
      let '(l, mlo, mhi) := s in
      if mlo - a <? b - mhi
      then rlet l := quick_sort depth' l a mlo in quick_sort depth' l mhi b
      else rlet l := quick_sort depth' l mhi b in quick_sort depth' l a mlo
    end.
(** sort.maxDepth: twice the number of binary digits.  sort.Sort *)
Definition max_depth (n : nat) : nat := 2 * N.size_nat (N.of_nat n).
Definition go_sort_steps (l : list A) : res (list A) := quick_sort (max_depth (length l)) l 0 (length l).
End Sort.

(** The sorted list; [GoSortFacts] proves that there always is one. *)
Definition go_sort {A} (lt : A -> A -> bool) (l : list A) : list A := match go_sort_steps lt l with Ok l' => l' | _ => l end.
