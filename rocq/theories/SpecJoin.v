(** Specification of an intersection of sorted lists of positions. *)
From Coq Require Import List ZArith Lia Bool Sorted.
From Verif Require Import Base.
Import ListNotations.
Open Scope Z_scope.

Definition occ (x : Z) (l : list Z) : nat := count_occ Z.eq_dec l x.

(** [l] is the intersection of the non-empty family [ls]: sorted, and every
    position occurs as often as in the list of [ls] where it is rarest. *)
Definition is_intersection (ls : list (list Z)) (l : list Z) : Prop :=
  StronglySorted Z.le l /\
  forall x, (exists m, In m ls /\ occ x l = occ x m) /\ (forall m, In m ls -> (occ x l <= occ x m)%nat).
