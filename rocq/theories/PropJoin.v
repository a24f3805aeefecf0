(** Property C09: joining position iterators. *)
From Coq Require Import List ZArith Lia Bool Sorted.
From Verif Require Import Base Value Join SpecJoin JoinFacts.
Import ListNotations.
Open Scope Z_scope.

(** C09.  For any non-empty family of sorted lists there is a sorted list [l]
    in which every position occurs as often as in the list where it is rarest,
    and the calls of the joined iterator yield the elements of [l] one after
    the other and then the end, for ever ([nth_error] past the end). *)
Theorem C09_join_is_intersection : forall ls, ls <> [] -> Forall (StronglySorted Z.le) ls ->
  exists l, is_intersection ls l /\ forall n, nth_call n (map (map Ok) ls) = Ok (nth_error l n).
Proof. exact join_nth. Qed.
Print Assumptions C09_join_is_intersection.

(** There is only one such list. *)
Theorem C09_intersection_determined : forall ls l l', is_intersection ls l -> is_intersection ls l' -> l = l'.
Proof. exact intersection_unique. Qed.
Print Assumptions C09_intersection_determined.

Example C09_example :
  let ls := [[1; 3; 3; 5; 8; 9]; [0; 3; 3; 3; 4; 8; 9]; [2; 3; 8; 8; 9; 10]] in
  Forall (StronglySorted Z.le) ls /\ map (fun n => nth_call n (map (map Ok) ls)) [0; 1; 2; 3; 4; 5]%nat =
  [Ok (Some 3); Ok (Some 8); Ok (Some 9); Ok None; Ok None; Ok None].
Proof. split; [|vm_compute; reflexivity]. repeat constructor; lia. Qed.

(** No iterator: the end at once. *)
Theorem C09_join_of_nothing : forall n, nth_call n [] = Ok None.
Proof. induction n; [reflexivity|exact IHn]. Qed.
Print Assumptions C09_join_of_nothing.
