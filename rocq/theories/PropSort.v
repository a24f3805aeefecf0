(** Property C26 for the sort.Sort of Go's package sort. *)
From Coq Require Import List ZArith Lia Bool String Sorted Permutation.
From Verif Require Import Base BaseFacts Value Parser Sort SpecOrder OrderFacts GoSort GoSortFacts.
Import ListNotations.
Open Scope Z_scope.

(** C26.  Whatever Less answers, also when it is no order at all, sorting ends, no index is out of range, and no record is lost
    or doubled. *)
Theorem C26_every_less : forall A (lt : A -> A -> bool) l, exists l', go_sort_steps lt l = Ok l' /\ Permutation l l'.
Proof. intros A lt l. exists (go_sort lt l). exact (go_sort_returns lt l). Qed.
Print Assumptions C26_every_less.

(** The contract that the theorems on lists of records ask for, [sorts] and the permutations. *)
Theorem C26_contract : forall A, sorts (@go_sort A) /\ forall lt l, Permutation l (@go_sort A lt l).
Proof. intros A. split; [exact go_sort_sorts|]. intros lt l. exact (proj2 (go_sort_returns lt l)). Qed.
Print Assumptions C26_contract.

(** C26 (missing: null and mixed values, see C26_go_null_refuted).  No record comes before one that should precede it. *)
Theorem C26_go_sort_partial : forall cs l, sortable cs l ->
  exists l', go_sort_steps (less cs) l = Ok l' /\ Permutation l l' /\ StronglySorted (fun a b => ~ precedes cs b a) l'.
Proof.
  intros cs l H. exists (go_sort (less cs) l). split; [exact (proj1 (go_sort_returns (less cs) l))|]. exact (sort_correct (@go_sort rec) cs l go_sort_sorts H).
Qed.
Print Assumptions C26_go_sort_partial.

Definition numbered (k : Z) (v : value) : rec := mkRec k (fun p => Ok v) (Ok [(lit "a", v)]).
Definition mixed_up (n : nat) : list rec := map (fun k => numbered (Z.of_nat k) (VInt (Z.of_nat k * 7 mod 50))) (seq 0 n).
(** With 60 records sort.doPivot looks for a median of nine, and for duplicates. *)
Example C26_go_example : sortable [(lit "a", true)] (mixed_up 60) /\
  map (fun r => match r_get r (lit "a") with Ok (VInt z) => z | _ => -1 end) (go_sort (less [(lit "a", true)]) (mixed_up 60)) =
    [0; 0; 1; 2; 3; 4; 5; 6; 6; 7; 7; 8; 9; 10; 11; 12; 13; 13; 14; 14; 15; 16; 17; 18; 19; 20; 21; 21; 22; 23; 24; 25; 26; 27; 28; 28; 29; 30; 31; 32; 33; 34; 35; 35; 36; 37; 38; 39; 40; 41; 42; 42; 43; 44; 45; 46; 47; 48; 49; 49].
Proof.
  split; [|vm_compute; reflexivity]. constructor; [exists TInt|constructor]. unfold mixed_up. apply Forall_map, Forall_forall. intros k _. eexists. split; [reflexivity|exact I].
Qed.

(** sort.heapSort, which sort.quickSort uses when its pivots divide badly. *)
Example C26_heap_example : heap_sort Nat.ltb [9; 3; 7; 1; 8; 2; 5; 5; 0; 4]%nat 1 9 = Ok [9; 0; 1; 2; 3; 5; 5; 7; 8; 4]%nat.
Proof. vm_compute. reflexivity. Qed.

(** Records which are equal are not kept in the order of the file: the two records with 2 change places. *)
Theorem C26_stable_refuted : exists cs l, sortable cs l /\ map r_pos (go_sort (less cs) l) = [6; 1; 2; 3; 4; 5; 0] /\ less cs (numbered 0 (VInt 2)) (numbered 5 (VInt 2)) = false /\
  l = numbered 0 (VInt 2) :: map (fun k => numbered k (VInt 1)) [1; 2; 3; 4] ++ [numbered 5 (VInt 2); numbered 6 (VInt 0)].
Proof.
  exists [(lit "a", true)]. eexists. split; [|split; [|split; [reflexivity|reflexivity]]]; [|vm_compute; reflexivity].
  constructor; [exists TInt|constructor]. repeat constructor; eexists; (split; [reflexivity|exact I]).
Qed.
Print Assumptions C26_stable_refuted.
Theorem C26_go_null_refuted : exists cs a b c, go_sort (less cs) [a; b; c] = [a; b; c] /\ precedes cs c a.
Proof.
  exists [(lit "a", true)], (numbered 1 (VInt 9)), (numbered 2 VNil), (numbered 3 (VInt 1)). split; [vm_compute; reflexivity|]. eapply prec_here; [reflexivity|reflexivity|]. constructor. lia.
Qed.
Print Assumptions C26_go_null_refuted.
