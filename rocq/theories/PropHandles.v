(** Property C41: handles left open by a request. *)
From Coq Require Import List ZArith Lia Bool String.
From Verif Require Import Base Value Join Handles HandlesFacts.
Import ListNotations.
Open Scope Z_scope.

(** The iterators with handles are those of C09. *)
Theorem C41_same_positions : forall its,
  fst (h_join_next its) = fst (join_next (map h_left its)) /\ map h_left (snd (h_join_next its)) = snd (join_next (map h_left its)).
Proof. exact join_next_erase. Qed.
Print Assumptions C41_same_positions.

(** C41 (missing: see the refuted parts).  A list request on one file or cursor
    of positions [l] closes it exactly when the page reaches the end of the list. *)
Theorem C41_list_partial : forall row l fuel offset limit, (forall p, row p = Ok tt) -> 0 <= offset -> 0 < limit -> (List.length l < fuel)%nat ->
  fst (h_list row fuel offset limit [mkH (map Ok l) true]) = Ok tt /\
  left_open (snd (h_list row fuel offset limit [mkH (map Ok l) true])) = if offset + limit <=? zlen l then 1%nat else O.
Proof. exact list_open_iff. Qed.
Print Assumptions C41_list_partial.

(** An object request closes it only when there is no object. *)
Theorem C41_object_partial : forall l,
  left_open (snd (h_object [mkH (map Ok l) true])) = match l with [] => O | _ => 1%nat end.
Proof. exact object_open_iff. Qed.
Print Assumptions C41_object_partial.

(** A relationship by one index always closes it. *)
Theorem C41_relationship_partial : forall get l fuel, (forall p, get p = Ok tt) -> (List.length l < fuel)%nat ->
  fst (h_all get fuel [mkH (map Ok l) true]) = Ok tt /\ left_open (snd (h_all get fuel [mkH (map Ok l) true])) = O.
Proof. exact relationship_closes. Qed.
Print Assumptions C41_relationship_partial.

(** With indexes that hold nothing (map, wildcard), nothing is ever left. *)
Theorem C41_memory_indexes : forall its row get fuel offset limit, left_open its = O ->
  left_open (snd (h_list row fuel offset limit its)) = O /\ left_open (snd (h_object its)) = O /\ left_open (snd (h_all get fuel its)) = O.
Proof. exact memory_indexes. Qed.
Print Assumptions C41_memory_indexes.

Example C41_example :
  let it := mkH (map Ok [0; 10; 20]) true in
  h_list (fun _ => Ok tt) 4 1 2 [it] = (Ok tt, [mkH [] true]) /\
  h_list (fun _ => Ok tt) 4 1 3 [it] = (Ok tt, [mkH [] false]) /\
  h_list (fun _ => Ok tt) 4 7 3 [it] = (Ok tt, [mkH [] false]) /\
  h_all (fun _ => Ok tt) 4 [it] = (Ok tt, [mkH [] false]) /\
  left_open [mkH (map Ok [0; 10; 20]) false; mkH (map Ok [10]) false] = O.
Proof. vm_compute. repeat split. Qed.

(** A page which is full leaves the file open, a found object too. *)
Theorem C41_full_page_refuted : exists l,
  left_open (snd (h_list (fun _ => Ok tt) 4 0 1 [mkH (map Ok l) true])) = 1%nat /\ left_open (snd (h_object [mkH (map Ok l) true])) = 1%nat.
Proof. exists [0; 10]. vm_compute. split; reflexivity. Qed.
Print Assumptions C41_full_page_refuted.

(** Two indexes: the join stops when one of them ends, even when everything was
    read. *)
Theorem C41_join_refuted : exists a b,
  h_all (fun _ => Ok tt) 4 [mkH (map Ok a) true; mkH (map Ok b) true] = (Ok tt, [mkH [] true; mkH [] false]).
Proof. exists [0; 10], [0; 10]. vm_compute. reflexivity. Qed.
Print Assumptions C41_join_refuted.

(** An error while a record is read leaves the iterator open. *)
Theorem C41_error_refuted : exists e l,
  h_all (fun _ => Err e) 4 [mkH (map Ok l) true] = (Err e, [mkH (map Ok [10]) true]).
Proof. exists EIo, [0; 10]. vm_compute. reflexivity. Qed.
Print Assumptions C41_error_refuted.
