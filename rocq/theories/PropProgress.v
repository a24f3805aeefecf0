(** Property C70: the progress shown while an index is created. *)
From Coq Require Import List ZArith Lia Bool Sorted.
From Verif Require Import Base FloatText SpecFloatText Progress ProgressFacts.
Import ListNotations.
Open Scope Z_scope.

(** C70.  The progress of a position in the file is between 0 and 100, it never goes back, it is 0 at the beginning and
    100 at the end. *)
Theorem C70_between : forall p t, 0 <= p <= t -> 0 < t < 2 ^ 63 -> exists k, percent p t = Ok k /\ 0 <= k <= 100.
Proof. exact percent_between. Qed.
Print Assumptions C70_between.
Theorem C70_grows : forall p p' t k k', 0 <= p <= p' -> p' <= t -> 0 < t < 2 ^ 63 -> percent p t = Ok k -> percent p' t = Ok k' -> k <= k'.
Proof. exact percent_grows. Qed.
Print Assumptions C70_grows.
Theorem C70_ends : forall t, 0 < t < 2 ^ 63 -> percent 0 t = Ok 0 /\ percent t t = Ok 100.
Proof. exact percent_ends. Qed.
Print Assumptions C70_ends.
(** It is the number of whole percents, or one more, or one less. *)
Theorem C70_near : forall p t k, 0 <= p <= t -> 0 < t < 2 ^ 63 -> percent p t = Ok k -> Z.abs (k - 100 * p / t) <= 1.
Proof. exact percent_near. Qed.
Print Assumptions C70_near.

(** There is more than a second between two messages, whatever the clock says; the messages are those of positions that were
    reported; and a position reported more than a second after all the others is shown.  When the size is not known there is
    no message. *)
Theorem C70_rate : forall size now calls, StronglySorted (fun a b => fst a + 1000000000 < fst b) (messages (track_progress size now) calls).
Proof. intros. exact (proj2 (messages_after _ calls)). Qed.
Print Assumptions C70_rate.
Theorem C70_positions : forall t now calls when x, In (when, x) (messages (track_progress (Ok t) now) calls) -> exists p, In (when, p) calls /\ x = (percent p t, p).
Proof. intros t now calls when x H. exact (messages_of _ _ _ _ H). Qed.
Print Assumptions C70_positions.
Theorem C70_shown : forall t start calls now p calls', t <> 0 -> start < now -> Forall (fun c => fst c + 1000000000 < now) calls ->
  In (now, (percent p t, p)) (messages (track_progress (Ok t) start) (calls ++ (now, p) :: calls')).
Proof. intros t start calls now p calls' Ht. exact (messages_shown (mkTracker t start) calls now p calls' Ht). Qed.
Print Assumptions C70_shown.
Theorem C70_unknown_size : forall size now calls, match size with Ok n => n = 0 | _ => True end -> messages (track_progress size now) calls = [].
Proof. intros size now calls H. apply messages_none. destruct size; [exact H|reflexivity..]. Qed.
Print Assumptions C70_unknown_size.

(** It is not the number of whole percents: 29 of 100 bytes are 28%, and 100% is shown before the end. *)
Theorem C70_rounded_refuted : exists p t k, 0 <= p <= t /\ 0 < t < 2 ^ 63 /\ percent p t = Ok k /\ k <> 100 * p / t.
Proof. exists 29, 100, 28. repeat split; try lia; vm_compute; congruence. Qed.
Print Assumptions C70_rounded_refuted.
Example C70_example :
  messages (track_progress (Ok 100) 5) [(5, 0); (6, 29); (1000000006, 50); (1000000007, 99); (3000000000, 100)]
    = [(6, (percent 29 100, 29)); (1000000007, (percent 99 100, 99)); (3000000000, (percent 100 100, 100))] /\ percent 100 100 = Ok 100.
Proof. split; [reflexivity|]. exact (proj2 (C70_ends 100 ltac:(lia))). Qed.
Theorem C70_early_refuted : exists p t, 0 <= p < t /\ t < 2 ^ 63 /\ percent p t = Ok 100.
Proof. exists (2 ^ 60 - 1), (2 ^ 60). repeat split; vm_compute; congruence. Qed.
Print Assumptions C70_early_refuted.
