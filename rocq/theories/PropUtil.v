(** Properties C40 and C47: notifications and addresses. *)
From Coq Require Import List ZArith Lia Bool String Permutation.
From Coq Require Import Strings.Byte.
From Verif Require Import Base GoStrings Util UtilFacts.
Import ListNotations.
Open Scope Z_scope.

(** C40 (missing: a file that is replaced instead of being written to, see
    C40_replaced_file_refuted; what happens between the change and its
    notification).  The process ends exactly when a write to the file is
    notified before the watcher is closed and dieOnInputChange is not false. *)
Theorem C40_dies_on_write_partial : forall config ns, watch (should_die config) ns = Dead <->
  config <> Some false /\ exists a b ops, ns = a ++ Event ops :: b /\ op_write ops = true /\ ~ In EventsClosed a /\ ~ In ErrorsClosed a.
Proof. exact watch_dead. Qed.
Print Assumptions C40_dies_on_write_partial.

Definition ex_chmod : fs_ops := mkOps false false false false true.
Definition ex_write : fs_ops := mkOps false true false false true.
Definition ex_remove : fs_ops := mkOps false false true false false.
Definition ex_rename : fs_ops := mkOps false false false true false.
Definition ex_create : fs_ops := mkOps true false false false false.
Example C40_example :
  watch (should_die None) [Event ex_chmod; WatchError; Event ex_write; EventsClosed] = Dead /\
  watch (should_die (Some true)) [Event ex_chmod; EventsClosed; Event ex_write] = Stopped /\
  watch (should_die (Some false)) [Event ex_chmod; WatchError; Event ex_write] = Watching.
Proof. vm_compute. repeat split. Qed.

(** Replacing the file by another one, as editors and mv do, is notified by
    other events, which are ignored. *)
Theorem C40_replaced_file_refuted : exists ns, In (Event ex_rename) ns /\ In (Event ex_remove) ns /\ In (Event ex_create) ns /\ watch (should_die (Some true)) ns = Watching.
Proof. exists [Event ex_rename; Event ex_chmod; Event ex_remove; Event ex_create]. vm_compute. tauto. Qed.
Print Assumptions C40_replaced_file_refuted.

(** C47.  Whatever the order of the map, wildcard addresses become the loopback
    address with the same port, and all others stay. *)
Theorem C47_address_exact : forall rules, Permutation address_rules rules -> forall a,
  (forall port, a = lit "[::]:" ++ port \/ a = lit "0.0.0.0:" ++ port -> get_address rules a = lit "127.0.0.1:" ++ port) /\
  (~ (exists port, a = lit "[::]:" ++ port \/ a = lit "0.0.0.0:" ++ port) -> get_address rules a = a).
Proof. exact address_exact. Qed.
Print Assumptions C47_address_exact.
Example C47_example : map (get_address address_rules) [lit "[::]:8080"; lit "0.0.0.0:80"; lit "10.0.0.0:80"; lit "[::1]:80"; lit "100.0.0.0:1"] =
    [lit "127.0.0.1:8080"; lit "127.0.0.1:80"; lit "10.0.0.0:80"; lit "[::1]:80"; lit "100.0.0.0:1"] /\
  Permutation address_rules (rev address_rules).
Proof. split; [vm_compute; reflexivity|]. apply Permutation_rev. Qed.
