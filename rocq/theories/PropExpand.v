(** C60: environment variables in the configuration file. *)
From Coq Require Import List ZArith Bool String.
From Coq Require Import Strings.Byte.
From Verif Require Import Base Expand SpecExpand ExpandFacts.
Import ListNotations.
Open Scope nat_scope.

(** Every text is divided into pieces, and each piece stands for what SpecExpand.v says, whatever the variables are. *)
Theorem C60_every_text env text : exists ps, divided ps /\ written ps = text /\ expand_env env text = List.concat (map (meaning env) ps).
Proof. destruct (every_text_divided text) as [ps [H <-]]. exists ps. split; [exact H|]. split; [reflexivity|]. exact (expand_divided env ps H). Qed.
Print Assumptions C60_every_text.

(** There is only one result: any division gives it. *)
Theorem C60_expanded env ps : divided ps -> expand_env env (written ps) = List.concat (map (meaning env) ps).
Proof. exact (expand_divided env ps). Qed.
Print Assumptions C60_expanded.

(** A text without dollar signs is used as written. *)
Theorem C60_no_dollar env text : ~ In "$"%byte text -> expand_env env text = text.
Proof. exact (no_dollar_text env text). Qed.
Print Assumptions C60_no_dollar.

(** Refuted: only variables are replaced.  In a regular expression with $ before ( or | it stays, before a digit, a minus or another $ it is
    taken away with the next character. *)
Theorem C60_shell_refuted : exists env text, (forall n, env n = []) /\ expand_env env text <> text /\
  text = lit "regexp: '(a$|b$-c$$)'" /\ expand_env env text = lit "regexp: '(a$|bc)'".
Proof. exists (fun _ => []), (lit "regexp: '(a$|b$-c$$)'"). repeat split; vm_compute; congruence. Qed.
Print Assumptions C60_shell_refuted.

(** Refuted: every text can be written.  There is no way to give a dollar sign before a letter to the YAML decoder, unless a variable
    contains a dollar sign. *)
Theorem C60_escape_refuted : forall env, (forall n, ~ In "$"%byte (env n)) -> exists wanted, forall text, expand_env env text <> wanted.
Proof.
  intros env He. exists (lit "$a"). intros text H. apply (no_dollar_name env He text [] "a"%byte [] H). left. vm_compute. tauto.
Qed.
Print Assumptions C60_escape_refuted.

(** Refuted: a brace which is not closed is an error.  It is taken away, and up to the next closing brace any text is a name. *)
Theorem C60_brace_refuted : exists env, expand_env env (lit "path: ${DATA/a.csv") = lit "path: DATA/a.csv" /\
  expand_env env (lit "path: ${DATA/a.csv, x: {y: 1}, z: 2}") = lit "path: , z: 2}".
Proof. exists (fun _ => []). split; vm_compute; reflexivity. Qed.
Print Assumptions C60_brace_refuted.

(** Non-vacuous. *)
Definition some_pieces : list piece := [Text (lit "path: "); Braced (lit "DIR"); Text (lit "/"); Bare (lit "FILE"); Text (lit ".csv # "); Dollar; Text (lit " "); Shell "1"; Empty; Text (lit "a"); Unclosed].
Example C60_example : divided some_pieces /\ written some_pieces = lit "path: ${DIR}/$FILE.csv # $ $1${}a${" /\
  expand_env (fun n => if bytes_eqb n (lit "DIR") then lit "/data" else if bytes_eqb n (lit "FILE") then lit "$DIR" else []) (written some_pieces) = lit "path: /data/$DIR.csv # $ a".
Proof.
  split; [|split; vm_compute; reflexivity]. unfold some_pieces.
  repeat first [apply d_nil | apply d_text; [discriminate|vm_compute; intuition discriminate|] | apply d_braced; [discriminate|vm_compute; intuition discriminate|]
    | apply d_shell; [vm_compute; tauto|] | apply d_empty | apply d_unclosed; [vm_compute; tauto|] ].
  apply d_bare; [vm_compute; tauto|vm_compute; intuition discriminate|repeat (apply Forall_cons; [vm_compute; tauto|]); apply Forall_nil| |vm_compute; intuition discriminate].
  apply d_text; [discriminate|vm_compute; intuition discriminate|]. apply d_dollar; [|vm_compute; intuition discriminate].
  repeat first [apply d_nil | apply d_text; [discriminate|vm_compute; intuition discriminate|] | apply d_shell; [vm_compute; tauto|] | apply d_empty | apply d_unclosed; [vm_compute; tauto|] ].
Qed.
