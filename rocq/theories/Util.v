(** pkg/util/utils.go and pkg/util/fsnotify.go *)
From Coq Require Import List ZArith Lia Bool String.
From Coq Require Import Strings.Byte.
From Verif Require Import Base GoStrings.
Import ListNotations.
Open Scope Z_scope.

(** pkg/util/utils.go:28-31 *)
Definition address_rules : list (bytes * bytes) := [(lit "[::]:", lit "127.0.0.1:"); (lit "0.0.0.0:", lit "127.0.0.1:")].

(** pkg/util/utils.go:26-38; [rules]: the map in the order of the iteration. *)
Fixpoint get_address (rules : list (bytes * bytes)) (address : bytes) : bytes :=
  match rules with
  | [] => address
  | (from, to) :: rules' =>
    get_address rules' (if has_prefix from address then to ++ skipn (List.length from) address else address)
  end.

(** *** File system notifications *)

(** fsnotify.Op is a set of flags; an event carries one or several of them. *)
Record fs_ops := mkOps { op_create : bool; op_write : bool; op_remove : bool; op_rename : bool; op_chmod : bool }.

(** What the select statement of the watching goroutine receives. *)
Inductive notice := Event (ops : fs_ops) | WatchError | EventsClosed | ErrorsClosed.

Inductive watch_state := Watching | Stopped | Dead.

(** pkg/util/fsnotify.go:15-35: one turn of the loop.  [logger.Fatalln] ends the
    process. *)
Definition watch_step (die : bool) (s : watch_state) (n : notice) : watch_state :=
  match s with
  | Watching =>
    match n with
    | Event ops => if op_write ops then if die then Dead else Watching else Watching
    | WatchError => Watching
    | EventsClosed => Stopped
    | ErrorsClosed => Stopped
    end
  | Stopped => Stopped
  | Dead => Dead
  end.
Definition watch (die : bool) (ns : list notice) : watch_state := fold_left (watch_step die) ns Watching.

(** pkg/input/{csv,json,xml}_config.go: ShouldDieOnInputChange *)
Definition should_die (config : option bool) : bool := match config with None => true | Some b => b end.
