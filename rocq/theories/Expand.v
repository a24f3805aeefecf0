(** pkg/config/config.go:38: os.ExpandEnv on the text of the configuration file, before
    it is decoded.  os.Expand and getShellName of Go 1.17's package os are modelled function by
    function from memory (their sources are not in /repo). *)
From Coq Require Import List ZArith Bool String.
From Coq Require Import Strings.Byte.
From Verif Require Import Base.
Import ListNotations.
Open Scope nat_scope.

Definition is_byte (c : byte) (s : string) : bool := existsb (beqb c) (lit s).

(** os.isShellSpecialVar *)
Definition special_var (c : byte) : bool := is_byte c "*#$@!?-0123456789".

(** os.isAlphaNum *)
Definition alpha_num (c : byte) : bool :=
  is_byte c "_0123456789abcdefghijklmnopqrstuvwxyzABCDEFGHIJKLMNOPQRSTUVWXYZ".

(** The text before the first closing brace. *)
Fixpoint to_brace (s : bytes) : option bytes :=
  match s with
  | [] => None
  | c :: s' => if beqb c "}" then Some [] else match to_brace s' with Some n => Some (c :: n) | None => None end
  end.

Fixpoint alpha_prefix (s : bytes) : bytes :=
  match s with c :: s' => if alpha_num c then c :: alpha_prefix s' else [] | [] => [] end.

(** os.getShellName: the name and how many bytes it takes; [s] is not empty. *)
Definition shell_name (s : bytes) : bytes * nat :=
  match s with
  | [] => ([], 0)
  | c :: s' =>
    if beqb c "{" then
      match s' with
      | d :: e :: _ => if special_var d && beqb e "}" then ([d], 3) else
          match to_brace s' with Some [] => ([], 2) | Some n => (n, List.length n + 2) | None => ([], 1) end
      | _ => match to_brace s' with Some [] => ([], 2) | Some n => (n, List.length n + 2) | None => ([], 1) end
      end
    else if special_var c then ([c], 1)
    else let n := alpha_prefix s in (n, List.length n)
  end.

(** os.Expand: [skip] is the number of bytes already taken (j += w). *)
Fixpoint expand_from (env : bytes -> bytes) (skip : nat) (s : bytes) : bytes :=
  match s with
  | [] => []
  | c :: s' =>
    match skip with
    | S k => expand_from env k s'
    | O =>
      match s' with
      | [] => [c]
      | _ :: _ =>
        if beqb c "$" then
          match shell_name s' with
          | ([], O) => c :: expand_from env 0 s'
          | ([], w) => expand_from env w s'
          | (n, w) => env n ++ expand_from env w s'
          end
        else c :: expand_from env 0 s'
      end
    end
  end.

(** os.ExpandEnv: [env] is os.Getenv, empty for unset variables. *)
Definition expand_env (env : bytes -> bytes) (s : bytes) : bytes := expand_from env 0 s.
