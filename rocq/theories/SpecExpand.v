(** What a text with environment variables means. *)
From Coq Require Import List ZArith Bool String.
From Coq Require Import Strings.Byte.
From Verif Require Import Base.
Import ListNotations.
Open Scope nat_scope.

Definition name_byte (c : byte) : Prop := In c (lit "_0123456789abcdefghijklmnopqrstuvwxyzABCDEFGHIJKLMNOPQRSTUVWXYZ").
Definition shell_byte (c : byte) : Prop := In c (lit "*#$@!?-0123456789").

(** Text; a dollar sign on its own; $NAME; ${NAME}; a dollar sign with a character which is a parameter of shells
    ($1, $$); an empty pair of braces; an opening brace which is never closed. *)
Inductive piece :=
| Text (s : bytes)
| Dollar
| Bare (name : bytes)
| Braced (name : bytes)
| Shell (c : byte)
| Empty
| Unclosed.

Definition spell (p : piece) : bytes :=
  match p with
  | Text s => s
  | Dollar => lit "$"
  | Bare n => lit "$" ++ n
  | Braced n => lit "${" ++ n ++ lit "}"
  | Shell c => lit "$" ++ [c]
  | Empty => lit "${}"
  | Unclosed => lit "${"
  end.
Definition written (ps : list piece) : bytes := List.concat (map spell ps).

Definition starts_with (P : byte -> Prop) (s : bytes) : Prop := match s with c :: _ => P c | [] => False end.

(** How a text is to be divided. *)
Inductive divided : list piece -> Prop :=
| d_nil : divided []
| d_text s ps : s <> [] -> ~ In "$"%byte s -> divided ps -> divided (Text s :: ps)
| d_dollar ps : divided ps -> ~ starts_with (fun c => name_byte c \/ shell_byte c \/ c = "{"%byte) (written ps) -> divided (Dollar :: ps)
| d_bare c n ps : name_byte c -> ~ shell_byte c -> Forall name_byte n -> divided ps -> ~ starts_with name_byte (written ps) -> divided (Bare (c :: n) :: ps)
| d_braced n ps : n <> [] -> ~ In "}"%byte n -> divided ps -> divided (Braced n :: ps)
| d_shell c ps : shell_byte c -> divided ps -> divided (Shell c :: ps)
| d_empty ps : divided ps -> divided (Empty :: ps)
| d_unclosed ps : ~ In "}"%byte (written ps) -> divided ps -> divided (Unclosed :: ps).

(** What it stands for: the last three are taken away. *)
Definition meaning (env : bytes -> bytes) (p : piece) : bytes :=
  match p with
  | Text s => s
  | Dollar => lit "$"
  | Bare n | Braced n => env n
  | Shell c => env [c]
  | Empty | Unclosed => []
  end.
