(** What the path of a route means. *)
From Coq Require Import List ZArith Bool String.
From Coq Require Import Strings.Byte.
From Verif Require Import Base Value GoStrings SpecText Parser Output Http.
Import ListNotations.
Open Scope Z_scope.

(** Text without any character that is special in a regular expression. *)
Definition plain_char (r : Z) : Prop :=
  scalar r /\ r <> rune_error /\ ~ In r [92; 46; 43; 42; 63; 40; 41; 124; 91; 123; 94; 36].
Definition plain (s : bytes) : Prop := exists rs, s = text rs /\ Forall plain_char rs.

(** The name of a placeholder. *)
Definition name_ok (n : bytes) : Prop := n <> [] /\ ~ In x7d n.

(** The path "part0{name1}part1{name2}...". *)
Fixpoint template (parts names : list bytes) : bytes :=
  match parts with
  | [] => []
  | p :: parts' =>
    match names with
    | [] => p
    | n :: names' => p ++ [x7b] ++ n ++ [x7d] ++ template parts' names'
    end
  end.

(** The same path with values in place of the placeholders. *)
Fixpoint filled (parts values : list bytes) : bytes :=
  match parts with
  | [] => []
  | p :: parts' =>
    match values with
    | [] => p
    | v :: values' => p ++ v ++ filled parts' values'
    end
  end.

(** Numbers, with characters to ignore nearly anywhere. *)
Definition digit_or (ignored : list Z) (c : Z) : Prop := 48 <= c <= 57 \/ In c ignored.
Definition number_text (ignored : list Z) (rs : list Z) : Prop :=
  exists before sign digits, rs = before ++ sign ++ digits /\ Forall (fun c => In c ignored) before /\
    (sign = [] \/ sign = [45]) /\ digits <> [] /\ Forall (digit_or ignored) digits.
Definition fraction_text (separators ignored : list Z) (rs : list Z) : Prop :=
  rs = [] \/ exists s digits, rs = s :: digits /\ In s separators /\ digits <> [] /\ Forall (digit_or ignored) digits.

(** The texts that can stand for a parameter of a route. *)
Definition fits (c : pconfig) (s : bytes) : Prop :=
  match c with
  | PString _ => s <> [] /\ ~ In 10 (runes s)
  | PInteger ignore => number_text (runes ignore) (runes s)
  | PFloat sep ignore => exists a b, runes s = a ++ b /\ number_text (runes ignore) a /\ fraction_text (runes sep) (runes ignore) b
  | PBoolean trues falses => In s (trues ++ falses)
  | PJson | PSplit _ _ _ => False
  end.

(** Configurations which mean what they say: valid UTF-8, no "-" among the
    characters to ignore and the separators. *)
Definition set_text (s : bytes) : Prop := exists cs, s = text cs /\ Forall (fun c => scalar c /\ c <> 45) cs.
Definition value_text (s : bytes) : Prop := exists cs, s = text cs /\ Forall (fun c => scalar c /\ c <> rune_error) cs.
Definition clear (c : pconfig) : Prop :=
  match c with
  | PString _ => True
  | PInteger ignore => set_text ignore
  | PFloat sep ignore => sep <> [] /\ set_text sep /\ set_text ignore
  | PBoolean trues falses => trues ++ falses <> [] /\ Forall value_text (trues ++ falses)
  | PJson | PSplit _ _ _ => False
  end.

(** Parsers with a pattern that has a group of its own. *)
Definition grouping (c : pconfig) : bool :=
  match c with PFloat _ _ | PBoolean _ _ => true | _ => false end.

(** The parameters of an output, and the parser of one of them. *)
Definition output_params (o : output) : list (bytes * param) := match o with OArray c => ac_params c | OObject c => oc_params c end.
Definition bound (ps : parsers) (o : output) (n : bytes) (c : pconfig) : Prop :=
  exists pc, mget (output_params o) n = Some pc /\ mget ps (pm_parser pc) = Some c.

(** Parsers of single values. *)
Definition single_valued (c : pconfig) : Prop := match c with PJson | PSplit _ _ _ => False | _ => True end.

(** A route path that means what it says: placeholders with clear parsers,
    between texts without special characters. *)
Definition clear_path (ps : parsers) (o : output) (parts names : list bytes) (cfgs : list pconfig) : Prop :=
  List.length parts = S (List.length names) /\ Forall plain parts /\ Forall name_ok names /\
  Forall2 (fun n c => bound ps o n c /\ clear c) names cfgs.

(** The first value of a key of the query string. *)
Inductive first_value : list (bytes * bytes) -> bytes -> option bytes -> Prop :=
| fv_none n : first_value [] n None
| fv_here n v q : first_value ((n, v) :: q) n (Some v)
| fv_next n m v q r : m <> n -> first_value q n r -> first_value ((m, v) :: q) n r.
