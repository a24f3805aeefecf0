(** pkg/service/http.go:139-179 and the patterns of the parsers. *)
From Coq Require Import List ZArith Lia Bool String.
From Coq Require Import Strings.Byte.
From Verif Require Import Base Codec Value GoStrings Parser Regex Output Http.
Import ListNotations.
Open Scope Z_scope.

(** pkg/parser: GetRegexpPattern of string.go:43-45, integer.go:29-36,
    float.go:30-38, boolean.go:30-39, json.go:27-29, split.go:31-33. *)
Definition ignore_begin (ignore : bytes) : bytes :=
  match ignore with [] => [] | _ :: _ => lit "[" ++ ignore ++ lit "]*" end.
Definition pattern (c : pconfig) : bytes :=
  match c with
  | PString _ => lit ".+"
  | PInteger ignore =>
    let ignore := quote_meta ignore in
    ignore_begin ignore ++ lit "[-]?[0-9" ++ ignore ++ lit "]+"
  | PFloat sep ignore =>
    let sep := quote_meta sep in
    let ignore := quote_meta ignore in
    ignore_begin ignore ++ lit "[-]?[0-9" ++ ignore ++ lit "]+([" ++ sep ++ lit "][0-9" ++ ignore ++ lit "]+)?"
  | PBoolean trues falses => lit "(" ++ join_strings (lit "|") (map quote_meta trues ++ map quote_meta falses) ++ lit ")"
  | PJson | PSplit _ _ _ => []
  end.

(** The text up to the first closing brace. *)
Fixpoint up_to_brace (s : bytes) : option bytes :=
  match s with
  | [] => None
  | x :: s' => if beqb x x7d then Some [] else match up_to_brace s' with Some n => Some (x :: n) | None => None end
  end.

(** pkg/service/http.go:143-154: the parts outside and the names inside the
    matches of "{([^}]+)}".  [skip]: bytes of the current placeholder; [cur]: the
    current part, reversed. *)
Fixpoint split_path (s : bytes) (skip : nat) (cur : bytes) : list bytes * list bytes :=
  match s with
  | [] => ([rev cur], [])
  | x :: s' =>
    match skip with
    | S k => split_path s' k cur
    | O =>
      match (if beqb x x7b then up_to_brace s' else None) with
      | Some (n :: name) =>
        let '(parts, names) := split_path s' (S (S (List.length name))) [] in
        (rev cur :: parts, (n :: name) :: names)
      | _ => split_path s' O (x :: cur)
      end
    end
  end.

Section Path.
(** output.GetParameterParser (json_array.go:208-220, json_object.go:145-152) *)
Variable param_parser : bytes -> res pconfig.

(** pkg/service/http.go:155-172: the rest of the path after the first part. *)
Fixpoint path_rest (parts names : list bytes) : res bytes :=
  match parts, names with
  | part :: parts', name :: names' =>
    rlet c := param_parser name in
    if negb (is_primitive c) then Err (EMsg "Cannot use the parser as route parameter because it's not a primitive.")
    else rlet rest := path_rest parts' names' in
         Ok (lit "(" ++ pattern c ++ lit ")" ++ part ++ rest)
  | _, _ => Ok []
  end.

Definition path_pattern (path : bytes) : res (bytes * list bytes) :=
  let '(parts, names) := split_path path 0 [] in
  rlet rest := path_rest (tl parts) names in
  Ok (lit "^" ++ hd [] parts ++ rest ++ lit "$", names).

(** pkg/service/http.go:139-179 *)
Definition create_path_regexp (path : bytes) : res (regexp * list bytes) :=
  rlet (p, names) := path_pattern path in
  rlet r := compile p in
  Ok (r, names).
End Path.

(** The parser of a parameter of an output. *)
Definition output_parser (parsers : parsers) (o : output) (name : bytes) : res pconfig :=
  match mget (match o with OArray c => ac_params c | OObject c => oc_params c end) name with
  | None => Err (EMsg "Parameter does not exist")
  | Some pc => match mget parsers (pm_parser pc) with Some c => Ok c | None => Err (EMsg "Parser does not exist") end
  end.

(** pkg/service/http.go:52-77, one route.  (The check of HasParameter at lines
    64-68 repeats the one made by GetParameterParser.) *)
Definition new_route (parsers : parsers) (path : bytes) (o : output) : res route :=
  rlet (r, names) := create_path_regexp (output_parser parsers o) path in
  Ok (mkRoute (find_submatch r) names o).
