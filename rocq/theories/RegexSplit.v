(** Go's Regexp.Split (Go 1.16), used by pkg/parser/split.go:37-39.  Positions are counted in characters. *)
From Coq Require Import List ZArith Bool.
From Verif Require Import Base Regex.
Import ListNotations.

(** The first match at or after a position: where it begins and ends. *)
Fixpoint find_from (r : re) (pos : nat) (rest : list (Z * bytes)) : option (nat * nat) :=
  match run r (mkMstate pos rest []) with
  | st :: _ => Some (pos, ms_pos st)
  | [] => match rest with [] => None | _ :: rest' => find_from r (S pos) rest' end
  end.

(** regexp.go, allMatches without a limit.  [prev]: the end of the match before. *)
Fixpoint all_matches (fuel : nat) (r : re) (s : list (Z * bytes)) (pos : nat) (prev : option nat) : res (list (nat * nat)) :=
  match fuel with
  | O => NoFuel
  | S fuel' =>
    if Nat.ltb (List.length s) pos then Ok []
    else
      match find_from r pos (skipn pos s) with
      | None => Ok []
      | Some (b, e) =>
        if Nat.eqb e pos then
          rlet l := all_matches fuel' r s (S pos) (Some e) in
          Ok (if match prev with Some p => Nat.eqb b p | None => false end then l else (b, e) :: l)
        else
          rlet l := all_matches fuel' r s e (Some e) in Ok ((b, e) :: l)
      end
  end.

(** regexp.go, the loop of Split; [last]: the variable end. *)
Fixpoint cut_at (s : list (Z * bytes)) (ms : list (nat * nat)) (beg last : nat) : list (list (Z * bytes)) :=
  match ms with
  | [] => if Nat.eqb last (List.length s) then [] else [skipn beg s]
  | (b, e) :: ms' => (if Nat.eqb e 0 then [] else [firstn (b - beg) (skipn beg s)]) ++ cut_at s ms' e b
  end.

(** Split(s, -1) with the expression [expr]. *)
Definition split_with (expr : bytes) (r : regexp) (s : bytes) : res (list bytes) :=
  match expr, s with
  | _ :: _, [] => Ok [[]]
  | _, _ =>
    rlet ms := all_matches (S (S (List.length (chars s)))) (re_prog r) (chars s) 0 None in
    Ok (map raw (cut_at (chars s) ms 0 0))
  end.

(** As the parsers use it: the expression was compiled by the validation. *)
Definition go_regexp_split (expr s : bytes) : list bytes :=
  match compile expr with
  | Ok r => match split_with expr r s with Ok l => l | _ => [] end
  | _ => []
  end.
