(** Go's regexp package (Go 1.16) on the part of its syntax that route paths and
    parser patterns are made of: characters, escaped punctuation, [.], [^], [$],
    character classes, [\d], [\s], [\w] and their complements outside of classes,
    groups, alternatives, and the repetitions [*], [+], [?] (greedy or not).  Anything else is the explicit error [unmodelled], as are
    [*] and [+] after something that can match the empty string. *)
From Coq Require Import List ZArith Lia Bool String.
From Coq Require Import Strings.Byte.
From Verif Require Import Base Codec GoStrings.
Import ListNotations.
Open Scope Z_scope.

(** *** Characters *)

(** The characters of a string with the bytes they stand for; an invalid byte is
    a character of its own, RuneError. *)
Fixpoint chars_go (s : bytes) (skip : nat) : list (Z * bytes) :=
  match s with
  | [] => []
  | _ :: s' =>
    match skip with
    | S k => chars_go s' k
    | O => let '(r, w) := decode_rune s in (r, firstn w s) :: chars_go s' (pred w)
    end
  end.
Definition chars (s : bytes) : list (Z * bytes) := chars_go s 0.

(** utf8.ValidString *)
Definition valid_utf8 (s : bytes) : bool :=
  forallb (fun c : Z * bytes => negb ((fst c =? rune_error) && Nat.eqb (List.length (snd c)) 1)) (chars s).

(** *** Syntax *)
Inductive repetition := Star | Plus | Quest.

(** [RSet neg l]: one character in one of the ranges (or in none of them).
    [RGroup i r]: capturing group number [i]. *)
Inductive re :=
| REmpty
| RSet (neg : bool) (ranges : list (Z * Z))
| RBegin
| REnd
| RCat (a b : re)
| RAlt (a b : re)
| RRep (k : repetition) (greedy : bool) (r : re)
| RGroup (i : nat) (r : re).

Inductive token :=
| TSet (neg : bool) (ranges : list (Z * Z))
| TBegin
| TEnd
| TOpen
| TClose
| TBar
| TRep (k : repetition) (greedy : bool).

Definition unmodelled : err := EMsg "regexp syntax which is not modelled".

(** ASCII punctuation can be escaped (regexp/syntax/parse.go, parseEscape). *)
Definition is_alnum (c : Z) : bool :=
  ((48 <=? c) && (c <=? 57)) || ((65 <=? c) && (c <=? 90)) || ((97 <=? c) && (c <=? 122)).
Definition can_escape (c : Z) : bool := (c <? 128) && negb (is_alnum c).

(** Perl classes and the escapes of control characters outside of brackets
    (regexp/syntax/parse.go, maybeParsePerlCharClass and parseEscape). *)
Definition escape_set (c : Z) : option (bool * list (Z * Z)) :=
  if c =? 100 then Some (false, [(48, 57)])
  else if c =? 68 then Some (true, [(48, 57)])
  else if c =? 115 then Some (false, [(9, 10); (12, 13); (32, 32)])
  else if c =? 83 then Some (true, [(9, 10); (12, 13); (32, 32)])
  else if c =? 119 then Some (false, [(48, 57); (65, 90); (95, 95); (97, 122)])
  else if c =? 87 then Some (true, [(48, 57); (65, 90); (95, 95); (97, 122)])
  else if c =? 97 then Some (false, [(7, 7)])
  else if c =? 102 then Some (false, [(12, 12)])
  else if c =? 110 then Some (false, [(10, 10)])
  else if c =? 114 then Some (false, [(13, 13)])
  else if c =? 116 then Some (false, [(9, 9)])
  else if c =? 118 then Some (false, [(11, 11)])
  else None.

(** parseClassChar: the character and how many runes it takes. *)
Definition class_char (s : list Z) : res (Z * nat) :=
  match s with
  | [] => Err (EMsg "missing closing ]")
  | c :: s' =>
    if c =? 92 then
      match s' with
      | [] => Err (EMsg "trailing backslash at end of expression")
      | e :: _ => if can_escape e then Ok (e, 2%nat) else Err unmodelled
      end
    else Ok (c, 1%nat)
  end.

(** One element of a class: a range and how many runes it takes. *)
Definition class_item (s : list Z) : res (Z * Z * nat) :=
  rlet (lo, w) := class_char s in
  match skipn w s with
  | 45 :: x :: t =>
    if x =? 93 then Ok (lo, lo, w)
    else rlet (hi, w2) := class_char (x :: t) in
      if hi <? lo then Err (EMsg "invalid character class range") else Ok (lo, hi, (w + 1 + w2)%nat)
  | _ => Ok (lo, lo, w)
  end.

(** parseClass after the opening bracket: the ranges and the number of runes up
    to and including the closing one.  [skip]: runes of the current element. *)
Fixpoint class_items (s : list Z) (skip : nat) (first : bool) : res (list (Z * Z) * nat) :=
  match s with
  | [] => Err (EMsg "missing closing ]")
  | c :: s' =>
    match skip with
    | S k => rlet (l, n) := class_items s' k false in Ok (l, S n)
    | O =>
      if (c =? 93) && negb first then Ok ([], 1%nat)
      else if (c =? 91) && match s' with 58 :: _ :: _ => true | _ => false end then Err unmodelled
      else
        rlet (lo, hi, w) := class_item s in
        rlet (l, n) := class_items s' (pred w) false in
        Ok ((lo, hi) :: l, S n)
    end
  end.

Definition next_is (c : Z) (s : list Z) : bool := match s with x :: _ => x =? c | [] => false end.

(** regexp/syntax/parse.go, parse(): from runes to the elements of the
    expression (flags Perl). *)
Fixpoint lex (s : list Z) (skip : nat) : res (list token) :=
  match s with
  | [] => Ok []
  | c :: s' =>
    match skip with
    | S k => lex s' k
    | O =>
      let one t := rlet l := lex s' 0 in Ok (t :: l) in
      let rep k := rlet l := lex s' (if next_is 63 s' then 1 else 0)%nat in Ok (TRep k (negb (next_is 63 s')) :: l) in
      if c =? 92 then
        match s' with
        | [] => Err (EMsg "trailing backslash at end of expression")
        | e :: _ =>
          if can_escape e then rlet l := lex s' 1 in Ok (TSet false [(e, e)] :: l)
          else match escape_set e with
               | Some (neg, items) => rlet l := lex s' 1 in Ok (TSet neg items :: l)
               | None => Err unmodelled
               end
        end
      else if c =? 91 then
        let neg := next_is 94 s' in
        rlet (items, n) := class_items (if neg then tl s' else s') 0 true in
        rlet l := lex s' (if neg then S n else n) in
        Ok (TSet neg items :: l)
      else if c =? 40 then if next_is 63 s' then Err unmodelled else one TOpen
      else if c =? 41 then one TClose
      else if c =? 124 then one TBar
      else if c =? 94 then one TBegin
      else if c =? 36 then one TEnd
      else if c =? 46 then one (TSet true [(10, 10)])
      else if c =? 42 then rep Star
      else if c =? 43 then rep Plus
      else if c =? 63 then rep Quest
      else if (c =? 123) && match s' with d :: _ => (48 <=? d) && (d <=? 57) | [] => false end then Err unmodelled
      else one (TSet false [(c, c)])
    end
  end.

(** The stack of the parser: the alternatives finished so far and the current
    concatenation (both reversed), for every open group. *)
Record frame := mkFrame { f_alts : list re; f_cur : list re; f_idx : nat }.
Record pstate := mkPstate { ps_outer : list frame; ps_top : frame; ps_caps : nat; ps_rep : bool }.

Definition rcat (l : list re) : re := fold_right RCat REmpty l.
Fixpoint ralt (l : list re) : re :=
  match l with
  | [] => REmpty
  | [r] => r
  | r :: l' => RAlt r (ralt l')
  end.
Definition close_frame (f : frame) : re := ralt (rev (rcat (rev (f_cur f)) :: f_alts f)).

(** Whether the expression may match without consuming anything. *)
Fixpoint nullable (r : re) : bool :=
  match r with
  | REmpty | RBegin | REnd => true
  | RSet _ _ => false
  | RCat a b => nullable a && nullable b
  | RAlt a b => nullable a || nullable b
  | RRep Plus _ a => nullable a
  | RRep _ _ _ => true
  | RGroup _ a => nullable a
  end.

Definition push (st : pstate) (r : re) : pstate :=
  let f := ps_top st in
  mkPstate (ps_outer st) (mkFrame (f_alts f) (r :: f_cur f) (f_idx f)) (ps_caps st) false.

Definition pstep (st : pstate) (t : token) : res pstate :=
  let f := ps_top st in
  match t with
  | TSet neg l => Ok (push st (RSet neg l))
  | TBegin => Ok (push st RBegin)
  | TEnd => Ok (push st REnd)
  | TOpen => Ok (mkPstate (f :: ps_outer st) (mkFrame [] [] (S (ps_caps st))) (S (ps_caps st)) false)
  | TClose =>
    match ps_outer st with
    | [] => Err (EMsg "unexpected )")
    | g :: outer =>
      Ok (mkPstate outer (mkFrame (f_alts g) (RGroup (f_idx f) (close_frame f) :: f_cur g) (f_idx g)) (ps_caps st) false)
    end
  | TBar => Ok (mkPstate (ps_outer st) (mkFrame (rcat (rev (f_cur f)) :: f_alts f) [] (f_idx f)) (ps_caps st) false)
  | TRep k greedy =>
    if ps_rep st then Err (EMsg "invalid nested repetition operator")
    else match f_cur f with
    | [] => Err (EMsg "missing argument to repetition operator")
    | r :: cur =>
      if match k with Quest => false | _ => nullable r end then Err unmodelled
      else Ok (mkPstate (ps_outer st) (mkFrame (f_alts f) (RRep k greedy r :: cur) (f_idx f)) (ps_caps st) true)
    end
  end.

Fixpoint psteps (ts : list token) (st : pstate) : res pstate :=
  match ts with
  | [] => Ok st
  | t :: ts' => rlet st1 := pstep st t in psteps ts' st1
  end.

Definition pinit : pstate := mkPstate [] (mkFrame [] [] 0) 0 false.

(** A compiled expression and its number of groups. *)
Record regexp := mkRegexp { re_prog : re; re_groups : nat }.

(** regexp.Compile *)
Definition compile (pattern : bytes) : res regexp :=
  if negb (valid_utf8 pattern) then Err (EMsg "invalid UTF-8")
  else
    rlet ts := lex (runes pattern) 0 in
    rlet st := psteps ts pinit in
    match ps_outer st with
    | [] => Ok (mkRegexp (close_frame (ps_top st)) (ps_caps st))
    | _ :: _ => Err (EMsg "missing closing )")
    end.

(** *** Matching *)

(** Where a match stands: characters consumed, characters left, groups. *)
Record mstate := mkMstate { ms_pos : nat; ms_rest : list (Z * bytes); ms_caps : list (nat * bytes) }.

Definition in_set (neg : bool) (ranges : list (Z * Z)) (c : Z) : bool :=
  xorb neg (existsb (fun r : Z * Z => (fst r <=? c) && (c <=? snd r)) ranges).

Definition raw (cs : list (Z * bytes)) : bytes := flat_map snd cs.

Fixpoint set_cap (caps : list (nat * bytes)) (i : nat) (s : bytes) : list (nat * bytes) :=
  match caps with
  | [] => [(i, s)]
  | (j, t) :: caps' => if Nat.eqb i j then (i, s) :: caps' else (j, t) :: set_cap caps' i s
  end.
Fixpoint get_cap (caps : list (nat * bytes)) (i : nat) : bytes :=
  match caps with
  | [] => []
  | (j, t) :: caps' => if Nat.eqb i j then t else get_cap caps' i
  end.

(** Repeats [step] while it makes progress. *)
Fixpoint iterate (step : mstate -> list mstate) (greedy : bool) (fuel : nat) (st : mstate) : list mstate :=
  match fuel with
  | O => [st]
  | S fuel' =>
    let more := flat_map (fun st' => if Nat.eqb (ms_pos st') (ms_pos st) then [] else iterate step greedy fuel' st') (step st) in
    if greedy then more ++ [st] else st :: more
  end.

(** All the ways to match, the preferred ones first ("leftmost-first", as a
    backtracking matcher would find them). *)
Fixpoint run (r : re) (st : mstate) : list mstate :=
  match r with
  | REmpty => [st]
  | RSet neg l =>
    match ms_rest st with
    | [] => []
    | (c, b) :: rest => if in_set neg l c then [mkMstate (S (ms_pos st)) rest (ms_caps st)] else []
    end
  | RBegin => if Nat.eqb (ms_pos st) 0 then [st] else []
  | REnd => match ms_rest st with [] => [st] | _ :: _ => [] end
  | RCat a b => flat_map (run b) (run a st)
  | RAlt a b => run a st ++ run b st
  | RRep k greedy a =>
    match k with
    | Star => iterate (run a) greedy (List.length (ms_rest st)) st
    | Plus => flat_map (fun st' => iterate (run a) greedy (List.length (ms_rest st')) st') (run a st)
    | Quest => if greedy then run a st ++ [st] else st :: run a st
    end
  | RGroup i a =>
    map (fun st' => mkMstate (ms_pos st') (ms_rest st')
                      (set_cap (ms_caps st') i (raw (firstn (ms_pos st' - ms_pos st) (ms_rest st))))) (run a st)
  end.

(** regexp.FindStringSubmatch: the first match of the leftmost position; the
    groups, without the whole match. *)
Fixpoint search_from (r : re) (pos : nat) (rest : list (Z * bytes)) : option mstate :=
  match run r (mkMstate pos rest []) with
  | st :: _ => Some st
  | [] => match rest with [] => None | _ :: rest' => search_from r (S pos) rest' end
  end.
Definition find_submatch (r : regexp) (s : bytes) : option (list bytes) :=
  match search_from (re_prog r) 0 (chars s) with
  | Some st => Some (map (fun i => get_cap (ms_caps st) (S i)) (seq 0 (re_groups r)))
  | None => None
  end.

(** regexp.QuoteMeta *)
Definition is_special (b : byte) : bool :=
  existsb (Z.eqb (Z_of_byte b)) [92; 46; 43; 42; 63; 40; 41; 124; 91; 93; 123; 125; 94; 36].
Definition quote_meta (s : bytes) : bytes := flat_map (fun b => if is_special b then [x5c; b] else [b]) s.
