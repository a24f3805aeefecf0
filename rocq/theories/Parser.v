(** pkg/parser: parsers and comparison of parsed values. *)
From Coq Require Import List ZArith Lia Bool String.
From Coq Require Import Strings.Byte Floats.SpecFloat.
From Verif Require Import Base Codec Value GoStrings.
Import ListNotations.
Open Scope Z_scope.

(** pkg/parser/{string,integer,float,boolean,json,split}_config.go: the fields
    that matter after validation. *)
Inductive pconfig :=
| PString (charset : bytes)
| PInteger (ignore : bytes)
| PFloat (separator ignore : bytes)
| PBoolean (trues falses : list bytes)
| PJson
| PSplit (delimiter : bytes) (is_regexp : bool) (sub : bytes).

(** pkg/parser/*_config.go: Primitive() *)
Definition is_primitive (c : pconfig) : bool :=
  match c with PJson | PSplit _ _ _ => false | _ => true end.

Definition parsers := list (bytes * pconfig).

Section Parse.
(** strconv.ParseFloat, json.Unmarshal into interface{}, the charset decoders
    of golang.org/x/text, and regexp.Split: not modelled, see DESIGN.md. *)
Variable parse_float : bytes -> res spec_float.
Variable json_decode : bytes -> res value.
Variable decode_charset : bytes -> bytes -> res bytes.
Variable regexp_split : bytes -> bytes -> list bytes.

(** pkg/parser/integer.go:38-42 *)
Definition parse_integer (ignore s : bytes) : res value :=
  rlet z := atoi (remove_characters s ignore) in Ok (VInt z).

(** pkg/parser/float.go:40-47 *)
Definition parse_float_value (sep ignore s : bytes) : res value :=
  let s1 := remove_characters s ignore in
  let s2 := if bytes_eqb sep [x2e] then s1 else replace_all s1 sep [x2e] in
  rlet f := parse_float s2 in Ok (VFloat f).

(** pkg/parser/boolean.go:41-50 *)
Definition parse_boolean (trues falses : list bytes) (s : bytes) : res value :=
  if is_in_array s trues then Ok (VBool true)
  else if is_in_array s falses then Ok (VBool false)
  else Err (EMsg "The value was found but is neither declared in trueValues or falseValues.").

(** pkg/parser/string.go:47-59 (sequentially, see Concurrency for C39) *)
Definition parse_string (charset s : bytes) : res value :=
  match charset with
  | [] => Ok (VString s)
  | _ :: _ => rlet s' := decode_charset charset s in Ok (VString s')
  end.

(** pkg/parser/split.go:36-60 for the pieces; the fuel counts nested split
    parsers ([NoFuel]: the recursion does not end, i.e. a stack overflow). *)
Fixpoint parse (fuel : nat) (ps : parsers) (c : pconfig) (s : bytes) : res value :=
  match fuel with
  | O => NoFuel
  | S fuel' =>
    match c with
    | PString charset => parse_string charset s
    | PInteger ignore => parse_integer ignore s
    | PFloat sep ignore => parse_float_value sep ignore s
    | PBoolean t f => parse_boolean t f s
    | PJson => json_decode s
    | PSplit delim is_re sub =>
      let pieces := if is_re then regexp_split delim s else go_split s delim in
      match mget ps sub with
      | None => Err (EMsg "The parser was not found in parser list")
      | Some c' => rlet l := rmapM (parse fuel' ps c') pieces in Ok (VList l)
      end
    end
  end.
End Parse.

(** pkg/parser/split_config.go:35-66 and the other Validate methods: the only
    check on references (names, delimiters etc. are checked in Config.v). *)
Definition split_references_exist (ps : parsers) : bool :=
  forallb (fun p => match snd p with
                    | PSplit _ _ sub => match mget ps sub with Some _ => true | None => false end
                    | _ => true end) ps.

(** *** Comparison *)

(** Go's [<] on strings: lexicographic by bytes. *)
Fixpoint bytes_ltb (a b : bytes) : bool :=
  match a, b with
  | [], [] => false
  | [], _ :: _ => true
  | _ :: _, [] => false
  | x :: a', y :: b' =>
    if beqb x y then bytes_ltb a' b' else Z_of_byte x <? Z_of_byte y
  end.

(** pkg/parser/parser.go:66-119: [None] when equal, [Some true] when less. *)
Definition compare (a b : value) : res (option bool) :=
  match a with
  | VString x =>
    match b with
    | VString y => if bytes_eqb x y then Ok None else Ok (Some (bytes_ltb x y))
    | _ => Err (EMsg "Cannot compare a string")
    end
  | VInt x =>
    match b with
    | VInt y => if x =? y then Ok None else Ok (Some (x <? y))
    | _ => Err (EMsg "Cannot compare an integer")
    end
  | VFloat x =>
    match b with
    | VFloat y => if SFeqb x y then Ok None else Ok (Some (SFltb x y))
    | _ => Err (EMsg "Cannot compare a float")
    end
  | VBool x =>
    match b with
    | VBool y => if Bool.eqb x y then Ok None else Ok (Some (negb x && y))
    | _ => Err (EMsg "Cannot compare a boolean")
    end
  | _ => Err (EMsg "Unhandled type for sorting object")
  end.
