(** JSON texts (RFC 8259), independently of the encoder: a reference parser
    and the relation between JSON data and Go values. *)
From Coq Require Import List ZArith Bool String Permutation.
From Coq Require Import Strings.Byte Floats.SpecFloat.
From Verif Require Import Base Codec Value GoStrings SpecText.
Import ListNotations.
Open Scope Z_scope.

Inductive json :=
| JNull
| JBool (b : bool)
| JNum (t : bytes)
| JStr (cs : list Z) (* code points *)
| JArr (l : list json)
| JObj (m : list (list Z * json)).

Definition is_ws (b : byte) : bool := match b with x20 | x09 | x0a | x0d => true | _ => false end.
Fixpoint skip_ws (s : bytes) : bytes :=
  match s with
  | b :: s' => if is_ws b then skip_ws s' else s
  | [] => []
  end.

(** number = [ minus ] int [ frac ] [ exp ] *)
Fixpoint digits (s : bytes) : bytes * bytes :=
  match s with
  | b :: s' => if is_digit b then let '(d, r) := digits s' in (b :: d, r) else ([], s)
  | [] => ([], [])
  end.
Definition num_int (s : bytes) : option (bytes * bytes) :=
  match s with
  | x30 :: r => Some ([x30], r)
  | _ => match digits s with ([], _) => None | dr => Some dr end
  end.
Definition num_frac (s : bytes) : option (bytes * bytes) :=
  match s with
  | x2e :: r => match digits r with ([], _) => None | (d, r') => Some (x2e :: d, r') end
  | _ => Some ([], s)
  end.
Definition num_exp (s : bytes) : option (bytes * bytes) :=
  match s with
  | (x45 | x65) as e :: r =>
    let '(sg, r1) := match r with (x2b | x2d) as c :: r1 => ([c], r1) | _ => ([], r) end in
    match digits r1 with ([], _) => None | (d, r') => Some (e :: sg ++ d, r') end
  | _ => Some ([], s)
  end.
Definition number (s : bytes) : option (bytes * bytes) :=
  let '(sg, s1) := match s with x2d :: r => ([x2d], r) | _ => ([], s) end in
  match num_int s1 with
  | None => None
  | Some (i, s2) =>
    match num_frac s2 with
    | None => None
    | Some (f, s3) =>
      match num_exp s3 with
      | None => None
      | Some (e, s4) => Some (sg ++ i ++ f ++ e, s4)
      end
    end
  end.

Definition hex_val (b : byte) : option Z :=
  let z := Z_of_byte b in
  if (48 <=? z) && (z <=? 57) then Some (z - 48)
  else if (97 <=? z) && (z <=? 102) then Some (z - 87)
  else if (65 <=? z) && (z <=? 70) then Some (z - 55) else None.
Definition hex4 (s : bytes) : option (Z * bytes) :=
  match s with
  | a :: b :: c :: d :: r =>
    match hex_val a, hex_val b, hex_val c, hex_val d with
    | Some a, Some b, Some c, Some d => Some (((a * 16 + b) * 16 + c) * 16 + d, r)
    | _, _, _, _ => None
    end
  | _ => None
  end.

(** One character of a string: unescaped (anything but the quote, the
    backslash and control characters, in valid UTF-8) or an escape sequence. *)
Definition character (s : bytes) : option (Z * bytes) :=
  match s with
  | [] => None
  | x5c :: x22 :: r => Some (34, r)
  | x5c :: x5c :: r => Some (92, r)
  | x5c :: x2f :: r => Some (47, r)
  | x5c :: x62 :: r => Some (8, r)
  | x5c :: x66 :: r => Some (12, r)
  | x5c :: x6e :: r => Some (10, r)
  | x5c :: x72 :: r => Some (13, r)
  | x5c :: x74 :: r => Some (9, r)
  | x5c :: x75 :: r =>
    match hex4 r with
    | None => None
    | Some (u, r1) =>
      if (55296 <=? u) && (u <=? 56319) then
        match r1 with
        | x5c :: x75 :: r2 =>
          match hex4 r2 with
          | Some (v, r3) =>
            if (56320 <=? v) && (v <=? 57343) then Some (65536 + (u - 55296) * 1024 + (v - 56320), r3) else None
          | None => None
          end
        | _ => None
        end
      else if (56320 <=? u) && (u <=? 57343) then None
      else Some (u, r1)
    end
  | b :: _ =>
    if (Z_of_byte b <? 32) || beqb b x22 || beqb b x5c then None
    else let '(c, w) := decode_rune s in
    if (c =? rune_error) && Nat.eqb w 1 then None else Some (c, skipn w s)
  end.

(** The characters of a string, up to the closing quote. *)
Fixpoint characters (fuel : nat) (s : bytes) : option (list Z * bytes) :=
  match fuel with
  | O => None
  | S fuel' =>
    match s with
    | x22 :: r => Some ([], r)
    | _ =>
      match character s with
      | None => None
      | Some (c, r) =>
        match characters fuel' r with
        | None => None
        | Some (cs, r') => Some (c :: cs, r')
        end
      end
    end
  end.

(** The rest of null, true or false. *)
Definition keyword (k r : bytes) (j : json) : option (json * bytes) :=
  if has_prefix k r then Some (j, skipn (List.length k) r) else None.

(** A value, and what follows it. *)
Fixpoint jvalue (fuel : nat) (s : bytes) : option (json * bytes) :=
  match fuel with
  | O => None
  | S fuel' =>
    match skip_ws s with
    | [] => None
    | c :: r =>
      match c with
      | x6e => keyword (lit "ull") r JNull
      | x74 => keyword (lit "rue") r (JBool true)
      | x66 => keyword (lit "alse") r (JBool false)
      | x22 => match characters fuel' r with Some (cs, r') => Some (JStr cs, r') | None => None end
      | x5b =>
        match skip_ws r with
        | x5d :: r' => Some (JArr [], r')
        | _ => match jitems fuel' r with Some (l, r') => Some (JArr l, r') | None => None end
        end
      | x7b =>
        match skip_ws r with
        | x7d :: r' => Some (JObj [], r')
        | _ => match jmembers fuel' r with Some (m, r') => Some (JObj m, r') | None => None end
        end
      | _ => match number (c :: r) with Some (t, r) => Some (JNum t, r) | None => None end
      end
    end
  end
with jitems (fuel : nat) (s : bytes) : option (list json * bytes) :=
  match fuel with
  | O => None
  | S fuel' =>
    match jvalue fuel' s with
    | None => None
    | Some (j, r) =>
      match skip_ws r with
      | x5d :: r' => Some ([j], r')
      | x2c :: r' => match jitems fuel' r' with Some (l, r'') => Some (j :: l, r'') | None => None end
      | _ => None
      end
    end
  end
with jmembers (fuel : nat) (s : bytes) : option (list (list Z * json) * bytes) :=
  match fuel with
  | O => None
  | S fuel' =>
    match skip_ws s with
    | x22 :: r =>
      match characters fuel' r with
      | None => None
      | Some (k, r1) =>
        match skip_ws r1 with
        | x3a :: r2 =>
          match jvalue fuel' r2 with
          | None => None
          | Some (j, r3) =>
            match skip_ws r3 with
            | x7d :: r' => Some ([(k, j)], r')
            | x2c :: r' => match jmembers fuel' r' with Some (m, r'') => Some ((k, j) :: m, r'') | None => None end
            | _ => None
            end
          end
        | _ => None
        end
      end
    | _ => None
    end
  end.

(** [b] is a complete JSON text for [j]. *)
Definition json_text (b : bytes) (j : json) : Prop :=
  exists fuel r, jvalue fuel b = Some (j, r) /\ skip_ws r = [].

(** A number, alone. *)
Definition number_text (b : bytes) : Prop := number b = Some (b, []).

(** Not NaN nor an infinity. *)
Definition is_number (f : spec_float) : bool :=
  match f with S754_nan | S754_infinity _ => false | _ => true end.

Section Denotes.
(** The text of each float. *)
Variable float_text : spec_float -> bytes.

(** The JSON data represents the Go value: members in any order; the bytes of a
    string which are not valid UTF-8 are replaced by U+FFFD ([runes]). *)
Inductive denotes : json -> value -> Prop :=
| den_null : denotes JNull VNil
| den_bool b : denotes (JBool b) (VBool b)
| den_int z : denotes (JNum (dec_text z)) (VInt z)
| den_float f : is_number f = true -> denotes (JNum (float_text f)) (VFloat f)
| den_string s : denotes (JStr (runes s)) (VString s)
| den_list js l : Forall2 denotes js l -> denotes (JArr js) (VList l)
| den_map ms ms' m : Permutation ms ms' ->
    Forall2 (fun a b => fst a = runes (fst b) /\ denotes (snd a) (snd b)) ms' m -> denotes (JObj ms) (VMap m).
End Denotes.
