(** Specification of the decoding of JSON: the texts that are accepted, which are those of
    RFC 8259 (SpecJson.v) and a few more, and the Go values of JSON data. *)
From Coq Require Import List ZArith Bool String Permutation.
From Coq Require Import Strings.Byte Floats.SpecFloat.
From Verif Require Import Base Codec Value GoStrings SpecText SpecJson SpecJsonFile FloatText.
Import ListNotations.
Open Scope Z_scope.

(** One character of a string.  A byte that is not valid UTF-8, or an escape sequence of
    half a surrogate pair, counts as U+FFFD. *)
Definition lcharacter (s : bytes) : option (Z * bytes) :=
  match s with
  | x5c :: x75 :: r =>
    match hex4 r with
    | None => None
    | Some (u, r1) =>
      match character s with
      | Some cr => Some cr
      | None => Some (65533, r1)
      end
    end
  | x5c :: _ => character s
  | b :: r =>
    if (Z_of_byte b <? 32) || beqb b x22 then None
    else match character s with Some cr => Some cr | None => Some (65533, r) end
  | [] => None
  end.
Fixpoint lcharacters (fuel : nat) (s : bytes) : option (list Z * bytes) :=
  match fuel with
  | O => None
  | S fuel' =>
    match s with
    | x22 :: r => Some ([], r)
    | _ =>
      match lcharacter s with
      | None => None
      | Some (c, r) => match lcharacters fuel' r with None => None | Some (cs, r') => Some (c :: cs, r') end
      end
    end
  end.

(** As in SpecJson.v, with these strings. *)
Fixpoint lvalue (fuel : nat) (s : bytes) : option (json * bytes) :=
  match fuel with
  | O => None
  | S fuel' =>
    match skip_ws s with
    | [] => None
    | c :: r =>
      match c with
      | x6e => keyword (lit "ull") r JNull
      | x74 => keyword (lit "rue") r (JBool true)
      | x66 => keyword (lit "alse") r (JBool false)
      | x22 => match lcharacters fuel' r with Some (cs, r') => Some (JStr cs, r') | None => None end
      | x5b =>
        match skip_ws r with
        | x5d :: r' => Some (JArr [], r')
        | _ => match litems fuel' r with Some (l, r') => Some (JArr l, r') | None => None end
        end
      | x7b =>
        match skip_ws r with
        | x7d :: r' => Some (JObj [], r')
        | _ => match lmembers fuel' r with Some (m, r') => Some (JObj m, r') | None => None end
        end
      | _ => match number (c :: r) with Some (t, r) => Some (JNum t, r) | None => None end
      end
    end
  end
with litems (fuel : nat) (s : bytes) : option (list json * bytes) :=
  match fuel with
  | O => None
  | S fuel' =>
    match lvalue fuel' s with
    | None => None
    | Some (j, r) =>
      match skip_ws r with
      | x5d :: r' => Some ([j], r')
      | x2c :: r' => match litems fuel' r' with Some (l, r'') => Some (j :: l, r'') | None => None end
      | _ => None
      end
    end
  end
with lmembers (fuel : nat) (s : bytes) : option (list (list Z * json) * bytes) :=
  match fuel with
  | O => None
  | S fuel' =>
    match skip_ws s with
    | x22 :: r =>
      match lcharacters fuel' r with
      | None => None
      | Some (k, r1) =>
        match skip_ws r1 with
        | x3a :: r2 =>
          match lvalue fuel' r2 with
          | None => None
          | Some (j, r3) =>
            match skip_ws r3 with
            | x7d :: r' => Some ([(k, j)], r')
            | x2c :: r' => match lmembers fuel' r' with Some (m, r'') => Some ((k, j) :: m, r'') | None => None end
            | _ => None
            end
          end
        | _ => None
        end
      end
    | _ => None
    end
  end.

(** [b] is accepted as a text for [j]. *)
Definition accepted_text (b : bytes) (j : json) : Prop :=
  exists fuel r, lvalue fuel b = Some (j, r) /\ skip_ws r = [] /\ jdepth j <= 10000.

(** The Go value of the data: a number is the float64 of its text (C61 says which one), the
    last of several members with the same name counts. *)
Inductive represents : json -> value -> Prop :=
| rep_null : represents JNull VNil
| rep_bool b : represents (JBool b) (VBool b)
| rep_num t f : go_parse_float t = Ok f -> represents (JNum t) (VFloat f)
| rep_str cs : represents (JStr cs) (VString (text cs))
| rep_arr js l : Forall2 represents js l -> represents (JArr js) (VList l)
| rep_obj ms m : NoDup (map fst m) -> (forall k, In k (map fst m) <-> In k (map (fun kj => text (fst kj)) ms)) ->
    (forall k v, In (k, v) m -> exists before name j after, ms = before ++ (name, j) :: after /\ text name = k /\
       ~ In k (map (fun kj => text (fst kj)) after) /\ represents j v) ->
    represents (JObj ms) (VMap m).

(** Some number in it is too large for a float64. *)
Inductive out_of_range : json -> Prop :=
| oor_num t e : go_parse_float t = Err e -> out_of_range (JNum t)
| oor_arr l j : In j l -> out_of_range j -> out_of_range (JArr l)
| oor_obj m k j : In (k, j) m -> out_of_range j -> out_of_range (JObj m).

(** The same data: texts of numbers may differ as long as they give the same float64, members
    may be in another order. *)
Inductive same_data : json -> json -> Prop :=
| same_null : same_data JNull JNull
| same_bool b : same_data (JBool b) (JBool b)
| same_num t t' f : go_parse_float t = Ok f -> go_parse_float t' = Ok f -> same_data (JNum t) (JNum t')
| same_str cs : same_data (JStr cs) (JStr cs)
| same_arr l l' : Forall2 same_data l l' -> same_data (JArr l) (JArr l')
| same_obj m m' m1 : Permutation m' m1 -> Forall2 (fun a b => fst a = fst b /\ same_data (snd a) (snd b)) m m1 -> same_data (JObj m) (JObj m').

(** No object has two members with the same name. *)
Inductive distinct_names : json -> Prop :=
| dn_null : distinct_names JNull
| dn_bool b : distinct_names (JBool b)
| dn_num t : distinct_names (JNum t)
| dn_str cs : distinct_names (JStr cs)
| dn_arr l : Forall distinct_names l -> distinct_names (JArr l)
| dn_obj m : NoDup (map fst m) -> Forall (fun kj => distinct_names (snd kj)) m -> distinct_names (JObj m).
