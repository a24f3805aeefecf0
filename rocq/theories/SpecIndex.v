(** What an index lookup is supposed to return. *)
From Coq Require Import List ZArith Bool Sorted.
From Coq Require Import Floats.SpecFloat.
From Verif Require Import Base Value.
Import ListNotations.
Open Scope Z_scope.

(** Strict equality of primitive values: same type and same contents; the two
    zeros are equal and NaN is equal to nothing. *)
Inductive same_value : value -> value -> Prop :=
| same_nil : same_value VNil VNil
| same_bool b : same_value (VBool b) (VBool b)
| same_int z : same_value (VInt z) (VInt z)
| same_string s : same_value (VString s) (VString s)
| same_float f : f <> S754_nan -> same_value (VFloat f) (VFloat f)
| same_zero s s' : same_value (VFloat (S754_zero s)) (VFloat (S754_zero s')).

Definition primitive (v : value) : Prop :=
  match v with VList _ | VMap _ => False | _ => True end.

(** The record [r] satisfies all the filters. *)
Definition satisfies (filters : list (bytes * value)) (r : rec) : Prop :=
  Forall (fun f => exists v, r_get r (fst f) = Ok v /\ same_value v (snd f)) filters.

(** What an index finds: the values that it can be asked for; and the rows that are found
    by asking for a value under a name, a row being given by the values that it has,
    [has p x]: [x] is its property [p]. *)
Record search := mkSearch { s_accepts : value -> Prop; s_finds : (bytes -> value -> Prop) -> bytes -> value -> Prop }.
(** The property of this name compares to the value. *)
Definition property_is (same : value -> value -> Prop) (has : bytes -> value -> Prop) (p : bytes) (f : value) : Prop :=
  exists v, has p v /\ same v f.
Definition equality : search := mkSearch primitive (property_is same_value).
Definition has_property (r : rec) (p : bytes) (v : value) : Prop := r_get r p = Ok v.
Definition found_by (S : search) (filters : list (bytes * value)) (r : rec) : Prop :=
  Forall (fun f => s_finds S (has_property r) (fst f) (snd f)) filters.

(** [l] holds the positions of the records satisfying [P], in the order of
    the records, once per record. *)
Inductive selected (P : rec -> Prop) : list rec -> list Z -> Prop :=
| sel_nil : selected P [] []
| sel_keep r rs l : P r -> selected P rs l -> selected P (r :: rs) (r_pos r :: l)
| sel_drop r rs l : ~ P r -> selected P rs l -> selected P (r :: rs) l.

(** The properties [props] of all the records can be read and are primitive. *)
Definition readable (props : list bytes) (rs : list rec) : Prop :=
  Forall (fun r => Forall (fun p => exists v, r_get r p = Ok v /\ primitive v) props) rs.

(** The filters can be compared with the records: the properties can be read,
    and no array or object is compared with another one. *)
Definition comparable (filters : list (bytes * value)) (rs : list rec) : Prop :=
  Forall (fun r => Forall (fun f => exists v, r_get r (fst f) = Ok v /\ (primitive v \/ primitive (snd f))) filters) rs.

(** File order: positions are increasing. *)
Definition in_file_order (rs : list rec) : Prop := StronglySorted Z.lt (map r_pos rs).
