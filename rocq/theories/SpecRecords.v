(** What reading a property of a record means. *)
From Coq Require Import List ZArith Bool String.
From Coq Require Import Strings.Byte.
From Verif Require Import Base Value SpecText Records.
Import ListNotations.
Open Scope Z_scope.

(** [r] is what stands at the path [p] of the value [v]: members of objects and
    items of arrays in turn, null where one is missing. *)
Inductive at_path : value -> list bytes -> value -> Prop :=
| ap_here v : at_path v [] v
| ap_key m k v p r : mget m k = Some v -> at_path v p r -> at_path (VMap m) (k :: p) r
| ap_no_key m k p : ~ In k (map fst m) -> at_path (VMap m) (k :: p) VNil
| ap_item l k i v p r : signed_decimal k i -> in_i64 i -> 0 <= i -> nth_error l (Z.to_nat i) = Some v -> at_path v p r -> at_path (VList l) (k :: p) r
| ap_no_item l k i p : signed_decimal k i -> in_i64 i -> zlen l <= i -> at_path (VList l) (k :: p) VNil.

(** The path is [segs] separated by dots. *)
Definition dotted (path : bytes) (segs : list bytes) : Prop := path <> [] /\ pieces [x2e] path segs.

(** No segment of the path is a negative number. *)
Definition no_negative (segs : list bytes) : Prop := forall k i, In k segs -> signed_decimal k i -> 0 <= i.

(** The names of the properties of an object are different, at every level, as
    asked by the validation. *)
Inductive well_named : xprop -> Prop :=
| wn_primitive n x p : well_named (XPrimitive n x p)
| wn_array n x c : well_named c -> well_named (XArray n x c)
| wn_object n x props : NoDup (map x_name props) -> (forall c, In c props -> well_named c) -> well_named (XObject n x props).

(** The value of the cell of a column: null beyond the end of the row. *)
Definition cell_value (row : list bytes) (i : nat) (p : parser_fun) (v : value) : Prop :=
  match nth_error row i with None => v = VNil | Some cell => p cell = Ok v end.
