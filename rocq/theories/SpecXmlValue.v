(** The values of the properties of an XML record in which no object is missing. *)
From Coq Require Import List ZArith Bool String.
From Coq Require Import Strings.Byte Floats.SpecFloat.
From Verif Require Import Base Value Parser Records.
Import ListNotations.

Section Values.
(** The nodes of records; the XPaths that select nodes, and those that compute values. *)
Variable node : Type.
Variable query : node -> bytes -> list node.
Variable evaluate : node -> bytes -> xresult.
Variable int_of_float : spec_float -> Z.
(** What a parser is, and what it makes of a text. *)
Variable typed : bytes -> xparser -> Prop.
Variable cell : bytes -> parser_fun.

Inductive node_value : node -> xprop -> value -> Prop :=
| nv_text n name xpath parser s v : evaluate n xpath = XString s -> cell parser s = Ok v -> node_value n (XPrimitive name xpath parser) v
| nv_float n name xpath parser f : evaluate n xpath = XNumber f -> typed parser XPFloat -> node_value n (XPrimitive name xpath parser) (VFloat f)
| nv_integer n name xpath parser f : evaluate n xpath = XNumber f -> typed parser XPInteger -> node_value n (XPrimitive name xpath parser) (VInt (int_of_float f))
| nv_boolean n name xpath parser b : evaluate n xpath = XBool b -> typed parser XPBoolean -> node_value n (XPrimitive name xpath parser) (VBool b)
| nv_xml n name xpath parser texts : evaluate n xpath = XNodes texts -> typed parser XPString -> node_value n (XPrimitive name xpath parser) (VString (List.concat texts))
| nv_array n name xpath items l : Forall2 (fun n' v => node_value n' items v) (query n xpath) l -> node_value n (XArray name xpath items) (VList l)
| nv_object n name xpath props n' vs : query n xpath = [n'] -> Forall2 (fun c v => node_value n' c v) props vs ->
    node_value n (XObject name xpath props) (VMap (combine (map x_name props) vs)).

(** The row of a table for a record. *)
Definition node_row (n : node) (props : list xprop) (a : list (bytes * value)) : Prop :=
  exists vs, a = combine (map x_name props) vs /\ Forall2 (node_value n) props vs.
End Values.
