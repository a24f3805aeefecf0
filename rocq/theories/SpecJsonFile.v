(** Specification of the JSON input. *)
From Coq Require Import List ZArith Bool.
From Coq Require Import Strings.Byte.
From Verif Require Import Base Value SpecJson Prog JsonReader.
Import ListNotations.
Open Scope Z_scope.

Fixpoint jdepth (j : json) : Z :=
  match j with
  | JArr l => 1 + fold_right Z.max 0 (map jdepth l)
  | JObj m => 1 + fold_right Z.max 0 (map (fun kj : list Z * json => jdepth (snd kj)) m)
  | _ => 0
  end.

(** A JSON object (RFC 8259), without spaces around it, nested at most 10000
    times. *)
Definition document (t : bytes) : Prop :=
  exists fuel m r, t = x7b :: r /\ jvalue fuel t = Some (JObj m, []) /\ jdepth (JObj m) <= 10000.

(** [documents pos docs text]: the text, found at the position [pos], consists of
    these documents at these positions, with spaces before, between and after. *)
Inductive documents : Z -> list (Z * bytes) -> bytes -> Prop :=
| docs_end pos ws : forallb is_ws ws = true -> documents pos [] ws
| docs_more pos ws t docs text : forallb is_ws ws = true -> document t ->
    documents (pos + zlen ws + zlen t) docs text -> documents pos ((pos + zlen ws, t) :: docs) (ws ++ t ++ text).

(** Texts with anything between spaces; the end starts with [tail]. *)
Inductive pieces : Z -> list (Z * bytes) -> bytes -> bytes -> Prop :=
| pieces_end pos ws tail : forallb is_ws ws = true -> pieces pos [] tail (ws ++ tail)
| pieces_more pos ws t ps tail text : forallb is_ws ws = true -> t <> [] ->
    pieces (pos + zlen ws + zlen t) ps tail text -> pieces pos ((pos + zlen ws, t) :: ps) tail (ws ++ t ++ text).
