(** What regular expressions mean, and what it means to divide a text with one. *)
From Coq Require Import List ZArith Bool.
From Verif Require Import Base GoStrings Regex.
Import ListNotations.

(** The language of an expression without anchors, over characters. *)
Inductive matches : re -> list Z -> Prop :=
| m_empty : matches REmpty []
| m_set neg l c : in_set neg l c = true -> matches (RSet neg l) [c]
| m_cat a b u v : matches a u -> matches b v -> matches (RCat a b) (u ++ v)
| m_left a b u : matches a u -> matches (RAlt a b) u
| m_right a b u : matches b u -> matches (RAlt a b) u
| m_star_nil g a : matches (RRep Star g a) []
| m_star_cons g a u v : u <> [] -> matches a u -> matches (RRep Star g a) v -> matches (RRep Star g a) (u ++ v)
| m_plus g a u v : matches a u -> matches (RRep Star g a) v -> matches (RRep Plus g a) (u ++ v)
| m_quest_none g a : matches (RRep Quest g a) []
| m_quest_some g a u : matches a u -> matches (RRep Quest g a) u
| m_group i a u : matches a u -> matches (RGroup i a) u.

Fixpoint unanchored (r : re) : bool :=
  match r with
  | REmpty | RSet _ _ => true
  | RBegin | REnd => false
  | RCat a b | RAlt a b => unanchored a && unanchored b
  | RRep _ _ a | RGroup _ a => unanchored a
  end.

(** Text that begins with a word of the language. *)
Definition begins (L : list Z -> Prop) (u : list Z) : Prop := exists v w, u = v ++ w /\ L v.

(** The pieces of a text between the delimiters: the first delimiter is at the first place where
    there is one, and the rest is divided after it. *)
Inductive divided (L : list Z -> Prop) : bytes -> list bytes -> Prop :=
| div_last s : (forall a b, runes s = a ++ b -> ~ begins L b) -> divided L s [s]
| div_cut p d s l : runes (p ++ d ++ s) = runes p ++ runes d ++ runes s -> L (runes d) ->
    (forall a b, runes (p ++ d ++ s) = a ++ b -> (List.length a < List.length (runes p))%nat -> ~ begins L b) ->
    divided L s l -> divided L (p ++ d ++ s) (p :: l).

(** Pieces with delimiters between them. *)
Fixpoint weave (pieces delims : list bytes) : bytes :=
  match pieces, delims with
  | p :: pieces', d :: delims' => p ++ d ++ weave pieces' delims'
  | p :: pieces', [] => p ++ weave pieces' []
  | [], _ => []
  end.
