(** XML files in which every element is closed. *)
From Coq Require Import List ZArith Bool String.
From Coq Require Import Strings.Byte.
From Verif Require Import Base XmlStream SpecXml.
Import ListNotations.

(** Each end tag closes the element that was opened last, and all elements are
    closed at the end; [stk]: the names of the open elements. *)
Inductive nested : list bytes -> list rawtok -> Prop :=
| nested_end : nested [] []
| nested_start stk n a rest : nested (n :: stk) rest -> nested stk (RStart n a :: rest)
| nested_close stk n rest : nested stk rest -> nested (n :: stk) (REnd n :: rest)
| nested_void stk n a rest : nested stk rest -> nested stk (RVoid n a :: rest)
| nested_text stk s rest : nested stk rest -> nested stk (RText s :: rest)
| nested_comment stk s rest : nested stk rest -> nested stk (RComment s :: rest)
| nested_directive stk s rest : nested stk rest -> nested stk (RDirective s :: rest).

(** A heading, with declarations, then elements which are closed. *)
Definition closed_elements (toks : list rawtok) : Prop :=
  exists hd body, toks = hd ++ body /\ Forall heading hd /\ nested [] body.
