(** Inputs of type xml: pkg/input/xml.go with the records of xml_record.go. *)
From Coq Require Import List ZArith Bool String.
From Coq Require Import Strings.Byte Floats.SpecFloat.
From Verif Require Import XmlStream.
From Verif Require Import Base Value Records Prog Join Output.
Import ListNotations.
Open Scope Z_scope.

(** A node of a record: the record and the place of the node in it. *)
Definition xnode : Type := (xtree * list nat)%type.

(** The packages encoding/xml, xmlquery and xpath: the tokens of a text with their
    lengths, how far a charset reader reads in advance, the nodes that an XPath selects and
    the value that it has, seen from a node (both do not leave the record, [simplified]: in
    the code they can, through the parent of a record), and the conversion
    int64(float64); and the shared parser of each input when it is used. *)
Record xml_package := mkXmlPackage {
  xml_tokens : bytes -> xfile;
  xml_ahead : nat;
  xml_query : xnode -> bytes -> list xnode;
  xml_evaluate : xnode -> bytes -> xresult;
  xml_integer : spec_float -> Z;
  xml_state : bytes -> xpstate;
}.

(** The steps of an XPath of names separated by / and //; [open]: whether a step has
    begun, and with //. *)
Fixpoint xpath_steps (s : bytes) (open : option bool) (name : bytes) : xpattern :=
  match s with
  | [] => match open with Some any => [(any, rev name)] | None => [] end
  | c :: s' =>
    if Byte.eqb c "/" then
      match open, name with
      | None, _ => xpath_steps s' (Some false) []
      | Some false, [] => xpath_steps s' (Some true) []
      | Some any, _ => (any, rev name) :: xpath_steps s' (Some false) []
      end
    else xpath_steps s' open (c :: name)
  end.
Definition xpath_pattern (xpath : bytes) : xpattern := xpath_steps xpath None [].

(** pkg/input/xml.go:87-170 *)
Definition xml_input (p : xml_package) (name text : bytes) (mtime : res Z) (parsers : list (bytes * (xparser * parser_fun)))
  (props : list xprop) (xpath : bytes) : input :=
  let file := xml_tokens p text in
  let record (t : xtree) (position : Z) := xml_record xnode (xml_query p) (xml_evaluate p) parsers (xml_integer p) (t, []) props position in
  mkInput name (Ok (zlen text)) mtime
    (map (rmap (fun zt => record (snd zt) (fst zt))) (xml_iterate_all file (xml_ahead p) (xpath_pattern xpath)))
    (fun position => rmap (fun t => record t position) (fst (exec (xml_get_at file (xml_ahead p) (xpath_pattern xpath) position) (xml_state p name)))).
