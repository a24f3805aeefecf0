(** Specification of XML files whose records follow each other (C57, C38). *)
From Coq Require Import List ZArith Bool String.
From Coq Require Import Strings.Byte.
From Verif Require Import Base XmlStream.
Import ListNotations.
Open Scope nat_scope.

(** The tokens a tree is written as. *)
Inductive written : xtree -> list rawtok -> Prop :=
| written_elem n a kids toks : writtens kids toks -> written (XElem n a kids) (RStart n a :: toks ++ [REnd n])
| written_void n a : written (XElem n a []) [RVoid n a]
| written_text s : written (XText s) [RText s]
| written_comment s : written (XComment s) [RComment s]
with writtens : list xtree -> list rawtok -> Prop :=
| writtens_nil : writtens [] []
| writtens_cons t toks ts tokss : written t toks -> writtens ts tokss -> writtens (t :: ts) (toks ++ tokss).

(** No element of that name. *)
Fixpoint without (name : bytes) (t : xtree) : Prop :=
  match t with
  | XElem n _ kids => n <> name /\ fold_right (fun k P => without name k /\ P) True kids
  | _ => True
  end.

(** The beginning of a document: declarations, directives, texts and comments ... *)
Definition heading (t : rawtok) : Prop :=
  match t with RProc _ recode => recode = false | RDirective _ | RText _ | RComment _ => True | _ => False end.

(** ... then elements, those around the records stay open. *)
Inductive opening (name : bytes) : list rawtok -> Prop :=
| opening_end : opening name []
| opening_tree t toks rest : written t toks -> without name t -> opening name rest -> opening name (toks ++ rest)
| opening_elem n a rest : n <> name -> opening name rest -> opening name (RStart n a :: rest).

(** The records called [name], with what is written before each of them: between two records,
    only complete elements, texts and comments. *)
Inductive listed (name : bytes) : list (list rawtok * xtree) -> list rawtok -> Prop :=
| listed_end : listed name [] []
| listed_record gap gaptoks a kids toks rest resttoks :
    writtens gap gaptoks -> Forall (without name) gap -> written (XElem name a kids) toks -> listed name rest resttoks ->
    listed name ((gaptoks ++ toks, XElem name a kids) :: rest) (gaptoks ++ toks ++ resttoks).

(** What may follow the last record. *)
Definition ending (name : bytes) (t : rawtok) : Prop :=
  match t with RStart n _ | RVoid n _ => n <> name | RProc _ recode => recode = false | _ => True end.

(** A file with a heading, an opening, a list of records, and an ending without
    records. *)
Inductive flat (name : bytes) : list (list rawtok * xtree) -> list rawtok -> Prop :=
| flat_none hd op post : Forall heading hd -> opening name op -> Forall (ending name) post -> flat name [] (hd ++ op ++ post)
| flat_some hd op gap t recs body post : Forall heading hd -> opening name op -> listed name ((gap, t) :: recs) body -> Forall (ending name) post ->
    flat name ((hd ++ op ++ gap, t) :: recs) (hd ++ op ++ body ++ post).

(** Where each record begins: at the end of the one before it. *)
Fixpoint places (file : xfile) (i : nat) (recs : list (list rawtok * xtree)) : list (Z * xtree) :=
  match recs with
  | [] => []
  | (toks, t) :: recs' => (xoffset file i, t) :: places file (i + List.length toks) recs'
  end.
