(** What the endpoints are supposed to return. *)
From Coq Require Import List ZArith Bool Permutation Sorted.
From Coq Require Import Strings.Byte.
From Verif Require Import Base Value SpecIndex SpecText Sort SpecOrder Output.
Import ListNotations.
Open Scope Z_scope.

(** Every iteration over a map visits every entry once. *)
Definition order_ok (ord : order) : Prop := forall loc A (l : list A), Permutation l (ord loc A l).

(** The input delivers the records [rs], in file order; each can be read again
    from its position. *)
Definition input_ok (inp : input) (rs : list rec) : Prop :=
  in_iter inp = map Ok rs /\ in_file_order rs /\ (forall r, In r rs -> in_get inp (r_pos r) = Ok r).

(** The index is exact on these properties (see C01, C11, C13); the filters have different
    names. *)
Definition index_exact (S : search) (ix : index) (inp : input) (rs : list rec) (props : list bytes) : Prop :=
  forall fs, fs <> [] -> NoDup (map fst fs) -> Forall (fun f => In (fst f) props /\ s_accepts S (snd f)) fs ->
  exists l, selected (found_by S fs) rs l /\ ix inp fs = Ok (map Ok l).

(** The default index gives every record when there is no filter. *)
Definition default_ok (ix : index) (inp : input) (rs : list rec) : Prop :=
  ix inp [] = Ok (map Ok (map r_pos rs)).

(** [l] are the elements of [rs] satisfying [P], in the same order. *)
Inductive kept {A} (P : A -> Prop) : list A -> list A -> Prop :=
| kept_nil : kept P [] []
| kept_yes r rs l : P r -> kept P rs l -> kept P (r :: rs) (r :: l)
| kept_no r rs l : ~ P r -> kept P rs l -> kept P (r :: rs) l.

(** Everything the record holds, as an object. *)
Definition contents (r : rec) (a : object) : Prop := r_all r = Ok a /\ NoDup (map fst a).

Definition m_parent (m : bytes * bytes * bytes) : bytes := fst (fst m).
Definition m_child (m : bytes * bytes * bytes) : bytes := snd (fst m).
Definition m_index (m : bytes * bytes * bytes) : bytes := snd m.

(** A filter: the index and the property where a value is searched. *)
Definition place : Type := bytes * bytes.
(** [kind]: how the indexes search, by name. *)
Definition selects (kind : bytes -> search) (ts : list (place * value)) (r : rec) : Prop :=
  Forall (fun t => s_finds (kind (fst (fst t))) (has_property r) (snd (fst t)) (snd t)) ts.

Section Embeds.
Variable kind : bytes -> search.
Variable E : env.
(** How related records are arranged for the sort criteria. *)
Variable arrange : list sort_criterion -> list rec -> list rec -> Prop.

(** [v] is what the relationship [c] embeds in a record with contents [data]:
    the related records found by all the match rules, arranged, the first ones
    only, and each with its own relationships. *)
Inductive embeds : relationship -> object -> value -> Prop :=
| embeds_intro c data inp rs fs sel arranged taken items :
    mget (e_inputs E) (rel_input c) = Some inp -> in_iter inp = map Ok rs ->
    Forall2 (fun m f => mget data (m_parent m) = Some (snd f) /\ fst f = (m_index m, m_child m)) (rel_match c) fs ->
    kept (selects kind fs) rs sel ->
    arrange (rel_sort c) sel arranged ->
    taken = (if rel_is_array c then
               if rel_limit c =? 0 then arranged else firstn (Z.to_nat (rel_limit c)) arranged
             else firstn 1 arranged) ->
    Forall2 (fun r d => exists a, contents r a /\ NoDup (map fst d) /\
      (forall name c', In (name, c') (rel_children c) -> exists v, mget d name = Some v /\ embeds c' a v) /\
      (forall k, ~ In k (map fst (rel_children c)) -> mget d k = mget a k)) taken items ->
    embeds c data (if rel_is_array c then VList (map VMap items)
                   else match items with [] => VNil | d :: _ => VMap d end).

(** [d] is the contents [a] of a record with the relationships [rels]. *)
Definition loaded (rels : list (bytes * relationship)) (a d : object) : Prop :=
  NoDup (map fst d) /\
  (forall name c', In (name, c') rels -> exists v, mget d name = Some v /\ embeds c' a v) /\
  (forall k, ~ In k (map fst rels) -> mget d k = mget a k).
End Embeds.

(** Unsorted, or sorted when all the values of each criterion can be
    compared. *)
Definition arranged_spec (cs : list sort_criterion) (l out : list rec) : Prop :=
  (cs = [] -> out = l) /\
  (sortable cs l -> Permutation l out /\ StronglySorted (fun a b => ~ precedes cs b a) out).

(** Relationships that can be loaded for the records [parents]: known inputs
    and exact indexes, at least one match rule, no child property matched twice
    (validation), existing parent properties with values that can be asked for, which are
    not themselves replaced by a relationship. *)
Inductive rels_ok (kind : bytes -> search) (E : env) : list rec -> list (bytes * relationship) -> Prop :=
| rels_ok_intro parents rels :
    NoDup (map fst rels) ->
    (forall name c, In (name, c) rels -> exists inp rs,
      (mget (e_inputs E) (rel_input c) = Some inp /\ input_ok inp rs) /\
      (rel_match c <> [] /\ NoDup (map m_child (rel_match c))) /\
      (forall m, In m (rel_match c) ->
        ~ In (m_parent m) (map fst rels) /\
        (exists ix props, mget (e_indexes E) (m_index m) = Some ix /\ index_exact (kind (m_index m)) ix inp rs props /\
          forall m', In m' (rel_match c) -> m_index m' = m_index m -> In (m_child m') props) /\
        (forall r a, In r parents -> r_all r = Ok a -> exists v, mget a (m_parent m) = Some v /\ s_accepts (kind (m_index m)) v)) /\
      (forall r, In r rs -> exists a, contents r a) /\
      0 <= rel_limit c < two63 /\
      rels_ok kind E rs (rel_children c)) ->
    rels_ok kind E parents rels.

(** *** Requests *)

(** The filters of a request: those of the parameters which are given, with
    the parsed value.  [missing]: what a parameter reads as when absent. *)
Inductive given (kind : bytes -> search) (E : env) (params : list (bytes * bytes)) (missing : option bytes)
  : list (bytes * param) -> list (place * value) -> Prop :=
| given_nil : given kind E params missing [] []
| given_skip name pc pcs fs : mget params name = None -> missing = None ->
    given kind E params missing pcs fs -> given kind E params missing ((name, pc) :: pcs) fs
| given_take name pc pcs fs s parse v :
    (mget params name = Some s \/ mget params name = None /\ missing = Some s) ->
    mget (e_parsers E) (pm_parser pc) = Some parse -> parse s = Ok v -> s_accepts (kind (pm_index pc)) v ->
    given kind E params missing pcs fs -> given kind E params missing ((name, pc) :: pcs) ((pm_index pc, pm_property pc, v) :: fs).

(** The parameters of an endpoint on the records [rs]: every one has its own
    property and index, and the index is exact. *)
Definition params_ok (kind : bytes -> search) (E : env) (inp : input) (rs : list rec) (pcs : list (bytes * param)) : Prop :=
  NoDup (map (fun np => (pm_index (snd np), pm_property (snd np))) pcs) /\
  forall name pc, In (name, pc) pcs ->
    exists ix props, mget (e_indexes E) (pm_index pc) = Some ix /\ index_exact (kind (pm_index pc)) ix inp rs props /\
      forall name' pc', In (name', pc') pcs -> pm_index pc' = pm_index pc -> In (pm_property pc') props.

(** An endpoint on the input [inp] with the records [rs]. *)
Definition endpoint_ok (kind : bytes -> search) (E : env) (inp_name : bytes) (pcs : list (bytes * param)) (rels : list (bytes * relationship))
  (inp : input) (rs : list rec) : Prop :=
  mget (e_inputs E) inp_name = Some inp /\ input_ok inp rs /\ default_ok (e_default E) inp rs /\
  params_ok kind E inp rs pcs /\ (forall r, In r rs -> exists a, contents r a) /\ rels_ok kind E rs rels.

(** The page asked for.  Numbers are decimal, at most the maximum. *)
Definition page_request (c : array_config) (params : list (bytes * bytes)) (off lim : Z) : Prop :=
  match mget params (ac_limit_param c) with
  | None => lim = Z.min (ac_default c) (ac_max c)
  | Some s => exists z, signed_decimal s z /\ in_i64 z /\ 0 < z /\ lim = Z.min z (ac_max c)
  end /\
  match mget params (ac_offset_param c) with
  | None => off = 0
  | Some s => signed_decimal s off /\ in_i64 off /\ 0 <= off
  end.

Definition page {A} (off lim : Z) (l : list A) : list A := firstn (Z.to_nat lim) (skipn (Z.to_nat off) l).

(** Same data: objects with the same members, in any order. *)
Inductive same_data : value -> value -> Prop :=
| same_refl v : same_data v v
| same_list l l' : Forall2 same_data l l' -> same_data (VList l) (VList l')
| same_map m m1 m' : NoDup (map fst m) -> Forall2 (fun a b => fst a = fst b /\ same_data (snd a) (snd b)) m m1 ->
    Permutation m1 m' -> same_data (VMap m) (VMap m').

(** *** Failures *)

(** The call comes back, with a result or an error. *)
Definition returns {A} (r : res A) : Prop := match r with Ok _ | Err _ => True | Panic | NoFuel => False end.

(** No input, index or parser panics or hangs when it is asked for primitive values of
    the properties [asked]; they may fail in any other way. *)
Definition env_safe (asked : bytes -> Prop) (E : env) : Prop :=
  (forall n inp, mget (e_inputs E) n = Some inp -> forall p, returns (in_get inp p) /\
    forall r, in_get inp p = Ok r -> returns (r_all r)) /\
  (forall n inp, mget (e_inputs E) n = Some inp -> returns (e_default E inp []) /\ forall it, e_default E inp [] = Ok it -> Forall returns it) /\
  (forall i ix, mget (e_indexes E) i = Some ix -> forall n inp fs, mget (e_inputs E) n = Some inp ->
    Forall (fun f => asked (fst f) /\ primitive (snd f)) fs ->
    returns (ix inp fs) /\ forall it, ix inp fs = Ok it -> Forall returns it) /\
  (forall p parse, mget (e_parsers E) p = Some parse -> forall s, returns (parse s)).

(** Relationships of the records of [pin]: the limits fit in an int; the parent
    properties, where they exist, hold primitive values which are not replaced by
    another relationship; the child properties are among [asked], and reading the
    properties to sort by does not panic. *)
Inductive rels_safe (asked : bytes -> Prop) (E : env) : input -> list (bytes * relationship) -> Prop :=
| rels_safe_intro pin rels :
    (forall name c, In (name, c) rels ->
      0 <= rel_limit c < two63 /\
      (forall m, In m (rel_match c) -> ~ In (m_parent m) (map fst rels) /\ asked (m_child m) /\
        forall p r a v, in_get pin p = Ok r -> r_all r = Ok a -> mget a (m_parent m) = Some v -> primitive v) /\
      (forall inp, mget (e_inputs E) (rel_input c) = Some inp ->
        (forall p r s, in_get inp p = Ok r -> In s (rel_sort c) -> returns (r_get r (fst s))) /\
        rels_safe asked E inp (rel_children c))) ->
    rels_safe asked E pin rels.
