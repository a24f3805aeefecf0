(** pkg/index/map.go and pkg/index/noop.go. *)
From Coq Require Import List ZArith Lia Bool String.
From Coq Require Import Strings.Byte.
From Verif Require Import Base Value Join Wildcard.
Import ListNotations.
Open Scope Z_scope.

(** *** Map index *)

(** pkg/index/map.go:13: [map[interface{}]record.PositionList].  Slices and
    maps are not hashable: using them as a key panics.  NaN is never found. *)
Definition pindex := list (value * list Z).

Definition hashable (v : value) : bool :=
  match v with VList _ | VMap _ => false | _ => true end.

(** Same key of a Go map, for hashable values. *)
Definition key_eqb (a b : value) : bool := match go_eq a b with Ok b => b | _ => false end.

Fixpoint pfind (m : pindex) (k : value) : option (list Z) :=
  match m with
  | [] => None
  | (k', l) :: m' => if key_eqb k' k then Some l else pfind m' k
  end.

(** [propertyIndex[value]] with the "found" result. *)
Definition pget (m : pindex) (k : value) : res (option (list Z)) :=
  if hashable k then Ok (pfind m k) else Panic.

(** [propertyIndex[value] = append(valueIndexes, position)] or a new list
    (pkg/index/map.go:115-121). *)
Fixpoint padd (m : pindex) (k : value) (pos : Z) : pindex :=
  match m with
  | [] => [(k, [pos])]
  | (k', l) :: m' => if key_eqb k' k then (k', l ++ [pos]) :: m' else (k', l) :: padd m' k pos
  end.

(** pkg/index/map.go:97-124 on the map of one property.  An array is first
    indexed element by element, and then, like any other value, used as a
    key. *)
Fixpoint map_add_value (v : value) (m : pindex) (pos : Z) {struct v} : res pindex :=
  match v with
  | VList l =>
    rlet _ := (fix go (l : list value) (m : pindex) {struct l} : res pindex :=
                 match l with
                 | [] => Ok m
                 | x :: l' => rlet m1 := map_add_value x m pos in go l' m1
                 end) l m in
    Panic (* propertyIndex[value]: hash of unhashable type []interface {} *)
  | VMap _ => Err (EMsg "Indexing objects is not supported")
  | _ => Ok (padd m v pos)
  end.

Definition mindex := list (bytes * pindex).

(** pkg/index/map.go:74-87: the properties of one record.  [index[property]]
    always exists, it was created at lines 47-50. *)
Fixpoint map_add_record (props : list bytes) (r : rec) (idx : mindex) : res mindex :=
  match props with
  | [] => Ok idx
  | p :: props' =>
    rlet v := r_get r p in
    match mget idx p with
    | None => Panic (* assignment to entry in nil map *)
    | Some m =>
      match map_add_value v m (r_pos r) with
      | Ok m1 => map_add_record props' r (mset idx p m1)
      | Err _ => Err (EMsg "Cannot index the property")
      | Panic => Panic
      | NoFuel => NoFuel
      end
    end
  end.

(** pkg/index/map.go:63-88 *)
Fixpoint map_add_all (props : list bytes) (its : list (res rec)) (idx : mindex) : res mindex :=
  match its with
  | [] => Ok idx
  | it :: its' =>
    rlet r := it in
    rlet idx1 := map_add_record props r idx in
    map_add_all props its' idx1
  end.

(** pkg/index/map.go:46-50 *)
Fixpoint map_empty (props : list bytes) (idx : mindex) : mindex :=
  match props with
  | [] => idx
  | p :: props' => map_empty props' (mset idx p [])
  end.

Record mconfig := mkMconfig { mc_input : bytes; mc_props : list bytes }.

(** pkg/index/map.go:46-95 (logging and progress left out). *)
Definition map_reindex (cfg : mconfig) (inp : input) : res mindex :=
  map_add_all (mc_props cfg) (in_iter inp) (map_empty (mc_props cfg) []).

(** pkg/index/map.go:138-155.  [None]: EmptyIterator. *)
Fixpoint map_filter_iters (cfg : mconfig) (idx : mindex) (filters : list (bytes * value))
  : res (option (list iter)) :=
  match filters with
  | [] => Ok (Some [])
  | (p, f) :: filters' =>
    if negb (does_handle_property (mc_props cfg) p) then Err (EMsg "This index does not handle the property")
    else match mget idx p with
    | None => Ok None
    | Some m =>
      rlet found := pget m f in
      match found with
      | None => Ok None
      | Some l =>
        rlet rest := map_filter_iters cfg idx filters' in
        match rest with
        | None => Ok None
        | Some its => Ok (Some (list_iterate l :: its))
        end
      end
    end
  end.

(** pkg/index/map.go:126-158; [filters] in the order in which Go visits it. *)
Definition map_positions (cfg : mconfig) (idx : mindex) (inp_name : bytes)
  (filters : list (bytes * value)) : res iter :=
  if negb (bytes_eqb inp_name (mc_input cfg)) then Err (EMsg "This index does not handle the input")
  else match filters with
  | [] => Err (EMsg "This index requires at least one filter.")
  | _ :: _ =>
    rlet r := map_filter_iters cfg idx filters in
    match r with
    | None => Ok []
    | Some its => Ok (join_positions its)
    end
  end.

(** The index as the endpoints call it. *)
Definition map_index (cfg : mconfig) (idx : mindex) (inp : input) (filters : list (bytes * value)) : res iter :=
  map_positions cfg idx (in_name inp) filters.

(** *** Noop index *)

(** pkg/index/noop.go:56-77: does one record match? *)
Fixpoint noop_matches (r : rec) (filters : list (bytes * value)) : res bool :=
  match filters with
  | [] => Ok true
  | (p, f) :: filters' =>
    rlet v := r_get r p in
    match v with
    | VNil => match f with VNil => noop_matches r filters' | _ => Ok false end
    | _ => rlet b := go_eq v f in if b then noop_matches r filters' else Ok false
    end
  end.

(** pkg/index/noop.go:42-91: the results of the successive calls.  An error
    does not close the iterator: the next call goes on with the next record;
    a panic leaves the function. *)
Fixpoint noop_iterate (filters : list (bytes * value)) (its : list (res rec)) : iter :=
  match its with
  | [] => []
  | Ok r :: its' =>
    match noop_matches r filters with
    | Ok true => Ok (r_pos r) :: noop_iterate filters its'
    | Ok false => noop_iterate filters its'
    | Err e => Err e :: noop_iterate filters its'
    | Panic => Panic :: noop_iterate filters its'
    | NoFuel => NoFuel :: noop_iterate filters its'
    end
  | Err e :: its' => Err e :: noop_iterate filters its'
  | Panic :: its' => Panic :: noop_iterate filters its'
  | NoFuel :: its' => NoFuel :: noop_iterate filters its'
  end.

Definition noop_positions (inp : input) (filters : list (bytes * value)) : res iter :=
  Ok (noop_iterate filters (in_iter inp)).
