(** pkg/output: json_array.go, json_object.go, json_common.go. *)
From Coq Require Import List ZArith Lia Bool String.
From Coq Require Import Strings.Byte.
From Verif Require Import Base Value Join GoStrings Sort.
Import ListNotations.
Open Scope Z_scope.

(** Go visits a map in an unspecified order.  Every [range] over a map executed
    while serving a request has a location (a path of numbers and names, unique
    in the execution), and an [order] gives the order used at each location: a
    permutation for each. *)
Inductive step := At (n : Z) | Key (name : bytes).
Definition order := list step -> forall A : Type, list A -> list A.

Definition filters := list (bytes * value).
Definition object := list (bytes * value).

(** pkg/index/index.go: the method GetRecordPositions, called with the filters
    in the order in which they are visited. *)
Definition index := input -> filters -> res iter.

(** pkg/output/relationship/config.go:11-24: match rules are (parent property,
    child property, child index). *)
Inductive relationship := mkRel {
  rel_input : bytes;
  rel_is_array : bool;
  rel_limit : Z; (* uint *)
  rel_sort : list sort_criterion;
  rel_match : list (bytes * bytes * bytes);
  rel_children : list (bytes * relationship);
}.

(** pkg/output/parameter/config.go:12-16 *)
Record param := mkParam { pm_property : bytes; pm_index : bytes; pm_parser : bytes }.

(** pkg/output/json_array_config.go:14-33 *)
Record array_config := mkArray {
  ac_input : bytes;
  ac_default : Z; (* uint *)
  ac_max : Z; (* uint *)
  ac_limit_param : bytes;
  ac_offset_param : bytes;
  ac_params : list (bytes * param);
  ac_relationships : list (bytes * relationship);
}.

(** pkg/output/json_object_config.go:14-21 *)
Record object_config := mkObject {
  oc_input : bytes;
  oc_params : list (bytes * param);
  oc_relationships : list (bytes * relationship);
}.

(** What the outputs were created with. *)
Record env := mkEnv {
  e_inputs : list (bytes * input);
  e_default : index;
  e_indexes : list (bytes * index);
  e_parsers : list (bytes * (bytes -> res value));
  e_sort : (rec -> rec -> bool) -> list rec -> list rec;
}.

(** pkg/output/json_common.go:43-49, json_array.go:191-197, json_object.go:124-134 *)
Definition add_filter (fpi : list (bytes * filters)) (index property : bytes) (v : value) : list (bytes * filters) :=
  mset fpi index (mset (match mget fpi index with Some fs => fs | None => [] end) property v).

(** pkg/output/json_common.go:31-53 *)
Fixpoint relationship_filters (data : object) (ms : list (bytes * bytes * bytes)) (fpi : list (bytes * filters))
  : res (list (bytes * filters)) :=
  match ms with
  | [] => Ok fpi
  | (parent, child, index) :: ms' =>
    match mget data parent with
    | None => Err (EMsg "Parent property does not exists in relationship.")
    | Some v => relationship_filters data ms' (add_filter fpi index child v)
    end
  end.

Section Serve.
Variable E : env.
Variable ord : order.

(** pkg/output/json_common.go:55-89 *)
Definition positions_per_index (loc : list step) (inp : input) (fpi : list (bytes * filters)) : res (list iter) :=
  match fpi with
  | [] => rlet it := e_default E inp [] in Ok [it]
  | _ :: _ =>
    rmapM (fun nf : bytes * filters =>
      match mget (e_indexes E) (fst nf) with
      | None => Err (EMsg "Index not found in indexes list.")
      | Some ix => ix inp (ord (Key (fst nf) :: loc) _ (snd nf))
      end) (ord loc _ fpi)
  end.

(** pkg/output/json_common.go:131-147: the records at the positions. *)
Fixpoint fetch (inp : input) (it : iter) : res (list rec) :=
  match it with
  | [] => Ok []
  | p :: it' => rlet p := p in rlet r := in_get inp p in rlet rs := fetch inp it' in Ok (r :: rs)
  end.

(** Computes the value of one relationship from the data of the parent. *)
Definition loader := list step -> object -> res value.

(** pkg/output/json_common.go:99-199, the loop over the relationships in the
    order in which they are visited. *)
Fixpoint load_loop (ls : list (bytes * loader)) (loc : list step) (data : object) : res object :=
  match ls with
  | [] => Ok data
  | (name, f) :: ls' => rlet v := f (Key name :: loc) data in load_loop ls' loc (mset data name v)
  end.

(** pkg/output/json_common.go:166-188 *)
Fixpoint load_items (ls : list (bytes * loader)) (count : Z) (loc : list step) (n : Z) (rs : list rec) : res (list value) :=
  match rs with
  | [] => Ok []
  | r :: rs' =>
    rlet d := r_all r in
    rlet d1 := load_loop (ord (At n :: loc) _ ls) (At n :: loc) d in
    if n + 1 >=? count then Ok [VMap d1]
    else rlet items := load_items ls count loc (n + 1) rs' in Ok (VMap d1 :: items)
  end.

(** pkg/output/json_common.go:153-163; [int(uint)] wraps around. *)
Definition item_count (c : relationship) (n : Z) : Z :=
  let count := if rel_is_array c then wrap64 (rel_limit c) else 1 in
  if count =? 0 then n else if n <? count then n else count.

(** pkg/output/json_common.go:100-198, one relationship.  A negative capacity
    makes [make] panic. *)
Fixpoint related (c : relationship) (loc : list step) (data : object) {struct c} : res value :=
  match c with
  | mkRel inp_name is_array limit sort ms children =>
    let loaders := map (fun nc : bytes * relationship => (fst nc, related (snd nc))) children in
    rlet fpi := relationship_filters data ms [] in
    match mget (e_inputs E) inp_name with
    | None => Err (EMsg "There is no input with this name")
    | Some inp =>
      rlet its := positions_per_index loc inp fpi in
      rlet rs := fetch inp (join_positions its) in
      let rs := match sort with [] => rs | _ :: _ => sort_records (e_sort E) sort rs end in
      let count := item_count c (zlen rs) in
      if count <? 0 then Panic
      else rlet items := load_items loaders count loc 0 rs in
      Ok (if is_array then VList items else match items with [] => VNil | i :: _ => i end)
    end
  end.

(** pkg/output/json_common.go:91-202 *)
Definition load_relationships (rels : list (bytes * relationship)) (loc : list step) (data : object) : res object :=
  load_loop (ord loc _ (map (fun nc : bytes * relationship => (fst nc, related (snd nc))) rels)) loc data.

(** pkg/output/json_common.go:204-233 *)
Definition data_from_position (p : Z) (rels : list (bytes * relationship)) (inp_name : bytes) (loc : list step) : res object :=
  match mget (e_inputs E) inp_name with
  | None => Err (EMsg "Input not found in inputs list.")
  | Some inp =>
    rlet r := in_get inp p in
    rlet d := r_all r in
    load_relationships rels loc d
  end.

(** pkg/output/json_array.go:138-155 *)
Definition get_limit (c : array_config) (params : list (bytes * bytes)) : res Z :=
  rlet limit := match mget params (ac_limit_param c) with
                | None => Ok (ac_default c)
                | Some s =>
                  rlet n := atoi s in
                  if n <=? 0 then Err (EMsg "The parameter must be a positive and non-zero number.") else Ok n
                end in
  Ok (if limit >? ac_max c then ac_max c else limit).

(** pkg/output/json_array.go:157-171 *)
Definition get_offset (c : array_config) (params : list (bytes * bytes)) : res Z :=
  match mget params (ac_offset_param c) with
  | None => Ok 0
  | Some s =>
    rlet n := atoi s in
    if n <? 0 then Err (EMsg "The parameter cannot be negative.") else Ok n
  end.

(** pkg/output/json_array.go:173-201, the loop over the parameters in the order
    in which they are visited. *)
Fixpoint array_filters (params : list (bytes * bytes)) (pcs : list (bytes * param)) (fpi : list (bytes * filters))
  : res (list (bytes * filters)) :=
  match pcs with
  | [] => Ok fpi
  | (name, pc) :: pcs' =>
    match mget params name with
    | None => array_filters params pcs' fpi
    | Some s =>
      match mget (e_parsers E) (pm_parser pc) with
      | None => Err (EMsg "Parser does not exist")
      | Some parse =>
        rlet v := parse s in
        array_filters params pcs' (add_filter fpi (pm_index pc) (pm_property pc) v)
      end
    end
  end.

(** pkg/output/json_object.go:121-138 (after NewJsonObject, lines 30-37).  A
    parameter which is not given reads as the empty string. *)
Fixpoint object_filters (params : list (bytes * bytes)) (pcs : list (bytes * param)) (fpi : list (bytes * filters))
  : res (list (bytes * filters)) :=
  match pcs with
  | [] => Ok fpi
  | (name, pc) :: pcs' =>
    match mget (e_parsers E) (pm_parser pc) with
    | None => Err (EMsg "Parser does not exist")
    | Some parse =>
      rlet v := parse (match mget params name with Some s => s | None => [] end) in
      object_filters params pcs' (add_filter fpi (pm_index pc) (pm_property pc) v)
    end
  end.

(** pkg/output/json_array.go:100-108 *)
Fixpoint skip_rows (offset : Z) (it : iter) : res iter :=
  if offset <=? 0 then Ok it
  else match it with
  | [] => Ok []
  | p :: it' => rlet _ := p in skip_rows (offset - 1) it'
  end.

(** pkg/output/json_array.go:110-133; [n] is the number of rows so far. *)
Fixpoint take_rows (row : Z -> Z -> res object) (limit n : Z) (it : iter) : res (list value) :=
  if negb (n <? limit) then Ok []
  else match it with
  | [] => Ok []
  | p :: it' =>
    rlet p := p in
    rlet d := row n p in
    rlet rows := take_rows row limit (n + 1) it' in
    Ok (VMap d :: rows)
  end.

(** The two callbacks given to Handle, on the state [W] of the response; the
    encoder of encoding/json. *)
Variable W : Type.
Variable send_error : err -> W -> W * res unit.
Variable send_success : W -> W.
Variable write : bytes -> W -> W * res unit.
Variable json_encode : value -> res bytes.

(** [if err != nil { return sendError(err) }] *)
Definition check {A} (r : res A) (w : W) (k : A -> W * res unit) : W * res unit :=
  match r with
  | Ok a => k a
  | Err e => send_error e w
  | Panic => (w, Panic)
  | NoFuel => (w, NoFuel)
  end.

(** json.Encoder.Encode: nothing is written when the encoding fails. *)
Definition encode (v : value) (w : W) : W * res unit :=
  match json_encode v with
  | Ok b => write (b ++ [x0a]) w
  | Err e => (w, Err e)
  | Panic => (w, Panic)
  | NoFuel => (w, NoFuel)
  end.

(** pkg/output/json_array.go:66-136.  [input] is looked up by NewJsonArray
    (lines 31-34). *)
Definition handle_array (c : array_config) (params : list (bytes * bytes)) (w : W) : W * res unit :=
  match mget (e_inputs E) (ac_input c) with
  | None => (w, Err (EMsg "Input not found in inputs list."))
  | Some inp =>
    check (get_limit c params) w (fun limit =>
    check (get_offset c params) w (fun offset =>
    check (array_filters params (ord [Key (lit "parameters")] _ (ac_params c)) []) w (fun fpi =>
    check (positions_per_index [Key (lit "filters")] inp fpi) w (fun its =>
    check (skip_rows offset (join_positions its)) w (fun it =>
    check (take_rows (fun n p => data_from_position p (ac_relationships c) (ac_input c) [At n; Key (lit "rows")])
             (wrap64 limit) 0 it) w (fun rows =>
    encode (VList rows) (send_success w)))))))
  end.

(** pkg/output/json_object.go:74-119 *)
Definition handle_object (c : object_config) (params : list (bytes * bytes)) (w : W) : W * res unit :=
  match mget (e_inputs E) (oc_input c) with
  | None => (w, Err (EMsg "There is no input with this name"))
  | Some inp =>
    check (object_filters params (ord [Key (lit "parameters")] _ (oc_params c)) []) w (fun fpi =>
    check (positions_per_index [Key (lit "filters")] inp fpi) w (fun its =>
    check (fst (pull (join_positions its))) w (fun p =>
    match p with
    | None => send_error ENotFound w
    | Some p =>
      check (data_from_position p (oc_relationships c) (oc_input c) [Key (lit "row")]) w (fun d =>
      encode (VMap d) (send_success w))
    end)))
  end.

End Serve.
