(** What a client may expect of a response. *)
From Coq Require Import List ZArith Bool String.
From Coq Require Import Strings.Byte Floats.SpecFloat.
From Verif Require Import Base Value SpecJson SpecIndex Output SpecOutput Json Http.
Import ListNotations.
Open Scope Z_scope.

(** Every float in the value is a number. *)
Inductive numbers_only : value -> Prop :=
| no_nil : numbers_only VNil
| no_bool b : numbers_only (VBool b)
| no_int z : numbers_only (VInt z)
| no_float f : is_number f = true -> numbers_only (VFloat f)
| no_string s : numbers_only (VString s)
| no_list l : Forall numbers_only l -> numbers_only (VList l)
| no_map m : Forall (fun kv => numbers_only (snd kv)) m -> numbers_only (VMap m).

(** ... in all the records of all the inputs. *)
Definition records_numbers (E : env) : Prop :=
  forall n inp p r d, mget (e_inputs E) n = Some inp -> in_get inp p = Ok r -> r_all r = Ok d -> numbers_only (VMap d).

Definition output_input (o : output) : bytes := match o with OArray c => ac_input c | OObject c => oc_input c end.
Definition output_relationships (o : output) : list (bytes * relationship) :=
  match o with OArray c => ac_relationships c | OObject c => oc_relationships c end.

Definition output_parameters (o : output) : list (bytes * param) := match o with OArray c => ac_params c | OObject c => oc_params c end.

(** The parameters are for the properties [asked], with parsers that give primitive
    values (checked by ParameterConfig.Validate). *)
Definition params_safe (asked : bytes -> Prop) (E : env) (o : output) : Prop :=
  forall name pc, In (name, pc) (output_parameters o) -> asked (pm_property pc) /\
    forall parse s v, mget (e_parsers E) (pm_parser pc) = Some parse -> parse s = Ok v -> primitive v.

(** A route that NewHttp builds on existing objects: the input exists, there is a
    sub-match for every parameter, and the parameters and relationships are safe. *)
Definition route_ok (asked : bytes -> Prop) (E : env) (r : route) : Prop :=
  (exists inp, mget (e_inputs E) (output_input (rt_output r)) = Some inp /\ rels_safe asked E inp (output_relationships (rt_output r))) /\
  params_safe asked E (rt_output r) /\
  (forall path cs, rt_match r path = Some cs -> (List.length (rt_params r) <= List.length cs)%nat).

(** The output computes [v], however it is sent. *)
Definition computes (E : env) (ord : order) (o : output) (params : list (bytes * bytes)) (v : value) : Prop :=
  forall W se ss wr enc (w : W),
    match o with
    | OArray c => handle_array E ord W se ss wr enc c params w
    | OObject c => handle_object E ord W se ss wr enc c params w
    end = encode W wr enc v (ss w).

(** The output fails with [e], however it is sent. *)
Definition fails (E : env) (ord : order) (o : output) (params : list (bytes * bytes)) (e : err) : Prop :=
  forall W se ss wr enc (w : W),
    match o with
    | OArray c => handle_array E ord W se ss wr enc c params w
    | OObject c => handle_object E ord W se ss wr enc c params w
    end = se e w.

(** The first route of which the path matches, for a GET. *)
Inductive first_match : list route -> request -> route -> Prop :=
| fm_here r routes rq cs : rq_method rq = lit "GET" -> rt_match r (rq_path rq) = Some cs -> first_match (r :: routes) rq r
| fm_next r r' routes rq : rt_match r (rq_path rq) = None -> first_match routes rq r' -> first_match (r :: routes) rq r'.
