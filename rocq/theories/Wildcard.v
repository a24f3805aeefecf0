(** pkg/index/wildcard.go: the wildcard index. *)
From Coq Require Import List ZArith Lia Bool String.
From Coq Require Import Strings.Byte.
From Verif Require Import Base Codec Stream Node Value Join WildcardMeta.
Import ListNotations.
Open Scope Z_scope.

(** pkg/index/wildcard_config.go:11-19 (after Validate: ignoreCase is set). *)
Record wconfig := mkWconfig { wc_input : bytes; wc_props : list bytes; wc_ic : bool }.

(** The [index] field: property -> root node (a nil pointer is [None]). *)
Definition windex := list (bytes * option node).

(** pkg/index/wildcard_config.go:73-83 *)
Definition does_handle_property (props : list bytes) (p : bytes) : bool :=
  existsb (fun x => bytes_eqb p x) props.

Section Wildcard.
(** [strings.ToLower], a function of the standard library. *)
Variable lower : bytes -> bytes.

Definition fold_case (ic : bool) (s : bytes) : bytes := if ic then lower s else s.

(** pkg/index/wildcard.go:208-219: [index[property].AddAllSequences].  A
    property without a root is a nil pointer: its method dereferences it. *)
Definition add_string (ic : bool) (idx : windex) (prop s : bytes) (pos : Z) : M windex :=
  match mget idx prop with
  | Some (Some root) =>
    do root' <- add_all_sequences root (fold_case ic s) pos;
    ret (mset idx prop (Some root'))
  | _ => panic
  end.

(** pkg/index/wildcard.go:190-220.  An array is indexed element by element and
    then rejected by the string check that follows. *)
Fixpoint add_value (ic : bool) (idx : windex) (prop : bytes) (v : value) (pos : Z) {struct v} : M windex :=
  match v with
  | VString s => add_string ic idx prop s pos
  | VList l =>
    do _ <- (fix go (idx : windex) (l : list value) : M windex :=
               match l with
               | [] => ret idx
               | x :: l' => do idx' <- add_value ic idx prop x pos; go idx' l'
               end) idx l;
    fail (EMsg "not a string")
  | _ => fail (EMsg "not a string")
  end.

(** pkg/index/wildcard.go:111-124 *)
Fixpoint index_props (ic : bool) (idx : windex) (props : list bytes) (r : rec) : M windex :=
  match props with
  | [] => ret idx
  | p :: props' =>
    do v <- lift (r_get r p);
    do idx' <- add_value ic idx p v (r_pos r);
    index_props ic idx' props' r
  end.

(** pkg/index/wildcard.go:100-125 *)
Fixpoint index_records (ic : bool) (idx : windex) (props : list bytes) (its : list (res rec)) : M windex :=
  match its with
  | [] => ret idx
  | it :: its' =>
    do r <- lift it;
    do idx' <- index_props ic idx props r;
    index_records ic idx' props its'
  end.

(** pkg/index/wildcard.go:71-82 *)
Fixpoint make_roots (i : nat) (props : list bytes) (idx : windex) (m : metadata) : M (windex * metadata) :=
  match props with
  | [] => ret (idx, m)
  | p :: props' =>
    do n <- new_empty_node;
    do _ <- node_save n;
    make_roots (S i) props' (mset idx p (Some n)) (set_root m i n)
  end.

(** pkg/index/wildcard.go:62-125: everything before SetCompleted. *)
Definition create_body (cfg : wconfig) (inp : input) : M (windex * metadata) :=
  do m0 <- new_metadata (mkMetaInput inp (wc_ic cfg) (zlen (wc_props cfg)));
  do (idx0, m1) <- make_roots 0 (wc_props cfg) [] m0;
  do _ <- meta_save m1;
  do idx <- index_records (wc_ic cfg) idx0 (wc_props cfg) (in_iter inp);
  ret (idx, m1).

(** pkg/index/wildcard.go:54-146.  [os.Create] truncates: the stream starts on
    an empty file. *)
Definition create_index (cfg : wconfig) (inp : input) : M windex :=
  do (idx, m1) <- create_body cfg inp;
  do _ <- meta_save (set_completed m1 true);
  do _ <- stream_flush;
  ret idx.

Definition created_stream : stream := new_stream [] 0.

(** pkg/index/wildcard.go:171-179 *)
Fixpoint load_roots (props : list bytes) (roots : list Z) (idx : windex) : M windex :=
  match props with
  | [] => ret idx
  | p :: props' =>
    match roots with
    | [] => panic (* index out of range; excluded by AssertValid *)
    | o :: roots' =>
      do n <- get_node o;
      load_roots props' roots' (mset idx p n)
    end
  end.

(** pkg/index/wildcard.go:148-188 on a file with the given contents. *)
Definition load_index (cfg : wconfig) (inp : input) : M windex :=
  do m <- load_metadata;
  do _ <- lift (assert_valid m (mkMetaInput inp (wc_ic cfg) (zlen (wc_props cfg))));
  load_roots (wc_props cfg) (md_roots m) [].

Definition loaded_stream (file : bytes) : stream := new_stream file (zlen file).

(** pkg/index/wildcard.go:222-266.  [filters] is the map in the order in which
    Go visits it.  The result is the iterator. *)
Fixpoint filter_iters (cfg : wconfig) (idx : windex) (s : stream) (filters : list (bytes * value))
  : res (option (list iter)) :=
  match filters with
  | [] => Ok (Some [])
  | (p, f) :: filters' =>
    if negb (does_handle_property (wc_props cfg) p) then Err (EMsg "property not handled")
    else
      match mget idx p with
      | None => Ok None
      | Some root =>
        match f with
        | VString q =>
          match root with
          | None => Panic (* nil *TreeNode, dereferenced by node.go:68-86 *)
          | Some n =>
            match fst (get_sequence n (fold_case (wc_ic cfg) q) s) with
            | Ok None => Ok None
            | Ok (Some l) =>
              rlet rest := filter_iters cfg idx s filters' in
              match rest with
              | None => Ok None
              | Some its => Ok (Some (plist_iterate (chain_fuel s) s (Some l) :: its))
              end
            | Err e => Err e
            | Panic => Panic
            | NoFuel => NoFuel
            end
          end
        | _ => Err (EMsg "filter is not a string")
        end
      end
  end.

Definition wildcard_positions (cfg : wconfig) (idx : windex) (s : stream) (inp_name : bytes)
  (filters : list (bytes * value)) : res iter :=
  if negb (bytes_eqb inp_name (wc_input cfg)) then Err (EMsg "input not handled")
  else match filters with
  | [] => Err (EMsg "no filter")
  | _ :: _ =>
    rlet r := filter_iters cfg idx s filters in
    match r with
    | None => Ok []
    | Some its => Ok (join_positions its)
    end
  end.

(** The index as the endpoints call it. *)
Definition wildcard_index (cfg : wconfig) (idx : windex) (s : stream) (inp : input) (filters : list (bytes * value)) : res iter :=
  wildcard_positions cfg idx s (in_name inp) filters.
End Wildcard.
