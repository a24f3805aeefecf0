(** pkg/index/wildcard/position.go and node.go: linked lists of positions and
    the radix tree stored in the index stream. *)
From Coq Require Import List ZArith Lia Bool String.
From Coq Require Import Strings.Byte.
From Verif Require Import Base Codec Stream.
Import ListNotations.
Open Scope Z_scope.

(** ** Positions *)

(** pkg/index/wildcard/position.go:10 *)
Definition PositionLinkedListSize : Z := 16.

(** pkg/index/wildcard/position.go:12-17 (without the stream pointer, which is
    the state of the monad). *)
Record plist := mkPlist { p_off : Z; p_pos : Z; p_next : Z }.

(** pkg/index/wildcard/position.go:95-102 *)
Definition plist_serialize (l : plist) : bytes :=
  put_u64 (p_pos l) ++ put_u64 (p_next l).

(** pkg/index/wildcard/position.go:104-107 *)
Definition plist_unserialize (off : Z) (data : bytes) : plist :=
  mkPlist off (get_i64 (slice data 0 8)) (get_i64 (slice data 8 8)).

(** pkg/index/wildcard/position.go:72-93 *)
Definition get_plist (off : Z) : M (option plist) :=
  if off =? 0 then ret None
  else do data <- stream_get off PositionLinkedListSize;
       ret (Some (plist_unserialize off data)).

(** pkg/index/wildcard/position.go:19-21 *)
Definition next_position (l : plist) : M (option plist) := get_plist (p_next l).

(** pkg/index/wildcard/position.go:109-123; returns the updated object. *)
Definition plist_save (l : plist) : M plist :=
  if p_off l =? 0 then
    do off <- stream_add (plist_serialize l);
    ret (mkPlist off (p_pos l) (p_next l))
  else
    do _ <- stream_replace (p_off l) (plist_serialize l);
    ret l.

(** pkg/index/wildcard/position.go:23-39 *)
Definition new_plist (pos : Z) : M plist := plist_save (mkPlist 0 pos 0).

(** Loop bound used for chains read from the stream: a chain of more links than
    the stream has bytes is cyclic and the Go loop does not end. *)
Definition chain_fuel (s : stream) : nat := S (Z.to_nat (st_size s)).

(** pkg/index/wildcard/position.go:158-175 *)
Fixpoint copy_loop (fuel : nat) (last : plist) (current : option plist) : M plist :=
  match fuel with
  | O => nofuel
  | S fuel' =>
    match current with
    | None => ret last
    | Some c =>
      do newCurrent <- new_plist (p_pos c);
      do _ <- plist_save (mkPlist (p_off last) (p_pos last) (p_off newCurrent));
      do next <- next_position c;
      copy_loop fuel' newCurrent next
    end
  end.

(** pkg/index/wildcard/position.go:142-178.  [first] is returned as its offset:
    its in-memory [nextPositionOffset] is not used by the callers. *)
Definition plist_copy (l : plist) : M (Z * plist) := fun s =>
  (do first <- new_plist (p_pos l);
   do current <- next_position l;
   do last <- copy_loop (chain_fuel s) first current;
   ret (p_off first, last)) s.

(** pkg/index/wildcard/position.go:125-140.  The iterator is given by the
    results of its successive calls; after the last one it returns (nil, nil)
    forever.  [NoFuel] at the end stands for an iterator that never ends. *)
Fixpoint plist_iterate (fuel : nat) (s : stream) (l : option plist) : list (res Z) :=
  match fuel with
  | O => [NoFuel]
  | S fuel' =>
    match l with
    | None => []
    | Some c =>
      match fst (next_position c s) with
      | Ok next => Ok (p_pos c) :: plist_iterate fuel' s next
      | Err e => [Err e]
      | Panic => [Panic]
      | NoFuel => [NoFuel]
      end
    end
  end.

(** ** Tree nodes *)

(** pkg/index/wildcard/node.go:12 *)
Definition TreeNodeSize : Z := 56.

(** pkg/index/wildcard/node.go:14-24 *)
Record node := mkNode {
  n_off : Z; n_voff : Z; n_vlen : Z; n_next : Z;
  n_first : Z; n_last : Z; n_fpos : Z; n_lpos : Z;
}.

(** pkg/index/wildcard/node.go:92-104 *)
Definition node_serialize (n : node) : bytes :=
  put_u64 (n_voff n) ++ put_u64 (n_vlen n) ++ put_u64 (n_next n) ++
  put_u64 (n_first n) ++ put_u64 (n_last n) ++ put_u64 (n_fpos n) ++ put_u64 (n_lpos n).

(** pkg/index/wildcard/node.go:106-114 *)
Definition node_unserialize (off : Z) (data : bytes) : node :=
  mkNode off
    (get_i64 (slice data 0 8)) (get_i64 (slice data 8 8)) (get_i64 (slice data 16 8))
    (get_i64 (slice data 24 8)) (get_i64 (slice data 32 8)) (get_i64 (slice data 40 8))
    (get_i64 (slice data 48 8)).

(** pkg/index/wildcard/node.go:26-43 *)
Definition new_empty_node : M node :=
  do off <- stream_add (repeat Byte.x00 (Z.to_nat TreeNodeSize));
  ret (mkNode off 0 0 0 0 0 0 0).

(** pkg/index/wildcard/node.go:45-66 *)
Definition get_node (off : Z) : M (option node) :=
  if off =? 0 then ret None
  else do data <- stream_get off TreeNodeSize;
       ret (Some (node_unserialize off data)).

(** pkg/index/wildcard/node.go:68-86 *)
Definition next_sibling (n : node) : M (option node) := get_node (n_next n).
Definition first_child (n : node) : M (option node) := get_node (n_first n).
Definition last_child (n : node) : M (option node) := get_node (n_last n).
Definition first_position (n : node) : M (option plist) := get_plist (n_fpos n).
Definition last_position (n : node) : M (option plist) := get_plist (n_lpos n).

(** pkg/index/wildcard/node.go:88-90 *)
Definition node_value (n : node) : M bytes := stream_get (n_voff n) (n_vlen n).

(** pkg/index/wildcard/node.go:116-122 *)
Definition node_save (n : node) : M unit := stream_replace (n_off n) (node_serialize n).

Definition set_children (n : node) (f l : Z) : node :=
  mkNode (n_off n) (n_voff n) (n_vlen n) (n_next n) f l (n_fpos n) (n_lpos n).
Definition set_next (n : node) (x : Z) : node :=
  mkNode (n_off n) (n_voff n) (n_vlen n) x (n_first n) (n_last n) (n_fpos n) (n_lpos n).
Definition set_positions (n : node) (f l : Z) : node :=
  mkNode (n_off n) (n_voff n) (n_vlen n) (n_next n) (n_first n) (n_last n) f l.
Definition set_vlen (n : node) (x : Z) : node :=
  mkNode (n_off n) (n_voff n) x (n_next n) (n_first n) (n_last n) (n_fpos n) (n_lpos n).

(** pkg/index/wildcard/node.go:124-142; returns the updated parent. *)
Definition append_child (n : node) (childOff : Z) : M node :=
  if n_first n =? 0 then
    let n' := set_children n childOff childOff in
    do _ <- node_save n'; ret n'
  else
    do lc <- last_child n;
    match lc with
    | None => panic
    | Some lc =>
      do _ <- node_save (set_next lc childOff);
      let n' := set_children n (n_first n) childOff in
      do _ <- node_save n'; ret n'
    end.

(** pkg/index/wildcard/node.go:163-170: number of common leading bytes. *)
Fixpoint common_bytes (a b : bytes) : nat :=
  match a, b with
  | x :: a', y :: b' => if beqb x y then S (common_bytes a' b') else O
  | _, _ => O
  end.

(** pkg/index/wildcard/node.go:157-180 *)
Fixpoint find_loop (fuel : nat) (child : option node) (value : bytes) : M (option (node * Z)) :=
  match fuel with
  | O => nofuel
  | S fuel' =>
    match child with
    | None => ret None
    | Some c =>
      do childValue <- node_value c;
      let common := Z.of_nat (common_bytes childValue value) in
      if 0 <? common then ret (Some (c, common))
      else
        do next <- next_sibling c;
        find_loop fuel' next value
    end
  end.

(** pkg/index/wildcard/node.go:145-183 *)
Definition find_child_by_prefix (n : node) (value : bytes) : M (option (node * Z)) := fun s =>
  (do child <- first_child n;
   find_loop (chain_fuel s) child value) s.

(** pkg/index/wildcard/node.go:186-213; returns the updated node. *)
Definition append_position_if_not_exists (n : node) (pos : Z) : M node :=
  do pn <- new_plist pos;
  if n_fpos n =? 0 then
    let n' := set_positions n (p_off pn) (p_off pn) in
    do _ <- node_save n'; ret n'
  else
    do lp <- last_position n;
    match lp with
    | None => panic
    | Some lp =>
      if negb (p_pos lp =? pos) then
        do _ <- plist_save (mkPlist (p_off lp) (p_pos lp) (p_off pn));
        let n' := set_positions n (n_fpos n) (p_off pn) in
        do _ <- node_save n'; ret n'
      else ret n
    end.

(** pkg/index/wildcard/node.go:289-319: splits [existing] after [common] bytes;
    returns the updated existing node. *)
Definition split_node (existing : node) (common : Z) : M node :=
  do fp <- first_position existing;
  match fp with
  | None => panic
  | Some fp =>
    do fl <- plist_copy fp;
    let '(firstOff, last) := fl in
    do nc <- new_empty_node;
    do _ <- node_save
         (mkNode (n_off nc) (n_voff existing + common) (n_vlen existing - common) 0
                 (n_first existing) (n_last existing) firstOff (p_off last));
    let existing' := set_vlen (set_children existing (n_off nc) (n_off nc)) common in
    do _ <- node_save existing';
    ret existing'
  end.

(** pkg/index/wildcard/node.go:258-283: a new leaf below [parent]. *)
Definition add_leaf (parent : node) (rem : bytes) (roff pos : Z) : M node :=
  do pl <- new_plist pos;
  do nn <- new_empty_node;
  do _ <- node_save (mkNode (n_off nn) roff (zlen rem) 0 0 0 (p_off pl) (p_off pl));
  append_child parent (n_off nn).

(** pkg/index/wildcard/node.go:239-330.  [rem] is [bytes[currentPosition:]] and
    [roff] is [bytesOffsetInStream + currentPosition].  Returns the updated
    receiver (only the first iteration can change it). *)
Fixpoint add_loop (fuel : nat) (parent : node) (rem : bytes) (roff pos : Z) : M node :=
  match fuel with
  | O => nofuel
  | S fuel' =>
    match rem with
    | [] => ret parent
    | _ :: _ =>
      do r <- find_child_by_prefix parent rem;
      match r with
      | None => add_leaf parent rem roff pos
      | Some (existing, common) =>
        do existing1 <- (if common <? n_vlen existing then split_node existing common
                         else ret existing);
        do existing2 <- append_position_if_not_exists existing1 pos;
        do _ <- add_loop fuel' existing2 (skipn (Z.to_nat common) rem) (roff + common) pos;
        ret parent
      end
    end
  end.

(** Every iteration of the loop consumes at least one byte, so
    [1 + len(bytes)] iterations are enough for any stream content. *)
Definition add_sequence (root : node) (bs : bytes) (off pos : Z) : M node :=
  add_loop (S (List.length bs)) root bs off pos.

(** pkg/index/wildcard/node.go:230-234 *)
Fixpoint add_suffixes (root : node) (bs : bytes) (off pos : Z) : M node :=
  match bs with
  | [] => ret root
  | _ :: bs' =>
    do root' <- add_sequence root bs off pos;
    add_suffixes root' bs' (off + 1) pos
  end.

(** pkg/index/wildcard/node.go:224-237 *)
Definition add_all_sequences (root : node) (bs : bytes) (pos : Z) : M node :=
  do off <- stream_add bs;
  add_suffixes root bs off pos.

(** pkg/index/wildcard/node.go:215-222 *)
Definition add_single_sequence (root : node) (bs : bytes) (pos : Z) : M node :=
  do off <- stream_add bs;
  add_sequence root bs off pos.

(** pkg/index/wildcard/node.go:335-349; [q] is [bytes[currentPosition:]] ([[]]
    also when currentPosition went past the end). *)
Fixpoint get_loop (fuel : nat) (parent : node) (q : bytes) : M (option plist) :=
  match fuel with
  | O => nofuel
  | S fuel' =>
    match q with
    | [] => first_position parent
    | _ :: _ =>
      do r <- find_child_by_prefix parent q;
      match r with
      | None => ret None
      | Some (c, common) =>
        if (common <? n_vlen c) && (common <? zlen q) then ret None
        else get_loop fuel' c (skipn (Z.to_nat (n_vlen c)) q)
      end
    end
  end.

(** pkg/index/wildcard/node.go:332-352 *)
Definition get_sequence (root : node) (q : bytes) : M (option plist) :=
  get_loop (S (List.length q)) root q.
