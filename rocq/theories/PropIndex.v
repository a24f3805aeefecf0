(** Properties C11-C14: the map index and the default (noop) index. *)
From Coq Require Import List ZArith Lia Bool String Permutation Sorted.
From Coq Require Import Strings.Byte Floats.SpecFloat.
From Verif Require Import Base Value Join Wildcard Index SpecIndex IndexFacts.
Import ListNotations.
Open Scope Z_scope.

(** C11.  For a map index on distinct properties (checked by the validation)
    over readable records with primitive or null values, creation succeeds and
    every lookup returns exactly the positions of the records equal to all the
    filters, in file order, whatever the order of the filters. *)
Theorem C11_map_index_exact : forall cfg inp rs,
  NoDup (mc_props cfg) -> in_iter inp = map Ok rs -> readable (mc_props cfg) rs -> in_file_order rs ->
  exists idx, map_reindex cfg inp = Ok idx /\
  forall fs, fs <> [] -> Forall (fun f => In (fst f) (mc_props cfg) /\ primitive (snd f)) fs ->
  exists l, selected (satisfies fs) rs l /\ map_positions cfg idx (mc_input cfg) fs = Ok (map Ok l).
Proof. exact map_exact. Qed.
Print Assumptions C11_map_index_exact.

(** C13 (missing: an array or object compared with another one, see
    C13_array_filter_refuted).  The noop index returns exactly the positions of the records equal to
    all the filters, in the order of the input ... *)
Theorem C13_noop_exact_partial : forall inp rs fs, in_iter inp = map Ok rs -> comparable fs rs ->
  exists l, selected (satisfies fs) rs l /\ noop_positions inp fs = Ok (map Ok l).
Proof. exact noop_exact. Qed.
Print Assumptions C13_noop_exact_partial.

(** ... every record when there is no filter ... *)
Theorem C13_noop_without_filter : forall inp rs, in_iter inp = map Ok rs ->
  noop_positions inp [] = Ok (map Ok (map r_pos rs)).
Proof. exact noop_all. Qed.
Print Assumptions C13_noop_without_filter.

(** ... and a read error of the input is reported after the positions selected
    among the previous records. *)
Theorem C13_noop_reports_errors : forall inp rs e its fs,
  in_iter inp = map Ok rs ++ Err e :: its -> comparable fs rs ->
  exists l more, selected (satisfies fs) rs l /\ noop_positions inp fs = Ok (map Ok l ++ Err e :: more).
Proof. exact noop_error. Qed.
Print Assumptions C13_noop_reports_errors.

(** A selection is determined by the records and the condition. *)
Theorem C13_selection_determined : forall P rs l l', selected P rs l -> selected P rs l' -> l = l'.
Proof. exact selected_unique. Qed.
Print Assumptions C13_selection_determined.

(** C14.  Both indexes return the same results, for any order of the filters. *)
Theorem C14_map_equals_noop : forall cfg inp rs,
  NoDup (mc_props cfg) -> in_iter inp = map Ok rs -> readable (mc_props cfg) rs -> in_file_order rs ->
  exists idx, map_reindex cfg inp = Ok idx /\
  forall fs fs', fs <> [] -> Forall (fun f => In (fst f) (mc_props cfg) /\ primitive (snd f)) fs -> Permutation fs fs' ->
  map_positions cfg idx (mc_input cfg) fs = noop_positions inp fs'.
Proof. exact map_noop. Qed.
Print Assumptions C14_map_equals_noop.

(** Four records with strings, integers, a null and a not-a-number. *)
Definition ex_rec (pos : Z) (kv : list (bytes * value)) : rec :=
  mkRec pos (fun p => Ok match mget kv p with Some v => v | None => VNil end) (Ok kv).
Definition ex_rows : list rec :=
  [ ex_rec 10 [(lit "a", VString (lit "x")); (lit "b", VInt 1)];
    ex_rec 25 [(lit "a", VString (lit "y")); (lit "b", VInt 1)];
    ex_rec 31 [(lit "a", VString (lit "x")); (lit "b", VFloat S754_nan)];
    ex_rec 47 [(lit "a", VString (lit "x")); (lit "b", VInt 1)];
    ex_rec 50 [(lit "b", VFloat (S754_zero true))] ].
Definition ex_inp : input := mkInput (lit "in") (Ok 60) (Ok 0) (map Ok ex_rows) (fun _ => Err ENotFound).
Definition ex_mc : mconfig := mkMconfig (lit "in") [lit "a"; lit "b"].
Definition ex_find (fs : list (bytes * value)) : res iter * res iter :=
  (rlet idx := map_reindex ex_mc ex_inp in map_positions ex_mc idx (lit "in") fs, noop_positions ex_inp fs).

Example C11_C13_C14_example :
  (NoDup (mc_props ex_mc) /\ in_iter ex_inp = map Ok ex_rows /\ readable (mc_props ex_mc) ex_rows /\ in_file_order ex_rows) /\
  ex_find [(lit "a", VString (lit "x")); (lit "b", VInt 1)] = (Ok [Ok 10; Ok 47], Ok [Ok 10; Ok 47]) /\
  ex_find [(lit "a", VNil)] = (Ok [Ok 50], Ok [Ok 50]) /\
  ex_find [(lit "b", VFloat (S754_zero false))] = (Ok [Ok 50], Ok [Ok 50]) /\
  ex_find [(lit "b", VFloat S754_nan)] = (Ok [], Ok []) /\
  ex_find [(lit "b", VString (lit "1"))] = (Ok [], Ok []).
Proof.
  split; [|vm_compute; auto 10].
  split; [repeat constructor; cbn; intuition discriminate|]. split; [reflexivity|]. split.
  - repeat constructor; eexists; (split; [reflexivity|exact I]).
  - unfold in_file_order. cbn. repeat constructor.
Qed.

(** C12 does not hold.  A dataset with one string array makes the creation of
    the map index panic, and the creation of the wildcard index fail. *)
Theorem C12_array_values_refuted : exists r p l inp,
  in_iter inp = [Ok r] /\ r_get r p = Ok (VList l) /\ Forall (fun v => exists s, v = VString s) l /\
  map_reindex (mkMconfig (lit "in") [p]) inp = Panic /\
  fst (create_index (fun s => s) (mkWconfig (lit "in") [p] false) inp created_stream) = Err (EMsg "not a string").
Proof.
  exists (ex_rec 3 [(lit "tags", VList [VString (lit "red"); VString (lit "blue")])]), (lit "tags"),
    [VString (lit "red"); VString (lit "blue")],
    (mkInput (lit "in") (Ok 60) (Ok 0) [Ok (ex_rec 3 [(lit "tags", VList [VString (lit "red"); VString (lit "blue")])])] (fun _ => Err ENotFound)).
  split; [reflexivity|]. split; [reflexivity|]. split; [|split; vm_compute; reflexivity].
  repeat constructor; eexists; reflexivity.
Qed.
Print Assumptions C12_array_values_refuted.

(** It is no accident of that dataset: with an array in an indexed property,
    the creation never succeeds. *)
Theorem C12_map_never_indexes_arrays : forall cfg inp r p l idx,
  In (Ok r) (in_iter inp) -> In p (mc_props cfg) -> r_get r p = Ok (VList l) -> map_reindex cfg inp <> Ok idx.
Proof. exact map_list_never. Qed.
Print Assumptions C12_map_never_indexes_arrays.

Theorem C12_wildcard_never_indexes_arrays : forall lower cfg inp r p l s0 idx s,
  In (Ok r) (in_iter inp) -> In p (wc_props cfg) -> r_get r p = Ok (VList l) ->
  create_index lower cfg inp s0 <> (Ok idx, s).
Proof. exact wildcard_list_never. Qed.
Print Assumptions C12_wildcard_never_indexes_arrays.

(** The lookups panic when a filter is an array (a parameter whose parser is a
    split parser): the map index always, the noop index when the property
    holds an array too. *)
Theorem C13_array_filter_refuted : exists p l r inp,
  in_iter inp = [Ok r] /\ r_get r p = Ok (VList l) /\ noop_positions inp [(p, VList l)] = Ok [Panic] /\
  forall idx, mget idx p <> None -> map_positions (mkMconfig (in_name inp) [p]) idx (in_name inp) [(p, VList l)] = Panic.
Proof.
  exists (lit "tags"), [VString (lit "red")], (ex_rec 3 [(lit "tags", VList [VString (lit "red")])]),
    (mkInput (lit "in") (Ok 60) (Ok 0) [Ok (ex_rec 3 [(lit "tags", VList [VString (lit "red")])])] (fun _ => Err ENotFound)).
  split; [reflexivity|]. split; [reflexivity|]. split; [reflexivity|].
  intros idx H. unfold map_positions. cbn [map_filter_iters mc_input mc_props in_name does_handle_property].
  destruct (mget idx (lit "tags")) as [m|]; [reflexivity|congruence].
Qed.
Print Assumptions C13_array_filter_refuted.
