(** Properties of the wildcard index: C01 to C05, C07 (metadata), C08. *)
From Coq Require Import List ZArith Lia Bool String Permutation Sorted.
From Coq Require Import Strings.Byte.
From Verif Require Import Base Codec Stream Node Value Join WildcardMeta MetaFacts Wildcard SpecWildcard.
From Verif Require Import WildcardFacts WildcardFacts3 WildcardFacts6 WildcardFacts7 WildcardFacts8.
Import ListNotations.
Open Scope Z_scope.

(** C01 (one filter) and C02 (several): for any records with strings in the
    indexed properties and ascending positions, the creation succeeds and each
    lookup of non-empty (folded) queries iterates over exactly the positions of
    the records whose (folded) values contain all the queries, each once and in
    ascending order, in whatever order the filters are visited.  The last
    hypothesis is that the index is smaller than 2^48 bytes. *)
Theorem C01_C02_wildcard_search_exact : forall lower cfg inp r s,
  NoDup (wc_props cfg) -> indexable (wc_props cfg) inp ->
  StronglySorted Z.lt (iter_positions (in_iter inp)) ->
  create_index lower cfg inp created_stream = (r, s) -> zlen (st_file s ++ st_buf s) < max_alloc ->
  exists idx, r = Ok idx /\
    forall fs, fs <> [] -> Forall (fun g => In (fst g) (wc_props cfg) /\ fold_case lower (wc_ic cfg) (snd g) <> []) fs ->
    exists l, exact_answer (fold_case lower (wc_ic cfg)) (in_iter inp) fs l /\
      forall fs', Permutation fs fs' ->
        wildcard_positions lower cfg idx s (wc_input cfg) (map (fun f => (fst f, VString (snd f))) fs') = Ok (map Ok l).
Proof. exact wildcard_exact. Qed.
Print Assumptions C01_C02_wildcard_search_exact.

(** A data set to make this concrete; [lower] is ASCII lower casing. *)
Definition ascii_lower (s : bytes) : bytes :=
  map (fun b => let z := Z_of_byte b in if (65 <=? z) && (z <=? 90) then byte_of_Z (z + 32) else b) s.
Definition ex_rec (pos : Z) (a b : string) : rec :=
  mkRec pos (fun p => if bytes_eqb p (lit "a") then Ok (VString (lit a))
                      else if bytes_eqb p (lit "b") then Ok (VString (lit b)) else Err (EMsg "unknown property"))
        (Ok [(lit "a", VString (lit a)); (lit "b", VString (lit b))]).
Definition ex_input : input :=
  mkInput (lit "in") (Ok 100) (Ok 1600000000)
    [Ok (ex_rec 0 "Banana" "split"); Ok (ex_rec 17 "bandana" "Pan"); Ok (ex_rec 40 "" "an ananas"); Ok (ex_rec 63 "ana" "")]
    (fun _ => Err ENotFound).
Definition ex_cfg : wconfig := mkWconfig (lit "in") [lit "a"; lit "b"] true.
Lemma ex_indexable : indexable (wc_props ex_cfg) ex_input.
Proof.
  split; [exists 100; split; [reflexivity|vm_compute; split; congruence]|].
  split; [exists 1600000000; split; [reflexivity|vm_compute; split; congruence]|].
  unfold ex_input; cbn [in_iter]. repeat constructor.
  all: eexists; split; [reflexivity|]; split; [vm_compute; split; congruence|].
  all: repeat constructor; eexists; reflexivity.
Qed.
Definition ex_built := create_index ascii_lower ex_cfg ex_input created_stream.
Example C01_C02_example :
  NoDup (wc_props ex_cfg) /\ indexable (wc_props ex_cfg) ex_input /\
  StronglySorted Z.lt (iter_positions (in_iter ex_input)) /\
  (let s := snd ex_built in zlen (st_file s ++ st_buf s) < max_alloc) /\
  run_index ex_built False (fun idx s =>
    let q fs := wildcard_positions ascii_lower ex_cfg idx s (lit "in") (map (fun f => (lit (fst f), VString (lit (snd f)))) fs) in
    q [("a", "ANA")]%string = Ok [Ok 0; Ok 17; Ok 63] /\ q [("a", "an"); ("b", "p")]%string = Ok [Ok 0; Ok 17] /\
    q [("b", "P"); ("a", "d")]%string = Ok [Ok 17] /\ q [("b", "x")]%string = Ok []).
Proof.
  split; [repeat constructor; simpl; intuition discriminate|].
  split; [exact ex_indexable|].
  split; [vm_compute; repeat constructor|].
  split; [vm_compute; reflexivity|].
  vm_compute. repeat split.
Qed.

(** A query that is empty (after folding) finds nothing, whatever the other ones. *)
Theorem C01_empty_query : forall lower cfg inp r s, NoDup (wc_props cfg) -> indexable (wc_props cfg) inp ->
  create_index lower cfg inp created_stream = (r, s) -> zlen (st_file s ++ st_buf s) < max_alloc ->
  exists idx, r = Ok idx /\
    forall fs, Forall (fun g => In (fst g) (wc_props cfg)) fs -> Exists (fun g => fold_case lower (wc_ic cfg) (snd g) = []) fs ->
    wildcard_positions lower cfg idx s (wc_input cfg) (map (fun f => (fst f, VString (snd f))) fs) = Ok [].
Proof. exact wildcard_empty. Qed.
Print Assumptions C01_empty_query.

(** Every value contains the empty string, but looking it up finds nothing. *)
Theorem C01_empty_query_refuted : exists lower cfg inp idx s r,
  NoDup (wc_props cfg) /\ indexable (wc_props cfg) inp /\
  create_index lower cfg inp created_stream = (Ok idx, s) /\
  In (Ok r) (in_iter inp) /\ row_matches (fold_case lower (wc_ic cfg)) r (lit "a", []) /\
  wildcard_positions lower cfg idx s (wc_input cfg) [(lit "a", VString [])] = Ok [].
Proof.
  destruct (empty_witness ascii_lower ex_cfg ex_input) as (idx & s & H1 & H2); [vm_compute; reflexivity|].
  exists ascii_lower, ex_cfg, ex_input, idx, s, (ex_rec 0 "Banana" "split").
  split; [repeat constructor; simpl; intuition discriminate|].
  split; [exact ex_indexable|]. split; [exact H1|]. split; [left; reflexivity|].
  split; [exists (lit "Banana"); split; [reflexivity|exists [], (lit "banana"); reflexivity]|exact H2].
Qed.
Print Assumptions C01_empty_query_refuted.

(** C03.  The file of a successful creation opens again, with the same roots,
    and every lookup (of any filter, also erroneous ones) gives the same. *)
Theorem C03_reload_equivalent : forall lower cfg inp idx s,
  NoDup (wc_props cfg) -> indexable (wc_props cfg) inp ->
  create_index lower cfg inp created_stream = (Ok idx, s) -> zlen (st_file s ++ st_buf s) < max_alloc ->
  exists s2, load_index cfg inp (loaded_stream (st_file s)) = (Ok idx, s2) /\
  forall name fs, wildcard_positions lower cfg idx s2 name fs = wildcard_positions lower cfg idx s name fs.
Proof. exact wildcard_reload. Qed.
Print Assumptions C03_reload_equivalent.
Example C03_example :
  run_index (load_index ex_cfg ex_input (loaded_stream (st_file (snd ex_built)))) False (fun idx s2 =>
    wildcard_positions ascii_lower ex_cfg idx s2 (lit "in") [(lit "a", VString (lit "ana"))] = Ok [Ok 0; Ok 17; Ok 63]).
Proof. vm_compute. reflexivity. Qed.

(** C04, up to the write of the completed flag: the file left by a crash at
    any write, also in the middle of it, or by an indexing that fails, is
    rejected by any later start.  Missing: the time between that write and the
    last flush, see [C04_complete_but_unflushed_refuted]. *)
Theorem C04_interrupted_rejected_partial : forall lower cfg inp r s file cfg' inp',
  NoDup (wc_props cfg) -> indexable (wc_props cfg) inp ->
  create_body lower cfg inp created_stream = (r, s) -> zlen (st_file s ++ st_buf s) < max_alloc ->
  crash_file file_write_at (st_wlog s) file -> indexable (wc_props cfg') inp' ->
  exists e, fst (load_index cfg' inp' (loaded_stream file)) = Err e.
Proof. exact wildcard_interrupted. Qed.
Print Assumptions C04_interrupted_rejected_partial.

(** C04, all crashes: the file is rejected, or is a prefix of the finished
    file. *)
Theorem C04_rejected_or_prefix_partial : forall lower cfg inp r s file,
  NoDup (wc_props cfg) -> indexable (wc_props cfg) inp ->
  create_index lower cfg inp created_stream = (r, s) -> zlen (st_file s ++ st_buf s) < max_alloc ->
  crash_file file_write_at (st_wlog s) file ->
  (forall cfg' inp', indexable (wc_props cfg') inp' ->
     exists e, fst (load_index cfg' inp' (loaded_stream file)) = Err e) \/
  exists rest, st_file s = file ++ rest.
Proof. exact wildcard_crash. Qed.
Print Assumptions C04_rejected_or_prefix_partial.

(** An index larger than the write buffer. *)
Definition long_value : bytes := lit "daccdaaabcdcdaccaabbbdcccdaabbbdbdaddbdcddbbdaacbaddacdbdbcaaccabdbcbbd".
Definition long_rec : rec := mkRec 7 (fun _ => Ok (VString long_value)) (Ok []).
Definition long_input : input := mkInput (lit "in") (Ok 200) (Ok 1600000000) [Ok long_rec] (fun _ => Err ENotFound).
Definition long_cfg : wconfig := mkWconfig (lit "in") [lit "a"] false.
Lemma long_indexable : indexable (wc_props long_cfg) long_input.
Proof.
  split; [exists 200; split; [reflexivity|vm_compute; split; congruence]|].
  split; [exists 1600000000; split; [reflexivity|vm_compute; split; congruence]|].
  constructor; [|constructor]. eexists; split; [reflexivity|]; split; [vm_compute; split; congruence|].
  constructor; [eexists; reflexivity|constructor].
Qed.
Definition long_built := create_index (fun x => x) long_cfg long_input created_stream.

Lemma long_checked : unflushed_check (fun x => x) long_cfg long_input (lit "bcbb") = true.
Proof. vm_compute. reflexivity. Qed.

(** The log has more than two writes here (automatic flushes, writes into the
    flushed part, the flag, the last flush), so the two theorems above speak of
    actual crash points. *)
Example C04_example : exists idx s,
  create_index (fun x => x) long_cfg long_input created_stream = (Ok idx, s) /\
  let w := st_wlog s in let file := apply_writes file_write_at [] (firstn 2 w) in
  2 < zlen w /\ crash_file file_write_at w file /\
  is_err (fst (load_index long_cfg long_input (loaded_stream file))) = true.
Proof.
  destruct (unflushed_witness _ _ _ _ long_checked) as (idx & s & _ & _ & _ & _ & _ & H1 & _ & _ & _ & _ & _ & H2 & H3).
  exists idx, s. split; [exact H1|]. cbv zeta. split; [exact H2|]. split; [|exact H3].
  exists (firstn 2 (st_wlog s)), (skipn 2 (st_wlog s)), [].
  split; [symmetry; apply firstn_skipn|]. split; [left; reflexivity|]. rewrite app_nil_r. reflexivity.
Qed.

(** Stopping after the write of the completed flag and before the last flush
    leaves an accepted file which cannot answer. *)
Theorem C04_complete_but_unflushed_refuted : exists lower cfg inp idx s pre last file idx2 s2 q e,
  NoDup (wc_props cfg) /\ indexable (wc_props cfg) inp /\
  create_index lower cfg inp created_stream = (Ok idx, s) /\ st_wlog s = pre ++ [last] /\
  file = apply_writes file_write_at [] pre /\
  load_index cfg inp (loaded_stream file) = (Ok idx2, s2) /\
  wildcard_positions lower cfg idx s (wc_input cfg) [(lit "a", VString q)] = Ok [Ok 7] /\
  wildcard_positions lower cfg idx2 s2 (wc_input cfg) [(lit "a", VString q)] = Err e.
Proof.
  destruct (unflushed_witness _ _ _ _ long_checked) as (idx & s & pre & last & idx2 & s2 & e & H).
  exists (fun x => x), long_cfg, long_input, idx, s, pre, last, (apply_writes file_write_at [] pre), idx2, s2, (lit "bcbb"), e.
  split; [repeat constructor; simpl; intuition discriminate|]. split; [exact long_indexable|].
  destruct H as (H1 & H2 & H3 & H4 & H5 & H6 & _).
  split; [exact H1|]. split; [exact H2|]. split; [exact H3|]. split; [exact H4|]. split; [exact H5|exact H6].
Qed.
Print Assumptions C04_complete_but_unflushed_refuted.

(** C05.  A file is accepted only if its header carries the magic bytes, the
    version, the time (seconds), size and ignoreCase expected, the completed
    flag and as many roots as there are properties.  Missing: the names of the
    properties, see below. *)
Theorem C05_accepted_header_matches_partial : forall cfg inp file idx s,
  load_index cfg inp (loaded_stream file) = (Ok idx, s) -> header_matches cfg inp file.
Proof. exact load_accepts. Qed.
Print Assumptions C05_accepted_header_matches_partial.
Example C05_example :
  fst (load_index ex_cfg ex_input (loaded_stream (st_file (snd ex_built)))) = fst ex_built /\
  fst (load_index (mkWconfig (lit "in") [lit "a"; lit "b"] false) ex_input (loaded_stream (st_file (snd ex_built)))) = Err (EMsg "ignoreCase") /\
  fst (load_index (mkWconfig (lit "in") [lit "a"] true) ex_input (loaded_stream (st_file (snd ex_built)))) = Err (EMsg "properties") /\
  fst (load_index ex_cfg (mkInput (lit "in") (Ok 101) (Ok 1600000000) [] (fun _ => Err ENotFound)) (loaded_stream (st_file (snd ex_built)))) = Err (EMsg "input size changed").
Proof. vm_compute. repeat split. Qed.

(** An index of other properties of the same input is accepted, and gives the
    answers of the other property. *)
Theorem C05_other_properties_refuted : exists lower cfg cfg' inp idx s idx' s',
  create_index lower cfg inp created_stream = (Ok idx, s) /\
  wc_props cfg = [lit "a"] /\ wc_props cfg' = [lit "b"] /\ wc_ic cfg = wc_ic cfg' /\
  load_index cfg' inp (loaded_stream (st_file s)) = (Ok idx', s') /\
  exists l, wildcard_positions lower cfg' idx' s' (lit "in") [(lit "b", VString (lit "ban"))] = Ok (map Ok l) /\
    ~ exact_answer (fold_case lower (wc_ic cfg')) (in_iter inp) [(lit "b", lit "ban")] l.
Proof.
  set (cfg := mkWconfig (lit "in") [lit "a"] true). set (cfg' := mkWconfig (lit "in") [lit "b"] true).
  destruct (other_witness ascii_lower cfg cfg' ex_input (lit "b") (lit "ban") [0; 17]) as (idx & s & idx' & s' & H1 & H2 & H3);
    [vm_compute; reflexivity|].
  exists ascii_lower, cfg, cfg', ex_input, idx, s, idx', s'.
  split; [exact H1|]. split; [reflexivity|]. split; [reflexivity|]. split; [reflexivity|]. split; [exact H2|].
  exists [0; 17]. split.
  - exact H3.
  - intros [_ H]. destruct (proj1 (H 0) (or_introl eq_refl)) as (r & Hr & Hp & Hm).
    apply Forall_cons_iff in Hm as [(v & Hv & a & b & Hs) _].
    cbn [in_iter ex_input] in Hr. repeat (destruct Hr as [Hr|Hr]); try contradiction; injection Hr as <-; cbn in Hp; try discriminate Hp.
    vm_compute in Hv. injection Hv as <-. vm_compute in Hs.
    repeat (destruct a as [|? a]; [discriminate Hs|injection Hs as _ Hs]). destruct a; discriminate Hs.
Qed.
Print Assumptions C05_other_properties_refuted.

(** C07 for the metadata, whatever follows it in the file. *)
Theorem C07_metadata_round_trip : forall m rest, meta_fits m -> meta_unserialize (meta_serialize m ++ rest) = Ok m.
Proof. exact meta_roundtrip. Qed.
Print Assumptions C07_metadata_round_trip.
Example C07_metadata_example :
  let m := mkMeta ExpectedMagicBytes 65535 (-9223372036854775808) 9223372036854775807 true false [0; -1; 9223372036854775807] in
  meta_fits m /\ meta_unserialize (meta_serialize m ++ lit "more") = Ok m.
Proof.
  split; [|vm_compute; reflexivity]. unfold meta_fits. cbn [md_magic md_version md_mtime md_size md_roots].
  split; [reflexivity|]. split; [lia|]. unfold in_i64, two63. split; [lia|]. split; [lia|].
  split; [vm_compute; congruence|]. repeat (apply Forall_cons; [lia|]). apply Forall_nil.
Qed.

(** C08.  Opening any file returns, if the count of roots in its header (if it
    is long enough to have one) is between 0 and 2^45, the file is not exactly
    55 bytes long, and it is smaller than 2^48 bytes. *)
Theorem C08_open_returns_partial : forall cfg inp file,
  (forall x, in_mtime inp = x -> x <> Panic /\ x <> NoFuel) -> (forall x, in_size inp = x -> x <> Panic /\ x <> NoFuel) ->
  zlen file < max_alloc ->
  (47 <= zlen file -> 0 <= get_i64 (slice file 39 8) <= 35184372088832) -> zlen file <> 55 ->
  match fst (load_index cfg inp (loaded_stream file)) with Ok _ | Err _ => True | _ => False end.
Proof. exact load_safe'. Qed.
Print Assumptions C08_open_returns_partial.
Example C08_example :
  (let f := lit "not an index" in zlen f <> 55 /\ fst (load_index ex_cfg ex_input (loaded_stream f)) = Err EEof) /\
  (let f := repeat x00 60 in 0 <= get_i64 (slice f 39 8) <= 35184372088832 /\ fst (load_index ex_cfg ex_input (loaded_stream f)) = Err (EMsg "version")).
Proof. vm_compute. repeat split; congruence. Qed.

(** 47 bytes of 255, which are nothing like an index, crash the process: the
    slice of roots is allocated before the magic bytes are looked at. *)
Theorem C08_open_refuted : exists file, fst (load_index ex_cfg ex_input (loaded_stream file)) = Panic.
Proof. exists (repeat xff 47). vm_compute. reflexivity. Qed.
Print Assumptions C08_open_refuted.
(** So does a 55-byte file whose only root is at offset 2^63-1. *)
Theorem C08_root_offset_refuted : exists file, header_matches long_cfg long_input file /\
  fst (load_index long_cfg long_input (loaded_stream file)) = Panic.
Proof.
  exists (meta_serialize (mkMeta ExpectedMagicBytes CurrentVersion 1600000000 200 false true [9223372036854775807])).
  split; [|vm_compute; reflexivity]. vm_compute. repeat split; congruence.
Qed.
Print Assumptions C08_root_offset_refuted.
