(** Property C56: queries of an SQLite index that overlap. *)
From Coq Require Import List ZArith Lia Bool String.
From Coq Require Import Strings.Byte.
From Verif Require Import Base BaseFacts Value Json Index Sql SqlIndex SpecSql SqlPool SpecPool SqlPoolFacts SqlPoolFacts2.
Import ListNotations.
Open Scope Z_scope.

(** An index in a file answers every query as if it were the only one, whatever
    iterators are open, read in turns or left unread. *)
Theorem C56_file : forall pick visit fts_ok fts_match k n inp f d' evs,
  srun visit fts_ok fts_match (start k inp) f = (d', Ok tt) ->
  pool_events false pick visit fts_ok fts_match (positions_of k n) evs
    (fst (fst (pool_run false pick visit fts_ok fts_match (start k inp) O (new_pool f)))) =
  spec_events (fun fs => answers visit fts_ok fts_match k n fs d') evs [].
Proof. exact file_pool. Qed.
Print Assumptions C56_file.

(** An index in ":memory:" does so when each iterator is read to its end before the
    next query. *)
Theorem C56_memory_partial : forall pick visit fts_ok fts_match, takes_free pick ->
  forall k n inp f d' evs,
  srun visit fts_ok fts_match (start k inp) empty_db = (d', Ok tt) ->
  one_at_a_time (fun fs => answers visit fts_ok fts_match k n fs d') evs [] ->
  pool_events true pick visit fts_ok fts_match (positions_of k n) evs
    (fst (fst (pool_run true pick visit fts_ok fts_match (start k inp) O (new_pool f)))) =
  spec_events (fun fs => answers visit fts_ok fts_match k n fs d') evs [].
Proof. exact memory_pool. Qed.
Print Assumptions C56_memory_partial.

(** Whatever is asked and however much of it is read, at most two connections wait idly, and the others are
    those of iterators that were not read to their end. *)
Theorem C56_connections : forall memory pick visit fts_ok fts_match k n inp f evs,
  let p := pool_after memory pick visit fts_ok fts_match (positions_of k n) evs
    (fst (fst (pool_run memory pick visit fts_ok fts_match (start k inp) O (new_pool f)))) in
  (idle p <= 2 /\ busy p <= unread p)%nat.
Proof. exact (fun memory pick visit fts_ok fts_match k n inp => connections memory pick visit fts_ok fts_match (positions_of k n) (start k inp)). Qed.
Print Assumptions C56_connections.

(** *** An index over three people *)

Definition someone (pos : Z) (name : string) : res rec :=
  Ok (mkRec pos (fun p => if bytes_eqb p (lit "name") then Ok (VString (lit name)) else Ok VNil) (Ok [])).
Definition users : input :=
  mkInput (lit "users") (Ok 60) (Ok 1600000000) [someone 0 "ann"; someone 20 "bob"; someone 40 "ann"] (fun _ => Err EIo).
Definition by_name : index_kind := ISqlite (mkSconfig (lit "name") (lit "users") [(lit "name", lit "NOCASE")]).
Definition named (s : string) : list (bytes * value) := [(lit "name", VString (lit s))].
Definition first_free (l : list nat) : nat := hd O l.
Definition last_free (l : list nat) : nat := last l O.
Definition matching_all (t : table) (_ : sqlv) : res (list (list sqlv)) := Ok (t_rows t).

Definition events_of (memory : bool) (pick : list nat -> nat) (es : list event) : list outcome :=
  pool_events memory pick (map Ok) (fun _ _ _ => true) matching_all (positions_of by_name (lit "users")) es
    (fst (fst (pool_run memory pick (map Ok) (fun _ _ _ => true) matching_all (start by_name users) O (new_pool empty_db)))).
Definition name_db : db := fst (srun (map Ok) (fun _ _ _ => true) matching_all (start by_name users) empty_db).
Definition name_answers (fs : list (bytes * value)) : res iter :=
  answers (map Ok) (fun _ _ _ => true) matching_all by_name (lit "users") fs name_db.

Definition read_both : list event :=
  [EOpen (named "ann"); ENext 0; ENext 0; ENext 0; EOpen (named "BOB"); ENext 1; ENext 1; ENext 0].
Definition in_turns : list event :=
  [EOpen (named "ann"); ENext 0; EOpen (named "bob"); ENext 1; ENext 0; EOpen (named "ann"); ENext 1; ENext 2; ENext 0].

Lemma first_takes_free : takes_free first_free.
Proof. intros [|x l] H; [now destruct H|now left]. Qed.

Lemma last_takes_free : takes_free last_free.
Proof.
  intros l H. destruct (exists_last H) as [l' [x ->]]. unfold last_free. rewrite last_last. apply in_app_iff. right. now left.
Qed.

Example C56_example :
  srun (map Ok) (fun _ _ _ => true) matching_all (start by_name users) empty_db = (name_db, Ok tt) /\
  one_at_a_time name_answers read_both [] /\ takes_free last_free /\
  events_of true last_free read_both =
    [OOpen (Ok tt); ONext (Ok (Some 0)); ONext (Ok (Some 40)); ONext (Ok None); OOpen (Ok tt); ONext (Ok (Some 20)); ONext (Ok None); ONext (Ok None)] /\
  events_of false first_free in_turns =
    [OOpen (Ok tt); ONext (Ok (Some 0)); OOpen (Ok tt); ONext (Ok (Some 20)); ONext (Ok (Some 40)); OOpen (Ok tt);
     ONext (Ok None); ONext (Ok (Some 0)); ONext (Ok None)].
Proof.
  split; [vm_compute; reflexivity|].
  split; [vm_compute; repeat split; repeat constructor|].
  split; [apply last_takes_free|]. split; vm_compute; reflexivity.
Qed.

(** Both are reached: four iterators at once keep four connections; when they are read to their end two of these
    are closed. *)
Example C56_connections_example :
  let at_once := repeat (EOpen (named "bob")) 4 in
  let p es := pool_after false first_free (map Ok) (fun _ _ _ => true) matching_all (positions_of by_name (lit "users")) es
    (fst (fst (pool_run false first_free (map Ok) (fun _ _ _ => true) matching_all (start by_name users) O (new_pool empty_db)))) in
  let all_read := at_once ++ flat_map (fun j => [ENext j; ENext j]) [0; 1; 2; 3]%nat in
  (idle (p at_once) = 0 /\ busy (p at_once) = 4 /\ unread (p at_once) = 4 /\
   idle (p all_read) = 2 /\ busy (p all_read) = 0 /\ unread (p all_read) = 0)%nat.
Proof. vm_compute. repeat split. Qed.

(** The first position of an iterator is read, as for an object
    (pkg/output/json_object.go:97), or a list goes on being read while a relationship
    is looked up in the same index: the next query, and all that follow it,
    get an empty database. *)
Theorem C56_memory_refuted : exists pick visit fts_ok fts_match k n inp d' fs es,
  takes_free pick /\ srun visit fts_ok fts_match (start k inp) empty_db = (d', Ok tt) /\
  let outcomes := pool_events true pick visit fts_ok fts_match (positions_of k n) es
    (fst (fst (pool_run true pick visit fts_ok fts_match (start k inp) O (new_pool empty_db)))) in
  es = [EOpen fs; ENext 0; EOpen fs; EOpen fs] /\
  spec_events (fun fs => answers visit fts_ok fts_match k n fs d') es [] =
    [OOpen (Ok tt); ONext (Ok (Some 0)); OOpen (Ok tt); OOpen (Ok tt)] /\
  outcomes = [OOpen (Ok tt); ONext (Ok (Some 0)); OOpen (Err (EMsg "no such table")); OOpen (Err (EMsg "no such table"))].
Proof.
  exists first_free, (map Ok), (fun _ _ _ => true), matching_all, by_name, (lit "users"), users, name_db, (named "ann"),
    [EOpen (named "ann"); ENext 0; EOpen (named "ann"); EOpen (named "ann")].
  split; [apply first_takes_free|]. vm_compute. auto.
Qed.
Print Assumptions C56_memory_refuted.
