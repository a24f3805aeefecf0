(** The wildcard theorems in the form used by the property files. *)
From Coq Require Import List ZArith Lia Bool String Permutation Sorted.
From Coq Require Import Strings.Byte.
From Verif Require Import Base BaseFacts Codec Stream StreamFacts Node Heap Radix Located.
From Verif Require Import NodeFacts NodeFacts2 NodeFacts3 Value Join SpecJoin JoinFacts WildcardMeta MetaFacts.
From Verif Require Import Wildcard WildcardFacts WildcardFacts2 SpecWildcard WildcardFacts3 WildcardFacts4 WildcardFacts5.
Import ListNotations.
Open Scope Z_scope.

Section W.
Variable lower : bytes -> bytes.

Lemma indexable_good props inp : indexable props inp ->
  good_input props inp /\ Forall (rec_ok props) (in_iter inp) /\ is_ok (in_size inp) = true /\ is_ok (in_mtime inp) = true.
Proof.
  intros ((sz & Es & Hs) & (mt & Em & Hm) & Hr). unfold good_input. rewrite Es, Em. cbn [safe is_ok].
  split; [|split; [|auto]].
  - split; [exact I|]. split; [exact I|]. split; [intros z [= <-]; assumption|]. split; [intros z [= <-]; assumption|].
    eapply Forall_impl; [|exact Hr]. intros it (r & -> & Hp & Hv). split; [exact I|]. intros r' [= <-]. split; [assumption|].
    eapply Forall_impl; [|exact Hv]. intros p (v & ->). exact I.
  - eapply Forall_impl; [|exact Hr]. intros it (r & -> & Hp & Hv). exists r. auto.
Qed.

Lemma wildcard_build cfg inp r s : NoDup (wc_props cfg) -> indexable (wc_props cfg) inp ->
  create_index lower cfg inp created_stream = (r, s) -> fits s ->
  exists mtime size f H, r = Ok (idx_of f) /\ created lower cfg inp mtime size f H s.
Proof.
  intros Hnd Hin E Hb. destruct (indexable_good _ _ Hin) as (Hg & Hr & H1 & H2).
  destruct (w_create_index lower cfg inp r s Hnd Hg E Hb) as (Hs & Hok & Herr).
  destruct r as [idx|e| |]; cbn [safe] in Hs; try contradiction.
  - destruct (Hok idx eq_refl) as (mtime & size & f & H & -> & Hc). eauto 10.
  - destruct (Herr e eq_refl) as [H|[H|H]]; congruence || contradiction.
Qed.

Lemma iter_Ok (l : list Z) : list_iterate l = map Ok l.
Proof. reflexivity. Qed.

Lemma sorted_ext l l' : StronglySorted Z.lt l -> StronglySorted Z.lt l' -> (forall x, In x l <-> In x l') -> l = l'.
Proof.
  intros H1 H2 H. apply sorted_occ_unique; try (apply strict_sorted_le; assumption).
  intros x. unfold occ. apply strict_sorted_nodup in H1, H2.
  rewrite (NoDup_count_occ Z.eq_dec) in H1, H2. specialize (H1 x). specialize (H2 x). specialize (H x).
  rewrite !(count_occ_In Z.eq_dec) in H. lia.
Qed.

Lemma exact_answer_perm fold its fs fs' l l' : Permutation fs fs' ->
  exact_answer fold its fs l -> exact_answer fold its fs' l' -> l = l'.
Proof.
  intros Hp [H1 H2] [H3 H4]. apply sorted_ext; try assumption. intros x. rewrite H2, H4.
  split; intros (r & Hr & Hx & Hf); exists r; (split; [assumption|split; [assumption|]]).
  - eapply Permutation_Forall; eassumption.
  - eapply Permutation_Forall; [apply Permutation_sym|]; eassumption.
Qed.

Theorem wildcard_exact cfg inp r s : NoDup (wc_props cfg) -> indexable (wc_props cfg) inp ->
  StronglySorted Z.lt (iter_positions (in_iter inp)) ->
  create_index lower cfg inp created_stream = (r, s) -> zlen (st_file s ++ st_buf s) < max_alloc ->
  exists idx, r = Ok idx /\
    forall fs, fs <> [] -> Forall (fun g => In (fst g) (wc_props cfg) /\ fold_case lower (wc_ic cfg) (snd g) <> []) fs ->
    exists l, exact_answer (fold_case lower (wc_ic cfg)) (in_iter inp) fs l /\
      forall fs', Permutation fs fs' ->
        wildcard_positions lower cfg idx s (wc_input cfg) (map (fun f => (fst f, VString (snd f))) fs') = Ok (map Ok l).
Proof.
  intros Hnd Hin Hsort E Hb. destruct (wildcard_build cfg inp r s Hnd Hin E Hb) as (mtime & size & f & H & -> & Hc).
  exists (idx_of f). split; [reflexivity|]. intros fs Hne Hfs.
  destruct (w_positions lower cfg inp mtime size f H s fs Hc Hb Hsort Hne Hfs) as (l & El & Hl).
  exists l. split; [assumption|]. intros fs' Hp.
  destruct (w_positions lower cfg inp mtime size f H s fs' Hc Hb Hsort) as (l' & El' & Hl').
  - intros ->. apply Permutation_sym, Permutation_nil in Hp. contradiction.
  - eapply Permutation_Forall; eassumption.
  - rewrite (exact_answer_perm _ _ _ _ _ _ Hp Hl Hl'). exact El'.
Qed.

Theorem wildcard_reload cfg inp idx s : NoDup (wc_props cfg) -> indexable (wc_props cfg) inp ->
  create_index lower cfg inp created_stream = (Ok idx, s) -> zlen (st_file s ++ st_buf s) < max_alloc ->
  exists s2, load_index cfg inp (loaded_stream (st_file s)) = (Ok idx, s2) /\
  forall name fs, wildcard_positions lower cfg idx s2 name fs = wildcard_positions lower cfg idx s name fs.
Proof.
  intros Hnd Hin E Hb. destruct (indexable_good _ _ Hin) as (Hg & _).
  destruct (w_create_index lower cfg inp _ s Hnd Hg E Hb) as (_ & Hok & _).
  destruct (Hok idx eq_refl) as (mtime & size & f & H & -> & Hc).
  destruct Hg as (_ & _ & Hi1 & Hi2 & _).
  destruct (w_reload lower cfg inp mtime size f H s) as [H1 H2]; auto.
  - apply Hi2. apply Hc.
  - apply Hi1. apply Hc.
  - eexists. split; [exact H1|exact H2].
Qed.
Theorem wildcard_interrupted cfg inp r s file cfg' inp' :
  NoDup (wc_props cfg) -> indexable (wc_props cfg) inp ->
  create_body lower cfg inp created_stream = (r, s) -> zlen (st_file s ++ st_buf s) < max_alloc ->
  crash_file file_write_at (st_wlog s) file -> indexable (wc_props cfg') inp' ->
  exists e, fst (load_index cfg' inp' (loaded_stream file)) = Err e.
Proof.
  intros Hnd Hin E Hb Hcr Hin'. destruct (indexable_good _ _ Hin) as (Hg & _). destruct (indexable_good _ _ Hin') as ((H1 & H2 & _) & _).
  eapply w_crash; eassumption.
Qed.

Theorem wildcard_crash cfg inp r s file :
  NoDup (wc_props cfg) -> indexable (wc_props cfg) inp ->
  create_index lower cfg inp created_stream = (r, s) -> zlen (st_file s ++ st_buf s) < max_alloc ->
  crash_file file_write_at (st_wlog s) file ->
  (forall cfg' inp', indexable (wc_props cfg') inp' ->
     exists e, fst (load_index cfg' inp' (loaded_stream file)) = Err e) \/
  exists rest, st_file s = file ++ rest.
Proof.
  intros Hnd Hin E Hb Hcr. destruct (indexable_good _ _ Hin) as (Hg & _).
  destruct (w_crash_all lower cfg inp r s file Hnd Hg E Hb Hcr) as [H|[_ H]]; [left|right; assumption].
  intros cfg' inp' Hin'. destruct (indexable_good _ _ Hin') as ((H1 & H2 & _) & _). apply H; assumption.
Qed.
End W.

(** ** Checking concrete witnesses by computation *)

Definition is_err {A} (r : res A) : bool := match r with Err _ => true | _ => false end.
Fixpoint yields (r : iter) (l : list Z) : bool :=
  match r, l with
  | [], [] => true
  | Ok x :: r', y :: l' => (x =? y) && yields r' l'
  | _, _ => false
  end.
Definition answers (r : res iter) (l : list Z) : bool := match r with Ok i => yields i l | _ => false end.
Lemma yields_eq r : forall l, yields r l = true -> r = map Ok l.
Proof.
  induction r as [|[x| | |] r IH]; intros [|y l] H; try discriminate H; [reflexivity|].
  cbn in H. apply andb_true_iff in H as [H1 H2]. apply Z.eqb_eq in H1. subst. cbn. f_equal. auto.
Qed.
Lemma answers_eq r l : answers r l = true -> r = Ok (map Ok l).
Proof. destruct r; intros H; try discriminate H. f_equal. apply yields_eq, H. Qed.

Section Witness.
Variable lower : bytes -> bytes.
Variable cfg cfg' : wconfig.
Variable inp : input.
Variable p q : bytes.

Definition run_index {A} (x : res windex * stream) (d : A) (k : windex -> stream -> A) : A :=
  let (r, s) := x in match r with Ok idx => k idx s | _ => d end.
Lemma run_index_true x (k : windex -> stream -> bool) : run_index x false k = true ->
  exists idx s, x = (Ok idx, s) /\ k idx s = true.
Proof. destruct x as [[idx| | |] s]; cbn; intros H; try discriminate H. eauto. Qed.

Definition empty_check : bool :=
  run_index (create_index lower cfg inp created_stream) false (fun idx s =>
    answers (wildcard_positions lower cfg idx s (wc_input cfg) [(lit "a", VString [])]) []).
Lemma empty_witness : empty_check = true -> exists idx s,
  create_index lower cfg inp created_stream = (Ok idx, s) /\
  wildcard_positions lower cfg idx s (wc_input cfg) [(lit "a", VString [])] = Ok [].
Proof.
  intros H. apply run_index_true in H as (idx & s & E & H). exists idx, s. split; [exact E|]. apply answers_eq in H. exact H.
Qed.

Definition unflushed_check : bool :=
  run_index (create_index lower cfg inp created_stream) false (fun idx s =>
    run_index (load_index cfg inp (loaded_stream (apply_writes file_write_at [] (removelast (st_wlog s))))) false (fun idx2 s2 =>
      negb (is_nil (st_wlog s)) && answers (wildcard_positions lower cfg idx s (wc_input cfg) [(lit "a", VString q)]) [7]
      && is_err (wildcard_positions lower cfg idx2 s2 (wc_input cfg) [(lit "a", VString q)])
      && (2 <? zlen (st_wlog s))
      && is_err (fst (load_index cfg inp (loaded_stream (apply_writes file_write_at [] (firstn 2 (st_wlog s)))))))).
Lemma unflushed_witness : unflushed_check = true -> exists idx s pre last idx2 s2 e,
  create_index lower cfg inp created_stream = (Ok idx, s) /\ st_wlog s = pre ++ [last] /\
  apply_writes file_write_at [] pre = apply_writes file_write_at [] pre /\
  load_index cfg inp (loaded_stream (apply_writes file_write_at [] pre)) = (Ok idx2, s2) /\
  wildcard_positions lower cfg idx s (wc_input cfg) [(lit "a", VString q)] = Ok [Ok 7] /\
  wildcard_positions lower cfg idx2 s2 (wc_input cfg) [(lit "a", VString q)] = Err e /\
  2 < zlen (st_wlog s) /\
  is_err (fst (load_index cfg inp (loaded_stream (apply_writes file_write_at [] (firstn 2 (st_wlog s)))))) = true.
Proof.
  intros H. apply run_index_true in H as (idx & s & E & H). apply run_index_true in H as (idx2 & s2 & E2 & H).
  apply andb_true_iff in H as [H H5]. apply andb_true_iff in H as [H H4]. apply Z.ltb_lt in H4.
  apply andb_true_iff in H as [H H3]. apply andb_true_iff in H as [H1 H2]. apply answers_eq in H2.
  destruct (wildcard_positions lower cfg idx2 s2 _ _) as [|e| |] eqn:Q2; try discriminate H3.
  destruct (st_wlog s) as [|w0 w] eqn:Ew; [discriminate H1|].
  exists idx, s, (removelast (w0 :: w)), (List.last (w0 :: w) w0), idx2, s2, e.
  split; [exact E|]. split; [rewrite Ew; apply app_removelast_last; discriminate|]. rewrite Ew. auto 10.
Qed.

Variable l : list Z.
Definition other_check : bool :=
  run_index (create_index lower cfg inp created_stream) false (fun idx s =>
    run_index (load_index cfg' inp (loaded_stream (st_file s))) false (fun idx2 s2 =>
      answers (wildcard_positions lower cfg' idx2 s2 (lit "in") [(p, VString q)]) l)).
Lemma other_witness : other_check = true -> exists idx s idx' s',
  create_index lower cfg inp created_stream = (Ok idx, s) /\
  load_index cfg' inp (loaded_stream (st_file s)) = (Ok idx', s') /\
  wildcard_positions lower cfg' idx' s' (lit "in") [(p, VString q)] = Ok (map Ok l).
Proof.
  intros H. apply run_index_true in H as (idx & s & E & H). apply run_index_true in H as (idx2 & s2 & E2 & H).
  apply answers_eq in H. eauto 10.
Qed.
End Witness.
