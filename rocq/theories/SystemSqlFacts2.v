(** Opening the databases succeeds. *)
From Coq Require Import List ZArith Lia Bool String.
From Coq Require Import Strings.Byte.
From Verif Require Import Sql SqlIndex SpecSql SpecSqlFind SqlFacts SqlRunFacts SqlLifeFacts SqlInvFacts SqlCreateFacts SqlHistoryFacts SqlFindFacts.
From Verif Require Import Base BaseFacts Value Index Output SpecIndex SpecOutput Config System SpecSystem SystemSqlFacts.
Import ListNotations.
Open Scope Z_scope.

Lemma name_eqb_sym_false a b : name_eqb a b = false -> name_eqb b a = false.
Proof. rewrite !name_eqb_false. auto. Qed.

(** *** The names of two indexes *)

Lemma shadow_shadow a b s t : fold_name a <> fold_name b -> In s shadow_suffixes -> In t shadow_suffixes ->
  name_eqb (rows_name a ++ s) (rows_name b ++ t) = false.
Proof.
  intros N Hs Ht. unfold shadow_suffixes in Hs, Ht. cbn [In] in Hs, Ht.
  assert (S : forall x, name_eqb (rows_name a ++ x) (rows_name b ++ x) = false).
  { intros x. rewrite name_eqb_false, !fold_app. intros E. apply app_inv_tail in E. apply N, rows_inj, name_eqb_iff, E. }
  assert (L : forall x c y c', lower_ascii c <> lower_ascii c' -> name_eqb (rows_name a ++ x ++ [c]) (rows_name b ++ y ++ [c']) = false).
  { intros x c y c' Nc. rewrite !app_assoc. apply suffix_neq; [reflexivity|]. cbn. congruence. }
  destruct Hs as [<-|[<-|[<-|[<-|[<-|[]]]]]], Ht as [<-|[<-|[<-|[<-|[<-|[]]]]]]; try apply S;
    [apply (L (lit "_dat") _ (lit "_id"))|apply (L (lit "_dat") _ (lit "_conten"))|apply (L (lit "_dat") _ (lit "_docsiz"))|apply (L (lit "_dat") _ (lit "_confi"))
    |apply (L (lit "_id") _ (lit "_dat"))|apply (L (lit "_id") _ (lit "_conten"))|apply (L (lit "_id") _ (lit "_docsiz"))|apply (L (lit "_id") _ (lit "_confi"))
    |apply (L (lit "_conten") _ (lit "_dat"))|apply (L (lit "_conten") _ (lit "_id"))|apply (L (lit "_conten") _ (lit "_docsiz"))|apply (L (lit "_conten") _ (lit "_confi"))
    |apply (L (lit "_docsiz") _ (lit "_dat"))|apply (L (lit "_docsiz") _ (lit "_id"))|apply (L (lit "_docsiz") _ (lit "_conten"))|apply (L (lit "_docsiz") _ (lit "_confi"))
    |apply (L (lit "_confi") _ (lit "_dat"))|apply (L (lit "_confi") _ (lit "_id"))|apply (L (lit "_confi") _ (lit "_conten"))|apply (L (lit "_confi") _ (lit "_docsiz"))];
    vm_compute; discriminate.
Qed.

Lemma own_disjoint a b x y : fold_name a <> fold_name b -> In x (own_tables a) -> In y (own_tables b) -> name_eqb x y = false.
Proof.
  intros N Hx Hy. unfold own_tables in Hy. destruct Hy as [<-|[<-|Hy]].
  - apply (other_tables a b); [exact N|exact Hx|now left].
  - apply (other_tables a b); [exact N|exact Hx|right; now left].
  - destruct Hx as [<-|[<-|Hx]].
    + apply name_eqb_sym_false, (other_tables b a); [congruence|right; right; exact Hy|now left].
    + apply name_eqb_sym_false, (other_tables b a); [congruence|right; right; exact Hy|right; now left].
    + apply in_map_iff in Hx as (s & <- & Hs). apply in_map_iff in Hy as (t & <- & Ht). now apply shadow_shadow.
Qed.

(** Two indexes of one database do not share a name. *)
Definition apart (k j : index_kind) : Prop :=
  fold_name (kind_name k) <> fold_name (kind_name j) /\
  forall x y, In x (column_indexes k) -> In y (column_indexes j) -> fold_name x <> fold_name y.

Section Databases.
Variable visit : list (list sqlv) -> list (res (list sqlv)).
Variable fts_ok : list bytes -> bytes -> bytes -> bool.
Variable fts_match : Sql.table -> sqlv -> res (list (list sqlv)).
Notation run := (srun visit fts_ok fts_match).
Notation exec := (exec_stmt visit fts_ok fts_match).

Lemma exec_unused s args d d' a x : exec s args d = Ok (d', a) -> (forall y, In y (touches s) -> name_eqb y x = false) ->
  Forall (fun i => fold_name i <> fold_name x) (adds s) -> unused d x -> unused d' x.
Proof.
  intros E N F [U1 U2]. split; [rewrite (exec_frame _ _ _ _ _ _ _ _ x E N); exact U1|].
  destruct s; try (rewrite (exec_indexes _ _ _ _ _ _ _ _ E) by discriminate; exact U2).
  cbn [adds] in F. inversion F as [|? ? Fi _]; subst. cbn [exec_stmt] in E.
  repeat match type of E with
  | (match ?e with _ => _ end) = Ok _ => destruct e; try discriminate E
  | (if ?e then _ else _) = Ok _ => destruct e; try discriminate E
  end. injection E as <- _. cbn [d_indexes]. try apply Forall_app; try split; auto.
Qed.

Lemma start_unused k inp d d' x : nul_free (kind_name k) -> validated_collations k ->
  (forall y, In y (own_tables (kind_name k)) -> name_eqb y x = false) -> Forall (fun i => fold_name i <> fold_name x) (column_indexes k) ->
  run (SpecSql.start k inp) d = (d', Ok tt) -> unused d x -> unused d' x.
Proof.
  intros Hn Hv Hx Hf E U.
  pose proof (start_frame visit fts_ok fts_match (fun d => unused d x) (fun i => fold_name i <> fold_name x) k inp d x Hn (validated_word _ Hv) Hx Hf) as S.
  apply (holds_run _ _ _ _ _ _ _ _ _ (S (fun s args d1 d2 a E1 N F U1 => exec_unused s args d1 d2 a x E1 N F U1) U) E).
Qed.

Lemma creatable_kept k j inp d d' : apart k j -> nul_free (kind_name j) -> validated_collations j ->
  run (SpecSql.start j inp) d = (d', Ok tt) -> creatable fts_ok k d -> creatable fts_ok k d'.
Proof.
  intros [N Ni] Hn Hv E (K1 & K2 & K3 & K4 & K5 & K6).
  assert (Ut : forall x, In x (own_tables (kind_name k)) -> unused d x -> unused d' x).
  { intros x Hx. apply (start_unused j inp d d' x Hn Hv); [| |exact E].
    - intros y Hy. apply (own_disjoint (kind_name j) (kind_name k)); congruence.
    - apply Forall_forall. intros i Hi. destruct j as [c|c]; [|destruct Hi]. cbn [column_indexes] in Hi. apply in_map_iff in Hi as (p & <- & _).
      pose proof (own_not_index (kind_name k) (sq_name c) (fst p) x K1 Hx) as Nx. apply name_eqb_false in Nx. congruence. }
  repeat split; try assumption.
  - apply Ut; [now left|exact K4].
  - apply Ut; [now left|exact K4].
  - apply Ut; [right; now left|exact K5].
  - apply Ut; [right; now left|exact K5].
  - destruct k as [c|c].
    + destruct K6 as (A & B & C). repeat split; try assumption. rewrite Forall_forall in *. intros p Hp. specialize (C p Hp). cbn [kind_name kind_props] in *.
      pose proof (until_index (sq_name c) p K1 (K3 p Hp)) as Eu.
      apply (start_unused j inp d d' _ Hn Hv); [| |exact E|exact C].
      * intros y Hy. rewrite <- Eu. apply (own_not_index (kind_name j)); assumption.
      * apply Forall_forall. intros i Hi. rewrite <- Eu. intros Ef. apply (Ni (until_nul (SqlIndex.index_name (sq_name c) p)) i); [|exact Hi|congruence].
        cbn [column_indexes]. apply in_map_iff in Hp as (q & <- & Hq). apply in_map_iff. exists q. split; [reflexivity|exact Hq].
    + destruct K6 as (A & B & C). repeat split; try assumption. rewrite Forall_forall in *. intros x Hx. apply Ut; [|apply C; exact Hx].
      right. right. apply in_map_iff. exists x. split; [reflexivity|exact Hx].
Qed.

Lemma complete_kept k inp d d' : kept_tables (kind_name k) d d' -> complete k inp d -> complete k inp d'.
Proof.
  intros [K1 K2] [C1 (m & C2 & C3 & C4 & C5 & C6)]. split; [apply (has_rows_frame k inp d); assumption|]. exists m. repeat split; try assumption. congruence.
Qed.

(** *** What can be opened *)
Notation left_by_start := (left_by_start visit fts_ok fts_match).
Definition openable (k : index_kind) (inp : input) (d : db) : Prop := creatable fts_ok k d \/ left_by_start k inp d.

Lemma left_complete k inp d : nul_free (kind_name k) -> validated_collations k -> left_by_start k inp d -> complete k inp d.
Proof.
  intros Hn Hv (d0 & d1 & A1 & A2 & E & K1 & K2). apply (complete_kept k inp d1); [split; assumption|]. apply (created_rows visit fts_ok fts_match k Hn Hv inp d0 d1 A1 A2 E).
Qed.

Lemma left_kept k inp d d' : kept_tables (kind_name k) d d' -> left_by_start k inp d -> left_by_start k inp d'.
Proof. intros [K1 K2] (d0 & d1 & A1 & A2 & E & L1 & L2). exists d0, d1. repeat split; try assumption; congruence. Qed.

Lemma openable_kept k i j inp d d' : apart k j -> nul_free (kind_name j) -> validated_collations j ->
  run (SpecSql.start j inp) d = (d', Ok tt) -> openable k i d -> openable k i d'.
Proof.
  intros A Hn Hv E [C|C]; [left; apply (creatable_kept k j inp d d'); assumption|right].
  apply (left_kept k i d d'); [|exact C]. apply (other_kept visit fts_ok fts_match (kind_name k) j inp d d' Hn Hv); [|exact E]. destruct A as [A _]. congruence.
Qed.

Lemma opens k inp d : nul_free (kind_name k) -> validated_collations k -> SpecSql.readable inp -> Forall (SpecSql.indexable (kind_props k)) (in_iter inp) ->
  openable k inp d -> exists d', run (SpecSql.start k inp) d = (d', Ok tt) /\ left_by_start k inp d'.
Proof.
  intros Hn Hv Hr Hi [C|C].
  - destruct (creation_succeeds visit fts_ok fts_match k inp d C Hr Hi) as (d' & E). exists d'. split; [exact E|].
    destruct C as (_ & _ & _ & [C1 _] & [C2 _] & _). exists d, d'. repeat split; assumption.
  - exists d. split; [|exact C]. apply (complete_accepted visit fts_ok fts_match k inp inp d Hn); [apply left_complete; assumption|reflexivity..].
Qed.

Section All.
Variable inputs : list (bytes * input).
Notation open_database := (open_database visit fts_ok fts_match inputs).
Notation open_databases := (open_databases visit fts_ok fts_match inputs).

Lemma open_one_done dbs nc : 
  match index_kind_of nc with
  | None => open_database dbs nc = Ok dbs
  | Some (dsn, name, k) => forall inp d, mget inputs name = Some inp -> run (SpecSql.start k inp) (dbs dsn) = (d, Ok tt) ->
      exists dbs', open_database dbs nc = Ok dbs' /\ forall x, dbs' x = if bytes_eqb x dsn then d else dbs x
  end.
Proof.
  unfold System.open_database, index_kind_of. destruct (snd nc); try reflexivity; intros inp d Hi E; rewrite Hi; cbv zeta; cbn [SpecSql.start] in E; rewrite E; cbn [snd fst rbind]; eauto.
Qed.

(** Everything that an index needs when the others of the list are opened before it. *)
Definition can_open (dbs : bytes -> db) (nc : bytes * vindex) : Prop :=
  forall dsn name k, index_kind_of nc = Some (dsn, name, k) -> exists inp, mget inputs name = Some inp /\ nul_free (kind_name k) /\ validated_collations k /\
    SpecSql.readable inp /\ Forall (SpecSql.indexable (kind_props k)) (in_iter inp) /\ openable k inp (dbs dsn).
Definition apart_in (nc nc' : bytes * vindex) : Prop :=
  forall dsn name k dsn' name' k', index_kind_of nc = Some (dsn, name, k) -> index_kind_of nc' = Some (dsn', name', k') -> dsn = dsn' -> apart k k'.

Lemma can_open_valid dbs l : Forall (can_open dbs) l -> all_valid l.
Proof. rewrite Forall_forall. intros H nc dsn input k Hin Hk. destruct (H nc Hin dsn input k Hk) as (inp & _ & A & B & _). split; assumption. Qed.

Lemma open_all : forall l dbs, ForallOrdPairs apart_in l -> NoDup (map fold_name (map fst (filter in_database l))) -> Forall (can_open dbs) l ->
  exists dbs', open_databases dbs l = Ok dbs' /\
    forall nc dsn name k inp, In nc l -> index_kind_of nc = Some (dsn, name, k) -> mget inputs name = Some inp -> left_by_start k inp (dbs' dsn).
Proof.
  induction l as [|nc l IH]; intros dbs A N C; [eexists; split; [reflexivity|intros ? ? ? ? ? []]|]. inversion A as [|? ? A1 A2]; inversion C as [|? ? C1 C2]; subst. cbn [System.open_databases].
  pose proof (open_one_done dbs nc) as O. destruct (index_kind_of nc) as [[[dsn name] k]|] eqn:Ek.
  - destruct (C1 dsn name k Ek) as (inp & Hm & Hn & Hv & Hr & Hi & Ho). destruct (opens k inp (dbs dsn) Hn Hv Hr Hi Ho) as (d & E & HL).
    destruct (O inp d Hm E) as (dbs1 & O1 & O2). rewrite O1. cbn [rbind]. destruct (kind_of_name _ _ _ _ Ek) as [Kn Kd].
    cbn [filter] in N. rewrite Kd in N. cbn [map] in N. inversion N as [|? ? N1 N2]; subst. destruct (IH dbs1 A2 N2) as (dbs' & E' & HL').
    { rewrite Forall_forall in *. intros nc' Hin dsn' name' k' Ek'. destruct (C2 nc' Hin dsn' name' k' Ek') as (inp' & Hm' & Hn' & Hv' & Hr' & Hi' & Ho').
      exists inp'. repeat (split; [assumption|]). rewrite O2. destruct (bytes_eqb dsn' dsn) eqn:Eq; [|exact Ho']. apply bytes_eqb_eq in Eq. subst dsn'.
      apply (openable_kept k' inp' k inp (dbs dsn) d); try assumption.
      destruct (A1 nc' Hin dsn name k dsn name' k' Ek Ek' eq_refl) as [B1 B2]. split; [congruence|]. intros x y Hx Hy. specialize (B2 y x Hy Hx). congruence. }
    exists dbs'. split; [exact E'|]. intros nc' dsn' name' k' inp' [<-|Hin] Hk' Hi'; [|apply (HL' nc' dsn' name' k' inp' Hin Hk' Hi')].
    rewrite Ek in Hk'. injection Hk' as <- <- <-. assert (inp' = inp) as -> by congruence. apply (left_kept k inp d); [|exact HL].
    rewrite <- Kn in N1. pose proof (open_kept visit fts_ok fts_match inputs (kind_name k) l dbs1 dbs' (can_open_valid dbs l C2) N1 E' dsn) as K. rewrite O2, bytes_eqb_refl in K. exact K.
  - rewrite O. cbn [rbind]. assert (N2 : NoDup (map fold_name (map fst (filter in_database l)))) by (cbn [filter] in N; destruct (in_database nc); [cbn [map] in N; now inversion N|exact N]).
    destruct (IH dbs A2 N2 C2) as (dbs' & E' & HL'). exists dbs'. split; [exact E'|]. intros nc' dsn' name' k' inp' [<-|Hin] Hk' Hi'; [congruence|apply (HL' nc' dsn' name' k' inp' Hin Hk' Hi')].
Qed.
End All.
End Databases.
