(** The databases when all the indexes are created. *)
From Coq Require Import List ZArith Lia Bool String.
From Coq Require Import Strings.Byte.
From Verif Require Import Sql SqlIndex SpecSql SpecSqlFind SqlFacts SqlRunFacts SqlLifeFacts SqlInvFacts SqlHistoryFacts SqlFindFacts.
From Verif Require Import Base BaseFacts Value Index Output SpecIndex SpecOutput Config System SpecSystem.
Import ListNotations.
Open Scope Z_scope.

Section Databases.
Variable visit : list (list sqlv) -> list (res (list sqlv)).
Variable fts_ok : list bytes -> bytes -> bytes -> bool.
Variable fts_match : Sql.table -> sqlv -> res (list (list sqlv)).
Variable inputs : list (bytes * input).
Notation run := (srun visit fts_ok fts_match).
Notation open_database := (open_database visit fts_ok fts_match inputs).
Notation open_databases := (open_databases visit fts_ok fts_match inputs).

(** The index of a database, and the DSN. *)
Definition index_kind_of (nc : bytes * vindex) : option (bytes * bytes * index_kind) :=
  match snd nc with
  | VISqlite dsn input props => Some (dsn, input, ISqlite (mkSconfig (fst nc) input props))
  | VIFts5 dsn input prefix tokenize props => Some (dsn, input, IFts (mkFconfig (fst nc) input prefix tokenize props))
  | _ => None
  end.
Lemma kind_of_name nc dsn input k : index_kind_of nc = Some (dsn, input, k) -> kind_name k = fst nc /\ in_database nc = true.
Proof. unfold index_kind_of, in_database. destruct (snd nc); intros H; try discriminate; injection H as _ _ <-; split; reflexivity. Qed.

Lemma open_one dbs nc dbs' : open_database dbs nc = Ok dbs' ->
  match index_kind_of nc with
  | None => dbs' = dbs
  | Some (dsn, name, k) => exists inp d, mget inputs name = Some inp /\ run (SpecSql.start k inp) (dbs dsn) = (d, Ok tt) /\
      (forall x, dbs' x = if bytes_eqb x dsn then d else dbs x)
  end.
Proof.
  unfold System.open_database, index_kind_of. destruct (snd nc); intros H; try (now injection H as <-).
  - destruct (mget inputs input) as [inp|]; [|discriminate]. cbv zeta in H. destruct (run _ _) as [d r] eqn:E. destruct r as [[]| | |]; cbn in H; try discriminate. injection H as <-.
    exists inp, d. auto.
  - destruct (mget inputs input) as [inp|]; [|discriminate]. cbv zeta in H. destruct (run _ _) as [d r] eqn:E. destruct r as [[]| | |]; cbn in H; try discriminate. injection H as <-.
    exists inp, d. auto.
Qed.

Definition kept_tables (n : bytes) (d d' : db) : Prop :=
  tables_of d' (meta_name n) = tables_of d (meta_name n) /\ tables_of d' (rows_name n) = tables_of d (rows_name n).

Lemma other_kept n k inp d d' : nul_free (kind_name k) -> validated_collations k -> fold_name (kind_name k) <> fold_name n ->
  run (SpecSql.start k inp) d = (d', Ok tt) -> kept_tables n d d'.
Proof.
  intros Hn Hv N E.
  assert (K : forall x, In x [meta_name n; rows_name n] -> tables_of d' x = tables_of d x).
  { intros x Hx.
    pose proof (start_keeps visit fts_ok fts_match k inp d x Hn (validated_word _ Hv) (fun y Hy => other_tables (kind_name k) n y x N Hy Hx)) as S.
    exact (holds_run _ _ _ _ _ _ _ _ _ S E). }
  split; apply K; cbn; auto.
Qed.

Definition all_valid (l : list (bytes * vindex)) : Prop :=
  forall nc dsn input k, In nc l -> index_kind_of nc = Some (dsn, input, k) -> nul_free (kind_name k) /\ validated_collations k.

Lemma open_kept n : forall l dbs dbs', all_valid l -> ~ In (fold_name n) (map fold_name (map fst (filter in_database l))) ->
  open_databases dbs l = Ok dbs' -> forall dsn, kept_tables n (dbs dsn) (dbs' dsn).
Proof.
  induction l as [|nc l IH]; intros dbs dbs' Hv N H dsn; cbn [System.open_databases] in H.
  - injection H as <-. split; reflexivity.
  - destruct (open_database dbs nc) as [dbs1| | |] eqn:E; try discriminate. cbn [rbind] in H. pose proof (open_one _ _ _ E) as Ho.
    assert (G : kept_tables n (dbs dsn) (dbs1 dsn)).
    { destruct (index_kind_of nc) as [[[dsn1 name] k]|] eqn:Ek; [|subst; split; reflexivity]. destruct Ho as (inp & d & _ & Er & Hd). rewrite Hd.
      destruct (bytes_eqb dsn dsn1) eqn:Eq; [|split; reflexivity]. apply bytes_eqb_eq in Eq. subst dsn1.
      destruct (kind_of_name _ _ _ _ Ek) as [Kn Kd]. destruct (Hv nc dsn name k (or_introl eq_refl) Ek) as [V1 V2].
      apply (other_kept n k inp _ _ V1 V2); [|exact Er]. intros En. apply N. cbn [filter]. rewrite Kd. cbn [map]. left. congruence. }
    assert (G2 : kept_tables n (dbs1 dsn) (dbs' dsn)).
    { apply (IH dbs1 dbs'); [intros nc' ? ? ? Hin; apply Hv; now right| |exact H]. intros Hin. apply N. cbn [filter]. destruct (in_database nc); [right; exact Hin|exact Hin]. }
    destruct G as [G1 G1'], G2 as [G3 G3']. split; congruence.
Qed.

Lemma opened_rows nc dsn name k inp : forall l dbs dbs', all_valid l -> NoDup (map fold_name (map fst (filter in_database l))) ->
  open_databases dbs l = Ok dbs' -> In nc l -> index_kind_of nc = Some (dsn, name, k) -> mget inputs name = Some inp ->
  prepared visit fts_ok fts_match k inp (dbs dsn) -> has_rows k inp (dbs' dsn).
Proof.
  induction l as [|nc' l IH]; intros dbs dbs' Hv Nd H Hin Hk Hi Hp; [destruct Hin|]. cbn [System.open_databases] in H.
  destruct (open_database dbs nc') as [dbs1| | |] eqn:E; try discriminate. cbn [rbind] in H. pose proof (open_one _ _ _ E) as Ho.
  assert (Hv' : all_valid l) by (intros ? ? ? ? Hin'; apply Hv; now right).
  destruct (kind_of_name _ _ _ _ Hk) as [Kn Kd].
  destruct Hin as [->|Hin].
  - rewrite Hk in Ho. destruct Ho as (inp' & d & Hi' & Er & Hd). rewrite Hi in Hi'. injection Hi' as <-.
    destruct (Hv _ dsn name _ (or_introl eq_refl) Hk) as [V1 V2].
    pose proof (prepared_rows visit fts_ok fts_match k V1 V2 inp _ _ Hp Er) as R.
    cbn [filter] in Nd. rewrite Kd in Nd. cbn [map] in Nd. inversion Nd as [|x y Hni Nd' E1]; subst. rewrite <- Kn in Hni.
    destruct (open_kept (kind_name k) l dbs1 dbs' Hv' Hni H dsn) as [_ K]. rewrite Hd, bytes_eqb_refl in K.
    apply (has_rows_frame k inp d); [exact K|exact R].
  - assert (Nn : forall dsn1 nm k1, index_kind_of nc' = Some (dsn1, nm, k1) -> fold_name (kind_name k1) <> fold_name (kind_name k)).
    { intros dsn1 nm k1 Ek En. destruct (kind_of_name _ _ _ _ Ek) as [Kn' Kd']. cbn [filter] in Nd. rewrite Kd' in Nd. cbn [map] in Nd. inversion Nd as [|x y Hni Nd' E1]; subst.
      apply Hni. rewrite <- Kn', En, Kn. apply in_map, in_map, filter_In. split; assumption. }
    apply (IH dbs1 dbs' Hv'); try assumption.
    + cbn [filter] in Nd. destruct (in_database nc'); [now inversion Nd|exact Nd].
    + destruct (index_kind_of nc') as [[[dsn1 nm] k1]|] eqn:Ek; [|subst; exact Hp]. destruct Ho as (inp' & d & _ & Er & Hd).
      destruct (Hv nc' dsn1 nm k1 (or_introl eq_refl) Ek) as [V1 V2].
      rewrite Hd. destruct (bytes_eqb dsn dsn1) eqn:Eq; [|exact Hp]. apply bytes_eqb_eq in Eq. subst dsn1.
      destruct (other_kept (kind_name k) k1 inp' _ _ V1 V2 (Nn _ _ _ eq_refl) Er) as [K1 K2].
      exact (prepared_frame visit fts_ok fts_match k inp _ _ K1 K2 Hp).
Qed.
End Databases.
