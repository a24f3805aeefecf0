(** Proofs about loaded configurations: names, references, indexes. *)
From Coq Require Import List ZArith Lia Bool String Permutation.
From Coq Require Import Strings.Byte.
From Verif Require Import Base BaseFacts Codec Value GoStrings Parser Sort Output Http Records Config SpecConfig ConfigFacts.
Import ListNotations.
Open Scope Z_scope.

(** *** Names *)

Lemma collect_named_ok {A} (name : A -> bytes) dup : forall l m m',
  collect_named name dup l m = Ok m' ->
  (forall k a, mget m' k = Some a <-> (mget m k = Some a \/ (mget m k = None /\ In (Some a) l /\ name a = k))) /\
  NoDup (names name l) /\ (forall k, In k (names name l) -> mget m k = None).
Proof.
  induction l as [|[a|] l IH]; intros m m' H; cbn [collect_named] in H; [| |discriminate].
  - injection H as ->. repeat split; try (intros; auto; fail).
    + intros [H|(_ & [] & _)]; exact H.
    + constructor.
    + intros k [].
  - destruct (mget m (name a)) eqn:M; [discriminate|]. apply IH in H. destruct H as (G & N & D).
    cbn [names flat_map app].
    assert (Na : ~ In (name a) (names name l)).
    { intro I. apply D in I. rewrite mget_mset_same in I. discriminate. }
    repeat split.
    + intro H. apply G in H. destruct (bytes_dec k (name a)) as [->|K].
      * rewrite mget_mset_same in H. destruct H as [H|(H & _)]; [|discriminate]. injection H as <-.
        right. repeat split; [exact M|left; reflexivity].
      * rewrite mget_mset_other in H by congruence. destruct H as [H|(H & I & E)]; [left; exact H|].
        right. repeat split; [exact H|right; exact I|exact E].
    + intro H. apply G. destruct (bytes_dec k (name a)) as [->|K].
      * rewrite mget_mset_same. destruct H as [H|(_ & [I|I] & E)]; [congruence|left; congruence|].
        exfalso. apply Na. rewrite <- E. unfold names. apply in_flat_map. exists (Some a0). split; [exact I|left; reflexivity].
      * rewrite mget_mset_other by congruence. destruct H as [H|(H & [I|I] & E)]; [left; exact H| |right; auto].
        injection I as ->. congruence.
    + constructor; assumption.
    + intros k [<-|I]; [exact M|]. specialize (D k I). destruct (bytes_dec k (name a)) as [->|K].
      * exact M.
      * rewrite mget_mset_other in D by congruence. exact D.
Qed.

Lemma collect_named_distinct {A} (name : A -> bytes) dup : forall l m,
  ~ In None l -> NoDup (names name l) -> (forall k, In k (names name l) -> mget m k = None) ->
  exists m', collect_named name dup l m = Ok m'.
Proof.
  induction l as [|[a|] l IH]; intros m HN N D.
  - exists m. reflexivity.
  - cbn [collect_named]. cbn [names flat_map app] in N, D. rewrite (D (name a)) by (left; reflexivity).
    inversion N; subst. apply IH; [intro I; apply HN; right; exact I|assumption|].
    intros k I. rewrite mget_mset_other; [apply D; right; exact I|]. intro EQ. subst. contradiction.
  - destruct HN. left. reflexivity.
Qed.

Lemma collect_named_dup {A} (name : A -> bytes) dup : forall l m,
  ~ In None l -> (~ NoDup (names name l) \/ exists k, In k (names name l) /\ mget m k <> None) ->
  collect_named name dup l m = Err dup.
Proof.
  induction l as [|[a|] l IH]; intros m HN H.
  - destruct H as [H|(k & [] & _)]. destruct H. constructor.
  - cbn [collect_named]. destruct (mget m (name a)) eqn:M; [reflexivity|].
    apply IH; [intro I; apply HN; right; exact I|].
    cbn [names flat_map app] in H. fold (names name l) in H.
    destruct (in_dec bytes_dec (name a) (names name l)) as [I|NI].
    + right. exists (name a). split; [exact I|]. rewrite mget_mset_same. discriminate.
    + destruct H as [H|(k & [<-|I] & E)].
      * left. intro N. apply H. constructor; assumption.
      * congruence.
      * right. exists k. split; [exact I|]. rewrite mget_mset_other; [exact E|]. intro EQ. subst. contradiction.
  - destruct HN. left. reflexivity.
Qed.

(** *** Defaults *)

Lemma add_default_keeps {A} (name : A -> bytes) m d k a : mget m k = Some a -> mget (add_default name m d) k = Some a.
Proof.
  intro H. unfold add_default. destruct (mget m (name d)) eqn:M; [exact H|].
  rewrite mget_mset_other; [exact H|]. intro EQ. subst. congruence.
Qed.

Lemma add_default_has {A} (name : A -> bytes) m d : has (add_default name m d) (name d).
Proof.
  unfold add_default. destruct (mget m (name d)) eqn:M; [eapply mget_has; exact M|].
  eapply mget_has. apply mget_mset_same.
Qed.

Lemma add_default_other {A} (name : A -> bytes) m d k : k <> name d -> mget (add_default name m d) k = mget m k.
Proof. intro H. unfold add_default. destruct (mget m (name d)); [reflexivity|]. apply mget_mset_other. congruence. Qed.

Lemma add_defaults_keep {A} (name : A -> bytes) k a : forall ds m, mget m k = Some a ->
  mget (fold_left (add_default name) ds m) k = Some a.
Proof. induction ds as [|d ds IH]; intros m H; [exact H|]. cbn [fold_left]. apply IH, add_default_keeps, H. Qed.

Lemma add_defaults_has {A} (name : A -> bytes) : forall ds m d, In d ds -> has (fold_left (add_default name) ds m) (name d).
Proof.
  induction ds as [|d0 ds IH]; intros m d I; [destruct I|]. cbn [fold_left]. destruct I as [<-|I]; [|apply IH, I].
  destruct (has_mget _ _ (add_default_has name m d0)) as (a & H). eapply mget_has. eapply add_defaults_keep, H.
Qed.

Lemma add_defaults_default {A} (name : A -> bytes) : forall ds m d, NoDup (map name ds) -> In d ds -> mget m (name d) = None ->
  mget (fold_left (add_default name) ds m) (name d) = Some d.
Proof.
  induction ds as [|d0 ds IH]; intros m d N I M; [destruct I|]. cbn [fold_left]. cbn [map] in N. inversion N; subst.
  destruct I as [<-|I].
  - apply add_defaults_keep. unfold add_default. rewrite M. apply mget_mset_same.
  - apply IH; [assumption|assumption|]. rewrite add_default_other; [exact M|].
    intro E. apply H1. rewrite <- E. apply in_map, I.
Qed.

Lemma add_defaults_other {A} (name : A -> bytes) k : forall ds m, ~ In k (map name ds) ->
  mget (fold_left (add_default name) ds m) k = mget m k.
Proof.
  induction ds as [|d0 ds IH]; intros m H; [reflexivity|]. cbn [fold_left]. cbn [map In] in H.
  rewrite IH by tauto. apply add_default_other. intro EQ. subst. tauto.
Qed.

(** *** References *)

Section Load.
Variable stat : bytes -> stat_result.
Variable regexp_ok xpath_ok : bytes -> bool.
Variable upper : bytes -> bytes.
Notation validate := (validate stat regexp_ok xpath_ok upper).
Notation load := (load stat regexp_ok xpath_ok upper).

Lemma validate_references c v : has (cf_parsers c) (lit "string") -> has (cf_indexes c) (lit "default") ->
  validate c = Ok v -> references_resolve v.
Proof.
  intros Hs Hd H. unfold Config.validate in H. inv_ok.
  assert (KP : forall k, known (cf_parsers c) k = true -> has a k)
    by (intros k K; apply (validate_all_has _ _ _ k E), known_has, K).
  assert (KI : forall k, known (cf_inputs c) k = true -> has a0 k)
    by (intros k K; apply (validate_all_has _ _ _ k E0), known_has, K).
  assert (KX : forall k, known (cf_indexes c) k = true -> has a1 k)
    by (intros k K; apply (validate_all_has _ _ _ k E1), known_has, K).
  assert (KO : forall k, known (cf_outputs c) k = true -> has a3 k)
    by (intros k K; apply (validate_all_has _ _ _ k E3), known_has, K).
  constructor; cbn [vc_parsers vc_inputs vc_indexes vc_services vc_outputs].
  - intros n d b sub I. apply KP. apply validate_all_spec in E.
    destruct (forall2_right _ _ _ E _ I) as ([n' pc] & _ & _ & Ev). cbn [snd] in Ev.
    unfold validate_parser in Ev. inv_ok. destruct pc as [| | | | |n0 dl ir sb]; inv_ok; try discriminate.
    destruct dl as [dl|]; [|discriminate]. inv_ok. assumption.
  - intros n path die first detect delimiter columns cn p I Ic. apply KP. apply validate_all_spec in E0.
    destruct (forall2_right _ _ _ E0 _ I) as ([n' ic] & _ & _ & Ev). cbn [snd] in Ev.
    unfold validate_input in Ev. inv_ok. destruct ic as [n0 pa di ig au de co|n0 pa di|n0 pa di pr rx]; inv_ok; try discriminate.
    apply validate_items_spec in E5. destruct E5 as (as_ & _ & F & _).
    destruct (forall2_right _ _ _ F _ Ic) as (c0 & _ & Ec). unfold validate_column in Ec. inv_ok. assumption.
  - apply (validate_all_has _ _ _ _ E). exact Hs.
  - intros n path die props xpath c0 name xp p I Ic Hsub. apply KP. apply validate_all_spec in E0.
    destruct (forall2_right _ _ _ E0 _ I) as ([n' ic] & _ & _ & Ev). cbn [snd] in Ev.
    unfold validate_input in Ev. inv_ok. destruct ic as [n0 pa di ig au de co|n0 pa di|n0 pa di pr rx]; inv_ok; try discriminate.
    apply validate_items_spec in E5. destruct E5 as (as_ & _ & F & _).
    destruct (forall2_right _ _ _ F _ Ic) as (c1 & _ & Ec). eapply validate_xml_refs; eauto.
  - intros n x i I Ei. apply KI. apply validate_all_spec in E1.
    destruct (forall2_right _ _ _ E1 _ I) as ([n' xc] & _ & _ & Ev). cbn [snd] in Ev.
    unfold validate_index in Ev. inv_ok. destruct xc; inv_ok; cbn [index_input] in Ei; try discriminate; injection Ei as <-;
      eapply check_input_known; eauto.
  - apply (validate_all_has _ _ _ _ E1). exact Hd.
  - intros n s o path I Ir. apply KO. apply validate_all_spec in E2.
    destruct (forall2_right _ _ _ E2 _ I) as ([n' sc] & _ & _ & Ev). cbn [snd] in Ev.
    unfold validate_service in Ev. inv_ok.
    assert (G : exists rs, validate_items (validate_route (cf_outputs c)) snd (EMsg "Duplicate path in array.") [] (sc_routes sc) = Ok rs /\ vs_routes s = rs).
    { destruct (sc_https sc), (sc_http sc); try discriminate Ev; inv_ok; eexists; split; try eassumption; reflexivity. }
    destruct G as (rs & Er & Es). rewrite Es in Ir.
    apply validate_items_spec in Er. destruct Er as (as_ & _ & F & _).
    destruct (forall2_right _ _ _ F _ Ir) as (r0 & _ & Ec). unfold validate_route in Ec. inv_ok. assumption.
  - intros n o I. apply KI. apply validate_all_spec in E3.
    destruct (forall2_right _ _ _ E3 _ I) as ([n' oc] & _ & _ & Ev). cbn [snd] in Ev.
    apply validate_output_refs in Ev. tauto.
  - intros n o name p I Ip. apply validate_all_spec in E3.
    destruct (forall2_right _ _ _ E3 _ I) as ([n' oc] & _ & _ & Ev). cbn [snd] in Ev.
    apply validate_output_refs in Ev. destruct Ev as (_ & Hp & _). destruct (Hp _ _ Ip). auto.
  - intros n o r I Hr. apply validate_all_spec in E3.
    destruct (forall2_right _ _ _ E3 _ I) as ([n' oc] & _ & _ & Ev). cbn [snd] in Ev.
    apply validate_output_refs in Ev. destruct Ev as (_ & _ & Hp). destruct (Hp _ Hr) as [G1 G2].
    split; [auto|]. intros. apply KX. eapply G2; eauto.
Qed.

Theorem load_references p v : load p = Ok v -> references_resolve v.
Proof.
  unfold Config.load. intro H. inv_ok. apply (validate_references (add_defaults a)); [| |exact H].
  - unfold add_defaults. cbn [cf_parsers]. apply (add_defaults_has parser_name default_parsers _ (CString (lit "string") [])).
    left. reflexivity.
  - unfold add_defaults. cbn [cf_indexes]. apply (add_default_has index_name _ (CNoop (lit "default"))).
Qed.
End Load.
