(** Proofs about the validation of configurations. *)
From Coq Require Import List ZArith Lia Bool String Permutation.
From Coq Require Import Strings.Byte.
From Verif Require Import Base BaseFacts Codec Value GoStrings Parser Sort Output Http Records Config SpecConfig.
Import ListNotations.
Open Scope Z_scope.

Section xml_prop_ind.
  Variable P : xml_prop -> Prop.
  Hypothesis H : forall name type parser xpath items props,
    (forall i, items = Some i -> P i) -> Forall (fun o => forall c, o = Some c -> P c) props ->
    P (mkXmlProp name type parser xpath items props).
  Fixpoint xml_prop_ind' (c : xml_prop) : P c :=
    match c with
    | mkXmlProp name type parser xpath items props =>
      H name type parser xpath items props
        (fun i => match items return items = Some i -> P i with
                  | Some j => fun E => match E in _ = o return match o with Some k => P k | None => True end with eq_refl => xml_prop_ind' j end
                  | None => fun E => match E in _ = o return match o with Some k => P k | None => True end with eq_refl => I end
                  end)
        ((fix go (l : list (option xml_prop)) : Forall (fun o => forall c, o = Some c -> P c) l :=
            match l with
            | [] => Forall_nil _
            | o :: l' =>
              Forall_cons (P := fun o => forall c, o = Some c -> P c) o
                (fun i => match o return o = Some i -> P i with
                  | Some j => fun E => match E in _ = o return match o with Some k => P k | None => True end with eq_refl => xml_prop_ind' j end
                  | None => fun E => match E in _ = o return match o with Some k => P k | None => True end with eq_refl => I end
                  end) (go l')
            end) props)
    end.
End xml_prop_ind.

Section raw_relationship_ind.
  Variable P : raw_relationship -> Prop.
  Hypothesis H : forall input is_array limit sort ms children,
    Forall (fun nc => forall c, snd nc = Some c -> P c) children ->
    P (mkRawRel input is_array limit sort ms children).
  Fixpoint raw_relationship_ind' (c : raw_relationship) : P c :=
    match c with
    | mkRawRel input is_array limit sort ms children =>
      H input is_array limit sort ms children
        ((fix go (l : list (bytes * option raw_relationship)) : Forall (fun nc => forall c, snd nc = Some c -> P c) l :=
            match l with
            | [] => Forall_nil _
            | (n, o) :: l' =>
              Forall_cons (P := fun nc => forall c, snd nc = Some c -> P c) (n, o)
                (fun i => match o return o = Some i -> P i with
                  | Some j => fun E => match E in _ = o return match o with Some k => P k | None => True end with eq_refl => raw_relationship_ind' j end
                  | None => fun E => match E in _ = o return match o with Some k => P k | None => True end with eq_refl => I end
                  end) (go l')
            end) children)
    end.
End raw_relationship_ind.

Lemma rbind_ok {A B} (x : res A) (f : A -> res B) b : rbind x f = Ok b -> exists a, x = Ok a /\ f a = Ok b.
Proof. destruct x; simpl; intro H; try discriminate. eauto. Qed.

Ltac inv_ok := repeat match goal with
  | H : rbind ?x _ = Ok _ |- _ => let a := fresh "a" in let E := fresh "E" in
      apply rbind_ok in H; destruct H as (a & E & H)
  | H : (if ?b then Err _ else _) = Ok _ |- _ => match type of b with bool => let E := fresh "C" in destruct b eqn:E; [discriminate H|] end
  | H : (if ?b then _ else Err _) = Ok _ |- _ => match type of b with bool => let E := fresh "C" in destruct b eqn:E; [|discriminate H] end
  | H : Ok _ = Ok _ |- _ => injection H as H; subst
  end.

Lemma known_has {A} (m : list (bytes * A)) k : known m k = true <-> has m k.
Proof.
  unfold known, has. destruct (mget m k) eqn:E.
  - split; [intros _; exists a; apply mget_In, E|reflexivity].
  - split; [discriminate|]. intros (a & H). apply mget_None in E. destruct E. apply in_map_iff. exists (k, a). auto.
Qed.

Lemma has_mget {A} (m : list (bytes * A)) k : has m k -> exists a, mget m k = Some a.
Proof. intro H. apply known_has in H. unfold known in H. destruct (mget m k); [eauto|discriminate]. Qed.

Lemma mget_has {A} (m : list (bytes * A)) k a : mget m k = Some a -> has m k.
Proof. intro H. exists a. apply mget_In, H. Qed.

(** *** The loops *)

Lemma existsb_eq k l : existsb (bytes_eqb k) l = true <-> In k l.
Proof.
  rewrite existsb_exists. split.
  - intros (x & H & E). apply bytes_eqb_eq in E. subst. exact H.
  - intro H. exists k. split; [exact H|apply bytes_eqb_refl].
Qed.

Lemma validate_items_spec {A B} (f : A -> res B) key dup : forall l seen bs,
  validate_items f key dup seen l = Ok bs ->
  exists as_, l = map Some as_ /\ Forall2 (fun a b => f a = Ok b) as_ bs /\
    NoDup (map key bs) /\ (forall b, In b bs -> ~ In (key b) seen).
Proof.
  induction l as [|o l IH]; intros seen bs H.
  - injection H as <-. exists []. repeat split; [constructor|constructor|intros b []].
  - destruct o as [a|]; [|discriminate]. cbn [validate_items] in H. inv_ok.
    destruct (IH _ _ E0) as (as_ & -> & F & N & D). exists (a :: as_). repeat split.
    + constructor; assumption.
    + cbn [map]. constructor; [|exact N]. intro I. apply in_map_iff in I. destruct I as (b & Eb & I).
      destruct (D b I). left. symmetry. exact Eb.
    + intros b [<-|I].
      * intro J. apply existsb_eq in J. congruence.
      * intro J. destruct (D b I). right. exact J.
Qed.

Lemma validate_entries_spec {A B} (f : bytes -> A -> res B) : forall l bs,
  validate_entries f l = Ok bs ->
  exists as_, l = map (fun na => (fst na, Some (snd na))) as_ /\
    Forall2 (fun na nb => fst na = fst nb /\ f (fst na) (snd na) = Ok (snd nb)) as_ bs.
Proof.
  induction l as [|[n o] l IH]; intros bs H.
  - injection H as <-. exists []. repeat split. constructor.
  - destruct o as [a|]; [|discriminate]. cbn [validate_entries] in H. inv_ok.
    destruct (IH _ E0) as (as_ & -> & F). exists ((n, a) :: as_). split; [reflexivity|]. constructor; auto.
Qed.

Lemma validate_all_spec {A B} (f : A -> res B) l bs : validate_all f l = Ok bs ->
  Forall2 (fun na nb => fst na = fst nb /\ f (snd na) = Ok (snd nb)) l bs.
Proof.
  unfold validate_all. intro H. apply validate_entries_spec in H. destruct H as (as_ & E & F).
  assert (l = as_) as ->; [|exact F]. revert as_ E F. revert bs.
  induction l as [|[n a] l IH]; intros bs [|[n' a'] as_] E F; try discriminate; [reflexivity|].
  cbn [map fst snd] in E. injection E as -> -> E. inversion F; subst. f_equal. eapply IH; eauto.
Qed.

Lemma forall2_right {A B} (R : A -> B -> Prop) l m : Forall2 R l m -> forall b, In b m -> exists a, In a l /\ R a b.
Proof.
  induction 1 as [|a b l m Hab F IH]; intros c I; [destruct I|].
  destruct I as [<-|I]; [exists a; simpl; auto|]. destruct (IH c I) as (a' & I' & R'). exists a'. simpl; auto.
Qed.

Lemma forall2_left {A B} (R : A -> B -> Prop) l m : Forall2 R l m -> forall a, In a l -> exists b, In b m /\ R a b.
Proof.
  induction 1 as [|a b l m Hab F IH]; intros c I; [destruct I|].
  destruct I as [<-|I]; [exists b; simpl; auto|]. destruct (IH c I) as (b' & I' & R'). exists b'. simpl; auto.
Qed.

Lemma validate_all_has {A B} (f : A -> res B) l bs k : validate_all f l = Ok bs -> (has l k <-> has bs k).
Proof.
  intro H. apply validate_all_spec in H. split.
  - intros (a & I). destruct (forall2_left _ _ _ H _ I) as ([k' b] & I' & E & _). cbn [fst] in E. subst. exists b. exact I'.
  - intros (b & I). destruct (forall2_right _ _ _ H _ I) as ([k' a] & I' & E & _). cbn [fst] in E. subst. exists a. exact I'.
Qed.

Lemma validate_all_keys {A B} (f : A -> res B) l bs : validate_all f l = Ok bs -> map fst l = map fst bs.
Proof. intro H. apply validate_all_spec in H. induction H as [|a b l m [E _] F IH]; [reflexivity|]. cbn [map]. congruence. Qed.

Lemma check_distinct_spec props ps : check_distinct props = Ok ps -> ps = props /\ NoDup props.
Proof.
  unfold check_distinct. intro H. apply validate_items_spec in H. destruct H as (as_ & E & F & N & _).
  assert (props = as_) as <-.
  { clear - E. revert as_ E. induction props as [|p l IH]; intros [|q as_] E; try discriminate; [reflexivity|].
    cbn [map] in E. injection E as -> E. f_equal. auto. }
  assert (ps = props) as ->.
  { clear - F. induction F as [|a b l m E F IH]; [reflexivity|]. injection E as ->. congruence. }
  split; [reflexivity|]. rewrite map_id in N. exact N.
Qed.

(** *** References *)

Section Refs.
Variable stat : bytes -> stat_result.
Variable regexp_ok xpath_ok : bytes -> bool.
Variable upper : bytes -> bytes.

Lemma validate_xml_refs parsers name xp p : forall c req x,
  validate_xml xpath_ok parsers req c = Ok x -> sub_prop (XPrimitive name xp p) x -> known parsers p = true.
Proof.
  induction c as [n t pr xpath items props IHi IHp] using xml_prop_ind'. intros req x H Hs.
  cbn [validate_xml] in H. inv_ok.
  destruct (bytes_eqb _ (lit "primitive")).
  - inv_ok. destruct items; [discriminate|]. inv_ok. inversion Hs; subst. apply negb_false_iff in C1. exact C1.
  - destruct (bytes_eqb _ (lit "array")).
    + inv_ok. destruct items as [i|]; [|discriminate]. inv_ok. inversion Hs; subst. eapply IHi; eauto.
    + inv_ok. destruct items; [discriminate|]. inv_ok. inversion Hs as [|? ? ? H'|? ? ? c I S']; subst.
      apply validate_items_spec in E. destruct E as (as_ & -> & F & _).
      destruct (forall2_right _ _ _ F _ I) as (c0 & I0 & E0).
      rewrite Forall_forall in IHp. eapply (IHp (Some c0)); [apply in_map, I0|reflexivity|exact E0|exact S'].
Qed.

Lemma check_index_known indexes i input p u : check_index indexes i input p = Ok u -> known indexes i = true.
Proof. unfold check_index, known. destruct (mget indexes i); [reflexivity|discriminate]. Qed.

Lemma check_input_known inputs n u : check_input inputs n = Ok u -> known inputs n = true.
Proof. unfold check_input. destruct (known inputs n); [reflexivity|discriminate]. Qed.

Lemma validate_param_refs indexes parsers input p q : validate_param indexes parsers input p = Ok q ->
  known indexes (pm_index q) = true /\ known parsers (pm_parser q) = true.
Proof.
  unfold validate_param. intro H. inv_ok. destruct (mget parsers _) eqn:M; [|discriminate]. inv_ok. cbn [pm_index pm_parser].
  split; [eapply check_index_known; eauto|]. unfold known. rewrite M. reflexivity.
Qed.

Lemma validate_match_refs indexes input m parent child index :
  validate_match indexes input m = Ok (parent, child, index) -> known indexes index = true.
Proof.
  unfold validate_match. destruct m as [[p c] i]. intro H. inv_ok. eapply check_index_known; eauto.
Qed.

Definition rel_good (indexes : list (bytes * index_config)) (inputs : list (bytes * input_config)) (r : relationship) : Prop :=
  known inputs (rel_input r) = true /\
  forall parent child index, In (parent, child, index) (rel_match r) -> known indexes index = true.

Lemma validate_relationship_refs indexes inputs : forall c r0,
  validate_relationship indexes inputs c = Ok r0 ->
  rel_good indexes inputs r0 /\ forall r, sub_rel r (rel_children r0) -> rel_good indexes inputs r.
Proof.
  induction c as [input ia lim so ms ch IH] using raw_relationship_ind'. intros r0 H.
  cbn [validate_relationship] in H. inv_ok. split.
  - split; [eapply check_input_known; eauto|]. cbn [rel_match]. intros parent child index I.
    apply validate_items_spec in E1. destruct E1 as (as_ & -> & F & _).
    destruct (forall2_right _ _ _ F _ I) as (m & _ & Em). eapply validate_match_refs; eauto.
  - cbn [rel_children]. intros r Hs. apply validate_entries_spec in E2. destruct E2 as (as_ & -> & F).
    rewrite Forall_forall in IH.
    assert (G : forall name r', In (name, r') a2 ->
              rel_good indexes inputs r' /\ forall r, sub_rel r (rel_children r') -> rel_good indexes inputs r).
    { intros name r' I. destruct (forall2_right _ _ _ F _ I) as ([n' c'] & I' & _ & Ec). cbn [fst snd] in Ec.
      eapply (IH (n', Some c')); [|reflexivity|exact Ec].
      apply in_map_iff. exists (n', c'). auto. }
    inversion Hs as [name rels I|name r' rels I S']; subst; destruct (G _ _ I) as [G1 G2]; auto.
Qed.

Lemma validate_rels_refs indexes inputs rels vs :
  validate_entries (fun _ => validate_relationship indexes inputs) rels = Ok vs ->
  forall r, sub_rel r vs -> rel_good indexes inputs r.
Proof.
  intros H r Hs. apply validate_entries_spec in H. destruct H as (as_ & _ & F).
  inversion Hs as [name ? I|name r' ? I S']; subst; destruct (forall2_right _ _ _ F _ I) as ([n' c'] & _ & _ & Ec);
    apply validate_relationship_refs in Ec; destruct Ec as [G1 G2]; auto.
Qed.

Lemma validate_output_refs inputs indexes parsers c o : validate_output inputs indexes parsers c = Ok (VOutput o) ->
  known inputs (out_input o) = true /\
  (forall name p, In (name, p) (out_params o) -> known indexes (pm_index p) = true /\ known parsers (pm_parser p) = true) /\
  (forall r, sub_rel r (out_rels o) -> rel_good indexes inputs r).
Proof.
  destruct c as [n|n input d mx lp op params rels|n input params rels]; cbn [validate_output]; intro H; inv_ok.
  - discriminate.
  - cbn [out_input out_params out_rels ac_input ac_params ac_relationships]. repeat split.
    + eapply check_input_known; eauto.
    + intros. apply validate_entries_spec in E0. destruct E0 as (as_ & _ & F).
      destruct (forall2_right _ _ _ F _ H) as ([n' p'] & _ & _ & Ep). inv_ok. cbn [snd] in *. inv_ok. eapply validate_param_refs; eauto.
    + apply validate_entries_spec in E0. destruct E0 as (as_ & _ & F).
      destruct (forall2_right _ _ _ F _ H) as ([n' p'] & _ & _ & Ep). inv_ok. cbn [snd] in *. inv_ok. eapply validate_param_refs; eauto.
    + apply (validate_rels_refs _ _ _ _ E1 _ H).
    + apply (validate_rels_refs _ _ _ _ E1 _ H).
  - cbn [out_input out_params out_rels oc_input oc_params oc_relationships]. repeat split.
    + eapply check_input_known; eauto.
    + apply validate_entries_spec in E0. destruct E0 as (as_ & _ & F).
      destruct (forall2_right _ _ _ F _ H) as ([n' p'] & _ & _ & Ep). cbn [snd] in *. eapply validate_param_refs; eauto.
    + apply validate_entries_spec in E0. destruct E0 as (as_ & _ & F).
      destruct (forall2_right _ _ _ F _ H) as ([n' p'] & _ & _ & Ep). cbn [snd] in *. eapply validate_param_refs; eauto.
    + apply (validate_rels_refs _ _ _ _ E1 _ H).
    + apply (validate_rels_refs _ _ _ _ E1 _ H).
Qed.
End Refs.
