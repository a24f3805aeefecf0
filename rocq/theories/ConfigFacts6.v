(** The validated configuration is the configuration of the user completed with
    the documented defaults (for C46). *)
From Coq Require Import List ZArith Lia Bool String.
From Coq Require Import Strings.Byte.
From Verif Require Import Base BaseFacts Codec Value GoStrings Parser Sort Output Http Records Config SpecConfig.
From Verif Require Import OutputFacts2 RecordsFacts ConfigFacts ConfigFacts3 ConfigFacts4 ConfigFacts5.
Import ListNotations.
Open Scope Z_scope.

Lemma or_default_text s d : text_or s d (or_default s d).
Proof. destruct s; [left; split; reflexivity|right; split; [discriminate|reflexivity]]. Qed.

Lemma or_bool_bool b d : bool_or b d (or_bool b d).
Proof. destruct b; [right|left]; repeat split; reflexivity. Qed.

Lemma size_default d k : size_or d k (if d =? 0 then k else d).
Proof. unfold size_or. destruct (Z.eqb_spec d 0); [left|right]; auto. Qed.

Lemma is_nil_true {A} (l : list A) : is_nil l = true -> l = [].
Proof. destruct l; [reflexivity|discriminate]. Qed.

Lemma items_means {A B} (f : A -> res B) key dup (R : A -> B -> Prop) : forall l seen bs,
  validate_items f key dup seen l = Ok bs ->
  (forall a b, In (Some a) l -> f a = Ok b -> R a b) ->
  Forall2 (fun o b => exists a, o = Some a /\ R a b) l bs.
Proof.
  intros l seen bs H HR. apply validate_items_spec in H. destruct H as (as_ & -> & F & _).
  induction F as [|a b as_ bs Hab F IH]; constructor.
  - exists a. split; [reflexivity|]. apply HR; [left; reflexivity|exact Hab].
  - apply IH. intros x y I. apply HR. right. exact I.
Qed.

Lemma entries_means {A B} (f : bytes -> A -> res B) (R : A -> B -> Prop) : forall l bs,
  validate_entries f l = Ok bs ->
  (forall n a b, In (n, Some a) l -> f n a = Ok b -> R a b) ->
  Forall2 (fun o b => exists a, o = (fst b, Some a) /\ R a (snd b)) l bs.
Proof.
  intros l bs H HR. apply validate_entries_spec in H. destruct H as (as_ & -> & F).
  induction F as [|a b as_ bs [Hn Hab] F IH]; constructor.
  - exists (snd a). split; [rewrite Hn; reflexivity|]. eapply HR; [left; reflexivity|exact Hab].
  - apply IH. intros n x y I. apply HR. right. exact I.
Qed.

Lemma distinct_same ps qs : check_distinct ps = Ok qs -> qs = ps.
Proof.
  unfold check_distinct. intro H. apply validate_items_spec in H. destruct H as (as_ & E & F & _).
  assert (as_ = ps) as ->.
  { revert as_ E F. clear. revert qs. induction ps as [|p ps IH]; intros qs [|a as_] E F; try discriminate; [reflexivity|].
    injection E as -> E. inversion F; subst. f_equal. eapply IH; eauto. }
  clear E. induction F as [|a b l m H F IH]; [reflexivity|]. injection H as ->. rewrite IH. reflexivity.
Qed.

Lemma forall2_weaken {A B} (P Q : A -> B -> Prop) l m : (forall a b, P a b -> Q a b) -> Forall2 P l m -> Forall2 Q l m.
Proof. intros H F. induction F; constructor; auto. Qed.

Section Load.
Variable stat : bytes -> stat_result.
Variable regexp_ok xpath_ok : bytes -> bool.
Variable upper : bytes -> bytes.
Notation load := (load stat regexp_ok xpath_ok upper).

Lemma parser_means ps c q : validate_parser regexp_ok ps c = Ok q -> means_parser c q.
Proof.
  unfold validate_parser. intro H. inv_ok.
  destruct c; inv_ok; try constructor.
  destruct delimiter as [d|]; [|discriminate]. inv_ok. constructor. apply or_bool_bool.
Qed.

Lemma xml_means ps : forall c req q, validate_xml xpath_ok ps req c = Ok q -> means_xml c q.
Proof.
  induction c as [name type parser xpath items props IHi IHp] using xml_prop_ind'. intros req q H.
  cbn [validate_xml] in H. inv_ok.
  destruct (bytes_eqb (or_default type (lit "primitive")) (lit "primitive")) eqn:T1.
  - inv_ok. destruct items; [discriminate|]. inv_ok. apply negb_false_iff, is_nil_true in C2. subst props.
    constructor; [|apply or_default_text]. apply bytes_eqb_eq in T1. destruct type; [left; reflexivity|right; exact T1].
  - assert (NE : type <> []) by (intros ->; rewrite bytes_eqb_refl in T1; discriminate).
    assert (or_default type (lit "primitive") = type) as ET by (destruct type; [congruence|reflexivity]). rewrite ET in *.
    destruct (bytes_eqb type (lit "array")) eqn:T2.
    + apply bytes_eqb_eq in T2. inv_ok. destruct items as [i|]; [|discriminate]. inv_ok.
      apply negb_false_iff, is_nil_true in C1, C2. subst. constructor. eapply IHi; [reflexivity|eassumption].
    + destruct (bytes_eqb type (lit "object")) eqn:T3; [|discriminate].
      apply bytes_eqb_eq in T3. inv_ok. destruct items; [discriminate|]. inv_ok.
      apply negb_false_iff, is_nil_true in C1. subst. constructor.
      eapply items_means; [eassumption|]. intros a' b' I V. rewrite Forall_forall in IHp. eapply IHp; [exact I|reflexivity|exact V].
Qed.

Lemma input_means ps c q : validate_input stat xpath_ok ps c = Ok q -> means_input c q.
Proof.
  unfold validate_input. intro H. inv_ok. destruct c; inv_ok.
  - constructor; [apply or_bool_bool|apply or_default_text|]. eapply items_means; [eassumption|].
    intros x y _ V. unfold validate_column in V. inv_ok. cbn [fst snd]. split; [reflexivity|apply or_default_text].
  - constructor. apply or_bool_bool.
  - constructor; [apply or_bool_bool|]. eapply items_means; [eassumption|]. intros x y _ V. eapply xml_means, V.
Qed.

Lemma index_means is c q : validate_index stat upper is c = Ok q -> means_index upper c q.
Proof.
  unfold validate_index. intro H. inv_ok. destruct c; inv_ok.
  - apply distinct_same in E0. subst. constructor.
  - apply distinct_same in E1. subst. constructor. apply or_bool_bool.
  - constructor. eapply items_means; [eassumption|]. intros x y _ V. unfold validate_sqlite_property in V. inv_ok.
    cbn [fst snd]. split; [reflexivity|]. unfold validate_collate in E1. inv_ok. destruct x as [pn [|b0 col]]; cbn [fst snd].
    + left. split; reflexivity.
    + right. split; [discriminate|reflexivity].
  - apply distinct_same in E0. subst. constructor. apply or_default_text.
  - constructor.
Qed.

Lemma rel_means xs is : forall c q, validate_relationship xs is c = Ok q -> means_rel c q.
Proof.
  induction c as [input is_array limit sort ms children IH] using raw_relationship_ind'. intros q H.
  cbn [validate_relationship] in H. inv_ok. constructor.
  - eapply items_means; [eassumption|]. intros x y _ V. injection V as <-. cbn [fst snd]. split; [reflexivity|apply or_bool_bool].
  - assert (F := items_means _ _ _ (fun m m' : bytes * bytes * bytes => fst m' = fst m /\ text_or (snd m) (lit "default") (snd m')) _ _ _ E1).
    match type of F with ?A -> _ => assert (G : A) end.
    { intros [[p c] i] b _ V. unfold validate_match in V. inv_ok. cbn [fst snd]. split; [reflexivity|apply or_default_text]. }
    specialize (F G). eapply forall2_weaken; [|exact F]. intros o [[p' c'] i'] ([[p c] i] & -> & Ef & T). cbn [fst snd] in *.
    injection Ef as -> ->. exists p, c, i, i'. auto.
  - eapply entries_means; [eassumption|]. intros n x y I V. rewrite Forall_forall in IH. eapply (IH _ I); [reflexivity|exact V].
Qed.

Lemma params_means xs ps i (f : bytes -> param -> res param) l bs :
  (forall n a b, f n a = Ok b -> validate_param xs ps i a = Ok b) ->
  validate_entries f l = Ok bs -> means_params l bs.
Proof.
  intros Hf H. unfold means_params.
  eapply (entries_means f (fun p p' => pm_property p' = pm_property p /\ text_or (pm_index p) (lit "default") (pm_index p') /\
    text_or (pm_parser p) (lit "string") (pm_parser p'))); [exact H|].
  intros n x y _ V. apply Hf in V. unfold validate_param in V. inv_ok.
  destruct (mget ps (or_default (pm_parser x) (lit "string"))); [|discriminate]. inv_ok. cbn [pm_property pm_index pm_parser].
  repeat split; apply or_default_text.
Qed.

Lemma rels_means xs is l bs : validate_entries (fun _ => validate_relationship xs is) l = Ok bs -> means_rels l bs.
Proof. intro H. eapply entries_means; [exact H|]. intros n x y _ V. eapply rel_means, V. Qed.

Lemma output_means is xs ps c q : validate_output is xs ps c = Ok q -> means_output c q.
Proof.
  unfold validate_output. destruct c; intro H; inv_ok.
  - constructor.
  - constructor; try apply size_default; try apply or_default_text.
    + eapply (params_means xs ps input); [|eassumption]. intros n x y V. cbn beta in V. inv_ok. assumption.
    + eapply rels_means; eassumption.
  - constructor.
    + eapply (params_means xs ps input); [|eassumption]. intros n x y V. exact V.
    + eapply rels_means; eassumption.
Qed.

Lemma service_means os c q : validate_service stat os c = Ok q -> means_service c q.
Proof.
  unfold validate_service. destruct c as [n http https errors routes].
  cbn [sc_name sc_http sc_https sc_errors_type sc_routes]. intro H. inv_ok.
  assert (G : (http <> None \/ https <> None) /\
    (rlet https := match https with None => Ok None | Some h => rlet h := validate_https stat h in Ok (Some h) end in
     if is_nil routes then Err (EMsg "routes is empty.") else
     rlet rs := validate_items (validate_route os) snd (EMsg "Duplicate path in array.") [] routes in
     if is_in_array (or_default errors (lit "application/json")) [lit "application/json"]
     then Ok (mkVService (match http with None => None | Some l => Some (or_default l (lit "127.0.0.1:0")) end) https rs)
     else Err (EMsg "http.errorsType: type is not supported.")) = Ok q).
  { destruct https, http; try discriminate H; (split; [solve [left; discriminate|right; discriminate]|exact H]). }
  clear H. destruct G as [NN H]. inv_ok. constructor.
  - exact NN.
  - destruct http; [apply or_default_text|exact I].
  - destruct https as [[[l cert] key]|]; inv_ok; [|exact I]. unfold validate_https in E1. inv_ok.
    repeat split. apply or_default_text.
  - destruct errors; [left; reflexivity|right].
    apply is_in_array_spec in C1. destruct C1 as [C1|[]]. symmetry. exact C1.
  - apply validate_items_spec in E0. destruct E0 as (as_ & -> & F & _). f_equal. clear - F.
    induction F as [|a b l m V F IH]; [reflexivity|]. unfold validate_route in V. inv_ok. reflexivity.
Qed.

Lemma collected_only {A} (name : A -> bytes) dup l m n : collect_named name dup l [] = Ok m -> has m n -> In n (names name l).
Proof.
  intros H K. destruct (collected name dup l m H) as [_ N]. apply has_mget in K. destruct K as (a & M).
  destruct (in_dec (list_eq_dec Byte.byte_eq_dec) n (names name l)) as [I|NI]; [exact I|]. rewrite (N _ NI) in M. discriminate.
Qed.

Lemma forall2_has {A B} (R : A -> B -> Prop) (l : list (bytes * A)) m n :
  Forall2 (fun na nb => fst na = fst nb /\ R (snd na) (snd nb)) l m -> has m n -> has l n.
Proof.
  intros F (b & I). destruct (forall2_right _ _ _ F _ I) as ([k a] & Ia & En & _). cbn [fst] in En. subst. exists a. exact Ia.
Qed.

Lemma add_default_only {A} (name : A -> bytes) m a n : has (add_default name m a) n -> has m n \/ n = name a.
Proof.
  unfold add_default. destruct (mget m (name a)); [auto|]. intro H. apply has_mget in H. destruct H as (x & H).
  destruct (list_eq_dec Byte.byte_eq_dec n (name a)) as [E|NE]; [auto|]. left. rewrite mget_mset_other in H by congruence. eapply mget_has, H.
Qed.

Lemma add_defaults_only {A} (name : A -> bytes) : forall ds m n, has (fold_left (add_default name) ds m) n -> has m n \/ In n (map name ds).
Proof.
  induction ds as [|d ds IH]; intros m n H; [auto|]. cbn [fold_left] in H. apply IH in H. destruct H as [H|H]; [|simpl; auto].
  apply add_default_only in H. destruct H as [H| ->]; simpl; auto.
Qed.

Theorem load_means p v : load p = Ok v -> means upper p v.
Proof.
  intro L. destruct (load_objects stat regexp_ok xpath_ok upper p v L) as (OP & OI & OX & OB & OD).
  unfold Config.load, Config.validate in L. inv_ok. unfold config_of_parsed in E. inv_ok.
  cbn [add_defaults cf_parsers cf_inputs cf_indexes cf_services cf_outputs vc_parsers vc_inputs vc_indexes vc_services vc_outputs] in *.
  apply validate_all_spec in E0, E1, E2, E3, E4.
  constructor; cbn [vc_parsers vc_inputs vc_indexes vc_services vc_outputs].
  - intros c I. destruct (OP c I) as (ps & q & M & V). exists q. split; [exact M|eapply parser_means, V].
  - intros c I. destruct (OI c I) as (ps & q & M & V). exists q. split; [exact M|eapply input_means, V].
  - intros c I. destruct (OX c I) as (ps & q & M & V). exists q. split; [exact M|eapply index_means, V].
  - intros c I. destruct (collected _ _ _ _ E8) as [S1 _].
    destruct (forall2_mget (fun x y => validate_service stat _ x = Ok y) _ _ E3 _ _ (S1 _ I)) as (q & M & V).
    exists q. split; [exact M|eapply service_means, V].
  - intros c I. destruct (collected _ _ _ _ E9) as [S1 _].
    destruct (forall2_mget (fun x y => validate_output _ _ _ x = Ok y) _ _ E4 _ _ (S1 _ I)) as (q & M & V).
    exists q. split; [exact M|eapply output_means, V].
  - exact OB.
  - exact OD.
  - intro n. split; [|split; [|split; [|split]]]; intro K.
    + apply (forall2_has (fun x y => validate_parser regexp_ok _ x = Ok y) _ _ n E0) in K. apply add_defaults_only in K. destruct K as [K|K].
      * left. eapply collected_only; eassumption.
      * right. cbn [map default_parsers parser_name In] in K.
        destruct K as [<-|[<-|[<-|[<-|[<-|[]]]]]]; eexists; cbn [built_in In]; eauto 7.
    + apply (forall2_has (fun x y => validate_input stat xpath_ok _ x = Ok y) _ _ n E1) in K. eapply collected_only; eassumption.
    + apply (forall2_has (fun x y => validate_index stat upper _ x = Ok y) _ _ n E2) in K. apply add_default_only in K. destruct K as [K| ->]; [|right; reflexivity].
      left. eapply collected_only; eassumption.
    + apply (forall2_has (fun x y => validate_service stat _ x = Ok y) _ _ n E3) in K. eapply collected_only; eassumption.
    + apply (forall2_has (fun x y => validate_output _ _ _ x = Ok y) _ _ n E4) in K. eapply collected_only; eassumption.
Qed.
End Load.
