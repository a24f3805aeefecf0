(** Proofs about validation: collations, indexes, parameters. *)
From Coq Require Import List ZArith Lia Bool String Permutation.
From Coq Require Import Strings.Byte.
From Verif Require Import Base BaseFacts Codec Value GoStrings Parser Sort Output Http Records Config SpecConfig ConfigFacts ConfigFacts2 ConfigFacts3.
Import ListNotations.
Open Scope Z_scope.

(** *** Collations *)

Definition all_bytes : list byte := map (fun n => byte_of_Z (Z.of_nat n)) (seq 0 256).
Lemma all_bytes_spec b : In b all_bytes.
Proof. destruct b; vm_compute; repeat (first [left; reflexivity|right]). Qed.
Lemma for_all_bytes (P : byte -> bool) : forallb P all_bytes = true -> forall b, P b = true.
Proof. intros H b. rewrite forallb_forall in H. apply H, all_bytes_spec. Qed.

Lemma upper_lower_eq : forall a b, beqb (ascii_upper a) (ascii_upper b) = beqb (ascii_lower a) (ascii_lower b).
Proof.
  intros a b.
  pose proof (for_all_bytes (fun a => forallb (fun b => Bool.eqb (beqb (ascii_upper a) (ascii_upper b)) (beqb (ascii_lower a) (ascii_lower b))) all_bytes)) as H.
  assert (H' : forall a, forallb (fun b => Bool.eqb (beqb (ascii_upper a) (ascii_upper b)) (beqb (ascii_lower a) (ascii_lower b))) all_bytes = true)
    by (apply H; vm_compute; reflexivity).
  specialize (H' a).
  apply eqb_prop. exact (for_all_bytes _ H' b).
Qed.

Lemma upper_same_letters : forall a b, map ascii_upper a = map ascii_upper b <-> same_letters a b.
Proof.
  unfold same_letters. induction a as [|x a IH]; intros [|y b]; cbn [map]; try (split; [discriminate|discriminate]); [tauto|].
  pose proof (upper_lower_eq x y) as U. split; intro H; injection H as H1 H2.
  - f_equal; [|apply IH, H2]. apply beqb_eq. rewrite <- U. apply beqb_eq. exact H1.
  - f_equal; [|apply IH, H2]. apply beqb_eq. rewrite U. apply beqb_eq. exact H1.
Qed.

Lemma is_in_array_spec s l : is_in_array s l = true <-> In s l.
Proof.
  unfold is_in_array. rewrite existsb_exists. split.
  - intros (x & I & E). apply bytes_eqb_eq in E. subst. exact I.
  - intro I. exists s. split; [exact I|apply bytes_eqb_refl].
Qed.

(** A text without a byte above 127 is accepted exactly if it is empty or one of
    three words in any case. *)
Lemma collate_ascii ru s : forallb (in_range 0 127) s = true ->
  ((exists c, validate_collate (to_upper ru) s = Ok c) <->
   s = [] \/ same_letters s (lit "binary") \/ same_letters s (lit "nocase") \/ same_letters s (lit "rtirm")).
Proof.
  intro A. unfold validate_collate.
  assert (G : forall t, (exists c, (if is_in_array t collations then Ok t else Err (EMsg "collate value is invalid.")) = Ok c) <-> In t collations).
  { intro t. destruct (is_in_array t collations) eqn:E.
    - split; [intros _; apply is_in_array_spec, E|eauto].
    - split; [intros (c & H); discriminate|]. intro I. apply is_in_array_spec in I. congruence. }
  rewrite G. destruct s as [|b s'].
  - split; [auto|]. intros _. left. reflexivity.
  - remember (b :: s') as s eqn:Es. replace (to_upper ru s) with (map ascii_upper s) by (unfold to_upper; rewrite A; reflexivity).
    rewrite <- !upper_same_letters. cbn [collations In].
    change (map ascii_upper (lit "binary")) with (lit "BINARY"). change (map ascii_upper (lit "nocase")) with (lit "NOCASE").
    change (map ascii_upper (lit "rtirm")) with (lit "RTIRM"). subst s.
    split; [intros [H|[H|[H|[]]]]; auto|intros [H|[H|[H|H]]]; [discriminate|auto|auto|auto]].
Qed.

(** What is accepted is one of the three words. *)
Lemma collate_result upper s c : validate_collate upper s = Ok c -> In c [lit "BINARY"; lit "NOCASE"; lit "RTIRM"].
Proof. unfold validate_collate. intro H. inv_ok. apply is_in_array_spec in C. exact C. Qed.

Lemma same_letters_ascii t : forallb (in_range 0 127) t = true -> forall s, same_letters s t -> forallb (in_range 0 127) s = true.
Proof.
  intros T s. revert t T. unfold same_letters.
  assert (L : forall a b, ascii_lower a = ascii_lower b -> in_range 0 127 b = true -> in_range 0 127 a = true).
  { assert (F : forall b, Bool.eqb (in_range 0 127 (ascii_lower b)) (in_range 0 127 b) = true) by (apply for_all_bytes; vm_compute; reflexivity).
    intros a b E R. pose proof (eqb_prop _ _ (F a)). pose proof (eqb_prop _ _ (F b)). congruence. }
  induction s as [|x s IH]; intros [|y t] T H; cbn [map] in H; try discriminate; [reflexivity|].
  cbn [forallb] in *. apply andb_true_iff in T. destruct T as [T1 T2]. injection H as H1 H2.
  rewrite (L _ _ H1 T1). apply (IH t); assumption.
Qed.

(** *** Indexes *)

Lemma forall2_mget {A B} (R : A -> B -> Prop) (l : list (bytes * A)) (m : list (bytes * B)) :
  Forall2 (fun na nb => fst na = fst nb /\ R (snd na) (snd nb)) l m -> forall k a, mget l k = Some a ->
  exists b, mget m k = Some b /\ R a b.
Proof.
  induction 1 as [|[n a] [n' b] l m [E H] F IH]; intros k a0 M; [discriminate|].
  cbn [fst snd] in *. subst. cbn [mget] in *. destruct (bytes_eqb n' k); [|apply IH, M]. injection M as <-. eauto.
Qed.

Section Fit.
Variable stat : bytes -> stat_result.
Variable regexp_ok xpath_ok : bytes -> bool.
Variable upper : bytes -> bytes.
Notation load := (load stat regexp_ok xpath_ok upper).

(** What a configuration says an index handles, the validated index contains. *)
Lemma validate_index_fits inputs c x input p : validate_index stat upper inputs c = Ok x ->
  handles_input c input = true -> handles_property c p = true -> contains_property x input p.
Proof.
  unfold validate_index. intro H. inv_ok. destruct c as [n i ps|n pa i ps ic|n d i ps|n d i pf tk ps|n]; inv_ok;
    cbn [handles_input handles_property contains_property]; intros HI HP; try (apply bytes_eqb_eq in HI; subst i).
  - apply check_distinct_spec in E0. destruct E0 as [-> _]. apply existsb_eq in HP. auto.
  - apply check_distinct_spec in E1. destruct E1 as [-> _]. apply existsb_eq in HP. auto.
  - split; [reflexivity|]. apply validate_items_spec in E0. destruct E0 as (as_ & -> & F & _).
    apply existsb_exists in HP. destruct HP as (o & I & Q). apply in_map_iff in I. destruct I as (q & <- & I).
    apply bytes_eqb_eq in Q. destruct (forall2_left _ _ _ F _ I) as (b & Ib & Eb). unfold validate_sqlite_property in Eb. inv_ok.
    exists a1. exact Ib.
  - apply bytes_eqb_eq in HP. auto.
  - exact Logic.I.
Qed.

Lemma check_index_ok indexes i input p u : check_index indexes i input p = Ok u ->
  exists c, mget indexes i = Some c /\ handles_input c input = true /\ handles_property c p = true.
Proof.
  unfold check_index. destruct (mget indexes i) as [c|]; [|discriminate]. intro H. inv_ok.
  apply negb_false_iff in C, C0. eauto.
Qed.

(** *** Relationships *)

Definition rel_fits (ok : bytes -> bytes -> bytes -> Prop) (r : relationship) : Prop :=
  (forall parent child index, In (parent, child, index) (rel_match r) -> ok index (rel_input r) child) /\
  rel_match r <> [] /\ NoDup (map (fun m => snd (fst m)) (rel_match r)) /\
  NoDup (map fst (rel_sort r)) /\ (rel_is_array r = false -> rel_sort r = []).

Lemma validate_relationship_fits indexes inputs (ok : bytes -> bytes -> bytes -> Prop) :
  (forall i input p u, check_index indexes i input p = Ok u -> ok i input p) ->
  forall c r0, validate_relationship indexes inputs c = Ok r0 ->
  rel_fits ok r0 /\ forall r, sub_rel r (rel_children r0) -> rel_fits ok r.
Proof.
  intro OK. induction c as [input ia lim so ms ch IH] using raw_relationship_ind'. intros r0 H.
  cbn [validate_relationship] in H. inv_ok. split.
  - apply validate_items_spec in E1. destruct E1 as (as_ & -> & F & N & _).
    apply validate_items_spec in E0. destruct E0 as (ss & -> & Fs & Ns & _).
    unfold rel_fits. cbn [rel_match rel_sort rel_is_array rel_input]. repeat split; try assumption.
    + intros parent child index I. destruct (forall2_right _ _ _ F _ I) as ([[p0 c0] i0] & _ & Em).
      unfold validate_match in Em. inv_ok. eapply OK; eauto.
    + intro Q. subst. inversion F; subst. discriminate.
    + intro Q. subst. apply andb_false_iff in C. destruct C as [C|C]; [|discriminate].
      destruct ss; [|discriminate]. inversion Fs. reflexivity.
  - cbn [rel_children]. intros r Hs. apply validate_entries_spec in E2. destruct E2 as (as_ & -> & F).
    rewrite Forall_forall in IH.
    assert (G : forall name r', In (name, r') a2 -> rel_fits ok r' /\ forall r, sub_rel r (rel_children r') -> rel_fits ok r).
    { intros name r' I. destruct (forall2_right _ _ _ F _ I) as ([n' c'] & I' & _ & Ec). cbn [fst snd] in Ec.
      eapply (IH (n', Some c')); [|reflexivity|exact Ec]. apply in_map_iff. exists (n', c'). auto. }
    inversion Hs as [name rels I|name r' rels I S']; subst; destruct (G _ _ I) as [G1 G2]; auto.
Qed.

Lemma validate_rels_fits indexes inputs (ok : bytes -> bytes -> bytes -> Prop) rels vs :
  (forall i input p u, check_index indexes i input p = Ok u -> ok i input p) ->
  validate_entries (fun _ => validate_relationship indexes inputs) rels = Ok vs ->
  forall r, sub_rel r vs -> rel_fits ok r.
Proof.
  intros OK H r Hs. apply validate_entries_spec in H. destruct H as (as_ & _ & F).
  inversion Hs as [name ? I|name r' ? I S']; subst; destruct (forall2_right _ _ _ F _ I) as ([n' c'] & _ & _ & Ec);
    apply (validate_relationship_fits indexes inputs ok OK) in Ec; destruct Ec as [G1 G2]; auto.
Qed.

Lemma validate_param_fits indexes parsers input p q : validate_param indexes parsers input p = Ok q ->
  (exists u, check_index indexes (pm_index q) input (pm_property q) = Ok u) /\
  exists c, mget parsers (pm_parser q) = Some c /\ config_primitive c = true.
Proof.
  unfold validate_param. intro H. inv_ok. destruct (mget parsers _) eqn:M; [|discriminate]. inv_ok.
  cbn [pm_index pm_parser pm_property]. split; eauto.
Qed.

Lemma validate_output_fits inputs indexes parsers c o (ok : bytes -> bytes -> bytes -> Prop) :
  (forall i input p u, check_index indexes i input p = Ok u -> ok i input p) ->
  validate_output inputs indexes parsers c = Ok (VOutput o) ->
  (forall name p, In (name, p) (out_params o) -> ok (pm_index p) (out_input o) (pm_property p) /\
     exists c, mget parsers (pm_parser p) = Some c /\ config_primitive c = true) /\
  (forall r, sub_rel r (out_rels o) -> rel_fits ok r) /\
  match o with
  | OArray a => (forall name p, In (name, p) (ac_params a) -> name <> ac_limit_param a /\ name <> ac_offset_param a) /\
      ac_default a <= ac_max a /\
      (forall n i d mx lp op ps rs, c = CArray n i d mx lp op ps rs -> 0 <= d -> 1 <= ac_default a)
  | OObject a => oc_params a <> []
  end.
Proof.
  intro OK. destruct c as [n|n input d mx lp op params rels|n input params rels]; cbn [validate_output]; intro H; inv_ok.
  - discriminate.
  - cbn [out_input out_params out_rels ac_input ac_params ac_relationships ac_limit_param ac_offset_param ac_default ac_max].
    apply validate_entries_spec in E0. destruct E0 as (as_ & _ & F).
    assert (G : forall name p, In (name, p) a0 -> (exists p', validate_param indexes parsers input p' = Ok p) /\
              name <> or_default lp (lit "limit") /\ name <> or_default op (lit "offset")).
    { intros name p I. destruct (forall2_right _ _ _ F _ I) as ([n' p'] & _ & En & Ep). cbn [fst snd] in *. subst n'. inv_ok.
      split; [eauto|]. split; intro Q; rewrite Q, bytes_eqb_refl in *; discriminate. }
    repeat split.
    + intros. destruct (G _ _ H) as ((p' & V) & _). apply validate_param_fits in V. destruct V as ((u & V) & _). eapply OK; eauto.
    + destruct (G _ _ H) as ((p' & V) & _). apply validate_param_fits in V. tauto.
    + apply (validate_rels_fits _ _ _ _ _ OK E1 _ H).
    + apply (validate_rels_fits _ _ _ _ _ OK E1 _ H).
    + apply (validate_rels_fits _ _ _ _ _ OK E1 _ H).
    + apply (validate_rels_fits _ _ _ _ _ OK E1 _ H).
    + apply (validate_rels_fits _ _ _ _ _ OK E1 _ H).
    + apply (G _ _ H).
    + apply (G _ _ H).
    + apply Z.ltb_ge. exact C1.
    + intros ? ? ? ? ? ? ? ? Q Hd. injection Q as -> -> -> -> -> -> -> ->. destruct (d0 =? 0) eqn:Z0; lia.
  - cbn [out_input out_params out_rels oc_input oc_params oc_relationships].
    apply validate_entries_spec in E0. destruct E0 as (as_ & -> & F).
    assert (G : forall name p, In (name, p) a0 -> exists p', validate_param indexes parsers input p' = Ok p).
    { intros name p I. destruct (forall2_right _ _ _ F _ I) as ([n' p'] & _ & En & Ep). cbn [fst snd] in *. eauto. }
    repeat split.
    + destruct (G _ _ H) as (p' & V). apply validate_param_fits in V. destruct V as ((u & V) & _). eapply OK; eauto.
    + destruct (G _ _ H) as (p' & V). apply validate_param_fits in V. tauto.
    + apply (validate_rels_fits _ _ _ _ _ OK E1 _ H).
    + apply (validate_rels_fits _ _ _ _ _ OK E1 _ H).
    + apply (validate_rels_fits _ _ _ _ _ OK E1 _ H).
    + apply (validate_rels_fits _ _ _ _ _ OK E1 _ H).
    + apply (validate_rels_fits _ _ _ _ _ OK E1 _ H).
    + intro Q. subst. inversion F; subst. discriminate.
Qed.

Lemma validate_xml_distinct parsers name xp l : forall c req x,
  validate_xml xpath_ok parsers req c = Ok x -> sub_prop (XObject name xp l) x -> NoDup (map x_name l).
Proof.
  induction c as [n t pr xpath items props IHi IHp] using xml_prop_ind'. intros req x H Hs.
  cbn [validate_xml] in H. inv_ok.
  destruct (bytes_eqb _ (lit "primitive")).
  - inv_ok. destruct items; [discriminate|]. inv_ok. inversion Hs.
  - destruct (bytes_eqb _ (lit "array")).
    + inv_ok. destruct items as [i|]; [|discriminate]. inv_ok. inversion Hs; subst. eapply IHi; eauto.
    + inv_ok. destruct items; [discriminate|]. inv_ok.
      apply validate_items_spec in E. destruct E as (as_ & -> & F & N & _).
      inversion Hs as [|? ? ? H'|? ? ? c I S']; subst; [exact N|].
      destruct (forall2_right _ _ _ F _ I) as (c0 & I0 & E0).
      rewrite Forall_forall in IHp. eapply (IHp (Some c0)); [apply in_map, I0|reflexivity|exact E0|exact S'].
Qed.

Lemma validate_parser_primitive ps c q : validate_parser regexp_ok ps c = Ok q -> config_primitive c = true ->
  match q with PString _ | PInteger _ | PFloat _ _ | PBoolean _ _ => True | PJson | PSplit _ _ _ => False end.
Proof.
  unfold validate_parser. intro H. inv_ok. destruct c as [| | | | |n [d|] ir sb]; cbn [config_primitive]; intro P; try discriminate; inv_ok; exact Logic.I.
Qed.

Theorem load_fits p v : load p = Ok v -> indexes_fit v.
Proof.
  unfold Config.load, Config.validate. intro H. inv_ok. remember (add_defaults a) as c eqn:Ec.
  pose proof (validate_all_spec _ _ _ E0) as FP. pose proof (validate_all_spec _ _ _ E2) as FX. pose proof (validate_all_spec _ _ _ E4) as FO.
  assert (OK : forall i input p u, check_index (cf_indexes c) i input p = Ok u ->
            exists x, mget a2 i = Some x /\ contains_property x input p).
  { intros i input q u K. apply check_index_ok in K. destruct K as (xc & M & HI & HP).
    destruct (forall2_mget (fun x y => validate_index stat upper (cf_inputs c) x = Ok y) _ _ FX _ _ M) as (x & Mx & Vx). exists x. split; [exact Mx|]. eapply validate_index_fits; eauto. }
  constructor; cbn [vc_parsers vc_indexes vc_outputs]; intros n o.
  - intros name q I Iq. destruct (forall2_right _ _ _ FO _ I) as ([n' oc] & _ & _ & Ev). cbn [snd] in Ev.
    apply (validate_output_fits _ _ _ _ _ (fun i input p => exists x, mget a2 i = Some x /\ contains_property x input p) OK) in Ev.
    destruct Ev as (Hp & _). destruct (Hp _ _ Iq) as (G1 & pc & Mp & Pp). split; [exact G1|].
    destruct (forall2_mget (fun x y => validate_parser regexp_ok (cf_parsers c) x = Ok y) _ _ FP _ _ Mp) as (vp & Mv & Vp). exists vp. split; [exact Mv|]. eapply validate_parser_primitive; eauto.
  - intros r parent child index I Hr Im. destruct (forall2_right _ _ _ FO _ I) as ([n' oc] & _ & _ & Ev). cbn [snd] in Ev.
    apply (validate_output_fits _ _ _ _ _ (fun i input p => exists x, mget a2 i = Some x /\ contains_property x input p) OK) in Ev.
    destruct Ev as (_ & Hp & _). destruct (Hp _ Hr) as (G & _). eapply G; eauto.
Qed.

Theorem load_unambiguous p v : unsigned_limits p -> load p = Ok v -> unambiguous v.
Proof.
  unfold Config.load, Config.validate. intros U H. inv_ok.
  pose proof (validate_all_spec _ _ _ E1) as FI. pose proof (validate_all_spec _ _ _ E3) as FS. pose proof (validate_all_spec _ _ _ E4) as FO.
  assert (FOut : forall n o, In (n, VOutput o) a4 -> exists oc, In (n, oc) (cf_outputs a) /\
            validate_output (cf_inputs (add_defaults a)) (cf_indexes (add_defaults a)) (cf_parsers (add_defaults a)) oc = Ok (VOutput o)).
  { intros n o I. destruct (forall2_right _ _ _ FO _ I) as ([n' oc] & I' & E' & Ev). cbn [fst snd] in *. subst. exists oc. split; [exact I'|exact Ev]. }
  assert (OK : forall i input p u, check_index (cf_indexes (add_defaults a)) i input p = Ok u -> (fun _ _ _ : bytes => True) i input p) by (intros; exact Logic.I).
  constructor; cbn [vc_inputs vc_services vc_outputs].
  - intros n c name q I Iq. destruct (FOut _ _ I) as (oc & _ & Ev). apply (validate_output_fits _ _ _ _ _ _ OK) in Ev. destruct Ev as (_ & _ & G & _). eauto.
  - intros n c I. destruct (FOut _ _ I) as (oc & Ic & Ev). pose proof Ev as Ev'. apply (validate_output_fits _ _ _ _ _ _ OK) in Ev. destruct Ev as (_ & _ & _ & G & G').
    split; [|exact G]. destruct oc as [n0|n0 i0 d0 mx0 lp0 op0 ps0 rs0|n0 i0 ps0 rs0].
    + cbn [validate_output] in Ev'. inv_ok. discriminate.
    + eapply G'; [reflexivity|].
      assert (In (Some (CArray n0 i0 d0 mx0 lp0 op0 ps0 rs0)) (pd_outputs p)) as J; [|apply U in J; apply J].
      unfold config_of_parsed in E. inv_ok. cbn [cf_outputs] in *.
      destruct (collect_named_values _ _ _ _ _ E9 _ _ Ic) as [[]|J]. exact J.
    + cbn [validate_output] in Ev'. inv_ok. discriminate.
  - intros n c I. destruct (FOut _ _ I) as (oc & _ & Ev). apply (validate_output_fits _ _ _ _ _ _ OK) in Ev. apply Ev.
  - intros n o r I Hr. destruct (FOut _ _ I) as (oc & _ & Ev). apply (validate_output_fits _ _ _ _ _ _ OK) in Ev.
    destruct Ev as (_ & G & _). destruct (G _ Hr) as (_ & G1 & G2 & _). auto.
  - intros n o r I Hr. destruct (FOut _ _ I) as (oc & _ & Ev). apply (validate_output_fits _ _ _ _ _ _ OK) in Ev.
    destruct Ev as (_ & G & _). destruct (G _ Hr) as (_ & _ & _ & G1 & G2). auto.
  - intros n s I. destruct (forall2_right _ _ _ FS _ I) as ([n' sc] & _ & _ & Ev). cbn [snd] in Ev.
    unfold validate_service in Ev. inv_ok.
    assert (G : sc_routes sc <> [] /\ exists rs, validate_items (validate_route (cf_outputs (add_defaults a))) snd (EMsg "Duplicate path in array.") [] (sc_routes sc) = Ok rs /\ vs_routes s = rs).
    { destruct (sc_https sc), (sc_http sc); try discriminate Ev; inv_ok;
        (split; [intro Q; rewrite Q in *; discriminate|eexists; split; try eassumption; reflexivity]). }
    destruct G as (NE & rs & Er & Es). rewrite Es.
    apply validate_items_spec in Er. destruct Er as (as_ & Eas & F & N & _). split; [|exact N].
    intro Q. subst. rewrite Q in F. inversion F; subst. apply NE. rewrite Eas. reflexivity.
  - intros n path die first detect delimiter columns I. destruct (forall2_right _ _ _ FI _ I) as ([n' ic] & _ & _ & Ev). cbn [snd] in Ev.
    unfold validate_input in Ev. inv_ok. destruct ic as [n0 pa di ig au de co|n0 pa di|n0 pa di pr rx]; inv_ok; try discriminate.
    apply validate_items_spec in E6. destruct E6 as (? & _ & _ & N & _). exact N.
  - intros n path die props xpath I. destruct (forall2_right _ _ _ FI _ I) as ([n' ic] & _ & _ & Ev). cbn [snd] in Ev.
    unfold validate_input in Ev. inv_ok. destruct ic as [n0 pa di ig au de co|n0 pa di|n0 pa di pr rx]; inv_ok; try discriminate.
    apply validate_items_spec in E6. destruct E6 as (? & _ & _ & N & _). exact N.
  - intros n path die props xpath c name xp l I Ic Hsub. destruct (forall2_right _ _ _ FI _ I) as ([n' ic] & _ & _ & Ev). cbn [snd] in Ev.
    unfold validate_input in Ev. inv_ok. destruct ic as [n0 pa di ig au de co|n0 pa di|n0 pa di pr rx]; inv_ok; try discriminate.
    apply validate_items_spec in E6. destruct E6 as (as_ & _ & F & _).
    destruct (forall2_right _ _ _ F _ Ic) as (c1 & _ & Ec). eapply validate_xml_distinct; eauto.
Qed.
End Fit.
