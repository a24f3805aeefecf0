(** Proofs about validation: panics, collations, indexes and parameters. *)
From Coq Require Import List ZArith Lia Bool String Permutation.
From Coq Require Import Strings.Byte.
From Verif Require Import Base BaseFacts Codec Value GoStrings Parser Sort Output Http Records Config SpecConfig ConfigFacts ConfigFacts2.
Import ListNotations.
Open Scope Z_scope.

(** *** Panics *)

Definition returns {A} (r : res A) : Prop := r <> Panic /\ r <> NoFuel.

Lemma returns_ok {A} (a : A) : returns (Ok a).
Proof. split; discriminate. Qed.
Lemma returns_err {A} e : returns (@Err A e).
Proof. split; discriminate. Qed.
Lemma returns_bind {A B} (x : res A) (f : A -> res B) : returns x -> (forall a, x = Ok a -> returns (f a)) -> returns (rbind x f).
Proof. intros [H1 H2] Hf. destruct x; cbn [rbind]; [apply Hf; reflexivity|apply returns_err|congruence|congruence]. Qed.

Ltac fine := repeat first
  [ apply returns_ok | apply returns_err
  | match goal with
    | |- returns (rbind _ _) => apply returns_bind; [|intros]
    | |- returns (if ?b then _ else _) => match type of b with bool => destruct b end
    | |- returns (let '(_, _) := ?x in _) => destruct x
    end ].

Lemma validate_items_returns {A B} (f : A -> res B) key dup : forall l seen,
  Forall (fun o => exists a, o = Some a /\ returns (f a)) l -> returns (validate_items f key dup seen l).
Proof.
  induction l as [|o l IH]; intros seen H; [apply returns_ok|]. inversion H as [|? ? (a & -> & Ha) Hl]; subst.
  cbn [validate_items]. apply returns_bind; [exact Ha|intros b _]. destruct (existsb _ seen); [apply returns_err|].
  apply returns_bind; [apply IH, Hl|intros; apply returns_ok].
Qed.

Lemma validate_entries_returns {A B} (f : bytes -> A -> res B) : forall l,
  Forall (fun no => exists a, snd no = Some a /\ returns (f (fst no) a)) l -> returns (validate_entries f l).
Proof.
  induction l as [|[n o] l IH]; intros H; [apply returns_ok|]. inversion H as [|? ? (a & E & Ha) Hl]; subst.
  cbn [snd fst] in *. subst. cbn [validate_entries]. apply returns_bind; [exact Ha|intros b _].
  apply returns_bind; [apply IH, Hl|intros; apply returns_ok].
Qed.

Lemma validate_all_returns {A B} (f : A -> res B) l : Forall (fun na => returns (f (snd na))) l -> returns (validate_all f l).
Proof.
  intro H. apply validate_entries_returns. induction H as [|[n a] l Ha H IH]; [constructor|]. constructor; [|exact IH].
  exists a. split; [reflexivity|exact Ha].
Qed.

Lemma no_none {A} (P : A -> Prop) (l : list (option A)) : ~ In None l -> (forall a, P a) ->
  Forall (fun o => exists a, o = Some a /\ P a) l.
Proof.
  intros H HP. apply Forall_forall. intros [a|] I; [eauto|contradiction].
Qed.

Lemma check_distinct_returns props : returns (check_distinct props).
Proof.
  apply validate_items_returns. apply Forall_forall. intros o I. apply in_map_iff in I. destruct I as (a & <- & _).
  exists a. split; [reflexivity|apply returns_ok].
Qed.

Lemma collect_named_returns {A} (name : A -> bytes) dup : forall l m, ~ In None l -> returns (collect_named name dup l m).
Proof.
  induction l as [|[a|] l IH]; intros m H; [apply returns_ok| |destruct H; left; reflexivity].
  cbn [collect_named]. destruct (mget m (name a)); [apply returns_err|]. apply IH. intro I. apply H. right. exact I.
Qed.

Section Panic.
Variable stat : bytes -> stat_result.
Variable regexp_ok xpath_ok : bytes -> bool.
Variable upper : bytes -> bytes.

Lemma validate_parser_returns ps c : returns (validate_parser regexp_ok ps c).
Proof. unfold validate_parser. destruct (is_nil (parser_name c)); [apply returns_err|]. destruct c as [| | | | |? [d|] ? ?]; fine. Qed.

Lemma validate_column_returns ps c : returns (validate_column ps c).
Proof. unfold validate_column. fine. Qed.

Lemma validate_xml_returns ps : forall c req, complete_xml c -> returns (validate_xml xpath_ok ps req c).
Proof.
  induction c as [n t pr xpath items props IHi IHp] using xml_prop_ind'. intros req H. inversion H as [? ? ? ? ? ? Hi Hp]; subst.
  cbn [validate_xml]. destruct (req && is_nil n); [apply returns_err|].
  destruct (negb (xpath_ok xpath)); [apply returns_err|].
  destruct (bytes_eqb _ (lit "primitive")).
  - destruct items; fine.
  - destruct (bytes_eqb _ (lit "array")).
    + destruct items as [i|]; fine. apply IHi; auto.
    + destruct items as [i|]; fine. apply validate_items_returns. rewrite Forall_forall in *.
      intros o I. destruct (Hp o I) as (c & -> & Hc). exists c. split; [reflexivity|]. exact (IHp (Some c) I c eq_refl _ Hc).
Qed.

Lemma check_file_returns path : stat path <> SError -> returns (check_file stat path).
Proof. intro H. unfold check_file. destruct (stat path); try apply returns_ok; try apply returns_err. congruence. Qed.

Lemma validate_input_returns ps c : complete_input c -> stat (input_path c) <> SError -> returns (validate_input stat xpath_ok ps c).
Proof.
  intros H Hs. unfold validate_input. destruct (is_nil (input_name c)); [apply returns_err|].
  destruct c; cbn [input_path complete_input] in *; fine; try (apply check_file_returns; exact Hs).
  - apply validate_items_returns, no_none; [exact H|]. apply validate_column_returns.
  - apply validate_items_returns. rewrite Forall_forall in *. intros o I. destruct (H o I) as (c & -> & Hc). exists c.
    split; [reflexivity|]. apply validate_xml_returns, Hc.
Qed.

Lemma check_input_returns inputs n : returns (check_input inputs n).
Proof. unfold check_input. fine. Qed.

Lemma validate_index_returns inputs c : complete_index c -> returns (validate_index stat upper inputs c).
Proof.
  intro H. unfold validate_index. destruct (is_nil (index_name c)); [apply returns_err|].
  destruct c; cbn [complete_index] in *; fine; try apply check_input_returns; try apply check_distinct_returns.
  - destruct (stat path); fine.
  - apply validate_items_returns, no_none; [exact H|]. intro p. unfold validate_sqlite_property. fine. unfold validate_collate. fine.
Qed.

Lemma validate_service_returns outputs c : complete_service c ->
  (forall listen certificate key, sc_https c = Some (listen, certificate, key) -> stat certificate <> SError /\ stat key <> SError) ->
  returns (validate_service stat outputs c).
Proof.
  intros H Hs. unfold validate_service. destruct (is_nil (sc_name c)); [apply returns_err|].
  assert (R : forall (h : option bytes), returns (
    rlet https := match sc_https c with
                  | None => Ok None
                  | Some h => rlet h := validate_https stat h in Ok (Some h)
                  end in
    if is_nil (sc_routes c) then Err (EMsg "routes is empty.") else
    rlet rs := validate_items (validate_route outputs) snd (EMsg "Duplicate path in array.") [] (sc_routes c) in
    if is_in_array (or_default (sc_errors_type c) (lit "application/json")) [lit "application/json"]
    then Ok (mkVService h https rs)
    else Err (EMsg "http.errorsType: type is not supported."))).
  { intro h. apply returns_bind.
    - destruct (sc_https c) as [[[l ce] k]|]; fine. unfold validate_https. destruct (Hs _ _ _ eq_refl). fine; apply check_file_returns; assumption.
    - intros. fine. apply validate_items_returns, no_none; [exact H|]. intro r. unfold validate_route. fine. }
  destruct (sc_https c); [apply R|]. destruct (sc_http c); [apply R|apply returns_err].
Qed.

Lemma check_index_returns indexes i input p : returns (check_index indexes i input p).
Proof. unfold check_index. destruct (mget indexes i); fine. Qed.

Lemma validate_param_returns indexes ps input p : returns (validate_param indexes ps input p).
Proof. unfold validate_param. fine; try apply check_index_returns. destruct (mget ps _); fine. Qed.

Lemma validate_relationship_returns indexes inputs : forall c, complete_rel c -> returns (validate_relationship indexes inputs c).
Proof.
  induction c as [input ia lim so ms ch IH] using raw_relationship_ind'. intro H. inversion H as [? ? ? ? ? ? Hs Hm Hc]; subst.
  cbn [validate_relationship]. fine.
  - apply check_input_returns.
  - apply validate_items_returns, no_none; [exact Hs|]. intro s. apply returns_ok.
  - apply validate_items_returns, no_none; [exact Hm|]. intros [[a1 b1] c1]. unfold validate_match. fine. apply check_index_returns.
  - apply validate_entries_returns. rewrite Forall_forall in *. intros [n o] I. destruct (Hc _ I) as (c & E & Hr). cbn [snd fst] in *.
    exists c. split; [exact E|]. exact (IH _ I c E Hr).
Qed.

Lemma validate_output_returns inputs indexes ps c : complete_output c -> returns (validate_output inputs indexes ps c).
Proof.
  intro H. destruct c as [n|n i d mx lp op params rels|n i params rels]; cbn [validate_output complete_output] in *.
  - fine.
  - destruct H as [Hp Hr]. fine.
    + apply check_input_returns.
    + apply validate_entries_returns. rewrite Forall_forall in *. intros [k [p|]] I; [|destruct (Hp _ I eq_refl)].
      exists p. split; [reflexivity|]. fine. apply validate_param_returns.
    + apply validate_entries_returns. rewrite Forall_forall in *. intros [k o] I. destruct (Hr _ I) as (r & E & Hc). cbn [snd] in E. subst.
      exists r. split; [reflexivity|]. apply validate_relationship_returns, Hc.
  - destruct H as [Hp Hr]. fine.
    + apply check_input_returns.
    + apply validate_entries_returns. rewrite Forall_forall in *. intros [k [p|]] I; [|destruct (Hp _ I eq_refl)].
      exists p. split; [reflexivity|]. apply validate_param_returns.
    + apply validate_entries_returns. rewrite Forall_forall in *. intros [k o] I. destruct (Hr _ I) as (r & E & Hc). cbn [snd] in E. subst.
      exists r. split; [reflexivity|]. apply validate_relationship_returns, Hc.
Qed.

(** Everything in the map comes from the file. *)
Lemma collect_named_values {A} (name : A -> bytes) dup : forall l m m', collect_named name dup l m = Ok m' ->
  forall k a, In (k, a) m' -> In (k, a) m \/ In (Some a) l.
Proof.
  induction l as [|[b|] l IH]; intros m m' H k a I; cbn [collect_named] in H; [| |discriminate].
  - injection H as ->. left. exact I.
  - destruct (mget m (name b)) eqn:M; [discriminate|]. destruct (IH _ _ H _ _ I) as [J|J]; [|right; right; exact J].
    apply mget_None in M. clear - J M. induction m as [|[k' v'] m IHm].
    + cbn [mset In] in J. destruct J as [J|[]]. injection J as <- <-. right. left. reflexivity.
    + cbn [mset] in J. cbn [map fst In] in M. destruct (bytes_eqb k' (name b)) eqn:Q.
      * apply bytes_eqb_eq in Q. tauto.
      * destruct J as [J|J]; [left; left; exact J|]. destruct IHm as [G|G]; [tauto|exact J|left; right; exact G|right; exact G].
Qed.

Lemma add_default_values {A} (name : A -> bytes) m d k a : In (k, a) (add_default name m d) -> In (k, a) m \/ a = d.
Proof.
  unfold add_default. destruct (mget m (name d)) eqn:M; [auto|]. intro J. apply mget_None in M.
  induction m as [|[k' v'] m IHm].
  - cbn [mset In] in J. destruct J as [J|[]]. injection J as <- <-. auto.
  - cbn [mset] in J. cbn [map fst In] in M. destruct (bytes_eqb k' (name d)) eqn:Q.
    + apply bytes_eqb_eq in Q. tauto.
    + destruct J as [J|J]; [left; left; exact J|]. destruct IHm as [G|G]; [tauto|exact J|left; right; exact G|right; exact G].
Qed.

Theorem load_returns p : complete p -> (forall path, checked_file p path -> stat path <> SError) ->
  returns (load stat regexp_ok xpath_ok upper p).
Proof.
  intros [Hp Hi Hx Hs Ho] Hf. unfold load.
  assert (NN : forall A (P : A -> Prop) l, Forall (fun o => exists c, o = Some c /\ P c) l -> ~ In None l).
  { intros A P l F I. rewrite Forall_forall in F. destruct (F _ I) as (c & E & _). discriminate. }
  apply returns_bind.
  { unfold config_of_parsed. fine; apply collect_named_returns; eauto. }
  intros c E. unfold config_of_parsed in E. inv_ok. unfold validate, add_defaults.
  cbn [cf_parsers cf_inputs cf_indexes cf_services cf_outputs].
  rewrite Forall_forall in *. fine; apply validate_all_returns; apply Forall_forall; intros [k x] I; cbn [snd].
  - apply validate_parser_returns.
  - destruct (collect_named_values _ _ _ _ _ E1 _ _ I) as [[]|J]. destruct (Hi _ J) as (c & Q & Hc). injection Q as <-.
    apply validate_input_returns; [exact Hc|]. apply Hf. left. exists x. auto.
  - apply validate_index_returns. destruct (add_default_values _ _ _ _ _ I) as [J| ->]; [|exact Logic.I].
    destruct (collect_named_values _ _ _ _ _ E2 _ _ J) as [[]|L]. destruct (Hx _ L) as (c & Q & Hc). injection Q as <-. exact Hc.
  - destruct (collect_named_values _ _ _ _ _ E3 _ _ I) as [[]|J]. destruct (Hs _ J) as (c & Q & Hc). injection Q as <-.
    apply validate_service_returns; [exact Hc|]. intros l ce ke Eh.
    split; apply Hf; right; exists x, l, ce, ke; auto.
  - apply validate_output_returns. destruct (collect_named_values _ _ _ _ _ E4 _ _ I) as [[]|J].
    destruct (Ho _ J) as (c & Q & Hc). injection Q as <-. exact Hc.
Qed.
End Panic.
