(** Facts about the endpoints: existing indexes, refused requests. *)
From Coq Require Import List ZArith Lia Bool String Permutation Sorted.
From Coq Require Import Strings.Byte Floats.SpecFloat.
From Verif Require Import Base BaseFacts Value Join JoinFacts Index SpecIndex IndexFacts.
From Verif Require Import GoStrings SpecText StringsFacts Sort SpecOrder OrderFacts.
From Verif Require Import Output SpecOutput OutputFacts OutputFacts2 OutputFacts3 OutputFacts4.
Import ListNotations.
Open Scope Z_scope.

Lemma map_suits cfg inp rs : in_name inp = mc_input cfg -> NoDup (mc_props cfg) -> in_iter inp = map Ok rs ->
  readable (mc_props cfg) rs -> in_file_order rs ->
  exists idx, map_reindex cfg inp = Ok idx /\ index_exact equality (map_index cfg idx) inp rs (mc_props cfg).
Proof.
  intros Hn H1 H2 H3 H4. destruct (map_exact cfg inp rs H1 H2 H3 H4) as (idx & Hi & Hx). exists idx. split; [assumption|].
  intros fs Hne _ Hf. unfold map_index. rewrite Hn. apply Hx; assumption.
Qed.

Lemma noop_suits inp rs props : in_iter inp = map Ok rs -> readable props rs -> index_exact equality noop_positions inp rs props.
Proof.
  intros H1 H2 fs Hne _ Hf. apply (noop_exact inp rs fs H1). unfold comparable, readable in *. rewrite Forall_forall in *.
  intros r Hr. specialize (H2 r Hr). rewrite Forall_forall in *. intros f Hin. destruct (Hf f Hin) as [Hp Hv].
  destruct (H2 _ Hp) as (v & Ev & Hpv). exists v. auto.
Qed.

Lemma noop_suits_default inp rs : in_iter inp = map Ok rs -> default_ok noop_positions inp rs.
Proof. apply noop_all. Qed.

(** The indexes come back on primitive filters, whatever the input. *)
Lemma primitive_hashable v : primitive v -> hashable v = true.
Proof. destruct v; cbn; intros H; try reflexivity; destruct H. Qed.
Lemma go_eq_returns a v : primitive v -> exists b, go_eq a v = Ok b.
Proof. destruct v; cbn; intros H; destruct a; cbn; try destruct H; eauto. Qed.

Lemma map_filters_safe cfg idx fs : Forall (fun f => primitive (snd f)) fs ->
  returns (map_filter_iters cfg idx fs) /\ forall its, map_filter_iters cfg idx fs = Ok (Some its) -> Forall (Forall returns) its.
Proof.
  induction 1 as [|[p f] fs Hf H IH]; cbn [map_filter_iters]; [split; [exact I|intros its [= <-]; constructor]|].
  destruct (negb _); [split; [exact I|discriminate]|]. destruct (mget idx p) as [m|]; [|split; [exact I|discriminate]].
  unfold pget. rewrite primitive_hashable by assumption. cbn [rbind]. destruct (pfind m f) as [l|]; [|split; [exact I|discriminate]].
  destruct IH as [I1 I2]. destruct (map_filter_iters cfg idx fs) as [[its|]|e| |]; cbn [rbind returns] in *; try contradiction; try (split; [exact I|discriminate]).
  split; [exact I|]. intros ? [= <-]. constructor; [|apply I2; reflexivity]. unfold list_iterate. clear. induction l; constructor; [exact I|assumption].
Qed.

Lemma map_index_returns cfg idx inp fs : Forall (fun f => primitive (snd f)) fs ->
  returns (map_index cfg idx inp fs) /\ forall it, map_index cfg idx inp fs = Ok it -> Forall returns it.
Proof.
  intros H. unfold map_index, map_positions. destruct (negb _); [split; [exact I|discriminate]|].
  destruct fs as [|f fs]; [split; [exact I|discriminate]|]. destruct (map_filters_safe cfg idx _ H) as [H1 H2].
  destruct (map_filter_iters cfg idx (f :: fs)) as [[its|]|e| |]; cbn [rbind returns] in *; try contradiction; (split; [exact I|]); try discriminate.
  - intros ? [= <-]. apply join_positions_safe. apply H2. reflexivity.
  - intros ? [= <-]. constructor.
Qed.

Lemma noop_index_returns (asked : bytes -> Prop) inp fs : (forall r, In r (in_iter inp) -> returns r /\ forall a, r = Ok a -> forall p, asked p -> returns (r_get a p)) ->
  Forall (fun f => asked (fst f) /\ primitive (snd f)) fs ->
  returns (noop_positions inp fs) /\ forall it, noop_positions inp fs = Ok it -> Forall returns it.
Proof.
  intros Hi Hf. split; [exact I|]. intros it [= <-].
  assert (Hm : forall r, (forall p, asked p -> returns (r_get r p)) -> returns (noop_matches r fs)).
  { intros r Hr. induction Hf as [|[p f] fs [Ha Hp] Hf IH]; cbn [noop_matches]; [exact I|]. apply returns_bind; [apply Hr, Ha|]. intros v _.
    destruct (go_eq_returns v f Hp) as (b & Eb). rewrite Eb. cbn [rbind]. destruct v; try (destruct b; [exact IH|exact I]).
    destruct f; try exact I. exact IH. }
  induction (in_iter inp) as [|r its IH]; cbn [noop_iterate]; [constructor|].
  destruct (Hi r (or_introl eq_refl)) as [H1 H2]. assert (IH' : Forall returns (noop_iterate fs its)) by (apply IH; intros; apply Hi; right; assumption).
  destruct r as [r|e| |]; cbn in H1; try contradiction; [|constructor; [exact I|assumption]].
  specialize (Hm r (H2 r eq_refl)). destruct (noop_matches r fs) as [[|]|e| |]; cbn in Hm; try contradiction; try (constructor; [exact I|]); assumption.
Qed.

Lemma arranged_self E : sorts (e_sort E) -> forall cs l, arranged_spec cs l (match cs with [] => l | _ :: _ => sort_records (e_sort E) cs l end).
Proof.
  intros Hs cs l. split; [intros ->; reflexivity|]. intros Hok. destruct cs as [|c cs].
  - split; [reflexivity|]. clear. induction l as [|r l IH]; constructor; [assumption|]. apply Forall_forall. intros x _ H. inversion H.
  - apply sort_correct; assumption.
Qed.

(** A parameter that its parser refuses. *)
Lemma array_filters_refused E params pcs name pc s parse e :
  (forall p f, In (p, f) (e_parsers E) -> forall s, returns (f s)) ->
  In (name, pc) pcs -> mget params name = Some s -> mget (e_parsers E) (pm_parser pc) = Some parse -> parse s = Err e ->
  forall fpi, exists e', array_filters E params pcs fpi = Err e'.
Proof.
  intros Hs Hin H1 H2 H3. induction pcs as [|[n c] pcs IH]; [destruct Hin|]. intros fpi. cbn [array_filters].
  destruct Hin as [He|Hin].
  - injection He as -> ->. rewrite H1, H2, H3. cbn [rbind]. eauto.
  - destruct (mget params n) as [s'|]; [|apply IH; assumption].
    destruct (mget (e_parsers E) (pm_parser c)) as [f|] eqn:Ef; [|eauto].
    apply mget_In in Ef. pose proof (Hs _ _ Ef s') as Hr. destruct (f s') as [v|e'| |]; cbn in Hr; try contradiction; cbn [rbind]; [|eauto].
    apply IH. assumption.
Qed.

Section Refused.
Variable E : env.
Variable ord : order.
Variable W : Type.
Variable send_error : err -> W -> W * res unit.
Variable send_success : W -> W.
Variable write : bytes -> W -> W * res unit.
Variable json_encode : value -> res bytes.
Notation handle_array := (handle_array E ord W send_error send_success write json_encode).

Lemma bad_parameter c params w name pc s parse e : order_ok ord ->
  (forall p f, In (p, f) (e_parsers E) -> forall s, returns (f s)) -> In (ac_input c) (map fst (e_inputs E)) ->
  In (name, pc) (ac_params c) -> mget params name = Some s -> mget (e_parsers E) (pm_parser pc) = Some parse -> parse s = Err e ->
  exists e', handle_array c params w = send_error e' w.
Proof.
  intros Hord Hsafe Hin Hpc Hs Hp He. unfold Output.handle_array. destruct (mget (e_inputs E) (ac_input c)) as [inp|] eqn:Ei.
  2:{ exfalso. apply mget_None in Ei. contradiction. }
  destruct (get_limit_inv c params) as [(lim & -> & _)|(e1 & ->)]; [|exists e1; reflexivity]. cbn [check].
  destruct (get_offset_inv c params) as [(off & -> & _)|(e1 & ->)]; [|exists e1; reflexivity]. cbn [check].
  destruct (array_filters_refused E params (ord [Key (lit "parameters")] _ (ac_params c)) name pc s parse e Hsafe) with (fpi := @nil (bytes * filters)) as (e' & ->);
    auto; [|exists e'; reflexivity].
  eapply Permutation_in; [apply Hord|assumption].
Qed.
End Refused.
