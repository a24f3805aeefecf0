(** A dataset and endpoints used in the examples of PropOutput.v. *)
From Coq Require Import List ZArith Lia Bool String Permutation Sorted.
From Coq Require Import Strings.Byte Floats.SpecFloat.
From Verif Require Import Base BaseFacts Value Join Index SpecIndex SpecText GoStrings StringsFacts Sort SpecOrder OrderFacts.
From Verif Require Import Json SpecJson JsonFacts Output SpecOutput OutputFacts OutputFacts2 OutputFacts3 OutputFacts4 OutputFacts5 OutputFacts6.
From Verif Require Import Http SpecHttp HttpFacts.
Import ListNotations.
Open Scope Z_scope.

(** *** A dataset used in the examples: people and their orders *)
Definition ex_rec (pos : Z) (kv : list (bytes * value)) : rec :=
  mkRec pos (fun p => Ok match mget kv p with Some v => v | None => VNil end) (Ok kv).
Definition ex_input (name : string) (rs : list rec) : input :=
  mkInput (lit name) (Ok 100) (Ok 0) (map Ok rs)
    (fun p => match find (fun r => r_pos r =? p) rs with Some r => Ok r | None => Err ENotFound end).
Definition ex_people : list rec :=
  [ ex_rec 0 [(lit "id", VInt 1); (lit "name", VString (lit "ann"))];
    ex_rec 9 [(lit "id", VInt 2); (lit "name", VString (lit "bob"))];
    ex_rec 15 [(lit "id", VInt 3); (lit "name", VString (lit "ann"))] ].
Definition ex_orders : list rec :=
  [ ex_rec 4 [(lit "person", VInt 1); (lit "price", VInt 5)];
    ex_rec 8 [(lit "person", VInt 1); (lit "price", VInt 3)];
    ex_rec 12 [(lit "person", VInt 3); (lit "price", VInt 9)] ].
Definition ex_pin := ex_input "people" ex_people.
Definition ex_oin := ex_input "orders" ex_orders.
Definition ex_cfg : mconfig := mkMconfig (lit "orders") [lit "person"].
Definition ex_idx : mindex := Eval vm_compute in match map_reindex ex_cfg ex_oin with Ok i => i | _ => [] end.
Definition ex_env : env := mkEnv [(lit "people", ex_pin); (lit "orders", ex_oin)] noop_positions
  [(lit "default", noop_positions); (lit "by_person", map_index ex_cfg ex_idx)]
  [(lit "string", fun s => Ok (VString s)); (lit "integer", fun s => rlet z := atoi s in Ok (VInt z))] insertion_sort.
(** The buyer of an order; the orders of a person by price, each with its
    buyer. *)
Definition ex_buyer : relationship := mkRel (lit "people") false 0 [] [(lit "person", lit "id", lit "default")] [].
Definition ex_orders_of : relationship := mkRel (lit "orders") true 5 [(lit "price", true)]
  [(lit "id", lit "person", lit "by_person")] [(lit "buyer", ex_buyer)].
Definition ex_array : array_config := mkArray (lit "people") 2 10 (lit "limit") (lit "offset")
  [(lit "name", mkParam (lit "name") (lit "default") (lit "string")); (lit "id", mkParam (lit "id") (lit "default") (lit "integer"))]
  [(lit "orders", ex_orders_of)].
Definition ex_object : object_config := mkObject (lit "people")
  [(lit "name", mkParam (lit "name") (lit "default") (lit "string"))] [(lit "orders", ex_orders_of)].
Definition ex_ord : order := fun _ _ l => l.
Definition ex_rev : order := fun _ _ l => rev l.

Lemma ex_readable props rs : (forall r, In r rs -> exists p kv, r = ex_rec p kv /\ Forall (fun x => primitive (snd x)) kv) -> readable props rs.
Proof.
  intros H. apply Forall_forall. intros r Hr. destruct (H r Hr) as (p & kv & -> & Hkv). apply Forall_forall. intros q _.
  cbn. eexists. split; [reflexivity|]. destruct (mget kv q) as [v|] eqn:E; [|exact I].
  apply mget_In in E. rewrite Forall_forall in Hkv. apply (Hkv _ E).
Qed.
Ltac ex_read := apply ex_readable; cbn; intuition subst; do 2 eexists; (split; [reflexivity|repeat constructor]).
Lemma ex_pin_ok : input_ok ex_pin ex_people.
Proof.
  split; [reflexivity|]. split; [unfold in_file_order; cbn; repeat constructor|]. cbn. intuition subst; reflexivity.
Qed.
Lemma ex_oin_ok : input_ok ex_oin ex_orders.
Proof.
  split; [reflexivity|]. split; [unfold in_file_order; cbn; repeat constructor|]. cbn. intuition subst; reflexivity.
Qed.
Lemma ex_map_exact : index_exact equality (map_index ex_cfg ex_idx) ex_oin ex_orders [lit "person"].
Proof.
  destruct (map_suits ex_cfg ex_oin ex_orders) as (idx & Ei & Hx).
  - reflexivity.
  - repeat constructor. intros [].
  - reflexivity.
  - ex_read.
  - apply ex_oin_ok.
  - vm_compute in Ei. injection Ei as <-. exact Hx.
Qed.
Lemma ex_noop_exact props : index_exact equality noop_positions ex_pin ex_people props.
Proof. apply noop_suits; [reflexivity|]. ex_read. Qed.
Lemma ex_contents rs : Forall (fun r => exists p kv, r = ex_rec p kv /\ NoDup (map fst kv)) rs -> forall r, In r rs -> exists a, contents r a.
Proof. intros H r Hr. rewrite Forall_forall in H. destruct (H r Hr) as (p & kv & -> & Hkv). exists kv. split; [reflexivity|assumption]. Qed.
Ltac ex_nodup := apply ex_contents; repeat constructor; do 2 eexists; (split; [reflexivity|]); cbn;
  repeat (constructor; [cbn; intuition discriminate|]); constructor.
Lemma ex_rels_ok : rels_ok (fun _ => equality) ex_env ex_people [(lit "orders", ex_orders_of)].
Proof.
  constructor; [repeat constructor; intros []|]. intros name c [He|[]]. injection He as <- <-.
  exists ex_oin, ex_orders. split; [split; [reflexivity|apply ex_oin_ok]|]. split; [split; [discriminate|repeat constructor; intros []]|].
  split; [|split; [ex_nodup|split; [unfold two63; cbn; lia|]]].
  - intros m [<-|[]]. split; [cbn; intuition discriminate|]. split.
    + exists (map_index ex_cfg ex_idx), [lit "person"]. split; [reflexivity|]. split; [apply ex_map_exact|].
      intros m' [<-|[]] _. cbn. auto.
    + intros r a Hr Ha. cbn in Hr. intuition subst; injection Ha as <-; (eexists; split; [reflexivity|exact I]).
  - constructor; [repeat constructor; intros []|]. intros name c [He|[]]. injection He as <- <-.
    exists ex_pin, ex_people. split; [split; [reflexivity|apply ex_pin_ok]|]. split; [split; [discriminate|repeat constructor; intros []]|].
    split; [|split; [ex_nodup|split; [unfold two63; cbn; lia|constructor; [constructor|intros ? ? []]]]].
    intros m [<-|[]]. split; [cbn; intuition discriminate|]. split.
    + exists noop_positions, [lit "id"]. split; [reflexivity|]. split; [apply ex_noop_exact|]. intros m' [<-|[]] _. cbn. auto.
    + intros r a Hr Ha. cbn in Hr. intuition subst; injection Ha as <-; (eexists; split; [reflexivity|exact I]).
Qed.
Lemma ex_endpoint pcs : NoDup (map (fun np => (pm_index (snd np), pm_property (snd np))) pcs) -> Forall (fun np => pm_index (snd np) = lit "default") pcs ->
  endpoint_ok (fun _ => equality) ex_env (lit "people") pcs [(lit "orders", ex_orders_of)] ex_pin ex_people.
Proof.
  intros H1 H2. split; [reflexivity|]. split; [apply ex_pin_ok|]. split; [apply noop_suits_default; reflexivity|].
  split; [|split; [ex_nodup|apply ex_rels_ok]]. split; [assumption|]. intros name pc Hin. rewrite Forall_forall in H2.
  exists noop_positions, (map (fun np => pm_property (snd np)) pcs). specialize (H2 _ Hin) as H3. cbn in H3. rewrite H3.
  split; [reflexivity|]. split; [apply ex_noop_exact|]. intros n' pc' Hin' _. apply in_map_iff. exists (n', pc'). auto.
Qed.

(** The environment is safe, whatever the records hold. *)
Lemma ex_input_safe name rs : Forall (fun r => exists p kv, r = ex_rec p kv) rs ->
  (forall p, returns (in_get (ex_input name rs) p) /\ forall r, in_get (ex_input name rs) p = Ok r -> returns (r_all r)) /\
  (forall r, In r (in_iter (ex_input name rs)) -> returns r /\ forall a, r = Ok a -> forall p, returns (r_get a p)).
Proof.
  intros H. rewrite Forall_forall in H. split.
  - intros p. cbn. destruct (find _ rs) as [r|] eqn:Ef; (split; [exact I|]); [|discriminate]. intros ? [= <-].
    apply find_some in Ef as [Hin _]. destruct (H r Hin) as (q & kv & ->). exact I.
  - cbn. intros r Hr. apply in_map_iff in Hr as (r' & <- & Hin). split; [exact I|]. intros a [= <-] p.
    destruct (H r' Hin) as (q & kv & ->). exact I.
Qed.

Lemma ex_env_safe_on people orders idx : Forall (fun r => exists p kv, r = ex_rec p kv) people -> Forall (fun r => exists p kv, r = ex_rec p kv) orders ->
  env_safe (fun _ => True) (mkEnv [(lit "people", ex_input "people" people); (lit "orders", ex_input "orders" orders)] noop_positions
    [(lit "default", noop_positions); (lit "by_person", map_index ex_cfg idx)]
    [(lit "string", fun s => Ok (VString s)); (lit "integer", fun s => rlet z := atoi s in Ok (VInt z))] insertion_sort).
Proof.
  intros Hp Ho. destruct (ex_input_safe "people" people Hp) as [P1 P2]. destruct (ex_input_safe "orders" orders Ho) as [O1 O2].
  assert (HI : forall n inp, mget [(lit "people", ex_input "people" people); (lit "orders", ex_input "orders" orders)] n = Some inp ->
    (forall p, returns (in_get inp p) /\ forall r, in_get inp p = Ok r -> returns (r_all r)) /\
    (forall r, In r (in_iter inp) -> returns r /\ forall a, r = Ok a -> forall p, True -> returns (r_get a p))).
  { intros n inp H. apply mget_In in H. cbn [In] in H. destruct H as [H|[H|[]]]; injection H as <- <-; (split; [assumption|]).
    - intros r Hr. destruct (P2 r Hr). auto.
    - intros r Hr. destruct (O2 r Hr). auto. }
  split; [|split; [|split]].
  - intros n inp H. apply (HI n inp H).
  - intros n inp H. apply (noop_index_returns (fun _ => True)); [apply (HI n inp H)|constructor].
  - intros i ix He n inp fs H Hf. apply mget_In in He. cbn [In e_indexes] in He. destruct He as [He|[He|[]]]; injection He as <- <-.
    + apply (noop_index_returns (fun _ => True)); [apply (HI n inp H)|exact Hf].
    + apply map_index_returns. eapply Forall_impl; [|exact Hf]. intros ? []; assumption.
  - intros p parse He s. apply mget_In in He. cbn [e_parsers In] in He. destruct He as [He|[He|[]]]; injection He as <- <-.
    + exact I.
    + destruct (atoi_safe s) as [(z & ->)|(e & ->)]; exact I.
Qed.
Lemma ex_env_safe : env_safe (fun _ => True) ex_env.
Proof. apply ex_env_safe_on; repeat constructor; do 2 eexists; reflexivity. Qed.

Lemma ex_prims name rs k : Forall (fun r => exists p kv, r = ex_rec p kv /\ Forall (fun x => primitive (snd x)) kv) rs ->
  forall p r a v, in_get (ex_input name rs) p = Ok r -> r_all r = Ok a -> mget a k = Some v -> primitive v.
Proof.
  intros H p r a v H1 H2 H3. cbn [in_get ex_input] in H1. destruct (find _ rs) as [r'|] eqn:Ef; [|discriminate]. injection H1 as ->.
  apply find_some in Ef as [Hin _]. rewrite Forall_forall in H. destruct (H r Hin) as (q & kv & -> & Hkv). injection H2 as <-.
  apply mget_In in H3. rewrite Forall_forall in Hkv. apply (Hkv _ H3).
Qed.

Definition ex_route : route := mkRoute (fun p => if bytes_eqb p (lit "/people") then Some [] else None) [] (OArray ex_array).
Lemma ex_get_returns name rs : Forall (fun r => exists p kv, r = ex_rec p kv) rs ->
  forall p r k, in_get (ex_input name rs) p = Ok r -> returns (r_get r k).
Proof.
  intros H p r k H1. cbn [in_get ex_input] in H1. destruct (find _ rs) as [r'|] eqn:Ef; [|discriminate]. injection H1 as ->.
  apply find_some in Ef as [Hin _]. rewrite Forall_forall in H. destruct (H r Hin) as (q & kv & ->). exact I.
Qed.

Lemma ex_route_ok : route_ok (fun _ => True) ex_env ex_route.
Proof.
  split; [|split].
  - exists ex_pin. split; [reflexivity|]. constructor. intros name c [He|[]]. injection He as <- <-.
    split; [unfold two63; cbn; lia|]. split.
    + intros m [<-|[]]. split; [cbn; intuition discriminate|]. split; [exact I|].
      apply ex_prims; repeat constructor; do 2 eexists; (split; [reflexivity|repeat constructor]).
    + intros inp [= <-]. split; [intros p r s Hg _; revert Hg; apply ex_get_returns; repeat constructor; do 2 eexists; reflexivity|].
      constructor. intros name c [He|[]]. injection He as <- <-. split; [unfold two63; cbn; lia|]. split.
      * intros m [<-|[]]. split; [cbn; intuition discriminate|]. split; [exact I|].
        apply ex_prims; repeat constructor; do 2 eexists; (split; [reflexivity|repeat constructor]).
      * intros inp [= <-]. split; [intros p r s _ []|]. constructor. intros ? ? [].
  - intros name pc Hin. split; [exact I|]. intros parse s v Hp Hv.
    assert (Hs : pm_parser pc = lit "string" \/ pm_parser pc = lit "integer") by (cbn in Hin; repeat (destruct Hin as [Hin|Hin]; [injection Hin as <- <-; cbn; auto|]); destruct Hin).
    destruct Hs as [Hs|Hs]; rewrite Hs in Hp; injection Hp as <-; [injection Hv as <-; exact I|].
    destruct (atoi s); try discriminate. injection Hv as <-. exact I.
  - intros path cs _. cbn. lia.
Qed.

Lemma ex_ord_ok : order_ok ex_ord.
Proof. intros loc A l. reflexivity. Qed.
Lemma ex_rev_ok : order_ok ex_rev.
Proof. intros loc A l. apply Permutation_rev. Qed.
