(** Facts about the endpoints: the order of maps does not matter. *)
From Coq Require Import List ZArith Lia Bool String Permutation Sorted.
From Coq Require Import Strings.Byte Floats.SpecFloat.
From Verif Require Import Base BaseFacts Value Join JoinFacts SpecIndex IndexFacts.
From Verif Require Import GoStrings SpecText StringsFacts Parser Sort SpecOrder OrderFacts Output SpecOutput OutputFacts OutputFacts2 OutputFacts3 Json JsonFacts.
Import ListNotations.
Open Scope Z_scope.

Lemma insert_comm {A} k (v : A) k' v' l : k <> k' -> insert_key k v (insert_key k' v' l) = insert_key k' v' (insert_key k v l).
Proof.
  intros Hk.
  assert (Hord : bytes_ltb k k' = negb (bytes_ltb k' k)).
  { pose proof (bytes_ltb_spec k k') as L1. pose proof (bytes_ltb_spec k' k) as L2.
    destruct (bytes_ltb k k') eqn:E1, (bytes_ltb k' k) eqn:E2; cbn; try reflexivity; exfalso.
    - apply (lex_irrefl k). eapply lex_trans; [apply L1; reflexivity|apply L2; reflexivity].
    - destruct (lex_total k k' Hk) as [L|L]; [apply L1 in L|apply L2 in L]; discriminate. }
  assert (Htr : forall a b c, bytes_ltb a b = true -> bytes_ltb b c = true -> bytes_ltb a c = true).
  { intros a b c. rewrite !bytes_ltb_spec. apply lex_trans. }
  induction l as [|[x vx] l IH]; cbn [insert_key].
  - destruct (bytes_ltb k k') eqn:E1; rewrite ?Hord; destruct (bytes_ltb k' k) eqn:E2; try discriminate; reflexivity.
  - destruct (bytes_ltb k' x) eqn:E1, (bytes_ltb k x) eqn:E2; cbn [insert_key]; rewrite ?E1, ?E2.
    + destruct (bytes_ltb k k') eqn:E3, (bytes_ltb k' k) eqn:E4; try discriminate; reflexivity.
    + destruct (bytes_ltb k k') eqn:E3; [|reflexivity]. rewrite (Htr _ _ _ E3 E1) in E2. discriminate.
    + destruct (bytes_ltb k' k) eqn:E3; [|reflexivity]. rewrite (Htr _ _ _ E3 E2) in E1. discriminate.
    + rewrite IH. reflexivity.
Qed.

Lemma sort_keys_unique {A} (l l' : list (bytes * A)) : Permutation l l' -> NoDup (map fst l) -> sort_keys l = sort_keys l'.
Proof.
  induction 1 as [|[k v] l l' H IH|[k v] [k' v'] l|l l' l'' H1 IH1 H2 IH2]; intros Hnd; cbn [sort_keys].
  - reflexivity.
  - cbn in Hnd. apply NoDup_cons_iff in Hnd as [_ Hnd]. rewrite IH by assumption. reflexivity.
  - apply insert_comm. cbn in Hnd. apply NoDup_cons_iff in Hnd as [Hn _]. intros ->. apply Hn. left. reflexivity.
  - rewrite IH1 by assumption. apply IH2. eapply Permutation_NoDup; [apply Permutation_map; exact H1|assumption].
Qed.

Definition unsupported {A} : res A := Err (EMsg "json: unsupported value").

Lemma rmapM_or {A B} (f : A -> res B) l : (forall a, In a l -> (exists b, f a = Ok b) \/ f a = unsupported) ->
  (exists bs, rmapM f l = Ok bs) \/ (rmapM f l = unsupported /\ exists a, In a l /\ f a = unsupported).
Proof.
  induction l as [|a l IH]; intros H; cbn [rmapM]; [left; eauto|].
  destruct (H a (or_introl eq_refl)) as [(b & Eb)|Eb]; rewrite Eb; cbn [rbind unsupported].
  - destruct IH as [(bs & Ebs)|(Ebs & x & Hx & Ex)]; [intros; apply H; right; assumption| |]; rewrite Ebs; cbn [rbind].
    + left. eauto.
    + right. split; [reflexivity|]. exists x. cbn. auto.
  - right. split; [reflexivity|]. exists a. cbn. auto.
Qed.

Section Encode.
Variable fmt_float : spec_float -> bytes.
Notation enc := (json_encode fmt_float).

Lemma encode_or v : (exists b, enc v = Ok b) \/ enc v = unsupported.
Proof.
  induction v as [| |z|f|s|l IH|m IH] using value_ind'; cbn [json_encode]; eauto.
  - destruct f; eauto.
  - rewrite Forall_forall in IH. destruct (rmapM_or (fun x => x) (map enc l)) as [(bs & E)|(E & _)].
    { intros a Ha. apply in_map_iff in Ha as (v & <- & Hv). auto. }
    + rewrite E. cbn [rbind]. eauto.
    + rewrite E. right. reflexivity.
  - rewrite Forall_forall in IH.
    destruct (rmapM_or (fun x => x) (map (fun kv : bytes * value => rlet t := enc (snd kv) in Ok (fst kv, t)) m)) as [(bs & E)|(E & _)].
    { intros a Ha. apply in_map_iff in Ha as (kv & <- & Hv). destruct (IH kv Hv) as [(b & ->)| ->]; cbn [rbind]; [eauto|right; reflexivity]. }
    + rewrite E. cbn [rbind]. eauto.
    + rewrite E. right. reflexivity.
Qed.

Lemma encode_map_perm m m' : Permutation m m' -> NoDup (map fst m) -> enc (VMap m) = enc (VMap m').
Proof.
  intros Hp Hnd. cbn [json_encode].
  set (f := fun kv : bytes * value => rlet t := enc (snd kv) in Ok (fst kv, t)).
  assert (Hor : forall l a, In a (map f l) -> (exists b, a = Ok b) \/ a = unsupported).
  { intros l a Ha. apply in_map_iff in Ha as (kv & <- & _). unfold f. destruct (encode_or (snd kv)) as [(b & ->)| ->]; cbn [rbind]; [eauto|right; reflexivity]. }
  pose proof (Permutation_map f Hp) as Hpf.
  destruct (rmapM_or (fun x => x) (map f m) (Hor m)) as [(bs & E)|(E & a & Ha & Ea)];
  destruct (rmapM_or (fun x => x) (map f m') (Hor m')) as [(bs' & E')|(E' & a' & Ha' & Ea')].
  - rewrite E, E'. cbn [rbind]. do 4 f_equal. apply rmapM_id in E, E'. rewrite E, E' in Hpf.
    apply (f_equal (map (fun r : res (bytes * bytes) => match r with Ok kv => fst kv | _ => [] end))) in E as E2. rewrite !map_map in E2.
    assert (Hk : map fst m = map fst bs).
    { transitivity (map (fun x => match f x with Ok kv => fst kv | _ => [] end) m); [|exact E2].
      apply map_ext_in. intros [k v] Hin. unfold f. cbn [fst snd].
      destruct (encode_or v) as [(b & ->)|Eb]; [reflexivity|]. exfalso.
      assert (Hu : In unsupported (map f m)) by (apply in_map_iff; exists (k, v); unfold f; cbn [snd]; rewrite Eb; auto).
      rewrite E in Hu. apply in_map_iff in Hu as (x & Hx & _). discriminate. }
    f_equal.     apply sort_keys_unique; [|rewrite <- Hk; assumption].
    apply Permutation_map_inv in Hpf as (l3 & E3 & Hp3).
    assert (Hinj : forall (x y : list (bytes * bytes)), map (@Ok (bytes * bytes)) x = map Ok y -> x = y).
    { induction x as [|a x IHx]; intros [|b y] H; try discriminate; [reflexivity|]. injection H as -> H. f_equal. auto. }
    apply Hinj in E3. subst l3. first [assumption|symmetry; assumption].
  - exfalso. apply rmapM_id in E. subst a'. eapply Permutation_in in Ha'; [|symmetry; exact Hpf]. rewrite E in Ha'.
    apply in_map_iff in Ha' as (x & Hx & _). discriminate.
  - exfalso. apply rmapM_id in E'. subst a. eapply Permutation_in in Ha; [|exact Hpf]. rewrite E' in Ha.
    apply in_map_iff in Ha as (x & Hx & _). discriminate.
  - rewrite E, E'. reflexivity.
Qed.

Lemma encode_same v : forall v', same_data v v' -> enc v = enc v'.
Proof.
  induction v as [| |z|f|s|l IH|m IH] using value_ind'; intros v' H; inversion H as [|l1 l2 HF|m0 m1 m' Hnd HF Hp]; subst; try reflexivity.
  - cbn [json_encode]. do 2 f_equal. clear H. induction HF as [|x y l l' Hxy HF IHF]; [reflexivity|]. cbn [map].
    inversion IH; subst. f_equal; auto.
  - transitivity (enc (VMap m1)).
    + cbn [json_encode]. do 2 f_equal. clear H Hp Hnd. induction HF as [|[k x] [k' y] l l' [Hk Hxy] HF IHF]; [reflexivity|]. cbn [map fst snd] in *.
      inversion IH as [|? ? I1 I2]; subst. cbn [snd] in I1. rewrite (I1 _ Hxy). f_equal. auto.
    + apply encode_map_perm; [assumption|]. replace (map fst m1) with (map fst m); [assumption|].
      clear -HF. induction HF as [|? ? ? ? [Hk _] HF IHF]; [reflexivity|]. cbn. f_equal; assumption.
Qed.
End Encode.

(** *** The data is determined by the configuration and the records *)
Lemma same_map_of_lookup d d' : NoDup (map fst d) -> NoDup (map fst d') ->
  (forall k, match mget d k, mget d' k with Some v, Some v' => same_data v v' | None, None => True | _, _ => False end) ->
  same_data (VMap d) (VMap d').
Proof.
  intros Hd Hd' H.
  set (g := fun kv : bytes * value => (fst kv, match mget d' (fst kv) with Some v => v | None => VNil end)).
  apply same_map with (m1 := map g d); [assumption| |].
  - assert (Hin : forall kv, In kv d -> same_data (snd kv) (snd (g kv))).
    { intros [k v] Hin. apply In_mget in Hin; [|assumption]. specialize (H k). rewrite Hin in H. unfold g. cbn [fst snd].
      destruct (mget d' k); [assumption|contradiction]. }
    clear -Hin. induction d as [|kv d IH]; constructor.
    + split; [reflexivity|]. apply Hin. left. reflexivity.
    + apply IH. intros. apply Hin. right. assumption.
  - assert (Hk : map fst (map g d) = map fst d) by (rewrite map_map; reflexivity).
    apply NoDup_Permutation.
    + apply (NoDup_map_inv fst). rewrite Hk. assumption.
    + apply (NoDup_map_inv fst). assumption.
    + intros [k v]. split.
      * intros Hin. apply in_map_iff in Hin as ([k2 w] & He & Hin). injection He as -> He. apply In_mget in Hin; [|assumption].
        specialize (H k). rewrite Hin in H. destruct (mget d' k) as [v'|] eqn:E; [|contradiction]. apply mget_In. congruence.
      * intros Hin. apply In_mget in Hin; [|assumption]. specialize (H k). rewrite Hin in H.
        destruct (mget d k) as [w|] eqn:E; [|contradiction]. apply mget_In in E. apply in_map_iff. exists (k, w). split; [|assumption].
        unfold g. cbn [fst]. rewrite Hin. reflexivity.
Qed.

Lemma map_Ok_inj {A} : forall (x y : list A), map Ok x = map Ok y -> x = y.
Proof. induction x as [|a x IHx]; intros [|b y] H; try discriminate; [reflexivity|]. injection H as -> H. f_equal. auto. Qed.

Section Same.
Variable kind : bytes -> search.
Variable E : env.
Variable arrange : list sort_criterion -> list rec -> list rec -> Prop.
Hypothesis Hfun : forall cs l o o', arrange cs l o -> arrange cs l o' -> o = o'.

Definition embeds_unique (c : relationship) : Prop :=
  forall a v v', embeds kind E arrange c a v -> embeds kind E arrange c a v' -> same_data v v'.

Lemma loaded_unique rels a d d' : (forall name c, In (name, c) rels -> embeds_unique c) -> NoDup (map fst rels) ->
  loaded kind E arrange rels a d -> loaded kind E arrange rels a d' -> same_data (VMap d) (VMap d').
Proof.
  intros HU Hnd (L1 & L2 & L3) (M1 & M2 & M3). apply same_map_of_lookup; [assumption|assumption|]. intros k.
  destruct (in_dec bytes_dec k (map fst rels)) as [Hin|Hout].
  - apply in_map_iff in Hin as ([n c] & <- & Hin). cbn [fst]. destruct (L2 n c Hin) as (v & -> & Hv). destruct (M2 n c Hin) as (v' & -> & Hv').
    apply (HU n c Hin a); assumption.
  - rewrite L3, M3 by assumption. destruct (mget a k); [apply same_refl|trivial].
Qed.

Inductive names_distinct : relationship -> Prop :=
| nd_intro c : NoDup (map fst (rel_children c)) -> Forall (fun nc => names_distinct (snd nc)) (rel_children c) -> names_distinct c.

Lemma matched_unique data ms fs : matched data ms fs -> forall fs', matched data ms fs' -> fs = fs'.
Proof.
  induction 1 as [|m [p v] ms fs [H1 H2] HF IH]; intros fs' H; inversion H as [|? [p' v'] ? ? [H3 H4] H5]; subst; [reflexivity|].
  cbn in *. rewrite H1 in H3. injection H3 as ->. subst. f_equal. auto.
Qed.

Lemma embeds_same c : names_distinct c -> embeds_unique c.
Proof.
  induction c as [i ia lim so ms ch IH] using relationship_ind'. intros Hn a v v' H H'.
  inversion H as [? ? inp rs fs sel arr taken items E1 E2 E3 E4 E5 E6 E7]; subst.
  inversion H' as [? ? inp' rs' fs' sel' arr' taken' items' F1 F2 F3 F4 F5 F6 F7]; subst.
  cbn [rel_input rel_match rel_sort rel_is_array rel_limit rel_children] in *.
  rewrite E1 in F1. injection F1 as <-. rewrite E2 in F2. apply map_Ok_inj in F2. subst rs'.
  assert (fs = fs') as <- by (eapply matched_unique; eassumption).
  assert (sel = sel') as <- by (eapply kept_unique; eassumption).
  assert (arr = arr') as <- by (eapply Hfun; eassumption).
  inversion Hn as [? N1 N2]; subst. cbn [rel_children] in *. rewrite Forall_forall in IH, N2.
  assert (Hitems : Forall2 (fun d d' => same_data (VMap d) (VMap d')) items items').
  { clear E4 E5 F4 F5 H H'. revert items' F7.
    induction E7 as [|r d tk items Hd E7 IH7]; intros items' F7; inversion F7 as [|? d' ? items2 Hd' F7']; subst; constructor; auto.
    destruct Hd as (a1 & [Ha1 _] & Hd). destruct Hd' as (a2 & [Ha2 _] & Hd'). rewrite Ha1 in Ha2. injection Ha2 as <-.
    apply (loaded_unique ch a1); auto. intros name c Hin. apply (IH (name, c) Hin). apply (N2 (name, c) Hin). }
  destruct ia.
  - apply same_list. clear -Hitems. induction Hitems; constructor; auto.
  - destruct Hitems as [|d d' items items' Hd _]; [apply same_refl|assumption].
Qed.

Lemma rels_ok_distinct c : forall parents names, rel_ok_one kind E parents names c -> names_distinct c.
Proof.
  induction c as [i ia lim so ms ch IH] using relationship_ind'. intros parents names (inp & rs & _ & _ & _ & _ & _ & Hch).
  cbn [rel_children] in Hch. destruct (rels_ok_inv _ _ _ _ Hch) as [Hnd Hone]. constructor; [assumption|]. cbn [rel_children].
  rewrite Forall_forall in *. intros [n c] Hin. apply (IH _ Hin rs (map fst ch)). apply (Hone n c Hin).
Qed.

Lemma loaded_same parents rels a d d' : rels_ok kind E parents rels ->
  loaded kind E arrange rels a d -> loaded kind E arrange rels a d' -> same_data (VMap d) (VMap d').
Proof.
  intros Hok. destruct (rels_ok_inv _ _ _ _ Hok) as [Hnd Hone]. apply loaded_unique; [|assumption].
  intros name c Hin. apply embeds_same. eapply rels_ok_distinct. apply (Hone name c Hin).
Qed.
End Same.

(** *** Handlers with different orders *)
Section Orders.
Variable kind : bytes -> search.
Variable E : env.
Variables ord ord' : order.
Hypothesis Hord : order_ok ord.
Hypothesis Hord' : order_ok ord'.
Hypothesis Hperm : forall lt l, Permutation l (e_sort E lt l).
Variable W : Type.
Variable send_error : err -> W -> W * res unit.
Variable send_success : W -> W.
Variable write : bytes -> W -> W * res unit.
Variable fmt_float : spec_float -> bytes.

Let arrange (cs : list sort_criterion) (l out : list rec) : Prop :=
  out = match cs with [] => l | _ :: _ => sort_records (e_sort E) cs l end.
Lemma arrange_self cs l : arrange cs l (match cs with [] => l | _ :: _ => sort_records (e_sort E) cs l end).
Proof. reflexivity. Qed.
Lemma arrange_fun cs l o o' : arrange cs l o -> arrange cs l o' -> o = o'.
Proof. unfold arrange. congruence. Qed.

Lemma load_order_free parents rels loc loc' r a : rels_ok kind E parents rels -> In r parents -> contents r a ->
  exists d d', load_relationships E ord rels loc a = Ok d /\ load_relationships E ord' rels loc' a = Ok d' /\ same_data (VMap d) (VMap d').
Proof.
  intros Hok Hr Ha.
  destruct (load_relationships_ok kind E ord Hord arrange arrange_self (fun cs l => Hperm (less cs) l) parents rels loc r a Hok Hr Ha) as (d & E1 & L1).
  destruct (load_relationships_ok kind E ord' Hord' arrange arrange_self (fun cs l => Hperm (less cs) l) parents rels loc' r a Hok Hr Ha) as (d' & E2 & L2).
  exists d, d'. split; [assumption|]. split; [assumption|]. eapply (loaded_same kind E arrange arrange_fun); eassumption.
Qed.

Lemma array_order_free c params w inp rs fs off lim :
  endpoint_ok kind E (ac_input c) (ac_params c) (ac_relationships c) inp rs ->
  given kind E params None (ac_params c) fs -> page_request c params off lim -> 0 <= lim < two63 ->
  handle_array E ord W send_error send_success write (json_encode fmt_float) c params w =
  handle_array E ord' W send_error send_success write (json_encode fmt_float) c params w.
Proof.
  intros Hep Hg Hpr Hlim.
  destruct (handle_array_ok kind E ord Hord arrange arrange_self Hperm W send_error send_success write (json_encode fmt_float) c params w inp rs fs off lim Hep Hg Hpr Hlim)
    as (sel & rows & H1 & H2 & ->).
  destruct (handle_array_ok kind E ord' Hord' arrange arrange_self Hperm W send_error send_success write (json_encode fmt_float) c params w inp rs fs off lim Hep Hg Hpr Hlim)
    as (sel' & rows' & H1' & H2' & ->).
  assert (sel = sel') as <- by (eapply kept_unique; eassumption).
  unfold encode. rewrite (encode_same fmt_float (VList (map VMap rows)) (VList (map VMap rows'))); [reflexivity|].
  apply same_list. clear Hpr H1 H1'. destruct Hep as (_ & _ & _ & _ & _ & Hrels).
  revert rows' H2'. induction H2 as [|r d sl rows (a & [Ha _] & Hl) H2 IH]; intros rows' H2';
    inversion H2' as [|? d' ? rows2 (a' & [Ha' _] & Hl') H3]; subst; cbn [map]; constructor; auto.
  rewrite Ha in Ha'. injection Ha' as <-. eapply (loaded_same kind E arrange arrange_fun); eassumption.
Qed.

Lemma object_order_free c params w inp rs fs :
  endpoint_ok kind E (oc_input c) (oc_params c) (oc_relationships c) inp rs ->
  given kind E params (Some []) (oc_params c) fs ->
  handle_object E ord W send_error send_success write (json_encode fmt_float) c params w =
  handle_object E ord' W send_error send_success write (json_encode fmt_float) c params w.
Proof.
  intros Hep Hg.
  destruct (handle_object_ok kind E ord Hord arrange arrange_self Hperm W send_error send_success write (json_encode fmt_float) c params w inp rs fs Hep Hg)
    as (sel & H1 & H2).
  destruct (handle_object_ok kind E ord' Hord' arrange arrange_self Hperm W send_error send_success write (json_encode fmt_float) c params w inp rs fs Hep Hg)
    as (sel' & H1' & H2').
  assert (sel = sel') as <- by (eapply kept_unique; eassumption).
  destruct sel as [|r sel]; [congruence|]. destruct H2 as (a & d & [Ha _] & Hl & ->). destruct H2' as (a' & d' & [Ha' _] & Hl' & ->).
  rewrite Ha in Ha'. injection Ha' as <-. unfold encode. rewrite (encode_same fmt_float (VMap d) (VMap d')); [reflexivity|].
  destruct Hep as (_ & _ & _ & _ & _ & Hrels). eapply (loaded_same kind E arrange arrange_fun); eassumption.
Qed.
End Orders.
