(** Facts about the endpoints: relationships. *)
From Coq Require Import List ZArith Lia Bool String Permutation Sorted.
From Coq Require Import Strings.Byte.
From Verif Require Import Base BaseFacts Value Join SpecIndex IndexFacts.
From Verif Require Import GoStrings SpecText Sort SpecOrder OrderFacts Output SpecOutput OutputFacts.
Import ListNotations.
Open Scope Z_scope.

Section relationship_ind.
  Variable P : relationship -> Prop.
  Hypothesis H : forall i a l s m ch, Forall (fun nc => P (snd nc)) ch -> P (mkRel i a l s m ch).
  Fixpoint relationship_ind' (c : relationship) : P c :=
    match c with
    | mkRel i a l s m ch => H i a l s m ch
        ((fix go (ch : list (bytes * relationship)) : Forall (fun nc => P (snd nc)) ch :=
            match ch with [] => Forall_nil _ | x :: r => Forall_cons x (relationship_ind' (snd x)) (go r) end) ch)
    end.
End relationship_ind.

Definition matched (data : object) (ms : list (bytes * bytes * bytes)) (fs : list triple) : Prop :=
  Forall2 (fun m f => mget data (m_parent m) = Some (snd f) /\ fst f = (m_index m, m_child m)) ms fs.

Lemma rel_filters_ok data ms fs : matched data ms fs ->
  forall fpi, relationship_filters data ms fpi = Ok (group_from fpi fs).
Proof.
  induction 1 as [|[[p c] i] [f v] ms fs [H1 H2] HF IH]; intros fpi; [reflexivity|].
  cbn [fst snd] in H2. subst f. cbn [relationship_filters]. cbn in H1. rewrite H1, IH. reflexivity.
Qed.

Lemma matched_In data ms fs i p v : matched data ms fs -> In ((i, p), v) fs ->
  exists m, In m ms /\ m_index m = i /\ m_child m = p /\ mget data (m_parent m) = Some v.
Proof.
  induction 1 as [|m f ms fs [H1 H2] HF IH]; [intros []|]. intros [He|Hin].
  - subst f. cbn [fst snd] in *. injection H2 as -> ->. exists m. cbn. auto.
  - destruct (IH Hin) as (m' & Hm & ?). exists m'. cbn. auto.
Qed.

Lemma matched_NoDup data ms fs : matched data ms fs -> NoDup (map m_child ms) -> NoDup (map fst fs).
Proof.
  induction 1 as [|m f ms fs [H1 H2] HF IH]; [constructor|]. cbn [map]. intros Hnd. apply NoDup_cons_iff in Hnd as [Hn Hnd].
  constructor; [|auto]. intros Hin. apply Hn.
  apply in_map_iff in Hin as ([[i p] v] & He & Hin). rewrite H2 in He. cbn in He. injection He as -> ->.
  apply (matched_In data ms) in Hin; [|assumption]. destruct Hin as (m' & Hm & _ & Hc & _). rewrite <- Hc. apply in_map. assumption.
Qed.

Lemma matched_exists data ms : (forall m, In m ms -> exists v, mget data (m_parent m) = Some v) ->
  exists fs, matched data ms fs.
Proof.
  induction ms as [|m ms IH]; intros H; [exists []; constructor|].
  destruct (H m (or_introl eq_refl)) as (v & E1). destruct IH as (fs & H1); [intros; apply H; right; assumption|].
  exists ((m_index m, m_child m, v) :: fs). constructor; cbn; auto.
Qed.

Lemma matched_agree data data' ms fs : (forall m, In m ms -> mget data (m_parent m) = mget data' (m_parent m)) ->
  matched data ms fs -> matched data' ms fs.
Proof.
  intros H HF. induction HF as [|m f ms fs [H1 H2] HF IH]; constructor.
  - split; [|assumption]. rewrite <- H by (left; reflexivity). assumption.
  - apply IH. intros. apply H. right. assumption.
Qed.

Lemma item_count_spec c n : 0 <= n -> 0 <= rel_limit c < two63 ->
  0 <= item_count c n /\ (item_count c n = 0 -> n = 0) /\
  forall (l : list rec), zlen l = n ->
  firstn (Z.to_nat (item_count c n)) l =
  if rel_is_array c then if rel_limit c =? 0 then l else firstn (Z.to_nat (rel_limit c)) l else firstn 1 l.
Proof.
  intros Hn Hlim. unfold item_count.
  assert (Hw : wrap64 (rel_limit c) = rel_limit c) by (apply wrap64_id; unfold in_i64; lia).
  rewrite Hw. unfold zlen. destruct (rel_is_array c).
  - destruct (rel_limit c =? 0) eqn:E0; [|destruct (n <? rel_limit c) eqn:E1].
    + split; [assumption|]. split; [auto|]. intros l Hl. apply firstn_all2. lia.
    + split; [assumption|]. split; [auto|]. intros l Hl. rewrite !firstn_all2 by lia. reflexivity.
    + split; [lia|]. split; [lia|]. intros; reflexivity.
  - cbn. destruct (n <? 1) eqn:E1.
    + split; [assumption|]. split; [auto|]. intros l Hl. destruct l; [rewrite firstn_nil; reflexivity|cbn in Hl; lia].
    + split; [lia|]. split; [lia|]. intros. reflexivity.
Qed.

Section Serve.
Variable kind : bytes -> search.
Variable E : env.
Variable ord : order.
Hypothesis Hord : order_ok ord.
Variable arrange : list sort_criterion -> list rec -> list rec -> Prop.
Hypothesis Harr : forall cs l, arrange cs l (match cs with [] => l | _ :: _ => sort_records (e_sort E) cs l end).

(** Same values outside of [names]. *)
Definition agree (names : list bytes) (d a : object) : Prop := forall k, ~ In k names -> mget d k = mget a k.

Lemma load_loop_ok names loc a (R : bytes -> value -> Prop) : forall L data,
  (forall name f, In (name, f) L -> In name names /\
     forall data', agree names data' a -> exists v, f (Key name :: loc) data' = Ok v /\ R name v) ->
  NoDup (map fst L) -> agree names data a -> NoDup (map fst data) ->
  exists d, load_loop L loc data = Ok d /\ agree names d a /\ NoDup (map fst d) /\
    (forall name, In name (map fst L) -> exists v, mget d name = Some v /\ R name v) /\
    (forall k, ~ In k (map fst L) -> mget d k = mget data k).
Proof.
  induction L as [|[name f] L IH]; intros data HL Hnd Hag Hdn; cbn [load_loop].
  - exists data. split; [reflexivity|]. split; [assumption|]. split; [assumption|]. split; [intros _ []|reflexivity].
  - cbn [map fst] in Hnd. apply NoDup_cons_iff in Hnd as [Hn Hnd].
    destruct (HL name f (or_introl eq_refl)) as [Hname Hf]. destruct (Hf data Hag) as (v & Ev & Hv). rewrite Ev. cbn [rbind].
    destruct (IH (mset data name v)) as (d & Ed & H1 & H2 & H3 & H4).
    + intros name' f' Hin. apply (HL name' f'). right. assumption.
    + assumption.
    + intros k Hk. rewrite mget_mset_other; [apply Hag; assumption|]. intros ->. contradiction.
    + apply mset_keys_NoDup. assumption.
    + exists d. split; [assumption|]. split; [assumption|]. split; [assumption|]. split.
      * cbn [map fst]. intros name' [<-|Hin]; [|auto]. exists v. split; [|assumption].
        rewrite H4 by assumption. apply mget_mset_same.
      * cbn [map fst]. intros k Hk. rewrite H4 by (intros ?; apply Hk; right; assumption).
        apply mget_mset_other. intros ->. apply Hk. left. reflexivity.
Qed.

Lemma load_items_ok ls loc (Q : rec -> object -> Prop) count : forall rs n,
  (forall n r, In r rs -> exists a d, r_all r = Ok a /\ load_loop (ord (At n :: loc) _ ls) (At n :: loc) a = Ok d /\ Q r d) ->
  n < count \/ rs = [] ->
  exists items, load_items ord ls count loc n rs = Ok (map VMap items) /\ Forall2 Q (firstn (Z.to_nat (count - n)) rs) items.
Proof.
  induction rs as [|r rs IH]; intros n HQ Hn; cbn [load_items].
  - exists []. split; [reflexivity|]. rewrite firstn_nil. constructor.
  - destruct Hn as [Hn|Hn]; [|discriminate].
    destruct (HQ n r (or_introl eq_refl)) as (a & d & Ea & Ed & Hq). rewrite Ea. cbn [rbind]. rewrite Ed. cbn [rbind].
    destruct (n + 1 >=? count) eqn:Ec.
    + exists [d]. split; [reflexivity|]. replace (Z.to_nat (count - n)) with 1%nat by lia. cbn. repeat constructor. assumption.
    + destruct (IH (n + 1)) as (items & Ei & HF); [intros; apply HQ; right; assumption|left; lia|].
      rewrite Ei. cbn [rbind]. exists (d :: items). split; [reflexivity|].
      replace (Z.to_nat (count - n)) with (S (Z.to_nat (count - (n + 1)))) by lia. cbn [firstn]. constructor; assumption.
Qed.

(** What [rels_ok] says of one relationship. *)
Definition rel_ok_one (parents : list rec) (names : list bytes) (c : relationship) : Prop :=
  exists inp rs,
    (mget (e_inputs E) (rel_input c) = Some inp /\ input_ok inp rs) /\
    (rel_match c <> [] /\ NoDup (map m_child (rel_match c))) /\
    (forall m, In m (rel_match c) ->
      ~ In (m_parent m) names /\
      (exists ix props, mget (e_indexes E) (m_index m) = Some ix /\ index_exact (kind (m_index m)) ix inp rs props /\
        forall m', In m' (rel_match c) -> m_index m' = m_index m -> In (m_child m') props) /\
      (forall r a, In r parents -> r_all r = Ok a -> exists v, mget a (m_parent m) = Some v /\ s_accepts (kind (m_index m)) v)) /\
    (forall r, In r rs -> exists a, contents r a) /\
    0 <= rel_limit c < two63 /\
    rels_ok kind E rs (rel_children c).

Lemma rels_ok_inv parents rels : rels_ok kind E parents rels ->
  NoDup (map fst rels) /\ forall name c, In (name, c) rels -> rel_ok_one parents (map fst rels) c.
Proof. intros H. inversion H as [? ? H1 H2]; subst. split; [assumption|]. exact H2. Qed.

Definition loaders (rels : list (bytes * relationship)) : list (bytes * loader) :=
  map (fun nc : bytes * relationship => (fst nc, related E ord (snd nc))) rels.

Definition related_good (c : relationship) : Prop :=
  forall parents names loc r a data, rel_ok_one parents names c -> In r parents -> contents r a ->
    agree names data a -> exists v, related E ord c loc data = Ok v /\ embeds kind E arrange c a v.

Lemma load_one parents rels loc r a : Forall (fun nc => related_good (snd nc)) rels -> rels_ok kind E parents rels ->
  In r parents -> contents r a ->
  exists d, load_loop (ord loc _ (loaders rels)) loc a = Ok d /\ loaded kind E arrange rels a d.
Proof.
  intros HG Hok Hr Ha. destruct (rels_ok_inv _ _ Hok) as [Hnd Hone].
  pose proof (Hord loc _ (loaders rels)) as Hperm.
  assert (Hkeys : Permutation (map fst rels) (map fst (ord loc _ (loaders rels)))).
  { etransitivity; [|apply Permutation_map; exact Hperm]. unfold loaders. rewrite map_map. cbn. apply Permutation_refl. }
  destruct (load_loop_ok (map fst rels) loc a (fun name v => forall c, In (name, c) rels -> embeds kind E arrange c a v)
    (ord loc _ (loaders rels)) a) as (d & Ed & Hag & Hdn & Hv & Hk).
  - intros name f Hin. eapply Permutation_in in Hin; [|symmetry; exact Hperm].
    apply in_map_iff in Hin as ([name' c] & He & Hin). cbn [fst snd] in He. injection He as <- <-.
    split; [apply (in_map fst) in Hin; exact Hin|]. intros data' Hagd.
    rewrite Forall_forall in HG. destruct (HG _ Hin parents (map fst rels) (Key name' :: loc) r a data') as (v & Ev & Hem); auto.
    { eapply Hone. exact Hin. }
    exists v. split; [exact Ev|]. intros c' Hc'. pose proof (In_mget _ _ _ Hnd Hc') as E1. pose proof (In_mget _ _ _ Hnd Hin) as E2.
    assert (c' = c) as -> by congruence. exact Hem.
  - eapply Permutation_NoDup; [exact Hkeys|assumption].
  - intros k _. reflexivity.
  - apply Ha.
  - exists d. split; [exact Ed|]. split; [assumption|]. split.
    + intros name c Hin. destruct (Hv name) as (v & Ev & Hem).
      { eapply Permutation_in; [exact Hkeys|]. apply (in_map fst) in Hin. exact Hin. }
      eauto.
    + exact Hag.
Qed.

Lemma related_unfold c loc data : related E ord c loc data =
  rlet fpi := relationship_filters data (rel_match c) [] in
  match mget (e_inputs E) (rel_input c) with
  | None => Err (EMsg "There is no input with this name")
  | Some inp =>
    rlet its := positions_per_index E ord loc inp fpi in
    rlet rs := fetch inp (join_positions its) in
    let rs := match rel_sort c with [] => rs | _ :: _ => sort_records (e_sort E) (rel_sort c) rs end in
    let count := item_count c (zlen rs) in
    if count <? 0 then Panic
    else rlet items := load_items ord (loaders (rel_children c)) count loc 0 rs in
    Ok (if rel_is_array c then VList items else match items with [] => VNil | i :: _ => i end)
  end.
Proof. destruct c. reflexivity. Qed.

Variable perm_sort : forall cs l, Permutation l (sort_records (e_sort E) cs l).

Lemma related_all c : related_good c.
Proof.
  induction c as [i ia lim so ms ch IH] using relationship_ind'.
  intros parents names loc r a data (inp & rs & (Ei & Hio) & (Hne & Hnd) & Hm & Hct & Hlim & Hch) Hr Ha Hag.
  set (c := mkRel i ia lim so ms ch) in *. rewrite related_unfold.
  assert (Hmp : forall m, In m (rel_match c) -> exists v, mget a (m_parent m) = Some v /\ s_accepts (kind (m_index m)) v).
  { intros m Hin. destruct (Hm m Hin) as (_ & _ & Hp). apply (Hp r a Hr). apply Ha. }
  destruct (matched_exists a (rel_match c)) as (fs & Hfs). { intros m Hin. destruct (Hmp m Hin) as (v & Hv & _). eauto. }
  assert (Hfs' : matched data (rel_match c) fs).
  { apply (matched_agree a); [|assumption]. intros m Hin. symmetry. apply Hag. apply (Hm m Hin). }
  rewrite (rel_filters_ok _ _ _ Hfs'). cbn [rbind]. rewrite Ei. change (group_from [] fs) with (group fs).
  destruct (positions_ok kind E ord Hord loc inp rs fs) as (its & sel & Ep & Hsel & Ej).
  - apply Hio.
  - destruct Hfs; [congruence|discriminate].
  - eapply matched_NoDup; eassumption.
  - apply Forall_forall. intros [[i' p] v] Hin. eapply matched_In in Hin; [|exact Hfs].
    destruct Hin as (m & Hin & Ei' & _ & Ev). destruct (Hmp m Hin) as (v' & Ev' & Hv'). cbn. congruence.
  - intros i' p v Hin. eapply matched_In in Hin; [|exact Hfs]. destruct Hin as (m & Hin & <- & <- & _).
    destruct (Hm m Hin) as (_ & (ix & props & E1 & E2 & E3) & _). exists ix, props. split; [assumption|]. split; [assumption|].
    intros p' v' Hin'. eapply matched_In in Hin'; [|exact Hfs]. destruct Hin' as (m' & Hin' & Em & <- & _). auto.
  - rewrite Ep. cbn [rbind]. rewrite Ej.
    rewrite (fetch_ok inp rs sel Hio) by (intros x Hx; apply (kept_In _ _ _ Hsel _ Hx)). cbn [rbind]. cbn zeta.
    set (arr := match rel_sort c with [] => sel | _ :: _ => sort_records (e_sort E) (rel_sort c) sel end).
    assert (Harrin : forall x, In x arr -> In x rs).
    { intros x Hx. apply (kept_In _ _ _ Hsel x). subst arr. destruct (rel_sort c); [assumption|].
      eapply Permutation_in; [symmetry; apply perm_sort|exact Hx]. }
    destruct (item_count_spec c (zlen arr)) as (Hc0 & Hcz & Hcf); [apply zlen_nonneg|assumption|].
    replace (item_count c (zlen arr) <? 0) with false by lia.
    destruct (load_items_ok (loaders (rel_children c)) loc
      (fun r d => exists a, contents r a /\ loaded kind E arrange (rel_children c) a d) (item_count c (zlen arr)) arr 0) as (items & Eit & HF).
    + intros n x Hx. destruct (Hct x (Harrin x Hx)) as (ax & Hax).
      destruct (load_one rs (rel_children c) (At n :: loc) x ax IH Hch (Harrin x Hx) Hax) as (d & Ed & Hd).
      exists ax, d. split; [apply Hax|]. split; [exact Ed|]. eauto.
    + destruct (Z.eq_dec (item_count c (zlen arr)) 0) as [Hz|Hz]; [right|left; lia].
      apply Hcz in Hz. apply zlen_zero_nil. assumption.
    + rewrite Eit. cbn [rbind]. eexists. split; [reflexivity|].
      replace (if rel_is_array c then VList (map VMap items) else match map VMap items with [] => VNil | i :: _ => i end)
        with (if rel_is_array c then VList (map VMap items) else match items with [] => VNil | d :: _ => VMap d end)
        by (destruct (rel_is_array c); [reflexivity|destruct items; reflexivity]).
      rewrite Z.sub_0_r, (Hcf arr eq_refl) in HF.
      eapply embeds_intro with (arranged := arr); [exact Ei|apply Hio|exact Hfs|exact Hsel| |reflexivity|].
      * subst arr. apply Harr.
      * eapply JoinFacts.Forall2_impl; [|exact HF]. intros x d (ax & Hax & Hd1 & Hd2 & Hd3). exists ax. auto.
Qed.

Theorem load_relationships_ok parents rels loc r a : rels_ok kind E parents rels -> In r parents -> contents r a ->
  exists d, load_relationships E ord rels loc a = Ok d /\ loaded kind E arrange rels a d.
Proof.
  intros Hok Hr Ha. apply (load_one parents rels loc r a); auto.
  apply Forall_forall. intros nc _. apply related_all.
Qed.

Lemma data_ok inp rs rels name r loc : mget (e_inputs E) name = Some inp -> input_ok inp rs -> In r rs ->
  (forall r, In r rs -> exists a, contents r a) -> rels_ok kind E rs rels ->
  exists a d, contents r a /\ data_from_position E ord (r_pos r) rels name loc = Ok d /\ loaded kind E arrange rels a d.
Proof.
  intros Ei (Hi1 & Hi2 & Hi3) Hr Hct Hok. destruct (Hct r Hr) as (a & Ha).
  destruct (load_relationships_ok rs rels loc r a Hok Hr Ha) as (d & Ed & Hd).
  exists a, d. split; [assumption|]. split; [|assumption]. unfold data_from_position. rewrite Ei, Hi3 by assumption. cbn [rbind].
  destruct Ha as [Ha _]. rewrite Ha. exact Ed.
Qed.
End Serve.
