(** Facts about the endpoints: filters, positions, pages. *)
From Coq Require Import List ZArith Lia Bool String Permutation Sorted.
From Coq Require Import Strings.Byte.
From Verif Require Import Base BaseFacts Value Join SpecJoin JoinFacts Index SpecIndex WildcardFacts3 WildcardFacts7 IndexFacts.
From Verif Require Import GoStrings SpecText StringsFacts Sort SpecOrder OrderFacts Output SpecOutput.
Import ListNotations.
Open Scope Z_scope.

(** *** Grouping the filters per index *)
Notation triple := (bytes * bytes * value)%type.
Definition group_from (fpi : list (bytes * filters)) (ts : list triple) : list (bytes * filters) :=
  fold_left (fun fpi t => add_filter fpi (fst (fst t)) (snd (fst t)) (snd t)) ts fpi.
Definition group := group_from [].

Definition grouped (fpi : list (bytes * filters)) (ts : list triple) : Prop :=
  NoDup (map fst fpi) /\
  (forall i fs, In (i, fs) fpi -> NoDup (map fst fs) /\ fs <> []) /\
  (forall i p v, In ((i, p), v) ts <-> exists fs, mget fpi i = Some fs /\ mget fs p = Some v).

Lemma mset_nonempty {V} (m : list (bytes * V)) k v : mset m k v <> [].
Proof. destruct m as [|[k' v'] m]; cbn; [discriminate|]. destruct (bytes_eqb k' k); discriminate. Qed.

Lemma In_mset {V} (m : list (bytes * V)) k v k' v' : NoDup (map fst m) -> In (k', v') (mset m k v) ->
  (k' = k /\ v' = v) \/ (k' <> k /\ In (k', v') m).
Proof.
  intros Hnd H. apply In_mget in H; [|apply mset_keys_NoDup; assumption]. destruct (bytes_dec k k') as [->|Hk].
  - rewrite mget_mset_same in H. injection H as <-. auto.
  - rewrite mget_mset_other in H by assumption. right. split; [congruence|]. apply mget_In. assumption.
Qed.

Lemma grouped_add fpi ts i p v : grouped fpi ts -> ~ In (i, p) (map fst ts) -> grouped (add_filter fpi i p v) (ts ++ [((i, p), v)]).
Proof.
  intros (Hnd & Hin & Hts) Hnew. unfold add_filter.
  set (old := match mget fpi i with Some fs => fs | None => [] end).
  assert (Hold : NoDup (map fst old)).
  { subst old. destruct (mget fpi i) as [fs|] eqn:E; [|constructor]. apply mget_In in E. apply Hin in E. tauto. }
  assert (Hp : mget old p = None).
  { destruct (mget old p) as [w|] eqn:E; [|reflexivity]. exfalso. apply Hnew.
    apply in_map_iff. exists ((i, p), w). split; [reflexivity|]. apply Hts. subst old. destruct (mget fpi i) as [fs|]; [|discriminate]. eauto. }
  split; [|split].
  - apply mset_keys_NoDup. assumption.
  - intros i' fs' H. apply In_mset in H; [|assumption]. destruct H as [[-> ->]|[_ H]].
    + split; [apply mset_keys_NoDup; assumption|apply mset_nonempty].
    + apply Hin in H. assumption.
  - intros i' p' v'. rewrite in_app_iff, Hts. split.
    + intros [(fs & E1 & E2)|[[= <- <- <-]|[]]].
      * destruct (bytes_dec i i') as [<-|Hi].
        { exists (mset old p v). rewrite mget_mset_same. split; [reflexivity|]. subst old. rewrite E1 in *.
          rewrite mget_mset_other; [assumption|]. intros ->. congruence. }
        { exists fs. rewrite mget_mset_other by assumption. auto. }
      * exists (mset old p v). rewrite !mget_mset_same. auto.
    + intros (fs & E1 & E2). destruct (bytes_dec i i') as [<-|Hi].
      * rewrite mget_mset_same in E1. injection E1 as <-. destruct (bytes_dec p p') as [<-|Hpp].
        { rewrite mget_mset_same in E2. injection E2 as <-. right. left. reflexivity. }
        { rewrite mget_mset_other in E2 by assumption. left. subst old. destruct (mget fpi i) as [fs|]; [|discriminate]. eauto. }
      * rewrite mget_mset_other in E1 by assumption. left. eauto.
Qed.

Lemma NoDup_app_l {A} (a b : list A) : NoDup (a ++ b) -> NoDup a.
Proof.
  induction a as [|x a IH]; cbn; intros H; [constructor|]. apply NoDup_cons_iff in H as [H1 H2]. constructor; [|auto].
  intros Hx. apply H1. apply in_or_app. auto.
Qed.

Lemma group_from_spec ts : forall fpi ts0, grouped fpi ts0 -> NoDup (map fst (ts0 ++ ts)) -> grouped (group_from fpi ts) (ts0 ++ ts).
Proof.
  induction ts as [|[[i p] v] ts IH]; intros fpi ts0 Hg Hnd; cbn [group_from fold_left].
  - rewrite app_nil_r. assumption.
  - replace (ts0 ++ ((i, p), v) :: ts) with ((ts0 ++ [((i, p), v)]) ++ ts) in * by (rewrite <- app_assoc; reflexivity).
    apply IH; [|assumption]. apply grouped_add; [assumption|].
    rewrite map_app in Hnd. apply NoDup_app_l in Hnd. rewrite map_app in Hnd. cbn in Hnd.
    apply NoDup_remove_2 in Hnd. rewrite app_nil_r in Hnd. assumption.
Qed.

Lemma group_spec ts : NoDup (map fst ts) -> grouped (group ts) ts.
Proof.
  intros H. apply (group_from_spec ts [] []); [|assumption]. split; [constructor|]. split; [intros i fs []|].
  intros i p v. split; [intros []|]. intros (fs & E & _). discriminate.
Qed.

Lemma group_nil ts : group ts = [] -> ts = [].
Proof.
  destruct ts as [|t ts] using rev_ind; [reflexivity|]. unfold group, group_from. rewrite fold_left_app. cbn [fold_left].
  unfold add_filter. intros H. exfalso. exact (mset_nonempty _ _ _ H).
Qed.

(** *** Selections *)
Lemma selected_kept P rs l : selected P rs l -> exists sel, kept P rs sel /\ l = map r_pos sel.
Proof.
  induction 1 as [|r rs l Hp H (sel & IH & ->)|r rs l Hp H (sel & IH & ->)].
  - exists []. split; [constructor|reflexivity].
  - exists (r :: sel). split; [constructor; assumption|reflexivity].
  - exists sel. split; [constructor; assumption|reflexivity].
Qed.
Lemma kept_selected P rs sel : kept P rs sel -> selected P rs (map r_pos sel).
Proof. induction 1; cbn; constructor; assumption. Qed.
Lemma kept_unique {A} (P : A -> Prop) rs l l' : kept P rs l -> kept P rs l' -> l = l'.
Proof. intros H. revert l'. induction H; intros l' H'; inversion H'; subst; auto; try contradiction. f_equal. auto. Qed.
Lemma kept_ext {A} (P Q : A -> Prop) rs l : (forall r, P r <-> Q r) -> kept P rs l -> kept Q rs l.
Proof. intros HF H. induction H; constructor; auto; [apply HF; assumption|]. rewrite <- HF. assumption. Qed.
Lemma kept_In {A} (P : A -> Prop) rs l : kept P rs l -> forall r, In r l -> In r rs /\ P r.
Proof. induction 1 as [|r rs l Hp H IH|r rs l Hp H IH]; cbn; intros x Hx; [tauto| |]; [destruct Hx as [<-|Hx]; [auto|]|]; apply IH in Hx; tauto. Qed.
Lemma kept_all {A} (P : A -> Prop) rs : (forall r, In r rs -> P r) -> kept P rs rs.
Proof. induction rs; intros H; constructor; [apply H; left; reflexivity|apply IHrs; intros; apply H; right; assumption]. Qed.

Lemma selected_dec P rs l : in_file_order rs -> selected P rs l -> forall r, In r rs -> P r \/ ~ P r.
Proof.
  intros _. induction 1 as [|r rs l Hp H IH|r rs l Hp H IH]; intros x Hx; [destruct Hx| |]; destruct Hx as [<-|Hx]; auto.
Qed.

Lemma Forall2_In_l {A B} (R : A -> B -> Prop) l m a : Forall2 R l m -> In a l -> exists b, In b m /\ R a b.
Proof.
  induction 1 as [|x y l m Hr HF IH]; cbn; [tauto|]. intros [->|Ha]; [eauto|].
  destruct (IH Ha) as (b & Hb & Hab). eauto.
Qed.
Lemma Forall2_In_r {A B} (R : A -> B -> Prop) l m b : Forall2 R l m -> In b m -> exists a, In a l /\ R a b.
Proof.
  induction 1 as [|x y l m Hr HF IH]; cbn; [tauto|]. intros [->|Hb]; [eauto|].
  destruct (IH Hb) as (a & Ha & Hab). eauto.
Qed.

(** The join of selections is the selection for the conjunction. *)
Lemma selected_join rs Ps ls : in_file_order rs -> Ps <> [] -> Forall2 (fun P l => selected P rs l) Ps ls ->
  exists l, selected (fun r => Forall (fun P => P r) Ps) rs l /\ join_positions (map (map Ok) ls) = map Ok l.
Proof.
  intros Hord Hne HF.
  assert (Hls : ls <> []) by (intros ->; inversion HF; subst; congruence).
  destruct (selected_exists (fun r => Forall (fun P => P r) Ps) rs) as (l & Hl).
  { apply Forall_forall. intros r Hr. clear Hne Hls. induction HF as [|P l Ps ls Hp HF IH]; [left; constructor|].
    destruct (selected_dec _ _ _ Hord Hp r Hr) as [H|H]; [|right; inversion 1; contradiction].
    destruct IH as [IH|IH]; [left; constructor; assumption|right; inversion 1; contradiction]. }
  exists l. split; [assumption|].
  assert (Hsl : forall m, In m ls -> StronglySorted Z.lt m).
  { intros m Hm. destruct (Forall2_In_r _ _ _ _ HF Hm) as (P & _ & Hp). apply (selected_sorted _ _ _ Hp Hord). }
  destruct (join_intersection ls Hls) as (l' & El & Hs & Hl').
  { apply Forall_forall. intros m Hm. apply strict_sorted_le. auto. }
  change (join_positions (map (map Ok) ls) = map Ok l') in El. rewrite El. f_equal.
  assert (Hocc : forall x, In x l' <-> (forall m, In m ls -> In x m)).
  { intros x. destruct (Hl' x) as [(m & Hm & Em) Hle]. unfold occ in *. split.
    - intros Hx m' Hm'. apply (count_occ_In Z.eq_dec) in Hx. apply (count_occ_In Z.eq_dec). specialize (Hle m' Hm'). lia.
    - intros Hall. apply (count_occ_In Z.eq_dec). rewrite Em. apply (count_occ_In Z.eq_dec). auto. }
  destruct (selected_sorted _ _ _ Hl Hord) as [Hlt Hin].
  apply sorted_ext; [|assumption|].
  - apply sorted_nodup_strict; [assumption|]. apply (NoDup_count_occ Z.eq_dec). intros x.
    destruct (Hl' x) as [(m & Hm & Em) _]. unfold occ in Em. rewrite Em.
    pose proof (strict_sorted_nodup _ (Hsl m Hm)) as Hn. exact (proj1 (NoDup_count_occ Z.eq_dec _) Hn x).
  - intros x. rewrite Hocc, Hin. split.
    + intros Hall. destruct Ps as [|P0 Ps]; [congruence|].
      assert (HP : forall P, In P (P0 :: Ps) -> exists r, In r rs /\ r_pos r = x /\ P r).
      { intros P HPin. destruct (Forall2_In_l _ _ _ _ HF HPin) as (m & Hm & Hsel).
        apply (proj2 (selected_sorted _ _ _ Hsel Hord)). auto. }
      destruct (HP P0 (or_introl eq_refl)) as (r & H1 & H2 & _). exists r. split; [assumption|]. split; [assumption|].
      apply Forall_forall. intros P HPin. destruct (HP P HPin) as (r' & H1' & H2' & H3).
      replace r with r'; [assumption|]. eapply file_order_inj; eauto. congruence.
    + intros (r & H1 & H2 & H3) m Hm. destruct (Forall2_In_r _ _ _ _ HF Hm) as (P & HPin & Hsel).
      apply (proj2 (selected_sorted _ _ _ Hsel Hord)). exists r. rewrite Forall_forall in H3. split; [assumption|]. split; [assumption|]. exact (H3 _ HPin).
Qed.

(** *** Positions *)
Lemma selects_perm kind ts ts' r : Permutation ts ts' -> selects kind ts r <-> selects kind ts' r.
Proof. intros Hp. unfold selects. split; apply Permutation_Forall; [|apply Permutation_sym]; assumption. Qed.
Lemma found_by_perm S fs fs' r : Permutation fs fs' -> found_by S fs r <-> found_by S fs' r.
Proof. intros Hp. unfold found_by. split; apply Permutation_Forall; [|apply Permutation_sym]; assumption. Qed.

Section Serve.
Variable kind : bytes -> search.
Variable E : env.
Variable ord : order.
Hypothesis Hord : order_ok ord.

Definition index_ok_for (inp : input) (rs : list rec) (ts : list triple) : Prop :=
  forall i p v, In ((i, p), v) ts -> exists ix props, mget (e_indexes E) i = Some ix /\ index_exact (kind i) ix inp rs props /\
    forall p' v', In ((i, p'), v') ts -> In p' props.

Lemma positions_ok loc inp rs ts : in_file_order rs -> ts <> [] -> NoDup (map fst ts) ->
  Forall (fun t => s_accepts (kind (fst (fst t))) (snd t)) ts -> index_ok_for inp rs ts ->
  exists its sel, positions_per_index E ord loc inp (group ts) = Ok its /\
    kept (selects kind ts) rs sel /\ join_positions its = map Ok (map r_pos sel).
Proof.
  intros Hfo Hne Hnd Hprim Hix. destruct (group_spec ts Hnd) as (Gnd & Gin & Gts).
  assert (Hg : group ts <> []) by (intros H; apply group_nil in H; congruence).
  unfold positions_per_index. destruct (group ts) as [|g0 gs0] eqn:Eg; [congruence|]. rewrite <- Eg in *. clear gs0 g0 Eg.
  set (fpi := group ts) in *. pose proof (Hord loc _ fpi) as Hperm.
  assert (Hin : forall i fs, In (i, fs) (ord loc _ fpi) -> In (i, fs) fpi).
  { intros i fs H. eapply Permutation_in; [symmetry; exact Hperm|assumption]. }
  assert (HM : exists ls, rmapM (fun nf : bytes * filters =>
      match mget (e_indexes E) (fst nf) with
      | None => Err (EMsg "Index not found in indexes list.")
      | Some ix => ix inp (ord (Key (fst nf) :: loc) _ (snd nf))
      end) (ord loc _ fpi) = Ok (map (map Ok) ls) /\
      Forall2 (fun nf l => selected (found_by (kind (fst nf)) (snd nf)) rs l) (ord loc _ fpi) ls).
  { clear Hperm. revert Hin. generalize (ord loc (bytes * filters)%type fpi) as L. induction L as [|[i fs] L IH]; intros Hin.
    - exists []. split; [reflexivity|constructor].
    - destruct IH as (ls & E1 & HF); [intros; apply Hin; right; assumption|].
      pose proof (Hin i fs (or_introl eq_refl)) as Hi. destruct (Gin _ _ Hi) as [Hfnd Hfne].
      assert (Hmem : forall p v, In (p, v) fs -> In ((i, p), v) ts).
      { intros p v Hpv. apply Gts. exists fs. split; apply In_mget; assumption. }
      destruct fs as [|[p0 v0] fs0] eqn:Efs; [congruence|]. rewrite <- Efs in *.
      destruct (Hix i p0 v0) as (ix & props & Ei & Hex & Hpr). { apply Hmem. subst fs. left. reflexivity. }
      cbn [rmapM fst snd]. rewrite Ei. pose proof (Hord (Key i :: loc) _ fs) as Hpf.
      destruct (Hex (ord (Key i :: loc) _ fs)) as (l & Hl & El).
      { intros H0. rewrite H0 in Hpf. symmetry in Hpf. apply Permutation_nil in Hpf. congruence. }
      { apply (Permutation_NoDup (Permutation_map fst Hpf)). exact Hfnd. }
      { apply (Permutation_Forall Hpf). apply Forall_forall. intros [p v] Hpv. apply Hmem in Hpv. cbn [fst snd]. split; [eauto|].
        rewrite Forall_forall in Hprim. exact (Hprim _ Hpv). }
      rewrite El. cbn [rbind]. rewrite E1. cbn [rbind]. exists (l :: ls). split; [reflexivity|]. constructor; [|assumption].
      cbn [snd]. eapply selected_ext; [|exact Hl]. apply Forall_forall. intros r _. apply found_by_perm. symmetry. assumption. }
  destruct HM as (ls & EM & HF). rewrite EM.
  assert (HF' : Forall2 (fun P l => selected P rs l) (map (fun nf => found_by (kind (fst nf)) (snd nf)) (ord loc _ fpi)) ls).
  { clear - HF. induction HF; cbn; constructor; auto. }
  edestruct (selected_join rs) as (l & Hl & Ej); [exact Hfo| |exact HF'|].
  { intros H0. apply map_eq_nil in H0. apply Hg. exact (Permutation_nil (Permutation_sym (eq_ind _ (fun q => Permutation fpi q) Hperm _ H0))). }
  destruct (selected_kept _ _ _ Hl) as (sel & Hk & ->).
  exists (map (map Ok) ls), sel. split; [reflexivity|]. split; [|assumption].
  eapply kept_ext; [|exact Hk]. intros r. rewrite Forall_map. unfold selects.
  rewrite !Forall_forall. split.
  - intros H [[i p] v] Ht. cbn [fst snd]. apply Gts in Ht as (fs & E1 & E2). apply mget_In in E1, E2.
    specialize (H (i, fs)). cbn [fst snd] in H. unfold found_by in H. rewrite Forall_forall in H.
    apply (H (Permutation_in _ Hperm E1) (p, v) E2).
  - intros H [i fs] Hi. cbn [snd]. apply Hin in Hi. apply Forall_forall. intros [p v] Hpv. cbn [fst snd].
    destruct (Gin _ _ Hi) as [Hfnd _].
    specialize (H ((i, p), v)). cbn [fst snd] in H. apply H. apply Gts. exists fs. split; apply In_mget; assumption.
Qed.

Lemma fetch_ok inp rs sel : input_ok inp rs -> (forall r, In r sel -> In r rs) -> fetch inp (map Ok (map r_pos sel)) = Ok sel.
Proof.
  intros (_ & _ & Hget). induction sel as [|r sel IH]; intros Hin; [reflexivity|].
  cbn [map fetch rbind]. rewrite Hget by (apply Hin; left; reflexivity). cbn [rbind].
  rewrite IH by (intros; apply Hin; right; assumption). reflexivity.
Qed.

End Serve.
