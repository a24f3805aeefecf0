(** Index creation of the wildcard index: what the stream holds after it. *)
From Coq Require Import List ZArith Lia Bool String Permutation Sorted.
From Coq Require Import Strings.Byte.
From Coq Require Import ZifyBool ZifyNat.
From Verif Require Import Base BaseFacts Codec CodecFacts Stream StreamFacts Node Heap Radix Located.
From Verif Require Import NodeFacts NodeFacts2 NodeFacts3 Value Join JoinFacts WildcardMeta MetaFacts Wildcard.
Import ListNotations.
Open Scope Z_scope.

(** ** Iterating over a chain of positions *)

Lemma plist_iterate_fuel ps : forall fuel s H, Rep s H -> fits s -> reppos H ps -> (List.length ps < fuel)%nat ->
  plist_iterate fuel s (phead ps) = list_iterate (map snd ps).
Proof.
  induction ps as [|[o p] ps IH]; intros fuel s H HR Hf Hp Hl.
  - destruct fuel; [simpl in Hl; lia|]. reflexivity.
  - destruct fuel as [|fuel]; [simpl in Hl; lia|]. destruct Hp as [Ho Hp].
    cbn [phead plist_iterate]. unfold next_position. cbn [p_next p_pos].
    rewrite (h_phead s H ps HR Hf Hp). cbn [fst]. rewrite (IH fuel s H HR Hf Hp) by (simpl in Hl; lia). reflexivity.
Qed.

Lemma h_plist_iterate ps s H : Rep s H -> fits s -> reppos H ps -> NoDup (map fst ps) ->
  plist_iterate (chain_fuel s) s (phead ps) = list_iterate (map snd ps).
Proof.
  intros HR Hf Hp Hnd. apply (plist_iterate_fuel ps _ s H HR Hf Hp).
  unfold chain_fuel. pose proof (proj2 (Rep_wf _ _ HR)) as ->.
  apply Nat.lt_succ_r. rewrite <- (map_length fst ps). apply NoDup_Z_bound; [assumption|].
  pose proof (reppos_range s H ps HR Hp) as Hrg. eapply Forall_impl; [|exact Hrg].
  intros x Hx. unfold in_range, header_last in Hx. lia.
Qed.

(** ** Association lists *)

Lemma mget_app {V} (a b : list (bytes * V)) k :
  mget (a ++ b) k = match mget a k with Some v => Some v | None => mget b k end.
Proof. induction a as [|[k' v] a IH]; simpl; [reflexivity|]. destruct (bytes_eqb k' k); auto. Qed.

Lemma mget_none {V} (m : list (bytes * V)) k : ~ In k (map fst m) -> mget m k = None.
Proof.
  induction m as [|[k' v] m IH]; simpl; [reflexivity|]. intros Hn.
  destruct (bytes_eqb k' k) eqn:E; [apply bytes_eqb_eq in E; subst; tauto|]. apply IH. tauto.
Qed.

Lemma mget_some_in {V} (m : list (bytes * V)) k v : mget m k = Some v -> In (k, v) m.
Proof.
  induction m as [|[k' v'] m IH]; simpl; [discriminate|].
  destruct (bytes_eqb k' k) eqn:E; [apply bytes_eqb_eq in E; subst; intros [= ->]; auto|auto].
Qed.

Lemma mset_new {V} (m : list (bytes * V)) k v : ~ In k (map fst m) -> mset m k v = m ++ [(k, v)].
Proof.
  induction m as [|[k' v'] m IH]; simpl; [reflexivity|]. intros Hn.
  destruct (bytes_eqb k' k) eqn:E; [apply bytes_eqb_eq in E; subst; tauto|]. rewrite IH by tauto. reflexivity.
Qed.

Lemma mset_mid {V} (a b : list (bytes * V)) k v v' : ~ In k (map fst a) ->
  mset (a ++ (k, v) :: b) k v' = a ++ (k, v') :: b.
Proof.
  induction a as [|[k' x] a IH]; simpl; intros Hn.
  - rewrite bytes_eqb_refl. reflexivity.
  - destruct (bytes_eqb k' k) eqn:E; [apply bytes_eqb_eq in E; subst; tauto|]. rewrite IH by tauto. reflexivity.
Qed.

Lemma mget_mid {V} (a b : list (bytes * V)) k v : ~ In k (map fst a) -> mget (a ++ (k, v) :: b) k = Some v.
Proof.
  intros Hn. rewrite mget_app, mget_none by assumption. simpl. rewrite bytes_eqb_refl. reflexivity.
Qed.

(** ** The invariant of the index under construction *)

Definition forest (t : lt) : list tree := match t with LN _ _ _ _ ch => map erase ch end.
Definition is_root (t : lt) : Prop := exists o ch, t = LN o 0 [] [] ch /\ wfs (map erase ch).

Notation ftree := (bytes * lt)%type.
Definition idx_of (f : list ftree) : windex := map (fun x => (fst x, Some (cell_of 0 (snd x)))) f.
Definition foffs (f : list ftree) : list Z := flat_map (fun x => offs (snd x)) f.

Record winv (s : stream) (H : heap) (meta : bytes) (f : list ftree) : Prop := {
  wi_rep : Rep s H;
  wi_meta : H 0 = Some (CMeta meta);
  wi_trees : Forall (fun x => rep H 0 (snd x) /\ is_root (snd x)) f;
  wi_nodup : NoDup (foffs f);
  wi_keys : NoDup (map fst f);
}.

Lemma idx_keys f : map fst (idx_of f) = map fst f.
Proof. unfold idx_of. rewrite map_map. reflexivity. Qed.

Lemma idx_app a b : idx_of (a ++ b) = idx_of a ++ idx_of b.
Proof. apply map_app. Qed.

Lemma foffs_range s H f : Rep s H -> Forall (fun x => rep H 0 (snd x) /\ is_root (snd x)) f ->
  Forall (in_range s) (foffs f).
Proof.
  intros HR Hf. induction Hf as [|x f [Hx _] Hf IH]; [constructor|].
  unfold foffs. cbn [flat_map]. apply Forall_app. split; [eapply rep_range; eassumption|exact IH].
Qed.

(** Replacing one tree by an evolution of it. *)
Lemma winv_replace s H meta s' H' A p t t' B :
  winv s H meta (A ++ (p, t) :: B) -> evo s H s' H' (offs t) (offs t') -> rep H' 0 t' -> is_root t' ->
  winv s' H' meta (A ++ (p, t') :: B).
Proof.
  intros [HR Hm Ht Hnd Hk] Hevo Ht' Hr.
  apply Forall_app in Ht as [HtA HtB]. apply Forall_cons_iff in HtB as [[Hrt Hroot] HtB]. cbn [snd] in *.
  unfold foffs in Hnd. rewrite flat_map_app in Hnd. cbn [flat_map snd] in Hnd.
  assert (Hlt : forall f, Forall (fun x => rep H 0 (snd x) /\ is_root (snd x)) f ->
                  Forall (fun o => o < zlen (flat s)) (foffs f)).
  { intros f Hf. eapply Forall_impl; [|eapply foffs_range; eassumption]. intros x Hx. unfold in_range in Hx. lia. }
  pose proof (evo_frame_l _ _ _ _ _ _ _ _ Hevo Hnd (Hlt _ HtA) (Hlt _ HtB)) as Hevo2.
  constructor.
  - apply Hevo.
  - rewrite (ev_frame _ _ _ _ _ _ Hevo); [assumption| |].
    + destruct HR as (_ & _ & Hl). unfold header_last in Hl. lia.
    + intros Hin. pose proof (rep_range _ _ _ _ HR Hrt) as Hrg. rewrite Forall_forall in Hrg.
      apply Hrg in Hin. unfold in_range, header_last in Hin. lia.
  - apply NoDup_app_iff in Hnd as (HA & HBC & Hdis). apply NoDup_app_iff in HBC as (HB & HC & HdBC).
    apply Forall_app. split; [|constructor; [split; assumption|]].
    + apply Forall_forall. intros x Hx. pose proof (proj1 (Forall_forall _ _) HtA x Hx) as [Hrx Hrootx].
      split; [|assumption]. eapply (evo_rep _ _ _ _ _ _ _ _ Hevo HR Hrx). intros o Ho Ho'.
      apply (Hdis o); [apply in_flat_map; eauto|apply in_or_app; auto].
    + apply Forall_forall. intros x Hx. pose proof (proj1 (Forall_forall _ _) HtB x Hx) as [Hrx Hrootx].
      split; [|assumption]. eapply (evo_rep _ _ _ _ _ _ _ _ Hevo HR Hrx). intros o Ho Ho'.
      apply (HdBC o); [assumption|apply in_flat_map; eauto].
  - unfold foffs. rewrite flat_map_app. cbn [flat_map snd]. apply Hevo2.
  - rewrite map_app in *. exact Hk.
Qed.

Section Create.
Variable lower : bytes -> bytes.
Variable ic : bool.

Notation fold_case := (fold_case lower).
Notation add_string := (add_string lower).
Notation add_value := (add_value lower).
Notation index_props := (index_props lower).
Notation index_records := (index_records lower).

Lemma mono_add_string idx p v pos : mono (add_string ic idx p v pos).
Proof. unfold Wildcard.add_string. mono_tac. Qed.

Definition add_values (idx : windex) (p : bytes) (l : list value) (pos : Z) : M windex :=
  (fix go (idx : windex) (l : list value) : M windex :=
     match l with
     | [] => ret idx
     | x :: l' => do idx' <- add_value ic idx p x pos; go idx' l'
     end) idx l.

Lemma add_value_list idx p l pos :
  add_value ic idx p (VList l) pos = do _ <- add_values idx p l pos; fail (EMsg "not a string").
Proof. reflexivity. Qed.

Lemma mono_add_value v : forall idx p pos, mono (add_value ic idx p v pos).
Proof.
  induction v as [| | | |s|l IH|m IH] using value_ind'; intros idx p pos; try (cbn [Wildcard.add_value]; apply mono_fail).
  - apply mono_add_string.
  - rewrite add_value_list. apply mono_bind; [|intros; apply mono_fail].
    revert idx. induction IH as [|x l Hx Hl IHl]; intros idx; [apply mono_ret|].
    cbn [add_values]. apply mono_bind; [apply Hx|intros; apply IHl].
Qed.

Lemma mono_index_props props : forall idx r, mono (index_props ic idx props r).
Proof.
  induction props; intros; [apply mono_ret|]. cbn [Wildcard.index_props].
  apply mono_bind; [apply mono_lift|intros v]. apply mono_bind; [apply mono_add_value|intros]. apply IHprops.
Qed.

Lemma mono_index_records its : forall idx props, mono (index_records ic idx props its).
Proof.
  induction its; intros; [apply mono_ret|]. cbn [Wildcard.index_records].
  apply mono_bind; [apply mono_lift|intros v]. apply mono_bind; [apply mono_index_props|intros]. apply IHits.
Qed.
End Create.
Global Hint Resolve mono_add_string mono_add_value mono_index_props mono_index_records : mono.

(** A failed bind. *)
Lemma bind_inv {A B} (f : M A) (g : A -> M B) s r s' : mbind f g s = (r, s') ->
  (exists a s1, f s = (Ok a, s1) /\ g a s1 = (r, s')) \/
  (exists e, f s = (Err e, s') /\ r = Err e) \/ (f s = (Panic, s') /\ r = Panic) \/ (f s = (NoFuel, s') /\ r = NoFuel).
Proof.
  intros E. unfold mbind in E. destruct (f s) as [[a|e| |] s1] eqn:E1.
  - left. eauto.
  - right; left. injection E as <- <-. eauto.
  - right; right; left. injection E as <- <-. auto.
  - right; right; right. injection E as <- <-. auto.
Qed.

Definition safe {A} (r : res A) : Prop := match r with Ok _ | Err _ => True | _ => False end.

Section Create2.
Variable lower : bytes -> bytes.
Variable ic : bool.

Notation fold_case := (fold_case lower).
Notation add_string := (add_string lower).
Notation add_value := (add_value lower).
Notation index_props := (index_props lower).
Notation index_records := (index_records lower).

Lemma w_add_string s H meta A p t B v pos r s' :
  winv s H meta (A ++ (p, t) :: B) -> in_i64 pos ->
  add_string ic (idx_of (A ++ (p, t) :: B)) p v pos s = (r, s') -> fits s' ->
  exists H' t', r = Ok (idx_of (A ++ (p, t') :: B)) /\ winv s' H' meta (A ++ (p, t') :: B) /\
    lt_off t' = lt_off t /\ forest t' = add_all (forest t) (fold_case ic v) pos /\ ev s s'.
Proof.
  intros HI Hpos E Hb. pose proof HI as [HR Hm Ht Hnd Hk].
  apply Forall_app in Ht as [_ Ht]. apply Forall_cons_iff in Ht as [[Hrep (o & ch & Et & Hwf)] _]. cbn [snd] in *.
  assert (HkA : ~ In p (map fst (idx_of A))).
  { rewrite idx_keys. rewrite map_app in Hk. cbn [map fst] in Hk. apply NoDup_remove in Hk as [_ Hk].
    intros Hin. apply Hk. apply in_or_app. auto. }
  unfold foffs in Hnd. rewrite flat_map_app in Hnd. cbn [flat_map snd] in Hnd.
  apply NoDup_app_iff in Hnd as (_ & Hnd & _). apply NoDup_app_iff in Hnd as (Hnd & _ & _).
  unfold Wildcard.add_string in E. rewrite idx_app in E. cbn [idx_of map fst snd] in E. fold (idx_of B) in E.
  rewrite mget_mid in E by assumption. subst t.
  apply bind_inv in E as [(root' & s1 & E1 & E)|E].
  - injection E as <- <-.
    destruct (h_add_all s H 0 o 0 [] [] ch (fold_case ic v) pos (Ok root') s1 HR Hrep Hnd Hwf Hpos E1 Hb)
      as (H' & ch' & Er & Hrep' & Her & Hevo).
    injection Er as ->. exists H', (LN o 0 [] [] ch').
    assert (Hroot' : is_root (LN o 0 [] [] ch')).
    { exists o, ch'. split; [reflexivity|]. rewrite Her. apply wfs_add_all. assumption. }
    split; [|split; [|split; [reflexivity|split; [exact Her|apply Hevo]]]].
    + rewrite mset_mid by assumption. rewrite idx_app. reflexivity.
    + eapply winv_replace; eassumption.
  - exfalso.
    assert (Hx : exists r0 s0, add_all_sequences (cell_of 0 (LN o 0 [] [] ch)) (fold_case ic v) pos s = (r0, s0)
              /\ s0 = s' /\ is_ok r0 = false).
    { destruct E as [(e & E & ->)|[[E ->]|[E ->]]]; eexists _, _; (split; [exact E|split; reflexivity]). }
    destruct Hx as (r0 & s0 & Ex & -> & Hno).
    destruct (h_add_all s H 0 o 0 [] [] ch (fold_case ic v) pos r0 s' HR Hrep Hnd Hwf Hpos Ex Hb)
      as (H' & ch' & -> & _). discriminate.
Qed.

Lemma w_add_value v : forall s H meta A p t B pos r s',
  winv s H meta (A ++ (p, t) :: B) -> in_i64 pos ->
  add_value ic (idx_of (A ++ (p, t) :: B)) p v pos s = (r, s') -> fits s' ->
  exists H' t', winv s' H' meta (A ++ (p, t') :: B) /\ lt_off t' = lt_off t /\ ev s s' /\
    match r with
    | Ok idx' => idx' = idx_of (A ++ (p, t') :: B) /\
                 exists str, v = VString str /\ forest t' = add_all (forest t) (fold_case ic str) pos
    | Err _ => forall str, v <> VString str
    | _ => False
    end.
Proof.
  induction v as [| | | |str|l IH|m IH] using value_ind'; intros s H meta A p t B pos r s' HI Hpos E Hb;
    try (cbn [Wildcard.add_value] in E; injection E as <- <-; exists H, t;
         split; [assumption|split; [reflexivity|split; [apply ev_refl|intros ? [=]]]]).
  - cbn [Wildcard.add_value] in E.
    destruct (w_add_string s H meta A p t B str pos r s' HI Hpos E Hb) as (H' & t' & -> & HI' & Ho & Hf & Hev).
    exists H', t'. split; [assumption|]. split; [assumption|]. split; [assumption|]. split; [reflexivity|]. eauto.
  - rewrite add_value_list in E.
    assert (Hgo : forall l, Forall (fun v => forall s H meta A p t B pos r s',
      winv s H meta (A ++ (p, t) :: B) -> in_i64 pos ->
      add_value ic (idx_of (A ++ (p, t) :: B)) p v pos s = (r, s') -> fits s' ->
      exists H' t', winv s' H' meta (A ++ (p, t') :: B) /\ lt_off t' = lt_off t /\ ev s s' /\
        match r with
        | Ok idx' => idx' = idx_of (A ++ (p, t') :: B) /\
                 exists str, v = VString str /\ forest t' = add_all (forest t) (fold_case ic str) pos
        | Err _ => forall str, v <> VString str
        | _ => False
        end) l -> forall s H t r s', winv s H meta (A ++ (p, t) :: B) ->
      add_values lower ic (idx_of (A ++ (p, t) :: B)) p l pos s = (r, s') -> fits s' ->
      exists H' t', winv s' H' meta (A ++ (p, t') :: B) /\ lt_off t' = lt_off t /\ ev s s' /\ safe r).
    { clear - Hpos. induction 1 as [|x l Hx Hl IHl]; intros s H t r s' HI E Hb.
      - injection E as <- <-. exists H, t. split; [assumption|]. split; [reflexivity|]. split; [apply ev_refl|exact I].
      - cbn [add_values] in E. fold (add_values lower ic) in E.
        apply bind_inv in E as [(idx1 & s1 & E1 & E)|E].
        + assert (Hf1 : fits s1).
          { eapply (mono_fits _ s1 r s'); [|eapply (mono_add_value lower ic x); [apply (Rep_wf _ _ (wi_rep _ _ _ _ HI))|exact E1]|exact E|exact Hb].
            clear. revert idx1. induction l; intros; [apply mono_ret|]. apply mono_bind; [apply mono_add_value|auto]. }
          destruct (Hx _ _ _ _ _ _ _ _ _ _ HI Hpos E1 Hf1) as (H1 & t1 & HI1 & Ho1 & Hev1 & -> & _).
          destruct (IHl _ _ _ _ _ HI1 E Hb) as (H' & t' & HI' & Ho' & Hev' & Hs).
          exists H', t'. split; [assumption|]. split; [congruence|]. split; [eapply ev_trans; eassumption|assumption].
        + assert (Hx' : exists r0, add_value ic (idx_of (A ++ (p, t) :: B)) p x pos s = (r0, s') /\ (safe r0 -> safe r)).
          { destruct E as [(e & E & ->)|[[E ->]|[E ->]]]; eexists; (split; [exact E|simpl; tauto]). }
          destruct Hx' as (r0 & Ex & Hsafe).
          destruct (Hx _ _ _ _ _ _ _ _ _ _ HI Hpos Ex Hb) as (H1 & t1 & HI1 & Ho1 & Hev1 & Hr).
          exists H1, t1. split; [assumption|]. split; [assumption|]. split; [assumption|].
          apply Hsafe. destruct r0; simpl; tauto. }
    apply bind_inv in E as [(idx1 & s1 & E1 & E)|E].
    + injection E as <- <-.
      destruct (Hgo l IH _ _ _ _ _ HI E1 Hb) as (H' & t' & HI' & Ho' & Hev' & Hs).
      exists H', t'. split; [assumption|split; [assumption|split; [assumption|intros ? [=]]]].
    + assert (Hx' : exists r0, add_values lower ic (idx_of (A ++ (p, t) :: B)) p l pos s = (r0, s') /\ is_ok r = false /\ (safe r0 -> safe r)).
      { destruct E as [(e & E & ->)|[[E ->]|[E ->]]]; eexists; (split; [exact E|simpl; tauto]). }
      destruct Hx' as (r0 & Ex & Hno & Hsafe).
      destruct (Hgo l IH _ _ _ _ _ HI Ex Hb) as (H' & t' & HI' & Ho' & Hev' & Hs).
      exists H', t'. split; [assumption|split; [assumption|split; [assumption|]]].
      apply Hsafe in Hs. destruct r; try discriminate; simpl in *; try tauto. all: try (intros ? [=]).
Qed.

(** One record: every tree gets the value of its property. *)
Definition row_step (r : rec) (x x' : ftree) : Prop :=
  fst x' = fst x /\ lt_off (snd x') = lt_off (snd x) /\
  exists v, r_get r (fst x) = Ok (VString v) /\ forest (snd x') = add_all (forest (snd x)) (fold_case ic v) (r_pos r).
Definition same_ids (f f' : list ftree) : Prop :=
  map fst f' = map fst f /\ map (fun x => lt_off (snd x)) f' = map (fun x => lt_off (snd x)) f.

Lemma same_ids_refl f : same_ids f f.
Proof. split; reflexivity. Qed.
Lemma same_ids_trans f g h : same_ids f g -> same_ids g h -> same_ids f h.
Proof. intros [A B] [C D]. split; congruence. Qed.
Lemma same_ids_mid A p t t' B : lt_off t' = lt_off t -> same_ids (A ++ (p, t) :: B) (A ++ (p, t') :: B).
Proof. intros Ho. split; rewrite !map_app; cbn [map fst snd]; [reflexivity|]. rewrite Ho. reflexivity. Qed.

(** Outcome of indexing part of the data: the state is consistent whatever the
    result, and crashes only if the input does. *)
Lemma w_index_props rc : in_i64 (r_pos rc) -> forall B s H meta A r s',
  winv s H meta (A ++ B) -> Forall (fun p => safe (r_get rc p)) (map fst B) ->
  index_props ic (idx_of (A ++ B)) (map fst B) rc s = (r, s') -> fits s' ->
  exists H' B', winv s' H' meta (A ++ B') /\ same_ids B B' /\ ev s s' /\ safe r /\
    (forall idx', r = Ok idx' -> idx' = idx_of (A ++ B') /\ Forall2 (row_step rc) B B') /\
    (forall e, r = Err e -> ~ Forall (fun p => exists v, r_get rc p = Ok (VString v)) (map fst B)).
Proof.
  intros Hpos. induction B as [|[p t] B IH]; intros s H meta A r s' HI Hsafe E Hb.
  - injection E as <- <-. exists H, []. split; [assumption|]. split; [apply same_ids_refl|]. split; [apply ev_refl|].
    split; [exact I|]. split; [|discriminate]. intros idx' [= <-]. split; [reflexivity|constructor].
  - cbn [map fst Wildcard.index_props] in E. cbn [map fst] in Hsafe. apply Forall_cons_iff in Hsafe as [Hs1 Hsafe].
    apply bind_inv in E as [(v & s0 & E0 & E)|E].
    2: { unfold lift in E. exists H, ((p, t) :: B).
         assert (s' = s /\ safe r /\ is_ok r = false) as (-> & Hsr & Hno).
         { destruct E as [(e & E & ->)|[[E ->]|[E ->]]]; injection E as Eg <-; rewrite Eg in Hs1; simpl in *; auto. }
         split; [assumption|]. split; [apply same_ids_refl|]. split; [apply ev_refl|]. split; [assumption|].
         split; [intros idx' ->; discriminate|]. intros e0 _ Hall. cbn [map fst] in Hall.
         apply Forall_cons_iff in Hall as [[v Hv] _]. rewrite Hv in E.
         destruct E as [(e & E & _)|[[E _]|[E _]]]; discriminate. }
    injection E0 as Eg <-.
    apply bind_inv in E as [(idx1 & s1 & E1 & E)|E].
    + assert (Hf1 : fits s1).
      { eapply mono_fits; [apply (mono_index_props lower ic)|eapply (mono_add_value lower ic v); [apply (Rep_wf _ _ (wi_rep _ _ _ _ HI))|exact E1]|exact E|exact Hb]. }
      destruct (w_add_value v _ _ _ _ _ _ _ _ _ _ HI Hpos E1 Hf1) as (H1 & t1 & HI1 & Ho1 & Hev1 & -> & str & -> & Hfo).
      assert (EA : A ++ (p, t1) :: B = (A ++ [(p, t1)]) ++ B) by (rewrite <- app_assoc; reflexivity).
      rewrite EA in HI1, E.
      destruct (IH _ _ _ _ _ _ HI1 Hsafe E Hb) as (H' & B' & HI' & Hids & Hev' & Hsr & Hok & Herr).
      rewrite <- app_assoc in HI', Hok. cbn [app] in HI', Hok.
      exists H', ((p, t1) :: B'). split; [assumption|]. split; [|split; [eapply ev_trans; eassumption|split; [assumption|]]].
      * destruct Hids as [Hi1 Hi2]. split; cbn [map fst snd]; congruence.
      * split.
        -- intros idx' Er. destruct (Hok idx' Er) as [-> HF]. split; [reflexivity|]. constructor; [|assumption].
           split; [reflexivity|]. split; [assumption|]. exists str. auto.
        -- intros e Er Hall. cbn [map fst] in Hall. apply Forall_cons_iff in Hall as [_ Hall]. exact (Herr e Er Hall).
    + assert (Hx' : exists r0, add_value ic (idx_of (A ++ (p, t) :: B)) p v (r_pos rc) s = (r0, s') /\ is_ok r = false /\ (safe r0 -> safe r)).
      { destruct E as [(e & E & ->)|[[E ->]|[E ->]]]; eexists; (split; [exact E|simpl; tauto]). }
      assert (Hnook : forall idx0 s0, add_value ic (idx_of (A ++ (p, t) :: B)) p v (r_pos rc) s <> (Ok idx0, s0)).
      { intros idx0 s0 Ex. destruct E as [(e & E & _)|[[E _]|[E _]]]; rewrite Ex in E; discriminate. }
      destruct Hx' as (r0 & Ex & Hno & Hsr).
      destruct (w_add_value v _ _ _ _ _ _ _ _ _ _ HI Hpos Ex Hb) as (H1 & t1 & HI1 & Ho1 & Hev1 & Hr0).
      exists H1, ((p, t1) :: B). split; [assumption|]. split; [apply (same_ids_mid []); assumption|].
      split; [assumption|]. split; [apply Hsr; destruct r0; simpl; tauto|]. split; [intros idx' ->; discriminate|].
      intros e _ Hall. cbn [map fst] in Hall. apply Forall_cons_iff in Hall as [[str Hstr] _].
      rewrite Eg in Hstr. injection Hstr as ->. destruct r0; [exact (Hnook _ _ Ex)|exact (Hr0 str eq_refl)|exact Hr0|exact Hr0].
Qed.

(** All the records. *)
Fixpoint rows (p : bytes) (its : list (res rec)) : list (Z * bytes) :=
  match its with
  | Ok r :: its' =>
    match r_get r p with
    | Ok (VString v) => (r_pos r, fold_case ic v) :: rows p its'
    | _ => rows p its'
    end
  | _ => []
  end.

Definition rec_ok (props : list bytes) (it : res rec) : Prop :=
  exists r, it = Ok r /\ Forall (fun p => exists v, r_get r p = Ok (VString v)) props.

Definition input_safe (props : list bytes) (it : res rec) : Prop :=
  safe it /\ forall r, it = Ok r -> in_i64 (r_pos r) /\ Forall (fun p => safe (r_get r p)) props.

Lemma w_index_records its : forall s H meta f r s',
  winv s H meta f -> Forall (input_safe (map fst f)) its ->
  index_records ic (idx_of f) (map fst f) its s = (r, s') -> fits s' ->
  exists H' f', winv s' H' meta f' /\ same_ids f f' /\ ev s s' /\ safe r /\
    (forall idx', r = Ok idx' -> idx' = idx_of f' /\ Forall (rec_ok (map fst f)) its /\
       Forall2 (fun x x' => forest (snd x') = build (forest (snd x)) (rows (fst x) its)) f f') /\
    (forall e, r = Err e -> ~ Forall (rec_ok (map fst f)) its).
Proof.
  induction its as [|it its IH]; intros s H meta f r s' HI Hin E Hb.
  - injection E as <- <-. exists H, f. split; [assumption|]. split; [apply same_ids_refl|]. split; [apply ev_refl|].
    split; [exact I|]. split; [|discriminate]. intros idx' [= <-]. split; [reflexivity|]. split; [constructor|].
    clear. induction f; constructor; auto.
  - cbn [Wildcard.index_records] in E. apply Forall_cons_iff in Hin as [[Hsafe Hin1] Hin].
    apply bind_inv in E as [(rc & s0 & E0 & E)|E].
    2: { unfold lift in E. exists H, f.
         assert (s' = s /\ safe r /\ is_ok r = false) as (-> & Hsr & Hno).
         { destruct E as [(e & E & ->)|[[E ->]|[E ->]]]; injection E as -> <-; simpl in *; auto. }
         split; [assumption|]. split; [apply same_ids_refl|]. split; [apply ev_refl|]. split; [assumption|].
         split; [intros idx' ->; discriminate|]. intros e0 _ Hall. apply Forall_cons_iff in Hall as [(rc & -> & _) _].
         destruct E as [(e & E & _)|[[E _]|[E _]]]; discriminate. }
    injection E0 as -> <-. destruct (Hin1 rc eq_refl) as [Hpos Hg].
    apply bind_inv in E as [(idx1 & s1 & E1 & E)|E].
    + assert (Hf1 : fits s1).
      { eapply mono_fits; [apply (mono_index_records lower ic its)|eapply (mono_index_props lower ic); [apply (Rep_wf _ _ (wi_rep _ _ _ _ HI))|exact E1]|exact E|exact Hb]. }
      destruct (w_index_props rc Hpos f s H meta [] _ _ HI Hg E1 Hf1) as (H1 & f1 & HI1 & Hids1 & Hev1 & _ & Hok1 & _).
      destruct (Hok1 _ eq_refl) as [-> HF1]. cbn [app] in *.
      replace (map fst f) with (map fst f1) in Hin, E by apply Hids1.
      destruct (IH _ _ _ _ _ _ HI1 Hin E Hb) as (H' & f' & HI' & Hids' & Hev' & Hsr & Hok' & Herr').
      exists H', f'. split; [assumption|]. split; [eapply same_ids_trans; eassumption|].
      split; [eapply ev_trans; eassumption|]. split; [assumption|].
      split; [|intros e Er Hall; apply Forall_cons_iff in Hall as [_ Hall]; rewrite <- (proj1 Hids1) in Hall; exact (Herr' e Er Hall)].
      intros idx' Er. destruct (Hok' idx' Er) as (-> & Hrec & HF2). split; [reflexivity|].
      replace (map fst f1) with (map fst f) in Hrec by (symmetry; apply Hids1).
      split.
      * constructor; [|assumption]. exists rc. split; [reflexivity|].
        clear - HF1. induction HF1 as [|x x' f f1 (_ & _ & v & Hv & _) HF IHF]; cbn [map]; constructor; eauto.
      * clear - HF1 HF2. revert f' HF2. induction HF1 as [|x x' f f1 (Hk & _ & v & Hv & Hfo) HF IHF]; intros f' HF2.
        -- inversion HF2. constructor.
        -- inversion HF2 as [|? x'' ? f'' Hx'' HF3]; subst. constructor; [|auto].
           rewrite Hx'', Hfo, Hk. cbn [rows]. rewrite Hv. reflexivity.
    + assert (Hx' : exists r0, index_props ic (idx_of f) (map fst f) rc s = (r0, s') /\ is_ok r = false /\ (safe r0 -> safe r)).
      { destruct E as [(e & E & ->)|[[E ->]|[E ->]]]; eexists; (split; [exact E|simpl; tauto]). }
      assert (Hnook : forall idx0 s0, index_props ic (idx_of f) (map fst f) rc s <> (Ok idx0, s0)).
      { intros idx0 s0 Ex. destruct E as [(e & E & _)|[[E _]|[E _]]]; rewrite Ex in E; discriminate. }
      destruct Hx' as (r0 & Ex & Hno & Hsr).
      destruct (w_index_props rc Hpos f s H meta [] _ _ HI Hg Ex Hb) as (H1 & f1 & HI1 & Hids1 & Hev1 & Hs1 & Hok1 & Herr1).
      exists H1, f1. split; [assumption|]. split; [assumption|]. split; [assumption|]. split; [auto|].
      split; [intros idx' ->; discriminate|]. intros e _ Hall. apply Forall_cons_iff in Hall as [(rc' & Erc & Hall) _].
      injection Erc as <-. destruct r0; [exact (Hnook _ _ Ex)|exact (Herr1 _ eq_refl Hall)|exact Hs1|exact Hs1].
Qed.
End Create2.
