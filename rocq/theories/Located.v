(** Radix trees located in the heap, and the effect of every operation of
    Node.v on them. *)
From Coq Require Import List ZArith Lia Bool String.
From Coq Require Import Strings.Byte.
From Coq Require Import ZifyBool ZifyNat.
From Verif Require Import Base BaseFacts Codec CodecFacts Stream StreamFacts Node Heap Radix.
Import ListNotations.
Open Scope Z_scope.

(** A tree with the offset of every object: node, label, positions. *)
Inductive lt := LN (off voff : Z) (label : bytes) (ps : list (Z * Z)) (ch : list lt).

Section lt_ind.
  Variable P : lt -> Prop.
  Hypothesis HP : forall off voff label ps ch, Forall P ch -> P (LN off voff label ps ch).
  Fixpoint lt_ind' (t : lt) : P t :=
    match t with
    | LN off voff label ps ch =>
      HP off voff label ps ch
        ((fix go (ch : list lt) : Forall P ch :=
            match ch with
            | [] => Forall_nil P
            | c :: r => Forall_cons c (lt_ind' c) (go r)
            end) ch)
    end.
End lt_ind.

Definition lt_off (t : lt) : Z := match t with LN o _ _ _ _ => o end.
Definition lt_label (t : lt) : bytes := match t with LN _ _ l _ _ => l end.

Fixpoint erase (t : lt) : tree :=
  match t with LN _ _ l ps ch => Radix.Node l (map snd ps) (map erase ch) end.

Fixpoint offs (t : lt) : list Z :=
  match t with LN o _ _ ps ch => o :: map fst ps ++ flat_map offs ch end.

(** Offset of the first element, [tn] when there is none. *)
Definition hd_off (ch : list lt) (tn : Z) : Z := match ch with [] => tn | c :: _ => lt_off c end.
Definition last_off (ch : list lt) : Z := last (map lt_off ch) 0.
Definition hd_poff (ps : list (Z * Z)) : Z := match ps with [] => 0 | x :: _ => fst x end.
Definition last_poff (ps : list (Z * Z)) : Z := last (map fst ps) 0.

Definition cell_of (next : Z) (t : lt) : node :=
  match t with
  | LN o voff l ps ch =>
    mkNode o voff (zlen l) next (hd_off ch 0) (last_off ch) (hd_poff ps) (last_poff ps)
  end.

Fixpoint reppos (H : heap) (ps : list (Z * Z)) : Prop :=
  match ps with
  | [] => True
  | (o, p) :: ps' => H o = Some (CPos (mkPlist o p (hd_poff ps'))) /\ reppos H ps'
  end.

Fixpoint rep (H : heap) (next : Z) (t : lt) : Prop :=
  match t with
  | LN o voff l ps ch =>
    H o = Some (CNode (cell_of next (LN o voff l ps ch))) /\ val H voff l /\ reppos H ps /\
    (fix reps (ch : list lt) : Prop :=
       match ch with
       | [] => True
       | c :: r => rep H (hd_off r 0) c /\ reps r
       end) ch
  end.

Fixpoint reps (H : heap) (tn : Z) (ch : list lt) : Prop :=
  match ch with
  | [] => True
  | c :: r => rep H (hd_off r tn) c /\ reps H tn r
  end.

Lemma rep_unfold H next o voff l ps ch :
  rep H next (LN o voff l ps ch) <->
  H o = Some (CNode (cell_of next (LN o voff l ps ch))) /\ val H voff l /\ reppos H ps /\ reps H 0 ch.
Proof.
  cbn [rep].
  assert (E : forall c, (fix reps (ch : list lt) : Prop :=
       match ch with
       | [] => True
       | c :: r => rep H (hd_off r 0) c /\ reps r
       end) c = reps H 0 c) by (induction c; simpl; congruence).
  rewrite E. tauto.
Qed.

Lemma rep_off H next t : rep H next t -> H (lt_off t) = Some (CNode (cell_of next t)).
Proof. destruct t. rewrite rep_unfold. tauto. Qed.

Lemma reps_app H tn a b : reps H tn (a ++ b) <-> reps H (hd_off b tn) a /\ reps H tn b.
Proof.
  induction a as [|c a IH]; simpl; [tauto|].
  rewrite IH. replace (hd_off (a ++ b) tn) with (hd_off a (hd_off b tn)); [tauto|].
  destruct a; reflexivity.
Qed.

Definition raw_mono (H H' : heap) : Prop :=
  forall o bs, H o = Some (CRaw bs) -> H' o = Some (CRaw bs).
Lemma raw_mono_refl H : raw_mono H H.
Proof. intros o bs; auto. Qed.
Lemma raw_mono_trans H1 H2 H3 : raw_mono H1 H2 -> raw_mono H2 H3 -> raw_mono H1 H3.
Proof. intros A B o bs E. apply B, A, E. Qed.
Lemma val_raw H H' voff v : raw_mono H H' -> val H voff v -> val H' voff v.
Proof.
  intros Hr [->|(base & bs & Hb & Hrest)]; [left; reflexivity|].
  right. exists base, bs. split; [apply Hr; assumption|assumption].
Qed.

Lemma reppos_frame H H' ps :
  (forall o, In o (map fst ps) -> H' o = H o) -> reppos H ps -> reppos H' ps.
Proof.
  induction ps as [|[o p] ps IH]; simpl; [tauto|].
  intros Hf [H1 H2]. split; [rewrite Hf by auto; assumption|]. apply IH; auto.
Qed.

Lemma rep_frame t : forall H H' next,
  raw_mono H H' -> (forall o, In o (offs t) -> H' o = H o) -> rep H next t -> rep H' next t.
Proof.
  induction t as [o voff l ps ch IH] using lt_ind'. intros H H' next Hr Hf.
  rewrite !rep_unfold. intros (H1 & H2 & H3 & H4). simpl in Hf.
  split; [rewrite Hf by auto; assumption|].
  split; [eapply val_raw; eassumption|].
  split; [apply (reppos_frame H); [|assumption]; intros; apply Hf; right; apply in_or_app; auto|].
  assert (Hf' : forall o, In o (flat_map offs ch) -> H' o = H o)
    by (intros; apply Hf; right; apply in_or_app; auto).
  clear - IH Hr Hf' H4. revert H4. generalize 0 as tn.
  induction IH as [|c ch Hc Hch IHch]; intros tn; simpl; [auto|].
  simpl in Hf'. intros [A B]. split.
  - apply (Hc H H'); auto. intros; apply Hf', in_or_app; auto.
  - apply IHch; auto. intros; apply Hf', in_or_app; auto.
Qed.

Lemma reps_frame H H' tn ch :
  raw_mono H H' -> (forall o, In o (flat_map offs ch) -> H' o = H o) -> reps H tn ch -> reps H' tn ch.
Proof.
  intros Hr Hf. induction ch as [|c ch IH]; simpl; [auto|].
  simpl in Hf. intros [A B]. split.
  - apply (rep_frame c H H'); auto. intros; apply Hf, in_or_app; auto.
  - apply IH; auto. intros; apply Hf, in_or_app; auto.
Qed.

(** Everything owned by a tree is a node or a position. *)
Definition not_raw (H : heap) (o : Z) : Prop :=
  exists c, H o = Some c /\ match c with CRaw _ | CMeta _ => False | _ => True end.

Lemma reppos_not_raw H ps : reppos H ps -> Forall (not_raw H) (map fst ps).
Proof.
  induction ps as [|[o p] ps IH]; simpl; [constructor|].
  intros [A B]. constructor; [|auto]. eexists; split; [exact A|exact I].
Qed.

Lemma rep_not_raw t : forall H next, rep H next t -> Forall (not_raw H) (offs t).
Proof.
  induction t as [o voff l ps ch IH] using lt_ind'. intros H next.
  rewrite rep_unfold. intros (H1 & H2 & H3 & H4). simpl. constructor.
  - eexists; split; [exact H1|exact I].
  - apply Forall_app. split; [apply reppos_not_raw; assumption|].
    clear - IH H4. revert H4. generalize 0 as tn.
    induction IH as [|c ch Hc Hch IHch]; intros tn; simpl; [constructor|].
    intros [A B]. apply Forall_app. split; [eapply Hc; eassumption|eapply IHch; eassumption].
Qed.

Lemma reps_not_raw H tn ch : reps H tn ch -> Forall (not_raw H) (flat_map offs ch).
Proof.
  induction ch as [|c ch IH]; simpl; [constructor|].
  intros [A B]. apply Forall_app. split; [eapply rep_not_raw; eassumption|auto].
Qed.

Lemma not_raw_range s H o : Rep s H -> not_raw H o -> header_last < o < zlen (flat s).
Proof.
  intros (_ & Hok & _) (c & Hc & Hn). pose proof (ho_in _ _ Hok _ _ Hc).
  pose proof (ho_ok _ _ Hok _ _ Hc) as Hcell.
  destruct c; simpl in Hcell; [| |tauto|tauto]; lia.
Qed.

Definition in_range (s : stream) (o : Z) : Prop := header_last < o < zlen (flat s).

Lemma rep_range s H next t : Rep s H -> rep H next t -> Forall (in_range s) (offs t).
Proof.
  intros HR Hr. eapply Forall_impl; [|eapply rep_not_raw; exact Hr].
  intros o Ho. eapply not_raw_range; eassumption.
Qed.
Lemma reps_range s H tn ch : Rep s H -> reps H tn ch -> Forall (in_range s) (flat_map offs ch).
Proof.
  intros HR Hr. eapply Forall_impl; [|eapply reps_not_raw; exact Hr].
  intros o Ho. eapply not_raw_range; eassumption.
Qed.
Lemma reppos_range s H ps : Rep s H -> reppos H ps -> Forall (in_range s) (map fst ps).
Proof.
  intros HR Hr. eapply Forall_impl; [|apply reppos_not_raw; exact Hr].
  intros o Ho. eapply not_raw_range; eassumption.
Qed.

Lemma lt_off_in t : In (lt_off t) (offs t).
Proof. destruct t; simpl; auto. Qed.

Lemma in_flat_offs c ch o : In c ch -> In o (offs c) -> In o (flat_map offs ch).
Proof. intros. apply in_flat_map. eauto. Qed.

(** ** Evolution of the heap *)

Record evo (s : stream) (H : heap) (s' : stream) (H' : heap) (own own' : list Z) : Prop := {
  ev_rep : Rep s' H';
  ev_ev : ev s s';
  ev_raw : raw_mono H H';
  ev_frame : forall o, o < zlen (flat s) -> ~ In o own -> H' o = H o;
  ev_own : forall o, In o own' -> In o own \/ zlen (flat s) <= o;
  ev_nodup : NoDup own';
}.

Lemma evo_refl s H own : Rep s H -> NoDup own -> evo s H s H own own.
Proof. intros. constructor; auto using ev_refl, raw_mono_refl. Qed.

Lemma evo_size s H s' H' a b : evo s H s' H' a b -> zlen (flat s) <= zlen (flat s').
Proof. intros E. apply (ev_ev _ _ _ _ _ _ E). Qed.

Lemma evo_trans s1 H1 s2 H2 s3 H3 a b c :
  evo s1 H1 s2 H2 a b -> evo s2 H2 s3 H3 b c -> evo s1 H1 s3 H3 a c.
Proof.
  intros E1 E2. pose proof (evo_size _ _ _ _ _ _ E1) as Hs.
  constructor.
  - apply (ev_rep _ _ _ _ _ _ E2).
  - eapply ev_trans; [apply (ev_ev _ _ _ _ _ _ E1)|apply (ev_ev _ _ _ _ _ _ E2)].
  - eapply raw_mono_trans; [apply (ev_raw _ _ _ _ _ _ E1)|apply (ev_raw _ _ _ _ _ _ E2)].
  - intros o Ho Hn. rewrite (ev_frame _ _ _ _ _ _ E2); [|lia|].
    + apply (ev_frame _ _ _ _ _ _ E1); assumption.
    + intros Hin. apply (ev_own _ _ _ _ _ _ E1) in Hin. destruct Hin; [contradiction|lia].
  - intros o Hin. apply (ev_own _ _ _ _ _ _ E2) in Hin. destruct Hin as [Hin|Hin].
    + apply (ev_own _ _ _ _ _ _ E1). assumption.
    + right. lia.
  - apply (ev_nodup _ _ _ _ _ _ E2).
Qed.

Lemma NoDup_app_iff {A} (a b : list A) :
  NoDup (a ++ b) <-> NoDup a /\ NoDup b /\ (forall x, In x a -> ~ In x b).
Proof.
  induction a as [|x a IH]; simpl.
  - split; [intros; repeat split; auto; constructor|tauto].
  - rewrite !NoDup_cons_iff, IH, in_app_iff. split.
    + intros (H1 & H2 & H3 & H4). repeat split; try tauto. intros y [->|Hy]; [tauto|auto].
    + intros ((H1 & H2) & H3 & H4). repeat split; auto. intros [?|?]; [auto|]. eapply H4; eauto.
Qed.

Lemma evo_frame_l s H s' H' A B B' C :
  evo s H s' H' B B' ->
  NoDup (A ++ B ++ C) -> Forall (fun o => o < zlen (flat s)) A -> Forall (fun o => o < zlen (flat s)) C ->
  evo s H s' H' (A ++ B ++ C) (A ++ B' ++ C).
Proof.
  intros E Hnd HA HC. rewrite Forall_forall in HA, HC.
  constructor; try apply E.
  - intros o Ho Hn. apply (ev_frame _ _ _ _ _ _ E); [assumption|].
    intros Hin. apply Hn. rewrite !in_app_iff. auto.
  - intros o Hin. rewrite !in_app_iff in *. destruct Hin as [Hin|[Hin|Hin]]; auto.
    apply (ev_own _ _ _ _ _ _ E) in Hin. tauto.
  - rewrite !NoDup_app_iff in *. destruct Hnd as (HA1 & (HB1 & HC1 & HBC) & HABC).
    repeat split; auto; try apply E.
    + intros x Hx HxC. apply (ev_own _ _ _ _ _ _ E) in Hx. destruct Hx as [Hx|Hx].
      * eapply HBC; eassumption.
      * apply HC in HxC. lia.
    + intros x Hx Hin. rewrite in_app_iff in Hin. destruct Hin as [Hin|Hin].
      * apply (ev_own _ _ _ _ _ _ E) in Hin. destruct Hin as [Hin|Hin].
        -- eapply HABC; [eassumption|]. rewrite in_app_iff. auto.
        -- apply HA in Hx. lia.
      * eapply HABC; [eassumption|]. rewrite in_app_iff. auto.
Qed.

(** Primitive steps as evolutions. *)
Lemma evo_update s H o c s' own :
  Rep s' (upd H o c) -> ev s s' -> not_raw H o -> NoDup own -> In o own ->
  evo s H s' (upd H o c) own own.
Proof.
  intros HR Hev (c0 & Hc0 & Hn) Hnd Hin. constructor; auto.
  - intros x bs E. rewrite upd_other; [assumption|]. intros ->. rewrite Hc0 in E. injection E as ->. exact Hn.
  - intros x _ Hx. apply upd_other. intros ->. contradiction.
Qed.

Lemma evo_alloc s H c s' own :
  Rep s H -> Rep s' (upd H (zlen (flat s)) c) -> ev s s' -> NoDup own ->
  Forall (fun o => o < zlen (flat s)) own ->
  evo s H s' (upd H (zlen (flat s)) c) own (own ++ [zlen (flat s)]).
Proof.
  intros HR HR' Hev Hnd Hlt. rewrite Forall_forall in Hlt.
  constructor; auto.
  - intros x bs E. rewrite upd_other; [assumption|]. intros ->.
    rewrite (fresh_none _ _ (proj1 (proj2 HR))) in E. discriminate.
  - intros x Hx _. apply upd_other. lia.
  - intros x Hin. rewrite in_app_iff in Hin. destruct Hin as [?|[<-|[]]]; [auto|right; lia].
  - apply NoDup_app_iff. repeat split; auto.
    + constructor; [simpl; tauto|constructor].
    + intros x Hx [<-|[]]. apply Hlt in Hx. lia.
Qed.

(** Forgetting owned objects. *)
Lemma evo_weaken s H s' H' a b b' :
  evo s H s' H' a b -> (forall o, In o b' -> In o b) -> NoDup b' -> evo s H s' H' a b'.
Proof.
  intros E Hi Hnd. constructor; try apply E; auto.
  intros o Ho. apply (ev_own _ _ _ _ _ _ E). auto.
Qed.

(** Permuting what is owned. *)
Lemma evo_perm_l s H s' H' a a' b :
  evo s H s' H' a b -> (forall o, In o a <-> In o a') -> evo s H s' H' a' b.
Proof.
  intros E Hi. constructor; try apply E.
  - intros o Ho Hn. apply (ev_frame _ _ _ _ _ _ E); auto. rewrite Hi. assumption.
  - intros o Ho. rewrite <- Hi. apply (ev_own _ _ _ _ _ _ E). auto.
Qed.

Lemma fresh_not_in s H own :
  Rep s H -> Forall (not_raw H) own -> ~ In (zlen (flat s)) own.
Proof.
  intros HR Hf Hin. rewrite Forall_forall in Hf. apply Hf in Hin.
  apply (not_raw_range s) in Hin; [lia|assumption].
Qed.
