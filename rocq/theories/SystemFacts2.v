(** Facts about the whole program: what is served, in terms of tables. *)
From Coq Require Import List ZArith Lia Bool String Permutation Sorted.
From Coq Require Import Strings.Byte.
From Verif Require Import Sql SqlIndex SpecSql SpecSqlFind SpecWildcard.
From Verif Require Import Base BaseFacts Value Records JoinFacts Index SpecIndex IndexFacts Sort SpecOrder.
From Verif Require Import Output SpecOutput OutputFacts OutputFacts2 OutputFacts3 OutputFacts6 Http SpecHttp Config SpecConfig.
From Verif Require Import SpecSystem SystemFacts.
Import ListNotations.
Open Scope Z_scope.

(** *** From records to rows *)

Lemma forall2_In_l {A B} (R : A -> B -> Prop) l m a : Forall2 R l m -> In a l -> exists b, In b m /\ R a b.
Proof. induction 1 as [|x y l m H F IH]; intros []; [subst; exists y; split; [left; reflexivity|exact H]|]. destruct (IH H0) as (b & ? & ?). exists b. split; [right|]; assumption. Qed.
Lemma forall2_In_r {A B} (R : A -> B -> Prop) l m b : Forall2 R l m -> In b m -> exists a, In a l /\ R a b.
Proof. induction 1 as [|x y l m H F IH]; intros []; [subst; exists x; split; [left; reflexivity|exact H]|]. destruct (IH H0) as (a & ? & ?). exists a. split; [right|]; assumption. Qed.

Lemma kept_transport {A B} (R : A -> B -> Prop) (P : A -> Prop) (Q : B -> Prop) : (forall a b, R a b -> (P a <-> Q b)) ->
  forall l sel, kept P l sel -> forall m, Forall2 R l m -> exists sel', kept Q m sel' /\ Forall2 R sel sel'.
Proof.
  intros H l sel K. induction K as [|r rs l Hp K IH|r rs l Hp K IH]; intros m F; inversion F as [|? b ? m' Hr F']; subst.
  - exists []. split; constructor.
  - destruct (IH _ F') as (s' & K' & F''). exists (b :: s'). split; [|constructor; assumption]. apply kept_yes; [|exact K']. apply (H _ _ Hr). exact Hp.
  - destruct (IH _ F') as (s' & K' & F''). exists s'. split; [|exact F'']. apply kept_no; [|exact K']. intros Hq. apply Hp. apply (H _ _ Hr). exact Hq.
Qed.

(** What is found depends on the values that the row has only. *)
Definition by_values (S : search) : Prop :=
  forall has has', (forall p x, has p x <-> has' p x) -> forall p f, s_finds S has p f -> s_finds S has' p f.
Lemma equality_values : by_values equality.
Proof. intros has has' H p f (x & H1 & H2). exists x. split; [now apply H|exact H2]. Qed.
Lemma containing_values fold : by_values (containing fold).
Proof. intros has has' H p f (x & H1 & H2). exists x. split; [now apply H|exact H2]. Qed.
Lemma sql_values props : by_values (by_sql props).
Proof. intros has has' H p f (co & x & H1 & H2 & H3). exists co, x. split; [exact H1|]. split; [now apply H|exact H3]. Qed.
Lemma fts_values F props prefix tokenize : by_values (by_fts F props prefix tokenize).
Proof.
  intros has has' H p f (gs & cells & q & H1 & H2). exists gs, cells, q. split; [|exact H2]. clear H2. induction H1 as [|x y l l' Hx H1 IH]; constructor; [now apply H|exact IH].
Qed.
Lemma kind_values lower F v i : by_values (kind_of lower F v i).
Proof.
  unfold kind_of. destruct (mget (vc_indexes v) i) as [[]|]; auto using equality_values, containing_values, sql_values, fts_values.
Qed.

Lemma selects_meets kind closed fs r a : (forall i, by_values (kind i)) -> same_row closed r a -> (selects kind fs r <-> meets kind closed fs a).
Proof.
  intros Hk (_ & _ & H). unfold selects, meets. rewrite !Forall_forall. split; intros G f Hf; specialize (G f Hf); revert G; apply Hk; intros p x; unfold has_property; rewrite H; reflexivity.
Qed.

Lemma precedes_rows closed cs a b a' b' : same_row closed a a' -> same_row closed b b' -> row_precedes closed cs a' b' -> precedes cs a b.
Proof.
  intros (_ & _ & Ha) (_ & _ & Hb) H. induction H as [p asc cs x0 y0 x y H1 H2 H3|p asc cs x0 y0 x y H1 H2 H3 H4 IH].
  - eapply prec_here; [apply Ha; exact H1|apply Hb; exact H2|exact H3].
  - eapply prec_next; [apply Ha; exact H1|apply Hb; exact H2|exact H3|]. apply IH; assumption.
Qed.

Lemma sortable_rows closed cs l l' : Forall2 (same_row closed) l l' -> rows_sortable closed cs l' -> sortable cs l.
Proof.
  intros F. unfold rows_sortable, sortable. apply Forall_impl. intros c (t & H). exists t. rewrite Forall_forall in *. intros r Hr.
  destruct (forall2_In_l _ _ _ _ F Hr) as (a & Ha & (_ & _ & Hra)). destruct (H a Ha) as (x & H1 & H2). exists x. split; [apply Hra; exact H1|exact H2].
Qed.

Lemma sorted_rows closed cs l l' : Forall2 (same_row closed) l l' -> StronglySorted (fun a b => ~ precedes cs b a) l ->
  StronglySorted (fun a b => ~ row_precedes closed cs b a) l'.
Proof.
  induction 1 as [|r a l l' H F IH]; intros S; [constructor|]. apply StronglySorted_inv in S as [S1 S2]. constructor; [apply IH; exact S1|].
  rewrite Forall_forall in *. intros b Hb Hp. destruct (forall2_In_r _ _ _ _ F Hb) as (r' & Hr' & Hs). apply (S2 r' Hr'). apply (precedes_rows closed cs r' r b a); assumption.
Qed.

(** How [handle_array] arranges. *)
Definition arrangement (cs : list sort_criterion) (l out : list rec) : Prop := Permutation l out /\ arranged_spec cs l out.

Lemma arrangement_self E : sorts (e_sort E) -> (forall lt l, Permutation l (e_sort E lt l)) ->
  forall cs l, arrangement cs l (match cs with [] => l | _ :: _ => sort_records (e_sort E) cs l end).
Proof. intros Hs Hp cs l. split; [|apply arranged_self; exact Hs]. destruct cs; [reflexivity|]. unfold sort_records. apply Hp. Qed.

Lemma arranged_rows closed cs l out l' : Forall2 (same_row closed) l l' -> arrangement cs l out ->
  exists out', rows_arranged closed cs l' out' /\ Forall2 (same_row closed) out out'.
Proof.
  intros F (Hp & H1 & H2).
  assert (G : exists out', Permutation l' out' /\ (cs = [] -> out' = l') /\ Forall2 (same_row closed) out out').
  { destruct cs as [|c cs].
    - exists l'. split; [reflexivity|]. split; [reflexivity|]. rewrite (H1 eq_refl). exact F.
    - destruct (Permutation_Forall2 Hp F) as (out' & Hp' & F'). exists out'. split; [exact Hp'|]. split; [discriminate|exact F']. }
  destruct G as (out' & G1 & G2 & G3). exists out'. split; [|exact G3]. split; [exact G1|]. split; [exact G2|].
  intros Hs. apply (sorted_rows closed cs out out' G3). apply H2. apply (sortable_rows closed cs l l' F Hs).
Qed.

Lemma forall2_firstn {A B} (R : A -> B -> Prop) n : forall l m, Forall2 R l m -> Forall2 R (firstn n l) (firstn n m).
Proof. induction n as [|n IH]; intros l m F; [constructor|]. destruct F; [constructor|]. cbn. constructor; auto. Qed.
Lemma forall2_skipn {A B} (R : A -> B -> Prop) n : forall l m, Forall2 R l m -> Forall2 R (skipn n l) (skipn n m).
Proof. induction n as [|n IH]; intros l m F; [exact F|]. destruct F; [constructor|]. cbn. auto. Qed.
Lemma forall2_page {A B} (R : A -> B -> Prop) off lim l m : Forall2 R l m -> Forall2 R (page off lim l) (page off lim m).
Proof. intros F. apply forall2_firstn, forall2_skipn, F. Qed.

Lemma firstn_In' {A} (a : A) n l : In a (firstn n l) -> In a l.
Proof. intros H. rewrite <- (firstn_skipn n l). apply in_or_app. left. exact H. Qed.

Section Linked.
Variable kind : bytes -> search.
Variable E : env.
Variable tables : bytes -> option table.

Definition link (n : bytes) (t : table) (inp : input) (rs : list rec) : Prop :=
  mget (e_inputs E) n = Some inp /\ in_name inp = n /\ input_ok inp rs /\ Forall2 (same_row (t_closed t)) rs (t_rows t) /\
  exists size, in_size inp = Ok size /\ 0 <= size /\ Forall (fun r => 0 <= r_pos r <= size) rs.

Hypothesis Hlink : forall n t, tables n = Some t -> exists inp rs, link n t inp rs.
Hypothesis Hkind : forall i, by_values (kind i).

Lemma forall2_match {A B C} (S : A -> C -> Prop) (P : A -> B -> Prop) (Q : C -> B -> Prop) : (forall a b c, S a c -> P a b -> Q c b) ->
  forall l m, Forall2 P l m -> forall l', Forall2 S l l' -> Forall2 Q l' m.
Proof. intros H l m F. induction F; intros k G; inversion G; subst; constructor; eauto. Qed.

Lemma mapMatch_ok v c t : joinable kind tables v t (rel_children c) -> forall name c', In (name, c') (rel_children c) ->
  exists t', tables (rel_input c') = Some t' /\ joinable kind tables v t' (rel_children c').
Proof. intros J name c' I. inversion J as [t0 rels Hn H]; subst. destruct (H _ _ I) as (t' & H1 & _ & _ & H2). eauto. Qed.

Lemma embeds_joined v c : forall data x, (exists t, tables (rel_input c) = Some t /\ joinable kind tables v t (rel_children c)) ->
  embeds kind E arrangement c data x -> joined kind tables c data x.
Proof.
  induction c as [i ia lim so ms ch IH] using relationship_ind'. intros data x (t & Ht & J) H.
  inversion H as [c0 data0 inp rs fs sel arranged taken items H1 H2 H3 H4 H5 H6 H7 E1 E2 E3]; subst.
  destruct (Hlink _ _ Ht) as (inp' & rs' & L1 & L2 & (L3 & _) & L4 & _). assert (inp' = inp) as -> by (cbn [rel_input] in *; congruence).
  assert (rs' = rs) as ->. { rewrite L3 in H2. clear - H2. revert rs H2. induction rs' as [|r rs' IH]; intros [|r' rs] H; cbn in H; try discriminate; [reflexivity|]. injection H as -> H. f_equal. auto. }
  destruct (kept_transport _ _ _ (fun r a => selects_meets kind (t_closed t) fs r a Hkind) _ _ H4 _ L4) as (sel' & K & F1).
  destruct (arranged_rows _ _ _ _ _ F1 H5) as (arr' & A & F2).
  apply (joined_intro kind tables (mkRel i ia lim so ms ch) data t fs sel' arr' _ items Ht H3 K A eq_refl).
  cbn [rel_is_array rel_limit rel_children] in *.
  assert (F3 : Forall2 (same_row (t_closed t))
     (if ia then if lim =? 0 then arranged else firstn (Z.to_nat lim) arranged else firstn 1 arranged)
     (if ia then if lim =? 0 then arr' else firstn (Z.to_nat lim) arr' else firstn 1 arr')).
  { destruct ia; [destruct (lim =? 0)|]; try exact F2; apply forall2_firstn, F2. }
  revert F3 H7. generalize (if ia then if lim =? 0 then arr' else firstn (Z.to_nat lim) arr' else firstn 1 arr').
  generalize (if ia then if lim =? 0 then arranged else firstn (Z.to_nat lim) arranged else firstn 1 arranged). intros tk tk' F3 H7.
  refine (forall2_match _ _ _ _ _ _ H7 _ F3). intros r d a (Hr & _) (a0 & (Ha0 & _) & Hnd & Hch & Hk).
  assert (a0 = a) as -> by congruence. split; [exact Hnd|]. split; [|exact Hk]. intros name c' I. destruct (Hch _ _ I) as (w & Hw & He). exists w. split; [exact Hw|].
  rewrite Forall_forall in IH. apply (IH _ I a w); [|exact He]. cbn [snd]. apply (mapMatch_ok v (mkRel i ia lim so ms ch) t J name c' I).
Qed.

Lemma loaded_completed v t rels a d : joinable kind tables v t rels -> loaded kind E arrangement rels a d -> completed kind tables rels a d.
Proof.
  intros J (H1 & H2 & H3). split; [exact H1|]. split; [|exact H3]. intros name c' I. destruct (H2 _ _ I) as (w & Hw & He). exists w. split; [exact Hw|].
  apply (embeds_joined v); [|exact He]. inversion J as [t0 r0 Hn H]; subst. destruct (H _ _ I) as (t' & G1 & _ & _ & G2). eauto.
Qed.

(** *** Numbers *)
Lemma numbers_members d : (forall k w, mget d k = Some w -> numbers_only w) -> NoDup (map fst d) -> numbers_only (VMap d).
Proof. intros H Hn. constructor. apply Forall_forall. intros [k w] Hin. apply (H k). apply In_mget; assumption. Qed.
Lemma numbers_get d k w : numbers_only (VMap d) -> mget d k = Some w -> numbers_only w.
Proof. intros H M. inversion H as [| | | | | |m F]; subst. rewrite Forall_forall in F. apply (F (k, w)). apply mget_In. exact M. Qed.

Lemma completed_numbers_gen rels a d : (forall name c' w, In (name, c') rels -> joined kind tables c' a w -> numbers_only w) -> numbers_only (VMap a) ->
  completed kind tables rels a d -> numbers_only (VMap d).
Proof.
  intros H Ha (H1 & H2 & H3). apply numbers_members; [|exact H1]. intros k w M.
  destruct (in_dec bytes_dec k (map fst rels)) as [Hin|Hni].
  - apply in_map_iff in Hin as ([k' c'] & <- & Hin). destruct (H2 _ _ Hin) as (w' & Hw & Hj). cbn [fst] in M. rewrite Hw in M. injection M as <-. apply (H _ _ _ Hin Hj).
  - rewrite H3 in M by exact Hni. apply (numbers_get a k w Ha M).
Qed.

Hypothesis Hnum : numbers_tables tables.

Lemma joined_numbers c : forall data x, joined kind tables c data x -> numbers_only x.
Proof.
  induction c as [i ia lim so ms ch IH] using relationship_ind'. intros data x H.
  inversion H as [c0 data0 t fs sel arranged taken items H1 H2 H3 H4 H5 H6 E1 E2]; subst. cbn [rel_input rel_is_array rel_limit rel_children rel_sort] in *.
  assert (Hin : forall a, In a (if ia then if lim =? 0 then arranged else firstn (Z.to_nat lim) arranged else firstn 1 arranged) -> In a (t_rows t)).
  { intros a Ha. apply (kept_In _ _ _ H3). destruct H4 as (Hp & _). apply (Permutation_in _ (Permutation_sym Hp)).
    destruct ia; [destruct (lim =? 0)|]; [exact Ha|..]; revert Ha; apply firstn_In'. }
  assert (Hit : Forall (fun d => numbers_only (VMap d)) items).
  { apply Forall_forall. intros d Hd. destruct (forall2_In_r _ _ _ _ H6 Hd) as (a & Ha & Hc). apply (completed_numbers_gen ch a d); [|apply (Hnum _ _ _ H1 (Hin _ Ha))|exact Hc].
    intros name c' w I J. rewrite Forall_forall in IH. apply (IH _ I _ _ J). }
  destruct ia.
  - constructor. apply Forall_forall. intros y Hy. apply in_map_iff in Hy as (d & <- & Hd). rewrite Forall_forall in Hit. auto.
  - destruct items as [|d items]; [constructor|]. inversion Hit; subst. assumption.
Qed.

Lemma completed_numbers rels a d : numbers_only (VMap a) -> completed kind tables rels a d -> numbers_only (VMap d).
Proof. intros Ha H. apply (completed_numbers_gen rels a d); [|exact Ha|exact H]. intros name c' w _ J. apply (joined_numbers _ _ _ J). Qed.
End Linked.

(** *** Indexes *)

Lemma map_add_record_reads props r : forall idx idx', map_add_record props r idx = Ok idx' -> Forall (fun p => exists v, r_get r p = Ok v /\ primitive v) props.
Proof.
  induction props as [|p props IH]; intros idx idx' H; [constructor|]. cbn [map_add_record] in H.
  destruct (r_get r p) as [x| | |] eqn:Ex; try discriminate. cbn [rbind] in H. destruct (mget idx p) as [m|]; [|discriminate].
  destruct (map_add_value x m (r_pos r)) as [m1| | |] eqn:Em; try discriminate. constructor; [|apply (IH _ _ H)].
  exists x. split; [exact Ex|]. destruct x as [| | | | |l|]; cbn in *; try exact I; [|discriminate Em]. exfalso.
  match type of Em with rbind ?y _ = _ => destruct y; discriminate Em end.
Qed.
Lemma map_add_all_reads props rs : forall idx idx', map_add_all props (map Ok rs) idx = Ok idx' -> readable props rs.
Proof.
  induction rs as [|r rs IH]; intros idx idx' H; [constructor|]. cbn [map map_add_all rbind] in H.
  destruct (map_add_record props r idx) as [idx1| | |] eqn:E1; try discriminate. cbn [rbind] in H. constructor; [apply (map_add_record_reads _ _ _ _ E1)|apply (IH _ _ H)].
Qed.
