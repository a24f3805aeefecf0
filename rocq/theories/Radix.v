(** Abstract radix trees: the mathematical counterpart of the index tree and
    the proof that inserting all suffixes gives substring search.
    (Proof device only: Node.v is the model of the code.) *)
From Coq Require Import List ZArith Lia Bool Sorted.
From Coq Require Import Strings.Byte.
From Coq Require Import ZifyBool ZifyNat.
From Verif Require Import Base BaseFacts Stream Node.
Import ListNotations.
Open Scope nat_scope.

Inductive tree := Node (label : bytes) (ps : list Z) (ch : list tree).

Definition t_label (t : tree) : bytes := match t with Node l _ _ => l end.

(** Append unless it is already the last element. *)
Definition app_if (l : list Z) (p : Z) : list Z :=
  match l with
  | [] => [p]
  | x :: l' => if (last l' x =? p)%Z then l else l ++ [p]
  end.

Fixpoint addf (n : nat) (ch : list tree) (s : bytes) (p : Z) : list tree :=
  match n with
  | O => ch
  | S n' =>
    match s with
    | [] => ch
    | _ :: _ =>
      (fix go (ch : list tree) : list tree :=
         match ch with
         | [] => [Node s [p] []]
         | Node l ps cs :: rest =>
           let k := common_bytes l s in
           if k =? 0 then Node l ps cs :: go rest
           else if k <? length l then
             Node (firstn k l) (app_if ps p)
                  (addf n' [Node (skipn k l) ps cs] (skipn k s) p) :: rest
           else Node l (app_if ps p) (addf n' cs (skipn k s) p) :: rest
         end) ch
    end
  end.

Fixpoint searchf (m : nat) (ch : list tree) (q : bytes) : list Z :=
  match m with
  | O => []
  | S m' =>
    (fix go (ch : list tree) : list Z :=
       match ch with
       | [] => []
       | Node l ps cs :: rest =>
         let k := common_bytes l q in
         if k =? 0 then go rest
         else if (k <? length l) && (k <? length q) then []
         else if length q <=? length l then ps
         else searchf m' cs (skipn (length l) q)
       end) ch
  end.

(** ** Prefixes and common bytes *)

Fixpoint prefixb (q s : bytes) : bool :=
  match q, s with
  | [], _ => true
  | x :: q', y :: s' => beqb x y && prefixb q' s'
  | _ :: _, [] => false
  end.

Lemma prefixb_spec q s : prefixb q s = true <-> exists r, s = q ++ r.
Proof.
  revert s; induction q as [|x q IH]; intros s; simpl.
  - split; [exists s; reflexivity | reflexivity].
  - destruct s as [|y s].
    + split; [discriminate | intros [r Hr]; discriminate].
    + rewrite andb_true_iff, beqb_eq, IH. split.
      * intros [-> [r ->]]. exists r; reflexivity.
      * intros [r Hr]. injection Hr as -> ->. split; [reflexivity | exists r; reflexivity].
Qed.

Lemma common_bytes_le a b : common_bytes a b <= length a /\ common_bytes a b <= length b.
Proof.
  revert b; induction a as [|x a IH]; intros [|y b]; simpl; try lia.
  destruct (beqb x y); [specialize (IH b); lia | lia].
Qed.

Lemma common_bytes_firstn a b : firstn (common_bytes a b) a = firstn (common_bytes a b) b.
Proof.
  revert b; induction a as [|x a IH]; intros [|y b]; simpl; try reflexivity.
  destruct (beqb x y) eqn:E; [|reflexivity].
  apply beqb_eq in E; subst. simpl. f_equal. apply IH.
Qed.

Lemma common_bytes_diff a b :
  common_bytes (skipn (common_bytes a b) a) (skipn (common_bytes a b) b) = 0.
Proof.
  revert b; induction a as [|x a IH]; intros [|y b]; simpl; try reflexivity.
  destruct (beqb x y) eqn:E; simpl.
  - apply IH.
  - rewrite E. reflexivity.
Qed.

Lemma common_bytes_app x a b : common_bytes (x ++ a) (x ++ b) = length x + common_bytes a b.
Proof.
  induction x as [|c x IH]; simpl; [reflexivity|].
  rewrite beqb_refl, IH. reflexivity.
Qed.

Lemma common_bytes_split l s :
  exists x l2 s2, l = x ++ l2 /\ s = x ++ s2 /\ length x = common_bytes l s /\ common_bytes l2 s2 = 0.
Proof.
  exists (firstn (common_bytes l s) l), (skipn (common_bytes l s) l), (skipn (common_bytes l s) s).
  pose proof (common_bytes_le l s).
  repeat split.
  - symmetry; apply firstn_skipn.
  - rewrite common_bytes_firstn. symmetry; apply firstn_skipn.
  - rewrite firstn_length. lia.
  - apply common_bytes_diff.
Qed.

Lemma common_bytes_zero a b :
  common_bytes a b = 0 <-> a = [] \/ b = [] \/ hd_error a <> hd_error b.
Proof.
  destruct a as [|x a], b as [|y b]; simpl; try tauto.
  destruct (beqb x y) eqn:E.
  - apply beqb_eq in E; subst. split; [discriminate|]. intros [H|[H|H]]; congruence.
  - apply beqb_neq in E. split; [intros _; right; right; congruence | reflexivity].
Qed.

Lemma prefixb_app x q s : prefixb (x ++ q) (x ++ s) = prefixb q s.
Proof. induction x; simpl; [reflexivity|]. rewrite beqb_refl. assumption. Qed.

Lemma prefixb_common_zero q s : q <> [] -> common_bytes s q = 0 -> prefixb q s = false.
Proof.
  intros Hq H. destruct q as [|x q]; [congruence|]. destruct s as [|y s]; [reflexivity|].
  simpl in *. destruct (beqb y x) eqn:E; [discriminate|].
  apply beqb_neq in E. replace (beqb x y) with false by (symmetry; apply beqb_neq; congruence).
  reflexivity.
Qed.

(** ** Well-formed forests *)

Inductive wft : tree -> Prop :=
| wft_node l ps cs : l <> [] -> ps <> [] -> wfs cs -> wft (Node l ps cs)
with wfs : list tree -> Prop :=
| wfs_intro cs : Forall wft cs -> NoDup (map (fun t => hd_error (t_label t)) cs) -> wfs cs.

Lemma wfs_nil : wfs [].
Proof. constructor; constructor. Qed.

Lemma wft_label t : wft t -> t_label t <> [].
Proof. destruct 1; assumption. Qed.

Lemma wft_children l ps cs : wft (Node l ps cs) -> wfs cs.
Proof. inversion 1; assumption. Qed.

Lemma wfs_tail t ts : wfs (t :: ts) -> wft t /\ wfs ts.
Proof.
  inversion 1; subst. inversion H0; inversion H1; subst. split; [assumption|].
  constructor; assumption.
Qed.

Lemma wfs_single t : wft t -> wfs [t].
Proof. intros. constructor; repeat constructor; auto. Qed.

(** Children whose first byte differs from that of [q] are skipped. *)
Lemma searchf_skip m ch q :
  Forall (fun t => common_bytes (t_label t) q = 0) ch -> searchf m ch q = [].
Proof.
  intros H. destruct m; [reflexivity|].
  induction H as [|[l ps cs] ch Hc Hf IH]; [reflexivity|].
  simpl in *. rewrite Hc. simpl. exact IH.
Qed.

Lemma searchf_skip_app m pre ch q :
  Forall (fun t => common_bytes (t_label t) q = 0) pre ->
  searchf m (pre ++ ch) q = searchf m ch q.
Proof.
  intros H. destruct m; [reflexivity|].
  induction H as [|[l ps cs] pre Hc Hf IH]; [reflexivity|].
  simpl in *. rewrite Hc. simpl. exact IH.
Qed.

Lemma searchf_cons_skip m t ch q :
  common_bytes (t_label t) q = 0 -> searchf m (t :: ch) q = searchf m ch q.
Proof. intros H. apply (searchf_skip_app m [t]). repeat constructor; assumption. Qed.

(** Search at the node that shares its first byte with the query. *)
Lemma searchf_hit m l ps cs rest q :
  common_bytes l q <> 0 ->
  searchf (S m) (Node l ps cs :: rest) q =
  if (common_bytes l q <? length l) && (common_bytes l q <? length q) then []
  else if length q <=? length l then ps
  else searchf m cs (skipn (length l) q).
Proof. intros H. simpl. replace (common_bytes l q =? 0) with false by lia. reflexivity. Qed.

Lemma searchf_app_long m l ps cs rest q :
  l <> [] -> q <> [] ->
  searchf (S m) (Node l ps cs :: rest) (l ++ q) = searchf m cs q.
Proof.
  intros Hl Hq. rewrite searchf_hit.
  2: { destruct l; [congruence|]. simpl. rewrite beqb_refl. lia. }
  assert (Hc : common_bytes l (l ++ q) = length l).
  { rewrite <- (app_nil_r l) at 1. rewrite common_bytes_app. simpl. lia. }
  rewrite Hc, app_length.
  assert (length q <> 0) by (destruct q; [congruence | simpl; lia]).
  replace (length l <? length l) with false by lia. simpl.
  replace (length l + length q <=? length l) with false by lia.
  rewrite skipn_app, skipn_all, Nat.sub_diag. reflexivity.
Qed.

Lemma searchf_prefix_short m l ps cs rest q r :
  q <> [] -> l = q ++ r -> searchf (S m) (Node l ps cs :: rest) q = ps.
Proof.
  intros Hq ->. rewrite searchf_hit.
  2: { destruct q; [congruence|]. simpl. rewrite beqb_refl. lia. }
  assert (Hc : common_bytes (q ++ r) q = length q).
  { rewrite <- (app_nil_r q) at 2. rewrite common_bytes_app. destruct r; simpl; lia. }
  rewrite Hc, app_length. replace (length q <? length q) with false by lia.
  rewrite andb_false_r. replace (length q <=? length q + length r) with true by lia. reflexivity.
Qed.

(** Mismatch inside the label of the node that shares the first byte. *)
Lemma searchf_mismatch m x l2 ps cs rest q2 :
  x <> [] -> l2 <> [] -> q2 <> [] -> common_bytes l2 q2 = 0 ->
  searchf m (Node (x ++ l2) ps cs :: rest) (x ++ q2) = [].
Proof.
  intros Hx Hl Hq Hc. destruct m; [reflexivity|].
  assert (E : common_bytes (x ++ l2) (x ++ q2) = length x) by (rewrite common_bytes_app; lia).
  rewrite searchf_hit; rewrite E.
  - rewrite !app_length.
    destruct l2; [congruence|]. destruct q2; [congruence|]. simpl.
    replace (length x <? length x + S (length l2)) with true by lia.
    replace (length x <? length x + S (length q2)) with true by lia. reflexivity.
  - destruct x; [congruence | simpl; lia].
Qed.

(** Classification of a query against a label sharing its first byte. *)
Lemma query_cases l q :
  common_bytes l q <> 0 ->
  (exists r, l = q ++ r) \/ (exists q', q' <> [] /\ q = l ++ q') \/
  (exists x l2 q2, l = x ++ l2 /\ q = x ++ q2 /\ x <> [] /\ l2 <> [] /\ q2 <> [] /\ common_bytes l2 q2 = 0).
Proof.
  intros H. destruct (common_bytes_split l q) as (x & l2 & q2 & -> & -> & Hx & Hc).
  assert (Hxn : x <> []) by (destruct x; [exfalso; apply H; rewrite <- Hx; reflexivity | discriminate]).
  destruct q2 as [|b q2].
  - left. exists l2. rewrite app_nil_r. reflexivity.
  - destruct l2 as [|a l2].
    + right; left. exists (b :: q2). rewrite app_nil_r. split; [discriminate | reflexivity].
    + right; right. exists x, (a :: l2), (b :: q2). repeat split; try assumption; discriminate.
Qed.

Lemma searchf_nil m ch : searchf m ch [] = [].
Proof. apply searchf_skip. apply Forall_forall. intros t _. destruct (t_label t); reflexivity. Qed.

Lemma searchf_fuel m : forall m' ch q, length q <= m -> length q <= m' ->
  searchf m ch q = searchf m' ch q.
Proof.
  induction m as [|m IH]; intros m' ch q H1 H2.
  - destruct q; [|simpl in H1; lia]. rewrite !searchf_nil. reflexivity.
  - destruct m' as [|m']; [destruct q; [rewrite !searchf_nil; reflexivity|simpl in H2; lia]|].
    simpl. induction ch as [|[l ps cs] rest IHc]; [reflexivity|].
    destruct (common_bytes l q =? 0) eqn:E; [exact IHc|].
    destruct ((common_bytes l q <? length l) && (common_bytes l q <? length q)); [reflexivity|].
    destruct (length q <=? length l); [reflexivity|].
    pose proof (common_bytes_le l q).
    apply IH; rewrite skipn_length; lia.
Qed.

(** Splitting a node does not change any search. *)
Lemma searchf_split m x l2 ps cs rest q :
  x <> [] -> l2 <> [] -> q <> [] -> length q <= m ->
  searchf m (Node (x ++ l2) ps cs :: rest) q =
  searchf m (Node x ps [Node l2 ps cs] :: rest) q.
Proof.
  intros Hx Hl Hq Hm. destruct m as [|m]; [reflexivity|].
  destruct (Nat.eq_dec (common_bytes (x ++ l2) q) 0) as [E|E].
  - assert (E2 : common_bytes x q = 0).
    { apply common_bytes_zero in E. apply common_bytes_zero.
      destruct x; [congruence|]. destruct E as [E|[E|E]]; [discriminate|tauto|]. right; right. exact E. }
    rewrite !searchf_cons_skip by assumption. reflexivity.
  - destruct (query_cases x q) as [[r Hr]|[(q' & Hq' & ->)|(y & x2 & q2 & -> & -> & Hy & Hx2 & Hq2 & Hc)]].
    { intros E2. apply E. apply common_bytes_zero in E2. apply common_bytes_zero.
      destruct x; [congruence|]. destruct E2 as [E2|[E2|E2]]; [discriminate|tauto|]. right; right. exact E2. }
    + rewrite (searchf_prefix_short m x ps _ rest q r) by assumption.
      apply (searchf_prefix_short m _ ps cs rest q (r ++ l2)); [assumption|].
      rewrite Hr at 1. rewrite <- app_assoc. reflexivity.
    + rewrite (searchf_app_long m x) by assumption.
      assert (Hm' : exists m', m = S m').
      { rewrite app_length in Hm. destruct x; [congruence|]. destruct q'; [congruence|].
        simpl in Hm. exists (m - 1). lia. }
      destruct Hm' as [m' ->].
      destruct (Nat.eq_dec (common_bytes l2 q') 0) as [Ec|Ec].
      * rewrite (searchf_mismatch _ x l2 ps cs rest q') by assumption.
        rewrite (searchf_cons_skip _ (Node l2 ps cs)) by assumption. reflexivity.
      * destruct (query_cases l2 q' Ec) as [[r Hr]|[(q'' & Hq'' & ->)|(y & l3 & q3 & -> & -> & Hy & Hl3 & Hq3 & Hc)]].
        -- rewrite (searchf_prefix_short _ l2 ps cs [] q' r) by assumption.
           apply (searchf_prefix_short _ (x ++ l2) ps cs rest (x ++ q') r).
           ++ intros Ha. apply app_eq_nil in Ha. tauto.
           ++ rewrite Hr, app_assoc. reflexivity.
        -- rewrite (searchf_app_long m' l2) by assumption.
           rewrite app_assoc. rewrite searchf_app_long; [|intros Ha; apply app_eq_nil in Ha; tauto|assumption].
           rewrite !app_length in Hm. apply searchf_fuel; destruct l2; try congruence; destruct x; try congruence; simpl in *; lia.
        -- rewrite (searchf_mismatch _ y l3 ps cs [] q3) by assumption.
           rewrite !app_assoc.
           apply searchf_mismatch; auto. intros Ha; apply app_eq_nil in Ha; tauto.
    + rewrite (searchf_mismatch _ y x2 ps _ rest q2) by assumption.
      rewrite <- app_assoc. apply searchf_mismatch; auto.
      * intros Ha; apply app_eq_nil in Ha; tauto.
      * apply common_bytes_zero in Hc. apply common_bytes_zero.
        destruct x2; [congruence|]. destruct Hc as [?|[?|?]]; [discriminate|tauto|right; right; assumption].
Qed.

(** ** Insertion *)

Lemma addf_unfold n ch s p : s <> [] ->
  addf (S n) ch s p =
  match ch with
  | [] => [Node s [p] []]
  | Node l ps cs :: rest =>
    let k := common_bytes l s in
    if k =? 0 then Node l ps cs :: addf (S n) rest s p
    else if k <? length l then
      Node (firstn k l) (app_if ps p) (addf n [Node (skipn k l) ps cs] (skipn k s) p) :: rest
    else Node l (app_if ps p) (addf n cs (skipn k s) p) :: rest
  end.
Proof. intros Hs. destruct s; [congruence|]. destruct ch as [|[l ps cs] rest]; reflexivity. Qed.

Lemma addf_nil n ch p : addf n ch [] p = ch.
Proof. destruct n; reflexivity. Qed.

(** Insertion below a node whose whole label is matched. *)
Lemma search_add_node n m x ps cs rest s2 q p :
  (forall m cs' q, wfs cs' -> q <> [] -> s2 <> [] -> length q <= m ->
     searchf m (addf n cs' s2 p) q =
     if prefixb q s2 then app_if (searchf m cs' q) p else searchf m cs' q) ->
  x <> [] -> ps <> [] -> wfs cs -> q <> [] -> length q <= m ->
  searchf m (Node x (app_if ps p) (addf n cs s2 p) :: rest) q =
  if (negb (common_bytes x q =? 0)) && prefixb q (x ++ s2)
  then app_if (searchf m (Node x ps cs :: rest) q) p
  else searchf m (Node x ps cs :: rest) q.
Proof.
  intros IH Hx Hps Hcs Hq Hm.
  destruct m as [|m]; [destruct q; [congruence|simpl in Hm; lia]|].
  destruct (Nat.eq_dec (common_bytes x q) 0) as [E|E].
  - rewrite E. simpl (negb (0 =? 0)). cbn [andb].
    rewrite !searchf_cons_skip by assumption. reflexivity.
  - replace (negb (common_bytes x q =? 0)) with true by lia. cbn [andb].
    destruct (query_cases x q E) as [[r Hr]|[(q' & Hq' & ->)|(y & x2 & q2 & -> & -> & Hy & Hx2 & Hq2 & Hc)]].
    + rewrite !(searchf_prefix_short m x _ _ rest q r) by assumption.
      replace (prefixb q (x ++ s2)) with true; [reflexivity|]. symmetry. apply prefixb_spec.
      exists (r ++ s2). rewrite Hr, <- app_assoc. reflexivity.
    + rewrite !(searchf_app_long m x) by assumption. rewrite prefixb_app.
      destruct (list_eq_dec Byte.byte_eq_dec s2 []) as [->|Hs2].
      * rewrite addf_nil. destruct q'; [congruence|]. reflexivity.
      * apply IH; try assumption. rewrite app_length in Hm. destruct x; [congruence|]. simpl in Hm. lia.
    + rewrite !(searchf_mismatch _ y x2) by assumption.
      rewrite <- app_assoc, prefixb_app. rewrite prefixb_common_zero; [reflexivity|assumption|].
      apply common_bytes_zero in Hc. apply common_bytes_zero.
      destruct x2; [congruence|]. destruct Hc as [?|[?|?]]; [discriminate|tauto|right; right; assumption].
Qed.

Theorem search_add n : forall m ch s q p,
  wfs ch -> q <> [] -> s <> [] -> length s <= n -> length q <= m ->
  searchf m (addf n ch s p) q =
  if prefixb q s then app_if (searchf m ch q) p else searchf m ch q.
Proof.
  induction n as [|n IH]; intros m ch s q p Hwf Hq Hs Hn Hm.
  { destruct s; [congruence|simpl in Hn; lia]. }
  induction ch as [|[l ps cs] rest IHr].
  - rewrite addf_unfold by assumption.
    replace (searchf m [] q) with (@nil Z) by (destruct m; reflexivity).
    destruct m as [|m]; [destruct q; [congruence|simpl in Hm; lia]|].
    destruct (Nat.eq_dec (common_bytes s q) 0) as [E|E].
    + rewrite searchf_cons_skip by assumption. rewrite prefixb_common_zero by assumption. reflexivity.
    + destruct (query_cases s q E) as [[r Hr]|[(q' & Hq' & ->)|(y & x2 & q2 & -> & -> & Hy & Hx2 & Hq2 & Hc)]].
      * rewrite (searchf_prefix_short m s _ _ [] q r) by assumption.
        replace (prefixb q s) with true by (symmetry; apply prefixb_spec; eauto). reflexivity.
      * rewrite searchf_app_long by assumption.
        replace (prefixb (s ++ q') s) with false.
        2: { symmetry. destruct (prefixb (s ++ q') s) eqn:Ep; [|reflexivity].
             apply prefixb_spec in Ep as [r Hr]. apply (f_equal (@length _)) in Hr.
             rewrite !app_length in Hr. destruct q'; [congruence|simpl in Hr; lia]. }
        destruct m; reflexivity.
      * rewrite searchf_mismatch by assumption.
        rewrite prefixb_app, prefixb_common_zero by assumption. reflexivity.
  - rewrite addf_unfold by assumption. cbv zeta.
    destruct (wfs_tail _ _ Hwf) as [Hwt Hwr].
    inversion Hwt as [? ? ? Hl Hps Hcs]; subst.
    destruct (common_bytes l s =? 0) eqn:E.
    + assert (E0 : common_bytes l s = 0) by lia.
      destruct (Nat.eq_dec (common_bytes l q) 0) as [Eq|Eq].
      * rewrite !(searchf_cons_skip _ (Node l ps cs)) by assumption. apply IHr; assumption.
      * (* the query starts like [l], hence not like [s] *)
        assert (Hp : prefixb q s = false).
        { apply prefixb_common_zero; [assumption|].
          destruct l as [|a l]; [congruence|]. destruct q as [|b q]; [congruence|]. destruct s as [|c s]; [congruence|].
          simpl in *. destruct (beqb a b) eqn:E1; [|congruence]. destruct (beqb a c) eqn:E2; [congruence|].
          apply beqb_eq in E1; subst. destruct (beqb c b) eqn:E3; [|reflexivity].
          apply beqb_eq in E3; subst. rewrite beqb_refl in E2; discriminate. }
        rewrite Hp. destruct m as [|m]; [reflexivity|].
        rewrite !searchf_hit by assumption. reflexivity.
    + destruct (common_bytes_split l s) as (x & l2 & s2 & Hl' & Hs' & Hx & Hc).
      assert (Hxn : x <> []) by (destruct x; [simpl in Hx; lia | discriminate]).
      assert (Hpre : prefixb q s = (negb (common_bytes x q =? 0)) && prefixb q (x ++ s2)).
      { rewrite Hs'. destruct (common_bytes x q =? 0) eqn:E2; [|reflexivity].
        simpl. apply prefixb_common_zero; [assumption|].
        assert (E3 : common_bytes x q = 0) by lia. apply common_bytes_zero in E3. apply common_bytes_zero.
        destruct x; [congruence|]. destruct E3 as [?|[?|?]]; [discriminate|tauto|right; right; assumption]. }
      assert (IH' : forall m cs' q, wfs cs' -> q <> [] -> s2 <> [] -> length q <= m ->
         searchf m (addf n cs' s2 p) q =
         if prefixb q s2 then app_if (searchf m cs' q) p else searchf m cs' q).
      { intros. apply IH; auto. rewrite Hs', app_length in Hn. destruct x; [congruence|]. simpl in Hn. lia. }
      destruct (common_bytes l s <? length l) eqn:E2.
      * assert (Hl2 : l2 <> []) by (intros ->; rewrite app_nil_r in Hl'; subst l; lia).
        rewrite <- Hx. rewrite Hl', Hs'.
        rewrite !firstn_app, !firstn_all, Nat.sub_diag, !skipn_app, !skipn_all, Nat.sub_diag.
        simpl (firstn 0 l2). simpl (skipn 0 l2). simpl (skipn 0 s2). simpl ([] ++ _). rewrite app_nil_r.
        rewrite (searchf_split m x l2 ps cs rest q) by assumption.
        rewrite <- Hs', Hpre.
        apply search_add_node; try assumption.
        apply wfs_single. constructor; assumption.
      * assert (Hl2 : l2 = []).
        { apply (f_equal (@length _)) in Hl'. rewrite app_length in Hl'. destruct l2; [reflexivity|simpl in Hl'; lia]. }
        subst l2. rewrite app_nil_r in Hl'. subst x.
        rewrite Hpre. rewrite <- Hx. rewrite Hs' at 1.
        rewrite skipn_app, skipn_all, Nat.sub_diag. simpl ([] ++ _). simpl (skipn 0 s2).
        apply search_add_node; assumption.
Qed.

Lemma app_if_nonempty l p : app_if l p <> [].
Proof. destruct l; simpl; [discriminate|]. destruct (_ =? _)%Z; discriminate. Qed.

(** First bytes of the children: unchanged, or the new one is added. *)
Lemma addf_heads n ch s p :
  s <> [] -> Forall wft ch ->
  map (fun t => hd_error (t_label t)) (addf (S n) ch s p) = map (fun t => hd_error (t_label t)) ch \/
  (map (fun t => hd_error (t_label t)) (addf (S n) ch s p) =
     map (fun t => hd_error (t_label t)) ch ++ [hd_error s] /\
   Forall (fun t => common_bytes (t_label t) s = 0) ch).
Proof.
  intros Hs. induction ch as [|[l ps cs] rest IH]; intros Hwf.
  - right. rewrite addf_unfold by assumption. split; [reflexivity|constructor].
  - inversion Hwf; subst. rewrite addf_unfold by assumption. cbv zeta.
    destruct (common_bytes l s =? 0) eqn:E.
    + destruct (IH H2) as [H|[H Hf]].
      * left. cbn [map]. rewrite H. reflexivity.
      * right. cbn [map]. rewrite H. split; [reflexivity|]. constructor; [simpl; lia|assumption].
    + left. pose proof (common_bytes_le l s).
      destruct (common_bytes l s <? length l) eqn:E2; [|reflexivity].
      cbn [map t_label]. f_equal.
      destruct (common_bytes l s) eqn:Ek; [lia|]. destruct l; reflexivity.
Qed.

Theorem wfs_add n : forall ch s p, wfs ch -> length s <= n -> wfs (addf n ch s p).
Proof.
  induction n as [|n IH]; intros ch s p Hwf Hn; [assumption|].
  destruct (list_eq_dec Byte.byte_eq_dec s []) as [->|Hs]; [assumption|].
  inversion Hwf as [? Hall Hnd]; subst. constructor.
  - clear Hnd Hwf. induction Hall as [|[l ps cs] rest Ht Hr IHr].
    + rewrite addf_unfold by assumption. repeat constructor; try discriminate; assumption.
    + rewrite addf_unfold by assumption. cbv zeta.
      inversion Ht as [? ? ? Hl Hps Hcs]; subst.
      pose proof (common_bytes_le l s).
      destruct (common_bytes l s =? 0) eqn:E.
      * constructor; assumption.
      * destruct (common_bytes l s <? length l) eqn:E2; constructor; try assumption.
        -- constructor.
           ++ destruct (common_bytes l s) eqn:Ek; [lia|]. destruct l; [congruence|discriminate].
           ++ apply app_if_nonempty.
           ++ apply IH; [|rewrite skipn_length; lia]. apply wfs_single. constructor; try assumption.
              intros Hsk. apply (f_equal (@length _)) in Hsk. rewrite skipn_length in Hsk. simpl in Hsk. lia.
        -- constructor; [assumption|apply app_if_nonempty|].
           apply IH; [assumption|rewrite skipn_length; lia].
  - destruct (addf_heads n ch s p Hs Hall) as [->|[-> Hz]]; [assumption|].
    assert (Hni : ~ In (hd_error s) (map (fun t => hd_error (t_label t)) ch)).
    { intros Hin. apply in_map_iff in Hin as [t [Ht Hin]].
      rewrite Forall_forall in Hz, Hall. specialize (Hz _ Hin). specialize (Hall _ Hin).
      apply common_bytes_zero in Hz. apply wft_label in Hall. tauto. }
    clear - Hnd Hni. induction (map (fun t => hd_error (t_label t)) ch) as [|a l IHl]; simpl.
    + constructor; [simpl; tauto|constructor].
    + inversion Hnd; subst. simpl in Hni. constructor; [|apply IHl; tauto].
      rewrite in_app_iff. simpl. intuition congruence.
Qed.

(** ** All suffixes of a value, and a history of values *)

Fixpoint add_all (ch : list tree) (v : bytes) (p : Z) : list tree :=
  match v with
  | [] => ch
  | _ :: v' => add_all (addf (S (length v)) ch v p) v' p
  end.

Fixpoint containsb (q v : bytes) : bool :=
  prefixb q v || match v with [] => false | _ :: v' => containsb q v' end.

Definition contains (q v : bytes) : Prop := exists a b, v = a ++ q ++ b.

Lemma containsb_spec q v : containsb q v = true <-> contains q v.
Proof.
  induction v as [|x v IH]; simpl.
  - rewrite orb_false_r, prefixb_spec. split.
    + intros [r Hr]. exists [], r. exact Hr.
    + intros (a & b & Hab). symmetry in Hab. apply app_eq_nil in Hab as [-> Hab].
      exists b. auto.
  - rewrite orb_true_iff, prefixb_spec, IH. split.
    + intros [[r Hr]|(a & b & ->)]; [exists [], r; exact Hr | exists (x :: a), b; reflexivity].
    + intros (a & b & Hab). destruct a as [|y a]; simpl in Hab.
      * left. exists b. exact Hab.
      * right. injection Hab as -> ->. exists a, b. reflexivity.
Qed.

Lemma app_if_idem l p : app_if (app_if l p) p = app_if l p.
Proof.
  assert (H : forall l' x, last (l' ++ [p]) x = p) by (intros; apply last_last).
  destruct l as [|x l]; simpl.
  - rewrite Z.eqb_refl. reflexivity.
  - destruct (last l x =? p)%Z eqn:E; simpl; [rewrite E; reflexivity|].
    rewrite H, Z.eqb_refl. reflexivity.
Qed.

Lemma wfs_add_all v : forall ch p, wfs ch -> wfs (add_all ch v p).
Proof.
  induction v as [|x v IH]; intros ch p H; [assumption|].
  cbn [add_all]. apply IH. apply wfs_add; [assumption|lia].
Qed.

Theorem search_add_all v : forall ch q p m,
  wfs ch -> q <> [] -> length q <= m ->
  searchf m (add_all ch v p) q =
  if containsb q v then app_if (searchf m ch q) p else searchf m ch q.
Proof.
  induction v as [|x v IH]; intros ch q p m Hwf Hq Hm.
  - simpl. destruct q; [congruence|]. reflexivity.
  - cbn [add_all]. rewrite IH; try assumption.
    2: { apply wfs_add; [assumption|lia]. }
    rewrite search_add by (try assumption; try discriminate; lia).
    cbn [containsb]. destruct (prefixb q (x :: v)); destruct (containsb q v); cbn [orb]; try reflexivity.
    apply app_if_idem.
Qed.

(** The forest after indexing a list of (position, value) pairs. *)
Fixpoint build (ch : list tree) (recs : list (Z * bytes)) : list tree :=
  match recs with
  | [] => ch
  | (p, v) :: recs' => build (add_all ch v p) recs'
  end.

Definition matching (q : bytes) (recs : list (Z * bytes)) : list Z :=
  map fst (filter (fun r => containsb q (snd r)) recs).

Lemma app_if_fresh l p : Forall (fun x => (x < p)%Z) l -> app_if l p = l ++ [p].
Proof.
  intros H. destruct l as [|x l]; [reflexivity|]. cbn [app_if].
  assert (Hl : (last l x < p)%Z).
  { rewrite Forall_forall in H. apply H. destruct l as [|y l]; [left; reflexivity|].
    right. clear H. revert y. induction l as [|z l IH]; intros y; [left; reflexivity|].
    right. specialize (IH z). exact IH. }
  replace (last l x =? p)%Z with false by lia. reflexivity.
Qed.

Lemma wfs_build recs : forall ch, wfs ch -> wfs (build ch recs).
Proof.
  induction recs as [|[p v] recs IH]; intros ch H; simpl; [assumption|].
  apply IH. apply wfs_add_all. assumption.
Qed.

Lemma search_build_gen recs : forall ch q m,
  wfs ch -> q <> [] -> length q <= m ->
  StronglySorted Z.lt (map fst recs) ->
  (forall x p, In x (searchf m ch q) -> In p (map fst recs) -> (x < p)%Z) ->
  searchf m (build ch recs) q = searchf m ch q ++ matching q recs.
Proof.
  induction recs as [|[p v] recs IH]; intros ch q m Hwf Hq Hm Hsort Hlt.
  - simpl. rewrite app_nil_r. reflexivity.
  - cbn [build]. cbn [map fst] in Hsort. inversion Hsort as [|? ? Hs Hall]; subst.
    rewrite Forall_forall in Hall.
    assert (Hfresh : app_if (searchf m ch q) p = searchf m ch q ++ [p]).
    { apply app_if_fresh. apply Forall_forall. intros x Hx. apply Hlt; [assumption|left; reflexivity]. }
    rewrite IH; try assumption.
    + rewrite search_add_all by assumption. unfold matching. cbn [filter snd].
      destruct (containsb q v).
      * rewrite Hfresh. cbn [map fst]. rewrite <- app_assoc. reflexivity.
      * reflexivity.
    + apply wfs_add_all. assumption.
    + intros x p' Hx Hp'. rewrite search_add_all in Hx by assumption.
      destruct (containsb q v).
      * rewrite Hfresh, in_app_iff in Hx. destruct Hx as [Hx|[<-|[]]].
        -- apply Hlt; [assumption|right; assumption].
        -- apply Hall. assumption.
      * apply Hlt; [assumption|right; assumption].
Qed.

Theorem search_build recs q :
  q <> [] -> StronglySorted Z.lt (map fst recs) ->
  searchf (length q) (build [] recs) q = matching q recs.
Proof.
  intros Hq Hs. rewrite search_build_gen; try assumption; try apply wfs_nil; try lia.
  - replace (searchf (length q) [] q) with (@nil Z) by (destruct (length q); reflexivity). reflexivity.
  - intros x p Hx. replace (searchf (length q) [] q) with (@nil Z) in Hx by (destruct (length q); reflexivity). destruct Hx.
Qed.
