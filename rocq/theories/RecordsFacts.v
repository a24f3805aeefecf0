(** Proofs about Records.v. *)
From Coq Require Import List ZArith Lia Bool String.
From Coq Require Import Strings.Byte ZifyBool Floats.SpecFloat.
From Verif Require Import Base BaseFacts Value GoStrings SpecText StringsFacts ParserFacts Records SpecRecords.
Import ListNotations.
Open Scope Z_scope.

Lemma item_at_Ok {A} (l : list A) i : 0 <= i < zlen l -> exists x, item_at l i = Ok x /\ nth_error l (Z.to_nat i) = Some x.
Proof.
  intros H. unfold item_at. replace (i <? 0) with false by lia. destruct (nth_error l (Z.to_nat i)) as [x|] eqn:E; [eauto|].
  exfalso. apply nth_error_None in E. unfold zlen in H. lia.
Qed.
Lemma item_at_inv {A} (l : list A) i x : item_at l i = Ok x -> 0 <= i /\ nth_error l (Z.to_nat i) = Some x.
Proof. unfold item_at. destruct (i <? 0) eqn:E; [discriminate|]. destruct (nth_error l (Z.to_nat i)); [|discriminate]. intros [= ->]. split; [lia|reflexivity]. Qed.

Lemma nth_zlen {A} (l : list A) i x : nth_error l (Z.to_nat i) = Some x -> 0 <= i -> i < zlen l.
Proof. intros H Hi. assert ((Z.to_nat i < List.length l)%nat) by (apply nth_error_Some; congruence). unfold zlen. lia. Qed.

Lemma get_sub_value_Ok p : forall v r, get_sub_value v p = Ok r <-> at_path v p r.
Proof.
  induction p as [|k p IH]; intros v r.
  - cbn [get_sub_value]. split; [intros [= ->]; constructor|inversion 1; reflexivity].
  - cbn [get_sub_value]. destruct v as [|b|z|f|s|l|m]; try (split; [discriminate|inversion 1]).
    + destruct (atoi_safe k) as [[i Hi]|[e He]].
      * rewrite Hi. pose proof (proj1 (atoi_Ok _ _) Hi) as [Hd Hr].
        destruct (zlen l <=? i) eqn:El.
        -- split; [intros [= <-]; apply (ap_no_item l k i); [exact Hd|exact Hr|lia]|].
           inversion 1 as [| | |l' k' i' v' p' r' Hd' Hr' Hi' Hn Ha|]; subst; [|reflexivity].
           rewrite (signed_decimal_unique _ _ _ Hd' Hd) in *. pose proof (nth_zlen _ _ _ Hn Hi'). lia.
        -- split.
           ++ intros H. destruct (item_at l i) as [v'| | |] eqn:Ei; try discriminate H. cbn [rbind] in H. apply item_at_inv in Ei as [E0 En].
              apply IH in H. apply (ap_item l k i v' p r); assumption.
           ++ inversion 1 as [| | |l' k' i' v' p' r' Hd' Hr' Hi' Hn Ha|l' k' i' p' Hd' Hr' Hi']; subst.
              ** rewrite (signed_decimal_unique _ _ _ Hd' Hd) in *. destruct (item_at_Ok l i ltac:(pose proof (nth_zlen _ _ _ Hn Hi'); lia)) as (x & Ex & En).
                 rewrite Ex. cbn [rbind]. apply IH. congruence.
              ** rewrite (signed_decimal_unique _ _ _ Hd' Hd) in *. lia.
      * rewrite He. split; [discriminate|]. intros H. exfalso.
        assert (G : exists i, signed_decimal k i /\ in_i64 i) by (inversion H; eauto). destruct G as (i & G1 & G2).
        assert (atoi k = Ok i) by (apply atoi_Ok; auto). congruence.
    + destruct (mget m k) as [v'|] eqn:Em.
      * rewrite IH. split; [intros H; exact (ap_key m k v' p r Em H)|]. inversion 1 as [|m' k' v'' p' r' Hm Ha|m' k' p' Hm| |]; subst; [congruence|].
        apply mget_None in Hm. congruence.
      * split; [intros [= <-]; apply ap_no_key, mget_None; exact Em|]. inversion 1 as [|m' k' v'' p' r' Hm Ha|m' k' p' Hm| |]; subst; [congruence|reflexivity].
Qed.

Lemma get_sub_value_safe p : no_negative p -> forall v, get_sub_value v p <> Panic /\ get_sub_value v p <> NoFuel.
Proof.
  induction p as [|k p IH]; intros Hn v; [split; discriminate|].
  assert (Hp : no_negative p) by (intros k' i Hin; apply Hn; right; exact Hin). specialize (IH Hp).
  cbn [get_sub_value]. destruct v as [|b|z|f|s|l|m]; try (split; discriminate).
  - destruct (atoi_safe k) as [[i Hi]|[e He]]; [|rewrite He; split; discriminate]. rewrite Hi. destruct (zlen l <=? i) eqn:El; [split; discriminate|].
    apply atoi_Ok in Hi as [Hd _]. pose proof (Hn k i (or_introl eq_refl) Hd) as H0. destruct (item_at_Ok l i ltac:(lia)) as (x & Ex & _). rewrite Ex. apply IH.
  - destruct (mget m k); [apply IH|split; discriminate].
Qed.

Lemma segments_pieces path : pieces [x2e] path (segments path).
Proof. unfold segments, go_split. cbn [lit list_byte_of_string]. apply split_pieces. discriminate. Qed.

(** *** Splitting is determined *)
Lemma prefix_cmp {A} (a b c d : list A) : a ++ b = c ++ d -> (List.length a <= List.length c)%nat -> exists e, c = a ++ e /\ b = e ++ d.
Proof.
  revert c. induction a as [|x a IH]; intros c H Hl; [exists c; auto|]. destruct c as [|y c]; [cbn in Hl; lia|]. cbn [app] in H. injection H as -> H.
  destruct (IH c H ltac:(cbn in Hl; lia)) as (e & -> & ->). exists e. auto.
Qed.

Lemma dot_pieces_det s l l' : pieces [x2e] s l -> pieces [x2e] s l' -> l = l'.
Proof.
  intros H. revert l'. induction H as [s Hs|a s l Ha H IH]; intros l' H'; inversion H' as [s' Hs' E1 E2|b s' k Hb Hk E1 E2]; subst.
  - reflexivity.
  - exfalso. apply Hs. exists b, s'. reflexivity.
  - exfalso. apply Hs'. exists a, s. reflexivity.
  - cbn [removelast app] in Ha, Hb. rewrite app_nil_r in Ha, Hb.
    assert (E : b = a /\ s' = s).
    { destruct (Nat.le_gt_cases (List.length b) (List.length a)) as [Hl|Hl].
      - destruct (prefix_cmp _ _ _ _ E1 Hl) as (e & -> & Ee). destruct e as [|x e]; [cbn in Ee; injection Ee as ->; rewrite app_nil_r; auto|].
        cbn in Ee. injection Ee as <- _. exfalso. apply Ha. exists b, e. reflexivity.
      - destruct (prefix_cmp _ _ _ _ (eq_sym E1) ltac:(lia)) as (e & -> & Ee). destruct e as [|x e]; [cbn in Ee; injection Ee as ->; rewrite app_nil_r; auto|].
        cbn in Ee. injection Ee as <- _. exfalso. apply Hb. exists a, e. reflexivity. }
    destruct E as [-> ->]. f_equal. apply IH. exact Hk.
Qed.

Lemma dotted_segments path segs : dotted path segs -> path <> [] /\ segments path = segs /\ segs <> [].
Proof.
  intros [H1 H2]. split; [exact H1|]. split; [exact (dot_pieces_det _ _ _ (segments_pieces path) H2)|exact (pieces_nonempty _ _ _ H2)].
Qed.

(** *** JSON *)
Lemma json_get_exact data path segs v : dotted path segs -> (json_get data path = Ok v <-> at_path (VMap data) segs v).
Proof. intros H. destruct (dotted_segments _ _ H) as (H1 & H2 & _). unfold json_get. destruct path; [congruence|]. rewrite H2. apply get_sub_value_Ok. Qed.
Lemma json_get_safe data path segs : dotted path segs -> no_negative segs -> json_get data path <> Panic /\ json_get data path <> NoFuel.
Proof. intros H Hn. destruct (dotted_segments _ _ H) as (H1 & H2 & _). unfold json_get. destruct path; [congruence|]. rewrite H2. apply get_sub_value_safe. exact Hn. Qed.

(** *** CSV *)
Lemma column_index_other names : forall i m k, ~ In k names -> mget (column_index names i m) k = mget m k.
Proof.
  induction names as [|n names IH]; intros i m k Hk; [reflexivity|]. cbn [column_index]. rewrite IH by (intros H; apply Hk; right; exact H).
  apply mget_mset_other. intros ->. apply Hk. left. reflexivity.
Qed.
Lemma column_index_at names : forall i m j n, NoDup names -> nth_error names j = Some n -> mget (column_index names i m) n = Some (i + j)%nat.
Proof.
  induction names as [|c names IH]; intros i m j n Hd Hj; [destruct j; discriminate|]. inversion Hd as [|? ? Hni Hd']. subst. cbn [column_index].
  destruct j as [|j]; cbn in Hj.
  - injection Hj as ->. rewrite column_index_other by exact Hni. rewrite mget_mset_same. f_equal. lia.
  - rewrite (IH (S i) _ j n Hd' Hj). f_equal. lia.
Qed.

Lemma csv_column_at names ps row i n p : NoDup names -> nth_error names i = Some n -> nth_error ps i = Some p ->
  csv_column names ps row n = match nth_error row i with None => Ok VNil | Some cell => p cell end.
Proof. intros Hd Hn Hp. unfold csv_column. rewrite (column_index_at names 0 [] i n Hd Hn). cbn [Nat.add]. destruct (nth_error row i); [rewrite Hp|]; reflexivity. Qed.
Lemma csv_column_none names ps row n : ~ In n names -> csv_column names ps row n = Err (EMsg "The column does not exist.").
Proof. intros H. unfold csv_column. rewrite column_index_other by exact H. reflexivity. Qed.

Lemma mset_new {V} (m : list (bytes * V)) k v : ~ In k (map fst m) -> mset m k v = m ++ [(k, v)].
Proof.
  induction m as [|[k' v'] m IH]; intros H; [reflexivity|]. cbn [mset app]. destruct (bytes_eqb k' k) eqn:E.
  - exfalso. apply bytes_eqb_eq in E as ->. apply H. left. reflexivity.
  - rewrite IH; [reflexivity|]. intros Hin. apply H. right. exact Hin.
Qed.

Lemma csv_all_from_spec names ps row : forall cols m r, NoDup (map fst m ++ cols) ->
  (csv_all_from names ps row cols m = Ok r <-> exists vs, r = m ++ combine cols vs /\ Forall2 (fun c v => csv_column names ps row c = Ok v) cols vs).
Proof.
  induction cols as [|c cols IH]; intros m r Hd.
  - cbn [csv_all_from combine]. split; [intros [= ->]; exists []; split; [rewrite app_nil_r; reflexivity|constructor]|].
    intros (vs & -> & H). inversion H. cbn. rewrite app_nil_r. reflexivity.
  - cbn [csv_all_from]. assert (Hni : ~ In c (map fst m)) by (intros Hin; apply NoDup_remove_2 in Hd; apply Hd, in_app_iff; auto).
    assert (Hd' : forall v, NoDup (map fst (mset m c v) ++ cols)).
    { intros v. rewrite mset_new by exact Hni. rewrite map_app, <- app_assoc. exact Hd. }
    split.
    + destruct (csv_column names ps row c) as [v| | |] eqn:Ec; try discriminate. cbn [rbind]. intros H. apply (IH _ _ (Hd' v)) in H as (vs & -> & Hv).
      exists (v :: vs). split; [rewrite mset_new by exact Hni; rewrite <- app_assoc; reflexivity|constructor; assumption].
    + intros (vs & -> & Hv). inversion Hv as [|? v ? vs' Hc Hv']. subst. rewrite Hc. cbn [rbind]. apply (IH _ _ (Hd' v)). exists vs'.
      split; [|exact Hv']. rewrite mset_new by exact Hni. rewrite <- app_assoc. reflexivity.
Qed.

Lemma csv_all_spec names ps row r : NoDup names ->
  (csv_all names ps row = Ok r <-> exists vs, r = combine names vs /\ Forall2 (fun c v => csv_column names ps row c = Ok v) names vs).
Proof. intros H. unfold csv_all. rewrite csv_all_from_spec by exact H. reflexivity. Qed.

Lemma Forall2_nth {A B} (P : A -> B -> Prop) l l' : Forall2 P l l' <->
  List.length l = List.length l' /\ forall i x y, nth_error l i = Some x -> nth_error l' i = Some y -> P x y.
Proof.
  split.
  - induction 1 as [|x y l l' Hxy _ [IH1 IH2]]; [split; [reflexivity|intros [|i] x y; discriminate]|].
    split; [cbn; lia|]. intros [|i] a b; cbn; [intros [= ->] [= ->]; exact Hxy|apply IH2].
  - revert l'. induction l as [|x l IH]; intros [|y l'] [H1 H2]; try discriminate H1; [constructor|].
    constructor; [exact (H2 0%nat x y eq_refl eq_refl)|]. apply IH. split; [cbn in H1; lia|]. intros i a b Ha Hb. exact (H2 (S i) a b Ha Hb).
Qed.

Lemma combine_fst {A B} (l : list A) (l' : list B) : List.length l = List.length l' -> map fst (combine l l') = l.
Proof. revert l'. induction l as [|x l IH]; intros [|y l'] H; try discriminate H; [reflexivity|]. cbn. rewrite IH by (cbn in H; lia). reflexivity. Qed.
Lemma combine_snd {A B} (l : list A) (l' : list B) : List.length l = List.length l' -> map snd (combine l l') = l'.
Proof. revert l'. induction l as [|x l IH]; intros [|y l'] H; try discriminate H; [reflexivity|]. cbn. rewrite IH by (cbn in H; lia). reflexivity. Qed.
Lemma combine_split_map {A B} (r : list (A * B)) : combine (map fst r) (map snd r) = r.
Proof. induction r as [|[a b] r IH]; [reflexivity|]. cbn. rewrite IH. reflexivity. Qed.

Theorem csv_all_exact names ps row r : NoDup names -> List.length ps = List.length names ->
  (csv_all names ps row = Ok r <-> map fst r = names /\ forall i p v, nth_error ps i = Some p -> nth_error (map snd r) i = Some v -> cell_value row i p v).
Proof.
  intros Hd Hl. rewrite csv_all_spec by exact Hd.
  assert (Hc : forall vs, List.length names = List.length vs ->
    (Forall2 (fun c v => csv_column names ps row c = Ok v) names vs <-> forall i p v, nth_error ps i = Some p -> nth_error vs i = Some v -> cell_value row i p v)).
  { intros vs Hv. rewrite Forall2_nth. split.
    - intros [_ H] i p v Hp Hvi. destruct (nth_error names i) as [n|] eqn:En.
      + specialize (H i n v En Hvi). rewrite (csv_column_at names ps row i n p Hd En Hp) in H. unfold cell_value. destruct (nth_error row i); [exact H|congruence].
      + exfalso. apply nth_error_None in En. assert ((i < List.length ps)%nat) by (apply nth_error_Some; congruence). lia.
    - intros H. split; [exact Hv|]. intros i n v En Hvi. destruct (nth_error ps i) as [p|] eqn:Ep.
      + rewrite (csv_column_at names ps row i n p Hd En Ep). specialize (H i p v Ep Hvi). unfold cell_value in H. destruct (nth_error row i); [exact H|congruence].
      + exfalso. apply nth_error_None in Ep. assert ((i < List.length names)%nat) by (apply nth_error_Some; congruence). lia. }
  split.
  - intros (vs & -> & H). assert (Hv : List.length names = List.length vs) by (apply Forall2_nth in H; apply H).
    rewrite combine_fst, combine_snd by exact Hv. split; [reflexivity|]. apply Hc; assumption.
  - intros (E & H). exists (map snd r). split; [rewrite <- E; symmetry; apply combine_split_map|].
    apply Hc; [rewrite <- E, !map_length; reflexivity|exact H].
Qed.

Lemma csv_column_extra names ps row n : csv_column names ps row n = csv_column names ps (firstn (List.length names) row) n.
Proof.
  unfold csv_column. destruct (mget (column_index names 0 []) n) as [i|] eqn:E; [|reflexivity].
  assert (Hi : (i < List.length names)%nat).
  { clear - E. assert (G : forall names j m, (forall k i, mget m k = Some i -> (i < j)%nat) -> forall k i, mget (column_index names j m) k = Some i -> (i < j + List.length names)%nat).
    { clear. induction names as [|c names IH]; intros j m Hm k i H; cbn [column_index] in H; [apply Hm in H; cbn; lia|].
      apply IH in H; [cbn; lia|]. intros k' i' H'. destruct (bytes_dec c k') as [->|Hne]; [rewrite mget_mset_same in H'; injection H' as <-; lia|].
      rewrite mget_mset_other in H' by congruence. apply Hm in H'. lia. }
    apply (G names 0%nat [] ltac:(intros k i' H; discriminate H) n i E). }
  assert (En : nth_error row i = nth_error (firstn (List.length names) row) i); [|rewrite En; reflexivity].
  clear - Hi. revert i Hi row. induction (List.length names) as [|k IH]; intros i Hi row; [lia|].
  destruct row as [|x row]; [destruct i; reflexivity|]. destruct i as [|i]; [reflexivity|]. cbn. apply IH. lia.
Qed.

Lemma csv_all_extra names ps row : csv_all names ps row = csv_all names ps (firstn (List.length names) row).
Proof.
  unfold csv_all. assert (G : forall cols m, csv_all_from names ps row cols m = csv_all_from names ps (firstn (List.length names) row) cols m).
  { induction cols as [|c cols IH]; intros m; [reflexivity|]. cbn [csv_all_from]. rewrite <- csv_column_extra. destruct (csv_column names ps row c); try reflexivity. apply IH. }
  apply G.
Qed.
Lemma csv_get_extra names ps row path : csv_get names ps row path = csv_get names ps (firstn (List.length names) row) path.
Proof. unfold csv_get. destruct path; [reflexivity|]. destruct (segments _); [reflexivity|]. rewrite <- csv_column_extra. reflexivity. Qed.

Lemma combine_mget {V} names : forall (vs : list V) i n, NoDup names -> List.length names = List.length vs -> nth_error names i = Some n -> mget (combine names vs) n = nth_error vs i.
Proof.
  induction names as [|c names IH]; intros [|v vs] i n Hd Hl Hi; try discriminate Hl; [destruct i; discriminate|]. inversion Hd as [|? ? Hni Hd']. subst. cbn [combine mget].
  destruct i as [|i]; cbn in Hi |- *.
  - injection Hi as ->. rewrite bytes_eqb_refl. reflexivity.
  - destruct (bytes_eqb c n) eqn:E; [|apply IH; [exact Hd'|cbn in Hl; lia|exact Hi]].
    exfalso. apply bytes_eqb_eq in E as ->. apply Hni. exact (nth_error_In _ _ Hi).
Qed.

Theorem csv_get_exact names ps row m path k segs v : NoDup names -> csv_all names ps row = Ok m -> dotted path (k :: segs) -> In k names ->
  (csv_get names ps row path = Ok v <-> at_path (VMap m) (k :: segs) v).
Proof.
  intros Hd Ha Hp Hin. destruct (dotted_segments _ _ Hp) as (H1 & H2 & _). unfold csv_get. destruct path; [congruence|]. rewrite H2.
  apply csv_all_spec in Ha as (vs & -> & Hv); [|exact Hd]. apply Forall2_nth in Hv as [Hl Hv]. apply In_nth_error in Hin as (i & Hi).
  destruct (nth_error vs i) as [w|] eqn:Ew.
  2:{ exfalso. apply nth_error_None in Ew. assert ((i < List.length names)%nat) by (apply nth_error_Some; congruence). lia. }
  rewrite (Hv i k w Hi Ew). cbn [rbind]. rewrite get_sub_value_Ok. pose proof (combine_mget names vs i k Hd Hl Hi) as Hg. rewrite Ew in Hg.
  split; [intros H; exact (ap_key _ _ _ _ _ Hg H)|]. inversion 1 as [|m' k' v'' p' r' Hm Hx|m' k' p' Hm| |]; subst; [congruence|].
  apply mget_None in Hm. congruence.
Qed.
Lemma csv_get_unknown names ps row path k segs : dotted path (k :: segs) -> ~ In k names -> exists e, csv_get names ps row path = Err e.
Proof. intros Hp Hn. destruct (dotted_segments _ _ Hp) as (H1 & H2 & _). unfold csv_get. destruct path; [congruence|]. rewrite H2, csv_column_none by exact Hn. eexists. reflexivity. Qed.

Lemma csv_get_safe names ps row path segs : NoDup names -> List.length ps = List.length names -> (forall p, In p ps -> forall s, p s <> Panic /\ p s <> NoFuel) ->
  dotted path segs -> no_negative segs -> csv_get names ps row path <> Panic /\ csv_get names ps row path <> NoFuel.
Proof.
  intros Hd Hl Hps Hp Hn. destruct (dotted_segments _ _ Hp) as (H1 & H2 & H3). unfold csv_get. destruct path; [congruence|]. rewrite H2.
  destruct segs as [|k segs]; [congruence|]. assert (Hn' : no_negative segs) by (intros k' i Hin; apply Hn; right; exact Hin).
  destruct (in_dec bytes_dec k names) as [Hin|Hni]; [|rewrite csv_column_none by exact Hni; split; discriminate].
  apply In_nth_error in Hin as (i & Hi). destruct (nth_error ps i) as [p|] eqn:Ep.
  2:{ exfalso. apply nth_error_None in Ep. assert ((i < List.length names)%nat) by (apply nth_error_Some; congruence). lia. }
  rewrite (csv_column_at names ps row i k p Hd Hi Ep). destruct (nth_error row i) as [cell|]; [|apply get_sub_value_safe; exact Hn'].
  destruct (p cell) as [w| | |] eqn:Ec; cbn [rbind]; [apply get_sub_value_safe; exact Hn'|split; discriminate| |]; destruct (Hps p (nth_error_In _ _ Ep) cell); congruence.
Qed.

Lemma autodetect_spec row : forall seen cs, autodetect row seen = Ok cs <-> cs = row /\ ~ In [] row /\ NoDup row /\ forall c, In c row -> ~ In c seen.
Proof.
  induction row as [|c row IH]; intros seen cs; cbn [autodetect].
  - split; [intros [= <-]; repeat split; [intros []|constructor|intros c []]|intros (-> & _); reflexivity].
  - destruct (bytes_eqb c []) eqn:E0; [apply bytes_eqb_eq in E0 as ->; split; [discriminate|intros (_ & H & _); exfalso; apply H; left; reflexivity]|].
    apply bytes_eqb_neq in E0. destruct (existsb (bytes_eqb c) seen) eqn:Ex.
    + split; [discriminate|]. intros (_ & _ & _ & H). exfalso. apply existsb_exists in Ex as (y & Hy & Ey). apply bytes_eqb_eq in Ey as <-. exact (H c (or_introl eq_refl) Hy).
    + assert (Hc : ~ In c seen) by (intros Hin; assert (existsb (bytes_eqb c) seen = true) by (apply existsb_exists; exists c; split; [exact Hin|apply bytes_eqb_refl]); congruence).
      split.
      * destruct (autodetect row (seen ++ [c])) as [cs'| | |] eqn:Ea; try discriminate. intros [= <-]. apply IH in Ea as (-> & H1 & H2 & H3). split; [reflexivity|].
        split; [intros [H|H]; [congruence|exact (H1 H)]|]. split.
        -- constructor; [|exact H2]. intros Hin. apply (H3 c Hin), in_app_iff. right. left. reflexivity.
        -- intros d [<-|Hin]; [exact Hc|]. intros Hs. apply (H3 d Hin), in_app_iff. left. exact Hs.
      * intros (-> & H1 & H2 & H3). inversion H2 as [|? ? Hni Hd]. subst.
        replace (autodetect row (seen ++ [c])) with (Ok row); [reflexivity|]. symmetry. apply IH. split; [reflexivity|]. split; [intros H; apply H1; right; exact H|].
        split; [exact Hd|]. intros d Hin Hs. apply in_app_iff in Hs as [Hs|[<-|[]]]; [exact (H3 d (or_intror Hin) Hs)|exact (Hni Hin)].
Qed.

(** *** XML *)
Section xprop_ind.
  Variable P : xprop -> Prop.
  Hypothesis Hp : forall n x p, P (XPrimitive n x p).
  Hypothesis Ha : forall n x c, P c -> P (XArray n x c).
  Hypothesis Ho : forall n x props, Forall P props -> P (XObject n x props).
  Fixpoint xprop_ind' (c : xprop) : P c :=
    match c with
    | XPrimitive n x p => Hp n x p
    | XArray n x c' => Ha n x c' (xprop_ind' c')
    | XObject n x props => Ho n x props ((fix go (l : list xprop) : Forall P l :=
        match l with [] => Forall_nil P | c' :: l' => Forall_cons c' (xprop_ind' c') (go l') end) props)
    end.
End xprop_ind.

Section XmlFacts.
Variable node : Type.
Variable query : node -> bytes -> list node.
Variable evaluate : node -> bytes -> xresult.
Variable parsers : list (bytes * (xparser * parser_fun)).
Variable int_of_float : spec_float -> Z.
Local Notation all_values := (all_values node query evaluate parsers int_of_float).
Local Notation x_sub_value := (x_sub_value node query evaluate parsers int_of_float).
Local Notation xml_all := (xml_all node query evaluate parsers int_of_float).
Local Notation xml_get := (xml_get node query evaluate parsers int_of_float).

Lemma collect_spec (props : list (bytes * res value)) : forall m r, NoDup (map fst m ++ map fst props) ->
  collect props m = Ok r -> exists vs, r = m ++ combine (map fst props) vs /\ Forall2 (fun p v => snd p = Ok v) props vs.
Proof.
  induction props as [|[n c] props IH]; intros m r Hd H; cbn [collect] in H.
  - injection H as <-. exists []. cbn. split; [rewrite app_nil_r; reflexivity|constructor].
  - destruct c as [v| | |]; try discriminate H. cbn [rbind] in H.
    assert (Hni : ~ In n (map fst m)) by (cbn in Hd; intros Hin; apply NoDup_remove_2 in Hd; apply Hd, in_app_iff; auto).
    rewrite mset_new in H by exact Hni. apply IH in H; [|rewrite map_app, <- app_assoc; exact Hd].
    destruct H as (vs & -> & Hv). exists (v :: vs). rewrite <- app_assoc. split; [reflexivity|]. constructor; [reflexivity|exact Hv].
Qed.

Definition find_prop (n : node) (k : bytes) (path : list bytes) (props : list xprop) : res value :=
  match find (fun c => bytes_eqb (x_name c) k) props with None => Ok VNil | Some c => x_sub_value n c path end.
Lemma x_sub_object n nm x props k path n' : query n x = [n'] -> x_sub_value n (XObject nm x props) (k :: path) = find_prop n' k path props.
Proof.
  intros E. cbn [Records.x_sub_value]. rewrite E. unfold find_prop. induction props as [|c props IH]; [reflexivity|]. cbn [find].
  destruct (bytes_eqb (x_name c) k); [reflexivity|exact IH].
Qed.

Lemma find_at (props : list xprop) k : match find (fun c => bytes_eqb (x_name c) k) props with
  | Some c => exists i, nth_error props i = Some c /\ x_name c = k
  | None => ~ In k (map x_name props) end.
Proof.
  induction props as [|c props IH]; [intros []|]. cbn [find]. destruct (bytes_eqb (x_name c) k) eqn:E.
  - apply bytes_eqb_eq in E. exists 0%nat. auto.
  - destruct (find _ props) as [c'|]; [destruct IH as (i & H1 & H2); exists (S i); auto|].
    intros [H|H]; [subst k; rewrite bytes_eqb_refl in E; discriminate|exact (IH H)].
Qed.

(** The values of an object, by property. *)
Lemma object_values n props r : NoDup (map x_name props) -> collect (map (fun c => (x_name c, all_values n c)) props) [] = Ok r ->
  map fst r = map x_name props /\ forall i c, nth_error props i = Some c -> exists v, all_values n c = Ok v /\ mget r (x_name c) = Some v.
Proof.
  intros Hd H. assert (Em : map fst (map (fun c => (x_name c, all_values n c)) props) = map x_name props) by (rewrite map_map; reflexivity).
  apply collect_spec in H; [|cbn [map app]; rewrite Em; exact Hd]. destruct H as (vs & -> & Hv). cbn [app]. rewrite Em.
  apply Forall2_nth in Hv as [Hl Hv]. rewrite map_length in Hl.
  assert (Hl' : List.length (map x_name props) = List.length vs) by (rewrite map_length; exact Hl).
  split; [apply combine_fst; exact Hl'|]. intros i c Hi. destruct (nth_error vs i) as [v|] eqn:Ev.
  2:{ exfalso. apply nth_error_None in Ev. assert ((i < List.length props)%nat) by (apply nth_error_Some; congruence). lia. }
  exists v. split.
  - exact (Hv i (x_name c, all_values n c) v (map_nth_error _ _ _ Hi) Ev).
  - rewrite (combine_mget _ vs i (x_name c) Hd Hl' (map_nth_error _ _ _ Hi)). exact Ev.
Qed.

Lemma rmapM_nth {A B} (f : A -> res B) l ys i x : rmapM f l = Ok ys -> nth_error l i = Some x -> exists y, nth_error ys i = Some y /\ f x = Ok y.
Proof.
  intros H Hi. apply rmapM_Forall2, Forall2_nth in H as [Hl H]. destruct (nth_error ys i) as [y|] eqn:E; [exists y; split; [reflexivity|eauto]|].
  exfalso. apply nth_error_None in E. assert ((i < List.length l)%nat) by (apply nth_error_Some; congruence). lia.
Qed.
Lemma rmapM_len {A B} (f : A -> res B) l ys : rmapM f l = Ok ys -> zlen ys = zlen l.
Proof. intros H. apply rmapM_Forall2, Forall2_nth in H as [Hl _]. unfold zlen. lia. Qed.

Lemma x_agrees c : well_named c -> forall n w, all_values n c = Ok w -> forall path v,
  (at_path w path v -> x_sub_value n c path = Ok v) /\ (x_sub_value n c path = Ok v -> at_path w path v \/ v = VNil).
Proof.
  induction c as [nm x p|nm x c IH|nm x props IH] using xprop_ind'; intros Hw n w Ha path v.
  - cbn [Records.all_values Records.x_sub_value] in *. destruct (evaluate n x) as [s|f|b|l|] eqn:Ee; cbn [handle_primitive] in Ha.
    + rewrite Ha. cbn [rbind]. rewrite get_sub_value_Ok. tauto.
    + assert (Hp : exists u, w = VFloat u \/ exists z, w = VInt z).
      { unfold handle_number in Ha. destruct (mget parsers p) as [[[] ?]|]; try discriminate Ha; injection Ha as <-; [exists f; right; eauto|exists f; left; eauto]. }
      destruct path as [|k path]; [cbn [handle_primitive]; rewrite Ha; split; [inversion 1; reflexivity|intros [= ->]; left; constructor]|].
      destruct Hp as (u & [->|(z & ->)]); split; try discriminate; inversion 1.
    + unfold handle_bool in Ha. destruct path as [|k path]; [cbn [handle_primitive]; unfold handle_bool; rewrite Ha; split; [inversion 1; reflexivity|intros [= ->]; left; constructor]|].
      destruct (mget parsers p) as [[[] ?]|]; try discriminate Ha; injection Ha as <-; split; try discriminate; inversion 1.
    + unfold handle_nodes in Ha. destruct path as [|k path]; [cbn [handle_primitive]; unfold handle_nodes; rewrite Ha; split; [inversion 1; reflexivity|intros [= ->]; left; constructor]|].
      destruct (mget parsers p) as [[[] ?]|]; try discriminate Ha; injection Ha as <-; split; try discriminate; inversion 1.
    + discriminate Ha.
  - inversion Hw as [|? ? ? Hw'|]. subst. destruct path as [|k path].
    { cbn [Records.x_sub_value]. rewrite Ha. split; [inversion 1; reflexivity|intros [= ->]; left; constructor]. }
    cbn [Records.all_values] in Ha. destruct (rmapM _ (query n x)) as [ys| | |] eqn:Ey; try discriminate Ha. cbn [rbind] in Ha. injection Ha as <-.
    cbn [Records.x_sub_value]. pose proof (rmapM_len _ _ _ Ey) as Hlen. split.
    + inversion 1 as [| | |l' k' i' v' p' r' Hd' Hr' Hi' Hn Hp|l' k' i' p' Hd' Hr' Hi']; subst.
      * rewrite (proj2 (atoi_Ok k i') (conj Hd' Hr')). pose proof (nth_zlen _ _ _ Hn Hi') as Hlt. replace (zlen (query n x) <=? i') with false by lia.
        destruct (item_at_Ok (query n x) i' ltac:(lia)) as (n' & En & En'). rewrite En. cbn [rbind].
        destruct (rmapM_nth _ _ _ _ _ Ey En') as (y & Hy & Hay). rewrite Hn in Hy. injection Hy as <-.
        apply (IH Hw' n' v' Hay). exact Hp.
      * rewrite (proj2 (atoi_Ok k i') (conj Hd' Hr')). replace (zlen (query n x) <=? i') with true by lia. reflexivity.
    + destruct (atoi_safe k) as [[i Hi]|[e He]]; [|rewrite He; discriminate]. rewrite Hi. pose proof (proj1 (atoi_Ok _ _) Hi) as [Hd Hr].
      destruct (zlen (query n x) <=? i) eqn:El; [intros [= <-]; right; reflexivity|].
      intros H. destruct (item_at (query n x) i) as [n'| | |] eqn:Ei; try discriminate H. cbn [rbind] in H. apply item_at_inv in Ei as [E0 En].
      destruct (rmapM_nth _ _ _ _ _ Ey En) as (y & Hy & Hay). destruct (proj2 (IH Hw' n' y Hay path v) H) as [G|G]; [left|right; exact G].
      exact (ap_item ys k i y path v Hd Hr E0 Hy G).
  - inversion Hw as [| |? ? ? Hd Hc]. subst. destruct path as [|k path].
    { cbn [Records.x_sub_value]. rewrite Ha. split; [inversion 1; reflexivity|intros [= ->]; left; constructor]. }
    cbn [Records.all_values] in Ha. destruct (query n x) as [|n' [|n'' l]] eqn:Eq; [| |discriminate Ha].
    + injection Ha as <-. cbn [Records.x_sub_value]. rewrite Eq. split; [inversion 1|intros [= <-]; right; reflexivity].
    + rewrite (x_sub_object n nm x props k path n' Eq). destruct (collect _ []) as [m| | |] eqn:Em; try discriminate Ha. cbn [rbind] in Ha. injection Ha as <-.
      destruct (object_values n' props m Hd Em) as [Hk Hv]. unfold find_prop. pose proof (find_at props k) as Hf.
      destruct (find _ props) as [c|].
      * destruct Hf as (i & Hi & <-). destruct (Hv i c Hi) as (u & Hu & Hg). pose proof (nth_error_In _ _ Hi) as Hin. rewrite Forall_forall in IH.
        pose proof (IH c Hin (Hc c Hin) n' u Hu path v) as [I1 I2]. split.
        -- inversion 1 as [|m' k' v'' p' r' Hm Hx|m' k' p' Hm| |]; subst; [apply I1; congruence|]. apply mget_None in Hm. congruence.
        -- intros H. destruct (I2 H) as [G|G]; [left; exact (ap_key _ _ _ _ _ Hg G)|right; exact G].
      * split; [|intros [= <-]; right; reflexivity]. inversion 1 as [|m' k' v'' p' r' Hm Hx|m' k' p' Hm| |]; subst; [|reflexivity].
        exfalso. apply mget_In in Hm. apply Hf. rewrite <- Hk. apply in_map_iff. exists (k, v''). auto.
Qed.

Theorem xml_get_exact n props m path k segs v : NoDup (map x_name props) -> (forall c, In c props -> well_named c) ->
  xml_all n props = Ok m -> dotted path (k :: segs) -> In k (map x_name props) ->
  (at_path (VMap m) (k :: segs) v -> xml_get n props path = Ok v) /\ (xml_get n props path = Ok v -> at_path (VMap m) (k :: segs) v \/ v = VNil).
Proof.
  intros Hd Hw Ha Hp Hin. destruct (dotted_segments _ _ Hp) as (H1 & H2 & _). unfold Records.xml_get. destruct path; [congruence|]. rewrite H2.
  destruct (object_values n props m Hd Ha) as [Hk Hv]. pose proof (find_at props k) as Hf. destruct (find _ props) as [c|]; [|contradiction].
  destruct Hf as (i & Hi & <-). destruct (Hv i c Hi) as (u & Hu & Hg). pose proof (nth_error_In _ _ Hi) as Hc.
  pose proof (x_agrees c (Hw c Hc) n u Hu segs v) as [I1 I2]. split.
  - inversion 1 as [|m' k' v'' p' r' Hm Hx|m' k' p' Hm| |]; subst; [apply I1; congruence|]. apply mget_None in Hm. congruence.
  - intros H. destruct (I2 H) as [G|G]; [left; exact (ap_key _ _ _ _ _ Hg G)|right; exact G].
Qed.
Lemma xml_get_unknown n props path k segs : dotted path (k :: segs) -> ~ In k (map x_name props) -> exists e, xml_get n props path = Err e.
Proof.
  intros Hp Hn. destruct (dotted_segments _ _ Hp) as (H1 & H2 & _). unfold Records.xml_get. destruct path; [congruence|]. rewrite H2.
  pose proof (find_at props k) as Hf. destruct (find _ props) as [c|]; [|eexists; reflexivity].
  exfalso. destruct Hf as (i & Hi & <-). apply Hn, in_map, (nth_error_In _ _ Hi).
Qed.

Definition fine {A} (r : res A) : Prop := r <> Panic /\ r <> NoFuel.
Lemma fine_bind {A B} (x : res A) (f : A -> res B) : fine x -> (forall a, x = Ok a -> fine (f a)) -> fine (rbind x f).
Proof. intros [H1 H2] H. destruct x; cbn; [apply H; reflexivity|split; discriminate|congruence|congruence]. Qed.
Lemma fine_ok {A} (a : A) : fine (Ok a). Proof. split; discriminate. Qed.
Lemma fine_err {A} e : @fine A (Err e). Proof. split; discriminate. Qed.
Hypothesis Hparsers : forall name t p, mget parsers name = Some (t, p) -> forall s, p s <> Panic /\ p s <> NoFuel.

Lemma handle_fine p r : fine (handle_primitive parsers int_of_float p r).
Proof.
  destruct r; cbn [handle_primitive].
  - unfold handle_string. destruct (mget parsers p) as [[t q]|] eqn:E; [apply (Hparsers _ _ _ E)|apply fine_err].
  - unfold handle_number. destruct (mget parsers p) as [[[] q]|]; split; discriminate.
  - unfold handle_bool. destruct (mget parsers p) as [[[] q]|]; split; discriminate.
  - unfold handle_nodes. destruct (mget parsers p) as [[[] q]|]; split; discriminate.
  - apply fine_err.
Qed.
Lemma rmapM_fine {A B} (f : A -> res B) l : (forall x, fine (f x)) -> fine (rmapM f l).
Proof. intros H. induction l as [|x l IH]; [apply fine_ok|]. cbn [rmapM]. apply fine_bind; [apply H|]. intros y _. apply fine_bind; [exact IH|]. intros ys _. apply fine_ok. Qed.
Lemma collect_fine props : Forall (fun p : bytes * res value => fine (snd p)) props -> forall m, fine (collect props m).
Proof. induction 1 as [|[n r] props Hr _ IH]; intros m; [apply fine_ok|]. cbn [collect]. apply fine_bind; [exact Hr|]. intros v _. apply IH. Qed.

Lemma all_fine c : forall n, fine (all_values n c).
Proof.
  induction c as [nm x p|nm x c IH|nm x props IH] using xprop_ind'; intros n; cbn [Records.all_values].
  - apply handle_fine.
  - apply fine_bind; [apply rmapM_fine; exact IH|]. intros l _. apply fine_ok.
  - destruct (query n x) as [|n' [|? ?]]; [apply fine_ok| |apply fine_err]. apply fine_bind; [|intros m _; apply fine_ok]. apply collect_fine.
    apply Forall_forall. intros q Hq. apply in_map_iff in Hq as (c & <- & Hc). rewrite Forall_forall in IH. apply (IH c Hc).
Qed.

Lemma sub_fine c : forall n path, no_negative path -> fine (x_sub_value n c path).
Proof.
  induction c as [nm x p|nm x c IH|nm x props IH] using xprop_ind'; intros n path Hn.
  - cbn [Records.x_sub_value]. destruct (evaluate n x) as [s|f|b|l|] eqn:Ee.
    1: apply fine_bind; [exact (handle_fine p (XString s))|]; intros v _; apply get_sub_value_safe; exact Hn.
    all: destruct path; [apply handle_fine|apply fine_err].
  - destruct path as [|k path]; [cbn [Records.x_sub_value]; apply all_fine|]. cbn [Records.x_sub_value].
    destruct (atoi_safe k) as [[i Hi]|[e He]]; [|rewrite He; apply fine_err]. rewrite Hi. destruct (zlen (query n x) <=? i) eqn:El; [apply fine_ok|].
    apply atoi_Ok in Hi as [Hd _]. pose proof (Hn k i (or_introl eq_refl) Hd) as H0. destruct (item_at_Ok (query n x) i ltac:(lia)) as (n' & En & _). rewrite En.
    apply IH. intros k' j Hin. apply Hn. right. exact Hin.
  - destruct path as [|k path]; [cbn [Records.x_sub_value]; apply all_fine|].
    destruct (query n x) as [|n' [|? ?]] eqn:Eq; [cbn [Records.x_sub_value]; rewrite Eq; apply fine_ok| |cbn [Records.x_sub_value]; rewrite Eq; apply fine_err].
    rewrite (x_sub_object n nm x props k path n' Eq). unfold find_prop. pose proof (find_at props k) as Hf. destruct (find _ props) as [c|]; [|apply fine_ok].
    destruct Hf as (i & Hi & _). rewrite Forall_forall in IH. apply (IH c (nth_error_In _ _ Hi)). intros k' j Hin. apply Hn. right. exact Hin.
Qed.

Lemma xml_get_safe n props path segs : dotted path segs -> no_negative segs -> xml_get n props path <> Panic /\ xml_get n props path <> NoFuel.
Proof.
  intros Hp Hn. destruct (dotted_segments _ _ Hp) as (H1 & H2 & H3). unfold Records.xml_get. destruct path; [congruence|]. rewrite H2.
  destruct segs as [|k segs]; [congruence|]. destruct (find _ props); [|split; discriminate]. apply sub_fine. intros k' i Hin. apply Hn. right. exact Hin.
Qed.
Lemma xml_all_safe n props : xml_all n props <> Panic /\ xml_all n props <> NoFuel.
Proof.
  apply collect_fine, Forall_forall. intros q Hq. apply in_map_iff in Hq as (c & <- & _). apply all_fine.
Qed.
End XmlFacts.
