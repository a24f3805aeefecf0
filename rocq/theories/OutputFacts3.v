(** Facts about the endpoints: parameters, pages and handlers. *)
From Coq Require Import List ZArith Lia Bool String Permutation Sorted.
From Coq Require Import Strings.Byte.
From Verif Require Import Base BaseFacts Value Join JoinFacts SpecIndex IndexFacts.
From Verif Require Import GoStrings SpecText StringsFacts Sort SpecOrder OrderFacts Output SpecOutput OutputFacts OutputFacts2.
Import ListNotations.
Open Scope Z_scope.

(** *** Parameters *)
Lemma triples_incl kind E params missing pcs ts : given kind E params missing pcs ts ->
  forall i p v, In ((i, p), v) ts -> exists name pc, In (name, pc) pcs /\ pm_index pc = i /\ pm_property pc = p.
Proof.
  induction 1 as [|name pc pcs ts H1 H2 H IH|name pc pcs ts s parse v H1 H2 H3 H4 H IH]; intros i p w Hin; [destruct Hin| |].
  - destruct (IH _ _ _ Hin) as (n & c & Hc & ?). exists n, c. cbn. auto.
  - destruct Hin as [He|Hin].
    + injection He as <- <- <-. exists name, pc. cbn. auto.
    + destruct (IH _ _ _ Hin) as (n & c & Hc & ?). exists n, c. cbn. auto.
Qed.

Lemma triples_NoDup kind E params missing pcs ts : given kind E params missing pcs ts ->
  NoDup (map (fun np : bytes * param => (pm_index (snd np), pm_property (snd np))) pcs) -> NoDup (map fst ts).
Proof.
  induction 1 as [|name pc pcs ts H1 H2 H IH|name pc pcs ts s parse v H1 H2 H3 H4 H IH]; cbn [map fst snd]; intros Hnd.
  - constructor.
  - apply NoDup_cons_iff in Hnd. tauto.
  - apply NoDup_cons_iff in Hnd as [Hn Hnd]. constructor; [|auto]. intros Hin. apply Hn.
    apply in_map_iff in Hin as ([[i p] w] & He & Hin). cbn in He. injection He as -> ->.
    destruct (triples_incl _ _ _ _ _ _ H _ _ _ Hin) as (n & c & Hc & E1 & E2). apply in_map_iff. exists (n, c). cbn. split; [congruence|assumption].
Qed.

Lemma triples_accepted kind E params missing pcs ts : given kind E params missing pcs ts -> Forall (fun t => s_accepts (kind (fst (fst t))) (snd t)) ts.
Proof. induction 1; auto. Qed.

Lemma triples_perm kind E params missing pcs pcs' : Permutation pcs pcs' -> forall ts, given kind E params missing pcs ts ->
  exists ts', given kind E params missing pcs' ts' /\ Permutation ts ts'.
Proof.
  induction 1 as [|[name pc] l l' Hp IH|[name pc] [name2 pc2] l|l l' l'' H1 IH1 H2 IH2]; intros ts Hg.
  - exists ts. auto.
  - inversion Hg as [|? ? ? ? E1 E2 Hg'|? ? ? ? ? ? ? E1 E2 E3 E4 Hg']; subst; destruct (IH _ Hg') as (ts' & Ht & Hpt).
    + exists ts'. split; [apply given_skip; auto|assumption].
    + eexists (_ :: ts'). split; [eapply given_take; eassumption|]. constructor. assumption.
  - inversion Hg as [|? ? ? ? E1 E2 Hg'|? ? ? ? ? ? ? E1 E2 E3 E4 Hg']; subst;
    inversion Hg' as [|? ? ? ? E1' E2' Hg''|? ? ? ? ? ? ? E1' E2' E3' E4' Hg'']; subst.
    + exists ts. split; [repeat apply given_skip; auto|reflexivity].
    + eexists. split; [eapply given_take; [eassumption..|apply given_skip; eauto]|reflexivity].
    + eexists. split; [apply given_skip; [auto..|eapply given_take; eassumption]|reflexivity].
    + eexists. split; [eapply given_take; [eassumption..|eapply given_take; eassumption]|]. apply perm_swap.
  - destruct (IH1 _ Hg) as (t1 & G1 & P1). destruct (IH2 _ G1) as (t2 & G2 & P2). exists t2. split; [assumption|]. etransitivity; eassumption.
Qed.

Lemma array_filters_ok kind E params pcs ts : given kind E params None pcs ts -> forall fpi,
  array_filters E params pcs fpi = Ok (group_from fpi ts).
Proof.
  induction 1 as [|name pc pcs ts H1 H2 H IH|name pc pcs ts s parse v H1 H2 H3 H4 H IH]; intros fpi; cbn [array_filters].
  - reflexivity.
  - rewrite H1. apply IH.
  - destruct H1 as [H1|[_ H1]]; [|discriminate]. rewrite H1, H2, H3. cbn [rbind]. rewrite IH. reflexivity.
Qed.

Lemma object_filters_ok kind E params pcs ts : given kind E params (Some []) pcs ts -> forall fpi,
  object_filters E params pcs fpi = Ok (group_from fpi ts).
Proof.
  induction 1 as [|name pc pcs ts H1 H2 H IH|name pc pcs ts s parse v H1 H2 H3 H4 H IH]; intros fpi; cbn [object_filters].
  - reflexivity.
  - discriminate.
  - rewrite H2. replace (match mget params name with Some s0 => s0 | None => [] end) with s.
    + rewrite H3. cbn [rbind]. rewrite IH. reflexivity.
    + destruct H1 as [H1|[H1 H5]]; rewrite H1; congruence.
Qed.

(** *** Pages *)
Lemma skip_rows_ok l : forall off, skip_rows off (map Ok l) = Ok (map Ok (skipn (Z.to_nat off) l)).
Proof.
  induction l as [|p l IH]; intros off; cbn [skip_rows map]; destruct (off <=? 0) eqn:E.
  - rewrite skipn_nil. reflexivity.
  - rewrite skipn_nil. reflexivity.
  - replace (Z.to_nat off) with 0%nat by lia. reflexivity.
  - cbn [rbind]. rewrite IH. replace (Z.to_nat off) with (S (Z.to_nat (off - 1))) by lia. reflexivity.
Qed.

Lemma take_rows_ok (Q : rec -> object -> Prop) row limit : forall sel n,
  (forall n r, In r sel -> exists d, row n (r_pos r) = Ok d /\ Q r d) ->
  exists rows, take_rows row limit n (map Ok (map r_pos sel)) = Ok (map VMap rows) /\ Forall2 Q (firstn (Z.to_nat (limit - n)) sel) rows.
Proof.
  induction sel as [|r sel IH]; intros n HQ; cbn [take_rows map]; destruct (negb (n <? limit)) eqn:E.
  - exists []. rewrite firstn_nil. split; [reflexivity|constructor].
  - exists []. rewrite firstn_nil. split; [reflexivity|constructor].
  - exists []. replace (Z.to_nat (limit - n)) with 0%nat by lia. split; [reflexivity|constructor].
  - destruct (HQ n r (or_introl eq_refl)) as (d & Ed & Hd). cbn [rbind]. rewrite Ed. cbn [rbind].
    destruct (IH (n + 1)) as (rows & Er & HF); [intros; apply HQ; right; assumption|].
    rewrite Er. cbn [rbind]. exists (d :: rows). split; [reflexivity|].
    replace (Z.to_nat (limit - n)) with (S (Z.to_nat (limit - (n + 1)))) by lia. constructor; assumption.
Qed.

Lemma page_In {A} off lim (l : list A) x : In x (page off lim l) -> In x l.
Proof.
  unfold page. intros H. rewrite <- (firstn_skipn (Z.to_nat off) l). apply in_or_app. right.
  rewrite <- (firstn_skipn (Z.to_nat lim)). apply in_or_app. left. assumption.
Qed.

Lemma page_request_ok c params off lim : page_request c params off lim -> get_limit c params = Ok lim /\ get_offset c params = Ok off.
Proof.
  unfold page_request, get_limit, get_offset. intros [H1 H2]. split.
  - destruct (mget params (ac_limit_param c)) as [s|].
    + destruct H1 as (z & Hz & Hi & Hp & ->). assert (Ea : atoi s = Ok z) by (apply atoi_Ok; auto). rewrite Ea. cbn [rbind].
      replace (z <=? 0) with false by lia. cbn [rbind]. f_equal. destruct (z >? ac_max c) eqn:E; lia.
    + subst. cbn [rbind]. f_equal. destruct (ac_default c >? ac_max c) eqn:E; lia.
  - destruct (mget params (ac_offset_param c)) as [s|].
    + destruct H2 as (Hz & Hi & Hp). assert (Ea : atoi s = Ok off) by (apply atoi_Ok; auto). rewrite Ea. cbn [rbind].
      replace (off <? 0) with false by lia. reflexivity.
    + subst. reflexivity.
Qed.

Lemma get_limit_inv c params : (exists lim, get_limit c params = Ok lim /\ lim <= ac_max c /\
    match mget params (ac_limit_param c) with
    | None => True
    | Some s => exists z, signed_decimal s z /\ in_i64 z /\ 0 < z /\ lim <= z
    end) \/ exists e, get_limit c params = Err e.
Proof.
  unfold get_limit. destruct (mget params (ac_limit_param c)) as [s|].
  - destruct (atoi_safe s) as [(z & Ez)|(e & Ee)]; [rewrite Ez|rewrite Ee]; cbn [rbind]; [|eauto].
    apply atoi_Ok in Ez as [Ez Hz]. destruct (z <=? 0) eqn:E; cbn [rbind]; [eauto|]. left. eexists. split; [reflexivity|].
    destruct (z >? ac_max c) eqn:E2; split; try lia; exists z; (split; [exact Ez|split; [exact Hz|lia]]).
  - cbn [rbind]. left. eexists. split; [reflexivity|]. split; [|trivial]. destruct (ac_default c >? ac_max c) eqn:E2; lia.
Qed.

Lemma get_offset_inv c params : (exists off, get_offset c params = Ok off /\ 0 <= off /\
    match mget params (ac_offset_param c) with None => True | Some s => signed_decimal s off /\ in_i64 off end) \/
  exists e, get_offset c params = Err e.
Proof.
  unfold get_offset. destruct (mget params (ac_offset_param c)) as [s|].
  - destruct (atoi_safe s) as [(z & Ez)|(e & Ee)]; [rewrite Ez|rewrite Ee]; cbn [rbind]; [|eauto].
    apply atoi_Ok in Ez as [Ez Hz]. destruct (z <? 0) eqn:E; cbn [rbind]; [eauto|]. left. exists z. split; [reflexivity|]. split; [lia|]. auto.
  - left. exists 0. split; [reflexivity|]. split; [lia|]. trivial.
Qed.

Lemma take_rows_length row limit : forall it n rows, take_rows row limit n it = Ok rows -> zlen rows <= Z.max 0 (limit - n).
Proof.
  induction it as [|p it IH]; intros n rows; cbn [take_rows]; destruct (negb (n <? limit)) eqn:E.
  - intros [= <-]. unfold zlen; cbn. lia.
  - intros [= <-]. unfold zlen; cbn. lia.
  - intros [= <-]. unfold zlen; cbn. lia.
  - destruct p as [p|e| |]; try discriminate. cbn [rbind]. destruct (row n p); try discriminate. cbn [rbind].
    destruct (take_rows row limit (n + 1) it) as [rows'|e| |] eqn:Er; try discriminate. cbn [rbind]. intros [= <-].
    apply IH in Er. rewrite zlen_cons. lia.
Qed.

(** Consecutive pages of a list. *)
Lemma page_split {A} (l : list A) off a b : 0 <= off -> 0 <= a -> 0 <= b -> page off (a + b) l = page off a l ++ page (off + a) b l.
Proof.
  intros Ho Ha Hb. unfold page. replace (Z.to_nat (a + b)) with (Z.to_nat a + Z.to_nat b)%nat by lia.
  replace (Z.to_nat (off + a)) with (Z.to_nat a + Z.to_nat off)%nat by lia. rewrite <- skipn_skipn.
  generalize (skipn (Z.to_nat off) l) as m. intros m. generalize (Z.to_nat a) as n, (Z.to_nat b) as k. clear.
  intros n k. revert m. induction n as [|n IH]; intros m; [reflexivity|]. destruct m as [|x m]; cbn; [rewrite ?firstn_nil; reflexivity|].
  f_equal. apply IH.
Qed.

Lemma pages_tile {A} (l : list A) lim n : 0 < lim ->
  List.concat (map (fun i => page (Z.of_nat i * lim) lim l) (seq 0 n)) = firstn (Z.to_nat (Z.of_nat n * lim)) l.
Proof.
  intros Hl. induction n as [|n IH]; [reflexivity|]. rewrite seq_S, map_app, List.concat_app, IH. cbn [map List.concat plus]. rewrite app_nil_r.
  change (firstn (Z.to_nat (Z.of_nat n * lim)) l) with (page 0 (Z.of_nat n * lim) l).
  rewrite <- (Z.add_0_l (Z.of_nat n * lim)) at 2. rewrite <- page_split by lia. unfold page. cbn [Z.to_nat skipn]. f_equal. lia.
Qed.

Section Handle.
Variable kind : bytes -> search.
Variable E : env.
Variable ord : order.
Hypothesis Hord : order_ok ord.
Variable arrange : list sort_criterion -> list rec -> list rec -> Prop.
Hypothesis Harr : forall cs l, arrange cs l (match cs with [] => l | _ :: _ => sort_records (e_sort E) cs l end).
Hypothesis Hperm : forall lt l, Permutation l (e_sort E lt l).

Lemma endpoint_positions loc inp_name pcs rels inp rs params missing ts : endpoint_ok kind E inp_name pcs rels inp rs ->
  given kind E params missing pcs ts -> forall ts', Permutation ts ts' ->
  exists its sel, positions_per_index E ord loc inp (group ts') = Ok its /\
    kept (selects kind ts) rs sel /\ join_positions its = map Ok (map r_pos sel).
Proof.
  intros (Ei & Hio & Hdef & (Hnd & Hpc) & Hct & Hrels) Hg ts' Hp.
  destruct ts as [|t0 ts0] eqn:Et.
  - apply Permutation_nil in Hp. subst ts'. cbn [group group_from fold_left positions_per_index]. unfold default_ok in Hdef. rewrite Hdef. cbn [rbind].
    eexists. exists rs. split; [reflexivity|]. split; [apply kept_all; intros; constructor|].
    change (map Ok (map r_pos rs)) with (list_iterate (map r_pos rs)) at 1.
    destruct (join_intersection [map r_pos rs]) as (l & El & Hl); [discriminate| |].
    + constructor; [|constructor]. destruct Hio as (_ & Hfo & _). unfold in_file_order in Hfo.
      clear -Hfo. induction Hfo; constructor; auto. eapply Forall_impl; [|eassumption]. cbn. intros; lia.
    + cbn [map] in El. etransitivity; [exact El|]. unfold list_iterate. f_equal.
      apply (intersection_unique [map r_pos rs]); [assumption|]. split.
      * destruct Hio as (_ & Hfo & _). unfold in_file_order in Hfo.
        clear -Hfo. induction Hfo; constructor; auto. eapply Forall_impl; [|eassumption]. cbn. intros; lia.
      * intros x. split; [exists (map r_pos rs); cbn; auto|]. intros m [<-|[]]. lia.
  - rewrite <- Et in *. assert (Hne : ts <> []) by (rewrite Et; discriminate). clear Et t0 ts0.
    assert (Hin : forall i p v, In ((i, p), v) ts' -> exists name pc, In (name, pc) pcs /\ pm_index pc = i /\ pm_property pc = p).
    { intros i p v Hin. eapply (triples_incl _ _ _ _ _ _ Hg). eapply Permutation_in; [symmetry; exact Hp|exact Hin]. }
    destruct (positions_ok kind E ord Hord loc inp rs ts') as (its & sel & E1 & E2 & E3).
    + apply Hio.
    + intros ->. apply Hne. apply Permutation_nil. symmetry. assumption.
    + eapply Permutation_NoDup; [apply Permutation_map; exact Hp|]. eapply triples_NoDup; eassumption.
    + eapply Permutation_Forall; [exact Hp|]. eapply triples_accepted; eassumption.
    + intros i p v Hi. destruct (Hin _ _ _ Hi) as (name & pc & Hc & <- & <-). destruct (Hpc _ _ Hc) as (ix & props & F1 & F2 & F3).
      exists ix, props. split; [assumption|]. split; [assumption|]. intros p' v' Hi'. destruct (Hin _ _ _ Hi') as (name' & pc' & Hc' & G1 & <-). eauto.
    + exists its, sel. split; [assumption|]. split; [|assumption]. eapply kept_ext; [|exact E2].
      intros r. apply selects_perm. symmetry. assumption.
Qed.

Theorem array_rows c params inp rs fs off lim :
  endpoint_ok kind E (ac_input c) (ac_params c) (ac_relationships c) inp rs ->
  given kind E params None (ac_params c) fs -> page_request c params off lim -> 0 <= lim < two63 ->
  exists sel rows, kept (selects kind fs) rs sel /\
    Forall2 (fun r d => exists a, contents r a /\ loaded kind E arrange (ac_relationships c) a d) (page off lim sel) rows /\
    forall W se ss wr enc (w : W), handle_array E ord W se ss wr enc c params w = encode W wr enc (VList (map VMap rows)) (ss w).
Proof.
  intros Hep Hg Hpr Hlim. pose proof Hg as Ht.
  destruct (triples_perm _ _ _ _ _ _ (Hord [Key (lit "parameters")] _ (ac_params c)) _ Ht) as (ts' & Ht' & Hp).
  destruct (endpoint_positions [Key (lit "filters")] _ _ _ _ _ _ _ _ Hep Ht ts' Hp) as (its & sel & E1 & E2 & E3).
  destruct (page_request_ok _ _ _ _ Hpr) as [F1 F2]. exists sel.
  destruct Hep as (Ei & Hio & Hdef & Hpc & Hct & Hrels).
  assert (Hselin : forall r, In r sel -> In r rs) by (intros r Hr; apply (kept_In _ _ _ E2 r Hr)).
  destruct (take_rows_ok (fun r d => exists a, contents r a /\ loaded kind E arrange (ac_relationships c) a d)
    (fun n p => data_from_position E ord p (ac_relationships c) (ac_input c) [At n; Key (lit "rows")])
    (wrap64 lim) (skipn (Z.to_nat off) sel) 0) as (rows & Er & HF).
  { intros n r Hr. assert (Hrs : In r rs).
    { apply Hselin. rewrite <- (firstn_skipn (Z.to_nat off) sel). apply in_or_app. auto. }
    destruct (data_ok kind E ord Hord arrange Harr (fun cs l => Hperm (less cs) l) inp rs (ac_relationships c) (ac_input c) r [At n; Key (lit "rows")])
      as (a & d & Ha & Hd & Hl); auto. exists d. eauto. }
  exists rows. split; [assumption|].
  split.
  - unfold page. rewrite wrap64_id, Z.sub_0_r in HF by (unfold in_i64; lia). exact HF.
  - intros W se ss wr enc w. unfold Output.handle_array. rewrite Ei, F1. cbn [check]. rewrite F2. cbn [check].
    rewrite (array_filters_ok _ _ _ _ _ Ht'). cbn [check]. fold (group ts'). rewrite E1. cbn [check]. rewrite E3, skip_rows_ok.
    cbn [check]. rewrite skipn_map. rewrite Er. reflexivity.
Qed.

Theorem object_row c params inp rs fs :
  endpoint_ok kind E (oc_input c) (oc_params c) (oc_relationships c) inp rs ->
  given kind E params (Some []) (oc_params c) fs ->
  exists sel, kept (selects kind fs) rs sel /\
    match sel with
    | [] => forall W se ss wr enc (w : W), handle_object E ord W se ss wr enc c params w = se ENotFound w
    | r :: _ => exists a d, contents r a /\ loaded kind E arrange (oc_relationships c) a d /\
        forall W se ss wr enc (w : W), handle_object E ord W se ss wr enc c params w = encode W wr enc (VMap d) (ss w)
    end.
Proof.
  intros Hep Hg. pose proof Hg as Ht.
  destruct (triples_perm _ _ _ _ _ _ (Hord [Key (lit "parameters")] _ (oc_params c)) _ Ht) as (ts' & Ht' & Hp).
  destruct (endpoint_positions [Key (lit "filters")] _ _ _ _ _ _ _ _ Hep Ht ts' Hp) as (its & sel & E1 & E2 & E3).
  destruct Hep as (Ei & Hio & Hdef & Hpc & Hct & Hrels). exists sel. split; [assumption|].
  assert (Hh : forall W se ss wr enc (w : W), handle_object E ord W se ss wr enc c params w =
    check W se (fst (pull (map Ok (map r_pos sel)))) w (fun p =>
      match p with
      | None => se ENotFound w
      | Some p =>
        check W se (data_from_position E ord p (oc_relationships c) (oc_input c) [Key (lit "row")]) w (fun d =>
        encode W wr enc (VMap d) (ss w))
      end)).
  { intros W se ss wr enc w. unfold Output.handle_object. rewrite Ei, (object_filters_ok _ _ _ _ _ Ht'). cbn [check]. fold (group ts').
    rewrite E1. cbn [check]. rewrite E3. reflexivity. }
  destruct sel as [|r sel]; [exact Hh|].
  destruct (data_ok kind E ord Hord arrange Harr (fun cs l => Hperm (less cs) l) inp rs (oc_relationships c) (oc_input c) r [Key (lit "row")])
    as (a & d & Ha & Hd & Hl); auto.
  { apply (kept_In _ _ _ E2). left. reflexivity. }
  exists a, d. split; [assumption|]. split; [assumption|]. intros W se ss wr enc w. rewrite Hh. cbn [map pull fst check]. rewrite Hd. reflexivity.
Qed.

Variable W : Type.
Variable send_error : err -> W -> W * res unit.
Variable send_success : W -> W.
Variable write : bytes -> W -> W * res unit.
Variable json_encode : value -> res bytes.
Notation encode := (encode W write json_encode).
Notation handle_array := (handle_array E ord W send_error send_success write json_encode).
Notation handle_object := (handle_object E ord W send_error send_success write json_encode).

Theorem handle_array_ok c params w inp rs fs off lim :
  endpoint_ok kind E (ac_input c) (ac_params c) (ac_relationships c) inp rs ->
  given kind E params None (ac_params c) fs -> page_request c params off lim -> 0 <= lim < two63 ->
  exists sel rows, kept (selects kind fs) rs sel /\
    Forall2 (fun r d => exists a, contents r a /\ loaded kind E arrange (ac_relationships c) a d) (page off lim sel) rows /\
    handle_array c params w = encode (VList (map VMap rows)) (send_success w).
Proof.
  intros H1 H2 H3 H4. destruct (array_rows c params inp rs fs off lim H1 H2 H3 H4) as (sel & rows & K1 & K2 & K3). eauto 10.
Qed.

Theorem handle_object_ok c params w inp rs fs :
  endpoint_ok kind E (oc_input c) (oc_params c) (oc_relationships c) inp rs ->
  given kind E params (Some []) (oc_params c) fs ->
  exists sel, kept (selects kind fs) rs sel /\
    match sel with
    | [] => handle_object c params w = send_error ENotFound w
    | r :: _ => exists a d, contents r a /\ loaded kind E arrange (oc_relationships c) a d /\
        handle_object c params w = encode (VMap d) (send_success w)
    end.
Proof.
  intros H1 H2. destruct (object_row c params inp rs fs H1 H2) as (sel & K1 & K2). exists sel. split; [assumption|].
  destruct sel; [apply K2|]. destruct K2 as (a & d & Ha & Hl & K2). eauto 10.
Qed.
End Handle.
