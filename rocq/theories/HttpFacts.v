(** Facts about requests and responses. *)
From Coq Require Import List ZArith Lia Bool String Permutation.
From Coq Require Import Strings.Byte Floats.SpecFloat.
From Verif Require Import Base BaseFacts Value Join JoinFacts SpecIndex.
From Verif Require Import GoStrings SpecText StringsFacts Sort SpecOrder SpecJson Json JsonFacts.
From Verif Require Import Output SpecOutput OutputFacts OutputFacts2 OutputFacts3 OutputFacts4 OutputFacts5 OutputFacts6 Http SpecHttp.
Import ListNotations.
Open Scope Z_scope.

(** *** Values with numbers only *)
Lemma numbers_encode fmt_float v : numbers_only v -> exists b, json_encode fmt_float v = Ok b.
Proof.
  induction v as [| |z|f|s|l IH|m IH] using value_ind'; intros H; cbn [json_encode]; eauto.
  - inversion H as [| | |? Hf| | |]; subst. destruct f; cbn in Hf; try discriminate; eauto.
  - inversion H as [| | | | |? Hl|]; subst.
    assert (G : exists bs, rmapM (fun x => x) (map (json_encode fmt_float) l) = Ok bs).
    { clear H. induction l as [|x l IHl]; [exists []; reflexivity|]. inversion IH; inversion Hl; subst. cbn [map rmapM].
      destruct H1 as (b & ->); [assumption|]. destruct IHl as (bs & Ebs); auto. rewrite Ebs. cbn. eauto. }
    destruct G as (bs & ->). cbn [rbind]. eauto.
  - inversion H as [| | | | | |? Hl]; subst.
    assert (G : exists bs, rmapM (fun x => x) (map (fun kv : bytes * value => rlet t := json_encode fmt_float (snd kv) in Ok (fst kv, t)) m) = Ok bs).
    { clear H. induction m as [|x m IHl]; [exists []; reflexivity|]. inversion IH; inversion Hl; subst. cbn [map rmapM].
      destruct H1 as (b & ->); [assumption|]. cbn [rbind]. destruct IHl as (bs & Ebs); auto. rewrite Ebs. cbn. eauto. }
    destruct G as (bs & ->). cbn [rbind]. eauto.
Qed.

Notation fin d := (Forall (fun kv : bytes * value => numbers_only (snd kv)) d).

Lemma fin_mset d k v : fin d -> numbers_only v -> fin (mset d k v).
Proof.
  intros H Hv. induction H as [|[k' v'] d H1 H2 IH]; cbn [mset]; [constructor; [assumption|constructor]|].
  destruct (bytes_eqb k' k); constructor; auto.
Qed.

Section Fin.
Variable E : env.
Variable ord : order.
Hypothesis Hnum : records_numbers E.
Hypothesis Hord : order_ok ord.
Hypothesis Hperm : forall lt l, Permutation l (e_sort E lt l).

Lemma load_loop_fin ls loc : (forall name f, In (name, f) ls -> forall loc d v, f loc d = Ok v -> numbers_only v) ->
  forall data d, fin data -> load_loop ls loc data = Ok d -> fin d.
Proof.
  induction ls as [|[name f] ls IH]; intros H data d Hd; cbn [load_loop]; [intros [= <-]; assumption|].
  destruct (f (Key name :: loc) data) as [v|e| |] eqn:Ef; cbn [rbind]; try discriminate. apply IH.
  - intros n' f' Hin. apply (H n' f'). right. assumption.
  - apply fin_mset; [assumption|]. apply (H name f (or_introl eq_refl) _ _ _ Ef).
Qed.

Lemma load_items_fin ls count loc : (forall name f, In (name, f) ls -> forall loc d v, f loc d = Ok v -> numbers_only v) ->
  forall rs n items, Forall (fun r => forall d, r_all r = Ok d -> fin d) rs -> load_items ord ls count loc n rs = Ok items -> Forall numbers_only items.
Proof.
  intros H. induction rs as [|r rs IH]; intros n items Hr; cbn [load_items]; [intros [= <-]; constructor|]. inversion Hr as [|? ? H1 H2]; subst.
  destruct (r_all r) as [d|e| |] eqn:Ea; cbn [rbind]; try discriminate.
  destruct (load_loop _ _ _) as [d1|e| |] eqn:El; cbn [rbind]; try discriminate.
  assert (Hd1 : numbers_only (VMap d1)).
  { constructor. eapply load_loop_fin; [|apply H1; reflexivity|exact El]. intros name f Hin. apply (H name f).
    eapply Permutation_in; [symmetry; apply Hord|exact Hin]. }
  destruct (n + 1 >=? count); [intros [= <-]; constructor; [assumption|constructor]|].
  destruct (load_items ord ls count loc (n + 1) rs) as [its|e| |] eqn:Ei; cbn [rbind]; try discriminate. intros [= <-].
  constructor; [assumption|]. eapply IH; eassumption.
Qed.

Lemma fetch_fin n inp it : mget (e_inputs E) n = Some inp -> forall rs, fetch inp it = Ok rs -> Forall (fun r => forall d, r_all r = Ok d -> fin d) rs.
Proof.
  intros Hinp. induction it as [|p it IH]; cbn [fetch]; intros rs; [intros [= <-]; constructor|].
  destruct p as [p|e| |]; cbn [rbind]; try discriminate. destruct (in_get inp p) as [r|e| |] eqn:Eg; cbn [rbind]; try discriminate.
  destruct (fetch inp it) as [rs'|e| |]; cbn [rbind]; try discriminate. intros [= <-]. constructor; [|apply IH; reflexivity].
  intros d Hd. pose proof (Hnum n inp p r d Hinp Eg Hd) as Hn. inversion Hn; assumption.
Qed.

Lemma related_fin c : forall loc data v, related E ord c loc data = Ok v -> numbers_only v.
Proof.
  induction c as [i ia lim so ms ch IH] using relationship_ind'. intros loc data v.
  set (c := mkRel i ia lim so ms ch) in *. rewrite related_unfold.
  destruct (relationship_filters data (rel_match c) []) as [fpi|e| |]; cbn [rbind]; try discriminate.
  destruct (mget (e_inputs E) (rel_input c)) as [inp|] eqn:Ei; [|discriminate].
  destruct (positions_per_index E ord loc inp fpi) as [its|e| |]; cbn [rbind]; try discriminate.
  destruct (fetch inp (join_positions its)) as [rs|e| |] eqn:Ef; cbn [rbind]; try discriminate. cbn zeta.
  set (arr := match rel_sort c with [] => rs | _ :: _ => sort_records (e_sort E) (rel_sort c) rs end).
  pose proof (fetch_fin _ _ _ Ei _ Ef) as F2.
  assert (Harr : Forall (fun r => forall d, r_all r = Ok d -> fin d) arr).
  { subst arr. destruct (rel_sort c); [exact F2|]. eapply Permutation_Forall; [apply Hperm|]. exact F2. }
  destruct (_ <? 0); [discriminate|].
  destruct (load_items ord (loaders E ord (rel_children c)) (item_count c (zlen arr)) loc 0 arr) as [items|e| |] eqn:El; cbn [rbind]; try discriminate.
  eapply load_items_fin in El; [|clear El|exact Harr].
  - assert (G : forall b : bool, numbers_only (if b then VList items else match items with [] => VNil | i :: _ => i end)).
    { intros [|]; [constructor; assumption|]. destruct El; [constructor|assumption]. }
    intros [= <-]. apply G.
  - intros name f Hin. unfold loaders in Hin. apply in_map_iff in Hin as ([n' c'] & He & Hin').
    cbn [fst snd] in He. injection He as <- <-. rewrite Forall_forall in IH. apply (IH (n', c') Hin').
Qed.

Lemma data_fin p rels name loc d : data_from_position E ord p rels name loc = Ok d -> fin d.
Proof.
  unfold data_from_position. destruct (mget (e_inputs E) name) as [inp|] eqn:Ei; [|discriminate].
  destruct (in_get inp p) as [r|e| |] eqn:Eg; cbn [rbind]; try discriminate.
  destruct (r_all r) as [d0|e| |] eqn:Ea; cbn [rbind]; try discriminate. intros El.
  pose proof (Hnum name inp p r d0 Ei Eg Ea) as Hn. inversion Hn; subst.
  eapply load_loop_fin; [|eassumption|exact El]. intros n f Hin.
  assert (Hin' : In (n, f) (map (fun nc : bytes * relationship => (fst nc, related E ord (snd nc))) rels)).
  { eapply Permutation_in; [symmetry; apply Hord|exact Hin]. }
  apply in_map_iff in Hin' as ([n' c'] & He & Hin'). cbn [fst snd] in He. injection He as <- <-. apply related_fin.
Qed.

Lemma take_rows_fin row limit it : (forall n p d, row n p = Ok d -> fin d) -> forall n rows, take_rows row limit n it = Ok rows -> Forall numbers_only rows.
Proof.
  intros Hr. induction it as [|p it IH]; intros n rows; cbn [take_rows]; destruct (negb (n <? limit)); try (intros [= <-]; constructor).
  destruct p as [p|e| |]; cbn [rbind]; try discriminate. destruct (row n p) as [d|e| |] eqn:Ed; cbn [rbind]; try discriminate.
  destruct (take_rows row limit (n + 1) it) as [rows'|e| |] eqn:Et; cbn [rbind]; try discriminate. intros [= <-].
  constructor; [constructor; eapply Hr; exact Ed|]. eapply IH. exact Et.
Qed.
End Fin.

(** *** The value of an output *)
Section Value.
Variable E : env.
Variable ord : order.

Definition array_value (c : array_config) (params : list (bytes * bytes)) : res value :=
  match mget (e_inputs E) (ac_input c) with
  | None => Panic
  | Some inp =>
    rlet limit := get_limit c params in
    rlet offset := get_offset c params in
    rlet fpi := array_filters E params (ord [Key (lit "parameters")] _ (ac_params c)) [] in
    rlet its := positions_per_index E ord [Key (lit "filters")] inp fpi in
    rlet it := skip_rows offset (join_positions its) in
    rlet rows := take_rows (fun n p => data_from_position E ord p (ac_relationships c) (ac_input c) [At n; Key (lit "rows")]) (wrap64 limit) 0 it in
    Ok (VList rows)
  end.

Definition object_value (c : object_config) (params : list (bytes * bytes)) : res value :=
  match mget (e_inputs E) (oc_input c) with
  | None => Panic
  | Some inp =>
    rlet fpi := object_filters E params (ord [Key (lit "parameters")] _ (oc_params c)) [] in
    rlet its := positions_per_index E ord [Key (lit "filters")] inp fpi in
    rlet p := fst (pull (join_positions its)) in
    match p with
    | None => Err ENotFound
    | Some p => rlet d := data_from_position E ord p (oc_relationships c) (oc_input c) [Key (lit "row")] in Ok (VMap d)
    end
  end.

Definition output_value (o : output) params : res value := match o with OArray c => array_value c params | OObject c => object_value c params end.

Lemma output_value_spec o params : In (output_input o) (map fst (e_inputs E)) ->
  forall W se ss wr enc (w : W),
    match o with
    | OArray c => handle_array E ord W se ss wr enc c params w
    | OObject c => handle_object E ord W se ss wr enc c params w
    end = check W se (output_value o params) w (fun v => encode W wr enc v (ss w)).
Proof.
  intros Hin W se ss wr enc w. destruct o as [c|c]; cbn [output_value output_input] in *.
  - unfold handle_array, array_value. destruct (mget (e_inputs E) (ac_input c)) as [inp|] eqn:Ei.
    2:{ exfalso. apply mget_None in Ei. contradiction. }
    destruct (get_limit c params); cbn [check rbind]; try reflexivity.
    destruct (get_offset c params); cbn [check rbind]; try reflexivity.
    destruct (array_filters _ _ _ _); cbn [check rbind]; try reflexivity.
    destruct (positions_per_index _ _ _ _ _); cbn [check rbind]; try reflexivity.
    destruct (skip_rows _ _); cbn [check rbind]; try reflexivity.
    destruct (take_rows _ _ _ _); cbn [check rbind]; reflexivity.
  - unfold handle_object, object_value. destruct (mget (e_inputs E) (oc_input c)) as [inp|] eqn:Ei.
    2:{ exfalso. apply mget_None in Ei. contradiction. }
    destruct (object_filters _ _ _ _); cbn [check rbind]; try reflexivity.
    destruct (positions_per_index _ _ _ _ _); cbn [check rbind]; try reflexivity.
    destruct (fst (pull _)) as [[p|]|e| |]; cbn [check rbind]; try reflexivity.
    destruct (data_from_position _ _ _ _ _ _); cbn [check rbind]; reflexivity.
Qed.

Lemma output_computes o params v : In (output_input o) (map fst (e_inputs E)) -> output_value o params = Ok v -> computes E ord o params v.
Proof. intros Hin Hv W se ss wr enc w. rewrite output_value_spec by assumption. rewrite Hv. reflexivity. Qed.
Lemma output_fails o params e : In (output_input o) (map fst (e_inputs E)) -> output_value o params = Err e -> fails E ord o params e.
Proof. intros Hin Hv W se ss wr enc w. rewrite output_value_spec by assumption. rewrite Hv. reflexivity. Qed.

Lemma output_returns asked o params : env_safe asked E -> order_ok ord -> (forall lt l, Permutation l (e_sort E lt l)) ->
  forall inp, mget (e_inputs E) (output_input o) = Some inp -> rels_safe asked E inp (output_relationships o) ->
  params_safe asked E o -> returns (output_value o params).
Proof.
  intros Hs Ho Hp inp Hinp Hr Hpr.
  assert (Hin : In (output_input o) (map fst (e_inputs E))) by (apply mget_In in Hinp; apply (in_map fst) in Hinp; exact Hinp).
  pose proof (output_value_spec o params Hin (res unit) (fun _ _ => (Ok tt, Ok tt)) (fun _ => Ok tt) (fun _ _ => (Ok tt, Ok tt)) (fun _ => Ok []) Panic) as H.
  assert (Hne : snd (check (res unit) (fun _ _ => (Ok tt, Ok tt)) (output_value o params) Panic
     (fun v => encode (res unit) (fun _ _ => (Ok tt, Ok tt)) (fun _ => Ok []) v (Ok tt))) = Ok tt).
  { rewrite <- H. destruct o as [c|c].
    - destruct (array_answered E ord (res unit) (fun _ _ => (Ok tt, Ok tt)) (fun _ => Ok tt) (fun _ _ => (Ok tt, Ok tt)) (fun _ => Ok []) asked Hs Ho Hp c params Panic inp Hinp Hr Hpr); reflexivity.
    - destruct (object_answered E ord (res unit) (fun _ _ => (Ok tt, Ok tt)) (fun _ => Ok tt) (fun _ _ => (Ok tt, Ok tt)) (fun _ => Ok []) asked Hs Ho Hp c params Panic inp Hinp Hr Hpr); reflexivity. }
  destruct (output_value o params); cbn in *; try exact I; discriminate.
Qed.

Lemma output_numbers o params v : records_numbers E -> order_ok ord -> (forall lt l, Permutation l (e_sort E lt l)) ->
  output_value o params = Ok v -> numbers_only v.
Proof.
  intros Hn Ho Hp. destruct o as [c|c]; cbn [output_value].
  - unfold array_value. destruct (mget _ _); [|discriminate].
    destruct (get_limit c params); cbn [rbind]; try discriminate.
    destruct (get_offset c params); cbn [rbind]; try discriminate.
    destruct (array_filters _ _ _ _); cbn [rbind]; try discriminate.
    destruct (positions_per_index _ _ _ _ _); cbn [rbind]; try discriminate.
    destruct (skip_rows _ _); cbn [rbind]; try discriminate.
    destruct (take_rows _ _ _ _) as [rows|e| |] eqn:Et; cbn [rbind]; try discriminate. intros [= <-]. constructor.
    eapply take_rows_fin; [|exact Et]. intros n p d. apply data_fin; assumption.
  - unfold object_value. destruct (mget _ _); [|discriminate].
    destruct (object_filters _ _ _ _); cbn [rbind]; try discriminate.
    destruct (positions_per_index _ _ _ _ _); cbn [rbind]; try discriminate.
    destruct (fst (pull _)) as [[p|]|e| |]; cbn [rbind]; try discriminate.
    destruct (data_from_position _ _ _ _ _ _) as [d|e| |] eqn:Ed; cbn [rbind]; try discriminate. intros [= <-]. constructor.
    eapply data_fin; eassumption.
Qed.
End Value.

(** *** Parameters *)
Lemma path_params_ok names : forall cs params, (List.length names <= List.length cs)%nat -> exists ps, path_params names cs params = Ok ps.
Proof.
  induction names as [|n names IH]; intros cs params H; cbn [path_params]; [eauto|].
  destruct cs as [|c cs]; cbn [List.length] in H; [lia|]. apply IH. lia.
Qed.

Lemma path_params_other names : forall cs params ps n, path_params names cs params = Ok ps -> ~ In n names -> mget ps n = mget params n.
Proof.
  induction names as [|m names IH]; intros cs params ps n; cbn [path_params]; [intros [= <-]; reflexivity|].
  destruct cs as [|c cs]; [discriminate|]. intros H Hn. rewrite (IH _ _ _ n H) by (intros ?; apply Hn; right; assumption).
  apply mget_mset_other. intros ->. apply Hn. left. reflexivity.
Qed.

Lemma path_params_get names : forall cs params ps i n, NoDup names -> path_params names cs params = Ok ps ->
  nth_error names i = Some n -> mget ps n = nth_error cs i.
Proof.
  induction names as [|m names IH]; intros cs params ps i n Hnd H Hi; [destruct i; discriminate|]. cbn [path_params] in H.
  destruct cs as [|c cs]; [discriminate|]. apply NoDup_cons_iff in Hnd as [Hn Hnd]. destruct i as [|i]; cbn [nth_error] in *.
  - injection Hi as ->. rewrite (path_params_other _ _ _ _ _ H Hn). apply mget_mset_same.
  - eapply IH; eassumption.
Qed.

(** *** Routes *)
Lemma matching_get routes rq r : matching_route routes rq = Some r -> rq_method rq = lit "GET".
Proof.
  induction routes as [|r0 routes IH]; cbn [matching_route]; [discriminate|].
  destruct (bytes_eqb (rq_method rq) (lit "GET")) eqn:Em; cbn [andb]; [|exact IH]. intros _. apply bytes_eqb_eq. assumption.
Qed.

Lemma matching_first routes rq r : matching_route routes rq = Some r <-> first_match routes rq r.
Proof.
  split.
  - intros H. pose proof (matching_get _ _ _ H) as Hg. induction routes as [|r0 routes IH]; cbn [matching_route] in H; [discriminate|].
    rewrite (proj2 (bytes_eqb_eq _ _) Hg) in H. cbn [andb] in H. destruct (rt_match r0 (rq_path rq)) as [cs|] eqn:E0.
    + injection H as <-. eapply fm_here; eassumption.
    + apply fm_next; auto.
  - induction 1 as [r routes rq cs Hg Hm|r r' routes rq Hm H IH]; cbn [matching_route].
    + rewrite (proj2 (bytes_eqb_eq _ _) Hg), Hm. reflexivity.
    + rewrite Hm, andb_false_r. assumption.
Qed.

Lemma matching_match routes rq r : matching_route routes rq = Some r -> In r routes /\ exists cs, rt_match r (rq_path rq) = Some cs.
Proof.
  intros H. apply matching_first in H. induction H as [r routes rq cs Hg Hm|r r' routes rq Hm H IH]; [split; [left; reflexivity|eauto]|].
  destruct IH as [I1 I2]. split; [right; assumption|assumption].
Qed.

Lemma matching_none routes rq : matching_route routes rq = None <->
  (rq_method rq = lit "GET" -> forall r, In r routes -> rt_match r (rq_path rq) = None).
Proof.
  induction routes as [|r0 routes IH]; cbn [matching_route].
  - split; [intros _ _ r []|reflexivity].
  - destruct (bytes_eqb (rq_method rq) (lit "GET")) eqn:Em; cbn [andb].
    + apply bytes_eqb_eq in Em. destruct (rt_match r0 (rq_path rq)) as [cs|] eqn:E0.
      * split; [discriminate|]. intros H. specialize (H Em r0 (or_introl eq_refl)). congruence.
      * rewrite IH. split; intros H Hg r.
        -- intros [<-|Hin]; [assumption|apply H; assumption].
        -- intros Hin. apply H; [assumption|right; assumption].
    + rewrite IH. apply bytes_eqb_neq in Em. split; intros H Hg; contradiction.
Qed.

(** *** Responses *)
Section Serve.
Variable E : env.
Variable ord : order.
Variable fmt_float : spec_float -> bytes.
Variable err_text : err -> bytes.
Variable write_ok : response -> bytes -> bool.
Notation serve := (serve E ord fmt_float err_text write_ok).
Hypothesis Hord : order_ok ord.
Hypothesis Hperm : forall lt l, Permutation l (e_sort E lt l).

Definition json_type : bytes := lit "application/json; charset=UTF-8".

Lemma error_text e : exists b, json_encode fmt_float (VMap [(lit "error", VString (err_text e))]) = Ok b.
Proof. apply numbers_encode. repeat constructor. Qed.

Lemma send_error_ok st e : exists b r, json_encode fmt_float (VMap [(lit "error", VString (err_text e))]) = Ok b /\
  send_error_response fmt_float err_text write_ok st e [] = ([Header st json_type; Body b], r).
Proof.
  destruct (error_text e) as (b & Eb). exists b. unfold send_error_response. rewrite Eb. eexists. split; reflexivity.
Qed.

Lemma serve_cases asked routes rq : env_safe asked E -> Forall (route_ok asked E) routes ->
  (matching_route routes rq = None /\ exists b, json_encode fmt_float (VMap [(lit "error", VString (err_text (EMsg "No matching route was found")))]) = Ok b /\
     fst (serve routes rq) = [Header 404 json_type; Body b]) \/
  (exists r params, matching_route routes rq = Some r /\ get_params r rq = Ok params /\
    ((exists e b, fails E ord (rt_output r) params e /\ json_encode fmt_float (VMap [(lit "error", VString (err_text e))]) = Ok b /\
        fst (serve routes rq) = [Header (match e with ENotFound => 404 | _ => 500 end) json_type; Body b]) \/
     (exists v, computes E ord (rt_output r) params v /\ output_value E ord (rt_output r) params = Ok v /\
        fst (serve routes rq) = Header 200 json_type :: match json_encode fmt_float v with Ok b => [Body (b ++ [x0a])] | _ => [] end))).
Proof.
  intros Hs Hr. unfold Http.serve. destruct (matching_route routes rq) as [r|] eqn:Em.
  - right. destruct (matching_match _ _ _ Em) as (Hin & cs & Hcs). rewrite Forall_forall in Hr. destruct (Hr r Hin) as ((inp & R0 & R3) & R4 & R2).
    assert (R1 : In (output_input (rt_output r)) (map fst (e_inputs E))) by (apply mget_In in R0; apply (in_map fst) in R0; exact R0).
    destruct (path_params_ok (rt_params r) cs (query_params (rq_query rq) []) (R2 _ _ Hcs)) as (params & Ep).
    assert (Eg : get_params r rq = Ok params) by (unfold get_params; rewrite Hcs; exact Ep).
    exists r, params. split; [reflexivity|]. split; [assumption|]. rewrite Eg.
    pose proof (output_returns E ord asked (rt_output r) params Hs Hord Hperm inp R0 R3 R4) as Hret.
    destruct (output_value E ord (rt_output r) params) as [v|e| |] eqn:Ev; cbn in Hret; try contradiction.
    + right. exists v. pose proof (output_computes E ord _ params v R1 Ev) as Hc. split; [assumption|]. split; [reflexivity|].
      unfold handle. etransitivity; [|]. 2:{ reflexivity. }
      replace (fst _) with (fst (encode response (write write_ok) (json_encode fmt_float) v (send_success []))).
      * unfold encode. destruct (json_encode fmt_float v); reflexivity.
      * f_equal. symmetry. specialize (Hc response (send_error fmt_float err_text write_ok) send_success (write write_ok) (json_encode fmt_float) []).
        destruct (rt_output r); exact Hc.
    + left. pose proof (output_fails E ord _ params e R1 Ev) as Hc. destruct (send_error_ok (match e with ENotFound => 404 | _ => 500 end) e) as (b & rr & Eb & Es).
      exists e, b. split; [assumption|]. split; [assumption|].
      specialize (Hc response (send_error fmt_float err_text write_ok) send_success (write write_ok) (json_encode fmt_float) []).
      unfold handle. change (send_error fmt_float err_text write_ok e []) with (send_error_response fmt_float err_text write_ok (match e with ENotFound => 404 | _ => 500 end) e []) in Hc.
      rewrite Es in Hc. destruct (rt_output r); rewrite Hc; reflexivity.
  - left. split; [reflexivity|]. destruct (send_error_ok 404 (EMsg "No matching route was found")) as (b & rr & Eb & Es).
    exists b. split; [assumption|]. rewrite Es. reflexivity.
Qed.
End Serve.

(** *** What the outputs compute *)
Section Exact.
Variable kind : bytes -> search.
Variable E : env.
Variable ord : order.
Hypothesis Hord : order_ok ord.
Hypothesis Hperm : forall lt l, Permutation l (e_sort E lt l).
Hypothesis Hsorts : sorts (e_sort E).

Lemma endpoint_input inp_name pcs rels inp rs : endpoint_ok kind E inp_name pcs rels inp rs -> In inp_name (map fst (e_inputs E)).
Proof. intros (Ei & _). apply mget_In in Ei. apply (in_map fst) in Ei. exact Ei. Qed.

Lemma relationships_exact parents rels loc r a : rels_ok kind E parents rels -> In r parents -> contents r a ->
  exists d, load_relationships E ord rels loc a = Ok d /\ loaded kind E arranged_spec rels a d.
Proof. exact (load_relationships_ok kind E ord Hord arranged_spec (arranged_self E Hsorts) (fun cs l => Hperm (less cs) l) parents rels loc r a). Qed.

Lemma list_exact c params inp rs fs off lim :
  endpoint_ok kind E (ac_input c) (ac_params c) (ac_relationships c) inp rs ->
  given kind E params None (ac_params c) fs -> page_request c params off lim -> 0 <= lim < two63 ->
  exists sel rows, kept (selects kind fs) rs sel /\
    Forall2 (fun r d => exists a, contents r a /\ loaded kind E arranged_spec (ac_relationships c) a d) (page off lim sel) rows /\
    computes E ord (OArray c) params (VList (map VMap rows)).
Proof.
  intros Hep Hg Hpr Hlim.
  destruct (array_rows kind E ord Hord arranged_spec (arranged_self E Hsorts) Hperm c params inp rs fs off lim Hep Hg Hpr Hlim) as (sel & rows & H1 & H2 & H3).
  exists sel, rows. split; [assumption|]. split; [assumption|]. intros W se ss wr enc w. apply H3.
Qed.

Lemma object_exact c params inp rs fs :
  endpoint_ok kind E (oc_input c) (oc_params c) (oc_relationships c) inp rs ->
  given kind E params (Some []) (oc_params c) fs ->
  exists sel, kept (selects kind fs) rs sel /\
    match sel with
    | [] => fails E ord (OObject c) params ENotFound
    | r :: _ => exists a d, contents r a /\ loaded kind E arranged_spec (oc_relationships c) a d /\ computes E ord (OObject c) params (VMap d)
    end.
Proof.
  intros Hep Hg.
  destruct (object_row kind E ord Hord arranged_spec (arranged_self E Hsorts) Hperm c params inp rs fs Hep Hg) as (sel & H1 & H2).
  exists sel. split; [assumption|]. destruct sel as [|r sel].
  - intros W se ss wr enc w. apply H2.
  - destruct H2 as (a & d & Ha & Hl & H2). exists a, d. split; [assumption|]. split; [assumption|]. intros W se ss wr enc w. apply H2.
Qed.
End Exact.

Lemma bad_parameter_refused E ord c params name pc s parse e : order_ok ord ->
  (forall p f, In (p, f) (e_parsers E) -> forall s, returns (f s)) -> In (ac_input c) (map fst (e_inputs E)) ->
  In (name, pc) (ac_params c) -> mget params name = Some s -> mget (e_parsers E) (pm_parser pc) = Some parse -> parse s = Err e ->
  forall v, ~ computes E ord (OArray c) params v.
Proof.
  intros H1 H2 H3 H4 H5 H6 H7 v Hc.
  destruct (bad_parameter E ord bool (fun _ _ => (false, Ok tt)) (fun _ => true) (fun _ w => (true, Ok tt)) (fun _ => Ok []) c params true name pc s parse e H1 H2 H3 H4 H5 H6 H7) as (e' & He).
  specialize (Hc bool (fun _ _ => (false, Ok tt)) (fun _ => true) (fun _ w => (true, Ok tt)) (fun _ => Ok []) true). cbn in Hc.
  rewrite He in Hc. discriminate.
Qed.

(** Neither a value nor an error. *)
Definition crashes (E : env) (ord : order) (o : output) (params : list (bytes * bytes)) : Prop :=
  forall W se ss wr enc (w : W),
    match o with
    | OArray c => handle_array E ord W se ss wr enc c params w
    | OObject c => handle_object E ord W se ss wr enc c params w
    end = (w, Panic) \/
    match o with
    | OArray c => handle_array E ord W se ss wr enc c params w
    | OObject c => handle_object E ord W se ss wr enc c params w
    end = (w, NoFuel).

Lemma limit_enforced E ord c params : In (ac_input c) (map fst (e_inputs E)) -> 0 <= ac_default c -> 0 <= ac_max c < two64 ->
  crashes E ord (OArray c) params \/ (exists e, fails E ord (OArray c) params e) \/
  exists rows, computes E ord (OArray c) params (VList rows) /\ zlen rows <= ac_max c /\
    (forall s, mget params (ac_limit_param c) = Some s -> exists z, signed_decimal s z /\ 0 < z /\ zlen rows <= z) /\
    (forall s, mget params (ac_offset_param c) = Some s -> exists z, signed_decimal s z /\ 0 <= z).
Proof.
  intros Hin Hd Hm. pose proof (output_value_spec E ord (OArray c) params Hin) as Hspec.
  destruct (output_value E ord (OArray c) params) as [v|e| |] eqn:Ev.
  - right. right. cbn [output_value] in Ev. unfold array_value in Ev.
    destruct (mget (e_inputs E) (ac_input c)) as [inp|] eqn:Ei; [|discriminate].
    destruct (get_limit c params) as [lim|e| |] eqn:E1; cbn [rbind] in Ev; try discriminate.
    destruct (get_offset c params) as [off|e| |] eqn:E2; cbn [rbind] in Ev; try discriminate.
    destruct (array_filters _ _ _ _); cbn [rbind] in Ev; try discriminate.
    destruct (positions_per_index _ _ _ _ _); cbn [rbind] in Ev; try discriminate.
    destruct (skip_rows _ _); cbn [rbind] in Ev; try discriminate.
    destruct (take_rows _ _ _ _) as [rows|e| |] eqn:Et; cbn [rbind] in Ev; try discriminate. injection Ev as <-.
    exists rows. split; [intros W se ss wr enc w; apply Hspec|].
    assert (H : zlen rows <= ac_max c /\
      match mget params (ac_limit_param c) with None => True | Some s => exists z, signed_decimal s z /\ 0 < z /\ zlen rows <= z end /\
      match mget params (ac_offset_param c) with None => True | Some s => exists z, signed_decimal s z /\ 0 <= z end)
      by (eapply rows_bound; eassumption).
    destruct H as (K1 & K2 & K3). split; [assumption|]. split; intros s Hs.
    + rewrite Hs in K2. assumption.
    + rewrite Hs in K3. assumption.
  - right. left. exists e. intros W se ss wr enc w. apply Hspec.
  - left. intros W se ss wr enc w. left. apply Hspec.
  - left. intros W se ss wr enc w. right. apply Hspec.
Qed.

Lemma bad_limit_refused E ord c params s : In (ac_input c) (map fst (e_inputs E)) -> mget params (ac_limit_param c) = Some s ->
  (forall z, signed_decimal s z -> in_i64 z -> z <= 0) -> exists e, fails E ord (OArray c) params e.
Proof.
  intros Hin Hs Hbad. unfold fails, handle_array. destruct (mget (e_inputs E) (ac_input c)) as [inp|] eqn:Ei.
  2:{ exfalso. apply mget_None in Ei. contradiction. }
  destruct (get_limit_inv c params) as [(lim & _ & _ & H)|(e & ->)]; [|exists e; reflexivity].
  rewrite Hs in H. destruct H as (z & H1 & H2 & H3 & _). specialize (Hbad z H1 H2). lia.
Qed.

Lemma bad_offset_refused E ord c params s : In (ac_input c) (map fst (e_inputs E)) -> mget params (ac_offset_param c) = Some s ->
  (forall z, signed_decimal s z -> in_i64 z -> z < 0) -> exists e, fails E ord (OArray c) params e.
Proof.
  intros Hin Hs Hbad. unfold fails, handle_array. destruct (mget (e_inputs E) (ac_input c)) as [inp|] eqn:Ei.
  2:{ exfalso. apply mget_None in Ei. contradiction. }
  destruct (get_limit_inv c params) as [(lim & -> & _)|(e & ->)]; [|exists e; reflexivity]. cbn [check].
  destruct (get_offset_inv c params) as [(off & _ & H1 & H)|(e & ->)]; [|exists e; reflexivity].
  rewrite Hs in H. destruct H as (H2 & H3). specialize (Hbad off H2 H3). lia.
Qed.

Section Pages.
Variable kind : bytes -> search.
Variable E : env.
Variable ord : order.
Hypothesis Hord : order_ok ord.
Hypothesis Hperm : forall lt l, Permutation l (e_sort E lt l).
Hypothesis Hsorts : sorts (e_sort E).

Lemma pages_exact c (params : nat -> list (bytes * bytes)) inp rs fs lim :
  endpoint_ok kind E (ac_input c) (ac_params c) (ac_relationships c) inp rs ->
  (forall i, given kind E (params i) None (ac_params c) fs) -> 0 < lim < two63 ->
  (forall i, page_request c (params i) (Z.of_nat i * lim) lim) ->
  exists sel, kept (selects kind fs) rs sel /\ forall n, exists pages, List.length pages = n /\
    (forall i pg, nth_error pages i = Some pg -> computes E ord (OArray c) (params i) (VList (map VMap pg))) /\
    Forall2 (fun r d => exists a, contents r a /\ loaded kind E arranged_spec (ac_relationships c) a d)
      (firstn (Z.to_nat (Z.of_nat n * lim)) sel) (List.concat pages).
Proof.
  intros Hep Hg Hlim Hpr.
  destruct (list_exact kind E ord Hord Hperm Hsorts c (params 0%nat) inp rs fs _ lim Hep (Hg 0%nat) (Hpr 0%nat)) as (sel & _ & Hsel & _); [lia|].
  exists sel. split; [assumption|]. induction n as [|n (pages & Hlen & Hc & HF)].
  - exists []. split; [reflexivity|]. split; [intros [|i] pg; discriminate|constructor].
  - destruct (list_exact kind E ord Hord Hperm Hsorts c (params n) inp rs fs _ lim Hep (Hg n) (Hpr n)) as (sel' & rows & Hsel' & HF' & Hc'); [lia|].
    assert (sel' = sel) as -> by (eapply kept_unique; eassumption).
    exists (pages ++ [rows]). split; [rewrite app_length; cbn; lia|]. split.
    + intros i pg Hi. destruct (Nat.lt_ge_cases i (List.length pages)) as [Hl|Hl].
      * rewrite nth_error_app1 in Hi by assumption. apply Hc. assumption.
      * rewrite nth_error_app2 in Hi by assumption. assert (i = n) as ->.
        { destruct (Nat.eq_dec i n); [assumption|]. exfalso. apply (f_equal (fun o => match o with Some _ => true | None => false end)) in Hi as Hi'.
          destruct (i - List.length pages)%nat as [|k] eqn:Ek; [lia|]. cbn in Hi'. destruct k; discriminate. }
        replace (n - List.length pages)%nat with 0%nat in Hi by lia. injection Hi as <-. assumption.
    + rewrite List.concat_app. cbn [List.concat]. rewrite app_nil_r.
      change (firstn (Z.to_nat (Z.of_nat (S n) * lim)) sel) with (page 0 (Z.of_nat (S n) * lim) sel).
      replace (Z.of_nat (S n) * lim) with (Z.of_nat n * lim + lim) by lia. rewrite page_split by lia. rewrite Z.add_0_l.
      apply Forall2_app; assumption.
Qed.
End Pages.

Section Responses.
Variable E : env.
Variable ord : order.
Variable fmt_float : spec_float -> bytes.
Variable err_text : err -> bytes.
Variable write_ok : response -> bytes -> bool.
Hypothesis fmt_number : forall f, is_number f = true -> number_text (fmt_float f).
Notation serve := (serve E ord fmt_float err_text write_ok).
Hypothesis Hord : order_ok ord.
Hypothesis Hperm : forall lt l, Permutation l (e_sort E lt l).

Lemma error_json e b : json_encode fmt_float (VMap [(lit "error", VString (err_text e))]) = Ok b ->
  json_text b (JObj [(runes (lit "error"), JStr (runes (err_text e)))]).
Proof.
  intros H. cbn [json_encode map rmapM rbind fst snd sort_keys insert_key] in H. injection H as <-. cbn [map].
  destruct (reads_members [(lit "error", json_string (err_text e))] [JStr (runes (err_text e))]) as (m & Hm).
  { discriminate. }
  { constructor; [apply reads_string|constructor]. }
  exists (S m), []. split; [|reflexivity].
  specialize (Hm m [] (Nat.le_refl _)). cbn [map combine fst] in Hm.
  set (text := join_strings [x2c] [json_member (lit "error", json_string (err_text e))] ++ [x7d]) in Hm.
  assert (Ht : exists t, text = x22 :: t) by (eexists; reflexivity). destruct Ht as (t & Ht).
  transitivity (jvalue (S m) (x7b :: text)); [reflexivity|]. rewrite Ht in *. clearbody text. clear Ht.
  rewrite jvalue_obj. cbn [skip_ws]. change (is_ws x22) with false. cbn iota. rewrite Hm. reflexivity.
Qed.

Lemma one_response asked routes rq : env_safe asked E -> Forall (route_ok asked E) routes ->
  exists st rest, fst (serve routes rq) = Header st json_type :: rest /\
    ((st = 200 /\ exists r params v, first_match routes rq r /\ get_params r rq = Ok params /\ computes E ord (rt_output r) params v /\
        (rest = [] \/ exists b, rest = [Body b])) \/
     ((st = 404 \/ st = 500) /\ exists b text, rest = [Body b] /\ json_text b (JObj [(runes (lit "error"), JStr text)]))).
Proof.
  intros Hs Hr. destruct (serve_cases E ord fmt_float err_text write_ok Hord Hperm asked routes rq Hs Hr) as
    [(Hn & b & Eb & ->)|(r & params & Hm & Hg & [(e & b & Hf & Eb & ->)|(v & Hc & _ & ->)])].
  - exists 404, [Body b]. split; [reflexivity|]. right. split; [auto|]. exists b. eexists. split; [reflexivity|]. eapply error_json. exact Eb.
  - eexists _, [Body b]. split; [reflexivity|]. right. split; [destruct e; auto|]. exists b. eexists. split; [reflexivity|]. eapply error_json. exact Eb.
  - eexists 200, _. split; [reflexivity|]. left. split; [reflexivity|]. exists r, params, v.
    split; [apply matching_first; assumption|]. split; [assumption|]. split; [assumption|]. destruct (json_encode fmt_float v); eauto.
Qed.

Lemma success_complete asked routes rq ct rest : env_safe asked E -> Forall (route_ok asked E) routes -> records_numbers E ->
  fst (serve routes rq) = Header 200 ct :: rest ->
  exists r params v b j, first_match routes rq r /\ get_params r rq = Ok params /\ computes E ord (rt_output r) params v /\
    rest = [Body b] /\ json_text b j /\ denotes fmt_float j v.
Proof.
  intros Hs Hr Hnum. destruct (serve_cases E ord fmt_float err_text write_ok Hord Hperm asked routes rq Hs Hr) as
    [(Hn & b & Eb & ->)|(r & params & Hm & Hg & [(e & b & Hf & Eb & ->)|(v & Hc & Hv & ->)])].
  - discriminate.
  - destruct e; discriminate.
  - pose proof (output_numbers E ord _ _ _ Hnum Hord Hperm Hv) as Hnv. destruct (numbers_encode fmt_float v Hnv) as (b & Eb). rewrite Eb.
    intros H. injection H as _ <-. destruct (encode_complete fmt_float fmt_number v b Eb) as (j & Hj1 & Hj2).
    exists r, params, v, (b ++ [x0a]), j. split; [apply matching_first; assumption|]. auto 10.
Qed.
End Responses.
