(** Proofs about serving with a validated configuration: no name is missing. *)
From Coq Require Import List ZArith Lia Bool String Permutation.
From Coq Require Import Strings.Byte.
From Verif Require Import Base BaseFacts Codec Value Join GoStrings Parser Sort Output SpecOutput Http Records Config SpecConfig ConfigFacts OutputFacts2 OutputFacts4.
Import ListNotations.
Open Scope Z_scope.

Lemma quiet_ok {A} (a : A) : quiet (Ok a).
Proof. intros e H. discriminate. Qed.
Lemma quiet_panic {A} : quiet (@Panic A).
Proof. intros e H. discriminate. Qed.
Lemma quiet_nofuel {A} : quiet (@NoFuel A).
Proof. intros e H. discriminate. Qed.
Lemma quiet_err {A} e : ~ missing e -> quiet (@Err A e).
Proof. intros H e' E. injection E as <-. exact H. Qed.
Lemma quiet_err_inv {A} e : quiet (@Err A e) -> ~ missing e.
Proof. intro H. apply H. reflexivity. Qed.
Lemma quiet_bind {A B} (r : res A) (k : A -> res B) : quiet r -> (forall a, r = Ok a -> quiet (k a)) -> quiet (rbind r k).
Proof. destruct r; cbn [rbind]; intros H Hk; [apply Hk; reflexivity|exact (quiet_err e (quiet_err_inv e H))|apply quiet_panic|apply quiet_nofuel]. Qed.
Lemma quiet_cast {A B} e : quiet (@Err A e) -> quiet (@Err B e).
Proof. intro H. exact (quiet_err e (quiet_err_inv e H)). Qed.

Ltac not_missing := apply quiet_err; cbn [missing In]; intro; repeat match goal with H : _ \/ _ |- _ => destruct H end; try contradiction; discriminate.
Ltac q := first [apply quiet_ok|apply quiet_panic|apply quiet_nofuel|assumption|solve [eapply quiet_cast; eassumption]|not_missing].

Notation quiets := (Forall (Forall quiet)).

Lemma pull_quiet it : Forall quiet it -> quiet (fst (pull it)) /\ Forall quiet (snd (pull it)).
Proof.
  intro H. destruct it as [|r it]; [split; [q|constructor]|]. inversion H; subst. destruct r; cbn [pull fst snd]; split; try assumption; q.
Qed.

Lemma first_values_quiet its : quiets its -> quiet (fst (first_values its)) /\ quiets (snd (first_values its)).
Proof.
  induction its as [|it its IH]; intros H; [split; [q|constructor]|]. inversion H as [|? ? H1 H2]; subst. cbn [first_values].
  destruct (pull_quiet it H1) as [P1 P2]. destruct (pull it) as [r it1]. cbn [fst snd] in P1, P2.
  destruct r as [[p|]|e| |]; try (split; [q|constructor; assumption]).
  destruct (IH H2) as [I1 I2]. destruct (first_values its) as [r its1]. cbn [fst snd] in I1, I2.
  destruct r as [[ps|]|e| |]; (split; [q|constructor; assumption]).
Qed.

Lemma advance_quiet it : forall c p, Forall quiet it -> quiet (fst (advance c it p)) /\ Forall quiet (snd (advance c it p)).
Proof.
  induction it as [|r it IH]; intros c p H; cbn [advance]; destruct (c <? p); try (split; [q|assumption]).
  inversion H as [|? ? H1 H2]; subst. destruct r; [apply IH; assumption| | |]; (split; [q|assumption]).
Qed.

Lemma sweep_quiet cs : forall its p, quiets its -> quiet (fst (sweep cs its p)) /\ quiets (snd (snd (sweep cs its p))).
Proof.
  induction cs as [|c cs IH]; intros its p H; cbn [sweep]; [split; [q|assumption]|].
  destruct its as [|it its]; [split; [q|constructor]|]. inversion H as [|? ? H1 H2]; subst.
  destruct (advance_quiet it c p H1) as [A1 A2]. destruct (advance c it p) as [r it1]. cbn [fst snd] in A1, A2.
  destruct r as [[c1|]|e| |]; try (split; [q|constructor; assumption]).
  destruct (c1 =? p); [|split; [q|constructor; assumption]].
  destruct (IH its p H2) as [I1 I2]. destruct (sweep cs its p) as [r [cs' is']]. cbn [fst snd] in *. split; [assumption|constructor; assumption].
Qed.

Lemma join_loop_quiet first : forall cs its, Forall quiet first -> quiets its ->
  quiet (fst (join_loop first cs its)) /\ Forall quiet (fst (snd (join_loop first cs its))) /\ quiets (snd (snd (join_loop first cs its))).
Proof.
  induction first as [|r first IH]; intros cs its H Hi; cbn [join_loop].
  - cbn [fst snd]. repeat split; [q|constructor|assumption].
  - inversion H as [|? ? H1 H2]; subst. destruct r as [p|e| |].
    + destruct (sweep_quiet cs its p Hi) as [S1 S2]. destruct (sweep cs its p) as [r [cs1 its1]]. cbn [fst snd] in S1, S2.
      destruct r as [[[|]|]|e| |]; try (cbn [fst snd]; repeat split; [q|assumption|assumption]).
      apply IH; assumption.
    + cbn [fst snd]. repeat split; [q|assumption|assumption].
    + cbn [fst snd]. repeat split; [q|assumption|assumption].
    + cbn [fst snd]. repeat split; [q|assumption|assumption].
Qed.

Lemma join_next_quiet its : quiets its -> quiet (fst (join_next its)) /\ quiets (snd (join_next its)).
Proof.
  intros H. destruct its as [|first its]; [split; [q|constructor]|].
  inversion H as [|? ? H1 H2]; subst. destruct its as [|i2 its].
  - cbn [join_next]. destruct (pull_quiet first H1) as [P1 P2].
    destruct (pull first) as [r it1]. cbn [fst snd] in *. split; [assumption|]. constructor; auto.
  - change (join_next (first :: i2 :: its)) with
      (match first_values (i2 :: its) with
       | (Ok (Some curs), others1) =>
         let '(r, (first1, others2)) := join_loop first curs others1 in (r, first1 :: others2)
       | (Ok None, others1) => (Ok None, first :: others1)
       | (Err e, others1) => (Err e, first :: others1)
       | (Panic, others1) => (Panic, first :: others1)
       | (NoFuel, others1) => (NoFuel, first :: others1)
       end).
    destruct (first_values_quiet _ H2) as [F1 F2]. destruct (first_values (i2 :: its)) as [r o1]. cbn [fst snd] in F1, F2.
    destruct r as [[cs|]|e| |]; try (cbn [fst snd]; split; [q|constructor; assumption]).
    destruct (join_loop_quiet first cs o1 H1 F2) as (J1 & J2 & J3). destruct (join_loop first cs o1) as [r [f1 o2]].
    cbn [fst snd] in *. split; [assumption|]. constructor; assumption.
Qed.

Lemma join_calls_quiet fuel : forall its, quiets its -> Forall quiet (join_calls fuel its).
Proof.
  induction fuel as [|fuel IH]; intros its H; [repeat constructor; q|]. cbn [join_calls].
  destruct (join_next_quiet its H) as (J1 & J2). destruct (join_next its) as [r its1]. cbn [fst snd] in *.
  destruct r as [[p|]|e| |]; repeat (constructor; try q). apply IH; assumption.
Qed.

Lemma join_positions_quiet its : quiets its -> Forall quiet (join_positions its).
Proof. apply join_calls_quiet. Qed.

Lemma rmapM_quiet {A B} (f : A -> res B) l (P : B -> Prop) : (forall a, In a l -> quiet (f a) /\ forall b, f a = Ok b -> P b) ->
  quiet (rmapM f l) /\ forall bs, rmapM f l = Ok bs -> Forall P bs.
Proof.
  induction l as [|a l IH]; intros H; cbn [rmapM]; [split; [q|intros bs [= <-]; constructor]|].
  destruct (H a (or_introl eq_refl)) as [H1 H2].
  destruct IH as [I1 I2]; [intros; apply H; right; assumption|]. split.
  - apply quiet_bind; [assumption|]. intros. apply quiet_bind; [assumption|]. intros. q.
  - intros bs Hb. inv_ok. constructor; auto.
Qed.

Lemma atoi_quiet s : quiet (atoi s).
Proof.
  unfold atoi. destruct s as [|b s]; [q|].
  set (x := match b with x2d => _ | x2b => _ | _ => _ end). destruct x as [neg ds]. destruct ds as [|d ds]; [q|].
  destruct (forallb is_digit (d :: ds)); [|q]. destruct (_ && _); q.
Qed.

Section Serve.
Variable v : vconfig.
Variable E : env.
Variable ord : order.
Hypothesis R : references_resolve v.
Hypothesis Q : quiet_env v E.
Hypothesis Hord : order_ok ord.

Notation named := (Forall (fun nf : bytes * filters => has (vc_indexes v) (fst nf))).

Lemma named_add fpi i p x : named fpi -> has (vc_indexes v) i -> named (add_filter fpi i p x).
Proof.
  intros H Hi. unfold add_filter. generalize (mset match mget fpi i with Some fs => fs | None => [] end p x). intro fs.
  induction H as [|[k w] l Hk H IH]; cbn [mset]; [repeat constructor; exact Hi|].
  destruct (bytes_eqb k i) eqn:B; constructor; auto.
Qed.

Lemma positions_quiet loc inp fpi : named fpi ->
  quiet (positions_per_index E ord loc inp fpi) /\ forall its, positions_per_index E ord loc inp fpi = Ok its -> quiets its.
Proof.
  intro Hf. unfold positions_per_index. destruct fpi as [|nf0 fpi0].
  - destruct (qe_default v E Q inp []) as [D1 D2]. split.
    + apply quiet_bind; [exact D1|]. intros. q.
    + intros its Hi. inv_ok. constructor; [|constructor]. apply D2. assumption.
  - apply rmapM_quiet. intros [i fs] Hin. cbn [fst snd].
    assert (Hin' : In (i, fs) (nf0 :: fpi0)) by (eapply Permutation_in; [symmetry; apply Hord|exact Hin]).
    rewrite Forall_forall in Hf. apply Hf in Hin'. cbn [fst] in Hin'.
    destruct (qe_indexes v E Q i Hin') as (ix & Ei). rewrite Ei. eapply qe_index; eauto.
Qed.

Lemma fetch_quiet inp it : quiet_input inp -> Forall quiet it ->
  quiet (fetch inp it) /\ forall rs, fetch inp it = Ok rs -> Forall quiet_rec rs.
Proof.
  intros [G1 G2] H. induction H as [|p it Hp H IH]; cbn [fetch]; [split; [q|intros rs [= <-]; constructor]|].
  destruct IH as [J1 J2]. split.
  - apply quiet_bind; [exact Hp|]. intros. apply quiet_bind; [apply G1|]. intros. apply quiet_bind; [exact J1|]. intros. q.
  - intros rs Hr. destruct p as [p| | |]; try discriminate. cbn [rbind] in Hr. inv_ok. constructor; [eapply G2; eauto|auto].
Qed.

Lemma rel_filters_quiet data ms : (forall parent child index, In (parent, child, index) ms -> has (vc_indexes v) index) ->
  forall fpi, named fpi -> quiet (relationship_filters data ms fpi) /\
    forall fpi', relationship_filters data ms fpi = Ok fpi' -> named fpi'.
Proof.
  induction ms as [|[[p c] i] ms IH]; intros H fpi Hf; cbn [relationship_filters]; [split; [q|intros ? [= <-]; assumption]|].
  destruct (mget data p) as [x|] eqn:Ev; [|split; [q|discriminate]].
  apply IH; [intros; eapply H; right; eassumption|]. apply named_add; [assumption|]. eapply H. left. reflexivity.
Qed.

Lemma load_loop_quiet ls loc : (forall name f, In (name, f) ls -> forall loc d, quiet (f loc d)) -> forall data, quiet (load_loop ls loc data).
Proof.
  induction ls as [|[name f] ls IH]; intros H data; cbn [load_loop]; [q|].
  apply quiet_bind; [eapply H; left; reflexivity|]. intros. apply IH. intros n' f' I. apply (H n'). right. exact I.
Qed.

Lemma load_items_quiet ls count loc : (forall name f, In (name, f) ls -> forall loc d, quiet (f loc d)) ->
  forall rs n, Forall quiet_rec rs -> quiet (load_items ord ls count loc n rs).
Proof.
  intro H. induction rs as [|r rs IH]; intros n Hr; cbn [load_items]; [q|]. inversion Hr as [|? ? [H1 _] H2]; subst.
  apply quiet_bind; [assumption|]. intros d _. apply quiet_bind.
  - apply load_loop_quiet. intros name f Hin. apply (H name). eapply Permutation_in; [symmetry; apply Hord|exact Hin].
  - intros d1 _. destruct (n + 1 >=? count); [q|]. apply quiet_bind; [apply IH; assumption|]. intros; q.
Qed.

Definition rel_known (r : relationship) : Prop :=
  has (vc_inputs v) (rel_input r) /\ forall parent child index, In (parent, child, index) (rel_match r) -> has (vc_indexes v) index.

Lemma related_quiet c : rel_known c -> (forall r, sub_rel r (rel_children c) -> rel_known r) ->
  forall loc data, quiet (related E ord c loc data).
Proof.
  induction c as [i ia lim so ms ch IH] using relationship_ind'. intros [K1 K2] Hch loc data.
  set (c := mkRel i ia lim so ms ch) in *.
  rewrite related_unfold. destruct (rel_filters_quiet data (rel_match c) K2 []) as [R1 R2]; [constructor|].
  apply quiet_bind; [assumption|]. intros fpi Hfpi.
  destruct (qe_inputs v E Q _ K1) as (inp & Ei). rewrite Ei.
  pose proof (qe_input v E Q _ _ Ei) as Hinp.
  destruct (positions_quiet loc inp fpi (R2 _ Hfpi)) as [P1 P2]. apply quiet_bind; [assumption|]. intros its Hits.
  destruct (fetch_quiet inp (join_positions its) Hinp (join_positions_quiet _ (P2 _ Hits))) as [F1 F2].
  apply quiet_bind; [assumption|]. intros rs Hrs. cbn zeta.
  set (arr := match rel_sort c with [] => rs | _ :: _ => sort_records (e_sort E) (rel_sort c) rs end).
  assert (Harr : Forall quiet_rec arr).
  { subst arr. destruct (rel_sort c); [exact (F2 _ Hrs)|]. eapply Permutation_Forall; [symmetry; apply (qe_sort v E Q)|]. exact (F2 _ Hrs). }
  destruct (_ <? 0); [q|]. apply quiet_bind; [|intros; q].
  apply load_items_quiet; [|exact Harr]. intros name f Hin. unfold loaders in Hin. apply in_map_iff in Hin as ([n' c'] & He & Hin').
  cbn [fst snd] in He. injection He as <- <-. rewrite Forall_forall in IH. apply (IH (n', c')); [exact Hin'| |].
  - apply Hch. eapply sub_here. exact Hin'.
  - intros r Hr. apply Hch. eapply sub_below; eassumption.
Qed.

Lemma data_quiet p rels name loc : has (vc_inputs v) name -> (forall r, sub_rel r rels -> rel_known r) ->
  quiet (data_from_position E ord p rels name loc).
Proof.
  intros Hn Hr. unfold data_from_position. destruct (qe_inputs v E Q _ Hn) as (inp & Ei). rewrite Ei.
  destruct (qe_input v E Q _ _ Ei) as [G1 G2]. apply quiet_bind; [apply G1|]. intros r Er.
  destruct (G2 _ _ Er) as [A _]. apply quiet_bind; [exact A|]. intros d _. unfold load_relationships. apply load_loop_quiet.
  intros n f Hin.
  assert (Hin' : In (n, f) (map (fun nc : bytes * relationship => (fst nc, related E ord (snd nc))) rels)).
  { eapply Permutation_in; [symmetry; apply Hord|exact Hin]. }
  apply in_map_iff in Hin' as ([n' c'] & He & Hin'). cbn [fst snd] in He. injection He as <- <-.
  apply related_quiet; [apply Hr; eapply sub_here; exact Hin'|]. intros r' Hr'. apply Hr. eapply sub_below; eassumption.
Qed.

Notation known_params := (Forall (fun np : bytes * param => has (vc_indexes v) (pm_index (snd np)) /\ has (vc_parsers v) (pm_parser (snd np)))).

Lemma array_filters_quiet params pcs : known_params pcs -> forall fpi, named fpi ->
  quiet (array_filters E params pcs fpi) /\ forall fpi', array_filters E params pcs fpi = Ok fpi' -> named fpi'.
Proof.
  induction 1 as [|[name pc] pcs [K1 K2] H IH]; intros fpi Hf; cbn [array_filters]; [split; [q|intros ? [= <-]; assumption]|].
  cbn [snd] in K1, K2. destruct (mget params name) as [s|]; [|apply IH, Hf].
  destruct (qe_parsers v E Q _ K2) as (parse & Ep). rewrite Ep. pose proof (qe_parser v E Q _ _ s Ep) as Hq. split.
  - apply quiet_bind; [exact Hq|]. intros. apply IH, named_add; assumption.
  - intros fpi' H'. inv_ok. eapply (proj2 (IH _ (named_add _ _ _ _ Hf K1))); eassumption.
Qed.

Lemma object_filters_quiet params pcs : known_params pcs -> forall fpi, named fpi ->
  quiet (object_filters E params pcs fpi) /\ forall fpi', object_filters E params pcs fpi = Ok fpi' -> named fpi'.
Proof.
  induction 1 as [|[name pc] pcs [K1 K2] H IH]; intros fpi Hf; cbn [object_filters]; [split; [q|intros ? [= <-]; assumption]|].
  cbn [snd] in K1, K2.
  destruct (qe_parsers v E Q _ K2) as (parse & Ep). rewrite Ep.
  pose proof (qe_parser v E Q _ _ (match mget params name with Some s => s | None => [] end) Ep) as Hq. split.
  - apply quiet_bind; [exact Hq|]. intros. apply IH, named_add; assumption.
  - intros fpi' H'. inv_ok. eapply (proj2 (IH _ (named_add _ _ _ _ Hf K1))); eassumption.
Qed.

Lemma skip_rows_quiet it : forall off, Forall quiet it ->
  quiet (skip_rows off it) /\ forall it', skip_rows off it = Ok it' -> Forall quiet it'.
Proof.
  induction it as [|p it IH]; intros off H; cbn [skip_rows]; destruct (off <=? 0); try (split; [q|intros ? [= <-]; assumption]).
  inversion H; subst. split.
  - apply quiet_bind; [assumption|]. intros. apply IH. assumption.
  - intros it' Hi. inv_ok. eapply IH; eassumption.
Qed.

Lemma take_rows_quiet row limit it : (forall n p, quiet (row n p)) -> Forall quiet it -> forall n, quiet (take_rows row limit n it).
Proof.
  intros Hr H. induction H as [|p it Hp H IH]; intros n; cbn [take_rows]; destruct (negb (n <? limit)); try q.
  apply quiet_bind; [assumption|]. intros. apply quiet_bind; [apply Hr|]. intros. apply quiet_bind; [apply IH|]. intros. q.
Qed.

Lemma get_limit_quiet c params : quiet (get_limit c params).
Proof.
  unfold get_limit. apply quiet_bind; [|intros; q]. destruct (mget params _); [|q].
  apply quiet_bind; [apply atoi_quiet|]. intros. destruct (_ <=? 0); q.
Qed.
Lemma get_offset_quiet c params : quiet (get_offset c params).
Proof.
  unfold get_offset. destruct (mget params _); [|q]. apply quiet_bind; [apply atoi_quiet|]. intros. destruct (_ <? 0); q.
Qed.

(** The response is only observed through the errors given to sendError. *)
Variable W : Type.
Variable send_error : err -> W -> W * res unit.
Variable send_success : W -> W.
Variable write : bytes -> W -> W * res unit.
Variable json_encode : value -> res bytes.

(** The state tells which errors were sent. *)
Variable sent : W -> list err.
Hypothesis sent_error : forall e w, sent (fst (send_error e w)) = e :: sent w /\ quiet (snd (send_error e w)).
Hypothesis sent_success : forall w, sent (send_success w) = sent w.
Hypothesis sent_write : forall b w, sent (fst (write b w)) = sent w /\ quiet (snd (write b w)).
Hypothesis encode_quiet : forall x, quiet (json_encode x).

Definition silent (w : W) (r : W * res unit) : Prop :=
  quiet (snd r) /\ forall e, In e (sent (fst r)) -> missing e -> In e (sent w).

Lemma silent_error w e : ~ missing e -> silent w (send_error e w).
Proof.
  intro H. destruct (sent_error e w) as [S1 S2]. split; [exact S2|]. rewrite S1. intros e' [<-|I] M; [contradiction|exact I].
Qed.

Lemma silent_check {A} (r : res A) w k : quiet r -> (forall a, r = Ok a -> silent w (k a)) -> silent w (check W send_error r w k).
Proof.
  intros H Hk. unfold check. destruct r; [apply Hk; reflexivity|apply silent_error; exact (quiet_err_inv e H)| |]; (split; [q|auto]).
Qed.

Lemma silent_encode w x : silent w (encode W write json_encode x (send_success w)).
Proof.
  unfold encode. pose proof (encode_quiet x) as H. destruct (json_encode x) as [b|e| |].
  - destruct (sent_write (b ++ [x0a]) (send_success w)) as [S1 S2]. split; [exact S2|]. rewrite S1, sent_success. auto.
  - split; [cbn [snd]; q|]. cbn [fst]. rewrite sent_success. auto.
  - split; [cbn [snd]; q|]. cbn [fst]. rewrite sent_success. auto.
  - split; [cbn [snd]; q|]. cbn [fst]. rewrite sent_success. auto.
Qed.

Lemma known_params_perm name o loc : In (name, VOutput o) (vc_outputs v) ->
  known_params (ord loc _ (out_params o)).
Proof.
  intro I. eapply Permutation_Forall; [apply Hord|]. apply Forall_forall. intros [n p] Ip. cbn [snd]. eapply ref_param; eassumption.
Qed.

Theorem array_silent name c params w : In (name, VOutput (OArray c)) (vc_outputs v) ->
  silent w (handle_array E ord W send_error send_success write json_encode c params w).
Proof.
  intro I. pose proof (ref_output v R _ _ I) as HI. cbn [out_input] in HI.
  assert (HR : forall r, sub_rel r (ac_relationships c) -> rel_known r) by (intros r Hr; exact (ref_rel v R _ _ _ I Hr)).
  unfold handle_array. destruct (qe_inputs v E Q _ HI) as (inp & Ei). rewrite Ei.
  apply silent_check; [apply get_limit_quiet|intros limit _].
  apply silent_check; [apply get_offset_quiet|intros offset _].
  pose proof (known_params_perm _ _ [Key (lit "parameters")] I) as KP. cbn [out_params] in KP.
  destruct (array_filters_quiet params _ KP []) as [F1 F2]; [constructor|].
  apply silent_check; [exact F1|intros fpi Hfpi].
  destruct (positions_quiet [Key (lit "filters")] inp fpi (F2 _ Hfpi)) as [P1 P2].
  apply silent_check; [exact P1|intros its Hits].
  destruct (skip_rows_quiet (join_positions its) offset (join_positions_quiet _ (P2 _ Hits))) as [S1 S2].
  apply silent_check; [exact S1|intros it Hit].
  apply silent_check; [|intros rows _; apply silent_encode].
  apply take_rows_quiet; [|exact (S2 _ Hit)]. intros n p. apply data_quiet; assumption.
Qed.

Theorem object_silent name c params w : In (name, VOutput (OObject c)) (vc_outputs v) ->
  silent w (handle_object E ord W send_error send_success write json_encode c params w).
Proof.
  intro I. pose proof (ref_output v R _ _ I) as HI. cbn [out_input] in HI.
  assert (HR : forall r, sub_rel r (oc_relationships c) -> rel_known r) by (intros r Hr; exact (ref_rel v R _ _ _ I Hr)).
  unfold handle_object. destruct (qe_inputs v E Q _ HI) as (inp & Ei). rewrite Ei.
  pose proof (known_params_perm _ _ [Key (lit "parameters")] I) as KP. cbn [out_params] in KP.
  destruct (object_filters_quiet params _ KP []) as [F1 F2]; [constructor|].
  apply silent_check; [exact F1|intros fpi Hfpi].
  destruct (positions_quiet [Key (lit "filters")] inp fpi (F2 _ Hfpi)) as [P1 P2].
  apply silent_check; [exact P1|intros its Hits].
  apply silent_check; [apply pull_quiet, join_positions_quiet, P2, Hits|intros p _].
  destruct p as [p|].
  - apply silent_check; [apply data_quiet; assumption|intros d _; apply silent_encode].
  - apply silent_error. cbn. intros H. repeat destruct H as [H|H]; try discriminate; exact H.
Qed.
End Serve.
