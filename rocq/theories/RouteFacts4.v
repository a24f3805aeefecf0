(** The properties of routes, from RouteFacts3.v. *)
From Coq Require Import List ZArith Lia Bool String Permutation.
From Coq Require Import Strings.Byte ZifyBool Floats.SpecFloat.
From Verif Require Import Base BaseFacts Codec CodecFacts Value GoStrings SpecText StringsFacts Utf8Facts JsonFacts Parser ParserFacts Regex RegexFacts
  Output OutputFacts SpecOutput Http SpecHttp HttpFacts Route SpecRoute RouteFacts RouteFacts2 RouteFacts3.
Import ListNotations.
Open Scope Z_scope.

Lemma bound_parser ps o n c : bound ps o n c -> output_parser ps o n = Ok c.
Proof. intros (pc & H1 & H2). unfold output_parser. unfold output_params in H1. destruct o; rewrite H1, H2; reflexivity. Qed.

Lemma clear_route ps o parts names cfgs : clear_path ps o parts names cfgs ->
  exists r, new_route ps (template parts names) o = Ok r /\ rt_params r = names /\ rt_output r = o /\
    (forall path cs, rt_match r path = Some cs -> exists vs, path = filled parts vs /\ Forall2 fits cfgs vs /\
      List.length cs = own_index cfgs (List.length cfgs) /\ forall i v, nth_error vs i = Some v -> nth_error cs (own_index cfgs i) = Some v) /\
    (forall vs, Forall2 fits cfgs vs -> Forall (fun v => valid_utf8 v = true) vs -> rt_match r (filled parts vs) <> None).
Proof.
  intros (Hl & Hp & Hn & Hc). apply route_exact; try assumption.
  clear - Hc. induction Hc as [|n c names cfgs [H1 H2] _ IH]; constructor; [|exact IH]. split; [apply bound_parser; exact H1|exact H2].
Qed.

Lemma valid_iff_text s : valid_utf8 s = true <-> exists rs, Forall scalar rs /\ s = text rs.
Proof. split; [apply valid_is_text|]. intros (rs & H & ->). apply valid_text. exact H. Qed.

Lemma literal_only ps o parts names cfgs r path cs : clear_path ps o parts names cfgs -> new_route ps (template parts names) o = Ok r ->
  rt_match r path = Some cs -> exists vs, path = filled parts vs /\ Forall2 fits cfgs vs.
Proof.
  intros H E Hm. destruct (clear_route _ _ _ _ _ H) as (r' & E' & _ & _ & Hs & _). rewrite E in E'. injection E' as <-.
  destruct (Hs _ _ Hm) as (vs & H1 & H2 & _). eauto.
Qed.

Lemma fitting_matches ps o parts names cfgs r vs : clear_path ps o parts names cfgs -> new_route ps (template parts names) o = Ok r ->
  Forall2 fits cfgs vs -> Forall (fun v => exists rs, Forall scalar rs /\ v = text rs) vs -> exists cs, rt_match r (filled parts vs) = Some cs.
Proof.
  intros H E Hf Hv. destruct (clear_route _ _ _ _ _ H) as (r' & E' & _ & _ & _ & Hc). rewrite E in E'. injection E' as <-.
  destruct (rt_match r (filled parts vs)) eqn:Em; [eauto|]. exfalso. apply (Hc vs Hf); [|exact Em].
  eapply Forall_impl; [|exact Hv]. intros v. apply valid_iff_text.
Qed.

Lemma route_built ps o parts names cfgs : clear_path ps o parts names cfgs -> exists r, new_route ps (template parts names) o = Ok r.
Proof. intros H. destruct (clear_route _ _ _ _ _ H) as (r & E & _). eauto. Qed.

(** *** Parameters *)
Lemma own_index_none cfgs i : Forall (fun c => grouping c = false) (firstn i cfgs) -> own_index cfgs i = i.
Proof.
  intros H. unfold own_index. replace (filter grouping (firstn i cfgs)) with (@nil pconfig); [cbn; lia|].
  induction H as [|c l Hc _ IH]; [reflexivity|]. cbn [filter]. rewrite Hc. exact IH.
Qed.

Lemma F2_nth {A B} (P : A -> B -> Prop) l l' i x : Forall2 P l l' -> nth_error l i = Some x -> exists y, nth_error l' i = Some y /\ P x y.
Proof. intros H. revert i. induction H as [|a b l l' Hab _ IH]; intros [|i] E; try discriminate E; cbn in *; [injection E as ->; eauto|auto]. Qed.

Lemma own_text ps o parts names cfgs r rq cs : clear_path ps o parts names cfgs -> NoDup names -> new_route ps (template parts names) o = Ok r ->
  rt_match r (rq_path rq) = Some cs ->
  exists vs params, rq_path rq = filled parts vs /\ Forall2 fits cfgs vs /\ get_params r rq = Ok params /\
    forall i n, nth_error names i = Some n -> Forall (fun c => grouping c = false) (firstn i cfgs) -> mget params n = nth_error vs i /\ nth_error vs i <> None.
Proof.
  intros H Hd E Hm. destruct (clear_route _ _ _ _ _ H) as (r' & E' & Hn & _ & Hs & _). rewrite E in E'. injection E' as <-.
  destruct (Hs _ _ Hm) as (vs & H1 & H2 & H3 & H4). destruct H as (_ & _ & _ & Hc). pose proof (F2_length _ _ _ Hc) as L1. pose proof (F2_length _ _ _ H2) as L2.
  assert (Hlen : (List.length (rt_params r) <= List.length cs)%nat) by (rewrite Hn, H3, L1; unfold own_index; lia).
  destruct (path_params_ok (rt_params r) cs (query_params (rq_query rq) []) Hlen) as (params & Hps).
  exists vs, params. split; [exact H1|]. split; [exact H2|]. split; [unfold get_params; rewrite Hm; exact Hps|].
  intros i n Hi Hg. rewrite Hn in Hps. rewrite (path_params_get names cs _ _ i n Hd Hps Hi).
  destruct (nth_error vs i) as [v|] eqn:Ev.
  - pose proof (H4 i v Ev) as Hv. rewrite own_index_none in Hv by exact Hg. rewrite Hv. split; [reflexivity|discriminate].
  - exfalso. apply nth_error_None in Ev. assert (Hx : (i < List.length names)%nat) by (apply nth_error_Some; rewrite Hi; discriminate). lia.
Qed.

Lemma built_enough ps o parts names cfgs r path cs : clear_path ps o parts names cfgs -> new_route ps (template parts names) o = Ok r ->
  rt_match r path = Some cs -> (List.length (rt_params r) <= List.length cs)%nat.
Proof.
  intros H E Hm. destruct (clear_route _ _ _ _ _ H) as (r' & E' & Hn & _ & Hs & _). rewrite E in E'. injection E' as <-.
  destruct (Hs _ _ Hm) as (vs & H1 & H2 & H3 & H4). destruct H as (_ & _ & _ & Hc). pose proof (F2_length _ _ _ Hc) as L1.
  rewrite Hn, H3, L1. unfold own_index. lia.
Qed.

Lemma first_value_det q n r r' : first_value q n r -> first_value q n r' -> r = r'.
Proof. intros H. revert r'. induction H; intros r'' H'; inversion H'; subst; auto; congruence. Qed.

Lemma query_first q : forall acc n, exists r, first_value q n r /\ mget (query_params q acc) n = match mget acc n with Some v => Some v | None => r end.
Proof.
  induction q as [|[m v] q IH]; intros acc n; cbn [query_params].
  - exists None. split; [constructor|]. destruct (mget acc n); reflexivity.
  - destruct (bytes_dec m n) as [->|Hne].
    + exists (Some v). split; [constructor|]. destruct (IH (match mget acc n with Some _ => acc | None => mset acc n v end) n) as (r & _ & E).
      rewrite E. destruct (mget acc n) as [w|] eqn:Ea; [rewrite Ea; reflexivity|rewrite mget_mset_same; reflexivity].
    + destruct (IH (match mget acc m with Some _ => acc | None => mset acc m v end) n) as (r & Hr & E).
      exists r. split; [constructor; assumption|]. rewrite E. destruct (mget acc m); [reflexivity|]. rewrite mget_mset_other by congruence. reflexivity.
Qed.

Lemma path_params_in names : forall cs p1 p2 ps1 ps2 n, path_params names cs p1 = Ok ps1 -> path_params names cs p2 = Ok ps2 -> In n names \/ mget p1 n = mget p2 n ->
  mget ps1 n = mget ps2 n.
Proof.
  induction names as [|m names IH]; intros cs p1 p2 ps1 ps2 n; cbn [path_params].
  - intros [= <-] [= <-] [[]|H]. exact H.
  - destruct cs as [|c cs]; [discriminate|]. intros H1 H2 Hin. apply (IH _ _ _ _ _ _ H1 H2).
    destruct (bytes_dec m n) as [->|Hne]; [right; rewrite !mget_mset_same; reflexivity|].
    destruct Hin as [[E|Hin]|E]; [congruence|left; exact Hin|right]. rewrite !mget_mset_other by congruence. exact E.
Qed.

Lemma path_wins r rq rq' ps ps' n : rq_path rq = rq_path rq' -> get_params r rq = Ok ps -> get_params r rq' = Ok ps' -> In n (rt_params r) -> mget ps n = mget ps' n.
Proof. unfold get_params. intros E H1 H2 Hin. rewrite E in H1. exact (path_params_in _ _ _ _ _ _ _ H1 H2 (or_introl Hin)). Qed.

Lemma path_values r rq ps cs i n : NoDup (rt_params r) -> rt_match r (rq_path rq) = Some cs -> get_params r rq = Ok ps -> nth_error (rt_params r) i = Some n -> mget ps n = nth_error cs i.
Proof. unfold get_params. intros Hd Hm H Hi. rewrite Hm in H. exact (path_params_get _ _ _ _ _ _ Hd H Hi). Qed.

Lemma query_others r rq ps n v : get_params r rq = Ok ps -> ~ In n (rt_params r) -> (first_value (rq_query rq) n v <-> mget ps n = v).
Proof.
  unfold get_params. intros H Hn. rewrite (path_params_other _ _ _ _ _ H Hn). destruct (query_first (rq_query rq) [] n) as (r0 & Hr & E).
  cbn [mget] in E. rewrite E. split; [intros Hv; exact (first_value_det _ _ _ _ Hr Hv)|intros <-; exact Hr].
Qed.

(** *** Routing *)
Lemma serve_first E ord ff et wo routes rq r : first_match routes rq r ->
  serve E ord ff et wo routes rq = match get_params r rq with
    | Ok params => handle E ord ff et wo (rt_output r) params []
    | Err e => ([], Err e) | Panic => ([], Panic) | NoFuel => ([], NoFuel) end.
Proof. intros H. apply matching_first in H. unfold serve. rewrite H. reflexivity. Qed.

Lemma serve_none E ord ff et wo routes rq : (rq_method rq <> lit "GET" \/ forall r, In r routes -> rt_match r (rq_path rq) = None) ->
  serve E ord ff et wo routes rq = send_error_response ff et wo 404 (EMsg "No matching route was found") [].
Proof.
  intros H. assert (Hn : matching_route routes rq = None) by (apply matching_none; intros Hg; destruct H as [H|H]; [contradiction|exact H]).
  unfold serve. rewrite Hn. reflexivity.
Qed.

Lemma route_or_none routes rq : (exists r, first_match routes rq r) \/ (rq_method rq <> lit "GET" \/ forall r, In r routes -> rt_match r (rq_path rq) = None).
Proof.
  destruct (matching_route routes rq) as [r|] eqn:E; [left; exists r; apply matching_first; exact E|right].
  pose proof (proj1 (matching_none _ _) E) as H. destruct (bytes_dec (rq_method rq) (lit "GET")) as [Hg|Hg]; [right; exact (H Hg)|left; exact Hg].
Qed.

Lemma first_match_not_none routes rq r : first_match routes rq r -> ~ (rq_method rq <> lit "GET" \/ forall r, In r routes -> rt_match r (rq_path rq) = None).
Proof.
  intros H Hn. assert (E : matching_route routes rq = None) by (apply matching_none; intros Hg; destruct Hn as [Hn|Hn]; [contradiction|exact Hn]).
  apply matching_first in H. congruence.
Qed.

(** *** The pattern of one parameter *)
Definition whole (c : pconfig) : res regexp := compile (lit "^(" ++ pattern c ++ lit ")$").

Lemma whole_ok c : clear c -> whole c = Ok (mkRegexp (prog [] [c] [[]]) (ngroups 0 [c])).
Proof.
  intros H. unfold whole. destruct (pattern_text c H) as [E _]. rewrite E.
  replace (lit "^(" ++ text (rpat c) ++ lit ")$") with (text (94 :: [] ++ rtail [c] [[]] ++ [36])).
  - apply compile_path; [constructor|reflexivity|constructor; [exact H|constructor]|repeat constructor].
  - cbn [rtail app]. change (94 :: 40 :: (rpat c ++ [41]) ++ [36]) with ([94; 40] ++ (rpat c ++ [41]) ++ [36]). rewrite <- app_assoc, !text_app. reflexivity.
Qed.

Lemma whole_sound c re s cs : clear c -> whole c = Ok re -> find_submatch re s = Some cs -> fits c s.
Proof.
  intros H E Hm. rewrite (whole_ok c H) in E. injection E as <-.
  apply match_sound in Hm as (vs & E1 & E2 & _); [|constructor|reflexivity|constructor; [exact H|constructor]|repeat constructor].
  inversion E2 as [|? v ? ? Hf Hn]. inversion Hn. subst. cbn [map filled text flat_map app]. rewrite app_nil_r. exact Hf.
Qed.
Lemma whole_complete c re s : clear c -> whole c = Ok re -> fits c s -> valid_utf8 s = true -> find_submatch re s <> None.
Proof.
  intros H E Hf Hv. rewrite (whole_ok c H) in E. injection E as <-.
  pose proof (match_complete [] [c] [[]] [s]) as Hx. cbn [map filled text flat_map app] in Hx. rewrite app_nil_r in Hx.
  apply Hx; [constructor|reflexivity|constructor; [exact H|constructor]|repeat constructor|repeat constructor; exact Hf|repeat constructor; exact Hv].
Qed.

Lemma in_array_iff s l : is_in_array s l = true <-> In s l.
Proof.
  unfold is_in_array. rewrite existsb_exists. split.
  - intros (x & Hx & E). apply bytes_eqb_eq in E as ->. exact Hx.
  - intros H. exists s. split; [exact H|]. apply bytes_eqb_eq. reflexivity.
Qed.

Lemma boolean_parse t f s : (parse_boolean t f s = Ok (VBool true) <-> In s t) /\ (parse_boolean t f s = Ok (VBool false) <-> In s f /\ ~ In s t) /\
  ((exists e, parse_boolean t f s = Err e) <-> ~ In s (t ++ f)).
Proof.
  unfold parse_boolean. destruct (is_in_array s t) eqn:Et; [|destruct (is_in_array s f) eqn:Ef].
  - apply in_array_iff in Et. split; [tauto|]. split; [split; [discriminate|tauto]|]. split; [intros (e & [=])|]. intros H. exfalso. apply H, in_app_iff. auto.
  - apply in_array_iff in Ef. assert (Hn : ~ In s t) by (intros Hx; apply in_array_iff in Hx; congruence).
    split; [split; [discriminate|tauto]|]. split; [tauto|]. split; [intros (e & [=])|]. intros H. exfalso. apply H, in_app_iff. auto.
  - assert (Hn : ~ In s t) by (intros Hx; apply in_array_iff in Hx; congruence). assert (Hm : ~ In s f) by (intros Hx; apply in_array_iff in Hx; congruence).
    split; [split; [discriminate|tauto]|]. split; [split; [discriminate|tauto]|]. split; [intros _; rewrite in_app_iff; tauto|intros _; eauto].
Qed.

Lemma boolean_pattern t f : t ++ f <> [] -> Forall value_text (t ++ f) ->
  exists re, compile (lit "^(" ++ pattern (PBoolean t f) ++ lit ")$") = Ok re /\
  forall s, (exists cs, find_submatch re s = Some cs) <-> In s (t ++ f).
Proof.
  intros H1 H2. assert (Hc : clear (PBoolean t f)) by (split; assumption). eexists. split; [exact (whole_ok _ Hc)|]. intros s. split.
  - intros (cs & Hm). exact (whole_sound _ _ _ _ Hc (whole_ok _ Hc) Hm).
  - intros Hin. destruct (find_submatch _ s) eqn:E; [eauto|]. exfalso. revert E.
    apply (whole_complete (PBoolean t f)); [exact Hc|exact (whole_ok _ Hc)|exact Hin|].
    rewrite Forall_forall in H2. destruct (H2 s Hin) as (rs & -> & Hr). apply valid_text. eapply Forall_impl; [|exact Hr]. intros x Hx. exact (proj1 Hx).
Qed.

(** *** Integers *)
Lemma digits_decimal rs : Forall (fun c => 48 <= c <= 57) rs -> rs <> [] -> exists z, decimal (text rs) z.
Proof.
  intros H Hne. induction rs as [|c rs IH] using rev_ind; [congruence|]. apply Forall_app in H as [H1 H2]. inversion H2 as [|? ? Hc _]. subst.
  assert (Ec : exists b, encode_rune c = [b] /\ Z_of_byte b = c).
  { pose proof (encode_encoding c ltac:(unfold scalar; lia)) as He. destruct He; try lia. eauto. }
  destruct Ec as (b & Ec & Hb). rewrite text_app. cbn [text flat_map]. rewrite Ec. cbn [app].
  destruct rs as [|c' rs]; [exists (Z_of_byte b - 48); apply dec_one; lia|].
  destruct (IH H1 ltac:(discriminate)) as (z & Hz). exists (10 * z + (Z_of_byte b - 48)). apply dec_snoc; [exact Hz|lia].
Qed.

Lemma filter_none {A} (f : A -> bool) l : Forall (fun x => f x = false) l -> filter f l = [].
Proof. induction 1 as [|x l Hx _ IH]; [reflexivity|]. cbn. rewrite Hx. exact IH. Qed.

Lemma number_parses cs s : Forall (fun c => scalar c /\ c <> 45 /\ c <> rune_error) cs -> number_text cs (runes s) ->
  (exists c, In c (runes s) /\ 48 <= c <= 57 /\ ~ In c cs) ->
  exists z, signed_decimal (text (filter (fun r => negb (existsb (Z.eqb r) cs)) (runes s))) z /\
    ((in_i64 z /\ parse_integer (text cs) s = Ok (VInt z)) \/ (~ in_i64 z /\ exists e, parse_integer (text cs) s = Err e)).
Proof.
  intros Hcs (a & sg & d & E & Ha & Hsg & Hd & HF) (c & Hin & Hc & Hnc).
  assert (Hni : forall x, In x cs -> not_in cs x = false).
  { intros x Hx. unfold not_in. apply negb_false_iff, existsb_exists. exists x. split; [exact Hx|apply Z.eqb_refl]. }
  assert (Hnn : forall x, not_in cs x = true -> ~ In x cs) by (intros x H1 H2; rewrite (Hni x H2) in H1; discriminate).
  assert (Hna : forall x, ~ In x cs -> not_in cs x = true).
  { intros x Hx. unfold not_in. apply negb_true_iff, not_true_iff_false. intros H. apply existsb_exists in H as (y & Hy & Ey). apply Z.eqb_eq in Ey as ->. exact (Hx Hy). }
  assert (H45 : ~ In 45 cs) by (intros H; rewrite Forall_forall in Hcs; destruct (Hcs 45 H) as (_ & H2 & _); congruence).
  set (ds := filter (not_in cs) d).
  assert (Ef : filter (not_in cs) (runes s) = sg ++ ds).
  { rewrite E, !filter_app. rewrite filter_none by (eapply Forall_impl; [|exact Ha]; exact Hni). cbn [app]. f_equal.
    destruct Hsg as [->| ->]; [reflexivity|]. cbn [filter]. rewrite Hna by exact H45. reflexivity. }
  assert (Hdig : Forall (fun c => 48 <= c <= 57) ds).
  { apply Forall_forall. intros x Hx. apply filter_In in Hx as [Hx Hy]. rewrite Forall_forall in HF. destruct (HF x Hx) as [H|H]; [exact H|]. exfalso. exact (Hnn x Hy H). }
  assert (Hds : ds <> []).
  { intros Eds. assert (Hx : In c (filter (not_in cs) (runes s))) by (apply filter_In; split; [exact Hin|apply Hna; exact Hnc]).
    rewrite Ef, Eds, app_nil_r in Hx. destruct Hsg as [->| ->]; cbn in Hx; [destruct Hx|]. lia. }
  destruct (digits_decimal ds Hdig Hds) as (z & Hz).
  assert (Hsd : exists z', signed_decimal (text (sg ++ ds)) z').
  { destruct Hsg as [->| ->]; [exists z; apply sd_none; exact Hz|exists (- z); rewrite text_app; exact (sd_minus _ _ Hz)]. }
  destruct Hsd as (z' & Hz'). exists z'.
  change (fun r => negb (existsb (Z.eqb r) cs)) with (not_in cs). rewrite Ef. split; [exact Hz'|].
  assert (Hs : Forall (fun c => scalar c /\ c <> rune_error) (runes s)).
  { rewrite E. apply Forall_app. split; [eapply Forall_impl; [|exact Ha]|apply Forall_app; split].
    - intros x Hx. rewrite Forall_forall in Hcs. destruct (Hcs x Hx) as (H1 & _ & H3). auto.
    - destruct Hsg as [->| ->]; [apply Forall_nil|]. apply Forall_cons; [|apply Forall_nil]. unfold scalar, rune_error. lia.
    - eapply Forall_impl; [|exact HF]. intros x [Hx|Hx]; [unfold scalar, rune_error; lia|]. rewrite Forall_forall in Hcs. destruct (Hcs x Hx) as (H1 & _ & H3). auto. }
  assert (Et : s = text (runes s)).
  { rewrite runes_chars in *. rewrite <- raw_lits; [symmetry; apply raw_chars|apply chars_shape|]. eapply Forall_impl; [|exact Hs]. intros x Hx. exact (proj2 Hx). }
  assert (Er : remove_characters s (text cs) = text (sg ++ ds)).
  { rewrite Et, remove_text; [rewrite Ef; reflexivity| |].
    - eapply Forall_impl; [|exact Hcs]. intros x Hx. exact (proj1 Hx).
    - eapply Forall_impl; [|exact Hs]. intros x Hx. exact (proj1 Hx). }
  destruct (parse_integer_safe (text cs) s) as [(y & Hy)|(e & He)].
  - left. pose proof Hy as Hy'. apply parse_integer_Ok in Hy' as (y' & Ey & H1 & H2). injection Ey as ->. rewrite Er in H1.
    rewrite (signed_decimal_unique _ _ _ Hz' H1). auto.
  - right. split; [|eauto]. intros Hi. assert (Hok : parse_integer (text cs) s = Ok (VInt z')).
    { apply parse_integer_Ok. exists z'. rewrite Er. auto. }
    congruence.
Qed.

Lemma integer_pattern cs s re caps : Forall (fun c => scalar c /\ c <> 45 /\ c <> rune_error) cs ->
  compile (lit "^(" ++ pattern (PInteger (text cs)) ++ lit ")$") = Ok re -> find_submatch re s = Some caps ->
  (exists c, In c (runes s) /\ 48 <= c <= 57 /\ ~ In c cs) ->
  exists z, signed_decimal (text (filter (fun r => negb (existsb (Z.eqb r) cs)) (runes s))) z /\
    ((in_i64 z /\ parse_integer (text cs) s = Ok (VInt z)) \/ (~ in_i64 z /\ exists e, parse_integer (text cs) s = Err e)).
Proof.
  intros Hcs E Hm Hd. apply number_parses; [exact Hcs| |exact Hd].
  assert (Hc : clear (PInteger (text cs))).
  { exists cs. split; [reflexivity|]. eapply Forall_impl; [|exact Hcs]. intros x (H1 & H2 & _). auto. }
  pose proof (whole_sound _ _ _ _ Hc E Hm) as Hf. cbn [fits] in Hf. rewrite runes_text in Hf; [exact Hf|].
  eapply Forall_impl; [|exact Hcs]. intros x Hx. exact (proj1 Hx).
Qed.

Lemma integer_pattern_compiles cs : Forall (fun c => scalar c /\ c <> 45) cs -> exists re, compile (lit "^(" ++ pattern (PInteger (text cs)) ++ lit ")$") = Ok re.
Proof. intros H. eexists. apply whole_ok. exists cs. auto. Qed.
