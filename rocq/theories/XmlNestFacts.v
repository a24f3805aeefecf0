(** An iteration over a file in which every element is closed does not fail. *)
From Coq Require Import List ZArith Lia Bool String.
From Coq Require Import Strings.Byte.
From Verif Require Import Base BaseFacts Prog XmlStream SpecXml SpecXmlNest XmlFacts XmlReadFacts.
Import ListNotations.
Open Scope nat_scope.

(** The level of a node is the number of nodes above it. *)
Fixpoint levels (sp : list frame) : Prop :=
  match sp with [] => True | f :: r => f_level f = List.length r /\ levels r end.

Lemma climb_levels n : forall sp, n < List.length sp -> levels sp ->
  exists sp', climb n sp = Some sp' /\ levels sp' /\ List.length sp' = List.length sp - n.
Proof.
  induction n as [|n IH]; intros sp Hn Hl.
  - exists sp. split; [reflexivity|]. split; [exact Hl|lia].
  - cbn [climb]. destruct sp as [|f [|g r]]; cbn [List.length] in Hn; try lia. cbn [climb1]. cbn [levels] in Hl. destruct Hl as (H1 & H2 & H3).
    destruct (IH (mkFrame (f_level g) (f_kind g) (f_before g ++ frame_tree f :: f_after g) [] :: r)) as (sp' & E & L & N); [cbn [List.length] in *; lia|split; assumption|].
    exists sp'. split; [exact E|]. split; [exact L|]. cbn [List.length] in *. lia.
Qed.

Lemma add_node_levels l k sp : levels sp -> 1 <= l -> l <= List.length sp -> exists sp', add_node l k sp = Some sp' /\ levels sp' /\ List.length sp' = S l.
Proof.
  intros Hl H1 H2. destruct sp as [|f r]; [cbn in H2; lia|]. unfold add_node. pose proof Hl as [Hf _]. cbn [List.length] in H2. destruct (Nat.ltb_spec (f_level f) l) as [H|H].
  - assert (l = S (List.length r)) by lia. subst l. eexists. split; [reflexivity|]. split; [|reflexivity]. split; [reflexivity|exact Hl].
  - destruct (climb_levels (S (f_level f - l)) (f :: r)) as (sp' & -> & L & N); [cbn [List.length]; lia|exact Hl|]. cbn [List.length] in N.
    eexists. split; [reflexivity|]. split; [|cbn [List.length]; lia]. split; [cbn [f_level]; lia|exact L].
Qed.

Lemma after_levels t f r : levels (f :: r) -> levels (add_after t f :: r).
Proof. intros H. exact H. Qed.

Lemma add_leaf_levels l t sp : levels sp -> sp <> [] -> l <= List.length sp ->
  exists sp', add_leaf l t sp = Some sp' /\ levels sp' /\ l <= List.length sp' /\ (List.length sp' = List.length sp \/ List.length sp' = l + 2).
Proof.
  intros Hl Hne Hn. destruct sp as [|f r]; [congruence|]. unfold add_leaf. pose proof Hl as [Hf Hr]. destruct (Nat.compare_spec l (f_level f)) as [E|E|E].
  - destruct r as [|g r]; (eexists; split; [reflexivity|]; split; [exact Hl|]; split; [exact Hn|left; reflexivity]).
  - destruct (climb_levels (f_level f - l - 1) (f :: r)) as (sp' & -> & L & N); [cbn [List.length]; lia|exact Hl|]. cbn [List.length] in N.
    assert (N' : List.length sp' = l + 2) by lia. destruct sp' as [|a [|b [|c sp']]]; cbn [List.length] in N'; try lia;
      (eexists; split; [reflexivity|]; split; [exact L|]; cbn [List.length]; split; [lia|right; lia]).
  - eexists. split; [reflexivity|]. split; [split; assumption|]. cbn [List.length] in *. split; [exact Hn|left; reflexivity].
Qed.

Section File.
Variable file : xfile.
Variable chunk : nat.
Variable pat : xpattern.
Notation toks_from i := (skipn i (map fst file)).

(** What the decoder has to give. *)
Definition coming (d : xdec) : list rawtok := match x_close d with Some n => REnd n :: toks_from (x_pos d) | None => toks_from (x_pos d) end.

(** In the heading. *)
Definition early (p : xpstate) : Prop :=
  xp_stream p = None /\ levels (xp_spine p) /\ x_close (xp_dec p) = None /\ x_stack (xp_dec p) = [] /\
  (xp_level p = 0 /\ (exists f, xp_spine p = [f] /\ match f_kind f with KDecl _ => False | _ => True end) \/
   xp_level p = 1 /\ exists f r, xp_spine p = f :: r /\ List.length r = 1 /\ match f_kind f with KDecl _ => True | _ => False end).

(** In the elements. *)
Record within (p : xpstate) : Prop := mkWithin {
  wi_spine : xp_spine p <> [];
  wi_levels : levels (xp_spine p);
  wi_level : xp_level p <= List.length (xp_spine p);
  wi_stack : xp_level p = S (List.length (x_stack (xp_dec p))) \/ xp_level p = 0 /\ x_stack (xp_dec p) = [] /\ List.length (xp_spine p) = 1;
  wi_stream : match xp_stream p with None => True | Some (d, l) => 1 <= l /\ d = S l /\ d <= List.length (xp_spine p) /\ l < xp_level p end;
}.
Definition plain (d : xdec) : Prop := x_ahead d = None /\ x_err d = None.

Definition going (p : xpstate) : Prop :=
  plain (xp_dec p) /\
  (early p /\ (exists hd body, coming (xp_dec p) = hd ++ body /\ Forall heading hd /\ nested [] body) \/
   within p /\ nested (x_stack (xp_dec p)) (coming (xp_dec p))).

Lemma early_within p : early p -> within p.
Proof.
  intros (H1 & H2 & H3 & H4 & H5). destruct H5 as [[H5 (f & H6 & _)]|[H5 (f & r & H6 & H7 & _)]]; constructor.
  - congruence.
  - exact H2.
  - lia.
  - right. rewrite H6. auto.
  - rewrite H1. exact I.
  - congruence.
  - exact H2.
  - rewrite H6. cbn [List.length]. lia.
  - left. rewrite H4. exact H5.
  - rewrite H1. exact I.
Qed.

Lemma nth_some d t rest : toks_from d = t :: rest -> exists n, nth_error file d = Some (t, n) /\ toks_from (S d) = rest.
Proof.
  revert d. induction file as [|[u m] l IH]; intros [|i] H; cbn [map skipn fst nth_error] in *; try discriminate.
  - injection H as -> ->. exists m. split; reflexivity.
  - apply IH. exact H.
Qed.
Lemma nth_none d : toks_from d = [] -> nth_error file d = None.
Proof.
  intros H. apply nth_error_None. assert (E : List.length (toks_from d) = 0) by (rewrite H; reflexivity). rewrite skipn_length, map_length in E. lia.
Qed.

(** What the decoder gives next. *)
Definition opens (stk : list bytes) (t : rawtok) : list bytes * rawtok :=
  match t with
  | RStart n a | RVoid n a => (n :: stk, RStart n a)
  | REnd n => (tl stk, REnd n)
  | t => (stk, t)
  end.
Lemma token_next d t rest : plain d -> coming d = t :: rest -> (forall n, t = REnd n -> exists stk, x_stack d = n :: stk) -> (forall tg, t <> RProc tg true) ->
  exists d', token file chunk d = (d', Ok (snd (opens (x_stack d) t))) /\ plain d' /\ x_stack d' = fst (opens (x_stack d) t) /\
    coming d' = (match t with RVoid n _ => [REnd n] | _ => [] end) ++ rest.
Proof.
  intros [Ha He] Hc Hs Hp. unfold token, raw_token, coming in *. rewrite He. destruct (x_close d) as [n|] eqn:Ec.
  - injection Hc as <- <-. destruct (Hs n eq_refl) as (stk & Es). cbn [set_close x_stack]. rewrite Es, bytes_eqb_refl.
    eexists. split; [reflexivity|]. split; [split; assumption|]. split; [reflexivity|]. reflexivity.
  - unfold take_raw. rewrite Ha. destruct (nth_some _ _ _ Hc) as (m & -> & Hr). destruct t as [n a|n a|n|s|s|tg [|]|s]; cbn [x_stack set_stack set_close opens fst snd].
    + eexists. split; [reflexivity|]. split; [split; (reflexivity || assumption)|]. split; [reflexivity|]. cbn [x_close x_pos set_stack]. rewrite Ec. exact Hr.
    + eexists. split; [reflexivity|]. split; [split; (reflexivity || assumption)|]. split; [reflexivity|]. cbn [x_close x_pos set_stack set_close app]. f_equal. exact Hr.
    + destruct (Hs n eq_refl) as (stk & Es). rewrite Es, bytes_eqb_refl. eexists. split; [reflexivity|]. split; [split; (reflexivity || assumption)|]. split; [reflexivity|]. cbn [x_close x_pos set_stack]. rewrite Ec. exact Hr.
    + eexists. split; [reflexivity|]. split; [split; (reflexivity || assumption)|]. split; [reflexivity|]. cbn [x_close x_pos]. rewrite Ec. exact Hr.
    + eexists. split; [reflexivity|]. split; [split; (reflexivity || assumption)|]. split; [reflexivity|]. cbn [x_close x_pos]. rewrite Ec. exact Hr.
    + destruct (Hp tg eq_refl).
    + eexists. split; [reflexivity|]. split; [split; (reflexivity || assumption)|]. split; [reflexivity|]. cbn [x_close x_pos]. rewrite Ec. exact Hr.
    + eexists. split; [reflexivity|]. split; [split; (reflexivity || assumption)|]. split; [reflexivity|]. cbn [x_close x_pos]. rewrite Ec. exact Hr.
Qed.

Lemma token_last d : plain d -> coming d = [] -> x_stack d = [] -> exists d', token file chunk d = (d', Err EEof).
Proof.
  intros [Ha He] Hc Hs. unfold token, raw_token, coming in *. rewrite He. destruct (x_close d) as [n|] eqn:Ec; [discriminate|].
  unfold take_raw. rewrite Ha, (nth_none _ Hc). cbn [set_err x_stack]. rewrite Hs. eauto.
Qed.

Lemma start_step p d n a : within p -> x_stack d = n :: x_stack (xp_dec p) -> token file chunk (xp_dec p) = (d, Ok (RStart n a)) ->
  exists p', xstep file chunk pat p = (p', Ok None) /\ within p' /\ xp_dec p' = d.
Proof.
  intros [W1 W2 W3 W4 W5] Hd Ht. unfold xstep. rewrite Ht.
  assert (G : forall sp l, levels sp -> 1 <= l <= List.length sp -> l = S (List.length (x_stack (xp_dec p))) ->
    (match xp_stream p with None => True | Some (d, l') => 1 <= l' /\ d = S l' /\ l' < l end) ->
    exists p', (match add_node l (KElem n a) sp with
      | None => (mkXp d (xp_spine p) (xp_level p) (xp_stream p), Err unmodelled)
      | Some sp' => let stream := match xp_stream p with Some s => Some s | None => if existsb (selects pat []) (whole sp' []) then Some (List.length sp', l) else None end in
        (mkXp d sp' (S l) stream, Ok None) end) = (p', Ok (@None xtree)) /\ within p' /\ xp_dec p' = d).
  { intros sp l Hl Hn Hst Hstr. destruct (add_node_levels l (KElem n a) sp Hl) as (sp' & -> & L & N); [lia|lia|]. cbv zeta. eexists. split; [reflexivity|]. split; [|reflexivity].
    constructor; cbn [xp_spine xp_level xp_dec xp_stream].
    - intros ->. discriminate N.
    - exact L.
    - lia.
    - left. rewrite Hd. cbn [List.length]. lia.
    - destruct (xp_stream p) as [[d0 l0]|]; [lia|]. destruct (existsb _ _); [|exact I]. lia. }
  destruct (xp_level p) as [|l] eqn:El.
  - destruct W4 as [W4|(_ & W4 & W6)]; [discriminate|]. apply G.
    + split; [cbn; lia|exact W2].
    + cbn [List.length]. lia.
    + rewrite W4. reflexivity.
    + destruct (xp_stream p) as [[d0 l0]|]; [lia|exact I].
  - destruct W4 as [W4|(W4 & _)]; [|discriminate]. apply G.
    + exact W2.
    + lia.
    + exact W4.
    + destruct (xp_stream p) as [[d0 l0]|]; [lia|exact I].
Qed.

Lemma leaf_step p d t u : within p -> x_stack d = x_stack (xp_dec p) -> token file chunk (xp_dec p) = (d, Ok t) ->
  (t = RText u /\ True \/ t = RComment u) -> exists sp', xstep file chunk pat p = (mkXp d sp' (xp_level p) (xp_stream p), Ok None) /\
  add_leaf (xp_level p) (match t with RText s => XText s | RComment s => XComment s | _ => XText [] end) (xp_spine p) = Some sp' /\
  within (mkXp d sp' (xp_level p) (xp_stream p)).
Proof.
  intros [W1 W2 W3 W4 W5] Hd Ht Hu. unfold xstep. rewrite Ht.
  assert (G : forall x, exists sp', add_leaf (xp_level p) x (xp_spine p) = Some sp' /\ within (mkXp d sp' (xp_level p) (xp_stream p))).
  { intros x. destruct (add_leaf_levels (xp_level p) x (xp_spine p) W2 W1 W3) as (sp' & E & L & N & M). exists sp'. split; [exact E|].
    constructor; cbn [xp_spine xp_level xp_dec xp_stream].
    - intros ->. cbn [List.length] in M. destruct M as [M|M]; [|lia]. destruct (xp_spine p); [congruence|discriminate M].
    - exact L.
    - exact N.
    - rewrite Hd. destruct W4 as [W4|(W4 & W6 & W7)]; [left; exact W4|]. right. split; [exact W4|]. split; [exact W6|].
      destruct (xp_spine p) as [|f [|g r]]; try discriminate W7. destruct W2 as [W2 _]. cbn [List.length] in W2. cbn [add_leaf] in E. rewrite W4, W2 in E. cbn in E. injection E as <-. reflexivity.
    - destruct (xp_stream p) as [[d0 l0]|]; [|exact I]. lia. }
  destruct Hu as [[-> _]| ->].
  - destruct (G (XText u)) as (sp' & E & H). exists sp'. rewrite E. auto.
  - destruct (G (XComment u)) as (sp' & E & H). exists sp'. rewrite E. auto.
Qed.

(** After a record. *)
Definition given (p : xpstate) : Prop :=
  match xp_stream p with
  | Some (d, l) => 1 <= l /\ d = S l /\ d <= List.length (xp_spine p) /\ xp_level p = l /\ levels (xp_spine p) /\ xp_level p = S (List.length (x_stack (xp_dec p)))
  | None => False
  end.

Lemma given_settle p : given p -> within (settle p) /\ xp_dec (settle p) = xp_dec p /\ xp_stream (settle p) = None.
Proof.
  unfold given, settle. destruct (xp_stream p) as [[d l]|]; [|contradiction]. intros (H1 & H2 & H3 & H4 & H5 & H6).
  destruct (climb_levels (List.length (xp_spine p) - d) (xp_spine p)) as (sp' & -> & L & N); [lia|exact H5|].
  destruct sp' as [|f [|g r]]; cbn [List.length] in N; try lia. split; [|split; reflexivity]. destruct L as (_ & L1 & L2). constructor; cbn [xp_spine xp_level xp_dec xp_stream].
  - discriminate.
  - split; assumption.
  - cbn [List.length]. lia.
  - left. exact H6.
  - exact I.
Qed.

Lemma end_step p d n stk : within p -> x_stack (xp_dec p) = n :: stk -> x_stack d = stk -> token file chunk (xp_dec p) = (d, Ok (REnd n)) ->
  exists p', xp_dec p' = d /\ (xstep file chunk pat p = (p', Ok None) /\ within p' \/ exists t, xstep file chunk pat p = (p', Ok (Some t)) /\ given p').
Proof.
  intros [W1 W2 W3 W4 W5] Hs Hd Ht. unfold xstep. rewrite Ht. rewrite Hs in W4. cbn [List.length] in W4. destruct W4 as [W4|(_ & W4 & _)]; [|discriminate].
  destruct (xp_stream p) as [[d0 l0]|] eqn:Es.
  - destruct (Nat.eqb_spec (xp_level p - 1) l0) as [E|E].
    + destruct (climb_levels (List.length (xp_spine p) - d0) (xp_spine p)) as (sp' & -> & L & N); [lia|exact W2|].
      destruct sp' as [|f sp']; [cbn [List.length] in N; lia|]. eexists. split; [|right; eexists; split; [reflexivity|]]; [reflexivity|].
      unfold given. cbn [xp_stream xp_level xp_spine xp_dec]. rewrite Hd. repeat split; try lia; [exact W2].
    + eexists. split; [|left; split; [reflexivity|]]; [reflexivity|]. constructor; cbn [xp_spine xp_level xp_dec xp_stream]; try assumption; try lia. left. rewrite Hd. lia.
  - eexists. split; [|left; split; [reflexivity|]]; [reflexivity|]. constructor; cbn [xp_spine xp_level xp_dec xp_stream]; try assumption; try lia; try exact I. left. rewrite Hd. lia.
Qed.

Lemma within_leaf_early p d sp' x : early p -> plain d -> x_stack d = [] -> x_close d = None -> add_leaf (xp_level p) x (xp_spine p) = Some sp' ->
  early (mkXp d sp' (xp_level p) (xp_stream p)).
Proof.
  intros (H1 & H2 & H3 & H4 & H5) Hp Hs Hc E. unfold early. cbn [xp_stream xp_spine xp_level xp_dec]. split; [exact H1|].
  destruct H5 as [[H5 (f & H6 & H7)]|[H5 (f & r & H6 & H7 & H8)]].
  - rewrite H6 in *. pose proof H2 as [Hf _]. cbn [List.length] in Hf. cbn [add_leaf] in E. rewrite H5, Hf in E. cbn in E. injection E as <-.
    split; [exact H2|]. split; [exact Hc|]. split; [exact Hs|]. left. split; [exact H5|]. exists f. auto.
  - rewrite H6 in *. pose proof H2 as [Hf Hr]. unfold add_leaf in E. rewrite H5, Hf, H7 in E. cbn [Nat.compare] in E. destruct r as [|g [|h r]]; try discriminate H7. injection E as <-.
    split; [split; [exact Hf|exact Hr]|]. split; [exact Hc|]. split; [exact Hs|]. right. split; [exact H5|]. exists f, [add_after x g]. auto.
Qed.

Lemma going_step p : going p ->
  (exists p', xstep file chunk pat p = (p', Ok None) /\ going p') \/
  (exists p' t, xstep file chunk pat p = (p', Ok (Some t)) /\ going (settle p') /\ xp_stream (settle p') = None) \/
  (exists p', xstep file chunk pat p = (p', Err EEof)).
Proof.
  assert (B : forall p, plain (xp_dec p) -> within p -> nested (x_stack (xp_dec p)) (coming (xp_dec p)) ->
    (exists p', xstep file chunk pat p = (p', Ok None) /\ going p') \/
    (exists p' t, xstep file chunk pat p = (p', Ok (Some t)) /\ going (settle p') /\ xp_stream (settle p') = None) \/
    (exists p', xstep file chunk pat p = (p', Err EEof))).
  { clear p. intros p Hp W N. remember (x_stack (xp_dec p)) as stk eqn:Es. remember (coming (xp_dec p)) as toks eqn:Ec.
    destruct N as [|stk n a rest N|stk n rest N|stk n a rest N|stk s rest N|stk s rest N|stk s rest N].
    - right. right. destruct (token_last (xp_dec p) Hp (eq_sym Ec) (eq_sym Es)) as (d' & Ht). unfold xstep. rewrite Ht. eauto.
    - left. destruct (token_next (xp_dec p) _ _ Hp (eq_sym Ec)) as (d & Ht & Hpd & Hst & Hco); [discriminate|discriminate|]. cbn [opens fst snd] in *.
      destruct (start_step p d n a W Hst Ht) as (p' & E & W' & <-). exists p'. split; [exact E|]. split; [exact Hpd|]. right. split; [exact W'|]. rewrite Hst, Hco, <- Es. exact N.
    - destruct (token_next (xp_dec p) _ _ Hp (eq_sym Ec)) as (d & Ht & Hpd & Hst & Hco); [intros ? [= <-]; eauto|discriminate|]. cbn [opens fst snd] in *. rewrite <- Es in Hst. cbn [tl] in Hst.
      destruct (end_step p d n stk W (eq_sym Es) Hst Ht) as (p' & <- & [[E W']|(t & E & G)]).
      + left. exists p'. split; [exact E|]. split; [exact Hpd|]. right. split; [exact W'|]. rewrite Hst, Hco. exact N.
      + right. left. exists p', t. split; [exact E|]. destruct (given_settle p' G) as (W' & Ed & Es'). split; [|exact Es']. unfold going. rewrite Ed. split; [exact Hpd|]. right. split; [exact W'|]. rewrite Hst, Hco. exact N.
    - left. destruct (token_next (xp_dec p) _ _ Hp (eq_sym Ec)) as (d & Ht & Hpd & Hst & Hco); [discriminate|discriminate|]. cbn [opens fst snd] in *.
      destruct (start_step p d n a W Hst Ht) as (p' & E & W' & <-). exists p'. split; [exact E|]. split; [exact Hpd|]. right. split; [exact W'|]. rewrite Hst, Hco, <- Es. constructor. exact N.
    - left. destruct (token_next (xp_dec p) _ _ Hp (eq_sym Ec)) as (d & Ht & Hpd & Hst & Hco); [discriminate|discriminate|]. cbn [opens fst snd] in *.
      destruct (leaf_step p d _ s W Hst Ht) as (sp' & E & _ & W'); [auto|]. eexists. split; [exact E|]. split; [exact Hpd|]. right. split; [exact W'|]. cbn [xp_dec]. rewrite Hst, Hco, <- Es. exact N.
    - left. destruct (token_next (xp_dec p) _ _ Hp (eq_sym Ec)) as (d & Ht & Hpd & Hst & Hco); [discriminate|discriminate|]. cbn [opens fst snd] in *.
      destruct (leaf_step p d _ s W Hst Ht) as (sp' & E & _ & W'); [auto|]. eexists. split; [exact E|]. split; [exact Hpd|]. right. split; [exact W'|]. cbn [xp_dec]. rewrite Hst, Hco, <- Es. exact N.
    - left. destruct (token_next (xp_dec p) _ _ Hp (eq_sym Ec)) as (d & Ht & Hpd & Hst & Hco); [discriminate|discriminate|]. cbn [opens fst snd] in *.
      unfold xstep. rewrite Ht. eexists. split; [reflexivity|]. split; [exact Hpd|]. right. destruct W as [W1 W2 W3 W4 W5]. split; [constructor; cbn [xp_spine xp_level xp_dec xp_stream]; try assumption|].
      + rewrite Hst. exact W4.
      + cbn [xp_dec]. rewrite Hst, Hco, <- Es. exact N. }
  intros [Hp [[He (hd & body & Ec & Hh & N)]|[W N]]]; [|apply B; assumption].
  destruct Hh as [|t hd Ht Hh].
  { apply B; [exact Hp|apply early_within, He|]. pose proof He as (_ & _ & _ & -> & _). cbn [app] in Ec. rewrite Ec. exact N. }
  left. cbn [app] in Ec. pose proof He as (H1 & H2 & H3 & H4 & H5).
  assert (NP : forall tg, t <> RProc tg true) by (intros tg ->; cbn in Ht; discriminate).
  destruct (token_next (xp_dec p) t (hd ++ body) Hp Ec) as (d & Htok & Hpd & Hst & Hco); [intros n ->; destruct Ht|exact NP|].
  assert (Hc : coming d = hd ++ body /\ x_close d = None).
  { destruct t as [n a|n a|n|s|s|tg [|]|s]; try destruct Ht; try discriminate Ht; cbn [app] in Hco; (split; [exact Hco|]); revert Htok; unfold token, raw_token; destruct Hp as [Ha Herr]; rewrite Herr, H3; unfold take_raw; rewrite Ha;
      destruct (nth_some (x_pos (xp_dec p)) _ _ ltac:(unfold coming in Ec; rewrite H3 in Ec; exact Ec)) as (m & -> & _); intros [= <-]; exact H3. }
  destruct Hc as [Hc1 Hc2].
  destruct t as [n a|n a|n|s|s|tg rc|s]; try destruct Ht; cbn [opens fst snd] in *.
  - destruct (leaf_step p d (RText s) s (early_within p He) ltac:(congruence) Htok) as (sp' & E & El & _); [auto|]. eexists. split; [exact E|]. split; [exact Hpd|]. left.
    split; [eapply within_leaf_early; [exact He|exact Hpd|congruence|exact Hc2|exact El]|]. exists hd, body. auto.
  - destruct (leaf_step p d (RComment s) s (early_within p He) ltac:(congruence) Htok) as (sp' & E & El & _); [auto|]. eexists. split; [exact E|]. split; [exact Hpd|]. left.
    split; [eapply within_leaf_early; [exact He|exact Hpd|congruence|exact Hc2|exact El]|]. exists hd, body. auto.
  - unfold xstep. rewrite Htok.
    assert (D : exists f r, levels (f :: r) /\ List.length r = 1 /\ match f_kind f with KDecl _ => True | _ => False end /\
      (let decl := match xp_spine p with mkFrame _ (KDecl _) _ _ :: _ => true | _ => false end in
       let l := if decl then xp_level p else S (xp_level p) in
       match xp_spine p with
       | top :: _ => if Nat.ltb l (f_level top) then (mkXp d (xp_spine p) l (xp_stream p), @Err (option xtree) unmodelled)
                     else match add_node l (KDecl tg) (xp_spine p) with
                          | Some sp' => (mkXp d sp' l (xp_stream p), Ok None)
                          | None => (mkXp d (xp_spine p) l (xp_stream p), Err unmodelled)
                          end
       | [] => (mkXp d (xp_spine p) l (xp_stream p), Err unmodelled)
       end) = (mkXp d (f :: r) 1 (xp_stream p), Ok None)).
    { destruct H5 as [[H5 (f & H6 & H7)]|[H5 (f & r & H6 & H7 & H8)]]; rewrite H5, H6 in *; destruct f as [fl fk fb fa]; cbn [levels f_level f_kind] in *; destruct H2 as [-> H2].
      - destruct fk; try destruct H7; (eexists; eexists; split; [|split; [|split; [|reflexivity]]]; [split; [|split]; reflexivity || exact I|reflexivity|exact I]).
      - destruct fk; try destruct H8. destruct r as [|g [|h r]]; try discriminate H7. cbn [List.length levels] in *. destruct H2 as [H2 _].
        eexists; eexists; split; [|split; [|split; [|reflexivity]]]; [split; [|split]; [reflexivity|exact H2|exact I]|reflexivity|exact I]. }
    destruct D as (f & r & L & N1 & K & D). cbv zeta in D. cbv zeta. rewrite D.
    eexists. split; [reflexivity|]. split; [exact Hpd|]. left. split; [|exists hd, body; auto].
    unfold early. cbn [xp_stream xp_spine xp_level xp_dec]. split; [exact H1|]. split; [exact L|]. split; [exact Hc2|]. split; [congruence|].
    right. split; [reflexivity|]. exists f, r. auto.
  - unfold xstep. rewrite Htok. eexists. split; [reflexivity|]. split; [exact Hpd|]. left. split; [|exists hd, body; auto].
    unfold early. cbn [xp_stream xp_spine xp_level xp_dec]. split; [exact H1|]. split; [exact H2|]. split; [exact Hc2|]. split; [congruence|exact H5].
Qed.

(** Each record has a token of its own. *)
Lemma token_moves d d' r : x_ahead d = None -> token file chunk d = (d', r) ->
  x_pos d <= x_pos d' /\ (x_pos d <= List.length file -> x_pos d' <= List.length file) /\ (match r with Ok (RStart _ _ | RVoid _ _) => x_pos d < x_pos d' | _ => True end).
Proof.
  intros Ha H. unfold token, raw_token in H. destruct (x_err d) as [e|].
  { destruct e; injection H as <- <-; cbn; lia. }
  destruct (x_close d) as [n|].
  { cbn [set_close x_stack] in H. destruct (x_stack d) as [|m stk]; [injection H as <- <-; cbn; lia|]. destruct (bytes_eqb m n); injection H as <- <-; cbn; lia. }
  unfold take_raw in H. rewrite Ha in H. destruct (nth_error file (x_pos d)) as [[t m]|] eqn:En.
  2:{ injection H as <- <-. cbn [set_err x_pos]. lia. }
  assert (K : x_pos d < List.length file) by (apply nth_error_Some; congruence).
  destruct t as [n a|n a|n|s|s|tg [|]|s]; cbn [x_stack set_close x_ahead] in H;
    try (injection H as <- <-; cbn [x_pos set_stack set_close]; lia).
  destruct (x_stack d) as [|k stk]; [injection H as <- <-; cbn; lia|]. destruct (bytes_eqb k n); injection H as <- <-; cbn; lia.
Qed.

Lemma xstep_moves p p' r : x_ahead (xp_dec p) = None -> xstep file chunk pat p = (p', r) ->
  x_pos (xp_dec p) <= x_pos (xp_dec p') /\ (x_pos (xp_dec p) <= List.length file -> x_pos (xp_dec p') <= List.length file) /\
  (xp_stream p = None -> match r with Ok None => xp_stream p' = None \/ x_pos (xp_dec p) < x_pos (xp_dec p') | Ok (Some _) => False | _ => True end).
Proof.
  intros Ha H. unfold xstep in H. destruct (token file chunk (xp_dec p)) as [d t] eqn:Et. apply (token_moves _ _ _ Ha) in Et. destruct Et as (T1 & T2 & T3).
  assert (Hd : xp_dec p' = d).
  { destruct t as [[n a|n a|n|s|s|tg rc|s]|e| |];
      repeat match type of H with context [match ?x with _ => _ end] => destruct x end; injection H as <- <-; reflexivity. }
  rewrite Hd. split; [exact T1|]. split; [exact T2|]. intros Hs. rewrite Hs in H.
  destruct t as [[n a|n a|n|s|s|tg rc|s]|e| |]; cbn [fst snd] in H;
    repeat match type of H with context [match ?x with _ => _ end] => destruct x end; injection H as <- <-; auto; try exact I.
Qed.

Lemma going_parse fuel : forall p, going p ->
  match xparse file chunk pat fuel p with
  | (p', Ok _) => (going (settle p') /\ xp_stream (settle p') = None) /\ (x_pos (xp_dec p) <= List.length file -> x_pos (xp_dec p') <= List.length file) /\ x_pos (xp_dec p) <= x_pos (xp_dec p') /\
      (xp_stream p = None -> x_pos (xp_dec p) < x_pos (xp_dec p'))
  | (_, Err e) => e = EEof
  | (_, Panic) => False
  | (_, NoFuel) => True
  end.
Proof.
  induction fuel as [|fuel IH]; intros p H; [exact I|]. cbn [xparse]. pose proof (proj1 (proj1 H)) as Ha.
  destruct (going_step p H) as [(p' & E & G)|[(p' & t & E & G)|(p' & E)]]; rewrite E; apply (xstep_moves _ _ _ Ha) in E; destruct E as (E1 & E2 & E3).
  - specialize (IH p' G). destruct (xparse file chunk pat fuel p') as [q [t|e| |]]; try exact IH. destruct IH as (I1 & I2 & I3 & I4).
    split; [exact I1|]. split; [auto|]. split; [lia|]. intros Hs. destruct (E3 Hs) as [K|K]; [specialize (I4 K); lia|lia].
  - split; [exact G|]. split; [exact E2|]. split; [exact E1|]. intros Hs. destruct (E3 Hs).
  - reflexivity.
Qed.

Lemma settle_pos p : x_pos (xp_dec (settle p)) = x_pos (xp_dec p).
Proof.
  unfold settle. destruct (xp_stream p) as [[d l]|]; [|reflexivity]. destruct (climb _ _) as [[|f [|g r]]|]; reflexivity.
Qed.

Lemma going_iterate fuel : forall p, going (settle p) -> xp_stream (settle p) = None -> x_pos (xp_dec p) <= List.length file -> List.length file < fuel + x_pos (xp_dec p) ->
  Forall (fun r => exists z t, r = Ok (z, t)) (xml_iterate file chunk pat fuel p).
Proof.
  induction fuel as [|fuel IH]; intros p H Hs H1 H2; cbn [xml_iterate]; [lia|].
  unfold xread. pose proof (going_parse (xfuel file (settle p)) (settle p) H) as G.
  pose proof (xread_fuel file chunk pat p) as F. unfold xread in F.
  destruct (xparse file chunk pat _ _) as [p1 [t|e'| |]]; cbn [snd] in F; try contradiction.
  - destruct G as ((G1 & G0) & G2 & _ & G3). specialize (G3 Hs). rewrite settle_pos in G2, G3. constructor; [eauto|]. apply IH; [exact G1|exact G0|auto|lia].
  - subst e'. constructor.
Qed.

Lemma going_new : closed_elements (map fst file) -> going (settle new_xparser).
Proof.
  intros (hd & body & E & Hh & N). split; [split; reflexivity|]. left. split.
  - split; [reflexivity|]. split; [split; [reflexivity|exact I]|]. split; [reflexivity|]. split; [reflexivity|]. left. split; [reflexivity|]. eexists. split; [reflexivity|exact I].
  - exists hd, body. auto.
Qed.

(** No error, whatever the XPath of the records. *)
Lemma iterate_no_error : closed_elements (map fst file) -> Forall (fun r => exists z t, r = Ok (z, t)) (xml_iterate_all file chunk pat).
Proof. intros H. apply going_iterate; [apply going_new, H|reflexivity|cbn; lia|unfold xfuel; cbn; lia]. Qed.
End File.

Lemma iterate_closed name file chunk recs : flat name recs (map fst file) -> closed_elements (map fst file) ->
  xml_iterate_all file chunk [(true, name)] = map Ok (places file 0 recs).
Proof.
  intros Hf Hc. destruct (iterate_flat name file chunk recs Hf) as (tail & E & [->|(e & ->)]); [now rewrite app_nil_r in E|].
  pose proof (iterate_no_error file chunk [(true, name)] Hc) as K. rewrite E in K. apply Forall_app in K. destruct K as [_ K].
  inversion K as [|x l (z & t & D) _]. discriminate D.
Qed.
