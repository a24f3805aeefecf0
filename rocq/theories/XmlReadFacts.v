(** Facts about iterating over XML files and reading their records again. *)
From Coq Require Import List ZArith Lia Bool String.
From Coq Require Import Strings.Byte.
From Verif Require Import Base BaseFacts Prog ProgFacts BufioFacts XmlStream SpecXml XmlFacts.
Import ListNotations.
Open Scope nat_scope.

(** *** Every call ends *)

Section Fuel.
Variable file : xfile.
Variable chunk : nat.
Variable pat : xpattern.

Definition dec_left (d : xdec) : nat :=
  3 * (List.length file - x_pos d) + 3 * match x_ahead d with Some l => List.length l | None => 0 end
  + List.length (x_stack d) + match x_close d with Some _ => 1 | None => 0 end.

Lemma take_left d d1 t : take_raw file chunk d = (d1, Some t) ->
  3 + dec_left d1 = dec_left d /\ x_stack d1 = x_stack d /\ x_close d1 = x_close d /\ x_err d1 = x_err d.
Proof.
  unfold take_raw, dec_left. destruct (x_ahead d) as [[|u l]|] eqn:Ea.
  - destruct (map fst (firstn (S chunk) (skipn (x_pos d) file))) as [|u l] eqn:E; [discriminate|]. intros H. injection H as <- <-.
    cbn [x_pos x_ahead x_stack x_close x_err]. repeat split.
    assert (Hl : S (List.length l) <= List.length file - x_pos d).
    { change (S (List.length l)) with (List.length (u :: l)). rewrite <- E, map_length, firstn_length, skipn_length. lia. }
    cbn [List.length]. lia.
  - intros H. injection H as <- <-. cbn [x_pos x_ahead x_stack x_close x_err List.length]. repeat split. lia.
  - destruct (nth_error file (x_pos d)) as [[u n]|] eqn:E; [|discriminate]. intros H. injection H as <- <-.
    cbn [x_pos x_ahead x_stack x_close x_err]. repeat split.
    assert (x_pos d < List.length file) by (apply nth_error_Some; congruence). lia.
Qed.

Lemma token_left d d1 t : token file chunk d = (d1, Ok t) -> dec_left d1 < dec_left d.
Proof.
  unfold token, raw_token. destruct (x_err d) as [e|] eqn:Ee.
  { destruct e; discriminate. }
  destruct (x_close d) as [n|] eqn:Ec.
  - cbn [set_close x_stack]. destruct (x_stack d) as [|m stk] eqn:Es; [discriminate|]. intros H. injection H as <- _.
    unfold dec_left. destruct (bytes_eqb m n); cbn [set_close set_stack x_pos x_ahead x_stack x_close]; rewrite Es, Ec; cbn [List.length]; lia.
  - destruct (take_raw file chunk d) as [d2 [u|]] eqn:Et; [|destruct (x_stack _); discriminate].
    destruct (take_left _ _ _ Et) as [Hl [Hs [Hc He]]].
    destruct u as [n a|n a|n|s|s|tg []|s].
    + intros H. injection H as <- _. unfold dec_left in *. cbn [set_stack x_pos x_ahead x_stack x_close List.length]. lia.
    + intros H. injection H as <- _. unfold dec_left in *. cbn [set_close set_stack x_pos x_ahead x_stack x_close List.length]. rewrite Hc, Ec in Hl. lia.
    + destruct (x_stack d2) as [|m stk] eqn:Es; [discriminate|]. intros H. injection H as <- _.
      unfold dec_left in *. destruct (bytes_eqb m n); cbn [set_close set_stack x_pos x_ahead x_stack x_close]; rewrite Es, Hc, Ec in Hl; rewrite ?Hc, ?Ec; cbn [List.length] in *; lia.
    + intros H. injection H as <- _. lia.
    + intros H. injection H as <- _. lia.
    + intros H. injection H as <- _. unfold dec_left in *. destruct (x_ahead d2) eqn:Ea; cbn [x_pos x_ahead x_stack x_close List.length]; rewrite ?Ea in *; cbn [List.length] in *; lia.
    + intros H. injection H as <- _. lia.
    + intros H. injection H as <- _. lia.
Qed.

Lemma token_ends d : match snd (token file chunk d) with Ok _ | Err _ => True | _ => False end.
Proof.
  unfold token, raw_token. destruct (x_err d) as [e|]; [destruct e; exact I|]. destruct (x_close d) as [n|].
  - cbn [set_close x_stack]. destruct (x_stack d); exact I.
  - destruct (take_raw file chunk d) as [d2 [[n a|n a|n|s|s|tg []|s]|]]; try exact I. destruct (x_stack d2); exact I.
Qed.

Lemma xstep_left p p1 o : xstep file chunk pat p = (p1, Ok o) -> dec_left (xp_dec p1) < dec_left (xp_dec p).
Proof.
  unfold xstep. destruct (token file chunk (xp_dec p)) as [d t] eqn:Et. destruct t as [t|e| |]; try discriminate.
  apply token_left in Et. intros H. enough (xp_dec p1 = d) by congruence. revert H.
  destruct t as [n a|n a|n|s|s|tg rc|s];
    repeat match goal with
    | |- (let '(_, _) := ?x in _) = _ -> _ => destruct x
    | |- match ?x with _ => _ end = _ -> _ => destruct x
    | |- (if ?x then _ else _) = _ -> _ => destruct x
    end; intros H; try discriminate H; injection H as <-; reflexivity.
Qed.

Lemma xstep_ends p : match snd (xstep file chunk pat p) with Ok _ | Err _ => True | _ => False end.
Proof.
  destruct (xstep file chunk pat p) as [p1 r] eqn:E. cbn [snd]. revert E.
  unfold xstep. pose proof (token_ends (xp_dec p)) as He. destruct (token file chunk (xp_dec p)) as [d t]. cbn [snd] in He.
  destruct t as [t|e| |]; try contradiction; [|intros H; injection H as _ <-; exact I].
  destruct t as [n a|n a|n|s|s|tg rc|s];
    repeat match goal with
    | |- (let '(_, _) := ?x in _) = _ -> _ => destruct x
    | |- match ?x with _ => _ end = _ -> _ => destruct x
    | |- (if ?x then _ else _) = _ -> _ => destruct x
    end; intros H; injection H as _ <-; exact I.
Qed.

Lemma xparse_ends : forall fuel p, dec_left (xp_dec p) < fuel -> match snd (xparse file chunk pat fuel p) with Ok _ | Err _ => True | _ => False end.
Proof.
  induction fuel as [|fuel IH]; intros p Hf; [lia|]. cbn [xparse]. pose proof (xstep_ends p) as He.
  destruct (xstep file chunk pat p) as [p1 r] eqn:Ex. cbn [snd] in He. destruct r as [[t|]|e| |]; try contradiction; try exact I.
  apply IH. apply xstep_left in Ex. lia.
Qed.

(** A call to Read has enough fuel. *)
Lemma xread_fuel p : match snd (xread file chunk pat p) with Ok _ | Err _ => True | _ => False end.
Proof.
  unfold xread. apply xparse_ends. unfold dec_left, xfuel. destruct (x_close (xp_dec (settle p))); lia.
Qed.

Lemma xparse_left : forall fuel p p1 t, xparse file chunk pat fuel p = (p1, Ok t) -> dec_left (xp_dec p1) < dec_left (xp_dec p).
Proof.
  induction fuel as [|fuel IH]; intros p p1 t H; [discriminate|]. cbn [xparse] in H. destruct (xstep file chunk pat p) as [p2 r] eqn:Ex.
  destruct r as [[u|]|e| |]; try discriminate; apply xstep_left in Ex; [injection H as <- <-; exact Ex|]. apply IH in H. lia.
Qed.
Lemma settle_dec p : xp_dec (settle p) = xp_dec p.
Proof. unfold settle. destruct (xp_stream p) as [[d l]|]; [|reflexivity]. destruct (climb _ _) as [[|f [|g r]]|]; reflexivity. Qed.

(** The results are records and at most one error, whatever the file holds. *)
Lemma iterate_from_ends : forall fuel p, dec_left (xp_dec p) < fuel ->
  Forall (fun r => match r with Ok _ | Err _ => True | _ => False end) (xml_iterate file chunk pat fuel p).
Proof.
  induction fuel as [|fuel IH]; intros p Hf; [lia|]. cbn [xml_iterate]. pose proof (xread_fuel p) as He. unfold xread in *.
  destruct (xparse file chunk pat (xfuel file (settle p)) (settle p)) as [p1 [t|e| |]] eqn:Ep; cbn [snd] in He; try contradiction.
  - constructor; [exact I|]. apply IH. apply xparse_left in Ep. rewrite settle_dec in Ep. lia.
  - destruct e; repeat constructor.
Qed.
Lemma iterate_ends : Forall (fun r => match r with Ok _ | Err _ => True | _ => False end) (xml_iterate_all file chunk pat).
Proof. apply iterate_from_ends. unfold dec_left, xfuel. cbn. lia. Qed.

Lemma exec_xparse : forall fuel p, exec (xparse_prog file chunk pat fuel) p = (snd (xparse file chunk pat fuel p), fst (xparse file chunk pat fuel p)).
Proof.
  induction fuel as [|fuel IH]; intros p; [reflexivity|].
  cbn [xparse_prog xparse bind get modify exec]. destruct (xstep file chunk pat p) as [p1 r]. cbn [fst snd].
  destruct r as [[t|]|e| |]; try reflexivity. apply IH.
Qed.
End Fuel.

(** *** The end of a file *)

Section Quiet.
Variable name : bytes.
Variable file : xfile.
Variable chunk : nat.
Notation pat := [(true, name)].
Notation toks_from i := (skipn i (map fst file)).

Definition dec_quiet (d : xdec) : Prop := x_ahead d = None /\ Forall (ending name) (toks_from (x_pos d)).
Definition quiet (p : xpstate) : Prop := dec_quiet (xp_dec p) /\ xp_stream p = None /\ clean name (xp_spine p).

Lemma nth_toks i t n : nth_error file i = Some (t, n) -> toks_from i = t :: toks_from (S i).
Proof.
  revert i. induction file as [|[u m] l IH]; intros [|i] H; cbn [nth_error] in H; try discriminate.
  - injection H as -> ->. reflexivity.
  - cbn [map skipn]. apply IH in H. exact H.
Qed.

Lemma token_quiet d d1 r : token file chunk d = (d1, r) -> dec_quiet d ->
  dec_quiet d1 /\ match r with Ok (RStart n _) | Ok (RVoid n _) => n <> name | _ => True end.
Proof.
  intros H [Ha Hq]. unfold token, raw_token in H. destruct (x_err d) as [e|].
  { destruct e; injection H as <- <-; (split; [split; assumption|exact I]). }
  destruct (x_close d) as [n|].
  - cbn [set_close x_stack] in H. destruct (x_stack d) as [|m stk]; injection H as <- <-; (split; [|exact I]);
      [split; assumption|]. destruct (bytes_eqb m n); split; assumption.
  - unfold take_raw in H. rewrite Ha in H. destruct (nth_error file (x_pos d)) as [[u m]|] eqn:En.
    + apply nth_toks in En. rewrite En in Hq. inversion Hq as [|? ? Hu Hr]; subst.
      destruct u as [n a|n a|n|s|s|tg rc|s]; cbn [ending] in Hu.
      * injection H as <- <-. split; [split; [reflexivity|exact Hr]|exact Hu].
      * injection H as <- <-. split; [split; [reflexivity|exact Hr]|exact Hu].
      * cbn [x_stack] in H. destruct (x_stack d) as [|k stk]; injection H as <- <-; (split; [|exact I]); [split; [reflexivity|exact Hr]|].
        destruct (bytes_eqb k n); (split; [reflexivity|exact Hr]).
      * injection H as <- <-. split; [split; [reflexivity|exact Hr]|exact I].
      * injection H as <- <-. split; [split; [reflexivity|exact Hr]|exact I].
      * subst rc. injection H as <- <-. split; [split; [reflexivity|exact Hr]|exact I].
      * injection H as <- <-. split; [split; [reflexivity|exact Hr]|exact I].
    + injection H as <- <-. split; [split; assumption|exact I].
Qed.

Lemma climb1_clean sp sp' : climb1 sp = Some sp' -> clean name sp -> clean name sp'.
Proof.
  destruct sp as [|f [|g r]]; try discriminate. cbn [climb1]. intros H Hc. injection H as <-. inversion Hc as [|? ? Hf Hg]; subst. inversion Hg; subst.
  constructor; [|assumption]. now apply (close_clean name f g).
Qed.

Lemma climb_clean n : forall sp sp', climb n sp = Some sp' -> clean name sp -> clean name sp'.
Proof.
  induction n as [|n IH]; intros sp sp' H Hc; cbn [climb] in H; [now injection H as <-|].
  destruct (climb1 sp) as [sp1|] eqn:E; [|discriminate]. eapply IH; [exact H|]. eapply climb1_clean; eassumption.
Qed.

Lemma add_node_clean l k sp sp' : add_node l k sp = Some sp' -> frame_clean name (mkFrame l k [] []) -> clean name sp -> clean name sp'.
Proof.
  destruct sp as [|f r]; [discriminate|]. cbn [add_node]. destruct (f_level f <? l).
  - intros H Hk Hc. injection H as <-. now constructor.
  - destruct (climb _ _) as [sp1|] eqn:E; [|discriminate]. intros H Hk Hc. injection H as <-. constructor; [exact Hk|]. eapply climb_clean; eassumption.
Qed.

Lemma add_leaf_clean l t sp sp' : add_leaf l t sp = Some sp' -> without name t -> clean name sp -> clean name sp'.
Proof.
  destruct sp as [|f r]; [discriminate|]. cbn [add_leaf]. intros H Ht Hc. destruct (l ?= f_level f).
  - injection H as <-. inversion Hc as [|? ? Hf Hr]; subst. constructor; [exact Hf|]. destruct r as [|g r]; [constructor|].
    inversion Hr; subst. constructor; [now apply after_clean|assumption].
  - destruct (climb _ _) as [sp1|] eqn:E; [|discriminate]. pose proof (climb_clean _ _ _ E Hc) as Hc1.
    destruct sp1 as [|f1 [|g1 [|h1 r1]]]; injection H as <-; try exact Hc1.
    inversion Hc1 as [|? ? A1 B1]; subst. inversion B1 as [|? ? A2 B2]; subst. inversion B2 as [|? ? A3 B3]; subst.
    constructor; [exact A1|]. constructor; [exact A2|]. constructor; [now apply after_clean|exact B3].
  - injection H as <-. apply (leaf_clean name t (f :: r) Ht Hc).
Qed.

Lemma xstep_quiet p p1 r : xstep file chunk pat p = (p1, r) -> quiet p -> quiet p1 /\ match r with Ok (Some _) => False | _ => True end.
Proof.
  intros H [Hd [Hs Hc]]. unfold xstep in H. destruct (token file chunk (xp_dec p)) as [d t] eqn:Et.
  destruct (token_quiet _ _ _ Et Hd) as [Hd1 Ht]. rewrite Hs in H. clear Et.
  destruct t as [t|e| |]; [|injection H as <- <-; (split; [split; [exact Hd1|split; [reflexivity|exact Hc]]|exact I])..].
  assert (Hst : forall n a, n <> name -> match (match xp_level p with O => (mkFrame 1 (KDecl (lit "xml")) [] [] :: xp_spine p, 1) | S _ => (xp_spine p, xp_level p) end) with (sp, l) =>
      match add_node l (KElem n a) sp with
      | None => (mkXp d (xp_spine p) (xp_level p) None, Err unmodelled)
      | Some sp' => (mkXp d sp' (S l) (if existsb (selects pat []) (whole sp' []) then Some (List.length sp', l) else None), Ok None)
      end end = (p1, r) -> quiet p1 /\ match r with Ok (Some _) => False | _ => True end).
  { intros n a Hn Hx. match type of Hx with (let (_, _) := ?x in _) = _ => destruct x as [sp l] eqn:El end.
    assert (Hc' : clean name sp).
    { destruct (xp_level p); injection El as <- <-; [constructor; [apply decl_clean|exact Hc]|exact Hc]. }
    destruct (add_node l (KElem n a) sp) as [sp'|] eqn:Ea.
    - assert (Hc2 : clean name sp') by (eapply add_node_clean; [exact Ea|split; [exact Hn|constructor]|exact Hc']).
      rewrite (whole_clean name sp' Hc2 [] ltac:(constructor)) in Hx. injection Hx as <- <-. split; [|exact I]. split; [exact Hd1|split; [reflexivity|exact Hc2]].
    - injection Hx as <- <-. split; [|exact I]. split; [exact Hd1|split; [reflexivity|exact Hc]]. }
  destruct t as [n a|n a|n|s|s|tg rc|s].
  - apply (Hst n a Ht). rewrite <- H. destruct (xp_level p); reflexivity.
  - apply (Hst n a Ht). rewrite <- H. destruct (xp_level p); reflexivity.
  - injection H as <- <-. split; [|exact I]. split; [exact Hd1|split; [reflexivity|exact Hc]].
  - destruct (add_leaf (xp_level p) (XText s) (xp_spine p)) as [sp'|] eqn:Ea; injection H as <- <-; (split; [|exact I]);
      (split; [exact Hd1|split; [reflexivity|]]); [|exact Hc]. eapply add_leaf_clean; [exact Ea|exact I|exact Hc].
  - destruct (add_leaf (xp_level p) (XComment s) (xp_spine p)) as [sp'|] eqn:Ea; injection H as <- <-; (split; [|exact I]);
      (split; [exact Hd1|split; [reflexivity|]]); [|exact Hc]. eapply add_leaf_clean; [exact Ea|exact I|exact Hc].
  - remember (match xp_spine p with mkFrame _ (KDecl _) _ _ :: _ => true | _ => false end) as decl eqn:Ed.
    destruct (xp_spine p) as [|f r'] eqn:Esp.
    + injection H as <- <-. split; [|exact I]. split; [exact Hd1|split; [reflexivity|exact Hc]].
    + destruct (_ <? _).
      * injection H as <- <-. split; [|exact I]. split; [exact Hd1|split; [reflexivity|exact Hc]].
      * destruct (add_node _ _ _) as [sp'|] eqn:Ea; injection H as <- <-; (split; [|exact I]); (split; [exact Hd1|split; [reflexivity|]]); [|exact Hc].
        eapply add_node_clean; [exact Ea|apply decl_clean|exact Hc].
  - injection H as <- <-. split; [|exact I]. split; [exact Hd1|split; [reflexivity|exact Hc]].
Qed.

Lemma xparse_quiet : forall fuel p, quiet p -> match snd (xparse file chunk pat fuel p) with Ok _ => False | _ => True end.
Proof.
  induction fuel as [|fuel IH]; intros p Hq; [exact I|]. cbn [xparse].
  destruct (xstep file chunk pat p) as [p1 r] eqn:Ex. destruct (xstep_quiet _ _ _ Ex Hq) as [Hq1 Hr].
  destruct r as [[t|]|e| |]; try exact I; [destruct Hr|now apply IH].
Qed.

Lemma resting_quiet i p : resting name i p -> Forall (ending name) (toks_from i) -> quiet p.
Proof. intros [j stk|j stk f r L H1 H2 H3 H4 H5] Hf; (split; [split; [reflexivity|exact Hf]|split; [reflexivity|]]); [repeat constructor|exact H4]. Qed.

(** *** Iteration *)

Lemma iterate_tail fuel i p : resting name i (settle p) -> Forall (ending name) (toks_from i) ->
  xml_iterate file chunk pat (S fuel) p = [] \/ exists e, xml_iterate file chunk pat (S fuel) p = [Err e].
Proof.
  intros Hr Hf. cbn [xml_iterate]. pose proof (xread_fuel file chunk pat p) as Hfu.
  pose proof (xparse_quiet (xfuel file (settle p)) (settle p) (resting_quiet _ _ Hr Hf)) as Hq. fold (xread file chunk pat p) in Hq.
  change (xparse file chunk pat (xfuel file (settle p)) (settle p)) with (xread file chunk pat p) in Hq.
  destruct (xread file chunk pat p) as [p1 r]. cbn [snd] in Hfu, Hq. destruct r as [t|e| |]; try contradiction.
  destruct e; [right; eexists; reflexivity|left; reflexivity|right; eexists; reflexivity|right; eexists; reflexivity].
Qed.

Lemma iterate_records recs : Forall (fun r => leads name (fst r) (snd r)) recs -> forall fuel i p post,
  resting name i (settle p) -> x_pos (xp_dec p) = i -> toks_from i = List.concat (map fst recs) ++ post -> Forall (ending name) post -> List.length recs < fuel ->
  exists tail, xml_iterate file chunk pat fuel p = map Ok (places file i recs) ++ tail /\ (tail = [] \/ exists e, tail = [Err e]).
Proof.
  induction 1 as [|[toks t] recs Hl _ IH]; intros fuel i p post Hr Hi Ht Hp Hf; destruct fuel as [|fuel]; try (cbn [List.length] in Hf; lia).
  - exists (xml_iterate file chunk pat (S fuel) p). split; [reflexivity|]. apply (iterate_tail _ i); [exact Hr|]. cbn [map List.concat app] in Ht. now rewrite Ht.
  - cbn [map List.concat fst snd] in Ht, Hl. rewrite <- app_assoc in Ht.
    destruct (leads_read name file chunk toks t i p _ Hl Hr Ht) as [p1 [Ex [R1 [_ R2]]]].
    destruct (IH fuel _ p1 post R1 R2 (toks_skip _ _ _ _ Ht) Hp ltac:(cbn [List.length] in Hf; lia)) as [tail [E1 E2]].
    exists tail. split; [|exact E2]. cbn [xml_iterate]. rewrite Ex, Hi, E1. reflexivity.
Qed.

(** *** Flat files *)

Lemma written_ending t toks : written t toks -> without name t -> Forall (ending name) toks.
Proof.
  intros H. induction H using written_mut with (P0 := fun ts toks _ => Forall (without name) ts -> Forall (ending name) toks).
  - intros Hn. apply without_elem in Hn as [H1 H2]. constructor; [exact H1|]. apply Forall_app. split; [auto|]. constructor; [exact I|constructor].
  - intros Hn. apply without_elem in Hn as [H1 _]. constructor; [exact H1|constructor].
  - intros _. constructor; [exact I|constructor].
  - intros _. constructor; [exact I|constructor].
  - intros _. constructor.
  - intros Hn. inversion Hn; subst. apply Forall_app. auto.
Qed.

Lemma opening_ending op : opening name op -> Forall (ending name) op.
Proof.
  induction 1 as [|t toks rest Hw Hn _ IH|n a rest Hn _ IH]; [constructor| |].
  - apply Forall_app. split; [eapply written_ending; eassumption|exact IH].
  - constructor; assumption.
Qed.

Lemma heading_ending hd : Forall heading hd -> Forall (ending name) hd.
Proof. apply Forall_impl. intros [| | | | | |]; cbn; auto; contradiction. Qed.

Lemma listed_leads recs body : listed name recs body -> Forall (fun r => leads name (fst r) (snd r)) recs /\ body = List.concat (map fst recs).
Proof.
  induction 1 as [|gap gt a kids toks rest rt Hg Hn Hw _ [IH1 IH2]]; [split; [constructor|reflexivity]|]. split.
  - constructor; [|exact IH1]. exists [], [], gap, gt, toks, a, kids. cbn [fst snd app].
    split; [reflexivity|]. split; [constructor|]. split; [constructor|]. auto.
  - cbn [map List.concat fst]. rewrite IH2, app_assoc. reflexivity.
Qed.

Lemma flat_leads recs toks : flat name recs toks -> Forall (fun r => leads name (fst r) (snd r)) recs /\
  exists post, toks = List.concat (map fst recs) ++ post /\ Forall (ending name) post.
Proof.
  intros [hd op post H1 H2 H3|hd op gap t rs body post H1 H2 H3 H4].
  - split; [constructor|]. exists (hd ++ op ++ post). split; [reflexivity|]. rewrite !Forall_app. split; [now apply heading_ending|]. split; [now apply opening_ending|exact H3].
  - inversion H3 as [|gp gt a kids tk rest rt Hg Hn Hw Hl]; subst. destruct (listed_leads _ _ Hl) as [L1 ->]. split.
    + constructor; [|exact L1]. exists hd, op, gp, gt, tk, a, kids. cbn [fst snd]. auto 10.
    + exists post. split; [|exact H4]. cbn [map List.concat fst]. now rewrite <- !app_assoc.
Qed.

Lemma iterate_flat recs : flat name recs (map fst file) ->
  exists tail, xml_iterate_all file chunk pat = map Ok (places file 0 recs) ++ tail /\ (tail = [] \/ exists e, tail = [Err e]).
Proof.
  intros Hf. destruct (flat_leads _ _ Hf) as [Hl [post [E Hp]]]. unfold xml_iterate_all. apply (iterate_records recs Hl _ 0 _ post); try assumption.
  - apply resting_fresh.
  - reflexivity.
  - assert (K : List.length recs <= List.length (List.concat (map fst recs))).
    { clear -Hl. induction Hl as [|r recs Hr _ IH]; [cbn; lia|]. cbn [map List.concat List.length]. rewrite app_length.
      apply leads_nonempty in Hr. destruct (fst r); [contradiction|]. cbn [List.length]. lia. }
    unfold xfuel. rewrite <- (map_length fst file), E, app_length. lia.
Qed.

(** *** Reading again *)

Lemma offset_token : forall (f : xfile) i, Forall (fun tn => 0 < snd tn) f -> i <= List.length f -> xtoken_at f (xoffset f i) = Some i.
Proof.
  induction f as [|[t n] f IH]; intros [|i] Hp Hi; try reflexivity; [cbn in Hi; lia|].
  inversion Hp as [|? ? H1 H2]; subst. cbn [snd] in H1. cbn [List.length] in Hi. specialize (IH i H2 ltac:(lia)).
  unfold xoffset in *. cbn [firstn map snd]. change (list_sum (n :: map snd (firstn i f))) with (n + list_sum (map snd (firstn i f))).
  cbn [xtoken_at]. destruct (Z.eqb_spec (Z.of_nat (n + list_sum (map snd (firstn i f)))) 0) as [E|_]; [lia|].
  replace (Z.of_nat (n + list_sum (map snd (firstn i f))) - Z.of_nat n)%Z with (Z.of_nat (list_sum (map snd (firstn i f)))) by lia.
  rewrite IH. reflexivity.
Qed.

(** What an xml input keeps between two calls to Get. *)
Definition kept (p : xpstate) : Prop := forall j, resting name j (settle (xseek j p)).

Lemma kept_new : kept new_xparser.
Proof. intros j. apply resting_fresh. Qed.

Lemma get_exec z i toks t rest p : kept p -> leads name toks t -> toks_from i = toks ++ rest ->
  xtoken_at file z = Some i -> (0 <= z)%Z ->
  fst (exec (xml_get_at file chunk pat z) p) = Ok t /\ kept (snd (exec (xml_get_at file chunk pat z) p)).
Proof.
  intros Hk Hl Ht Hz H0. unfold xml_get_at. destruct (Z.ltb_spec z 0) as [Hn|_]; [lia|]. rewrite Hz.
  cbn [bind modify get exec]. rewrite exec_bind, exec_xparse.
  pose proof (Hk i) as Hr.
  destruct (leads_parse name file chunk toks t i (settle (xseek i p)) rest _ Hl Hr Ht (toks_fuel name file i toks rest _ Ht Hr)) as [p' [E [_ [R _]]]].
  rewrite E. cbn [fst snd exec]. split; [reflexivity|exact R].
Qed.

Lemma in_places recs : forall i z t post, toks_from i = List.concat (map fst recs) ++ post -> Forall (fun r => leads name (fst r) (snd r)) recs -> In (z, t) (places file i recs) ->
  exists j toks rest, z = xoffset file j /\ leads name toks t /\ toks_from j = toks ++ rest.
Proof.
  induction recs as [|[tk u] recs IH]; intros i z t post E Hl Hin; [destruct Hin|]. cbn [map List.concat fst places] in *. rewrite <- app_assoc in E. inversion Hl; subst.
  destruct Hin as [Hin|Hin].
  - injection Hin as <- <-. exists i, tk, (List.concat (map fst recs) ++ post). auto.
  - eapply IH; [eapply toks_skip, E| |exact Hin]. assumption.
Qed.

Lemma get_flat recs : Forall (fun tn => 0 < snd tn) file -> flat name recs (map fst file) ->
  forall z t p, In (z, t) (places file 0 recs) -> kept p ->
  fst (exec (xml_get_at file chunk pat z) p) = Ok t /\ kept (snd (exec (xml_get_at file chunk pat z) p)).
Proof.
  intros Hpos Hf z t p Hin Hk. destruct (flat_leads _ _ Hf) as [Hl [post [E Hp]]].
  destruct (in_places recs 0 z t post E Hl Hin) as [j [toks [rest [-> [Hj Ht]]]]].
  apply (get_exec _ j toks t rest); try assumption; [|unfold xoffset; lia].
  apply offset_token; [exact Hpos|]. pose proof (toks_length _ _ _ _ Ht (leads_nonempty _ _ _ Hj)) as H. rewrite map_length in H. lia.
Qed.

Lemma gets_kept recs : Forall (fun tn => 0 < snd tn) file -> flat name recs (map fst file) ->
  forall zs p, (forall z, In z zs -> In z (map fst (places file 0 recs))) -> kept p -> kept (gets file chunk pat zs p).
Proof.
  intros Hpos Hf. induction zs as [|z zs IH]; intros p Hz Hk; [exact Hk|]. cbn [gets]. apply IH; [intros; apply Hz; now right|].
  specialize (Hz z (or_introl eq_refl)). apply in_map_iff in Hz as [[z' t] [E Hin]]. cbn [fst] in E. subst z'. eapply get_flat; eassumption.
Qed.
End Quiet.

(** *** From the indexed positions *)

Lemma iterated_places name file chunk recs : flat name recs (map fst file) -> forall z t,
  In (Ok (z, t)) (xml_iterate_all file chunk [(true, name)]) <-> In (z, t) (places file 0 recs).
Proof.
  intros Hf z t. destruct (iterate_flat name file chunk recs Hf) as [tail [-> Ht]]. rewrite in_app_iff, in_map_iff. split.
  - intros [[y [E Hin]]|Hin]; [injection E as <-; exact Hin|]. destruct Ht as [->|[e ->]]; [destruct Hin|]. destruct Hin as [Hin|[]]. discriminate.
  - intros Hin. left. exists (z, t). auto.
Qed.

Lemma reread_flat name file chunk recs : Forall (fun tn => 0 < snd tn) file -> flat name recs (map fst file) ->
  forall zs z t, (forall y, In y zs -> exists u, In (Ok (y, u)) (xml_iterate_all file chunk [(true, name)])) ->
  In (Ok (z, t)) (xml_iterate_all file chunk [(true, name)]) ->
  fst (exec (xml_get_at file chunk [(true, name)] z) (gets file chunk [(true, name)] zs new_xparser)) = Ok t.
Proof.
  intros Hpos Hf zs z t Hz Hin. apply (get_flat name file chunk recs Hpos Hf); [now apply (iterated_places _ _ _ _ Hf) in Hin|].
  apply (gets_kept name file chunk recs Hpos Hf); [|apply kept_new]. intros y Hy. destruct (Hz y Hy) as [u Hu].
  apply (iterated_places _ _ _ _ Hf) in Hu. apply in_map_iff. exists (y, u). auto.
Qed.

Lemma get_ends file chunk pat z p : match fst (exec (xml_get_at file chunk pat z) p) with Ok _ | Err _ => True | _ => False end.
Proof.
  unfold xml_get_at. destruct (z <? 0)%Z; [exact I|]. destruct (xtoken_at file z) as [i|]; [|exact I].
  cbn [bind modify get exec]. rewrite exec_bind, exec_xparse. cbn [exec fst].
  pose proof (xread_fuel file chunk pat (xseek i p)) as H. unfold xread in H.
  destruct (snd (xparse file chunk pat (xfuel file (settle (xseek i p))) (settle (xseek i p)))) as [t|e| |]; try contradiction; [exact I|].
  destruct e; try exact I. match goal with |- context [if ?b then _ else _] => destruct b; exact I end.
Qed.

(** *** Several goroutines *)

Section Goroutines.
Variable name : bytes.
Variable file : xfile.
Variable chunk : nat.
Variable recs : list (list rawtok * xtree).
Hypothesis Hpos : Forall (fun tn => 0 < snd tn) file.
Hypothesis Hf : flat name recs (map fst file).
Notation pat := [(true, name)].
Notation body := (xml_get_record file chunk pat (places file 0 recs)).

Definition record_answer (places : list (Z * xtree)) (k : nat) : res xtree :=
  match nth_error places k with Some (_, t) => Ok t | None => Err ENotFound end.

Lemma record_exec k p : kept name p -> fst (exec (body k) p) = record_answer (places file 0 recs) k /\ kept name (snd (exec (body k) p)).
Proof.
  intros Hk. unfold xml_get_record, record_answer. destruct (nth_error (places file 0 recs) k) as [[z t]|] eqn:E; [|split; [reflexivity|exact Hk]].
  apply nth_error_In in E. now apply (get_flat name file chunk recs Hpos Hf).
Qed.

Lemma xml_concurrent_answers numbers c : steps _ _ _ body (start _ _ _ new_xparser numbers) c ->
  Forall (fun t => Forall (fun qa => snd qa = record_answer (places file 0 recs) (fst qa)) (answers_of _ _ _ t)) (c_threads _ _ _ c).
Proof. apply (start_answers _ _ _ body (kept name) _ record_exec). apply kept_new. Qed.

Lemma xml_concurrent_acc numbers : Acc (fun c' c => step _ _ _ body c c') (start _ _ _ new_xparser numbers).
Proof. apply (start_acc _ _ _ body (kept name) _ record_exec). apply kept_new. Qed.

Lemma xml_concurrent_end numbers c : steps _ _ _ body (start _ _ _ new_xparser numbers) c -> (forall c', ~ step _ _ _ body c c') ->
  c_threads _ _ _ c = map (fun qs => Idle [] (map (fun k => (k, record_answer (places file 0 recs) k)) qs)) numbers.
Proof. apply (start_finished _ _ _ body (kept name) _ record_exec). apply kept_new. Qed.

Lemma places_answer k : forall i rs, record_answer (places file i rs) k = match nth_error rs k with Some (_, t) => Ok t | None => Err ENotFound end.
Proof.
  unfold record_answer. induction k as [|k IH]; intros i [|[tk t] rs]; cbn [places nth_error]; try reflexivity. apply IH.
Qed.

Lemma xml_concurrent_answers_recs numbers c : steps _ _ _ body (start _ _ _ new_xparser numbers) c ->
  Forall (fun t => Forall (fun qa => snd qa = match nth_error recs (fst qa) with Some (_, t) => Ok t | None => Err ENotFound end) (answers_of _ _ _ t)) (c_threads _ _ _ c).
Proof.
  intros H. eapply Forall_impl; [|exact (xml_concurrent_answers numbers c H)]. intros t Ht. eapply Forall_impl; [|exact Ht].
  intros [k a]. cbn [fst snd]. intros ->. apply places_answer.
Qed.

Lemma xml_concurrent_end_recs numbers c : steps _ _ _ body (start _ _ _ new_xparser numbers) c -> (forall c', ~ step _ _ _ body c c') ->
  c_threads _ _ _ c = map (fun ks => Idle [] (map (fun k => (k, match nth_error recs k with Some (_, t) => Ok t | None => Err ENotFound end)) ks)) numbers.
Proof.
  intros H Hn. rewrite (xml_concurrent_end numbers c H Hn). apply map_ext. intros ks. f_equal. apply map_ext. intros k. now rewrite places_answer.
Qed.
End Goroutines.

(** *** Growth *)

Definition leak_file : xfile := [(RStart (lit "root") [], 6); (RVoid (lit "item") [], 7); (REnd (lit "root"), 7)].

Lemma leak_step p : kept (lit "item") p ->
  let q := snd (exec (xml_get_at leak_file 0 [(true, lit "item")] 0) p) in
  kept (lit "item") q /\ x_stack (xp_dec q) = lit "root" :: x_stack (xp_dec p).
Proof.
  intros Hk. assert (Hl : leads (lit "item") [RStart (lit "root") []; RVoid (lit "item") []] (XElem (lit "item") [] [])).
  { exists [], [RStart (lit "root") []], [], [], [RVoid (lit "item") []], [], []. split; [reflexivity|]. split; [constructor|]. split.
    - apply opening_elem; [discriminate|constructor].
    - split; [constructor|]. split; [constructor|]. split; [apply written_void|reflexivity]. }
  split.
  - eapply (get_exec (lit "item") leak_file 0 0 0 _ _ [REnd (lit "root")] p Hk Hl); [reflexivity|reflexivity|lia].
  - unfold xml_get_at. change (0 <? 0)%Z with false. change (xtoken_at leak_file 0) with (Some 0).
    cbn [bind modify get exec]. rewrite exec_bind, exec_xparse. cbn [exec snd].
    pose proof (Hk 0) as Hr. assert (Es : x_stack (xp_dec (settle (xseek 0 p))) = x_stack (xp_dec p)) by (rewrite settle_dec; reflexivity).
    rewrite <- Es. clear Es. generalize dependent (settle (xseek 0 p)). intros q Hr.
    assert (G : forall stk sp s L, 1 <= L -> settles L sp s -> clean (lit "item") s -> Forall no_decl s -> forall fuel, 
       exists p', xparse leak_file 0 [(true, lit "item")] (3 + fuel) (mkXp (at_pos 0 stk) sp L None) = (p', Ok (XElem (lit "item") [] [])) /\ x_stack (xp_dec p') = lit "root" :: stk).
    { intros stk sp s L H1 H2 H3 H4 fuel.
      assert (Hu : unseen (lit "item") None L s (XElem (lit "root") [] [])) by (split; [apply without_elem; split; [discriminate|constructor]|exact H3]).
      pose proof (element_step (lit "item") leak_file 0 L 0 stk sp s (lit "root") [] None _ H1 H2 Hu (token_start leak_file 0 0 stk _ _ _ eq_refl)) as X1.
      assert (S1 : settles (S L) (mkFrame L (KElem (lit "root") []) [] [] :: s) (mkFrame L (KElem (lit "root") []) [] [] :: s)) by (apply st_here; [cbn; lia|reflexivity]).
      pose proof (record_step (lit "item") leak_file 0 1 (lit "root" :: stk) _ _ (S L) [] _ ltac:(lia) S1 ltac:(constructor; [exact I|exact H4]) (token_void leak_file 0 1 _ _ _ _ eq_refl)) as X2.
      assert (S2 : settles (S (S L)) (mkFrame (S L) (KElem (lit "item") []) [] [] :: mkFrame L (KElem (lit "root") []) [] [] :: s) (mkFrame (S L) (KElem (lit "item") []) [] [] :: mkFrame L (KElem (lit "root") []) [] [] :: s)) by (apply st_here; [cbn; lia|reflexivity]).
      pose proof (record_end (lit "item") leak_file 0 (S L) _ _ _ [] [] _ _ (token_void_end leak_file 0 2 (lit "root" :: stk) (lit "item")) S2) as X3.
      cbn [Nat.add xparse]. rewrite X1, X2, X3. eexists. split; [reflexivity|reflexivity]. }
    assert (Ef : exists f, xfuel leak_file q = 3 + f) by (exists (xfuel leak_file q - 3); unfold xfuel; cbn [leak_file List.length]; lia).
    destruct Ef as [f ->]. remember 0 as i0 eqn:E0 in Hr. destruct Hr as [j stk|j stk g r L H1 H2 H3 H4 H5]; subst j.
    + destruct (G stk _ _ 1 ltac:(lia) fresh_settles (fresh_clean (lit "item")) fresh_no_decl f) as [p' [E1 E2]].
      cbn [Nat.add xparse] in E1 |- *. rewrite (fresh_step (lit "item") leak_file 0 0 stk _ _ _ (token_start leak_file 0 0 stk _ _ _ eq_refl)).
      rewrite E1. exact E2.
    + destruct (G stk (g :: r) (g :: r) L H1 (st_here L g r H2 H3) H4 H5 f) as [p' [E1 E2]]. rewrite E1. exact E2.
Qed.

Lemma leak_gets k : forall p, kept (lit "item") p ->
  List.length (x_stack (xp_dec (gets leak_file 0 [(true, lit "item")] (repeat 0%Z k) p))) = k + List.length (x_stack (xp_dec p)).
Proof.
  induction k as [|k IH]; intros p Hk; [reflexivity|]. cbn [repeat gets]. destruct (leak_step p Hk) as [Hq Eq].
  rewrite IH by exact Hq. rewrite Eq. cbn [List.length]. lia.
Qed.

Lemma leak_gets_new k : List.length (x_stack (xp_dec (gets leak_file 0 [(true, lit "item")] (repeat 0%Z k) new_xparser))) = k.
Proof. rewrite (leak_gets k _ (kept_new (lit "item"))). cbn. lia. Qed.
