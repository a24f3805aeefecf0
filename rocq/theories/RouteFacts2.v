(** What the regular expression of a route matches. *)
From Coq Require Import List ZArith Lia Bool String.
From Coq Require Import Strings.Byte ZifyBool.
From Verif Require Import Base BaseFacts Codec CodecFacts Value GoStrings SpecText StringsFacts Utf8Facts JsonFacts Parser Regex RegexFacts
  Output Http Route SpecRoute RouteFacts.
Import ListNotations.
Open Scope Z_scope.

(** *** Parsing *)
Definition rlit (c : Z) : re := RSet false [(c, c)].
Definition alt_re (v : list Z) : re := rcat (map rlit v).
Definition int_body (cs : list Z) : list re :=
  match cs with [] => [] | _ :: _ => [RRep Star true (RSet false (map dup cs))] end ++
  [RRep Quest true (RSet false [(45, 45)]); RRep Plus true (RSet false ((48, 57) :: map dup cs))].
Definition body (c : pconfig) (g : nat) : list re :=
  match c with
  | PString _ => [RRep Plus true (RSet true [(10, 10)])]
  | PInteger ig => int_body (runes ig)
  | PFloat sep ig =>
    int_body (runes ig) ++
    [RRep Quest true (RGroup (S g) (rcat [RSet false (map dup (runes sep)); RRep Plus true (RSet false ((48, 57) :: map dup (runes ig)))]))]
  | PBoolean t f => [RGroup (S g) (ralt (map alt_re (map runes (t ++ f))))]
  | PJson | PSplit _ _ _ => []
  end.
Definition inner (c : pconfig) : nat := if grouping c then 1%nat else 0%nat.

Lemma psteps_app ts ts' st : psteps (ts ++ ts') st = rlet st1 := psteps ts st in psteps ts' st1.
Proof.
  revert st. induction ts as [|t ts IH]; intros st; [reflexivity|]. cbn [app psteps].
  destruct (pstep st t); cbn [rbind]; [apply IH|reflexivity..].
Qed.

Lemma psteps_lits cs : forall ts outer alts cur idx n b,
  psteps (map tlit cs ++ ts) (mkPstate outer (mkFrame alts cur idx) n b) =
  psteps ts (mkPstate outer (mkFrame alts (rev (map rlit cs) ++ cur) idx) n (match cs with [] => b | _ :: _ => false end)).
Proof.
  induction cs as [|c cs IH]; intros ts outer alts cur idx n b; [reflexivity|].
  cbn [map app psteps]. cbn [pstep tlit rbind]. unfold push. cbn [ps_outer ps_top f_alts f_cur f_idx ps_caps].
  rewrite IH.
  cbn [rev map]. rewrite <- app_assoc. cbn [app]. destruct cs; reflexivity.
Qed.

Lemma psteps_bars vs : forall v ts f outer alts idx n b,
  psteps (flat_map (fun v => TBar :: v) (map (map tlit) vs) ++ TClose :: ts) (mkPstate (f :: outer) (mkFrame alts (rev (map rlit v)) idx) n b) =
  psteps ts (mkPstate outer (mkFrame (f_alts f) (RGroup idx (ralt (rev alts ++ map alt_re (v :: vs))) :: f_cur f) (f_idx f)) n false).
Proof.
  induction vs as [|w vs IH]; intros v ts f outer alts idx n b.
  - cbn [map flat_map app psteps pstep ps_outer ps_top ps_caps rbind]. unfold close_frame. cbn [f_cur f_alts f_idx rev]. rewrite rev_involutive. reflexivity.
  - cbn [map flat_map app psteps pstep ps_outer ps_top ps_caps rbind f_cur f_alts f_idx]. rewrite <- app_assoc, rev_involutive, psteps_lits, app_nil_r, IH.
    cbn [rev map]. rewrite <- app_assoc. reflexivity.
Qed.

Lemma ralt_one r : ralt [r] = r. Proof. reflexivity. Qed.

Lemma psteps_int cs ts outer alts idx n :
  psteps (int_toks cs ++ ts) (mkPstate outer (mkFrame alts [] idx) n false) =
  psteps ts (mkPstate outer (mkFrame alts (rev (int_body cs)) idx) n true).
Proof. unfold int_toks, int_body, ignore_toks. destruct cs; reflexivity. Qed.

Lemma psteps_param c ts outer alts cur idx n b : clear c ->
  psteps (TOpen :: toks c ++ TClose :: ts) (mkPstate outer (mkFrame alts cur idx) n b) =
  psteps ts (mkPstate outer (mkFrame alts (RGroup (S n) (rcat (body c (S n))) :: cur) idx) (S n + inner c) false).
Proof.
  intros H. cbn [psteps pstep ps_outer ps_top ps_caps rbind].
  destruct c as [ch|ig|sep ig|t f| |]; cbn [clear] in H; try contradiction; unfold inner; cbn [grouping].
  - cbn. repeat f_equal. lia.
  - cbn [toks]. rewrite psteps_int. cbn [psteps pstep ps_outer ps_top ps_caps rbind]. unfold close_frame. cbn [f_cur f_alts f_idx rev app].
    rewrite rev_involutive, ralt_one. cbn [body]. repeat f_equal. lia.
  - cbn [toks]. rewrite <- app_assoc, psteps_int. cbn [app]. cbn [psteps pstep ps_outer ps_top ps_caps ps_rep rbind f_cur f_alts f_idx nullable].
    unfold push. cbn [psteps pstep ps_outer ps_top ps_caps ps_rep rbind f_cur f_alts f_idx nullable].
    unfold close_frame. cbn [f_cur f_alts f_idx rev app]. rewrite rev_involutive, !ralt_one. cbn [body]. repeat f_equal. lia.
  - destruct H as [Hne _]. cbn [toks].
    replace (map (fun v => map tlit (runes v)) (t ++ f)) with (map (map tlit) (map runes (t ++ f))) by apply map_map.
    destruct (map runes (t ++ f)) as [|v vs] eqn:E; [apply map_eq_nil in E; congruence|]. cbn [map]. rewrite <- !app_assoc. cbn [app].
    cbn [psteps pstep ps_outer ps_top ps_caps rbind].
    rewrite psteps_lits, app_nil_r, psteps_bars.
    cbn [psteps pstep ps_outer ps_top ps_caps rbind f_cur f_alts f_idx rev app]. unfold close_frame.
    cbn [f_cur f_alts f_idx rev app]. rewrite ralt_one. cbn [body]. rewrite E. repeat f_equal. lia.
Qed.

(** The pattern of a path, after its first part. *)
Fixpoint rtail (cfgs : list pconfig) (rss : list (list Z)) : list Z :=
  match cfgs, rss with c :: cfgs', r :: rss' => 40 :: rpat c ++ 41 :: r ++ rtail cfgs' rss' | _, _ => [] end.
Fixpoint ttail (cfgs : list pconfig) (rss : list (list Z)) : list token :=
  match cfgs, rss with c :: cfgs', r :: rss' => TOpen :: toks c ++ TClose :: map tlit r ++ ttail cfgs' rss' | _, _ => [] end.
Fixpoint segs (n : nat) (cfgs : list pconfig) (rss : list (list Z)) : list re :=
  match cfgs, rss with
  | c :: cfgs', r :: rss' => RGroup (S n) (rcat (body c (S n))) :: map rlit r ++ segs (S n + inner c) cfgs' rss'
  | _, _ => []
  end.
Fixpoint ngroups (n : nat) (cfgs : list pconfig) : nat :=
  match cfgs with [] => n | c :: cfgs' => ngroups (S n + inner c) cfgs' end.

Lemma psteps_tail cfgs : forall rss, List.length rss = List.length cfgs -> Forall clear cfgs -> forall ts outer alts cur idx n b,
  exists b', psteps (ttail cfgs rss ++ ts) (mkPstate outer (mkFrame alts cur idx) n b) =
  psteps ts (mkPstate outer (mkFrame alts (rev (segs n cfgs rss) ++ cur) idx) (ngroups n cfgs) b').
Proof.
  induction cfgs as [|c cfgs IH]; intros rss Hl Hc ts outer alts cur idx n b; [exists b; destruct rss; [reflexivity|discriminate Hl]|].
  destruct rss as [|r rss]; [discriminate Hl|]. injection Hl as Hl. inversion Hc as [|? ? Hc1 Hc2]. subst.
  cbn [ttail segs ngroups]. cbn [app]. rewrite <- app_assoc. cbn [app]. rewrite psteps_param by assumption. rewrite <- app_assoc, psteps_lits.
  destruct (IH rss Hl Hc2 ts outer alts (rev (map rlit r) ++ RGroup (S n) (rcat (body c (S n))) :: cur) idx (S n + inner c)%nat
    (match r with [] => false | _ :: _ => false end)) as [b' E].
  exists b'. rewrite E. cbn [rev]. rewrite rev_app_distr, <- !app_assoc. reflexivity.
Qed.

Definition plains (cs : list Z) : Prop := Forall plain_char cs.

Lemma plains_lex cs rest : plains cs -> lex (cs ++ rest) 0 = rlet l := lex rest 0 in Ok (map tlit cs ++ l).
Proof. intros H. apply lex_plains. eapply Forall_impl; [|exact H]. intros c Hc. exact (proj2 (proj2 Hc)). Qed.

Lemma rpat_start c rest : clear c -> next_is 63 (rpat c ++ rest) = false.
Proof.
  destruct c as [ch|ig|sep ig|t f| |]; cbn [clear]; intros H; try contradiction; try reflexivity.
  - cbn [rpat]. destruct (rquote (runes ig)); reflexivity.
  - cbn [rpat]. destruct (rquote (runes ig)); reflexivity.
Qed.

Lemma lex_tail cfgs : forall rss rest, List.length rss = List.length cfgs -> Forall clear cfgs -> Forall plains rss ->
  lex (rtail cfgs rss ++ rest) 0 = rlet l := lex rest 0 in Ok (ttail cfgs rss ++ l).
Proof.
  induction cfgs as [|c cfgs IH]; intros rss rest Hl Hc Hp.
  - destruct rss; [|discriminate Hl]. cbn [rtail ttail app]. destruct (lex rest 0); reflexivity.
  - destruct rss as [|r rss]; [discriminate Hl|]. injection Hl as Hl. inversion Hc as [|? ? Hc1 Hc2]. inversion Hp as [|? ? Hp1 Hp2]. subst.
    cbn [rtail ttail app]. rewrite <- app_assoc. cbn [app]. rewrite <- app_assoc.
    rewrite (lex_one 40 TOpen) by ((cbn; auto) || (apply rpat_start; assumption)).
    rewrite lex_pattern by assumption.
    transitivity (rlet l := rlet l := (rlet l := lex (r ++ rtail cfgs rss ++ rest) 0 in Ok (TClose :: l)) in Ok (toks c ++ l) in Ok (TOpen :: l)); [reflexivity|].
    rewrite plains_lex, IH by assumption. destruct (lex rest 0) as [l| | |]; cbn [rbind]; try reflexivity.
    rewrite <- !app_assoc. cbn [app]. rewrite <- !app_assoc. reflexivity.
Qed.

Definition prog (r0 : list Z) (cfgs : list pconfig) (rss : list (list Z)) : re :=
  rcat (RBegin :: map rlit r0 ++ segs 0 cfgs rss ++ [REnd]).

Lemma plains_scalar cs : plains cs -> Forall scalar cs.
Proof. intros H. eapply Forall_impl; [|exact H]. intros c Hc. exact (proj1 Hc). Qed.

Lemma rtail_scalar cfgs : forall rss, Forall clear cfgs -> Forall plains rss -> Forall scalar (rtail cfgs rss).
Proof.
  induction cfgs as [|c cfgs IH]; intros rss Hc Hp; [constructor|]. destruct rss as [|r rss]; [constructor|].
  inversion Hc as [|? ? Hc1 Hc2]. inversion Hp as [|? ? Hp1 Hp2]. subst. cbn [rtail].
  apply Forall_cons; [unfold scalar; lia|]. apply Forall_app. split; [apply pattern_text; assumption|].
  apply Forall_cons; [unfold scalar; lia|]. apply Forall_app. split; [apply plains_scalar; assumption|apply IH; assumption].
Qed.

Lemma compile_path r0 cfgs rss : plains r0 -> List.length rss = List.length cfgs -> Forall clear cfgs -> Forall plains rss ->
  compile (text (94 :: r0 ++ rtail cfgs rss ++ [36])) = Ok (mkRegexp (prog r0 cfgs rss) (ngroups 0 cfgs)).
Proof.
  intros H0 Hl Hc Hp.
  assert (Hs : Forall scalar (94 :: r0 ++ rtail cfgs rss ++ [36])).
  { apply Forall_cons; [unfold scalar; lia|]. apply Forall_app. split; [apply plains_scalar; assumption|].
    apply Forall_app. split; [apply rtail_scalar; assumption|]. apply Forall_cons; [unfold scalar; lia|apply Forall_nil]. }
  unfold compile. rewrite valid_text, runes_text by assumption. cbn [negb].
  assert (Hlex : lex (94 :: r0 ++ rtail cfgs rss ++ [36]) 0 = Ok (TBegin :: map tlit r0 ++ ttail cfgs rss ++ [TEnd])).
  { transitivity (rlet l := lex (r0 ++ rtail cfgs rss ++ [36]) 0 in Ok (TBegin :: l)); [reflexivity|].
    rewrite plains_lex, lex_tail by assumption. reflexivity. }
  rewrite Hlex. cbn [rbind]. unfold pinit. cbn [psteps pstep rbind]. unfold push. cbn [ps_outer ps_top f_alts f_cur f_idx ps_caps].
  rewrite psteps_lits.
  destruct (psteps_tail cfgs rss Hl Hc [TEnd] [] [] (rev (map rlit r0) ++ [RBegin]) 0%nat 0%nat (match r0 with [] => false | _ :: _ => false end)) as [b' E].
  rewrite E. cbn [psteps pstep rbind]. unfold push. cbn [ps_outer ps_top f_alts f_cur f_idx ps_caps]. unfold close_frame. cbn [f_cur f_alts rev app]. rewrite ralt_one.
  do 2 f_equal. unfold prog. f_equal. rewrite !rev_app_distr, !rev_involutive. cbn [rev app]. rewrite <- app_assoc. reflexivity.
Qed.

(** *** Languages *)
Lemma matches_star_set g neg l u : matches (RRep Star g (RSet neg l)) u <-> Forall (fun c => in_set neg l c = true) u.
Proof.
  split.
  - intros H. remember (RRep Star g (RSet neg l)) as r eqn:E. induction H; try discriminate E; [constructor|]. injection E as -> ->.
    apply Forall_app. split; [|auto]. apply matches_set in H0 as (c & -> & Hc). constructor; [exact Hc|constructor].
  - induction 1 as [|c u Hc _ IH]; [constructor|]. apply (m_star_cons g (RSet neg l) [c] u); [discriminate|constructor; exact Hc|exact IH].
Qed.
Lemma matches_plus_set g neg l u : matches (RRep Plus g (RSet neg l)) u <-> u <> [] /\ Forall (fun c => in_set neg l c = true) u.
Proof.
  rewrite matches_plus. split.
  - intros (v & w & -> & Hv & Hw). apply matches_set in Hv as (c & -> & Hc). apply matches_star_set in Hw. split; [discriminate|].
    constructor; assumption.
  - intros [Hne H]. destruct H as [|c u Hc Hu]; [congruence|]. exists [c], u. split; [reflexivity|].
    split; [constructor; exact Hc|apply matches_star_set; exact Hu].
Qed.

Lemma in_set_dup cs c : in_set false (map dup cs) c = true <-> In c cs.
Proof.
  unfold in_set. rewrite xorb_false_l. rewrite existsb_exists. split.
  - intros (r & Hr & H). apply in_map_iff in Hr as (x & <- & Hx). cbn in H. replace c with x by lia. exact Hx.
  - intros H. exists (dup c). split; [apply in_map; exact H|cbn; lia].
Qed.
Lemma in_set_digits cs c : in_set false ((48, 57) :: map dup cs) c = true <-> digit_or cs c.
Proof.
  assert (E : in_set false ((48, 57) :: map dup cs) c = ((48 <=? c) && (c <=? 57)) || in_set false (map dup cs) c) by (unfold in_set; rewrite !xorb_false_l; reflexivity).
  rewrite E.
  rewrite orb_true_iff, in_set_dup. unfold digit_or. split; (intros [H|H]; [left; lia|right; exact H]).
Qed.
Lemma in_set_one d c : in_set false [(d, d)] c = true <-> c = d.
Proof. unfold in_set. rewrite xorb_false_l. cbn [existsb fst snd]. lia. Qed.

Lemma Forall_iff {A} (P Q : A -> Prop) l : (forall x, P x <-> Q x) -> (Forall P l <-> Forall Q l).
Proof. intros H. split; apply Forall_impl; intros a; apply H. Qed.

Lemma matches_lits v u : matches (alt_re v) u <-> u = v.
Proof.
  unfold alt_re. revert u. induction v as [|c v IH]; intros u; cbn [map rcat fold_right].
  - apply matches_empty.
  - fold (rcat (map rlit v)). rewrite matches_cat. split.
    + intros (a & b & -> & Ha & Hb). apply matches_set in Ha as (d & -> & Hd). apply in_set_one in Hd as ->. apply IH in Hb as ->. reflexivity.
    + intros ->. exists [c], v. split; [reflexivity|]. split; [constructor; apply in_set_one; reflexivity|apply IH; reflexivity].
Qed.

Lemma matches_alts vs u : vs <> [] -> (matches (ralt (map alt_re vs)) u <-> In u vs).
Proof.
  induction vs as [|v vs IH]; [congruence|]. intros _. destruct vs as [|w vs].
  - cbn [map ralt]. rewrite matches_lits. cbn. intuition.
  - change (ralt (map alt_re (v :: w :: vs))) with (RAlt (alt_re v) (ralt (map alt_re (w :: vs)))).
    rewrite matches_alt, matches_lits, IH by discriminate. cbn. intuition.
Qed.

Lemma matches_rcat_cons a l u : matches (rcat (a :: l)) u <-> exists v w, u = v ++ w /\ matches a v /\ matches (rcat l) w.
Proof. apply matches_cat. Qed.
Lemma matches_rcat_app l l' u : matches (rcat (l ++ l')) u <-> exists v w, u = v ++ w /\ matches (rcat l) v /\ matches (rcat l') w.
Proof.
  revert u. induction l as [|a l IH]; intros u; cbn [app].
  - split; [intros H; exists [], u; split; [reflexivity|split; [constructor|exact H]]|]. intros (v & w & -> & Hv & Hw). apply matches_empty in Hv as ->. exact Hw.
  - rewrite matches_rcat_cons. split.
    + intros (v & w & -> & Hv & Hw). apply IH in Hw as (x & y & -> & Hx & Hy). exists (v ++ x), y. split; [apply app_assoc|].
      split; [apply matches_rcat_cons; eauto|exact Hy].
    + intros (v & w & -> & Hv & Hw). apply matches_rcat_cons in Hv as (x & y & -> & Hx & Hy). exists x, (y ++ w). rewrite app_assoc.
      split; [reflexivity|]. split; [exact Hx|apply IH; eauto].
Qed.
Lemma matches_rcat_one a u : matches (rcat [a]) u <-> matches a u.
Proof.
  rewrite matches_rcat_cons. split.
  - intros (v & w & -> & Hv & Hw). apply matches_empty in Hw as ->. rewrite app_nil_r. exact Hv.
  - intros H. exists u, []. rewrite app_nil_r. split; [reflexivity|]. split; [exact H|constructor].
Qed.

Lemma matches_int cs u : matches (rcat (int_body cs)) u <-> number_text cs u.
Proof.
  unfold int_body. rewrite matches_rcat_app.
  assert (Hb : forall v, matches (rcat match cs with [] => [] | _ :: _ => [RRep Star true (RSet false (map dup cs))] end) v <-> Forall (fun c => In c cs) v).
  { intros v. destruct cs as [|c cs].
    - cbn [rcat fold_right]. rewrite matches_empty. split; [intros ->; constructor|]. intros H. destruct v; [reflexivity|]. inversion H as [|? ? H1]. destruct H1.
    - rewrite matches_rcat_one, matches_star_set. apply Forall_iff. intros x. apply in_set_dup. }
  assert (Hd : forall w, matches (rcat [RRep Quest true (RSet false [(45, 45)]); RRep Plus true (RSet false ((48, 57) :: map dup cs))]) w <->
    exists s d, w = s ++ d /\ (s = [] \/ s = [45]) /\ d <> [] /\ Forall (digit_or cs) d).
  { intros w. rewrite matches_rcat_cons. split; intros (s & d & -> & H1 & H2); exists s, d; (split; [reflexivity|]).
    - apply matches_quest in H1. apply matches_rcat_one, matches_plus_set in H2 as [H2 H3]. split.
      + destruct H1 as [->|H1]; [auto|]. apply matches_set in H1 as (c & -> & Hc). apply in_set_one in Hc as ->. auto.
      + split; [exact H2|]. eapply Forall_impl; [|exact H3]. intros x. apply in_set_digits.
    - destruct H2 as [H2 H3]. split.
      + apply matches_quest. destruct H1 as [->| ->]; [auto|]. right. constructor. reflexivity.
      + apply matches_rcat_one, matches_plus_set. split; [exact H2|]. eapply Forall_impl; [|exact H3]. intros x. apply in_set_digits. }
  unfold number_text. split.
  - intros (v & w & -> & Hv & Hw). apply Hb in Hv. apply Hd in Hw as (s & d & -> & H1 & H2 & H3). exists v, s, d. auto.
  - intros (v & s & d & -> & H1 & H2 & H3 & H4). exists v, (s ++ d). split; [reflexivity|]. split; [apply Hb; exact H1|apply Hd; exists s, d; auto].
Qed.

Lemma set_alt c : in_set true [(10, 10)] c = true <-> c <> 10.
Proof. unfold in_set. rewrite xorb_true_l. cbn [existsb fst snd]. lia. Qed.

(** The texts for a parameter, as runes. *)
Definition rfits (c : pconfig) (u : list Z) : Prop :=
  match c with
  | PString _ => u <> [] /\ ~ In 10 u
  | PInteger ig => number_text (runes ig) u
  | PFloat sep ig => exists a b, u = a ++ b /\ number_text (runes ig) a /\ fraction_text (runes sep) (runes ig) b
  | PBoolean t f => In u (map runes (t ++ f))
  | PJson | PSplit _ _ _ => False
  end.

Lemma matches_body c g u : clear c -> (matches (rcat (body c g)) u <-> rfits c u).
Proof.
  destruct c as [ch|ig|sep ig|t f| |]; cbn [clear body rfits]; intros H; try contradiction.
  - rewrite matches_rcat_one, matches_plus_set. apply and_iff_compat_l.
    rewrite Forall_forall. split.
    + intros HF Hin. apply HF in Hin. apply set_alt in Hin. congruence.
    + intros Hn x Hx. apply set_alt. intros ->. exact (Hn Hx).
  - apply matches_int.
  - rewrite matches_rcat_app.
    assert (Hf : forall b, matches (rcat [RRep Quest true (RGroup (S g) (rcat [RSet false (map dup (runes sep)); RRep Plus true (RSet false ((48, 57) :: map dup (runes ig)))]))]) b
      <-> fraction_text (runes sep) (runes ig) b).
    { intros b. rewrite matches_rcat_one, matches_quest, matches_group, matches_rcat_cons. unfold fraction_text. apply or_iff_compat_l. split.
      - intros (v & w & -> & Hv & Hw). apply matches_set in Hv as (c & -> & Hc). apply matches_rcat_one, matches_plus_set in Hw as [H1 H2].
        exists c, w. split; [reflexivity|]. split; [apply in_set_dup; exact Hc|]. split; [exact H1|].
        eapply Forall_impl; [|exact H2]. intros x. apply in_set_digits.
      - intros (s & d & -> & Hs & H1 & H2). exists [s], d. split; [reflexivity|]. split; [constructor; apply in_set_dup; exact Hs|].
        apply matches_rcat_one, matches_plus_set. split; [exact H1|]. eapply Forall_impl; [|exact H2]. intros x. apply in_set_digits. }
    split; intros (a & b & -> & Ha & Hb); exists a, b; (split; [reflexivity|]); (split; [apply matches_int; exact Ha|apply Hf; exact Hb]).
  - rewrite matches_rcat_one, matches_group. apply matches_alts. destruct H as [H _]. intros E. apply map_eq_nil in E. exact (H E).
Qed.

Lemma unanchored_rcat l : Forall (fun r => unanchored r = true) l -> unanchored (rcat l) = true.
Proof. induction 1 as [|r l Hr _ IH]; [reflexivity|]. cbn [rcat fold_right unanchored]. rewrite Hr. exact IH. Qed.
Lemma unanchored_lits v : unanchored (alt_re v) = true.
Proof. apply unanchored_rcat. apply Forall_forall. intros r Hr. apply in_map_iff in Hr as (c & <- & _). reflexivity. Qed.
Lemma groups_lits v : groups (alt_re v) = [].
Proof. unfold alt_re. induction v as [|c v IH]; [reflexivity|]. exact IH. Qed.
Lemma unanchored_alts vs : unanchored (ralt (map alt_re vs)) = true.
Proof.
  induction vs as [|v vs IH]; [reflexivity|]. destruct vs as [|w vs]; [apply unanchored_lits|].
  change (unanchored (alt_re v) && unanchored (ralt (map alt_re (w :: vs))) = true). rewrite unanchored_lits. exact IH.
Qed.
Lemma groups_alts vs : groups (ralt (map alt_re vs)) = [].
Proof.
  induction vs as [|v vs IH]; [reflexivity|]. destruct vs as [|w vs]; [apply groups_lits|].
  change (groups (alt_re v) ++ groups (ralt (map alt_re (w :: vs))) = []). rewrite groups_lits. exact IH.
Qed.

Lemma unanchored_body c g : unanchored (rcat (body c g)) = true.
Proof.
  destruct c as [ch|ig|sep ig|t f| |]; try reflexivity; cbn [body].
  - unfold int_body. destruct (runes ig); reflexivity.
  - unfold int_body. destruct (runes ig); reflexivity.
  - cbn [rcat fold_right unanchored]. rewrite unanchored_alts. reflexivity.
Qed.
Lemma groups_body c g i : In i (groups (rcat (body c g))) -> (g < i <= g + inner c)%nat.
Proof.
  destruct c as [ch|ig|sep ig|t f| |]; cbn [body]; unfold inner; cbn [grouping].
  - intros [].
  - unfold int_body. destruct (runes ig); intros [].
  - unfold int_body. destruct (runes ig); cbn [rcat fold_right groups app In]; lia.
  - cbn [rcat fold_right groups app In]. rewrite groups_alts. cbn. lia.
  - intros [].
  - intros [].
Qed.
