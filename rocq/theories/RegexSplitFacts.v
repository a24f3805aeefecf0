(** Regexp.Split loses nothing, and divides at the first delimiters. *)
From Coq Require Import List ZArith Lia Bool String.
From Coq Require Import Strings.Byte.
From Verif Require Import Base BaseFacts GoStrings StringsFacts Value Parser ParserFacts Regex SpecRegex RegexFacts RegexSplit.
Import ListNotations.

Notation cs := (list (Z * bytes)).
Definition slice (s : cs) (a b : nat) : cs := firstn (b - a) (skipn a s).

Lemma slice_rest (s : cs) a b : (a <= b)%nat -> slice s a b ++ skipn b s = skipn a s.
Proof. intros H. unfold slice. replace b with ((b - a) + a)%nat at 2 by lia. rewrite <- skipn_skipn. apply firstn_skipn. Qed.

(** *** One match *)
Lemma run_pos r : forall st st', In st' (run r st) -> exists w, ms_rest st = w ++ ms_rest st' /\ ms_pos st' = (ms_pos st + List.length w)%nat.
Proof.
  assert (It : forall a g, (forall st st', In st' (run a st) -> exists w, ms_rest st = w ++ ms_rest st' /\ ms_pos st' = (ms_pos st + List.length w)%nat) ->
    forall fuel st st', In st' (iterate (run a) g fuel st) -> exists w, ms_rest st = w ++ ms_rest st' /\ ms_pos st' = (ms_pos st + List.length w)%nat).
  { intros a g Ha. induction fuel as [|fuel IH]; intros st st' H; cbn [iterate] in H.
    - destruct H as [<-|[]]. exists []. split; [reflexivity|cbn; lia].
    - assert (In st' (flat_map (fun st' => if Nat.eqb (ms_pos st') (ms_pos st) then [] else iterate (run a) g fuel st') (run a st)) \/ st' = st) as [H'| ->].
      { destruct g; [apply in_app_iff in H as [H|[<-|[]]]; auto|destruct H as [<-|H]; auto]. }
      + apply in_flat_map in H' as (st1 & H1 & H2). destruct (Nat.eqb _ _); [destruct H2|]. destruct (Ha _ _ H1) as (w1 & E1 & P1). destruct (IH _ _ H2) as (w2 & E2 & P2).
        exists (w1 ++ w2). split; [rewrite E1, E2; apply app_assoc|rewrite app_length; lia].
      + exists []. split; [reflexivity|cbn; lia]. }
  induction r as [| neg l | | |a IHa b IHb|a IHa b IHb|k g a IHa|i a IHa]; intros st st' H; cbn [run] in H.
  - destruct H as [<-|[]]. exists []. split; [reflexivity|cbn; lia].
  - destruct (ms_rest st) as [|[c b] rest] eqn:E; [destruct H|]. destruct (in_set neg l c); [|destruct H]. destruct H as [<-|[]]. exists [(c, b)]. split; [reflexivity|cbn; lia].
  - destruct (Nat.eqb _ _); [|destruct H]. destruct H as [<-|[]]. exists []. split; [reflexivity|cbn; lia].
  - destruct (ms_rest st) eqn:E; [|destruct H]. destruct H as [<-|[]]. exists []. rewrite E. split; [reflexivity|cbn; lia].
  - apply in_flat_map in H as (st1 & H1 & H2). destruct (IHa _ _ H1) as (w1 & E1 & P1). destruct (IHb _ _ H2) as (w2 & E2 & P2).
    exists (w1 ++ w2). split; [rewrite E1, E2; apply app_assoc|rewrite app_length; lia].
  - apply in_app_iff in H as [H|H]; auto.
  - destruct k.
    + eapply It; eauto.
    + apply in_flat_map in H as (st1 & H1 & H2). destruct (IHa _ _ H1) as (w1 & E1 & P1). destruct (It _ _ IHa _ _ _ H2) as (w2 & E2 & P2).
      exists (w1 ++ w2). split; [rewrite E1, E2; apply app_assoc|rewrite app_length; lia].
    + assert (In st' (run a st) \/ st' = st) as [H'| ->] by (destruct g; [apply in_app_iff in H as [H|[<-|[]]]; auto|destruct H as [<-|H]; auto]); [auto|].
      exists []. split; [reflexivity|cbn; lia].
  - apply in_map_iff in H as (st1 & <- & H1). exact (IHa _ _ H1).
Qed.

Lemma find_bounds r s : forall pos b e, (pos <= List.length s)%nat -> find_from r pos (skipn pos s) = Some (b, e) ->
  (pos <= b <= e)%nat /\ (e <= List.length s)%nat /\ (unanchored r = true -> matches r (map fst (slice s b e))) /\
  (forall i, (pos <= i < b)%nat -> run r (mkMstate i (skipn i s) []) = []).
Proof.
  intros pos. remember (List.length s - pos)%nat as n eqn:En. revert pos En. induction n as [|n IH]; intros pos En b e Hp H.
  - rewrite skipn_all2 in H by lia. cbn [find_from] in H. destruct (run r _) as [|st l] eqn:E; [discriminate H|]. injection H as <- <-.
    assert (Hin : In st (run r (mkMstate pos [] []))) by (rewrite E; left; reflexivity). destruct (run_pos _ _ _ Hin) as (w & E1 & E2). cbn [ms_rest ms_pos] in *.
    symmetry in E1. apply app_eq_nil in E1 as [-> E1]. cbn in E2. split; [lia|]. split; [lia|]. split; [|intros; lia].
    intros Hu. destruct (run_sound r Hu _ _ Hin) as (w & (R1 & R2 & _) & M). cbn [ms_rest] in R1. symmetry in R1. apply app_eq_nil in R1 as [-> _].
    unfold slice. rewrite E2, Nat.add_0_r, Nat.sub_diag. exact M.
  - destruct (skipn pos s) as [|c rest] eqn:Es; [apply (f_equal (@List.length _)) in Es; rewrite skipn_length in Es; cbn in Es; lia|].
    assert (Er : rest = skipn (S pos) s). { replace (S pos) with (1 + pos)%nat by lia. rewrite <- skipn_skipn, Es. reflexivity. }
    cbn [find_from] in H. destruct (run r (mkMstate pos (c :: rest) [])) as [|st l] eqn:E.
    + rewrite Er in H. apply IH in H; [|lia|lia]. destruct H as (H1 & H2 & H3 & H4). split; [lia|]. split; [exact H2|]. split; [exact H3|].
      intros i Hi. destruct (Nat.eq_dec i pos) as [->|Hne]; [rewrite Es; exact E|]. apply H4. lia.
    + injection H as <- <-. rewrite <- Es in *. assert (Hin : In st (run r (mkMstate pos (skipn pos s) []))) by (rewrite E; left; reflexivity).
      destruct (run_pos _ _ _ Hin) as (w & E1 & E2). cbn [ms_rest ms_pos] in *. split; [lia|].
      split; [apply (f_equal (@List.length _)) in E1; rewrite skipn_length, app_length in E1; lia|]. split; [|intros; lia].
      intros Hu. destruct (run_sound r Hu _ _ Hin) as (w' & (R1 & R2 & _) & M). cbn [ms_rest ms_pos] in R1, R2. unfold slice. rewrite R2.
      replace (pos + List.length w' - pos)%nat with (List.length w') by lia. rewrite R1, firstn_app_exact. exact M.
Qed.
Lemma find_none r s : forall pos, (pos <= List.length s)%nat -> find_from r pos (skipn pos s) = None ->
  forall i, (pos <= i <= List.length s)%nat -> run r (mkMstate i (skipn i s) []) = [].
Proof.
  intros pos. remember (List.length s - pos)%nat as n eqn:En. revert pos En. induction n as [|n IH]; intros pos En Hp H i Hi.
  - assert (i = pos) as -> by lia. rewrite skipn_all2 in * by lia. cbn [find_from] in H. destruct (run r _); [reflexivity|discriminate H].
  - destruct (skipn pos s) as [|c rest] eqn:Es; [apply (f_equal (@List.length _)) in Es; rewrite skipn_length in Es; cbn in Es; lia|].
    assert (Er : rest = skipn (S pos) s). { replace (S pos) with (1 + pos)%nat by lia. rewrite <- skipn_skipn, Es. reflexivity. }
    cbn [find_from] in H. destruct (run r (mkMstate pos (c :: rest) [])) as [|st l] eqn:E; [|discriminate H].
    destruct (Nat.eq_dec i pos) as [->|Hne]; [rewrite Es; exact E|]. rewrite Er in H. eapply IH; [|..|exact H|]; lia.
Qed.
Lemma no_run r s i : unanchored r = true -> run r (mkMstate i (skipn i s) []) = [] -> ~ begins (matches r) (map fst (skipn i s)).
Proof.
  intros Hu H (v & w & E & M). apply map_eq_app in E as (w1 & w2 & E & E1 & E2). destruct (run_complete r Hu v M (mkMstate i (skipn i s) []) w1 w2 E E1) as (st & Hin & _).
  rewrite H in Hin. destruct Hin.
Qed.

(** *** All the matches *)
Inductive chain (P : cs -> Prop) (s : cs) : nat -> list (nat * nat) -> Prop :=
| ch_nil pos : chain P s pos []
| ch_cons pos b e ms : (pos <= b <= e)%nat -> (e <= List.length s)%nat -> P (slice s b e) -> chain P s e ms -> chain P s pos ((b, e) :: ms).
Lemma chain_weaken P s pos pos' ms : (pos' <= pos)%nat -> chain P s pos ms -> chain P s pos' ms.
Proof. intros H C. inversion C; subst; constructor; auto; lia. Qed.

Lemma all_chain r s fuel : forall pos prev, (List.length s < pos + fuel)%nat ->
  exists ms, all_matches (S fuel) r s pos prev = Ok ms /\ chain (fun w => unanchored r = true -> matches r (map fst w)) s pos ms.
Proof.
  induction fuel as [|fuel IH]; intros pos prev Hf.
  - cbn [all_matches]. destruct (Nat.ltb_spec (List.length s) pos); [|lia]. exists []. split; [reflexivity|constructor].
  - remember (S fuel) as f. cbn [all_matches]. subst f. destruct (Nat.ltb_spec (List.length s) pos); [exists []; split; [reflexivity|constructor]|].
    destruct (find_from r pos (skipn pos s)) as [[b e]|] eqn:E; [|exists []; split; [reflexivity|constructor]].
    apply find_bounds in E as (E1 & E2 & E3 & _); [|assumption]. destruct (Nat.eqb_spec e pos) as [->|Hne].
    + destruct (IH (S pos) (Some pos)) as (ms & -> & C); [lia|]. cbn [rbind]. eexists. split; [reflexivity|].
      destruct (match prev with Some p => Nat.eqb b p | None => false end); [apply (chain_weaken _ _ (S pos)); [lia|exact C]|].
      constructor; try assumption. apply (chain_weaken _ _ (S pos)); [lia|exact C].
    + destruct (IH e (Some e)) as (ms & -> & C); [lia|]. cbn [rbind]. eexists. split; [reflexivity|]. constructor; assumption.
Qed.

(** *** The pieces *)
Lemma raw_slice_rest s a b : (a <= b)%nat -> raw (slice s a b) ++ raw (skipn b s) = raw (skipn a s).
Proof. intros H. rewrite <- raw_app. now rewrite slice_rest. Qed.

Lemma cut_weave P s ms : forall beg last, chain P s beg ms -> (last <= beg <= List.length s)%nat ->
  exists ds, weave (map raw (cut_at s ms beg last)) ds = raw (skipn beg s) /\ Forall (fun d => exists w, d = raw w /\ P w /\ exists i j, w = slice s i j) ds /\
    (List.length (cut_at s ms beg last) = S (List.length ds) \/ (cut_at s ms beg last = [] /\ ds = [] /\ beg = List.length s)).
Proof.
  induction ms as [|[b e] ms IH]; intros beg last C Hl; cbn [cut_at].
  - destruct (Nat.eqb_spec last (List.length s)) as [->|Hne].
    + assert (beg = List.length s) as -> by lia. exists []. rewrite skipn_all. split; [reflexivity|]. split; [constructor|]. right. auto.
    + exists []. split; [cbn [map weave]; apply app_nil_r|]. split; [constructor|]. left. reflexivity.
  - inversion C as [|? ? ? ? C1 C2 C3 C4]; subst. destruct (IH e b C4 ltac:(lia)) as (ds & W & F & L). destruct (Nat.eqb_spec e 0) as [->|Hne].
    + assert (beg = 0%nat) as -> by lia. exists ds. cbn [app]. auto.
    + cbn [app map]. fold (slice s beg b). destruct L as [L|(E1 & -> & E2)].
      * exists (raw (slice s b e) :: ds). split; [|split].
        -- cbn [weave]. rewrite W. rewrite raw_slice_rest by lia. apply raw_slice_rest. lia.
        -- constructor; [exists (slice s b e); eauto|exact F].
        -- left. cbn [List.length]. rewrite L. reflexivity.
      * rewrite E1. exists []. split; [|split; [constructor|left; reflexivity]]. cbn [map weave]. rewrite app_nil_r.
        assert (b = List.length s \/ (b < List.length s)%nat) as [Hb|Hb] by lia.
        -- rewrite <- (raw_slice_rest s beg b) by lia. rewrite Hb, skipn_all. symmetry. apply app_nil_r.
        -- exfalso. destruct ms as [|[b' e'] ms]; cbn [cut_at] in E1.
           ++ destruct (Nat.eqb_spec b (List.length s)); [lia|discriminate E1].
           ++ destruct (Nat.eqb_spec e' 0); [|discriminate E1]. inversion C4; subst. lia.
Qed.

Lemma slice_chars t i j : chars (raw (slice (chars t) i j)) = slice (chars t) i j.
Proof.
  apply (chars_segment t (firstn i (chars t)) _ (skipn (j - i) (skipn i (chars t)))). unfold slice. rewrite firstn_skipn. symmetry. apply firstn_skipn.
Qed.
Lemma skip_chars t i : chars (raw (skipn i (chars t))) = skipn i (chars t).
Proof. apply (chars_suffix t (firstn i (chars t))). symmetry. apply firstn_skipn. Qed.

Lemma nothing_lost expr r s : s <> [] -> exists l ds, split_with expr r s = Ok l /\ List.length l = S (List.length ds) /\ weave l ds = s /\
  (unanchored (re_prog r) = true -> Forall (fun d => matches (re_prog r) (runes d)) ds).
Proof.
  intros Hs. destruct (all_chain (re_prog r) (chars s) (S (List.length (chars s))) 0 None ltac:(lia)) as (ms & E & C).
  destruct (cut_weave _ _ ms 0 0 C ltac:(lia)) as (ds & W & F & L). exists (map raw (cut_at (chars s) ms 0 0)), ds.
  assert (Hn : List.length (chars s) <> 0%nat). { intros K. apply length_zero_iff_nil in K. apply Hs. rewrite <- (raw_chars s), K. reflexivity. }
  split; [|split; [|split]].
  - unfold split_with. rewrite E. destruct expr, s; try reflexivity. congruence.
  - rewrite map_length. destruct L as [L|(_ & _ & L)]; [exact L|lia].
  - rewrite W. cbn [skipn]. apply raw_chars.
  - intros Hu. eapply Forall_impl; [|exact F]. intros d (w & -> & Hm & i & j & ->). rewrite runes_chars, slice_chars. auto.
Qed.

(** *** First delimiters *)
Lemma cut_divided t r (Hu : unanchored r = true) (Hn : ~ matches r []) fuel : forall pos last prev ms, all_matches fuel r (chars t) pos prev = Ok ms -> (pos <= List.length (chars t))%nat ->
  last <> List.length (chars t) -> divided (matches r) (raw (skipn pos (chars t))) (map raw (cut_at (chars t) ms pos last)).
Proof.
  set (s := chars t). induction fuel as [|fuel IH]; intros pos last prev ms E Hp Hl; [discriminate E|]. cbn [all_matches] in E.
  destruct (Nat.ltb_spec (List.length s) pos); [lia|]. destruct (find_from r pos (skipn pos s)) as [[b e]|] eqn:Ef.
  - pose proof Ef as Ef'. apply find_bounds in Ef' as (E1 & E2 & E3 & E4); [|assumption]. specialize (E3 Hu).
    assert (Hbe : (b < e)%nat). { destruct (Nat.eq_dec b e) as [->|]; [|lia]. unfold slice in E3. rewrite Nat.sub_diag in E3. destruct (Hn E3). }
    destruct (Nat.eqb_spec e pos) as [->|_]; [lia|]. destruct (all_matches fuel r s e (Some e)) as [ms'| | |] eqn:Em; try discriminate E. injection E as <-.
    cbn [cut_at]. destruct (Nat.eqb_spec e 0) as [->|_]; [lia|]. cbn [app map]. fold (slice s pos b).
    rewrite <- (raw_slice_rest s pos b) by lia. rewrite <- (raw_slice_rest s b e) by lia. apply div_cut.
    + rewrite raw_slice_rest by lia. rewrite raw_slice_rest by lia. rewrite !runes_chars. unfold s. rewrite !skip_chars, !slice_chars. fold s. rewrite <- !map_app. f_equal.
      rewrite slice_rest by lia. rewrite slice_rest by lia. reflexivity.
    + rewrite runes_chars. unfold s. rewrite slice_chars. exact E3.
    + rewrite raw_slice_rest by lia. rewrite raw_slice_rest by lia. rewrite !runes_chars. unfold s. rewrite skip_chars, slice_chars. fold s. rewrite map_length.
      intros a c Ha Hlt. unfold slice in Hlt. rewrite firstn_length, skipn_length in Hlt. apply map_eq_app in Ha as (w1 & w2 & Ew & <- & <-). rewrite map_length in Hlt.
      assert (w2 = skipn (List.length w1 + pos) s) as -> by (rewrite <- skipn_skipn, Ew, skipn_app_exact; reflexivity).
      apply no_run; [exact Hu|]. apply E4. lia.
    + eapply IH; [exact Em|exact E2|lia].
  - injection E as <-. cbn [cut_at]. destruct (Nat.eqb_spec last (List.length s)) as [->|_]; [congruence|]. cbn [map]. apply div_last.
    rewrite runes_chars. unfold s. rewrite skip_chars. fold s. intros a c Ha. apply map_eq_app in Ha as (w1 & w2 & Ew & <- & <-).
    assert (w2 = skipn (List.length w1 + pos) s) as -> by (rewrite <- skipn_skipn, Ew, skipn_app_exact; reflexivity).
    apply no_run; [exact Hu|]. eapply find_none; [exact Hp|exact Ef|]. apply (f_equal (@List.length _)) in Ew. rewrite skipn_length, app_length in Ew. lia.
Qed.

Lemma split_divided expr r s : compile expr = Ok r -> unanchored (re_prog r) = true -> ~ matches (re_prog r) [] -> divided (matches (re_prog r)) s (go_regexp_split expr s).
Proof.
  intros Hc Hu Hn. unfold go_regexp_split. rewrite Hc. destruct s as [|x s].
  - assert (split_with expr r [] = Ok [[]]) as ->.
    { destruct expr; [vm_compute in Hc; injection Hc as <-; destruct Hn; constructor|reflexivity]. }
    apply div_last. intros a b E (v & w & -> & M). change (runes []) with (@nil Z) in E. symmetry in E. apply app_eq_nil in E as [_ E]. apply app_eq_nil in E as [-> _]. exact (Hn M).
  - destruct (all_chain (re_prog r) (chars (x :: s)) (S (List.length (chars (x :: s)))) 0 None ltac:(lia)) as (ms & E & _).
    assert (split_with expr r (x :: s) = Ok (map raw (cut_at (chars (x :: s)) ms 0 0))) as -> by (unfold split_with; rewrite E; destruct expr; reflexivity).
    rewrite <- (raw_chars (x :: s)) at 1. change (chars (x :: s)) with (skipn 0 (chars (x :: s))) at 1. eapply cut_divided; [exact Hu|exact Hn|exact E|lia|].
    intros K. symmetry in K. apply length_zero_iff_nil in K. pose proof (raw_chars (x :: s)) as R. rewrite K in R. discriminate R.
Qed.
Lemma split_weave expr r s : compile expr = Ok r -> s <> [] -> exists ds, List.length (go_regexp_split expr s) = S (List.length ds) /\ weave (go_regexp_split expr s) ds = s /\
  (unanchored (re_prog r) = true -> Forall (fun d => matches (re_prog r) (runes d)) ds).
Proof. intros Hc Hs. destruct (nothing_lost expr r s Hs) as (l & ds & E & H). unfold go_regexp_split. rewrite Hc, E. exists ds. exact H. Qed.

Lemma parse_regexp pf jd dc fuel ps delim sub c s : mget ps sub = Some c -> forall v,
  parse pf jd dc go_regexp_split (S fuel) ps (PSplit delim true sub) s = Ok v <->
  exists vs, v = VList vs /\ Forall2 (fun piece v => parse pf jd dc go_regexp_split fuel ps c piece = Ok v) (go_regexp_split delim s) vs.
Proof.
  intros Hc v. cbn [parse]. rewrite Hc. destruct (rmapM _ _) as [l| | |] eqn:E; cbn [rbind].
  - apply rmapM_Forall2 in E. split; [intros [= <-]; eauto|]. intros (vs & -> & F). do 2 f_equal. apply rmapM_Forall2 in E, F. congruence.
  - split; [discriminate|]. intros (vs & _ & F). apply rmapM_Forall2 in F. congruence.
  - split; [discriminate|]. intros (vs & _ & F). apply rmapM_Forall2 in F. congruence.
  - split; [discriminate|]. intros (vs & _ & F). apply rmapM_Forall2 in F. congruence.
Qed.
