(** Routes: matched paths and the text of the parameters. *)
From Coq Require Import List ZArith Lia Bool String.
From Coq Require Import Strings.Byte ZifyBool.
From Verif Require Import Base BaseFacts Codec CodecFacts Value GoStrings SpecText StringsFacts Utf8Facts JsonFacts Parser Regex RegexFacts
  Output Http Route SpecRoute RouteFacts RouteFacts2.
Import ListNotations.
Open Scope Z_scope.

Lemma F2_length {A B} (P : A -> B -> Prop) l l' : Forall2 P l l' -> List.length l = List.length l'.
Proof. induction 1; cbn; congruence. Qed.

(** *** Running the expression of a path *)
Lemma run_lits cs : forall l st w rest, ms_rest st = w ++ rest -> map fst w = cs ->
  run (rcat (map rlit cs ++ l)) st = run (rcat l) (mkMstate (ms_pos st + List.length w) rest (ms_caps st)).
Proof.
  induction cs as [|c cs IH]; intros l st w rest Hr Hm.
  - destruct w; [|discriminate Hm]. cbn [map app List.length]. rewrite Nat.add_0_r. cbn [app] in Hr. rewrite <- Hr. destruct st; reflexivity.
  - destruct w as [|[d b] w]; [discriminate Hm|]. injection Hm as Hd Hm. cbn [map app]. cbn [rcat fold_right run rlit]. rewrite Hr. cbn [app].
    replace (in_set false [(c, c)] d) with true by (symmetry; apply in_set_one; exact Hd). cbn [flat_map]. rewrite app_nil_r.
    fold (rcat (map rlit cs ++ l)). rewrite (IH l _ w rest); [|reflexivity|exact Hm]. cbn [ms_pos ms_caps List.length]. do 2 f_equal. lia.
Qed.

Lemma run_lits_inv cs : forall l st, run (rcat (map rlit cs ++ l)) st <> [] -> exists w rest, ms_rest st = w ++ rest /\ map fst w = cs.
Proof.
  induction cs as [|c cs IH]; intros l st H; [exists [], (ms_rest st); auto|].
  cbn [map app] in H. cbn [rcat fold_right run rlit] in H. destruct (ms_rest st) as [|[d b] rest] eqn:E; [cbn in H; congruence|].
  destruct (in_set false [(c, c)] d) eqn:Ed; [|cbn in H; congruence]. cbn [flat_map] in H. rewrite app_nil_r in H.
  fold (rcat (map rlit cs ++ l)) in H. apply IH in H as (w & rest' & Hr & Hm). cbn [ms_rest] in Hr. apply in_set_one in Ed as ->.
  exists ((c, b) :: w), rest'. rewrite Hr. cbn. split; [reflexivity|f_equal; exact Hm].
Qed.

(** The characters after the first part: texts for the parameters [ws] and parts. *)
Inductive woven : list pconfig -> list (list Z) -> list (list (Z * bytes)) -> list (Z * bytes) -> Prop :=
| woven_nil : woven [] [] [] []
| woven_cons c cfgs r rss w ws pr rest : rfits c (map fst w) -> map fst pr = r -> woven cfgs rss ws rest ->
    woven (c :: cfgs) (r :: rss) (w :: ws) (w ++ pr ++ rest).

Fixpoint gidx (n : nat) (cfgs : list pconfig) (i : nat) : nat :=
  match cfgs with
  | [] => O
  | c :: cfgs' => match i with O => S n | S i' => gidx (S n + inner c) cfgs' i' end
  end.

Lemma segs_sound cfgs : forall rss n st st', List.length rss = List.length cfgs -> Forall clear cfgs ->
  In st' (run (rcat (segs n cfgs rss ++ [REnd])) st) ->
  exists ws, woven cfgs rss ws (ms_rest st) /\
    (forall i w, nth_error ws i = Some w -> get_cap (ms_caps st') (gidx n cfgs i) = raw w) /\
    (forall j, (j <= n)%nat -> get_cap (ms_caps st') j = get_cap (ms_caps st) j).
Proof.
  induction cfgs as [|c cfgs IH]; intros rss n st st' Hl Hc H.
  - destruct rss; [|discriminate Hl]. cbn [segs app] in H. cbn [rcat fold_right run] in H. destruct (ms_rest st); [|destruct H].
    cbn in H. destruct H as [<-|[]]. exists []. split; [constructor|]. split; [intros [|i]; discriminate|reflexivity].
  - destruct rss as [|r rss]; [discriminate Hl|]. injection Hl as Hl. inversion Hc as [|? ? Hc1 Hc2]. subst.
    cbn [segs app] in H. cbn [rcat fold_right] in H. fold (rcat ((map rlit r ++ segs (S n + inner c) cfgs rss) ++ [REnd])) in H.
    cbn [run] in H. apply in_flat_map in H as (st1 & H1 & H2).
    apply (run_group (S n) (rcat (body c (S n))) st st1 (unanchored_body c (S n))) in H1 as (w & (R1 & R2 & R3) & M & Hw).
    rewrite <- app_assoc in H2.
    destruct (run_lits_inv r _ st1 ltac:(intros E; rewrite E in H2; destruct H2)) as (pr & rest & Hr & Hm).
    rewrite (run_lits r _ st1 pr rest Hr Hm) in H2.
    apply IH in H2 as (ws & Hws & Hcap & Hold); [|exact Hl|exact Hc2]. cbn [ms_rest ms_caps] in *.
    exists (w :: ws). split; [|split].
    + rewrite R1, Hr. constructor; [apply matches_body in M; [exact M|exact Hc1]|exact Hm|exact Hws].
    + intros [|i] w' Hn; cbn [nth_error gidx] in *.
      * injection Hn as <-. rewrite Hold by lia. exact Hw.
      * apply Hcap. exact Hn.
    + intros j Hj. rewrite Hold by lia. apply R3. intros [E|Hin]; [lia|]. apply groups_body in Hin. lia.
Qed.

Lemma segs_complete cfgs : forall rss n st ws, Forall clear cfgs -> woven cfgs rss ws (ms_rest st) ->
  run (rcat (segs n cfgs rss ++ [REnd])) st <> [].
Proof.
  induction cfgs as [|c cfgs IH]; intros rss n st ws Hc H.
  - inversion H as [E1 E2 E3 E4|]. subst. cbn [segs app rcat fold_right run]. rewrite <- E4. discriminate.
  - inversion H as [|? ? r rss' w ws' pr rest Hf Hp Hw E1 E2 E3 E4]. subst. inversion Hc as [|? ? Hc1 Hc2]. subst.
    cbn [segs app]. cbn [rcat fold_right]. fold (rcat ((map rlit (map fst pr) ++ segs (S n + inner c) cfgs rss') ++ [REnd])).
    destruct (run_complete (RGroup (S n) (rcat (body c (S n)))) (unanchored_body c (S n)) (map fst w)) with (st := st) (w := w) (rest := pr ++ rest)
      as (st1 & Hin & Hst1); [constructor; apply matches_body; assumption|symmetry; exact E4|reflexivity|].
    intros E. cbn [run] in E.
    assert (Hnil : forall x, In x (run (RGroup (S n) (rcat (body c (S n)))) st) ->
      run (rcat ((map rlit (map fst pr) ++ segs (S n + inner c) cfgs rss') ++ [REnd])) x = []).
    { intros x Hx. destruct (run _ x) as [|y l] eqn:Ex; [reflexivity|]. exfalso.
      assert (Hy : In y (flat_map (run (rcat ((map rlit (map fst pr) ++ segs (S n + inner c) cfgs rss') ++ [REnd]))) (run (RGroup (S n) (rcat (body c (S n)))) st))).
      { apply in_flat_map. exists x. split; [exact Hx|]. rewrite Ex. left. reflexivity. }
      cbn [run] in Hy. rewrite E in Hy. destruct Hy. }
    specialize (Hnil st1 Hin). rewrite <- app_assoc, (run_lits _ _ st1 pr rest Hst1 eq_refl) in Hnil.
    revert Hnil. apply IH with (ws := ws'); [exact Hc2|exact Hw].
Qed.

(** *** Matching a path *)
Lemma search_anchored l : forall rest pos, search_from (rcat (RBegin :: l)) pos rest =
  match pos with O => match run (rcat l) (mkMstate 0 rest []) with st :: _ => Some st | [] => None end | S _ => None end.
Proof.
  assert (H1 : forall rest pos, search_from (rcat (RBegin :: l)) (S pos) rest = None).
  { induction rest as [|c rest IH]; intros pos; cbn [search_from rcat fold_right run ms_pos Nat.eqb flat_map]; [reflexivity|]. apply IH. }
  intros rest [|pos]; [|apply H1]. destruct rest as [|c rest]; cbn [search_from]; cbn [rcat fold_right run ms_pos Nat.eqb flat_map]; rewrite app_nil_r; fold (rcat l).
  - reflexivity.
  - destruct (run (rcat l) _); [apply H1|reflexivity].
Qed.

Lemma raw_lits w : Forall (fun c => fst c = rune_error \/ scalar (fst c) /\ snd c = encode_rune (fst c)) w ->
  Forall (fun c => c <> rune_error) (map fst w) -> raw w = text (map fst w).
Proof.
  induction w as [|[c b] w IH]; intros H1 H2; [reflexivity|]. inversion H1 as [|? ? Ha Hb]. inversion H2 as [|? ? Hc Hd]. subst.
  cbn [raw text flat_map map fst snd] in *. destruct Ha as [Ha|[_ ->]]; [congruence|]. f_equal. exact (IH Hb Hd).
Qed.

Lemma plains_ne cs : plains cs -> Forall (fun c => c <> rune_error) cs.
Proof. intros H. eapply Forall_impl; [|exact H]. intros c Hc. exact (proj1 (proj2 Hc)). Qed.

(** The text of a parameter fits it. *)
Lemma fits_raw c s a w b : clear c -> chars s = a ++ w ++ b -> rfits c (map fst w) -> fits c (raw w).
Proof.
  intros Hc Hs Hf. pose proof (chars_segment _ _ _ _ Hs) as Hw.
  assert (Hr : runes (raw w) = map fst w) by (rewrite runes_chars, Hw; reflexivity).
  destruct c as [ch|ig|sep ig|t f| |]; cbn [rfits fits clear] in *; try contradiction; rewrite ?Hr; try assumption.
  - destruct Hf as [H1 H2]. split; [|exact H2]. intros E. rewrite E in Hw. apply H1. rewrite <- Hw. reflexivity.
  - apply in_map_iff in Hf as (v & Ev & Hv). destruct Hc as [_ Hc]. rewrite Forall_forall in Hc.
    destruct (value_text_runes v (Hc v Hv)) as [Et Hne]. rewrite raw_lits.
    + rewrite <- Ev, <- Et. exact Hv.
    + pose proof (chars_shape s) as Hsh. rewrite Hs, !Forall_app in Hsh. tauto.
    + rewrite <- Ev. eapply Forall_impl; [|exact Hne]. intros x Hx. exact (proj2 Hx).
Qed.

Lemma woven_filled cfgs rss ws rest : woven cfgs rss ws rest -> Forall plains rss -> Forall clear cfgs ->
  forall s pre pr0 r0, chars s = pre ++ pr0 ++ rest -> map fst pr0 = r0 -> plains r0 ->
  raw (pr0 ++ rest) = filled (text r0 :: map text rss) (map raw ws) /\ Forall2 fits cfgs (map raw ws).
Proof.
  induction 1 as [|c cfgs r rss w ws pr rest Hf Hp _ IH]; intros Hpl Hcl s pre pr0 r0 Hs Hm H0.
  - split; [|constructor]. cbn [map filled]. rewrite app_nil_r. rewrite raw_lits, Hm; [reflexivity| |].
    + pose proof (chars_shape s) as Hsh. rewrite Hs, !Forall_app in Hsh. tauto.
    + rewrite Hm. apply plains_ne. exact H0.
  - inversion Hpl as [|? ? Hp1 Hp2]. inversion Hcl as [|? ? Hc1 Hc2]. subst.
    destruct (IH Hp2 Hc2 s (pre ++ pr0 ++ w) pr (map fst pr)) as [E1 E2]; [rewrite Hs, <- !app_assoc; reflexivity|reflexivity|exact Hp1|].
    split.
    + rewrite !raw_app. cbn [map]. change (filled (text (map fst pr0) :: text (map fst pr) :: map text rss) (raw w :: map raw ws))
        with (text (map fst pr0) ++ raw w ++ filled (text (map fst pr) :: map text rss) (map raw ws)).
      rewrite <- E1, raw_app. f_equal. apply raw_lits; [|apply plains_ne; exact H0].
      pose proof (chars_shape s) as Hsh. rewrite Hs, !Forall_app in Hsh. tauto.
    + cbn [map]. constructor; [|exact E2]. apply (fits_raw c s (pre ++ pr0) w (pr ++ rest)); [exact Hc1|rewrite Hs, <- !app_assoc; reflexivity|exact Hf].
Qed.

Lemma filled_woven cfgs : forall rss vs, Forall2 fits cfgs vs -> Forall (fun v => valid_utf8 v = true) vs -> List.length rss = List.length cfgs ->
  Forall plains rss -> Forall clear cfgs -> forall r0, plains r0 ->
  exists ws rest, chars (filled (text r0 :: map text rss) vs) = map (fun r => (r, encode_rune r)) r0 ++ rest /\ woven cfgs rss ws rest.
Proof.
  induction cfgs as [|c cfgs IH]; intros rss vs Hf Hv Hl Hp Hc r0 H0.
  - destruct rss; [|discriminate Hl]. inversion Hf. subst. exists [], []. cbn [map filled]. split; [|constructor].
    rewrite <- (app_nil_r (text r0)), chars_text by (apply plains_scalar; assumption). reflexivity.
  - destruct rss as [|r rss]; [discriminate Hl|]. injection Hl as Hl. inversion Hf as [|? v ? vs' Hf1 Hf2]. subst.
    inversion Hv as [|? ? Hv1 Hv2]. inversion Hp as [|? ? Hp1 Hp2]. inversion Hc as [|? ? Hc1 Hc2]. subst.
    destruct (IH rss vs' Hf2 Hv2 Hl Hp2 Hc2 r Hp1) as (ws & rest & Hr & Hw).
    destruct (valid_is_text v Hv1) as (rs & Hrs & ->).
    exists (map (fun r => (r, encode_rune r)) rs :: ws), (map (fun r => (r, encode_rune r)) rs ++ map (fun r => (r, encode_rune r)) r ++ rest).
    split.
    + cbn [map]. change (filled (text r0 :: text r :: map text rss) (text rs :: vs')) with (text r0 ++ text rs ++ filled (text r :: map text rss) vs').
      rewrite chars_text by (apply plains_scalar; assumption). rewrite chars_text by assumption. rewrite Hr. reflexivity.
    + assert (Hid : forall l, map fst (map (fun r => (r, encode_rune r)) l) = l) by (intros l; rewrite map_map; apply map_id).
      constructor; [|apply Hid|exact Hw]. rewrite Hid. pose proof (runes_text rs Hrs) as Hrt.
      destruct c as [ch|ig|sep ig|t f| |]; cbn [fits rfits] in *; try contradiction; rewrite ?Hrt in Hf1; try assumption.
      * destruct Hf1 as [Hx Hy]. split; [|exact Hy]. intros ->. apply Hx. reflexivity.
      * rewrite <- Hrt. apply in_map. exact Hf1.
Qed.

Definition own_index (cfgs : list pconfig) (i : nat) : nat := (i + List.length (filter grouping (firstn i cfgs)))%nat.

Lemma gidx_own cfgs : forall n i, (i < List.length cfgs)%nat -> gidx n cfgs i = (S n + own_index cfgs i)%nat.
Proof.
  unfold own_index. induction cfgs as [|c cfgs IH]; intros n i Hi; [cbn in Hi; lia|]. destruct i as [|i]; [cbn; lia|].
  cbn [gidx firstn filter]. rewrite IH by (cbn in Hi; lia). unfold inner. destruct (grouping c); cbn [List.length]; lia.
Qed.
Lemma ngroups_eq cfgs : forall n, ngroups n cfgs = (n + own_index cfgs (List.length cfgs))%nat.
Proof.
  unfold own_index. induction cfgs as [|c cfgs IH]; intros n; [cbn; lia|]. cbn [ngroups List.length firstn filter]. rewrite IH.
  unfold inner. destruct (grouping c); cbn [List.length]; lia.
Qed.
Lemma own_index_mono cfgs i : (i < List.length cfgs)%nat -> (own_index cfgs i < own_index cfgs (List.length cfgs))%nat.
Proof.
  unfold own_index. intros Hi. assert (H : (List.length (filter grouping (firstn i cfgs)) <= List.length (filter grouping (firstn (List.length cfgs) cfgs)))%nat).
  { rewrite firstn_all. rewrite <- (firstn_skipn i cfgs) at 2. rewrite filter_app, app_length. lia. }
  lia.
Qed.

Lemma match_sound r0 cfgs rss path cs : plains r0 -> List.length rss = List.length cfgs -> Forall clear cfgs -> Forall plains rss ->
  find_submatch (mkRegexp (prog r0 cfgs rss) (ngroups 0 cfgs)) path = Some cs ->
  exists vs, path = filled (text r0 :: map text rss) vs /\ Forall2 fits cfgs vs /\ List.length cs = own_index cfgs (List.length cfgs) /\
    (forall i v, nth_error vs i = Some v -> nth_error cs (own_index cfgs i) = Some v).
Proof.
  intros H0 Hl Hc Hp H. unfold find_submatch in H. cbn [re_prog re_groups] in H. unfold prog in H. rewrite search_anchored in H.
  destruct (run _ _) as [|st l] eqn:E; [discriminate H|]. injection H as <-.
  destruct (run_lits_inv r0 (segs 0 cfgs rss ++ [REnd]) (mkMstate 0 (chars path) []) ltac:(rewrite E; discriminate)) as (pr0 & rest & Hr & Hm).
  cbn [ms_rest] in Hr. rewrite (run_lits r0 _ (mkMstate 0 (chars path) []) pr0 rest Hr Hm) in E. cbn [ms_pos ms_caps] in E.
  destruct (segs_sound cfgs rss 0 _ st Hl Hc ltac:(rewrite E; left; reflexivity)) as (ws & Hw & Hcap & _). cbn [ms_rest] in Hw.
  destruct (woven_filled _ _ _ _ Hw Hp Hc path [] pr0 r0 Hr Hm H0) as [E1 E2].
  exists (map raw ws). split; [rewrite <- E1, <- Hr, raw_chars; reflexivity|]. split; [exact E2|].
  pose proof (F2_length _ _ _ E2) as El. rewrite map_length in El. split; [rewrite map_length, seq_length, ngroups_eq; reflexivity|].
  intros i v Hv. rewrite nth_error_map in Hv. destruct (nth_error ws i) as [w|] eqn:Ew; [|discriminate Hv]. injection Hv as <-.
  assert (Hi : (i < List.length cfgs)%nat) by (rewrite El; apply nth_error_Some; rewrite Ew; discriminate).
  rewrite nth_error_map. rewrite (nth_error_nth' _ 0%nat) by (rewrite seq_length, ngroups_eq; apply own_index_mono; exact Hi).
  rewrite seq_nth by (rewrite ngroups_eq; apply own_index_mono; exact Hi). cbn [option_map Nat.add]. f_equal.
  rewrite <- (Hcap i w Ew), gidx_own by exact Hi. reflexivity.
Qed.

Lemma match_complete r0 cfgs rss vs : plains r0 -> List.length rss = List.length cfgs -> Forall clear cfgs -> Forall plains rss ->
  Forall2 fits cfgs vs -> Forall (fun v => valid_utf8 v = true) vs ->
  find_submatch (mkRegexp (prog r0 cfgs rss) (ngroups 0 cfgs)) (filled (text r0 :: map text rss) vs) <> None.
Proof.
  intros H0 Hl Hc Hp Hf Hv. destruct (filled_woven cfgs rss vs Hf Hv Hl Hp Hc r0 H0) as (ws & rest & Hr & Hw).
  unfold find_submatch. cbn [re_prog]. unfold prog. rewrite search_anchored.
  rewrite (run_lits r0 _ (mkMstate 0 (chars (filled (text r0 :: map text rss) vs)) []) (map (fun r => (r, encode_rune r)) r0) rest);
    [|exact Hr|rewrite map_map; apply map_id].
  cbn [ms_pos ms_caps]. destruct (run _ _) eqn:E; [|discriminate]. exfalso. revert E. apply segs_complete with (ws := ws); [exact Hc|exact Hw].
Qed.

(** *** Building the expression *)
Lemma text_byte rs b : Forall scalar rs -> In b (text rs) -> Z_of_byte b < 128 -> In (Z_of_byte b) rs.
Proof.
  induction 1 as [|r rs Hr _ IH]; intros Hin Hb; [destruct Hin|]. cbn [text flat_map] in Hin. apply in_app_iff in Hin as [Hin|Hin]; [|right; exact (IH Hin Hb)].
  left. pose proof (encode_encoding r Hr) as He. destruct He as [b0|b0 b1|b0 b1 b2|b0 b1 b2 b3]; cbn [In] in Hin.
  - destruct Hin as [<-|[]]. congruence.
  - destruct Hin as [<-|[<-|[]]]; lia.
  - destruct Hin as [<-|[<-|[<-|[]]]]; [lia| |lia]. destruct (Z_of_byte b0 =? 224), (Z_of_byte b0 =? 237); lia.
  - destruct Hin as [<-|[<-|[<-|[<-|[]]]]]; [lia| |lia|lia]. destruct (Z_of_byte b0 =? 240), (Z_of_byte b0 =? 244); lia.
Qed.

Lemma plain_no_brace rs : plains rs -> ~ In x7b (text rs).
Proof.
  intros H Hin. apply text_byte in Hin; [|apply plains_scalar; exact H|vm_compute; reflexivity].
  unfold plains in H; rewrite Forall_forall in H. destruct (H _ Hin) as (_ & _ & Hn). apply Hn. vm_compute. tauto.
Qed.

Lemma split_plain p : forall rest cur, ~ In x7b p -> split_path (p ++ rest) 0 cur = split_path rest 0 (rev p ++ cur).
Proof.
  induction p as [|x p IH]; intros rest cur H; [reflexivity|]. cbn [app split_path].
  destruct (beqb x x7b) eqn:E; [apply beqb_eq in E as ->; exfalso; apply H; left; reflexivity|].
  rewrite IH by (intros Hx; apply H; right; exact Hx). cbn [rev]. rewrite <- app_assoc. reflexivity.
Qed.

Lemma split_skip s : forall k cur, (k <= List.length s)%nat -> split_path s k cur = split_path (skipn k s) 0 cur.
Proof.
  induction s as [|x s IH]; intros k cur Hk; [destruct k; reflexivity|].
  destruct k as [|k]; [reflexivity|]. cbn [split_path skipn]. apply IH. cbn in Hk. lia.
Qed.

Lemma up_to_name n rest : ~ In x7d n -> up_to_brace (n ++ x7d :: rest) = Some n.
Proof.
  induction n as [|x n IH]; intros H; [reflexivity|]. cbn [app up_to_brace].
  destruct (beqb x x7d) eqn:E; [apply beqb_eq in E as ->; exfalso; apply H; left; reflexivity|].
  rewrite IH by (intros Hx; apply H; right; exact Hx). reflexivity.
Qed.

Lemma split_name n rest cur : name_ok n -> split_path (x7b :: n ++ x7d :: rest) 0 cur = let '(parts, names) := split_path rest 0 [] in (rev cur :: parts, n :: names).
Proof.
  intros [H1 H2]. cbn [split_path]. change (beqb x7b x7b) with true. cbv match. rewrite up_to_name by assumption.
  destruct n as [|a n]; [congruence|]. rewrite split_skip by (rewrite app_length; cbn; lia).
  replace (skipn (S (S (List.length n))) ((a :: n) ++ x7d :: rest)) with rest; [reflexivity|].
  change ((a :: n) ++ x7d :: rest) with ((a :: n) ++ [x7d] ++ rest). rewrite app_assoc. rewrite <- (skipn_app_exact ((a :: n) ++ [x7d]) rest) at 1.
  rewrite app_length. cbn [List.length]. f_equal. lia.
Qed.

Lemma split_template rss : forall r0 names, List.length rss = List.length names -> plains r0 -> Forall plains rss -> Forall name_ok names ->
  split_path (template (text r0 :: map text rss) names) 0 [] = (text r0 :: map text rss, names).
Proof.
  induction rss as [|r rss IH]; intros r0 names Hl H0 Hp Hn.
  - destruct names; [|discriminate Hl]. cbn [map template]. rewrite <- (app_nil_r (text r0)) at 1.
    rewrite split_plain by (apply plain_no_brace; exact H0). cbn [split_path]. rewrite app_nil_r, rev_involutive. reflexivity.
  - destruct names as [|n names]; [discriminate Hl|]. injection Hl as Hl. inversion Hp as [|? ? Hp1 Hp2]. inversion Hn as [|? ? Hn1 Hn2]. subst.
    cbn [map]. change (template (text r0 :: text r :: map text rss) (n :: names)) with (text r0 ++ x7b :: n ++ x7d :: template (text r :: map text rss) names).
    rewrite split_plain by (apply plain_no_brace; exact H0). rewrite split_name by assumption. rewrite IH by assumption.
    rewrite app_nil_r, rev_involutive. reflexivity.
Qed.

Lemma clear_primitive c : clear c -> is_primitive c = true.
Proof. destruct c; cbn; intros H; try contradiction; reflexivity. Qed.

Lemma path_rest_text pp cfgs : forall rss names, List.length rss = List.length names -> Forall2 (fun n c => pp n = Ok c /\ clear c) names cfgs ->
  path_rest pp (map text rss) names = Ok (text (rtail cfgs rss)).
Proof.
  induction cfgs as [|c cfgs IH]; intros rss names Hl H; inversion H as [|n ? names' ? [Hn Hc] Hns]; subst.
  - destruct rss; reflexivity.
  - destruct rss as [|r rss]; [discriminate Hl|]. injection Hl as Hl. cbn [map path_rest]. rewrite Hn. cbn [rbind].
    rewrite clear_primitive by assumption. cbn [negb]. rewrite (IH rss names' Hl Hns). cbn [rbind rtail].
    destruct (pattern_text c Hc) as [E _]. rewrite E. f_equal. cbn [rtail].
    change (40 :: rpat c ++ 41 :: r ++ rtail cfgs rss) with ([40] ++ rpat c ++ [41] ++ r ++ rtail cfgs rss). rewrite !text_app. reflexivity.
Qed.

Lemma plain_parts parts : Forall plain parts -> exists rss, parts = map text rss /\ Forall plains rss.
Proof.
  induction 1 as [|p parts (rs & -> & Hp) _ (rss & -> & Hr)]; [exists []; split; [reflexivity|constructor]|].
  exists (rs :: rss). split; [reflexivity|constructor; assumption].
Qed.

Lemma create_ok pp parts names cfgs : List.length parts = S (List.length names) -> Forall plain parts -> Forall name_ok names ->
  Forall2 (fun n c => pp n = Ok c /\ clear c) names cfgs ->
  exists r0 rss, parts = text r0 :: map text rss /\ plains r0 /\ Forall plains rss /\ List.length rss = List.length cfgs /\
    create_path_regexp pp (template parts names) = Ok (mkRegexp (prog r0 cfgs rss) (ngroups 0 cfgs), names).
Proof.
  intros Hl Hp Hn Hc. destruct (plain_parts parts Hp) as (rss0 & -> & Hr). rewrite map_length in Hl.
  destruct rss0 as [|r0 rss]; [discriminate Hl|]. injection Hl as Hl. inversion Hr as [|? ? H0 Hr2]. subst.
  pose proof (F2_length _ _ _ Hc) as El. exists r0, rss. split; [reflexivity|]. split; [exact H0|]. split; [exact Hr2|]. split; [congruence|].
  unfold create_path_regexp, path_pattern. cbn [map]. rewrite split_template by assumption. cbn [tl hd].
  rewrite (path_rest_text pp cfgs) by assumption. cbn [rbind].
  replace (lit "^" ++ text r0 ++ text (rtail cfgs rss) ++ lit "$") with (text (94 :: r0 ++ rtail cfgs rss ++ [36])).
  - rewrite compile_path; [reflexivity|exact H0|congruence| |exact Hr2].
    clear - Hc. induction Hc as [|n c names cfgs [_ H] _ IH]; constructor; assumption.
  - change (94 :: r0 ++ rtail cfgs rss ++ [36]) with ([94] ++ r0 ++ rtail cfgs rss ++ [36]). rewrite !text_app. reflexivity.
Qed.

Theorem route_exact ps o parts names cfgs : List.length parts = S (List.length names) -> Forall plain parts -> Forall name_ok names ->
  Forall2 (fun n c => output_parser ps o n = Ok c /\ clear c) names cfgs ->
  exists r, new_route ps (template parts names) o = Ok r /\ rt_params r = names /\ rt_output r = o /\
    (forall path cs, rt_match r path = Some cs -> exists vs, path = filled parts vs /\ Forall2 fits cfgs vs /\
      List.length cs = own_index cfgs (List.length cfgs) /\ forall i v, nth_error vs i = Some v -> nth_error cs (own_index cfgs i) = Some v) /\
    (forall vs, Forall2 fits cfgs vs -> Forall (fun v => valid_utf8 v = true) vs -> rt_match r (filled parts vs) <> None).
Proof.
  intros Hl Hp Hn Hc. destruct (create_ok _ parts names cfgs Hl Hp Hn Hc) as (r0 & rss & -> & H0 & Hr & El & E).
  assert (Hcl : Forall clear cfgs) by (clear - Hc; induction Hc as [|n c names cfgs [_ H] _ IH]; constructor; assumption).
  eexists. unfold new_route. rewrite E. cbn [rbind]. split; [reflexivity|]. cbn [rt_params rt_output rt_match]. split; [reflexivity|]. split; [reflexivity|].
  split.
  - intros path cs Hm. exact (match_sound r0 cfgs rss path cs H0 El Hcl Hr Hm).
  - intros vs Hf Hv. apply match_complete; assumption.
Qed.
