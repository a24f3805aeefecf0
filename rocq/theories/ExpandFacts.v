(** Facts about the expansion of variables. *)
From Coq Require Import List ZArith Lia Bool String Arith.
From Coq Require Import Strings.Byte.
From Verif Require Import Base Expand SpecExpand.
Import ListNotations.
Open Scope nat_scope.

Lemma beqb_true a b : beqb a b = true <-> a = b.
Proof. unfold beqb. split; [apply Byte.byte_dec_bl|apply Byte.byte_dec_lb]. Qed.
Lemma beqb_false a b : beqb a b = false <-> a <> b.
Proof. rewrite <- beqb_true. destruct (beqb a b); split; congruence. Qed.
Lemma is_byte_true c s : is_byte c s = true <-> In c (lit s).
Proof.
  unfold is_byte. rewrite existsb_exists. split.
  - intros [x [H E]]. apply beqb_true in E. now subst.
  - intros H. exists c. split; [exact H|now apply beqb_true].
Qed.
Lemma special_true c : special_var c = true <-> shell_byte c.
Proof. apply is_byte_true. Qed.
Lemma alpha_true c : alpha_num c = true <-> name_byte c.
Proof. apply is_byte_true. Qed.
Lemma special_false c : special_var c = false <-> ~ shell_byte c.
Proof. rewrite <- special_true. destruct (special_var c); split; congruence. Qed.
Lemma alpha_false c : alpha_num c = false <-> ~ name_byte c.
Proof. rewrite <- alpha_true. destruct (alpha_num c); split; congruence. Qed.

Lemma expand_skip env pre : forall s, expand_from env (List.length pre) (pre ++ s) = expand_from env 0 s.
Proof. induction pre as [|c pre IH]; intros s; [reflexivity|]. cbn [List.length app expand_from]. apply IH. Qed.

Lemma to_brace_some n : forall s, ~ In "}"%byte n -> to_brace (n ++ "}"%byte :: s) = Some n.
Proof.
  induction n as [|c n IH]; intros s H; [reflexivity|]. cbn [app to_brace].
  destruct (beqb c "}") eqn:E; [apply beqb_true in E; subst; destruct H; now left|]. rewrite IH; [reflexivity|]. intros Hn. apply H. now right.
Qed.
Lemma to_brace_none s : ~ In "}"%byte s -> to_brace s = None.
Proof.
  induction s as [|c s IH]; intros H; [reflexivity|]. cbn [to_brace]. destruct (beqb c "}") eqn:E; [apply beqb_true in E; subst; destruct H; now left|].
  rewrite IH; [reflexivity|]. intros Hn. apply H. now right.
Qed.
Lemma to_brace_inv s : match to_brace s with Some n => ~ In "}"%byte n /\ exists t, s = n ++ "}"%byte :: t | None => ~ In "}"%byte s end.
Proof.
  induction s as [|c s IH]; [cbn; auto|]. cbn [to_brace]. destruct (beqb c "}") eqn:E.
  - apply beqb_true in E. subst. split; [intros []|]. now exists s.
  - apply beqb_false in E. destruct (to_brace s) as [n|].
    + destruct IH as [H [t ->]]. split; [intros [?|?]; [congruence|contradiction]|]. now exists t.
    + intros [?|?]; [congruence|contradiction].
Qed.

Lemma shell_name_brace n s : n <> [] -> ~ In "}"%byte n -> shell_name ("{"%byte :: n ++ "}"%byte :: s) = (n, List.length n + 2).
Proof.
  intros Hn Hb. pose proof (to_brace_some n s Hb) as E. destruct n as [|d n]; [contradiction|]. unfold shell_name. cbn [beqb Byte.eqb].
  change (beqb "{" "{") with true. cbn iota. rewrite <- !app_comm_cons in *. destruct n as [|d2 n].
  - cbn [app] in *. rewrite E. destruct (special_var d && beqb "}" "}"); reflexivity.
  - rewrite <- app_comm_cons in *. assert (X : beqb d2 "}" = false) by (apply beqb_false; intros ->; apply Hb; right; now left). rewrite X, andb_false_r, E. reflexivity.
Qed.

Lemma shell_name_unclosed s : ~ In "}"%byte s -> shell_name ("{"%byte :: s) = ([], 1).
Proof.
  intros H. pose proof (to_brace_none s H) as E. unfold shell_name. change (beqb "{" "{") with true. cbn iota. rewrite E.
  destruct s as [|d [|e s]]; try reflexivity. assert (X : beqb e "}" = false) by (apply beqb_false; intros ->; apply H; right; now left). now rewrite X, andb_false_r.
Qed.

Lemma alpha_prefix_app n : forall s, Forall name_byte n -> ~ starts_with name_byte s -> alpha_prefix (n ++ s) = n.
Proof.
  induction n as [|c n IH]; intros s Hn Hs.
  - destruct s as [|c s]; [reflexivity|]. cbn [app alpha_prefix starts_with] in *. apply alpha_false in Hs. now rewrite Hs.
  - inversion Hn; subst. cbn [app alpha_prefix]. rewrite (proj2 (alpha_true c)) by assumption. f_equal. now apply IH.
Qed.
Lemma alpha_prefix_inv s : Forall name_byte (alpha_prefix s) /\ exists t, s = alpha_prefix s ++ t /\ ~ starts_with name_byte t.
Proof.
  induction s as [|c s [IH1 [t [IH2 IH3]]]]; [cbn; split; [constructor|]; exists []; auto|]. cbn [alpha_prefix]. destruct (alpha_num c) eqn:E.
  - apply alpha_true in E. split; [now constructor|]. exists t. split; [cbn; now rewrite <- IH2|exact IH3].
  - apply alpha_false in E. split; [constructor|]. exists (c :: s). auto.
Qed.

Lemma brace_bytes : ~ name_byte "{"%byte /\ ~ shell_byte "{"%byte /\ shell_byte "$"%byte.
Proof. split; [apply alpha_false; reflexivity|]. split; [apply special_false; reflexivity|apply special_true; reflexivity]. Qed.

Lemma written_cons p ps : written (p :: ps) = spell p ++ written ps.
Proof. reflexivity. Qed.

Lemma divided_written ps : divided ps -> written ps = [] -> ps = [].
Proof. intros H E. destruct H; [reflexivity|exfalso..]; rewrite written_cons in E; try discriminate. apply app_eq_nil in E. tauto. Qed.

Lemma expand_text env s t : ~ In "$"%byte s -> expand_from env 0 (s ++ t) = s ++ expand_from env 0 t.
Proof.
  induction s as [|c s IH]; intros H; [reflexivity|]. cbn [app expand_from]. destruct (s ++ t) as [|d u] eqn:E.
  - apply app_eq_nil in E as [-> ->]. reflexivity.
  - assert (X : beqb c "$" = false) by (apply beqb_false; intros ->; apply H; now left). rewrite X. f_equal. apply IH. intros Hs. apply H. now right.
Qed.

Lemma expand_dollar env s : s <> [] -> expand_from env 0 ("$"%byte :: s) =
  match shell_name s with ([], O) => "$"%byte :: expand_from env 0 s | ([], w) => expand_from env w s | (n, w) => env n ++ expand_from env w s end.
Proof. intros H. destruct s; [contradiction|]. reflexivity. Qed.

Lemma expand_divided env ps : divided ps -> expand_env env (written ps) = List.concat (map (meaning env) ps).
Proof.
  unfold expand_env. induction 1 as [|s ps Hs Hd H IH|ps H IH Hn|c n ps Hc Hs Hn H IH Ht|n ps Hn Hb H IH|c ps Hc H IH|ps H IH|ps Hu H IH]; rewrite ?written_cons; cbn [map List.concat meaning spell].
  - reflexivity.
  - rewrite expand_text by exact Hd. now rewrite IH.
  - destruct (written ps) as [|c w] eqn:E.
    + apply divided_written in E; [|exact H]. subst. reflexivity.
    + change (lit "$" ++ c :: w) with ("$"%byte :: c :: w). rewrite expand_dollar by discriminate. cbn [starts_with] in Hn.
      assert (X : shell_name (c :: w) = ([], 0)).
      { unfold shell_name. destruct (beqb c "{") eqn:E1; [apply beqb_true in E1; tauto|]. destruct (special_var c) eqn:E2; [apply special_true in E2; tauto|].
        cbn [alpha_prefix]. destruct (alpha_num c) eqn:E3; [apply alpha_true in E3; tauto|]. reflexivity. }
      rewrite X, IH. reflexivity.
  - change ((lit "$" ++ c :: n) ++ written ps) with ("$"%byte :: (c :: n) ++ written ps). rewrite expand_dollar by discriminate.
    assert (X : shell_name ((c :: n) ++ written ps) = (c :: n, List.length (c :: n))).
    { pose proof (alpha_prefix_app (c :: n) (written ps) (Forall_cons _ Hc Hn) Ht) as Ea. unfold shell_name. rewrite <- app_comm_cons in *.
      destruct (beqb c "{") eqn:E1; [apply beqb_true in E1; subst; now destruct brace_bytes|]. apply special_false in Hs. now rewrite Hs, Ea. }
    rewrite X, expand_skip, IH. reflexivity.
  - replace ((lit "${" ++ n ++ lit "}") ++ written ps) with ("$"%byte :: "{"%byte :: n ++ "}"%byte :: written ps) by (cbn; now rewrite <- app_assoc).
    rewrite expand_dollar by discriminate. rewrite shell_name_brace by assumption. destruct n as [|d n]; [contradiction|].
    replace ("{"%byte :: (d :: n) ++ "}"%byte :: written ps) with (("{"%byte :: (d :: n) ++ ["}"%byte]) ++ written ps) by (cbn; now rewrite <- app_assoc).
    replace (List.length (d :: n) + 2) with (List.length ("{"%byte :: (d :: n) ++ ["}"%byte])) by (cbn; rewrite app_length; cbn; lia).
    rewrite expand_skip, IH. reflexivity.
  - change ((lit "$" ++ [c]) ++ written ps) with ("$"%byte :: c :: written ps). rewrite expand_dollar by discriminate.
    assert (X : shell_name (c :: written ps) = ([c], 1)).
    { unfold shell_name. destruct (beqb c "{") eqn:E1; [apply beqb_true in E1; subst; now destruct brace_bytes|]. apply special_true in Hc. now rewrite Hc. }
    rewrite X. change (expand_from env 1 (c :: written ps)) with (expand_from env 0 (written ps)). rewrite IH. reflexivity.
  - change (lit "${}" ++ written ps) with ("$"%byte :: "{"%byte :: "}"%byte :: written ps). rewrite expand_dollar by discriminate.
    assert (X : shell_name ("{"%byte :: "}"%byte :: written ps) = ([], 2)) by (unfold shell_name; destruct (written ps); reflexivity).
    rewrite X. change (expand_from env 2 ("{"%byte :: "}"%byte :: written ps)) with (expand_from env 0 (written ps)). rewrite IH. reflexivity.
  - change (lit "${" ++ written ps) with ("$"%byte :: "{"%byte :: written ps). rewrite expand_dollar by discriminate. rewrite shell_name_unclosed by exact Hu.
    change (expand_from env 1 ("{"%byte :: written ps)) with (expand_from env 0 (written ps)). rewrite IH. reflexivity.
Qed.

Lemma every_text_divided s : exists ps, divided ps /\ written ps = s.
Proof.
  assert (G : forall n s, List.length s <= n -> exists ps, divided ps /\ written ps = s).
  { induction n as [|n IH]; intros t Hl.
    - destruct t; [|cbn in Hl; lia]. exists []. split; [constructor|reflexivity].
    - destruct t as [|c t]; [exists []; split; [constructor|reflexivity]|]. cbn [List.length] in Hl. destruct (beqb c "$") eqn:E.
      + apply beqb_true in E. subst c. destruct t as [|c t].
        * exists [Dollar]. split; [|reflexivity]. apply d_dollar; [constructor|cbn; auto].
        * destruct (beqb c "{") eqn:E1.
          -- apply beqb_true in E1. subst c. pose proof (to_brace_inv t) as K. destruct (to_brace t) as [m|].
             ++ destruct K as [K1 [u ->]]. destruct (IH u) as [ps [P1 P2]]; [cbn in Hl; rewrite app_length in Hl; cbn in Hl; lia|]. destruct m as [|d m].
                ** exists (Empty :: ps). split; [now apply d_empty|]. rewrite written_cons, P2. reflexivity.
                ** exists (Braced (d :: m) :: ps). split; [apply d_braced; [discriminate|exact K1|exact P1]|]. rewrite written_cons, P2. cbn. now rewrite <- app_assoc.
             ++ destruct (IH t) as [ps [P1 P2]]; [cbn in Hl; lia|]. exists (Unclosed :: ps). split; [apply d_unclosed; [now rewrite P2|exact P1]|]. rewrite written_cons, P2. reflexivity.
          -- destruct (special_var c) eqn:E2.
             ++ apply special_true in E2. destruct (IH t) as [ps [P1 P2]]; [cbn in Hl; lia|]. exists (Shell c :: ps). split; [now apply d_shell|]. rewrite written_cons, P2. reflexivity.
             ++ destruct (alpha_num c) eqn:E3.
                ** apply alpha_true in E3. destruct (alpha_prefix_inv t) as [A1 [u [A2 A3]]]. destruct (IH u) as [ps [P1 P2]]; [cbn in Hl; rewrite A2, app_length in Hl; lia|].
                   exists (Bare (c :: alpha_prefix t) :: ps). split; [apply d_bare; [exact E3|now apply special_false|exact A1|exact P1|now rewrite P2]|].
                   rewrite written_cons, P2. cbn. now rewrite <- A2.
                ** destruct (IH (c :: t)) as [ps [P1 P2]]; [cbn in *; lia|]. exists (Dollar :: ps). split; [|rewrite written_cons, P2; reflexivity].
                   apply d_dollar; [exact P1|]. rewrite P2. cbn [starts_with]. apply beqb_false in E1. apply special_false in E2. apply alpha_false in E3. tauto.
      + apply beqb_false in E. destruct (IH t) as [ps [P1 P2]]; [lia|]. exists (Text [c] :: ps). split; [|rewrite written_cons, P2; reflexivity].
        apply d_text; [discriminate|intros [?|[]]; congruence|exact P1]. }
  exact (G _ s (Nat.le_refl _)).
Qed.

(** *** A dollar sign in the result *)

Definition taken (c : byte) : Prop := name_byte c \/ shell_byte c \/ c = "{"%byte.
Fixpoint lone_dollars (s : bytes) : Prop := match s with c :: s' => (c = "$"%byte -> ~ starts_with taken s') /\ lone_dollars s' | [] => True end.

Lemma lone_app s t : ~ In "$"%byte s -> lone_dollars t -> lone_dollars (s ++ t).
Proof.
  induction s as [|c s IH]; intros H Ht; [exact Ht|]. cbn [app lone_dollars]. split; [intros ->; destruct H; now left|]. apply IH; [|exact Ht]. intros Hs. apply H. now right.
Qed.

Lemma result_lone env ps : (forall n, ~ In "$"%byte (env n)) -> divided ps -> lone_dollars (List.concat (map (meaning env) ps)).
Proof.
  intros He H. induction H as [|s ps Hs Hd H IH|ps H IH Hn|c n ps Hc Hs Hn H IH Ht|n ps Hn Hb H IH|c ps Hc H IH|ps H IH|ps Hu H IH]; cbn [map List.concat meaning]; try (apply lone_app; [apply He|exact IH]).
  - exact I.
  - now apply lone_app.
  - change (lit "$" ++ List.concat (map (meaning env) ps)) with ("$"%byte :: List.concat (map (meaning env) ps)). cbn [lone_dollars]. split; [|exact IH]. intros _.
    destruct H as [|s ps Hs Hd H|ps H Hn'|c n ps Hc Hs Hn' H Ht|n ps Hn' Hb H|c ps Hc H|ps H|ps Hu H];
      try (exfalso; apply Hn; rewrite written_cons; cbn; right; left; apply brace_bytes).
    + intros [].
    + rewrite written_cons in Hn. destruct s as [|c s]; [contradiction|]. exact Hn.
  - exact IH.
  - exact IH.
Qed.

Lemma no_dollar_name env : (forall n, ~ In "$"%byte (env n)) -> forall s a c b, expand_env env s = a ++ "$"%byte :: c :: b -> ~ taken c.
Proof.
  intros He s a c b H. destruct (every_text_divided s) as [ps [P1 P2]]. subst s. rewrite expand_divided in H by exact P1. pose proof (result_lone env ps He P1) as L. rewrite H in L. clear -L.
  induction a as [|x a IH]; cbn [app lone_dollars] in L; [|now apply IH]. destruct L as [L _]. exact (L eq_refl).
Qed.

Lemma no_dollar_text env s : ~ In "$"%byte s -> expand_env env s = s.
Proof. intros H. unfold expand_env. rewrite <- (app_nil_r s) at 1. rewrite expand_text by exact H. apply app_nil_r. Qed.
