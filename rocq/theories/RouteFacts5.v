(** The parameters that a path may have. *)
From Coq Require Import List ZArith Lia Bool String.
From Coq Require Import Strings.Byte.
From Verif Require Import Base Value GoStrings Parser Regex Output Http Route SpecRoute RouteFacts3.
Import ListNotations.
Open Scope Z_scope.

Lemma split_parts rest : forall p names, List.length rest = List.length names -> ~ In x7b p -> Forall (fun p => ~ In x7b p) rest -> Forall name_ok names ->
  split_path (template (p :: rest) names) 0 [] = (p :: rest, names).
Proof.
  induction rest as [|r rss IH]; intros r0 names Hl H0 Hp Hn.
  - destruct names; [|discriminate Hl]. cbn [template]. rewrite <- (app_nil_r r0) at 1.
    rewrite split_plain by exact H0. cbn [split_path]. rewrite app_nil_r, rev_involutive. reflexivity.
  - destruct names as [|n names]; [discriminate Hl|]. injection Hl as Hl. inversion Hp as [|? ? Hp1 Hp2]. inversion Hn as [|? ? Hn1 Hn2]. subst.
    change (template (r0 :: r :: rss) (n :: names)) with (r0 ++ x7b :: n ++ x7d :: template (r :: rss) names).
    rewrite split_plain by exact H0. rewrite split_name by assumption. rewrite IH by assumption. rewrite app_nil_r, rev_involutive. reflexivity.
Qed.

Lemma split_length s : forall k cur, List.length (fst (split_path s k cur)) = S (List.length (snd (split_path s k cur))).
Proof.
  induction s as [|x s IH]; intros k cur; [reflexivity|]. destruct k as [|k]; cbn [split_path]; [|apply IH].
  destruct (if beqb x x7b then up_to_brace s else None) as [[|n name]|]; try apply IH.
  specialize (IH (S (S (List.length name))) []). destruct (split_path s _ []) as [parts names]. cbn in *. lia.
Qed.

Lemma path_rest_names ps o names : forall parts t, List.length parts = List.length names -> path_rest (output_parser ps o) parts names = Ok t ->
  Forall (fun n => exists c, bound ps o n c /\ single_valued c) names.
Proof.
  induction names as [|n names IH]; intros parts t Hl H; [constructor|]. destruct parts as [|p parts]; [discriminate Hl|]. cbn [path_rest] in H.
  destruct (output_parser ps o n) as [c| | |] eqn:E; try discriminate H. cbn [rbind] in H. destruct (is_primitive c) eqn:P; [|discriminate H]. cbn [negb] in H.
  destruct (path_rest (output_parser ps o) parts names) as [u| | |] eqn:R; try discriminate H. constructor; [|eapply IH; [injection Hl as Hl; exact Hl|exact R]].
  exists c. split; [|destruct c; try discriminate P; exact I]. unfold output_parser in E. unfold bound, output_params.
  destruct (mget _ n) as [pc|]; [|discriminate E]. exists pc. split; [reflexivity|]. destruct (mget ps (pm_parser pc)); [|discriminate E]. injection E as ->. reflexivity.
Qed.

Lemma route_names ps path o r : new_route ps path o = Ok r -> Forall (fun n => exists c, bound ps o n c /\ single_valued c) (rt_params r).
Proof.
  unfold new_route, create_path_regexp, path_pattern. pose proof (split_length path 0 []) as L. destruct (split_path path 0 []) as [parts names]. cbn [fst snd] in L.
  destruct (path_rest (output_parser ps o) (tl parts) names) as [t| | |] eqn:R; try discriminate. cbn [rbind].
  destruct (compile _) as [re| | |]; try discriminate. cbn [rbind]. intros [= <-]. cbn [rt_params]. eapply path_rest_names; [|exact R]. destruct parts; [discriminate L|]. cbn in *. lia.
Qed.

Lemma template_names ps o parts names r : List.length parts = S (List.length names) -> Forall (fun p => ~ In x7b p) parts -> Forall name_ok names ->
  new_route ps (template parts names) o = Ok r -> rt_params r = names /\ Forall (fun n => exists c, bound ps o n c /\ single_valued c) names.
Proof.
  intros Hl Hp Hn H. pose proof (route_names _ _ _ _ H) as F. destruct parts as [|p rest]; [discriminate Hl|]. inversion Hp; subst.
  assert (E : rt_params r = names).
  { unfold new_route, create_path_regexp, path_pattern in H. rewrite split_parts in H by (try assumption; injection Hl as Hl; exact Hl).
    destruct (path_rest _ _ _) as [t| | |]; try discriminate H. cbn [rbind] in H. destruct (compile _) as [re| | |]; try discriminate H. cbn [rbind] in H. injection H as <-. reflexivity. }
  split; [exact E|]. rewrite <- E. exact F.
Qed.
