(** The regular expression built from the path of a route. *)
From Coq Require Import List ZArith Lia Bool String.
From Coq Require Import Strings.Byte ZifyBool.
From Verif Require Import Base BaseFacts Codec CodecFacts Value GoStrings SpecText StringsFacts Utf8Facts JsonFacts Parser Regex RegexFacts
  Output Http Route SpecRoute.
Import ListNotations.
Open Scope Z_scope.

(** *** The pattern as a list of runes *)
Definition special_runes : list Z := [92; 46; 43; 42; 63; 40; 41; 124; 91; 93; 123; 125; 94; 36].
Definition rquote (cs : list Z) : list Z := flat_map (fun c => if existsb (Z.eqb c) special_runes then [92; c] else [c]) cs.

Lemma text_app a b : text (a ++ b) = text a ++ text b.
Proof. apply flat_map_app. Qed.

Lemma high_not_special b : 128 <= Z_of_byte b -> is_special b = false.
Proof. intros H. unfold is_special. cbn [existsb]. lia. Qed.

Lemma cont_high b : cont_byte b = true -> 128 <= Z_of_byte b.
Proof. unfold cont_byte. lia. Qed.

Lemma quote_high l : Forall (fun b => 128 <= Z_of_byte b) l -> quote_meta l = l.
Proof. induction 1 as [|b l Hb _ IH]; [reflexivity|]. cbn [quote_meta flat_map]. fold (quote_meta l). rewrite high_not_special by assumption. cbn. f_equal. exact IH. Qed.

Lemma quote_encode c : scalar c -> quote_meta (encode_rune c) = text (rquote [c]).
Proof.
  intros Hc. pose proof (encode_encoding c Hc) as He. unfold rquote. cbn [flat_map]. rewrite app_nil_r.
  destruct (Z.ltb_spec c 128) as [Hl|Hl].
  - assert (E : exists b, encode_rune c = [b] /\ Z_of_byte b = c).
    { destruct He as [b| | |]; try lia. exists b. split; [reflexivity|assumption]. }
    destruct E as (b & E & Hb). rewrite E. cbn [quote_meta flat_map]. rewrite app_nil_r. unfold is_special, special_runes. rewrite Hb.
    destruct (existsb _ _); cbn [text flat_map]; rewrite E; [|reflexivity]. reflexivity.
  - replace (existsb (Z.eqb c) special_runes) with false by (unfold special_runes; cbn [existsb]; lia).
    cbn [text flat_map]. rewrite app_nil_r. apply quote_high. destruct (encoding_shape _ _ He) as (b0 & t & E & H0 & Ht).
    rewrite E in *. constructor.
    + inversion He; subst; lia.
    + eapply Forall_impl; [|exact Ht]. intros; apply cont_high; assumption.
Qed.

Lemma quote_app a b : quote_meta (a ++ b) = quote_meta a ++ quote_meta b.
Proof. apply flat_map_app. Qed.
Lemma rquote_cons c cs : rquote (c :: cs) = rquote [c] ++ rquote cs.
Proof. unfold rquote. cbn [flat_map]. rewrite app_nil_r. reflexivity. Qed.

Lemma quote_text cs : Forall scalar cs -> quote_meta (text cs) = text (rquote cs).
Proof.
  induction 1 as [|c cs Hc _ IH]; [reflexivity|]. rewrite rquote_cons, text_app. cbn [text flat_map]. fold (text cs).
  rewrite quote_app, IH, quote_encode by assumption. reflexivity.
Qed.

Lemma rquote_scalar cs : Forall scalar cs -> Forall scalar (rquote cs).
Proof.
  induction 1 as [|c cs Hc _ IH]; [constructor|]. rewrite rquote_cons. apply Forall_app. split; [|exact IH].
  unfold rquote. cbn [flat_map]. rewrite app_nil_r. destruct (existsb _ _);
    repeat (apply Forall_cons; [(assumption || (unfold scalar; lia))|]); apply Forall_nil.
Qed.

(** The runes of a part of a configuration. *)
Definition rpat (c : pconfig) : list Z :=
  match c with
  | PString _ => [46; 43]
  | PInteger ig =>
    let q := rquote (runes ig) in
    (match q with [] => [] | _ :: _ => [91] ++ q ++ [93; 42] end) ++ [91; 45; 93; 63; 91; 48; 45; 57] ++ q ++ [93; 43]
  | PFloat sep ig =>
    let q := rquote (runes ig) in
    (match q with [] => [] | _ :: _ => [91] ++ q ++ [93; 42] end) ++ [91; 45; 93; 63; 91; 48; 45; 57] ++ q ++ [93; 43] ++
    [40; 91] ++ rquote (runes sep) ++ [93; 91; 48; 45; 57] ++ q ++ [93; 43; 41; 63]
  | PBoolean t f =>
    [40] ++ match map (fun v => rquote (runes v)) (t ++ f) with [] => [] | v :: vs => v ++ flat_map (fun v => 124 :: v) vs end ++ [41]
  | PJson | PSplit _ _ _ => []
  end.

Lemma set_text_runes s : set_text s -> s = text (runes s) /\ Forall (fun c => scalar c /\ c <> 45) (runes s).
Proof.
  intros (cs & -> & H). assert (Hs : Forall scalar cs) by (eapply Forall_impl; [|exact H]; intros ? HH; exact (proj1 HH)).
  rewrite runes_text by assumption. auto.
Qed.
Lemma value_text_runes s : value_text s -> s = text (runes s) /\ Forall (fun c => scalar c /\ c <> rune_error) (runes s).
Proof.
  intros (cs & -> & H). assert (Hs : Forall scalar cs) by (eapply Forall_impl; [|exact H]; intros ? HH; exact (proj1 HH)).
  rewrite runes_text by assumption. auto.
Qed.

Lemma set_quote s : set_text s -> quote_meta s = text (rquote (runes s)).
Proof.
  intros H. destruct (set_text_runes s H) as [E Hs]. rewrite E at 1. apply quote_text. eapply Forall_impl; [|exact Hs]. intros ? HH; exact (proj1 HH).
Qed.

Lemma text_nil_iff cs : Forall scalar cs -> text cs = [] -> cs = [].
Proof.
  intros H E. destruct H as [|c cs Hc _]; [reflexivity|]. exfalso. cbn [text flat_map] in E.
  destruct (encode_shape c Hc) as (b & t & Eb & _). rewrite Eb in E. discriminate E.
Qed.

Lemma ignore_begin_text q : Forall scalar q -> ignore_begin (text q) = text (match q with [] => [] | _ :: _ => [91] ++ q ++ [93; 42] end).
Proof.
  intros H. unfold ignore_begin. destruct q as [|c q]; [reflexivity|]. destruct (text (c :: q)) as [|b t] eqn:E.
  - apply text_nil_iff in E; [discriminate E|assumption].
  - rewrite !text_app, E. reflexivity.
Qed.

Lemma join_text (vs : list (list Z)) : join_strings (lit "|") (map text vs) = text (match vs with [] => [] | v :: vs => v ++ flat_map (fun v => 124 :: v) vs end).
Proof.
  destruct vs as [|v vs]; [reflexivity|]. revert v. induction vs as [|v2 vs IH]; intros v.
  - cbn [map join_strings flat_map]. rewrite app_nil_r. reflexivity.
  - cbn [flat_map]. change (map text (v :: v2 :: vs)) with (text v :: text v2 :: map text vs).
    change (join_strings (lit "|") (text v :: text v2 :: map text vs)) with (text v ++ lit "|" ++ join_strings (lit "|") (map text (v2 :: vs))).
    change ((124 :: v2) ++ flat_map (fun v => 124 :: v) vs) with ([124] ++ (v2 ++ flat_map (fun v => 124 :: v) vs)).
    rewrite IH, !text_app. reflexivity.
Qed.

Lemma Forall_scalar_set s : set_text s -> Forall scalar (runes s).
Proof. intros H. destruct (set_text_runes s H) as [_ Hs]. eapply Forall_impl; [|exact Hs]. intros ? HH; exact (proj1 HH). Qed.

Lemma pattern_text c : clear c -> pattern c = text (rpat c) /\ Forall scalar (rpat c).
Proof.
  assert (Hk : forall l, forallb (fun z => (0 <=? z) && (z <? 128)) l = true -> Forall scalar l).
  { intros l H. apply Forall_forall. intros x Hx. rewrite forallb_forall in H. specialize (H x Hx). unfold scalar. lia. }
  destruct c as [ch|ig|sep ig|t f| |]; intros H; cbn [clear] in H; try contradiction.
  - split; [reflexivity|]. apply Hk. reflexivity.
  - unfold pattern, rpat. cbv zeta. pose proof (rquote_scalar _ (Forall_scalar_set _ H)) as Hq. rewrite set_quote by assumption.
    rewrite ignore_begin_text by assumption. split; [rewrite !text_app; reflexivity|].
    apply Forall_app. split; [destruct (rquote (runes ig)); [constructor|]|]; repeat (apply Forall_app; split); try assumption; apply Hk; reflexivity.
  - destruct H as (_ & Hs & Hi). unfold pattern, rpat. cbv zeta.
    pose proof (rquote_scalar _ (Forall_scalar_set _ Hi)) as Hq. pose proof (rquote_scalar _ (Forall_scalar_set _ Hs)) as Hp.
    rewrite !set_quote by assumption. rewrite ignore_begin_text by assumption. split; [rewrite !text_app; reflexivity|].
    apply Forall_app. split; [destruct (rquote (runes ig)); [constructor|]|]; repeat (apply Forall_app; split); try assumption; apply Hk; reflexivity.
  - destruct H as (_ & H). unfold pattern, rpat. rewrite <- map_app.
    assert (Em : map quote_meta (t ++ f) = map text (map (fun v => rquote (runes v)) (t ++ f))).
    { rewrite map_map. apply map_ext_in. intros v Hv. rewrite Forall_forall in H. destruct (value_text_runes v (H v Hv)) as [E Hs].
      rewrite E at 1. apply quote_text. eapply Forall_impl; [|exact Hs]. intros ? HH; exact (proj1 HH). }
    rewrite Em, join_text. split; [rewrite !text_app; reflexivity|].
    assert (Hl : Forall (Forall scalar) (map (fun v => rquote (runes v)) (t ++ f))).
    { apply Forall_forall. intros x Hx. apply in_map_iff in Hx as (v & <- & Hv). rewrite Forall_forall in H.
      destruct (value_text_runes v (H v Hv)) as [_ Hs]. apply rquote_scalar. eapply Forall_impl; [|exact Hs]. intros ? HH; exact (proj1 HH). }
    repeat (apply Forall_app; split); try (apply Hk; reflexivity).
    destruct Hl as [|v vs Hv Hvs]; [constructor|]. apply Forall_app. split; [exact Hv|].
    apply Forall_flat_map. eapply Forall_impl; [|exact Hvs]. intros a Ha. constructor; [unfold scalar; lia|exact Ha].
Qed.

(** *** Lexing *)
Definition tlit (c : Z) : token := TSet false [(c, c)].
Definition dup (c : Z) : Z * Z := (c, c).

Lemma lex_skip s : forall k, (k <= List.length s)%nat -> lex s k = lex (skipn k s) 0.
Proof.
  induction s as [|x s IH]; intros k Hk; [destruct k; reflexivity|].
  destruct k as [|k]; [reflexivity|]. cbn [lex skipn]. apply IH. cbn in Hk. lia.
Qed.

Ltac neqb := repeat match goal with |- context [?a =? ?b] => replace (a =? b) with false by lia end.

Lemma lex_plain c rest : ~ In c [92; 46; 43; 42; 63; 40; 41; 124; 91; 123; 94; 36] -> lex (c :: rest) 0 = rlet l := lex rest 0 in Ok (tlit c :: l).
Proof. intros H. cbn [In] in H. cbn [lex]. cbv zeta. neqb. reflexivity. Qed.

Lemma lex_plains cs rest : Forall (fun c => ~ In c [92; 46; 43; 42; 63; 40; 41; 124; 91; 123; 94; 36]) cs ->
  lex (cs ++ rest) 0 = rlet l := lex rest 0 in Ok (map tlit cs ++ l).
Proof.
  induction 1 as [|c cs Hc _ IH]; cbn [app map]; [destruct (lex rest 0); reflexivity|].
  rewrite lex_plain by assumption. rewrite IH. destruct (lex rest 0); reflexivity.
Qed.

Lemma special_escape c : existsb (Z.eqb c) special_runes = true -> can_escape c = true.
Proof. unfold special_runes, can_escape, is_alnum. cbn [existsb]. lia. Qed.

Lemma lex_quoted cs rest : lex (rquote cs ++ rest) 0 = rlet l := lex rest 0 in Ok (map tlit cs ++ l).
Proof.
  induction cs as [|c cs IH]; [cbn [rquote flat_map app map]; destruct (lex rest 0); reflexivity|].
  rewrite rquote_cons, <- app_assoc. unfold rquote at 1. cbn [flat_map]. rewrite app_nil_r.
  destruct (existsb (Z.eqb c) special_runes) eqn:E.
  - cbn [app map]. transitivity (rlet l := lex (c :: rquote cs ++ rest) 1 in Ok (TSet false [(c, c)] :: l)).
    { cbn [lex]. cbv zeta. rewrite Z.eqb_refl, special_escape by assumption. reflexivity. }
    rewrite lex_skip by (cbn; lia). cbn [skipn]. rewrite IH. destruct (lex rest 0); reflexivity.
  - cbn [app map]. rewrite lex_plain.
    + rewrite IH. destruct (lex rest 0); reflexivity.
    + intros Hin. cbn [In] in Hin. unfold special_runes in E. cbn [existsb] in E. lia.
Qed.

Lemma class_skip s : forall k, (S k <= List.length s)%nat -> forall b,
  class_items s (S k) b = rlet (l, n) := class_items (skipn (S k) s) 0 false in Ok (l, (S k + n)%nat).
Proof.
  induction s as [|x s IH]; intros k Hk b; [cbn in Hk; lia|]. cbn [class_items].
  destruct k as [|k].
  - cbn [skipn]. destruct (class_items s 0 false) as [[l n]| | |]; reflexivity.
  - rewrite IH by (cbn in Hk; lia). cbn [skipn]. destruct s as [|y s]; [cbn in Hk; lia|].
    destruct (class_items (skipn k s) 0 false) as [[l n]| | |]; reflexivity.
Qed.

Definition not_dash (s : list Z) : Prop := match s with c :: _ => c <> 45 | [] => True end.

Lemma class_item_one c s : c <> 92 -> not_dash s -> class_item (c :: s) = Ok (c, c, 1%nat).
Proof.
  intros H1 H2. unfold class_item, class_char. replace (c =? 92) with false by lia. cbn [rbind skipn].
  destruct s as [|d [|x t]]; [reflexivity| |]; cbn in H2.
  - destruct d as [|p|p]; try reflexivity. do 6 (destruct p as [p|p|]; try reflexivity).
  - destruct d as [|p|p]; try reflexivity. do 6 (destruct p as [p|p|]; try reflexivity). congruence.
Qed.

Lemma class_item_escaped c s : can_escape c = true -> not_dash s -> class_item (92 :: c :: s) = Ok (c, c, 2%nat).
Proof.
  intros H1 H2. unfold class_item, class_char. rewrite Z.eqb_refl, H1. cbn [rbind skipn].
  destruct s as [|d [|x t]]; [reflexivity| |]; cbn in H2.
  - destruct d as [|p|p]; try reflexivity. do 6 (destruct p as [p|p|]; try reflexivity).
  - destruct d as [|p|p]; try reflexivity. do 6 (destruct p as [p|p|]; try reflexivity). congruence.
Qed.

Lemma class_step_one c s first : c <> 92 -> c <> 91 -> (c <> 93 \/ first = true) -> not_dash s ->
  class_items (c :: s) 0 first = rlet (l, n) := class_items s 0 false in Ok ((c, c) :: l, S n).
Proof.
  intros H1 H2 H3 H4. cbn [class_items]. replace ((c =? 93) && negb first) with false by (destruct H3 as [H3| ->]; [lia|symmetry; apply andb_false_r]). replace (c =? 91) with false by lia.
  cbn [andb]. rewrite class_item_one by assumption. reflexivity.
Qed.

Lemma class_step_escaped c s first : can_escape c = true -> not_dash s ->
  class_items (92 :: c :: s) 0 first = rlet (l, n) := class_items s 0 false in Ok ((c, c) :: l, S (S n)).
Proof.
  intros H1 H4. transitivity (rlet (l, n) := class_items (c :: s) 1 false in Ok ((c, c) :: l, S n)).
  - cbn [class_items]. change ((92 =? 93) && negb first) with false. change (92 =? 91) with false. cbn [andb].
    rewrite class_item_escaped by assumption. reflexivity.
  - rewrite class_skip by (cbn; lia). cbn [skipn]. destruct (class_items s 0 false) as [[l n]| | |]; reflexivity.
Qed.

Lemma quote_not_dash cs rest : Forall (fun c => c <> 45) cs -> not_dash rest -> not_dash (rquote cs ++ rest).
Proof.
  intros [|c cs' Hc _] Hr; [exact Hr|]. rewrite rquote_cons. unfold rquote at 1. cbn [flat_map]. rewrite app_nil_r.
  destruct (existsb _ _); cbn; lia.
Qed.

Lemma class_quoted cs rest : Forall (fun c => c <> 45) cs -> forall first, (cs <> [] \/ first = false) ->
  class_items (rquote cs ++ 93 :: rest) 0 first = Ok (map dup cs, S (List.length (rquote cs))).
Proof.
  induction 1 as [|c cs Hc Hcs IH]; intros first Hf.
  - destruct Hf as [Hf| ->]; [congruence|]. reflexivity.
  - rewrite rquote_cons, <- app_assoc. unfold rquote at 1 3. cbn [flat_map]. rewrite app_nil_r.
    pose proof (quote_not_dash cs (93 :: rest) Hcs ltac:(cbn; lia)) as Hd.
    destruct (existsb (Z.eqb c) special_runes) eqn:E.
    + cbn [app]. rewrite class_step_escaped; [|apply special_escape; exact E|exact Hd]. rewrite IH by auto. reflexivity.
    + cbn [app]. unfold special_runes in E. cbn [existsb] in E. rewrite class_step_one; [|lia|lia|lia|exact Hd]. rewrite IH by auto. reflexivity.
Qed.

Lemma class_digits cs rest : Forall (fun c => c <> 45) cs ->
  class_items ([48; 45; 57] ++ rquote cs ++ 93 :: rest) 0 true = Ok ((48, 57) :: map dup cs, S (3 + List.length (rquote cs))).
Proof.
  intros H. transitivity (rlet (l, n) := class_items ([45; 57] ++ rquote cs ++ 93 :: rest) 2 false in Ok ((48, 57) :: l, S n)); [reflexivity|].
  rewrite class_skip by (cbn; lia). cbn [skipn app]. rewrite class_quoted by auto. reflexivity.
Qed.

Lemma lex_class cls rest items : next_is 94 (cls ++ [93]) = false ->
  class_items (cls ++ 93 :: rest) 0 true = Ok (items, S (List.length cls)) ->
  lex (91 :: cls ++ 93 :: rest) 0 = rlet l := lex rest 0 in Ok (TSet false items :: l).
Proof.
  intros H94 H. cbn [lex]. cbv zeta. replace (next_is 94 (cls ++ 93 :: rest)) with false by (destruct cls; exact (eq_sym H94)).
  rewrite Z.eqb_refl. change (91 =? 92) with false. cbv match. rewrite H. cbn [rbind].
  rewrite lex_skip by (rewrite app_length; cbn; lia).
  replace (skipn (S (List.length cls)) (cls ++ 93 :: rest)) with rest; [reflexivity|].
  change (cls ++ 93 :: rest) with (cls ++ [93] ++ rest). rewrite app_assoc. rewrite <- (skipn_app_exact (cls ++ [93]) rest) at 1.
  rewrite app_length. cbn [List.length]. replace (List.length cls + 1)%nat with (S (List.length cls)) by lia. reflexivity.
Qed.

Lemma lex_rep c k rest : (c, k) = (42, Star) \/ (c, k) = (43, Plus) \/ (c, k) = (63, Quest) -> next_is 63 rest = false ->
  lex (c :: rest) 0 = rlet l := lex rest 0 in Ok (TRep k true :: l).
Proof. intros H Hn. destruct H as [H|[H|H]]; injection H as -> ->; cbn [lex]; cbv zeta; rewrite Hn; reflexivity. Qed.

Lemma next_quote_94 cs rest : next_is 94 rest = false -> next_is 94 (rquote cs ++ rest) = false.
Proof.
  intros H. destruct cs as [|c cs]; [exact H|]. rewrite rquote_cons. unfold rquote at 1. cbn [flat_map]. rewrite app_nil_r.
  destruct (existsb (Z.eqb c) special_runes) eqn:E; [reflexivity|]. cbn. unfold special_runes in E. cbn [existsb] in E. lia.
Qed.

Lemma rquote_nil cs : rquote cs = [] -> cs = [].
Proof. destruct cs as [|c cs]; [reflexivity|]. rewrite rquote_cons. unfold rquote at 1. cbn [flat_map]. destruct (existsb _ _); discriminate. Qed.

(** Tokens of a pattern. *)
Definition ignore_toks (cs : list Z) : list token := match cs with [] => [] | _ :: _ => [TSet false (map dup cs); TRep Star true] end.
Definition int_toks (cs : list Z) : list token :=
  ignore_toks cs ++ [TSet false [(45, 45)]; TRep Quest true; TSet false ((48, 57) :: map dup cs); TRep Plus true].
Definition toks (c : pconfig) : list token :=
  match c with
  | PString _ => [TSet true [(10, 10)]; TRep Plus true]
  | PInteger ig => int_toks (runes ig)
  | PFloat sep ig =>
    int_toks (runes ig) ++ [TOpen; TSet false (map dup (runes sep)); TSet false ((48, 57) :: map dup (runes ig)); TRep Plus true; TClose; TRep Quest true]
  | PBoolean t f =>
    [TOpen] ++ match map (fun v => map tlit (runes v)) (t ++ f) with [] => [] | v :: vs => v ++ flat_map (fun v => TBar :: v) vs end ++ [TClose]
  | PJson | PSplit _ _ _ => []
  end.

Definition set_ok (cs : list Z) : Prop := Forall (fun c => c <> 45) cs.
Lemma set_text_ok s : set_text s -> set_ok (runes s).
Proof. intros H. destruct (set_text_runes s H) as [_ Hs]. eapply Forall_impl; [|exact Hs]. intros ? HH; exact (proj2 HH). Qed.

Lemma lex_ignore cs rest : set_ok cs -> next_is 63 rest = false ->
  lex ((match rquote cs with [] => [] | _ :: _ => [91] ++ rquote cs ++ [93; 42] end) ++ rest) 0 = rlet l := lex rest 0 in Ok (ignore_toks cs ++ l).
Proof.
  intros H Hn. destruct (rquote cs) eqn:E.
  - apply rquote_nil in E as ->. cbn [app ignore_toks]. destruct (lex rest 0); reflexivity.
  - rewrite <- E. assert (Hc : cs <> []) by (intros ->; discriminate E). rewrite <- !app_assoc. cbn [app].
    rewrite (lex_class (rquote cs) (42 :: rest) (map dup cs)).
    + rewrite (lex_rep 42 Star) by auto. destruct cs as [|c cs]; [congruence|]. destruct (lex rest 0); reflexivity.
    + apply next_quote_94. reflexivity.
    + apply class_quoted; auto.
Qed.

Lemma lex_digits cs rest : set_ok cs -> next_is 63 rest = false ->
  lex ([91; 48; 45; 57] ++ rquote cs ++ [93; 43] ++ rest) 0 = rlet l := lex rest 0 in Ok (TSet false ((48, 57) :: map dup cs) :: TRep Plus true :: l).
Proof.
  intros H Hn. change ([91; 48; 45; 57] ++ rquote cs ++ [93; 43] ++ rest) with (91 :: ([48; 45; 57] ++ rquote cs) ++ 93 :: 43 :: rest) || rewrite !app_assoc.
  rewrite (lex_class ([48; 45; 57] ++ rquote cs) (43 :: rest) ((48, 57) :: map dup cs)).
  - rewrite (lex_rep 43 Plus) by auto. destruct (lex rest 0); reflexivity.
  - reflexivity.
  - rewrite <- app_assoc. rewrite class_digits by assumption. rewrite app_length. reflexivity.
Qed.

Lemma lex_int cs rest : set_ok cs -> next_is 63 rest = false ->
  lex ((match rquote cs with [] => [] | _ :: _ => [91] ++ rquote cs ++ [93; 42] end) ++ [91; 45; 93; 63; 91; 48; 45; 57] ++ rquote cs ++ [93; 43] ++ rest) 0 =
  rlet l := lex rest 0 in Ok (int_toks cs ++ l).
Proof.
  intros H Hn. rewrite lex_ignore by (assumption || reflexivity).
  change ([91; 45; 93; 63; 91; 48; 45; 57] ++ rquote cs ++ [93; 43] ++ rest) with (91 :: [45] ++ 93 :: 63 :: [91; 48; 45; 57] ++ rquote cs ++ [93; 43] ++ rest).
  rewrite (lex_class [45] _ [(45, 45)]) by reflexivity. rewrite (lex_rep 63 Quest) by (auto || reflexivity).
  rewrite lex_digits by assumption. unfold int_toks. destruct (lex rest 0) as [l| | |]; cbn [rbind]; try reflexivity. rewrite <- app_assoc. reflexivity.
Qed.

Lemma lex_one c t rest : In (c, t) [(40, TOpen); (41, TClose); (124, TBar); (94, TBegin); (36, TEnd)] -> next_is 63 rest = false ->
  lex (c :: rest) 0 = rlet l := lex rest 0 in Ok (t :: l).
Proof.
  intros H Hn. cbn [In] in H. destruct H as [H|[H|[H|[H|[H|[]]]]]]; injection H as <- <-; cbn [lex]; cbv zeta; rewrite ?Hn; reflexivity.
Qed.

Lemma next_quote_63 cs rest : next_is 63 rest = false -> next_is 63 (rquote cs ++ rest) = false.
Proof.
  intros H. destruct cs as [|c cs]; [exact H|]. rewrite rquote_cons. unfold rquote at 1. cbn [flat_map]. rewrite app_nil_r.
  destruct (existsb (Z.eqb c) special_runes) eqn:E; [reflexivity|]. cbn. unfold special_runes in E. cbn [existsb] in E. lia.
Qed.

Lemma lex_bars (vs : list (list Z)) rest : next_is 63 rest = false ->
  lex (flat_map (fun v => 124 :: v) (map rquote vs) ++ rest) 0 = rlet l := lex rest 0 in Ok (flat_map (fun v => TBar :: v) (map (map tlit) vs) ++ l).
Proof.
  intros Hn. induction vs as [|v vs IH]; cbn [map flat_map app]; [destruct (lex rest 0); reflexivity|].
  rewrite <- app_assoc. rewrite (lex_one 124 TBar).
  - rewrite lex_quoted, IH. destruct (lex rest 0) as [l| | |]; cbn [rbind]; try reflexivity. rewrite <- app_assoc. reflexivity.
  - cbn; auto.
  - apply next_quote_63. destruct vs; [exact Hn|reflexivity].
Qed.

Lemma lex_pattern c rest : clear c -> lex (rpat c ++ 41 :: rest) 0 = rlet l := lex (41 :: rest) 0 in Ok (toks c ++ l).
Proof.
  destruct c as [ch|ig|sep ig|t f| |]; intros H; cbn [clear] in H; try contradiction.
  - unfold rpat, toks. cbn [app].
    transitivity (rlet l := lex (43 :: 41 :: rest) 0 in Ok (TSet true [(10, 10)] :: l)); [reflexivity|].
    rewrite (lex_rep 43 Plus) by (auto || reflexivity). destruct (lex (41 :: rest) 0); reflexivity.
  - unfold rpat, toks. cbv zeta. rewrite <- !app_assoc. apply lex_int; [apply set_text_ok; assumption|reflexivity].
  - destruct H as (Hne & Hs & Hi). pose proof (set_text_ok _ Hs) as Os. pose proof (set_text_ok _ Hi) as Oi.
    unfold rpat, toks. cbv zeta. rewrite <- !app_assoc. rewrite lex_int by (assumption || reflexivity).
    assert (Hr : runes sep <> []).
    { intros E. destruct (set_text_runes sep Hs) as [E2 _]. rewrite E in E2. exact (Hne E2). }
    change ([40; 91] ++ rquote (runes sep) ++ [93; 91; 48; 45; 57] ++ rquote (runes ig) ++ [93; 43; 41; 63] ++ 41 :: rest)
      with (40 :: 91 :: rquote (runes sep) ++ 93 :: [91; 48; 45; 57] ++ rquote (runes ig) ++ [93; 43] ++ 41 :: 63 :: 41 :: rest).
    rewrite (lex_one 40 TOpen) by ((cbn; auto) || reflexivity).
    rewrite (lex_class (rquote (runes sep)) _ (map dup (runes sep))).
    + rewrite lex_digits by (assumption || reflexivity).
      transitivity (rlet l := rlet l := rlet l := rlet l := (rlet l := lex (63 :: 41 :: rest) 0 in Ok (TClose :: l)) in
          Ok (TSet false ((48, 57) :: map dup (runes ig)) :: TRep Plus true :: l) in Ok (TSet false (map dup (runes sep)) :: l) in
          Ok (TOpen :: l) in Ok (int_toks (runes ig) ++ l)).
      { reflexivity. }
      rewrite (lex_rep 63 Quest) by (auto || reflexivity).
      destruct (lex (41 :: rest) 0) as [l| | |]; cbn [rbind]; try reflexivity; rewrite <- app_assoc; reflexivity.
    + apply next_quote_94. reflexivity.
    + apply class_quoted; auto.
  - unfold rpat, toks. rewrite <- !app_assoc. cbn [app].
    replace (map (fun v => rquote (runes v)) (t ++ f)) with (map rquote (map runes (t ++ f))) by apply map_map.
    replace (map (fun v => map tlit (runes v)) (t ++ f)) with (map (map tlit) (map runes (t ++ f))) by apply map_map.
    destruct (map runes (t ++ f)) as [|v vs].
    + cbn [map app]. rewrite (lex_one 40 TOpen) by ((cbn; auto) || reflexivity). rewrite (lex_one 41 TClose) by ((cbn; auto) || reflexivity).
      destruct (lex (41 :: rest) 0); reflexivity.
    + cbn [map]. rewrite (lex_one 40 TOpen).
      * rewrite <- app_assoc. rewrite lex_quoted. rewrite lex_bars by reflexivity. cbn [app].
        rewrite (lex_one 41 TClose) by ((cbn; auto) || reflexivity).
        destruct (lex (41 :: rest) 0) as [l| | |]; cbn [rbind]; try reflexivity. rewrite <- !app_assoc. reflexivity.
      * cbn; auto.
      * rewrite <- app_assoc. apply next_quote_63. destruct vs; reflexivity.
Qed.
