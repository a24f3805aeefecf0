(** Proofs about Sql.v and SqlIndex.v: how SQLite reads the texts. *)
From Coq Require Import List ZArith Lia Bool String.
From Coq Require Import Strings.Byte.
From Verif Require Import Base BaseFacts Value Json Sql SqlIndex.
Import ListNotations.
Open Scope Z_scope.

Definition quote (n : bytes) : bytes := [dquote] ++ double_quotes (until_nul n) ++ [dquote].
Definition no_nul (n : bytes) : Prop := Forall (fun c => code c <> 0) n.

Lemma until_nul_id n : no_nul n -> until_nul n = n.
Proof.
  induction 1 as [|c s H _ IH]; cbn [until_nul]; [reflexivity|].
  destruct (Z.eqb_spec (code c) 0); [contradiction|]. now rewrite IH.
Qed.

Lemma until_nul_no_nul n : no_nul (until_nul n).
Proof.
  induction n as [|c s IH]; cbn [until_nul]; [constructor|].
  destruct (Z.eqb_spec (code c) 0); constructor; assumption.
Qed.

Lemma until_nul_app a b : no_nul a -> until_nul (a ++ b) = a ++ until_nul b.
Proof.
  induction 1 as [|c s H _ IH]; [reflexivity|]. cbn [app until_nul].
  destruct (Z.eqb_spec (code c) 0); [contradiction|]. now rewrite IH.
Qed.

Lemma no_nul_app a b : no_nul a -> no_nul b -> no_nul (a ++ b).
Proof. unfold no_nul. intros. now apply Forall_app. Qed.

Lemma beqb_spec a b : reflect (a = b) (beqb a b).
Proof.
  unfold beqb. destruct (Byte.eqb a b) eqn:E; constructor.
  - now apply Byte.byte_dec_bl.
  - intros ->. rewrite Byte.byte_dec_lb in E; congruence.
Qed.

(** *** Lexing a text *)

Definition lexs (st : lstate) (s : bytes) : option (list tok) :=
  match lex_run st s with
  | None => None
  | Some (ts, st1) => match lex_end st1 with None => None | Some ts' => Some (ts ++ ts') end
  end.

Definition oapp (ts : list tok) (o : option (list tok)) : option (list tok) :=
  match o with None => None | Some ts' => Some (ts ++ ts') end.

Lemma oapp_oapp a b o : oapp a (oapp b o) = oapp (a ++ b) o.
Proof. destruct o; cbn; [now rewrite app_assoc|reflexivity]. Qed.

Lemma lex_lexs s : lex s = lexs LBetween s.
Proof. reflexivity. Qed.

Lemma lexs_cons st c s :
  lexs st (c :: s) = match lex_byte st c with None => None | Some (ts, st1) => oapp ts (lexs st1 s) end.
Proof.
  unfold lexs. cbn [lex_run]. destruct (lex_byte st c) as [[ts st1]|]; [|reflexivity].
  destruct (lex_run st1 s) as [[ts' st2]|]; [|reflexivity].
  cbn [oapp]. destruct (lex_end st2); cbn [oapp]; [now rewrite app_assoc|reflexivity].
Qed.

Lemma lexs_run a : forall st ts st1 rest,
  lex_run st a = Some (ts, st1) -> lexs st (a ++ rest) = oapp ts (lexs st1 rest).
Proof.
  induction a as [|c a IH]; cbn [lex_run app]; intros st ts st1 rest H.
  - injection H as <- <-. destruct (lexs st rest); reflexivity.
  - rewrite lexs_cons. destruct (lex_byte st c) as [[ts0 st0]|]; [|discriminate].
    destruct (lex_run st0 a) as [[ts' st2]|] eqn:E; [|discriminate].
    injection H as <- <-. rewrite (IH _ _ _ _ E), oapp_oapp. reflexivity.
Qed.

Definition starts_not (c : byte) (s : bytes) : Prop :=
  match s with [] => True | d :: _ => d <> c end.

Lemma lex_run_quoted s : forall acc, no_nul s ->
  lex_run (LQuote dquote acc) (double_quotes s) = Some ([], LQuote dquote (acc ++ s)).
Proof.
  induction s as [|c s IH]; intros acc H; cbn [double_quotes flat_map].
  - cbn [lex_run]. now rewrite app_nil_r.
  - inversion H as [|? ? Hc Hs]; subst.
    destruct (beqb_spec c dquote) as [->|N]; cbn [app lex_run].
    + cbn [lex_byte]. cbn. fold (double_quotes s). rewrite IH by assumption. cbn. rewrite <- app_assoc. reflexivity.
    + cbn [lex_byte]. destruct (Z.eqb_spec (code c) 0); [contradiction|].
      destruct (beqb_spec c dquote); [contradiction|].
      fold (double_quotes s). rewrite IH by assumption. cbn. rewrite <- app_assoc. reflexivity.
Qed.

Lemma lexs_closed q s rest : starts_not q rest ->
  lexs (LClosed q s) rest = oapp [quoted q s] (lexs LBetween rest).
Proof.
  destruct rest as [|c rest]; intros H; [reflexivity|].
  rewrite !lexs_cons. cbn [lex_byte]. cbn [starts_not] in H.
  destruct (beqb_spec c q); [contradiction|]. unfold lex_after.
  destruct (lex_start c) as [[ts st]|]; [|reflexivity].
  now rewrite oapp_oapp.
Qed.

Lemma lexs_quote n rest : starts_not dquote rest ->
  lexs LBetween (quote n ++ rest) = oapp [TQuoted (until_nul n)] (lexs LBetween rest).
Proof.
  intros H. unfold quote. rewrite <- !app_assoc. cbn [app].
  rewrite lexs_cons. change (lex_byte LBetween dquote) with (Some (@nil tok, LQuote dquote [])).
  cbv iota beta. rewrite (lexs_run _ _ _ _ _ (lex_run_quoted _ [] (until_nul_no_nul n))).
  cbn [app]. rewrite lexs_cons. change (lex_byte (LQuote dquote (until_nul n)) dquote) with (Some (@nil tok, LClosed dquote (until_nul n))).
  cbv iota beta. rewrite lexs_closed by assumption.
  destruct (lexs LBetween rest); reflexivity.
Qed.

Lemma lexs_const a ts rest :
  lex_run LBetween a = Some (ts, LBetween) -> lexs LBetween (a ++ rest) = oapp ts (lexs LBetween rest).
Proof. apply lexs_run. Qed.

(** Words. *)
Definition word (w : bytes) : Prop :=
  match w with [] => False | c :: w' => is_word_start c = true /\ forallb is_word_char w' = true end.

Lemma lex_run_word w : forall acc, forallb is_word_char w = true ->
  lex_run (LWord acc) w = Some ([], LWord (acc ++ w)).
Proof.
  induction w as [|c w IH]; intros acc H; cbn [lex_run].
  - now rewrite app_nil_r.
  - cbn [forallb] in H. apply andb_true_iff in H as [H1 H2]. cbn [lex_byte]. rewrite H1.
    rewrite (IH _ H2). cbn. now rewrite <- app_assoc.
Qed.

Definition no_word_start (s : bytes) : Prop :=
  match s with [] => True | d :: _ => is_word_char d = false end.

Lemma word_start_byte c : is_word_start c = true -> lex_byte LBetween c = Some ([], LWord [c]).
Proof. destruct c; intros H; vm_compute in H; try discriminate; reflexivity. Qed.

Lemma lexs_word w rest : word w -> no_word_start rest ->
  lexs LBetween (w ++ rest) = oapp [TWord w] (lexs LBetween rest).
Proof.
  destruct w as [|c w]; [contradiction|]. intros [H1 H2] H.
  cbn [app]. rewrite lexs_cons, (word_start_byte _ H1).
  rewrite (lexs_run _ _ _ _ _ (lex_run_word w [c] H2)). cbn [app].
  destruct rest as [|d rest].
  - reflexivity.
  - rewrite !lexs_cons. cbn [lex_byte]. cbn [no_word_start] in H. rewrite H. unfold lex_after.
    destruct (lex_start d) as [[ts st]|]; [|reflexivity].
    destruct (lexs st rest); reflexivity.
Qed.

Lemma oapp_some ts o l : o = Some l -> oapp ts o = Some (ts ++ l).
Proof. intros ->. reflexivity. Qed.

(** *** Lists of items *)

Fixpoint commas (items : list (list tok)) : list tok :=
  match items with
  | [] => []
  | [x] => x
  | x :: r => x ++ TSym p_comma :: commas r
  end.

Definition plain (ts : list tok) : Prop :=
  Forall (fun t => is_sym p_close t = false /\ is_sym p_comma t = false) ts.

Lemma p_items_plain x : forall cur rest, plain x -> p_items cur (x ++ rest) = p_items (cur ++ x) rest.
Proof.
  induction x as [|t x IH]; intros cur rest H.
  - now rewrite app_nil_r.
  - inversion H as [|? ? [H1 H2] H3]; subst. cbn [app p_items]. rewrite H1, H2, (IH _ _ H3), <- app_assoc. reflexivity.
Qed.

Lemma p_items_commas items rest : items <> [] -> Forall plain items ->
  p_items [] (commas items ++ TSym p_close :: rest) = Some (items, rest).
Proof.
  intros H F. induction F as [|x r Hx F IH]; [contradiction|].
  destruct r as [|y r].
  - cbn [commas]. rewrite (p_items_plain x _ _ Hx). reflexivity.
  - cbn [commas]. rewrite <- app_assoc, (p_items_plain x _ _ Hx). cbn [app].
    cbn [p_items]. change (is_sym p_close (TSym p_comma)) with false.
    change (is_sym p_comma (TSym p_comma)) with true. cbv iota.
    cbn [commas] in IH. rewrite IH by discriminate. reflexivity.
Qed.

(** Items written one after the other. *)
Definition writes (s : bytes) (ts : list tok) : Prop :=
  forall rest, no_word_start rest -> starts_not dquote rest -> lexs LBetween (s ++ rest) = oapp ts (lexs LBetween rest).

Lemma lexs_join l rest : Forall (fun x => writes (fst x) (snd x)) l ->
  no_word_start rest -> starts_not dquote rest ->
  lexs LBetween (join (lit ", ") (map fst l) ++ rest) = oapp (commas (map snd l)) (lexs LBetween rest).
Proof.
  intros F Hw Hr. induction F as [|[s ts] l Hx F IH]; cbn [map join commas app].
  - destruct (lexs LBetween rest); reflexivity.
  - destruct l as [|y l]; cbn [map fst snd] in *.
    + apply Hx; assumption.
    + rewrite <- !app_assoc. cbn [fst snd] in Hx. rewrite Hx by (reflexivity || discriminate).
      rewrite (lexs_const (lit ", ") [TSym p_comma]) by reflexivity.
      rewrite IH, !oapp_oapp. cbn [app]. now rewrite <- app_assoc.
Qed.

Lemma writes_quote n : writes (quote n) [TQuoted (until_nul n)].
Proof. intros rest _ H. now apply lexs_quote. Qed.

Lemma writes_definition n c : word c -> writes (quote n ++ lit " BLOB COLLATE " ++ c)
  [TQuoted (until_nul n); TWord (lit "BLOB"); TWord (lit "COLLATE"); TWord c].
Proof.
  intros H rest Hr _. rewrite <- !app_assoc. rewrite lexs_quote by discriminate.
  rewrite (lexs_const (lit " BLOB COLLATE ") [TWord (lit "BLOB"); TWord (lit "COLLATE")]) by reflexivity.
  rewrite lexs_word, !oapp_oapp by assumption. reflexivity.
Qed.

Lemma writes_placeholder : writes (lit "?") [TVar].
Proof. intros rest _ _. apply lexs_const. reflexivity. Qed.

(** *** The texts *)

Ltac lex_step :=
  match goal with
  | |- context [lexs LBetween (lit ?s ++ ?r)] =>
    let x := eval vm_compute in (lex_run LBetween (lit s)) in
    match x with Some (?ts, LBetween) => rewrite (lexs_const (lit s) ts r) by (vm_compute; reflexivity) end
  | |- context [lexs LBetween (quote ?n ++ ?r)] => rewrite (lexs_quote n r) by (vm_compute; discriminate)
  | |- context [lexs LBetween (lit ?s)] =>
    let x := eval vm_compute in (lexs LBetween (lit s)) in
    replace (lexs LBetween (lit s)) with x by (vm_compute; reflexivity)
  end.

Definition int_col (n : bytes) : coldef := mkCol n (lit "INTEGER") true (lit "BINARY").
Definition smeta_cols : list coldef :=
  [int_col (lit "version"); int_col (lit "inputFileModificationTime"); int_col (lit "inputFileSize");
   mkCol (lit "completed") (lit "BOOLEAN") true (lit "BINARY")].
Definition smeta_names : list bytes := map c_name smeta_cols.

Lemma parse_escape : parse escape_sql = Some SelectEscaped.
Proof. vm_compute. reflexivity. Qed.

Lemma parse_load n : parse (load_sql (quote n)) = Some (Select smeta_names (until_nul n) []).
Proof.
  unfold parse, load_sql. rewrite lex_lexs. repeat lex_step. cbn [oapp app]. reflexivity.
Qed.

Lemma parse_has n : parse (has_sql (quote n)) = Some (CountMaster (until_nul n)).
Proof.
  unfold parse, has_sql. rewrite lex_lexs. repeat lex_step. cbn [oapp app]. reflexivity.
Qed.

Lemma parse_create_meta n : parse (create_meta_sql (quote n)) = Some (CreateTable true (until_nul n) smeta_cols).
Proof.
  unfold parse, create_meta_sql. rewrite lex_lexs. repeat lex_step. cbn [oapp app]. reflexivity.
Qed.

Lemma parse_delete_meta n : parse (delete_meta_sql (quote n)) = Some (DeleteFrom (until_nul n)).
Proof.
  unfold parse, delete_meta_sql. rewrite lex_lexs. repeat lex_step. cbn [oapp app]. reflexivity.
Qed.

Lemma parse_insert_meta n : parse (insert_meta_sql (quote n)) = Some (InsertInto (until_nul n) smeta_names 4).
Proof.
  unfold parse, insert_meta_sql. rewrite lex_lexs. repeat lex_step. cbn [oapp app]. reflexivity.
Qed.

Lemma parse_create_index i n c :
  parse (create_index_sql (quote i) (quote n) (quote c)) = Some (CreateIndex (until_nul i) (until_nul n) (until_nul c)).
Proof.
  unfold parse, create_index_sql. rewrite lex_lexs. repeat lex_step. cbn [oapp app]. reflexivity.
Qed.

Lemma parse_count n : parse (count_sql (quote n)) = Some (CountRows (until_nul n)).
Proof.
  unfold parse, count_sql. rewrite lex_lexs. repeat lex_step. cbn [oapp app]. reflexivity.
Qed.

Lemma parse_match n : parse (match_sql (quote n)) = Some (SelectMatch (lit "__offset") (until_nul n) (until_nul n)).
Proof.
  unfold parse, match_sql. rewrite lex_lexs. repeat lex_step. cbn [oapp app]. reflexivity.
Qed.

(** *** Texts with lists *)

Definition blob_col (p : bytes * bytes) : coldef := mkCol (until_nul (fst p)) (lit "BLOB") false (snd p).
Definition blob_def (p : bytes * bytes) : bytes := quote (fst p) ++ lit " BLOB COLLATE " ++ snd p.

Lemma omap_map {A B C} (f : B -> option C) (g : A -> B) (h : A -> C) l :
  (forall x, f (g x) = Some (h x)) -> omap f (map g l) = Some (map h l).
Proof. intros H. induction l as [|x l IH]; cbn [map omap]; [reflexivity|]. now rewrite H, IH. Qed.

Lemma map_ne {A B} (f : A -> B) l : l <> [] -> map f l <> [].
Proof. destruct l; [contradiction|discriminate]. Qed.

Lemma commas_cons x l : l <> [] -> commas (x :: l) = x ++ TSym p_comma :: commas l.
Proof. destruct l; [contradiction|reflexivity]. Qed.

Lemma lex_create_rows n (ps : list (bytes * bytes)) : Forall (fun p => word (snd p)) ps ->
  lex (create_rows_sql (quote n) (map blob_def ps)) =
  Some ([TWord (lit "CREATE"); TWord (lit "TABLE"); TQuoted (until_nul n); TSym p_open;
         TQuoted (lit "offset"); TWord (lit "INTEGER"); TWord (lit "NOT"); TWord (lit "NULL"); TSym p_comma]
        ++ commas (map (fun p => [TQuoted (until_nul (fst p)); TWord (lit "BLOB"); TWord (lit "COLLATE"); TWord (snd p)]) ps)
        ++ [TSym p_close; TSym p_semi]).
Proof.
  intros F. unfold create_rows_sql. rewrite lex_lexs. repeat lex_step.
  set (item := fun p : bytes * bytes => [TQuoted (until_nul (fst p)); TWord (lit "BLOB"); TWord (lit "COLLATE"); TWord (snd p)]).
  assert (E1 : map blob_def ps = map fst (map (fun p => (blob_def p, item p)) ps)) by (rewrite map_map; reflexivity).
  assert (E2 : map item ps = map snd (map (fun p => (blob_def p, item p)) ps)) by (rewrite map_map; reflexivity).
  rewrite E1, E2. rewrite lexs_join; [|apply Forall_map|reflexivity|discriminate].
  2:{ cbn [fst snd]. apply Forall_forall. intros p Hp. rewrite Forall_forall in F. apply writes_definition, F, Hp. }
  repeat lex_step. cbn [oapp]. reflexivity.
Qed.

Lemma parse_create_rows n ps : ps <> [] -> Forall (fun p => word (snd p)) ps ->
  parse (create_rows_sql (quote n) (map blob_def ps)) =
  Some (CreateTable false (until_nul n) (int_col (lit "offset") :: map blob_col ps)).
Proof.
  intros N F. unfold parse. rewrite (lex_create_rows n ps F).
  set (item := fun p : bytes * bytes => [TQuoted (until_nul (fst p)); TWord (lit "BLOB"); TWord (lit "COLLATE"); TWord (snd p)]).
  cbn [app]. unfold p_stmt, first_of. cbn [skip_words is_word].
  change (name_eqb (lit "CREATE") (lit "CREATE")) with true.
  change (name_eqb (lit "TABLE") (lit "TABLE")) with true. cbv iota.
  unfold p_create_table, p_parens, skip_sym.
  change (is_sym p_open (TSym p_open)) with true. cbv iota.
  pose proof (p_items_commas
    ([TQuoted (lit "offset"); TWord (lit "INTEGER"); TWord (lit "NOT"); TWord (lit "NULL")] :: map item ps) [TSym p_semi]) as P.
  rewrite (commas_cons _ _ (map_ne item ps N)) in P. cbn [app] in P. rewrite P; clear P.
  - cbn [omap]. rewrite (omap_map p_coldef item blob_col ps).
    + reflexivity.
    + intros p. reflexivity.
  - discriminate.
  - constructor; [repeat constructor|]. apply Forall_map. apply Forall_forall. intros p _. repeat constructor.
Qed.

Lemma lex_create_rows_none n :
  parse (create_rows_sql (quote n) []) = None.
Proof.
  unfold parse. change (@nil bytes) with (map blob_def []). rewrite (lex_create_rows n [] (Forall_nil _)). reflexivity.
Qed.

Lemma lexs_names cs rest : no_word_start rest -> starts_not dquote rest ->
  lexs LBetween (join (lit ", ") (map quote cs) ++ rest)
  = oapp (commas (map (fun c => [TQuoted (until_nul c)]) cs)) (lexs LBetween rest).
Proof.
  intros H1 H2.
  pose proof (lexs_join (map (fun c => (quote c, [TQuoted (until_nul c)])) cs) rest) as P.
  rewrite !map_map in P. cbn [fst snd] in P. apply P; [|assumption|assumption].
  apply Forall_map, Forall_forall. intros c _. apply writes_quote.
Qed.

Lemma lexs_placeholders k rest : no_word_start rest -> starts_not dquote rest ->
  lexs LBetween (join (lit ", ") (placeholders k) ++ rest) = oapp (commas (repeat [TVar] k)) (lexs LBetween rest).
Proof.
  intros H1 H2.
  assert (E1 : placeholders k = map fst (repeat (lit "?", [TVar]) k)).
  { unfold placeholders. induction k as [|k IH]; cbn [repeat map fst]; [reflexivity|]. now rewrite <- IH. }
  assert (E2 : repeat [TVar] k = map snd (repeat (lit "?", [TVar]) k)).
  { clear E1. induction k as [|k IH]; cbn [repeat map snd]; [reflexivity|]. now rewrite <- IH. }
  rewrite E1, E2. apply lexs_join; [|assumption|assumption].
  apply Forall_forall. intros x Hx. apply repeat_spec in Hx as ->. apply writes_placeholder.
Qed.

Ltac plain_consts P :=
  cbv delta [p_close p_semi p_open p_comma] in P;
  repeat match type of P with context [lit ?s] => let x := eval vm_compute in (lit s) in
    match x with _ :: _ => change (lit s) with x in P end end.

(** The INSERT of both kinds of index: the first column is a literal. *)
Definition insert_text (first : string) (tid : bytes) (cols : list bytes) : bytes :=
  lit "INSERT INTO " ++ tid ++ lit (" ( """ ++ first ++ """, ")%string ++ join (lit ", ") cols
    ++ lit " ) VALUES (?, " ++ join (lit ", ") (placeholders (List.length cols)) ++ lit ");".

Lemma parse_insert_text (first : string) n cs : cs <> [] ->
  lex_run LBetween (lit (" ( """ ++ first ++ """, ")%string) = Some ([TSym p_open; TQuoted (lit first); TSym p_comma], LBetween) ->
  parse (insert_text first (quote n) (map quote cs)) =
  Some (InsertInto (until_nul n) (lit first :: map until_nul cs) (S (List.length cs))).
Proof.
  intros N Hf. unfold parse, insert_text. rewrite lex_lexs. rewrite map_length. lex_step.
  rewrite lexs_quote by (vm_compute; discriminate).
  rewrite (lexs_const _ _ _ Hf).
  rewrite lexs_names by (reflexivity || discriminate). lex_step.
  rewrite lexs_placeholders by (reflexivity || discriminate).
  repeat lex_step. cbn [oapp app]. unfold p_stmt, first_of. cbn [skip_words is_word].
  change (name_eqb (lit "INSERT") (lit "CREATE")) with false.
  repeat match goal with |- context [name_eqb ?a ?b] =>
    let x := eval vm_compute in (name_eqb a b) in
    match x with true => replace (name_eqb a b) with true by reflexivity | false => replace (name_eqb a b) with false by reflexivity end end.
  cbv iota. unfold p_insert, p_parens. cbn [skip_sym]. 
  change (is_sym p_open (TSym p_open)) with true. cbv iota.
  pose proof (p_items_commas ([TQuoted (lit first)] :: map (fun c => [TQuoted (until_nul c)]) cs)
    ([TWord (lit "VALUES"); TSym p_open; TVar; TSym p_comma] ++ commas (repeat [TVar] (List.length cs)) ++ [TSym p_close; TSym p_semi])) as P.
  rewrite (commas_cons _ _ (map_ne _ cs N)) in P. cbn [app] in P.
  plain_consts P. cbv delta [p_close p_semi p_open p_comma]. rewrite P; clear P; [|discriminate|].
  2:{ constructor; [repeat constructor|]. apply Forall_map, Forall_forall. intros c _. repeat constructor. }
  cbn [omap p_name]. rewrite (omap_map p_name _ until_nul cs) by reflexivity.
  cbn [skip_words]. change (is_word "VALUES" (TWord ["V"%byte; "A"%byte; "L"%byte; "U"%byte; "E"%byte; "S"%byte])) with true. cbv iota.
  cbn [skip_sym]. change (is_sym "(" (TSym "(")) with true. cbv iota.
  pose proof (p_items_commas ([TVar] :: repeat [TVar] (List.length cs)) [TSym p_semi]) as P.
  assert (N' : repeat [TVar] (List.length cs) <> []) by (destruct cs; [contradiction|discriminate]).
  rewrite (commas_cons _ _ N') in P. cbn [app] in P. plain_consts P. rewrite P; clear P; [|discriminate|].
  2:{ constructor; [repeat constructor|]. apply Forall_forall. intros c Hc. apply repeat_spec in Hc as ->. repeat constructor. }
  cbn [omap p_var].
  assert (E : omap p_var (repeat [TVar] (List.length cs)) = Some (repeat tt (List.length cs))).
  { clear. induction (List.length cs) as [|k IH]; cbn [repeat omap p_var]; [reflexivity|]. now rewrite IH. }
  rewrite E. cbn [p_end]. change (is_sym p_semi (TSym ";")) with true. try change (is_sym ";" (TSym ";")) with true. cbv iota.
  cbn [List.length]. now rewrite repeat_length.
Qed.

Lemma parse_insert_rows n cs : cs <> [] ->
  parse (insert_rows_sql (quote n) (map quote cs)) =
  Some (InsertInto (until_nul n) (lit "offset" :: map until_nul cs) (S (List.length cs))).
Proof. intros N. apply (parse_insert_text "offset" n cs N). vm_compute. reflexivity. Qed.

Lemma parse_insert_fts n cs : cs <> [] ->
  parse (insert_fts_sql (quote n) (map quote cs)) =
  Some (InsertInto (until_nul n) (lit "__offset" :: map until_nul cs) (S (List.length cs))).
Proof. intros N. apply (parse_insert_text "__offset" n cs N). vm_compute. reflexivity. Qed.

(** *** WHERE *)

Fixpoint ands (cs : list bytes) : list tok :=
  match cs with
  | [] => []
  | [c] => [TQuoted (until_nul c); TSym p_eq; TVar]
  | c :: cs' => [TQuoted (until_nul c); TSym p_eq; TVar; TWord (lit "AND")] ++ ands cs'
  end.

Lemma lexs_ands cs rest : 
  lexs LBetween (join (lit " AND ") (map (fun c => quote c ++ lit " = ?") cs) ++ rest) = oapp (ands cs) (lexs LBetween rest).
Proof.
  induction cs as [|c cs IH]; cbn [map join ands].
  - cbn [app]. destruct (lexs LBetween rest); reflexivity.
  - destruct cs as [|c' cs].
    + cbn [map join]. rewrite <- !app_assoc. repeat lex_step. rewrite !oapp_oapp. reflexivity.
    + cbn [map] in *. rewrite <- !app_assoc. repeat lex_step. cbn [map join] in *. rewrite IH, !oapp_oapp. reflexivity.
Qed.

Lemma p_eqs_ands cs : forall fuel, cs <> [] -> (List.length cs <= fuel)%nat ->
  p_eqs fuel (ands cs ++ [TSym p_semi]) = Some (map until_nul cs).
Proof.
  induction cs as [|c cs IH]; intros fuel N H; [contradiction|].
  destruct fuel as [|fuel]; [cbn in H; lia|].
  destruct cs as [|c' cs].
  - reflexivity.
  - cbn [ands]. rewrite <- app_assoc. cbn [app p_eqs].
    change (is_sym p_eq (TSym p_eq)) with true. cbv iota.
    cbn [skip_words]. change (is_word "AND" (TWord (lit "AND"))) with true. cbv iota.
    rewrite IH; [destruct cs; reflexivity|discriminate|cbn in *; lia].
Qed.

Lemma ands_length cs : (List.length cs <= List.length (ands cs))%nat.
Proof.
  induction cs as [|c cs IH]; [cbn; lia|]. destruct cs as [|c' cs].
  - cbn [ands List.length]. lia.
  - cbn [ands]. rewrite app_length. cbn [List.length ands] in *. lia.
Qed.

Lemma parse_positions n cs : cs <> [] ->
  parse (positions_sql (quote n) (map (fun c => quote c ++ lit " = ?") cs)) =
  Some (Select [lit "offset"] (until_nul n) (map until_nul cs)).
Proof.
  intros N. unfold parse, positions_sql. rewrite lex_lexs. repeat lex_step. rewrite lexs_ands.
  repeat lex_step. cbn [oapp app]. 
  destruct cs as [|c cs]; [contradiction|].
  pose proof (p_eqs_ands (c :: cs) (List.length (ands (c :: cs) ++ [TSym p_semi])) N) as P.
  rewrite app_length in P. specialize (P ltac:(pose proof (ands_length (c :: cs)); lia)).
  rewrite <- app_length in P.
  assert (E : exists l, ands (c :: cs) = TQuoted (until_nul c) :: TSym p_eq :: TVar :: l)
    by (destruct cs; [exists []|eexists]; reflexivity).
  destruct E as [l E]. rewrite E in *. cbn [app] in *.
  unfold p_stmt, first_of. cbn [skip_words is_word].
  repeat match goal with |- context [name_eqb ?a ?b] =>
    let x := eval vm_compute in (name_eqb a b) in
    match x with true => replace (name_eqb a b) with true by reflexivity | false => replace (name_eqb a b) with false by reflexivity end end.
  cbv iota. unfold p_select, p_cols. cbn [is_word]. 
  repeat match goal with |- context [name_eqb ?a ?b] =>
    let x := eval vm_compute in (name_eqb a b) in
    match x with true => replace (name_eqb a b) with true by reflexivity | false => replace (name_eqb a b) with false by reflexivity end end.
  cbv iota. cbn [p_end skip_words is_word]. 
  repeat match goal with |- context [name_eqb ?a ?b] =>
    let x := eval vm_compute in (name_eqb a b) in
    match x with true => replace (name_eqb a b) with true by reflexivity | false => replace (name_eqb a b) with false by reflexivity end end.
  cbv iota. change (TSym ";") with (TSym p_semi). rewrite P. reflexivity.
Qed.

(** *** Full-text tables *)

(** A prefix list holds no quote. *)
Definition digits (s : bytes) : Prop := Forall (fun c => beqb c squote = false /\ code c <> 0) s.

Lemma lex_run_string s : forall acc, digits s ->
  lex_run (LQuote squote acc) s = Some ([], LQuote squote (acc ++ s)).
Proof.
  induction s as [|c s IH]; intros acc H; cbn [lex_run].
  - now rewrite app_nil_r.
  - inversion H as [|? ? [H1 H2] H3]; subst. cbn [lex_byte]. destruct (Z.eqb_spec (code c) 0); [contradiction|].
    rewrite H1, (IH _ H3). cbn. now rewrite <- app_assoc.
Qed.

Lemma p_fts_columns (cs : list bytes) p t :
  p_fts (map (fun c => [TQuoted (until_nul c)]) cs
         ++ [[TWord (lit "prefix"); TSym p_eq; TString p]; [TWord (lit "tokenize"); TSym p_eq; TQuoted t]])
  = Some (map until_nul cs, p, t).
Proof.
  induction cs as [|c cs IH]; [reflexivity|]. cbn [map app p_fts]. rewrite IH. reflexivity.
Qed.

Lemma commas_app a b : a <> [] -> b <> [] -> commas (a ++ b) = commas a ++ TSym p_comma :: commas b.
Proof.
  intros Ha Hb. induction a as [|x a IH]; [contradiction|]. destruct a as [|y a].
  - cbn [app]. now rewrite commas_cons by assumption.
  - cbn [app]. rewrite (commas_cons x) by discriminate. cbn [app] in IH. rewrite IH by discriminate.
    rewrite (commas_cons x) by discriminate. rewrite <- app_assoc. reflexivity.
Qed.

Lemma parse_create_fts n cs p t : cs <> [] -> digits p ->
  parse (create_fts_sql (quote n) (map quote cs) p (quote t)) =
  Some (CreateFts (until_nul n) (lit "__offset" :: map until_nul cs) p (until_nul t)).
Proof.
  intros N Hp. unfold parse, create_fts_sql. rewrite lex_lexs. lex_step.
  rewrite lexs_quote by (vm_compute; discriminate). lex_step.
  rewrite lexs_names by (reflexivity || discriminate).
  rewrite (lexs_run (lit ", prefix = '") LBetween [TSym p_comma; TWord (lit "prefix"); TSym p_eq] (LQuote squote []))
    by (vm_compute; reflexivity).
  rewrite (lexs_run _ _ _ _ _ (lex_run_string p [] Hp)). cbn [app].
  rewrite (lexs_run (lit "', tokenize = ") (LQuote squote p) [TString p; TSym p_comma; TWord (lit "tokenize"); TSym p_eq] LBetween)
    by reflexivity.
  repeat lex_step. cbn [oapp app].
  unfold p_stmt, first_of. cbn [skip_words is_word].
  repeat match goal with |- context [name_eqb ?a ?b] =>
    let x := eval vm_compute in (name_eqb a b) in
    match x with true => replace (name_eqb a b) with true by reflexivity | false => replace (name_eqb a b) with false by reflexivity end end.
  cbv iota. unfold p_create_fts. cbn [skip_words is_word].
  repeat match goal with |- context [name_eqb ?a ?b] =>
    let x := eval vm_compute in (name_eqb a b) in
    match x with true => replace (name_eqb a b) with true by reflexivity | false => replace (name_eqb a b) with false by reflexivity end end.
  cbv iota. unfold p_parens. cbn [skip_sym]. change (is_sym p_open (TSym "(")) with true. cbv iota.
  set (item := fun c : bytes => [TQuoted (until_nul c)]).
  set (opts := [[TWord (lit "prefix"); TSym p_eq; TString p]; [TWord (lit "tokenize"); TSym p_eq; TQuoted (until_nul t)]]).
  pose proof (p_items_commas ([TQuoted (lit "__offset"); TWord (lit "UNINDEXED")] :: map item cs ++ opts) [TSym p_semi]) as P.
  rewrite commas_cons in P by (destruct cs; discriminate).
  rewrite commas_app in P by (try apply map_ne; assumption || discriminate).
  rewrite <- app_assoc in P.
  match goal with |- match p_items [] ?l with _ => _ end = _ => replace (p_items [] l) with
    (Some ([TQuoted (lit "__offset"); TWord (lit "UNINDEXED")] :: map item cs ++ opts, [TSym p_semi])) end.
  - assert (E : forall x, p_fts ([TQuoted (lit "__offset"); TWord (lit "UNINDEXED")] :: x) =
      match p_fts x with Some (l, a, b) => Some (lit "__offset" :: l, a, b) | None => None end) by reflexivity.
    rewrite E. unfold item, opts. rewrite (p_fts_columns cs p (until_nul t)). reflexivity.
  - rewrite <- P.
    + cbn [app]. repeat rewrite <- app_assoc. reflexivity.
    + discriminate.
    + constructor; [repeat constructor|]. apply Forall_app. split; [|repeat constructor].
      apply Forall_map, Forall_forall. intros c _. repeat constructor.
Qed.

(** *** Quoting in any text *)
Lemma lex_quote_text n rest ts : no_nul n -> starts_not dquote rest -> lex rest = Some ts ->
  lex (quote n ++ rest) = Some (TQuoted n :: ts).
Proof.
  intros Hn Hr H. rewrite lex_lexs, lexs_quote by assumption. rewrite lex_lexs in H. rewrite H.
  cbn [oapp app]. now rewrite until_nul_id.
Qed.

Lemma parse_create_fts_none n p t : digits p ->
  parse (create_fts_sql (quote n) [] p (quote t)) = None.
Proof.
  intros Hp. unfold parse, create_fts_sql. rewrite lex_lexs. lex_step.
  rewrite lexs_quote by (vm_compute; discriminate). lex_step. cbn [join app].
  rewrite (lexs_run (lit ", prefix = '") LBetween [TSym p_comma; TWord (lit "prefix"); TSym p_eq] (LQuote squote []))
    by (vm_compute; reflexivity).
  rewrite (lexs_run _ _ _ _ _ (lex_run_string p [] Hp)). cbn [app].
  rewrite (lexs_run (lit "', tokenize = ") (LQuote squote p) [TString p; TSym p_comma; TWord (lit "tokenize"); TSym p_eq] LBetween)
    by reflexivity.
  repeat lex_step. cbn [oapp app]. reflexivity.
Qed.
