(** Iteration and reads by position of a JSON file. *)
From Coq Require Import String List ZArith Lia Bool Arith Sorted.
From Coq Require Import Strings.Byte.
From Coq Require Import ZifyBool.
From Verif Require Import Base Codec Value GoStrings Records SpecJson SpecIndex SpecOutput Prog ProgFacts JsonReader SpecJsonFile JsonReaderFacts JsonReaderFacts2.
Import ListNotations.
Open Scope Z_scope.

Lemma spaces_split l : exists ws l1, l = ws ++ l1 /\ forallb is_ws ws = true /\ spaces l = length ws /\ skipn (spaces l) l = l1 /\ match l1 with [] => True | c :: _ => is_space c = false end.
Proof.
  induction l as [|c l (ws & l1 & E & Hw & Hs & Hk & Hc)]; [exists [], []; repeat split|]. cbn [spaces]. destruct (is_space c) eqn:Es.
  - exists (c :: ws), l1. cbn [app forallb length skipn]. rewrite is_ws_space, Es. repeat split; try assumption; congruence.
  - exists [], (c :: l). repeat split. exact Es.
Qed.

Lemma spaces_of ws l1 : forallb is_ws ws = true -> match l1 with [] => True | c :: _ => is_space c = false end ->
  spaces (ws ++ l1) = length ws /\ skipn (spaces (ws ++ l1)) (ws ++ l1) = l1.
Proof.
  intros Hw Hc. induction ws as [|w ws IH]; cbn [app].
  - destruct l1 as [|c l1]; [split; reflexivity|]. cbn [spaces]. rewrite Hc. split; reflexivity.
  - cbn [forallb] in Hw. apply andb_true_iff in Hw as [H1 H2]. rewrite is_ws_space in H1. cbn [spaces]. rewrite H1. cbn [length skipn].
    destruct (IH H2) as [E1 E2]. split; [congruence|exact E2].
Qed.

Lemma read_value_bounds c l t : is_space c = false -> read_value (c :: l) = Ok t -> t <> [] /\ exists u, c :: l = t ++ u.
Proof.
  intros Hc. unfold read_value. destruct (scan s_reset (c :: l) 0) as [s|n|] eqn:E; [|intros H; injection H as <-|discriminate].
  - intros H. assert (t = c :: l) as ->.
    { unfold at_eof in H. destruct (snd (s_step s x20)); try (destruct (forallb is_space (c :: l)); discriminate H). injection H as <-. reflexivity. }
    split; [discriminate|]. exists []. symmetry. apply app_nil_r.
  - assert (Hn : (0 < n)%nat).
    { cbn [scan] in E. destruct (s_step s_reset c) as [s' op] eqn:Es. destruct op; try discriminate E; try (apply scan_bounds in E; lia).
      - destruct (sc_stack s'); [injection E as <-|apply scan_bounds in E]; lia.
      - destruct (sc_stack s'); [injection E as <-|apply scan_bounds in E]; lia.
      - exfalso. clear E. destruct c; vm_compute in Es; discriminate Es. }
    split; [destruct n; [lia|discriminate]|]. exists (skipn n (c :: l)). symmetry. apply firstn_skipn.
Qed.

Lemma read_value_not_eof c l : is_space c = false -> read_value (c :: l) <> Err EEof.
Proof.
  intros Hc. unfold read_value. destruct (scan s_reset (c :: l) 0); try discriminate. unfold at_eof. cbn [forallb]. rewrite Hc. cbn [andb].
  destruct (snd (s_step s x20)); discriminate.
Qed.
Lemma read_value_err l : match read_value l with Panic | NoFuel => False | _ => True end.
Proof.
  unfold read_value, at_eof. destruct (scan s_reset l 0); try exact I. destruct (snd (s_step s x20)); try exact I; destruct (forallb is_space l); exact I.
Qed.

Lemma skipn_skipn' {A} (a b : nat) (l : list A) : skipn a (skipn b l) = skipn (b + a) l.
Proof. revert l. induction b as [|b IH]; intros l; [reflexivity|]. destruct l as [|x l]; [destruct a; reflexivity|]. cbn. apply IH. Qed.

Section File.
Variable file : bytes.
Variable unmarshal : bytes -> res (list (bytes * value)).
Notation from p := (skipn (Z.to_nat p) file).

Definition next_of (fuel : nat) (position : Z) (l1 : bytes) : list (res (Z * list (bytes * value))) :=
  match read_value l1 with
  | Ok text =>
    match unmarshal text with
    | Ok data => Ok (position, data) :: json_iterate file unmarshal fuel (position + zlen text)
    | Err e => [Err e] | Panic => [Panic] | NoFuel => [NoFuel]
    end
  | Err EEof => []
  | Err e => [Err e] | Panic => [Panic] | NoFuel => [NoFuel]
  end.
(** One step of the iteration. *)
Lemma iterate_unfold fuel pos : 0 <= pos ->
  exists ws l1, from pos = ws ++ l1 /\ forallb is_ws ws = true /\ from (pos + zlen ws) = l1 /\ match l1 with [] => True | c :: _ => is_space c = false end /\
  json_iterate file unmarshal (S fuel) pos =
    match l1 with
    | [] => []
    | x5d :: _ | x7d :: _ => []
    | _ =>
      next_of fuel (pos + zlen ws) l1
    end.
Proof.
  intros Hp. destruct (spaces_split (from pos)) as (ws & l1 & E & Hw & Hs & Hk & Hc). exists ws, l1.
  split; [exact E|]. split; [exact Hw|]. split.
  { rewrite <- Hk, Hs, skipn_skipn'. f_equal. unfold zlen. lia. }
  split; [exact Hc|]. cbn [json_iterate]. cbv zeta. rewrite Hk, Hs. reflexivity.
Qed.

Definition stops (l : bytes) : Prop := match l with [] => True | c :: _ => c = x5d \/ c = x7d end.
Lemma stops_dec l : stops l \/ exists c l', l = c :: l' /\ c <> x5d /\ c <> x7d.
Proof.
  destruct l as [|c l]; [left; exact I|]. destruct (Byte.byte_eq_dec c x5d) as [->|H1]; [left; left; reflexivity|].
  destruct (Byte.byte_eq_dec c x7d) as [->|H2]; [left; right; reflexivity|]. right. exists c, l. auto.
Qed.

(** The three ways in which an iteration goes on. *)
Lemma iterate_cases fuel pos : 0 <= pos -> exists ws l1, from pos = ws ++ l1 /\ forallb is_ws ws = true /\ from (pos + zlen ws) = l1 /\
  (stops l1 /\ json_iterate file unmarshal (S fuel) pos = []
   \/ (~ stops l1 /\ exists text u data, l1 = text ++ u /\ text <> [] /\ read_value l1 = Ok text /\ unmarshal text = Ok data /\
        json_iterate file unmarshal (S fuel) pos = Ok (pos + zlen ws, data) :: json_iterate file unmarshal fuel (pos + zlen ws + zlen text))
   \/ ~ stops l1 /\ exists e, json_iterate file unmarshal (S fuel) pos = [e] /\ match e with Ok _ => False | Err _ => True | Panic => exists t, unmarshal t = Panic | NoFuel => exists t, unmarshal t = NoFuel end).
Proof.
  intros Hp. destruct (iterate_unfold fuel pos Hp) as (ws & l1 & E & Hw & Hk & Hc & Hu). exists ws, l1.
  split; [exact E|]. split; [exact Hw|]. split; [exact Hk|].
  destruct (stops_dec l1) as [Hst|(c & l' & -> & N1 & N2)].
  { left. split; [exact Hst|]. rewrite Hu. destruct l1 as [|c l1]; [reflexivity|]. destruct Hst as [->| ->]; reflexivity. }
  right. rewrite Hu. clear Hu.
  assert (Hb : forall body : list (res (Z * list (bytes * value))), match c with x5d | x7d => [] | _ => body end = body) by (intros; destruct c; try reflexivity; contradiction).
  rewrite Hb. clear Hb. unfold next_of.
  assert (Hns : ~ stops (c :: l')) by (intros [->| ->]; contradiction).
  destruct (read_value (c :: l')) as [text|e| |] eqn:Er.
  - destruct (read_value_bounds c l' text Hc Er) as (Hne & u & Eu). destruct (unmarshal text) as [data|e| |] eqn:Em.
    + left. split; [exact Hns|]. exists text, u, data. repeat split; assumption.
    + right. split; [exact Hns|]. exists (Err e). split; [reflexivity|exact I].
    + right. split; [exact Hns|]. exists Panic. split; [reflexivity|]. exists text. exact Em.
    + right. split; [exact Hns|]. exists NoFuel. split; [reflexivity|]. exists text. exact Em.
  - right. split; [exact Hns|]. exists (Err e). split; [|exact I]. destruct e; try reflexivity. destruct (read_value_not_eof c l' Hc Er).
  - pose proof (read_value_err (c :: l')) as H. rewrite Er in H. destruct H.
  - pose proof (read_value_err (c :: l')) as H. rewrite Er in H. destruct H.
Qed.

(** What Get gives, as a function of the position. *)
Definition got (position : Z) : res (list (bytes * value)) :=
  if position <? 0 then Err EIo
  else match read_value (from position) with
       | Ok text => unmarshal text
       | Err EEof => Err (EMsg "Cannot read json data: EOF")
       | Err e => Err e | Panic => Panic | NoFuel => NoFuel
       end.

Lemma iterate_reread : forall fuel pos p data, 0 <= pos -> In (Ok (p, data)) (json_iterate file unmarshal fuel pos) -> pos <= p /\ got p = Ok data.
Proof.
  induction fuel as [|fuel IH]; intros pos p data Hp Hin; [destruct Hin as [H|[]]; discriminate H|].
  destruct (iterate_cases fuel pos Hp) as (ws & l1 & E & Hw & Hk & [(Hst & Hit)|[(Hns & text & u & dt & El & Hne & Er & Em & Hit)|(Hns & e & Hit & He)]]);
    rewrite Hit in Hin; [destruct Hin| |].
  - assert (0 <= zlen ws) by (unfold zlen; lia). assert (0 <= zlen text) by (unfold zlen; lia). destruct Hin as [H1|Hin].
    + injection H1 as <- <-. split; [lia|]. unfold got. destruct (pos + zlen ws <? 0) eqn:Ep; [lia|]. rewrite Hk, Er. exact Em.
    + destruct (IH (pos + zlen ws + zlen text) p data) as [H1 H2]; [lia|exact Hin|]. split; [lia|exact H2].
  - destruct Hin as [H1|[]]. subst e. destruct He.
Qed.

Lemma from_length p : length (from p) = (length file - Z.to_nat p)%nat.
Proof. apply skipn_length. Qed.

Lemma iterate_increasing : forall fuel pos, 0 <= pos -> (length (from pos) < fuel)%nat ->
  Forall (fun r => match r with Ok (p, _) => pos <= p < zlen file | Err _ => True | Panic => exists t, unmarshal t = Panic | NoFuel => exists t, unmarshal t = NoFuel end) (json_iterate file unmarshal fuel pos) /\
  StronglySorted Z.lt (flat_map (fun r => match r with Ok (p, _) => [p] | _ => [] end) (json_iterate file unmarshal fuel pos)).
Proof.
  induction fuel as [|fuel IH]; intros pos Hp Hf; [lia|].
  destruct (iterate_cases fuel pos Hp) as (ws & l1 & E & Hw & Hk & [(Hst & Hit)|[(Hns & text & u & dt & El & Hne & Er & Em & Hit)|(Hns & e & Hit & He)]]); rewrite Hit.
  - split; [constructor|constructor].
  - assert (Ht : (0 < length text)%nat) by (destruct text; [contradiction|cbn; lia]).
    assert (Hl : (length (from pos) = length ws + length text + length u)%nat) by (rewrite E, El, !app_length; lia).
    rewrite from_length in Hl, Hf.
    destruct (IH (pos + zlen ws + zlen text)) as (IH1 & IH2); [unfold zlen; lia|rewrite from_length; unfold zlen; lia|].
    split.
    + constructor; [unfold zlen; lia|]. eapply Forall_impl; [|exact IH1]. intros [[p d]| | |]; cbn; try tauto. unfold zlen in *. lia.
    + cbn [flat_map app]. constructor; [exact IH2|]. apply Forall_forall. intros x Hx. apply in_flat_map in Hx as ([[p d]| | |] & Hi & Hx); try destruct Hx as [<-|[]]; try destruct Hx.
      rewrite Forall_forall in IH1. specialize (IH1 _ Hi). cbn in IH1. unfold zlen in *. lia.
  - destruct e as [|e| |]; [destruct He|..]; (split; [constructor; [exact He|constructor]|cbn; constructor]).
Qed.

(** Nothing is left out. *)
Lemma iterate_pieces : forall fuel pos rows, 0 <= pos -> json_iterate file unmarshal fuel pos = map Ok rows ->
  exists ps tail, pieces pos ps tail (from pos) /\ stops tail /\ Forall2 (fun pt (r : Z * list (bytes * value)) => fst pt = fst r /\ unmarshal (snd pt) = Ok (snd r)) ps rows.
Proof.
  induction fuel as [|fuel IH]; intros pos rows Hp H; [destruct rows; discriminate H|].
  destruct (iterate_cases fuel pos Hp) as (ws & l1 & E & Hw & Hk & [(Hst & Hit)|[(Hns & text & u & dt & El & Hne & Er & Em & Hit)|(Hns & e & Hit & He)]]); rewrite Hit in H.
  - destruct rows; [|discriminate]. exists [], l1. rewrite E. split; [constructor; exact Hw|]. split; [exact Hst|constructor].
  - destruct rows as [|r rows]; [discriminate|]. injection H as <- H.
    destruct (IH (pos + zlen ws + zlen text) rows) as (ps & tail & H1 & H2 & H3); [unfold zlen; lia|exact H|].
    exists ((pos + zlen ws, text) :: ps), tail. split.
    + rewrite E, El. constructor; [exact Hw|exact Hne|].
      replace u with (from (pos + zlen ws + zlen text)); [exact H1|].
      replace (Z.to_nat (pos + zlen ws + zlen text)) with (Z.to_nat (pos + zlen ws) + length text)%nat by (unfold zlen; lia).
      rewrite <- skipn_skipn', Hk, El, skipn_app, skipn_all, Nat.sub_diag. reflexivity.
    + split; [exact H2|]. constructor; [split; [reflexivity|exact Em]|exact H3].
  - destruct rows as [|r [|r' rows]]; try discriminate H. injection H as ->. destruct He.
Qed.

(** Documents are read. *)
Lemma iterate_documents : forall pos docs text, documents pos docs text -> forall fuel rows, 0 <= pos -> from pos = text -> (length text < fuel)%nat ->
  Forall2 (fun pt (r : Z * list (bytes * value)) => fst pt = fst r /\ unmarshal (snd pt) = Ok (snd r)) docs rows ->
  json_iterate file unmarshal fuel pos = map Ok rows.
Proof.
  induction 1 as [pos ws Hw|pos ws t docs text Hw Hd Hdocs IH]; intros fuel rows Hp Hfrom Hf Hrows; (destruct fuel as [|fuel]; [lia|]).
  - destruct rows as [|? ?]; [|inversion Hrows]. cbn [json_iterate map]. cbv zeta. rewrite Hfrom.
    destruct (spaces_of ws [] Hw I) as (E1 & E2). rewrite app_nil_r in E1, E2. rewrite E2. reflexivity.
  - inversion Hrows as [|d [p data] ds rows' [Hp1 Hd1] Hrows' Ex Ey]. subst d ds rows. cbn [fst snd] in Hp1, Hd1. subst p.
    cbn [json_iterate map]. cbv zeta. rewrite Hfrom.
    destruct Hd as (fl & m & r & Ed & Hj & Hdep).
    destruct (spaces_of ws (t ++ text) Hw) as (E1 & E2); [rewrite Ed; reflexivity|]. rewrite E2, E1.
    assert (Hrd : read_value (t ++ text) = Ok t) by (apply document_read; exists fl, m, r; auto).
    rewrite Hrd. rewrite Ed at 1. cbn [app]. rewrite Hd1. f_equal.
    assert (Hlen : (length (ws ++ t ++ text) = length ws + length t + length text)%nat) by (rewrite !app_length; lia).
    assert (Ht : (0 < length t)%nat) by (rewrite Ed; cbn; lia).
    apply IH; [unfold zlen; lia| |lia|exact Hrows'].
    replace (Z.to_nat (pos + zlen ws + zlen t)) with (Z.to_nat pos + (length ws + length t))%nat by (unfold zlen; lia).
    rewrite <- skipn_skipn', Hfrom, <- skipn_skipn', skipn_app, skipn_all, Nat.sub_diag. cbn [skipn app].
    rewrite skipn_app, skipn_all, Nat.sub_diag. reflexivity.
Qed.

(** *** Get *)
Variable chunk : nat -> nat.
Lemma load_exec : forall fuel s buf f, 0 <= j_off f -> (length (from (j_off f)) < fuel)%nat ->
  fst (exec (j_load file chunk fuel s buf) f) =
    match scan s (from (j_off f)) (length buf) with
    | ValueOf n => Ok (firstn n (buf ++ from (j_off f)))
    | Bad => Err syntax_error
    | More s' => at_eof s' (buf ++ from (j_off f))
    end.
Proof.
  induction fuel as [|fuel IH]; intros s buf f Hf Hl; [lia|].
  cbn [j_load bind get modify exec]. unfold j_read.
  set (rest := from (j_off f)) in *. set (got' := firstn (S (chunk (j_reads f))) rest).
  assert (Hsplit : rest = got' ++ skipn (length got') rest).
  { rewrite <- (firstn_skipn (S (chunk (j_reads f))) rest) at 1. fold got'. f_equal.
    unfold got'. rewrite firstn_length. destruct (Nat.min_dec (S (chunk (j_reads f))) (length rest)) as [E|E]; rewrite E; [reflexivity|].
    rewrite !skipn_all2; [reflexivity|lia|lia]. }
  assert (Hgot : got' = [] -> rest = []) by (unfold got'; destruct rest; [reflexivity|discriminate]).
  destruct got' as [|c0 g0] eqn:Eg.
  - rewrite (Hgot eq_refl). cbn [exec fst scan]. rewrite app_nil_r. reflexivity.
  - rewrite <- Eg in *. clear Hgot.
    assert (Hs : scan s rest (length buf) = match scan s got' (length buf) with More s' => scan s' (skipn (length got') rest) (length buf + length got') | r => r end).
    { rewrite Hsplit at 1. apply scan_app. }
    rewrite Hs. destruct (scan s got' (length buf)) as [s'|n|] eqn:Es.
    + rewrite IH.
      * cbn [j_advance j_off]. unfold j_read. fold rest. change (firstn (S (chunk (j_reads f))) rest) with got'.
        assert (En : from (j_off f + zlen got') = skipn (length got') rest).
        { unfold rest. rewrite skipn_skipn'. f_equal. unfold zlen. lia. }
        rewrite En, app_length, <- app_assoc, <- Hsplit. reflexivity.
      * cbn [j_advance j_off]. unfold j_read. fold rest. unfold zlen. lia.
      * cbn [j_advance j_off]. unfold j_read. fold rest. change (firstn (S (chunk (j_reads f))) rest) with got'.
        assert (Hle : (length got' + length (skipn (length got') rest) = length rest)%nat) by (rewrite <- app_length, <- Hsplit; reflexivity).
        assert (Hpos : (0 < length got')%nat) by (rewrite Eg; cbn; lia).
        replace (Z.to_nat (j_off f + zlen got')) with (Z.to_nat (j_off f) + length got')%nat by (unfold zlen; lia).
        rewrite <- skipn_skipn'. fold rest. lia.
    + cbn [exec fst]. apply scan_bounds in Es. f_equal.
      transitivity (firstn n ((buf ++ got') ++ skipn (length got') rest)).
      * rewrite (firstn_app n (buf ++ got') (skipn (length got') rest)). replace (n - length (buf ++ got'))%nat with O by (rewrite app_length; lia). cbn [firstn]. rewrite app_nil_r. reflexivity.
      * rewrite <- app_assoc, <- Hsplit. reflexivity.
    + reflexivity.
Qed.

Lemma get_exec position f : fst (exec (json_get_at file unmarshal chunk position) f) = got position.
Proof.
  unfold json_get_at, got. destruct (position <? 0) eqn:E; [reflexivity|]. cbn [bind modify exec].
  assert (Hb : forall A B C (p : prog A B) (k : B -> prog A C) s, fst (exec (bind p k) s) = fst (exec (k (fst (exec p s))) (snd (exec p s)))).
  { clear. intros A B C p k. induction p as [a|f k' IH]; intros s; [reflexivity|]. cbn [bind exec]. apply IH. }
  rewrite Hb. clear Hb. rewrite load_exec; cbn [j_off].
  - unfold read_value. cbn [length app]. destruct (scan s_reset (from position) 0) as [s'|n|]; cbn; [|reflexivity|reflexivity].
    destruct (at_eof s' (from position)) as [t|[]| |]; reflexivity.
  - lia.
  - rewrite from_length. lia.
Qed.
End File.

Lemma json_reread file unmarshal chunk f p data : In (Ok (p, data)) (json_iterate_all file unmarshal) ->
  fst (exec (json_get_at file unmarshal chunk p) f) = Ok data.
Proof. intros H. rewrite get_exec. apply (iterate_reread file unmarshal (S (length file)) 0 p data); [lia|exact H]. Qed.

Lemma json_increasing file unmarshal : (forall t, match unmarshal t with Panic | NoFuel => False | _ => True end) ->
  Forall (fun r => match r with Ok (p, _) => 0 <= p < zlen file | Err _ => True | _ => False end) (json_iterate_all file unmarshal) /\
  StronglySorted Z.lt (flat_map (fun r => match r with Ok (p, _) => [p] | _ => [] end) (json_iterate_all file unmarshal)).
Proof.
  intros H. destruct (iterate_increasing file unmarshal (S (length file)) 0) as (H1 & H2); [lia|rewrite skipn_length; lia|].
  split; [|exact H2]. eapply Forall_impl; [|exact H1]. intros [[p d]| | |] Hr; try exact Hr; destruct Hr as (t & Ht); specialize (H t); rewrite Ht in H; exact H.
Qed.

Lemma json_documents file unmarshal docs rows : documents 0 docs file ->
  Forall2 (fun pt (r : Z * list (bytes * value)) => fst pt = fst r /\ unmarshal (snd pt) = Ok (snd r)) docs rows ->
  json_iterate_all file unmarshal = map Ok rows.
Proof. intros H1 H2. eapply iterate_documents; [exact H1|lia|reflexivity|lia|exact H2]. Qed.

Lemma json_pieces file unmarshal rows : json_iterate_all file unmarshal = map Ok rows ->
  exists ps tail, pieces 0 ps tail file /\ (tail = [] \/ exists r, tail = x5d :: r \/ tail = x7d :: r) /\
    Forall2 (fun pt (r : Z * list (bytes * value)) => fst pt = fst r /\ unmarshal (snd pt) = Ok (snd r)) ps rows.
Proof.
  intros H. destruct (iterate_pieces file unmarshal _ 0 rows ltac:(lia) H) as (ps & tail & H1 & H2 & H3).
  exists ps, tail. split; [exact H1|]. split; [|exact H3]. destruct tail as [|c r]; [left; reflexivity|]. right. exists r. destruct H2 as [->| ->]; tauto.
Qed.

Lemma json_input_ok name file mtime unmarshal chunk s rs :
  in_iter (json_input name file mtime unmarshal chunk s) = map Ok rs ->
  input_ok (json_input name file mtime unmarshal chunk s) rs.
Proof.
  intros E. split; [exact E|]. cbn [json_input in_iter in_get] in *.
  assert (Hs : StronglySorted Z.lt (flat_map (fun r : res (Z * list (bytes * value)) => match r with Ok (p, _) => [p] | _ => [] end) (json_iterate_all file unmarshal))).
  { apply (iterate_increasing file unmarshal (S (length file)) 0); [lia|rewrite skipn_length; lia]. }
  split.
  - unfold in_file_order. replace (map r_pos rs) with (flat_map (fun r : res (Z * list (bytes * value)) => match r with Ok (p, _) => [p] | _ => [] end) (json_iterate_all file unmarshal)); [exact Hs|].
    clear -E. revert rs E. induction (json_iterate_all file unmarshal) as [|[[p row]| | |] its IH]; intros [|r rs] E; cbn in *; try discriminate; [reflexivity|].
    injection E as <- E. cbn. f_equal. apply IH. exact E.
  - intros r Hi. assert (Hi' : In (Ok r) (map Ok rs)) by (apply in_map; exact Hi).
    rewrite <- E in Hi'. apply in_map_iff in Hi' as ([[p row]| | |] & E' & Hi'); cbn in E'; try discriminate. injection E' as <-.
    cbn [json_record r_pos]. rewrite (json_reread file unmarshal chunk s p row Hi'). reflexivity.
Qed.

Section Conc.
Variable file : bytes.
Variable unmarshal : bytes -> res (list (bytes * value)).
Variable chunk : nat -> nat.
Notation body := (json_get_at file unmarshal chunk).
Notation alone p := (fst (exec (body p) (mkJfile 0 0))).

Lemma body_ok : forall q s, True -> fst (exec (body q) s) = alone q /\ True.
Proof. intros q s _. rewrite !get_exec. auto. Qed.

Lemma json_concurrent_answers s qss c : steps _ _ _ body (start _ _ _ s qss) c ->
  Forall (fun t => Forall (fun qa => snd qa = alone (fst qa)) (answers_of _ _ _ t)) (c_threads _ _ _ c).
Proof. intros Hs. exact (start_answers _ _ _ body (fun _ => True) (fun p => alone p) body_ok s qss c I Hs). Qed.
Lemma json_concurrent_end s qss c : steps _ _ _ body (start _ _ _ s qss) c -> (forall c', ~ step _ _ _ body c c') ->
  c_threads _ _ _ c = map (fun qs => Idle [] (map (fun p => (p, alone p)) qs)) qss.
Proof. intros Hs. exact (start_finished _ _ _ body (fun _ => True) (fun p => alone p) body_ok s qss c I Hs). Qed.
Lemma json_concurrent_acc s qss : Acc (fun c' c => step _ _ _ body c c') (start _ _ _ s qss).
Proof. exact (start_acc _ _ _ body (fun _ => True) (fun p => alone p) body_ok s qss I). Qed.
End Conc.
