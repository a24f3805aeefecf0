(** A program that has started: no input, index or parser stops it. *)
From Coq Require Import List ZArith Lia Bool String Permutation.
From Coq Require Import Strings.Byte.
From Verif Require Import Sql SqlIndex SpecSql SpecSqlFind SqlFindFacts.
From Verif Require Import XmlStream XmlInput XmlReadFacts.
From Verif Require Import Base BaseFacts Codec Value GoStrings Parser ParserFacts FloatText FloatTextFacts FloatTextFacts2 JsonDecode JsonDecodeFacts7 JsonDecodeFacts8 JsonReaderFacts3 Records SpecRecords RecordsFacts.
From Verif Require Import SpecText Prog Bufio CsvReader SpecCsv BufioFacts CsvFacts CsvFacts2 JsonReader.
From Verif Require Import Stream Wildcard SpecWildcard WildcardFacts7 WildcardFacts8.
From Verif Require Import FloatFormat FloatFormatFacts6 Join JoinFacts Index SpecIndex Output SpecOutput OutputFacts6 Json Http SpecHttp HttpFacts SpecJson SpecJsonDecode Regex Route SpecRoute RouteFacts4.
From Verif Require Import Config SpecConfig ConfigFacts ConfigFacts2 ConfigFacts4 Start StartFacts System SpecSystem SystemFacts SpecRobust.
Import ListNotations.
Open Scope Z_scope.

Lemma fine_returns {A} (r : res A) : r <> Panic /\ r <> NoFuel <-> SpecOutput.returns r.
Proof. destruct r; cbn; split; try (intros [? ?]; congruence); try contradiction; try exact (fun _ => I); intros _; split; discriminate. Qed.

Lemma mget_fst {A B} (l : list (bytes * A)) (m : list (bytes * B)) n b : map fst m = map fst l -> mget m n = Some b -> exists a, mget l n = Some a.
Proof.
  intros E H. destruct (mget l n) as [a|] eqn:Ea; [eauto|]. apply mget_None in Ea. exfalso. apply Ea. rewrite <- E. apply mget_In in H. exact (in_map fst _ _ H).
Qed.

(** *** Parsers *)
Section Parsers.
Variable decode_charset : bytes -> bytes -> res bytes.
Variable regexp_split : bytes -> bytes -> list bytes.
Hypothesis Hcs : forall c s, SpecOutput.returns (decode_charset c s).
Notation prs := (parse go_parse_float go_unmarshal decode_charset regexp_split).

Lemma rmapM_returns {A B} (f : A -> res B) l : (forall x, SpecOutput.returns (f x)) -> SpecOutput.returns (rmapM f l).
Proof.
  intros H. induction l as [|x l IH]; [exact I|]. cbn [rmapM]. pose proof (H x) as Hx. destruct (f x); cbn [rbind]; try contradiction; [|exact I].
  destruct (rmapM f l); cbn in *; auto.
Qed.

Lemma simple_returns c s fuel ps : match c with PSplit _ _ _ => False | _ => True end -> SpecOutput.returns (prs (S fuel) ps c s).
Proof.
  destruct c as [cs|ig|sep ig|t f| |d r sub]; intros H; cbn [parse]; try destruct H.
  - unfold parse_string. destruct cs as [|b cs]; [exact I|]. pose proof (Hcs (b :: cs) s) as K. destruct (decode_charset (b :: cs) s); cbn in *; auto.
  - destruct (parse_integer_safe ig s) as [(z & ->)|(e & ->)]; exact I.
  - unfold parse_float_value. cbv zeta. match goal with |- context [go_parse_float ?x] => destruct (float_quiet x) as [(f & ->)|(e & ->)]; exact I end.
  - unfold parse_boolean. destruct (is_in_array s t); [exact I|]. destruct (is_in_array s f); exact I.
  - destruct (unmarshal_quiet s) as [(v & ->)|[->| ->]]; exact I.
Qed.

(** A chain of split parsers that does not come back to itself is not longer than the
    list of all the parsers. *)
Lemma parse_returns_from ps (rank : bytes -> nat) :
  (forall name d r sub c, mget ps name = Some (PSplit d r sub) -> mget ps sub = Some c -> (rank sub < rank name)%nat) ->
  forall fuel visited name c s, mget ps name = Some c -> NoDup visited -> incl visited (map fst ps) -> (forall x, In x visited -> (rank name < rank x)%nat) ->
  (List.length ps < fuel + List.length visited)%nat -> SpecOutput.returns (prs fuel ps c s).
Proof.
  intros Hr. induction fuel as [|fuel IH]; intros visited name c s Hc Hn Hi Hv Hf.
  - exfalso. pose proof (NoDup_incl_length Hn Hi) as K. rewrite map_length in K. lia.
  - destruct c as [cs|ig|sep ig|t f| |d r sub]; try (apply simple_returns; exact I). cbn [parse]. cbv zeta.
    destruct (mget ps sub) as [c'|] eqn:Es; [|exact I]. pose proof (Hr _ _ _ _ _ Hc Es) as Hlt.
    assert (K : forall x, SpecOutput.returns (prs fuel ps c' x)).
    { intros x. apply (IH (name :: visited) sub c' x Es).
      - constructor; [|exact Hn]. intros Hin. specialize (Hv _ Hin). lia.
      - intros y [<-|Hy]; [apply mget_In in Hc; exact (in_map fst _ _ Hc)|apply Hi, Hy].
      - intros y [<-|Hy]; [exact Hlt|]. specialize (Hv _ Hy). lia.
      - cbn [List.length]. lia. }
    match goal with |- context [rmapM _ ?l] => pose proof (rmapM_returns (prs fuel ps c') l K) as R; destruct (rmapM (prs fuel ps c') l); cbn in *; auto end.
Qed.

Lemma parser_returns ps name c s : acyclic ps -> mget ps name = Some c -> SpecOutput.returns (parser_of decode_charset regexp_split ps c s).
Proof.
  intros (rank & Hr) Hc. apply (parse_returns_from ps rank Hr _ [] name c s Hc); [constructor|intros x []|intros x []|cbn; lia].
Qed.

Lemma parser_primitive ps c s x : match c with PJson | PSplit _ _ _ => False | _ => True end -> parser_of decode_charset regexp_split ps c s = Ok x -> primitive x.
Proof.
  intros Hc H. unfold parser_of in H. cbn [parse] in H. destruct c; try destruct Hc.
  - unfold parse_string in H. destruct charset; [injection H as <-; exact I|]. destruct (decode_charset _ s); try discriminate. injection H as <-. exact I.
  - unfold parse_integer in H. destruct (atoi _); try discriminate. injection H as <-. exact I.
  - unfold parse_float_value in H. cbv zeta in H. match type of H with rbind ?y _ = _ => destruct y; try discriminate H end. injection H as <-. exact I.
  - unfold parse_boolean in H. destruct (is_in_array s trues); [injection H as <-; exact I|]. destruct (is_in_array s falses); [injection H as <-; exact I|discriminate].
Qed.
End Parsers.

(** *** Records *)
Lemma column_index_at_sound : forall names j m n i, (forall k i', mget m k = Some i' -> (i' < j)%nat) -> mget (column_index names j m) n = Some i ->
  mget m n = Some i \/ exists i', i = (j + i')%nat /\ nth_error names i' = Some n.
Proof.
  induction names as [|c names IH]; intros j m n i Hm H; cbn [column_index] in H; [left; exact H|].
  apply IH in H.
  - destruct H as [H|(i' & -> & Hi)]; [|right; exists (S i'); split; [lia|exact Hi]].
    destruct (bytes_dec c n) as [->|Hne]; [rewrite mget_mset_same in H; injection H as <-; right; exists 0%nat; split; [lia|reflexivity]|].
    rewrite mget_mset_other in H by congruence. left. exact H.
  - intros k i' H'. destruct (bytes_dec c k) as [->|Hne]; [rewrite mget_mset_same in H'; injection H' as <-; lia|].
    rewrite mget_mset_other in H' by congruence. apply Hm in H'. lia.
Qed.

Section Csv.
Variable columns : list (bytes * parser_fun).
Notation names := (map fst columns).
Notation ps := (map snd columns).

Lemma csv_column_in row k : csv_column names ps row k = Err (EMsg "The column does not exist.") \/
  exists p, In (k, p) columns /\ (csv_column names ps row k = Ok VNil \/ exists cell, csv_column names ps row k = p cell).
Proof.
  unfold csv_column. destruct (mget (column_index names 0 []) k) as [i|] eqn:E; [|left; reflexivity]. right.
  apply column_index_at_sound in E; [|intros ? ? H; discriminate H]. destruct E as [E|(i' & -> & Hi)]; [discriminate|]. cbn [Nat.add].
  rewrite nth_error_map in Hi |- *. destruct (nth_error columns i') as [[k' p]|] eqn:En; [|discriminate Hi]. cbn in Hi. injection Hi as ->. exists p.
  split; [exact (nth_error_In _ _ En)|]. destruct (nth_error row i'); [right; eexists; reflexivity|left; reflexivity].
Qed.

Hypothesis Hps : forall k p, In (k, p) columns -> forall s, SpecOutput.returns (p s).

Lemma csv_column_returns row k : SpecOutput.returns (csv_column names ps row k).
Proof. destruct (csv_column_in row k) as [->|(p & Hp & [->|(cell & ->)])]; [exact I|exact I|exact (Hps _ _ Hp cell)]. Qed.
Lemma csv_all_returns row : SpecOutput.returns (csv_all names ps row).
Proof.
  unfold csv_all. assert (G : forall cols m, SpecOutput.returns (csv_all_from names ps row cols m)); [|apply G].
  induction cols as [|c cols IH]; intros m; [exact I|]. cbn [csv_all_from].
  pose proof (csv_column_returns row c) as H. destruct (csv_column _ _ row c); cbn [rbind]; try contradiction; [apply IH|exact I].
Qed.
Lemma csv_all_value row : forall a k x, csv_all names ps row = Ok a -> mget a k = Some x -> csv_column names ps row k = Ok x.
Proof.
  unfold csv_all. assert (G : forall cols m a k x, csv_all_from names ps row cols m = Ok a -> mget a k = Some x -> mget m k = Some x \/ csv_column names ps row k = Ok x).
  { induction cols as [|c cols IH]; intros m a k x H M; cbn [csv_all_from] in H; [injection H as <-; left; exact M|].
    destruct (csv_column names ps row c) as [w| | |] eqn:Ec; try discriminate. cbn [rbind] in H. destruct (IH _ _ _ _ H M) as [K|K]; [|right; exact K].
    destruct (bytes_dec c k) as [->|Hne]; [rewrite mget_mset_same in K; injection K as ->; right; exact Ec|]. rewrite mget_mset_other in K by congruence. left. exact K. }
  intros a k x H M. destruct (G _ _ _ _ _ H M) as [K|K]; [discriminate|exact K].
Qed.
Lemma csv_get_returns row path : unsigned_path path -> SpecOutput.returns (csv_get names ps row path).
Proof.
  intros Hp. unfold csv_get. destruct path as [|b path]; [exact I|]. destruct (segments_cons (b :: path) ltac:(discriminate)) as (k & segs & -> & Hd).
  pose proof (csv_column_returns row k) as H. destruct (csv_column _ _ row k) as [w| | |]; cbn [rbind]; try contradiction; [|exact I].
  apply fine_returns, get_sub_value_safe. intros k' i Hin. apply (Hp _ Hd). right. exact Hin.
Qed.
End Csv.

Lemma json_get_returns data path : unsigned_path path -> SpecOutput.returns (json_get data path).
Proof.
  intros Hp. destruct path as [|b path]; [exact I|]. destruct (segments_cons (b :: path) ltac:(discriminate)) as (k & segs & _ & Hd).
  apply fine_returns, (json_get_safe _ _ _ Hd), (Hp _ Hd).
Qed.

Lemma collect_value : forall props m a k (x : value), collect props m = Ok a -> mget a k = Some x -> mget m k = Some x \/ In (k, Ok x) props.
Proof.
  induction props as [|[n r] props IH]; intros m a k x H M; cbn [collect] in H; [injection H as <-; left; exact M|].
  destruct r as [w| | |]; try discriminate. cbn [rbind] in H. destruct (IH _ _ _ _ H M) as [K|K]; [|right; right; exact K].
  destruct (bytes_dec n k) as [->|Hne]; [rewrite mget_mset_same in K; injection K as ->; right; left; reflexivity|]. rewrite mget_mset_other in K by congruence. left. exact K.
Qed.

(** *** Numbers *)
Notation numbers_in := (Forall (fun kv : bytes * value => numbers_only (snd kv))).
Lemma mset_numbers m k x : numbers_in m -> numbers_only x -> numbers_in (mset m k x).
Proof.
  intros Hm Hx. induction Hm as [|[k' x'] m H1 H2 IH]; cbn [mset]; [constructor; [exact Hx|constructor]|].
  destruct (bytes_eqb k' k); constructor; assumption.
Qed.
Lemma csv_numbers names ps row : (forall k x, csv_column names ps row k = Ok x -> numbers_only x) -> forall a, csv_all names ps row = Ok a -> numbers_in a.
Proof.
  intros H. unfold csv_all. assert (G : forall cols m a, numbers_in m -> csv_all_from names ps row cols m = Ok a -> numbers_in a); [|intros a; apply G; constructor].
  induction cols as [|c cols IH]; intros m a Hm E; cbn [csv_all_from] in E; [injection E as <-; exact Hm|].
  destruct (csv_column names ps row c) as [w| | |] eqn:Ec; try discriminate. cbn [rbind] in E. apply (IH _ _ (mset_numbers _ _ _ Hm (H _ _ Ec)) E).
Qed.
Lemma collect_numbers : forall props m a, numbers_in m -> (forall n x, In (n, Ok x) props -> numbers_only x) -> collect props m = Ok a -> numbers_in a.
Proof.
  induction props as [|[n r] props IH]; intros m a Hm H E; cbn [collect] in E; [injection E as <-; exact Hm|].
  destruct r as [w| | |]; try discriminate. cbn [rbind] in E. apply (IH _ _ (mset_numbers _ _ _ Hm (H _ _ (or_introl eq_refl)))) in E; [exact E|]. intros. eapply H. right. eassumption.
Qed.
Lemma rmapM_numbers {A} (f : A -> res value) : forall l vs, (forall x y, In x l -> f x = Ok y -> numbers_only y) -> rmapM f l = Ok vs -> Forall numbers_only vs.
Proof.
  induction l as [|x l IH]; intros vs H E; cbn [rmapM] in E; [injection E as <-; constructor|].
  destruct (f x) as [y| | |] eqn:Ef; try discriminate. cbn [rbind] in E. destruct (rmapM f l) as [ys| | |]; try discriminate. injection E as <-.
  constructor; [apply (H x y (or_introl eq_refl) Ef)|]. apply IH; [|reflexivity]. intros. eapply H; [right; eassumption|assumption].
Qed.

(** The decoder of JSON documents. *)
Lemma number_byte_alph c : number_byte c = true -> alph c = true.
Proof. destruct c; cbv; congruence. Qed.
Lemma number_end_alph : forall l t r, number_end l = (t, r) -> Forall (fun c => alph c = true) t.
Proof.
  induction l as [|c l IH]; intros t r H; cbn [number_end] in H; [injection H as <- _; constructor|].
  destruct (number_byte c) eqn:E; [|injection H as <- _; constructor]. destruct (number_end l) as [t' r'] eqn:El. injection H as <- _.
  constructor; [apply number_byte_alph, E|]. eapply IH. reflexivity.
Qed.
Lemma literal_numbers d it d1 x d2 : rescan_literal d = Ok (it, d1) -> literal_interface it d1 = Ok (x, d2) -> numbers_only x.
Proof.
  unfold rescan_literal. destruct (literal_end (d_last d) (d_rest d)) as [[t r]|] eqn:El; [|discriminate]. intros [= <- Hd]. clear Hd.
  unfold literal_interface. remember (d_last d) as c eqn:Ec. clear Ec. intros H.
  assert (G : is_digit c || beqb c "-" = true -> forall a b : dstate,
    match go_parse_float (c :: t) with Ok f => Ok (VFloat f, a) | Err _ => Ok (VNil, b) | Panic => Panic | NoFuel => NoFuel end = Ok (x, d2) -> numbers_only x).
  { intros Hc a b K. assert (Ha : Forall (fun c => alph c = true) (c :: t)).
    { assert (Hn : alph c = true) by (clear - Hc; destruct c; revert Hc; cbv; congruence).
      constructor; [exact Hn|]. unfold literal_end in El. rewrite Hc in El.
      destruct c; try discriminate Hc; injection El as El; exact (number_end_alph _ _ _ El). }
    destruct (go_parse_float (c :: t)) as [f|e| |] eqn:Ef; try discriminate; injection K as <- _; constructor. apply float64_number. eapply parse_finite; eassumption. }
  destruct c; try discriminate H; try (injection H as <- _; constructor; fail).
  all: try (destruct (unquote _); [|discriminate]; injection H as <- _; constructor; fail).
  all: exact (G eq_refl _ _ H).
Qed.
Lemma interface_numbers fuel :
  (forall d x d', value_interface fuel d = Ok (x, d') -> numbers_only x) /\
  (forall d l d', array_interface fuel d = Ok (l, d') -> Forall numbers_only l) /\
  (forall d m m' d', numbers_in m -> object_interface fuel d m = Ok (m', d') -> numbers_in m').
Proof.
  induction fuel as [|fuel (IHv & IHa & IHo)]; [repeat split; intros; discriminate|]. split; [|split].
  - intros d x d' H. cbn [value_interface] in H. destruct (d_op d); try discriminate.
    + destruct (rescan_literal d) as [[it d1]| | |] eqn:Er; try discriminate. cbn [rbind fst snd] in H. eapply literal_numbers; eassumption.
    + destruct (object_interface fuel d []) as [[m d1]| | |] eqn:Eo; try discriminate. injection H as <- _. constructor. eapply IHo; [|exact Eo]. constructor.
    + destruct (array_interface fuel d) as [[l d1]| | |] eqn:Ea; try discriminate. injection H as <- _. constructor. eapply IHa. exact Ea.
  - intros d l d' H. cbn [array_interface] in H. cbv zeta in H. set (d1 := scan_while d) in *.
    assert (G : (rlet r := value_interface fuel d1 in
      match d_op (skip_spaces (snd r)) with
      | OpEndArray => Ok ([fst r], skip_spaces (snd r))
      | OpArrayValue => rlet q := array_interface fuel (skip_spaces (snd r)) in Ok (fst r :: fst q, snd q)
      | _ => Panic
      end) = Ok (l, d') -> Forall numbers_only l).
    { destruct (value_interface fuel d1) as [[x d2]| | |] eqn:Ev; try discriminate. cbn [rbind fst snd]. apply IHv in Ev. intros K.
      destruct (d_op (skip_spaces d2)); try discriminate.
      - destruct (array_interface fuel (skip_spaces d2)) as [[q d3]| | |] eqn:Ea; try discriminate. injection K as <- _. constructor; [exact Ev|]. eapply IHa. exact Ea.
      - injection K as <- _. repeat constructor. exact Ev. }
    destruct (d_op d1); try (exact (G H)). injection H as <- _. constructor.
  - intros d m m' d' Hm H. cbn [object_interface] in H. cbv zeta in H. destruct (d_op (scan_while d)); try discriminate.
    + destruct (rescan_literal (scan_while d)) as [[k d1]| | |]; try discriminate. cbn [rbind fst snd] in H. destruct (unquote k) as [key|]; [|discriminate].
      destruct (d_op (skip_spaces d1)); try discriminate. destruct (value_interface fuel (scan_while (skip_spaces d1))) as [[x d2]| | |] eqn:Ev; try discriminate. cbn [rbind fst snd] in H.
      apply IHv in Ev. pose proof (mset_numbers _ key _ Hm Ev) as Hm1. destruct (d_op (skip_spaces d2)); try discriminate; [|injection H as <- _; exact Hm1].
      eapply IHo; eassumption.
    + injection H as <- _. exact Hm.
Qed.
Lemma decode_map_numbers t m : decode_map t = Ok m -> numbers_in m.
Proof.
  unfold decode_map. cbv zeta. destruct (d_op (d_init t)); try discriminate.
  - destruct (rescan_literal (d_init t)) as [[it d1]| | |]; try discriminate. cbn [rbind fst]. destruct it as [|c it]; [discriminate|]. destruct c; try discriminate. intros K. assert (m = []) as -> by congruence. constructor.
  - destruct (object_interface (decode_fuel t) (d_init t) []) as [[m1 d1]| | |] eqn:Eo; try discriminate. cbn [rbind]. unfold JsonDecode.finished. cbn [fst snd]. destruct (d_saved d1); try discriminate. intros K. assert (m1 = m) as -> by congruence.
    eapply (proj2 (proj2 (interface_numbers _))); [|exact Eo]. constructor.
Qed.
Lemma unmarshal_numbers t x : go_unmarshal t = Ok x -> numbers_only x.
Proof.
  unfold go_unmarshal, decode_any. destruct (check_valid t); [|discriminate].
  destruct (value_interface (decode_fuel t) (d_init t)) as [[y d1]| | |] eqn:Ev; try discriminate. cbn [rbind]. unfold JsonDecode.finished. cbn [fst snd]. destruct (d_saved d1); try discriminate. intros K. assert (y = x) as -> by congruence.
  eapply (proj1 (interface_numbers _)). exact Ev.
Qed.

(** Parsers. *)
Lemma number_parser_numbers decode_charset regexp_split ps name : number_parser ps name -> forall c, mget ps name = Some c ->
  forall fuel s x, parse go_parse_float go_unmarshal decode_charset regexp_split fuel ps c s = Ok x -> numbers_only x.
Proof.
  induction 1 as [name H|name d r sub H _ IH]; intros c Hc fuel s x Hx; (destruct fuel as [|fuel]; [discriminate|]); cbn [parse] in Hx.
  - specialize (H _ Hc). destruct c as [cs|ig|sep ig|t f| |d r sub]; try contradiction.
    + unfold parse_string in Hx. destruct cs as [|b cs]; [injection Hx as <-; constructor|]. destruct (decode_charset (b :: cs) s); try discriminate. injection Hx as <-. constructor.
    + destruct (parse_integer_safe ig s) as [(z & E)|(e & E)]; rewrite E in Hx; [injection Hx as <-; constructor|discriminate].
    + unfold parse_boolean in Hx. destruct (is_in_array s t); [injection Hx as <-; constructor|]. destruct (is_in_array s f); [injection Hx as <-; constructor|discriminate].
    + eapply unmarshal_numbers. exact Hx.
  - rewrite H in Hc. injection Hc as <-. destruct (mget ps sub) as [c'|] eqn:Es; [|discriminate].
    destruct (rmapM _ _) as [l| | |] eqn:El; try discriminate. injection Hx as <-. constructor. eapply rmapM_numbers; [|exact El]. intros y z _ Hz. eapply IH; [reflexivity|exact Hz].
Qed.

(** XML. *)
Section XmlNumbers.
Context {node : Type} (query : node -> bytes -> list node) (evaluate : node -> bytes -> xresult).
Variable pars : list (bytes * (xparser * parser_fun)).
Variable int_of_float : SpecFloat.spec_float -> Z.
Variable ps : parsers.
Hypothesis Hpars : forall name t p, mget pars name = Some (t, p) -> number_parser ps name -> t <> XPFloat /\ forall s x, p s = Ok x -> numbers_only x.

Lemma all_values_numbers c : number_property ps c -> forall n x, all_values node query evaluate pars int_of_float n c = Ok x -> numbers_only x.
Proof.
  induction c as [nm xp parser|nm xp items IH|nm xp props IH] using xprop_ind'; intros Hc n x H; cbn [all_values] in H.
  - inversion Hc as [? ? ? Hp| |]; subst. unfold handle_primitive, handle_string, handle_number, handle_bool, handle_nodes in H.
    destruct (evaluate n xp); try discriminate; destruct (mget pars parser) as [[t p]|] eqn:Em; try discriminate;
      destruct (Hpars _ _ _ Em Hp) as [Ht Hv]; [exact (Hv _ _ H)| | |]; destruct t; try discriminate; try congruence; injection H as <-; constructor.
  - inversion Hc as [|? ? ? Hi|]; subst. destruct (rmapM _ _) as [l| | |] eqn:El; try discriminate. injection H as <-. constructor. eapply rmapM_numbers; [|exact El]. intros y z _ Hz. exact (IH Hi _ _ Hz).
  - inversion Hc as [| |? ? ? Hi]; subst. destruct (query n xp) as [|n' [|? ?]]; try discriminate; [injection H as <-; constructor|].
    destruct (collect _ _) as [m| | |] eqn:Em; try discriminate. injection H as <-. constructor. eapply collect_numbers; [constructor| |exact Em].
    intros k y Hin. apply in_map_iff in Hin. destruct Hin as (c & E & Hin). injection E as _ E. rewrite Forall_forall in IH, Hi. eapply (IH c Hin (Hi c Hin)). exact E.
Qed.
Lemma xml_all_numbers props n a : Forall (number_property ps) props -> xml_all node query evaluate pars int_of_float n props = Ok a -> numbers_in a.
Proof.
  intros Hp H. unfold xml_all in H. eapply collect_numbers; [constructor| |exact H]. intros k y Hin. apply in_map_iff in Hin. destruct Hin as (c & E & Hin). injection E as _ E.
  rewrite Forall_forall in Hp. eapply (all_values_numbers c (Hp c Hin)). exact E.
Qed.
End XmlNumbers.

(** *** Inputs *)

(** Nothing stops when the input and its records are read. *)
Definition input_fine (inp : input) : Prop :=
  (forall p, SpecOutput.returns (in_get inp p) /\ forall r, in_get inp p = Ok r -> SpecOutput.returns (r_all r) /\ forall q, unsigned_path q -> SpecOutput.returns (r_get r q)) /\
  (forall it, In it (in_iter inp) -> SpecOutput.returns it /\ forall r, it = Ok r -> forall q, unsigned_path q -> SpecOutput.returns (r_get r q)).

Lemma rmap_Ok {A B} (f : A -> B) x b : rmap f x = Ok b -> exists a, x = Ok a /\ b = f a.
Proof. unfold rmap. destruct x; try discriminate. intros [= <-]. eauto. Qed.
Lemma rmap_returns {A B} (f : A -> B) x : SpecOutput.returns x -> SpecOutput.returns (rmap f x).
Proof. destruct x; exact (fun H => H). Qed.

Section Inputs.
Variable files : bytes -> bytes.
Variable mtime : bytes -> res Z.
Variable cap : nat.
Variable chunk : nat -> nat.
Variable decode_charset : bytes -> bytes -> res bytes.
Variable regexp_split : bytes -> bytes -> list bytes.
Variable csv_state : bytes -> reader.
Variable json_state : bytes -> jfile.
Variable xml : xml_package.
Variable open_file : bytes -> res unit.
Notation parser_of := (parser_of decode_charset regexp_split).
Notation make_input := (make_input files mtime cap chunk decode_charset regexp_split csv_state json_state xml).
Notation first_row := (System.first_row files cap chunk).
Hypothesis Hcap : (0 < cap)%nat.
Hypothesis Hcs : forall c s, SpecOutput.returns (decode_charset c s).
Variable ps : list (bytes * pconfig).
Hypothesis Hacyclic : acyclic ps.

(** The columns of a CSV file have parsers of the configuration. *)
Lemma new_csv path die first detect delimiter columns cs : new_input open_file first_row ps (VCsv path die first detect delimiter columns) = Done (SCsv cs) ->
  forall k c, In (k, c) cs -> exists parser, mget ps parser = Some c /\ if detect then parser = lit "string" else In (k, parser) columns.
Proof.
  unfold new_input. intros H. apply obind_done in H. destruct H as (? & _ & H). apply obind_done in H. destruct H as (cols & Hd & H).
  apply obind_done in H. destruct H as (cs' & Hm & H). injection H as ->. apply omapM_forall2 in Hm. intros k c Hin.
  destruct (forall2_right _ _ _ Hm _ Hin) as ([k' parser] & Hin' & Hl). cbn [fst snd] in Hl. apply obind_done in Hl. destruct Hl as (c' & Hl & E). injection E as -> ->.
  unfold look_up in Hl. destruct (mget ps parser) as [c'|] eqn:Ep; [|discriminate]. injection Hl as ->. exists parser. split; [exact Ep|].
  destruct detect; [|injection Hd as ->; exact Hin'].
  apply obind_done in Hd. destruct Hd as (row & _ & Hd). apply obind_done in Hd. destruct Hd as (names & _ & Hd). injection Hd as <-.
  apply in_map_iff in Hin'. destruct Hin' as (n & E & _). injection E as _ ->. reflexivity.
Qed.

Notation xparsers := (map (fun nc : bytes * pconfig => (fst nc, (parser_type (snd nc), parser_of ps (snd nc)))) ps).
Lemma xparsers_mget name t p : mget xparsers name = Some (t, p) -> exists c, mget ps name = Some c /\ p = parser_of ps c.
Proof.
  rewrite (mget_map (fun c => (parser_type c, parser_of ps c))). destruct (mget ps name) as [c|]; [|discriminate]. cbn. intros [= _ <-]. eauto.
Qed.

Lemma columns_of (cs : list (bytes * pconfig)) : map fst cs = map fst (map (fun c => (fst c, parser_of ps (snd c))) cs) /\
  map (fun c => parser_of ps (snd c)) cs = map snd (map (fun c => (fst c, parser_of ps (snd c))) cs).
Proof. rewrite !map_map. split; reflexivity. Qed.

Lemma made_fine n c s : new_input open_file first_row ps c = Done s ->
  (forall path die first detect delimiter columns, c = VCsv path die first detect delimiter columns -> used (files path) cap chunk (comma_of delimiter) (csv_state n)) ->
  input_fine (make_input ps n c s).
Proof.
  intros Hn Hu. destruct c as [path die first detect delimiter columns|path die|path die props xpath].
  - assert (exists cs, s = SCsv cs) as (cs & ->).
    { pose proof Hn as K. cbn [new_input] in K. apply obind_done in K. destruct K as (? & _ & K). apply obind_done in K. destruct K as (? & _ & K). apply obind_done in K. destruct K as (cs & _ & K). injection K as <-. eauto. }
    specialize (Hu _ _ _ _ _ _ eq_refl). destruct (used_inv _ _ _ Hcap _ _ Hu) as (pos & Hi). cbn [make_input]. destruct (columns_of cs) as [E1 E2]. rewrite E1, E2.
    set (cols := map (fun c => (fst c, parser_of ps (snd c))) cs).
    assert (Hcols : forall k p, In (k, p) cols -> forall t, SpecOutput.returns (p t)).
    { intros k p Hk t. apply in_map_iff in Hk. destruct Hk as ([k' c'] & E & Hk). cbn [fst snd] in E. injection E as <- <-.
      destruct (new_csv _ _ _ _ _ _ _ Hn _ _ Hk) as (parser & Mp & _). apply (parser_returns _ _ Hcs ps parser c' t Hacyclic Mp). }
    split; cbn [csv_input in_get in_iter].
    + intros p. destruct (get_row_exec (files path) cap chunk Hcap (comma_of delimiter) p pos _ Hi) as [-> _].
      assert (G : SpecOutput.returns (got (files path) (comma_of delimiter) p)).
      { unfold got. destruct (p <? 0); [exact I|]. destruct (row_at_ok (files path) (comma_of delimiter) p) as (K & _). destruct (fst _) as [[row|]| | |]; exact K. }
      split; [apply rmap_returns, G|]. intros r Hr. apply rmap_Ok in Hr. destruct Hr as (row & _ & ->). cbn [csv_record r_all r_get].
      split; [apply (csv_all_returns cols Hcols)|]. intros q Hq. apply (csv_get_returns cols Hcols _ _ Hq).
    + rewrite (iterate_all_rows (files path) cap chunk Hcap). intros it Hit. apply in_map_iff in Hit. destruct Hit as (x & <- & Hx).
      match type of Hx with In x (all_rows ?a ?b ?c ?d) => destruct (all_rows_ok a b c d) as (K & _) end. rewrite Forall_forall in K. specialize (K x Hx).
      split; [apply rmap_returns; destruct x; exact K|]. intros r Hr. apply rmap_Ok in Hr. destruct Hr as (row & _ & ->). cbn [csv_record r_get].
      intros q Hq. apply (csv_get_returns cols Hcols _ _ Hq).
  - split; cbn [make_input json_input in_get in_iter].
    + intros p. pose proof (get_quiet (files path) chunk p (json_state n)) as G. split; [apply rmap_returns; destruct (fst _); cbn; try contradiction; exact I|].
      intros r Hr. apply rmap_Ok in Hr. destruct Hr as (d & _ & ->). cbn [json_record r_all r_get]. split; [exact I|]. intros q Hq. apply json_get_returns, Hq.
    + intros it Hit. apply in_map_iff in Hit. destruct Hit as (x & <- & Hx). pose proof (file_quiet (files path)) as K. rewrite Forall_forall in K. specialize (K x Hx).
      split; [apply rmap_returns; destruct x; cbn; try contradiction; exact I|]. intros r Hr. apply rmap_Ok in Hr. destruct Hr as (d & _ & ->). cbn [json_record r_get].
      intros q Hq. apply json_get_returns, Hq.
  - assert (Hp : forall name t p, mget xparsers name = Some (t, p) -> forall x, p x <> Panic /\ p x <> NoFuel).
    { intros name t p Hm x. apply xparsers_mget in Hm. destruct Hm as (c & Mc & ->). apply fine_returns. apply (parser_returns _ _ Hcs ps name c x Hacyclic Mc). }
    assert (Hg : forall t q, unsigned_path q -> SpecOutput.returns (xml_get xnode (xml_query xml) (xml_evaluate xml) xparsers (xml_integer xml) t props q)).
    { intros t q Hq. destruct q as [|b q]; [exact I|]. destruct (segments_cons (b :: q) ltac:(discriminate)) as (k & segs & _ & Hd).
      apply fine_returns, (xml_get_safe _ _ _ _ _ Hp _ _ _ _ Hd), (Hq _ Hd). }
    split; cbn [make_input xml_input in_get in_iter].
    + intros p. match goal with |- context [exec (xml_get_at ?a ?b ?c p) ?d] => pose proof (get_ends a b c p d) as G end.
      split; [apply rmap_returns; destruct (fst _); cbn; try contradiction; exact I|].
      intros r Hr. apply rmap_Ok in Hr. destruct Hr as (t & _ & ->). cbn [xml_record r_all r_get]. split; [apply fine_returns, (xml_all_safe _ _ _ _ _ Hp)|]. intros q Hq. apply Hg, Hq.
    + intros it Hit. apply in_map_iff in Hit. destruct Hit as (x & <- & Hx).
      match type of Hx with In x (xml_iterate_all ?a ?b ?c) => pose proof (iterate_ends a b c) as K end. rewrite Forall_forall in K. specialize (K x Hx).
      split; [apply rmap_returns; destruct x; cbn; try contradiction; exact I|]. intros r Hr. apply rmap_Ok in Hr. destruct Hr as (t & _ & ->). cbn [xml_record r_get].
      intros q Hq. apply Hg, Hq.
Qed.

Lemma column_numbers path die first detect delimiter columns cs : new_input open_file first_row ps (VCsv path die first detect delimiter columns) = Done (SCsv cs) ->
  (if detect then number_parser ps (lit "string") else forall k parser, In (k, parser) columns -> number_parser ps parser) ->
  forall row k x, csv_column (map fst cs) (map (fun c => parser_of ps (snd c)) cs) row k = Ok x -> numbers_only x.
Proof.
  intros Hn Hp row k x. destruct (columns_of cs) as [E1 E2]. rewrite E1, E2. intros H.
  destruct (csv_column_in (map (fun c => (fst c, parser_of ps (snd c))) cs) row k) as [E|(p & Hin & [E|(cell & E)])]; rewrite E in H; [discriminate|injection H as <-; constructor|].
  apply in_map_iff in Hin. destruct Hin as ([k' c] & Ek & Hin). cbn [fst snd] in Ek. injection Ek as <- <-.
  destruct (new_csv _ _ _ _ _ _ _ Hn _ _ Hin) as (parser & Mp & Hd). eapply number_parser_numbers; [|exact Mp|exact H].
  destruct detect; [subst parser; exact Hp|eapply Hp; exact Hd].
Qed.
Lemma made_numbers n c s p r d : new_input open_file first_row ps c = Done s ->
  match c with
  | VCsv _ _ _ true _ _ => number_parser ps (lit "string")
  | VCsv _ _ _ false _ columns => forall k parser, In (k, parser) columns -> number_parser ps parser
  | VXml _ _ props _ => Forall (number_property ps) props
  | VJsonFile _ _ => True
  end -> in_get (make_input ps n c s) p = Ok r -> r_all r = Ok d -> numbers_only (VMap d).
Proof.
  intros Hn Hp Hg Ha. constructor. destruct c as [path die first detect delimiter columns|path die|path die props xpath].
  - assert (exists cs, s = SCsv cs) as (cs & ->).
    { pose proof Hn as K. cbn [new_input] in K. apply obind_done in K. destruct K as (? & _ & K). apply obind_done in K. destruct K as (? & _ & K). apply obind_done in K. destruct K as (cs & _ & K). injection K as <-. eauto. }
    cbn [make_input csv_input in_get] in Hg. apply rmap_Ok in Hg. destruct Hg as (row & _ & ->). cbn [csv_record r_all] in Ha.
    eapply csv_numbers; [|exact Ha]. intros k x Hx. eapply (column_numbers _ _ _ _ _ _ _ Hn); [|exact Hx]. destruct detect; exact Hp.
  - cbn [make_input json_input in_get] in Hg. apply rmap_Ok in Hg. destruct Hg as (a & Hg & ->). cbn [json_record r_all] in Ha. injection Ha as <-.
    rewrite JsonReaderFacts3.get_exec in Hg. unfold JsonReaderFacts3.got in Hg. destruct (p <? 0); [discriminate|].
    destruct (read_value _) as [t|e| |]; try discriminate; [|destruct e; discriminate]. eapply decode_map_numbers. exact Hg.
  - cbn [make_input xml_input in_get] in Hg. apply rmap_Ok in Hg. destruct Hg as (t & _ & ->). cbn [xml_record r_all] in Ha.
    eapply xml_all_numbers; [|exact Hp|exact Ha]. intros name ty q Hm Hnp. rewrite (mget_map (fun c => (parser_type c, parser_of ps c))) in Hm.
    destruct (mget ps name) as [c|] eqn:Ec; [|discriminate]. cbn [option_map] in Hm. injection Hm as <- <-. split.
    + inversion Hnp as [? H|? ? ? ? H _]; subst; [specialize (H _ Ec)|rewrite H in Ec; injection Ec as <-]; [destruct c; try contradiction|]; discriminate.
    + intros x y Hy. exact (number_parser_numbers decode_charset regexp_split _ _ Hnp _ Ec (S (List.length ps)) x y Hy).
Qed.
End Inputs.

(** *** The whole program *)
Section Boot.
Variable files : bytes -> bytes.
Variable mtime : bytes -> res Z.
Variable cap : nat.
Variable chunk : nat -> nat.
Variable decode_charset : bytes -> bytes -> res bytes.
Variable regexp_split : bytes -> bytes -> list bytes.
Variable new_charset : bytes -> res unit.
Variable csv_state : bytes -> reader.
Variable json_state : bytes -> jfile.
Variable lower : bytes -> bytes.
Variable index_file : bytes -> option bytes.
Variable visit : list (list sqlv) -> list (res (list sqlv)).
Variable fts_ok : list bytes -> bytes -> bytes -> bool.
Variable fts_match : Sql.table -> sqlv -> res (list (list sqlv)).
Variable databases : bytes -> db.
Variable xml : xml_package.
Variable alg : (rec -> rec -> bool) -> list rec -> list rec.
Variable open_file : bytes -> res unit.
Variable listen : vservice -> res unit.
Notation boot := (boot files mtime cap chunk decode_charset regexp_split new_charset csv_state json_state lower index_file visit fts_ok fts_match databases xml alg open_file listen).
Notation booted := (booted files mtime cap chunk decode_charset regexp_split csv_state json_state lower index_file visit fts_ok fts_match databases xml alg open_file).
Notation parser_of := (parser_of decode_charset regexp_split).
Variable v : vconfig.
Variable E : env.
Variable dbs : bytes -> db.
Variable services : list (bytes * list route).
Hypothesis Href : references_resolve v.
Hypothesis Hfit : indexes_fit v.
Hypothesis Hwild : forall n path i ps ic, In (n, VIWildcard path i ps ic) (vc_indexes v) -> NoDup ps.
Hypothesis Hb : booted dbs v services E.
Hypothesis Hr : robust files cap chunk decode_charset csv_state lower index_file visit fts_match v E.

Lemma input_made n inp : mget (e_inputs E) n = Some inp -> exists c s, mget (vc_inputs v) n = Some c /\
  new_input open_file (first_row files cap chunk) (vc_parsers v) c = Done s /\
  inp = make_input files mtime cap chunk decode_charset regexp_split csv_state json_state xml (vc_parsers v) n c s.
Proof.
  intros H. destruct (mget_fst (vc_inputs v) _ _ _ (proj1 (bt_names _ _ _ _ _ _ _ _ _ _ _ _ _ _ _ _ _ _ _ _ _ Hb)) H) as (c & Mc).
  destruct (bt_input _ _ _ _ _ _ _ _ _ _ _ _ _ _ _ _ _ _ _ _ _ Hb _ _ Mc) as (s & H1 & H2). exists c, s. split; [exact Mc|]. split; [exact H1|]. congruence.
Qed.

Lemma inputs_fine n inp : mget (e_inputs E) n = Some inp -> input_fine inp.
Proof.
  intros H. destruct (input_made _ _ H) as (c & s & Mc & Hn & ->). destruct Hr as [Hcap Hused Hcs _ Hps _ _ _ _].
  apply (made_fine _ _ _ _ _ _ _ _ _ open_file Hcap Hcs _ Hps _ _ _ Hn). intros path die first detect delimiter columns ->. exact (Hused _ _ _ _ _ _ _ Mc).
Qed.

Lemma parsers_fine n f : mget (e_parsers E) n = Some f -> exists c, mget (vc_parsers v) n = Some c /\ f = parser_of (vc_parsers v) c /\ forall s, SpecOutput.returns (f s).
Proof.
  intros H. destruct (mget_fst (vc_parsers v) _ _ _ (proj2 (proj2 (bt_names _ _ _ _ _ _ _ _ _ _ _ _ _ _ _ _ _ _ _ _ _ Hb))) H) as (c & Mc).
  pose proof (bt_parser _ _ _ _ _ _ _ _ _ _ _ _ _ _ _ _ _ _ _ _ _ Hb _ _ Mc) as H2. exists c. split; [exact Mc|]. assert (f = parser_of (vc_parsers v) c) by congruence. subst f.
  split; [reflexivity|]. intros s. destruct Hr as [_ _ Hcs _ Hps _ _ _ _]. apply (parser_returns _ _ Hcs _ n c s Hps Mc).
Qed.

Lemma indexes_fine i ix : mget (e_indexes E) i = Some ix -> forall n inp fs, mget (e_inputs E) n = Some inp ->
  Forall (fun f => unsigned_path (fst f) /\ primitive (snd f)) fs -> SpecOutput.returns (ix inp fs) /\ forall it, ix inp fs = Ok it -> Forall SpecOutput.returns it.
Proof.
  intros H n inp fs Hi Hf. destruct (mget_fst (vc_indexes v) _ _ _ (proj1 (proj2 (bt_names _ _ _ _ _ _ _ _ _ _ _ _ _ _ _ _ _ _ _ _ _ Hb))) H) as (c & Mc).
  destruct (bt_index _ _ _ _ _ _ _ _ _ _ _ _ _ _ _ _ _ _ _ _ _ Hb _ _ Mc) as (kept & ix' & kept' & Hm & He & Hk). assert (ix' = ix) by congruence. subst ix'.
  destruct Hr as [_ _ _ [Hv Hft] _ [[Hnd Hwr] Hwi] _ _ _].
  destruct c as [input props|path input props ic|dsn input props|dsn input prefix tokenize props|]; cbn [make_index] in Hm.
  - destruct (mget (e_inputs E) input) as [inp0|]; [|discriminate]. destruct (map_reindex _ inp0) as [idx| | |]; try discriminate. cbn [rbind] in Hm. injection Hm as <- _.
    apply map_index_returns. eapply Forall_impl; [|exact Hf]. intros f [_ Hp]. exact Hp.
  - destruct (mget (e_inputs E) input) as [inp0|] eqn:Ei; [|discriminate]. specialize (Hwr _ _ _ _ _ _ Mc Ei). specialize (Hwi _ _ _ _ _ _ Mc Ei). destruct Hwr as [_ Hwr].
    rewrite (Hk Hnd path (or_introl eq_refl)) in Hm. cbv zeta in Hm. pose proof (Hwild _ _ _ _ _ (mget_In _ _ _ Mc)) as Hprops.
    set (cfg := mkWconfig input props ic) in *. destruct (Wildcard.create_index lower cfg inp0 created_stream) as [r s] eqn:Ec. destruct (Hwr _ _ eq_refl) as [Hz Hx].
    destruct (wildcard_build lower cfg inp0 r s Hprops Hwi Ec Hz) as (mt & size & f & W & -> & Hc).
    destruct Hx as [Hx|Hx]; rewrite Hx in Hm.
    + cbn [rbind] in Hm. injection Hm as <- _. apply (wildcard_index_returns lower cfg inp0 _ s Hprops Hwi Ec Hz).
    + destruct (wildcard_reload lower cfg inp0 _ s Hprops Hwi Ec Hz) as (s2 & El & Heq). rewrite El in Hm. cbn [rbind] in Hm. injection Hm as <- _.
      pose proof (wildcard_index_returns lower cfg inp0 _ s Hprops Hwi Ec Hz inp fs) as G. unfold wildcard_index in *. rewrite Heq. exact G.
  - injection Hm as <- _. apply sqlite_returns; assumption.
  - injection Hm as <- _. apply fts_returns; assumption.
  - injection Hm as <- _. apply (noop_index_returns unsigned_path); [|exact Hf]. destruct (inputs_fine _ _ Hi) as [_ K]. intros r Ir. destruct (K r Ir) as [K1 K2]. split; [exact K1|]. intros a Ha p Hp. exact (K2 a Ha p Hp).
Qed.

Lemma boot_env_safe : env_safe unsigned_path E.
Proof.
  split; [|split; [|split]].
  - intros n inp H p. destruct (inputs_fine _ _ H) as [K _]. destruct (K p) as [K1 K2]. split; [exact K1|]. intros r Er. apply (K2 r Er).
  - intros n inp H. apply (indexes_fine _ _ (bt_found _ _ _ _ _ _ _ _ _ _ _ _ _ _ _ _ _ _ _ _ _ Hb) _ _ _ H). constructor.
  - intros i ix H n inp fs Hi Hf. apply (indexes_fine _ _ H _ _ _ Hi Hf).
  - intros p f H s. destruct (parsers_fine _ _ H) as (c & _ & _ & K). apply K.
Qed.

(** The parents of relationships. *)
Lemma parent_primitive n inp q : mget (e_inputs E) n = Some inp -> primitive_property v E n q ->
  forall p r a x, in_get inp p = Ok r -> r_all r = Ok a -> mget a q = Some x -> primitive x.
Proof.
  intros H Hp. destruct (input_made _ _ H) as (c & s & Mc & Hn & Ei). specialize (Hp c Mc).
  destruct c as [path die first detect delimiter columns|path die|path die props xpath]; intros p r a x Hg Ha Hx.
  - assert (exists cs, s = SCsv cs) as (cs & ->).
    { pose proof Hn as K. cbn [new_input] in K. apply obind_done in K. destruct K as (? & _ & K). apply obind_done in K. destruct K as (? & _ & K). apply obind_done in K. destruct K as (cs & _ & K). injection K as <-. eauto. }
    cbn [make_input] in Ei. destruct (columns_of decode_charset regexp_split (vc_parsers v) cs) as [E1 E2]. rewrite E1, E2 in Ei. subst inp. cbn [csv_input in_get] in Hg.
    apply rmap_Ok in Hg. destruct Hg as (row & _ & ->). cbn [csv_record r_all] in Ha. apply (csv_all_value _ _ _ _ _ Ha) in Hx.
    destruct (csv_column_in (map (fun c => (fst c, parser_of (vc_parsers v) (snd c))) cs) row q) as [K|(f & Hf & [K|(cell & K)])]; rewrite Hx in K; [discriminate|injection K as ->; exact I|].
    apply in_map_iff in Hf. destruct Hf as ([k c] & Ek & Hin). cbn [fst snd] in Ek. injection Ek as -> <-.
    destruct (new_csv _ _ _ _ _ _ _ _ _ _ _ _ Hn _ _ Hin) as (parser & Mp & Hd). symmetry in K. apply (parser_primitive _ _ _ _ _ _ ) in K; [exact K|].
    destruct detect; [subst parser; exact (Hp c Mp)|exact (Hp parser Hd c Mp)].
  - exact (Hp _ _ _ _ _ H Hg Ha Hx).
  - subst inp. cbn [make_input xml_input in_get] in Hg. apply rmap_Ok in Hg. destruct Hg as (t & _ & ->). cbn [xml_record r_all] in Ha.
    unfold xml_all in Ha. apply (collect_value _ _ _ _ _ Ha) in Hx. destruct Hx as [Hx|Hx]; [discriminate|]. apply in_map_iff in Hx. destruct Hx as (y & Ey & Hy). injection Ey as Ey1 Ey2.
    specialize (Hp y Hy Ey1). destruct y as [nm xpth parser| |]; try contradiction. cbn [all_values] in Ey2.
    destruct (xml_evaluate xml _ xpth) as [w|f|b|l|]; cbn [handle_primitive] in Ey2.
    + unfold handle_string in Ey2. match type of Ey2 with context [mget ?m parser] => destruct (mget m parser) as [[ty f]|] eqn:Em; [|discriminate] end.
      apply xparsers_mget in Em. destruct Em as (c & Mc' & ->). apply (parser_primitive _ _ _ _ _ _ (Hp c Mc')) in Ey2. exact Ey2.
    + unfold handle_number in Ey2. destruct (mget _ parser) as [[[] ?]|]; try discriminate; injection Ey2 as <-; exact I.
    + unfold handle_bool in Ey2. destruct (mget _ parser) as [[[] ?]|]; try discriminate; injection Ey2 as <-; exact I.
    + unfold handle_nodes in Ey2. destruct (mget _ parser) as [[[] ?]|]; try discriminate; injection Ey2 as <-; exact I.
    + discriminate.
Qed.

Lemma modest_safe : forall n rels, modest v E n rels -> forall inp, mget (e_inputs E) n = Some inp -> rels_safe unsigned_path E inp rels.
Proof.
  fix F 3. intros n rels [n' rels' H] inp Hi. constructor. intros name c Hin. destruct (H name c Hin) as (H1 & H2 & H3 & H4).
  split; [exact H1|]. split.
  - intros m Hm. destruct (H2 m Hm) as (K1 & K2 & K3). split; [exact K1|]. split; [exact K2|]. exact (parent_primitive _ _ _ Hi K3).
  - intros inp' Hi'. split; [|exact (F _ _ H4 inp' Hi')]. intros p r s Hg Hs. destruct (inputs_fine _ _ Hi') as [K _]. destruct (K p) as [_ K2]. apply (K2 r Hg), H3, Hs.
Qed.

Lemma boot_routes_ok s routes : In (s, routes) services -> Forall (route_ok unsigned_path E) routes.
Proof.
  intros Is. apply Forall_forall. intros r Ir. destruct (bt_route _ _ _ _ _ _ _ _ _ _ _ _ _ _ _ _ _ _ _ _ _ Hb _ _ _ Is Ir) as (sc & name & path & Isc & Ip & Mo & Hroute).
  pose proof (mget_In _ _ _ Mo) as Io.
  destruct (has_mget _ _ (ref_output v Href name _ Io)) as (c & Hc). destruct (bt_input _ _ _ _ _ _ _ _ _ _ _ _ _ _ _ _ _ _ _ _ _ Hb _ c Hc) as (st & _ & Hi).
  split; [|split].
  - eexists. split; [exact Hi|]. apply (modest_safe _ _ (rb_rels _ _ _ _ _ _ _ _ _ _ _ Hr _ _ Io) _ Hi).
  - intros pn pc Hpc. split; [apply (rb_params _ _ _ _ _ _ _ _ _ _ _ Hr _ _ _ _ Io Hpc)|]. intros f x w Hf Hw.
    destruct (fit_param v Hfit _ _ _ _ Io Hpc) as (_ & c' & Mc' & Hc'). destruct (parsers_fine _ _ Hf) as (c2 & Mc2 & -> & _). assert (c2 = c') by congruence. subst c2.
    apply (parser_primitive _ _ _ _ _ _) in Hw; [exact Hw|]. destruct c'; auto.
  - destruct (rb_routes _ _ _ _ _ _ _ _ _ _ _ Hr _ _ _ _ _ Isc Ip Mo) as (parts & names & cfgs & -> & Hcl). intros pth cs. apply (built_enough _ _ _ _ _ _ _ _ Hcl Hroute).
Qed.

Lemma boot_numbers : numeric v E -> records_numbers E.
Proof.
  intros H n inp p r d Hi Hg Ha. destruct (input_made _ _ Hi) as (c & s & Mc & Hn & ->). destruct (H _ _ Mc) as [K|K]; [|exact (K _ _ _ _ Hi Hg Ha)].
  eapply made_numbers; eassumption.
Qed.
End Boot.

Theorem system_one_response stat regexp_ok xpath_ok upper p v
  files mtime cap chunk decode_charset regexp_split new_charset csv_state json_state lower index_file visit fts_ok fts_match databases xml alg open_file listen
  services E ord err_text write_ok s routes rq :
  load stat regexp_ok xpath_ok upper p = Ok v ->
  boot files mtime cap chunk decode_charset regexp_split new_charset csv_state json_state lower index_file visit fts_ok fts_match databases xml alg open_file listen v = Done (services, E) ->
  robust files cap chunk decode_charset csv_state lower index_file visit fts_match v E ->
  order_ok ord -> (forall lt l, Permutation l (alg lt l)) -> In (s, routes) services ->
  exists st rest, fst (serve E ord json_float err_text write_ok routes rq) = Header st json_type :: rest /\
    ((st = 200 /\ exists r params x, first_match routes rq r /\ get_params r rq = Ok params /\ computes E ord (rt_output r) params x /\
        (rest = [] \/ exists b, rest = [Body b])) \/
     ((st = 404 \/ st = 500) /\ exists b text, rest = [Body b] /\ json_text b (JObj [(runes (lit "error"), JStr text)]))).
Proof.
  intros Hl Hb Hr Ho Hp Is. apply boot_booted in Hb. destruct Hb as (dbs & Hb).
  pose proof (load_references _ _ _ _ _ _ Hl) as Href. pose proof (load_fits _ _ _ _ _ _ Hl) as Hfit.
  assert (Hw : forall n path i ps ic, In (n, VIWildcard path i ps ic) (vc_indexes v) -> NoDup ps) by (intros; eapply load_wildcard_props; eassumption).
  apply (one_response E ord json_float err_text write_ok Ho) with (asked := unsigned_path).
  - rewrite (bt_sort _ _ _ _ _ _ _ _ _ _ _ _ _ _ _ _ _ _ _ _ _ Hb). exact Hp.
  - eapply boot_env_safe; eassumption.
  - eapply boot_routes_ok; eassumption.
Qed.

Theorem system_complete stat regexp_ok xpath_ok upper p v
  files mtime cap chunk decode_charset regexp_split new_charset csv_state json_state lower index_file visit fts_ok fts_match databases xml alg open_file listen
  services E ord err_text write_ok s routes rq ct rest :
  load stat regexp_ok xpath_ok upper p = Ok v ->
  boot files mtime cap chunk decode_charset regexp_split new_charset csv_state json_state lower index_file visit fts_ok fts_match databases xml alg open_file listen v = Done (services, E) ->
  robust files cap chunk decode_charset csv_state lower index_file visit fts_match v E -> numeric v E ->
  order_ok ord -> (forall lt l, Permutation l (alg lt l)) -> In (s, routes) services ->
  fst (serve E ord json_float err_text write_ok routes rq) = Header 200 ct :: rest ->
  exists r params x b j, first_match routes rq r /\ get_params r rq = Ok params /\ computes E ord (rt_output r) params x /\
    rest = [Body b] /\ json_text b j /\ denotes json_float j x.
Proof.
  intros Hl Hb Hr Hnum Ho Hp Is. apply boot_booted in Hb. destruct Hb as (dbs & Hb).
  pose proof (load_references _ _ _ _ _ _ Hl) as Href. pose proof (load_fits _ _ _ _ _ _ Hl) as Hfit.
  assert (Hw : forall n path i ps ic, In (n, VIWildcard path i ps ic) (vc_indexes v) -> NoDup ps) by (intros; eapply load_wildcard_props; eassumption).
  apply (success_complete E ord json_float err_text write_ok float_number Ho) with (asked := unsigned_path).
  - rewrite (bt_sort _ _ _ _ _ _ _ _ _ _ _ _ _ _ _ _ _ _ _ _ _ Hb). exact Hp.
  - eapply boot_env_safe; eassumption.
  - eapply boot_routes_ok; eassumption.
  - eapply boot_numbers; eassumption.
Qed.
