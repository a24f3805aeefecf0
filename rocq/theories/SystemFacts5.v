(** From the configuration to the errors: the requests that no endpoint takes, and
    those with a value which is refused. *)
From Coq Require Import List ZArith Lia Bool String Permutation Sorted.
From Coq Require Import Strings.Byte Floats.SpecFloat.
From Verif Require Import XmlStream XmlInput.
From Verif Require Import Sql SqlIndex SpecSql SpecSqlFind.
From Verif Require Import FloatFormat Base BaseFacts Codec Value GoStrings Parser FloatText JsonDecode Records SpecRecords SpecText Prog Bufio CsvReader SpecCsv.
From Verif Require Import JsonReader SpecJsonFile Join Index SpecIndex Sort SpecOrder Output SpecOutput OutputFacts3 SpecJson Json Http SpecHttp HttpFacts Regex Route Config SpecConfig Start.
From Verif Require Import System SpecSystem ConfigFacts ConfigFacts2 ConfigFacts4 SystemFacts SystemFacts3.
Import ListNotations.
Open Scope Z_scope.

Lemma told_bind {A B} (r : res A) (f : A -> res B) : told r -> (forall a, told (f a)) -> told (rbind r f).
Proof. destruct r as [a|[| | |m]| |]; cbn; auto. Qed.

Lemma atoi_told s : told (atoi s).
Proof.
  unfold atoi. destruct (match s with x2d :: r => _ | x2b :: r => _ | _ => _ end) as [neg ds]. destruct ds; [exact I|].
  destruct (forallb is_digit _); [|exact I]. cbv zeta. destruct (_ && _); exact I.
Qed.

Lemma nearest_told neg n d : told (nearest neg n d).
Proof.
  unfold nearest. cbv zeta. match goal with |- told (let '(m2, k2) := ?x in _) => destruct x as [m2 k2] end.
  destruct (2045 <? k2); [exact I|]. destruct m2; exact I.
Qed.

Lemma float_told s : told (go_parse_float s).
Proof.
  unfold go_parse_float. destruct (special_float s); [exact I|]. cbv zeta.
  match goal with |- told (let '(hex, s2) := ?x in _) => destruct x as [hex s2] end.
  destruct (read_mantissa hex s2 _) as [a s3]. destruct (negb (mt_digits a)); [exact I|].
  destruct (read_exponent hex s3) as [[[e u] [|]]|]; try exact I.
  destruct (_ && _); [exact I|]. destruct hex; apply nearest_told.
Qed.

Section Told.
Variable decode_charset : bytes -> bytes -> res bytes.
Variable regexp_split : bytes -> bytes -> list bytes.
Hypothesis Hcharset : forall c s, told (decode_charset c s).

Lemma parsed_told ps c s : match c with PString _ | PInteger _ | PFloat _ _ | PBoolean _ _ => True | PJson | PSplit _ _ _ => False end ->
  told (parser_of decode_charset regexp_split ps c s).
Proof.
  intros Hc. unfold parser_of. cbn [parse]. destruct c; try destruct Hc.
  - unfold parse_string. destruct charset; [exact I|]. apply told_bind; [apply Hcharset|intros; exact I].
  - unfold parse_integer. apply told_bind; [apply atoi_told|intros; exact I].
  - unfold parse_float_value. cbv zeta. apply told_bind; [apply float_told|intros; exact I].
  - unfold parse_boolean. destruct (is_in_array s trues); [exact I|]. destruct (is_in_array s falses); exact I.
Qed.

Variable E : env.

Lemma array_filters_told params pcs name pc s parse e :
  (forall n p, In (n, p) pcs -> exists f, mget (e_parsers E) (pm_parser p) = Some f /\ forall s, told (f s)) ->
  In (name, pc) pcs -> mget params name = Some s -> mget (e_parsers E) (pm_parser pc) = Some parse -> parse s = Err e ->
  forall fpi, exists m, array_filters E params pcs fpi = Err (EMsg m).
Proof.
  intros Hs Hin H1 H2 H3. induction pcs as [|[n c] pcs IH]; [destruct Hin|]. intros fpi. cbn [array_filters].
  destruct (Hs n c (or_introl eq_refl)) as (f & Hf & Ht). destruct Hin as [He|Hin].
  - injection He as -> ->. rewrite H1, H2, H3. assert (f = parse) as -> by congruence. specialize (Ht s). rewrite H3 in Ht.
    destruct e; destruct Ht. cbn [rbind]. eauto.
  - destruct (mget params n) as [s'|]; [|apply IH; [intros; eapply Hs; right; eassumption|assumption]].
    rewrite Hf. specialize (Ht s'). destruct (f s') as [x|e'| |]; try destruct Ht; [|destruct e'; destruct Ht; cbn [rbind]; eauto].
    cbn [rbind]. apply IH; [intros; eapply Hs; right; eassumption|assumption].
Qed.

Lemma object_filters_told params pcs name pc parse e :
  (forall n p, In (n, p) pcs -> exists f, mget (e_parsers E) (pm_parser p) = Some f /\ forall s, told (f s)) ->
  In (name, pc) pcs -> mget (e_parsers E) (pm_parser pc) = Some parse -> parse (match mget params name with Some s => s | None => [] end) = Err e ->
  forall fpi, exists m, object_filters E params pcs fpi = Err (EMsg m).
Proof.
  intros Hs Hin H2 H3. induction pcs as [|[n c] pcs IH]; [destruct Hin|]. intros fpi. cbn [object_filters].
  destruct (Hs n c (or_introl eq_refl)) as (f & Hf & Ht). destruct Hin as [He|Hin].
  - injection He as -> ->. rewrite H2, H3. assert (f = parse) as -> by congruence. specialize (Ht (match mget params name with Some s => s | None => [] end)). rewrite H3 in Ht.
    destruct e; destruct Ht. cbn [rbind]. eauto.
  - rewrite Hf. specialize (Ht (match mget params n with Some s => s | None => [] end)). destruct (f _) as [x|e'| |]; try destruct Ht; [|destruct e'; destruct Ht; cbn [rbind]; eauto].
    cbn [rbind]. apply IH; [intros; eapply Hs; right; eassumption|assumption].
Qed.
End Told.

Lemma limit_told c params : told (get_limit c params).
Proof.
  unfold get_limit. apply told_bind; [|intros; exact I]. destruct (mget params (ac_limit_param c)) as [s|]; [|exact I].
  apply told_bind; [apply atoi_told|]. intros n. destruct (n <=? 0); exact I.
Qed.
Lemma offset_told c params : told (get_offset c params).
Proof.
  unfold get_offset. destruct (mget params (ac_offset_param c)) as [s|]; [|exact I].
  apply told_bind; [apply atoi_told|]. intros n. destruct (n <? 0); exact I.
Qed.

Section Errors.
Variable E : env.
Variable ord : order.
Variable err_text : err -> bytes.
Variable write_ok : response -> bytes -> bool.
Notation serve := (serve E ord json_float err_text write_ok).
Notation refusal st rs := (error_response err_text st (fst rs)).

Lemma error_sent st m w : w = [] -> refusal st (send_error_response json_float err_text write_ok st (EMsg m) w).
Proof.
  intros ->. destruct (error_text json_float err_text (EMsg m)) as (b & Eb). pose proof (error_json json_float err_text (EMsg m) b Eb) as Hj.
  exists b, m. split; [|exact Hj]. unfold send_error_response. rewrite Eb. reflexivity.
Qed.

Lemma no_route routes rq : (rq_method rq = lit "GET" -> forall r, In r routes -> rt_match r (rq_path rq) = None) -> refusal 404 (serve routes rq).
Proof. intros H. apply matching_none in H. unfold Http.serve. rewrite H. apply error_sent. reflexivity. Qed.

Lemma failure_sent routes rq r params m : first_match routes rq r -> get_params r rq = Ok params ->
  fails E ord (rt_output r) params (EMsg m) -> refusal 500 (serve routes rq).
Proof.
  intros Hm Hp Hf. unfold Http.serve. rewrite (proj2 (matching_first routes rq r) Hm), Hp. unfold handle.
  specialize (Hf response (send_error json_float err_text write_ok) send_success (write write_ok) (json_encode json_float) []).
  destruct (rt_output r); rewrite Hf; apply error_sent; reflexivity.
Qed.
End Errors.

Lemma system_no_route : forall v
  files mtime cap chunk decode_charset regexp_split new_charset csv_state json_state lower index_file visit fts_ok fts_match databases xml alg open_file listen
  services E ord err_text write_ok s routes rq,
  boot files mtime cap chunk decode_charset regexp_split new_charset csv_state json_state lower index_file visit fts_ok fts_match databases xml alg open_file listen v = Done (services, E) ->
  In (s, routes) services -> (forall r, ~ first_match routes rq r) ->
  error_response err_text 404 (fst (serve E ord json_float err_text write_ok routes rq)).
Proof.
  intros until rq. intros _ _ H. apply no_route. apply matching_none. destruct (matching_route routes rq) as [r|] eqn:Em; [|reflexivity].
  apply matching_first in Em. destruct (H r Em).
Qed.

Lemma system_refused : forall stat regexp_ok xpath_ok upper p v
  files mtime cap chunk decode_charset regexp_split new_charset csv_state json_state lower index_file visit fts_ok fts_match databases xml alg open_file listen
  services E ord err_text write_ok s routes rq r params,
  load stat regexp_ok xpath_ok upper p = Ok v ->
  boot files mtime cap chunk decode_charset regexp_split new_charset csv_state json_state lower index_file visit fts_ok fts_match databases xml alg open_file listen v = Done (services, E) ->
  order_ok ord -> (forall c s, told (decode_charset c s)) ->
  In (s, routes) services -> first_match routes rq r -> get_params r rq = Ok params ->
  refused (named_parser decode_charset regexp_split v) params (rt_output r) ->
  error_response err_text 500 (fst (serve E ord json_float err_text write_ok routes rq)).
Proof.
  intros until params. intros Hl Hb Hord Hcs Is Hm Hp Hr. apply boot_booted in Hb. destruct Hb as (dbs & Hb).
  destruct (routed _ _ _ _ _ _ _ _ _ _ _ _ _ _ _ _ _ _ _ _ _ Hb s routes rq r Is Hm) as (n & Io).
  pose proof (load_references _ _ _ _ _ _ Hl) as Href. pose proof (load_fits _ _ _ _ _ _ Hl) as Hfit.
  assert (Hin : exists inp, mget (e_inputs E) (out_input (rt_output r)) = Some inp).
  { destruct (has_mget _ _ (ref_output v Href n _ Io)) as (c & Hc). destruct (bt_input _ _ _ _ _ _ _ _ _ _ _ _ _ _ _ _ _ _ _ _ _ Hb _ c Hc) as (st & _ & Hi). eauto. }
  assert (Hps : forall name pc, In (name, pc) (out_params (rt_output r)) -> exists f, mget (e_parsers E) (pm_parser pc) = Some f /\
     f = named_parser decode_charset regexp_split v (pm_parser pc) /\ forall s, told (f s)).
  { intros name pc Ip. destruct (fit_param v Hfit n _ name pc Io Ip) as (_ & c & Mc & Pc). exists (parser_of decode_charset regexp_split (vc_parsers v) c).
    split; [apply (bt_parser _ _ _ _ _ _ _ _ _ _ _ _ _ _ _ _ _ _ _ _ _ Hb _ _ Mc)|]. split; [unfold named_parser; rewrite Mc; reflexivity|].
    intros s0. apply parsed_told; assumption. }
  destruct Hin as (inp & Hin).
  assert (exists m, fails E ord (rt_output r) params (EMsg m)) as (m & Hf); [|exact (failure_sent E ord err_text write_ok routes rq r params m Hm Hp Hf)].
  destruct (rt_output r) as [c|c] eqn:Eo; cbn [out_input out_params] in *.
  - unfold fails, handle_array. rewrite Hin. pose proof (limit_told c params) as Tl. pose proof (offset_told c params) as To.
    destruct (get_limit_inv c params) as [(lim & El & _ & H1)|(e & El)]; rewrite El in *; [|destruct e; destruct Tl; eexists; reflexivity]. cbn [check].
    destruct (get_offset_inv c params) as [(off & Ef & H2 & H3)|(e & Ef)]; rewrite Ef in *; [|destruct e; destruct To; eexists; reflexivity]. cbn [check].
    inversion Hr as [c0 s0 G1 G2|c0 s0 G1 G2|c0 name pc s0 e G1 G2 G3|]; subst.
    + rewrite G1 in H1. destruct H1 as (z & K1 & K2 & K3 & _). specialize (G2 z K1 K2). lia.
    + rewrite G1 in H3. destruct H3 as (K1 & K2). specialize (G2 off K1 K2). lia.
    + destruct (Hps name pc G1) as (f & Hf & -> & _).
      destruct (array_filters_told E params (ord [Key (lit "parameters")] _ (ac_params c)) name pc s0 (named_parser decode_charset regexp_split v (pm_parser pc)) e) with (fpi := @nil (bytes * filters)) as (m & ->).
      * intros n0 p0 I0. destruct (Hps n0 p0) as (f & ? & _ & ?); [|eauto]. eapply Permutation_in; [apply Permutation_sym, Hord|exact I0].
      * eapply Permutation_in; [apply Hord|exact G1].
      * exact G2.
      * exact Hf.
      * exact G3.
      * exists m. reflexivity.
  - unfold fails, handle_object. rewrite Hin. inversion Hr as [| | |c0 name pc s0 e G1 G2 G3]; subst. destruct (Hps name pc G1) as (f & Hf & -> & _).
    destruct (object_filters_told E params (ord [Key (lit "parameters")] _ (oc_params c)) name pc (named_parser decode_charset regexp_split v (pm_parser pc)) e) with (fpi := @nil (bytes * filters)) as (m & ->).
    + intros n0 p0 I0. destruct (Hps n0 p0) as (f & ? & _ & ?); [|eauto]. eapply Permutation_in; [apply Permutation_sym, Hord|exact I0].
    + eapply Permutation_in; [apply Hord|exact G1].
    + exact Hf.
    + destruct G2 as [->|(-> & ->)]; exact G3.
    + exists m. reflexivity.
Qed.
