(** Decoding, then encoding. *)
From Coq Require Import String List ZArith Lia Bool Arith Permutation.
From Coq Require Import Strings.Byte Floats.SpecFloat.
From Coq Require Import ZifyBool.
From Verif Require Import Base BaseFacts Codec Value GoStrings SpecText StringsFacts Utf8Facts RegexFacts RecordsFacts Json SpecJson SpecFloatText SpecHttp HttpFacts JsonReader SpecJsonFile JsonFacts JsonReaderFacts JsonReaderFacts2 JsonReaderFacts3 FloatText FloatTextFacts FloatTextFacts2 SpecJsonDecode JsonDecode JsonDecodeFacts JsonDecodeFacts2 JsonDecodeFacts3 JsonDecodeFacts4 JsonDecodeFacts5 JsonDecodeFacts6 JsonDecodeFacts7.
Import ListNotations.
Open Scope Z_scope.

(** Characters are Unicode scalar values, numbers are literals. *)
Lemma hex4_range s u r : hex4 s = Some (u, r) -> 0 <= u <= 65535.
Proof.
  assert (Hv : forall b v, hex_val b = Some v -> 0 <= v <= 15).
  { intros b v. unfold hex_val. destruct (_ && _) eqn:E1; [intros H1; injection H1 as <-; lia|]. destruct ((97 <=? _) && _) eqn:E2; [intros H1; injection H1 as <-; lia|].
    destruct ((65 <=? _) && _) eqn:E3; [intros H1; injection H1 as <-; lia|discriminate]. }
  destruct s as [|a [|b [|c [|d s]]]]; try discriminate. cbn [hex4]. destruct (hex_val a) as [va|] eqn:Ea; [|discriminate]. destruct (hex_val b) as [vb|] eqn:Eb; [|discriminate].
  destruct (hex_val c) as [vc|] eqn:Ec; [|discriminate]. destruct (hex_val d) as [vd|] eqn:Ed; [|discriminate]. intros H. injection H as <- _. apply Hv in Ea, Eb, Ec, Ed. lia.
Qed.

Lemma rune_error_scalar : scalar rune_error.
Proof. right. split; discriminate. Qed.
Lemma decode_scalar b s c w : decode_rune (b :: s) = (c, w) -> scalar c.
Proof. intros H. destruct (Z.eq_dec c rune_error) as [->|Hc]; [apply rune_error_scalar|]. apply (decode_char _ _ _ _ H Hc). Qed.
Lemma unicode_escape_scalar r c r' : character (x5c :: x75 :: r) = Some (c, r') -> scalar c.
Proof.
  unfold character. destruct (hex4 r) as [[u r1]|] eqn:Eu; [|discriminate]. apply hex4_range in Eu. destruct ((55296 <=? u) && (u <=? 56319)) eqn:E1.
  - destruct r1 as [|b1 r1]; [discriminate|]. destruct (Byte.byte_eq_dec b1 x5c) as [->|N]; [|destruct b1; try discriminate; contradiction].
    destruct r1 as [|b2 r1]; [discriminate|]. destruct (Byte.byte_eq_dec b2 x75) as [->|N]; [|destruct b2; try discriminate; contradiction].
    destruct (hex4 r1) as [[v r3]|] eqn:Ev; [|discriminate]. destruct ((56320 <=? v) && (v <=? 57343)) eqn:E2; [|discriminate]. intros H. assert (Hc : c = 65536 + (u - 55296) * 1024 + (v - 56320)) by congruence. rewrite Hc. right. lia.
  - destruct ((56320 <=? u) && (u <=? 57343)) eqn:E2; [discriminate|]. intros H. injection H as <- _. unfold scalar. lia.
Qed.
Lemma character_scalar s c r : character s = Some (c, r) -> scalar c.
Proof.
  destruct s as [|b s]; [discriminate|]. destruct (Byte.byte_eq_dec b x5c) as [->|Hb].
  - destruct s as [|e s]; [discriminate|]. destruct (Byte.byte_eq_dec e x75) as [->|He]; [apply unicode_escape_scalar|].
    assert (Hs : forall z, 0 <= z <= 127 -> scalar z) by (intros z Hz; left; lia).
    destruct e; try discriminate; try contradiction; (intros H; injection H as <- _; apply Hs; lia).
  - intros H. assert (E : character (b :: s) = if (Z_of_byte b <? 32) || beqb b x22 || beqb b x5c then None else let '(c, w) := decode_rune (b :: s) in if (c =? rune_error) && Nat.eqb w 1 then None else Some (c, skipn w (b :: s)))
      by (destruct b; try reflexivity; contradiction).
    rewrite E in H. destruct (_ || _); [discriminate|]. destruct (decode_rune (b :: s)) as [c' w] eqn:Ed. destruct (_ && _); [discriminate|]. injection H as <- _. eapply decode_scalar. exact Ed.
Qed.
Lemma lcharacters_scalar : forall fuel s cs r, lcharacters fuel s = Some (cs, r) -> Forall scalar cs.
Proof.
  induction fuel as [|fuel IH]; intros s cs r H; [discriminate|]. cbn [lcharacters] in H.
  assert (Hc : match lcharacter s with None => None | Some (c, r) => match lcharacters fuel r with None => None | Some (cs, r') => Some (c :: cs, r') end end = Some (cs, r) -> Forall scalar cs).
  { destruct (lcharacter s) as [[c r1]|] eqn:Ec; [|discriminate]. destruct (lcharacters fuel r1) as [[cs1 r2]|] eqn:E; [|discriminate]. intros E'. injection E' as <- _. constructor; [|apply (IH _ _ _ E)].
    apply lcharacter_cases in Ec as [Ec|[(_ & -> & _)|(_ & -> & _)]]; [eapply character_scalar; exact Ec|apply rune_error_scalar|apply rune_error_scalar]. }
  destruct s as [|b s]; [apply Hc; exact H|]. destruct (Byte.byte_eq_dec b x22) as [->|Hb]; [injection H as <- _; constructor|]. apply Hc. destruct b; try exact H; contradiction.
Qed.

(** What the data of texts has in common. *)
Inductive clean : json -> Prop :=
| cl_null : clean JNull
| cl_bool b : clean (JBool b)
| cl_num t : Forall (fun c => alph c = true) t -> clean (JNum t)
| cl_str cs : Forall scalar cs -> clean (JStr cs)
| cl_arr l : Forall clean l -> clean (JArr l)
| cl_obj m : Forall (fun kj => Forall scalar (fst kj) /\ clean (snd kj)) m -> clean (JObj m).
Lemma number_alph s t r : number s = Some (t, r) -> Forall (fun c => alph c = true) t.
Proof.
  intros H. apply number_bytes in H as (_ & H & _). rewrite forallb_forall in H. apply Forall_forall. intros c Hc. specialize (H c Hc). unfold number_byte in H. unfold alph. apply orb_true_iff in H as [H|H]; [rewrite H; reflexivity|].
  apply orb_true_iff. right. destruct c; try discriminate H; reflexivity.
Qed.
Lemma l_clean : forall fuel, (forall s j r, lvalue fuel s = Some (j, r) -> clean j) /\ (forall s l r, litems fuel s = Some (l, r) -> Forall clean l) /\
  (forall s m r, lmembers fuel s = Some (m, r) -> Forall (fun kj => Forall scalar (fst kj) /\ clean (snd kj)) m).
Proof.
  induction fuel as [|fuel (Hv & Hi & Hm)]; [split; [|split]; intros; discriminate|]. split; [|split]; intros s x r H.
  - cbn [lvalue] in H. destruct (skip_ws s) as [|c q]; [discriminate|].
    assert (Hn : match number (c :: q) with Some (t, r) => Some (JNum t, r) | None => None end = Some (x, r) -> clean x).
    { destruct (number (c :: q)) as [[t r']|] eqn:E; [|discriminate]. intros E'. injection E' as <- _. constructor. eapply number_alph. exact E. }
    assert (Hk : forall k v, clean v -> keyword k q v = Some (x, r) -> clean x) by (intros k v Hc; unfold keyword; destruct (has_prefix _ _); [|discriminate]; intros E'; injection E' as <- _; exact Hc).
    assert (Hs : match lcharacters fuel q with Some (cs, r') => Some (JStr cs, r') | None => None end = Some (x, r) -> clean x).
    { destruct (lcharacters fuel q) as [[cs r']|] eqn:E; [|discriminate]. intros E'. injection E' as <- _. constructor. eapply lcharacters_scalar. exact E. }
    assert (Ha : match skip_ws q with x5d :: r' => Some (JArr [], r') | _ => match litems fuel q with Some (l, r') => Some (JArr l, r') | None => None end end = Some (x, r) -> clean x).
    { assert (Hl : match litems fuel q with Some (l, r') => Some (JArr l, r') | None => None end = Some (x, r) -> clean x) by (destruct (litems fuel q) as [[l r']|] eqn:E; [|discriminate]; intros E'; injection E' as <- _; constructor; eapply Hi; exact E).
      destruct (skip_ws q) as [|b q']; [exact Hl|]. destruct b; try exact Hl. intros E'. injection E' as <- _. repeat constructor. }
    assert (Ho : match skip_ws q with x7d :: r' => Some (JObj [], r') | _ => match lmembers fuel q with Some (l, r') => Some (JObj l, r') | None => None end end = Some (x, r) -> clean x).
    { assert (Hl : match lmembers fuel q with Some (l, r') => Some (JObj l, r') | None => None end = Some (x, r) -> clean x) by (destruct (lmembers fuel q) as [[l r']|] eqn:E; [|discriminate]; intros E'; injection E' as <- _; constructor; eapply Hm; exact E).
      destruct (skip_ws q) as [|b q']; [exact Hl|]. destruct b; try exact Hl. intros E'. injection E' as <- _. repeat constructor. }
    pose proof (Hk (lit "ull") JNull cl_null) as K1. pose proof (Hk (lit "rue") (JBool true) (cl_bool true)) as K2. pose proof (Hk (lit "alse") (JBool false) (cl_bool false)) as K3.
    clear Hk. destruct c; first [apply Hn; exact H|apply K1; exact H|apply K2; exact H|apply K3; exact H|apply Hs; exact H|apply Ha; exact H|apply Ho; exact H].
  - cbn [litems] in H. destruct (lvalue fuel s) as [[j r1]|] eqn:E; [|discriminate]. destruct (skip_ws r1) as [|b r']; [discriminate|]. apply Hv in E.
    destruct b; try discriminate; [|injection H as <- _; repeat constructor; exact E]. destruct (litems fuel r') as [[l r2]|] eqn:E'; [|discriminate]. injection H as <- _. constructor; [exact E|]. eapply Hi. exact E'.
  - cbn [lmembers] in H. destruct (skip_ws s) as [|b q]; [discriminate|]. destruct b; try discriminate.
    destruct (lcharacters fuel q) as [[k r1]|] eqn:Ek; [|discriminate]. apply lcharacters_scalar in Ek. destruct (skip_ws r1) as [|b r2]; [discriminate|]. destruct b; try discriminate.
    destruct (lvalue fuel r2) as [[j r3]|] eqn:E; [|discriminate]. apply Hv in E. destruct (skip_ws r3) as [|b r']; [discriminate|].
    destruct b; try discriminate; [|injection H as <- _; constructor; [split; assumption|constructor]]. destruct (lmembers fuel r') as [[m r4]|] eqn:E'; [|discriminate]. injection H as <- _. constructor; [split; assumption|]. eapply Hm. exact E'.
Qed.
Lemma accepted_clean t j : accepted_text t j -> clean j.
Proof. intros (f & r & E & _). eapply l_clean. exact E. Qed.

(** Numbers are finite. *)
Lemma parse_finite t f : Forall (fun c => alph c = true) t -> go_parse_float t = Ok f -> float64 f.
Proof.
  intros Ha H. destruct (literal_refused t Ha) as [(neg & m & fr & e & Hl)|E]; [|congruence]. apply literal_reads in Hl as (z & E & _ & Hm). rewrite E in H.
  destruct (scaled_spec neg m (z - fr) Hm) as [(_ & E')|(_ & g & E' & _ & Hn)]; [congruence|]. rewrite E' in H. injection H as <-. apply Hn.
Qed.
Lemma float64_number f : float64 f -> is_number f = true.
Proof. intros (_ & H). destruct f; try contradiction; reflexivity. Qed.

Lemma text_inj k1 k2 : Forall scalar k1 -> Forall scalar k2 -> text k1 = text k2 -> k1 = k2.
Proof. intros H1 H2 H. rewrite <- (runes_text k1 H1), H. apply runes_text. exact H2. Qed.
Lemma put_distinct m : Forall (fun kj : list Z * json => Forall scalar (fst kj)) m -> NoDup (map fst m) -> fold_left put m [] = map (fun kj => (text (fst kj), go_value (snd kj))) m.
Proof.
  induction m as [|[k j] m IH] using rev_ind; intros Hs Hn; [reflexivity|]. apply Forall_app in Hs as [Hs Hk]. inversion Hk as [|? ? Hk1 _]; subst. cbn [fst] in Hk1.
  rewrite map_app in Hn. cbn [map fst] in Hn. pose proof (NoDup_remove _ _ _ Hn) as [Hn1 Hn2]. rewrite app_nil_r in Hn1, Hn2.
  rewrite fold_left_app, map_app. cbn [fold_left map]. rewrite IH by assumption. unfold put. cbn [fst snd]. apply mset_new. rewrite map_map. cbn [fst].
  intros Hin. apply in_map_iff in Hin as ([k' j'] & Ek & Hin). cbn [fst] in Ek. apply Hn2. rewrite Forall_forall in Hs. apply text_inj in Ek; [|apply (Hs _ Hin)|exact Hk1]. subst k'. apply in_map_iff. exists (k, j'). auto.
Qed.

Lemma value_numbers j : clean j -> distinct_names j -> numbers_only (go_value j).
Proof.
  induction j as [|b|t|cs|l IH|m IH] using json_rec; intros Hc Hd; cbn [go_value]; try (constructor; fail).
  - inversion Hc as [| |? Ha| | |]; subst. destruct (go_parse_float t) as [f|e| |] eqn:E; constructor. apply float64_number. eapply parse_finite; eassumption.
  - inversion Hc as [| | | |? Hl|]; subst. inversion Hd as [| | | |? Hdl|]; subst. constructor. apply Forall_map. rewrite Forall_forall in *. intros j Hj. apply IH; auto.
  - inversion Hc as [| | | | |? Hl]; subst. inversion Hd as [| | | | |? Hn Hdl]; subst. constructor.
    change (fold_left (fun acc kj => mset acc (text (fst kj)) (go_value (snd kj))) m []) with (fold_left put m []).
    rewrite put_distinct; [|eapply Forall_impl; [|exact Hl]; intros a [Ha _]; exact Ha|exact Hn]. apply Forall_map. rewrite Forall_forall in *. intros [k j] Hj. cbn [snd]. apply (IH _ Hj); [apply (Hl _ Hj)|apply (Hdl _ Hj)].
Qed.

Section RoundTrip.
Variable fmt_float : spec_float -> bytes.
Hypothesis fmt_back : forall f, float64 f -> go_parse_float (fmt_float f) = Ok f.

Lemma same_encoded j : forall j', clean j -> distinct_names j -> bad j = false -> denotes fmt_float j' (go_value j) -> same_data j j'.
Proof.
  induction j as [|b|t|cs|l IH|m IH] using json_rec; intros j' Hc Hd Hb H; cbn [go_value bad] in *.
  - inversion H. constructor.
  - inversion H. constructor.
  - inversion Hc as [| |? Ha| | |]; subst. destruct (go_parse_float t) as [f|e| |] eqn:E; try discriminate. inversion H; subst. econstructor; [exact E|]. apply fmt_back. eapply parse_finite; eassumption.
  - inversion Hc; subst. inversion H; subst. rewrite runes_text by assumption. constructor.
  - inversion Hc as [| | | |? Hl|]; subst. inversion Hd as [| | | |? Hdl|]; subst. inversion H as [| | | | |js l' HF|]; subst. constructor. clear H Hc Hd. revert js HF.
    induction l as [|j l IHl]; intros js HF; cbn [map] in HF; inversion HF as [|j1 ? js1 ? Hj HF1]; subst; constructor.
    + cbn [existsb] in Hb. apply orb_false_iff in Hb as [Hb1 Hb2]. inversion IH; subst. inversion Hl; subst. inversion Hdl; subst. auto.
    + cbn [existsb] in Hb. apply orb_false_iff in Hb as [Hb1 Hb2]. inversion IH; subst. inversion Hl; subst. inversion Hdl; subst. auto.
  - inversion Hc as [| | | | |? Hl]; subst. inversion Hd as [| | | | |? Hn Hdl]; subst.
    change (fold_left (fun acc kj => mset acc (text (fst kj)) (go_value (snd kj))) m []) with (fold_left put m []) in H.
    rewrite put_distinct in H; [|eapply Forall_impl; [|exact Hl]; intros a [Ha _]; exact Ha|exact Hn].
    inversion H as [| | | | | |ms ms' m' Hp HF]; subst. apply (same_obj m ms ms' Hp). clear H Hc Hd Hn Hp ms. revert ms' HF.
    induction m as [|[k j] m IHm]; intros ms HF; cbn [map] in HF; inversion HF as [|[k1 j1] ? ms1 ? [Hk Hj] HF1]; subst; constructor.
    + cbn [existsb snd fst] in *. apply orb_false_iff in Hb as [Hb1 Hb2]. inversion IH; subst. inversion Hl as [|? ? [Hs1 Hs2] ?]; subst. inversion Hdl; subst. cbn [fst snd] in *. split; [symmetry; apply runes_text; exact Hs1|auto].
    + cbn [existsb snd fst] in *. apply orb_false_iff in Hb as [Hb1 Hb2]. inversion IH; subst. inversion Hl; subst. inversion Hdl; subst. auto.
Qed.
Hypothesis fmt_number : forall f, is_number f = true -> number_text (fmt_float f).

Lemma round_trip t j : accepted_text t j -> distinct_names j -> ~ out_of_range j ->
  exists v b j', go_unmarshal t = Ok v /\ json_encode fmt_float v = Ok b /\ json_text (b ++ [x0a]) j' /\ same_data j j'.
Proof.
  intros H Hd Ho. assert (Hb : bad j = false) by (destruct (bad j) eqn:E; [apply bad_range in E; contradiction|reflexivity]). pose proof (accepted_clean _ _ H) as Hc.
  destruct (numbers_encode fmt_float (go_value j) (value_numbers j Hc Hd)) as (b & Eb). destruct (encode_complete fmt_float fmt_number (go_value j) b Eb) as (j' & Hj & Hden).
  exists (go_value j), b, j'. split; [rewrite (unmarshal_accepted _ _ H); unfold outcome; rewrite Hb; reflexivity|]. split; [exact Eb|]. split; [exact Hj|]. apply same_encoded; assumption.
Qed.
Lemma round_trip_map t m : accepted_text t (JObj m) -> distinct_names (JObj m) -> ~ out_of_range (JObj m) ->
  exists data b j', decode_map t = Ok data /\ json_encode fmt_float (VMap data) = Ok b /\ json_text (b ++ [x0a]) j' /\ same_data (JObj m) j'.
Proof.
  intros H Hd Ho. destruct (round_trip t (JObj m) H Hd Ho) as (v & b & j' & Ev & Eb & Hj & Hs). rewrite (unmarshal_accepted _ _ H) in Ev.
  exists (fold_left put m []), b, j'. rewrite (decode_map_accepted _ _ H). unfold outcome in *. destruct (bad (JObj m)); [discriminate|]. injection Ev as <-. auto.
Qed.
End RoundTrip.

(** A number of RFC 8259 is a decimal number of C61. *)
Lemma number_literal s t r : number s = Some (t, r) -> exists neg m f e, SpecFloatText.literal t neg m f e.
Proof.
  unfold number. set (p := match s with x2d :: r => ([x2d], r) | _ => ([], s) end).
  assert (Hp : In (fst p) [[]; lit "+"; lit "-"]) by (subst p; destruct s as [|b s]; [left; reflexivity|]; destruct b; (left; reflexivity) || (right; right; left; reflexivity)).
  destruct p as [sg s1]. cbn [fst] in Hp. destruct (num_int s1) as [[i s2]|] eqn:Ei; [|discriminate]. destruct (num_frac s2) as [[f s3]|] eqn:Ef; [|discriminate]. destruct (num_exp s3) as [[x s4]|] eqn:Ex; [|discriminate].
  intros H. injection H as <- <-.
  assert (Hi : i <> [] /\ forallb is_digit i = true).
  { unfold num_int in Ei. destruct s1 as [|b s1]; [discriminate|]. destruct (Byte.byte_eq_dec b x30) as [->|Hb]; [injection Ei as <- _; split; [discriminate|reflexivity]|].
    assert (Ed : match digits (b :: s1) with ([], _) => None | dr => Some dr end = Some (i, s2)) by (destruct b; try exact Ei; contradiction).
    destruct (digits (b :: s1)) as [[|d ds] r'] eqn:E; [discriminate|]. injection Ed as <- <-. apply digits_split in E as (_ & E & _). split; [discriminate|exact E]. }
  assert (Hx : exists e, exponent x e).
  { unfold num_exp in Ex. destruct s3 as [|b s3]; [injection Ex as <- _; eexists; constructor|].
    assert (Hn : (b <> x65 /\ b <> x45 -> exists e, exponent x e)) by (intros [N1 N2]; assert (E : Some (@nil byte, b :: s3) = Some (x, s4)) by (destruct b; try exact Ex; contradiction); injection E as <- _; eexists; constructor).
    assert (Hy : forall e, In e (lit "eE") -> (let '(sg, r1) := match s3 with (x2b | x2d) as c :: r1 => ([c], r1) | _ => ([], s3) end in match digits r1 with ([], _) => None | (d, r') => Some (e :: sg ++ d, r') end) = Some (x, s4) -> exists e, exponent x e).
    { intros e He. set (p := match s3 with (x2b | x2d) as c :: r1 => ([c], r1) | _ => ([], s3) end).
      assert (Hpp : In (fst p) [[]; lit "+"; lit "-"]) by (subst p; destruct s3 as [|b3 s3]; [left; reflexivity|]; destruct b3; (left; reflexivity) || (right; left; reflexivity) || (right; right; left; reflexivity)).
      destruct p as [sg' r1]. cbn [fst] in Hpp. destruct (digits r1) as [[|d ds] r'] eqn:E; [discriminate|]. intros E'. injection E' as <- _. apply digits_split in E as (_ & E & _).
      eexists. apply (ex_some e sg' (d :: ds) (digits_value (d :: ds) 0) He Hpp). apply decimal_spec. split; [discriminate|]. split; [exact E|reflexivity]. }
    destruct (Byte.byte_eq_dec b x65) as [->|N1]; [apply (Hy x65); [left; reflexivity|exact Ex]|]. destruct (Byte.byte_eq_dec b x45) as [->|N2]; [apply (Hy x45); [right; left; reflexivity|exact Ex]|]. auto. }
  destruct Hx as (e & Hx). destruct Hi as (Hi1 & Hi2). unfold num_frac in Ef.
  assert (Hf : f = [] \/ exists fs, f = x2e :: fs /\ forallb is_digit fs = true).
  { destruct s2 as [|b s2]; [injection Ef as <- _; auto|]. destruct (Byte.byte_eq_dec b x2e) as [->|N]; [|left; assert (E : Some (@nil byte, b :: s2) = Some (f, s3)) by (destruct b; try exact Ef; contradiction); injection E as <- _; reflexivity].
    destruct (digits s2) as [[|d ds] r'] eqn:E; [discriminate|]. injection Ef as <- _. apply digits_split in E as (_ & E & _). right. eauto. }
  destruct Hf as [->|(fs & -> & Hfs)].
  - do 4 eexists. apply (literal_whole sg i (digits_value i 0) x e Hp); [apply decimal_spec; auto|exact Hx].
  - do 4 eexists. apply (literal_dot sg i fs (digits_value (i ++ fs) 0) x e Hp); [|exact Hx]. apply decimal_spec. split; [destruct i; [contradiction|discriminate]|]. split; [rewrite forallb_app, Hi2, Hfs; reflexivity|reflexivity].
Qed.
