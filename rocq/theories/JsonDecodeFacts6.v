(** The decoder: whole texts. *)
From Coq Require Import String List ZArith Lia Bool Arith.
From Coq Require Import Strings.Byte Floats.SpecFloat.
From Coq Require Import ZifyBool.
From Verif Require Import Base BaseFacts Codec Value GoStrings SpecText SpecJson Prog JsonReader SpecJsonFile JsonFacts JsonReaderFacts JsonReaderFacts2 JsonReaderFacts3 FloatText FloatTextFacts2 SpecJsonDecode JsonDecode JsonDecodeFacts JsonDecodeFacts2 JsonDecodeFacts3 JsonDecodeFacts4 JsonDecodeFacts5.
Import ListNotations.
Open Scope Z_scope.

(** More fuel, same answer. *)
Lemma lcharacters_more : forall fuel s x, lcharacters fuel s = Some x -> forall fuel', (fuel <= fuel')%nat -> lcharacters fuel' s = Some x.
Proof.
  induction fuel as [|fuel IH]; intros s x H fuel' Hf; [discriminate|]. destruct fuel' as [|fuel']; [lia|]. cbn [lcharacters] in *.
  assert (Hc : forall o, match o with None => None | Some (c, r) => match lcharacters fuel r with None => None | Some (cs, r') => Some (c :: cs, r') end end = Some x ->
    match o with None => None | Some (c, r) => match lcharacters fuel' r with None => None | Some (cs, r') => Some (c :: cs, r') end end = Some x).
  { intros [[c r]|] Ho; [|discriminate]. destruct (lcharacters fuel r) as [[cs r']|] eqn:E; [|discriminate]. rewrite (IH _ _ E fuel') by lia. exact Ho. }
  destruct s as [|b s]; [apply Hc; exact H|]. destruct (Byte.byte_eq_dec b x22) as [->|Hb]; [exact H|].
  assert (Hs : forall f, match b with x22 => Some ([], s) | _ => match lcharacter (b :: s) with None => None | Some (c, r) => match lcharacters f r with None => None | Some (cs, r') => Some (c :: cs, r') end end end =
    match lcharacter (b :: s) with None => None | Some (c, r) => match lcharacters f r with None => None | Some (cs, r') => Some (c :: cs, r') end end) by (intros f; destruct b; try reflexivity; contradiction).
  rewrite Hs in *. apply Hc. exact H.
Qed.
Lemma l_more : forall fuel, (forall s x, lvalue fuel s = Some x -> forall f, (fuel <= f)%nat -> lvalue f s = Some x) /\
  (forall s x, litems fuel s = Some x -> forall f, (fuel <= f)%nat -> litems f s = Some x) /\ (forall s x, lmembers fuel s = Some x -> forall f, (fuel <= f)%nat -> lmembers f s = Some x).
Proof.
  induction fuel as [|fuel (Hv & Hi & Hm)]; [split; [|split]; intros; discriminate|]. split; [|split]; intros s x H [|f] Hf; try lia; assert (Hf' : (fuel <= f)%nat) by lia; clear Hf.
  - cbn [lvalue] in *. destruct (skip_ws s) as [|c r]; [discriminate|].
    assert (Hstr : match lcharacters fuel r with Some (cs, r') => Some (JStr cs, r') | None => None end = Some x -> match lcharacters f r with Some (cs, r') => Some (JStr cs, r') | None => None end = Some x).
    { intros Hs. destruct (lcharacters fuel r) as [y|] eqn:E; [|discriminate]. rewrite (lcharacters_more _ _ _ E f Hf'). exact Hs. }
    assert (Hit : match litems fuel r with Some (l, r') => Some (JArr l, r') | None => None end = Some x -> match litems f r with Some (l, r') => Some (JArr l, r') | None => None end = Some x).
    { intros Hs. destruct (litems fuel r) as [y|] eqn:E; [|discriminate]. rewrite (Hi _ _ E f Hf'). exact Hs. }
    assert (Hme : match lmembers fuel r with Some (l, r') => Some (JObj l, r') | None => None end = Some x -> match lmembers f r with Some (l, r') => Some (JObj l, r') | None => None end = Some x).
    { intros Hs. destruct (lmembers fuel r) as [y|] eqn:E; [|discriminate]. rewrite (Hm _ _ E f Hf'). exact Hs. }
    assert (Hit2 : match skip_ws r with x5d :: r' => Some (JArr [], r') | _ => match litems fuel r with Some (l, r') => Some (JArr l, r') | None => None end end = Some x ->
      match skip_ws r with x5d :: r' => Some (JArr [], r') | _ => match litems f r with Some (l, r') => Some (JArr l, r') | None => None end end = Some x).
    { destruct (skip_ws r) as [|b r']; [exact Hit|]. destruct b; try exact Hit. auto. }
    assert (Hme2 : match skip_ws r with x7d :: r' => Some (JObj [], r') | _ => match lmembers fuel r with Some (l, r') => Some (JObj l, r') | None => None end end = Some x ->
      match skip_ws r with x7d :: r' => Some (JObj [], r') | _ => match lmembers f r with Some (l, r') => Some (JObj l, r') | None => None end end = Some x).
    { destruct (skip_ws r) as [|b r']; [exact Hme|]. destruct b; try exact Hme. auto. }
    clear Hit Hme. destruct c; try exact H; auto.
  - cbn [litems] in *. destruct (lvalue fuel s) as [[j r]|] eqn:E; [|discriminate]. rewrite (Hv _ _ E f Hf'). destruct (skip_ws r) as [|b r']; [discriminate|]. destruct b; try exact H.
    destruct (litems fuel r') as [y|] eqn:E'; [|discriminate]. rewrite (Hi _ _ E' f Hf'). exact H.
  - cbn [lmembers] in *. destruct (skip_ws s) as [|b r]; [discriminate|]. destruct b; try discriminate.
    destruct (lcharacters fuel r) as [[k r1]|] eqn:Ek; [|discriminate]. rewrite (lcharacters_more _ _ _ Ek f Hf'). destruct (skip_ws r1) as [|b r2]; [discriminate|]. destruct b; try discriminate.
    destruct (lvalue fuel r2) as [[j r3]|] eqn:E; [|discriminate]. rewrite (Hv _ _ E f Hf'). destruct (skip_ws r3) as [|b r']; [discriminate|]. destruct b; try exact H.
    destruct (lmembers fuel r') as [y|] eqn:E'; [|discriminate]. rewrite (Hm _ _ E' f Hf'). exact H.
Qed.
Lemma lvalue_more fuel s x f : lvalue fuel s = Some x -> (fuel <= f)%nat -> lvalue f s = Some x.
Proof. intros H. apply (proj1 (l_more fuel) s x H). Qed.
Lemma lvalue_unique f1 f2 s x1 x2 : lvalue f1 s = Some x1 -> lvalue f2 s = Some x2 -> x1 = x2.
Proof.
  intros H1 H2. apply (lvalue_more _ _ _ (f1 + f2)) in H1; [|lia]. apply (lvalue_more _ _ _ (f1 + f2)) in H2; [|lia]. congruence.
Qed.
Lemma accepted_unique b j1 j2 : accepted_text b j1 -> accepted_text b j2 -> j1 = j2.
Proof. intros (f1 & r1 & E1 & _) (f2 & r2 & E2 & _). pose proof (lvalue_unique _ _ _ _ _ E1 E2) as E. congruence. Qed.

(** An accepted text with the fuel of the decoder. *)
Lemma accepted_read b j : accepted_text b j -> exists r, (forall fuel, (2 * length b <= fuel)%nat -> lvalue fuel b = Some (j, r)) /\ ends r /\ zlen (@nil pstate) + jdepth j <= 10000.
Proof.
  intros H. pose proof (accepted_valid _ _ H) as Hv. apply check_valid_good, good_text in Hv as (j' & r & E & _ & Hd & Hr). destruct H as (f & r1 & E1 & _).
  pose proof (lvalue_unique _ _ _ _ _ E1 (E _ (le_n _))) as Ex. injection Ex as -> ->. exists r. split; [exact E|]. split; [apply good_ends in Hr; exact Hr|exact Hd].
Qed.

Definition outcome {A} (b : bool) (x : A) : res A := if b then Err type_error else Ok x.
Lemma decode_any_accepted b j : accepted_text b j -> decode_any b = outcome (bad j) (go_value j).
Proof.
  intros H. destruct (accepted_read _ _ H) as (r & E & Hr & Hd). unfold decode_any, decode_fuel.
  destruct (all_read (S (2 * length b))) as (Hv & _). destruct (Hv [] b j r x00 OpContinue None) as (d & Ed & Ha); [apply E; lia|exact Hr|exact Hd|].
  unfold d_init. change s_reset with (mkScanner BeginValue []). rewrite Ed. cbn [rbind]. unfold finished. cbn [fst snd]. rewrite (proj1 Ha). unfold outcome. destruct (bad j); reflexivity.
Qed.
Lemma unmarshal_accepted b j : accepted_text b j -> go_unmarshal b = outcome (bad j) (go_value j).
Proof. intros H. unfold go_unmarshal. rewrite (accepted_valid _ _ H). apply decode_any_accepted. exact H. Qed.
Lemma unmarshal_refused b : (forall j, ~ accepted_text b j) -> go_unmarshal b = Err JsonReader.syntax_error.
Proof. intros H. unfold go_unmarshal. destruct (check_valid b) eqn:E; [|reflexivity]. apply valid_accepted in E as (j & Hj). contradiction (H j Hj). Qed.

(** Into a map. *)
Lemma lvalue_first fuel b j r : lvalue (S fuel) b = Some (j, r) -> exists c q, skip_ws b = c :: q /\ is_space c = false /\
  match j with JNull => c = x6e | JObj _ => c = x7b | JArr _ => c = x5b | _ => c <> x6e /\ c <> x7b /\ c <> x5b end.
Proof.
  intros H. cbn [lvalue] in H. pose proof (skip_ws_head b) as Hh. destruct (skip_ws b) as [|c q]; [discriminate|]. exists c, q. split; [reflexivity|]. split; [exact Hh|].
  assert (Hn : match number (c :: q) with Some (t, r) => Some (JNum t, r) | None => None end = Some (j, r) -> exists t, j = JNum t) by (destruct (number (c :: q)) as [[t r']|]; [intros E; injection E as <- <-; eauto|discriminate]).
  assert (Ha : match skip_ws q with x5d :: r' => Some (JArr [], r') | _ => match litems fuel q with Some (l, r') => Some (JArr l, r') | None => None end end = Some (j, r) -> exists l, j = JArr l).
  { intros E. assert (Hl : match litems fuel q with Some (l, r') => Some (JArr l, r') | None => None end = Some (j, r) -> exists l, j = JArr l) by (destruct (litems fuel q) as [[l r']|]; [intros E'; injection E' as <- <-; eauto|discriminate]).
    destruct (skip_ws q) as [|c' q']; [auto|]. destruct c'; auto. injection E as <- <-. eauto. }
  assert (Ho : match skip_ws q with x7d :: r' => Some (JObj [], r') | _ => match lmembers fuel q with Some (l, r') => Some (JObj l, r') | None => None end end = Some (j, r) -> exists l, j = JObj l).
  { intros E. assert (Hl : match lmembers fuel q with Some (l, r') => Some (JObj l, r') | None => None end = Some (j, r) -> exists l, j = JObj l) by (destruct (lmembers fuel q) as [[l r']|]; [intros E'; injection E' as <- <-; eauto|discriminate]).
    destruct (skip_ws q) as [|c' q']; [auto|]. destruct c'; auto. injection E as <- <-. eauto. }
  destruct (Byte.byte_eq_dec c x7b) as [->|N1]; [destruct (Ho H) as (l & ->); reflexivity|].
  destruct (Byte.byte_eq_dec c x5b) as [->|N2]; [destruct (Ha H) as (l & ->); reflexivity|].
  destruct (Byte.byte_eq_dec c x6e) as [->|N3]; [unfold keyword in H; destruct (has_prefix _ _); [|discriminate]; injection H as <- _; reflexivity|].
  clear Ha Ho. assert (Hx : match j with JNull | JObj _ | JArr _ => False | _ => True end); [|destruct j; try contradiction; auto].
  assert (Hk : forall k v, match v with JBool _ => True | _ => False end -> keyword k q v = Some (j, r) -> match j with JNull | JObj _ | JArr _ => False | _ => True end).
  { intros k v Hv. unfold keyword. destruct (has_prefix _ _); [|discriminate]. intros E. injection E as <- _. destruct v; try contradiction; exact I. }
  assert (Hs : match lcharacters fuel q with Some (cs, r') => Some (JStr cs, r') | None => None end = Some (j, r) -> match j with JNull | JObj _ | JArr _ => False | _ => True end).
  { destruct (lcharacters fuel q) as [[l r']|]; [intros E; injection E as <- _; exact I|discriminate]. }
  assert (Hn' : match number (c :: q) with Some (t, r) => Some (JNum t, r) | None => None end = Some (j, r) -> match j with JNull | JObj _ | JArr _ => False | _ => True end) by (intros E; destruct (Hn E) as (t & ->); exact I).
  clear Hn. destruct c; try (apply Hn'; exact H); try contradiction; [apply Hs; exact H|apply (Hk (lit "alse") (JBool false) I H)|apply (Hk (lit "rue") (JBool true) I H)].
Qed.

Lemma decode_map_accepted b j : accepted_text b j ->
  decode_map b = match j with JObj m => outcome (bad j) (fold_left put m []) | JNull => Ok [] | _ => Err type_error end.
Proof.
  intros H. destruct (accepted_read _ _ H) as (r & E & Hr & Hd). unfold decode_map.
  set (f := S (2 * length b)). destruct (lvalue_first (2 * length b) b j r (E f ltac:(subst f; lia))) as (c & q & Eq & Hs & Hc).
  destruct (all_read (S f)) as (Hv & _). destruct (Hv [] b j r x00 OpContinue None) as (d & Ed & Ha); [apply E; subst f; lia|exact Hr|exact Hd|].
  unfold d_init, decode_fuel. change s_reset with (mkScanner BeginValue []). fold f.
  assert (Es : scan_while (mkD x00 b (mkScanner BeginValue []) OpContinue None) = mkD c q (fst (s_step (mkScanner BeginValue []) c)) (snd (s_step (mkScanner BeginValue []) c)) None).
  { unfold scan_while. cbn [d_last d_scan d_rest d_saved]. apply scan_spaces_first; [right; left; reflexivity|right; reflexivity|exact Eq]. }
  rewrite Es in *. remember (S f) as f1 eqn:Ef1. cbn [value_interface] in Ed. cbn [d_op d_last] in *. clear Es.
  set (d0 := mkD c q (fst (s_step (mkScanner BeginValue []) c)) (snd (s_step (mkScanner BeginValue []) c)) None) in *.
  destruct j as [|bo|t|cs|l|m].
  - subst c. cbn [s_step sc_step begin_value fst snd] in *. change (snd (s_step (mkScanner BeginValue []) x6e)) with OpBeginLiteral in *. cbv iota in *.
    destruct (rescan_literal d0) as [[item d1]|e| |] eqn:Er; try discriminate Ed. cbn [rbind fst snd]. unfold rescan_literal in Er. destruct (literal_end _ _) as [[t r1]|]; [|discriminate]. injection Er as <- _. reflexivity.
  - assert (Hop : snd (s_step (mkScanner BeginValue []) c) = OpBeginLiteral).
    { destruct (snd (s_step (mkScanner BeginValue []) c)) eqn:Eop; try discriminate Ed; try reflexivity; exfalso; revert Ed; [destruct (object_interface f1 d0 [])|destruct (array_interface f1 d0)]; discriminate. }
    rewrite Hop in *. destruct (rescan_literal d0) as [[item d1]|e| |] eqn:Er; try discriminate Ed. cbn [rbind fst snd]. unfold rescan_literal in Er. destruct (literal_end _ _) as [[t1 r1]|]; [|discriminate]. injection Er as <- _.
    change (d_last d0) with c. destruct c; try reflexivity. destruct Hc as (Hc & _). contradiction Hc; reflexivity.
  - assert (Hop : snd (s_step (mkScanner BeginValue []) c) = OpBeginLiteral).
    { destruct (snd (s_step (mkScanner BeginValue []) c)) eqn:Eop; try discriminate Ed; try reflexivity; exfalso; revert Ed; cbn [go_value]; destruct (go_parse_float t);
      [destruct (object_interface f1 d0 [])|destruct (object_interface f1 d0 [])|destruct (object_interface f1 d0 [])|destruct (object_interface f1 d0 [])|
       destruct (array_interface f1 d0)|destruct (array_interface f1 d0)|destruct (array_interface f1 d0)|destruct (array_interface f1 d0)]; discriminate. }
    rewrite Hop in *. destruct (rescan_literal d0) as [[item d1]|e| |] eqn:Er; try discriminate Ed. cbn [rbind fst snd]. unfold rescan_literal in Er. destruct (literal_end _ _) as [[t1 r1]|]; [|discriminate]. injection Er as <- _.
    change (d_last d0) with c. destruct c; try reflexivity. destruct Hc as (Hc & _). contradiction Hc; reflexivity.
  - assert (Hop : snd (s_step (mkScanner BeginValue []) c) = OpBeginLiteral).
    { destruct (snd (s_step (mkScanner BeginValue []) c)) eqn:Eop; try discriminate Ed; try reflexivity; exfalso; revert Ed; [destruct (object_interface f1 d0 [])|destruct (array_interface f1 d0)]; discriminate. }
    rewrite Hop in *. destruct (rescan_literal d0) as [[item d1]|e| |] eqn:Er; try discriminate Ed. cbn [rbind fst snd]. unfold rescan_literal in Er. destruct (literal_end _ _) as [[t1 r1]|]; [|discriminate]. injection Er as <- _.
    change (d_last d0) with c. destruct c; try reflexivity. destruct Hc as (Hc & _). contradiction Hc; reflexivity.
  - subst c. change (snd (s_step (mkScanner BeginValue []) x5b)) with OpBeginArray. reflexivity.
  - subst c. change (snd (s_step (mkScanner BeginValue []) x7b)) with OpBeginObject in *. cbv iota in *.
    destruct (object_interface f1 d0 []) as [[m1 d1]|e| |] eqn:Eo; try discriminate Ed. cbn [rbind fst snd] in Ed. injection Ed as Em Ed.
    cbn [rbind]. unfold finished. cbn [fst snd].
    assert (Hsv : d_saved d1 = d_saved d) by (rewrite <- Ed; unfold scan_next; destruct (d_rest d1) as [|c' r']; [reflexivity|]; destruct (s_step (d_scan d1) c'); reflexivity).
    rewrite Hsv, (proj1 Ha). unfold outcome, add_error. rewrite Em. destruct (bad (JObj m)); reflexivity.
Qed.

(** The texts that the decoder takes from a file. *)
Definition sane (s : scanner) : Prop := match sc_step s with BeginValueOrEmpty | BeginStringOrEmpty => sc_stack s <> [] | _ => True end.
Definition end_state (s : jstate) : Prop := s = EndTop \/ value_end s.
Lemma step_cases s K c : (match s with BeginValueOrEmpty | BeginStringOrEmpty => K <> [] | _ => True end) ->
  let '(s', op) := s_step (mkScanner s K) c in sane s' /\ (op = OpEnd -> end_state s /\ (K = [] \/ s = EndTop)) /\ (op = OpEndObject \/ op = OpEndArray -> sc_stack s' = [] -> sc_step s' = EndTop).
Proof.
  intros HK.
  set (P := fun x : scanner * opcode => sane (fst x) /\ snd x <> OpEnd /\ (snd x = OpEndObject \/ snd x = OpEndArray -> sc_stack (fst x) = [] -> sc_step (fst x) = EndTop)).
  assert (Hpop : forall p K op, op <> OpEnd -> P (pop (p :: K) op)).
  { intros p [|p' K'] op Hop; (split; [exact I|]; split; [exact Hop|]); [reflexivity|]. intros _ H. discriminate H. }
  assert (He : forall p K, P (end_value c (p :: K))).
  { intros p K'. unfold end_value. destruct (is_space c); [split; [exact I|]; split; [discriminate|]; intros [H|H]; discriminate H|].
    destruct p, c; try (apply Hpop; discriminate); (split; [exact I|]; split; [discriminate|]; intros [H|H]; discriminate H). }
  assert (Hgo : forall s K op, (match s with BeginValueOrEmpty | BeginStringOrEmpty => K <> [] | _ => True end) -> op <> OpEnd -> op <> OpEndObject -> op <> OpEndArray -> P (go_to s K op)).
  { intros s' K' op H1 H2 H3 H4. split; [exact H1|]. split; [exact H2|]. intros [H|H]; contradiction. }
  assert (Herr : forall K, P (s_error K)) by (intros K'; split; [exact I|]; split; [discriminate|]; intros [H|H]; discriminate H).
  assert (Hpush : forall a b op, op <> OpEnd -> op <> OpEndObject -> op <> OpEndArray -> P (push a b K op)).
  { intros a b op H2 H3 H4. unfold push. destruct (_ <=? _); [|split; [exact I|]; split; [discriminate|]; intros [H|H]; discriminate H].
    split; [unfold sane; cbn; destruct a; try exact I; discriminate|]. split; [exact H2|]. intros [H|H]; contradiction. }
  assert (Hb : P (begin_value c K)).
  { unfold begin_value. destruct (is_space c); [apply Hgo; try discriminate; exact I|].
    assert (Hd : P (if is_digit c then go_to Digits1 K OpBeginLiteral else s_error K)) by (destruct (is_digit c); [apply Hgo; try discriminate; exact I|apply Herr]).
    destruct c; try exact Hd; try (apply Hpush; discriminate); (apply Hgo; try discriminate; exact I). }
  assert (Hst : forall s', (match s' with BeginValueOrEmpty | BeginStringOrEmpty => K <> [] | _ => True end) -> P (begin_string s' c K)).
  { intros s' Hs'. unfold begin_string. destruct (is_space c); [apply Hgo; try discriminate; exact Hs'|]. destruct c; try apply Herr. apply Hgo; try discriminate; exact I. }
  assert (Hlit : forall k s', (match s' with BeginValueOrEmpty | BeginStringOrEmpty => K <> [] | _ => True end) -> P (JsonReader.literal k c s' K)).
  { intros k s' Hs'. unfold JsonReader.literal. destruct (beqb c k); [apply Hgo; try discriminate; exact Hs'|apply Herr]. }
  assert (HP : forall x, P x -> let '(s', op) := x in sane s' /\ (op = OpEnd -> end_state s /\ (K = [] \/ s = EndTop)) /\ (op = OpEndObject \/ op = OpEndArray -> sc_stack s' = [] -> sc_step s' = EndTop)).
  { intros [s' op] (H1 & H2 & H3). split; [exact H1|]. split; [intros Ho; contradiction (H2 Ho)|exact H3]. }
  assert (Hend : end_state s -> let '(s', op) := end_value c K in sane s' /\ (op = OpEnd -> end_state s /\ (K = [] \/ s = EndTop)) /\ (op = OpEndObject \/ op = OpEndArray -> sc_stack s' = [] -> sc_step s' = EndTop)).
  { intros Hs. destruct K as [|p K']; [|apply HP, He]. unfold end_value, end_top. destruct (is_space c); (split; [exact I|]; split; [auto|]; intros [H|H]; discriminate H). }
  assert (Hone : forall s' op, (match s' with BeginValueOrEmpty | BeginStringOrEmpty => K <> [] | _ => True end) -> op <> OpEnd -> op <> OpEndObject -> op <> OpEndArray ->
    let '(s', op) := go_to s' K op in sane s' /\ (op = OpEnd -> end_state s /\ (K = [] \/ s = EndTop)) /\ (op = OpEndObject \/ op = OpEndArray -> sc_stack s' = [] -> sc_step s' = EndTop)) by (intros; apply HP, Hgo; assumption).
  pose proof (fun k s' H => HP _ (Hlit k s' H)) as Hlit'. pose proof (HP _ (Herr K)) as Herr'.
  destruct s; cbn [s_step sc_step sc_stack];
    try (apply Hlit'; exact I);
    try (destruct (is_hex c); [apply Hone; try discriminate; exact I|exact Herr']; fail).
  - destruct (is_space c); [apply Hone; try discriminate; exact HK|]. destruct K as [|p K']; [contradiction HK; reflexivity|]. specialize (HP _ (He p K')) as H1. specialize (HP _ Hb) as H2. destruct c; try exact H2. exact H1.
  - apply HP. exact Hb.
  - destruct (is_space c); [apply Hone; try discriminate; exact HK|]. destruct K as [|p K']; [contradiction HK; reflexivity|].
    specialize (HP _ (He ObjectValue K')) as H1. specialize (HP _ (Hst BeginStringOrEmpty HK)) as H2. destruct c; try exact H2. exact H1.
  - apply HP. apply Hst. exact I.
  - apply Hend. right. left. reflexivity.
  - unfold end_top. destruct (is_space c); (split; [exact I|]; split; [intros _; split; [left; reflexivity|right; reflexivity]|]; intros [H|H]; discriminate H).
  - assert (Hd : let '(s', op) := if Z_of_byte c <? 32 then s_error K else go_to InString K OpContinue in sane s' /\ (op = OpEnd -> end_state InString /\ (K = [] \/ InString = EndTop)) /\ (op = OpEndObject \/ op = OpEndArray -> sc_stack s' = [] -> sc_step s' = EndTop))
      by (destruct (_ <? _); [exact Herr'|apply Hone; try discriminate; exact I]).
    destruct c; try exact Hd; (apply Hone; try discriminate; exact I).
  - destruct c; try exact Herr'; (apply Hone; try discriminate; exact I).
  - assert (Hd : let '(s', op) := if is_digit c then go_to Digits1 K OpContinue else s_error K in sane s' /\ (op = OpEnd -> end_state Neg /\ (K = [] \/ Neg = EndTop)) /\ (op = OpEndObject \/ op = OpEndArray -> sc_stack s' = [] -> sc_step s' = EndTop))
      by (destruct (is_digit c); [apply Hone; try discriminate; exact I|exact Herr']).
    destruct c; try exact Hd; (apply Hone; try discriminate; exact I).
  - cbn [andb]. specialize (Hend ltac:(right; right; left; reflexivity)). destruct (is_digit c); [apply Hone; try discriminate; exact I|]. destruct c; try exact Hend; (apply Hone; try discriminate; exact I).
  - cbn [andb]. specialize (Hend ltac:(right; right; right; left; reflexivity)). destruct c; try exact Hend; (apply Hone; try discriminate; exact I).
  - destruct (is_digit c); [apply Hone; try discriminate; exact I|exact Herr'].
  - specialize (Hend ltac:(right; right; right; right; left; reflexivity)). destruct (is_digit c); [apply Hone; try discriminate; exact I|]. destruct c; try exact Hend; (apply Hone; try discriminate; exact I).
  - assert (Hd : let '(s', op) := if is_digit c then go_to Exp0 K OpContinue else s_error K in sane s' /\ (op = OpEnd -> end_state Exp /\ (K = [] \/ Exp = EndTop)) /\ (op = OpEndObject \/ op = OpEndArray -> sc_stack s' = [] -> sc_step s' = EndTop))
      by (destruct (is_digit c); [apply Hone; try discriminate; exact I|exact Herr']).
    destruct c; try exact Hd; (apply Hone; try discriminate; exact I).
  - destruct (is_digit c); [apply Hone; try discriminate; exact I|exact Herr'].
  - specialize (Hend ltac:(right; right; right; right; right; reflexivity)). destruct (is_digit c); [apply Hone; try discriminate; exact I|exact Hend].
Qed.
Lemma scan_good : forall l s n, sane s -> match scan s l n with
  | ValueOf k => good s (firstn (k - n) l) | More s' => check_steps s l = Some s' /\ sane s' | Bad => True end.
Proof.
  induction l as [|c l IH]; intros s n Hs; cbn [scan]; [split; [reflexivity|exact Hs]|].
  destruct s as [s K]. pose proof (step_cases s K c Hs) as Hc. destruct (s_step (mkScanner s K) c) as [s' op] eqn:E. destruct Hc as (Hs' & Hend & Hobj).
  assert (Hrec : op <> OpError -> match scan s' l (S n) with ValueOf k => good (mkScanner s K) (firstn (k - n) (c :: l)) | More s2 => check_steps (mkScanner s K) (c :: l) = Some s2 /\ sane s2 | Bad => True end).
  { intros Ho. specialize (IH s' (S n) Hs'). destruct (scan s' l (S n)) as [s2|k|] eqn:Esc; [|apply scan_bounds in Esc|exact I].
    - destruct IH as (IH & Hs2). split; [|exact Hs2]. cbn [check_steps]. rewrite E. destruct op; try exact IH. contradiction.
    - replace (k - n)%nat with (S (k - S n)) by lia. cbn [firstn]. eapply good_step; [exact E|exact Ho|exact IH]. }
  assert (Htop : op = OpEndObject \/ op = OpEndArray -> sc_stack s' = [] -> good (mkScanner s K) (firstn (S n - n) (c :: l))).
  { intros Ho Hk. replace (S n - n)%nat with 1%nat by lia. cbn [firstn]. eapply good_step; [exact E|destruct Ho as [->| ->]; discriminate|].
    exists s'. split; [reflexivity|]. unfold s_eof. rewrite (Hobj Ho Hk). discriminate. }
  destruct op; try (apply Hrec; discriminate).
  - specialize (Htop (or_introl eq_refl)). destruct (sc_stack s'); [apply Htop; reflexivity|apply Hrec; discriminate].
  - specialize (Htop (or_intror eq_refl)). destruct (sc_stack s'); [apply Htop; reflexivity|apply Hrec; discriminate].
  - rewrite Nat.sub_diag. cbn [firstn]. exists (mkScanner s K). split; [reflexivity|]. destruct (Hend eq_refl) as ([->|Hv] & Hk); [discriminate|].
    destruct Hk as [->| ->]; [|discriminate]. destruct Hv as [->|[->|[->|[->| ->]]]]; discriminate.
  - exact I.
Qed.
Lemma read_value_accepted l t : read_value l = Ok t -> exists j, accepted_text t j.
Proof.
  intros H. apply valid_accepted, check_valid_good. unfold read_value in H. pose proof (scan_good l s_reset 0 I) as Hs. destruct (scan s_reset l 0) as [s|k|]; [|injection H as <-; rewrite Nat.sub_0_r in Hs; exact Hs|discriminate].
  destruct Hs as (Hs & Hsane). unfold at_eof in H. destruct s as [s K]. pose proof (step_cases s K x20 Hsane) as Hc. destruct (s_step (mkScanner s K) x20) as [s' op] eqn:E. cbn [snd] in H. destruct Hc as (_ & Hend & _).
  destruct op; try (destruct (forallb is_space l) in H; discriminate H). injection H as <-. exists (mkScanner s K). split; [exact Hs|].
  destruct (Hend eq_refl) as ([->|Hv] & Hk); [discriminate|]. destruct Hk as [->| ->]; [|discriminate]. destruct Hv as [->|[->|[->|[->| ->]]]]; discriminate.
Qed.
