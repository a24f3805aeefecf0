(** Integer and split parsers. *)
From Coq Require Import List ZArith Lia Bool String.
From Coq Require Import Strings.Byte Floats.SpecFloat.
From Verif Require Import Base BaseFacts Codec CodecFacts Value GoStrings SpecText StringsFacts Utf8Facts Parser.
Import ListNotations.
Open Scope Z_scope.

(** *** Integers *)
Lemma parse_integer_Ok ignore s v : parse_integer ignore s = Ok v <->
  exists z, v = VInt z /\ signed_decimal (remove_characters s ignore) z /\ in_i64 z.
Proof.
  unfold parse_integer. split.
  - destruct (atoi _) as [z|e| |] eqn:E; cbn [rbind]; try discriminate. intros [= <-].
    apply atoi_Ok in E. exists z. tauto.
  - intros (z & -> & H). apply atoi_Ok in H. rewrite H. reflexivity.
Qed.

Lemma parse_integer_safe ignore s : (exists z, parse_integer ignore s = Ok (VInt z)) \/ (exists e, parse_integer ignore s = Err e).
Proof. unfold parse_integer. destruct (atoi_safe (remove_characters s ignore)) as [(z & ->)|(e & ->)]; cbn; eauto. Qed.

Lemma signed_decimal_unique s z z' : signed_decimal s z -> signed_decimal s z' -> z = z'.
Proof.
  assert (Hu : forall ds a b, decimal ds a -> decimal ds b -> a = b).
  { intros ds a b H1 H2. apply decimal_spec in H1 as (_ & _ & <-). apply decimal_spec in H2 as (_ & _ & <-). reflexivity. }
  intros H1 H2. destruct H1; inversion H2; subst; eauto;
    try (exfalso; match goal with H : decimal (_ :: _) _ |- _ => apply decimal_not_sign in H as [? ?]; congruence end).
  f_equal. eauto.
Qed.

Theorem integer_decision ignore s :
  (exists z, signed_decimal (remove_characters s ignore) z /\ in_i64 z /\ parse_integer ignore s = Ok (VInt z)) \/
  ((forall z, signed_decimal (remove_characters s ignore) z -> ~ in_i64 z) /\ exists e, parse_integer ignore s = Err e).
Proof.
  destruct (parse_integer_safe ignore s) as [(z & E)|(e & E)].
  - left. pose proof E as E2. apply parse_integer_Ok in E as (z' & [= <-] & H). exists z. tauto.
  - right. split; [|eauto]. intros z H Hz.
    assert (parse_integer ignore s = Ok (VInt z)) by (apply parse_integer_Ok; eauto). congruence.
Qed.

Definition ascii_of (s : bytes) : list Z := map Z_of_byte s.

Lemma text_ascii s : Forall (fun b => Z_of_byte b < 128) s -> text (ascii_of s) = s.
Proof.
  induction 1 as [|b s Hb _ IH]; [reflexivity|]. cbn [ascii_of map text flat_map]. fold (ascii_of s). fold (text (ascii_of s)).
  rewrite IH. unfold encode_rune. pose proof (Z_of_byte_range b).
  replace ((Z_of_byte b <? 0) || (1114111 <? Z_of_byte b) || ((55296 <=? Z_of_byte b) && (Z_of_byte b <=? 57343))) with false by lia.
  replace (Z_of_byte b <? 128) with true by lia. rewrite byte_of_Z_of_byte. reflexivity.
Qed.

Lemma signed_decimal_ascii s z : signed_decimal s z -> Forall (fun b => Z_of_byte b < 128) s.
Proof.
  assert (Hd : forall ds v, decimal ds v -> Forall (fun b => Z_of_byte b < 128) ds).
  { intros ds v H. apply decimal_spec in H as (_ & H & _). rewrite forallb_forall in H. apply Forall_forall.
    intros b Hb. apply H in Hb. apply is_digit_spec in Hb. lia. }
  destruct 1 as [ds v H|ds v H|ds v H]; try constructor; try (vm_compute; reflexivity); eauto.
Qed.

Theorem integer_ignores z cs rs : in_i64 z -> Forall scalar cs -> Forall scalar rs ->
  text (filter (not_in cs) rs) = dec_text z -> parse_integer (text cs) (text rs) = Ok (VInt z).
Proof.
  intros Hz Hcs Hrs E. apply parse_integer_Ok. exists z. split; [reflexivity|].
  rewrite remove_text by assumption. rewrite E. split; [apply dec_text_spec|assumption].
Qed.

Theorem integer_same cs rs rs' : Forall scalar cs -> Forall scalar rs -> Forall scalar rs' ->
  filter (not_in cs) rs = filter (not_in cs) rs' -> parse_integer (text cs) (text rs) = parse_integer (text cs) (text rs').
Proof. intros. unfold parse_integer. rewrite !remove_text by assumption. congruence. Qed.

Lemma parse_dec_text z : in_i64 z -> parse_integer [] (dec_text z) = Ok (VInt z).
Proof.
  intros Hz. apply parse_integer_Ok. exists z. split; [reflexivity|]. split; [apply dec_text_spec|assumption].
Qed.

(** *** Split *)
Lemma rmapM_Forall2 {A B} (f : A -> res B) l ys : rmapM f l = Ok ys <-> Forall2 (fun x y => f x = Ok y) l ys.
Proof.
  revert ys. induction l as [|x l IH]; intros ys; cbn [rmapM].
  - split; [intros [= <-]; constructor|inversion 1; reflexivity].
  - destruct (f x) as [y|e| |] eqn:E; cbn [rbind]; try (split; [discriminate|inversion 1; congruence]).
    destruct (rmapM f l) as [zs|e| |] eqn:E2; cbn [rbind].
    + split.
      * intros [= <-]. constructor; [assumption|]. apply IH. reflexivity.
      * inversion 1 as [|? y' ? ys' Hy Hys]; subst. apply IH in Hys. congruence.
    + split; [discriminate|]. inversion 1 as [|? y' ? ys' Hy Hys]; subst. apply IH in Hys. congruence.
    + split; [discriminate|]. inversion 1 as [|? y' ? ys' Hy Hys]; subst. apply IH in Hys. congruence.
    + split; [discriminate|]. inversion 1 as [|? y' ? ys' Hy Hys]; subst. apply IH in Hys. congruence.
Qed.

Section Split.
Variable parse_float : bytes -> res spec_float.
Variable json_decode : bytes -> res value.
Variable decode_charset : bytes -> bytes -> res bytes.
Variable regexp_split : bytes -> bytes -> list bytes.
Local Notation parse := (Parser.parse parse_float json_decode decode_charset regexp_split).

Theorem split_exact fuel ps delim sub c s : delim <> [] -> mget ps sub = Some c ->
  exists l, pieces delim s l /\ join_strings delim l = s /\
  forall v, parse (S fuel) ps (PSplit delim false sub) s = Ok v <->
    exists vs, v = VList vs /\ Forall2 (fun piece v => parse fuel ps c piece = Ok v) l vs.
Proof.
  intros Hd Hc. pose proof (split_pieces delim s Hd) as Hp. exists (split_go delim s 0 []).
  split; [assumption|]. split; [apply pieces_join; assumption|]. intros v.
  cbn [Parser.parse]. rewrite Hc.
  replace (go_split s delim) with (split_go delim s 0 []) by (destruct delim; [congruence|reflexivity]).
  split.
  - destruct (rmapM _ _) as [vs|e| |] eqn:E; cbn [rbind]; try discriminate. intros [= <-].
    apply rmapM_Forall2 in E. exists vs. auto.
  - intros (vs & -> & H). apply rmapM_Forall2 in H. rewrite H. reflexivity.
Qed.

(** No oracle runs out of fuel. *)
Definition oracles_return : Prop :=
  (forall s, parse_float s <> NoFuel) /\ (forall s, json_decode s <> NoFuel) /\ (forall c s, decode_charset c s <> NoFuel).

Definition acyclic (ps : parsers) : Prop :=
  exists rank : bytes -> nat, forall name d r sub c, mget ps name = Some (PSplit d r sub) -> mget ps sub = Some c -> (rank sub < rank name)%nat.

Lemma rmapM_ext {A B} (f g : A -> res B) l : (forall x, In x l -> f x = g x) -> rmapM f l = rmapM g l.
Proof.
  induction l as [|x l IH]; intros H; [reflexivity|]. cbn [rmapM]. rewrite (H x) by (left; reflexivity).
  destruct (g x); cbn; try reflexivity. rewrite IH; [reflexivity|]. intros y Hy. apply H. right. assumption.
Qed.
Lemma rmapM_NoFuel {A B} (f : A -> res B) l : (forall x, In x l -> f x <> NoFuel) -> rmapM f l <> NoFuel.
Proof.
  induction l as [|x l IH]; intros H; [discriminate|]. cbn [rmapM].
  specialize (H x (or_introl eq_refl)) as Hx. destruct (f x); cbn; try congruence.
  destruct (rmapM f l) eqn:E; cbn; try discriminate. exfalso. apply IH; [|reflexivity]. intros y Hy. apply H. right. assumption.
Qed.

Lemma parse_terminates_rank ps (rank : bytes -> nat) : oracles_return ->
  (forall name d r sub c, mget ps name = Some (PSplit d r sub) -> mget ps sub = Some c -> (rank sub < rank name)%nat) ->
  forall n name c s, mget ps name = Some c -> (rank name <= n)%nat ->
  forall fuel, (n < fuel)%nat -> parse fuel ps c s <> NoFuel /\ parse fuel ps c s = parse (S n) ps c s.
Proof.
  intros (O1 & O2 & O3) Hr. induction n as [|n IH]; intros name c s Hc Hn fuel Hf;
    (destruct fuel as [|fuel]; [lia|]); cbn [Parser.parse].
  - destruct c as [cs|ig|sep ig|t f| |d r sub].
    + split; [|reflexivity]. unfold parse_string. destruct cs; [discriminate|]. specialize (O3 (b :: cs) s).
      destruct (decode_charset (b :: cs) s); cbn; congruence.
    + split; [|reflexivity]. destruct (parse_integer_safe ig s) as [(z & ->)|(e & ->)]; discriminate.
    + split; [|reflexivity]. unfold parse_float_value. cbv zeta.
      match goal with |- context [parse_float ?x] => specialize (O1 x); destruct (parse_float x); cbn; congruence end.
    + split; [|reflexivity]. unfold parse_boolean. destruct (is_in_array s t); [discriminate|]. destruct (is_in_array s f); discriminate.
    + split; [apply O2|reflexivity].
    + destruct (mget ps sub) as [c'|] eqn:Es; [|split; [discriminate|reflexivity]].
      specialize (Hr name d r sub c' Hc Es). lia.
  - destruct c as [cs|ig|sep ig|t f| |d r sub].
    + split; [|reflexivity]. unfold parse_string. destruct cs; [discriminate|]. specialize (O3 (b :: cs) s).
      destruct (decode_charset (b :: cs) s); cbn; congruence.
    + split; [|reflexivity]. destruct (parse_integer_safe ig s) as [(z & ->)|(e & ->)]; discriminate.
    + split; [|reflexivity]. unfold parse_float_value. cbv zeta.
      match goal with |- context [parse_float ?x] => specialize (O1 x); destruct (parse_float x); cbn; congruence end.
    + split; [|reflexivity]. unfold parse_boolean. destruct (is_in_array s t); [discriminate|]. destruct (is_in_array s f); discriminate.
    + split; [apply O2|reflexivity].
    + destruct (mget ps sub) as [c'|] eqn:Es; [|split; [discriminate|reflexivity]].
      specialize (Hr name d r sub c' Hc Es).
      assert (HI : forall x, parse fuel ps c' x <> NoFuel /\ parse fuel ps c' x = parse (S n) ps c' x).
      { intros x. apply (IH sub); [assumption|lia|lia]. }
      split.
      * match goal with |- context [rmapM ?f ?l] => assert (H : rmapM f l <> NoFuel) end.
        { apply rmapM_NoFuel. intros x _. apply HI. }
        destruct (rmapM _ _); cbn; congruence.
      * f_equal. apply rmapM_ext. intros x _. apply HI.
Qed.

Lemma rank_bound (ps : parsers) (rank : bytes -> nat) : exists n, forall name c, mget ps name = Some c -> (rank name <= n)%nat.
Proof.
  exists (list_max (map (fun p => rank (fst p)) ps)). intros name c H. apply mget_In in H.
  assert (HF : Forall (fun k => (k <= list_max (map (fun p => rank (fst p)) ps))%nat) (map (fun p => rank (fst p)) ps)).
  { apply list_max_le. reflexivity. }
  rewrite Forall_map, Forall_forall in HF. apply (HF (name, c)). assumption.
Qed.

Theorem parse_terminates ps : oracles_return -> acyclic ps ->
  exists n, forall name c s fuel, mget ps name = Some c -> (n <= fuel)%nat ->
    parse fuel ps c s <> NoFuel /\ parse fuel ps c s = parse n ps c s.
Proof.
  intros Ho (rank & Hr). destruct (rank_bound ps rank) as (n & Hn). exists (S n). intros name c s fuel Hc Hf.
  eapply parse_terminates_rank; eauto.
Qed.

Definition loop_parsers : parsers := [(lit "loop", PSplit (lit ",") false (lit "loop"))].

Theorem split_loops : forall fuel s, parse fuel loop_parsers (PSplit (lit ",") false (lit "loop")) s = NoFuel.
Proof.
  induction fuel as [|fuel IH]; intros s; [reflexivity|]. cbn [Parser.parse].
  replace (mget loop_parsers (lit "loop")) with (Some (PSplit (lit ",") false (lit "loop"))) by reflexivity.
  assert (Hne : go_split s (lit ",") <> []) by (apply (pieces_nonempty (lit ",") s); apply (split_pieces (lit ",") s); discriminate).
  destruct (go_split s (lit ",")) as [|x l]; [congruence|]. cbn [rmapM]. rewrite IH. reflexivity.
Qed.
End Split.
