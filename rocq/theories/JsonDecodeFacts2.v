(** A text accepted by the scanner is one of SpecJsonDecode.v. *)
From Coq Require Import String List ZArith Lia Bool Arith.
From Coq Require Import Strings.Byte.
From Coq Require Import ZifyBool.
From Verif Require Import Base Codec Value GoStrings SpecJson Prog JsonReader SpecJsonFile JsonFacts JsonReaderFacts JsonReaderFacts2 SpecJsonDecode JsonDecode JsonDecodeFacts.
Import ListNotations.
Open Scope Z_scope.

Lemma good_cons s c l : good s (c :: l) -> exists s' op, s_step s c = (s', op) /\ op <> OpError /\ good s' l.
Proof.
  intros (x & H & He). cbn [check_steps] in H. destruct (s_step s c) as [s' op]. exists s', op. split; [reflexivity|].
  destruct op; try discriminate; (split; [discriminate|exists x; auto]).
Qed.
Lemma good_cons_eq s c l s' op : s_step s c = (s', op) -> good s (c :: l) -> op <> OpError /\ good s' l.
Proof. intros E H. apply good_cons in H as (s1 & op1 & E1 & H). rewrite E in E1. injection E1 as <- <-. exact H. Qed.
Lemma good_step s c l s' op : s_step s c = (s', op) -> op <> OpError -> good s' l -> good s (c :: l).
Proof. intros E Ho (x & H & He). exists x. split; [|exact He]. cbn [check_steps]. rewrite E. destruct op; try exact H. contradiction. Qed.
Lemma good_same s1 s2 c l : s_step s1 c = s_step s2 c -> good s1 (c :: l) -> good s2 (c :: l).
Proof. intros E (x & H & He). exists x. split; [|exact He]. cbn [check_steps] in *. rewrite <- E. exact H. Qed.
Lemma good_nil s : good s [] -> s_eof s <> OpError.
Proof. intros (x & H & He). injection H as ->. exact He. Qed.
Lemma good_fed s t s' l : feeds s t s' -> good s (t ++ l) -> good s' l.
Proof. intros F (x & H & He). exists x. split; [|exact He]. rewrite check_app, (feeds_check _ _ _ F) in H. exact H. Qed.
Lemma good_error K l : ~ good (mkScanner JError K) l.
Proof. intros H. destruct l as [|c l]; [apply good_nil in H; apply H; reflexivity|]. apply good_cons in H as (s & op & E & Ho & _). injection E as <- <-. contradiction. Qed.
Lemma good_top r : good (mkScanner EndTop []) r -> good (mkScanner EndValue []) r.
Proof. destruct r as [|c r]; [intros _; eexists; split; [reflexivity|discriminate]|]. apply good_same. reflexivity. Qed.

(** What follows a value. *)
Definition ends (r : bytes) : Prop := match r with [] => True | c :: _ => follows c end.
Lemma good_ends K r : good (mkScanner EndValue K) r -> ends r.
Proof.
  destruct r as [|c r]; [reflexivity|]. intros H. cbn [ends]. apply good_cons in H as (s' & op & E & Ho & H).
  cbn in E. unfold end_value, follows in *. destruct K as [|p K].
  - unfold end_top in E. destruct (is_space c); [left; reflexivity|]. injection E as <- <-. contradiction (good_error _ _ H).
  - destruct (is_space c); [left; reflexivity|]. destruct p, c; try tauto; injection E as <- <-; contradiction.
Qed.
Lemma follows_not_number c : follows c -> number_byte c = false.
Proof. intros [H|[->|[->|[->| ->]]]]; try reflexivity. destruct c; try discriminate H; reflexivity. Qed.

(** Spaces. *)
Lemma good_ws s K l : skips s -> K <> [] \/ s = BeginValue -> good (mkScanner s K) l -> good (mkScanner s K) (skip_ws l).
Proof.
  intros Hs HK. induction l as [|c l IH]; [auto|]. cbn [skip_ws]. rewrite is_ws_space. destruct (is_space c) eqn:Ec; [|auto].
  intros H. apply IH. eapply good_cons_eq; [|exact H].
  destruct HK as [HK| ->]; [apply skips_step; assumption|]. cbn. unfold begin_value. rewrite Ec. reflexivity.
Qed.
Lemma skip_ws_length l : (length (skip_ws l) <= length l)%nat.
Proof. induction l as [|c l IH]; [reflexivity|]. cbn [skip_ws]. destruct (is_ws c); cbn; lia. Qed.
Lemma skip_ws_head l : match skip_ws l with [] => True | c :: _ => is_space c = false end.
Proof. destruct (skip_ws_split l) as (ws & _ & _ & H). exact H. Qed.

(** *** Strings *)
Lemma hex_val_is c : is_hex c = true -> exists v, hex_val c = Some v.
Proof.
  unfold hex_val, is_hex. cbv zeta. destruct ((48 <=? _) && _); [eauto|]. destruct ((97 <=? _) && _); [eauto|]. destruct ((65 <=? _) && _); [eauto|discriminate].
Qed.
Lemma hex4_length s u r : hex4 s = Some (u, r) -> (length r < length s)%nat.
Proof.
  unfold hex4. destruct s as [|a [|b [|c [|d s]]]]; try discriminate.
  destruct (hex_val a), (hex_val b), (hex_val c), (hex_val d); try discriminate. intros E. injection E as _ <-. cbn. lia.
Qed.
Lemma decode_pos b s r w : decode_rune (b :: s) = (r, w) -> (0 < w)%nat.
Proof. intros H. apply decode_width in H. lia. Qed.
Lemma character_length s c r : character s = Some (c, r) -> (length r < length s)%nat.
Proof.
  intros H. destruct s as [|b s]; [discriminate|]. destruct (Byte.byte_eq_dec b x5c) as [->|Hb].
  - destruct s as [|e s]; [discriminate|]. destruct (Byte.byte_eq_dec e x75) as [->|He].
    + cbn [character] in H. destruct (hex4 s) as [[u r1]|] eqn:E; [|discriminate]. apply hex4_length in E. cbn [length].
      destruct (_ && _).
      * destruct r1 as [|a r1]; [discriminate|]. destruct a; try discriminate. destruct r1 as [|a r1]; [discriminate|]. destruct a; try discriminate.
        destruct (hex4 r1) as [[v r3]|] eqn:E2; [|discriminate]. apply hex4_length in E2. destruct (_ && _); [|discriminate]. injection H as _ <-. cbn [length] in *. lia.
      * destruct (_ && _); [discriminate|]. injection H as _ <-. lia.
    + destruct e; try contradiction; try (cbn in H; discriminate H); injection H as _ <-; cbn; lia.
  - assert (E2 : character (b :: s) = if (Z_of_byte b <? 32) || beqb b x22 || beqb b x5c then None
      else let '(c, w) := decode_rune (b :: s) in if (c =? rune_error) && Nat.eqb w 1 then None else Some (c, skipn w (b :: s))) by (destruct b; try reflexivity; contradiction).
    rewrite E2 in H. destruct (_ || _); [discriminate|]. destruct (decode_rune (b :: s)) as [c' w] eqn:Ed. destruct (_ && _); [discriminate|]. injection H as _ <-.
    apply decode_pos in Ed. rewrite skipn_length. cbn [length]. lia.
Qed.
Lemma lcharacter_length s c r : lcharacter s = Some (c, r) -> (length r < length s)%nat.
Proof.
  intros H. apply lcharacter_cases in H as [H|[(_ & _ & q & u & -> & H)|(_ & _ & b & -> & _)]].
  - eapply character_length. exact H.
  - apply hex4_length in H. cbn. lia.
  - cbn. lia.
Qed.

Lemma good_hex K l : good (mkScanner EscU K) l -> exists u r, hex4 l = Some (u, r).
Proof.
  assert (Hx : forall s s', (forall c, s_step (mkScanner s K) c = if is_hex c then go_to s' K OpContinue else s_error K) -> s_eof (mkScanner s K) = OpError ->
    forall l, good (mkScanner s K) l -> exists c v l', l = c :: l' /\ hex_val c = Some v /\ good (mkScanner s' K) l').
  { intros s s' Hst He l' H. destruct l' as [|c l']; [apply good_nil in H; contradiction|]. apply good_cons in H as (x & op & E & Ho & H). rewrite Hst in E.
    destruct (is_hex c) eqn:Ec; [|injection E as <- <-; contradiction]. injection E as <- <-. apply hex_val_is in Ec as (v & Ev). eauto 10. }
  intros H. destruct (Hx EscU EscU1 ltac:(reflexivity) ltac:(reflexivity) _ H) as (a & va & la & -> & Ha & H1).
  destruct (Hx EscU1 EscU12 ltac:(reflexivity) ltac:(reflexivity) _ H1) as (b & vb & lb & -> & Hb & H2).
  destruct (Hx EscU12 EscU123 ltac:(reflexivity) ltac:(reflexivity) _ H2) as (c & vc & lc & -> & Hc & H3).
  destruct (Hx EscU123 InString ltac:(reflexivity) ltac:(reflexivity) _ H3) as (d & vd & ld & -> & Hd & _).
  unfold hex4. rewrite Ha, Hb, Hc, Hd. eauto.
Qed.

Lemma good_lcharacter K b s : good (mkScanner InString K) (b :: s) -> b <> x22 -> exists c r, lcharacter (b :: s) = Some (c, r).
Proof.
  intros H Hq. destruct (Byte.byte_eq_dec b x5c) as [->|Hb].
  - apply good_cons_eq with (s' := mkScanner InStringEsc K) (op := OpContinue) in H as (_ & H); [|reflexivity].
    destruct s as [|e s]; [apply good_nil in H; contradiction H; reflexivity|].
    destruct (Byte.byte_eq_dec e x75) as [->|He].
    + apply good_cons_eq with (s' := mkScanner EscU K) (op := OpContinue) in H as (_ & H); [|reflexivity].
      destruct (good_hex _ _ H) as (u & r & E). unfold lcharacter. rewrite E. destruct (character _) as [[c' r']|]; eauto.
    + apply good_cons in H as (s' & op & E & Ho & _).
      destruct e; try contradiction; try (injection E as <- <-; contradiction); cbn; eauto.
  - assert (E : lcharacter (b :: s) = if (Z_of_byte b <? 32) || beqb b x22 then None
      else match character (b :: s) with Some cr => Some cr | None => Some (65533, s) end) by (destruct b; try reflexivity; contradiction).
    rewrite E. apply good_cons in H as (s' & op & Es & Ho & _). destruct ((Z_of_byte b <? 32) || beqb b x22) eqn:Eb.
    + exfalso. cbn in Es. destruct (Z_of_byte b <? 32) eqn:El.
      * assert (Es' : s_error K = (s', op)) by (destruct b; try exact Es; try discriminate El; contradiction). injection Es' as <- <-. contradiction.
      * cbn in Eb. apply byte_dec_bl in Eb. contradiction.
    + destruct (character (b :: s)) as [[c' r']|]; eauto.
Qed.

Lemma good_string K : forall n l, (length l <= n)%nat -> good (mkScanner InString K) l ->
  exists cs r, (forall fuel, (length l <= fuel)%nat -> lcharacters fuel l = Some (cs, r)) /\ good (mkScanner EndValue K) r /\ (length r < length l)%nat.
Proof.
  induction n as [|n IH]; intros l Hl H.
  { destruct l; [|cbn in Hl; lia]. apply good_nil in H. contradiction H. reflexivity. }
  destruct l as [|b s]; [apply good_nil in H; contradiction H; reflexivity|].
  destruct (Byte.byte_eq_dec b x22) as [->|Hb].
  - apply good_cons_eq with (s' := mkScanner EndValue K) (op := OpContinue) in H as (_ & H); [|reflexivity].
    exists [], s. split; [|split; [exact H|cbn; lia]]. intros [|fuel] Hf; [cbn in Hf; lia|]. reflexivity.
  - destruct (good_lcharacter K b s H Hb) as (c & r & Ec). pose proof (lcharacter_length _ _ _ Ec) as Hlen.
    destruct (lcharacter_split K _ _ _ Ec) as (t & Et & F). rewrite Et in H. apply good_fed with (1 := F) in H.
    destruct (IH r) as (cs & r' & Hcs & Hg & Hlen'); [lia|exact H|].
    exists (c :: cs), r'. split; [|split; [exact Hg|lia]]. intros [|fuel] Hf; [cbn in Hf; lia|].
    assert (E : lcharacters (S fuel) (b :: s) = match lcharacter (b :: s) with None => None | Some (c, r) => match lcharacters fuel r with None => None | Some (cs, r') => Some (c :: cs, r') end end)
      by (destruct b; try reflexivity; contradiction).
    rewrite E, Ec, Hcs by lia. reflexivity.
Qed.

(** *** Numbers *)
Lemma good_digits s K l : digit_loop s -> good (mkScanner s K) l -> good (mkScanner s K) (snd (digits l)) /\ match snd (digits l) with [] => True | c :: _ => is_digit c = false end.
Proof.
  intros Hs H. destruct (digits l) as [d r] eqn:E. destruct (digits_split _ _ _ E) as (-> & Hd & Hr). split; [|exact Hr].
  eapply good_fed; [apply feeds_digits; [exact Hs|exact Hd]|exact H].
Qed.
Lemma digits_length l : (length (snd (digits l)) <= length l)%nat.
Proof. induction l as [|c l IH]; [reflexivity|]. cbn [digits]. destruct (is_digit c); [|reflexivity]. destruct (digits l). cbn in *. lia. Qed.
(** Some digits, then a state that wants one. *)
Lemma good_digit s s' K l : (forall c, is_digit c = true -> s_step (mkScanner s K) c = go_to s' K OpContinue) -> (forall c, is_digit c = false -> s_step (mkScanner s K) c = s_error K) ->
  s_eof (mkScanner s K) = OpError -> digit_loop s' -> good (mkScanner s K) l ->
  exists d r, digits l = (d, r) /\ d <> [] /\ good (mkScanner s' K) r /\ (match r with [] => True | c :: _ => is_digit c = false end) /\ (length r < length l)%nat.
Proof.
  intros H1 H2 H3 H4 H. destruct l as [|c l]; [apply good_nil in H; contradiction|]. destruct (is_digit c) eqn:Ec.
  - apply good_cons_eq with (1 := H1 c Ec) in H as (_ & H). destruct (good_digits s' K l H4 H) as (Hg & Hr). pose proof (digits_length l) as Hlen.
    cbn [digits]. rewrite Ec. destruct (digits l) as [d r]. exists (c :: d), r. cbn [snd] in *. split; [reflexivity|]. split; [discriminate|]. split; [exact Hg|]. split; [exact Hr|]. cbn. lia.
  - apply good_cons_eq with (1 := H2 c Ec) in H as (Ho & _). contradiction.
Qed.

Definition after_int (s : jstate) : Prop := s = Digits0 \/ s = Digits1.
Definition no_digit (s : jstate) (r : bytes) : Prop := match r with [] => True | c :: _ => s = Digits0 \/ is_digit c = false end.
Lemma good_frac s K l : after_int s -> no_digit s l -> good (mkScanner s K) l ->
  exists f r s', num_frac l = Some (f, r) /\ (after_int s' \/ s' = Dot0) /\ no_digit s' r /\ (match r with x2e :: _ => s' = Dot0 | _ => True end) /\ good (mkScanner s' K) r /\ (length r <= length l)%nat.
Proof.
  intros Hs Hn H. destruct l as [|c l].
  { exists [], [], s. auto 10. }
  destruct (Byte.byte_eq_dec c x2e) as [->|Hc].
  - apply good_cons_eq with (s' := mkScanner Dot K) (op := OpContinue) in H as (_ & H); [|destruct Hs as [->| ->]; reflexivity].
    destruct (good_digit Dot Dot0 K l) as (d & r & Ed & Hd & Hg & Hr & Hlen); try (intros c Hc; cbn; rewrite Hc; reflexivity); try reflexivity; try assumption.
    { right. left. reflexivity. }
    cbn [num_frac]. rewrite Ed. destruct d as [|d0 d]; [contradiction|]. exists (x2e :: d0 :: d), r, Dot0. split; [reflexivity|].
    split; [right; reflexivity|]. split; [destruct r; [exact I|right; exact Hr]|]. split; [destruct r as [|[]]; reflexivity || exact I|]. split; [exact Hg|]. cbn. lia.
  - exists [], (c :: l), s. split; [destruct c; try reflexivity; contradiction|]. split; [left; exact Hs|]. split; [exact Hn|]. split; [destruct c; try exact I; contradiction|]. split; [exact H|]. cbn. lia.
Qed.
Lemma good_exp s K l : after_int s \/ s = Dot0 -> no_digit s l -> (match l with x2e :: _ => s = Dot0 | _ => True end) -> good (mkScanner s K) l ->
  exists e r, num_exp l = Some (e, r) /\ good (mkScanner EndValue K) r /\ (length r <= length l)%nat.
Proof.
  intros Hs Hn Hdot H. destruct l as [|c l].
  { exists [], []. split; [reflexivity|]. split; [|cbn; lia]. apply good_nil in H. exists (mkScanner EndValue K). split; [reflexivity|].
    destruct Hs as [[->| ->]| ->]; exact H. }
  assert (Hcase : (c = x65 \/ c = x45) \/ (c <> x65 /\ c <> x45)) by (destruct c; tauto || (right; split; discriminate)).
  destruct Hcase as [Hc|[Hc1 Hc2]].
  - apply good_cons_eq with (s' := mkScanner Exp K) (op := OpContinue) in H as (_ & H); [|destruct Hc as [->| ->], Hs as [[->| ->]| ->]; reflexivity].
    assert (Hend : forall r, good (mkScanner Exp0 K) r -> (match r with [] => True | c :: _ => is_digit c = false end) -> good (mkScanner EndValue K) r).
    { intros [|b r] Hg Hb; [apply good_nil in Hg; exists (mkScanner EndValue K); split; [reflexivity|exact Hg]|]. eapply good_same; [|exact Hg]. cbn. rewrite Hb. reflexivity. }
    assert (Hx : exists sg l1, (match l with (x2b | x2d) as c :: r1 => ([c], r1) | _ => ([], l) end) = (sg, l1) /\ (length l1 <= length l)%nat /\
      exists d r, digits l1 = (d, r) /\ d <> [] /\ good (mkScanner Exp0 K) r /\ (match r with [] => True | c :: _ => is_digit c = false end) /\ (length r < length l1)%nat).
    { destruct l as [|b l]; [apply good_nil in H; contradiction H; reflexivity|].
      assert (Hb : (b = x2b \/ b = x2d) \/ (b <> x2b /\ b <> x2d)) by (destruct b; tauto || (right; split; discriminate)).
      destruct Hb as [Hb|[Hb1 Hb2]].
      - exists [b], l. split; [destruct Hb as [->| ->]; reflexivity|]. split; [cbn; lia|].
        apply good_cons_eq with (s' := mkScanner ExpSign K) (op := OpContinue) in H as (_ & H); [|destruct Hb as [->| ->]; reflexivity].
        apply (good_digit ExpSign Exp0); try (intros d Hd; cbn; rewrite Hd; reflexivity); try reflexivity; try assumption. right. right. reflexivity.
      - exists [], (b :: l). split; [destruct b; try reflexivity; contradiction|]. split; [lia|].
        destruct (is_digit b) eqn:Eb.
        + apply good_cons_eq with (s' := mkScanner Exp0 K) (op := OpContinue) in H as (_ & H); [|cbn; rewrite Eb; destruct b; try reflexivity; contradiction].
          destruct (good_digits Exp0 K l (or_intror (or_intror eq_refl)) H) as (Hg & Hr). pose proof (digits_length l) as Hlen.
          cbn [digits]. rewrite Eb. destruct (digits l) as [d r]. exists (b :: d), r. cbn [snd] in *. split; [reflexivity|]. split; [discriminate|]. split; [exact Hg|]. split; [exact Hr|]. cbn. lia.
        + apply good_cons_eq with (s' := mkScanner JError K) (op := OpError) in H as (Ho & _); [contradiction|]. cbn. rewrite Eb. destruct b; try reflexivity; contradiction. }
    destruct Hx as (sg & l1 & Esg & Hl1 & d & r & Ed & Hd & Hg & Hr & Hlen).
    assert (E : num_exp (c :: l) = let '(sg, r1) := match l with (x2b | x2d) as c :: r1 => ([c], r1) | _ => ([], l) end in
      match digits r1 with ([], _) => None | (d, r') => Some (c :: sg ++ d, r') end) by (destruct Hc as [->| ->]; reflexivity).
    rewrite E, Esg, Ed. destruct d as [|d0 d]; [contradiction|]. eexists _, r. split; [reflexivity|]. split; [apply Hend; assumption|]. cbn. lia.
  - exists [], (c :: l). split; [destruct c; try reflexivity; contradiction|]. split; [|cbn; lia].
    eapply good_same; [|exact H]. cbn [no_digit] in Hn.
    assert (Hdot' : c <> x2e \/ s = Dot0) by (destruct (Byte.byte_eq_dec c x2e) as [->|]; [right; exact Hdot|left; assumption]).
    destruct Hs as [[->| ->]| ->].
    + destruct Hdot' as [Hd|Hd]; [|discriminate]. cbn. destruct c; try reflexivity; contradiction.
    + destruct Hdot' as [Hd|Hd]; [|discriminate]. destruct Hn as [Hn|Hn]; [discriminate|]. cbn. rewrite Hn. destruct c; try reflexivity; contradiction.
    + destruct Hn as [Hn|Hn]; [discriminate|]. cbn. rewrite Hn. destruct c; try reflexivity; contradiction.
Qed.
Lemma good_number K c q : good (mkScanner BeginValue K) (c :: q) -> is_digit c = true \/ c = x2d ->
  exists t r, number (c :: q) = Some (t, r) /\ good (mkScanner EndValue K) r /\ (length r < length (c :: q))%nat.
Proof.
  intros H Hc.
  assert (Hint : forall s b l, (s = BeginValue \/ s = Neg) -> good (mkScanner s K) (b :: l) -> is_digit b = true ->
    exists i r s', num_int (b :: l) = Some (i, r) /\ after_int s' /\ no_digit s' r /\ good (mkScanner s' K) r /\ (length r < length (b :: l))%nat).
  { intros s b l Hs Hg Hb. destruct (Byte.byte_eq_dec b x30) as [->|Hz].
    - exists [x30], l, Digits0. split; [reflexivity|]. split; [left; reflexivity|]. split; [destruct l; [exact I|left; reflexivity]|]. split; [|cbn; lia].
      destruct Hs as [->| ->]; (eapply good_cons_eq; [|exact Hg]; reflexivity).
    - assert (Hg' : good (mkScanner Digits1 K) l).
      { destruct Hs as [->| ->]; [apply good_cons_eq with (s' := mkScanner Digits1 K) (op := OpBeginLiteral) in Hg as (_ & Hg)|
          apply good_cons_eq with (s' := mkScanner Digits1 K) (op := OpContinue) in Hg as (_ & Hg)]; try exact Hg; destruct b; try discriminate Hb; try contradiction; reflexivity. }
      destruct (good_digits Digits1 K l (or_introl eq_refl) Hg') as (Hg2 & Hr). pose proof (digits_length l) as Hlen.
      assert (E : num_int (b :: l) = Some (b :: fst (digits l), snd (digits l))).
      { unfold num_int. assert (E : digits (b :: l) = (b :: fst (digits l), snd (digits l))) by (cbn [digits]; rewrite Hb; destruct (digits l); reflexivity).
        rewrite E. destruct b; try reflexivity; contradiction. }
      rewrite E. exists (b :: fst (digits l)), (snd (digits l)), Digits1. split; [reflexivity|]. split; [right; reflexivity|].
      split; [unfold no_digit; destruct (snd (digits l)); [exact I|right; exact Hr]|]. split; [exact Hg2|]. cbn. lia. }
  assert (Hgo : exists sg l i r s', (match c :: q with x2d :: r => ([x2d], r) | _ => ([], c :: q) end) = (sg, l) /\ num_int l = Some (i, r) /\ after_int s' /\ no_digit s' r /\ good (mkScanner s' K) r /\ (length r < length (c :: q))%nat).
  { destruct (Byte.byte_eq_dec c x2d) as [->|Hm].
    - apply good_cons_eq with (s' := mkScanner Neg K) (op := OpBeginLiteral) in H as (_ & H); [|reflexivity].
      destruct q as [|b l]; [apply good_nil in H; contradiction H; reflexivity|].
      destruct (is_digit b) eqn:Eb.
      + destruct (Hint Neg b l (or_intror eq_refl) H Eb) as (i & r & s' & E & H1 & H2 & H3 & H4). exists [x2d], (b :: l), i, r, s'. cbn [length] in *. repeat (split; [assumption || reflexivity|]). lia.
      + apply good_cons_eq with (s' := mkScanner JError K) (op := OpError) in H as (Ho & _); [contradiction|]. cbn. rewrite Eb. destruct b; try reflexivity; discriminate Eb.
    - destruct Hc as [Hc|Hc]; [|contradiction]. destruct (Hint BeginValue c q (or_introl eq_refl) H Hc) as (i & r & s' & E & H1 & H2 & H3 & H4).
      exists [], (c :: q), i, r, s'. split; [destruct c; try reflexivity; contradiction|]. auto. }
  destruct Hgo as (sg & l & i & r & s' & Esg & Ei & H1 & H2 & H3 & H4).
  destruct (good_frac s' K r H1 H2 H3) as (f & r2 & s2 & Ef & H5 & H6 & H7 & H8 & H9).
  destruct (good_exp s2 K r2 H5 H6 H7 H8) as (e & r3 & Ee & H10 & H11).
  exists (sg ++ i ++ f ++ e), r3. split; [|split; [exact H10|lia]]. unfold number. cbv zeta.
  destruct c; cbn in Esg; injection Esg as <- <-; rewrite Ei, Ef, Ee; reflexivity.
Qed.
