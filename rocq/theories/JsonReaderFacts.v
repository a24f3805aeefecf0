(** Proofs about the JSON scanner: valid objects are delimited exactly. *)
From Coq Require Import String List ZArith Lia Bool Arith.
From Coq Require Import Strings.Byte.
From Coq Require Import ZifyBool.
From Verif Require Import Base Codec Value GoStrings SpecJson Prog JsonReader SpecJsonFile.
Import ListNotations.
Open Scope Z_scope.

Lemma scan_app : forall a s b n, scan s (a ++ b) n = match scan s a n with More s' => scan s' b (n + length a) | r => r end.
Proof.
  induction a as [|c a IH]; intros s b n; cbn [app scan length].
  - now rewrite Nat.add_0_r.
  - destruct (s_step s c) as [s' op].
    replace (n + S (length a))%nat with (S n + length a)%nat by lia.
    destruct op; try apply IH; try reflexivity; destruct (sc_stack s'); try reflexivity; apply IH.
Qed.

Lemma scan_bounds : forall l s n k, scan s l n = ValueOf k -> (n <= k <= n + length l)%nat.
Proof.
  induction l as [|c l IH]; intros s n k; cbn [scan length]; [discriminate|].
  destruct (s_step s c) as [s' op]. intros H.
  destruct op; try discriminate; try (apply IH in H; lia); try (injection H as <-; lia);
    destruct (sc_stack s'); try (injection H as <-; lia); apply IH in H; lia.
Qed.

Definition feeds (s : scanner) (t : bytes) (s' : scanner) : Prop := forall n, scan s t n = More s'.

Lemma feeds_nil s : feeds s [] s.
Proof. intros n. reflexivity. Qed.
Lemma feeds_app s a s' b s'' : feeds s a s' -> feeds s' b s'' -> feeds s (a ++ b) s''.
Proof. intros H1 H2 n. rewrite scan_app, H1. apply H2. Qed.

(** An operation after which the loop goes on. *)
Definition quiet (op : opcode) : bool :=
  match op with OpEnd | OpError | OpEndObject | OpEndArray => false | _ => true end.
Lemma feeds_one s c s' op : s_step s c = (s', op) -> quiet op = true -> feeds s [c] s'.
Proof. intros E H n. cbn [scan]. rewrite E. destruct op; try discriminate; reflexivity. Qed.
Lemma feeds_cons s c s' op t s'' : s_step s c = (s', op) -> quiet op = true -> feeds s' t s'' -> feeds s (c :: t) s''.
Proof. intros E H Ht. change (c :: t) with ([c] ++ t). eapply feeds_app; [eapply feeds_one; eassumption|exact Ht]. Qed.

Lemma is_ws_space c : is_ws c = is_space c.
Proof. destruct c; reflexivity. Qed.

Section Stack.
Variable K : list pstate.
Hypothesis HK : K <> [].
Local Notation st s := (mkScanner s K).

(** *** Strings *)
Lemma in_string c : 32 <= Z_of_byte c -> c <> x22 -> c <> x5c -> s_step (st InString) c = (st InString, OpContinue).
Proof.
  intros H1 H2 H3. unfold s_step. cbn [sc_step sc_stack].
  destruct c; try contradiction; try reflexivity; exfalso; vm_compute in H1; apply H1; reflexivity.
Qed.

Lemma is_hex_val c v : hex_val c = Some v -> is_hex c = true.
Proof.
  unfold hex_val, is_hex. cbv zeta. destruct (_ && _); [reflexivity|]. destruct (_ && _); [reflexivity|]. destruct (_ && _); [reflexivity|discriminate].
Qed.
Lemma hex4_split s u r : hex4 s = Some (u, r) -> exists t, s = t ++ r /\ feeds (st EscU) t (st InString).
Proof.
  unfold hex4. destruct s as [|a [|b [|c [|d s]]]]; try discriminate.
  destruct (hex_val a) eqn:Ha; [|discriminate]. destruct (hex_val b) eqn:Hb; [|discriminate].
  destruct (hex_val c) eqn:Hc; [|discriminate]. destruct (hex_val d) eqn:Hd; [|discriminate].
  intros H. injection H as _ <-. exists [a; b; c; d]. split; [reflexivity|].
  apply is_hex_val in Ha, Hb, Hc, Hd.
  eapply feeds_cons; [cbn; rewrite Ha; reflexivity|reflexivity|].
  eapply feeds_cons; [cbn; rewrite Hb; reflexivity|reflexivity|].
  eapply feeds_cons; [cbn; rewrite Hc; reflexivity|reflexivity|].
  eapply feeds_one; [cbn; rewrite Hd; reflexivity|reflexivity].
Qed.

Lemma high_byte c : 128 <= Z_of_byte c -> s_step (st InString) c = (st InString, OpContinue).
Proof. intros H. apply in_string; [lia| |]; intros ->; vm_compute in H; apply H; reflexivity. Qed.

Lemma cont_high c : cont_byte c = true -> 128 <= Z_of_byte c.
Proof. unfold cont_byte. lia. Qed.
Lemma range_high lo hi c : 128 <= lo -> in_range lo hi c = true -> 128 <= Z_of_byte c.
Proof. unfold in_range. lia. Qed.

Lemma rune_split s c w : decode_rune s = (c, w) -> (c =? rune_error) && Nat.eqb w 1 = false ->
  match s with [] => False | b :: _ => 32 <= Z_of_byte b /\ b <> x22 /\ b <> x5c end ->
  exists t, s = t ++ skipn w s /\ t <> [] /\ feeds (st InString) t (st InString).
Proof.
  intros Hd He Hb. destruct s as [|b0 s]; [contradiction|]. destruct Hb as (H1 & H2 & H3).
  pose proof (in_string b0 H1 H2 H3) as Hs.
  assert (Hbad : (rune_error, 1%nat) = (c, w) -> False).
  { intros E. injection E as E1 E2. subst c w. discriminate He. }
  cbn [decode_rune] in Hd. cbv zeta in Hd.
  destruct (Z_of_byte b0 <? 128).
  { injection Hd as _ <-. exists [b0]. split; [reflexivity|]. split; [discriminate|]. eapply feeds_one; [exact Hs|reflexivity]. }
  destruct (Z_of_byte b0 <? 194); [contradiction (Hbad Hd)|].
  destruct (Z_of_byte b0 <? 224).
  { destruct s as [|b1 s]; [contradiction (Hbad Hd)|]. destruct (cont_byte b1) eqn:C1; [|contradiction (Hbad Hd)].
    injection Hd as _ <-. exists [b0; b1]. split; [reflexivity|]. split; [discriminate|].
    eapply feeds_cons; [exact Hs|reflexivity|]. eapply feeds_one; [apply high_byte, cont_high, C1|reflexivity]. }
  destruct (Z_of_byte b0 <? 240).
  { destruct s as [|b1 [|b2 s]]; try contradiction (Hbad Hd).
    destruct (in_range _ _ b1 && cont_byte b2) eqn:C; [|contradiction (Hbad Hd)]. apply andb_true_iff in C as [C1 C2].
    injection Hd as _ <-. exists [b0; b1; b2]. split; [reflexivity|]. split; [discriminate|].
    eapply feeds_cons; [exact Hs|reflexivity|].
    eapply feeds_cons; [apply high_byte; eapply range_high; [|exact C1]; destruct (_ =? 224); lia|reflexivity|].
    eapply feeds_one; [apply high_byte, cont_high, C2|reflexivity]. }
  destruct (Z_of_byte b0 <? 245); [|contradiction (Hbad Hd)].
  destruct s as [|b1 [|b2 [|b3 s]]]; try contradiction (Hbad Hd).
  destruct (in_range _ _ b1 && cont_byte b2 && cont_byte b3) eqn:C; [|contradiction (Hbad Hd)].
  apply andb_true_iff in C as [C C3]. apply andb_true_iff in C as [C1 C2].
  injection Hd as _ <-. exists [b0; b1; b2; b3]. split; [reflexivity|]. split; [discriminate|].
  eapply feeds_cons; [exact Hs|reflexivity|].
  eapply feeds_cons; [apply high_byte; eapply range_high; [|exact C1]; destruct (_ =? 240); lia|reflexivity|].
  eapply feeds_cons; [apply high_byte, cont_high, C2|reflexivity|].
  eapply feeds_one; [apply high_byte, cont_high, C3|reflexivity].
Qed.

Lemma character_escape b r c r' : character (x5c :: b :: r) = Some (c, r') ->
  exists t, x5c :: b :: r = t ++ r' /\ feeds (st InString) t (st InString).
Proof.
  intros H.
  assert (Hsimple : s_step (st InStringEsc) b = (st InString, OpContinue) -> r' = r ->
     exists t, x5c :: b :: r = t ++ r' /\ feeds (st InString) t (st InString)).
  { intros E ->. exists [x5c; b]. split; [reflexivity|]. eapply feeds_cons; [reflexivity|reflexivity|].
    eapply feeds_one; [exact E|reflexivity]. }
  destruct b; try (cbn in H; discriminate H); try (injection H as _ <-; apply Hsimple; reflexivity).
  (* unicode *)
  cbn [character] in H. destruct (hex4 r) as [[u r1]|] eqn:E1; [|discriminate].
  destruct (hex4_split r u r1 E1) as (t1 & -> & F1).
  assert (Hu : feeds (st InString) (x5c :: x75 :: t1) (st InString)).
  { eapply feeds_cons; [reflexivity|reflexivity|]. eapply feeds_cons; [reflexivity|reflexivity|]. exact F1. }
  destruct ((55296 <=? u) && (u <=? 56319)).
  - destruct r1 as [|a r1]; [discriminate|]. destruct a; try discriminate. destruct r1 as [|a r1]; [discriminate|]. destruct a; try discriminate.
    destruct (hex4 r1) as [[v r3]|] eqn:E2; [|discriminate]. destruct (hex4_split r1 v r3 E2) as (t2 & -> & F2).
    destruct ((56320 <=? v) && (v <=? 57343)); [|discriminate]. injection H as _ <-.
    exists ((x5c :: x75 :: t1) ++ (x5c :: x75 :: t2)). split; [cbn; rewrite <- app_assoc; reflexivity|].
    eapply feeds_app; [exact Hu|]. eapply feeds_cons; [reflexivity|reflexivity|]. eapply feeds_cons; [reflexivity|reflexivity|]. exact F2.
  - destruct ((56320 <=? u) && (u <=? 57343)); [discriminate|]. injection H as _ <-.
    exists (x5c :: x75 :: t1). split; [reflexivity|exact Hu].
Qed.

Lemma character_split s c r : character s = Some (c, r) -> exists t, s = t ++ r /\ feeds (st InString) t (st InString).
Proof.
  intros H. destruct s as [|b s]; [discriminate|].
  destruct (Byte.byte_eq_dec b x5c) as [->|Hb].
  { destruct s as [|b s]; [discriminate|]. apply character_escape with (c := c). exact H. }
  assert (E : character (b :: s) = if (Z_of_byte b <? 32) || beqb b x22 || beqb b x5c then None
    else let '(c, w) := decode_rune (b :: s) in if (c =? rune_error) && Nat.eqb w 1 then None else Some (c, skipn w (b :: s))).
  { destruct b; try reflexivity. contradiction. }
  rewrite E in H. destruct ((Z_of_byte b <? 32) || beqb b x22 || beqb b x5c) eqn:Eb; [discriminate|].
  destruct (decode_rune (b :: s)) as [c' w] eqn:Ed. destruct ((c' =? rune_error) && Nat.eqb w 1) eqn:Ee; [discriminate|].
  injection H as <- <-. destruct (rune_split (b :: s) c' w Ed Ee) as (t & Et & _ & F).
  { apply orb_false_iff in Eb as [Eb _]. apply orb_false_iff in Eb as [E1 E2].
    split; [lia|]. split; [intros ->; discriminate E2|exact Hb]. }
  exists t. split; assumption.
Qed.

Lemma characters_split : forall fuel s cs r, characters fuel s = Some (cs, r) ->
  exists t, s = t ++ r /\ feeds (st InString) t (st EndValue).
Proof.
  induction fuel as [|fuel IH]; intros s cs r H; [discriminate|]. cbn [characters] in H.
  destruct s as [|b s]; [discriminate|].
  destruct (Byte.byte_eq_dec b x22) as [->|Hb].
  { injection H as _ <-. exists [x22]. split; [reflexivity|]. eapply feeds_one; reflexivity. }
  assert (H' : match character (b :: s) with None => None | Some (c, r) => match characters fuel r with None => None | Some (cs, r') => Some (c :: cs, r') end end = Some (cs, r)).
  { destruct b; try exact H. contradiction. }
  clear H. destruct (character (b :: s)) as [[c r1]|] eqn:E1; [|discriminate].
  destruct (characters fuel r1) as [[cs' r2]|] eqn:E2; [|discriminate]. injection H' as _ <-.
  destruct (character_split (b :: s) c r1 E1) as (t1 & Et & F1). destruct (IH r1 cs' r2 E2) as (t2 & -> & F2).
  exists (t1 ++ t2). split; [rewrite Et, app_assoc; reflexivity|]. eapply feeds_app; eassumption.
Qed.

(** *** Ends of values *)
Definition value_end (s : jstate) : Prop := s = EndValue \/ s = Digits1 \/ s = Digits0 \/ s = Dot0 \/ s = Exp0.
Definition follows (c : byte) : Prop := is_space c = true \/ c = x2c \/ c = x5d \/ c = x7d \/ c = x3a.
Lemma value_end_step s c : value_end s -> follows c -> s_step (st s) c = s_step (st EndValue) c.
Proof.
  intros Hs Hc. destruct Hs as [->|[->|[->|[->| ->]]]]; [reflexivity|..];
    (destruct Hc as [Hc|[->|[->|[->| ->]]]]; [destruct c; try discriminate Hc; reflexivity|reflexivity..]).
Qed.

(** *** Numbers *)
Lemma digits_split : forall s d r, digits s = (d, r) -> s = d ++ r /\ forallb is_digit d = true /\ match r with [] => True | b :: _ => is_digit b = false end.
Proof.
  induction s as [|b s IH]; intros d r H; cbn [digits] in H.
  - injection H as <- <-. repeat split.
  - destruct (is_digit b) eqn:E.
    + destruct (digits s) as [d' r'] eqn:Ed. injection H as <- <-. destruct (IH d' r' eq_refl) as (-> & H1 & H2).
      repeat split; [cbn; rewrite E; exact H1|exact H2].
    + injection H as <- <-. repeat split. exact E.
Qed.

Definition digit_loop (s : jstate) : Prop := s = Digits1 \/ s = Dot0 \/ s = Exp0.
Lemma feeds_digits s : digit_loop s -> forall d, forallb is_digit d = true -> feeds (st s) d (st s).
Proof.
  intros Hs. induction d as [|b d IH]; intros H; [apply feeds_nil|]. cbn in H. apply andb_true_iff in H as [Hb H].
  eapply feeds_cons with (op := OpContinue); [|reflexivity|apply IH; exact H].
  destruct Hs as [->|[->| ->]]; cbn; rewrite Hb; reflexivity.
Qed.

Lemma num_int_split s i r : num_int s = Some (i, r) -> s = i ++ r /\ exists s',
  (s' = Digits0 \/ s' = Digits1) /\ feeds (st BeginValue) i (st s') /\ feeds (st Neg) i (st s').
Proof.
  unfold num_int. destruct s as [|b s]; [discriminate|]. intros H.
  destruct (Byte.byte_eq_dec b x30) as [->|Hb].
  { injection H as <- <-. split; [reflexivity|]. exists Digits0. split; [left; reflexivity|].
    split; eapply feeds_one; reflexivity. }
  assert (H' : match digits (b :: s) with ([], _) => None | dr => Some dr end = Some (i, r)) by (destruct b; try exact H; contradiction).
  destruct (digits (b :: s)) as [d r'] eqn:Ed. destruct (digits_split _ _ _ Ed) as (E & Hd & _).
  destruct d as [|b' d]; [discriminate|]. injection H' as <- <-. split; [exact E|]. injection E as <- _.
  cbn in Hd. apply andb_true_iff in Hd as [Hb1 Hd]. exists Digits1. split; [right; reflexivity|].
  split; [eapply feeds_cons with (op := OpBeginLiteral)|eapply feeds_cons with (op := OpContinue)];
    [|reflexivity|apply feeds_digits; [left; reflexivity|exact Hd]| |reflexivity|apply feeds_digits; [left; reflexivity|exact Hd]];
    destruct b; try discriminate Hb1; try contradiction; reflexivity.
Qed.

Lemma num_frac_split s f r s1 : (s1 = Digits0 \/ s1 = Digits1) -> num_frac s = Some (f, r) -> s = f ++ r /\ exists s',
  (s' = Digits0 \/ s' = Digits1 \/ s' = Dot0) /\ feeds (st s1) f (st s').
Proof.
  intros Hs H. destruct s as [|b s].
  { injection H as <- <-. split; [reflexivity|]. exists s1. split; [tauto|apply feeds_nil]. }
  destruct (Byte.byte_eq_dec b x2e) as [->|Hb].
  - cbn [num_frac] in H. destruct (digits s) as [d r'] eqn:Ed. destruct (digits_split _ _ _ Ed) as (E & Hd & _).
    destruct d as [|b' d]; [discriminate|]. injection H as <- <-. split; [cbn; rewrite E; reflexivity|].
    exists Dot0. split; [tauto|]. cbn in Hd. apply andb_true_iff in Hd as [Hb1 Hd].
    eapply feeds_cons with (op := OpContinue); [destruct Hs as [->| ->]; reflexivity|reflexivity|].
    eapply feeds_cons with (op := OpContinue); [cbn; rewrite Hb1; reflexivity|reflexivity|].
    apply feeds_digits; [right; left; reflexivity|exact Hd].
  - assert (H' : Some ([], b :: s) = Some (f, r)) by (destruct b; try exact H; contradiction). injection H' as <- <-.
    split; [reflexivity|]. exists s1. split; [tauto|apply feeds_nil].
Qed.

Lemma num_exp_split s e r s1 : (s1 = Digits0 \/ s1 = Digits1 \/ s1 = Dot0) -> num_exp s = Some (e, r) -> s = e ++ r /\ exists s',
  value_end s' /\ feeds (st s1) e (st s').
Proof.
  intros Hs H. unfold value_end. destruct s as [|b s].
  { injection H as <- <-. split; [reflexivity|]. exists s1. split; [tauto|apply feeds_nil]. }
  assert (Hcase : (b = x45 \/ b = x65) \/ Some ([], b :: s) = Some (e, r)).
  { destruct b; try (right; exact H); left; tauto. }
  destruct Hcase as [Hb|H'].
  - assert (H' : (let '(sg, r1) := match s with (x2b | x2d) as c :: r1 => ([c], r1) | _ => ([], s) end in
      match digits r1 with ([], _) => None | (d, r') => Some (b :: sg ++ d, r') end) = Some (e, r)) by (destruct Hb as [->| ->]; exact H).
    clear H.
    assert (Hsg : exists sg r1, (match s with (x2b | x2d) as c :: r1 => ([c], r1) | _ => ([], s) end) = (sg, r1) /\ s = sg ++ r1 /\
       forall d1 d, is_digit d1 = true -> forallb is_digit d = true -> feeds (st Exp) (sg ++ d1 :: d) (st Exp0)).
    { assert (Hnone : forall d1 d, is_digit d1 = true -> forallb is_digit d = true -> feeds (st Exp) (d1 :: d) (st Exp0)).
      { intros d1 d H1 H2. eapply feeds_cons with (op := OpContinue); [|reflexivity|apply feeds_digits; [right; right; reflexivity|exact H2]].
        destruct d1; try discriminate H1; reflexivity. }
      destruct s as [|c s]; [exists [], []; repeat split; exact Hnone|].
      assert (Hc : (c = x2b \/ c = x2d) \/ (match c :: s with (x2b | x2d) as c :: r1 => ([c], r1) | _ => ([], c :: s) end) = ([], c :: s)).
      { destruct c; try (right; reflexivity); left; tauto. }
      destruct Hc as [Hc|Hc].
      - exists [c], s. split; [destruct Hc as [->| ->]; reflexivity|]. split; [reflexivity|].
        intros d1 d H1 H2. cbn [app]. eapply feeds_cons with (op := OpContinue); [destruct Hc as [->| ->]; reflexivity|reflexivity|].
        eapply feeds_cons with (op := OpContinue); [cbn; rewrite H1; reflexivity|reflexivity|].
        apply feeds_digits; [right; right; reflexivity|exact H2].
      - exists [], (c :: s). split; [exact Hc|]. split; [reflexivity|exact Hnone]. }
    destruct Hsg as (sg & r1 & E & Es & F). rewrite E in H'. destruct (digits r1) as [d r'] eqn:Ed.
    destruct (digits_split _ _ _ Ed) as (E1 & Hd & _). destruct d as [|d1 d]; [discriminate|].
    injection H' as <- <-. split; [rewrite Es, E1; cbn; rewrite <- app_assoc; reflexivity|].
    cbn in Hd. apply andb_true_iff in Hd as [Hd1 Hd]. exists Exp0. split; [tauto|].
    eapply feeds_cons with (op := OpContinue); [|reflexivity|apply F; assumption].
    destruct Hs as [->|[->| ->]], Hb as [->| ->]; reflexivity.
  - injection H' as <- <-. split; [reflexivity|]. exists s1. split; [tauto|apply feeds_nil].
Qed.

Lemma number_split s t r : number s = Some (t, r) -> s = t ++ r /\ exists s', value_end s' /\ feeds (st BeginValue) t (st s').
Proof.
  unfold number. intros H.
  assert (Hsg : exists sg s1, (match s with x2d :: r => ([x2d], r) | _ => ([], s) end) = (sg, s1) /\ s = sg ++ s1 /\
     forall i s', feeds (st BeginValue) i (st s') -> feeds (st Neg) i (st s') -> feeds (st BeginValue) (sg ++ i) (st s')).
  { destruct s as [|b s]; [exists [], []; repeat split; auto|].
    destruct (Byte.byte_eq_dec b x2d) as [->|Hb].
    - exists [x2d], s. repeat split. intros i s' _ H2. cbn [app]. eapply feeds_cons with (op := OpBeginLiteral); [reflexivity|reflexivity|exact H2].
    - exists [], (b :: s). split; [destruct b; try reflexivity; contradiction|]. split; [reflexivity|auto]. }
  destruct Hsg as (sg & s1 & E & Es & F). rewrite E in H.
  destruct (num_int s1) as [[i s2]|] eqn:E1; [|discriminate]. destruct (num_frac s2) as [[f s3]|] eqn:E2; [|discriminate].
  destruct (num_exp s3) as [[e s4]|] eqn:E3; [|discriminate]. injection H as <- <-.
  destruct (num_int_split _ _ _ E1) as (Ea & sa & Ha & Fa & Fa'). destruct (num_frac_split _ _ _ sa Ha E2) as (Eb & sb & Hb & Fb).
  destruct (num_exp_split _ _ _ sb Hb E3) as (Ec & sc & Hc & Fc).
  split; [rewrite Es, Ea, Eb, Ec, <- !app_assoc; reflexivity|]. exists sc. split; [exact Hc|].
  rewrite app_assoc. eapply feeds_app; [apply F; eassumption|]. eapply feeds_app; eassumption.
Qed.

(** *** Spaces and keywords *)
Definition skips (s : jstate) : Prop := s = BeginValueOrEmpty \/ s = BeginValue \/ s = BeginStringOrEmpty \/ s = BeginString \/ s = EndValue.
Lemma skips_step s c : skips s -> is_space c = true -> s_step (st s) c = (st s, OpSkipSpace).
Proof.
  intros Hs Hc. destruct K as [|p K']; [contradiction|].
  destruct Hs as [->|[->|[->|[->| ->]]]]; cbn; unfold begin_value, begin_string; rewrite Hc; reflexivity.
Qed.
Lemma feeds_spaces s ws : skips s -> forallb is_space ws = true -> feeds (st s) ws (st s).
Proof.
  intros Hs. induction ws as [|c ws IH]; intros H; [apply feeds_nil|]. cbn in H. apply andb_true_iff in H as [Hc H].
  eapply feeds_cons; [apply skips_step; assumption|reflexivity|apply IH; exact H].
Qed.
Lemma skip_ws_split s : exists ws, s = ws ++ skip_ws s /\ forallb is_space ws = true /\ match skip_ws s with [] => True | c :: _ => is_space c = false end.
Proof.
  induction s as [|c s (ws & E & Hw & Hc)]; [exists []; repeat split|]. cbn [skip_ws]. rewrite is_ws_space. destruct (is_space c) eqn:Es.
  - exists (c :: ws). split; [cbn; rewrite <- E; reflexivity|]. split; [cbn; rewrite Es; exact Hw|exact Hc].
  - exists []. split; [reflexivity|]. split; [reflexivity|exact Es].
Qed.

Lemma feeds_end_spaces s ws : value_end s -> forallb is_space ws = true -> exists s', value_end s' /\ feeds (st s) ws (st s').
Proof.
  intros Hs Hw. destruct ws as [|c ws]; [exists s; split; [exact Hs|apply feeds_nil]|].
  cbn in Hw. apply andb_true_iff in Hw as [Hc Hw]. exists EndValue. split; [left; reflexivity|].
  eapply feeds_cons with (s' := st EndValue) (op := OpSkipSpace); [|reflexivity|apply feeds_spaces; [right; right; right; right; reflexivity|exact Hw]].
  rewrite value_end_step by (assumption || left; exact Hc). apply skips_step; [right; right; right; right; reflexivity|exact Hc].
Qed.

Lemma keyword_split k r j j' r' : keyword k r j = Some (j', r') -> r = k ++ r'.
Proof.
  unfold keyword. destruct (has_prefix k r) eqn:E; [|discriminate]. intros H. injection H as _ <-.
  clear j'. revert r E. induction k as [|c k IH]; intros r E; [reflexivity|]. destruct r as [|c' r]; [discriminate|].
  cbn in E. destruct (beqb c c') eqn:Ec; [|discriminate]. apply byte_dec_bl in Ec. subst c'. cbn. f_equal. apply IH. exact E.
Qed.
End Stack.
