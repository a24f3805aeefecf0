(** The decoder: literals. *)
From Coq Require Import String List ZArith Lia Bool Arith.
From Coq Require Import Strings.Byte Floats.SpecFloat.
From Coq Require Import ZifyBool.
From Verif Require Import Base Codec Value GoStrings SpecText SpecJson Prog JsonReader SpecJsonFile JsonFacts JsonReaderFacts JsonReaderFacts2 FloatText SpecJsonDecode JsonDecode JsonDecodeFacts JsonDecodeFacts2.
Import ListNotations.
Open Scope Z_scope.

(** *** Ends of strings *)
Definition plain (b : byte) : Prop := b <> x22 /\ b <> x5c.
Lemma string_end_plain b l : plain b -> string_end (b :: l) = match string_end l with Some (t, r) => Some (b :: t, r) | None => None end.
Proof. intros [H1 H2]. destruct b; try reflexivity; contradiction. Qed.
Lemma string_end_app a l t r : Forall plain a -> string_end l = Some (t, r) -> string_end (a ++ l) = Some (a ++ t, r).
Proof. intros Ha. revert l t r. induction Ha as [|b a Hb _ IH]; intros l t r H; [exact H|]. cbn [app]. rewrite string_end_plain by exact Hb. rewrite (IH _ _ _ H). reflexivity. Qed.
Lemma string_end_escape e l t r : string_end l = Some (t, r) -> string_end (x5c :: e :: l) = Some (x5c :: e :: t, r).
Proof. intros H. cbn [string_end]. rewrite H. reflexivity. Qed.

Lemma high_plain b : 128 <= Z_of_byte b -> plain b.
Proof. intros H. split; intros ->; vm_compute in H; apply H; reflexivity. Qed.
Lemma hex_plain b v : hex_val b = Some v -> plain b.
Proof. intros H. split; intros ->; discriminate H. Qed.

(** The bytes of a rune. *)
Lemma decode_bytes b s c w : decode_rune (b :: s) = (c, w) -> plain b -> Forall plain (firstn w (b :: s)).
Proof.
  intros H Hb. assert (Hbad : (rune_error, 1%nat) = (c, w) -> Forall plain (firstn w (b :: s))).
  { intros E. injection E as <- <-. apply Forall_cons; [exact Hb|apply Forall_nil]. }
  cbn [decode_rune] in H. cbv zeta in H.
  destruct (_ <? 128); [injection H as _ <-; apply Forall_cons; [exact Hb|apply Forall_nil]|].
  destruct (_ <? 194); [auto|]. destruct (_ <? 224).
  { destruct s as [|b1 s]; [auto|]. destruct (cont_byte b1) eqn:C1; [|auto]. injection H as _ <-.
    apply Forall_cons; [exact Hb|]. apply Forall_cons; [apply high_plain, cont_high, C1|apply Forall_nil]. }
  destruct (_ <? 240).
  { destruct s as [|b1 [|b2 s]]; auto. destruct (in_range _ _ b1 && cont_byte b2) eqn:C; [|auto]. apply andb_true_iff in C as [C1 C2]. injection H as _ <-.
    apply Forall_cons; [exact Hb|]. apply Forall_cons; [apply high_plain; eapply range_high; [|exact C1]; destruct (_ =? 224); lia|].
    apply Forall_cons; [apply high_plain, cont_high, C2|apply Forall_nil]. }
  destruct (_ <? 245); [|auto]. destruct s as [|b1 [|b2 [|b3 s]]]; auto.
  destruct (in_range _ _ b1 && cont_byte b2 && cont_byte b3) eqn:C; [|auto]. apply andb_true_iff in C as [C C3]. apply andb_true_iff in C as [C1 C2]. injection H as _ <-.
  apply Forall_cons; [exact Hb|]. apply Forall_cons; [apply high_plain; eapply range_high; [|exact C1]; destruct (_ =? 240); lia|].
  apply Forall_cons; [apply high_plain, cont_high, C2|]. apply Forall_cons; [apply high_plain, cont_high, C3|apply Forall_nil].
Qed.
(** A quote ends the rune before it. *)
Lemma decode_quote b t r : decode_rune (b :: t ++ x22 :: r) = decode_rune (b :: t).
Proof.
  assert (Hq : forall lo hi, 128 <= lo -> in_range lo hi x22 = false) by (intros lo hi Hlo; unfold in_range; change (Z_of_byte x22) with 34; lia).
  assert (Hr1 : in_range (if Z_of_byte b =? 224 then 160 else 128) (if Z_of_byte b =? 237 then 159 else 191) x22 = false) by (apply Hq; destruct (_ =? 224); lia).
  assert (Hr2 : in_range (if Z_of_byte b =? 240 then 144 else 128) (if Z_of_byte b =? 244 then 143 else 191) x22 = false) by (apply Hq; destruct (_ =? 240); lia).
  assert (Hc : cont_byte x22 = false) by reflexivity.
  cbn [decode_rune]. cbv zeta. destruct t as [|b1 [|b2 [|b3 t]]]; cbn [app]; rewrite ?Hr1, ?Hr2, ?Hc; rewrite ?andb_false_r; cbn [andb]; try reflexivity.
  all: destruct (Z_of_byte b <? 128), (Z_of_byte b <? 194), (Z_of_byte b <? 224), (Z_of_byte b <? 240), (Z_of_byte b <? 245); try reflexivity;
    destruct r as [|c1 [|c2 r]]; rewrite ?andb_false_r; reflexivity.
Qed.

(** *** unquote *)
Lemma unquote_skip : forall a t, unquote_go (a ++ t) (length a) = unquote_go t 0.
Proof. induction a as [|c a IH]; intros t; [reflexivity|]. cbn [app length]. cbn [unquote_go]. apply IH. Qed.
Lemma hex_digit_val b : hex_digit b = hex_val b.
Proof. unfold hex_digit, hex_val. cbv zeta. destruct (_ && _); [reflexivity|]. destruct (_ && _); [f_equal; lia|]. destruct (_ && _); [f_equal; lia|reflexivity]. Qed.
Lemma getu4_hex s : getu4 (x5c :: x75 :: s) = option_map fst (hex4 s).
Proof.
  unfold getu4, hex4. destruct s as [|a [|b [|c [|d s]]]]; cbn [get_hex]; rewrite ?hex_digit_val; try reflexivity;
  destruct (hex_val a); try reflexivity; destruct (hex_val b); try reflexivity; destruct (hex_val c); try reflexivity. destruct (hex_val d); reflexivity.
Qed.
Lemma hex4_quote t r : hex4 (t ++ x22 :: r) = match hex4 t with Some (u, t') => Some (u, t' ++ x22 :: r) | None => None end.
Proof.
  assert (Hq : hex_val x22 = None) by reflexivity.
  unfold hex4. destruct t as [|a [|b [|c [|d s]]]]; cbn [app]; rewrite ?Hq.
  - destruct r as [|? [|? [|? r]]]; reflexivity.
  - destruct r as [|? [|? r]]; try reflexivity. destruct (hex_val a); reflexivity.
  - destruct r as [|? r]; try reflexivity. destruct (hex_val a), (hex_val b); reflexivity.
  - destruct (hex_val a), (hex_val b), (hex_val c); reflexivity.
  - destruct (hex_val a), (hex_val b), (hex_val c), (hex_val d); reflexivity.
Qed.
Lemma hex4_bytes s u r : hex4 s = Some (u, r) -> exists a b c d, s = a :: b :: c :: d :: r /\ Forall plain [a; b; c; d].
Proof.
  unfold hex4. destruct s as [|a [|b [|c [|d s]]]]; try discriminate.
  destruct (hex_val a) eqn:Ea; [|discriminate]. destruct (hex_val b) eqn:Eb; [|discriminate]. destruct (hex_val c) eqn:Ec; [|discriminate]. destruct (hex_val d) eqn:Ed; [|discriminate].
  intros E. injection E as _ <-. exists a, b, c, d. split; [reflexivity|]. repeat (apply Forall_cons; [eapply hex_plain; eassumption|]). apply Forall_nil.
Qed.

Definition added (b : bytes) (o : option bytes) : option bytes := match o with Some t => Some (b ++ t) | None => None end.

(** An escape sequence of four digits. *)
Lemma unquote_u s rr t1 : getu4 (x5c :: x75 :: s) = Some rr -> (exists a b c d, s = a :: b :: c :: d :: t1) ->
  unquote_go (x5c :: x75 :: s) 0 =
    if is_surrogate rr then
      let dec := match getu4 t1 with Some rr1 => decode_pair rr rr1 | None => rune_error end in
      if dec =? rune_error then added (encode_rune rune_error) (unquote_go t1 0) else added (encode_rune dec) (unquote_go (skipn 6 t1) 0)
    else added (encode_rune rr) (unquote_go t1 0).
Proof.
  intros Hu (a & b & c & d & ->).
  assert (E5 : unquote_go (x75 :: a :: b :: c :: d :: t1) 5 = unquote_go t1 0) by (apply (unquote_skip [x75; a; b; c; d])).
  assert (E11 : (match getu4 t1 with Some rr1 => decode_pair rr rr1 | None => rune_error end) <> rune_error -> unquote_go (x75 :: a :: b :: c :: d :: t1) 11 = unquote_go (skipn 6 t1) 0).
  { intros Hd. assert (Ht : exists u v e f g h t2, t1 = u :: v :: e :: f :: g :: h :: t2).
    { destruct (getu4 t1) as [rr1|] eqn:E; [|contradiction]. unfold getu4 in E. destruct t1 as [|u t1]; [discriminate|]. destruct u; try discriminate. destruct t1 as [|v t1]; [discriminate|]. destruct v; try discriminate.
      cbn [get_hex] in E. destruct t1 as [|e t1]; [discriminate|]. destruct (hex_digit e); [|discriminate]. destruct t1 as [|f t1]; [discriminate|]. destruct (hex_digit f); [|discriminate].
      destruct t1 as [|g t1]; [discriminate|]. destruct (hex_digit g); [|discriminate]. destruct t1 as [|h t1]; [discriminate|]. do 7 eexists. reflexivity. }
    destruct Ht as (u & v & e & f & g & h & t2 & ->). apply (unquote_skip [x75; a; b; c; d; u; v; e; f; g; h]). }
  remember (a :: b :: c :: d :: t1) as s eqn:Es. cbn [unquote_go]. change (x5c :: x75 :: s) with (x5c :: x75 :: s) in Hu. rewrite Hu.
  assert (E6 : skipn 6 (x5c :: x75 :: s) = t1) by (subst s; reflexivity). rewrite E6. cbv zeta. unfold added.
  destruct (is_surrogate rr); [|rewrite Es at 1; cbn [unquote_go]; reflexivity].
  destruct (_ =? rune_error) eqn:Ed; [rewrite Es at 1; cbn [unquote_go]; reflexivity|].
  specialize (E11 ltac:(intros E; rewrite E in Ed; discriminate Ed)). cbn [unquote_go] in E11. rewrite E11. reflexivity.
Qed.

Lemma encode_ascii b : Z_of_byte b < 128 -> encode_rune (Z_of_byte b) = [b].
Proof. intros H. unfold encode_rune. assert (E : (Z_of_byte b <? 128) = true) by lia. destruct b; try discriminate E; reflexivity. Qed.

Lemma unquote_plain b s c w : plain b -> 32 <= Z_of_byte b -> decode_rune (b :: s) = (c, w) -> unquote_go (b :: s) 0 = added (encode_rune c) (unquote_go (skipn w (b :: s)) 0).
Proof.
  intros [H1 H2] H32 Hd.
  assert (E : unquote_go (b :: s) 0 = if Z_of_byte b <? 32 then None else if Z_of_byte b <? 128 then added [b] (unquote_go s 0)
    else let '(rr, size) := decode_rune (b :: s) in added (encode_rune rr) (unquote_go s (pred size))) by (destruct b; try reflexivity; contradiction).
  rewrite E. replace (Z_of_byte b <? 32) with false by lia. destruct (Z_of_byte b <? 128) eqn:El.
  - cbn [decode_rune] in Hd. rewrite El in Hd. injection Hd as <- <-. rewrite encode_ascii by lia. reflexivity.
  - rewrite Hd. pose proof (decode_width _ _ _ _ Hd) as Hw. destruct w as [|w]; [lia|]. cbn [pred skipn].
    f_equal. pose proof (unquote_skip (firstn w s) (skipn w s)) as Hu. rewrite firstn_skipn, firstn_length in Hu. replace (Nat.min w (length s)) with w in Hu by (cbn [length] in Hw; lia). exact Hu.
Qed.

Lemma simple_character e l c r : e <> x75 -> character (x5c :: e :: l) = Some (c, r) -> r = l /\ forall t, unquote_go (x5c :: e :: t) 0 = added (encode_rune c) (unquote_go t 0).
Proof. intros He H. destruct e; try contradiction; try (cbn in H; discriminate H); injection H as <- <-; split; reflexivity. Qed.

Lemma plain_character b s c r : plain b -> lcharacter (b :: s) = Some (c, r) -> 32 <= Z_of_byte b /\ exists w, decode_rune (b :: s) = (c, w) /\ r = skipn w (b :: s).
Proof.
  intros [H1 H2] H.
  assert (E2 : character (b :: s) = if (Z_of_byte b <? 32) || beqb b x22 || beqb b x5c then None
      else let '(c, w) := decode_rune (b :: s) in if (c =? rune_error) && Nat.eqb w 1 then None else Some (c, skipn w (b :: s))) by (destruct b; try reflexivity; contradiction).
  apply lcharacter_cases in H as [H|[(_ & _ & q & u & E & _)|(Hn & -> & b' & E & H32 & _)]].
  - rewrite E2 in H. destruct (_ || _) eqn:Eb; [discriminate|]. destruct (decode_rune (b :: s)) as [c' w]. destruct (_ && _); [discriminate|]. injection H as <- <-.
    split; [|eauto]. apply orb_false_iff in Eb as [Eb _]. apply orb_false_iff in Eb as [Eb _]. lia.
  - injection E as -> _. contradiction.
  - injection E as <- <-. split; [exact H32|]. rewrite E2 in Hn. destruct ((Z_of_byte b <? 32) || beqb b x22 || beqb b x5c) eqn:Eb.
    { exfalso. apply orb_true_iff in Eb as [Eb|Eb]; [apply orb_true_iff in Eb as [Eb|Eb]; [lia|]|]; apply byte_dec_bl in Eb; contradiction. }
    destruct (decode_rune (b :: s)) as [c' w] eqn:Ed. destruct ((c' =? rune_error) && Nat.eqb w 1) eqn:Ew; [|discriminate]. apply andb_true_iff in Ew as [Ew1 Ew2].
    exists 1%nat. apply Z.eqb_eq in Ew1. apply Nat.eqb_eq in Ew2. subst c' w. auto.
Qed.

(** A string: where it ends, and its value. *)
Lemma string_read : forall fuel q cs r, lcharacters fuel q = Some (cs, r) ->
  exists t, q = t ++ x22 :: r /\ string_end q = Some (t ++ [x22], r) /\ unquote_go t 0 = Some (text cs).
Proof.
  induction fuel as [|fuel IH]; intros q cs r H; [discriminate|]. cbn [lcharacters] in H. destruct q as [|b s]; [discriminate|].
  destruct (Byte.byte_eq_dec b x22) as [->|Hb].
  { injection H as <- <-. exists []. auto. }
  assert (H' : match lcharacter (b :: s) with None => None | Some (c, r) => match lcharacters fuel r with None => None | Some (cs, r') => Some (c :: cs, r') end end = Some (cs, r)).
  { destruct b; try exact H. contradiction. }
  clear H. destruct (lcharacter (b :: s)) as [[c r1]|] eqn:Ec; [|discriminate].
  destruct (lcharacters fuel r1) as [[cs' r2]|] eqn:E2; [|discriminate]. injection H' as <- <-.
  destruct (IH _ _ _ E2) as (t1 & Er1 & Hend & Hun).
  assert (Hdone : forall a, b :: s = a ++ r1 -> string_end (a ++ r1) = Some (a ++ t1 ++ [x22], r2) -> unquote_go (a ++ t1) 0 = added (encode_rune c) (unquote_go t1 0) ->
    exists t, b :: s = t ++ x22 :: r2 /\ string_end (b :: s) = Some (t ++ [x22], r2) /\ unquote_go t 0 = Some (text (c :: cs'))).
  { intros a Ea H1 H2. exists (a ++ t1). split; [rewrite Ea, Er1, app_assoc; reflexivity|]. split; [rewrite Ea, H1, app_assoc; reflexivity|]. rewrite H2, Hun. reflexivity. }
  destruct (Byte.byte_eq_dec b x5c) as [->|Hs].
  2: { destruct (plain_character b s c r1 (conj Hb Hs) Ec) as (H32 & w & Ed & Ew).
    pose proof (decode_width _ _ _ _ Ed) as Hw. destruct w as [|w]; [lia|].
    apply (Hdone (firstn (S w) (b :: s))).
    - rewrite Ew. symmetry. apply firstn_skipn.
    - apply string_end_app; [eapply decode_bytes; [exact Ed|split; assumption]|exact Hend].
    - cbn [firstn app]. assert (Ed' : decode_rune (b :: firstn w s ++ t1) = (c, S w)).
      { rewrite <- (decode_quote b (firstn w s ++ t1) r2). rewrite <- app_assoc, <- Er1, Ew. cbn [skipn]. rewrite firstn_skipn. exact Ed. }
      rewrite (unquote_plain b _ c (S w) (conj Hb Hs) H32 Ed'). f_equal. cbn [skipn]. f_equal.
      rewrite skipn_app. cbn [length] in Hw. replace (skipn w (firstn w s)) with (@nil byte) by (symmetry; apply skipn_all2; rewrite firstn_length; lia).
      rewrite firstn_length. replace (w - Nat.min w (length s))%nat with O by lia. reflexivity. }
  destruct s as [|e s]; [discriminate|]. destruct (Byte.byte_eq_dec e x75) as [->|He].
  2: { assert (Hch : character (x5c :: e :: s) = Some (c, r1)).
    { apply lcharacter_cases in Ec as [Ec|[(_ & _ & q & u & E & _)|(_ & _ & b' & E & _ & _ & Hn)]]; [exact Ec|injection E as -> _; contradiction|injection E as <- _; contradiction]. }
    destruct (simple_character e s c r1 He Hch) as (-> & Hu). apply (Hdone [x5c; e]); [reflexivity|apply string_end_escape; exact Hend|apply Hu]. }
  (* an escape sequence of four digits, or two of them *)
  assert (Hh : exists u q, hex4 s = Some (u, q)).
  { unfold lcharacter in Ec. destruct (hex4 s) as [[u q]|]; [eauto|discriminate]. }
  destruct Hh as (u & q & Eh). destruct (hex4_bytes _ _ _ Eh) as (a1 & a2 & a3 & a4 & Es & Hp).
  assert (Hgu : forall t, getu4 (x5c :: x75 :: a1 :: a2 :: a3 :: a4 :: t) = Some u).
  { intros t. rewrite getu4_hex. revert Eh. rewrite Es. unfold hex4. destruct (hex_val a1), (hex_val a2), (hex_val a3), (hex_val a4); try discriminate. intros E. injection E as <-. reflexivity. }
  assert (Hone : r1 = q -> (forall t, t ++ x22 :: r2 = q -> unquote_go (x5c :: x75 :: a1 :: a2 :: a3 :: a4 :: t) 0 = added (encode_rune c) (unquote_go t 0)) ->
    exists t, x5c :: x75 :: s = t ++ x22 :: r2 /\ string_end (x5c :: x75 :: s) = Some (t ++ [x22], r2) /\ unquote_go t 0 = Some (text (c :: cs'))).
  { intros -> Hu. apply (Hdone [x5c; x75; a1; a2; a3; a4]); [rewrite Es; reflexivity| |apply Hu; symmetry; exact Er1].
    cbn [app]. rewrite (string_end_escape x75 (a1 :: a2 :: a3 :: a4 :: q) (a1 :: a2 :: a3 :: a4 :: t1 ++ [x22]) r2); [reflexivity|].
    apply (string_end_app [a1; a2; a3; a4] q _ _ Hp Hend). }
  assert (Hlone : is_surrogate u = true -> c = 65533 -> r1 = q ->
      (forall t, t ++ x22 :: r2 = q -> (match getu4 t with Some rr1 => decode_pair u rr1 | None => rune_error end) = rune_error) ->
      exists t, x5c :: x75 :: s = t ++ x22 :: r2 /\ string_end (x5c :: x75 :: s) = Some (t ++ [x22], r2) /\ unquote_go t 0 = Some (text (c :: cs'))).
  { intros Hsur -> Hq Hd. apply Hone; [exact Hq|]. intros t Ht. rewrite (unquote_u _ u t) by (eauto || apply Hgu). rewrite Hsur. cbv zeta. rewrite (Hd t Ht), Z.eqb_refl. reflexivity. }
  assert (Hpairs : forall t, t ++ x22 :: r2 = q -> forall v, getu4 t = Some v -> exists q2 q3, q = x5c :: x75 :: q2 /\ hex4 q2 = Some (v, q3)).
  { intros t Ht v Hv. destruct t as [|x t]; [discriminate Hv|]. destruct x; try discriminate Hv. destruct t as [|x t]; [discriminate Hv|]. destruct x; try discriminate Hv.
    rewrite getu4_hex in Hv. exists (t ++ x22 :: r2). rewrite hex4_quote. destruct (hex4 t) as [[v' t']|]; [|discriminate]. injection Hv as ->. eexists. split; [rewrite <- Ht; reflexivity|reflexivity]. }
  apply lcharacter_cases in Ec as [Ec|[(Hn & Hc & q' & u' & E & Eh')|(_ & _ & b' & E & _ & _ & Hx)]]; [| |injection E as <- _; contradiction].
  - cbn [character] in Ec. rewrite Eh in Ec. destruct ((55296 <=? u) && (u <=? 56319)) eqn:Ehi.
    + destruct q as [|x q]; [discriminate|]. destruct x; try discriminate. destruct q as [|x q]; [discriminate|]. destruct x; try discriminate.
      destruct (hex4 q) as [[v q3]|] eqn:Eh2; [|discriminate]. destruct ((56320 <=? v) && (v <=? 57343)) eqn:Elo; [|discriminate]. injection Ec as Ec ->.
      destruct (hex4_bytes _ _ _ Eh2) as (b1 & b2 & b3 & b4 & Eq & Hp2).
      apply (Hdone [x5c; x75; a1; a2; a3; a4; x5c; x75; b1; b2; b3; b4]); [rewrite Es, Eq; reflexivity| |].
      * cbn [app]. rewrite (string_end_escape x75 (a1 :: a2 :: a3 :: a4 :: x5c :: x75 :: b1 :: b2 :: b3 :: b4 :: r1) (a1 :: a2 :: a3 :: a4 :: x5c :: x75 :: b1 :: b2 :: b3 :: b4 :: t1 ++ [x22]) r2); [reflexivity|].
        apply (string_end_app [a1; a2; a3; a4] _ _ _ Hp). apply string_end_escape. apply (string_end_app [b1; b2; b3; b4] _ _ _ Hp2 Hend).
      * cbn [app]. rewrite (unquote_u _ u (x5c :: x75 :: b1 :: b2 :: b3 :: b4 :: t1)) by (eauto 10 || apply Hgu).
        assert (Hgv : getu4 (x5c :: x75 :: b1 :: b2 :: b3 :: b4 :: t1) = Some v).
        { rewrite getu4_hex. revert Eh2. rewrite Eq. unfold hex4. destruct (hex_val b1), (hex_val b2), (hex_val b3), (hex_val b4); try discriminate. intros E. injection E as <-. reflexivity. }
        rewrite Hgv. unfold is_surrogate. replace ((55296 <=? u) && (u <? 57344)) with true by lia. cbv zeta.
        unfold decode_pair. replace ((55296 <=? u) && (u <? 56320) && (56320 <=? v) && (v <? 57344)) with true by lia.
        replace ((u - 55296) * 1024 + (v - 56320) + 65536 =? rune_error) with false by (unfold rune_error; lia).
        cbn [skipn]. rewrite <- Ec. replace ((u - 55296) * 1024 + (v - 56320) + 65536) with (65536 + (u - 55296) * 1024 + (v - 56320)) by ring. reflexivity.
    + destruct ((56320 <=? u) && (u <=? 57343)) eqn:Elo; [discriminate|]. injection Ec as <- <-. apply Hone; [reflexivity|].
      intros t Ht. rewrite (unquote_u _ u t) by (eauto || apply Hgu). unfold is_surrogate. replace ((55296 <=? u) && (u <? 57344)) with false by lia. reflexivity.
  - injection E as <-. rewrite Eh in Eh'. injection Eh' as <- <-. cbn [character] in Hn. rewrite Eh in Hn.
    destruct ((55296 <=? u) && (u <=? 56319)) eqn:Ehi.
    + apply Hlone; [unfold is_surrogate; lia|exact Hc|reflexivity|]. intros t Ht. destruct (getu4 t) as [v|] eqn:Ev; [|reflexivity].
      destruct (Hpairs t Ht v Ev) as (q2 & q3 & -> & E4). rewrite E4 in Hn. unfold decode_pair.
      destruct ((56320 <=? v) && (v <=? 57343)) eqn:Elo; [discriminate|]. replace ((55296 <=? u) && (u <? 56320) && (56320 <=? v) && (v <? 57344)) with false by lia. reflexivity.
    + destruct ((56320 <=? u) && (u <=? 57343)) eqn:Elo; [|discriminate]. apply Hlone; [unfold is_surrogate; lia|exact Hc|reflexivity|].
      intros t Ht. destruct (getu4 t) as [v|]; [|reflexivity]. unfold decode_pair. replace ((55296 <=? u) && (u <? 56320) && (56320 <=? v) && (v <? 57344)) with false by lia. reflexivity.
Qed.
Lemma unquote_read t cs : unquote_go t 0 = Some (text cs) -> unquote (x22 :: t ++ [x22]) = Some (text cs).
Proof. intros H. unfold unquote. rewrite rev_app_distr. cbn [rev app]. rewrite removelast_last. exact H. Qed.

(** *** Ends of numbers *)
Lemma number_end_app : forall t r, forallb number_byte t = true -> ends r -> number_end (t ++ r) = (t, r).
Proof.
  induction t as [|c t IH]; intros r Ht Hr; cbn [app].
  - destruct r as [|c r]; [reflexivity|]. cbn [number_end]. cbn [ends] in Hr. rewrite follows_not_number by exact Hr. reflexivity.
  - cbn [forallb] in Ht. apply andb_true_iff in Ht as [Hc Ht]. cbn [number_end]. rewrite Hc, IH by assumption. reflexivity.
Qed.
Lemma digits_bytes d : forallb is_digit d = true -> forallb number_byte d = true.
Proof. induction d as [|c d IH]; [reflexivity|]. cbn [forallb]. intros H. apply andb_true_iff in H as [H1 H2]. unfold number_byte at 1. rewrite H1, IH by exact H2. reflexivity. Qed.
Lemma number_bytes s t r : number s = Some (t, r) -> s = t ++ r /\ forallb number_byte t = true /\ match t with [] => False | c :: _ => is_digit c = true \/ c = x2d end.
Proof.
  intros H. destruct (number_split [] _ _ _ H) as (E & _). split; [exact E|]. clear E. unfold number in H.
  assert (Hsg : exists sg s1, (match s with x2d :: r => ([x2d], r) | _ => ([], s) end) = (sg, s1) /\ (sg = [] \/ sg = [x2d])).
  { destruct s as [|b s]; [eauto|]. destruct b; eauto. }
  destruct Hsg as (sg & s1 & Esg & Hsg). rewrite Esg in H. clear Esg.
  destruct (num_int s1) as [[i s2]|] eqn:Ei; [|discriminate]. destruct (num_frac s2) as [[f s3]|] eqn:Ef; [|discriminate]. destruct (num_exp s3) as [[e s4]|] eqn:Ee; [|discriminate]. injection H as <- <-.
  assert (Hi : exists c i', i = c :: i' /\ is_digit c = true /\ forallb is_digit i' = true).
  { unfold num_int in Ei. destruct s1 as [|b s1]; [discriminate|]. destruct (Byte.byte_eq_dec b x30) as [->|Hb]; [injection Ei as <- _; exists x30, []; auto|].
    assert (Ei' : match digits (b :: s1) with ([], _) => None | dr => Some dr end = Some (i, s2)) by (destruct b; try exact Ei; contradiction).
    destruct (digits (b :: s1)) as [d r'] eqn:Ed. destruct (digits_split _ _ _ Ed) as (_ & Hd & _). destruct d as [|c d]; [discriminate|]. injection Ei' as <- _.
    cbn in Hd. apply andb_true_iff in Hd as [H1 H2]. eauto. }
  assert (Hf : forallb number_byte f = true).
  { destruct s2 as [|b s2]; [injection Ef as <- _; reflexivity|]. destruct (Byte.byte_eq_dec b x2e) as [->|Hb].
    - cbn [num_frac] in Ef. destruct (digits s2) as [d r'] eqn:Ed. destruct (digits_split _ _ _ Ed) as (_ & Hd & _). destruct d as [|c d]; [discriminate|]. injection Ef as <- _. cbn [forallb]. exact (digits_bytes _ Hd).
    - assert (Ef' : Some ([], b :: s2) = Some (f, s3)) by (destruct b; try exact Ef; contradiction). injection Ef' as <- _. reflexivity. }
  assert (He : forallb number_byte e = true).
  { destruct s3 as [|b s3]; [injection Ee as <- _; reflexivity|].
    assert (Hcase : (b = x45 \/ b = x65) \/ Some ([], b :: s3) = Some (e, s4)) by (destruct b; try (right; exact Ee); left; tauto).
    destruct Hcase as [Hb|H']; [|injection H' as <- _; reflexivity].
    assert (H' : (let '(sg, r1) := match s3 with (x2b | x2d) as c :: r1 => ([c], r1) | _ => ([], s3) end in
      match digits r1 with ([], _) => None | (d, r') => Some (b :: sg ++ d, r') end) = Some (e, s4)) by (destruct Hb as [->| ->]; exact Ee).
    assert (Hs3 : exists sg r1, (match s3 with (x2b | x2d) as c :: r1 => ([c], r1) | _ => ([], s3) end) = (sg, r1) /\ forallb number_byte sg = true) by (destruct s3 as [|[] s3]; eauto).
    destruct Hs3 as (sg' & r1 & E & Hsg'). rewrite E in H'. destruct (digits r1) as [d r'] eqn:Ed. destruct (digits_split _ _ _ Ed) as (_ & Hd & _). destruct d as [|c d]; [discriminate|].
    injection H' as <- _. cbn [forallb]. rewrite forallb_app, Hsg'. rewrite (digits_bytes _ Hd). destruct Hb as [->| ->]; reflexivity. }
  destruct Hi as (c & i' & -> & Hc & Hi'). split.
  - rewrite !forallb_app, Hf, He. rewrite (digits_bytes (c :: i')) by (cbn; rewrite Hc; exact Hi'). destruct Hsg as [->| ->]; reflexivity.
  - destruct Hsg as [->| ->]; cbn; auto.
Qed.
