(** UTF-8 encoding and the removal of characters. *)
From Coq Require Import List ZArith Lia Bool String ZifyBool.
From Coq Require Import Strings.Byte.

From Coq Require Decimal DecimalString DecimalZ.
From Verif Require Import Base BaseFacts Codec CodecFacts GoStrings SpecText StringsFacts.
Import ListNotations.
Open Scope Z_scope.
Ltac Zify.zify_post_hook ::= Z.to_euclidean_division_equations.

Inductive encoding (r : Z) : bytes -> Prop :=
| enc1 b : 0 <= r < 128 -> Z_of_byte b = r -> encoding r [b]
| enc2 b0 b1 : 128 <= r < 2048 -> 194 <= Z_of_byte b0 < 224 -> 128 <= Z_of_byte b1 < 192 ->
    r = (Z_of_byte b0 - 192) * 64 + (Z_of_byte b1 - 128) -> encoding r [b0; b1]
| enc3 b0 b1 b2 : 2048 <= r < 65536 -> 224 <= Z_of_byte b0 < 240 ->
    (if Z_of_byte b0 =? 224 then 160 else 128) <= Z_of_byte b1 <= (if Z_of_byte b0 =? 237 then 159 else 191) ->
    128 <= Z_of_byte b2 < 192 ->
    r = (Z_of_byte b0 - 224) * 4096 + (Z_of_byte b1 - 128) * 64 + (Z_of_byte b2 - 128) -> encoding r [b0; b1; b2]
| enc4 b0 b1 b2 b3 : 65536 <= r < 1114112 -> 240 <= Z_of_byte b0 < 245 ->
    (if Z_of_byte b0 =? 240 then 144 else 128) <= Z_of_byte b1 <= (if Z_of_byte b0 =? 244 then 143 else 191) ->
    128 <= Z_of_byte b2 < 192 -> 128 <= Z_of_byte b3 < 192 ->
    r = (Z_of_byte b0 - 240) * 262144 + (Z_of_byte b1 - 128) * 4096 + (Z_of_byte b2 - 128) * 64 + (Z_of_byte b3 - 128) ->
    encoding r [b0; b1; b2; b3].

Lemma encode_encoding r : scalar r -> encoding r (encode_rune r).
Proof.
  intros Hs. unfold encode_rune.
  replace ((r <? 0) || (1114111 <? r) || ((55296 <=? r) && (r <=? 57343))) with false by (unfold scalar in Hs; lia).
  destruct (r <? 128) eqn:E1; [|destruct (r <? 2048) eqn:E2; [|destruct (r <? 65536) eqn:E3]].
  - unfold scalar in Hs. apply enc1; [lia|]. rewrite Z_of_byte_of_Z. lia.
  - apply enc2; rewrite ?Z_of_byte_of_Z; lia.
  - unfold scalar in Hs. apply enc3; rewrite ?Z_of_byte_of_Z; try lia.
    rewrite Z.mod_small by lia. rewrite Z.mod_small by lia.
    destruct (224 + r / 4096 =? 224) eqn:Ea; destruct (224 + r / 4096 =? 237) eqn:Eb; lia.
  - unfold scalar in Hs. apply enc4; rewrite ?Z_of_byte_of_Z; try lia.
    rewrite Z.mod_small by lia. rewrite Z.mod_small by lia.
    destruct (240 + r / 262144 =? 240) eqn:Ea; destruct (240 + r / 262144 =? 244) eqn:Eb; lia.
Qed.

Lemma decode_encoding r e rest : encoding r e -> decode_rune (e ++ rest) = (r, List.length e).
Proof.
  destruct 1; cbn [app decode_rune List.length].
  - replace (Z_of_byte b <? 128) with true by lia. f_equal. assumption.
  - replace (Z_of_byte b0 <? 128) with false by lia. replace (Z_of_byte b0 <? 194) with false by lia.
    replace (Z_of_byte b0 <? 224) with true by lia. unfold cont_byte.
    replace ((128 <=? Z_of_byte b1) && (Z_of_byte b1 <=? 191)) with true by lia. f_equal. lia.
  - replace (Z_of_byte b0 <? 128) with false by lia. replace (Z_of_byte b0 <? 194) with false by lia.
    replace (Z_of_byte b0 <? 224) with false by lia. replace (Z_of_byte b0 <? 240) with true by lia.
    unfold cont_byte, in_range.
    match goal with |- (if ?c then _ else _) = _ => replace c with true by lia end. f_equal. lia.
  - replace (Z_of_byte b0 <? 128) with false by lia. replace (Z_of_byte b0 <? 194) with false by lia.
    replace (Z_of_byte b0 <? 224) with false by lia. replace (Z_of_byte b0 <? 240) with false by lia.
    replace (Z_of_byte b0 <? 245) with true by lia.
    unfold cont_byte, in_range.
    match goal with |- (if ?c then _ else _) = _ => replace c with true by lia end. f_equal. lia.
Qed.

Lemma decode_encode r rest : scalar r -> decode_rune (encode_rune r ++ rest) = (r, List.length (encode_rune r)).
Proof. intros H. apply decode_encoding. apply encode_encoding. assumption. Qed.

Lemma encoding_shape r e : encoding r e -> exists b0 t, e = b0 :: t /\ cont_byte b0 = false /\ Forall (fun b => cont_byte b = true) t.
Proof.
  destruct 1; unfold cont_byte; eexists _, _; (split; [reflexivity|]); (split; [lia|]); repeat constructor; try lia.
  - destruct (Z_of_byte b0 =? 224), (Z_of_byte b0 =? 237); lia.
  - destruct (Z_of_byte b0 =? 240), (Z_of_byte b0 =? 244); lia.
Qed.

Lemma encode_shape r : scalar r -> exists b0 t, encode_rune r = b0 :: t /\ cont_byte b0 = false /\ Forall (fun b => cont_byte b = true) t.
Proof. intros H. eapply encoding_shape. apply encode_encoding. assumption. Qed.

Lemma runes_go_skip s : forall k, (k <= List.length s)%nat -> runes_go s k = runes_go (skipn k s) 0.
Proof.
  induction s as [|x s IH]; intros k Hk; [destruct k; reflexivity|].
  destruct k as [|k]; [reflexivity|]. cbn [runes_go skipn]. apply IH. cbn in Hk. lia.
Qed.

Lemma runes_text rs : Forall scalar rs -> runes (text rs) = rs.
Proof.
  induction 1 as [|r rs Hr _ IH]; [reflexivity|]. cbn [text flat_map]. fold (text rs).
  pose proof (decode_encode r (text rs) Hr) as Hd. destruct (encode_shape r Hr) as (b0 & t & E & _ & _).
  rewrite E in Hd |- *. cbn [app] in Hd |- *. unfold runes. cbn [runes_go]. rewrite Hd. f_equal. cbn [List.length pred].
  rewrite runes_go_skip by (rewrite app_length; lia). rewrite skipn_app_exact. exact IH.
Qed.

(** *** Removing one character *)
Lemma encode_prefix c r rest : scalar c -> scalar r -> has_prefix (encode_rune c) (encode_rune r ++ rest) = (r =? c).
Proof.
  intros Hc Hr. destruct (r =? c) eqn:E.
  - apply Z.eqb_eq in E as ->. apply has_prefix_spec. eauto.
  - apply not_true_iff_false. intros H. apply has_prefix_spec in H as (b & H).
    pose proof (decode_encode r rest Hr) as D1. rewrite H, decode_encode in D1 by assumption. injection D1 as D1 _. lia.
Qed.

Lemma split_go_cur sep s : forall k cur, List.concat (split_go sep s k cur) = rev cur ++ List.concat (split_go sep s k []).
Proof.
  induction s as [|x s IH]; intros k cur; cbn [split_go].
  - cbn. rewrite app_nil_r. reflexivity.
  - destruct k as [|k]; [|apply IH]. destruct (has_prefix sep (x :: s)); [reflexivity|].
    rewrite IH, (IH 0%nat [x]). cbn [rev app]. rewrite <- app_assoc. reflexivity.
Qed.

Lemma cont_not_prefix c b s : scalar c -> cont_byte b = true -> has_prefix (encode_rune c) (b :: s) = false.
Proof.
  intros Hc Hb. destruct (encode_shape c Hc) as (b0 & t & -> & H0 & _). cbn [has_prefix].
  destruct (beqb b0 b) eqn:E; [|reflexivity]. apply beqb_eq in E. congruence.
Qed.

Lemma split_cont c t rest : scalar c -> Forall (fun b => cont_byte b = true) t ->
  List.concat (split_go (encode_rune c) (t ++ rest) 0 []) = t ++ List.concat (split_go (encode_rune c) rest 0 []).
Proof.
  intros Hc. induction 1 as [|b t Hb _ IH]; [reflexivity|]. cbn [app split_go].
  rewrite cont_not_prefix by assumption. rewrite split_go_cur, IH. reflexivity.
Qed.

Lemma join_nil l : join_strings [] l = List.concat l.
Proof. induction l as [|x [|y l] IH]; [reflexivity|cbn; rewrite app_nil_r; reflexivity|]. cbn [join_strings List.concat] in *. rewrite IH. reflexivity. Qed.

Lemma remove_one c rs : scalar c -> Forall scalar rs ->
  replace_all (text rs) (encode_rune c) [] = text (filter (fun r => negb (r =? c)) rs).
Proof.
  intros Hc. unfold replace_all. rewrite join_nil. induction 1 as [|r rs Hr _ IH]; [reflexivity|].
  cbn [text flat_map filter]. fold (text rs).
  pose proof (encode_prefix c r (text rs) Hc Hr) as Hp.
  destruct (encode_shape r Hr) as (b0 & t & E & H0 & Ht). rewrite E in Hp |- *. cbn [app split_go] in Hp |- *.
  rewrite Hp. destruct (r =? c) eqn:Er; cbn [negb].
  - apply Z.eqb_eq in Er. subst r. cbn [rev List.concat app].
    rewrite E. cbn [List.length pred]. rewrite split_go_skip by (rewrite app_length; lia). rewrite skipn_app_exact.
    rewrite <- E. exact IH.
  - rewrite split_go_cur. cbn [rev app]. rewrite split_cont by assumption. rewrite IH.
    cbn [flat_map]. rewrite E. reflexivity.
Qed.

Lemma Forall_filter {A} (P : A -> Prop) f l : Forall P l -> Forall P (filter f l).
Proof. rewrite !Forall_forall. intros H x Hx. apply filter_In in Hx as [Hx _]. auto. Qed.

Lemma filter_filter {A} (f g : A -> bool) l : filter f (filter g l) = filter (fun x => g x && f x) l.
Proof. induction l as [|x l IH]; [reflexivity|]. cbn. destruct (g x); cbn; [destruct (f x); congruence|assumption]. Qed.

Definition not_in (cs : list Z) (r : Z) : bool := negb (existsb (Z.eqb r) cs).

Lemma remove_text rs cs : Forall scalar cs -> Forall scalar rs ->
  remove_characters (text rs) (text cs) = text (filter (not_in cs) rs).
Proof.
  intros Hcs Hrs. unfold remove_characters. rewrite runes_text by assumption. revert rs Hrs.
  induction Hcs as [|c cs Hc _ IH]; intros rs Hrs; cbn [fold_left].
  - f_equal. induction rs; [reflexivity|]. cbn. inversion Hrs; subst. rewrite <- IHrs by assumption. reflexivity.
  - rewrite remove_one by assumption. rewrite IH by (apply Forall_filter; assumption).
    rewrite filter_filter. f_equal. apply filter_ext. intros r. unfold not_in. cbn [existsb].
    rewrite negb_orb. reflexivity.
Qed.

(** *** Decimal notation of the standard library *)
Fixpoint uint_bytes (d : Decimal.uint) : bytes :=
  match d with
  | Decimal.Nil => []
  | Decimal.D0 d => x30 :: uint_bytes d
  | Decimal.D1 d => x31 :: uint_bytes d
  | Decimal.D2 d => x32 :: uint_bytes d
  | Decimal.D3 d => x33 :: uint_bytes d
  | Decimal.D4 d => x34 :: uint_bytes d
  | Decimal.D5 d => x35 :: uint_bytes d
  | Decimal.D6 d => x36 :: uint_bytes d
  | Decimal.D7 d => x37 :: uint_bytes d
  | Decimal.D8 d => x38 :: uint_bytes d
  | Decimal.D9 d => x39 :: uint_bytes d
  end.

Lemma uint_bytes_string d : lit (DecimalString.NilEmpty.string_of_uint d) = uint_bytes d.
Proof. unfold lit, list_byte_of_string. induction d; cbn; rewrite ?IHd; reflexivity. Qed.

Lemma uint_digits d : forallb is_digit (uint_bytes d) = true.
Proof. induction d; cbn; auto. Qed.

Lemma uint_value_acc d : forall p, digits_value (uint_bytes d) (Zpos p) = Zpos (Pos.of_uint_acc d p).
Proof.
  induction d; intros p; [reflexivity|..]; cbn [uint_bytes digits_value Pos.of_uint_acc]; rewrite <- IHd; f_equal;
    unfold digit_val;
    match goal with |- context [Z_of_byte ?b] => let v := eval vm_compute in (Z_of_byte b) in change (Z_of_byte b) with v end; lia.
Qed.

Lemma uint_value d : digits_value (uint_bytes d) 0 = Z.of_uint d.
Proof.
  induction d; [reflexivity|..]; unfold Z.of_uint; cbn [uint_bytes digits_value Pos.of_uint Z.of_N];
    try (rewrite <- uint_value_acc; reflexivity).
  unfold Z.of_uint in IHd. rewrite <- IHd. reflexivity.
Qed.

Lemma uint_text_spec d : decimal (lit (DecimalString.NilZero.string_of_uint d)) (Z.of_uint d).
Proof.
  apply decimal_spec. unfold DecimalString.NilZero.string_of_uint.
  destruct d; try (rewrite uint_bytes_string; split; [discriminate|]; split; [apply uint_digits|apply uint_value]).
  split; [discriminate|]. split; reflexivity.
Qed.

Lemma lit_cons a s : lit (String a s) = Ascii.byte_of_ascii a :: lit s.
Proof. reflexivity. Qed.

Lemma dec_text_spec z : signed_decimal (dec_text z) z.
Proof.
  assert (Hz : Z.of_int (Z.to_int z) = z) by apply DecimalZ.of_to. unfold dec_text.
  destruct (Z.to_int z) as [d|d] eqn:E; cbn [Z.of_int DecimalString.NilZero.string_of_int] in *; subst z.
  - apply sd_none. apply uint_text_spec.
  - rewrite lit_cons. apply sd_minus. apply uint_text_spec.
Qed.
