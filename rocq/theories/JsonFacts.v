(** The JSON encoder produces complete JSON texts of its argument. *)
From Coq Require Import List ZArith Lia Bool String Permutation.
From Coq Require Import Strings.Byte Floats.SpecFloat.
From Coq Require Decimal DecimalString DecimalFacts DecimalN DecimalZ DecimalPos.
From Verif Require Import Base BaseFacts Codec CodecFacts Value GoStrings Parser Json SpecText SpecJson StringsFacts Utf8Facts OrderFacts.
Import ListNotations.
Open Scope Z_scope.

Lemma json_chars_skip s : forall k keep, (k <= List.length s)%nat ->
  json_chars s k keep = (if keep then firstn k s else []) ++ json_chars (skipn k s) 0 true.
Proof.
  induction s as [|b s IH]; intros [|k] keep Hk; cbn [List.length] in Hk; try lia.
  - destruct keep; reflexivity.
  - destruct keep; reflexivity.
  - cbn [json_chars firstn skipn]. rewrite IH by lia. destruct keep; reflexivity.
Qed.

Lemma decode_width b s r w : decode_rune (b :: s) = (r, w) -> (1 <= w <= S (List.length s))%nat.
Proof.
  unfold decode_rune. cbn zeta.
  repeat match goal with |- context [if ?c then _ else _] => destruct c end;
  repeat match goal with |- context [match ?s with [] => _ | _ :: _ => _ end] => destruct s as [|? ?]; cbn [List.length] end;
  repeat match goal with |- context [if ?c then _ else _] => destruct c end;
  intros [= _ <-]; cbn [List.length]; lia.
Qed.

(** A decoded character does not depend on what follows it. *)
Lemma decode_local b s r w rest : decode_rune (b :: s) = (r, w) -> (r =? rune_error) && Nat.eqb w 1 = false ->
  decode_rune (firstn w (b :: s) ++ rest) = (r, w).
Proof.
  unfold decode_rune. cbn zeta.
  destruct (Z_of_byte b <? 128) eqn:E0; [intros [= <- <-] _; cbn [firstn app]; rewrite E0; reflexivity|].
  destruct (Z_of_byte b <? 194) eqn:E1; [intros [= <- <-]; discriminate|].
  destruct (Z_of_byte b <? 224) eqn:E2.
  { destruct s as [|b1 s]; [intros [= <- <-]; discriminate|]. destruct (cont_byte b1) eqn:C1; [|intros [= <- <-]; discriminate].
    intros [= <- <-] _. cbn [firstn app]. rewrite E0, E1, E2, C1. reflexivity. }
  destruct (Z_of_byte b <? 240) eqn:E3.
  { destruct s as [|b1 [|b2 s]]; try (intros [= <- <-]; discriminate).
    destruct (in_range _ _ b1 && cont_byte b2) eqn:C1; [|intros [= <- <-]; discriminate].
    intros [= <- <-] _. cbn [firstn app]. rewrite E0, E1, E2, E3, C1. reflexivity. }
  destruct (Z_of_byte b <? 245) eqn:E4; [|intros [= <- <-]; discriminate].
  destruct s as [|b1 [|b2 [|b3 s]]]; try (intros [= <- <-]; discriminate).
  destruct (in_range _ _ b1 && cont_byte b2 && cont_byte b3) eqn:C1; [|intros [= <- <-]; discriminate].
  intros [= <- <-] _. cbn [firstn app]. rewrite E0, E1, E2, E3, E4, C1. reflexivity.
Qed.

Lemma runes_step b s r w : decode_rune (b :: s) = (r, w) -> runes (b :: s) = r :: runes (skipn w (b :: s)).
Proof.
  intros H. pose proof (decode_width _ _ _ _ H) as Hw. unfold runes. cbn [runes_go]. rewrite H.
  rewrite runes_go_skip by (cbn in *; lia). destruct w as [|w]; [lia|]. reflexivity.
Qed.

Lemma character_plain b t r w : (Z_of_byte b <? 128) = false -> decode_rune (b :: t) = (r, w) ->
  character (b :: t) = if (r =? rune_error) && Nat.eqb w 1 then None else Some (r, skipn w (b :: t)).
Proof.
  intros E0 Hd. unfold character. rewrite Hd.
  destruct b; try (vm_compute in E0; discriminate E0); reflexivity.
Qed.

(** The part of the output for the first character. *)
Lemma json_chars_step b s r w : decode_rune (b :: s) = (r, w) ->
  exists e, json_chars (b :: s) 0 true = e ++ json_chars (skipn w (b :: s)) 0 true /\
  (forall rest, character (e ++ rest) = Some (r, rest)) /\ exists x e', e = x :: e' /\ x <> x22.
Proof.
  intros H. pose proof (decode_width _ _ _ _ H) as Hw. cbn [json_chars].
  destruct (Z_of_byte b <? 128) eqn:E0.
  - assert (r = Z_of_byte b /\ w = 1%nat) as [-> ->].
    { unfold decode_rune in H. cbn zeta in H. rewrite E0 in H. injection H as <- <-. auto. }
    cbn [skipn]. eexists. split; [reflexivity|]. clear H Hw.
    destruct (html_safe b) eqn:Es.
    + split; [intros rest|exists b, []; split; [reflexivity|intros ->; discriminate Es]].
      destruct b; try (vm_compute in Es; discriminate Es); reflexivity.
    + split; [intros rest|destruct b; eexists; eexists; (split; [reflexivity|discriminate])].
      destruct b; try (vm_compute in E0; discriminate E0); try (vm_compute in Es; discriminate Es); reflexivity.
  - rewrite H. destruct ((r =? rune_error) && Nat.eqb w 1) eqn:Ee.
    + apply andb_true_iff in Ee as [Er Ew]. apply Nat.eqb_eq in Ew. subst w. apply Z.eqb_eq in Er. subst r.
      exists [x5c; x75; x66; x66; x66; x64]. split; [reflexivity|]. split; [reflexivity|]. eexists; eexists; split; [reflexivity|discriminate].
    + destruct ((r =? 8232) || (r =? 8233)) eqn:El.
      * exists [x5c; x75; x32; x30; x32; hex_digit (r mod 16)]. split.
        { rewrite json_chars_skip by lia. destruct w as [|w]; [lia|]. reflexivity. }
        split; [|eexists; eexists; split; [reflexivity|discriminate]].
        intros rest. apply orb_true_iff in El as [El|El]; apply Z.eqb_eq in El; subst r; reflexivity.
      * exists (firstn w (b :: s)). split.
        { rewrite json_chars_skip by lia. destruct w as [|w]; [lia|]. reflexivity. }
        destruct w as [|w]; [lia|]. cbn [firstn]. split; [|exists b, (firstn w s); split; [reflexivity|intros ->; discriminate]].
        intros rest. pose proof (decode_local _ _ _ _ rest H Ee) as Hd. cbn [firstn app] in Hd |- *.
        rewrite (character_plain _ _ _ _ E0 Hd), Ee. f_equal. f_equal. cbn [skipn].
        assert (El' : List.length (firstn w s) = w) by (apply firstn_length_le; cbn in Hw; lia).
        rewrite <- El' at 1. apply skipn_app_exact.
Qed.

Lemma characters_string n : forall s, (List.length s <= n)%nat ->
  exists m, forall fuel rest, (m <= fuel)%nat -> characters fuel (json_chars s 0 true ++ x22 :: rest) = Some (runes s, rest).
Proof.
  induction n as [|n IH]; intros s Hn.
  - destruct s; [|cbn in Hn; lia]. exists 1%nat. intros [|fuel] rest Hf; [lia|]. reflexivity.
  - destruct s as [|b s]; [exists 1%nat; intros [|fuel] rest Hf; [lia|]; reflexivity|].
    destruct (decode_rune (b :: s)) as [r w] eqn:Hd. pose proof (decode_width _ _ _ _ Hd) as Hw.
    destruct (json_chars_step _ _ _ _ Hd) as (e & He & Hc & x & e' & Ee & Hx).
    destruct (IH (skipn w (b :: s))) as (m & Hm); [rewrite skipn_length; cbn [List.length] in *; lia|].
    exists (S m). intros [|fuel] rest Hf; [lia|]. rewrite He, <- app_assoc. rewrite (runes_step _ _ _ _ Hd).
    specialize (Hc (json_chars (skipn w (b :: s)) 0 true ++ x22 :: rest)). specialize (Hm fuel rest ltac:(lia)).
    cbn [characters]. rewrite Ee in *. cbn [app] in *. rewrite Hc, Hm. destruct x; try reflexivity. congruence.
Qed.

(** *** Numbers *)
(** What may follow a value. *)
Definition ends (rest : bytes) : Prop := rest = [] \/ exists c r, rest = c :: r /\ In c [x2c; x5d; x7d; x0a].

Lemma digits_app s : forall rest d r, ends rest -> digits s = (d, r) -> digits (s ++ rest) = (d, r ++ rest).
Proof.
  induction s as [|b s IH]; cbn [digits app]; intros rest d r He.
  - intros [= <- <-]. destruct He as [->|(c & r' & -> & Hc)]; [reflexivity|].
    cbn in Hc. intuition (subst c; reflexivity).
  - destruct (is_digit b); [|intros [= <- <-]; reflexivity].
    destruct (digits s) as [d' r']. intros [= <- <-]. rewrite (IH rest d' r' He eq_refl). reflexivity.
Qed.

Lemma num_int_app s rest i r : ends rest -> num_int s = Some (i, r) -> num_int (s ++ rest) = Some (i, r ++ rest).
Proof.
  intros He H. assert (G : (match digits s with ([], _) => None | dr => Some dr end) = Some (i, r) ->
    (match digits (s ++ rest) with ([], _) => None | dr => Some dr end) = Some (i, r ++ rest)).
  { destruct (digits s) as [d r'] eqn:Ed. rewrite (digits_app _ _ _ _ He Ed). destruct d; [discriminate|]. intros [= <- <-]. reflexivity. }
  destruct s as [|b s]; [discriminate|]. cbn [app] in *. unfold num_int in *.
  destruct b; try (apply G; exact H). injection H as <- <-. reflexivity.
Qed.

Lemma num_frac_app s rest i r : ends rest -> num_frac s = Some (i, r) -> num_frac (s ++ rest) = Some (i, r ++ rest).
Proof.
  intros He H. destruct s as [|b s].
  - injection H as <- <-. destruct He as [->|(c & r' & -> & Hc)]; [reflexivity|].
    cbn in Hc. intuition (subst c; reflexivity).
  - cbn [app] in *. unfold num_frac in *. destruct b; try (injection H as <- <-; reflexivity).
    destruct (digits s) as [d r'] eqn:Ed. rewrite (digits_app _ _ _ _ He Ed). destruct d; [discriminate|].
    injection H as <- <-. reflexivity.
Qed.

Lemma exp_tail_app (e : byte) s rest i r : ends rest ->
  (let '(sg, r1) := match s with (x2b | x2d) as c :: r1 => ([c], r1) | _ => ([], s) end in
   match digits r1 with ([], _) => None | (d, r') => Some (e :: sg ++ d, r') end) = Some (i, r) ->
  (let '(sg, r1) := match s ++ rest with (x2b | x2d) as c :: r1 => ([c], r1) | _ => ([], s ++ rest) end in
   match digits r1 with ([], _) => None | (d, r') => Some (e :: sg ++ d, r') end) = Some (i, r ++ rest).
Proof.
  intros He H.
  assert (G : forall sg q, (match digits q with ([], _) => None | (d, r') => Some (e :: sg ++ d, r') end) = Some (i, r) ->
      (match digits (q ++ rest) with ([], _) => None | (d, r') => Some (e :: sg ++ d, r') end) = Some (i, r ++ rest)).
  { intros sg q; destruct (digits q) as [d r'] eqn:Ed; rewrite (digits_app _ _ _ _ He Ed); destruct d; [discriminate|].
    intros [= <- <-]; reflexivity. }
  destruct s as [|c s]; [discriminate|]. cbn [app].
  pose proof (G [] (c :: s)) as G0. pose proof (G [c] s) as G1. destruct c; first [exact (G0 H)|exact (G1 H)].
Qed.

Lemma num_exp_app s rest i r : ends rest -> num_exp s = Some (i, r) -> num_exp (s ++ rest) = Some (i, r ++ rest).
Proof.
  intros He H. destruct s as [|b s].
  - injection H as <- <-. destruct He as [->|(c & r' & -> & Hc)]; [reflexivity|].
    cbn in Hc. intuition (subst c; reflexivity).
  - cbn [app]. unfold num_exp in H |- *. destruct b; try (injection H as <- <-; reflexivity).
    + exact (exp_tail_app x45 s rest i r He H).
    + exact (exp_tail_app x65 s rest i r He H).
Qed.

Lemma number_app s rest t r : ends rest -> number s = Some (t, r) -> number (s ++ rest) = Some (t, r ++ rest).
Proof.
  intros He H. unfold number in *.
  assert (G : forall sg q, (match num_int q with None => None | Some (i, s2) =>
     match num_frac s2 with None => None | Some (f, s3) => match num_exp s3 with None => None | Some (e, s4) => Some (sg ++ i ++ f ++ e, s4) end end end) = Some (t, r) ->
     (match num_int (q ++ rest) with None => None | Some (i, s2) =>
     match num_frac s2 with None => None | Some (f, s3) => match num_exp s3 with None => None | Some (e, s4) => Some (sg ++ i ++ f ++ e, s4) end end end) = Some (t, r ++ rest)).
  { intros sg q. destruct (num_int q) as [[i s2]|] eqn:E1; [|discriminate]. rewrite (num_int_app _ _ _ _ He E1).
    destruct (num_frac s2) as [[f s3]|] eqn:E2; [|discriminate]. rewrite (num_frac_app _ _ _ _ He E2).
    destruct (num_exp s3) as [[e s4]|] eqn:E3; [|discriminate]. rewrite (num_exp_app _ _ _ _ He E3).
    intros [= <- <-]. reflexivity. }
  destruct s as [|b s]; [discriminate|]. cbn [app].
  pose proof (G [] (b :: s)) as G0. pose proof (G [b] s) as G1. destruct b; first [exact (G0 H)|exact (G1 H)].
Qed.

Lemma digits_all s : forallb is_digit s = true -> digits s = (s, []).
Proof.
  induction s as [|b s IH]; [reflexivity|]. cbn [forallb digits]. intros H. apply andb_true_iff in H as [-> H].
  rewrite IH by assumption. reflexivity.
Qed.

Lemma uint_number d : d <> Decimal.Nil -> Decimal.unorm d = d -> num_int (uint_bytes d) = Some (uint_bytes d, []).
Proof.
  intros Hn Hu. pose proof (digits_all _ (uint_digits d)) as Hd.
  destruct d; try congruence; cbn [uint_bytes] in *.
  2-10: unfold num_int; rewrite Hd; reflexivity.
  destruct (Decimal.nzhead d) eqn:E.
  all: unfold Decimal.unorm in Hu; cbn [Decimal.nzhead] in Hu; rewrite E in Hu; try discriminate Hu.
  - injection Hu as <-. reflexivity.
  - exfalso. exact (DecimalFacts.nzhead_nonzero _ _ E).
Qed.

Lemma itoa_dec z : itoa z = dec_text z. Proof. reflexivity. Qed.

Lemma pos_unorm p : Decimal.unorm (Pos.to_uint p) = Pos.to_uint p.
Proof.
  pose proof (DecimalN.Unsigned.to_of (Pos.to_uint p)) as H. change (Pos.to_uint p) with (N.to_uint (Npos p)) at 1.
  unfold N.of_uint in H. rewrite DecimalPos.Unsigned.of_to in H. cbn in H. symmetry. exact H.
Qed.

Lemma uint_bytes_zero d : d <> Decimal.Nil -> lit (DecimalString.NilZero.string_of_uint d) = uint_bytes d.
Proof.
  intros H. rewrite <- uint_bytes_string. destruct d; try congruence; reflexivity.
Qed.

Lemma dec_number z : number_text (dec_text z).
Proof.
  unfold number_text, dec_text. destruct z as [|p|p].
  - reflexivity.
  - cbn [Z.to_int]. cbn [DecimalString.NilZero.string_of_int].
    pose proof (DecimalPos.Unsigned.to_uint_nonnil p) as Hn. rewrite uint_bytes_zero by assumption.
    pose proof (uint_number _ Hn (pos_unorm p)) as H. unfold number.
    destruct (uint_bytes (Pos.to_uint p)) as [|b l] eqn:E; [discriminate|].
    assert (Hb : b <> x2d). { pose proof (uint_digits (Pos.to_uint p)) as Hd. rewrite E in Hd. intros ->. discriminate. }
    destruct b; try congruence; rewrite H; cbn; rewrite app_nil_r; reflexivity.
  - cbn [Z.to_int]. cbn [DecimalString.NilZero.string_of_int]. rewrite lit_cons.
    pose proof (DecimalPos.Unsigned.to_uint_nonnil p) as Hn. rewrite uint_bytes_zero by assumption.
    pose proof (uint_number _ Hn (pos_unorm p)) as H. unfold number.
    match goal with |- context [Ascii.byte_of_ascii ?a] => change (Ascii.byte_of_ascii a) with x2d end. cbv iota beta. rewrite H. cbn. rewrite app_nil_r. reflexivity.
Qed.

(** *** Values *)
Definition starts (b : bytes) : Prop := exists c t, b = c :: t /\ is_ws c = false /\ c <> x5d.
Definition reads (b : bytes) (j : json) : Prop :=
  starts b /\ exists m, forall fuel rest, (m <= fuel)%nat -> ends rest -> jvalue fuel (b ++ rest) = Some (j, rest).

Lemma number_starts b : number_text b -> starts b /\ forall rest, number (b ++ rest) <> None -> forall fuel, jvalue (S fuel) (b ++ rest) = match number (b ++ rest) with Some (t, r) => Some (JNum t, r) | None => None end.
Proof.
  unfold number_text. destruct b as [|c b]; [discriminate|]. intros H.
  assert (Hc : is_digit c = true \/ c = x2d).
  { destruct (is_digit c) eqn:Ed; [left; reflexivity|right].
    unfold number in H. destruct c; try reflexivity; exfalso; vm_compute in Ed; try discriminate Ed; cbn in H; discriminate H. }
  split.
  - exists c, b. split; [reflexivity|]. destruct Hc as [Hc| ->]; [|split; [reflexivity|discriminate]].
    destruct c; vm_compute in Hc; try discriminate Hc; split; (reflexivity || discriminate).
  - intros rest Hn fuel. cbn [app] in *. clear H Hn.
    destruct Hc as [Hc| ->]; [|reflexivity]. destruct c; vm_compute in Hc; try discriminate Hc; reflexivity.
Qed.

Lemma reads_number b : number_text b -> reads b (JNum b).
Proof.
  intros H. destruct (number_starts b H) as [Hs Hv]. split; [assumption|]. exists 1%nat. intros [|fuel] rest Hf He; [lia|].
  pose proof (number_app _ _ _ _ He H) as Ha. cbn [app] in Ha. rewrite Hv by congruence. rewrite Ha. reflexivity.
Qed.

Lemma reads_string s : reads (json_string s) (JStr (runes s)).
Proof.
  split; [exists x22, (json_chars s 0 true ++ [x22]); split; [reflexivity|split; [reflexivity|discriminate]]|].
  destruct (characters_string (List.length s) s (Nat.le_refl _)) as (m & Hm).
  exists (S m). intros [|fuel] rest Hf He; [lia|]. unfold json_string. cbn [app]. rewrite <- app_assoc. cbn [app].
  cbn [jvalue skip_ws is_ws]. rewrite Hm by lia. reflexivity.
Qed.

Lemma skip_ws_starts b rest : starts b -> skip_ws (b ++ rest) = b ++ rest.
Proof. intros (c & t & -> & Hw & _). cbn [app skip_ws]. rewrite Hw. reflexivity. Qed.

Lemma join_cons sep x l : l <> [] -> join_strings sep (x :: l) = x ++ sep ++ join_strings sep l.
Proof. destruct l; [congruence|reflexivity]. Qed.

Lemma reads_items bs js : bs <> [] -> Forall2 reads bs js ->
  exists m, forall fuel rest, (m <= fuel)%nat -> jitems fuel (join_strings [x2c] bs ++ x5d :: rest) = Some (js, rest).
Proof.
  intros Hne HF. induction HF as [|b j bs js [Hs (m & Hm)] HF IH]; [congruence|].
  destruct HF as [|b' j' bs js H1 HF].
  - exists (S m). intros [|fuel] rest Hf; [lia|]. cbn [join_strings jitems]. rewrite Hm; [|lia|right; exists x5d, rest; cbn; auto].
    reflexivity.
  - destruct IH as (m' & IH); [discriminate|]. exists (S (Nat.max m m')). intros [|fuel] rest Hf; [lia|].
    rewrite join_cons by discriminate. rewrite <- !app_assoc. cbn [jitems].
    rewrite Hm; [|lia|right; eexists; eexists; split; [reflexivity|cbn; auto]].
    cbn [skip_ws app is_ws]. rewrite IH by lia. reflexivity.
Qed.

Lemma reads_members (ms : list (bytes * bytes)) js : ms <> [] -> Forall2 (fun kb j => reads (snd kb) j) ms js ->
  exists m, forall fuel rest, (m <= fuel)%nat ->
    jmembers fuel (join_strings [x2c] (map json_member ms) ++ x7d :: rest) =
    Some (combine (map (fun kb => runes (fst kb)) ms) js, rest).
Proof.
  intros Hne HF. induction HF as [|[k b] j ms js [Hs (m & Hm)] HF IH]; [congruence|].
  destruct (characters_string (List.length k) k (Nat.le_refl _)) as (mk & Hk). cbn [fst snd] in *.
  assert (Hone : forall fuel tail, (m <= fuel)%nat -> (mk <= fuel)%nat -> ends tail -> jmembers (S fuel) (json_member (k, b) ++ tail) =
    match skip_ws tail with
    | x7d :: r' => Some ([(runes k, j)], r')
    | x2c :: r' => match jmembers fuel r' with Some (m, r'') => Some ((runes k, j) :: m, r'') | None => None end
    | _ => None
    end).
  { intros fuel tail H1 H2 He. unfold json_member, json_string. cbn [fst snd]. rewrite <- !app_assoc. cbn [app jmembers skip_ws is_ws].
    rewrite Hk by lia. cbn [skip_ws is_ws]. rewrite Hm by (assumption || lia). reflexivity. }
  destruct HF as [|[k' b'] j' ms js H1 HF].
  - exists (S (Nat.max m mk)). intros [|fuel] rest Hf; [lia|]. cbn [map join_strings].
    rewrite Hone; [reflexivity|lia|lia|right; exists x7d, rest; cbn; auto].
  - destruct IH as (m' & IH); [discriminate|]. exists (S (Nat.max (Nat.max m mk) m')). intros [|fuel] rest Hf; [lia|].
    change (map json_member ((k, b) :: (k', b') :: ms)) with (json_member (k, b) :: map json_member ((k', b') :: ms)).
    rewrite join_cons by discriminate. rewrite <- !app_assoc.
    rewrite Hone; [|lia|lia|right; eexists; eexists; split; [reflexivity|cbn; auto]].
    cbn [skip_ws app is_ws]. rewrite IH by lia. reflexivity.
Qed.

Lemma insert_key_perm {A} k (v : A) l : Permutation ((k, v) :: l) (insert_key k v l).
Proof.
  induction l as [|[k' v'] l IH]; cbn; [reflexivity|]. destruct (bytes_ltb k k'); [reflexivity|].
  rewrite perm_swap. constructor. assumption.
Qed.
Lemma sort_keys_perm {A} (l : list (bytes * A)) : Permutation l (sort_keys l).
Proof.
  induction l as [|[k v] l IH]; cbn; [reflexivity|]. rewrite <- insert_key_perm. constructor. assumption.
Qed.

Lemma rmapM_id {A} (l : list (res A)) r : rmapM (fun x => x) l = Ok r <-> l = map Ok r.
Proof.
  revert r. induction l as [|x l IH]; intros r; cbn [rmapM].
  - split; [intros [= <-]; reflexivity|]. destruct r; [reflexivity|discriminate].
  - destruct x as [a|e| |]; cbn [rbind]; try (split; [discriminate|destruct r; discriminate]).
    destruct (rmapM (fun x => x) l) as [r'|e| |] eqn:E; cbn [rbind].
    + split.
      * intros [= <-]. cbn. f_equal. apply IH. reflexivity.
      * destruct r as [|b r]; [discriminate|]. intros [= <- H]. apply IH in H. congruence.
    + split; [discriminate|]. destruct r as [|b r]; [discriminate|]. intros [= <- H]. apply IH in H. congruence.
    + split; [discriminate|]. destruct r as [|b r]; [discriminate|]. intros [= <- H]. apply IH in H. congruence.
    + split; [discriminate|]. destruct r as [|b r]; [discriminate|]. intros [= <- H]. apply IH in H. congruence.
Qed.

Lemma Forall2_perm_l {A B} (R : A -> B -> Prop) l l' : Permutation l l' -> forall m, Forall2 R l m ->
  exists m', Permutation m m' /\ Forall2 R l' m'.
Proof.
  induction 1 as [|x l l' H IH|x y l|l1 l2 l3 H1 IH1 H2 IH2]; intros m HF.
  - inversion HF; subst. exists []. split; constructor.
  - inversion HF as [|? b ? m1 Hx HF']; subst. destruct (IH _ HF') as (m' & Hp & HF2). exists (b :: m'). split; constructor; assumption.
  - inversion HF as [|? b ? m1 Hx HF']; subst. inversion HF' as [|? b' ? m2 Hy HF'']; subst.
    exists (b' :: b :: m2). split; [constructor|]. repeat constructor; assumption.
  - destruct (IH1 _ HF) as (m1 & Hp1 & HF1). destruct (IH2 _ HF1) as (m2 & Hp2 & HF2). exists m2. split; [etransitivity; eassumption|assumption].
Qed.

Lemma wrap_app (a z : byte) (t rest : bytes) : ([a] ++ t ++ [z]) ++ rest = a :: t ++ z :: rest.
Proof. cbn [app]. rewrite <- app_assoc. reflexivity. Qed.
Lemma jvalue_arr fuel r : jvalue (S fuel) (x5b :: r) =
  match skip_ws r with
  | x5d :: r' => Some (JArr [], r')
  | _ => match jitems fuel r with Some (l, r') => Some (JArr l, r') | None => None end
  end.
Proof. reflexivity. Qed.
Lemma jvalue_obj fuel r : jvalue (S fuel) (x7b :: r) =
  match skip_ws r with
  | x7d :: r' => Some (JObj [], r')
  | _ => match jmembers fuel r with Some (m, r') => Some (JObj m, r') | None => None end
  end.
Proof. reflexivity. Qed.

Section Encode.
Variable fmt_float : spec_float -> bytes.
Hypothesis fmt_number : forall f, is_number f = true -> number_text (fmt_float f).

Lemma encode_reads v : forall b, json_encode fmt_float v = Ok b -> exists j, denotes fmt_float j v /\ reads b j.
Proof.
  induction v as [| |z|f|s|l IH|m IH] using value_ind'; intros t; cbn [json_encode].
  - intros [= <-]. exists JNull. split; [constructor|]. split; [exists x6e; eexists; split; [reflexivity|split; [reflexivity|discriminate]]|].
    exists 1%nat. intros [|fuel] rest Hf He; [lia|]. reflexivity.
  - intros [= <-]. exists (JBool b). split; [constructor|]. destruct b.
    + split; [exists x74; eexists; split; [reflexivity|split; [reflexivity|discriminate]]|].
      exists 1%nat. intros [|fuel] rest Hf He; [lia|]. reflexivity.
    + split; [exists x66; eexists; split; [reflexivity|split; [reflexivity|discriminate]]|].
      exists 1%nat. intros [|fuel] rest Hf He; [lia|]. reflexivity.
  - intros [= <-]. rewrite itoa_dec. exists (JNum (dec_text z)). split; [constructor|]. apply reads_number. apply dec_number.
  - intros H. assert (is_number f = true /\ fmt_float f = t) as [Hn <-] by (destruct f; try discriminate; injection H as <-; auto).
    exists (JNum (fmt_float f)). split; [constructor; assumption|]. apply reads_number. auto.
  - intros [= <-]. exists (JStr (runes s)). split; [constructor|]. apply reads_string.
  - destruct (rmapM (fun x => x) (map (json_encode fmt_float) l)) as [items|e| |] eqn:E; try discriminate. cbn [rbind]. intros [= <-].
    apply rmapM_id in E.
    assert (HF : exists js, Forall2 (denotes fmt_float) js l /\ Forall2 reads items js).
    { clear - IH E. revert items E. induction IH as [|v l Hv _ IH]; intros [|i items] E; try discriminate.
      - exists []. split; constructor.
      - cbn [map] in E. injection E as E1 E2. destruct (Hv _ E1) as (j & H1 & H2). destruct (IH _ E2) as (js & H3 & H4).
        exists (j :: js). split; constructor; assumption. }
    destruct HF as (js & Hd & Hr). exists (JArr js). split; [constructor; assumption|].
    split; [exists x5b; eexists; split; [reflexivity|split; [reflexivity|discriminate]]|].
    destruct items as [|i items].
    + inversion Hr; subst. exists 1%nat. intros [|fuel] rest Hf He; [lia|]. reflexivity.
    + destruct (reads_items (i :: items) js) as (m & Hm); [discriminate|assumption|].
      exists (S m). intros [|fuel] rest Hf He; [lia|].
      transitivity (jvalue (S fuel) (x5b :: join_strings [x2c] (i :: items) ++ x5d :: rest)); [f_equal; apply wrap_app|].
      rewrite jvalue_arr. rewrite Hm by lia.
      assert (Hst : exists c q, join_strings [x2c] (i :: items) ++ x5d :: rest = c :: q /\ is_ws c = false /\ c <> x5d).
      { inversion Hr as [|? ? ? ? [(c & q & Hi & H1 & H2) _] _]; subst. destruct items as [|i' items].
        - cbn. eauto.
        - rewrite join_cons by discriminate. cbn. eauto. }
      destruct Hst as (c & q & Hst & Hw & Hc). rewrite Hst. cbn [skip_ws]. rewrite Hw. destruct c; try reflexivity. congruence.
  - set (enc := map (fun kv : bytes * value => rlet t := json_encode fmt_float (snd kv) in Ok (fst kv, t)) m).
    destruct (rmapM (fun x => x) enc) as [items|e| |] eqn:E; try discriminate. cbn [rbind]. intros [= <-].
    apply rmapM_id in E. subst enc.
    assert (HF : exists js, Forall2 (fun j (kv : bytes * value) => denotes fmt_float j (snd kv)) js m /\
       Forall2 (fun (kb : bytes * bytes) j => reads (snd kb) j) items js /\ map fst items = map fst m).
    { clear - IH E. revert items E. induction IH as [|[k v] m Hv _ IH]; intros [|[k' i] items] E; try discriminate.
      - exists []. repeat split; constructor.
      - cbn [map fst snd] in *. injection E as E1 E2. destruct (json_encode fmt_float v) as [t|e| |] eqn:Ev; try discriminate.
        cbn [rbind] in E1. injection E1 as -> ->. destruct (Hv _ eq_refl) as (j & H1 & H2). destruct (IH _ E2) as (js & H3 & H4 & H5).
        exists (j :: js). split; [constructor; assumption|]. split; [constructor; assumption|]. f_equal. assumption. }
    destruct HF as (js & Hd & Hr & Hk).
    assert (HP : exists js', Permutation (combine (map (fun kb => runes (fst kb)) items) js) (combine (map (fun kb => runes (fst kb)) (sort_keys items)) js') /\
       Forall2 (fun (kb : bytes * bytes) j => reads (snd kb) j) (sort_keys items) js').
    { clear - Hr. destruct (Forall2_perm_l (fun kb (kj : list Z * json) => fst kj = runes (fst kb) /\ reads (snd kb) (snd kj)) items (sort_keys items) (sort_keys_perm items)
        (combine (map (fun kb => runes (fst kb)) items) js)) as (ms & Hp & HF).
      - induction Hr; cbn; constructor; auto.
      - exists (map snd ms). assert (Em : combine (map (fun kb => runes (fst kb)) (sort_keys items)) (map snd ms) = ms).
        { clear - HF. induction HF as [|kb [k j] ? ? [H1 H2] _ IH]; cbn in *; [reflexivity|]. subst. f_equal. assumption. }
        rewrite Em. split; [assumption|]. clear - HF. induction HF as [|kb kj ? ? [H1 H2] _ IH]; cbn; constructor; auto. }
    destruct HP as (js' & Hp & Hr').
    exists (JObj (combine (map (fun kb => runes (fst kb)) (sort_keys items)) js')). split.
    { apply den_map with (ms' := combine (map (fun kb => runes (fst kb)) items) js); [symmetry; assumption|].
      clear - Hd Hk. revert items Hk. induction Hd as [|j [k v] js m Hj _ IH]; intros [|[k' i] items] Hk; try discriminate; cbn [map combine fst snd].
      - constructor.
      - cbn in Hk. injection Hk as -> Hk. constructor; [split; [reflexivity|assumption]|]. apply IH. assumption. }
    split; [exists x7b; eexists; split; [reflexivity|split; [reflexivity|discriminate]]|].
    destruct (sort_keys items) as [|i is] eqn:Es.
    + inversion Hr'; subst. exists 1%nat. intros [|fuel] rest Hf He; [lia|]. reflexivity.
    + destruct (reads_members (i :: is) js') as (mm & Hm); [discriminate|assumption|].
      exists (S mm). intros [|fuel] rest Hf He; [lia|].
      transitivity (jvalue (S fuel) (x7b :: join_strings [x2c] (map json_member (i :: is)) ++ x7d :: rest)); [f_equal; apply wrap_app|].
      rewrite jvalue_obj. rewrite Hm by lia.
      assert (Hst : exists q, join_strings [x2c] (map json_member (i :: is)) ++ x7d :: rest = x22 :: q).
      { cbn [map]. destruct is as [|i' is]; [cbn; eauto|]. cbn [map]. rewrite join_cons by discriminate. cbn. eauto. }
      destruct Hst as (q & Hst). rewrite Hst. reflexivity.
Qed.

(** Encoder.Encode adds a newline. *)
Theorem encode_complete v b : json_encode fmt_float v = Ok b -> exists j, json_text (b ++ [x0a]) j /\ denotes fmt_float j v.
Proof.
  intros H. destruct (encode_reads v b H) as (j & Hd & _ & m & Hm). exists j. split; [|assumption].
  exists m, [x0a]. split; [|reflexivity]. apply Hm; [lia|]. right. exists x0a, []. cbn. auto 10.
Qed.
End Encode.
