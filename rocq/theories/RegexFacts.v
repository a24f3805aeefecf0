(** The matcher of Regex.v finds exactly the strings of the language of an
    expression, and the groups that go with them. *)
From Coq Require Import List ZArith Lia Bool String.
From Coq Require Import Strings.Byte.
From Coq Require Import ZifyBool.
From Verif Require Import Base BaseFacts Codec CodecFacts GoStrings SpecText StringsFacts Utf8Facts JsonFacts Regex.
From Verif Require Export SpecRegex.
Import ListNotations.
Open Scope Z_scope.

(** *** Characters *)
Lemma firstn_app_exact {A} (a b : list A) : firstn (List.length a) (a ++ b) = a.
Proof. rewrite firstn_app, firstn_all, Nat.sub_diag. apply app_nil_r. Qed.

Lemma chars_go_skip s : forall k, (k <= List.length s)%nat -> chars_go s k = chars_go (skipn k s) 0.
Proof.
  induction s as [|x s IH]; intros k Hk; [destruct k; reflexivity|].
  destruct k as [|k]; [reflexivity|]. cbn [chars_go skipn]. apply IH. cbn in Hk. lia.
Qed.

Lemma chars_step b s r w : decode_rune (b :: s) = (r, w) -> chars (b :: s) = (r, firstn w (b :: s)) :: chars (skipn w (b :: s)).
Proof.
  intros H. pose proof (decode_width _ _ _ _ H) as Hw. unfold chars. cbn [chars_go]. rewrite H. f_equal.
  rewrite chars_go_skip by lia. destruct w as [|w]; [lia|]. reflexivity.
Qed.

Lemma bytes_ind (P : bytes -> Prop) : P [] ->
  (forall b s r w, decode_rune (b :: s) = (r, w) -> P (skipn w (b :: s)) -> P (b :: s)) -> forall s, P s.
Proof.
  intros H0 H1 s. remember (List.length s) as n eqn:E. assert (Hn : (List.length s <= n)%nat) by lia. clear E. revert s Hn.
  induction n as [|n IH]; intros s Hn.
  - destruct s; [exact H0|cbn in Hn; lia].
  - destruct s as [|b s]; [exact H0|]. destruct (decode_rune (b :: s)) as [r w] eqn:Hd.
    eapply H1; [exact Hd|]. apply IH. pose proof (decode_width _ _ _ _ Hd). rewrite skipn_length. cbn [List.length] in *. lia.
Qed.

Lemma raw_chars s : raw (chars s) = s.
Proof.
  induction s as [|b s r w Hd IH] using bytes_ind; [reflexivity|]. rewrite (chars_step _ _ _ _ Hd). cbn [raw flat_map snd].
  fold (raw (chars (skipn w (b :: s)))). rewrite IH. apply firstn_skipn.
Qed.

Lemma runes_chars s : runes s = map fst (chars s).
Proof.
  induction s as [|b s r w Hd IH] using bytes_ind; [reflexivity|].
  rewrite (chars_step _ _ _ _ Hd), (runes_step _ _ _ _ Hd). cbn [map fst]. f_equal. exact IH.
Qed.

Lemma raw_app a b : raw (a ++ b) = raw a ++ raw b.
Proof. apply flat_map_app. Qed.

(** A character of a string is RuneError or its own encoding. *)
Ltac Zify.zify_post_hook ::= Z.to_euclidean_division_equations.
Lemma byte_eq b z : Z_of_byte b = z -> 0 <= z < 256 -> byte_of_Z z = b.
Proof. intros <- _. apply byte_of_Z_of_byte. Qed.

Lemma byte_inj a b : Z_of_byte a = Z_of_byte b -> a = b.
Proof. intros H. rewrite <- (byte_of_Z_of_byte a), <- (byte_of_Z_of_byte b), H. reflexivity. Qed.

Lemma encoding_unique r e e' : encoding r e -> encoding r e' -> e = e'.
Proof.
  destruct 1; destruct 1; try lia; repeat (apply f_equal2); try reflexivity; apply byte_inj;
    repeat match goal with H : context [if ?c then _ else _] |- _ => destruct c eqn:? end; lia.
Qed.

Lemma decode_char b s r w : decode_rune (b :: s) = (r, w) -> r <> rune_error -> scalar r /\ firstn w (b :: s) = encode_rune r.
Proof.
  unfold decode_rune. cbn zeta. pose proof (Z_of_byte_range b) as H0. intros H Hr.
  assert (Henc : exists e, encoding r e /\ firstn w (b :: s) = e).
  { destruct (Z_of_byte b <? 128) eqn:E1.
    { injection H as <- <-. eexists; split; [apply enc1 with (b := b); lia|reflexivity]. }
    destruct (Z_of_byte b <? 194) eqn:E2; [injection H as <- <-; congruence|].
    destruct (Z_of_byte b <? 224) eqn:E3.
    { destruct s as [|b1 s]; [injection H as <- <-; congruence|]. destruct (cont_byte b1) eqn:Ec; injection H as <- <-; [|congruence].
      unfold cont_byte in Ec. eexists; split; [apply enc2 with (b0 := b) (b1 := b1); lia|reflexivity]. }
    destruct (Z_of_byte b <? 240) eqn:E4.
    { destruct s as [|b1 [|b2 s]]; try (injection H as <- <-; congruence).
      match type of H with (if ?c then _ else _) = _ => destruct c eqn:Ec end; injection H as <- <-; [|congruence].
      unfold cont_byte, in_range in Ec. eexists; split; [apply enc3 with (b0 := b) (b1 := b1) (b2 := b2)|reflexivity]; try lia.
      all: destruct (Z_of_byte b =? 224) eqn:Ea; destruct (Z_of_byte b =? 237) eqn:Eb; lia. }
    destruct (Z_of_byte b <? 245) eqn:E5; [|injection H as <- <-; congruence].
    destruct s as [|b1 [|b2 [|b3 s]]]; try (injection H as <- <-; congruence).
    match type of H with (if ?c then _ else _) = _ => destruct c eqn:Ec end; injection H as <- <-; [|congruence].
    unfold cont_byte, in_range in Ec. eexists; split; [apply enc4 with (b0 := b) (b1 := b1) (b2 := b2) (b3 := b3)|reflexivity]; try lia.
    all: destruct (Z_of_byte b =? 240) eqn:Ea; destruct (Z_of_byte b =? 244) eqn:Eb; lia. }
  destruct Henc as (e & He & Hf).
  assert (Hs : scalar r).
  { unfold scalar. destruct He as [|b0 b1|b0 b1 b2|b0 b1 b2 b3]; try lia.
    destruct (Z_of_byte b0 =? 224) eqn:Ea; destruct (Z_of_byte b0 =? 237) eqn:Eb; lia. }
  split; [exact Hs|]. rewrite Hf. exact (encoding_unique _ _ _ He (encode_encoding r Hs)).
Qed.

Lemma chars_shape s : Forall (fun c => fst c = rune_error \/ scalar (fst c) /\ snd c = encode_rune (fst c)) (chars s).
Proof.
  induction s as [|b s r w Hd IH] using bytes_ind; [constructor|]. rewrite (chars_step _ _ _ _ Hd). constructor; [|exact IH].
  cbn [fst snd]. destruct (Z.eq_dec r rune_error) as [->|Hr]; [left; reflexivity|right]. exact (decode_char _ _ _ _ Hd Hr).
Qed.

Lemma chars_encode r s : scalar r -> chars (encode_rune r ++ s) = (r, encode_rune r) :: chars s.
Proof.
  intros Hr. pose proof (decode_encode r s Hr) as Hd. destruct (encode_shape r Hr) as (b & t & E & _).
  rewrite E in Hd |- *. cbn [app] in *. rewrite (chars_step _ _ _ _ Hd).
  change (b :: t ++ s) with ((b :: t) ++ s). rewrite firstn_app_exact, skipn_app_exact. reflexivity.
Qed.

Lemma chars_text rs s : Forall scalar rs -> chars (text rs ++ s) = map (fun r => (r, encode_rune r)) rs ++ chars s.
Proof.
  induction 1 as [|r rs Hr _ IH]; [reflexivity|]. cbn [text flat_map map app]. fold (text rs).
  rewrite <- app_assoc, chars_encode by assumption. f_equal. exact IH.
Qed.

Lemma valid_text rs : Forall scalar rs -> valid_utf8 (text rs) = true.
Proof.
  intros H. unfold valid_utf8. rewrite <- (app_nil_r (text rs)), chars_text by assumption. rewrite app_nil_r.
  apply forallb_forall. intros [c b] Hin. apply in_map_iff in Hin as (r & E & Hin). injection E as <- <-. cbn [fst snd].
  destruct (r =? rune_error) eqn:E; [|reflexivity]. apply Z.eqb_eq in E as ->. reflexivity.
Qed.

Lemma valid_is_text s : valid_utf8 s = true -> exists rs, Forall scalar rs /\ s = text rs.
Proof.
  induction s as [|b s r w Hd IH] using bytes_ind; [exists []; split; [constructor|reflexivity]|].
  unfold valid_utf8. rewrite (chars_step _ _ _ _ Hd). cbn [forallb fst snd]. intros H. apply andb_prop in H as [H1 H2].
  destruct (IH H2) as (rs & Hrs & E). pose proof (decode_width _ _ _ _ Hd) as Hw.
  rewrite firstn_length_le in H1 by (cbn [List.length]; lia).
  assert (Hc : scalar r /\ firstn w (b :: s) = encode_rune r).
  { destruct (Z.eq_dec r rune_error) as [->|Hr]; [|exact (decode_char _ _ _ _ Hd Hr)].
    split; [unfold scalar, rune_error; lia|].
    pose proof Hd as Hd'. unfold decode_rune in Hd. cbn zeta in Hd. pose proof (Z_of_byte_range b) as H0.
    destruct (Z_of_byte b <? 128) eqn:E1; [injection Hd as Hb Hw'; unfold rune_error in Hb; lia|].
    destruct (Z_of_byte b <? 194) eqn:E2; [injection Hd as <-; discriminate H1|].
    destruct (Z_of_byte b <? 224) eqn:E3.
    { destruct s as [|b1 s]; [injection Hd as <-; discriminate H1|]. pose proof (Z_of_byte_range b1).
      destruct (cont_byte b1); [injection Hd as Hv Hw'; unfold rune_error in Hv; lia|injection Hd as <-; discriminate H1]. }
    destruct (Z_of_byte b <? 240) eqn:E4.
    { destruct s as [|b1 [|b2 s]]; try (injection Hd as <-; discriminate H1).
      match type of Hd with (if ?c then _ else _) = _ => destruct c eqn:Ec end; [injection Hd as Hv Hw'|injection Hd as <-; discriminate H1].
      subst w. unfold cont_byte, in_range in Ec. unfold rune_error in *.
      assert (Z_of_byte b = 239 /\ Z_of_byte b1 = 191 /\ Z_of_byte b2 = 189) as (Ha & Hb & Hcc)
        by (destruct (Z_of_byte b =? 224) eqn:Ea; destruct (Z_of_byte b =? 237) eqn:Eb; lia).
      cbn [firstn]. change (encode_rune 65533) with [byte_of_Z 239; byte_of_Z 191; byte_of_Z 189].
      rewrite (byte_eq b 239), (byte_eq b1 191), (byte_eq b2 189); (reflexivity || lia). }
    destruct (Z_of_byte b <? 245) eqn:E5; [|injection Hd as <-; discriminate H1].
    destruct s as [|b1 [|b2 [|b3 s]]]; try (injection Hd as <-; discriminate H1).
    match type of Hd with (if ?c then _ else _) = _ => destruct c eqn:Ec end; [injection Hd as Hv Hw'|injection Hd as <-; discriminate H1].
    unfold cont_byte, in_range in Ec. unfold rune_error in *. exfalso.
    destruct (Z_of_byte b =? 240) eqn:Ea; destruct (Z_of_byte b =? 244) eqn:Eb; lia. }
  destruct Hc as [Hs Hf]. exists (r :: rs). split; [constructor; assumption|]. cbn [text flat_map]. fold (text rs).
  rewrite <- Hf, <- E. symmetry. apply firstn_skipn.
Qed.
Ltac Zify.zify_post_hook ::= idtac.

(** Cutting a string between two characters leaves the characters as they are. *)
Lemma decode_cut b s r w n : decode_rune (b :: s) = (r, w) -> (w <= n)%nat -> decode_rune (firstn n (b :: s)) = (r, w).
Proof.
  intros Hd Hn. destruct (decode_width _ _ _ _ Hd) as [Hw _]. destruct ((r =? rune_error) && Nat.eqb w 1) eqn:E.
  - apply andb_prop in E as [E1 E2]. apply Z.eqb_eq in E1 as ->. apply Nat.eqb_eq in E2 as ->.
    destruct n as [|n]; [lia|]. cbn [firstn]. unfold decode_rune in *. cbn zeta in *.
    destruct (Z_of_byte b <? 128); [assumption|]. destruct (Z_of_byte b <? 194); [reflexivity|].
    destruct (Z_of_byte b <? 224).
    { destruct s as [|b1 s]; destruct n; try reflexivity. cbn [firstn]. destruct (cont_byte b1); [discriminate Hd|reflexivity]. }
    destruct (Z_of_byte b <? 240).
    { destruct s as [|b1 [|b2 s]]; destruct n as [|[|n]]; try reflexivity. cbn [firstn].
      match goal with |- (if ?c then _ else _) = _ => destruct c end; [discriminate Hd|reflexivity]. }
    destruct (Z_of_byte b <? 245); [|reflexivity].
    destruct s as [|b1 [|b2 [|b3 s]]]; destruct n as [|[|[|n]]]; try reflexivity. cbn [firstn].
    match goal with |- (if ?c then _ else _) = _ => destruct c end; [discriminate Hd|reflexivity].
  - assert (Hf : firstn n (b :: s) = firstn w (b :: s) ++ skipn w (firstn n (b :: s))).
    { rewrite <- (firstn_skipn w (firstn n (b :: s))) at 1. rewrite firstn_firstn. replace (Nat.min w n) with w by lia. reflexivity. }
    rewrite Hf. apply (decode_local b s r w _ Hd E).
Qed.

Lemma chars_prefix s : forall a b, chars s = a ++ b -> chars (raw a) = a.
Proof.
  induction s as [|x s r w Hd IH] using bytes_ind; intros a b H.
  - change (chars []) with (@nil (Z * bytes)) in H. symmetry in H. apply app_eq_nil in H as [-> _]. reflexivity.
  - rewrite (chars_step _ _ _ _ Hd) in H. destruct a as [|c a]; [reflexivity|]. injection H as <- H.
    pose proof (IH _ _ H) as Ha. pose proof (decode_width _ _ _ _ Hd) as Hw.
    assert (Es : x :: s = firstn w (x :: s) ++ raw a ++ raw b).
    { rewrite <- (firstn_skipn w (x :: s)) at 1. f_equal. rewrite <- raw_app, <- H, raw_chars. reflexivity. }
    cbn [raw flat_map snd]. fold (raw a).
    assert (Ec : firstn w (x :: s) ++ raw a = firstn (w + List.length (raw a)) (x :: s)).
    { rewrite Es at 2. rewrite app_assoc. rewrite firstn_app.
      assert (El : List.length (firstn w (x :: s) ++ raw a) = (w + List.length (raw a))%nat).
      { rewrite app_length, firstn_length_le by (cbn [List.length]; lia). reflexivity. }
      rewrite <- El, firstn_all, Nat.sub_diag. cbn [firstn]. rewrite app_nil_r. reflexivity. }
    pose proof (decode_cut _ _ _ _ (w + List.length (raw a)) Hd ltac:(lia)) as Hd'. rewrite <- Ec in Hd'.
    destruct (firstn w (x :: s)) as [|y t] eqn:Ey; [apply (f_equal (@List.length _)) in Ey; rewrite firstn_length_le in Ey by (cbn [List.length]; lia); cbn in Ey; lia|].
    cbn [app] in *. rewrite (chars_step _ _ _ _ Hd').
    assert (Lw : w = List.length (y :: t)) by (rewrite <- Ey, firstn_length_le by (cbn [List.length]; lia); reflexivity).
    change (y :: t ++ raw a) with ((y :: t) ++ raw a). rewrite Lw at 1 2. rewrite firstn_app_exact, skipn_app_exact, Ha. reflexivity.
Qed.

Lemma chars_suffix s : forall a b, chars s = a ++ b -> chars (raw b) = b.
Proof.
  induction s as [|x s r w Hd IH] using bytes_ind; intros a b H.
  - change (chars []) with (@nil (Z * bytes)) in H. symmetry in H. apply app_eq_nil in H as [_ ->]. reflexivity.
  - destruct a as [|c a]; [cbn [app] in H; rewrite <- H, raw_chars; reflexivity|].
    rewrite (chars_step _ _ _ _ Hd) in H. injection H as _ H. exact (IH _ _ H).
Qed.

Lemma chars_segment s a b c : chars s = a ++ b ++ c -> chars (raw b) = b.
Proof. intros H. apply chars_suffix in H. apply chars_prefix in H. exact H. Qed.

(** *** The language of an expression *)
Lemma matches_empty u : matches REmpty u <-> u = [].
Proof. split; [inversion 1; reflexivity|intros ->; constructor]. Qed.
Lemma matches_set neg l u : matches (RSet neg l) u <-> exists c, u = [c] /\ in_set neg l c = true.
Proof. split; [inversion 1; eauto|intros (c & -> & H); constructor; exact H]. Qed.
Lemma matches_cat a b u : matches (RCat a b) u <-> exists v w, u = v ++ w /\ matches a v /\ matches b w.
Proof. split; [inversion 1; subst; eauto|intros (v & w & -> & Hv & Hw); constructor; assumption]. Qed.
Lemma matches_alt a b u : matches (RAlt a b) u <-> matches a u \/ matches b u.
Proof. split; [inversion 1; auto|intros [H|H]; [apply m_left|apply m_right]; exact H]. Qed.
Lemma matches_plus g a u : matches (RRep Plus g a) u <-> exists v w, u = v ++ w /\ matches a v /\ matches (RRep Star g a) w.
Proof. split; [inversion 1; subst; eauto|intros (v & w & -> & Hv & Hw); constructor; assumption]. Qed.
Lemma matches_quest g a u : matches (RRep Quest g a) u <-> u = [] \/ matches a u.
Proof. split; [inversion 1; auto|intros [->|H]; [constructor|apply m_quest_some; exact H]]. Qed.
Lemma matches_group i a u : matches (RGroup i a) u <-> matches a u.
Proof. split; [inversion 1; assumption|apply m_group]. Qed.

Fixpoint groups (r : re) : list nat :=
  match r with
  | REmpty | RSet _ _ | RBegin | REnd => []
  | RCat a b | RAlt a b => groups a ++ groups b
  | RRep _ _ a => groups a
  | RGroup i a => i :: groups a
  end.

(** From [st] to [st'], the characters [w] are consumed and only the groups in
    [gs] change. *)
Definition reach (gs : list nat) (st : mstate) (w : list (Z * bytes)) (st' : mstate) : Prop :=
  ms_rest st = w ++ ms_rest st' /\ ms_pos st' = (ms_pos st + List.length w)%nat /\
  (forall i, ~ In i gs -> get_cap (ms_caps st') i = get_cap (ms_caps st) i).

Lemma reach_refl gs st : reach gs st [] st.
Proof. split; [reflexivity|]. split; [cbn; lia|reflexivity]. Qed.
Lemma reach_trans gs gs' st u st1 v st2 : reach gs st u st1 -> reach gs' st1 v st2 -> reach (gs ++ gs') st (u ++ v) st2.
Proof.
  intros (H1 & H2 & H3) (H4 & H5 & H6). split; [rewrite H1, H4; apply app_assoc|].
  split; [rewrite app_length; lia|]. intros i Hi. rewrite H6, H3; [reflexivity| |]; intros Hx; apply Hi; apply in_app_iff; auto.
Qed.
Lemma reach_incl gs gs' st w st' : incl gs gs' -> reach gs st w st' -> reach gs' st w st'.
Proof. intros Hi (H1 & H2 & H3). repeat split; try assumption. intros i Hn. apply H3. intros Hx. apply Hn, Hi, Hx. Qed.

Lemma get_set_cap caps i s j : get_cap (set_cap caps i s) j = if Nat.eqb j i then s else get_cap caps j.
Proof.
  induction caps as [|[k t] caps IH]; cbn.
  - destruct (Nat.eqb j i); reflexivity.
  - destruct (Nat.eqb i k) eqn:E; cbn.
    + apply Nat.eqb_eq in E as ->. destruct (Nat.eqb j k); reflexivity.
    + rewrite IH. destruct (Nat.eqb j k) eqn:E1; [|reflexivity]. apply Nat.eqb_eq in E1 as ->. rewrite Nat.eqb_sym, E. reflexivity.
Qed.

Lemma iterate_sound a greedy fuel : (forall st st', In st' (run a st) -> exists w, reach (groups a) st w st' /\ matches a (map fst w)) ->
  forall st st', In st' (iterate (run a) greedy fuel st) -> exists w, reach (groups a) st w st' /\ matches (RRep Star greedy a) (map fst w).
Proof.
  intros Ha. induction fuel as [|fuel IH]; intros st st' H.
  - destruct H as [<-|[]]. exists []. split; [apply reach_refl|constructor].
  - assert (Hc : st' = st \/ In st' (flat_map (fun st' => if Nat.eqb (ms_pos st') (ms_pos st) then [] else iterate (run a) greedy fuel st') (run a st))).
    { cbn [iterate] in H. destruct greedy; [apply in_app_iff in H as [H|[<-|[]]]; auto|destruct H as [<-|H]; auto]. }
    destruct Hc as [->|Hc]; [exists []; split; [apply reach_refl|constructor]|].
    apply in_flat_map in Hc as (st1 & H1 & H2). destruct (Ha _ _ H1) as (u & Hu & Mu).
    destruct (Nat.eqb (ms_pos st1) (ms_pos st)) eqn:E; [destruct H2|]. apply Nat.eqb_neq in E.
    destruct (IH _ _ H2) as (v & Hv & Mv). exists (u ++ v). split.
    + eapply reach_incl; [|exact (reach_trans _ _ _ _ _ _ _ Hu Hv)]. intros x Hx. apply in_app_iff in Hx as [Hx|Hx]; exact Hx.
    + rewrite map_app. constructor; [|assumption|assumption]. destruct u; [|discriminate]. destruct Hu as (_ & Hp & _). cbn in Hp. lia.
Qed.

Lemma run_sound r : unanchored r = true -> forall st st', In st' (run r st) -> exists w, reach (groups r) st w st' /\ matches r (map fst w).
Proof.
  induction r as [| neg l | | |a IHa b IHb|a IHa b IHb|k greedy a IHa|i a IHa]; intros Hu st st' H; cbn [unanchored] in Hu; try discriminate Hu.
  - destruct H as [<-|[]]. exists []. split; [apply reach_refl|constructor].
  - cbn [run] in H. destruct (ms_rest st) as [|[c b] rest] eqn:E; [destruct H|]. destruct (in_set neg l c) eqn:Es; [|destruct H].
    destruct H as [<-|[]]. exists [(c, b)]. split; [|constructor; exact Es]. split; [exact E|]. split; [cbn; lia|reflexivity].
  - apply andb_prop in Hu as [Ua Ub]. cbn [run] in H. apply in_flat_map in H as (st1 & H1 & H2).
    destruct (IHa Ua _ _ H1) as (u & Hu & Mu). destruct (IHb Ub _ _ H2) as (v & Hv & Mv).
    exists (u ++ v). split; [exact (reach_trans _ _ _ _ _ _ _ Hu Hv)|]. rewrite map_app. constructor; assumption.
  - apply andb_prop in Hu as [Ua Ub]. cbn [run groups] in *. apply in_app_iff in H as [H|H].
    + destruct (IHa Ua _ _ H) as (u & Hu & Mu). exists u. split; [eapply reach_incl; [|exact Hu]; apply incl_appl, incl_refl|apply m_left; assumption].
    + destruct (IHb Ub _ _ H) as (u & Hu & Mu). exists u. split; [eapply reach_incl; [|exact Hu]; apply incl_appr, incl_refl|apply m_right; assumption].
  - cbn [run groups] in *. destruct k.
    + exact (iterate_sound a greedy _ (IHa Hu) _ _ H).
    + apply in_flat_map in H as (st1 & H1 & H2). destruct (IHa Hu _ _ H1) as (u & Ru & Mu).
      destruct (iterate_sound a greedy _ (IHa Hu) _ _ H2) as (v & Rv & Mv). exists (u ++ v). split.
      * eapply reach_incl; [|exact (reach_trans _ _ _ _ _ _ _ Ru Rv)]. intros x Hx. apply in_app_iff in Hx as [Hx|Hx]; exact Hx.
      * rewrite map_app. constructor; assumption.
    + assert (Hc : st' = st \/ In st' (run a st)) by (destruct greedy; [apply in_app_iff in H as [H|[<-|[]]]; auto|destruct H as [<-|H]; auto]).
      destruct Hc as [->|Hc]; [exists []; split; [apply reach_refl|constructor]|].
      destruct (IHa Hu _ _ Hc) as (u & Ru & Mu). exists u. split; [exact Ru|apply m_quest_some; assumption].
  - cbn [run groups] in *. apply in_map_iff in H as (st1 & <- & H1). destruct (IHa Hu _ _ H1) as (u & (R1 & R2 & R3) & Mu).
    exists u. split; [|constructor; exact Mu]. split; [exact R1|]. split; [exact R2|]. cbn [ms_caps]. intros j Hj.
    rewrite get_set_cap. destruct (Nat.eqb j i) eqn:E; [apply Nat.eqb_eq in E as ->; exfalso; apply Hj; left; reflexivity|].
    apply R3. intros Hx. apply Hj. right. exact Hx.
Qed.

(** A group keeps what it matched. *)
Lemma run_group i a st st' : unanchored a = true -> In st' (run (RGroup i a) st) ->
  exists w, reach (i :: groups a) st w st' /\ matches a (map fst w) /\ get_cap (ms_caps st') i = raw w.
Proof.
  intros Hu H. cbn [run] in H. apply in_map_iff in H as (st1 & <- & H1). destruct (run_sound a Hu _ _ H1) as (w & (R1 & R2 & R3) & M).
  exists w. split; [|split; [exact M|]].
  - split; [exact R1|]. split; [exact R2|]. cbn [ms_caps]. intros j Hj. rewrite get_set_cap.
    destruct (Nat.eqb j i) eqn:E; [apply Nat.eqb_eq in E as ->; exfalso; apply Hj; left; reflexivity|].
    apply R3. intros Hx. apply Hj. right. exact Hx.
  - cbn [ms_caps]. rewrite get_set_cap, Nat.eqb_refl. f_equal. rewrite R1, R2. replace (ms_pos st + _ - ms_pos st)%nat with (List.length w) by lia.
    apply firstn_app_exact.
Qed.

Lemma iterate_complete a greedy : unanchored a = true ->
  (forall u, matches a u -> forall st w rest, ms_rest st = w ++ rest -> map fst w = u -> exists st', In st' (run a st) /\ ms_rest st' = rest) ->
  forall u, matches (RRep Star greedy a) u -> forall st w rest fuel, ms_rest st = w ++ rest -> map fst w = u ->
  (List.length w <= fuel)%nat -> exists st', In st' (iterate (run a) greedy fuel st) /\ ms_rest st' = rest.
Proof.
  intros Hu Ha u H. remember (RRep Star greedy a) as r eqn:Er. induction H; try discriminate Er; injection Er as -> ->.
  - intros st w rest fuel Hr Hm Hf. destruct w; [|discriminate Hm]. exists st. split; [|exact Hr].
    destruct fuel; [left; reflexivity|]. cbn [iterate]. destruct greedy; [apply in_app_iff; right; left; reflexivity|left; reflexivity].
  - intros st w rest fuel Hr Hm Hf. apply map_eq_app in Hm as (w1 & w2 & -> & E1 & E2).
    rewrite <- app_assoc in Hr. destruct (Ha _ H0 _ _ _ Hr E1) as (st1 & Hin & Hst1).
    destruct (run_sound a Hu _ _ Hin) as (w' & (R1 & R2 & _) & _). rewrite Hst1, Hr in R1. apply app_inv_tail in R1. subst w'.
    assert (Hl : (0 < List.length w1)%nat) by (destruct w1; [subst u; cbn in H; congruence|cbn; lia]).
    rewrite app_length in Hf. destruct fuel as [|fuel]; [lia|].
    destruct (IHmatches2 eq_refl st1 w2 rest fuel Hst1 E2 ltac:(lia)) as (st2 & Hin2 & Hst2).
    exists st2. split; [|exact Hst2]. cbn [iterate].
    assert (Hx : In st2 (flat_map (fun st' => if Nat.eqb (ms_pos st') (ms_pos st) then [] else iterate (run a) greedy fuel st') (run a st))).
    { apply in_flat_map. exists st1. split; [exact Hin|]. replace (Nat.eqb (ms_pos st1) (ms_pos st)) with false by (symmetry; apply Nat.eqb_neq; lia). exact Hin2. }
    destruct greedy; [apply in_app_iff; left; exact Hx|right; exact Hx].
Qed.

Lemma run_complete r : unanchored r = true -> forall u, matches r u -> forall st w rest, ms_rest st = w ++ rest -> map fst w = u ->
  exists st', In st' (run r st) /\ ms_rest st' = rest.
Proof.
  induction r as [| neg l | | |a IHa b IHb|a IHa b IHb|k greedy a IHa|i a IHa]; intros Hu u H st w rest Hr Hm; cbn [unanchored] in Hu; try discriminate Hu.
  - apply matches_empty in H. subst. destruct w; [|discriminate]. exists st. split; [left; reflexivity|exact Hr].
  - apply matches_set in H as (c & -> & Hc). destruct w as [|[c' b] [|]]; try discriminate. injection Hm as ->.
    cbn [run]. rewrite Hr. cbn [app]. rewrite Hc. eexists. split; [left; reflexivity|reflexivity].
  - apply andb_prop in Hu as [Ua Ub]. apply matches_cat in H as (u1 & u2 & -> & M1 & M2). apply map_eq_app in Hm as (w1 & w2 & -> & E1 & E2).
    rewrite <- app_assoc in Hr. destruct (IHa Ua _ M1 _ _ _ Hr E1) as (st1 & Hin & Hst1).
    destruct (IHb Ub _ M2 _ _ _ Hst1 E2) as (st2 & Hin2 & Hst2). exists st2. split; [|exact Hst2]. cbn [run]. apply in_flat_map. eauto.
  - apply andb_prop in Hu as [Ua Ub]. cbn [run]. apply matches_alt in H as [H|H].
    + destruct (IHa Ua _ H _ _ _ Hr Hm) as (st1 & Hin & Hst1). exists st1. split; [apply in_app_iff; auto|exact Hst1].
    + destruct (IHb Ub _ H _ _ _ Hr Hm) as (st1 & Hin & Hst1). exists st1. split; [apply in_app_iff; auto|exact Hst1].
  - cbn [run]. destruct k.
    + apply (iterate_complete a greedy Hu (IHa Hu) u H st w rest); [exact Hr|exact Hm|]. rewrite Hr, app_length. lia.
    + apply matches_plus in H as (u1 & u2 & -> & M1 & M2). apply map_eq_app in Hm as (w1 & w2 & -> & E1 & E2).
      rewrite <- app_assoc in Hr. destruct (IHa Hu _ M1 _ _ _ Hr E1) as (st1 & Hin & Hst1).
      destruct (iterate_complete a greedy Hu (IHa Hu) _ M2 st1 w2 rest (List.length (ms_rest st1)) Hst1 E2) as (st2 & Hin2 & Hst2).
      { rewrite Hst1, app_length. lia. }
      exists st2. split; [|exact Hst2]. apply in_flat_map. eauto.
    + apply matches_quest in H as [->|H].
      * destruct w; [|discriminate]. exists st. split; [|exact Hr]. destruct greedy; [apply in_app_iff; right; left; reflexivity|left; reflexivity].
      * destruct (IHa Hu _ H _ _ _ Hr Hm) as (st1 & Hin & Hst1). exists st1. split; [|exact Hst1].
        destruct greedy; [apply in_app_iff; auto|right; exact Hin].
  - apply matches_group in H. destruct (IHa Hu _ H _ _ _ Hr Hm) as (st1 & Hin & Hst1).
    cbn [run]. eexists. split; [apply in_map_iff; eauto|]. exact Hst1.
Qed.
