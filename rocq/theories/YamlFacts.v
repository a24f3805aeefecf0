(** The decoder of Yaml.v gives what SpecYaml.v describes: attributes. *)
From Coq Require Import List ZArith Lia Bool String.
From Coq Require Import Strings.Byte Floats.SpecFloat.
From Verif Require Import Base BaseFacts Value Codec Output Config Yaml SpecYaml.
Import ListNotations.
Open Scope Z_scope.

(** *** Nodes *)

Fixpoint node_size (n : node) : nat :=
  match n with
  | YScalar _ _ => 1
  | YSeq l => S (fold_right (fun n k => node_size n + k)%nat O l)
  | YMap m => S (fold_right (fun kn k => node_size (fst kn) + node_size (snd kn) + k)%nat O m)
  end.

Lemma seq_size l n : In n l -> (node_size n < node_size (YSeq l))%nat.
Proof.
  induction l as [|a l IH]; [easy|]. intros [<-|H]; cbn in *; [lia|]. specialize (IH H). lia.
Qed.

Lemma map_size m k n : In (k, n) m -> (node_size n < node_size (YMap m))%nat.
Proof.
  induction m as [|a m IH]; [easy|]. intros [->|H]; cbn in *; [lia|]. specialize (IH H). lia.
Qed.

Lemma plain_null_nothing n : plain_null n = true <-> nothing n.
Proof.
  split.
  - destruct n as [t []| |]; cbn [plain_null]; try discriminate. intros H. exists t. split; [reflexivity|].
    apply orb_prop in H as [H|H]; [apply orb_prop in H as [H|H]|]; apply bytes_eqb_eq in H; subst; cbn; tauto.
  - intros (t & -> & H). cbn [plain_null]. cbn [In] in H. destruct H as [<-|[<-|[<-|[]]]]; reflexivity.
Qed.

Lemma key_text_spelled n k : key_text n = Ok k <-> spelled k n.
Proof. destruct n as [t []| |]; cbn; split; first [easy|intros ->; reflexivity|intros [= <-]; reflexivity]. Qed.

Lemma spelled_fun k k' n : spelled k n -> spelled k' n -> k = k'.
Proof. destruct n as [t []| |]; cbn; first [easy|intros -> ->; reflexivity]. Qed.

(** *** [map_res] *)

Lemma map_res_spec {A B} (f : A -> res B) l l' : map_res f l = Ok l' <-> Forall2 (fun a b => f a = Ok b) l l'.
Proof.
  revert l'. induction l as [|a l IH]; intros l'; cbn.
  - split; [intros [= <-]; constructor|intros H; inversion H; reflexivity].
  - split.
    + destruct (f a) as [b| | |] eqn:E; cbn; try discriminate.
      destruct (map_res f l) as [bs| | |] eqn:E'; cbn; try discriminate.
      intros [= <-]. constructor; [exact E|]. apply IH. reflexivity.
    + intros H. inversion H as [|? b ? bs Ha Hl]; subst. rewrite Ha. cbn.
      apply IH in Hl. rewrite Hl. reflexivity.
Qed.

Lemma repeated_NoDup l : repeated l = false <-> NoDup l.
Proof.
  induction l as [|a l IH]; cbn; [split; [constructor|reflexivity]|].
  rewrite orb_false_iff, IH. split.
  - intros [H H']. constructor; [|exact H']. intros Hin.
    assert (existsb (bytes_eqb a) l = true) by (apply existsb_exists; exists a; split; [exact Hin|now apply bytes_eqb_eq]). congruence.
  - intros H. inversion H as [|? ? Hn Hd]; subst. split; [|exact Hd].
    destruct (existsb (bytes_eqb a) l) eqn:E; [|reflexivity].
    apply existsb_exists in E as (b & Hb & E). apply bytes_eqb_eq in E. subst. contradiction.
Qed.

(** *** Attributes *)

Lemma mget_In {A} (l : list (bytes * A)) k v : mget l k = Some v -> In (k, v) l.
Proof.
  induction l as [|[k' v'] l IH]; cbn; [discriminate|].
  destruct (bytes_eqb k' k) eqn:E.
  - apply bytes_eqb_eq in E. subst. intros [= ->]. now left.
  - intros H. right. auto.
Qed.
Lemma mget_None {A} (l : list (bytes * A)) k : mget l k = None <-> ~ In k (map fst l).
Proof.
  induction l as [|[k' v'] l IH]; cbn; [tauto|].
  destruct (bytes_eqb k' k) eqn:E.
  - apply bytes_eqb_eq in E. split; [discriminate|]. intros H. exfalso. apply H. now left.
  - rewrite IH. split; [|tauto]. intros H [->|H']; [|tauto].
    assert (bytes_eqb k k = true) by now apply bytes_eqb_eq. congruence.
Qed.
Lemma mget_NoDup {A} (l : list (bytes * A)) k v : NoDup (map fst l) -> In (k, v) l -> mget l k = Some v.
Proof.
  induction l as [|[k' v'] l IH]; cbn; [easy|]. intros Hd [[= -> ->]|H].
  - assert (bytes_eqb k k = true) as -> by now apply bytes_eqb_eq. reflexivity.
  - inversion Hd as [|? ? Hn Hd']; subst.
    destruct (bytes_eqb k' k) eqn:E; [|auto].
    apply bytes_eqb_eq in E. subst. exfalso. apply Hn. apply in_map_iff. exists (k, v). auto.
Qed.

(** Names which pair up with a mapping. *)
Definition names_of (names : list bytes) (m : mapping) : Prop := Forall2 (fun k kn => spelled k (fst kn)) names m.

Lemma attr_fun names m k o o' : names_of names m -> NoDup names -> attr m k o -> attr m k o' -> o = o'.
Proof.
  intros Hn Hd. destruct o as [n|], o' as [n'|]; cbn; [| | |reflexivity].
  - intros (key & Hin & Hs) (key' & Hin' & Hs'). f_equal.
    induction Hn as [|a [b c] names m Ha Hn IH]; [easy|]. cbn in Ha.
    inversion Hd as [|? ? Hna Hd']; subst.
    assert (forall key x, In (key, x) m -> spelled k key -> In k names) as Hmem.
    { intros key0 x Hin0 Hs0. clear -Hn Hin0 Hs0. induction Hn as [|a' [b' c'] names m Ha Hn IH]; [easy|].
      cbn in Ha. destruct Hin0 as [[= -> ->]|Hin0]; [left; eapply spelled_fun; eauto|right; auto]. }
    destruct Hin as [[= -> ->]|Hin], Hin' as [[= -> ->]|Hin'].
    + reflexivity.
    + exfalso. apply Hna. rewrite (spelled_fun _ _ _ Ha Hs). eauto.
    + exfalso. apply Hna. rewrite (spelled_fun _ _ _ Ha Hs'). eauto.
    + auto.
  - intros (key & Hin & Hs) H. exfalso. eapply H; eauto.
  - intros H (key & Hin & Hs). exfalso. eapply H; eauto.
Qed.

Lemma attr_exists m k : (forall key n, In (key, n) m -> exists t r, key = YScalar t r) -> exists o, attr m k o.
Proof.
  induction m as [|[key n] m IH]; intros H.
  - exists None. cbn. tauto.
  - assert ({spelled k key} + {~ spelled k key}) as [Hs|Hs].
    { destruct key as [t []| |]; cbn; try (right; tauto); destruct (bytes_eqb k t) eqn:E;
        try (left; now apply bytes_eqb_eq); try (right; intros ->; rewrite (proj2 (bytes_eqb_eq t t) eq_refl) in E; discriminate).
      all: destruct k; [now left|right; discriminate]. }
    + exists (Some n). exists key. split; [now left|exact Hs].
    + destruct IH as [o Ho]; [intros; eapply H; right; eauto|]. exists o. destruct o as [n'|]; cbn in *.
      * destruct Ho as (key' & Hin & Hk). exists key'. auto.
      * intros key' n' [[= -> ->]|Hin]; [exact Hs|eauto].
Qed.

Section Facts.
Variable hidden_ok : node -> bool.
Variables odd_uint odd_int : spec_float -> Z.
Local Notation decode := (decode hidden_ok odd_uint odd_int).

(** The value of a field of which the attribute is [o]. *)
Definition field_value (f : field) (o : option node) (g : gval) : Prop :=
  match o with None => g = GNil | Some n => decode f n = Ok g end.

(** The decoder agrees with the description [R], up to the conversion [c]. *)
Definition agrees {A} (f : field) (R : A -> option node -> Prop) (c : gval -> A) (o : option node) : Prop :=
  (forall g, field_value f o g -> forall x, R x o <-> x = c g) /\
  (forall x, R x o -> exists g, field_value f o g).

Lemma decode_nil f n : decode f n = Ok GNil -> fst f = true /\ nothing n.
Proof.
  destruct f as [p t].
  assert (decode (p, t) n = if p && plain_null n then Ok GNil else decode (false, t) n) as -> by (destruct n; reflexivity).
  destruct (p && plain_null n) eqn:E.
  { apply andb_prop in E as [-> E]. apply plain_null_nothing in E. auto. }
  clear E. destruct t, n as [? []|?|?]; try discriminate; cbn [Yaml.decode fst snd andb]; try (destruct (hidden_ok _)); try discriminate.
  all: unfold decode_uint, decode_int, refuse; intros H; exfalso; revert H.
  all: repeat match goal with
       | |- context [if ?b then _ else _] => destruct b; try discriminate
       | |- context [match truncate ?f with _ => _ end] => destruct (truncate f); try discriminate
       | |- context [map_res ?f ?l] => destruct (map_res f l); cbn; try discriminate
       end.
Qed.

(** *** Scalars *)

Lemma agrees_text o : agrees text text_is as_text o.
Proof.
  split.
  - destruct o as [[t r|l|m]|]; cbn; try discriminate.
    + intros g Hg x. destruct r; injection Hg as <-; cbn.
      all: split; [intros H; inversion H; subst; try reflexivity; congruence|intros ->; constructor; discriminate].
    + intros g -> x. cbn. split; [intros H; now inversion H|intros ->; constructor].
  - intros x H. inversion H as [|t|t r Hr]; subst; cbn; eauto. destruct r; eauto.
Qed.

Lemma agrees_flag o : agrees flag flag_is as_flag o.
Proof.
  split.
  - destruct o as [[t r|l|m]|]; cbn; try discriminate.
    + intros g Hg x. destruct r; try discriminate; injection Hg as <-; cbn.
      all: split; [intros H; now inversion H|intros ->; constructor].
    + intros g -> x. cbn. split; [intros H; now inversion H|intros ->; constructor].
  - intros x H. inversion H; subst; cbn; eauto.
Qed.

Lemma at_most_iff f k : 0 <= k -> at_most_pow2 f k = true <-> not_above f k.
Proof.
  intros Hk. destruct f as [s|s| |s m e]; cbn [at_most_pow2 not_above]; try tauto; try easy.
  rewrite orb_true_iff, Z.leb_le, Z.pow_add_r by lia. tauto.
Qed.

Lemma truncate_iff f z : truncate f = Some z <-> integer_part f z.
Proof.
  destruct f as [s|s| |s m e]; cbn [truncate integer_part]; try easy.
  - split; congruence.
  - set (a := Zpos m * 2 ^ Z.max e 0). set (b := 2 ^ Z.max (- e) 0).
    assert (0 < b) as Hb by (apply Z.pow_pos_nonneg; lia).
    assert (0 < a) as Ha by (apply Z.mul_pos_pos; [lia|apply Z.pow_pos_nonneg; lia]).
    assert (0 <= a / b) as Hq by (apply Z.div_pos; lia).
    pose proof (Z.mul_div_le a b Hb). pose proof (Z.mul_succ_div_gt a b Hb).
    split.
    + intros E. assert (z = if s then - (a / b) else a / b) as -> by congruence.
      replace (Z.abs (if s then - (a / b) else a / b)) with (a / b) by (destruct s; lia).
      split; [destruct s; lia|]. nia.
    + intros [Hs [H1 H2]]. f_equal.
      assert (a / b = Z.abs z) as ->. { symmetry. apply Z.div_unique with (r := a - b * Z.abs z); nia. }
      destruct s; lia.
Qed.

Lemma number_agrees odd lo k r t g (d : scalar -> res gval) : 0 <= k ->
  (forall r, d r = match r with
    | RNull => Ok (GNum 0)
    | RInt z => if (lo <=? z) && (z <? 2 ^ k) then Ok (GNum z) else refuse
    | RFloat f => if at_most_pow2 f k then
        match truncate f with
        | Some z => Ok (GNum (if (lo <=? z) && (z <? 2 ^ k) then z else odd f))
        | None => Ok (GNum (odd f))
        end else refuse
    | _ => refuse end) ->
  d r = Ok g -> forall x, number_is odd lo k x (Some (YScalar t r)) <-> x = as_num g.
Proof.
  intros Hk Hd. rewrite Hd. destruct r as [|b|z|f| |]; try discriminate.
  - intros [= <-] x. cbn. split; [intros H; now inversion H|intros ->; constructor].
  - destruct ((lo <=? z) && (z <? 2 ^ k)) eqn:E; [|discriminate]. intros [= <-] x. cbn.
    apply andb_prop in E as [E1 E2].
    split; [intros H; now inversion H|intros ->; constructor; lia].
  - destruct (at_most_pow2 f k) eqn:Ea; [|discriminate].
    apply at_most_iff in Ea; [|exact Hk]. intros Hg x.
    assert (forall z, integer_part f z -> truncate f = Some z) as Ht by (intros; now apply truncate_iff).
    split.
    + intros H. inversion H as [| | |? ? ? Hn Hi Hz|? ? Hn Hz]; subst.
      * rewrite (Ht _ Hi) in Hg. assert ((lo <=? x) && (x <? 2 ^ k) = true) as E by lia. rewrite E in Hg. now injection Hg as <-.
      * destruct (truncate f) as [z|] eqn:E; [|now injection Hg as <-].
        apply truncate_iff in E. specialize (Hz _ E). assert ((lo <=? z) && (z <? 2 ^ k) = false) as E' by lia.
        rewrite E' in Hg. now injection Hg as <-.
    + intros ->. destruct (truncate f) as [z|] eqn:E.
      * apply truncate_iff in E. destruct ((lo <=? z) && (z <? 2 ^ k)) eqn:E'; injection Hg as <-; cbn.
        -- apply number_float; [exact Ea|exact E|lia].
        -- apply number_odd; [exact Ea|]. intros z' Hz'. apply Ht in Hz'. apply Ht in E. assert (z = z') by congruence. lia.
      * injection Hg as <-. cbn. apply number_odd; [exact Ea|]. intros z' Hz'. apply Ht in Hz'. congruence.
Qed.

Lemma number_total odd lo k r t x (d : scalar -> res gval) : 0 <= k ->
  (forall r, d r = match r with
    | RNull => Ok (GNum 0)
    | RInt z => if (lo <=? z) && (z <? 2 ^ k) then Ok (GNum z) else refuse
    | RFloat f => if at_most_pow2 f k then
        match truncate f with
        | Some z => Ok (GNum (if (lo <=? z) && (z <? 2 ^ k) then z else odd f))
        | None => Ok (GNum (odd f))
        end else refuse
    | _ => refuse end) ->
  number_is odd lo k x (Some (YScalar t r)) -> exists g, d r = Ok g.
Proof.
  intros Hk Hd H. inversion H as [|? |? ? Hz|? f ? Hn Hi Hz|? f Hn Hz]; subst; rewrite Hd; eauto.
  - assert ((lo <=? x) && (x <? 2 ^ k) = true) as -> by lia. eauto.
  - apply at_most_iff in Hn; [|exact Hk]. rewrite Hn. destruct (truncate f); eauto.
  - apply at_most_iff in Hn; [|exact Hk]. rewrite Hn. destruct (truncate f); eauto.
Qed.

Lemma agrees_uint o : agrees (false, TUint) (number_is odd_uint 0 64) as_num o.
Proof.
  split.
  - destruct o as [[t r|l|m]|]; cbn [field_value Yaml.decode fst snd andb]; try discriminate.
    + intros g Hg. eapply number_agrees with (d := decode_uint odd_uint); [lia| |exact Hg].
      intros r'. destruct r'; reflexivity.
    + intros g -> x. cbn. split; [intros H; now inversion H|intros ->; constructor].
  - intros x H. destruct o as [[t r|l|m]|]; [| | |exists GNil; reflexivity].
    + eapply number_total with (d := decode_uint odd_uint) in H; [exact H|lia|]. intros r'. destruct r'; reflexivity.
    + inversion H.
    + inversion H.
Qed.

Lemma agrees_int o : agrees (false, TInt) (number_is odd_int (- 2 ^ 63) 63) as_num o.
Proof.
  split.
  - destruct o as [[t r|l|m]|]; cbn [field_value Yaml.decode fst snd andb]; try discriminate.
    + intros g Hg. eapply number_agrees with (d := decode_int odd_int); [lia| |exact Hg].
      intros r'. destruct r'; reflexivity.
    + intros g -> x. cbn. split; [intros H; now inversion H|intros ->; constructor].
  - intros x H. destruct o as [[t r|l|m]|]; [| | |exists GNil; reflexivity].
    + eapply number_total with (d := decode_int odd_int) in H; [exact H|lia|]. intros r'. destruct r'; reflexivity.
    + inversion H.
    + inversion H.
Qed.

(** *** Pointers, lists and maps *)

Lemma decode_pointer t n : ~ nothing n -> decode (true, t) n = decode (false, t) n.
Proof.
  intros H. assert (plain_null n = false) as E.
  { destruct (plain_null n) eqn:E; [|reflexivity]. apply plain_null_nothing in E. contradiction. }
  destruct n; cbn [Yaml.decode fst snd andb] in *; try reflexivity. rewrite E. reflexivity.
Qed.
Lemma decode_nothing t n : nothing n -> decode (true, t) n = Ok GNil.
Proof.
  intros H. apply plain_null_nothing in H. destruct n; try discriminate.
  cbn [Yaml.decode fst snd andb]. rewrite H. reflexivity.
Qed.
Lemma nothing_dec n : nothing n \/ ~ nothing n.
Proof.
  destruct (plain_null n) eqn:E; [left; now apply plain_null_nothing|right]. intros H.
  apply plain_null_nothing in H. congruence.
Qed.

Lemma agrees_pointer {A} t (R : A -> option node -> Prop) c o : (o <> None -> agrees (false, t) R c o) -> agrees (true, t) (or_nil R) (as_ptr c) o.
Proof.
  intros H0. destruct o as [n|].
  - destruct H0 as [H1 H2]; [discriminate|]. destruct (nothing_dec n) as [Hn|Hn]; split; cbn [field_value].
    + rewrite decode_nothing by exact Hn. intros g [= <-] x. cbn. split.
      * intros H. inversion H; subst; [reflexivity|contradiction].
      * intros ->. constructor. exact Hn.
    + intros x _. rewrite decode_nothing by exact Hn. eauto.
    + rewrite decode_pointer by exact Hn. intros g Hg x. specialize (H1 g Hg).
      assert (is_nil g = false) as E.
      { destruct g; try reflexivity. apply decode_nil in Hg as [Hg _]. discriminate. }
      unfold as_ptr. rewrite E. split.
      * intros H. inversion H as [|? Hc|a ? _ Ha]; subst; [contradiction|]. f_equal. now apply H1.
      * intros ->. constructor; [exact Hn|]. now apply H1.
    + rewrite decode_pointer by exact Hn. intros x H. inversion H as [|? Hc|a ? _ Ha]; subst; [contradiction|].
      exact (H2 _ Ha).
  - split; cbn.
    + intros g -> x. cbn. split; [intros H; now inversion H|intros ->; constructor].
    + intros x _. eauto.
Qed.

Lemma agrees_Forall2 {A} e (R : A -> option node -> Prop) c ns : (forall n, In n ns -> agrees e R c (Some n)) ->
  (forall gs, Forall2 (fun n g => decode e n = Ok g) ns gs -> forall l, Forall2 (fun a n => R a (Some n)) l ns <-> l = map c gs) /\
  (forall l, Forall2 (fun a n => R a (Some n)) l ns -> exists gs, Forall2 (fun n g => decode e n = Ok g) ns gs).
Proof.
  induction ns as [|n ns IH]; intros H.
  - split; [|eauto]. intros gs Hg l. inversion Hg; subst. cbn. split; [intros Hl; now inversion Hl|intros ->; constructor].
  - destruct IH as [IH1 IH2]; [intros; apply H; now right|].
    destruct (H n (or_introl eq_refl)) as [Hn1 Hn2]. split.
    + intros gs Hg l. inversion Hg as [|? g ? gs' Hg1 Hg2]; subst. cbn. split.
      * intros Hl. inversion Hl as [|a ? l' ? Ha Hl']; subst. f_equal; [now apply (Hn1 g)|now apply (IH1 gs')].
      * intros ->. constructor; [now apply (Hn1 g)|now apply (IH1 gs')].
    + intros l Hl. inversion Hl as [|a ? l' ? Ha Hl']; subst.
      destruct (Hn2 _ Ha) as [g Hg]. destruct (IH2 _ Hl') as [gs Hgs]. eauto.
Qed.

Lemma agrees_list {A} e (R : A -> option node -> Prop) c o :
  (forall ns, o = Some (YSeq ns) -> forall n, In n ns -> agrees e R c (Some n)) ->
  agrees (false, TList e) (list_is R) (as_list c) o.
Proof.
  intros H. destruct o as [[t r|ns|m]|].
  - split; cbn [field_value Yaml.decode fst snd andb].
    + intros g Hg x. destruct r; try discriminate. injection Hg as <-. cbn.
      split; [intros Hx; now inversion Hx|intros ->; constructor].
    + intros x Hx. inversion Hx; subst. eauto.
  - destruct (agrees_Forall2 e R c ns (H ns eq_refl)) as [H1 H2].
    split; cbn [field_value Yaml.decode fst snd andb plain_null].
    + intros g Hg x. destruct (map_res (decode e) ns) as [gs| | |] eqn:E; cbn in Hg; try discriminate.
      injection Hg as <-. apply map_res_spec in E. cbn. split.
      * intros Hx. inversion Hx as [| |l ns' Hl]; subst. now apply (H1 gs).
      * intros ->. constructor. now apply (H1 gs).
    + intros x Hx. inversion Hx as [| |l ns' Hl]; subst. destruct (H2 _ Hl) as [gs Hgs].
      apply map_res_spec in Hgs. rewrite Hgs. cbn. eauto.
  - split; cbn; [discriminate|]. intros x Hx. inversion Hx.
  - split; cbn; [|eauto]. intros g -> x. split; [intros Hx; now inversion Hx|intros ->; constructor].
Qed.

Lemma agrees_dict {A} e (R : A -> option node -> Prop) c o :
  (forall m, o = Some (YMap m) -> forall k n, In (k, n) m -> agrees e R c (Some n)) ->
  agrees (false, TDict e) (dict_is R) (as_dict c) o.
Proof.
  intros H. destruct o as [[t r|ns|m]|].
  - split; cbn [field_value Yaml.decode fst snd andb].
    + intros g Hg x. destruct r; try discriminate. injection Hg as <-. cbn.
      split; [intros Hx; now inversion Hx|intros ->; constructor].
    + intros x Hx. inversion Hx; subst. eauto.
  - split; cbn; [discriminate|]. intros x Hx. inversion Hx.
  - specialize (H m eq_refl). cbn [agrees field_value]. unfold agrees. cbn [field_value Yaml.decode fst snd andb plain_null].
    set (f := fun kn : node * node => _).
    assert (forall kn kg, f kn = Ok kg <-> spelled (fst kg) (fst kn) /\ decode e (snd kn) = Ok (snd kg)) as Hf.
    { intros kn kg. subst f. cbn beta. rewrite <- key_text_spelled.
      destruct (key_text (fst kn)) as [k| | |]; cbn; try (split; [discriminate|intros [? _]; discriminate]).
      destruct (decode e (snd kn)) as [v| | |]; cbn; try (split; [discriminate|intros [_ ?]; discriminate]).
      destruct kg as [k' v']. cbn. split; [intros [= <- <-]; auto|intros [[= <-] [= <-]]; reflexivity]. }
    assert ((forall kgs, Forall2 (fun kn kg => f kn = Ok kg) m kgs ->
              forall d, Forall2 (fun ka kn => spelled (fst ka) (fst kn) /\ R (snd ka) (Some (snd kn))) d m <->
                d = map (fun kg => (fst kg, c (snd kg))) kgs) /\
            (forall d, Forall2 (fun ka kn => spelled (fst ka) (fst kn) /\ R (snd ka) (Some (snd kn))) d m ->
              exists kgs, Forall2 (fun kn kg => f kn = Ok kg) m kgs /\ map fst kgs = map fst d)) as [H1 H2].
    { clearbody f. induction m as [|[k n] m IH].
      - split; [|intros d Hd; inversion Hd; subst; exists []; split; [constructor|reflexivity]].
        intros kgs Hk d. inversion Hk; subst. cbn. split; [intros Hd; now inversion Hd|intros ->; constructor].
      - destruct IH as [IH1 IH2]; [intros; eapply H; right; eauto|].
        destruct (H k n (or_introl eq_refl)) as [Hn1 Hn2]. split.
        + intros kgs Hk d. inversion Hk as [|? [k' g] ? kgs' Hk1 Hk2]; subst. apply Hf in Hk1 as [Hs Hg]. cbn in *. split.
          * intros Hd. inversion Hd as [|[ka a] ? d' ? [Hs' Ha] Hd']; subst. cbn in *. f_equal; [|now apply (IH1 kgs')].
            f_equal; [eapply spelled_fun; eauto|now apply (Hn1 g)].
          * intros ->. constructor; [|now apply (IH1 kgs')]. cbn. split; [exact Hs|now apply (Hn1 g)].
        + intros d Hd. inversion Hd as [|[ka a] ? d' ? [Hs Ha] Hd']; subst. cbn in *.
          destruct (Hn2 _ Ha) as [g Hg]. destruct (IH2 _ Hd') as (kgs & Hkgs & E).
          exists ((ka, g) :: kgs). split; [constructor; [apply Hf; auto|exact Hkgs]|]. cbn. now rewrite E. }
    split.
    + intros g Hg x. destruct (map_res f m) as [kgs| | |] eqn:E; cbn in Hg; try discriminate.
      destruct (repeated (map fst kgs)) eqn:Er; [discriminate|]. injection Hg as <-.
      apply map_res_spec in E. apply repeated_NoDup in Er. cbn. split.
      * intros Hx. inversion Hx as [| |d m' Hd _]; subst. now apply (H1 kgs).
      * intros ->. constructor; [now apply (H1 kgs)|]. rewrite map_map. exact Er.
    + intros x Hx. inversion Hx as [| |d m' Hd Hn]; subst. destruct (H2 _ Hd) as (kgs & Hk & E).
      apply map_res_spec in Hk. rewrite Hk. cbn. rewrite E. apply repeated_NoDup in Hn. rewrite Hn. eauto.
  - split; cbn; [|eauto]. intros g -> x. split; [intros Hx; now inversion Hx|intros ->; constructor].
Qed.

(** *** Structures *)

(** The mapping of a structure. *)
Definition entries (o : option node) : mapping := match o with Some (YMap m) => m | _ => [] end.

Lemma struct_value s o g : field_value (false, TStruct s) o g ->
  (exists names, names_of names (entries o) /\ NoDup names /\ incl names (map fst (fields s))) /\
  (forall k f, mget (fields s) k = Some f -> exists v, attr (entries o) k v /\ field_value f v (get_field g k)) /\
  (forall m, o = Some (YMap m) \/ m = [] /\ (o = None \/ exists t, o = Some (YScalar t RNull)) -> m = entries o) /\
  (o = None \/ (exists t, o = Some (YScalar t RNull)) \/ exists m, o = Some (YMap m)).
Proof.
  intros Hg.
  assert (forall m, o = Some (YMap m) \/ m = [] /\ (o = None \/ exists t, o = Some (YScalar t RNull)) -> m = entries o) as He.
  { intros m [->|[-> [->|[t ->]]]]; reflexivity. }
  destruct o as [[t r|ns|m]|]; cbn [field_value Yaml.decode fst snd andb plain_null] in Hg; try discriminate.
  - destruct r; try discriminate. injection Hg as <-. split; [exists []; repeat split; [constructor|constructor|easy]|].
    split; [|split; [exact He|eauto]]. intros k f Hk. exists None. cbn. auto.
  - cbn [entries].
    match type of Hg with context [map_res ?f' m] => set (f := f') in Hg end.
    destruct (map_res f m) as [kgs| | |] eqn:E; cbn in Hg; try discriminate.
    destruct (repeated (map fst kgs)) eqn:Er; [discriminate|]. injection Hg as <-.
    apply map_res_spec in E. apply repeated_NoDup in Er.
    assert (forall kn kg, f kn = Ok kg -> spelled (fst kg) (fst kn) /\
              exists f', mget (fields s) (fst kg) = Some f' /\ decode f' (snd kn) = Ok (snd kg)) as Hf.
    { intros kn kg. subst f. cbn beta. rewrite <- key_text_spelled.
      destruct (key_text (fst kn)) as [k| | |]; cbn; try discriminate.
      destruct (mget (fields s) k) as [f'|] eqn:Ek; [|discriminate].
      destruct (decode f' (snd kn)) as [v| | |] eqn:Ev; cbn; try discriminate.
      intros [= <-]. cbn. eauto. }
    split; [|split; [|split; [exact He|eauto]]].
    + exists (map fst kgs). split; [|split; [exact Er|]].
      * clear -E Hf. induction E as [|kn kg m kgs H1 H2 IH]; cbn; constructor; [now apply Hf in H1|exact IH].
      * clear -E Hf. intros k Hk. apply in_map_iff in Hk as (kg & <- & Hk).
        induction E as [|kn kg' m kgs H1 H2 IH]; [easy|]. destruct Hk as [->|Hk]; [|auto].
        apply Hf in H1 as (_ & f' & H1 & _). apply mget_In in H1. apply in_map_iff. eexists; split; [|exact H1]. reflexivity.
    + intros k f' Hk. cbn [get_field]. destruct (mget kgs k) as [v|] eqn:Ev.
      * apply mget_In in Ev.
        assert (exists kn, In kn m /\ f kn = Ok (k, v)) as (kn & Hin & Hkn).
        { clear -E Ev. induction E as [|kn kg' m kgs H1 H2 IH]; [easy|]. destruct Ev as [->|Ev].
          - exists kn. split; [now left|exact H1].
          - destruct (IH Ev) as (kn' & Hin & Hkn). exists kn'. split; [now right|exact Hkn]. }
        apply Hf in Hkn as (Hs & f'' & Hf'' & Hd). cbn in *. rewrite Hk in Hf''. injection Hf'' as <-.
        exists (Some (snd kn)). split; [|exact Hd]. exists (fst kn). split; [|exact Hs]. now destruct kn.
      * apply mget_None in Ev. exists None. split; [|reflexivity]. cbn. intros key n Hin Hs. apply Ev.
        clear -E Hin Hs Hf. induction E as [|kn kg' m kgs H1 H2 IH]; [easy|]. destruct Hin as [->|Hin].
        -- left. apply Hf in H1 as [H1 _]. cbn in H1. eapply spelled_fun; eauto.
        -- right. auto.
  - subst g. split; [exists []; repeat split; [constructor|constructor|easy]|].
    split; [|split; [exact He|eauto]]. intros k f Hk. exists None. cbn. auto.
Qed.

Lemma struct_decoded s ks m o : attributes ks m o -> incl (map lit ks) (map fst (fields s)) ->
  (forall k f n, mget (fields s) k = Some f -> attr m k (Some n) -> exists g, decode f n = Ok g) ->
  exists g, field_value (false, TStruct s) o g.
Proof.
  intros Ha Hks H. destruct Ha as [|t|m [names (Hn & Hd & Hi)]]; cbn [field_value Yaml.decode fst snd andb plain_null]; eauto.
  set (f := fun kn : node * node => _).
  assert (forall names m1, Forall2 (fun k (kn : node * node) => spelled k (fst kn)) names m1 -> incl names (map fst (fields s)) -> incl m1 m ->
    exists kgs, Forall2 (fun kn kg => f kn = Ok kg) m1 kgs /\ map fst kgs = names) as Hall.
  { assert (forall key n, In (key, n) m -> forall k, spelled k key -> attr m k (Some n)) as Hm by (intros; cbn; eauto).
    clear names Hn Hd Hi. intros names m1 Hn. induction Hn as [|k [key n] names m1 Hs Hn IH]; intros Hi' Hincl.
    - exists []. split; [constructor|reflexivity].
    - destruct IH as (kgs & Hk & E); [intros x Hx; apply Hi'; now right|intros x Hx; apply Hincl; now right|].
      assert (In k (map fst (fields s))) as Hin by (apply Hi'; now left).
      destruct (mget (fields s) k) as [f'|] eqn:Ek; [|apply mget_None in Ek; contradiction].
      destruct (H k f' n Ek) as [g Hg]; [eapply Hm; [apply Hincl; now left|exact Hs]|].
      exists ((k, g) :: kgs). split; [|cbn; now rewrite E]. constructor; [|exact Hk].
      subst f. cbn beta. cbn [fst snd] in *. apply key_text_spelled in Hs. rewrite Hs. cbn. rewrite Ek, Hg. reflexivity. }
  destruct (Hall names m Hn (incl_tran Hi Hks) (incl_refl m)) as (kgs & Hk & E).
  apply map_res_spec in Hk. rewrite Hk. cbn. rewrite E. apply repeated_NoDup in Hd. rewrite Hd. eauto.
Qed.

Lemma at_key_iff {A} names m k f o g (R : A -> option node -> Prop) c x :
  names_of names m -> NoDup names -> attr m (lit k) o -> field_value f o g -> agrees f R c o ->
  (at_key m k (R x) <-> x = c g).
Proof.
  intros Hn Hd Ha Hg [H _]. split.
  - intros (o' & Ho' & HR). assert (o' = o) as -> by (eapply attr_fun; eauto). now apply (H g).
  - intros ->. exists o. split; [exact Ha|]. now apply (H g).
Qed.

Lemma at_key_decodes {A} names m k f n (R : A -> option node -> Prop) c x :
  names_of names m -> NoDup names -> at_key m k (R x) -> attr m (lit k) (Some n) -> agrees f R c (Some n) ->
  exists g, decode f n = Ok g.
Proof.
  intros Hn Hd (o & Ho & HR) Ha [_ H].
  assert (o = Some n) as -> by (eapply attr_fun; eauto). exact (H _ HR).
Qed.

Lemma hidden_value names m k o g : names_of names m -> NoDup names -> attr m (lit k) o -> field_value (true, THidden) o g ->
  hidden_at hidden_ok m k.
Proof.
  intros Hn Hd Ha Hg key n Hin Hs.
  assert (o = Some n) as -> by (eapply attr_fun; eauto; cbn; eauto).
  cbn [field_value] in Hg. destruct (nothing_dec n) as [Hn'|Hn']; [now left|right].
  rewrite decode_pointer in Hg by exact Hn'. destruct (hidden_ok n) eqn:E; [reflexivity|]. destruct n; cbn in Hg; rewrite E in Hg; discriminate.
Qed.
Lemma hidden_decodes m k n : hidden_at hidden_ok m k -> attr m (lit k) (Some n) -> exists g, decode (true, THidden) n = Ok g.
Proof.
  intros H (key & Hin & Hs). destruct (nothing_dec n) as [Hn|Hn]; [rewrite decode_nothing by exact Hn; eauto|].
  rewrite decode_pointer by exact Hn. destruct (H _ _ Hin Hs) as [Hc|Hc]; [contradiction|].
  destruct n; cbn; rewrite Hc; eauto.
Qed.
End Facts.
