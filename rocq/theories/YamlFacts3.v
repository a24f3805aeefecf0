(** The decoder of Yaml.v gives what SpecYaml.v describes: documents. *)
From Coq Require Import List ZArith Lia Bool String.
From Coq Require Import Strings.Byte Floats.SpecFloat.
From Verif Require Import Base BaseFacts Value Codec Output Config Yaml SpecYaml YamlFacts YamlFacts2.
Import ListNotations.
Open Scope Z_scope.

(** *** The type of an object *)

Lemma same_key_iff a b : same_key a b = true <-> same_value a b.
Proof.
  destruct a as [s []| |], b as [t []| |]; cbn; try easy.
  - apply Bool.eqb_true_iff.
  - apply Z.eqb_eq.
  - apply bytes_eqb_eq.
Qed.

Lemma repeated_key_iff (m : mapping) : repeated_key (map fst m) = false <-> ForallOrdPairs (fun a b => ~ same_value (fst a) (fst b)) m.
Proof.
  induction m as [|a m IH]; cbn; [split; [constructor|reflexivity]|].
  rewrite orb_false_iff, IH. split.
  - intros [H H']. constructor; [|exact H']. apply Forall_forall. intros b Hb Hs.
    assert (existsb (same_key (fst a)) (map fst m) = true).
    { apply existsb_exists. exists (fst b). split; [now apply in_map|now apply same_key_iff]. }
    congruence.
  - intros H. inversion H as [|? ? Ha Hm]; subst. split; [|exact Hm].
    destruct (existsb (same_key (fst a)) (map fst m)) eqn:E; [|reflexivity].
    apply existsb_exists in E as (k & Hk & E). apply in_map_iff in Hk as (b & <- & Hb).
    apply same_key_iff in E. rewrite Forall_forall in Ha. destruct (Ha b Hb E).
Qed.

Lemma map_res_unit {A} (f : A -> res unit) l (P : A -> Prop) : (forall a, In a l -> (f a = Ok tt <-> P a)) ->
  ((exists us, map_res f l = Ok us) <-> Forall P l).
Proof.
  induction l as [|a l IH]; intros H; cbn; [split; [constructor|eauto]|].
  assert ((exists us, map_res f l = Ok us) <-> Forall P l) as IH' by (apply IH; intros; apply H; now right).
  assert (f a = Ok tt <-> P a) as Ha by (apply H; now left). split.
  - intros [us Hus]. destruct (f a) as [[]| | |]; cbn in Hus; try discriminate.
    destruct (map_res f l) as [us'| | |]; cbn in Hus; try discriminate.
    constructor; [now apply Ha|apply IH'; eauto].
  - intros Hf. inversion Hf as [|? ? H1 H2]; subst. apply Ha in H1. rewrite H1. apply IH' in H2 as [us ->]. cbn. eauto.
Qed.

Lemma decode_any_clean n : decode_any n = Ok tt <-> clean n.
Proof.
  remember (S (node_size n)) as N eqn:E. assert (node_size n < N)%nat as HN by lia. clear E.
  revert n HN. induction N as [|N IH]; [lia|]. intros [t r|l|m] HN.
  - cbn. split; [constructor|reflexivity].
  - assert ((exists us, map_res decode_any l = Ok us) <-> Forall clean l) as Hl.
    { apply map_res_unit. intros a Ha. apply IH. apply seq_size in Ha. lia. }
    cbn [decode_any]. split.
    + intros H. constructor. apply Hl. destruct (map_res decode_any l); cbn in H; try discriminate. eauto.
    + intros H. inversion H as [|? Hc|]; subst. apply Hl in Hc as [us ->]. reflexivity.
  - cbn [decode_any]. set (f := fun kn : node * node => _).
    assert ((exists us, map_res f m = Ok us) <->
      Forall (fun kn => (exists t r, fst kn = YScalar t r /\ r <> RMerge) /\ clean (snd kn)) m) as Hl.
    { apply map_res_unit. intros [k v] Ha. subst f. cbn beta. cbn [fst snd].
      assert (decode_any v = Ok tt <-> clean v) as Hv by (apply IH; apply map_size in Ha; lia).
      destruct k as [t r| |].
      - destruct r; try (rewrite Hv; split; [intros Hc; split; [do 2 eexists; split; [reflexivity|discriminate]|exact Hc]|intros [_ Hc]; exact Hc]).
        split; [discriminate|]. intros [(t' & r & [= <- <-] & Hr) _]. congruence.
      - split; [discriminate|]. intros [(t' & r & Hr & _) _]. discriminate.
      - split; [discriminate|]. intros [(t' & r & Hr & _) _]. discriminate. }
    split.
    + intros H. destruct (map_res f m) eqn:E; cbn in H; try discriminate.
      destruct (repeated_key (map fst m)) eqn:Er; [discriminate|].
      constructor; [apply Hl; eauto|now apply repeated_key_iff].
    + intros H. inversion H as [| |? H1 H2]; subst. apply Hl in H1 as [us ->]. cbn.
      apply repeated_key_iff in H2. rewrite H2. reflexivity.
Qed.

Lemma decode_any_unit n u : decode_any n = Ok u -> decode_any n = Ok tt.
Proof. destruct u. auto. Qed.

(** The attributes with their names. *)
Lemma named_map (m : mapping) kns :
  map_res (fun kn : node * node => rlet k := key_text (fst kn) in rlet _ := decode_any (snd kn) in Ok (k, snd kn)) m = Ok kns <->
  names_of (map fst kns) m /\ map snd kns = map snd m /\ Forall (fun kn => clean (snd kn)) m.
Proof.
  rewrite map_res_spec. revert kns. induction m as [|[k v] m IH]; intros kns.
  - split.
    + intros H. inversion H; subst. repeat split; constructor.
    + intros (H & E & _). destruct kns; [constructor|discriminate E].
  - split.
    + intros H. inversion H as [|? kn ? kns' H1 H2]; subst. apply IH in H2 as (Hn & Es & Hc). cbn [fst snd] in H1.
      destruct (key_text k) as [k'| | |] eqn:Ek; cbn in H1; try discriminate.
      destruct (decode_any v) as [u| | |] eqn:Ev; cbn in H1; try discriminate. injection H1 as <-.
      apply key_text_spelled in Ek. apply decode_any_unit in Ev. apply decode_any_clean in Ev. cbn. rewrite Es.
      split; [constructor; [exact Ek|exact Hn]|]. split; [reflexivity|constructor; [exact Ev|exact Hc]].
    + intros (Hn & Es & Hc). destruct kns as [|[k' v'] kns]; [discriminate|]. cbn in Hn, Es. injection Es as -> Es.
      inversion Hn as [|? ? ? ? Hk Hn']; subst. inversion Hc as [|? ? Hv Hc']; subst. cbn in Hk, Hv. constructor.
      * cbn [fst snd]. apply key_text_spelled in Hk. rewrite Hk. cbn. apply decode_any_clean in Hv. rewrite Hv. reflexivity.
      * apply IH. auto.
Qed.

Lemma named_attr (m : mapping) kns k : names_of (map fst kns) m -> map snd kns = map snd m -> attr m k (mget kns k).
Proof.
  revert m. induction kns as [|[k' v] kns IH]; intros [|[key n] m] Hn Es; cbn in *; try discriminate; [tauto|].
  injection Es as -> Es. inversion Hn as [|? ? ? ? Hk Hn']; subst. cbn in Hk. specialize (IH m Hn' Es).
  destruct (bytes_eqb k' k) eqn:E.
  - apply bytes_eqb_eq in E. subst. exists key. split; [now left|exact Hk].
  - apply bytes_eqb_neq in E. destruct (mget kns k) as [v'|]; cbn in *.
    + destruct IH as (key' & Hin & Hs). eauto.
    + intros key' n' [[= -> ->]|Hin]; [|eauto]. intros Hs. apply E. eapply spelled_fun; eauto.
Qed.

Lemma get_type_map m t : get_type (YMap m) = Ok t <->
  (exists names, names_of names m /\ NoDup names) /\ Forall (fun kn => clean (snd kn)) m /\
  (t <> [] /\ attr m (lit "type") (Some (YScalar t RText)) \/ t = lit "<<" /\ exists t', attr m (lit "type") (Some (YScalar t' RMerge))).
Proof.
  unfold get_type. split.
  - match goal with |- context [map_res ?f m] => destruct (map_res f m) as [kns| | |] eqn:E end; cbn [rbind]; try discriminate.
    apply named_map in E as (Hn & Es & Hc).
    destruct (repeated (map fst kns)) eqn:Er; [discriminate|]. apply repeated_NoDup in Er.
    pose proof (named_attr m kns (lit "type") Hn Es) as Ha.
    destruct (mget kns (lit "type")) as [[t' r|l|m']|]; try discriminate. intros Ht.
    split; [eauto|]. split; [exact Hc|].
    destruct r; try discriminate.
    + left. destruct t' as [|c t']; [discriminate|]. cbn in Ht. injection Ht as <-. split; [discriminate|exact Ha].
    + injection Ht as <-. right. eauto.
  - intros ((names & Hn & Hd) & Hc & Ha).
    assert (exists kns, map fst kns = names /\ map snd kns = map snd m) as (kns & E1 & E2).
    { exists (combine names (map snd m)). assert (List.length names = List.length (map snd m)) as Hl.
      { rewrite map_length. clear -Hn. induction Hn; cbn; congruence. }
      clear -Hl. revert Hl. generalize (map snd m). induction names as [|k names IH]; intros [|v l] Hl; cbn in *; try discriminate; [auto|].
      injection Hl as Hl. destruct (IH l Hl) as [-> ->]. auto. }
    subst names. assert (names_of (map fst kns) m /\ map snd kns = map snd m /\ Forall (fun kn => clean (snd kn)) m) as E by auto.
    apply named_map in E. rewrite E. cbn [rbind].
    pose proof (proj2 (repeated_NoDup _) Hd) as ->.
    pose proof (named_attr m kns (lit "type") Hn E2) as Ha'.
    destruct Ha as [[Ht Ha]|[-> [t' Ha]]]; rewrite (attr_fun _ _ _ _ _ Hn Hd Ha' Ha); [|reflexivity].
    apply bytes_eqb_neq in Ht. rewrite Ht. reflexivity.
Qed.

Lemma get_type_other n t : get_type n = Ok t -> exists m, n = YMap m.
Proof. destruct n as [s []| |m]; try discriminate. eauto. Qed.

Section Facts.
Variable hidden_ok : node -> bool.
Variables odd_uint odd_int : spec_float -> Z.
Local Notation decode := (decode hidden_ok odd_uint odd_int).
Local Notation decode_object := (decode_object hidden_ok odd_uint odd_int).
Local Notation field_value := (field_value hidden_ok odd_uint odd_int).
Local Notation agrees := (agrees hidden_ok odd_uint odd_int).
Local Notation object_is := (object_is hidden_ok).

(** *** Sections *)

Definition decode_entry {A} (kinds : list (bytes * sname)) (to : sname -> gval -> option A) (n : node) : res (option A) :=
  rlet o := decode_object kinds n in
  match o with
  | None => Ok None
  | Some (s, g) => match to s g with Some c => Ok (Some c) | None => Panic end
  end.

(** The mapping [m] is decoded as a structure [s], the type of which is called [k]. *)
Definition object_value (m : mapping) (k : bytes) (s : sname) (g : gval) : Prop :=
  field_value (false, TStruct s) (Some (YMap m)) g /\ attr m (lit "type") (Some (YScalar k RText)) /\
  Forall (fun kn => clean (snd kn)) m.

Definition kinds_agree {A} (kinds : list (bytes * sname)) (to : sname -> gval -> option A) (R : A -> mapping -> Prop) : Prop :=
  (forall k s m g, In (k, s) kinds -> object_value m k s g -> exists a, to s g = Some a /\ forall x, R x m <-> x = a) /\
  (forall x m, R x m -> exists k s g, mget kinds k = Some s /\ object_value m k s g) /\
  (forall k s, In (k, s) kinds -> k <> [] /\ k <> lit "<<").

Lemma decode_object_map kinds m : ~ nothing (YMap m) -> decode_object kinds (YMap m) =
  rlet t := get_type (YMap m) in
  match mget kinds t with
  | None => Err (EMsg "Unknown type")
  | Some s => rlet v := decode (false, TStruct s) (YMap m) in Ok (Some (s, v))
  end.
Proof. reflexivity. Qed.

Lemma map_not_nothing m : ~ nothing (YMap m).
Proof. intros (t & H & _). discriminate. Qed.

Lemma entry_iff {A} kinds to (R : A -> mapping -> Prop) n : kinds_agree kinds to R ->
  (forall r, decode_entry kinds to n = Ok r -> forall o, entry_is R o (Some n) <-> o = r) /\
  (forall o, entry_is R o (Some n) -> exists r, decode_entry kinds to n = Ok r).
Proof.
  intros (H1 & H2 & H3). destruct (nothing_dec n) as [Hn|Hn].
  - assert (decode_entry kinds to n = Ok None) as ->.
    { unfold decode_entry, Yaml.decode_object. apply plain_null_nothing in Hn. rewrite Hn. reflexivity. }
    split; [|eauto]. intros r [= <-] o. split; [|intros ->; cbn; eauto].
    destruct o as [a|]; [|reflexivity]. intros (m & [= ->] & _). destruct (map_not_nothing _ Hn).
  - assert (plain_null n = false) as Ep.
    { destruct (plain_null n) eqn:E; [|reflexivity]. apply plain_null_nothing in E. contradiction. }
    split.
    + intros r Hr o. unfold decode_entry, Yaml.decode_object in Hr. rewrite Ep in Hr.
      destruct (get_type n) as [t| | |] eqn:Et; cbn [rbind] in Hr; try discriminate.
      destruct (get_type_other _ _ Et) as [m ->]. apply get_type_map in Et as ((names & Hnm & Hd) & Hc & Ht).
      destruct (mget kinds t) as [s|] eqn:Es; cbn [rbind] in Hr; try discriminate.
      destruct (decode (true, TStruct s) (YMap m)) as [g| | |] eqn:Eg; cbn [rbind] in Hr; try discriminate.
      apply mget_In in Es. rewrite decode_pointer in Eg by exact Hn.
      assert (object_value m t s g) as Hv.
      { split; [exact Eg|]. split; [|exact Hc]. destruct Ht as [[_ Ht]|[-> _]]; [exact Ht|]. apply H3 in Es as [_ Es]. congruence. }
      destruct (H1 _ _ _ _ Es Hv) as (a & Ea & Ha). rewrite Ea in Hr. injection Hr as <-.
      split.
      * destruct o as [x|]; [|intros (n' & [= <-] & Hc'); contradiction]. intros (m' & [= <-] & Hx). f_equal. now apply Ha.
      * intros ->. exists m. split; [reflexivity|]. now apply Ha.
    + intros [x|]; [|intros (n' & [= <-] & Hc'); contradiction]. intros (m & [= ->] & Hx).
      destruct (H2 _ _ Hx) as (k & s & g & Hk & Hv). pose proof Hk as Hin. apply mget_In in Hin.
      destruct (H1 _ _ _ _ Hin Hv) as (a & Ea & _). destruct (H3 _ _ Hin) as [Hk0 _]. destruct Hv as (Hg & Ha & Hc).
      exists (Some a). unfold decode_entry, Yaml.decode_object. cbn [plain_null].
      assert (get_type (YMap m) = Ok k) as ->.
      { apply get_type_map. destruct (struct_value _ _ _ _ _ _ Hg) as ((names & Hnm & Hd & _) & _). cbn [entries] in Hnm.
        split; [eauto|]. split; [exact Hc|]. left. auto. }
      cbn [rbind]. rewrite Hk. rewrite decode_pointer by exact Hn. cbn [YamlFacts.field_value] in Hg. rewrite Hg. cbn [rbind]. rewrite Ea. reflexivity.
Qed.

Lemma entries_iff {A} kinds to (R : A -> mapping -> Prop) ns : kinds_agree kinds to R ->
  (forall rs, map_res (decode_entry kinds to) ns = Ok rs -> forall l, Forall2 (fun o n => entry_is R o (Some n)) l ns <-> l = rs) /\
  (forall l, Forall2 (fun o n => entry_is R o (Some n)) l ns -> exists rs, map_res (decode_entry kinds to) ns = Ok rs).
Proof.
  intros HK. induction ns as [|n ns [IH1 IH2]].
  - split; [|cbn; eauto]. intros rs [= <-] l. split; [intros H; now inversion H|intros ->; constructor].
  - destruct (entry_iff _ _ _ n HK) as [Hn1 Hn2]. split.
    + intros rs Hrs l. apply map_res_spec in Hrs. inversion Hrs as [|? r ? rs' Hr Hrs']; subst. apply map_res_spec in Hrs'. split.
      * intros Hl. inversion Hl as [|a ? l' ? Ha Hl']; subst. f_equal; [now apply (Hn1 r)|now apply (IH1 rs')].
      * intros ->. constructor; [now apply (Hn1 r)|now apply (IH1 rs')].
    + intros l Hl. inversion Hl as [|a ? l' ? Ha Hl']; subst.
      destruct (Hn2 _ Ha) as [r Hr]. destruct (IH2 _ Hl') as [rs Hrs]. cbn [map_res]. rewrite Hr. cbn. rewrite Hrs. cbn. eauto.
Qed.

Lemma section_iff {A} kinds to (R : A -> mapping -> Prop) o : kinds_agree kinds to R ->
  (forall rs, decode_section hidden_ok odd_uint odd_int kinds to o = Ok rs -> forall l, list_is (entry_is R) l o <-> l = rs) /\
  (forall l, list_is (entry_is R) l o -> exists rs, decode_section hidden_ok odd_uint odd_int kinds to o = Ok rs).
Proof.
  intros HK. destruct o as [[t r|ns|m]|].
  - split.
    + intros rs Hrs l. destruct r; try discriminate. injection Hrs as <-. split; [intros H; now inversion H|intros ->; constructor].
    + intros l H. inversion H; subst. cbn. eauto.
  - destruct (entries_iff _ _ _ ns HK) as [H1 H2]. split.
    + intros rs Hrs l. split; [intros H; inversion H as [| |? ? Hl]; subst; now apply (H1 rs)|].
      intros ->. constructor. now apply (H1 rs).
    + intros l H. inversion H as [| |? ? Hl]; subst. exact (H2 _ Hl).
  - split; [discriminate|]. intros l H. inversion H.
  - split; [|cbn; eauto]. intros rs [= <-] l. split; [intros H; now inversion H|intros ->; constructor].
Qed.

(** *** Objects *)

Lemma object_built s m k g kind ks : object_value m k s g -> k = lit kind ->
  inclb (map fst (fields s)) (map lit ("name" :: "type" :: "logger" :: ks)%string) = true ->
  mget (fields s) (lit "logger") = Some (true, THidden) -> object_is m kind ks.
Proof.
  intros (Hg & Ha & Hc) -> Hi Hl. split; [exact Ha|]. split.
  - pose proof (attributes_value _ _ _ _ _ _ _ Hg Hi) as H. cbn [entries] in H. now inversion H.
  - split; [|exact Hc]. exact (field_hidden _ _ _ _ _ _ _ Hg Hl).
Qed.

(** Two types cannot be read from the same mapping. *)
Lemma kind_fun s m k g kind ks : object_value m k s g -> object_is m kind ks -> k = lit kind.
Proof.
  intros (Hg & Ha & _) (Ha' & _). destruct (struct_value _ _ _ _ _ _ Hg) as ((names & Hn & Hd & _) & _). cbn [entries] in Hn.
  pose proof (attr_fun _ _ _ _ _ Hn Hd Ha Ha') as E. congruence.
Qed.

Lemma object_decodes s m kind ks : object_is m kind ks ->
  inclb (map lit ("name" :: "type" :: "logger" :: ks)%string) (map fst (fields s)) = true ->
  (forall names, names_of names m -> NoDup names -> at_key m "type" (text_is (lit kind)) -> hidden_at hidden_ok m "logger" ->
    forall k f n, mget (fields s) k = Some f -> attr m k (Some n) -> exists g, decode f n = Ok g) ->
  exists g, object_value m (lit kind) s g.
Proof.
  intros (Ha & Ho & Hl & Hc) Hi H. apply inclb_incl in Hi.
  assert (exists g, field_value (false, TStruct s) (Some (YMap m)) g) as [g Hg].
  { eapply struct_decoded; [constructor; exact Ho|exact Hi|]. destruct Ho as (names & Hn & Hd & _).
    apply (H names Hn Hd); [|exact Hl]. exists (Some (YScalar (lit kind) RText)). split; [exact Ha|]. constructor. discriminate. }
  exists g. split; [exact Hg|]. auto.
Qed.
End Facts.
