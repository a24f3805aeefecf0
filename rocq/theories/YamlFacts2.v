(** The decoder of Yaml.v gives what SpecYaml.v describes: objects. *)
From Coq Require Import List ZArith Lia Bool String.
From Coq Require Import Strings.Byte Floats.SpecFloat.
From Verif Require Import Base BaseFacts Value Codec Output Config Yaml SpecYaml YamlFacts.
Import ListNotations.
Open Scope Z_scope.

Definition inclb (a b : list bytes) : bool := forallb (fun x => existsb (bytes_eqb x) b) a.
Lemma inclb_incl a b : inclb a b = true -> incl a b.
Proof.
  intros H x Hx. unfold inclb in H. rewrite forallb_forall in H. specialize (H x Hx).
  apply existsb_exists in H as (y & Hy & E). apply bytes_eqb_eq in E. now subst.
Qed.

Section Facts.
Variable hidden_ok : node -> bool.
Variables odd_uint odd_int : spec_float -> Z.
Local Notation decode := (decode hidden_ok odd_uint odd_int).
Local Notation field_value := (field_value hidden_ok odd_uint odd_int).
Local Notation agrees := (agrees hidden_ok odd_uint odd_int).

Lemma attributes_entries ks m o : attributes ks m o -> m = entries o.
Proof. intros H. destruct H; reflexivity. Qed.
Lemma attributes_names ks m o : attributes ks m o -> exists names, names_of names m /\ NoDup names.
Proof.
  intros H. destruct H as [| |m (names & Hn & Hd & _)]; [exists []; split; constructor|exists []; split; constructor|eauto].
Qed.
Lemma attributes_value s ks o g : field_value (false, TStruct s) o g -> inclb (map fst (fields s)) (map lit ks) = true ->
  attributes ks (entries o) o.
Proof.
  intros Hg Hi. apply inclb_incl in Hi. destruct (struct_value _ _ _ _ _ _ Hg) as ((names & Hn & Hd & Hi') & _ & _ & Ho).
  destruct Ho as [->|[[t ->]|[m ->]]]; cbn [entries] in *; constructor.
  exists names. split; [exact Hn|]. split; [exact Hd|]. eapply incl_tran; eauto.
Qed.

Lemma field_iff {A} s o g k f (R : A -> option node -> Prop) c : field_value (false, TStruct s) o g ->
  mget (fields s) (lit k) = Some f -> (forall v, attr (entries o) (lit k) v -> agrees f R c v) ->
  forall x, at_key (entries o) k (R x) <-> x = c (get_field g (lit k)).
Proof.
  intros Hg Hk Hv x. destruct (struct_value _ _ _ _ _ _ Hg) as ((names & Hn & Hd & _) & Hf & _).
  destruct (Hf _ _ Hk) as (v & Ha & Hv'). eapply at_key_iff; eauto.
Qed.
Lemma field_hidden s o g k : field_value (false, TStruct s) o g ->
  mget (fields s) (lit k) = Some (true, THidden) -> hidden_at hidden_ok (entries o) k.
Proof.
  intros Hg Hk. destruct (struct_value _ _ _ _ _ _ Hg) as ((names & Hn & Hd & _) & Hf & _).
  destruct (Hf _ _ Hk) as (v & Ha & Hv'). eapply hidden_value; eauto.
Qed.

(** Smaller nodes. *)
Definition below (N : nat) (o : option node) : Prop := match o with None => True | Some n => (node_size n < N)%nat end.
Definition size (o : option node) : nat := match o with None => 0 | Some n => node_size n end.
Lemma below_attr o k v : attr (entries o) k v -> below (size o) v.
Proof.
  destruct v as [n|]; cbn; [|tauto]. intros (key & Hin & _).
  destruct o as [[t r|ns|m]|]; cbn [entries] in Hin; try easy. cbn [size]. eapply map_size; eauto.
Qed.

Lemma agrees_opt_flag o : agrees (true, TBool) (or_nil flag_is) (as_ptr as_flag) o.
Proof. apply agrees_pointer. intros _. apply agrees_flag. Qed.
Lemma agrees_opt_text o : agrees (true, TText) (or_nil text_is) (as_ptr as_text) o.
Proof. apply agrees_pointer. intros _. apply agrees_text. Qed.
Lemma agrees_texts o : agrees (false, TList text) (list_is text_is) (as_list as_text) o.
Proof. apply agrees_list. intros. apply agrees_text. Qed.
Lemma agrees_ints o : agrees (false, TList (false, TInt)) (list_is (number_is odd_int (- 2 ^ 63) 63)) (as_list as_num) o.
Proof. apply agrees_list. intros. apply agrees_int. Qed.
Lemma agrees_pointers {A} t (R : A -> option node -> Prop) c o : (forall o', agrees (false, t) R c o') ->
  agrees (false, TList (true, t)) (list_is (or_nil R)) (as_list (as_ptr c)) o.
Proof. intros H. apply agrees_list. intros. apply agrees_pointer. intros _. apply H. Qed.
Lemma agrees_entries {A} t (R : A -> option node -> Prop) c o : (forall o', agrees (false, t) R c o') ->
  agrees (false, TDict (true, t)) (dict_is (or_nil R)) (as_dict (as_ptr c)) o.
Proof. intros H. apply agrees_dict. intros. apply agrees_pointer. intros _. apply H. Qed.
Hint Resolve agrees_text agrees_flag agrees_uint agrees_int agrees_opt_flag agrees_opt_text agrees_texts agrees_ints : agree.
Hint Resolve agrees_pointers agrees_entries agrees_pointer : agree.

(** Every known attribute is decoded. *)
Ltac decodes_all :=
  let k := fresh in let f := fresh in let n := fresh in let Hk := fresh in let Ha := fresh in
  intros k f n Hk Ha; apply mget_In in Hk; cbn [fields In] in Hk;
  repeat (destruct Hk as [Hk|Hk]); try contradiction; injection Hk as <- <-;
  first [eapply at_key_decodes; [| | |exact Ha|]; [eassumption|eassumption|eassumption|auto with agree]
        |eapply hidden_decodes; [eassumption|exact Ha]].
Ltac unfold_at := unfold text_at, flag_at, opt_text_at, opt_flag_at, texts_at, uint_at, ints_at in *.
Ltac struct_decodes :=
  unfold_at;
  lazymatch goal with H : attributes ?ks ?m ?o |- _ =>
    destruct (attributes_names _ _ _ H) as (?names & ? & ?);
    eapply struct_decoded; [exact H|apply inclb_incl; vm_compute; reflexivity|decodes_all]
  end.
(** [F]: what is known about the attribute [k] of the decoded structure. *)
Ltac know Hg k lem F :=
  first [pose proof (field_iff _ _ _ k _ _ _ Hg eq_refl (fun v _ => lem hidden_ok odd_uint odd_int v)) as F
        |pose proof (field_iff _ _ _ k _ _ _ Hg eq_refl (fun v _ => lem v)) as F].
Ltac entries_of := match goal with H : attributes ?ks ?m ?o |- _ => pose proof (attributes_entries _ _ _ H); subst m end.
Ltac settle := first [reflexivity | match goal with F : forall x, _ <-> x = _ |- _ => apply F; reflexivity end].

Ltac by_fields := first [eapply attributes_value; [eassumption|reflexivity] | eapply field_hidden; [eassumption|reflexivity]
  | match goal with F : forall x, _ <-> x = _ |- _ => apply F; reflexivity end].
Ltac use_fields := repeat match goal with
  | F : forall x, at_key ?m ?k (@?R x) <-> x = _, H : at_key ?m ?k _ |- _ => apply F in H
  end; subst.

Lemma agrees_column o : agrees (false, TStruct SColumn) column_is to_column o.
Proof.
  split.
  - intros g Hg x. know Hg "name"%string agrees_text F1. know Hg "parser"%string agrees_text F2. split.
    + intros H. destruct H. entries_of. unfold_at. use_fields. reflexivity.
    + intros ->. econstructor; by_fields.
  - intros x H. destruct H. struct_decodes.
Qed.
Lemma agrees_collated o : agrees (false, TStruct SSqlProp) collated_is (fun p => (str p "name", str p "collate")) o.
Proof.
  split.
  - intros g Hg x. know Hg "name"%string agrees_text F1. know Hg "collate"%string agrees_text F2. split.
    + intros H. destruct H. entries_of. unfold_at. use_fields. reflexivity.
    + intros ->. econstructor; by_fields.
  - intros x H. destruct H. struct_decodes.
Qed.
Lemma agrees_parameter o : agrees (false, TStruct SParam) parameter_is to_param o.
Proof.
  split.
  - intros g Hg x. know Hg "property"%string agrees_text F1. know Hg "index"%string agrees_text F2. know Hg "parser"%string agrees_text F3. split.
    + intros H. destruct H. entries_of. unfold_at. use_fields. reflexivity.
    + intros ->. econstructor; by_fields.
  - intros x H. destruct H. struct_decodes.
Qed.
Lemma agrees_sort o : agrees (false, TStruct SSort) (sort_is hidden_ok) to_sort o.
Proof.
  split.
  - intros g Hg x. know Hg "property"%string agrees_text F1. know Hg "ascending"%string agrees_opt_flag F2. split.
    + intros H. destruct H. entries_of. unfold_at. use_fields. reflexivity.
    + intros ->. econstructor; by_fields.
  - intros x H. destruct H. struct_decodes.
Qed.
Lemma agrees_match o : agrees (false, TStruct SMatch) match_is to_match o.
Proof.
  split.
  - intros g Hg x. know Hg "parentProperty"%string agrees_text F1. know Hg "childProperty"%string agrees_text F2.
    know Hg "childIndex"%string agrees_text F3. split.
    + intros H. destruct H. entries_of. unfold_at. use_fields. reflexivity.
    + intros ->. econstructor; by_fields.
  - intros x H. destruct H. struct_decodes.
Qed.
Lemma agrees_limit o : agrees (false, TStruct SLimit) (limit_is odd_uint)
  (fun l => (as_num (get_field l (lit "default")), as_num (get_field l (lit "max")), str l "parameter")) o.
Proof.
  split.
  - intros g Hg x. know Hg "default"%string agrees_uint F1. know Hg "max"%string agrees_uint F2. know Hg "parameter"%string agrees_text F3. split.
    + intros H. destruct H. entries_of. unfold_at. use_fields. reflexivity.
    + intros ->. econstructor; by_fields.
  - intros x H. destruct H. struct_decodes.
Qed.
Lemma agrees_offset o : agrees (false, TStruct SOffset) offset_is (fun l => str l "parameter") o.
Proof.
  split.
  - intros g Hg x. know Hg "parameter"%string agrees_text F1. split.
    + intros H. destruct H. entries_of. unfold_at. use_fields. reflexivity.
    + intros ->. econstructor; by_fields.
  - intros x H. destruct H. struct_decodes.
Qed.
Lemma agrees_http o : agrees (false, TStruct SHttpHttp) http_is (fun h => str h "listen") o.
Proof.
  split.
  - intros g Hg x. know Hg "listen"%string agrees_text F1. split.
    + intros H. destruct H. entries_of. unfold_at. use_fields. reflexivity.
    + intros ->. econstructor; by_fields.
  - intros x H. destruct H. struct_decodes.
Qed.
Lemma agrees_https o : agrees (false, TStruct SHttps) https_is (fun h => (str h "listen", str h "certificatePath", str h "privateKeyPath")) o.
Proof.
  split.
  - intros g Hg x. know Hg "listen"%string agrees_text F1. know Hg "certificatePath"%string agrees_text F2.
    know Hg "privateKeyPath"%string agrees_text F3. split.
    + intros H. destruct H. entries_of. unfold_at. use_fields. reflexivity.
    + intros ->. econstructor; by_fields.
  - intros x H. destruct H. struct_decodes.
Qed.
Lemma agrees_route o : agrees (false, TStruct SRoute) route_is (fun r => (str r "output", str r "path")) o.
Proof.
  split.
  - intros g Hg x. know Hg "output"%string agrees_text F1. know Hg "path"%string agrees_text F2. split.
    + intros H. destruct H. entries_of. unfold_at. use_fields. reflexivity.
    + intros ->. econstructor; by_fields.
  - intros x H. destruct H. struct_decodes.
Qed.
Hint Resolve agrees_column agrees_collated agrees_parameter agrees_sort agrees_match agrees_limit agrees_offset agrees_http agrees_https agrees_route : agree.

(** *** Nested structures *)

Lemma mget_map {A B} (F : A -> B) m k : mget (map (fun kv : bytes * A => (fst kv, F (snd kv))) m) k = option_map F (mget m k).
Proof. induction m as [|[k' v] m IH]; cbn; [reflexivity|]. destruct (bytes_eqb k' k); [reflexivity|exact IH]. Qed.

Lemma to_xml_eq g : to_xml g = mkXmlProp (str g "name") (str g "type") (str g "parser") (str g "xpath")
  (as_ptr to_xml (get_field g (lit "items"))) (as_list (as_ptr to_xml) (get_field g (lit "properties"))).
Proof.
  destruct g as [| | | | | |m|]; try reflexivity. cbn [to_xml].
  rewrite (mget_map (fun v => if is_nil v then None else Some (to_xml v))).
  rewrite (mget_map (fun v => match v with GList l => map (fun g' => if is_nil g' then None else Some (to_xml g')) l | _ => [] end)).
  cbn [get_field]. f_equal; [destruct (mget m (lit "items")); reflexivity|destruct (mget m (lit "properties")); reflexivity].
Qed.

Lemma agrees_property o : agrees (false, TStruct SXmlProp) (property_is hidden_ok) to_xml o.
Proof.
  remember (S (size o)) as N eqn:E. assert (size o < N)%nat as HN by lia. clear E.
  revert o HN. induction N as [|N IH]; [lia|]. intros o HN.
  assert (forall v, below (size o) v -> agrees (true, TStruct SXmlProp) (or_nil (property_is hidden_ok)) (as_ptr to_xml) v) as I1.
  { intros v Hv. apply agrees_pointer. intros Hs. apply IH. destruct v; [cbn in *; lia|congruence]. }
  assert (forall v, below (size o) v ->
    agrees (false, TList (true, TStruct SXmlProp)) (list_is (or_nil (property_is hidden_ok))) (as_list (as_ptr to_xml)) v) as I2.
  { intros v Hv. apply agrees_list. intros ns -> n Hn. apply I1. apply seq_size in Hn. unfold below in *. lia. }
  split.
  - intros g Hg x. know Hg "name"%string agrees_text F1. know Hg "type"%string agrees_text F2.
    know Hg "parser"%string agrees_text F3. know Hg "xpath"%string agrees_text F4.
    pose proof (field_iff _ _ _ "items"%string _ _ _ Hg eq_refl (fun v Ha => I1 v (below_attr _ _ _ Ha))) as F5.
    pose proof (field_iff _ _ _ "properties"%string _ _ _ Hg eq_refl (fun v Ha => I2 v (below_attr _ _ _ Ha))) as F6.
    rewrite to_xml_eq. split.
    + intros H. destruct H. entries_of. unfold_at. use_fields. reflexivity.
    + intros ->. econstructor; by_fields.
  - intros x H. destruct H. pose proof H as Hat. entries_of.
    assert (forall k n, attr (entries o) k (Some n) -> agrees (true, TStruct SXmlProp) (or_nil (property_is hidden_ok)) (as_ptr to_xml) (Some n)) as J1
      by (intros k n Ha; apply I1; eapply below_attr; exact Ha).
    assert (forall k n, attr (entries o) k (Some n) ->
      agrees (false, TList (true, TStruct SXmlProp)) (list_is (or_nil (property_is hidden_ok))) (as_list (as_ptr to_xml)) (Some n)) as J2
      by (intros k n Ha; apply I2; eapply below_attr; exact Ha).
    clear IH I1 I2 H. unfold_at. destruct (attributes_names _ _ _ Hat) as (names & Hn & Hd).
    eapply struct_decoded; [exact Hat|apply inclb_incl; vm_compute; reflexivity|].
    intros k f n Hk Ha; apply mget_In in Hk; cbn [fields In] in Hk.
    repeat (destruct Hk as [Hk|Hk]); try contradiction; injection Hk as <- <-.
    all: first [eapply at_key_decodes; [| | |exact Ha|]; [eassumption|eassumption|eassumption|first [eapply J1; exact Ha|eapply J2; exact Ha|auto with agree]]
        |eapply hidden_decodes; [eassumption|exact Ha]].
Qed.
Hint Resolve agrees_property : agree.

Lemma to_rel_eq g : to_rel g = mkRawRel (str g "input") (boolean g "isArray") (as_num (get_field g (lit "limit")))
  (as_list (as_ptr to_sort) (get_field g (lit "sort"))) (as_list (as_ptr to_match) (get_field g (lit "match")))
  (as_dict (as_ptr to_rel) (get_field g (lit "relationships"))).
Proof.
  destruct g as [| | | | | |m|]; try reflexivity. cbn [to_rel].
  rewrite (mget_map (fun v => match v with GDict d => map (fun e => (fst e, if is_nil (snd e) then None else Some (to_rel (snd e)))) d | _ => [] end)).
  cbn [get_field]. f_equal. destruct (mget m (lit "relationships")); reflexivity.
Qed.

Lemma agrees_relationship o : agrees (false, TStruct SRel) (relationship_is hidden_ok odd_uint) to_rel o.
Proof.
  remember (S (size o)) as N eqn:E. assert (size o < N)%nat as HN by lia. clear E.
  revert o HN. induction N as [|N IH]; [lia|]. intros o HN.
  assert (forall v, below (size o) v ->
    agrees (false, TDict (true, TStruct SRel)) (dict_is (or_nil (relationship_is hidden_ok odd_uint))) (as_dict (as_ptr to_rel)) v) as I1.
  { intros v Hv. apply agrees_dict. intros m -> k n Hn. apply agrees_pointer. intros _. apply IH. apply map_size in Hn. unfold below, size in *. lia. }
  split.
  - intros g Hg x. know Hg "input"%string agrees_text F1. know Hg "isArray"%string agrees_flag F2. know Hg "limit"%string agrees_uint F3.
    pose proof (field_iff _ _ _ "sort"%string _ _ _ Hg eq_refl (fun v _ => agrees_pointers _ _ _ v agrees_sort)) as F4.
    pose proof (field_iff _ _ _ "match"%string _ _ _ Hg eq_refl (fun v _ => agrees_pointers _ _ _ v agrees_match)) as F5.
    pose proof (field_iff _ _ _ "relationships"%string _ _ _ Hg eq_refl (fun v Ha => I1 v (below_attr _ _ _ Ha))) as F6.
    rewrite to_rel_eq. split.
    + intros H. destruct H. entries_of. unfold_at. use_fields. reflexivity.
    + intros ->. econstructor; by_fields.
  - intros x H. destruct H. pose proof H as Hat. entries_of.
    assert (forall k n, attr (entries o) k (Some n) ->
      agrees (false, TDict (true, TStruct SRel)) (dict_is (or_nil (relationship_is hidden_ok odd_uint))) (as_dict (as_ptr to_rel)) (Some n)) as J1
      by (intros k n Ha; apply I1; eapply below_attr; exact Ha).
    clear IH I1 H. unfold_at. destruct (attributes_names _ _ _ Hat) as (names & Hn & Hd).
    eapply struct_decoded; [exact Hat|apply inclb_incl; vm_compute; reflexivity|].
    intros k f n Hk Ha; apply mget_In in Hk; cbn [fields In] in Hk.
    repeat (destruct Hk as [Hk|Hk]); try contradiction; injection Hk as <- <-.
    all: first [eapply at_key_decodes; [| | |exact Ha|]; [eassumption|eassumption|eassumption|first [eapply J1; exact Ha|auto with agree]]
        |eapply hidden_decodes; [eassumption|exact Ha]].
Qed.
Hint Resolve agrees_relationship : agree.
End Facts.
