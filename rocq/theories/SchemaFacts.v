(** Documents which conform to the schema of the documentation are decoded. *)
From Coq Require Import List ZArith Lia Bool String.
From Coq Require Import Strings.Byte Floats.SpecFloat.
From Verif Require Import Base BaseFacts Value Codec Output Config Yaml SpecYaml SpecSchema YamlFacts YamlFacts2 YamlFacts3 YamlFacts4.
Import ListNotations.
Open Scope Z_scope.

(** Every document of the schema fits the type. *)
Fixpoint compat (s : schema) (f : field) : bool :=
  match s, snd f with
  | JString, TText | JConst _, TText | JEnum _, TText => true
  | JBoolean, TBool => true
  | JInteger (Some k), TUint => 0 <=? k
  | JInteger _, TInt => true
  | JArray _ s', TList e => compat s' e
  | JObject _ props, TStruct sn =>
    forallb (fun p => match mget (fields sn) (lit (fst p)) with Some f' => compat (snd p) f' | None => false end) props
  | JDict s', TDict e => compat s' e
  | JPart PProperty, TStruct SXmlProp => true
  | JPart PRelationships, TDict (true, TStruct SRel) => true
  | _, _ => false
  end.

Lemma part_compat s f : compat s f = true -> compat (resolve false s) f = true.
Proof.
  destruct s as [| | | | | | | | | |p]; try (intros H; exact H).
  destruct f as [b t]. destruct p, t; cbn [compat snd]; try discriminate.
  - destruct s; try discriminate. intros _. vm_compute. reflexivity.
  - destruct e as [[] []]; try discriminate. destruct s; try discriminate. intros _. vm_compute. reflexivity.
Qed.

Lemma resolve_conforms s n : conforms false s n = conforms false (resolve false s) n.
Proof. destruct s as [| | | | | | | | | |p]; try reflexivity. destruct p; destruct n; reflexivity. Qed.
Lemma resolve_no_part s p : resolve false s <> JPart p.
Proof. destruct s as [| | | | | | | | | |p']; try discriminate. destruct p'; discriminate. Qed.

(** *** Names *)

Lemma distinct_NoDup l : distinct l = true <-> NoDup l.
Proof.
  rewrite <- repeated_NoDup. induction l as [|x l IH]; cbn; [tauto|].
  destruct (existsb (bytes_eqb x) l), (distinct l), (repeated l); cbn in *; intuition congruence.
Qed.

Lemma keys_names m ks : keys m = Some ks -> names_of ks m /\ (forall key n, In (key, n) m -> exists k, key = YScalar k RText /\ In k ks).
Proof.
  revert ks. induction m as [|[key n] m IH]; intros ks; cbn.
  - intros [= <-]. split; [constructor|easy].
  - destruct key as [t []| |]; cbn; try discriminate. fold (keys m). destruct (keys m) as [ks'|]; [|discriminate].
    intros [= <-]. destruct (IH ks' eq_refl) as [H1 H2]. split; [constructor; [reflexivity|exact H1]|].
    intros key' n' [[= <- <-]|Hin]; [exists t; split; [reflexivity|now left]|].
    destruct (H2 _ _ Hin) as (k & E & Hk). exists k. split; [exact E|now right].
Qed.

Lemma names_clean names m : names_of names m -> NoDup names -> (forall key n, In (key, n) m -> exists k, key = YScalar k RText /\ In k names) ->
  ForallOrdPairs (fun a b => ~ same_value (fst a) (fst b)) m.
Proof.
  intros Hn. induction Hn as [|k [key n] names m Hk Hn IH]; intros Hd Hs; [constructor|].
  inversion Hd as [|? ? Hni Hd']; subst.
  assert (forall key n, In (key, n) m -> exists k, key = YScalar k RText /\ In k names) as Hs'.
  { intros key' n' Hin. destruct (Hs key' n') as (k' & -> & _); [now right|]. exists k'. split; [reflexivity|].
    clear -Hn Hin. induction Hn as [|a [b c] names m Ha Hn IH]; [easy|]. destruct Hin as [[= -> ->]|Hin]; [left; exact Ha|right; auto]. }
  constructor; [|auto]. apply Forall_forall. intros [key' n'] Hin Hsame. cbn in Hsame.
  destruct (Hs key n) as (k0 & -> & _); [now left|]. cbn in Hk. subst k0.
  destruct (Hs' key' n' Hin) as (k' & -> & Hk'). cbn in Hsame. subst. contradiction.
Qed.

Lemma named_In {A} (l : list (string * A)) k a : named l k = Some a -> exists s, In (s, a) l /\ lit s = k.
Proof.
  unfold named. intros H. apply mget_In in H. apply in_map_iff in H as ([s a'] & [= <- <-] & H). eauto.
Qed.

Section Facts.
Variable hidden_ok : node -> bool.
Variables odd_uint odd_int : spec_float -> Z.
Local Notation decode := (decode hidden_ok odd_uint odd_int).

Lemma decode_same b t n : ~ nothing n -> decode (b, t) n = decode (false, t) n.
Proof. intros H. destruct b; [now apply decode_pointer|reflexivity]. Qed.

Lemma scalar_something t r : r <> RNull -> ~ nothing (YScalar t r).
Proof. intros H (t' & [= _ E] & _). congruence. Qed.
Lemma seq_something l : ~ nothing (YSeq l).
Proof. intros (t' & E & _). discriminate. Qed.

Lemma map_res_total {A B} (f : A -> res B) l : (forall a, In a l -> exists b, f a = Ok b) -> exists bs, map_res f l = Ok bs.
Proof.
  induction l as [|a l IH]; intros H; cbn; [eauto|].
  destruct (H a (or_introl eq_refl)) as [b ->]. destruct IH as [bs ->]; [intros; apply H; now right|]. cbn. eauto.
Qed.

Lemma conforms_decodes n : forall s f, compat s f = true -> conforms false s n = true -> machine_integers n = true ->
  (exists g, decode f n = Ok g) /\ clean n.
Proof.
  remember (S (node_size n)) as N eqn:E. assert (node_size n < N)%nat as HN by lia. clear E.
  revert n HN. induction N as [|N IH]; [lia|]. intros n HN s [b t] Hc Hn Hm.
  apply part_compat in Hc. rewrite resolve_conforms in Hn. pose proof (resolve_no_part s) as Hp.
  set (s1 := resolve false s) in *. clearbody s1. clear s.
  destruct s1 as [|c|l|  |min|k s'|req props|s'| | |p]; [..|destruct (Hp p eq_refl)]; clear Hp; destruct t; cbn [compat snd] in Hc; try discriminate; try (destruct min; discriminate).
  1-5: destruct n as [t []| |]; cbn [conforms resolve] in Hn; try discriminate; split; [|constructor].
  1-4: rewrite decode_same by (apply scalar_something; discriminate); cbn; eauto.
  - rewrite decode_same by (apply scalar_something; discriminate). cbn [machine_integers] in Hm.
    destruct min as [k|]; [|discriminate].
    cbn [Yaml.decode fst snd andb decode_uint]. assert ((0 <=? z) && (z <? 2 ^ 64) = true) as ->; [|eauto]. lia.
  - destruct n as [t []| |]; cbn [conforms resolve] in Hn; try (destruct min; discriminate); split; [|constructor].
    rewrite decode_same by (apply scalar_something; discriminate). cbn [machine_integers] in Hm.
    cbn [Yaml.decode fst snd andb decode_int]. rewrite Hm. eauto.
  - (* arrays *)
    destruct n as [|ns|]; cbn [conforms resolve] in Hn; try discriminate.
    apply andb_prop in Hn as [_ Hn]. rewrite forallb_forall in Hn. cbn [machine_integers] in Hm. rewrite forallb_forall in Hm.
    pose proof Hc as Hc'.
    assert (forall n, In n ns -> (exists g, decode e n = Ok g) /\ clean n) as Hall.
    { intros n Hin. apply (IH n) with (s := s'); auto. apply seq_size in Hin. lia. }
    rewrite decode_same by apply seq_something. split.
    + cbn [Yaml.decode fst snd andb]. destruct (map_res_total (decode e) ns) as [gs ->]; [intros; now apply Hall|]. cbn. eauto.
    + constructor. apply Forall_forall. intros; now apply Hall.
  - (* structures *)
    destruct n as [| |m]; cbn [conforms resolve] in Hn; try discriminate.
    destruct (keys m) as [ks|] eqn:Ek; [|discriminate]. apply andb_prop in Hn as [Hn Hmem]. apply andb_prop in Hn as [Hd _].
    apply distinct_NoDup in Hd. apply keys_names in Ek as [Hnm Hkey]. rewrite forallb_forall in Hmem.
    cbn [machine_integers] in Hm. rewrite forallb_forall in Hm. rewrite forallb_forall in Hc.
    assert (forall key n, In (key, n) m -> exists k f' s', key = YScalar k RText /\ named props k = Some s' /\
              mget (fields s) k = Some f' /\ compat s' f' = true /\ conforms false s' n = true /\ machine_integers n = true) as Hall.
    { intros key n Hin. destruct (Hkey _ _ Hin) as (k & -> & _). specialize (Hmem _ Hin). cbn [fst snd string_key] in Hmem.
      destruct (named props k) as [s'|] eqn:Es; [|discriminate]. pose proof Es as Es'. apply named_In in Es' as (str & Hstr & <-).
      specialize (Hc _ Hstr). cbn [fst snd] in Hc. destruct (mget (fields s) (lit str)) as [f'|] eqn:Ef; [|discriminate].
      specialize (Hm _ Hin). exists (lit str), f', s'. repeat split; auto. }
    rewrite decode_same by apply map_not_nothing. split.
    + apply (struct_decoded hidden_ok odd_uint odd_int s (map fst props) m (Some (YMap m))).
      * constructor. exists ks. split; [exact Hnm|]. split; [exact Hd|].
        intros k Hk. clear -Hk Hnm Hall.
        assert (exists key n, In (key, n) m /\ spelled k key) as (key & n & Hin & Hs).
        { induction Hnm as [|a [key n] ks m Ha Hn IH]; [easy|]. destruct Hk as [->|Hk].
          - exists key, n. split; [now left|exact Ha].
          - destruct IH as (key' & n' & Hin & Hs); [intros; apply Hall; now right|exact Hk|]. exists key', n'. split; [now right|exact Hs]. }
        destruct (Hall _ _ Hin) as (k' & f' & s' & -> & Hp & _). cbn in Hs. subst k'.
        apply named_In in Hp as (str & Hstr & <-). apply in_map. apply in_map_iff. exists (str, s'). auto.
      * intros k Hk. apply in_map_iff in Hk as (str & <- & Hk). apply in_map_iff in Hk as ([str' s'] & <- & Hk). specialize (Hc _ Hk). cbn [fst snd] in *.
        destruct (mget (fields s) (lit str')) eqn:Ef; [|discriminate]. apply mget_In in Ef. apply in_map_iff. eexists; split; [|exact Ef]. reflexivity.
      * intros k f n Hk (key & Hin & Hs). destruct (Hall _ _ Hin) as (k' & f' & s' & -> & _ & Hf & Hcs & Hcn & Hmn). cbn in Hs. subst k'.
        assert (f' = f) as -> by congruence.
        apply (IH n) with (s := s'); auto. apply map_size in Hin. lia.
    + constructor; [|eapply names_clean; eauto]. apply Forall_forall. intros [key n] Hin.
      destruct (Hall _ _ Hin) as (k' & f' & s' & -> & _ & _ & Hcs & Hcn & Hmn). cbn [fst snd]. split; [do 2 eexists; split; [reflexivity|discriminate]|].
      apply (IH n) with (s := s') (f := f'); auto. apply map_size in Hin. lia.
  - (* maps *)
    destruct n as [| |m]; cbn [conforms resolve] in Hn; try discriminate.
    destruct (keys m) as [ks|] eqn:Ek; [|discriminate]. apply andb_prop in Hn as [Hd Hmem].
    apply distinct_NoDup in Hd. apply keys_names in Ek as [Hnm Hkey]. rewrite forallb_forall in Hmem.
    cbn [machine_integers] in Hm. rewrite forallb_forall in Hm.
    assert (forall key n, In (key, n) m -> (exists g, decode e n = Ok g) /\ clean n) as Hall.
    { intros key n Hin. apply (IH n) with (s := s'); auto; [apply map_size in Hin; lia|exact (Hmem _ Hin)|exact (Hm _ Hin)]. }
    rewrite decode_same by apply map_not_nothing. split.
    + cbn [Yaml.decode fst snd andb]. set (f := fun kn : node * node => _).
      assert (exists kvs, map_res f m = Ok kvs /\ map fst kvs = ks) as (kvs & -> & E).
      { clear -Hnm Hall. induction Hnm as [|k [key n] ks m Hk Hn IH]; [exists []; auto|].
        destruct IH as (kvs & E1 & E2); [intros; eapply Hall; right; eauto|].
        destruct (Hall key n (or_introl eq_refl)) as [[g Hg] _].
        exists ((k, g) :: kvs). cbn [map_res map fst]. rewrite E1, E2. split; [|reflexivity].
        subst f. cbn beta. cbn [fst snd] in *. apply key_text_spelled in Hk. rewrite Hk. cbn. rewrite Hg. reflexivity. }
      cbn [rbind]. rewrite E. apply repeated_NoDup in Hd. rewrite Hd. eauto.
    + constructor; [|eapply names_clean; eauto]. apply Forall_forall. intros [key n] Hin. cbn [fst snd].
      destruct (Hkey _ _ Hin) as (k & -> & _). split; [do 2 eexists; split; [reflexivity|discriminate]|]. eapply Hall; eauto.
Qed.

(** *** Objects *)

Definition has_type (kinds : list (bytes * sname)) (s : schema) : bool :=
  match s with
  | JObject req props =>
    existsb (fun r => match r with [t] => bytes_eqb (lit t) (lit "type") | _ => false end) req &&
    match named props (lit "type") with
    | Some (JConst c) => match mget kinds (lit c) with Some sn => compat s (false, TStruct sn) | None => false end
    | _ => false
    end
  | _ => false
  end.

Lemma conforming_entry {A} kinds to (R : A -> mapping -> Prop) s n : kinds_agree hidden_ok odd_uint odd_int kinds to R ->
  has_type kinds s = true -> conforms false s n = true -> machine_integers n = true -> exists a, entry_is R (Some a) (Some n).
Proof.
  intros (HK & _) Ht Hn Hm. destruct s as [| | | | | |req props| | | |]; try discriminate. cbn [has_type] in Ht.
  apply andb_prop in Ht as [Hr Ht].
  destruct (named props (lit "type")) as [st|] eqn:Et; [|discriminate]. destruct st as [|c| | | | | | | | |]; try discriminate.
  destruct (mget kinds (lit c)) as [sn|] eqn:Ek; [|discriminate].
  destruct (conforms_decodes n _ _ Ht Hn Hm) as [[g Hg] Hc].
  destruct n as [| |m]; cbn [conforms resolve] in Hn; try discriminate.
  destruct (keys m) as [ks|] eqn:Eks; [|discriminate]. apply andb_prop in Hn as [Hn Hmem]. apply andb_prop in Hn as [Hd Hreq].
  apply existsb_exists in Hr as (r & Hr & Er). destruct r as [|t [|]]; try discriminate. apply bytes_eqb_eq in Er.
  rewrite forallb_forall in Hreq. specialize (Hreq _ Hr). apply existsb_exists in Hreq as (k & Hk & E). cbn in E. rewrite orb_false_r in E.
  apply bytes_eqb_eq in E. rewrite Er in E. subst k.
  apply keys_names in Eks as [Hnm Hkey].
  assert (exists n, In (YScalar (lit "type") RText, n) m) as [n Hin].
  { clear -Hnm Hkey Hk. induction Hnm as [|a [key n] ks m Ha Hn IH]; [easy|]. destruct Hk as [->|Hk].
    - destruct (Hkey key n (or_introl eq_refl)) as (k & -> & _). cbn in Ha. subst k. exists n. now left.
    - destruct IH as [n' Hn']; [|exact Hk|exists n'; now right].
      intros key' n' Hin. destruct (Hkey key' n' (or_intror Hin)) as (k & -> & _). exists k. split; [reflexivity|].
      clear -Hn Hin. induction Hn as [|a' [b c] names m Ha' Hn IH]; [easy|]. destruct Hin as [[= -> ->]|Hin]; [left; exact Ha'|right; auto]. }
  rewrite forallb_forall in Hmem. pose proof (Hmem _ Hin) as Hty. cbn [fst snd string_key] in Hty. rewrite Et in Hty.
  destruct n as [t' []| |]; cbn [conforms resolve] in Hty; try discriminate. apply bytes_eqb_eq in Hty. subst t'.
  assert (object_value hidden_ok odd_uint odd_int m (lit c) sn g) as Hv.
  { split; [exact Hg|]. split; [exists (YScalar (lit "type") RText); split; [exact Hin|reflexivity]|].
    inversion Hc as [| |? Hc' _]; subst. apply Forall_forall. intros kn Hkn. rewrite Forall_forall in Hc'. now apply Hc'. }
  apply mget_In in Ek. destruct (HK _ _ _ _ Ek Hv) as (a & _ & Ha). exists a. exists m. split; [reflexivity|]. now apply Ha.
Qed.

Lemma conforming_section {A} kinds to (R : A -> mapping -> Prop) ss l : kinds_agree hidden_ok odd_uint odd_int kinds to R ->
  forallb (has_type kinds) ss = true -> forallb (fun n => existsb (fun s => conforms false s n) ss) l = true -> forallb machine_integers l = true ->
  exists os, list_is (entry_is R) os (Some (YSeq l)) /\ ~ In None os.
Proof.
  intros HK Hs Hl Hm.
  assert (exists os, Forall2 (fun o n => entry_is R o (Some n)) os l /\ ~ In None os) as (os & Hos & Hno); [|exists os; split; [now constructor|exact Hno]].
  induction l as [|n l IH]; [exists []; split; [constructor|easy]|]. cbn in Hl, Hm. apply andb_prop in Hl as [H1 H2]. apply andb_prop in Hm as [H3 H4].
  destruct (IH H2 H4) as (os & Hos & Hno). apply existsb_exists in H1 as (s & Hin & H1). rewrite forallb_forall in Hs.
  destruct (conforming_entry _ _ _ _ _ HK (Hs _ Hin) H1 H3) as [a Ha]. exists (Some a :: os).
  split; [now constructor|]. intros [H|H]; [discriminate|contradiction].
Qed.

Lemma conforming_at {A} kinds to (R : A -> mapping -> Prop) ss str m ks : kinds_agree hidden_ok odd_uint odd_int kinds to R ->
  conforms_document false (YMap m) = true -> machine_integers (YMap m) = true -> keys m = Some ks ->
  named (section_schemas false) (lit str) = Some ss -> forallb (has_type kinds) ss = true ->
  exists os, section_at m str R os /\ ~ In None os.
Proof.
  intros HK Hd Hm Hks Hss Hs. cbn [conforms_document] in Hd. rewrite Hks in Hd. apply andb_prop in Hd as [_ Hd].
  apply keys_names in Hks as [_ Hkey]. cbn [machine_integers] in Hm. rewrite forallb_forall in Hd, Hm.
  destruct (attr_exists m (lit str)) as [[n|] Ho].
  - intros key n Hin. destruct (Hkey _ _ Hin) as (k & -> & _). eauto.
  - pose proof Ho as (key & Hin & Hsp). destruct (Hkey _ _ Hin) as (k & -> & _). cbn in Hsp. subst k.
    specialize (Hd _ Hin). cbn [fst snd string_key] in Hd. rewrite Hss in Hd. destruct n as [|l|]; try discriminate.
    destruct (conforming_section _ _ _ _ _ HK Hs Hd (Hm _ Hin)) as (os & Hos & Hno). exists os. split; [|exact Hno]. exists (Some (YSeq l)). auto.
  - exists []. split; [|easy]. exists None. split; [exact Ho|constructor].
Qed.

Lemma conforming_document n : conforms_document false n = true -> machine_integers n = true ->
  exists p, decode_document hidden_ok odd_uint odd_int (Some n) = Ok p /\
    ~ In None (pd_parsers p) /\ ~ In None (pd_inputs p) /\ ~ In None (pd_indexes p) /\ ~ In None (pd_outputs p) /\ ~ In None (pd_services p).
Proof.
  intros Hd Hm. destruct n as [| |m]; try discriminate.
  destruct (keys m) as [ks|] eqn:Hks; [|cbn [conforms_document] in Hd; rewrite Hks in Hd; discriminate].
  destruct (conforming_at _ _ _ _ "parsers"%string _ _ (parsers_agree hidden_ok odd_uint odd_int) Hd Hm Hks eq_refl) as (ps & Hps & Nps); [vm_compute; reflexivity|].
  destruct (conforming_at _ _ _ _ "inputs"%string _ _ (inputs_agree hidden_ok odd_uint odd_int) Hd Hm Hks eq_refl) as (is & His & Nis); [vm_compute; reflexivity|].
  destruct (conforming_at _ _ _ _ "indexes"%string _ _ (indexes_agree hidden_ok odd_uint odd_int) Hd Hm Hks eq_refl) as (xs & Hxs & Nxs); [vm_compute; reflexivity|].
  destruct (conforming_at _ _ _ _ "outputs"%string _ _ (outputs_agree hidden_ok odd_uint odd_int) Hd Hm Hks eq_refl) as (os & Hos & Nos); [vm_compute; reflexivity|].
  destruct (conforming_at _ _ _ _ "services"%string _ _ (services_agree hidden_ok odd_uint odd_int) Hd Hm Hks eq_refl) as (ss & Hss & Nss); [vm_compute; reflexivity|].
  exists (mkParsed ps is xs ss os). split; [|cbn; auto].
  apply document_exact. exists m. split; [|auto].
  constructor. cbn [conforms_document] in Hd. rewrite Hks in Hd. apply andb_prop in Hd as [Hdis Hd].
  apply keys_names in Hks as [Hn Hkey]. exists ks. split; [exact Hn|]. split; [now apply distinct_NoDup|].
  intros k Hk. rewrite forallb_forall in Hd.
  assert (exists n, In (YScalar k RText, n) m) as [n Hin].
  { clear -Hn Hkey Hk. induction Hn as [|a [key n] ks m Ha Hn IH]; [easy|]. destruct Hk as [->|Hk].
    - destruct (Hkey key n (or_introl eq_refl)) as (k' & -> & _). cbn in Ha. subst k'. exists n. now left.
    - destruct IH as [n' Hn']; [|exact Hk|exists n'; now right].
      intros key' n' Hin. destruct (Hkey key' n' (or_intror Hin)) as (k' & -> & _). exists k'. split; [reflexivity|].
      clear -Hn Hin. induction Hn as [|a' [b c] names m Ha' Hn IH]; [easy|]. destruct Hin as [[= -> ->]|Hin]; [left; exact Ha'|right; auto]. }
  specialize (Hd _ Hin). cbn [fst snd string_key] in Hd. destruct (named (section_schemas false) k) eqn:En; [|discriminate].
  apply named_In in En as (str & Hstr & <-). apply in_map. unfold section_schemas in Hstr. cbn [In] in Hstr.
  repeat destruct Hstr as [Hstr|Hstr]; try contradiction; injection Hstr as <- _; cbn; tauto.
Qed.
End Facts.

Lemma collect_named_no_panic {A} (name : A -> bytes) dup l m : ~ In None l -> collect_named name dup l m <> Panic.
Proof.
  revert m. induction l as [|[a|] l IH]; intros m H; cbn; [discriminate| |exfalso; apply H; now left].
  destruct (mget m (name a)); [discriminate|]. apply IH. intros Hin. apply H. now right.
Qed.

Lemma conforming_config hidden_ok odd_uint odd_int n : conforms_document false n = true -> machine_integers n = true ->
  exists p, decode_document hidden_ok odd_uint odd_int (Some n) = Ok p /\ config_of_parsed p <> Panic.
Proof.
  intros Hd Hm. destruct (conforming_document hidden_ok odd_uint odd_int n Hd Hm) as (p & Hp & N1 & N2 & N3 & N4 & N5).
  exists p. split; [exact Hp|]. unfold config_of_parsed.
  pose proof (collect_named_no_panic parser_name (EMsg "Duplicate name for parser.") _ [] N1) as P1.
  pose proof (collect_named_no_panic input_name (EMsg "Duplicate name for input.") _ [] N2) as P2.
  pose proof (collect_named_no_panic index_name (EMsg "Duplicate name for index.") _ [] N3) as P3.
  pose proof (collect_named_no_panic output_name (EMsg "Duplicate name for output.") _ [] N4) as P4.
  pose proof (collect_named_no_panic sc_name (EMsg "Duplicate name for service.") _ [] N5) as P5.
  destruct (collect_named parser_name _ _ _); cbn [rbind]; try discriminate; [|congruence].
  destruct (collect_named input_name _ _ _); cbn [rbind]; try discriminate; [|congruence].
  destruct (collect_named index_name _ _ _); cbn [rbind]; try discriminate; [|congruence].
  destruct (collect_named sc_name _ _ _); cbn [rbind]; try discriminate; [|congruence].
  destruct (collect_named output_name _ _ _); cbn [rbind]; try discriminate. congruence.
Qed.
