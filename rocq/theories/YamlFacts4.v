(** The decoder of Yaml.v gives what SpecYaml.v describes: objects and documents. *)
From Coq Require Import List ZArith Lia Bool String.
From Coq Require Import Strings.Byte Floats.SpecFloat.
From Verif Require Import Base BaseFacts Value Codec Output Config Yaml SpecYaml YamlFacts YamlFacts2 YamlFacts3.
Import ListNotations.
Open Scope Z_scope.

Section Facts.
Variable hidden_ok : node -> bool.
Variables odd_uint odd_int : spec_float -> Z.
Local Notation agrees := (agrees hidden_ok odd_uint odd_int).
Local Notation kinds_agree := (kinds_agree hidden_ok odd_uint odd_int).

Ltac know Hg k lem F :=
  pose proof (field_iff _ _ _ _ _ _ k _ _ _ Hg eq_refl (fun v _ => lem hidden_ok odd_uint odd_int v)) as F; cbn [entries] in F.
Ltac know_all Hg k lem F :=
  pose proof (field_iff _ _ _ _ _ _ k _ _ _ Hg eq_refl (fun v _ => lem v)) as F; cbn [entries] in F.
Ltac unfold_at := unfold text_at, flag_at, opt_text_at, opt_flag_at, texts_at, uint_at, ints_at in *.
Ltac by_fields Hv Hg :=
  repeat match goal with |- _ /\ _ => split end;
  first [eapply object_built; [exact Hv|reflexivity|reflexivity|reflexivity]
  | match goal with |- hidden_at _ ?m ?k => exact (field_hidden _ _ _ _ (Some (YMap m)) _ k Hg eq_refl) end
  | match goal with F : forall x, _ <-> x = _ |- _ => apply F; reflexivity end].
Ltac use_fields := repeat match goal with
  | F : forall x, at_key ?m ?k (@?R x) <-> x = _, H : at_key ?m ?k _ |- _ => apply F in H
  end; subst.
(** [x] is described by the mapping from which [g] is decoded: it is of the same kind. *)
Ltac same_kind Hv :=
  match goal with Ho : object_is _ _ _ _ |- _ =>
    let E := fresh in pose proof (kind_fun _ _ _ _ _ _ _ _ _ Hv Ho) as E; first [vm_compute in E; discriminate E|clear E]
  end.
Ltac conjuncts := repeat match goal with H : _ /\ _ |- _ => destruct H end.
Ltac described_iff Hv Hg :=
  let x := fresh in let Hx := fresh in
  intros x; unfold_at; split;
  [ intros Hx; destruct x; cbn [parser_is input_is index_is output_is] in Hx; destruct Hx as [? Hx]; same_kind Hv; unfold_at; conjuncts; use_fields; reflexivity
  | intros ->; cbn [parser_is input_is index_is output_is]; unfold_at; by_fields Hv Hg ].

Lemma pointers {A} t (R : A -> option node -> Prop) c o : (forall o', agrees (false, t) R c o') -> agrees (true, t) (or_nil R) (as_ptr c) o.
Proof. intros H. apply agrees_pointer. intros _. apply H. Qed.

Lemma agrees_columns o : agrees (false, TList (true, TStruct SColumn)) (list_is (or_nil column_is)) (as_list (as_ptr to_column)) o.
Proof. apply agrees_pointers. apply agrees_column. Qed.
Lemma agrees_propertys o : agrees (false, TList (true, TStruct SXmlProp)) (list_is (or_nil (property_is hidden_ok))) (as_list (as_ptr to_xml)) o.
Proof. apply agrees_pointers. apply agrees_property. Qed.
Lemma agrees_collateds o : agrees (false, TList (true, TStruct SSqlProp)) (list_is (or_nil collated_is)) (as_list (as_ptr (fun p => (str p "name", str p "collate")))) o.
Proof. apply agrees_pointers. apply agrees_collated. Qed.
Lemma agrees_routes o : agrees (false, TList (true, TStruct SRoute)) (list_is (or_nil route_is)) (as_list (as_ptr (fun r => (str r "output", str r "path")))) o.
Proof. apply agrees_pointers. apply agrees_route. Qed.
Lemma agrees_parameters o : agrees (false, TDict (true, TStruct SParam)) (dict_is (or_nil parameter_is)) (as_dict (as_ptr to_param)) o.
Proof. apply agrees_entries. apply agrees_parameter. Qed.
Lemma agrees_relationships o : agrees (false, TDict (true, TStruct SRel)) (dict_is (or_nil (relationship_is hidden_ok odd_uint))) (as_dict (as_ptr to_rel)) o.
Proof. apply agrees_entries. apply agrees_relationship. Qed.
Lemma agrees_opt_http o : agrees (true, TStruct SHttpHttp) (or_nil http_is) (as_ptr (fun h => str h "listen")) o.
Proof. apply pointers. apply agrees_http. Qed.
Lemma agrees_opt_https o : agrees (true, TStruct SHttps) (or_nil https_is) (as_ptr (fun h => (str h "listen", str h "certificatePath", str h "privateKeyPath"))) o.
Proof. apply pointers. apply agrees_https. Qed.

Hint Resolve agrees_text agrees_flag agrees_uint agrees_int agrees_opt_flag agrees_opt_text agrees_texts agrees_ints : agree.
Hint Resolve agrees_pointers agrees_entries pointers : agree.
Hint Resolve agrees_column agrees_collated agrees_parameter agrees_sort agrees_match agrees_limit agrees_offset agrees_http agrees_https agrees_route : agree.
Hint Resolve agrees_property agrees_relationship agrees_columns agrees_propertys agrees_collateds agrees_routes agrees_parameters agrees_relationships agrees_opt_http agrees_opt_https : agree.

Ltac decodes_all :=
  let names := fresh in let Hn := fresh in let Hd := fresh in let Ht := fresh in let Hl := fresh in
  let k := fresh in let f := fresh in let n := fresh in let Hk := fresh in let Ha := fresh in
  intros names Hn Hd Ht Hl k f n Hk Ha; apply mget_In in Hk; cbn [fields In] in Hk;
  repeat (destruct Hk as [Hk|Hk]); try contradiction; injection Hk as <- <-;
  first [eapply at_key_decodes; [| | |exact Ha|]; [eassumption|eassumption|eassumption|eauto with agree]
        |eapply hidden_decodes; [|exact Ha]; eassumption].
Ltac object_decoded kind s :=
  unfold_at; conjuncts; exists (lit kind), s;
  lazymatch goal with Ho : object_is _ _ _ _ |- _ =>
    let g := fresh in let Hv := fresh in
    edestruct (object_decodes hidden_ok odd_uint odd_int s) as [g Hv]; [exact Ho|reflexivity|decodes_all|];
    exists g; split; [reflexivity|exact Hv]
  end.
Ltac named_kinds :=
  let Hin := fresh in
  intros ? ? Hin; repeat destruct Hin as [Hin|Hin]; try contradiction; injection Hin as <- <-; split; discriminate.

Lemma parsers_agree : kinds_agree parser_kinds to_parser (parser_is hidden_ok).
Proof.
  split; [|split; [|named_kinds]].
  - intros k s m g Hin Hv. pose proof (proj1 Hv) as Hg.
    repeat destruct Hin as [Hin|Hin]; try contradiction; injection Hin as <- <-; (eexists; split; [reflexivity|]);
      know Hg "name"%string agrees_text F1.
    + know Hg "ignoreCharacters"%string agrees_text F2. described_iff Hv Hg.
    + know Hg "ignoreCharacters"%string agrees_text F2. know Hg "decimalSeparator"%string agrees_text F3. described_iff Hv Hg.
    + know Hg "trueValues"%string agrees_texts F2. know Hg "falseValues"%string agrees_texts F3. described_iff Hv Hg.
    + know Hg "convertFromCharset"%string agrees_text F2. described_iff Hv Hg.
    + described_iff Hv Hg.
    + know Hg "delimiter"%string agrees_opt_text F2. know Hg "delimiterIsRegexp"%string agrees_opt_flag F3. know Hg "parser"%string agrees_text F4.
      described_iff Hv Hg.
  - intros [] m Hx; cbn [parser_is] in Hx.
    + object_decoded "string"%string SString.
    + object_decoded "integer"%string SInteger.
    + object_decoded "float"%string SFloat.
    + object_decoded "boolean"%string SBoolean.
    + object_decoded "json"%string SJson.
    + object_decoded "split"%string SSplit.
Qed.

Lemma inputs_agree : kinds_agree input_kinds to_input (input_is hidden_ok).
Proof.
  split; [|split; [|named_kinds]].
  - intros k s m g Hin Hv. pose proof (proj1 Hv) as Hg.
    repeat destruct Hin as [Hin|Hin]; try contradiction; injection Hin as <- <-; (eexists; split; [reflexivity|]);
      know Hg "name"%string agrees_text F1; know Hg "path"%string agrees_text F2; know Hg "dieOnInputChange"%string agrees_opt_flag F3.
    + know Hg "ignoreFirstRow"%string agrees_flag F4. know Hg "autodetectColumns"%string agrees_flag F5. know Hg "delimiter"%string agrees_text F6.
      know_all Hg "columns"%string agrees_columns F7.
      described_iff Hv Hg.
    + know_all Hg "properties"%string agrees_propertys F4.
      know Hg "recordXpath"%string agrees_text F5. described_iff Hv Hg.
    + described_iff Hv Hg.
  - intros [] m Hx; cbn [input_is] in Hx.
    + object_decoded "csv"%string SCsv.
    + object_decoded "json"%string SJsonFile.
    + object_decoded "xml"%string SXml.
Qed.

Lemma indexes_agree : kinds_agree index_kinds to_index (index_is hidden_ok odd_int).
Proof.
  split; [|split; [|named_kinds]].
  - intros k s m g Hin Hv. pose proof (proj1 Hv) as Hg.
    repeat destruct Hin as [Hin|Hin]; try contradiction; injection Hin as <- <-; (eexists; split; [reflexivity|]);
      know Hg "name"%string agrees_text F1.
    + know Hg "input"%string agrees_text F2. know Hg "properties"%string agrees_texts F3. described_iff Hv Hg.
    + know Hg "input"%string agrees_text F2. know Hg "properties"%string agrees_texts F3. know Hg "path"%string agrees_text F4.
      know Hg "ignoreCase"%string agrees_opt_flag F5. described_iff Hv Hg.
    + know Hg "input"%string agrees_text F2. know Hg "dsn"%string agrees_text F3.
      know_all Hg "properties"%string agrees_collateds F4.
      described_iff Hv Hg.
    + know Hg "input"%string agrees_text F2. know Hg "properties"%string agrees_texts F3. know Hg "dsn"%string agrees_text F4.
      know Hg "prefix"%string agrees_ints F5. know Hg "tokenize"%string agrees_text F6. described_iff Hv Hg.
    + described_iff Hv Hg.
  - intros [] m Hx; cbn [index_is] in Hx.
    + object_decoded "map"%string SMap.
    + object_decoded "wildcard"%string SWildcard.
    + object_decoded "sqlite"%string SSqlite.
    + object_decoded "fts5"%string SFts5.
    + object_decoded "noop"%string SNoop.
Qed.

Lemma outputs_agree : kinds_agree output_kinds to_output (output_is hidden_ok odd_uint).
Proof.
  split; [|split; [|named_kinds]].
  - intros k s m g Hin Hv. pose proof (proj1 Hv) as Hg.
    repeat destruct Hin as [Hin|Hin]; try contradiction; injection Hin as <- <-; (eexists; split; [reflexivity|]);
      know Hg "name"%string agrees_text F1.
    + described_iff Hv Hg.
    + know Hg "input"%string agrees_text F2.
      know_all Hg "parameters"%string agrees_parameters F3.
      know_all Hg "relationships"%string agrees_relationships F4.
      know Hg "limit"%string agrees_limit F5. know Hg "offset"%string agrees_offset F6.
      intros x; unfold_at; split.
      * intros Hx; destruct x; cbn [output_is] in Hx; destruct Hx as [? Hx]; same_kind Hv; unfold_at; conjuncts; use_fields.
        match goal with H : (_, _, _) = _ |- _ => injection H as -> -> -> end. reflexivity.
      * intros ->; cbn [output_is]; unfold_at; by_fields Hv Hg.
    + know Hg "input"%string agrees_text F2.
      know_all Hg "parameters"%string agrees_parameters F3.
      know_all Hg "relationships"%string agrees_relationships F4.
      described_iff Hv Hg.
  - intros [] m Hx; cbn [output_is] in Hx.
    + object_decoded "graphql"%string SGraphql.
    + object_decoded "jsonArray"%string SArray.
    + object_decoded "jsonObject"%string SObject.
Qed.

Lemma services_agree : kinds_agree service_kinds to_service (service_is hidden_ok).
Proof.
  split; [|split; [|named_kinds]].
  - intros k s m g Hin Hv. pose proof (proj1 Hv) as Hg.
    repeat destruct Hin as [Hin|Hin]; try contradiction; injection Hin as <- <-; (eexists; split; [reflexivity|]);
      know Hg "name"%string agrees_text F1.
    know_all Hg "http"%string agrees_opt_http F2.
    know_all Hg "https"%string agrees_opt_https F3.
    know Hg "errorsType"%string agrees_text F4.
    know_all Hg "routes"%string agrees_routes F5.
    intros x; unfold service_is; unfold_at; split.
    + intros Hx; destruct x; cbn in Hx; destruct Hx as [? Hx]; conjuncts. use_fields. reflexivity.
    + intros ->; cbn [sc_name sc_http sc_https sc_errors_type sc_routes]. by_fields Hv Hg.
  - intros x m Hx; unfold service_is in Hx. object_decoded "http"%string SHttp.
Qed.

(** *** Documents *)

Lemma keys_map (m : mapping) kns :
  map_res (fun kn : node * node => rlet k := key_text (fst kn) in Ok (k, snd kn)) m = Ok kns <->
  names_of (map fst kns) m /\ map snd kns = map snd m.
Proof.
  rewrite map_res_spec. revert kns. induction m as [|[k v] m IH]; intros kns.
  - split.
    + intros H. inversion H; subst. split; constructor.
    + intros (H & E). destruct kns; [constructor|discriminate E].
  - split.
    + intros H. inversion H as [|? kn ? kns' H1 H2]; subst. apply IH in H2 as (Hn & Es). cbn [fst snd] in H1.
      destruct (key_text k) as [k'| | |] eqn:Ek; cbn in H1; try discriminate. injection H1 as <-.
      apply key_text_spelled in Ek. cbn. rewrite Es. split; [constructor; [exact Ek|exact Hn]|reflexivity].
    + intros (Hn & Es). destruct kns as [|[k' v'] kns]; [discriminate|]. cbn in Hn, Es. injection Es as -> Es.
      inversion Hn as [|? ? ? ? Hk Hn']; subst. cbn in Hk. constructor.
      * cbn [fst snd]. apply key_text_spelled in Hk. rewrite Hk. reflexivity.
      * apply IH. auto.
Qed.

Lemma known_sections l : existsb (fun k => negb (existsb (bytes_eqb k) sections)) l = false <-> incl l sections.
Proof.
  split.
  - intros H k Hk. destruct (existsb (bytes_eqb k) sections) eqn:E.
    + apply existsb_exists in E as (k' & Hk' & E). apply bytes_eqb_eq in E. now subst.
    + assert (existsb (fun k => negb (existsb (bytes_eqb k) sections)) l = true); [|congruence].
      apply existsb_exists. exists k. rewrite E. auto.
  - intros H. destruct (existsb _ l) eqn:E; [|reflexivity].
    apply existsb_exists in E as (k & Hk & E). apply H in Hk.
    assert (existsb (bytes_eqb k) sections = true) by (apply existsb_exists; exists k; split; [exact Hk|apply bytes_eqb_refl]).
    rewrite H0 in E. discriminate.
Qed.

Lemma section_at_iff {A} m names k o (R : A -> mapping -> Prop) l : names_of names m -> NoDup names -> attr m (lit k) o ->
  (section_at m k R l <-> list_is (entry_is R) l o).
Proof.
  intros Hn Hd Ha. split.
  - intros (o' & Ho' & H). assert (o' = o) as -> by (eapply attr_fun; eauto). exact H.
  - intros H. exists o. auto.
Qed.

Lemma document_exact doc p : decode_document hidden_ok odd_uint odd_int doc = Ok p <-> document_is hidden_ok odd_uint odd_int p doc.
Proof.
  assert (forall m names, names_of names m -> NoDup names -> (m = [] -> True) ->
    forall kns, map fst kns = names -> map snd kns = map snd m ->
    (rlet ps := decode_section hidden_ok odd_uint odd_int parser_kinds to_parser (mget kns (lit "parsers")) in
     rlet is := decode_section hidden_ok odd_uint odd_int input_kinds to_input (mget kns (lit "inputs")) in
     rlet xs := decode_section hidden_ok odd_uint odd_int index_kinds to_index (mget kns (lit "indexes")) in
     rlet ss := decode_section hidden_ok odd_uint odd_int service_kinds to_service (mget kns (lit "services")) in
     rlet os := decode_section hidden_ok odd_uint odd_int output_kinds to_output (mget kns (lit "outputs")) in
     Ok (mkParsed ps is xs ss os)) = Ok p <->
    section_at m "parsers" (parser_is hidden_ok) (pd_parsers p) /\
    section_at m "inputs" (input_is hidden_ok) (pd_inputs p) /\
    section_at m "indexes" (index_is hidden_ok odd_int) (pd_indexes p) /\
    section_at m "outputs" (output_is hidden_ok odd_uint) (pd_outputs p) /\
    section_at m "services" (service_is hidden_ok) (pd_services p)) as Hs.
  { intros m names Hn Hd _ kns E1 E2. subst names.
    pose proof (fun k => named_attr m kns k Hn E2) as Ha.
    rewrite (section_at_iff m _ _ _ _ (pd_parsers p) Hn Hd (Ha (lit "parsers"))),
      (section_at_iff m _ _ _ _ (pd_inputs p) Hn Hd (Ha (lit "inputs"))), (section_at_iff m _ _ _ _ (pd_indexes p) Hn Hd (Ha (lit "indexes"))),
      (section_at_iff m _ _ _ _ (pd_outputs p) Hn Hd (Ha (lit "outputs"))), (section_at_iff m _ _ _ _ (pd_services p) Hn Hd (Ha (lit "services"))).
    destruct (section_iff _ _ _ _ _ _ (mget kns (lit "parsers")) parsers_agree) as [P1 P2].
    destruct (section_iff _ _ _ _ _ _ (mget kns (lit "inputs")) inputs_agree) as [I1 I2].
    destruct (section_iff _ _ _ _ _ _ (mget kns (lit "indexes")) indexes_agree) as [X1 X2].
    destruct (section_iff _ _ _ _ _ _ (mget kns (lit "outputs")) outputs_agree) as [O1 O2].
    destruct (section_iff _ _ _ _ _ _ (mget kns (lit "services")) services_agree) as [S1 S2].
    split.
    - intros H. revert H.
      destruct (decode_section _ _ _ parser_kinds _ _) as [ps| | |]; cbn [rbind]; try discriminate.
      destruct (decode_section _ _ _ input_kinds _ _) as [is| | |]; cbn [rbind]; try discriminate.
      destruct (decode_section _ _ _ index_kinds _ _) as [xs| | |]; cbn [rbind]; try discriminate.
      destruct (decode_section _ _ _ service_kinds _ _) as [ss| | |]; cbn [rbind]; try discriminate.
      destruct (decode_section _ _ _ output_kinds _ _) as [os| | |]; cbn [rbind]; try discriminate.
      intros [= <-]. cbn [pd_parsers pd_inputs pd_indexes pd_outputs pd_services].
      repeat split; [apply (P1 ps)|apply (I1 is)|apply (X1 xs)|apply (O1 os)|apply (S1 ss)]; reflexivity.
    - intros (Hp & Hi & Hx & Ho & Hs).
      destruct (P2 _ Hp) as [ps Eps]. destruct (I2 _ Hi) as [is Eis]. destruct (X2 _ Hx) as [xs Exs].
      destruct (O2 _ Ho) as [os Eos]. destruct (S2 _ Hs) as [ss Ess].
      rewrite Eps, Eis, Exs, Eos, Ess. cbn [rbind].
      apply (P1 ps Eps) in Hp. apply (I1 is Eis) in Hi. apply (X1 xs Exs) in Hx. apply (O1 os Eos) in Ho. apply (S1 ss Ess) in Hs.
      destruct p. cbn in *. congruence. }
  assert (forall m, m = [] -> Ok (mkParsed [] [] [] [] []) = Ok p <->
    section_at m "parsers" (parser_is hidden_ok) (pd_parsers p) /\
    section_at m "inputs" (input_is hidden_ok) (pd_inputs p) /\
    section_at m "indexes" (index_is hidden_ok odd_int) (pd_indexes p) /\
    section_at m "outputs" (output_is hidden_ok odd_uint) (pd_outputs p) /\
    section_at m "services" (service_is hidden_ok) (pd_services p)) as He.
  { intros m ->. rewrite <- (Hs [] [] (Forall2_nil _) (NoDup_nil _) (fun _ => I) [] eq_refl eq_refl). reflexivity. }
  unfold document_is. destruct doc as [[t r|l|m]|]; cbn [decode_document].
  - split.
    + intros H. destruct r; try discriminate. exists []. split; [constructor|]. now apply He.
    + intros (m & Ha & H). inversion Ha; subst. now apply He in H.
  - split; [discriminate|]. intros (m & Ha & _). inversion Ha.
  - split.
    + intros H. exists m. match type of H with context [map_res ?f m] => destruct (map_res f m) as [kns| | |] eqn:E end; cbn [rbind] in H; try discriminate.
      apply keys_map in E as [Hn Es].
      destruct (existsb _ (map fst kns)) eqn:Ek; [discriminate|]. apply known_sections in Ek.
      destruct (repeated (map fst kns)) eqn:Er; [discriminate|]. apply repeated_NoDup in Er.
      split; [constructor; exists (map fst kns); split; [exact Hn|split; [exact Er|]]|].
      * intros x Hx. apply Ek in Hx. clear -Hx. cbn [sections In map] in *. tauto.
      * exact (proj1 (Hs m _ Hn Er (fun _ => I) kns eq_refl Es) H).
    + intros (m' & Ha & H). inversion Ha as [| |? (names & Hn & Hd & Hi)]; subst.
      assert (exists kns, map fst kns = names /\ map snd kns = map snd m) as (kns & E1 & E2).
      { exists (combine names (map snd m)). assert (List.length names = List.length (map snd m)) as Hl.
        { rewrite map_length. clear -Hn. induction Hn; cbn; [reflexivity|f_equal; assumption]. }
        clear -Hl. revert Hl. generalize (map snd m). induction names as [|k names IH]; intros [|v l] Hl; cbn in *; try discriminate; [auto|].
        injection Hl as Hl. destruct (IH l Hl) as [-> ->]. auto. }
      subst names. assert (names_of (map fst kns) m /\ map snd kns = map snd m) as E by auto. apply keys_map in E. rewrite E. cbn [rbind].
      assert (existsb (fun k => negb (existsb (bytes_eqb k) sections)) (map fst kns) = false) as ->.
      { apply known_sections. intros x Hx. apply Hi in Hx. clear -Hx. cbn [sections In map] in *. tauto. }
      pose proof (proj2 (repeated_NoDup _) Hd) as ->.
      exact (proj2 (Hs m _ Hn Hd (fun _ => I) kns eq_refl E2) H).
  - split.
    + intros H. exists []. split; [constructor|]. now apply He.
    + intros (m & Ha & H). inversion Ha; subst. now apply He in H.
Qed.
End Facts.
