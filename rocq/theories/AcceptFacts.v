(** Proofs for C66: validation accepts the configurations that keep the rules. *)
From Coq Require Import List ZArith Lia Bool String Permutation.
From Coq Require Import Strings.Byte.
From Verif Require Import Base BaseFacts Codec Value GoStrings Parser Sort Output Http Records Config SpecConfig ConfigFacts ConfigFacts2 ConfigFacts3 SpecAccept.
Import ListNotations.
Open Scope Z_scope.

Definition succeeds {A} (r : res A) : Prop := exists a, r = Ok a.

Lemma s_ok {A} (a : A) : succeeds (Ok a) <-> True.
Proof. split; [intros _; exact I|exists a; reflexivity]. Qed.
Lemma s_err {A} e : succeeds (@Err A e) <-> False.
Proof. split; [intros (a & H); discriminate H|intros []]. Qed.
Lemma s_bind {A B} (r : res A) (f : A -> res B) : succeeds (rbind r f) <-> exists a, r = Ok a /\ succeeds (f a).
Proof.
  split.
  - intros (b & H). apply rbind_ok in H as (a & H1 & H2). exists a. split; [exact H1|exists b; exact H2].
  - intros (a & -> & H). exact H.
Qed.
Lemma s_then {A B} (r : res A) (s : res B) : succeeds (rbind r (fun _ => s)) <-> succeeds r /\ succeeds s.
Proof.
  rewrite s_bind. split; [intros (a & H1 & H2); split; [exists a; exact H1|exact H2]|intros [(a & H1) H2]; exists a; auto].
Qed.
Lemma s_last {A B} (r : res A) (f : A -> B) : succeeds (rbind r (fun a => Ok (f a))) <-> succeeds r.
Proof. rewrite s_bind. split; [intros (a & H1 & _); exists a; exact H1|intros (a & H1); exists a; split; [exact H1|eexists; reflexivity]]. Qed.
Lemma s_bar {A} (b : bool) e (r : res A) : succeeds (if b then Err e else r) <-> b = false /\ succeeds r.
Proof. destruct b; [rewrite s_err|]; intuition discriminate. Qed.
Lemma s_gate {A} (b : bool) e (r : res A) : succeeds (if b then r else Err e) <-> b = true /\ succeeds r.
Proof. destruct b; [|rewrite s_err]; intuition discriminate. Qed.
Lemma nil_false {A} (l : list A) : is_nil l = false <-> l <> [].
Proof. destruct l; cbn; intuition congruence. Qed.
Lemma and_true (P : Prop) : P /\ True <-> P.
Proof. tauto. Qed.

Lemma items_iff {A B} (f : A -> res B) (key : B -> bytes) (key' : A -> bytes) dup (rule : A -> Prop) :
  (forall a b, f a = Ok b -> key b = key' a) -> forall l seen, (forall a, In (Some a) l -> (succeeds (f a) <-> rule a)) ->
  (succeeds (validate_items f key dup seen l) <->
   exists xs, l = map Some xs /\ Forall rule xs /\ NoDup (map key' xs) /\ forall x, In x xs -> ~ In (key' x) seen).
Proof.
  intros Hk. induction l as [|o l IH]; intros seen Hr.
  - cbn [validate_items]. rewrite s_ok. split; [|auto]. intros _. exists []. repeat split; [constructor|constructor|intros ? []].
  - assert (Hr' : forall a, In (Some a) l -> (succeeds (f a) <-> rule a)) by (intros a H; apply Hr; right; exact H).
    destruct o as [a|]; cbn [validate_items].
    + rewrite s_bind. split.
      * intros (b & H1 & H2). rewrite (Hk _ _ H1) in H2. apply s_bar in H2 as [H2 H3]. apply s_last in H3.
        apply IH in H3; [|exact Hr']. destruct H3 as (xs & -> & H4 & H5 & H6). exists (a :: xs). split; [reflexivity|].
        split; [constructor; [apply Hr; [left; reflexivity|exists b; exact H1]|exact H4]|]. split.
        -- cbn [map]. constructor; [|exact H5]. intro H. apply in_map_iff in H as (x & E & H). apply (H6 x H). left. symmetry. exact E.
        -- intros x [<-|H] G; [apply existsb_eq in G; congruence|]. apply (H6 x H). right. exact G.
      * intros (xs & E & H1 & H2 & H3). destruct xs as [|x xs]; [discriminate E|]. cbn [map] in E. injection E as <- E.
        inversion H1 as [|? ? H4 H5]; subst. inversion H2 as [|? ? H6 H7]; subst.
        apply Hr in H4 as (b & H4); [|left; reflexivity]. exists b. split; [exact H4|]. rewrite (Hk _ _ H4). apply s_bar. split.
        -- destruct (existsb _ seen) eqn:G; [|reflexivity]. apply existsb_eq in G. destruct (H3 a (or_introl eq_refl) G).
        -- apply s_last. apply IH; [exact Hr'|]. exists xs. repeat split; auto. intros x Hx [G|G]; [|exact (H3 x (or_intror Hx) G)].
           apply H6. rewrite G. apply in_map. exact Hx.
    + split; [intros (b & H); discriminate H|]. intros ([|x xs] & E & _); discriminate E.
Qed.

Lemma items_rule {A B} (f : A -> res B) (key : B -> bytes) (key' : A -> bytes) dup (rule : A -> Prop) l :
  (forall a b, f a = Ok b -> key b = key' a) -> (forall a, In (Some a) l -> (succeeds (f a) <-> rule a)) ->
  (succeeds (validate_items f key dup [] l) <-> items rule key' l).
Proof.
  intros Hk Hr. rewrite (items_iff f key key' dup rule Hk l [] Hr). unfold items. split.
  - intros (xs & H1 & H2 & H3 & _). exists xs. auto.
  - intros (xs & H1 & H2 & H3). exists xs. repeat split; auto.
Qed.

Lemma entries_iff {A B} (f : bytes -> A -> res B) (rule : bytes -> A -> Prop) : forall l,
  (forall n a, In (n, Some a) l -> (succeeds (f n a) <-> rule n a)) -> (succeeds (validate_entries f l) <-> entries rule l).
Proof.
  induction l as [|[n o] l IH]; intros Hr.
  - cbn [validate_entries]. rewrite s_ok. split; [|auto]. intros _. exists []. repeat split. constructor.
  - assert (Hr' : forall m a, In (m, Some a) l -> (succeeds (f m a) <-> rule m a)) by (intros m a H; apply Hr; right; exact H).
    destruct o as [a|]; cbn [validate_entries].
    + rewrite s_bind. split.
      * intros (b & H1 & H2). apply s_last in H2. apply IH in H2 as (xs & -> & H); [|exact Hr']. exists ((n, a) :: xs). split; [reflexivity|].
        constructor; [|exact H]. apply Hr; [left; reflexivity|exists b; exact H1].
      * intros (xs & E & H). destruct xs as [|[m x] xs]; [discriminate E|]. cbn [map fst snd] in E. injection E as <- <- E. inversion H as [|? ? H1 H2]; subst.
        apply Hr in H1 as (b & H1); [|left; reflexivity]. exists b. split; [exact H1|]. apply s_last, IH; [exact Hr'|]. exists xs. auto.
    + split; [intros (b & H); discriminate H|]. intros ([|[m x] xs] & E & _); discriminate E.
Qed.

Lemma distinct_iff props : succeeds (check_distinct props) <-> NoDup props.
Proof.
  unfold check_distinct. rewrite (items_rule Ok (fun q => q) (fun q => q) _ (fun _ => True)).
  - unfold items. split.
    + intros (xs & E & _ & H). rewrite map_id in H. assert (props = xs) as ->; [|exact H]. clear H. revert xs E.
      induction props as [|q props IH]; intros [|x xs] E; try discriminate E; [reflexivity|]. cbn [map] in E. injection E as <- E. f_equal. apply IH, E.
    + intros H. exists props. rewrite map_id. repeat split; [|exact H]. apply Forall_forall. auto.
  - intros a b H. congruence.
  - intros. rewrite s_ok. tauto.
Qed.

Lemma all_iff {A B} (f : A -> res B) l : succeeds (validate_all f l) <-> forall n a, In (n, a) l -> succeeds (f a).
Proof.
  unfold validate_all. rewrite (entries_iff (fun _ => f) (fun _ a => succeeds (f a))); [|intros; tauto]. unfold entries. split.
  - intros (xs & E & H) n a Hin. rewrite Forall_forall in H. assert (l = xs) as ->; [|exact (H _ Hin)]. clear H Hin. revert xs E.
    induction l as [|[m x] l IH]; intros [|[m' x'] xs] E; try discriminate E; [reflexivity|]. cbn [map fst snd] in E. injection E as <- <- E. f_equal. apply IH, E.
  - intros H. exists l. split; [reflexivity|]. apply Forall_forall. intros [n a] Hin. exact (H n a Hin).
Qed.

Section Rules.
Variable stat : bytes -> stat_result.
Variable regexp_ok xpath_ok : bytes -> bool.
Variable upper : bytes -> bytes.
Variable p : parsed.
Variable parsers : list (bytes * parser_config).
Variable inputs : list (bytes * input_config).
Variable indexes : list (bytes * index_config).
Variable outputs : list (bytes * output_config).
Hypothesis HP : forall n, known parsers n = true <-> parser_exists p n.
Hypothesis HS : forall n, (exists c, mget parsers n = Some c /\ config_primitive c = true) <-> single_parser p n.
Hypothesis HI : forall n, known inputs n = true <-> input_exists p n.
Hypothesis HX : forall n input property, succeeds (check_index indexes n input property) <-> index_fits p n input property.
Hypothesis HO : forall n, known outputs n = true <-> output_exists p n.

Lemma file_iff path : succeeds (check_file stat path) <-> is_file stat path.
Proof. unfold check_file, is_file. destruct (stat path); cbn; split; intro H; try discriminate H; try (destruct H; discriminate); try reflexivity. exists tt. reflexivity. Qed.
Lemma input_iff n : succeeds (check_input inputs n) <-> input_exists p n.
Proof. unfold check_input. rewrite s_gate, s_ok, and_true. apply HI. Qed.

Lemma parser_iff c : succeeds (validate_parser regexp_ok parsers c) <-> parser_rule regexp_ok p c.
Proof.
  unfold validate_parser, parser_rule. rewrite s_bar, nil_false. apply and_iff_compat_l.
  destruct c as [n cs|n i|n sep i|n t f|n|n d re sub].
  - apply s_ok.
  - apply s_ok.
  - rewrite s_bar, s_ok, and_true. apply nil_false.
  - rewrite !s_bar, s_ok, and_true, !nil_false. tauto.
  - apply s_ok.
  - destruct d as [d|].
    + rewrite s_bar, s_gate, s_ok, and_true, HP. apply and_iff_compat_r. split.
      * intros H. exists d. split; [reflexivity|]. intros ->. cbn in H. destruct (regexp_ok d); [reflexivity|discriminate].
      * intros (d' & [= <-] & H). destruct re as [[|]|]; cbn; [rewrite (H eq_refl)|..]; reflexivity.
    + rewrite s_err. split; [intros []|]. intros [(d & H & _) _]. discriminate H.
Qed.

Lemma column_iff c : succeeds (validate_column parsers c) <-> column_rule p c.
Proof.
  unfold validate_column, column_rule. rewrite s_bar, nil_false. apply and_iff_compat_l. rewrite s_gate, s_ok, and_true. apply HP.
Qed.
Lemma column_key a b : validate_column parsers a = Ok b -> fst b = fst a.
Proof. unfold validate_column. intro H. inv_ok. reflexivity. Qed.

Lemma xml_key req : forall a b, validate_xml xpath_ok parsers req a = Ok b -> x_name b = xp_name a.
Proof.
  intros [name type parser xpath its props] b H. cbn [validate_xml] in H. inv_ok. destruct (bytes_eqb _ (lit "primitive")).
  - inv_ok. destruct its; [discriminate|]. inv_ok. reflexivity.
  - destruct (bytes_eqb _ (lit "array")).
    + inv_ok. destruct its; [|discriminate]. inv_ok. reflexivity.
    + destruct (bytes_eqb _ (lit "object")); [|discriminate]. inv_ok. destruct its; [discriminate|]. inv_ok. reflexivity.
Qed.

Lemma and_false (b c : bool) : b && c = false <-> (b = true -> c = false).
Proof. destruct b, c; cbn; intuition discriminate. Qed.
Lemma not_true b : negb b = false <-> b = true.
Proof. destruct b; cbn; intuition discriminate. Qed.

Lemma map_some_inj {A} : forall (l l' : list A), map Some l = map Some l' -> l = l'.
Proof. induction l as [|a l IH]; intros [|b l'] E; try discriminate E; [reflexivity|]. cbn [map] in E. injection E as <- E. f_equal. apply IH, E. Qed.
Lemma map_snd_inj {A} : forall (l l' : list (bytes * A)), map (fun nc => (fst nc, Some (snd nc))) l = map (fun nc => (fst nc, Some (snd nc))) l' -> l = l'.
Proof. induction l as [|[a x] l IH]; intros [|[b y] l'] E; try discriminate E; [reflexivity|]. cbn [map fst snd] in E. injection E as <- <- E. f_equal. apply IH, E. Qed.

Lemma xml_iff c : forall named, succeeds (validate_xml xpath_ok parsers named c) <-> xml_rule xpath_ok p named c.
Proof.
  induction c as [name type parser xpath its props IHi IHp] using xml_prop_ind'. intros named. cbn [validate_xml].
  rewrite !s_bar, and_false, nil_false, not_true. split.
  - intros (H1 & H2 & H). destruct (bytes_eqb _ (lit "primitive")) eqn:T1.
    + apply bytes_eqb_eq in T1. apply s_bar in H as [H3 H]. apply not_true, HP in H3.
      destruct its as [i|]; [apply s_err in H; destruct H|]. apply s_bar in H as [H4 _]. apply not_true in H4. destruct props; [|discriminate].
      apply xml_primitive; auto. destruct type; [left; reflexivity|right; exact T1].
    + destruct (bytes_eqb _ (lit "array")) eqn:T2.
      * apply bytes_eqb_eq in T2. apply s_bar in H as [H3 H]. apply s_bar in H as [H4 H]. apply not_true in H3, H4. destruct parser; [|discriminate]. destruct props; [|discriminate].
        destruct its as [i|]; [|apply s_err in H; destruct H]. apply s_last in H. apply IHi in H; [|reflexivity].
        destruct type; [discriminate T2|]. cbn [or_default] in T2. rewrite T2. apply xml_array; auto.
      * destruct (bytes_eqb _ (lit "object")) eqn:T3; [|apply s_err in H; destruct H].
        apply bytes_eqb_eq in T3. apply s_bar in H as [H3 H]. apply not_true in H3. destruct parser; [|discriminate].
        destruct its as [i|]; [apply s_err in H; destruct H|]. apply s_bar in H as [H4 H]. apply s_last in H. apply nil_false in H4.
        apply (items_rule _ _ _ _ (xml_rule xpath_ok p true) _ (xml_key true)) in H.
        -- destruct H as (xs & -> & H5 & H6). destruct type; [discriminate T3|]. cbn [or_default] in T3. rewrite T3. apply xml_object; auto.
           intros ->. apply H4. reflexivity.
        -- rewrite Forall_forall in IHp. intros a Ha. apply (IHp _ Ha a eq_refl).
  - intros H. inversion H as [nm ty pr xp G1 G2 G3 G4|nm xp i G1 G2 G3|nm xp ms G1 G2 G3 G4 G5]; subst.
    + split; [exact G1|]. split; [exact G2|]. assert (bytes_eqb (or_default type (lit "primitive")) (lit "primitive") = true) as -> by (destruct G3 as [->| ->]; reflexivity).
      apply s_bar. split; [apply not_true, HP; exact G4|]. cbn [is_nil negb]. apply s_ok. exact I.
    + split; [exact G1|]. split; [exact G2|]. cbn -[validate_xml succeeds]. apply s_last. apply (IHi i eq_refl). exact G3.
    + split; [exact G1|]. split; [exact G2|].
      change (succeeds (if is_nil (map Some ms) then Err (EMsg "properties is required for objects.") else
        rlet ps := validate_items (validate_xml xpath_ok parsers true) x_name (EMsg "Property names must be unique.") [] (map Some ms) in Ok (XObject name xpath ps))).
      apply s_bar. split; [destruct ms; [congruence|reflexivity]|]. apply s_last.
      apply (items_rule _ _ _ _ (xml_rule xpath_ok p true) _ (xml_key true)).
      * rewrite Forall_forall in IHp. intros a Ha. apply (IHp _ Ha a eq_refl).
      * exists ms. auto.
Qed.

Lemma input_rule_iff c : succeeds (validate_input stat xpath_ok parsers c) <-> input_rule stat xpath_ok p c.
Proof.
  unfold validate_input, input_rule. rewrite s_bar, nil_false. apply and_iff_compat_l.
  destruct c as [n path die first detect delimiter columns|n path die|n path die props xpath].
  - rewrite !s_bar, s_then, file_iff, s_bar, s_last, (items_rule _ _ fst _ (column_rule p)) by (exact column_key || (intros; apply column_iff)).
    assert (D : (1 <? zlen (or_default delimiter (lit ","))) = false <-> (List.length delimiter <= 1)%nat).
    { rewrite Z.ltb_ge. unfold zlen. destruct delimiter; cbn [or_default]; [cbn; lia|lia]. }
    rewrite D. destruct detect, columns; cbn; intuition (try discriminate; try congruence).
  - rewrite s_then, s_ok, and_true. apply file_iff.
  - rewrite !s_bar, not_true, nil_false, s_then, file_iff, s_last, (items_rule _ _ xp_name _ (xml_rule xpath_ok p true)) by (exact (xml_key true) || (intros; apply xml_iff)).
    tauto.
Qed.

Lemma in_array_iff s l : is_in_array s l = true <-> In s l.
Proof.
  unfold is_in_array. rewrite existsb_exists. split; [intros (x & H & E); apply bytes_eqb_eq in E; subst; exact H|intro H; exists s; split; [exact H|apply bytes_eqb_refl]].
Qed.

Lemma collate_iff s : succeeds (validate_collate upper s) <-> collation_rule upper s.
Proof.
  unfold validate_collate, collation_rule. rewrite s_gate, s_ok, and_true, in_array_iff. destruct s; [|intuition discriminate].
  split; [auto|]. intros _. left. reflexivity.
Qed.

Lemma index_rule_iff c : succeeds (validate_index stat upper inputs c) <-> index_rule stat upper p c.
Proof.
  unfold validate_index, index_rule. rewrite s_bar, nil_false. apply and_iff_compat_l.
  destruct c as [n i props|n path i props ic|n dsn i props|n dsn i prefix tok props|n].
  - rewrite s_then, input_iff, s_last, distinct_iff. tauto.
  - rewrite s_bar, nil_false, !s_then, input_iff, s_last, distinct_iff. apply and_iff_compat_l. apply and_iff_compat_r.
    destruct (stat path); rewrite ?s_ok, ?s_err; intuition discriminate.
  - rewrite s_bar, nil_false, s_then, input_iff, s_last, (items_rule _ _ fst _ (fun q => fst q <> [] /\ collation_rule upper (snd q))); [tauto| |].
    + intros a b H. unfold validate_sqlite_property in H. inv_ok. reflexivity.
    + intros a _. unfold validate_sqlite_property. rewrite s_bar, nil_false, s_last, collate_iff. tauto.
  - rewrite s_bar, nil_false, s_then, input_iff, s_last, distinct_iff. tauto.
  - apply s_ok.
Qed.

Lemma service_iff c : succeeds (validate_service stat outputs c) <-> service_rule stat p c.
Proof.
  unfold validate_service, service_rule. rewrite s_bar, nil_false. apply and_iff_compat_l.
  assert (R : succeeds (validate_items (validate_route outputs) snd (EMsg "Duplicate path in array.") [] (sc_routes c)) <->
    items (fun r => fst r <> [] /\ snd r <> [] /\ output_exists p (fst r)) snd (sc_routes c)).
  { apply items_rule.
    - intros a b H. unfold validate_route in H. inv_ok. reflexivity.
    - intros a _. unfold validate_route. rewrite !s_bar, !nil_false, s_gate, s_ok, and_true, HO. tauto. }
  assert (T : is_in_array (or_default (sc_errors_type c) (lit "application/json")) [lit "application/json"] = true <-> sc_errors_type c = [] \/ sc_errors_type c = lit "application/json").
  { rewrite in_array_iff. cbn [In]. destruct (sc_errors_type c) as [|b l]; cbn [or_default]; intuition (try discriminate; try congruence). }
  assert (Q : forall http, succeeds
    (rlet https := match sc_https c with None => Ok None | Some h => rlet h := validate_https stat h in Ok (Some h) end in
     if is_nil (sc_routes c) then Err (EMsg "routes is empty.") else
     rlet rs := validate_items (validate_route outputs) snd (EMsg "Duplicate path in array.") [] (sc_routes c) in
     if is_in_array (or_default (sc_errors_type c) (lit "application/json")) [lit "application/json"] then Ok (mkVService http https rs) else Err (EMsg "http.errorsType: type is not supported.")) <->
    (forall listen certificate key, sc_https c = Some (listen, certificate, key) -> certificate <> [] /\ is_file stat certificate /\ key <> [] /\ is_file stat key) /\
    (sc_errors_type c = [] \/ sc_errors_type c = lit "application/json") /\ sc_routes c <> [] /\ items (fun r => fst r <> [] /\ snd r <> [] /\ output_exists p (fst r)) snd (sc_routes c)).
  { intros http. rewrite <- R, <- T, <- nil_false.
    assert (H : succeeds (match sc_https c with None => Ok None | Some h => rlet h := validate_https stat h in Ok (Some h) end) <->
      (forall listen certificate key, sc_https c = Some (listen, certificate, key) -> certificate <> [] /\ is_file stat certificate /\ key <> [] /\ is_file stat key)).
    { destruct (sc_https c) as [[[l ce] k]|]; [|rewrite s_ok; split; [intros _ ? ? ? [=]|auto]].
      rewrite s_last. unfold validate_https. rewrite s_bar, nil_false, s_then, file_iff, s_bar, nil_false, s_then, file_iff, s_ok. split.
      - intros H l' ce' k' [= <- <- <-]. tauto.
      - intros H. specialize (H _ _ _ eq_refl). tauto. }
    rewrite <- H. rewrite s_bind. split.
    - intros (h & Hh & G). split; [exists h; exact Hh|]. apply s_bar in G as [G1 G]. apply s_bind in G as (rs & G2 & G). apply s_gate in G as [G3 _].
      split; [exact G3|]. split; [exact G1|exists rs; exact G2].
    - intros ((h & Hh) & G3 & G1 & (rs & G2)). exists h. split; [exact Hh|]. apply s_bar. split; [exact G1|]. apply s_bind. exists rs. split; [exact G2|].
      apply s_gate. split; [exact G3|apply s_ok; exact I]. }
  cbv zeta. destruct (sc_https c) as [h|] eqn:E1; [destruct (sc_http c) as [l|] eqn:E2|destruct (sc_http c) as [l|] eqn:E2].
  - rewrite Q. intuition discriminate.
  - rewrite Q. intuition discriminate.
  - rewrite Q. intuition discriminate.
  - rewrite s_err. intuition congruence.
Qed.

Lemma param_iff input q : succeeds (validate_param indexes parsers input q) <-> param_rule p input q.
Proof.
  unfold validate_param, param_rule. rewrite s_bar, nil_false. apply and_iff_compat_l. cbv zeta. rewrite s_then, HX. apply and_iff_compat_l.
  change (given (pm_parser q) (lit "string")) with (or_default (pm_parser q) (lit "string")). rewrite <- HS.
  destruct (mget parsers _) as [c|].
  - rewrite s_gate, s_ok, and_true. split; [intro H; exists c; auto|intros (c' & [= <-] & H); exact H].
  - rewrite s_err. split; [intros []|]. intros (c & H & _). discriminate H.
Qed.

Lemma match_iff input m : succeeds (validate_match indexes input m) <-> index_fits p (given (snd m) (lit "default")) input (snd (fst m)).
Proof. destruct m as [[a b] i]. unfold validate_match. cbv zeta. rewrite s_then, HX, s_ok. cbn [fst snd]. tauto. Qed.
Lemma match_key input a b : validate_match indexes input a = Ok b -> snd (fst b) = snd (fst a).
Proof. destruct a as [[x y] i]. unfold validate_match. cbv zeta. intro H. inv_ok. reflexivity. Qed.

Lemma relationship_iff c : succeeds (validate_relationship indexes inputs c) <-> relationship_rule p c.
Proof.
  induction c as [input is_array limit sort ms children IH] using raw_relationship_ind'. cbn [validate_relationship].
  rewrite s_bar, and_false, not_true, s_then, input_iff. split.
  - intros (H1 & H2 & H). apply s_bind in H as (so & H3 & H). apply s_bar in H as [H4 H]. apply s_bind in H as (m & H5 & H). apply s_last in H.
    assert (H3' : succeeds (validate_items (fun s : bytes * option bool => Ok (fst s, or_bool (snd s) true)) fst (EMsg "sort: property is used twice for sorting") [] sort)) by (eexists; exact H3).
    assert (H5' : succeeds (validate_items (validate_match indexes input) (fun m => snd (fst m)) (EMsg "Duplicate filter on childProperty") [] ms)) by (eexists; exact H5).
    apply (items_rule _ _ fst _ (fun _ => True)) in H3'; [|intros a b [= <-]; reflexivity|intros; rewrite s_ok; tauto].
    apply (items_rule _ _ (fun m => snd (fst m)) _ (fun m => index_fits p (given (snd m) (lit "default")) input (snd (fst m)))) in H5'; [|apply match_key|intros; apply match_iff].
    apply (entries_iff _ (fun _ => relationship_rule p)) in H; [|rewrite Forall_forall in IH; intros n a Ha; apply (IH _ Ha a eq_refl)].
    destruct H3' as (sorts & -> & _ & H3'). destruct H5' as (mm & -> & H6 & H7). destruct H as (cs & -> & H). apply nil_false in H4.
    apply rel_rule; auto.
    + destruct sorts; [left; reflexivity|right; destruct is_array; [reflexivity|specialize (H1 eq_refl); discriminate H1]].
    + intros ->. apply H4. reflexivity.
  - intros H. inversion H as [i a l sorts mm cs G1 G2 G3 G4 G5 G6 G7]; subst.
    split; [destruct G2 as [->| ->]; [discriminate|auto]|]. split; [exact G1|].
    assert (H3' : succeeds (validate_items (fun s : bytes * option bool => Ok (fst s, or_bool (snd s) true)) fst (EMsg "sort: property is used twice for sorting") [] (map Some sorts))).
    { apply (items_rule _ _ fst _ (fun _ => True)); [intros a b [= <-]; reflexivity|intros; rewrite s_ok; tauto|]. exists sorts. repeat split; [|exact G3]. apply Forall_forall. auto. }
    assert (H5' : succeeds (validate_items (validate_match indexes input) (fun m => snd (fst m)) (EMsg "Duplicate filter on childProperty") [] (map Some mm))).
    { apply (items_rule _ _ (fun m => snd (fst m)) _ (fun m => index_fits p (given (snd m) (lit "default")) input (snd (fst m)))); [apply match_key|intros; apply match_iff|]. exists mm. auto. }
    destruct H3' as (so & H3). destruct H5' as (m & H5). apply s_bind. exists so. split; [exact H3|]. apply s_bar.
    split; [destruct mm; [congruence|reflexivity]|]. apply s_bind. exists m. split; [exact H5|]. apply s_last.
    apply (entries_iff _ (fun _ => relationship_rule p)); [rewrite Forall_forall in IH; intros n b Ha; apply (IH _ Ha b eq_refl)|].
    exists cs. split; [reflexivity|]. exact G7.
Qed.

Lemma eqb_false a b : bytes_eqb a b = false <-> a <> b.
Proof. split; [intros H ->; rewrite bytes_eqb_refl in H; discriminate|intro H; destruct (bytes_eqb a b) eqn:E; [apply bytes_eqb_eq in E; contradiction|reflexivity]]. Qed.

Lemma output_iff c : succeeds (validate_output inputs indexes parsers c) <-> output_rule p c.
Proof.
  unfold validate_output, output_rule. destruct c as [n|n i d mx lp op params rels|n i params rels].
  - rewrite s_bar, nil_false, s_ok. tauto.
  - rewrite s_bar, nil_false. apply and_iff_compat_l. rewrite s_bar, nil_false, s_then, input_iff. cbv zeta. rewrite s_bar, Z.ltb_ge.
    do 3 apply and_iff_compat_l.
    assert (P1 : succeeds (validate_entries (fun n p => rlet p := validate_param indexes parsers i p in
        if bytes_eqb n (or_default lp (lit "limit")) then Err (EMsg "Parameter is already used for the limit") else
        if bytes_eqb n (or_default op (lit "offset")) then Err (EMsg "Parameter is already used for the offset") else Ok p) params) <->
      entries (fun n q => param_rule p i q /\ n <> given lp (lit "limit") /\ n <> given op (lit "offset")) params).
    { apply entries_iff. intros m q _. rewrite <- param_iff, s_bind. split.
      - intros (x & H & G). apply s_bar in G as [G1 G]. apply s_bar in G as [G2 _]. split; [exists x; exact H|]. split; apply eqb_false; assumption.
      - intros ((x & H) & G1 & G2). exists x. split; [exact H|]. apply s_bar. split; [apply eqb_false; exact G1|]. apply s_bar. split; [apply eqb_false; exact G2|apply s_ok; exact I]. }
    assert (P2 : succeeds (validate_entries (fun _ => validate_relationship indexes inputs) rels) <-> entries (fun _ => relationship_rule p) rels) by (apply entries_iff; intros; apply relationship_iff).
    rewrite <- P1, <- P2, s_bind. split.
    + intros (ps & H & G). apply s_last in G. split; [exists ps; exact H|exact G].
    + intros ((ps & H) & G). exists ps. split; [exact H|apply s_last; exact G].
  - rewrite s_bar, nil_false. apply and_iff_compat_l. rewrite !s_bar, !nil_false, s_then, input_iff.
    assert (P1 : succeeds (validate_entries (fun _ => validate_param indexes parsers i) params) <-> entries (fun _ => param_rule p i) params) by (apply entries_iff; intros; apply param_iff).
    assert (P2 : succeeds (validate_entries (fun _ => validate_relationship indexes inputs) rels) <-> entries (fun _ => relationship_rule p) rels) by (apply entries_iff; intros; apply relationship_iff).
    rewrite <- P1, <- P2, s_bind. split.
    + intros (H1 & H2 & H3 & (ps & H & G)). apply s_last in G. repeat split; auto. exists ps. exact H.
    + intros (H1 & H2 & H3 & (ps & H) & G). repeat split; auto. exists ps. split; [exact H|apply s_last; exact G].
Qed.
End Rules.

(** *** The whole configuration *)

Lemma in_mset {V} (m : list (bytes * V)) k v n a : In (n, a) (mset m k v) -> (n = k /\ a = v) \/ In (n, a) m.
Proof.
  induction m as [|[k' v'] m IH]; cbn [mset].
  - intros [[= <- <-]|[]]. auto.
  - destruct (bytes_eqb k' k) eqn:E.
    + intros [[= <- <-]|H]; [left; apply bytes_eqb_eq in E; auto|right; right; exact H].
    + intros [[= <- <-]|H]; [right; left; reflexivity|]. destruct (IH H) as [G|G]; [left; exact G|right; right; exact G].
Qed.

Lemma collect_in {A} (name : A -> bytes) dup : forall l m m' n a, collect_named name dup l m = Ok m' -> In (n, a) m' -> In (Some a) l \/ In (n, a) m.
Proof.
  induction l as [|[x|] l IH]; intros m m' n a H Hin; cbn [collect_named] in H; [injection H as <-; right; exact Hin| |discriminate].
  destruct (mget m (name x)); [discriminate|]. destruct (IH _ _ _ _ H Hin) as [G|G]; [left; right; exact G|].
  apply in_mset in G as [[-> ->]|G]; [left; left; reflexivity|right; exact G].
Qed.

Lemma collect_iff {A} (name : A -> bytes) dup l : succeeds (collect_named name dup l []) <-> items (fun _ => True) name l.
Proof.
  assert (N : forall xs : list A, names name (map Some xs) = map name xs) by (induction xs as [|x xs IH]; [reflexivity|cbn; f_equal; exact IH]). split.
  - intros (m & H). assert (E : exists xs, l = map Some xs).
    { revert H. generalize (@nil (bytes * A)). induction l as [|[x|] l IH]; intros m0 H; cbn [collect_named] in H; [exists []; reflexivity| |discriminate].
      destruct (mget m0 (name x)); [discriminate|]. destruct (IH _ H) as (xs & ->). exists (x :: xs). reflexivity. }
    destruct E as (xs & ->). apply collect_named_ok in H as (_ & H & _). exists xs. rewrite N in H. repeat split; [|exact H]. apply Forall_forall. auto.
  - intros (xs & -> & _ & H). apply collect_named_distinct.
    + intro G. apply in_map_iff in G as (x & G & _). discriminate G.
    + rewrite N. exact H.
    + reflexivity.
Qed.

Lemma collect_get {A} (name : A -> bytes) dup l m : collect_named name dup l [] = Ok m -> forall k a, mget m k = Some a <-> In (Some a) l /\ name a = k.
Proof.
  intros H k a. destruct (collect_named_ok _ _ _ _ _ H) as (G & _). rewrite G. cbn [mget]. intuition discriminate.
Qed.

(** The objects and the built-in ones. *)
Lemma defaults_get {A} (name : A -> bytes) k : forall ds m, mget (fold_left (add_default name) ds m) k =
  match mget m k with Some a => Some a | None => find (fun d => bytes_eqb (name d) k) ds end.
Proof.
  induction ds as [|d ds IH]; intros m; cbn [fold_left find]; [destruct (mget m k); reflexivity|]. rewrite IH. unfold add_default.
  destruct (bytes_eqb (name d) k) eqn:E.
  - apply bytes_eqb_eq in E. subst k. destruct (mget m (name d)) eqn:G; [rewrite G; reflexivity|rewrite mget_mset_same; reflexivity].
  - destruct (mget m (name d)) eqn:G; [reflexivity|]. rewrite mget_mset_other by (apply eqb_false in E; congruence). reflexivity.
Qed.
Lemma defaults_in {A} (name : A -> bytes) n a : forall ds m, In (n, a) (fold_left (add_default name) ds m) -> In a ds \/ In (n, a) m.
Proof.
  induction ds as [|d ds IH]; intros m H; cbn [fold_left] in H; [right; exact H|]. destruct (IH _ H) as [G|G]; [left; right; exact G|].
  unfold add_default in G. destruct (mget m (name d)); [right; exact G|]. apply in_mset in G as [[_ ->]|G]; [left; left; reflexivity|right; exact G].
Qed.

Lemma validate_defaults {A B} (f : A -> res B) (rule : A -> Prop) (name : A -> bytes) dup l m ds :
  collect_named name dup l [] = Ok m -> (forall a, succeeds (f a) <-> rule a) -> (forall d, In d ds -> rule d) ->
  (succeeds (validate_all f (fold_left (add_default name) ds m)) <-> items rule name l).
Proof.
  intros Hm Hf Hd. pose proof (proj1 (collect_iff name dup l) (ex_intro _ m Hm)) as (xs & -> & _ & Hn). rewrite all_iff. split.
  - intros H. exists xs. repeat split; [|exact Hn]. apply Forall_forall. intros x Hx. apply Hf. apply (H (name x)). apply mget_In. rewrite defaults_get.
    assert (G : mget m (name x) = Some x) by (apply (collect_get _ _ _ _ Hm); split; [apply in_map; exact Hx|reflexivity]). rewrite G. reflexivity.
  - intros (ys & E & H & _) n a Hin. apply map_some_inj in E. subst ys. apply Hf. apply defaults_in in Hin as [Hin|Hin]; [exact (Hd a Hin)|].
    destruct (collect_in _ _ _ _ _ _ _ Hm Hin) as [G|[]]. rewrite Forall_forall in H. apply H. apply in_map_iff in G as (x & [= <-] & G). exact G.
Qed.

Lemma known_defaults {A} (name : A -> bytes) dup l m ds n : collect_named name dup l [] = Ok m ->
  (known (fold_left (add_default name) ds m) n = true <-> (exists c, In (Some c) l /\ name c = n) \/ In n (map name ds)).
Proof.
  intros Hm. unfold known. rewrite defaults_get. pose proof (collect_get _ _ _ _ Hm n) as G. destruct (mget m n) as [a|] eqn:E.
  - split; [|reflexivity]. intros _. left. exists a. apply G. reflexivity.
  - destruct (find _ ds) as [d|] eqn:F.
    + split; [|reflexivity]. intros _. right. apply find_some in F as [F1 F2]. apply bytes_eqb_eq in F2. subst n. apply in_map. exact F1.
    + split; [discriminate|]. intros [(c & Hc)|Hd]; [apply G in Hc; discriminate Hc|]. apply in_map_iff in Hd as (d & <- & Hd).
      pose proof (find_none _ _ F d Hd) as F'. cbv beta in F'. rewrite bytes_eqb_refl in F'. discriminate F'.
Qed.

Section Parts.
Variable stat : bytes -> stat_result.
Variable regexp_ok xpath_ok : bytes -> bool.
Variable upper : bytes -> bytes.
Variable p : parsed.
Variables (e1 e2 e3 e4 e5 : err) (ps : list (bytes * parser_config)) (is : list (bytes * input_config)) (xs : list (bytes * index_config))
  (ss : list (bytes * service_config)) (os : list (bytes * output_config)).
Hypothesis Hps : collect_named parser_name e1 (pd_parsers p) [] = Ok ps.
Hypothesis His : collect_named input_name e2 (pd_inputs p) [] = Ok is.
Hypothesis Hxs : collect_named index_name e3 (pd_indexes p) [] = Ok xs.
Hypothesis Hss : collect_named sc_name e4 (pd_services p) [] = Ok ss.
Hypothesis Hos : collect_named output_name e5 (pd_outputs p) [] = Ok os.
Local Notation all_parsers := (fold_left (add_default parser_name) default_parsers ps).
Local Notation all_indexes := (add_default index_name xs (CNoop (lit "default"))).

Lemma all_HP n : known all_parsers n = true <-> parser_exists p n.
Proof. rewrite (known_defaults _ _ _ _ _ _ Hps). reflexivity. Qed.
Lemma all_HS n : (exists c, mget all_parsers n = Some c /\ config_primitive c = true) <-> single_parser p n.
Proof.
  rewrite defaults_get. pose proof (collect_get _ _ _ _ Hps n) as G. unfold single_parser, user_parser.
  assert (S : forall c, config_primitive c = true <-> single c) by (intros []; cbn; intuition discriminate).
  destruct (mget ps n) as [a|] eqn:E.
  - pose proof (proj1 (G a) eq_refl) as Ha. split.
    + intros (c & [= <-] & H). left. exists a. split; [exact Ha|apply S; exact H].
    + intros [(c & Hc & H)|[H _]]; [|destruct (H a Ha)]. apply G in Hc as [= <-]. exists a. split; [reflexivity|apply S; exact H].
  - assert (Nu : forall c, ~ (In (Some c) (pd_parsers p) /\ parser_name c = n)) by (intros c Hc; apply G in Hc; discriminate Hc).
    split.
    + intros (c & H & Hs). right. split; [exact Nu|]. apply find_some in H as [H1 H2]. apply bytes_eqb_eq in H2. subst n.
      destruct H1 as [<-|[<-|[<-|[<-|[<-|[]]]]]]; try discriminate Hs; cbn; auto.
    + intros [(c & Hc & _)|[_ H]]; [destruct (Nu c Hc)|]. destruct H as [<-|[<-|[<-|[<-|[]]]]]; eexists; split; reflexivity.
Qed.
Lemma all_HI n : known is n = true <-> input_exists p n.
Proof.
  pose proof (known_defaults _ _ _ _ [] n His) as H. cbn [fold_left map In] in H. rewrite H. unfold input_exists. tauto.
Qed.
Lemma all_HO n : known os n = true <-> output_exists p n.
Proof.
  pose proof (known_defaults _ _ _ _ [] n Hos) as H. cbn [fold_left map In] in H. rewrite H. unfold output_exists. tauto.
Qed.
Lemma all_HX n input property : succeeds (check_index all_indexes n input property) <-> index_fits p n input property.
Proof.
  unfold check_index. pose proof (defaults_get index_name n [CNoop (lit "default")] xs) as D. cbn [fold_left find] in D. rewrite D. clear D.
  pose proof (collect_get _ _ _ _ Hxs n) as G. unfold index_fits.
  assert (S : forall c, handles_input c input = true /\ handles_property c property = true <-> searches c input property).
  { intros [m i props|m path i props ic|m dsn i props|m dsn i pre tok props|m]; cbn [handles_input handles_property searches]; rewrite ?bytes_eqb_eq, ?existsb_eq; try tauto.
    - intuition congruence.
    - intuition congruence.
    - rewrite existsb_exists. split.
      + intros (-> & [[q c]|] & H & E); [|discriminate E]. apply bytes_eqb_eq in E. cbn [fst] in E. subst q. split; [reflexivity|exists c; exact H].
      + intros (-> & c & H). split; [reflexivity|]. exists (Some (property, c)). split; [exact H|apply bytes_eqb_refl].
    - intuition congruence. }
  assert (K : forall c, succeeds (if negb (handles_input c input) then Err (EMsg "Index does not handle input.")
      else if negb (handles_property c property) then Err (EMsg "Index does not handle property.") else Ok tt) <-> searches c input property).
  { intros c. rewrite !s_bar, !not_true, s_ok, <- S. tauto. }
  destruct (mget xs n) as [a|] eqn:E.
  - pose proof (proj1 (G a) eq_refl) as [Ha Hn]. rewrite K. split.
    + intros H. left. exists a. auto.
    + intros [(c & H1 & H2 & H3)|[_ H]]; [|destruct (H a Ha Hn)]. assert (Hc : Some a = Some c) by (apply G; auto). injection Hc as <-. exact H3.
  - assert (Nu : forall c, In (Some c) (pd_indexes p) -> index_name c <> n) by (intros c H1 H2; assert (None = Some c) by (apply G; auto); discriminate).
    destruct (bytes_eqb (index_name (CNoop (lit "default"))) n) eqn:B.
    + apply bytes_eqb_eq in B. cbn [index_name] in B. rewrite K. split; [intros _; right; auto|intros _; exact I].
    + rewrite s_err. split; [intros []|]. intros [(c & H1 & H2 & _)|[H _]]; [exact (Nu c H1 H2)|]. subst n. discriminate B.
Qed.

Lemma accept_parts : succeeds (validate stat regexp_ok xpath_ok upper (add_defaults (mkConfig ps is xs ss os))) <-> acceptable stat regexp_ok xpath_ok upper p.
Proof.
  unfold validate, add_defaults, acceptable. cbn [cf_parsers cf_inputs cf_indexes cf_services cf_outputs].
  assert (B : forall A B C D E F (r1 : res A) (r2 : res B) (r3 : res C) (r4 : res D) (r5 : res E) (g : A -> B -> C -> D -> E -> F),
    succeeds (rlet a := r1 in rlet b := r2 in rlet c := r3 in rlet d := r4 in rlet e := r5 in Ok (g a b c d e)) <->
    succeeds r1 /\ succeeds r2 /\ succeeds r3 /\ succeeds r4 /\ succeeds r5).
  { clear. intros. split.
    - intros (v & H). apply rbind_ok in H as (a & H1 & H). apply rbind_ok in H as (b & H2 & H). apply rbind_ok in H as (c & H3 & H).
      apply rbind_ok in H as (d & H4 & H). apply rbind_ok in H as (e & H5 & H). repeat split; eexists; eassumption.
    - intros ((a & ->) & (b & ->) & (c & ->) & (d & ->) & (e & ->)). eexists. reflexivity. }
  rewrite B. clear B.
  rewrite (validate_defaults (validate_parser regexp_ok all_parsers) (parser_rule regexp_ok p) parser_name e1 (pd_parsers p) ps default_parsers Hps (parser_iff stat regexp_ok xpath_ok upper p all_parsers all_HP)).
  2:{ intros d Hd. destruct Hd as [<-|[<-|[<-|[<-|[<-|[]]]]]]; (split; [discriminate|]); cbn; intuition discriminate. }
  pose proof (validate_defaults (validate_input stat xpath_ok all_parsers) (input_rule stat xpath_ok p) input_name e2 (pd_inputs p) is [] His (input_rule_iff stat regexp_ok xpath_ok upper p all_parsers is all_indexes os all_HP all_HS all_HI all_HX all_HO)) as H2. cbn [fold_left] in H2. rewrite H2 by (intros d []).
  pose proof (validate_defaults (validate_index stat upper is) (index_rule stat upper p) index_name e3 (pd_indexes p) xs [CNoop (lit "default")] Hxs (index_rule_iff stat regexp_ok xpath_ok upper p is all_HI)) as H3. cbn [fold_left] in H3. rewrite H3.
  2:{ intros d [<-|[]]. split; [discriminate|exact I]. }
  pose proof (validate_defaults (validate_service stat os) (service_rule stat p) sc_name e4 (pd_services p) ss [] Hss (service_iff stat regexp_ok xpath_ok upper p os all_HO)) as H4. cbn [fold_left] in H4. rewrite H4 by (intros d []).
  pose proof (validate_defaults (validate_output is all_indexes all_parsers) (output_rule p) output_name e5 (pd_outputs p) os [] Hos (output_iff stat regexp_ok xpath_ok upper p all_parsers is all_indexes all_HS all_HI all_HX)) as H5. cbn [fold_left] in H5. rewrite H5 by (intros d []).
  reflexivity.
Qed.
End Parts.

Theorem accept_iff stat regexp_ok xpath_ok upper p :
  (exists v, load stat regexp_ok xpath_ok upper p = Ok v) <-> acceptable stat regexp_ok xpath_ok upper p.
Proof.
  change (succeeds (load stat regexp_ok xpath_ok upper p) <-> acceptable stat regexp_ok xpath_ok upper p).
  unfold load, config_of_parsed. rewrite s_bind. split.
  - intros (c & Hc & Hv). apply rbind_ok in Hc as (ps & Hps & Hc). apply rbind_ok in Hc as (is & His & Hc). apply rbind_ok in Hc as (xs & Hxs & Hc).
    apply rbind_ok in Hc as (ss & Hss & Hc). apply rbind_ok in Hc as (os & Hos & Hc). injection Hc as <-.
    exact (proj1 (accept_parts stat regexp_ok xpath_ok upper p _ _ _ _ _ ps is xs ss os Hps His Hxs Hss Hos) Hv).
  - intros H.
    assert (M : forall A (name : A -> bytes) dup (rule : A -> Prop) l, items rule name l -> succeeds (collect_named name dup l [])).
    { intros A name dup rule l (xs & H1 & H2 & H3). apply collect_iff. exists xs. repeat split; [exact H1|apply Forall_forall; auto|exact H3]. }
    pose proof H as (H1 & H2 & H3 & H4 & H5).
    destruct (M _ _ (EMsg "Duplicate name for parser.") _ _ H1) as (ps & Hps). destruct (M _ _ (EMsg "Duplicate name for input.") _ _ H2) as (is & His).
    destruct (M _ _ (EMsg "Duplicate name for index.") _ _ H3) as (xs & Hxs). destruct (M _ _ (EMsg "Duplicate name for service.") _ _ H4) as (ss & Hss).
    destruct (M _ _ (EMsg "Duplicate name for output.") _ _ H5) as (os & Hos).
    exists (mkConfig ps is xs ss os). rewrite Hps, His, Hxs, Hss, Hos. split; [reflexivity|].
    exact (proj2 (accept_parts stat regexp_ok xpath_ok upper p _ _ _ _ _ ps is xs ss os Hps His Hxs Hss Hos) H).
Qed.

Theorem refuse stat regexp_ok xpath_ok upper p : complete p -> (forall path, checked_file p path -> stat path <> SError) -> ~ acceptable stat regexp_ok xpath_ok upper p ->
  exists e, load stat regexp_ok xpath_ok upper p = Err e.
Proof.
  intros Hc Hs Ha. destruct (load_returns stat regexp_ok xpath_ok upper p Hc Hs) as [H1 H2].
  destruct (load stat regexp_ok xpath_ok upper p) as [v|e| |] eqn:E; [|exists e; reflexivity|congruence|congruence].
  destruct Ha. apply accept_iff. exists v. exact E.
Qed.

(** *** Order *)

Lemma map_some_perm {A} (xs : list A) l' : Permutation (map Some xs) l' -> exists ys, l' = map Some ys /\ Permutation xs ys.
Proof.
  intros H. destruct (Permutation_map_inv _ _ (Permutation_sym H)) as (ys & -> & Hp). exists ys. split; [reflexivity|exact Hp].
Qed.
Lemma items_perm {A} (rule rule' : A -> Prop) key l l' : Permutation l l' -> (forall a, rule a -> rule' a) -> items rule key l -> items rule' key l'.
Proof.
  intros Hp Hr (xs & -> & H1 & H2). apply map_some_perm in Hp as (ys & -> & Hp). exists ys. split; [reflexivity|]. split.
  - apply Forall_forall. intros y Hy. rewrite Forall_forall in H1. apply Hr, H1. eapply Permutation_in; [apply Permutation_sym; exact Hp|exact Hy].
  - eapply Permutation_NoDup; [|exact H2]. apply Permutation_map. exact Hp.
Qed.
Lemma items_impl {A} (rule rule' : A -> Prop) key l : (forall a, rule a -> rule' a) -> items rule key l -> items rule' key l.
Proof. apply items_perm, Permutation_refl. Qed.
Lemma entries_impl {A} (rule rule' : bytes -> A -> Prop) l : (forall n a, rule n a -> rule' n a) -> entries rule l -> entries rule' l.
Proof. intros Hr (xs & H1 & H2). exists xs. split; [exact H1|]. eapply Forall_impl; [|exact H2]. intros []. apply Hr. Qed.

Section Order.
Variables p p' : parsed.
Hypothesis H : reordered p p'.

Lemma r_user n c : user_parser p n c <-> user_parser p' n c.
Proof.
  destruct H as (H1 & _). unfold user_parser. apply and_iff_compat_r. split; apply Permutation_in; [exact H1|apply Permutation_sym; exact H1].
Qed.
Lemma r_parser n : parser_exists p n -> parser_exists p' n.
Proof. intros [(c & Hc)|Hn]; [left; exists c; apply r_user; exact Hc|right; exact Hn]. Qed.
Lemma r_single n : single_parser p n -> single_parser p' n.
Proof. intros [(c & Hc & Hs)|[Hn Hs]]; [left; exists c; split; [apply r_user; exact Hc|exact Hs]|right; split; [|exact Hs]]. intros c Hc. apply (Hn c), r_user, Hc. Qed.
Lemma r_input n : input_exists p n -> input_exists p' n.
Proof. destruct H as (_ & H1 & _). intros (c & Hc & Hn). exists c. split; [apply (Permutation_in _ H1); exact Hc|exact Hn]. Qed.
Lemma r_output n : output_exists p n -> output_exists p' n.
Proof. destruct H as (_ & _ & _ & _ & H1). intros (c & Hc & Hn). exists c. split; [apply (Permutation_in _ H1); exact Hc|exact Hn]. Qed.
Lemma r_index n i q : index_fits p n i q -> index_fits p' n i q.
Proof.
  destruct H as (_ & _ & H1 & _). intros [(c & Hc & Hn)|[Hn Hc]]; [left; exists c; split; [apply (Permutation_in _ H1); exact Hc|exact Hn]|right; split; [exact Hn|]].
  intros c Hin. apply Hc. apply (Permutation_in _ (Permutation_sym H1)). exact Hin.
Qed.
Lemma r_xml xpath_ok c : forall named, xml_rule xpath_ok p named c -> xml_rule xpath_ok p' named c.
Proof.
  induction c as [name type parser xpath its props IHi IHp] using xml_prop_ind'. intros named R.
  inversion R as [nm ty pr xp G1 G2 G3 G4|nm xp i G1 G2 G3|nm xp ms G1 G2 G3 G4 G5]; subst.
  - apply xml_primitive; auto using r_parser.
  - apply xml_array; auto.
  - apply xml_object; auto. rewrite Forall_forall in *. intros m Hm. apply (IHp (Some m)); [apply in_map; exact Hm|reflexivity|exact (G5 m Hm)].
Qed.
Lemma r_rel c : relationship_rule p c -> relationship_rule p' c.
Proof.
  induction c as [input is_array limit sort ms children IH] using raw_relationship_ind'. intros R.
  inversion R as [i a l sorts mm cs G1 G2 G3 G4 G5 G6 G7]; subst. apply rel_rule; auto using r_input.
  - eapply Forall_impl; [|exact G6]. intros m. apply r_index.
  - rewrite Forall_forall in *. intros [n c] Hin. apply (IH (n, Some c)); [apply (in_map (fun nc => (fst nc, Some (snd nc))) cs (n, c)); exact Hin|reflexivity|exact (G7 _ Hin)].
Qed.
Lemma r_param i q : param_rule p i q -> param_rule p' i q.
Proof. intros (H1 & H2 & H3). split; [exact H1|]. split; [apply r_index; exact H2|apply r_single; exact H3]. Qed.

Lemma r_acceptable stat regexp_ok xpath_ok upper : acceptable stat regexp_ok xpath_ok upper p -> acceptable stat regexp_ok xpath_ok upper p'.
Proof.
  pose proof H as (P1 & P2 & P3 & P4 & P5). intros (A1 & A2 & A3 & A4 & A5). split; [|split; [|split; [|split]]].
  - revert A1. apply items_perm; [exact P1|]. intros c [Hn Hr]. split; [exact Hn|]. destruct c; auto. destruct Hr. auto using r_parser.
  - revert A2. apply items_perm; [exact P2|]. intros c [Hn Hr]. split; [exact Hn|]. destruct c; auto.
    + destruct Hr as (R1 & R2 & R3 & R4). repeat split; try assumption; try (apply R3). revert R4. apply items_impl. intros [] [C1 C2]. split; auto using r_parser.
    + destruct Hr as (R1 & R2 & R3 & R4). repeat split; try assumption. revert R4. apply items_impl. intros x. apply r_xml.
  - revert A3. apply items_perm; [exact P3|]. intros c [Hn Hr]. split; [exact Hn|]. destruct c; auto.
    + destruct Hr. auto using r_input.
    + destruct Hr as (R1 & R2 & R3 & R4). auto using r_input.
    + destruct Hr as (R1 & R2 & R3). auto using r_input.
    + destruct Hr as (R1 & R2 & R3). auto using r_input.
  - revert A4. apply items_perm; [exact P4|]. intros c (R1 & R2 & R3 & R4 & R5 & R6). split; [exact R1|]. split; [exact R2|]. split; [exact R3|]. split; [exact R4|]. split; [exact R5|].
    revert R6. apply items_impl. intros r (C1 & C2 & C3). auto using r_output.
  - revert A5. apply items_perm; [exact P5|]. intros c [Hn Hr]. split; [exact Hn|]. destruct c; auto.
    + destruct Hr as (R1 & R2 & R3 & R4 & R5). split; [exact R1|]. split; [apply r_input; exact R2|]. split; [exact R3|]. split.
      * revert R4. apply entries_impl. intros n q (C1 & C2). split; [apply r_param; exact C1|exact C2].
      * revert R5. apply entries_impl. intros n q. apply r_rel.
    + destruct Hr as (R1 & R2 & R3 & R4 & R5). split; [exact R1|]. split; [apply r_input; exact R2|]. split; [exact R3|]. split.
      * revert R4. apply entries_impl. intros n q. apply r_param.
      * revert R5. apply entries_impl. intros n q. apply r_rel.
Qed.
End Order.

Theorem acceptable_order stat regexp_ok xpath_ok upper p p' : reordered p p' ->
  (acceptable stat regexp_ok xpath_ok upper p <-> acceptable stat regexp_ok xpath_ok upper p').
Proof.
  intros H. split; apply r_acceptable; [exact H|]. destruct H as (H1 & H2 & H3 & H4 & H5). repeat split; apply Permutation_sym; assumption.
Qed.

(** *** Files *)
Lemma items_in {A} (rule : A -> Prop) key l a : items rule key l -> In (Some a) l -> rule a.
Proof. intros (xs & -> & H & _) Hin. apply in_map_iff in Hin as (x & [= <-] & Hin). rewrite Forall_forall in H. exact (H x Hin). Qed.

Theorem accepted_files stat regexp_ok xpath_ok upper p v : load stat regexp_ok xpath_ok upper p = Ok v -> forall path, checked_file p path -> stat path = SFile.
Proof.
  intros H path. destruct (proj1 (accept_iff stat regexp_ok xpath_ok upper p) (ex_intro _ v H)) as (_ & A2 & _ & A4 & _).
  intros [(c & Hin & ->)|(c & listen & ce & k & Hin & Hc & Hp)].
  - destruct (items_in _ _ _ _ A2 Hin) as [_ R]. destruct c; [destruct R as [R _]|..]; [exact R|exact R|destruct R as [R _]; exact R].
  - destruct (items_in _ _ _ _ A4 Hin) as (_ & _ & R & _). destruct (R _ _ _ Hc) as (_ & R1 & _ & R2). destruct Hp as [-> | ->]; assumption.
Qed.
