(** Proofs about the names of a configuration and its default objects. *)
From Coq Require Import List ZArith Lia Bool String Permutation.
From Coq Require Import Strings.Byte.
From Verif Require Import Base BaseFacts Codec Value GoStrings Parser Sort Output Http Records Config SpecConfig ConfigFacts ConfigFacts2 ConfigFacts3 ConfigFacts4.
Import ListNotations.
Open Scope Z_scope.

(** No null entry at the top level. *)
Definition no_null (p : parsed) : Prop :=
  ~ In None (pd_parsers p) /\ ~ In None (pd_inputs p) /\ ~ In None (pd_indexes p) /\ ~ In None (pd_services p) /\ ~ In None (pd_outputs p).

Lemma names_accepted p : no_null p -> (names_distinct_all p <-> exists c, config_of_parsed p = Ok c).
Proof.
  intros (N1 & N2 & N3 & N4 & N5). unfold names_distinct_all, config_of_parsed. split.
  - intros (D1 & D2 & D3 & D4 & D5).
    destruct (collect_named_distinct parser_name (EMsg "Duplicate name for parser.") _ [] N1 D1) as (m1 & ->); [reflexivity|].
    destruct (collect_named_distinct input_name (EMsg "Duplicate name for input.") _ [] N2 D2) as (m2 & ->); [reflexivity|].
    destruct (collect_named_distinct index_name (EMsg "Duplicate name for index.") _ [] N3 D3) as (m3 & ->); [reflexivity|].
    destruct (collect_named_distinct sc_name (EMsg "Duplicate name for service.") _ [] N4 D4) as (m4 & ->); [reflexivity|].
    destruct (collect_named_distinct output_name (EMsg "Duplicate name for output.") _ [] N5 D5) as (m5 & ->); [reflexivity|].
    eexists. reflexivity.
  - intros (c & H). inv_ok.
    repeat split; match goal with H : collect_named ?f _ ?l _ = Ok _ |- NoDup (names ?f ?l) => apply collect_named_ok in H; apply H end.
Qed.

Lemma names_refused p : no_null p -> ~ names_distinct_all p -> exists e, config_of_parsed p = Err e.
Proof.
  intros N D.
  assert (R : returns (config_of_parsed p)).
  { destruct N as (N1 & N2 & N3 & N4 & N5). unfold config_of_parsed. fine; apply collect_named_returns; assumption. }
  destruct (config_of_parsed p) as [c|e| |] eqn:E; [|eauto|destruct R; congruence|destruct R; congruence].
  destruct D. apply names_accepted; [exact N|eauto].
Qed.

Section Load.
Variable stat : bytes -> stat_result.
Variable regexp_ok xpath_ok : bytes -> bool.
Variable upper : bytes -> bytes.
Notation load := (load stat regexp_ok xpath_ok upper).

Theorem duplicates_refused p : no_null p -> ~ names_distinct_all p -> exists e, load p = Err e.
Proof.
  intros N D. destruct (names_refused p N D) as (e & E). unfold Config.load. rewrite E. exists e. reflexivity.
Qed.

Lemma collected {A} (name : A -> bytes) dup l m : collect_named name dup l [] = Ok m ->
  (forall c, In (Some c) l -> mget m (name c) = Some c) /\ (forall k, ~ In k (names name l) -> mget m k = None).
Proof.
  intro H. apply collect_named_ok in H. destruct H as (G & N & _). split.
  - intros c I. apply G. right. repeat split. exact I.
  - intros k NI. destruct (mget m k) as [a|] eqn:M; [|reflexivity]. exfalso. apply NI. apply G in M. destruct M as [M|(_ & I & <-)]; [discriminate|].
    unfold names. apply in_flat_map. exists (Some a). split; [exact I|left; reflexivity].
Qed.

(** The objects of the user, validated, under their names; for the names of the
    built-in objects which the user does not use, the built-in objects. *)
Theorem load_objects p v : load p = Ok v ->
  (forall c, In (Some c) (pd_parsers p) -> exists ps q, mget (vc_parsers v) (parser_name c) = Some q /\ validate_parser regexp_ok ps c = Ok q) /\
  (forall c, In (Some c) (pd_inputs p) -> exists ps q, mget (vc_inputs v) (input_name c) = Some q /\ validate_input stat xpath_ok ps c = Ok q) /\
  (forall c, In (Some c) (pd_indexes p) -> exists is q, mget (vc_indexes v) (index_name c) = Some q /\ validate_index stat upper is c = Ok q) /\
  (forall n q, In (n, q) built_in -> ~ In n (names parser_name (pd_parsers p)) -> mget (vc_parsers v) n = Some q) /\
  (~ In (lit "default") (names index_name (pd_indexes p)) -> mget (vc_indexes v) (lit "default") = Some VINoop).
Proof.
  unfold Config.load, Config.validate. intro H. inv_ok. unfold config_of_parsed in E. inv_ok.
  cbn [add_defaults cf_parsers cf_inputs cf_indexes cf_services cf_outputs vc_parsers vc_inputs vc_indexes] in *.
  destruct (collected _ _ _ _ E5) as [P1 P2]. destruct (collected _ _ _ _ E6) as [I1 I2]. destruct (collected _ _ _ _ E7) as [X1 X2].
  apply validate_all_spec in E0, E1, E2.
  set (PS := fold_left (add_default parser_name) default_parsers a5) in *. set (XS := add_default index_name a7 (CNoop (lit "default"))) in *.
  repeat split.
  - intros c I. assert (M : mget PS (parser_name c) = Some c) by (apply add_defaults_keep, P1, I).
    destruct (forall2_mget (fun x y => validate_parser regexp_ok PS x = Ok y) _ _ E0 _ _ M) as (q & Mq & Vq). eauto.
  - intros c I. destruct (forall2_mget (fun x y => validate_input stat xpath_ok PS x = Ok y) _ _ E1 _ _ (I1 _ I)) as (q & Mq & Vq). eauto.
  - intros c I. assert (M : mget XS (index_name c) = Some c) by (apply add_default_keeps, X1, I).
    destruct (forall2_mget (fun x y => validate_index stat upper a6 x = Ok y) _ _ E2 _ _ M) as (q & Mq & Vq). eauto.
  - intros n q I NI.
    assert (D : exists d, In d default_parsers /\ parser_name d = n /\ forall ps, validate_parser regexp_ok ps d = Ok q).
    { cbn [built_in In] in I. unfold default_parsers.
      destruct I as [I|[I|[I|[I|[I|[]]]]]]; injection I as <- <-.
      - exists (CString (lit "string") []). split; [left; reflexivity|split; [reflexivity|intro; reflexivity]].
      - exists (CInteger (lit "integer") []). split; [right; left; reflexivity|split; [reflexivity|intro; reflexivity]].
      - exists (CFloat (lit "float") (lit ".") []). split; [right; right; left; reflexivity|split; [reflexivity|intro; reflexivity]].
      - eexists. split; [right; right; right; left; reflexivity|split; [reflexivity|intro; reflexivity]].
      - exists (CJson (lit "json")). split; [right; right; right; right; left; reflexivity|split; [reflexivity|intro; reflexivity]]. }
    destruct D as (d & Id & En & V). subst n.
    assert (ND : NoDup (map parser_name default_parsers)).
    { repeat constructor; cbn [map In parser_name]; intro W; repeat destruct W as [W|W]; try discriminate; exact W. }
    assert (M : mget PS (parser_name d) = Some d) by (apply add_defaults_default; [exact ND|exact Id|apply P2, NI]).
    destruct (forall2_mget (fun x y => validate_parser regexp_ok PS x = Ok y) _ _ E0 _ _ M) as (q' & Mq & Vq).
    rewrite V in Vq. injection Vq as <-. exact Mq.
  - intro NI. assert (M : mget XS (lit "default") = Some (CNoop (lit "default"))).
    { unfold XS, add_default. cbn [index_name]. rewrite (X2 _ NI). apply mget_mset_same. }
    destruct (forall2_mget (fun x y => validate_index stat upper a6 x = Ok y) _ _ E2 _ _ M) as (q & Mq & Vq).
    injection Vq as <-. exact Mq.
Qed.
End Load.
