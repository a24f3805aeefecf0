(** Records in which no object is missing: reading one property is exact. *)
From Coq Require Import List ZArith Lia Bool String.
From Coq Require Import Strings.Byte Floats.SpecFloat.
From Verif Require Import Base BaseFacts Value Parser SpecText Records SpecRecords GoStrings StringsFacts RecordsFacts SpecXmlValue.
Import ListNotations.
Open Scope Z_scope.

Section Values.
Variable node : Type.
Variable query : node -> bytes -> list node.
Variable evaluate : node -> bytes -> xresult.
Variable parsers : list (bytes * (xparser * parser_fun)).
Variable int_of_float : spec_float -> Z.
Variable typed : bytes -> xparser -> Prop.
Variable cell : bytes -> parser_fun.
Hypothesis Htyped : forall p t, typed p t -> exists f, mget parsers p = Some (t, f).
Hypothesis Hcell : forall p s v, cell p s = Ok v -> exists t f, mget parsers p = Some (t, f) /\ f s = Ok v.
Local Notation all_values := (all_values node query evaluate parsers int_of_float).
Local Notation x_sub_value := (x_sub_value node query evaluate parsers int_of_float).
Local Notation xml_all := (xml_all node query evaluate parsers int_of_float).
Local Notation xml_get := (xml_get node query evaluate parsers int_of_float).
Local Notation node_value := (node_value node query evaluate int_of_float typed cell).
Local Notation node_row := (node_row node query evaluate int_of_float typed cell).

Lemma collect_values (f : xprop -> res value) props : forall vs m, NoDup (map fst m ++ map x_name props) -> Forall2 (fun c v => f c = Ok v) props vs ->
  collect (map (fun c => (x_name c, f c)) props) m = Ok (m ++ combine (map x_name props) vs).
Proof.
  induction props as [|c props IH]; intros vs m Hd H; inversion H as [|? v ? vs' H1 H2]; subst; cbn [map combine].
  - cbn [collect]. rewrite app_nil_r. reflexivity.
  - cbn [collect]. rewrite H1. cbn [rbind].
    assert (Hni : ~ In (x_name c) (map fst m)) by (cbn in Hd; intros Hin; apply NoDup_remove_2 in Hd; apply Hd, in_app_iff; auto).
    rewrite mset_new by exact Hni. rewrite (IH vs'); [rewrite <- app_assoc; reflexivity| |exact H2].
    rewrite map_app, <- app_assoc. exact Hd.
Qed.

Lemma values_all c : well_named c -> forall n v, node_value n c v -> all_values n c = Ok v.
Proof.
  induction c as [nm x p|nm x c IH|nm x props IH] using xprop_ind'; intros Hw n v H; inversion H; subst; cbn [Records.all_values].
  - match goal with E : evaluate _ _ = _ |- _ => rewrite E end. cbn [handle_primitive]. unfold handle_string.
    match goal with E : cell _ _ = _ |- _ => destruct (Hcell _ _ _ E) as (t & f & -> & G); exact G end.
  - match goal with E : evaluate _ _ = _ |- _ => rewrite E end. cbn [handle_primitive]. unfold handle_number.
    match goal with E : typed _ _ |- _ => destruct (Htyped _ _ E) as (g & ->); reflexivity end.
  - match goal with E : evaluate _ _ = _ |- _ => rewrite E end. cbn [handle_primitive]. unfold handle_number.
    match goal with E : typed _ _ |- _ => destruct (Htyped _ _ E) as (g & ->); reflexivity end.
  - match goal with E : evaluate _ _ = _ |- _ => rewrite E end. cbn [handle_primitive]. unfold handle_bool.
    match goal with E : typed _ _ |- _ => destruct (Htyped _ _ E) as (g & ->); reflexivity end.
  - match goal with E : evaluate _ _ = _ |- _ => rewrite E end. cbn [handle_primitive]. unfold handle_nodes.
    match goal with E : typed _ _ |- _ => destruct (Htyped _ _ E) as (g & ->); reflexivity end.
  - inversion Hw as [|? ? ? Hw'|]. subst.
    assert (E : rmapM (fun n' => all_values n' c) (query n x) = Ok l).
    { match goal with F : Forall2 _ _ _ |- _ => revert F end. generalize (query n x) as ns. intros ns F. clear - IH Hw' F.
      induction F as [|n' v' ns l G F IHF]; [reflexivity|]. cbn [rmapM]. rewrite (IH Hw' _ _ G). cbn [rbind]. rewrite IHF. reflexivity. }
    rewrite E. reflexivity.
  - inversion Hw as [| |? ? ? Hd Hc]. subst. match goal with E : query _ _ = _ |- _ => rewrite E end.
    rewrite (collect_values (all_values n') props vs []); [reflexivity|exact Hd|].
    match goal with F : Forall2 _ _ _ |- _ => revert F end. clear - IH Hc. intros F. induction F as [|c v props vs G F IHF]; [constructor|].
    inversion IH as [|? ? I1 I2]; subst. constructor; [apply (I1 (Hc c (or_introl eq_refl)) _ _ G)|]. apply IHF; [exact I2|]. intros c' Hin. apply Hc. right. exact Hin.
Qed.

Lemma row_all n props a : NoDup (map x_name props) -> (forall c, In c props -> well_named c) -> node_row n props a -> xml_all n props = Ok a.
Proof.
  intros Hd Hc (vs & -> & F). unfold Records.xml_all. rewrite (collect_values (all_values n) props vs []); [reflexivity|exact Hd|].
  clear - F Hc Htyped Hcell. induction F as [|c v props vs G F IHF]; [constructor|]. constructor; [apply (values_all c (Hc c (or_introl eq_refl)) _ _ G)|].
  apply IHF. intros c' Hin. apply Hc. right. exact Hin.
Qed.

Lemma forall2_len {A B} (R : A -> B -> Prop) l m : Forall2 R l m -> List.length l = List.length m.
Proof. induction 1; cbn; congruence. Qed.
Lemma forall2_nth_l {A B} (R : A -> B -> Prop) l m : Forall2 R l m -> forall i x, nth_error l i = Some x -> exists y, nth_error m i = Some y /\ R x y.
Proof.
  induction 1 as [|x y l m H F IH]; intros [|i] z E; try discriminate; [injection E as <-; exists y; auto|apply IH; exact E].
Qed.

Lemma values_sub c : well_named c -> forall n v, node_value n c v -> forall path u, x_sub_value n c path = Ok u -> at_path v path u.
Proof.
  induction c as [nm x p|nm x c IH|nm x props IH] using xprop_ind'; intros Hw n v H path u Hu; pose proof (values_all _ Hw _ _ H) as Ha.
  - destruct (proj2 (x_agrees node query evaluate parsers int_of_float _ Hw n v Ha path u) Hu) as [G|G]; [exact G|]. subst u.
    cbn [Records.x_sub_value Records.all_values] in *. destruct (evaluate n x) as [s|f|b|l|]; cbn [handle_primitive] in Ha.
    + rewrite Ha in Hu. cbn [rbind] in Hu. apply get_sub_value_Ok. exact Hu.
    + destruct path; [|discriminate Hu]. cbn [handle_primitive] in Hu. rewrite Ha in Hu. injection Hu as ->. constructor.
    + destruct path; [|discriminate Hu]. cbn [handle_primitive] in Hu. rewrite Ha in Hu. injection Hu as ->. constructor.
    + destruct path; [|discriminate Hu]. cbn [handle_primitive] in Hu. rewrite Ha in Hu. injection Hu as ->. constructor.
    + destruct path; [|discriminate Hu]. discriminate Hu.
  - inversion Hw as [|? ? ? Hw'|]. subst. destruct path as [|k path]; [cbn [Records.x_sub_value] in Hu; rewrite Ha in Hu; injection Hu as ->; constructor|].
    inversion H as [| | | | |? ? ? ? l F|]; subst. pose proof (forall2_len _ _ _ F) as Hl. cbn [Records.x_sub_value] in Hu.
    destruct (atoi_safe k) as [[i Hi]|[e He]]; [|rewrite He in Hu; discriminate Hu]. rewrite Hi in Hu. pose proof (proj1 (atoi_Ok _ _) Hi) as [Hd Hr].
    destruct (zlen (query n x) <=? i) eqn:El; [injection Hu as <-; apply (ap_no_item l k i path Hd Hr); unfold zlen in *; lia|].
    destruct (item_at (query n x) i) as [n'| | |] eqn:Ei; try discriminate Hu. cbn [rbind] in Hu. apply item_at_inv in Ei as [E0 En].
    destruct (forall2_nth_l _ _ _ F _ _ En) as (y & Hy & Hny). apply (ap_item l k i y path u Hd Hr E0 Hy). apply (IH Hw' n' y Hny path u Hu).
  - inversion Hw as [| |? ? ? Hd Hc]. subst. destruct path as [|k path]; [cbn [Records.x_sub_value] in Hu; rewrite Ha in Hu; injection Hu as ->; constructor|].
    inversion H as [| | | | | |? ? ? ? n' vs Eq F]; subst. rewrite (x_sub_object node query evaluate parsers int_of_float n nm x props k path n' Eq) in Hu.
    unfold find_prop in Hu. pose proof (find_at props k) as Hf. pose proof (forall2_len _ _ _ F) as Hl.
    assert (Hl' : List.length (map x_name props) = List.length vs) by (rewrite map_length; exact Hl).
    destruct (find _ props) as [c|].
    + destruct Hf as (i & Hi & <-). destruct (forall2_nth_l _ _ _ F _ _ Hi) as (y & Hy & Hny). pose proof (nth_error_In _ _ Hi) as Hin. rewrite Forall_forall in IH.
      apply (ap_key _ _ y); [rewrite (combine_mget _ vs i (x_name c) Hd Hl' (map_nth_error _ _ _ Hi)); exact Hy|]. apply (IH c Hin (Hc c Hin) n' y Hny path u Hu).
    + injection Hu as <-. apply ap_no_key. rewrite (combine_fst _ _ Hl'). exact Hf.
Qed.

Lemma row_get n props a path k segs u : NoDup (map x_name props) -> (forall c, In c props -> well_named c) -> node_row n props a ->
  dotted path (k :: segs) -> In k (map x_name props) -> (xml_get n props path = Ok u <-> at_path (VMap a) (k :: segs) u).
Proof.
  intros Hd Hw Hr Hp Hin. pose proof (row_all n props a Hd Hw Hr) as Ha. split; [|intros H; apply (xml_get_exact node query evaluate parsers int_of_float n props a path k segs u Hd Hw Ha Hp Hin); exact H].
  destruct (dotted_segments _ _ Hp) as (H1 & H2 & _). unfold Records.xml_get. destruct path; [congruence|]. rewrite H2.
  pose proof (find_at props k) as Hf. destruct (find _ props) as [c|]; [|contradiction]. destruct Hf as (i & Hi & <-). intros Hu.
  destruct Hr as (vs & -> & F). pose proof (forall2_len _ _ _ F) as Hl. assert (Hl' : List.length (map x_name props) = List.length vs) by (rewrite map_length; exact Hl).
  destruct (forall2_nth_l _ _ _ F _ _ Hi) as (y & Hy & Hny).
  apply (ap_key _ _ y); [rewrite (combine_mget _ vs i (x_name c) Hd Hl' (map_nth_error _ _ _ Hi)); exact Hy|]. apply (values_sub c (Hw c (nth_error_In _ _ Hi)) n y Hny segs u Hu).
Qed.
End Values.
