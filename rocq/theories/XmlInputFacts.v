(** Inputs of type xml whose records follow each other. *)
From Coq Require Import List ZArith Lia Bool String Sorted.
From Coq Require Import Strings.Byte Floats.SpecFloat.
From Verif Require Import XmlStream SpecXml SpecXmlNest XmlFacts XmlReadFacts XmlNestFacts SpecXmlValue XmlValueFacts XmlInput.
From Verif Require Import Base BaseFacts Value Prog Records SpecRecords RecordsFacts Join Output SpecIndex SpecOutput.
Import ListNotations.
Open Scope Z_scope.

Lemma steps_name name : forall any acc, ~ In "/"%byte name -> xpath_steps name (Some any) acc = [(any, rev acc ++ name)].
Proof.
  induction name as [|c name IH]; intros any acc H; cbn [xpath_steps]; [rewrite app_nil_r; reflexivity|].
  destruct (Byte.eqb c "/") eqn:E; [apply Byte.byte_dec_bl in E; subst c; destruct (H (or_introl eq_refl))|].
  rewrite IH; [|intros Hin; apply H; right; exact Hin]. cbn [rev]. rewrite <- app_assoc. reflexivity.
Qed.
Lemma pattern_descendant name : ~ In "/"%byte name -> xpath_pattern (lit "//" ++ name) = [(true, name)].
Proof. intros H. unfold xpath_pattern. cbn [lit app]. exact (steps_name name true [] H). Qed.

Section Places.
Variable name : bytes.
Variable file : xfile.
Hypothesis Hpos : Forall (fun tn => (0 < snd tn)%nat) file.

Lemma offset_sum i : (Z.of_nat (list_sum (map snd (firstn i file))) <= Z.of_nat (list_sum (map snd file)))%Z.
Proof. rewrite <- (firstn_skipn i file) at 2. rewrite map_app, list_sum_app. lia. Qed.

Lemma offset_lt i j : (i < j <= List.length file)%nat -> xoffset file i < xoffset file j.
Proof.
  clear - Hpos. unfold xoffset. revert i j. induction file as [|[t n] f IH]; intros i j H; cbn [List.length] in H; [lia|]. inversion Hpos as [|? ? H1 H2]; subst. cbn [snd] in H1.
  destruct j as [|j]; [lia|]. destruct i as [|i].
  - cbn [firstn map snd]. change (list_sum (n :: map snd (firstn j f))) with (n + list_sum (map snd (firstn j f)))%nat. cbn [list_sum]. change (list_sum []) with 0%nat. lia.
  - cbn [firstn map snd]. change (list_sum (n :: ?l)) with (n + list_sum l)%nat.
    change (list_sum (n :: map snd (firstn j f))) with (n + list_sum (map snd (firstn j f)))%nat.
    change (list_sum (n :: map snd (firstn i f))) with (n + list_sum (map snd (firstn i f)))%nat. specialize (IH H2 i j ltac:(lia)). lia.
Qed.

Lemma places_sorted recs : Forall (fun r => leads name (fst r) (snd r)) recs -> forall i,
  (i + List.length (List.concat (map fst recs)) <= List.length file)%nat ->
  StronglySorted Z.lt (map fst (places file i recs)) /\ Forall (fun z => xoffset file i <= z) (map fst (places file i recs)).
Proof.
  induction 1 as [|[toks t] recs Hl F IH]; intros i H; cbn [places map fst]; [split; constructor|].
  cbn [map List.concat fst] in H. rewrite app_length in H. cbn [fst] in Hl. pose proof (leads_nonempty _ _ _ Hl) as Hne.
  assert (Ht : (0 < List.length toks)%nat) by (destruct toks; [contradiction|cbn; lia]).
  destruct (IH (i + List.length toks)%nat ltac:(lia)) as [S B].
  assert (Hlt : xoffset file i < xoffset file (i + List.length toks)) by (apply offset_lt; lia).
  split.
  - constructor; [exact S|]. eapply Forall_impl; [|exact B]. cbn beta. intros z Hz. lia.
  - constructor; [lia|]. eapply Forall_impl; [|exact B]. cbn beta. intros z Hz. lia.
Qed.

Lemma places_bounded recs : forall i, Forall (fun z => 0 <= z <= Z.of_nat (list_sum (map snd file))) (map fst (places file i recs)).
Proof.
  induction recs as [|[toks t] recs IH]; intros i; cbn [places map fst]; constructor; [|apply IH]. pose proof (offset_sum i). unfold xoffset. lia.
Qed.
End Places.

Section Input.
Variable p : xml_package.
Variable n text : bytes.
Variable mtime : res Z.
Variable parsers : list (bytes * (xparser * parser_fun)).
Variable props : list xprop.
Variable name : bytes.
Notation file := (xml_tokens p text).
Notation pat := (xpath_pattern (lit "//" ++ name)).
Variable recs : list (list rawtok * xtree).
Hypothesis Hname : ~ In "/"%byte name.
Hypothesis Hpos : Forall (fun tn => (0 < snd tn)%nat) file.
Hypothesis Hflat : flat name recs (map fst file).
Hypothesis Hclosed : closed_elements (map fst file).
Variable positions : list Z.
Hypothesis Hstate : xml_state p n = gets file (xml_ahead p) pat positions new_xparser.
Hypothesis Hread : forall z, In z positions -> exists u, In (Ok (z, u)) (xml_iterate_all file (xml_ahead p) pat).

Definition xml_records : list rec := map (fun zt => xml_record xnode (xml_query p) (xml_evaluate p) parsers (xml_integer p) (snd zt, []) props (fst zt)) (places file 0 recs).

Lemma xml_input_ok : input_ok (xml_input p n text mtime parsers props (lit "//" ++ name)) xml_records.
Proof.
  pose proof (pattern_descendant name Hname) as Hp. rewrite Hp in Hstate, Hread. unfold xml_input, input_ok. cbv zeta. cbn [in_iter in_get]. rewrite Hp.
  pose proof (iterate_closed name file (xml_ahead p) recs Hflat Hclosed) as Hit. split; [|split].
  - match goal with |- map ?f _ = _ => transitivity (map f (map Ok (places file 0 recs))); [exact (f_equal (map f) Hit)|] end.
    unfold xml_records. rewrite !map_map. reflexivity.
  - unfold in_file_order, xml_records. rewrite map_map. cbn [xml_record r_pos]. destruct (flat_leads name recs (map fst file) Hflat) as [Hl (post & E & _)].
    apply (places_sorted name file Hpos recs Hl 0). rewrite <- (map_length fst file), E, app_length. lia.
  - unfold xml_records. intros r Hr. apply in_map_iff in Hr as ([z t] & <- & Hin). cbn [fst snd]. cbn [xml_record r_pos].
    rewrite Hstate. assert (Hi : In (Ok (z, t)) (xml_iterate_all file (xml_ahead p) [(true, name)])) by (rewrite Hit; apply in_map; exact Hin).
    pose proof (reread_flat name file (xml_ahead p) recs Hpos Hflat positions z t Hread Hi) as G.
    match goal with |- rmap ?f _ = _ => exact (f_equal (rmap f) G) end.
Qed.

Lemma xml_records_bounded size : Z.of_nat (list_sum (map snd file)) = size -> Forall (fun r => 0 <= r_pos r <= size) xml_records.
Proof. intros <-. unfold xml_records. rewrite Forall_map. cbn [xml_record r_pos]. pose proof (places_bounded file recs 0) as H. rewrite Forall_map in H. exact H. Qed.

Lemma places_trees : map snd (places file 0 recs) = map snd recs.
Proof. clear. generalize 0%nat. induction recs as [|[toks t] l IH]; intros i; [reflexivity|]. cbn [places map snd]. rewrite IH. reflexivity. Qed.
End Input.
