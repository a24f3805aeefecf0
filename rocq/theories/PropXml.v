(** Properties C57 and C38 (XML part): XML files. *)
From Coq Require Import List ZArith Lia Bool String.
From Coq Require Import Strings.Byte.
From Verif Require Import Base Prog XmlStream SpecXml SpecXmlNest XmlReadFacts XmlNestFacts.
Import ListNotations.
Open Scope nat_scope.

(** C57: in a file whose records //name follow each other, an iteration finds
    each record once, in order, at the end of the previous one.  Partial: the records
    have no records around them, only complete elements between them, and the file is not
    converted from another character set. *)
Theorem C57_iteration_partial : forall name file chunk recs, flat name recs (map fst file) ->
  exists tail, xml_iterate_all file chunk [(true, name)] = map Ok (places file 0 recs) ++ tail /\ (tail = [] \/ exists e, tail = [Err e]).
Proof. exact iterate_flat. Qed.
Print Assumptions C57_iteration_partial.

(** If every element is closed, these are the records and nothing else. *)
Theorem C57_iteration_closed_partial : forall name file chunk recs, flat name recs (map fst file) -> closed_elements (map fst file) ->
  xml_iterate_all file chunk [(true, name)] = map Ok (places file 0 recs).
Proof. exact iterate_closed. Qed.
Print Assumptions C57_iteration_closed_partial.

(** And no XPath makes the iteration over such a file fail. *)
Theorem C57_no_error : forall file chunk pat, closed_elements (map fst file) -> Forall (fun r => exists z t, r = Ok (z, t)) (xml_iterate_all file chunk pat).
Proof. exact iterate_no_error. Qed.
Print Assumptions C57_no_error.

(** Then any record is read again from its position, whatever records were read
    before it. *)
Theorem C57_reread_partial : forall name file chunk recs, Forall (fun tn => 0 < snd tn) file -> flat name recs (map fst file) ->
  forall zs z t, (forall y, In y zs -> exists u, In (Ok (y, u)) (xml_iterate_all file chunk [(true, name)])) ->
  In (Ok (z, t)) (xml_iterate_all file chunk [(true, name)]) ->
  fst (exec (xml_get_at file chunk [(true, name)] z) (gets file chunk [(true, name)] zs new_xparser)) = Ok t.
Proof. exact reread_flat. Qed.
Print Assumptions C57_reread_partial.

(** Whatever the file, the XPath and the calls before it, a call answers. *)
Theorem C57_get_ends : forall file chunk pat z p,
  match fst (exec (xml_get_at file chunk pat z) p) with Ok _ | Err _ => True | Panic | NoFuel => False end.
Proof. exact get_ends. Qed.
Print Assumptions C57_get_ends.

(** Reading a whole file also ends: records, and at most one error, without a stop of
    the program. *)
Theorem C57_iterate_ends : forall file chunk pat,
  Forall (fun r => match r with Ok _ | Err _ => True | Panic | NoFuel => False end) (xml_iterate_all file chunk pat).
Proof. exact iterate_ends. Qed.
Print Assumptions C57_iterate_ends.
(** <a><b>x: the end of the file comes before the end of the record. *)
Example C57_iterate_ends_example :
  xml_iterate_all [(RStart (lit "a") [], 3); (RStart (lit "b") [], 3); (RText (lit "x"), 1)] 0 [(true, lit "b")] = [Err (EMsg "unexpected EOF")].
Proof. reflexivity. Qed.

Definition start_tag (n : string) : rawtok * nat := (RStart (lit n) [], String.length n + 2).
Definition end_tag (n : string) : rawtok * nat := (REnd (lit n), String.length n + 3).
Definition text (n : string) : rawtok * nat := (RText (lit n), String.length n).

(** <?xml version="1.0"?><root> <item><b>0</b></item> <x></x> <item>1<c/></item></root> *)
Definition ex_body : xfile :=
  [start_tag "root"; text " "; start_tag "item"; start_tag "b"; text "0"; end_tag "b"; end_tag "item"; text " "; start_tag "x"; end_tag "x"; text " ";
   start_tag "item"; text "1"; (RVoid (lit "c") [], 4); end_tag "item"; end_tag "root"].
Definition ex_file : xfile := (RProc (lit "xml") false, 21) :: ex_body.

Definition ex_item0 : xtree := XElem (lit "item") [] [XElem (lit "b") [] [XText (lit "0")]].
Definition ex_item1 : xtree := XElem (lit "item") [] [XText (lit "1"); XElem (lit "c") [] []].

Lemma ex_flat : exists recs, flat (lit "item") recs (map fst ex_file) /\ places ex_file 0 recs = [(0%Z, ex_item0); (49%Z, ex_item1)].
Proof.
  eexists. split.
  - change (map fst ex_file) with ([RProc (lit "xml") false] ++ ([RStart (lit "root") []] ++ []) ++ (([RText (lit " ")] ++ []) ++ map fst (firstn 5 (skipn 3 ex_file)) ++ (([RText (lit " ")] ++ (RStart (lit "x") [] :: [] ++ [REnd (lit "x")]) ++ [RText (lit " ")] ++ []) ++ map fst (firstn 4 (skipn 12 ex_file)) ++ [])) ++ [REnd (lit "root")]).
    apply flat_some.
    + constructor; [reflexivity|constructor].
    + apply opening_elem; [discriminate|]. constructor.
    + apply listed_record with (gap := [XText (lit " ")]) (a := []) (kids := [XElem (lit "b") [] [XText (lit "0")]]).
      * constructor; constructor.
      * repeat constructor.
      * change (map fst (firstn 5 (skipn 3 ex_file))) with (RStart (lit "item") [] :: ((RStart (lit "b") [] :: ([RText (lit "0")] ++ []) ++ [REnd (lit "b")]) ++ []) ++ [REnd (lit "item")]).
        repeat constructor.
      * apply listed_record with (gap := [XText (lit " "); XElem (lit "x") [] []; XText (lit " ")]) (a := []) (kids := [XText (lit "1"); XElem (lit "c") [] []]).
        -- constructor; [constructor|]. constructor; [repeat constructor|]. constructor; constructor.
        -- constructor; [exact I|]. constructor; [split; [discriminate|exact I]|]. constructor; [exact I|constructor].
        -- change (map fst (firstn 4 (skipn 12 ex_file))) with (RStart (lit "item") [] :: ([RText (lit "1")] ++ [RVoid (lit "c") []] ++ []) ++ [REnd (lit "item")]).
           repeat constructor.
        -- constructor.
    + constructor; [exact I|constructor].
  - vm_compute. reflexivity.
Qed.

Example C57_example :
  (exists recs, flat (lit "item") recs (map fst ex_file) /\ places ex_file 0 recs = [(0%Z, ex_item0); (49%Z, ex_item1)]) /\
  Forall (fun tn => 0 < snd tn) ex_file /\
  xml_iterate_all ex_file 0 [(true, lit "item")] = [Ok (0%Z, ex_item0); Ok (49%Z, ex_item1)] /\
  fst (exec (xml_get_at ex_file 0 [(true, lit "item")] 49%Z) (gets ex_file 0 [(true, lit "item")] [0; 49; 0]%Z new_xparser)) = Ok ex_item1.
Proof.
  split; [apply ex_flat|]. split; [|split; vm_compute; reflexivity].
  apply Forall_forall. intros tn H. repeat (destruct H as [<-|H]; [cbn; lia|]). destruct H.
Qed.

Example C57_closed_example : closed_elements (map fst ex_file) /\
  xml_iterate_all ex_file 0 [(true, lit "b")] <> [] /\ xml_iterate_all ex_file 0 [(false, lit "root")] <> [].
Proof.
  split; [|split; vm_compute; discriminate]. exists [RProc (lit "xml") false], (map fst ex_body). split; [reflexivity|].
  split; [constructor; [reflexivity|constructor]|]. repeat constructor.
Qed.

(** The same file with the XPath /root/item: the iteration is the same, but ... *)
Definition absolute : xpattern := [(false, lit "root"); (false, lit "item")].

(** ... the second record cannot be read unless the first one was read just once
    before it ... *)
Theorem C57_absolute_path_refuted : exists file pat z t, In (Ok (z, t)) (xml_iterate_all file 0 pat) /\
  fst (exec (xml_get_at file 0 pat z) new_xparser) = Err (EMsg "Cannot read xml data").
Proof. exists ex_file, absolute, 49%Z, ex_item1. split; [vm_compute; right; left; reflexivity|vm_compute; reflexivity]. Qed.
Print Assumptions C57_absolute_path_refuted.

(** ... and the first one cannot be read twice; after that nothing can be. *)
Theorem C57_absolute_path_twice_refuted : exists file pat z t,
  In (Ok (z, t)) (xml_iterate_all file 0 pat) /\
  fst (exec (xml_get_at file 0 pat z) new_xparser) = Ok t /\
  fst (exec (xml_get_at file 0 pat z) (gets file 0 pat [z] new_xparser)) = Err (EMsg "Cannot read xml data") /\
  Forall (fun y => match y with Ok (x, _) => fst (exec (xml_get_at file 0 pat x) (gets file 0 pat [z; z] new_xparser)) = Err (EMsg "Cannot read xml data") | _ => False end) (xml_iterate_all file 0 pat).
Proof.
  exists ex_file, absolute, 0%Z, ex_item0. split; [vm_compute; left; reflexivity|]. split; [vm_compute; reflexivity|]. split; [vm_compute; reflexivity|].
  replace (xml_iterate_all ex_file 0 absolute) with [Ok (0%Z, ex_item0); Ok (49%Z, ex_item1)] by (vm_compute; reflexivity).
  constructor; [vm_compute; reflexivity|]. constructor; [vm_compute; reflexivity|constructor].
Qed.
Print Assumptions C57_absolute_path_twice_refuted.

(** <root><a><item></item></a><b><item></item></b></root>: records under different
    parents.  Reading the second one first fails, and then the first one cannot be
    read either. *)
Definition cousins : xfile :=
  [start_tag "root"; start_tag "a"; start_tag "item"; end_tag "item"; end_tag "a"; start_tag "b"; start_tag "item"; end_tag "item"; end_tag "b"; end_tag "root"].

Theorem C57_parents_refuted : exists file name z t z0 t0,
  In (Ok (z, t)) (xml_iterate_all file 0 [(true, name)]) /\ In (Ok (z0, t0)) (xml_iterate_all file 0 [(true, name)]) /\
  fst (exec (xml_get_at file 0 [(true, name)] z) new_xparser) = Err (EMsg "Cannot read xml data") /\
  fst (exec (xml_get_at file 0 [(true, name)] z0) new_xparser) = Ok t0 /\
  fst (exec (xml_get_at file 0 [(true, name)] z0) (gets file 0 [(true, name)] [z] new_xparser)) = Err (EMsg "Cannot read xml data").
Proof.
  exists cousins, (lit "item"), 22%Z, (XElem (lit "item") [] []), 0%Z, (XElem (lit "item") [] []).
  split; [vm_compute; right; left; reflexivity|]. split; [vm_compute; left; reflexivity|]. repeat split; vm_compute; reflexivity.
Qed.
Print Assumptions C57_parents_refuted.

(** The file of the first example, declared to be in another character set, which a
    converter then reads in advance: the second record is indexed at the end of the
    file, where nothing is found; the first one, asked twice, is another one the second time. *)
Definition converted : xfile := (RProc (lit "xml") true, 21) :: ex_body.

Theorem C57_charset_refuted : exists file name chunk z t z0 t0,
  In (Ok (z, t)) (xml_iterate_all file chunk [(true, name)]) /\ In (Ok (z0, t0)) (xml_iterate_all file chunk [(true, name)]) /\
  fst (exec (xml_get_at file chunk [(true, name)] z) new_xparser) = Err (EMsg "Did not find an XML record at position") /\
  fst (exec (xml_get_at file chunk [(true, name)] z0) new_xparser) = Ok t0 /\
  fst (exec (xml_get_at file chunk [(true, name)] z0) (gets file chunk [(true, name)] [z0] new_xparser)) = Ok t /\ t <> t0.
Proof.
  exists converted, (lit "item"), 100, 83%Z, ex_item1, 0%Z, ex_item0.
  split; [vm_compute; right; left; reflexivity|]. split; [vm_compute; left; reflexivity|].
  split; [vm_compute; reflexivity|]. split; [vm_compute; reflexivity|]. split; [vm_compute; reflexivity|discriminate].
Qed.
Print Assumptions C57_charset_refuted.

(** The input keeps something of every call: after [k] calls for the first record of
    <root><item/></root>, [k] elements are open in its decoder. *)
Theorem C57_memory_refuted : exists file name, (exists recs, flat name recs (map fst file) /\ map fst (places file 0 recs) = [0%Z]) /\
  forall k, List.length (x_stack (xp_dec (gets file 0 [(true, name)] (repeat 0%Z k) new_xparser))) = k.
Proof.
  exists leak_file, (lit "item"). split.
  - eexists. split.
    + change (map fst leak_file) with ([] ++ [RStart (lit "root") []] ++ ([] ++ [RVoid (lit "item") []] ++ []) ++ [REnd (lit "root")]).
      apply flat_some; [constructor|apply opening_elem; [discriminate|constructor]| |constructor; [exact I|constructor]].
      apply listed_record with (gap := []) (a := []) (kids := []); constructor.
    + reflexivity.
  - exact leak_gets_new.
Qed.
Print Assumptions C57_memory_refuted.

(** C38 for XML inputs: readers ask for records by their number in the index.  Partial: for
    the files and positions of C57 only. *)
Theorem C38_xml_answers_exact_partial : forall name file chunk recs, Forall (fun tn => 0 < snd tn) file -> flat name recs (map fst file) ->
  forall numbers c, steps _ _ _ (xml_get_record file chunk [(true, name)] (places file 0 recs)) (start _ _ _ new_xparser numbers) c ->
  Forall (fun t => Forall (fun qa => snd qa = match nth_error recs (fst qa) with Some (_, t) => Ok t | None => Err ENotFound end) (answers_of _ _ _ t)) (c_threads _ _ _ c).
Proof. exact xml_concurrent_answers_recs. Qed.
Print Assumptions C38_xml_answers_exact_partial.

Theorem C38_xml_no_endless_execution_partial : forall name file chunk recs, Forall (fun tn => 0 < snd tn) file -> flat name recs (map fst file) ->
  forall numbers, Acc (fun c' c => step _ _ _ (xml_get_record file chunk [(true, name)] (places file 0 recs)) c c') (start _ _ _ new_xparser numbers).
Proof. exact xml_concurrent_acc. Qed.
Print Assumptions C38_xml_no_endless_execution_partial.

Theorem C38_xml_all_answered_partial : forall name file chunk recs, Forall (fun tn => 0 < snd tn) file -> flat name recs (map fst file) ->
  forall numbers c, steps _ _ _ (xml_get_record file chunk [(true, name)] (places file 0 recs)) (start _ _ _ new_xparser numbers) c ->
  (forall c', ~ step _ _ _ (xml_get_record file chunk [(true, name)] (places file 0 recs)) c c') ->
  c_threads _ _ _ c = map (fun ks => Idle [] (map (fun k => (k, match nth_error recs k with Some (_, t) => Ok t | None => Err ENotFound end)) ks)) numbers.
Proof. exact xml_concurrent_end_recs. Qed.
Print Assumptions C38_xml_all_answered_partial.

(** The second of two readers has begun to read the first record of <root><item/></root>. *)
Example C38_xml_example : exists c,
  steps _ _ _ (xml_get_record leak_file 0 [(true, lit "item")] [(0%Z, XElem (lit "item") [] [])]) (start _ _ _ new_xparser [[0]; [0; 0]]) c /\
  nth_error (c_threads _ _ _ c) 0 = Some (Idle [0] []) /\ x_pos (xp_dec (c_shared _ _ _ c)) = 1 /\ c_locked _ _ _ c = true.
Proof.
  eexists. split; [|split; [|split]].
  - eapply steps_more; [eapply steps_more; [eapply steps_more; [eapply steps_more; [eapply steps_more; [eapply steps_more; [apply steps_none|]|]|]|]|]|].
    + unfold start. cbn [map]. apply (step_lock _ _ _ _ _ [Idle [0] []] 0 [0] [] []).
    + unfold xml_get_record. cbn [nth_error]. unfold xml_get_at. change (0 <? 0)%Z with false. change (xtoken_at leak_file 0) with (Some 0). cbn [bind modify]. apply (step_act _ _ _ _ _ [Idle [0] []]).
    + cbn [bind modify]. apply (step_act _ _ _ _ _ [Idle [0] []]).
    + cbn [bind get]. apply (step_act _ _ _ _ _ [Idle [0] []]).
    + change (xfuel leak_file (settle (xseek 0 new_xparser))) with 11. cbn [bind get xparse_prog]. apply (step_act _ _ _ _ _ [Idle [0] []]).
    + cbn [bind modify]. apply (step_act _ _ _ _ _ [Idle [0] []]).
  - reflexivity.
  - vm_compute. reflexivity.
  - reflexivity.
Qed.
