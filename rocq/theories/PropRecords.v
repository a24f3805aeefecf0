(** Properties C28 and C48: the records of the inputs. *)
From Coq Require Import List ZArith Lia Bool String.
From Coq Require Import Strings.Byte Floats.SpecFloat.
From Verif Require Import Base Value GoStrings SpecText StringsFacts Parser Records SpecRecords RecordsFacts SpecXmlValue XmlValueFacts.
Import ListNotations.
Open Scope Z_scope.

(** C28.  A property of a JSON record is what stands at its path in the whole
    record: null for missing keys and indexes; an error when there is no such
    place (a key in a primitive value, a name in an array). *)
Theorem C28_json_exact : forall data path segs v, dotted path segs -> (json_get data path = Ok v <-> at_path (VMap data) segs v).
Proof. exact json_get_exact. Qed.
Print Assumptions C28_json_exact.
(** C28 (missing: negative indexes, see C28_negative_index_refuted).  It never
    panics. *)
Theorem C28_json_safe_partial : forall data path segs, dotted path segs -> no_negative segs ->
  json_get data path <> Panic /\ json_get data path <> NoFuel.
Proof. exact json_get_safe. Qed.
Print Assumptions C28_json_safe_partial.

(** C28 (missing: names that are not a column are an error, not null, see
    C28_unknown_column_refuted).  The same for the columns of a CSV record. *)
Theorem C28_csv_exact_partial : forall names ps row m path k segs v,
  NoDup names -> csv_all names ps row = Ok m -> dotted path (k :: segs) -> In k names ->
  (csv_get names ps row path = Ok v <-> at_path (VMap m) (k :: segs) v).
Proof. exact csv_get_exact. Qed.
Print Assumptions C28_csv_exact_partial.
Theorem C28_csv_unknown : forall names ps row path k segs, dotted path (k :: segs) -> ~ In k names -> exists e, csv_get names ps row path = Err e.
Proof. exact csv_get_unknown. Qed.
Print Assumptions C28_csv_unknown.
Theorem C28_csv_safe_partial : forall names ps row path segs,
  NoDup names -> List.length ps = List.length names -> (forall p, In p ps -> forall s, p s <> Panic /\ p s <> NoFuel) ->
  dotted path segs -> no_negative segs -> csv_get names ps row path <> Panic /\ csv_get names ps row path <> NoFuel.
Proof. exact csv_get_safe. Qed.
Print Assumptions C28_csv_safe_partial.

(** C28 (missing: as for CSV; below an object which is absent, null instead of an
    error).  The same for the properties of an XML record, for any XPath
    engine. *)
Theorem C28_xml_exact_partial : forall node query evaluate parsers int_of_float (n : node) props m path k segs v,
  NoDup (map x_name props) -> (forall c, In c props -> well_named c) ->
  xml_all node query evaluate parsers int_of_float n props = Ok m -> dotted path (k :: segs) -> In k (map x_name props) ->
  (at_path (VMap m) (k :: segs) v -> xml_get node query evaluate parsers int_of_float n props path = Ok v) /\
  (xml_get node query evaluate parsers int_of_float n props path = Ok v -> at_path (VMap m) (k :: segs) v \/ v = VNil).
Proof. exact xml_get_exact. Qed.
Print Assumptions C28_xml_exact_partial.
(** When no object is missing in the record ([node_row], SpecXmlValue.v) this is
    exact; the whole record is the row of values of its properties. *)
Theorem C28_xml_values : forall node query evaluate parsers int_of_float (typed : bytes -> xparser -> Prop) (cell : bytes -> parser_fun),
  (forall p t, typed p t -> exists f, mget parsers p = Some (t, f)) ->
  (forall p s v, cell p s = Ok v -> exists t f, mget parsers p = Some (t, f) /\ f s = Ok v) ->
  forall (n : node) props a path k segs v, NoDup (map x_name props) -> (forall c, In c props -> well_named c) ->
  node_row node query evaluate int_of_float typed cell n props a -> dotted path (k :: segs) -> In k (map x_name props) ->
  (xml_get node query evaluate parsers int_of_float n props path = Ok v <-> at_path (VMap a) (k :: segs) v).
Proof. exact row_get. Qed.
Print Assumptions C28_xml_values.
Theorem C28_xml_row : forall node query evaluate parsers int_of_float (typed : bytes -> xparser -> Prop) (cell : bytes -> parser_fun),
  (forall p t, typed p t -> exists f, mget parsers p = Some (t, f)) ->
  (forall p s v, cell p s = Ok v -> exists t f, mget parsers p = Some (t, f) /\ f s = Ok v) ->
  forall (n : node) props a, NoDup (map x_name props) -> (forall c, In c props -> well_named c) ->
  node_row node query evaluate int_of_float typed cell n props a -> xml_all node query evaluate parsers int_of_float n props = Ok a.
Proof. exact row_all. Qed.
Print Assumptions C28_xml_row.
Theorem C28_xml_unknown : forall node query evaluate parsers int_of_float (n : node) props path k segs,
  dotted path (k :: segs) -> ~ In k (map x_name props) -> exists e, xml_get node query evaluate parsers int_of_float n props path = Err e.
Proof. exact xml_get_unknown. Qed.
Print Assumptions C28_xml_unknown.
Theorem C28_xml_safe_partial : forall node query evaluate parsers int_of_float,
  (forall name t p, mget parsers name = Some (t, p) -> forall s, p s <> Panic /\ p s <> NoFuel) ->
  forall (n : node) props path segs, dotted path segs -> no_negative segs ->
  xml_get node query evaluate parsers int_of_float n props path <> Panic /\ xml_get node query evaluate parsers int_of_float n props path <> NoFuel.
Proof. exact xml_get_safe. Qed.
Print Assumptions C28_xml_safe_partial.
Theorem C28_xml_all_safe : forall node query evaluate parsers int_of_float,
  (forall name t p, mget parsers name = Some (t, p) -> forall s, p s <> Panic /\ p s <> NoFuel) ->
  forall (n : node) props, xml_all node query evaluate parsers int_of_float n props <> Panic /\ xml_all node query evaluate parsers int_of_float n props <> NoFuel.
Proof. exact xml_all_safe. Qed.
Print Assumptions C28_xml_all_safe.
Theorem C28_every_path : forall path, path <> [] -> exists segs, dotted path segs.
Proof. exact (fun path H => ex_intro _ (segments path) (conj H (segments_pieces path))). Qed.
Print Assumptions C28_every_path.

(** A document with nested arrays and objects. *)
Definition ex_doc : list (bytes * value) :=
  [(lit "id", VInt 7); (lit "tags", VList [VString (lit "a"); VMap [(lit "x", VBool true)]]); (lit "a.b", VInt 1)].
Lemma ex_dotted path : path <> [] -> dotted path (segments path).
Proof. intros H. split; [exact H|apply segments_pieces]. Qed.
Example C28_json_example :
  map (fun p => json_get ex_doc (lit p)) ["id"; "tags.1.x"; "tags.2.x"; "none.x"; "tags.1"; "id.x"; "tags.x"; "a.b"]%string =
  [Ok (VInt 7); Ok (VBool true); Ok VNil; Ok VNil; Ok (VMap [(lit "x", VBool true)]);
   Err (EMsg "Cannot get sub-path because the value is primitive or unknown"); Err (EMsg "Cannot get sub-path because the value is an array"); Ok VNil] /\
  dotted (lit "tags.1.x") [lit "tags"; lit "1"; lit "x"] /\ no_negative [lit "tags"; lit "1"; lit "x"].
Proof.
  split; [vm_compute; reflexivity|]. split; [exact (ex_dotted (lit "tags.1.x") ltac:(discriminate))|].
  intros k i [<-|[<-|[<-|[]]]] H.
  - exfalso. assert (G : atoi (lit "tags") = Err (EMsg "invalid syntax")) by (vm_compute; reflexivity).
    inversion H as [ds z Hd| |]; subst. apply decimal_spec in Hd as (_ & Hd & _). discriminate Hd.
  - inversion H as [ds z Hd| |]; subst. apply decimal_spec in Hd as (_ & _ & <-). vm_compute. discriminate.
  - inversion H as [ds z Hd| |]; subst. apply decimal_spec in Hd as (_ & Hd & _). discriminate Hd.
Qed.

(** A negative index makes the process panic. *)
Theorem C28_negative_index_refuted : exists data path, path <> [] /\ json_get data path = Panic.
Proof. exists ex_doc, (lit "tags.-1"). split; [discriminate|vm_compute; reflexivity]. Qed.
Print Assumptions C28_negative_index_refuted.
(** A name that is not a column is an error. *)
Theorem C28_unknown_column_refuted : exists names ps row m path e,
  csv_all names ps row = Ok m /\ at_path (VMap m) (segments path) VNil /\ csv_get names ps row path = Err e.
Proof.
  exists [lit "id"], [parse_integer []], [lit "7"], [(lit "id", VInt 7)], (lit "name"). eexists.
  split; [vm_compute; reflexivity|]. split; [|vm_compute; reflexivity]. change (segments (lit "name")) with [lit "name"]. apply ap_no_key.
  intros [H|[]]. discriminate H.
Qed.
Print Assumptions C28_unknown_column_refuted.
(** A column with a dot in its name is in the whole record but cannot be read. *)
Theorem C28_dot_in_name_refuted : exists names ps row m path e, csv_all names ps row = Ok m /\ mget m path <> None /\ csv_get names ps row path = Err e.
Proof.
  exists [lit "a.b"], [parse_integer []], [lit "7"], [(lit "a.b", VInt 7)], (lit "a.b"). eexists.
  split; [vm_compute; reflexivity|]. split; [discriminate|vm_compute; reflexivity].
Qed.
Print Assumptions C28_dot_in_name_refuted.

(** A CSV record with a split column. *)
Definition ex_names : list bytes := [lit "id"; lit "tags"; lit "last"].
Definition ex_ps : list parser_fun :=
  [parse_integer []; (fun s => Ok (VList (map VString (go_split s (lit "/"))))); (fun s => Ok (VString s))].
Example C28_csv_example : NoDup ex_names /\
  csv_all ex_names ex_ps [lit "7"; lit "x/y"] = Ok [(lit "id", VInt 7); (lit "tags", VList [VString (lit "x"); VString (lit "y")]); (lit "last", VNil)] /\
  map (fun p => csv_get ex_names ex_ps [lit "7"; lit "x/y"] (lit p)) ["id"; "tags.1"; "tags.2"; "last"]%string = [Ok (VInt 7); Ok (VString (lit "y")); Ok VNil; Ok VNil] /\
  dotted (lit "tags.1") [lit "tags"; lit "1"].
Proof.
  split; [|split; [vm_compute; reflexivity|split; [vm_compute; reflexivity|exact (ex_dotted (lit "tags.1") ltac:(discriminate))]]].
  unfold ex_names. repeat (apply NoDup_cons; [vm_compute; intuition discriminate|]). apply NoDup_nil.
Qed.

(** An XML document as a small tree: name, text, children; the XPath "x" selects
    the children named x, "string(x)" the text of the first one. *)
Inductive xnode := XNode (name text : bytes) (children : list xnode).
Definition xn_name (n : xnode) := match n with XNode a _ _ => a end.
Definition xn_text (n : xnode) := match n with XNode _ t _ => t end.
Definition xn_children (n : xnode) := match n with XNode _ _ c => c end.
Definition ex_query (n : xnode) (x : bytes) : list xnode := filter (fun c => bytes_eqb (xn_name c) x) (xn_children n).
Definition ex_evaluate (n : xnode) (x : bytes) : xresult :=
  match x with [] => XString (xn_text n) | _ => match ex_query n x with c :: _ => XString (xn_text c) | [] => XString [] end end.
Definition ex_xparsers : list (bytes * (xparser * parser_fun)) := [(lit "string", (XPString, fun s => Ok (VString s))); (lit "integer", (XPInteger, parse_integer []))].
Definition ex_xprops : list xprop :=
  [XPrimitive (lit "id") (lit "id") (lit "integer");
   XArray (lit "items") (lit "item") (XObject [] (lit "detail") [XPrimitive (lit "price") (lit "price") (lit "integer")]);
   XObject (lit "owner") (lit "owner") [XPrimitive (lit "name") (lit "name") (lit "string")]].
Definition ex_xnode : xnode :=
  XNode (lit "record") [] [XNode (lit "id") (lit "3") []; XNode (lit "item") [] [XNode (lit "detail") [] [XNode (lit "price") (lit "12") []]]; XNode (lit "item") [] []].
Example C28_xml_example : NoDup (map x_name ex_xprops) /\ (forall c, In c ex_xprops -> well_named c) /\
  (forall f, xml_all xnode ex_query ex_evaluate ex_xparsers f ex_xnode ex_xprops =
    Ok [(lit "id", VInt 3); (lit "items", VList [VMap [(lit "price", VInt 12)]; VNil]); (lit "owner", VNil)] /\
  map (fun p => xml_get xnode ex_query ex_evaluate ex_xparsers f ex_xnode ex_xprops (lit p)) ["items.0.price"; "items.1"; "items.1.price"; "items.5.price"; "owner.name"; "id"]%string
    = [Ok (VInt 12); Ok VNil; Ok VNil; Ok VNil; Ok VNil; Ok (VInt 3)]).
Proof.
  split; [unfold ex_xprops; repeat (apply NoDup_cons; [vm_compute; intuition discriminate|]); apply NoDup_nil|].
  split; [|intros f; split; vm_compute; reflexivity].
  intros c [<-|[<-|[<-|[]]]]; repeat constructor; try (intros c [<-|[]]; constructor); intros [].
Qed.

(** A record without missing object. *)
Definition ex_full : xnode :=
  XNode (lit "record") [] [XNode (lit "id") (lit "3") []; XNode (lit "item") [] [XNode (lit "detail") [] [XNode (lit "price") (lit "12") []]]; XNode (lit "owner") [] [XNode (lit "name") (lit "Ann") []]].
Definition ex_typed (p : bytes) (t : xparser) : Prop := exists f, mget ex_xparsers p = Some (t, f).
Definition ex_xcell (p : bytes) : parser_fun := match mget ex_xparsers p with Some (_, f) => f | None => fun _ => Err (EMsg "no parser") end.
Example C28_xml_values_example :
  (forall p t, ex_typed p t -> exists f, mget ex_xparsers p = Some (t, f)) /\
  (forall p s v, ex_xcell p s = Ok v -> exists t f, mget ex_xparsers p = Some (t, f) /\ f s = Ok v) /\
  (forall f, node_row xnode ex_query ex_evaluate f ex_typed ex_xcell ex_full ex_xprops
    [(lit "id", VInt 3); (lit "items", VList [VMap [(lit "price", VInt 12)]]); (lit "owner", VMap [(lit "name", VString (lit "Ann"))])]).
Proof.
  split; [intros p t H; exact H|]. split.
  - intros p s v. unfold ex_xcell. destruct (mget ex_xparsers p) as [[t f]|]; [|discriminate]. intro H. exists t, f. split; [reflexivity|exact H].
  - intro f. exists [VInt 3; VList [VMap [(lit "price", VInt 12)]]; VMap [(lit "name", VString (lit "Ann"))]]. split; [reflexivity|].
    constructor; [eapply nv_text; [vm_compute; reflexivity|vm_compute; reflexivity]|]. constructor; [|constructor; [|constructor]].
    + apply nv_array. change (ex_query ex_full (lit "item")) with [XNode (lit "item") [] [XNode (lit "detail") [] [XNode (lit "price") (lit "12") []]]].
      constructor; [|constructor]. apply (nv_object xnode ex_query ex_evaluate f ex_typed ex_xcell) with (vs := [VInt 12]) (n' := XNode (lit "detail") [] [XNode (lit "price") (lit "12") []]); [reflexivity|]. constructor; [eapply nv_text; [vm_compute; reflexivity|vm_compute; reflexivity]|constructor].
    + apply (nv_object xnode ex_query ex_evaluate f ex_typed ex_xcell) with (vs := [VString (lit "Ann")]) (n' := XNode (lit "owner") [] [XNode (lit "name") (lit "Ann") []]); [reflexivity|]. constructor; [eapply nv_text; [vm_compute; reflexivity|vm_compute; reflexivity]|constructor].
Qed.

(** C48.  The whole of a CSV record has every column once: null beyond the end of
    the row, the parsed cell otherwise; cells beyond the columns are ignored. *)
Theorem C48_csv_row_exact : forall names ps row r, NoDup names -> List.length ps = List.length names ->
  (csv_all names ps row = Ok r <->
   map fst r = names /\ forall i p v, nth_error ps i = Some p -> nth_error (map snd r) i = Some v -> cell_value row i p v).
Proof. exact csv_all_exact. Qed.
Print Assumptions C48_csv_row_exact.
Theorem C48_extra_cells_ignored : forall names ps row path,
  csv_all names ps row = csv_all names ps (firstn (List.length names) row) /\ csv_get names ps row path = csv_get names ps (firstn (List.length names) row) path.
Proof. exact (fun names ps row path => conj (csv_all_extra names ps row) (csv_get_extra names ps row path)). Qed.
Print Assumptions C48_extra_cells_ignored.
(** The columns found in the header are different and not empty. *)
Theorem C48_autodetected_columns : forall row cs, autodetect row [] = Ok cs <-> cs = row /\ ~ In [] row /\ NoDup row /\ forall c, In c row -> ~ In c [].
Proof. exact (fun row cs => autodetect_spec row [] cs). Qed.
Print Assumptions C48_autodetected_columns.

Example C48_example :
  csv_all ex_names ex_ps [lit "7"] = Ok [(lit "id", VInt 7); (lit "tags", VNil); (lit "last", VNil)] /\
  csv_all ex_names ex_ps [lit "7"; lit "x"; lit "z"; lit "more"; lit "cells"] = Ok [(lit "id", VInt 7); (lit "tags", VList [VString (lit "x")]); (lit "last", VString (lit "z"))] /\
  autodetect [lit "id"; lit "name"] [] = Ok [lit "id"; lit "name"] /\
  autodetect [lit "id"; lit "id"] [] = Err (EMsg "autodetectColumns is enabled, but there is a duplicate column.").
Proof. vm_compute. repeat split. Qed.
