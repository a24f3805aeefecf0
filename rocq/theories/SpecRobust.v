(** What a configuration and its files have to be for the program never to stop while
    it answers a request. *)
From Coq Require Import List ZArith Bool String.
From Coq Require Import Strings.Byte.
From Verif Require Import Sql SqlIndex SpecSql SpecSqlFind.
From Verif Require Import XmlStream XmlInput.
From Verif Require Import Bufio CsvReader System.
From Verif Require Import Stream Wildcard SpecWildcard.
From Verif Require Import Base Codec Value Prog Parser ParserFacts SpecIndex SpecCsv Records SpecRecords Output SpecOutput Http SpecHttp Config SpecConfig Route SpecRoute SpecSystem.
Import ListNotations.
Open Scope Z_scope.

(** No part of the path is a negative number: "a.-1" stops the program (C28). *)
Definition unsigned_path (p : bytes) : Prop := forall segs, dotted p segs -> no_negative segs.

(** The parser of this name gives a string, a number or a boolean, not a list or an
    object, which cannot be a key of a map in Go. *)
Definition gives_primitive (v : vconfig) (parser : bytes) : Prop :=
  forall c, mget (vc_parsers v) parser = Some c -> match c with PJson | PSplit _ _ _ => False | _ => True end.

(** The records of an input have no list and no object in the property [p]: this is known
    from the configuration of CSV and XML files, and is asked of the contents of JSON
    files. *)
Definition primitive_property (v : vconfig) (E : env) (input p : bytes) : Prop :=
  forall c, mget (vc_inputs v) input = Some c ->
  match c with
  | VCsv _ _ _ true _ _ => gives_primitive v (lit "string")
  | VCsv _ _ _ false _ columns => forall parser, In (p, parser) columns -> gives_primitive v parser
  | VXml _ _ props _ => forall x, In x props -> x_name x = p ->
      match x with XPrimitive _ _ parser => gives_primitive v parser | _ => False end
  | VJsonFile _ _ => forall inp position r a x,
      mget (e_inputs E) input = Some inp -> in_get inp position = Ok r -> r_all r = Ok a -> mget a p = Some x -> primitive x
  end.

(** The relationships of the records of an input, and theirs: the limits fit in an int,
    the parents are primitive properties that no relationship replaces, and no path has a
    negative number in it. *)
Inductive modest (v : vconfig) (E : env) : bytes -> list (bytes * relationship) -> Prop :=
| modest_intro input rels :
    (forall name c, In (name, c) rels ->
      0 <= rel_limit c < two63 /\
      (forall m, In m (rel_match c) -> ~ In (m_parent m) (map fst rels) /\ unsigned_path (m_child m) /\ primitive_property v E input (m_parent m)) /\
      (forall s, In s (rel_sort c) -> unsigned_path (fst s)) /\
      modest v E (rel_input c) (rel_children c)) ->
    modest v E input rels.

(** [E] is what [v] gives, see [boot]. *)
Record robust (files : bytes -> bytes) (cap : nat) (chunk : nat -> nat) (decode_charset : bytes -> bytes -> res bytes) (csv_state : bytes -> reader)
  (lower : bytes -> bytes) (index_file : bytes -> option bytes) (visit : list (list sqlv) -> list (res (list sqlv)))
  (fts_match : Sql.table -> sqlv -> res (list (list sqlv))) (v : vconfig) (E : env) : Prop := mkRobust {
  (* the buffers are not empty, and the shared readers of CSV files are in a state that
     the program leaves them in *)
  rb_buffer : (0 < cap)%nat;
  rb_reader : forall n path die first detect delimiter columns,
    mget (vc_inputs v) n = Some (VCsv path die first detect delimiter columns) ->
    used (files path) cap chunk (comma_of delimiter) (csv_state n);
  (* the packages for charsets and SQLite come back *)
  rb_charset : forall c s, returns (decode_charset c s);
  rb_sqlite : only_rows visit /\ forall t a, returns (fts_match t a);
  (* no split parser uses itself *)
  rb_parsers : acyclic (vc_parsers v);
  (* the wildcard indexes are those of their inputs *)
  rb_wildcards : wildcards_ready lower index_file v E /\
    forall n path input props ic inp, mget (vc_indexes v) n = Some (VIWildcard path input props ic) ->
      mget (e_inputs E) input = Some inp -> SpecWildcard.indexable props inp;
  rb_params : forall n o name pc, In (n, VOutput o) (vc_outputs v) -> In (name, pc) (out_params o) -> unsigned_path (pm_property pc);
  rb_rels : forall n o, In (n, VOutput o) (vc_outputs v) -> modest v E (out_input o) (out_rels o);
  (* the routes are texts with parameters between them *)
  rb_routes : forall n sc name path o, In (n, sc) (vc_services v) -> In (name, path) (vs_routes sc) ->
    mget (vc_outputs v) name = Some (VOutput o) ->
    exists parts names cfgs, path = template parts names /\ clear_path (vc_parsers v) o parts names cfgs;
}.

(** The values of a parser, and of a property of an XML file, have no infinite and no
    not-a-number: this is known of all but the float parser, which reads "Inf" and "NaN". *)
Inductive number_parser (ps : parsers) : bytes -> Prop :=
| np_simple name : (forall c, mget ps name = Some c -> match c with PFloat _ _ | PSplit _ _ _ => False | _ => True end) -> number_parser ps name
| np_split name delimiter is_regexp sub : mget ps name = Some (PSplit delimiter is_regexp sub) -> number_parser ps sub -> number_parser ps name.
Inductive number_property (ps : parsers) : xprop -> Prop :=
| npr_primitive n xpath parser : number_parser ps parser -> number_property ps (XPrimitive n xpath parser)
| npr_array n xpath items : number_property ps items -> number_property ps (XArray n xpath items)
| npr_object n xpath props : Forall (number_property ps) props -> number_property ps (XObject n xpath props).

(** The inputs with other parsers have only numbers in their records. *)
Definition numeric (v : vconfig) (E : env) : Prop := forall n c, mget (vc_inputs v) n = Some c ->
  match c with
  | VCsv _ _ _ true _ _ => number_parser (vc_parsers v) (lit "string")
  | VCsv _ _ _ false _ columns => forall k parser, In (k, parser) columns -> number_parser (vc_parsers v) parser
  | VXml _ _ props _ => Forall (number_property (vc_parsers v)) props
  | VJsonFile _ _ => True
  end \/
  forall inp p r d, mget (e_inputs E) n = Some inp -> in_get inp p = Ok r -> r_all r = Ok d -> numbers_only (VMap d).
