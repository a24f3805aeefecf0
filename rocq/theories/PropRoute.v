(** Properties C30 and C32-C35: route patterns, parameters and routing. *)
From Coq Require Import List ZArith Lia Bool String.
From Coq Require Import Strings.Byte Floats.SpecFloat.
From Verif Require Import Base Value GoStrings SpecText Parser Regex Output Http SpecHttp Route SpecRoute RouteFacts4 RouteFacts5 OutputExample.
Import ListNotations.
Open Scope Z_scope.

(** C30.  A boolean parser accepts exactly its values, "true" ones first. *)
Theorem C30_boolean_exact : forall t f s,
  (parse_boolean t f s = Ok (VBool true) <-> In s t) /\ (parse_boolean t f s = Ok (VBool false) <-> In s f /\ ~ In s t) /\
  ((exists e, parse_boolean t f s = Err e) <-> ~ In s (t ++ f)).
Proof. exact boolean_parse. Qed.
Print Assumptions C30_boolean_exact.

(** C30 (missing: values which are not valid UTF-8 or contain U+FFFD, see
    C30_invalid_byte_refuted).  The pattern of a boolean parser matches exactly
    the values of the parser, whatever special characters they have. *)
Theorem C30_boolean_pattern_partial : forall t f, t ++ f <> [] -> Forall value_text (t ++ f) ->
  exists re, compile (lit "^(" ++ pattern (PBoolean t f) ++ lit ")$") = Ok re /\
  forall s, (exists cs, find_submatch re s = Some cs) <-> In s (t ++ f).
Proof. exact boolean_pattern. Qed.
Print Assumptions C30_boolean_pattern_partial.

Ltac texts := repeat (apply Forall_cons; [|]); try apply Forall_nil.
Ltac text_of l := exists l; split; [vm_compute; reflexivity|texts; unfold scalar, rune_error; lia].
Example C30_example : let t := [lit "y|es"; lit "(1+)"; lit "$"] in let f := [lit "no."; lit ""; lit "\E["] in
  t ++ f <> [] /\ Forall value_text (t ++ f) /\
  (rlet re := compile (lit "^(" ++ pattern (PBoolean t f) ++ lit ")$") in
   Ok (map (fun s => match find_submatch re (lit s) with Some _ => true | None => false end) ["y|es"; "y"; "(1+)"; "(11)"; "$"; "no."; "noo"; ""; "\E["]%string))
  = Ok [true; false; true; false; true; true; false; true; true].
Proof.
  split; [discriminate|]. split; [|vm_compute; reflexivity]. cbn [app]. texts.
  - text_of [121; 124; 101; 115].
  - text_of [40; 49; 43; 41].
  - text_of [36].
  - text_of [110; 111; 46].
  - text_of (@nil Z).
  - text_of [92; 69; 91].
Qed.

(** The pattern of the value U+FFFD matches any byte that is not valid UTF-8,
    which is not a value of the parser. *)
Theorem C30_invalid_byte_refuted : exists t f s re cs,
  compile (lit "^(" ++ pattern (PBoolean t f) ++ lit ")$") = Ok re /\ find_submatch re s = Some cs /\ ~ In s (t ++ f).
Proof.
  exists [[xef; xbf; xbd]], [lit "n"], [xff]. do 2 eexists. split; [vm_compute; reflexivity|]. split; [vm_compute; reflexivity|].
  intros [H|[H|[]]]; discriminate H.
Qed.
Print Assumptions C30_invalid_byte_refuted.

(** C32 (missing: ignored characters with "-", which makes a range, or U+FFFD;
    texts without any digit that counts, see C32_no_digit_refuted; numbers out
    of range, see C32_overflow_refuted).  A text that matches the pattern of an
    integer parser is the text of a number, which the parser reads unless it is
    out of range. *)
Theorem C32_integer_pattern_partial : forall cs s re caps, Forall (fun c => scalar c /\ c <> 45 /\ c <> rune_error) cs ->
  compile (lit "^(" ++ pattern (PInteger (text cs)) ++ lit ")$") = Ok re -> find_submatch re s = Some caps ->
  (exists c, In c (runes s) /\ 48 <= c <= 57 /\ ~ In c cs) ->
  exists z, signed_decimal (text (filter (fun r => negb (existsb (Z.eqb r) cs)) (runes s))) z /\
    ((in_i64 z /\ parse_integer (text cs) s = Ok (VInt z)) \/ (~ in_i64 z /\ exists e, parse_integer (text cs) s = Err e)).
Proof. exact integer_pattern. Qed.
Print Assumptions C32_integer_pattern_partial.
Theorem C32_integer_pattern_compiles : forall cs, Forall (fun c => scalar c /\ c <> 45) cs ->
  exists re, compile (lit "^(" ++ pattern (PInteger (text cs)) ++ lit ")$") = Ok re.
Proof. exact integer_pattern_compiles. Qed.
Print Assumptions C32_integer_pattern_compiles.

Definition matched (c : pconfig) (s : bytes) : Prop :=
  exists re cs, compile (lit "^(" ++ pattern c ++ lit ")$") = Ok re /\ find_submatch re s = Some cs.
Ltac matching := do 2 eexists; split; [vm_compute; reflexivity|vm_compute; reflexivity].
Example C32_example : Forall (fun c => scalar c /\ c <> 45 /\ c <> rune_error) [44; 93; 8239] /\
  matched (PInteger (text [44; 93; 8239])) (text [44; 45; 49; 8239; 50; 51; 44; 52; 93]) /\
  (exists c, In c (runes (text [44; 45; 49; 8239; 50; 51; 44; 52; 93])) /\ 48 <= c <= 57 /\ ~ In c [44; 93; 8239]) /\
  parse_integer (text [44; 93; 8239]) (text [44; 45; 49; 8239; 50; 51; 44; 52; 93]) = Ok (VInt (-1234)).
Proof.
  split; [texts; unfold scalar, rune_error; lia|]. split; [matching|]. split; [|vm_compute; reflexivity].
  exists 49. split; [vm_compute; tauto|]. split; [lia|]. intros [H|[H|[H|[]]]]; discriminate H.
Qed.

(** Ignored characters alone match the pattern. *)
Theorem C32_no_digit_refuted : exists ignore s e, matched (PInteger ignore) s /\ parse_integer ignore s = Err e.
Proof. exists (lit ","), (lit ","). eexists. split; [matching|vm_compute; reflexivity]. Qed.
Print Assumptions C32_no_digit_refuted.
(** A number out of range matches the pattern. *)
Theorem C32_overflow_refuted : exists ignore s e, matched (PInteger ignore) s /\ parse_integer ignore s = Err e.
Proof. exists (lit ""), (lit "9223372036854775808"). eexists. split; [matching|vm_compute; reflexivity]. Qed.
Print Assumptions C32_overflow_refuted.
(** With "-" among the ignored characters, the pattern accepts the characters
    of a range. *)
Theorem C32_range_refuted : exists ignore s e, matched (PInteger ignore) s /\ parse_integer ignore s = Err e.
Proof. exists (lit "+-/"), (lit "1.5"). eexists. split; [matching|vm_compute; reflexivity]. Qed.
Print Assumptions C32_range_refuted.
(** The "-" of the number itself is removed when it is ignored: the pattern and
    the parser agree, on another number than the text shows. *)
Example C32_ignored_minus : matched (PInteger (lit "-")) (lit "-5") /\ parse_integer (lit "-") (lit "-5") = Ok (VInt 5).
Proof. split; [matching|vm_compute; reflexivity]. Qed.

(** Routes of the examples: an article of a shop in a language. *)
Definition ex_parsers : parsers :=
  [(lit "string", PString (lit "")); (lit "integer", PInteger (lit ",")); (lit "boolean", PBoolean [lit "yes"; lit "1"] [lit "no"; lit "0"])].
Definition ex_out : output := OArray (mkArray (lit "people") 2 10 (lit "limit") (lit "offset")
  [(lit "lang", mkParam (lit "lang") (lit "default") (lit "string")); (lit "id", mkParam (lit "id") (lit "default") (lit "integer"));
   (lit "flag", mkParam (lit "flag") (lit "default") (lit "boolean"))] []).
Definition ex_parts : list bytes := [lit "/"; lit "/articles/no-"; lit "/"; lit "/]}end"].
Definition ex_names : list bytes := [lit "lang"; lit "id"; lit "flag"].
Definition ex_cfgs : list pconfig := [PString (lit ""); PInteger (lit ","); PBoolean [lit "yes"; lit "1"] [lit "no"; lit "0"]].
Ltac plain_of l := exists l; split; [vm_compute; reflexivity|texts; (split; [unfold scalar; lia|split; [discriminate|cbn [In]; intuition discriminate]])].
Example ex_clear : clear_path ex_parsers ex_out ex_parts ex_names ex_cfgs.
Proof.
  split; [reflexivity|]. split; [|split].
  - unfold ex_parts. texts.
    + plain_of [47].
    + plain_of [47; 97; 114; 116; 105; 99; 108; 101; 115; 47; 110; 111; 45].
    + plain_of [47].
    + plain_of [47; 93; 125; 101; 110; 100].
  - unfold ex_names. texts; (split; [discriminate|vm_compute; intuition discriminate]).
  - unfold ex_names, ex_cfgs. apply Forall2_cons; [|apply Forall2_cons; [|apply Forall2_cons; [|apply Forall2_nil]]].
    + split; [eexists; split; reflexivity|exact I].
    + split; [eexists; split; reflexivity|]. exists [44]. split; [vm_compute; reflexivity|texts; unfold scalar; lia].
    + split; [eexists; split; reflexivity|]. split; [discriminate|]. cbn [app]. texts; [text_of [121; 101; 115]|text_of [49]|text_of [110; 111]|text_of [48]].
Qed.

(** C33 (missing: literal text with special characters, see
    C35_special_character_refuted; a parameter after a boolean or a number with
    decimals, see C33_shifted_refuted; one name used twice).  The parameters of
    a request get the text at their place in the path. *)
Theorem C33_own_text_partial : forall ps o parts names cfgs r rq cs,
  clear_path ps o parts names cfgs -> NoDup names -> new_route ps (template parts names) o = Ok r -> rt_match r (rq_path rq) = Some cs ->
  exists vs params, rq_path rq = filled parts vs /\ Forall2 fits cfgs vs /\ get_params r rq = Ok params /\
    forall i n, nth_error names i = Some n -> Forall (fun c => grouping c = false) (firstn i cfgs) -> mget params n = nth_error vs i /\ nth_error vs i <> None.
Proof. exact own_text. Qed.
Print Assumptions C33_own_text_partial.

Example C33_example : clear_path ex_parsers ex_out ex_parts ex_names ex_cfgs /\ NoDup ex_names /\
  filled ex_parts [lit "fr/be"; lit "1,234"; lit "yes"] = lit "/fr/be/articles/no-1,234/yes/]}end" /\
  (rlet r := new_route ex_parsers (template ex_parts ex_names) ex_out in
   rlet ps := get_params r (mkRequest (lit "GET") (lit "/fr/be/articles/no-1,234/yes/]}end") [(lit "id", lit "7"); (lit "x", lit "8")]) in
   Ok (map (fun n => mget ps (lit n)) ["lang"; "id"; "flag"; "x"; "y"]%string))
  = Ok [Some (lit "fr/be"); Some (lit "1,234"); Some (lit "yes"); Some (lit "8"); None].
Proof.
  split; [exact ex_clear|]. split; [|split; vm_compute; reflexivity].
  unfold ex_names. repeat (apply NoDup_cons; [vm_compute; intuition discriminate|]). apply NoDup_nil.
Qed.

(** The placeholders of a path are parameters of the output, with a parser of single values: other
    paths are refused. *)
Theorem C33_parameters : forall ps o parts names r, List.length parts = S (List.length names) -> Forall (fun p => ~ In x7b p) parts -> Forall name_ok names ->
  new_route ps (template parts names) o = Ok r -> rt_params r = names /\ Forall (fun n => exists c, bound ps o n c /\ single_valued c) names.
Proof. exact template_names. Qed.
Print Assumptions C33_parameters.
Theorem C33_every_path : forall ps path o r, new_route ps path o = Ok r -> Forall (fun n => exists c, bound ps o n c /\ single_valued c) (rt_params r).
Proof. exact route_names. Qed.
Print Assumptions C33_every_path.
Example C33_parameters_example :
  (exists r, new_route ex_parsers (lit "/{lang}/{id") ex_out = Ok r /\ rt_params r = [lit "lang"]) /\
  (exists e, new_route ex_parsers (lit "/{other}") ex_out = Err e) /\
  (exists e, new_route [(lit "string", PJson)] (lit "/{lang}") ex_out = Err e) /\
  (exists e, new_route [(lit "string", PSplit (lit ",") false (lit "string"))] (lit "/{lang}") ex_out = Err e).
Proof. repeat split; eexists; try (split; [vm_compute; reflexivity|]); vm_compute; reflexivity. Qed.

(** The pattern of a boolean has a group of its own, which shifts the values of
    the next parameters: with "/{flag}/{id}", the path "/yes/12" gives "yes" as
    the id. *)
Theorem C33_shifted_refuted : exists ps o r params,
  clear_path ps o [lit "/"; lit "/"; lit ""] [lit "flag"; lit "id"] [PBoolean [lit "yes"; lit "1"] [lit "no"; lit "0"]; PInteger (lit ",")] /\
  new_route ps (lit "/{flag}/{id}") o = Ok r /\ get_params r (mkRequest (lit "GET") (lit "/yes/12") []) = Ok params /\ mget params (lit "id") = Some (lit "yes").
Proof.
  assert (H : match new_route ex_parsers (lit "/{flag}/{id}") ex_out with
    | Ok r => match get_params r (mkRequest (lit "GET") (lit "/yes/12") []) with Ok params => mget params (lit "id") = Some (lit "yes") | _ => False end
    | _ => False end) by (vm_compute; reflexivity).
  destruct (new_route ex_parsers (lit "/{flag}/{id}") ex_out) as [r| | |] eqn:E1; try contradiction.
  destruct (get_params r (mkRequest (lit "GET") (lit "/yes/12") [])) as [params| | |] eqn:E2; try contradiction.
  exists ex_parsers, ex_out, r, params. split; [|split; [exact E1|split; [exact E2|exact H]]].
  split; [reflexivity|]. split; [|split].
  - texts; [plain_of [47]|plain_of [47]|plain_of (@nil Z)].
  - texts; (split; [discriminate|vm_compute; intuition discriminate]).
  - apply Forall2_cons; [|apply Forall2_cons; [|apply Forall2_nil]].
    + split; [eexists; split; reflexivity|]. split; [discriminate|]. cbn [app]. texts; [text_of [121; 101; 115]|text_of [49]|text_of [110; 111]|text_of [48]].
    + split; [eexists; split; reflexivity|]. exists [44]. split; [vm_compute; reflexivity|texts; unfold scalar; lia].
Qed.
Print Assumptions C33_shifted_refuted.

(** C34.  What the path gives to a parameter does not depend on the query
    string, and is the value of its group; the others have their first value of
    the query string. *)
Theorem C34_path_wins : forall r rq rq' ps ps' n, rq_path rq = rq_path rq' -> get_params r rq = Ok ps -> get_params r rq' = Ok ps' ->
  In n (rt_params r) -> mget ps n = mget ps' n.
Proof. exact path_wins. Qed.
Print Assumptions C34_path_wins.
Theorem C34_path_value : forall r rq ps cs i n, NoDup (rt_params r) -> rt_match r (rq_path rq) = Some cs -> get_params r rq = Ok ps ->
  nth_error (rt_params r) i = Some n -> mget ps n = nth_error cs i.
Proof. exact path_values. Qed.
Print Assumptions C34_path_value.
Theorem C34_first_query_value : forall r rq ps n v, get_params r rq = Ok ps -> ~ In n (rt_params r) ->
  (first_value (rq_query rq) n v <-> mget ps n = v).
Proof. exact query_others. Qed.
Print Assumptions C34_first_query_value.

Example C34_example :
  (rlet r := new_route ex_parsers (lit "/{id}") ex_out in
   rlet ps := get_params r (mkRequest (lit "GET") (lit "/12") [(lit "lang", lit "a"); (lit "id", lit "7"); (lit "lang", lit "b")]) in
   rlet qs := get_params r (mkRequest (lit "GET") (lit "/12") []) in
   Ok (rt_params r, map (fun n => mget ps (lit n)) ["id"; "lang"; "flag"]%string, map (fun n => mget qs (lit n)) ["id"; "lang"; "flag"]%string))
  = Ok ([lit "id"], [Some (lit "12"); Some (lit "a"); None], [Some (lit "12"); None; None]) /\
  first_value [(lit "lang", lit "a"); (lit "id", lit "7"); (lit "lang", lit "b")] (lit "lang") (Some (lit "a")) /\
  first_value [(lit "lang", lit "a"); (lit "id", lit "7"); (lit "lang", lit "b")] (lit "flag") None.
Proof.
  split; [vm_compute; reflexivity|]. split; [apply fv_here|]. repeat (apply fv_next; [discriminate|]). apply fv_none.
Qed.

(** C35.  A request is answered by the first route that matches, and 404 when
    there is none. *)
Theorem C35_first_route : forall E ord ff et wo routes rq r, first_match routes rq r ->
  serve E ord ff et wo routes rq = match get_params r rq with
    | Ok params => handle E ord ff et wo (rt_output r) params []
    | Err e => ([], Err e) | Panic => ([], Panic) | NoFuel => ([], NoFuel) end.
Proof. exact serve_first. Qed.
Print Assumptions C35_first_route.
Theorem C35_no_route : forall E ord ff et wo routes rq,
  (rq_method rq <> lit "GET" \/ forall r, In r routes -> rt_match r (rq_path rq) = None) ->
  serve E ord ff et wo routes rq = send_error_response ff et wo 404 (EMsg "No matching route was found") [].
Proof. exact serve_none. Qed.
Print Assumptions C35_no_route.
Theorem C35_either : forall routes rq,
  (exists r, first_match routes rq r) \/ (rq_method rq <> lit "GET" \/ forall r, In r routes -> rt_match r (rq_path rq) = None).
Proof. exact route_or_none. Qed.
Print Assumptions C35_either.
Theorem C35_not_both : forall routes rq r,
  first_match routes rq r -> ~ (rq_method rq <> lit "GET" \/ forall r, In r routes -> rt_match r (rq_path rq) = None).
Proof. exact first_match_not_none. Qed.
Print Assumptions C35_not_both.

(** C35 (missing: literal text with special characters of regular expressions,
    see C35_special_character_refuted).  A route without them is accepted, and
    only matches its own text around values of its parameters ... *)
Theorem C35_literal_only_partial : forall ps o parts names cfgs r path cs, clear_path ps o parts names cfgs ->
  new_route ps (template parts names) o = Ok r -> rt_match r path = Some cs -> exists vs, path = filled parts vs /\ Forall2 fits cfgs vs.
Proof. exact literal_only. Qed.
Print Assumptions C35_literal_only_partial.
Theorem C35_route_accepted_partial : forall ps o parts names cfgs, clear_path ps o parts names cfgs -> exists r, new_route ps (template parts names) o = Ok r.
Proof. exact route_built. Qed.
Print Assumptions C35_route_accepted_partial.
(** ... and does match it around valid UTF-8 values of the parameters. *)
Theorem C35_fitting_matches_partial : forall ps o parts names cfgs r vs, clear_path ps o parts names cfgs ->
  new_route ps (template parts names) o = Ok r -> Forall2 fits cfgs vs -> Forall (fun v => exists rs, Forall scalar rs /\ v = text rs) vs ->
  exists cs, rt_match r (filled parts vs) = Some cs.
Proof. exact fitting_matches. Qed.
Print Assumptions C35_fitting_matches_partial.

Example C35_example : clear_path ex_parsers ex_out ex_parts ex_names ex_cfgs /\
  Forall2 fits ex_cfgs [lit "fr/be"; lit "1,234"; lit "yes"] /\
  (rlet r := new_route ex_parsers (template ex_parts ex_names) ex_out in
   Ok (map (fun p => match rt_match r (lit p) with Some _ => true | None => false end)
     ["/fr/be/articles/no-1,234/yes/]}end"; "/fr/be/articles/no-1,234/maybe/]}end"; "/fr/be/articles/no-1.234/yes/]}end"; "//articles/no-1,234/yes/]}end"; "x/fr/be/articles/no-1,234/yes/]}end"]%string))
  = Ok [true; false; false; false; false].
Proof.
  split; [exact ex_clear|]. split; [|vm_compute; reflexivity]. unfold ex_cfgs.
  apply Forall2_cons; [|apply Forall2_cons; [|apply Forall2_cons; [|apply Forall2_nil]]].
  - split; [discriminate|vm_compute; intuition discriminate].
  - exists [], [], [49; 44; 50; 51; 52]. split; [vm_compute; reflexivity|]. split; [constructor|]. split; [left; reflexivity|]. split; [discriminate|].
    apply Forall_forall. intros c Hc. unfold digit_or. change (runes (lit ",")) with [44]. cbn [In] in *. lia.
  - cbn. tauto.
Qed.

(** The literal text of a route is a regular expression. *)
Theorem C35_special_character_refuted : exists ps o r cs,
  new_route ps (lit "/data.json") o = Ok r /\ rt_match r (lit "/dataXjson") = Some cs.
Proof.
  assert (H : match new_route ex_parsers (lit "/data.json") ex_out with
    | Ok r => rt_match r (lit "/dataXjson") = Some [] | _ => False end) by (vm_compute; reflexivity).
  destruct (new_route ex_parsers (lit "/data.json") ex_out) as [r| | |] eqn:E1; try contradiction.
  exists ex_parsers, ex_out, r, []. split; [exact E1|exact H].
Qed.
Print Assumptions C35_special_character_refuted.
(** A path with brackets or an alternative does not even match its own text. *)
Theorem C35_own_text_refuted : exists ps o r cs,
  new_route ps (lit "/[^a]b*?(c|d)\-[x-z]") o = Ok r /\ rt_match r (lit "/[^a]b*?(c|d)\-[x-z]") = None /\
  rt_match r (lit "/_bbd-y") = Some cs /\
  Forall (fun p => rt_match r p = None) [lit "/abbd-y"; lit "/_bbd-w"; lit "/_bbe-y"; lit "/_bbd-"; lit "/_bbdy"; lit "/_bad-y"].
Proof.
  assert (H : match new_route ex_parsers (lit "/[^a]b*?(c|d)\-[x-z]") ex_out with
    | Ok r => rt_match r (lit "/[^a]b*?(c|d)\-[x-z]") = None /\ rt_match r (lit "/_bbd-y") = Some [lit "d"] /\
        forallb (fun p => match rt_match r p with None => true | _ => false end) [lit "/abbd-y"; lit "/_bbd-w"; lit "/_bbe-y"; lit "/_bbd-"; lit "/_bbdy"; lit "/_bad-y"] = true
    | _ => False end) by (vm_compute; repeat split; reflexivity).
  destruct (new_route ex_parsers (lit "/[^a]b*?(c|d)\-[x-z]") ex_out) as [r| | |] eqn:E1; try contradiction.
  destruct H as (H1 & H2 & H3). exists ex_parsers, ex_out, r, [lit "d"]. repeat split; try assumption.
  rewrite forallb_forall in H3. apply Forall_forall. intros p Hp. specialize (H3 p Hp). cbn beta in H3. now destruct (rt_match r p).
Qed.
Print Assumptions C35_own_text_refuted.
(** With brackets around a placeholder, the request that matches makes the
    handler panic. *)
Theorem C35_brackets_panic_refuted : exists ps o r rq,
  new_route ps (lit "/[{lang}]") o = Ok r /\ first_match [r] rq r /\
  forall E ord ff et wo, serve E ord ff et wo [r] rq = ([], Panic).
Proof.
  assert (H : match new_route ex_parsers (lit "/[{lang}]") ex_out with
    | Ok r => rt_match r (lit "/+") = Some [] /\ rt_params r = [lit "lang"] | _ => False end) by (vm_compute; split; reflexivity).
  destruct (new_route ex_parsers (lit "/[{lang}]") ex_out) as [r| | |] eqn:E1; try contradiction. destruct H as [H1 H2].
  assert (Hf : first_match [r] (mkRequest (lit "GET") (lit "/+") []) r).
  { apply fm_here with (cs := []); [reflexivity|exact H1]. }
  exists ex_parsers, ex_out, r, (mkRequest (lit "GET") (lit "/+") []). split; [exact E1|]. split; [exact Hf|].
  intros. rewrite (serve_first _ _ _ _ _ _ _ _ Hf). unfold get_params. cbn [rq_path]. rewrite H1, H2. reflexivity.
Qed.
Print Assumptions C35_brackets_panic_refuted.

(** C22: the routes above have a group for every parameter, as asked by
    C22_one_response. *)
Theorem C22_route_groups_partial : forall ps o parts names cfgs r path cs, clear_path ps o parts names cfgs ->
  new_route ps (template parts names) o = Ok r -> rt_match r path = Some cs -> (List.length (rt_params r) <= List.length cs)%nat.
Proof. exact built_enough. Qed.
Print Assumptions C22_route_groups_partial.
