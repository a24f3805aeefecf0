(** Properties C10 and C18-C25: the JSON endpoints. *)
From Coq Require Import List ZArith Lia Bool String Permutation Sorted.
From Coq Require Import Strings.Byte Floats.SpecFloat.
From Verif Require Import Base Value Join Index SpecIndex SpecText GoStrings StringsFacts Sort SpecOrder.
From Verif Require Import Codec Stream Wildcard SpecWildcard WildcardFacts8.
From Verif Require Import Json SpecJson JsonFacts Output SpecOutput OutputFacts2 OutputFacts3 OutputFacts4 OutputFacts5 OutputFacts6.
From Verif Require Import Http SpecHttp HttpFacts OutputExample.
Import ListNotations.
Open Scope Z_scope.

(** C20 ([kind] tells how each index searches, by its name: [equality], or
    [containing] for a wildcard index; missing: two parameters on the same property of the same index, see
    C10_same_property_refuted; limits of 2^63 and more, see
    C18_huge_limit_refuted).  On exact indexes, a list endpoint answers with the
    page of the records found by every given parameter, in file order, each
    with its relationships. *)
Theorem C20_list_exact_partial : forall kind E ord,
  order_ok ord -> (forall lt l, Permutation l (e_sort E lt l)) -> sorts (e_sort E) ->
  forall c params inp rs fs off lim,
  endpoint_ok kind E (ac_input c) (ac_params c) (ac_relationships c) inp rs ->
  given kind E params None (ac_params c) fs -> page_request c params off lim -> 0 <= lim < two63 ->
  exists sel rows, kept (selects kind fs) rs sel /\
    Forall2 (fun r d => exists a, contents r a /\ loaded kind E arranged_spec (ac_relationships c) a d) (page off lim sel) rows /\
    computes E ord (OArray c) params (VList (map VMap rows)).
Proof. exact list_exact. Qed.
Print Assumptions C20_list_exact_partial.

(** The map, noop and wildcard indexes are exact for the endpoints, the last one
    whether it is created or loaded from the file of an earlier creation. *)
Theorem C20_map_index_suits : forall cfg inp rs,
  in_name inp = mc_input cfg -> NoDup (mc_props cfg) -> in_iter inp = map Ok rs -> readable (mc_props cfg) rs -> in_file_order rs ->
  exists idx, map_reindex cfg inp = Ok idx /\ index_exact equality (map_index cfg idx) inp rs (mc_props cfg).
Proof. exact map_suits. Qed.
Print Assumptions C20_map_index_suits.
Theorem C20_noop_index_suits : forall inp rs props, in_iter inp = map Ok rs -> readable props rs ->
  index_exact equality noop_positions inp rs props /\ default_ok noop_positions inp rs.
Proof. intros inp rs props H1 H2. exact (conj (noop_suits inp rs props H1 H2) (noop_suits_default inp rs H1)). Qed.
Print Assumptions C20_noop_index_suits.
Theorem C20_wildcard_index_suits : forall lower cfg inp rs r s,
  in_name inp = wc_input cfg -> NoDup (wc_props cfg) -> indexable (wc_props cfg) inp -> in_iter inp = map Ok rs -> in_file_order rs ->
  create_index lower cfg inp created_stream = (r, s) -> zlen (st_file s ++ st_buf s) < max_alloc ->
  (exists idx, r = Ok idx /\
    index_exact (containing (fold_case lower (wc_ic cfg))) (wildcard_index lower cfg idx s) inp rs (wc_props cfg)) /\
  (exists idx s2, load_index cfg inp (loaded_stream (st_file s)) = (Ok idx, s2) /\
    index_exact (containing (fold_case lower (wc_ic cfg))) (wildcard_index lower cfg idx s2) inp rs (wc_props cfg)).
Proof.
  intros lower cfg inp rs r s H1 H2 H3 H4 H5 H6 H7.
  exact (conj (wildcard_suits lower cfg inp rs r s H1 H2 H3 H4 H5 H6 H7) (wildcard_reload_suits lower cfg inp rs r s H1 H2 H3 H4 H5 H6 H7)).
Qed.
Print Assumptions C20_wildcard_index_suits.

(** A parameter which cannot be parsed is an error. *)
Theorem C20_bad_parameter_refused : forall E ord c params name pc s parse e, order_ok ord ->
  (forall p f, In (p, f) (e_parsers E) -> forall s, returns (f s)) -> In (ac_input c) (map fst (e_inputs E)) ->
  In (name, pc) (ac_params c) -> mget params name = Some s -> mget (e_parsers E) (pm_parser pc) = Some parse -> parse s = Err e ->
  forall v, ~ computes E ord (OArray c) params v.
Proof. exact bad_parameter_refused. Qed.
Print Assumptions C20_bad_parameter_refused.

(** C21 (missing: as for C20).  An object endpoint answers with the first record
    found by all its parameters, or "not found" when there is none. *)
Theorem C21_object_exact_partial : forall kind E ord,
  order_ok ord -> (forall lt l, Permutation l (e_sort E lt l)) -> sorts (e_sort E) ->
  forall c params inp rs fs,
  endpoint_ok kind E (oc_input c) (oc_params c) (oc_relationships c) inp rs ->
  given kind E params (Some []) (oc_params c) fs ->
  exists sel, kept (selects kind fs) rs sel /\
    match sel with
    | [] => fails E ord (OObject c) params ENotFound
    | r :: _ => exists a d, contents r a /\ loaded kind E arranged_spec (oc_relationships c) a d /\ computes E ord (OObject c) params (VMap d)
    end.
Proof. exact object_exact. Qed.
Print Assumptions C21_object_exact_partial.

(** The requests of the examples. *)
Definition ex_body (o : output) (params : list (bytes * bytes)) : response :=
  fst (handle ex_env ex_ord (fun _ => lit "0") (fun _ => lit "failed") (fun _ _ => true) o params []).
Definition ex_page (rows : list string) : response :=
  [Header 200 json_type; Body (List.concat (map lit rows) ++ [x0a])].
Definition ann1 : string := "{""id"":1,""name"":""ann"",""orders"":[{""buyer"":{""id"":1,""name"":""ann""},""person"":1,""price"":3},{""buyer"":{""id"":1,""name"":""ann""},""person"":1,""price"":5}]}".
Definition ann3 : string := "{""id"":3,""name"":""ann"",""orders"":[{""buyer"":{""id"":3,""name"":""ann""},""person"":3,""price"":9}]}".
Definition bob2 : string := "{""id"":2,""name"":""bob"",""orders"":[]}".

Example C20_C21_example :
  (endpoint_ok (fun _ => equality) ex_env (ac_input ex_array) (ac_params ex_array) (ac_relationships ex_array) ex_pin ex_people /\
   endpoint_ok (fun _ => equality) ex_env (oc_input ex_object) (oc_params ex_object) (oc_relationships ex_object) ex_pin ex_people) /\
  given (fun _ => equality) ex_env [(lit "name", lit "ann")] None (ac_params ex_array) [(lit "default", lit "name", VString (lit "ann"))] /\
  page_request ex_array [(lit "name", lit "ann")] 0 2 /\
  ex_body (OArray ex_array) [(lit "name", lit "ann")] = ex_page ["["; ann1; ","; ann3; "]"]%string /\
  ex_body (OArray ex_array) [] = ex_page ["["; ann1; ","; bob2; "]"]%string /\
  ex_body (OArray ex_array) [(lit "name", lit "ann"); (lit "id", lit "3")] = ex_page ["["; ann3; "]"]%string /\
  ex_body (OObject ex_object) [(lit "name", lit "ann")] = ex_page [ann1] /\
  ex_body (OObject ex_object) [(lit "name", lit "eve")] = [Header 404 json_type; Body (lit "{""error"":""failed""}")].
Proof.
  split; [split; apply ex_endpoint; repeat constructor; cbn; intuition discriminate|].
  split; [eapply given_take; [left; reflexivity|reflexivity|reflexivity|exact I|]; apply given_skip; [reflexivity|reflexivity|constructor]|].
  split; [split; reflexivity|].
  vm_compute. auto 10.
Qed.

(** C18 (missing: limits of 2^63 and more, see C18_huge_limit_refuted; two
    parameters on the same property).  The first n pages of a list endpoint,
    put together, are the first n * lim rows of the whole filtered result. *)
Theorem C18_pages_partial : forall kind E ord,
  order_ok ord -> (forall lt l, Permutation l (e_sort E lt l)) -> sorts (e_sort E) ->
  forall c (params : nat -> list (bytes * bytes)) inp rs fs lim,
  endpoint_ok kind E (ac_input c) (ac_params c) (ac_relationships c) inp rs ->
  (forall i, given kind E (params i) None (ac_params c) fs) -> 0 < lim < two63 ->
  (forall i, page_request c (params i) (Z.of_nat i * lim) lim) ->
  exists sel, kept (selects kind fs) rs sel /\ forall n, exists pages, List.length pages = n /\
    (forall i pg, nth_error pages i = Some pg -> computes E ord (OArray c) (params i) (VList (map VMap pg))) /\
    Forall2 (fun r d => exists a, contents r a /\ loaded kind E arranged_spec (ac_relationships c) a d)
      (firstn (Z.to_nat (Z.of_nat n * lim)) sel) (List.concat pages).
Proof. exact pages_exact. Qed.
Print Assumptions C18_pages_partial.

(** The windows of a list: any two consecutive ones make a larger one. *)
Theorem C18_windows : forall A (l : list A) off a b, 0 <= off -> 0 <= a -> 0 <= b ->
  page off (a + b) l = page off a l ++ page (off + a) b l.
Proof. exact @page_split. Qed.
Print Assumptions C18_windows.

Example C18_example :
  ex_body (OArray ex_array) [(lit "limit", lit "1"); (lit "offset", lit "1")] = ex_page ["["; bob2; "]"]%string /\
  ex_body (OArray ex_array) [(lit "limit", lit "1"); (lit "offset", lit "2")] = ex_page ["["; ann3; "]"]%string /\
  ex_body (OArray ex_array) [(lit "offset", lit "3")] = ex_page ["[]"]%string /\
  ex_body (OArray ex_array) [(lit "offset", lit "+0002"); (lit "limit", lit "99999")] = ex_page ["["; ann3; "]"]%string /\
  page_request ex_array [(lit "limit", lit "1"); (lit "offset", lit "1")] 1 1.
Proof.
  split; [vm_compute; reflexivity|]. split; [vm_compute; reflexivity|]. split; [vm_compute; reflexivity|]. split; [vm_compute; reflexivity|].
  assert (H1 : signed_decimal (lit "1") 1 /\ in_i64 1) by (apply atoi_Ok; vm_compute; reflexivity). destruct H1 as [H1 H2]. split.
  - exists 1. split; [exact H1|]. split; [exact H2|]. cbn. split; lia.
  - split; [exact H1|]. split; [exact H2|]. lia.
Qed.

(** A default limit that does not fit in an int: no rows at all. *)
Theorem C18_huge_limit_refuted : exists c, 0 < ac_default c < two64 /\ ac_default c <= ac_max c < two64 /\
  endpoint_ok (fun _ => equality) ex_env (ac_input c) (ac_params c) (ac_relationships c) ex_pin ex_people /\
  given (fun _ => equality) ex_env [] None (ac_params c) [] /\ page_request c [] 0 (ac_default c) /\
  computes ex_env ex_ord (OArray c) [] (VList []).
Proof.
  exists (mkArray (lit "people") two63 two63 (lit "limit") (lit "offset") [] [(lit "orders", ex_orders_of)]).
  split; [unfold two63, two64; cbn; lia|]. split; [unfold two63, two64; cbn; lia|].
  split; [apply ex_endpoint; constructor|]. split; [constructor|]. split; [split; [|reflexivity]|].
  - cbn. lia.
  - intros W se ss wr enc w. reflexivity.
Qed.
Print Assumptions C18_huge_limit_refuted.

(** C19.  A list endpoint never answers with more rows than the maximum, nor
    than the (decimal, positive) limit of the request, whatever the indexes,
    inputs and parsers do ... *)
Theorem C19_limit_enforced : forall E ord c params,
  In (ac_input c) (map fst (e_inputs E)) -> 0 <= ac_default c -> 0 <= ac_max c < two64 ->
  crashes E ord (OArray c) params \/ (exists e, fails E ord (OArray c) params e) \/
  exists rows, computes E ord (OArray c) params (VList rows) /\ zlen rows <= ac_max c /\
    (forall s, mget params (ac_limit_param c) = Some s -> exists z, signed_decimal s z /\ 0 < z /\ zlen rows <= z) /\
    (forall s, mget params (ac_offset_param c) = Some s -> exists z, signed_decimal s z /\ 0 <= z).
Proof. exact limit_enforced. Qed.
Print Assumptions C19_limit_enforced.
(** ... and an invalid limit or offset is an error. *)
Theorem C19_bad_limit_refused : forall E ord c params s,
  In (ac_input c) (map fst (e_inputs E)) -> mget params (ac_limit_param c) = Some s ->
  (forall z, signed_decimal s z -> in_i64 z -> z <= 0) -> exists e, fails E ord (OArray c) params e.
Proof. exact bad_limit_refused. Qed.
Print Assumptions C19_bad_limit_refused.
Theorem C19_bad_offset_refused : forall E ord c params s,
  In (ac_input c) (map fst (e_inputs E)) -> mget params (ac_offset_param c) = Some s ->
  (forall z, signed_decimal s z -> in_i64 z -> z < 0) -> exists e, fails E ord (OArray c) params e.
Proof. exact bad_offset_refused. Qed.
Print Assumptions C19_bad_offset_refused.

Definition ex_500 : response := [Header 500 json_type; Body (lit "{""error"":""failed""}")].
Example C19_example :
  ex_body (OArray (mkArray (lit "people") 5 1 (lit "limit") (lit "offset") [] [])) [(lit "limit", lit "7")] =
    ex_page ["[{""id"":1,""name"":""ann""}]"]%string /\
  Forall (fun s => ex_body (OArray ex_array) [(lit "limit", lit s)] = ex_500) ["0"; "-1"; "x"; ""; "1.5"; "9223372036854775808"]%string /\
  Forall (fun s => ex_body (OArray ex_array) [(lit "offset", lit s)] = ex_500) ["-1"; "x"; " 1"]%string.
Proof. split; [vm_compute; reflexivity|]. split; repeat constructor; vm_compute; reflexivity. Qed.

(** C22.  Whatever fails, one request gets one response: one header, then at
    most one body; errors come with status 404 or 500 and one error object. *)
Theorem C22_one_response : forall E ord fmt_float err_text write_ok,
  order_ok ord -> (forall lt l, Permutation l (e_sort E lt l)) ->
  forall asked routes rq, env_safe asked E -> Forall (route_ok asked E) routes ->
  exists st rest, fst (serve E ord fmt_float err_text write_ok routes rq) = Header st json_type :: rest /\
    ((st = 200 /\ exists r params v, first_match routes rq r /\ get_params r rq = Ok params /\ computes E ord (rt_output r) params v /\
        (rest = [] \/ exists b, rest = [Body b])) \/
     ((st = 404 \/ st = 500) /\ exists b text, rest = [Body b] /\ json_text b (JObj [(runes (lit "error"), JStr text)]))).
Proof. exact one_response. Qed.
Print Assumptions C22_one_response.

(** C23 (missing: floats which are not numbers, see C23_nan_refuted).  A
    response with status 200 has one body, which is the complete JSON text of
    the value computed by the output. *)
Theorem C23_complete_partial : forall E ord fmt_float err_text write_ok,
  (forall f, is_number f = true -> number_text (fmt_float f)) ->
  order_ok ord -> (forall lt l, Permutation l (e_sort E lt l)) ->
  forall asked routes rq ct rest, env_safe asked E -> Forall (route_ok asked E) routes -> records_numbers E ->
  fst (serve E ord fmt_float err_text write_ok routes rq) = Header 200 ct :: rest ->
  exists r params v b j, first_match routes rq r /\ get_params r rq = Ok params /\ computes E ord (rt_output r) params v /\
    rest = [Body b] /\ json_text b j /\ denotes fmt_float j v.
Proof. exact success_complete. Qed.
Print Assumptions C23_complete_partial.

(** The encoder on its own: whatever it writes is complete JSON. *)
Theorem C23_encoder_complete : forall fmt_float, (forall f, is_number f = true -> number_text (fmt_float f)) ->
  forall v b, json_encode fmt_float v = Ok b -> exists j, json_text (b ++ [x0a]) j /\ denotes fmt_float j v.
Proof. exact encode_complete. Qed.
Print Assumptions C23_encoder_complete.

Definition ex_serve (E : env) (routes : list route) (m p : string) : response * res unit :=
  serve E ex_ord (fun _ => lit "0") (fun _ => lit "failed") (fun _ _ => true) routes (mkRequest (lit m) (lit p) [(lit "limit", lit "1")]).
Example C22_C23_example : env_safe (fun _ => True) ex_env /\ Forall (route_ok (fun _ => True) ex_env) [ex_route] /\
  ex_serve ex_env [ex_route] "GET" "/people" = (ex_page ["["; ann1; "]"]%string, Ok tt) /\
  ex_serve ex_env [ex_route] "GET" "/other" = ([Header 404 json_type; Body (lit "{""error"":""failed""}")], Ok tt) /\
  ex_serve ex_env [ex_route] "POST" "/people" = ([Header 404 json_type; Body (lit "{""error"":""failed""}")], Ok tt).
Proof.
  split; [exact ex_env_safe|]. split; [constructor; [exact ex_route_ok|constructor]|]. vm_compute. auto.
Qed.

(** The map, noop and wildcard indexes satisfy the assumption of C22. *)
Theorem C22_map_index_returns : forall cfg idx inp fs, Forall (fun f => primitive (snd f)) fs ->
  returns (map_index cfg idx inp fs) /\ forall it, map_index cfg idx inp fs = Ok it -> Forall returns it.
Proof. exact map_index_returns. Qed.
Print Assumptions C22_map_index_returns.
Theorem C22_noop_index_returns : forall (asked : bytes -> Prop) inp fs,
  (forall r, In r (in_iter inp) -> returns r /\ forall a, r = Ok a -> forall p, asked p -> returns (r_get a p)) ->
  Forall (fun f => asked (fst f) /\ primitive (snd f)) fs ->
  returns (noop_positions inp fs) /\ forall it, noop_positions inp fs = Ok it -> Forall returns it.
Proof. exact noop_index_returns. Qed.
Print Assumptions C22_noop_index_returns.
Theorem C22_wildcard_index_returns : forall lower cfg inp idx s, NoDup (wc_props cfg) -> indexable (wc_props cfg) inp ->
  create_index lower cfg inp created_stream = (Ok idx, s) -> zlen (st_file s ++ st_buf s) < max_alloc ->
  forall inp' fs, returns (wildcard_index lower cfg idx s inp' fs) /\
    forall it, wildcard_index lower cfg idx s inp' fs = Ok it -> Forall returns it.
Proof. exact wildcard_index_returns. Qed.
Print Assumptions C22_wildcard_index_returns.

(** A record with a float, and one with a list. *)
Definition ex_nan_env : env := mkEnv [(lit "people", ex_input "people" [ex_rec 0 [(lit "id", VFloat S754_nan)]]); (lit "orders", ex_oin)] noop_positions
    [(lit "default", noop_positions); (lit "by_person", map_index ex_cfg ex_idx)]
    [(lit "string", fun s => Ok (VString s)); (lit "integer", fun s => rlet z := atoi s in Ok (VInt z))] insertion_sort.
Definition ex_list_env : env := mkEnv [(lit "people", ex_input "people" [ex_rec 0 [(lit "id", VList [VInt 1])]]); (lit "orders", ex_oin)] noop_positions
    [(lit "default", noop_positions); (lit "by_person", map_index ex_cfg ex_idx)]
    [(lit "string", fun s => Ok (VString s)); (lit "integer", fun s => rlet z := atoi s in Ok (VInt z))] insertion_sort.
Definition ex_plain_route : route :=
  mkRoute (fun p => if bytes_eqb p (lit "/people") then Some [] else None) [] (OArray (mkArray (lit "people") 2 10 (lit "limit") (lit "offset") [] [])).

(** A record with a NaN (which the float parser accepts): the status is 200 and
    there is no body. *)
Theorem C23_nan_refuted : exists E routes rq, env_safe (fun _ => True) E /\ Forall (route_ok (fun _ => True) E) routes /\
  exists e, serve E ex_ord (fun _ => lit "0") (fun _ => lit "failed") (fun _ _ => true) routes rq = ([Header 200 json_type], Err e).
Proof.
  exists ex_nan_env, [ex_plain_route], (mkRequest (lit "GET") (lit "/people") []).
  split; [apply ex_env_safe_on; repeat constructor; do 2 eexists; reflexivity|]. split.
  - constructor; [|constructor]. split; [|split].
    + eexists. split; [reflexivity|]. constructor. intros ? ? [].
    + intros name pc [].
    + intros path cs _. cbn. lia.
  - eexists. vm_compute. reflexivity.
Qed.
Print Assumptions C23_nan_refuted.

(** A relationship on a property which holds a list, with a map index: the
    handler panics, and there is no response at all. *)
Theorem C22_list_parent_refuted : exists E routes rq, env_safe (fun _ => True) E /\ routes <> [] /\
  serve E ex_ord (fun _ => lit "0") (fun _ => lit "failed") (fun _ _ => true) routes rq = ([], Panic).
Proof.
  exists ex_list_env, [ex_route], (mkRequest (lit "GET") (lit "/people") []).
  split; [apply ex_env_safe_on; repeat constructor; do 2 eexists; reflexivity|]. split; [discriminate|]. vm_compute. reflexivity.
Qed.
Print Assumptions C22_list_parent_refuted.

(** C24 (missing: parent properties which do not exist, are not primitive, or
    are replaced by another relationship; limits of 2^63 and more).  Every
    relationship of a record is exactly the related records (equal to all the
    match rules), sorted, limited, and with their own relationships. *)
Theorem C24_relationships_partial : forall kind E ord, order_ok ord ->
  (forall lt l, Permutation l (e_sort E lt l)) -> sorts (e_sort E) ->
  forall parents rels loc r a, rels_ok kind E parents rels -> In r parents -> contents r a ->
  exists d, load_relationships E ord rels loc a = Ok d /\ loaded kind E arranged_spec rels a d.
Proof. exact relationships_exact. Qed.
Print Assumptions C24_relationships_partial.

Example C24_example : rels_ok (fun _ => equality) ex_env ex_people [(lit "orders", ex_orders_of)] /\
  (rlet d := load_relationships ex_env ex_ord [(lit "orders", ex_orders_of)] [] [(lit "id", VInt 1); (lit "name", VString (lit "ann"))] in
   json_encode (fun _ => []) (VMap d)) = Ok (lit ann1).
Proof. split; [exact ex_rels_ok|]. vm_compute. reflexivity. Qed.

(** With a limit of 2^63, which the configuration accepts, the request panics; one record without the
    property of a match rule is an error for the whole response. *)
Theorem C24_huge_limit_refuted : exists E limit ms children a, limit < two64 /\ a <> [] /\
  load_relationships E ex_ord [(lit "orders", mkRel (lit "orders") true 5 [] ms children)] [] a <> Panic /\
  load_relationships E ex_ord [(lit "orders", mkRel (lit "orders") true limit [] ms children)] [] a = Panic.
Proof.
  exists ex_env, two63, [(lit "id", lit "person", lit "by_person")], [], [(lit "id", VInt 1)]. split; [reflexivity|]. split; [discriminate|]. split; [vm_compute; discriminate|vm_compute; reflexivity].
Qed.
Print Assumptions C24_huge_limit_refuted.
Theorem C24_missing_parent_refuted : exists E a e, a <> [] /\ load_relationships E ex_ord [(lit "orders", ex_orders_of)] [] a = Err e.
Proof. exists ex_env, [(lit "name", VString (lit "bob"))]. eexists. split; [discriminate|]. vm_compute. reflexivity. Qed.
Print Assumptions C24_missing_parent_refuted.

(** C25 (missing: as for C24).  The order in which Go visits the relationships
    does not matter. *)
Theorem C25_siblings_partial : forall kind E ord ord', order_ok ord -> order_ok ord' -> (forall lt l, Permutation l (e_sort E lt l)) ->
  forall parents rels loc loc' r a, rels_ok kind E parents rels -> In r parents -> contents r a ->
  exists d d', load_relationships E ord rels loc a = Ok d /\ load_relationships E ord' rels loc' a = Ok d' /\ same_data (VMap d) (VMap d').
Proof. exact load_order_free. Qed.
Print Assumptions C25_siblings_partial.

(** A relationship that has the name of the property used by another one. *)
Definition ex_two : list (bytes * relationship) :=
  [(lit "id", mkRel (lit "people") false 0 [] [(lit "id", lit "id", lit "default")] []);
   (lit "other", mkRel (lit "people") false 0 [] [(lit "id", lit "id", lit "default")] [])].
Theorem C25_sibling_refuted : exists E rels a d d', order_ok ex_ord /\ order_ok ex_rev /\ env_safe (fun _ => True) E /\ NoDup (map fst rels) /\
  load_relationships E ex_ord rels [] a = Ok d /\ load_relationships E ex_rev rels [] a = Ok d' /\
  mget d (lit "other") = Some VNil /\ exists m, mget d' (lit "other") = Some (VMap m).
Proof.
  exists ex_env, ex_two, [(lit "id", VInt 1); (lit "name", VString (lit "ann"))]. do 2 eexists.
  split; [exact ex_ord_ok|]. split; [exact ex_rev_ok|]. split; [exact ex_env_safe|].
  split; [repeat constructor; cbn; intuition discriminate|]. split; [vm_compute; reflexivity|]. split; [vm_compute; reflexivity|].
  split; [vm_compute; reflexivity|]. eexists. vm_compute. reflexivity.
Qed.
Print Assumptions C25_sibling_refuted.

(** C10 (missing: two parameters on the same property of the same index;
    parent properties as in C24).  The bytes of a response do not depend on the
    order in which Go visits its maps. *)
Theorem C10_list_partial : forall kind E ord ord' W se ss wr fmt_float, order_ok ord -> order_ok ord' ->
  (forall lt l, Permutation l (e_sort E lt l)) -> forall c params (w : W) inp rs fs off lim,
  endpoint_ok kind E (ac_input c) (ac_params c) (ac_relationships c) inp rs ->
  given kind E params None (ac_params c) fs -> page_request c params off lim -> 0 <= lim < two63 ->
  handle_array E ord W se ss wr (json_encode fmt_float) c params w = handle_array E ord' W se ss wr (json_encode fmt_float) c params w.
Proof. intros kind E ord ord' W se ss wr ff H1 H2 H3. exact (array_order_free kind E ord ord' H1 H2 H3 W se ss wr ff). Qed.
Print Assumptions C10_list_partial.
Theorem C10_object_partial : forall kind E ord ord' W se ss wr fmt_float, order_ok ord -> order_ok ord' ->
  (forall lt l, Permutation l (e_sort E lt l)) -> forall c params (w : W) inp rs fs,
  endpoint_ok kind E (oc_input c) (oc_params c) (oc_relationships c) inp rs ->
  given kind E params (Some []) (oc_params c) fs ->
  handle_object E ord W se ss wr (json_encode fmt_float) c params w = handle_object E ord' W se ss wr (json_encode fmt_float) c params w.
Proof. intros kind E ord ord' W se ss wr ff H1 H2 H3. exact (object_order_free kind E ord ord' H1 H2 H3 W se ss wr ff). Qed.
Print Assumptions C10_object_partial.

Definition ex_on (ord : order) (o : output) (params : list (bytes * bytes)) : response :=
  fst (handle ex_env ord (fun _ => lit "0") (fun _ => lit "failed") (fun _ _ => true) o params []).
Example C10_example : order_ok ex_rev /\
  ex_on ex_rev (OArray ex_array) [(lit "name", lit "ann")] = ex_page ["["; ann1; ","; ann3; "]"]%string.
Proof. split; [exact ex_rev_ok|]. vm_compute. reflexivity. Qed.

(** Two parameters on the same property of the same index. *)
Definition ex_twice : array_config := mkArray (lit "people") 2 10 (lit "limit") (lit "offset")
  [(lit "name", mkParam (lit "name") (lit "default") (lit "string")); (lit "called", mkParam (lit "name") (lit "default") (lit "string"))] [].
Theorem C10_same_property_refuted : exists c params, order_ok ex_ord /\ order_ok ex_rev /\ env_safe (fun _ => True) ex_env /\
  ex_on ex_ord (OArray c) params = ex_page ["[{""id"":2,""name"":""bob""}]"]%string /\
  ex_on ex_rev (OArray c) params = ex_page ["[{""id"":1,""name"":""ann""},{""id"":3,""name"":""ann""}]"]%string.
Proof.
  exists ex_twice, [(lit "name", lit "ann"); (lit "called", lit "bob")].
  split; [exact ex_ord_ok|]. split; [exact ex_rev_ok|]. split; [exact ex_env_safe|]. vm_compute. auto.
Qed.
Print Assumptions C10_same_property_refuted.
