(** Property C63: the texts of floats. *)
From Coq Require Import List ZArith Lia Bool String Permutation.
From Coq Require Import Strings.Byte Floats.SpecFloat.
From Verif Require Import Base Value GoStrings SpecText Parser Json SpecJson JsonFacts Output SpecOutput Http SpecHttp HttpFacts FloatText SpecFloatText FloatTextFacts FloatTextFacts2 SpecFloatFormat FloatFormat FloatFormatFacts6.
Import ListNotations.
Open Scope Z_scope.

(** C63.  Reading the text of a float64 gives it back, to the bit. *)
Theorem C63_read_back : forall f, float64 f -> go_parse_float (json_float f) = Ok f.
Proof. exact read_back. Qed.
Print Assumptions C63_read_back.

(** It is a number of RFC 8259. *)
Theorem C63_number : forall f, is_number f = true -> number_text (json_float f).
Proof. exact float_number. Qed.
Print Assumptions C63_number.

(** At most 17 digits, and no decimal number read as this float64 has less digits. *)
Theorem C63_shortest : forall f, float64 f ->
  exists m g e, literal (json_float f) (sign f) m g e /\ at_most_digits 17 m /\
    (forall n t m' g' e', 0 <= n -> literal t (sign f) m' g' e' -> exponent_kept t e' -> go_parse_float t = Ok f -> at_most_digits n m' -> at_most_digits n m).
Proof. exact shortest_text. Qed.
Print Assumptions C63_shortest.

(** And among those which end at the same decimal it is the closest one. *)
Theorem C63_closest : forall f, float64 f -> units f <> 0 ->
  exists m g e d q, literal (json_float f) (sign f) m g e /\ same_number m (e - g) d q /\ d mod 10 <> 0 /\
    (forall t m' g' e' x, literal t (sign f) m' g' e' -> exponent_kept t e' -> go_parse_float t = Ok f -> same_number m' (e' - g') x q ->
     distance (signed (sign f) (numer d q)) (denom q) f <= distance (signed (sign f) (numer x q)) (denom q) f).
Proof. exact closest_text. Qed.
Print Assumptions C63_closest.

(** Numbers of at most 15 digits are shown as the numbers that were read (missing: numbers of more
    digits, see C63_sixteen_refuted, numbers below 2^-1022, see C63_small_refuted, exponents of
    100000 or more in texts of more than 9000 bytes). *)
Theorem C63_kept_partial : forall f t neg m g e, float64 f -> normal f -> literal t neg m g e -> exponent_kept t e -> at_most_digits 15 m -> go_parse_float t = Ok f ->
  exists m' g' e', literal (json_float f) neg m' g' e' /\ same_number m (e - g) m' (e' - g').
Proof. exact kept. Qed.
Print Assumptions C63_kept_partial.

(** From a column to the response, with the separator and the ignored characters of the configuration. *)
Theorem C63_column_partial : forall sc cs rs neg m g e, scalar sc -> Forall scalar cs -> Forall scalar rs -> literal (written sc cs rs) neg m g e -> exponent_kept (written sc cs rs) e -> at_most_digits 15 m ->
  (m = 0 \/ denom (e - g) <= numer m (e - g) * 10 ^ 307) -> ~ too_large (numer m (e - g)) (denom (e - g)) ->
  exists v t m' g' e', parse_float_value go_parse_float (text [sc]) (text cs) (text rs) = Ok v /\ json_encode json_float v = Ok t /\
    literal t neg m' g' e' /\ same_number m (e - g) m' (e' - g').
Proof. exact column_kept. Qed.
Print Assumptions C63_column_partial.

(** C23 with these texts: no hypothesis on the formatting of floats is left. *)
Theorem C63_response_partial : forall E ord err_text write_ok,
  order_ok ord -> (forall lt l, Permutation l (e_sort E lt l)) ->
  forall asked routes rq ct rest, env_safe asked E -> Forall (route_ok asked E) routes -> records_numbers E ->
  fst (serve E ord json_float err_text write_ok routes rq) = Header 200 ct :: rest ->
  exists r params v b j, first_match routes rq r /\ get_params r rq = Ok params /\ computes E ord (rt_output r) params v /\
    rest = [Body b] /\ json_text b j /\ denotes json_float j v.
Proof. exact (fun E ord err_text write_ok => success_complete E ord json_float err_text write_ok float_number). Qed.
Print Assumptions C63_response_partial.
Theorem C63_encoder : forall v b, json_encode json_float v = Ok b -> exists j, json_text (b ++ [x0a]) j /\ denotes json_float j v.
Proof. exact (encode_complete json_float float_number). Qed.
Print Assumptions C63_encoder.

(** The texts that are known from Go. *)
Definition shown_as (t s : string) : Prop := (rlet f := go_parse_float (lit t) in Ok (json_float f)) = Ok (lit s).
Example C63_example :
  shown_as "0.1" "0.1" /\ shown_as "1e23" "1e+23" /\ shown_as "-1.50" "-1.5" /\ shown_as "100" "100" /\ shown_as "123456789012345678901" "123456789012345680000" /\
  shown_as "1e21" "1e+21" /\ shown_as "999999999999999900000" "999999999999999900000" /\ shown_as "0.000001" "0.000001" /\ shown_as "0.00000099" "9.9e-7" /\
  shown_as "1.25e-10" "1.25e-10" /\ shown_as "-0" "-0" /\ shown_as "9007199254740993" "9007199254740992".
Proof. unfold shown_as. repeat (split; [vm_compute; reflexivity|]). vm_compute. reflexivity. Qed.
(** The constant of [large_or_small] is 1e-6. *)
Example C63_threshold : go_parse_float (lit "1e-6") = Ok (S754_finite false 4722366482869645 (-72)) /\
  large_or_small (4722366482869645 * 2 ^ 1002) = false /\ large_or_small (4722366482869645 * 2 ^ 1002 - 1) = true.
Proof. vm_compute. auto. Qed.

Ltac digits := apply StringsFacts.decimal_spec; split; [discriminate|split; reflexivity].
(** The hypotheses of C63_column_partial, for the column "1.234,50" with a comma. *)
Example C63_column_example :
  literal (written 44 [46; 32] (runes (lit "-1.234,50"))) true 123450 2 0 /\ at_most_digits 15 123450 /\
  denom (0 - 2) <= numer 123450 (0 - 2) * 10 ^ 307 /\ ~ too_large (numer 123450 (0 - 2)) (denom (0 - 2)) /\
  (rlet v := parse_float_value go_parse_float (lit ",") (lit ". ") (lit "-1.234,50") in json_encode json_float v) = Ok (lit "-1234.5") /\
  normal (S754_finite true 5429388417957888 (-42)) /\ float64 (S754_finite true 5429388417957888 (-42)) /\ go_parse_float (lit "-1234.50") = Ok (S754_finite true 5429388417957888 (-42)).
Proof.
  split. { replace (written _ _ _) with (lit "-1234.50") by (vm_compute; reflexivity). apply (literal_dot (lit "-") (lit "1234") (lit "50") 123450 [] 0); [cbn; tauto|digits|constructor]. }
  split. { exists 123450, 0. repeat split; reflexivity || lia. }
  split; [vm_compute; discriminate|]. split. { unfold too_large. vm_compute. intros H. apply H. reflexivity. }
  split; [vm_compute; reflexivity|]. split; [vm_compute; discriminate|]. split; [split; [reflexivity|exact I]|vm_compute; reflexivity].
Qed.

(** Numbers of 16 digits are not: this one is shown as another number. *)
Theorem C63_sixteen_refuted : exists t f, t = lit "9007199254740993" /\ literal t false 9007199254740993 0 0 /\ at_most_digits 16 9007199254740993 /\
  go_parse_float t = Ok f /\ normal f /\ json_float f = lit "9007199254740992".
Proof.
  do 2 eexists. split; [reflexivity|]. split; [|split; [exists 9007199254740993, 0; repeat split; reflexivity || lia|]].
  - apply (literal_whole [] (lit "9007199254740993") 9007199254740993 [] 0); [cbn; tauto|digits|constructor].
  - split; [vm_compute; reflexivity|]. split; [vm_compute; discriminate|vm_compute; reflexivity].
Qed.
Print Assumptions C63_sixteen_refuted.
(** Nor are numbers of two digits below 2^-1022. *)
Theorem C63_small_refuted : exists t f, t = lit "4.8e-324" /\ go_parse_float t = Ok f /\ json_float f = lit "5e-324".
Proof. do 2 eexists. split; [reflexivity|]. split; [vm_compute; reflexivity|]. vm_compute. reflexivity. Qed.
Print Assumptions C63_small_refuted.
