(** Properties C61 and C32: numbers with decimals. *)
From Coq Require Import List ZArith Lia Bool String.
From Coq Require Import Strings.Byte Floats.SpecFloat.
From Verif Require Import Base Value GoStrings SpecText Parser Regex Route SpecRoute RouteFacts4 FloatText SpecFloatText FloatTextFacts FloatTextFacts2.
Import ListNotations.
Open Scope Z_scope.

(** C61 (missing: exponents of 100000 or more in texts of more than 9000 bytes, which Go cuts off,
    see C61_long_refuted).  A decimal number is read as the
    float64 nearest to it, half-way cases as the one with an even mantissa, and refused when it is
    too large. *)
Theorem C61_nearest_partial : forall t neg m f e, literal t neg m f e -> exponent_kept t e -> rounded neg m (e - f) range_error (go_parse_float t).
Proof. exact literal_nearest. Qed.
Print Assumptions C61_nearest_partial.

(** With the separator and the ignored characters of the configuration. *)
Theorem C61_column_partial : forall sc cs rs neg m f e,
  scalar sc -> Forall scalar cs -> Forall scalar rs -> literal (written sc cs rs) neg m f e -> exponent_kept (written sc cs rs) e ->
  exists r, rounded neg m (e - f) range_error r /\ parse_float_value go_parse_float (text [sc]) (text cs) (text rs) = (rlet x := r in Ok (VFloat x)).
Proof. exact float_column. Qed.
Print Assumptions C61_column_partial.

(** Other texts in the same characters are refused. *)
Theorem C61_refused : forall t, Forall (fun c => In c (lit "0123456789+-.eE")) t -> (forall neg m f e, ~ literal t neg m f e) -> go_parse_float t = Err syntax_error.
Proof. exact refused. Qed.
Print Assumptions C61_refused.

(** Two notations of one number are read as one value, which is what makes a filter find it. *)
Theorem C61_same_number_partial : forall t neg m f e t' m' f' e',
  literal t neg m f e -> literal t' neg m' f' e' -> exponent_kept t e -> exponent_kept t' e' ->
  numer m (e - f) * denom (e' - f') = numer m' (e' - f') * denom (e - f) -> go_parse_float t = go_parse_float t'.
Proof. exact same_number. Qed.
Print Assumptions C61_same_number_partial.

(** The order of numbers is kept. *)
Theorem C61_order_partial : forall t neg m f e x t' neg' m' f' e' x',
  literal t neg m f e -> literal t' neg' m' f' e' -> exponent_kept t e -> exponent_kept t' e' ->
  signed neg (numer m (e - f)) * denom (e' - f') < signed neg' (numer m' (e' - f')) * denom (e - f) ->
  go_parse_float t = Ok x -> go_parse_float t' = Ok x' -> units x <= units x'.
Proof. exact ordered. Qed.
Print Assumptions C61_order_partial.

(** Whole numbers up to 2^53 are read exactly. *)
Theorem C61_whole_numbers : forall t neg m, literal t neg m 0 0 -> m <= 2 ^ 53 ->
  exists f, go_parse_float t = Ok f /\ sign f = neg /\ float64 f /\ units f = (if neg then - m else m) * 2 ^ 1074.
Proof. exact integer_exact. Qed.
Print Assumptions C61_whole_numbers.

(** It fails beyond: a text which denotes 1 is read as 0. *)
Theorem C61_long_refuted : exists t f, literal t false 1 f f /\ numer 1 (f - f) = 1 /\ denom (f - f) = 1 /\ go_parse_float t = Ok (S754_zero false).
Proof. exact long_misread. Qed.
Print Assumptions C61_long_refuted.

Ltac digits := apply StringsFacts.decimal_spec; split; [discriminate|split; reflexivity].
Example C61_example :
  literal (lit "-1234.50e-2") true 123450 2 (-2) /\ literal (lit "-12.345") true 12345 3 0 /\
  numer 123450 (-2 - 2) * denom (0 - 3) = numer 12345 (0 - 3) * denom (-2 - 2) /\
  written 44 [46; 32] (runes (lit "-1.234,50e-2")) = lit "-1234.50e-2" /\
  parse_float_value go_parse_float (lit ",") (lit ". ") (lit "-1.234,50e-2") = Ok (VFloat (S754_finite true 6949617174986097 (-49))) /\
  go_parse_float (lit "9007199254740993") = Ok (S754_finite false 4503599627370496 1) /\
  go_parse_float (lit "5e-324") = Ok (S754_finite false 1 (-1074)) /\ go_parse_float (lit "2e-324") = Ok (S754_zero false) /\
  go_parse_float (lit "1.7976931348623158e308") = Ok (S754_finite false 9007199254740991 971) /\
  go_parse_float (lit "-1.7976931348623159e308") = Err range_error /\
  Forall (fun t => go_parse_float (lit t) = Err syntax_error) ["."; "1.2.3"; "1e"; "--1"; "1-"; "e5"; ""; "1e5.0"]%string.
Proof.
  split; [|split; [|split; [vm_compute; reflexivity|]]].
  - apply (literal_dot (lit "-") (lit "1234") (lit "50") 123450 (lit "e-2") (-2)); [cbn; tauto|digits|].
    apply (ex_some x65 (lit "-") (lit "2") 2); [cbn; tauto|cbn; tauto|digits].
  - apply (literal_dot (lit "-") (lit "12") (lit "345") 12345 [] 0); [cbn; tauto|digits|constructor].
  - repeat (split; [vm_compute; reflexivity|]). repeat (apply Forall_cons; [vm_compute; reflexivity|]). apply Forall_nil.
Qed.

(** Texts that are no decimal numbers are accepted too: names, hexadecimal numbers, underscores. *)
Theorem C61_other_texts_refuted : exists s1 s2 s3 s4, (forall s neg m f e, In s [s1; s2; s3; s4] -> ~ literal s neg m f e) /\
  parse_float_value go_parse_float (lit ".") [] s1 = Ok (VFloat S754_nan) /\
  parse_float_value go_parse_float (lit ".") [] s2 = Ok (VFloat (S754_infinity true)) /\
  parse_float_value go_parse_float (lit ".") [] s3 = parse_float_value go_parse_float (lit ".") [] (lit "0.25") /\
  parse_float_value go_parse_float (lit ".") [] s4 = parse_float_value go_parse_float (lit ".") [] (lit "1000.5").
Proof.
  exists (lit "nAn"), (lit "-Infinity"), (lit "0x1p-2"), (lit "1_000.5"). split; [|vm_compute; repeat split; reflexivity].
  intros s neg m f e Hs L. apply literal_alph in L. rewrite Forall_forall in L.
  cbn [In] in Hs. destruct Hs as [<-|[<-|[<-|[<-|[]]]]].
  - discriminate (L x6e ltac:(vm_compute; tauto)).
  - discriminate (L x49 ltac:(vm_compute; tauto)).
  - discriminate (L x78 ltac:(vm_compute; tauto)).
  - discriminate (L x5f ltac:(vm_compute; tauto)).
Qed.
Print Assumptions C61_other_texts_refuted.

(** With another separator, the dot is still one: a number of the column read with "," as separator
    and "." between thousands is divided by thousand when "." is not ignored. *)
Theorem C61_dot_refuted : exists sep s x, sep <> lit "." /\ parse_float_value go_parse_float sep [] s = Ok x /\
  parse_float_value go_parse_float sep (lit ".") s <> Ok x /\ parse_float_value go_parse_float sep [] (lit "1,234") = Ok x.
Proof. exists (lit ","), (lit "1.234"). eexists. split; [discriminate|]. split; [vm_compute; reflexivity|]. split; [vm_compute; discriminate|vm_compute; reflexivity]. Qed.
Print Assumptions C61_dot_refuted.

(** C61: whole numbers above 2^53 are not all kept. *)
Theorem C61_large_integer_refuted : exists a b m n, literal a false m 0 0 /\ literal b false n 0 0 /\ m <> n /\ go_parse_float a = go_parse_float b.
Proof.
  exists (lit "9007199254740993"), (lit "9007199254740992"), 9007199254740993, 9007199254740992. split; [|split; [|split; [discriminate|vm_compute; reflexivity]]].
  - apply (literal_whole [] (lit "9007199254740993") 9007199254740993 [] 0); [cbn; tauto|digits|constructor].
  - apply (literal_whole [] (lit "9007199254740992") 9007199254740992 [] 0); [cbn; tauto|digits|constructor].
Qed.
Print Assumptions C61_large_integer_refuted.

(** C32 (missing: separators of several characters, see C32_float_separator_refuted, "-" and U+FFFD
    among the characters; texts without a digit that counts; numbers out of range).  A text that matches
    the pattern of a float parser is the text of a number, which the parser reads unless it is too large. *)
Theorem C32_float_pattern_partial : forall sc cs s re caps,
  scalar sc -> sc <> 45 -> sc <> rune_error -> ~ 48 <= sc <= 57 -> Forall (fun c => scalar c /\ c <> 45 /\ c <> rune_error) cs ->
  compile (lit "^(" ++ pattern (PFloat (text [sc]) (text cs)) ++ lit ")$") = Ok re -> find_submatch re s = Some caps ->
  (exists c, In c (runes s) /\ 48 <= c <= 57 /\ ~ In c cs) ->
  exists neg m f r, literal (written sc cs (runes s)) neg m f 0 /\ rounded neg m (- f) range_error r /\
    parse_float_value go_parse_float (text [sc]) (text cs) s = (rlet x := r in Ok (VFloat x)).
Proof. exact float_pattern. Qed.
Print Assumptions C32_float_pattern_partial.
Theorem C32_float_pattern_compiles : forall sc cs, scalar sc -> sc <> 45 -> Forall (fun c => scalar c /\ c <> 45) cs ->
  exists re, compile (lit "^(" ++ pattern (PFloat (text [sc]) (text cs)) ++ lit ")$") = Ok re.
Proof. exact float_pattern_compiles. Qed.
Print Assumptions C32_float_pattern_compiles.

Definition matched (c : pconfig) (s : bytes) : Prop :=
  exists re cs, compile (lit "^(" ++ pattern c ++ lit ")$") = Ok re /\ find_submatch re s = Some cs.
Ltac matching := do 2 eexists; split; [vm_compute; reflexivity|vm_compute; reflexivity].
Example C32_float_example : matched (PFloat (text [1643]) (text [46; 8239])) (text [46; 45; 49; 46; 50; 8239; 51; 1643; 53; 46]) /\
  (exists c, In c (runes (text [46; 45; 49; 46; 50; 8239; 51; 1643; 53; 46])) /\ 48 <= c <= 57 /\ ~ In c [46; 8239]) /\
  parse_float_value go_parse_float (text [1643]) (text [46; 8239]) (text [46; 45; 49; 46; 50; 8239; 51; 1643; 53; 46]) = parse_float_value go_parse_float (lit ".") [] (lit "-123.5").
Proof.
  split; [matching|]. split; [|vm_compute; reflexivity]. exists 49. split; [vm_compute; tauto|]. split; [lia|]. intros [H|[H|[]]]; discriminate H.
Qed.

(** A separator of two characters is a class of characters in the pattern, but a text in the parser. *)
Theorem C32_float_separator_refuted : exists sep s e, matched (PFloat sep []) s /\ parse_float_value go_parse_float sep [] s = Err e.
Proof. exists (lit ";,"), (lit "1,5"). eexists. split; [matching|vm_compute; reflexivity]. Qed.
Print Assumptions C32_float_separator_refuted.
(** And the text that the parser wants is refused by the pattern. *)
Theorem C32_float_separator_unreachable_refuted : exists sep s x re, parse_float_value go_parse_float sep [] s = Ok x /\
  compile (lit "^(" ++ pattern (PFloat sep []) ++ lit ")$") = Ok re /\ find_submatch re s = None.
Proof. exists (lit ";,"), (lit "1;,5"). do 2 eexists. split; [vm_compute; reflexivity|]. split; vm_compute; reflexivity. Qed.
Print Assumptions C32_float_separator_unreachable_refuted.
(** Numbers which the parser reads are refused by the pattern: exponents, "+", a dot at the end. *)
Theorem C32_float_narrow_refuted : exists re, compile (lit "^(" ++ pattern (PFloat (lit ".") []) ++ lit ")$") = Ok re /\
  Forall (fun s => find_submatch re (lit s) = None /\ exists x, parse_float_value go_parse_float (lit ".") [] (lit s) = Ok x) ["1e3"; "+1"; "1."; ".5"]%string.
Proof.
  eexists. split; [vm_compute; reflexivity|]. repeat (apply Forall_cons; [split; [vm_compute; reflexivity|eexists; vm_compute; reflexivity]|]). apply Forall_nil.
Qed.
Print Assumptions C32_float_narrow_refuted.
(** A number that is too large matches. *)
Theorem C32_float_overflow_refuted : exists s e, matched (PFloat (lit ".") []) s /\ parse_float_value go_parse_float (lit ".") [] s = Err e.
Proof. exists (x31 :: repeat x30 309). eexists. split; [matching|vm_compute; reflexivity]. Qed.
Print Assumptions C32_float_overflow_refuted.
