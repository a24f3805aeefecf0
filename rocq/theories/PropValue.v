(** Properties C26, C27, C29, C31: sorting, comparison, integer and split
    parsers. *)
From Coq Require Import List ZArith Lia Bool String Sorted Permutation.
From Coq Require Import Strings.Byte Floats.SpecFloat.
From Verif Require Import Base BaseFacts Codec Value GoStrings Parser Sort SpecIndex SpecText SpecOrder OrderFacts Utf8Facts ParserFacts.
Import ListNotations.
Open Scope Z_scope.

(** C27 (missing: NaN, see C27_nan_refuted).  Two values of the same primitive
    type are equal, less or greater, exactly one of them, and swapping them
    swaps the answer. *)
Theorem C27_compare_typed_partial : forall t a b, has_type t a -> has_type t b ->
  (compare a b = Ok None /\ compare b a = Ok None /\ same_value a b /\ ~ before a b /\ ~ before b a) \/
  (compare a b = Ok (Some true) /\ compare b a = Ok (Some false) /\ ~ same_value a b /\ before a b /\ ~ before b a) \/
  (compare a b = Ok (Some false) /\ compare b a = Ok (Some true) /\ ~ same_value a b /\ ~ before a b /\ before b a).
Proof.
  intros t a b Ha Hb. destruct (compare_typed t a b Ha Hb) as (c & C1 & C2 & He & Hl & Hg).
  rewrite C1, C2, <- He, <- Hl, <- Hg. destruct c; cbn; intuition congruence.
Qed.
Print Assumptions C27_compare_typed_partial.

Theorem C27_order_transitive : forall t a b c, has_type t a -> has_type t b -> has_type t c ->
  before a b -> before b c -> before a c.
Proof. exact before_trans. Qed.
Print Assumptions C27_order_transitive.

(** Values of different types are never ordered. *)
Theorem C27_mixed_types_rejected : forall a b, (forall t, ~ (has_type t a /\ has_type t b)) ->
  (forall f, a <> VFloat f) \/ (forall f, b <> VFloat f) -> exists e, compare a b = Err e.
Proof. exact compare_mixed. Qed.
Print Assumptions C27_mixed_types_rejected.

Example C27_example :
  has_type TFloat (VFloat (S754_finite false 6755399441055744 (-52))) /\ has_type TFloat (VFloat (S754_finite true 4503599627370496 (-50))) /\
  before (VFloat (S754_finite true 4503599627370496 (-50))) (VFloat (S754_finite false 6755399441055744 (-52))) /\
  compare (VString (lit "abc")) (VString (lit "ab")) = Ok (Some false) /\
  compare (VBool false) (VBool true) = Ok (Some true) /\ compare (VInt 3) (VFloat (S754_zero false)) = Err (EMsg "Cannot compare an integer").
Proof.
  split; [cbn; split; [discriminate|reflexivity]|]. split; [cbn; split; [discriminate|reflexivity]|].
  split; [|vm_compute; auto]. constructor. eapply fb_num; [reflexivity|reflexivity|vm_compute; reflexivity].
Qed.

(** NaN is reported as greater than everything, in both directions. *)
Theorem C27_nan_refuted : exists a b, compare a b = Ok (Some false) /\ compare b a = Ok (Some false).
Proof. exists (VFloat S754_nan), (VFloat (S754_zero false)). vm_compute. auto. Qed.
Print Assumptions C27_nan_refuted.

(** C26 (missing: records with null or mixed values, see
    C26_null_refuted).  For any algorithm which fulfils the contract of Go's
    package sort, the result is a permutation in which no record comes before
    one that should precede it. *)
Theorem C26_sort_partial : forall alg cs l, sorts alg -> sortable cs l ->
  Permutation l (sort_records alg cs l) /\ StronglySorted (fun a b => ~ precedes cs b a) (sort_records alg cs l).
Proof. exact sort_correct. Qed.
Print Assumptions C26_sort_partial.

(** An insertion sort does; so does sort.Sort, see C26_contract (PropSort.v). *)
Theorem C26_insertion_sort : forall A, sorts (@insertion_sort A).
Proof. exact @insertion_sort_sorts. Qed.
Print Assumptions C26_insertion_sort.

Definition ex_rec (pos : Z) (kv : list (bytes * value)) : rec :=
  mkRec pos (fun p => Ok match mget kv p with Some v => v | None => VNil end) (Ok kv).
Definition ex_sort_rows : list rec :=
  [ ex_rec 1 [(lit "a", VInt 2); (lit "b", VString (lit "x"))];
    ex_rec 2 [(lit "a", VInt 1); (lit "b", VString (lit "x"))];
    ex_rec 3 [(lit "a", VInt 2); (lit "b", VString (lit "y"))];
    ex_rec 4 [(lit "a", VInt 0); (lit "b", VString (lit "z"))] ].
Example C26_example :
  sortable [(lit "a", false); (lit "b", true)] ex_sort_rows /\
  map r_pos (sort_records insertion_sort [(lit "a", false); (lit "b", true)] ex_sort_rows) = [1; 3; 2; 4].
Proof.
  split; [|vm_compute; reflexivity]. constructor; [exists TInt|constructor; [exists TString|constructor]];
    repeat constructor; eexists; (split; [reflexivity|exact I]).
Qed.

(** A record without the property is "equal" to every other one, and separates
    records which are then not put in order. *)
Theorem C26_null_refuted : exists cs l a b, sort_records insertion_sort cs l = [a; ex_rec 2 []; b] /\ precedes cs b a.
Proof.
  exists [(lit "a", true)], [ex_rec 1 [(lit "a", VInt 9)]; ex_rec 2 []; ex_rec 3 [(lit "a", VInt 1)]],
    (ex_rec 1 [(lit "a", VInt 9)]), (ex_rec 3 [(lit "a", VInt 1)]).
  split; [vm_compute; reflexivity|]. eapply prec_here; [reflexivity|reflexivity|]. constructor. lia.
Qed.
Print Assumptions C26_null_refuted.

(** C29.  The text (without the ignored characters) is a signed decimal number
    of 64 bits, which is returned, or there is an error. *)
Theorem C29_integer_parse : forall ignore s,
  (exists z, signed_decimal (remove_characters s ignore) z /\ in_i64 z /\ parse_integer ignore s = Ok (VInt z)) \/
  ((forall z, signed_decimal (remove_characters s ignore) z -> ~ in_i64 z) /\ exists e, parse_integer ignore s = Err e).
Proof. exact integer_decision. Qed.
Print Assumptions C29_integer_parse.

(** The decimal text of every int64 is parsed back, with ignored characters
    inserted anywhere. *)
Theorem C29_integer_round_trip : forall z cs rs, in_i64 z -> Forall scalar cs -> Forall scalar rs ->
  text (filter (fun r => negb (existsb (Z.eqb r) cs)) rs) = dec_text z -> parse_integer (text cs) (text rs) = Ok (VInt z).
Proof. exact integer_ignores. Qed.
Print Assumptions C29_integer_round_trip.

(** Two texts which differ only by ignored characters give the same result. *)
Theorem C29_ignored_characters : forall cs rs rs', Forall scalar cs -> Forall scalar rs -> Forall scalar rs' ->
  filter (fun r => negb (existsb (Z.eqb r) cs)) rs = filter (fun r => negb (existsb (Z.eqb r) cs)) rs' ->
  parse_integer (text cs) (text rs) = parse_integer (text cs) (text rs').
Proof. exact integer_same. Qed.
Print Assumptions C29_ignored_characters.

(** "-1,000 €" with the ignored characters "," " " and the euro sign. *)
Example C29_example :
  text (filter (fun r => negb (existsb (Z.eqb r) [44; 32; 8364])) [45; 49; 44; 48; 48; 48; 32; 8364]) = dec_text (-1000) /\
  parse_integer (text [44; 32; 8364]) (text [45; 49; 44; 48; 48; 48; 32; 8364]) = Ok (VInt (-1000)) /\
  parse_integer [] (dec_text (two63 - 1)) = Ok (VInt (two63 - 1)) /\
  parse_integer [] (dec_text two63) = Err (EMsg "value out of range") /\
  parse_integer [] (lit "12a") = Err (EMsg "invalid syntax") /\ parse_integer [] [] = Err (EMsg "invalid syntax").
Proof. vm_compute. auto 10. Qed.

(** C31.  The pieces between the delimiters, none lost, each parsed by the
    sub-parser, in order. *)
Theorem C31_split_exact : forall pf jd dc rs fuel ps delim sub c s, delim <> [] -> mget ps sub = Some c ->
  exists l, pieces delim s l /\ join_strings delim l = s /\
  forall v, parse pf jd dc rs (S fuel) ps (PSplit delim false sub) s = Ok v <->
    exists vs, v = VList vs /\ Forall2 (fun piece v => parse pf jd dc rs fuel ps c piece = Ok v) l vs.
Proof. exact split_exact. Qed.
Print Assumptions C31_split_exact.

(** Termination (missing: cyclic references, accepted by the validation, see
    C31_cycle_refuted): the recursion ends, with the same result for any
    larger number of steps. *)
Theorem C31_terminates_partial : forall pf jd dc rs ps, oracles_return pf jd dc -> acyclic ps ->
  exists n, forall name c s fuel, mget ps name = Some c -> (n <= fuel)%nat ->
    parse pf jd dc rs fuel ps c s <> NoFuel /\ parse pf jd dc rs fuel ps c s = parse pf jd dc rs n ps c s.
Proof. exact parse_terminates. Qed.
Print Assumptions C31_terminates_partial.

Definition ex_parsers : parsers :=
  [(lit "matrix", PSplit (lit ";") false (lit "row")); (lit "row", PSplit (lit ", ") false (lit "int")); (lit "int", PInteger (lit "'"))].
Example C31_example :
  split_references_exist ex_parsers = true /\ acyclic ex_parsers /\
  parse (fun _ => Err EEof) (fun _ => Err EEof) (fun _ _ => Err EEof) (fun _ _ => []) 3 ex_parsers
    (PSplit (lit ";") false (lit "row")) (lit "1'000, 2;-3") = Ok (VList [VList [VInt 1000; VInt 2]; VList [VInt (-3)]]).
Proof.
  split; [reflexivity|]. split; [|vm_compute; reflexivity].
  exists (fun n => if bytes_eqb n (lit "matrix") then 2%nat else if bytes_eqb n (lit "row") then 1%nat else 0%nat).
  intros name d r sub c H _. unfold ex_parsers in H. cbn [mget] in H.
  destruct (bytes_eqb (lit "matrix") name) eqn:E1; [apply bytes_eqb_eq in E1; subst name; injection H as <- <- <-; vm_compute; lia|].
  destruct (bytes_eqb (lit "row") name) eqn:E2; [apply bytes_eqb_eq in E2; subst name; injection H as <- <- <-; vm_compute; lia|].
  destruct (bytes_eqb (lit "int") name); discriminate.
Qed.

(** A split parser whose elements are parsed by itself passes the validation,
    and parsing any text with it never ends. *)
Theorem C31_cycle_refuted : exists ps c, split_references_exist ps = true /\ mget ps (lit "loop") = Some c /\
  forall pf jd dc rs fuel s, parse pf jd dc rs fuel ps c s = NoFuel.
Proof.
  exists loop_parsers, (PSplit (lit ",") false (lit "loop")). split; [reflexivity|]. split; [reflexivity|]. exact split_loops.
Qed.
Print Assumptions C31_cycle_refuted.
