(** Property C31: split parsers whose delimiter is a regular expression. *)
From Coq Require Import List ZArith Lia Bool String.
From Coq Require Import Strings.Byte.
From Verif Require Import Base GoStrings Value Parser Regex SpecRegex RegexSplit RegexSplitFacts.
Import ListNotations.

(** C31 (missing: expressions with anchors, or which match the empty text, see C31_empty_match_refuted; syntax
    which is not modelled).  The pieces of a text are those between the first places where the expression
    matches. *)
Theorem C31_regexp_pieces_partial : forall expr r s, compile expr = Ok r -> unanchored (re_prog r) = true -> ~ matches (re_prog r) [] ->
  divided (matches (re_prog r)) s (go_regexp_split expr s).
Proof. exact split_divided. Qed.
Print Assumptions C31_regexp_pieces_partial.

(** Nothing is lost, whatever the expression: with delimiters between them, the pieces give back the text; and
    the delimiters match the expression if it has no anchors. *)
Theorem C31_regexp_nothing_lost : forall expr r s, compile expr = Ok r -> s <> [] ->
  exists ds, List.length (go_regexp_split expr s) = S (List.length ds) /\ weave (go_regexp_split expr s) ds = s /\
    (unanchored (re_prog r) = true -> Forall (fun d => matches (re_prog r) (runes d)) ds).
Proof. exact split_weave. Qed.
Print Assumptions C31_regexp_nothing_lost.

(** Each piece is parsed by the sub-parser, in order. *)
Theorem C31_regexp_parsed : forall pf jd dc fuel ps delim sub c s, mget ps sub = Some c -> forall v,
  parse pf jd dc go_regexp_split (S fuel) ps (PSplit delim true sub) s = Ok v <->
  exists vs, v = VList vs /\ Forall2 (fun piece v => parse pf jd dc go_regexp_split fuel ps c piece = Ok v) (go_regexp_split delim s) vs.
Proof. exact parse_regexp. Qed.
Print Assumptions C31_regexp_parsed.

Definition ex_delim : bytes := lit "\s*[,;]\s*".
Example C31_regexp_example :
  (exists r, compile ex_delim = Ok r /\ unanchored (re_prog r) = true /\ ~ matches (re_prog r) [] /\ matches (re_prog r) (runes (lit " , "))) /\
  go_regexp_split ex_delim (lit "1 , -2;;30 ,") = [lit "1"; lit "-2"; lit ""; lit "30"; lit ""] /\
  weave [lit "1"; lit "-2"; lit ""; lit "30"; lit ""] [lit " , "; lit ";"; lit ";"; lit " ,"] = lit "1 , -2;;30 ," /\
  parse (fun _ => Err EEof) (fun _ => Err EEof) (fun _ _ => Err EEof) go_regexp_split 2 [(lit "int", PInteger (lit "'"))] (PSplit ex_delim true (lit "int")) (lit "1 , -2;3'000")
    = Ok (VList [VInt 1; VInt (-2); VInt 3000]) /\
  go_regexp_split (lit "(ab|a)c?") (lit "1ab2ac3abc4") = [lit "1"; lit "2"; lit "3"; lit "4"] /\
  go_regexp_split ex_delim (lit "") = [lit ""].
Proof.
  split; [|repeat split; vm_compute; reflexivity].
  destruct (compile ex_delim) as [r| | |] eqn:E; try (vm_compute in E; discriminate E). exists r. vm_compute in E. injection E as <-. cbn [re_prog].
  split; [reflexivity|]. split; [reflexivity|]. split.
  - intros M. apply RegexFacts.matches_cat in M as (v & w & Hv & _ & M). symmetry in Hv. apply app_eq_nil in Hv as [_ ->].
    apply RegexFacts.matches_cat in M as (v' & w & Hv & M & _). symmetry in Hv. apply app_eq_nil in Hv as [-> _]. apply RegexFacts.matches_set in M as (c & K & _). discriminate K.
  - assert (S1 : forall g, matches (RRep Star g (RSet false [(9, 10); (12, 13); (32, 32)]%Z)) [32%Z]).
    { intros g. apply (m_star_cons g _ [32%Z] []); [discriminate|constructor; reflexivity|constructor]. }
    change (runes (lit " , ")) with ([32] ++ [44] ++ [32] ++ [])%Z. constructor; [apply S1|]. constructor; [constructor; reflexivity|]. constructor; [apply S1|constructor].
Qed.

(** An expression which matches the empty text divides between all characters, also where nothing stands. *)
Theorem C31_empty_match_refuted : exists expr r s, compile expr = Ok r /\ unanchored (re_prog r) = true /\ ~ divided (matches (re_prog r)) s (go_regexp_split expr s).
Proof.
  exists (lit ";*"). destruct (compile (lit ";*")) as [r| | |] eqn:E; try (vm_compute in E; discriminate E). exists r, (lit "ab"). vm_compute in E. injection E as <-. split; [reflexivity|]. split; [reflexivity|].
  change (go_regexp_split (lit ";*") (lit "ab")) with [lit "a"; lit "b"]. cbn [re_prog].
  intros D. inversion D as [|p d s l H1 H2 H3 H4 H5 H6]; subst. apply (H3 [] (runes (lit "ab"))); [rewrite <- H5; reflexivity|vm_compute; lia|].
  exists [], (runes (lit "ab")). split; [reflexivity|]. change (@nil Z) with ([] ++ [] : list Z). constructor; constructor.
Qed.
Print Assumptions C31_empty_match_refuted.
