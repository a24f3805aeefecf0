(** The installation of SystemExample.v can be started; another one, whose two wildcard
    indexes use one file. *)
From Coq Require Import List ZArith Lia Bool String.
From Coq Require Import Strings.Byte Floats.SpecFloat.
From Verif Require Import Start.
From Verif Require Import Sql SqlIndex SpecSql SpecSqlFind.
From Verif Require Import XmlStream XmlInput.
From Verif Require Import Bufio CsvReader System.
From Verif Require Import Stream Wildcard.
From Verif Require Import Base Codec Value GoStrings Parser SpecIndex SpecHttp SpecCsv Records SpecRecords Sort JsonDecode JsonReader Output Http Regex Route Config SpecConfig SpecSystem SpecStart SystemExample.
Import ListNotations.
Open Scope Z_scope.

Definition ex_input_of : bytes -> vinput -> input -> Prop :=
  made_input ex_files (fun _ => Ok 0) 7 (fun _ => 5%nat) (fun _ s => Ok s) (fun _ s => [s]) (fun _ => new_reader) (fun _ => mkJfile 0 O) ex_xml (fun _ => Ok tt) (vc_parsers ex_v).
Definition ex_boot_leaving (index_file : bytes -> option bytes) (databases : bytes -> db) :=
  boot_leaving ex_files (fun _ => Ok 0) 7 (fun _ => 5%nat) (fun _ s => Ok s) (fun _ s => [s]) (fun _ => Ok tt)
    (fun _ => new_reader) (fun _ => mkJfile 0 O) ex_lower index_file (map Ok) (fun _ _ _ => true) ex_matches databases
    ex_xml insertion_sort (fun _ => Ok tt) (fun _ => Ok tt).

Lemma holds_plain (P : value -> Prop) t props :
  Forall (fun a => Forall (fun p => p <> [] /\ ~ In x2e p /\ match mget a p with Some x => P x | None => False end) props) (t_rows t) -> all_hold P t props.
Proof.
  intros H a p Ha Hp. rewrite Forall_forall in H. specialize (H a Ha). rewrite Forall_forall in H. destruct (H p Hp) as (H0 & H1 & H2).
  destruct (mget a p) as [x|] eqn:E; [|destruct H2]. exists x. split; [|exact H2]. exists p, []. split; [apply plain_path; assumption|]. split; [eapply ap_key; [exact E|constructor]|].
  intros _. apply BaseFacts.mget_In in E. apply (in_map fst) in E. exact E.
Qed.
Ltac held := apply holds_plain; vm_compute; repeat (constructor; [repeat (constructor; [split; [discriminate|split; [intuition discriminate|first [exact I|eexists; reflexivity]]]|]); constructor|]); constructor.

Lemma ex_dated n : dated ex_files (fun _ => Ok 0) ex_v n.
Proof.
  intros c H. cbn [vc_inputs ex_v mget] in H. repeat match type of H with (if ?b then _ else _) = _ => destruct b end; try discriminate H; injection H as <-;
    (split; [vm_compute; reflexivity|exists 0; split; [reflexivity|unfold in_i64, two63; lia]]).
Qed.

Lemma ex_small : small ex_input_of ex_lower ex_v (mkWconfig (lit "cities") [lit "name"] true).
Proof.
  intros c inp r s H (s0 & H0 & ->) Hc. injection H as <-. 
  vm_compute in H0. injection H0 as <-.
  apply (f_equal (fun rs => zlen (st_file (snd rs) ++ st_buf (snd rs)))) in Hc. cbn [snd] in Hc. rewrite <- Hc. vm_compute. reflexivity.
Qed.

Ltac distinct := vm_compute; repeat constructor; cbn; intuition discriminate.
Lemma ex_buildable n x : In (n, x) (vc_indexes ex_v) ->
  buildable ex_files (fun _ => Ok 0) ex_input_of ex_lower (fun _ => None) (map Ok) (fun _ _ _ => true) ex_matches (fun _ => empty_db) ex_v ex_tables n x.
Proof.
  assert (U : forall s, unused empty_db s) by (intros s; split; [reflexivity|constructor]).
  intros [H|[H|[H|[H|[H|[H|[]]]]]]]; injection H as <- <-; cbn [buildable].
  - exists ex_cities. split; [reflexivity|]. held.
  - exists ex_cities. split; [reflexivity|]. split; [held|]. split; [apply ex_dated|]. split; [exact ex_small|left; reflexivity].
  - exists ex_cities. split; [reflexivity|]. split; [held|]. split; [apply ex_dated|]. split; [distinct|]. split; [distinct|]. left.
    repeat match goal with |- creatable _ _ _ => split | |- _ /\ _ => split end; try apply U; try distinct; try discriminate; repeat constructor; cbn; auto.
  - exists ex_people. split; [reflexivity|]. split; [held|]. split; [apply ex_dated|]. split; [distinct|]. split; [distinct|]. left.
    repeat match goal with |- creatable _ _ _ => split | |- _ /\ _ => split end; try apply U; try distinct; try discriminate; repeat constructor; cbn; auto.
  - exists ex_cities. split; [reflexivity|]. split; [held|]. split; [apply ex_dated|]. split; [distinct|]. split; [distinct|]. left.
    repeat match goal with |- creatable _ _ _ => split | |- _ /\ _ => split end; try apply U; try distinct; try discriminate; repeat constructor; cbn; auto.
  - exact I.
Qed.

Lemma ex_startable : startable ex_files (fun _ => Ok 0) ex_input_of ex_lower (fun _ => None) (map Ok) (fun _ _ _ => true) ex_matches (fun _ => empty_db) ex_v ex_tables
  (fun _ => Ok tt) (fun _ => Ok tt) (fun _ => Ok tt).
Proof.
  constructor; try reflexivity.
  - intros n path die first delimiter columns [H|[H|[H|[]]]]; try discriminate H. injection H as <- <- <- <- <- <-.
    do 4 eexists. split; [reflexivity|]. split; [split; [vm_compute; intuition discriminate|reflexivity]|]. split; [exact ex_cities_text|]. split; distinct.
  - intros n [H|[H|[]]]; discriminate H.
  - intros n s o path out [H|[]]. injection H as <- <-. intros [H|[H|[]]]; injection H as <- <-; intros M; injection M as <-; (split; [|eexists; vm_compute; reflexivity]).
    + intros name []. 
    + intros name [<-|[]]. eexists. left. reflexivity.
  - exact ex_buildable.
  - distinct.
  - distinct.
  - intros dsn. cbn [vc_indexes ex_v flat_map column_names snd fst app]. destruct (bytes_eqb (lit "cities.db") dsn); distinct.
Qed.

(** Two wildcard indexes with one file: the second uses the tree of the first. *)
Definition ex_shared : parsed :=
  mkParsed [] [Some (CCsv (lit "cities") (lit "cities.csv") None true true (lit ",") [])]
    [Some (CWildcard (lit "id_part") (lit "cities.idx") (lit "cities") [lit "id"] None); Some (CWildcard (lit "name_part") (lit "cities.idx") (lit "cities") [lit "name"] None)]
    [Some (mkServiceConfig (lit "web") (Some (lit ":8080")) None (lit "application/json") [Some (lit "list", lit "/cities")])]
    [Some (CArray (lit "list") (lit "cities") 2 1000 (lit "limit") (lit "from") [(lit "part", Some (mkParam (lit "name") (lit "name_part") (lit "string")))] [])].
Definition ex_shared_v : vconfig :=
  mkVConfig (vc_parsers ex_v) [(lit "cities", VCsv (lit "cities.csv") true true true (lit ",") [])]
    [(lit "id_part", VIWildcard (lit "cities.idx") (lit "cities") [lit "id"] false); (lit "name_part", VIWildcard (lit "cities.idx") (lit "cities") [lit "name"] false); (lit "default", VINoop)]
    [(lit "web", mkVService (Some (lit ":8080")) None [(lit "list", lit "/cities")])]
    [(lit "list", VOutput (OArray (mkArray (lit "cities") 2 1000 (lit "limit") (lit "from") [(lit "part", mkParam (lit "name") (lit "name_part") (lit "string"))] [])))].
Lemma ex_shared_loaded : ex_load ex_shared = Ok ex_shared_v.
Proof. vm_compute. reflexivity. Qed.
Lemma ex_shared_limits : unsigned_limits ex_shared.
Proof. intros n i d mx lp op params rels [H|[]]. injection H; intros; subst. split; discriminate. Qed.

Definition shown_by (b : outcome (list (bytes * list route) * env)) (rqs : list request) : list (Z * bytes) :=
  match b with Done ([(_, routes)], E) => map (fun rq => show (ex_serve routes E rq)) rqs | _ => [] end.
Lemma shown rqs a : shown_by (ex_boot ex_shared_v) rqs = a -> a <> [] ->
  exists services E s routes, ex_boot ex_shared_v = Done (services, E) /\ In (s, routes) services /\ map (fun rq => show (ex_serve routes E rq)) rqs = a.
Proof.
  unfold shown_by. destruct (ex_boot ex_shared_v) as [[[|[s routes] [|? ?]] E]| | |]; intros <- H; try congruence. exists [(s, routes)], E, s, routes. split; [reflexivity|]. split; [now left|reflexivity].
Qed.
