(** Proofs about records and parsers: no name is missing. *)
From Coq Require Import List ZArith Lia Bool String Permutation.
From Coq Require Import Strings.Byte Floats.SpecFloat.
From Verif Require Import Base BaseFacts Codec Value Join GoStrings Parser Sort Wildcard Index Output Http Records RecordsFacts Config SpecConfig ConfigFacts ServeFacts.
Import ListNotations.
Open Scope Z_scope.

Lemma quiet_rmapM {A B} (f : A -> res B) l : (forall a, In a l -> quiet (f a)) -> quiet (rmapM f l).
Proof. intro H. refine (proj1 (rmapM_quiet f l (fun _ => True) _)). auto. Qed.

Lemma item_at_quiet {A} (l : list A) i : quiet (item_at l i).
Proof. unfold item_at. destruct (i <? 0); [q|]. destruct (nth_error l (Z.to_nat i)); q. Qed.

Lemma get_sub_value_quiet : forall path v, quiet (get_sub_value v path).
Proof.
  induction path as [|k path IH]; intro v; cbn [get_sub_value]; [q|]. destruct v; try q.
  - destruct (atoi k); try q. destruct (zlen l <=? a); [q|]. apply quiet_bind; [apply item_at_quiet|]. intros. apply IH.
  - destruct (mget m k); [apply IH|q].
Qed.

Lemma csv_quiet names ps row pos : Forall (fun p : parser_fun => forall s, quiet (p s)) ps -> quiet_rec (csv_record names ps row pos).
Proof.
  intro H.
  assert (C : forall name, quiet (csv_column names ps row name)).
  { intro name. unfold csv_column. destruct (mget _ name); [|q]. destruct (nth_error row n); [|q].
    destruct (nth_error ps n) eqn:E; [|q]. rewrite Forall_forall in H. apply H. eapply nth_error_In, E. }
  split; cbn [csv_record r_all r_get].
  - unfold csv_all. generalize (@nil (bytes * value)). generalize names at 2. intro cols.
    induction cols as [|c cols IH]; intro m; cbn [csv_all_from]; [q|]. apply quiet_bind; [apply C|]. intros. apply IH.
  - intro p. unfold csv_get. destruct p as [|b p]; [q|]. destruct (segments (b :: p)); [q|]. apply quiet_bind; [apply C|]. intros. apply get_sub_value_quiet.
Qed.

Lemma json_quiet data pos : quiet_rec (json_record data pos).
Proof.
  split; cbn [json_record r_all r_get]; [q|]. intro p. unfold json_get. destruct p as [|b p]; [q|]. apply get_sub_value_quiet.
Qed.

Section Xml.
Variable node : Type.
Variable query : node -> bytes -> list node.
Variable evaluate : node -> bytes -> xresult.
Variable parsers : list (bytes * (xparser * parser_fun)).
Variable int_of_float : spec_float -> Z.
Hypothesis parse_quiet : forall n t p s, In (n, (t, p)) parsers -> quiet (p s).

Lemma handle_string_quiet p s : has parsers p -> quiet (handle_string parsers p s).
Proof.
  intro H. unfold handle_string. destruct (has_mget _ _ H) as ([t f] & E). rewrite E. apply mget_In in E. eapply parse_quiet, E.
Qed.

Lemma handle_primitive_quiet p r : has parsers p -> quiet (handle_primitive parsers int_of_float p r).
Proof.
  intro H. destruct r; cbn [handle_primitive]; [apply handle_string_quiet, H| | | |q];
    destruct (has_mget _ _ H) as ([t f0] & E).
  - unfold handle_number. rewrite E. destruct t; q.
  - unfold handle_bool. rewrite E. destruct t; q.
  - unfold handle_nodes. rewrite E. destruct t; q.
Qed.

Definition known_prop (c : xprop) : Prop := forall name xp p, sub_prop (XPrimitive name xp p) c -> has parsers p.

Lemma known_items n x c : known_prop (XArray n x c) -> known_prop c.
Proof. intros H name xp p S. eapply H. apply sub_items, S. Qed.
Lemma known_member n x l c : known_prop (XObject n x l) -> In c l -> known_prop c.
Proof. intros H I name xp p S. eapply H. eapply sub_member; eassumption. Qed.

Lemma collect_quiet l : forall m, (forall n r, In (n, r) l -> quiet r) -> quiet (collect l m).
Proof.
  induction l as [|[n r] l IH]; intros m H; cbn [collect]; [q|]. apply quiet_bind; [eapply H; left; reflexivity|].
  intros. apply IH. intros n' r' I. eapply H. right. exact I.
Qed.

Lemma all_values_quiet : forall c n, known_prop c -> quiet (all_values node query evaluate parsers int_of_float n c).
Proof.
  induction c as [nm xp p|nm xp c IH|nm xp props IH] using xprop_ind'; intros n K; cbn [all_values].
  - apply handle_primitive_quiet. eapply K. apply sub_self.
  - apply quiet_bind; [|intros; q]. apply quiet_rmapM. intros n' _. apply IH. eapply known_items, K.
  - destruct (query n xp) as [|n' [|? ?]]; [q| |q]. apply quiet_bind; [|intros; q]. apply collect_quiet.
    intros k r I. apply in_map_iff in I. destruct I as (c & E & I). injection E as <- <-.
    rewrite Forall_forall in IH. apply IH; [exact I|]. eapply known_member; eassumption.
Qed.

Lemma x_sub_value_quiet : forall c n path, known_prop c -> quiet (x_sub_value node query evaluate parsers int_of_float n c path).
Proof.
  induction c as [nm xp p|nm xp c IH|nm xp props IH] using xprop_ind'; intros n path K.
  - cbn [x_sub_value]. assert (H : has parsers p) by (eapply K; apply sub_self).
    destruct (evaluate n xp) eqn:E.
    + apply quiet_bind; [apply handle_string_quiet, H|]. intros. apply get_sub_value_quiet.
    + destruct path; [apply handle_primitive_quiet, H|q].
    + destruct path; [apply handle_primitive_quiet, H|q].
    + destruct path; [apply handle_primitive_quiet, H|q].
    + destruct path; [apply handle_primitive_quiet, H|q].
  - cbn [x_sub_value]. destruct path as [|k path]; [apply all_values_quiet, K|]. destruct (atoi k); try q.
    destruct (_ <=? a); [q|]. apply quiet_bind; [apply item_at_quiet|]. intros n' _. apply IH. eapply known_items, K.
  - cbn [x_sub_value]. destruct path as [|k path]; [apply all_values_quiet, K|].
    destruct (query n xp) as [|n' [|? ?]]; [q| |q].
    assert (K' : forall c, In c props -> known_prop c) by (intros; eapply known_member; eassumption). clear K.
    induction props as [|c props IHp]; [q|]. destruct (bytes_eqb (x_name c) k).
    + inversion IH; subst. apply H1, K'. left. reflexivity.
    + apply IHp; [inversion IH; assumption|]. intros. apply K'. right. assumption.
Qed.

Lemma xml_quiet n props pos : (forall c, In c props -> known_prop c) -> quiet_rec (xml_record node query evaluate parsers int_of_float n props pos).
Proof.
  intro H. split; cbn [xml_record r_all r_get].
  - unfold xml_all. apply collect_quiet. intros k r I. apply in_map_iff in I. destruct I as (c & E & I). injection E as <- <-.
    apply all_values_quiet, H, I.
  - intro p. unfold xml_get. destruct p as [|b p]; [q|]. destruct (segments (b :: p)); [q|].
    destruct (find _ props) as [c|] eqn:F; [|q]. apply find_some in F. apply x_sub_value_quiet, H. tauto.
Qed.
End Xml.

Section Parse.
Variable parse_float : bytes -> res spec_float.
Variable json_decode : bytes -> res value.
Variable decode_charset : bytes -> bytes -> res bytes.
Variable regexp_split : bytes -> bytes -> list bytes.
Hypothesis float_quiet : forall s, quiet (parse_float s).
Hypothesis decode_quiet : forall s, quiet (json_decode s).
Hypothesis charset_quiet : forall c s, quiet (decode_charset c s).

Lemma parse_quiet ps : (forall n d b sub, In (n, PSplit d b sub) ps -> has ps sub) ->
  forall fuel n c s, In (n, c) ps -> quiet (parse parse_float json_decode decode_charset regexp_split fuel ps c s).
Proof.
  intro H. induction fuel as [|fuel IH]; intros n c s I; [q|]. cbn [parse]. destruct c as [cs|ig|sp ig|t f| |d b sub].
  - unfold parse_string. destruct cs; [q|]. apply quiet_bind; [apply charset_quiet|]. intros. q.
  - unfold parse_integer. apply quiet_bind; [apply atoi_quiet|]. intros. q.
  - unfold parse_float_value. apply quiet_bind; [apply float_quiet|]. intros. q.
  - unfold parse_boolean. destruct (is_in_array s t); [q|]. destruct (is_in_array s f); q.
  - apply decode_quiet.
  - destruct (has_mget _ _ (H _ _ _ _ I)) as (c' & E). rewrite E. apply quiet_bind; [|intros; q].
    apply quiet_rmapM. intros s' _. eapply IH. apply mget_In, E.
Qed.
End Parse.

(** *** Indexes *)

Lemma map_index_quiet cfg idx name fs : quiet (map_positions cfg idx name fs) /\
  forall it, map_positions cfg idx name fs = Ok it -> Forall quiet it.
Proof.
  assert (G : quiet (map_filter_iters cfg idx fs) /\ forall its, map_filter_iters cfg idx fs = Ok (Some its) -> quiets its).
  { induction fs as [|[p f] fs [IH1 IH2]]; cbn [map_filter_iters]; [split; [q|intros ? [= <-]; constructor]|].
    destruct (negb _); [split; [q|discriminate]|]. destruct (mget idx p) as [m|]; [|split; [q|discriminate]].
    unfold pget. destruct (hashable f); cbn [rbind]; [|split; [q|discriminate]].
    destruct (pfind m f) as [l|]; [|split; [q|discriminate]]. split.
    - apply quiet_bind; [exact IH1|]. intros [its|] _; q.
    - intros its H. inv_ok. destruct a as [its'|]; [|discriminate]. injection H as <-. constructor; [|auto].
      apply Forall_forall. intros r I. apply in_map_iff in I. destruct I as (z & <- & _). q. }
  unfold map_positions. destruct (negb _); [split; [q|discriminate]|]. destruct fs as [|f fs]; [split; [q|discriminate]|].
  destruct G as [G1 G2]. split.
  - apply quiet_bind; [exact G1|]. intros [its|] _; q.
  - intros it H. inv_ok. destruct a as [its|]; injection H as <-; [apply join_positions_quiet; auto|constructor].
Qed.

Lemma go_eq_quiet a b : quiet (go_eq a b).
Proof. unfold go_eq. destruct a, b; q. Qed.

Lemma noop_index_quiet inp fs : Forall (fun r => quiet r /\ forall a, r = Ok a -> quiet_rec a) (in_iter inp) ->
  quiet (noop_positions inp fs) /\ forall it, noop_positions inp fs = Ok it -> Forall quiet it.
Proof.
  intro H. unfold noop_positions. split; [q|]. intros it E. injection E as <-.
  induction H as [|r its [H1 H2] H IH]; cbn [noop_iterate]; [constructor|].
  destruct r as [r|e| |]; try (constructor; [q|exact IH]). destruct (H2 _ eq_refl) as [_ G].
  assert (M : quiet (noop_matches r fs)).
  { clear - G. induction fs as [|[p f] fs IH]; cbn [noop_matches]; [q|]. apply quiet_bind; [apply G|]. intros v _.
    assert (K : quiet (rlet b := go_eq v f in if b then noop_matches r fs else Ok false)).
    { apply quiet_bind; [apply go_eq_quiet|]. intros [|] _; [exact IH|q]. }
    destruct v; try exact K. destruct f; try exact IH; q. }
  destruct (noop_matches r fs) as [[|]|e| |]; try (constructor; [q|exact IH]). exact IH.
Qed.
