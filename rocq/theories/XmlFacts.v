(** Facts about reading XML files. *)
From Coq Require Import List ZArith Lia Bool String.
From Coq Require Import Strings.Byte.
From Verif Require Import Base BaseFacts Prog XmlStream SpecXml.
Import ListNotations.
Open Scope nat_scope.

Scheme written_mut := Induction for written Sort Prop
with writtens_mut := Induction for writtens Sort Prop.

Section TreeInd.
Variable P : xtree -> Prop.
Hypothesis Helem : forall n a kids, Forall P kids -> P (XElem n a kids).
Hypothesis Htext : forall s, P (XText s).
Hypothesis Hcomment : forall s, P (XComment s).
Hypothesis Hdecl : forall s, P (XDecl s).
Fixpoint xtree_rect' (t : xtree) : P t :=
  match t with
  | XElem n a kids => Helem n a kids ((fix go l := match l return Forall P l with [] => Forall_nil _ | k :: l' => Forall_cons _ (xtree_rect' k) (go l') end) kids)
  | XText s => Htext s
  | XComment s => Hcomment s
  | XDecl s => Hdecl s
  end.
End TreeInd.

Lemma without_elem name n a kids : without name (XElem n a kids) <-> n <> name /\ Forall (without name) kids.
Proof.
  cbn [without].
  assert (E : fold_right (fun k P => without name k /\ P) True kids <-> Forall (without name) kids).
  { induction kids as [|k kids IH]; cbn [fold_right]; [split; auto|]. rewrite IH. split; [intros [? ?]; now constructor|intros H; inversion H; auto]. }
  now rewrite E.
Qed.

(** *** Selection *)

Lemma fits_last path m n : fits (path ++ [m]) [(true, n)] = bytes_eqb n m.
Proof.
  induction path as [|x path IH]; cbn [app fits].
  - destruct (bytes_eqb n m); reflexivity.
  - rewrite IH. replace (fits (path ++ [m]) []) with false by (destruct path; reflexivity). rewrite andb_false_r. reflexivity.
Qed.

Lemma without_selects name t : forall path, without name t -> selects [(true, name)] path t = false.
Proof.
  induction t as [n a kids IH| | |] using xtree_rect'; intros path; try reflexivity. rewrite without_elem. intros [Hn Hk].
  cbn [selects]. rewrite fits_last. apply orb_false_iff. split.
  - destruct (bytes_eqb name n) eqn:E; [|reflexivity]. apply bytes_eqb_eq in E. congruence.
  - generalize (path ++ [n]). intros q. induction kids as [|k kids IHk]; [reflexivity|].
    inversion IH; inversion Hk; subst. cbn [existsb]. rewrite IHk, orb_false_r by assumption. auto.
Qed.

Lemma without_selects_all name ts path : Forall (without name) ts -> existsb (selects [(true, name)] path) ts = false.
Proof. induction 1 as [|t ts H _ IH]; [reflexivity|]. cbn [existsb]. now rewrite without_selects, IH. Qed.

Section Name.
Variable name : bytes.
Notation pat := [(true, name)].

Definition frame_clean (f : frame) : Prop :=
  match f_kind f with KElem n _ => n <> name | _ => True end /\ Forall (without name) (f_before f ++ f_after f).
Definition no_decl (f : frame) : Prop := match f_kind f with KDecl _ => False | _ => True end.
Definition clean (sp : list frame) : Prop := Forall frame_clean sp.

Lemma whole_clean sp : clean sp -> forall inner, Forall (without name) inner -> existsb (selects pat []) (whole sp inner) = false.
Proof.
  induction 1 as [|f sp [Hk Hc] _ IH]; intros inner Hi; cbn [whole].
  - now apply without_selects_all.
  - assert (K : Forall (without name) (f_before f ++ inner ++ f_after f)).
    { apply Forall_app in Hc as [H1 H2]. rewrite !Forall_app. auto. }
    destruct (f_kind f) as [|n a|t].
    + now apply without_selects_all.
    + apply IH. constructor; [|constructor]. now apply without_elem.
    + apply IH. constructor; [exact I|constructor].
Qed.

Lemma whole_found sp : Forall no_decl sp -> forall inner, (forall path, existsb (selects pat path) inner = true) ->
  existsb (selects pat []) (whole sp inner) = true.
Proof.
  induction 1 as [|f sp Hd _ IH]; intros inner Hi; cbn [whole]; [apply Hi|].
  assert (K : forall path, existsb (selects pat path) (f_before f ++ inner ++ f_after f) = true).
  { intros path. rewrite !existsb_app, Hi, orb_true_r. reflexivity. }
  unfold no_decl in Hd. destruct (f_kind f) as [|n a|t]; [apply K| |destruct Hd].
  apply IH. intros path. cbn [existsb selects]. rewrite K. now rewrite orb_true_r.
Qed.

(** *** The tree under construction *)

Definition close (f g : frame) : frame := mkFrame (f_level g) (f_kind g) (f_before g ++ frame_tree f :: f_after g) [].

(** The way, once it is shortened to add something at level [L]. *)
Inductive settles (L : nat) : list frame -> list frame -> Prop :=
| st_here f r : f_level f < L -> f_after f = [] -> settles L (f :: r) (f :: r)
| st_up f g r s : (f_level f = L /\ f_level g < L) \/ (L <= f_level g /\ f_level f = S (f_level g)) ->
    f_after f = [] -> settles L (close f g :: r) s -> settles L (f :: g :: r) s.

Definition push_leaf (t : xtree) (sp : list frame) : list frame :=
  match sp with f :: r => mkFrame (f_level f) (f_kind f) (f_before f ++ [t]) [] :: r | [] => [] end.

Lemma settles_top L sp s : settles L sp s -> exists f r, s = f :: r /\ f_level f < L /\ f_after f = [].
Proof. induction 1 as [f r H1 H2|f g r s H1 H2 H3 IH]; [exists f, r; auto|exact IH]. Qed.

Lemma settles_add L sp s k : settles L sp s -> add_node L k sp = Some (mkFrame L k [] [] :: s).
Proof.
  induction 1 as [f r H1 H2|f g r s H1 H2 H3 IH]; cbn [add_node].
  - now rewrite (proj2 (Nat.ltb_lt _ _) H1).
  - destruct H1 as [[H1 H1']|[H1 H1']].
    + replace (f_level f <? L) with false by (symmetry; apply Nat.ltb_ge; lia). rewrite H1, Nat.sub_diag. cbn [climb climb1].
      fold (close f g). inversion H3 as [? ? ? ? E1|? ? ? ? E1]; subst; [reflexivity|].
      unfold close in E1. cbn [f_level] in E1. lia.
    + replace (f_level f <? L) with false by (symmetry; apply Nat.ltb_ge; lia).
      cbn [climb climb1]. fold (close f g). cbn [add_node] in IH. change (f_level (close f g)) with (f_level g) in IH.
      replace (f_level g <? L) with false in IH by (symmetry; apply Nat.ltb_ge; lia).
      replace (f_level f - L) with (S (f_level g - L)) by lia. exact IH.
Qed.

Lemma close_after t f g : close f (add_after t g) = mkFrame (f_level g) (f_kind g) (f_before (close f g) ++ [t]) [].
Proof. unfold close, add_after. cbn [f_level f_kind f_before f_after]. now rewrite <- app_assoc. Qed.

Lemma settles_leaf L sp s t : settles L sp s -> exists sp', add_leaf L t sp = Some sp' /\ settles L sp' (push_leaf t s).
Proof.
  induction 1 as [f r H1 H2|f g r s H1 H2 H3 IH]; cbn [add_leaf].
  - rewrite (proj2 (Nat.compare_gt_iff _ _) H1). eexists. split; [reflexivity|]. cbn [push_leaf]. now apply st_here.
  - destruct H1 as [[H1 H1']|[H1 H1']].
    + rewrite H1, Nat.compare_refl. eexists. split; [reflexivity|].
      inversion H3 as [? ? E1 E2|? ? ? ? E1]; subst; [|unfold close in E1; cbn [f_level] in E1; lia].
      apply st_up; [left; auto|assumption|]. rewrite close_after. cbn [push_leaf]. apply st_here; [assumption|reflexivity].
    + rewrite (proj2 (Nat.compare_lt_iff _ _)) by lia. destruct (Nat.eq_dec (f_level g) L) as [E|E].
      * replace (f_level f - L - 1) with 0 by lia. cbn [climb].
        inversion H3 as [? ? E1 E2|f' h r' ? E1 E2 E3]; subst; [unfold close in E1; cbn [f_level] in E1; lia|].
        eexists. split; [reflexivity|]. apply st_up; [right; auto|assumption|].
        destruct E1 as [[_ E1]|[E1 E1']]; [|unfold close in E1'; cbn [f_level] in E1'; lia].
        inversion E3 as [? ? F1 F2|? ? ? ? F1]; subst; [|unfold close in F1; cbn [f_level] in F1; lia].
        apply st_up; [left; auto|reflexivity|]. rewrite close_after. cbn [push_leaf]. apply st_here; [exact E1|reflexivity].
      * replace (f_level f - L - 1) with (S (f_level g - L - 1)) by lia. cbn [climb climb1]. fold (close f g).
        cbn [add_leaf] in IH. change (f_level (close f g)) with (f_level g) in IH.
        rewrite (proj2 (Nat.compare_lt_iff _ _)) in IH by lia. exact IH.
Qed.

Lemma settles_close L sp e b r : settles (S L) sp (e :: b :: r) -> f_level e = L -> f_level b < L ->
  settles L sp (close e b :: r).
Proof.
  intros H He Hb. remember (e :: b :: r) as s eqn:Es. induction H as [f r' H1 H2|f g r' s H1 H2 H3 IH].
  - injection Es as -> ->. apply st_up; [left; auto|assumption|]. apply st_here; [exact Hb|reflexivity].
  - apply st_up; [|assumption|now apply IH]. right. destruct H1 as [[H1 H1']|[H1 H1']]; [|lia].
    assert (G : f_level (close f g) = L); [|change (f_level (close f g)) with (f_level g) in G; lia].
    inversion H3 as [? ? E1 E2|? ? ? ? E1]; subst; [match goal with H : close f g :: _ = e :: _ |- _ => injection H as H _; now rewrite H end|].
    unfold close in E1. cbn [f_level] in E1. lia.
Qed.

Lemma settles_climb L sp s : settles L sp s -> List.length s <= List.length sp /\ climb (List.length sp - List.length s) sp = Some s.
Proof.
  induction 1 as [f r H1 H2|f g r s H1 H2 H3 [IH1 IH2]].
  - rewrite Nat.sub_diag. auto.
  - cbn [List.length] in *. split; [lia|]. replace (S (S (List.length r)) - List.length s) with (S (S (List.length r) - List.length s)) by lia.
    cbn [climb climb1]. exact IH2.
Qed.

Lemma tree_clean f : frame_clean f -> without name (frame_tree f).
Proof. intros [H1 H2]. unfold frame_tree. destruct (f_kind f); try exact I. now apply without_elem. Qed.

Lemma close_clean f g : frame_clean f -> frame_clean g -> frame_clean (close f g).
Proof.
  intros Hf [G1 G2]. split; [exact G1|]. apply tree_clean in Hf. cbn [close f_before f_after].
  apply Forall_app in G2 as [G2 G3]. rewrite app_nil_r. apply Forall_app. split; [exact G2|now constructor].
Qed.

Lemma leaf_clean t s : without name t -> clean s -> clean (push_leaf t s).
Proof.
  intros Ht Hs. destruct s as [|f r]; [exact Hs|]. inversion Hs as [|? ? [F1 F2] Hr]; subst. constructor; [|exact Hr].
  split; [exact F1|]. cbn [f_before f_after]. rewrite app_nil_r. apply Forall_app in F2 as [F2 _]. apply Forall_app. split; [exact F2|now constructor].
Qed.

Lemma leaf_no_decl t s : Forall no_decl s -> Forall no_decl (push_leaf t s).
Proof. intros H. destruct s as [|f r]; [exact H|]. inversion H; subst. constructor; [assumption|assumption]. Qed.

Lemma close_leaf e b : f_after b = [] -> close e b = mkFrame (f_level b) (f_kind b) (f_before b ++ [frame_tree e]) [].
Proof. intros H. unfold close. now rewrite H. Qed.

(** *** Steps *)

Variable file : xfile.
Variable chunk : nat.
Notation xstep := (xstep file chunk pat).
Notation xparse := (xparse file chunk pat).
Notation toks_from i := (skipn i (map fst file)).
Definition at_pos (i : nat) (stk : list bytes) : xdec := mkXdec i None stk None None.

Inductive runs : xpstate -> nat -> xpstate -> Prop :=
| runs_none p : runs p 0 p
| runs_more p p1 n p2 : xstep p = (p1, Ok None) -> runs p1 n p2 -> runs p (S n) p2.

Lemma runs_app p n p1 m p2 : runs p n p1 -> runs p1 m p2 -> runs p (n + m) p2.
Proof. induction 1 as [|p p' n p1 H _ IH]; intros H2; [exact H2|]. econstructor; [exact H|now apply IH]. Qed.

Lemma runs_one p p1 : xstep p = (p1, Ok None) -> runs p 1 p1.
Proof. intros H. econstructor; [exact H|constructor]. Qed.

Lemma runs_parse p n p1 fuel : runs p n p1 -> xparse (n + fuel) p = xparse fuel p1.
Proof. induction 1 as [|p p' n p1 H _ IH]; [reflexivity|]. cbn [Nat.add XmlStream.xparse]. now rewrite H. Qed.

Lemma toks_nth i t rest : toks_from i = t :: rest -> exists n, nth_error file i = Some (t, n).
Proof.
  revert i. induction file as [|[u m] l IH]; intros [|i] H; cbn [map skipn] in H; try discriminate.
  - injection H as -> _. exists m. reflexivity.
  - apply IH in H. exact H.
Qed.

Lemma toks_next {A} (l : list A) i t rest : skipn i l = t :: rest -> skipn (S i) l = rest.
Proof. revert i. induction l as [|x l IH]; intros [|i] H; cbn [skipn] in *; try discriminate; [now injection H|now apply IH]. Qed.

Lemma toks_skip {A} (l : list A) : forall i a rest, skipn i l = a ++ rest -> skipn (i + List.length a) l = rest.
Proof.
  intros i a. revert i. induction a as [|x a IH]; intros i rest H; [now rewrite Nat.add_0_r|].
  cbn [List.length app] in *. replace (i + S (List.length a)) with (S i + List.length a) by lia. apply IH. eapply toks_next, H.
Qed.

Lemma toks_length {A} (l : list A) i a rest : skipn i l = a ++ rest -> a <> [] -> i + List.length a <= List.length l.
Proof.
  intros H N. assert (E : List.length (skipn i l) = List.length (a ++ rest)) by congruence. rewrite skipn_length, app_length in E.
  destruct a; [contradiction|]. cbn [List.length] in *. lia.
Qed.

Lemma take_at i stk t rest : toks_from i = t :: rest -> take_raw file chunk (at_pos i stk) = (at_pos (S i) stk, Some t).
Proof. intros H. destruct (toks_nth _ _ _ H) as [n E]. unfold take_raw. cbn [at_pos x_ahead x_pos]. now rewrite E. Qed.

Lemma token_start i stk n a rest : toks_from i = RStart n a :: rest -> token file chunk (at_pos i stk) = (at_pos (S i) (n :: stk), Ok (RStart n a)).
Proof. intros H. unfold token, raw_token. cbn [at_pos x_err x_close]. fold (at_pos i stk). now rewrite (take_at _ _ _ _ H). Qed.

Lemma token_void i stk n a rest : toks_from i = RVoid n a :: rest ->
  token file chunk (at_pos i stk) = (mkXdec (S i) None (n :: stk) (Some n) None, Ok (RStart n a)).
Proof. intros H. unfold token, raw_token. cbn [at_pos x_err x_close]. fold (at_pos i stk). now rewrite (take_at _ _ _ _ H). Qed.

Lemma bytes_eqb_same b : bytes_eqb b b = true.
Proof. now apply bytes_eqb_eq. Qed.

Lemma token_void_end i stk n : token file chunk (mkXdec i None (n :: stk) (Some n) None) = (at_pos i stk, Ok (REnd n)).
Proof. unfold token, raw_token. cbn [x_err x_close set_close x_stack x_pos x_ahead]. now rewrite bytes_eqb_same. Qed.

Lemma token_end i stk n rest : toks_from i = REnd n :: rest -> token file chunk (at_pos i (n :: stk)) = (at_pos (S i) stk, Ok (REnd n)).
Proof.
  intros H. unfold token, raw_token. cbn [at_pos x_err x_close]. fold (at_pos i (n :: stk)). rewrite (take_at _ _ _ _ H).
  cbn [at_pos x_stack]. now rewrite bytes_eqb_same.
Qed.

Lemma token_other i stk t rest : toks_from i = t :: rest ->
  match t with RText _ | RComment _ | RDirective _ | RProc _ false => True | _ => False end ->
  token file chunk (at_pos i stk) = (at_pos (S i) stk, Ok t).
Proof.
  intros H Ht. unfold token, raw_token. cbn [at_pos x_err x_close]. fold (at_pos i stk). rewrite (take_at _ _ _ _ H).
  destruct t as [| | | | |? []|]; try contradiction; reflexivity.
Qed.

(** *** Trees inside and outside of records *)

(** Whether a tree can be read without a record being found: in a record, or no
    record is in it. *)
Definition unseen (st : option (nat * nat)) (L : nat) (s : list frame) (t : xtree) : Prop :=
  match st with Some (_, l) => l < L | None => without name t /\ clean s end.

Lemma unseen_push st L s t u : unseen st L s t -> unseen st L s u -> unseen st L (push_leaf t s) u.
Proof. unfold unseen. destruct st as [[d l]|]; [auto|]. intros [H1 H2] [H3 _]. split; [exact H3|now apply leaf_clean]. Qed.

Lemma push_all_top ts : forall f r, f_after f = [] ->
  fold_left (fun s t => push_leaf t s) ts (f :: r) = mkFrame (f_level f) (f_kind f) (f_before f ++ ts) [] :: r.
Proof.
  induction ts as [|t ts IH]; intros f r H; cbn [fold_left].
  - rewrite app_nil_r. destruct f. cbn in *. now subst.
  - cbn [push_leaf]. rewrite IH by reflexivity. cbn [f_level f_kind f_before]. now rewrite <- app_assoc.
Qed.

Lemma element_step L i stk sp s n a st d1 : 1 <= L -> settles L sp s -> unseen st L s (XElem n a []) ->
  token file chunk (at_pos i stk) = (d1, Ok (RStart n a)) ->
  xstep (mkXp (at_pos i stk) sp L st) = (mkXp d1 (mkFrame L (KElem n a) [] [] :: s) (S L) st, Ok None).
Proof.
  intros HL Hs Hu Ht. unfold XmlStream.xstep. cbn [xp_dec]. rewrite Ht. cbn [xp_level xp_spine xp_stream].
  destruct L as [|L]; [lia|]. rewrite (settles_add _ _ _ _ Hs). destruct st as [[dp l]|]; [reflexivity|].
  destruct Hu as [Hw Hc]. rewrite whole_clean; [reflexivity| |constructor].
  constructor; [|exact Hc]. apply without_elem in Hw. split; [apply Hw|constructor].
Qed.

Lemma end_step L d sp st d1 n : token file chunk d = (d1, Ok (REnd n)) ->
  match st with Some (_, l) => l < L | None => True end ->
  xstep (mkXp d sp (S L) st) = (mkXp d1 sp L st, Ok None).
Proof.
  intros Ht Hs. unfold XmlStream.xstep. cbn [xp_dec]. rewrite Ht. cbn [xp_level xp_spine xp_stream].
  replace (S L - 1) with L by lia. destruct st as [[dp l]|]; [|reflexivity].
  replace (L =? l) with false by (symmetry; apply Nat.eqb_neq; lia). reflexivity.
Qed.

Definition tree_runs (t : xtree) (toks : list rawtok) : Prop :=
  forall L i stk sp s st rest, 1 <= L -> settles L sp s -> unseen st L s t -> toks_from i = toks ++ rest ->
  exists n sp', n <= 2 * List.length toks /\
    runs (mkXp (at_pos i stk) sp L st) n (mkXp (at_pos (i + List.length toks) stk) sp' L st) /\ settles L sp' (push_leaf t s).

Definition trees_run (ts : list xtree) (toks : list rawtok) : Prop :=
  forall L i stk sp s st rest, 1 <= L -> settles L sp s -> Forall (unseen st L s) ts -> toks_from i = toks ++ rest ->
  exists n sp', n <= 2 * List.length toks /\
    runs (mkXp (at_pos i stk) sp L st) n (mkXp (at_pos (i + List.length toks) stk) sp' L st) /\
    settles L sp' (fold_left (fun s t => push_leaf t s) ts s).

Lemma unseen_kids st L s n a kids : unseen st L s (XElem n a kids) ->
  unseen st L s (XElem n a []) /\ Forall (unseen st (S L) (mkFrame L (KElem n a) [] [] :: s)) kids.
Proof.
  unfold unseen. destruct st as [[d l]|].
  - intros H. split; [exact H|]. apply Forall_forall. intros. lia.
  - intros [H1 H2]. apply without_elem in H1 as [H1 H3]. split.
    + split; [apply without_elem; auto|exact H2].
    + eapply Forall_impl; [|exact H3]. intros t Ht. split; [exact Ht|]. constructor; [|exact H2]. split; [exact H1|constructor].
Qed.

Lemma leaf_step L i stk sp s t st rest tok : 1 <= L -> settles L sp s -> toks_from i = tok :: rest ->
  (exists v, (tok = RText v /\ t = XText v) \/ (tok = RComment v /\ t = XComment v)) ->
  exists sp', runs (mkXp (at_pos i stk) sp L st) 1 (mkXp (at_pos (i + 1) stk) sp' L st) /\ settles L sp' (push_leaf t s).
Proof.
  intros HL Hs Ht [v Hv]. destruct (settles_leaf L sp s t Hs) as [sp' [E S']]. exists sp'. split; [|exact S']. apply runs_one.
  unfold XmlStream.xstep. cbn [xp_dec]. replace (i + 1) with (S i) by lia.
  destruct Hv as [[-> ->]|[-> ->]]; rewrite (token_other _ _ _ _ Ht I); cbn [xp_level xp_spine xp_stream]; now rewrite E.
Qed.

Lemma written_runs t toks : written t toks -> tree_runs t toks.
Proof.
  intros H. induction H using written_mut with (P0 := fun ts toks _ => trees_run ts toks).
  - intros L i stk sp s st rest HL Hs Hu Ht. destruct (unseen_kids _ _ _ _ _ _ Hu) as [Hu0 Huk].
    cbn [app] in Ht. pose proof (element_step L i stk sp s n a st _ HL Hs Hu0 (token_start _ _ _ _ _ Ht)) as E1.
    pose proof (toks_next _ _ _ _ Ht) as Ht1. rewrite <- app_assoc in Ht1.
    assert (S1 : settles (S L) (mkFrame L (KElem n a) [] [] :: s) (mkFrame L (KElem n a) [] [] :: s)) by (apply st_here; [cbn; lia|reflexivity]).
    destruct (IHwritten (S L) (S i) (n :: stk) _ _ st _ ltac:(lia) S1 Huk Ht1) as [m [sp' [Hm [R S2]]]].
    rewrite push_all_top in S2 by reflexivity. cbn [f_level f_kind f_before app] in S2.
    pose proof (toks_skip _ _ _ _ Ht1) as Ht2. cbn [app] in Ht2.
    assert (Hl : match st with Some (_, l) => l < L | None => True end) by (destruct st as [[d l]|]; [exact Hu|exact I]).
    pose proof (end_step L _ sp' st _ n (token_end _ stk _ _ Ht2) Hl) as E2.
    exists (1 + (m + 1)), sp'. cbn [List.length]. rewrite app_length. cbn [List.length]. split; [lia|]. split.
    + eapply runs_app; [apply runs_one, E1|]. eapply runs_app; [exact R|].
      replace (i + S (List.length toks + 1)) with (S (S i + List.length toks)) by lia. apply runs_one, E2.
    + destruct (settles_top _ _ _ Hs) as [b [r [-> [B1 B2]]]].
      pose proof (settles_close L sp' _ b r S2 eq_refl B1) as S3. rewrite close_leaf in S3 by exact B2.
      unfold frame_tree in S3. cbn [f_kind f_before f_after] in S3. rewrite app_nil_r in S3. exact S3.
  - intros L i stk sp s st rest HL Hs Hu Ht. cbn [app] in Ht.
    pose proof (element_step L i stk sp s n a st _ HL Hs Hu (token_void _ _ _ _ _ Ht)) as E1.
    assert (Hl : match st with Some (_, l) => l < L | None => True end) by (destruct st as [[d l]|]; [exact Hu|exact I]).
    pose proof (end_step L _ (mkFrame L (KElem n a) [] [] :: s) st _ n (token_void_end (S i) stk n) Hl) as E2.
    exists 2, (mkFrame L (KElem n a) [] [] :: s). cbn [List.length]. split; [lia|]. split.
    + replace (i + 1) with (S i) by lia. econstructor; [exact E1|]. apply runs_one, E2.
    + destruct (settles_top _ _ _ Hs) as [b [r [-> [B1 B2]]]].
      assert (S1 : settles (S L) (mkFrame L (KElem n a) [] [] :: b :: r) (mkFrame L (KElem n a) [] [] :: b :: r)) by (apply st_here; [cbn; lia|reflexivity]).
      pose proof (settles_close L _ _ b r S1 eq_refl B1) as S3. rewrite close_leaf in S3 by exact B2. exact S3.
  - intros L i stk sp s' st rest HL Hs Hu Ht. cbn [app] in Ht.
    destruct (leaf_step L i stk sp s' (XText s) st _ _ HL Hs Ht ltac:(exists s; auto)) as [sp' [R S']].
    exists 1, sp'. cbn [List.length]. split; [lia|]. auto.
  - intros L i stk sp s' st rest HL Hs Hu Ht. cbn [app] in Ht.
    destruct (leaf_step L i stk sp s' (XComment s) st _ _ HL Hs Ht ltac:(exists s; auto)) as [sp' [R S']].
    exists 1, sp'. cbn [List.length]. split; [lia|]. auto.
  - intros L i stk sp s st rest HL Hs Hu Ht. exists 0, sp. cbn [List.length fold_left]. rewrite Nat.add_0_r.
    split; [lia|]. split; [constructor|exact Hs].
  - intros L i stk sp s st rest HL Hs Hu Ht. inversion Hu as [|? ? Hu1 Hu2]; subst. rewrite <- app_assoc in Ht.
    destruct (IHwritten L i stk sp s st _ HL Hs Hu1 Ht) as [n1 [sp1 [N1 [R1 S1]]]].
    pose proof (toks_skip _ _ _ _ Ht) as Ht2.
    assert (Hu3 : Forall (unseen st L (push_leaf t s)) ts).
    { eapply Forall_impl; [|exact Hu2]. intros u. now apply unseen_push. }
    destruct (IHwritten0 L (i + List.length toks) stk sp1 _ st _ HL S1 Hu3 Ht2) as [n2 [sp2 [N2 [R2 S2]]]].
    exists (n1 + n2), sp2. rewrite app_length, Nat.add_assoc. split; [lia|]. split; [|exact S2]. eapply runs_app; eassumption.
Qed.

Lemma writtens_run ts toks : writtens ts toks -> trees_run ts toks.
Proof.
  induction 1 as [|t toks ts tokss Hw _ IH].
  - intros L i stk sp s st rest HL Hs Hu Ht. exists 0, sp. cbn [List.length fold_left]. rewrite Nat.add_0_r.
    split; [lia|]. split; [constructor|exact Hs].
  - intros L i stk sp s st rest HL Hs Hu Ht. inversion Hu as [|? ? Hu1 Hu2]; subst. rewrite <- app_assoc in Ht.
    destruct (written_runs _ _ Hw L i stk sp s st _ HL Hs Hu1 Ht) as [n1 [sp1 [N1 [R1 S1]]]].
    pose proof (toks_skip _ _ _ _ Ht) as Ht2.
    assert (Hu3 : Forall (unseen st L (push_leaf t s)) ts).
    { eapply Forall_impl; [|exact Hu2]. intros u. now apply unseen_push. }
    destruct (IH L (i + List.length toks) stk sp1 _ st _ HL S1 Hu3 Ht2) as [n2 [sp2 [N2 [R2 S2]]]].
    exists (n1 + n2), sp2. rewrite app_length, Nat.add_assoc. split; [lia|]. split; [|exact S2]. eapply runs_app; eassumption.
Qed.

(** *** Between records *)

Definition doc0 : frame := mkFrame 0 KDoc [] [].

(** No record has begun. *)
Inductive outside : nat -> xpstate -> Prop :=
| outside_fresh i stk : outside i (mkXp (at_pos i stk) [doc0] 0 None)
| outside_in i stk sp s L : 1 <= L -> settles L sp s -> clean s -> Forall no_decl s -> outside i (mkXp (at_pos i stk) sp L None).

(** The same before the first element. *)
Inductive before : nat -> xpstate -> Prop :=
| before_fresh i stk : before i (mkXp (at_pos i stk) [doc0] 0 None)
| before_elem i stk f r L : 1 <= L -> f_level f < L -> f_after f = [] -> clean (f :: r) -> Forall no_decl (f :: r) ->
    before i (mkXp (at_pos i stk) (f :: r) L None)
| before_decl i stk t g r L : 1 <= L -> f_level g < L -> clean (g :: r) -> Forall no_decl (g :: r) ->
    before i (mkXp (at_pos i stk) (mkFrame L (KDecl t) [] [] :: g :: r) L None).

(** The same, between two calls. *)
Inductive resting : nat -> xpstate -> Prop :=
| resting_fresh i stk : resting i (mkXp (at_pos i stk) [doc0] 0 None)
| resting_elem i stk f r L : 1 <= L -> f_level f < L -> f_after f = [] -> clean (f :: r) -> Forall no_decl (f :: r) ->
    resting i (mkXp (at_pos i stk) (f :: r) L None).

Lemma resting_before i p : resting i p -> before i p.
Proof. intros [|]; [constructor|now constructor]. Qed.

Lemma decl_clean L t : frame_clean (mkFrame L (KDecl t) [] []).
Proof. split; [exact I|constructor]. Qed.

Lemma before_outside i p : before i p -> outside i p.
Proof.
  intros [j stk|j stk f r L H1 H2 H3 H4 H5|j stk t g r L H1 H2 H3 H4]; [constructor| |].
  - econstructor; [exact H1|apply st_here; assumption|exact H4|exact H5].
  - inversion H3; inversion H4; subst. econstructor; [exact H1| | |].
    + apply st_up; [left; cbn [f_level]; auto|reflexivity|]. apply st_here; [exact H2|reflexivity].
    + constructor; [apply close_clean; [apply decl_clean|assumption]|assumption].
    + constructor; assumption.
Qed.

Lemma resting_outside i p : resting i p -> outside i p.
Proof. intros H. now apply before_outside, resting_before. Qed.

Lemma after_clean t g : without name t -> frame_clean g -> frame_clean (add_after t g).
Proof. intros Ht [G1 G2]. split; [exact G1|]. cbn [add_after f_before f_after]. rewrite app_assoc. apply Forall_app. split; [exact G2|now constructor]. Qed.

Lemma heading_step i p t rest : before i p -> toks_from i = t :: rest -> heading t -> exists p', runs p 1 p' /\ before (S i) p'.
Proof.
  intros Hb Ht Hh.
  assert (Hleaf : forall u, without name u -> (forall L stk sp, token file chunk (at_pos i stk) = (at_pos (S i) stk, Ok t) ->
      xstep (mkXp (at_pos i stk) sp L None) = match add_leaf L u sp with Some sp' => (mkXp (at_pos (S i) stk) sp' L None, Ok None) | None => (mkXp (at_pos (S i) stk) sp L None, Err unmodelled) end) ->
      match t with RText _ | RComment _ => True | _ => False end ->
      exists p', runs p 1 p' /\ before (S i) p').
  { intros u Hu Hx Hk.
    assert (Htok : forall stk, token file chunk (at_pos i stk) = (at_pos (S i) stk, Ok t)) by (intros stk; apply (token_other _ _ _ _ Ht); destruct t; try contradiction; exact I).
    destruct Hb as [j stk|j stk f r L H1 H2 H3 H4 H5|j stk d g r L H1 H2 H3 H4].
    - eexists. split; [apply runs_one; rewrite Hx by apply Htok; reflexivity|constructor].
    - eexists. split; [apply runs_one; rewrite Hx by apply Htok; cbn [add_leaf]; rewrite (proj2 (Nat.compare_gt_iff _ _) H2); reflexivity|].
      apply (leaf_clean u) in H4; [|exact Hu]. apply (leaf_no_decl u) in H5. constructor; auto.
    - eexists. split; [apply runs_one; rewrite Hx by apply Htok; cbn [add_leaf f_level]; rewrite Nat.compare_refl; reflexivity|].
      inversion H3; inversion H4; subst. apply before_decl; [exact H1|exact H2| |]; constructor; try assumption. now apply after_clean. }
  destruct t as [| | |s|s|tg rc|s]; cbn [heading] in Hh; try contradiction.
  - apply (Hleaf (XText s)); [exact I| |exact I]. intros L stk sp E. unfold XmlStream.xstep. cbn [xp_dec]. rewrite E. reflexivity.
  - apply (Hleaf (XComment s)); [exact I| |exact I]. intros L stk sp E. unfold XmlStream.xstep. cbn [xp_dec]. rewrite E. reflexivity.
  - subst rc. assert (Htok : forall stk, token file chunk (at_pos i stk) = (at_pos (S i) stk, Ok (RProc tg false))) by (intros stk; apply (token_other _ _ _ _ Ht); exact I).
    destruct Hb as [j stk|j stk f r L H1 H2 H3 H4 H5|j stk d g r L H1 H2 H3 H4].
    + eexists. split; [apply runs_one; unfold XmlStream.xstep; cbn [xp_dec]; rewrite Htok; reflexivity|].
      apply (before_decl (S j) stk tg doc0 [] 1); [lia|cbn; lia| |]; repeat constructor.
    + inversion H5 as [|? ? Hf Hr]; subst. eexists. split.
      * apply runs_one. unfold XmlStream.xstep. cbn [xp_dec]. rewrite Htok. cbn [xp_spine xp_level xp_stream].
        replace (match f :: r with mkFrame _ (KDecl _) _ _ :: _ => true | _ => false end) with false
          by (unfold no_decl in Hf; destruct f as [fl [| |] fb fa]; try reflexivity; destruct Hf).
        replace (S L <? f_level f) with false by (symmetry; apply Nat.ltb_ge; lia).
        cbn [add_node]. replace (f_level f <? S L) with true by (symmetry; apply Nat.ltb_lt; lia). reflexivity.
      * apply before_decl; [lia|lia|exact H4|exact H5].
    + eexists. split.
      * apply runs_one. unfold XmlStream.xstep. cbn [xp_dec]. rewrite Htok. cbn [xp_spine xp_level xp_stream f_level].
        rewrite Nat.ltb_irrefl. cbn [add_node f_level]. rewrite Nat.ltb_irrefl, Nat.sub_diag. cbn [climb climb1]. reflexivity.
      * inversion H3; inversion H4; subst. apply before_decl; [exact H1|exact H2| |].
        -- constructor; [|assumption]. apply (close_clean (mkFrame L (KDecl d) [] []) g); [apply decl_clean|assumption].
        -- constructor; assumption.
  - assert (Htok : forall stk, token file chunk (at_pos i stk) = (at_pos (S i) stk, Ok (RDirective s))) by (intros stk; apply (token_other _ _ _ _ Ht); exact I).
    destruct Hb as [j stk|j stk f r L H1 H2 H3 H4 H5|j stk d g r L H1 H2 H3 H4];
      (eexists; split; [apply runs_one; unfold XmlStream.xstep; cbn [xp_dec]; rewrite Htok; reflexivity|]);
      [apply before_fresh|apply before_elem; assumption|apply before_decl; assumption].
Qed.

Lemma heading_runs hd : Forall heading hd -> forall i p rest, before i p -> toks_from i = hd ++ rest ->
  exists p', runs p (List.length hd) p' /\ before (i + List.length hd) p'.
Proof.
  induction 1 as [|t hd Ht _ IH]; intros i p rest Hb Hf.
  - exists p. rewrite Nat.add_0_r. split; [constructor|exact Hb].
  - cbn [app] in Hf. destruct (heading_step _ _ _ _ Hb Hf Ht) as [p1 [R1 B1]].
    destruct (IH _ _ _ B1 (toks_next _ _ _ _ Hf)) as [p2 [R2 B2]]. exists p2. cbn [List.length]. rewrite <- Nat.add_succ_comm. split; [|exact B2].
    apply (runs_app _ 1 _ _ _ R1 R2).
Qed.

(** A first element at the top is read like one after a declaration. *)
Lemma fresh_step i stk d n a : token file chunk (at_pos i stk) = (d, Ok (RStart n a)) ->
  xstep (mkXp (at_pos i stk) [doc0] 0 None) = xstep (mkXp (at_pos i stk) [mkFrame 1 (KDecl (lit "xml")) [] []; doc0] 1 None).
Proof.
  intros E. unfold XmlStream.xstep. cbn [xp_dec]. rewrite E. cbn [xp_level xp_spine xp_stream]. reflexivity.
Qed.

Lemma fresh_settles : settles 1 [mkFrame 1 (KDecl (lit "xml")) [] []; doc0] [close (mkFrame 1 (KDecl (lit "xml")) [] []) doc0].
Proof. apply st_up; [left; cbn; auto|reflexivity|]. apply st_here; [cbn; lia|reflexivity]. Qed.
Lemma fresh_clean : clean [close (mkFrame 1 (KDecl (lit "xml")) [] []) doc0].
Proof. repeat constructor. Qed.
Lemma fresh_no_decl : Forall no_decl [close (mkFrame 1 (KDecl (lit "xml")) [] []) doc0].
Proof. repeat constructor. Qed.

Lemma outside_start i p t rest : outside i p -> toks_from i = t :: rest ->
  match t with RStart _ _ | RVoid _ _ => True | _ => False end ->
  exists stk sp s L, 1 <= L /\ settles L sp s /\ clean s /\ Forall no_decl s /\ xstep p = xstep (mkXp (at_pos i stk) sp L None).
Proof.
  intros H Ht Hk. destruct H as [i stk|i stk sp s L H1 H2 H3 H4].
  - exists stk, [mkFrame 1 (KDecl (lit "xml")) [] []; doc0], [close (mkFrame 1 (KDecl (lit "xml")) [] []) doc0], 1.
    split; [lia|]. split; [apply fresh_settles|]. split; [apply fresh_clean|]. split; [apply fresh_no_decl|].
    destruct t; try contradiction; [eapply fresh_step, token_start, Ht|eapply fresh_step, token_void, Ht].
  - exists stk, sp, s, L. auto.
Qed.

Lemma runs_same p q n r : xstep p = xstep q -> runs q (S n) r -> runs p (S n) r.
Proof. intros E H. inversion H; subst. econstructor; [rewrite E; eassumption|assumption]. Qed.

Lemma outside_tree i p t toks rest : outside i p -> written t toks -> without name t -> toks_from i = toks ++ rest ->
  exists n p', n <= 2 * List.length toks /\ runs p n p' /\ outside (i + List.length toks) p'.
Proof.
  intros Ho Hw Hn Ht.
  assert (Hin : forall stk sp s L, 1 <= L -> settles L sp s -> clean s -> Forall no_decl s ->
     exists n p', n <= 2 * List.length toks /\ runs (mkXp (at_pos i stk) sp L None) n p' /\ outside (i + List.length toks) p').
  { intros stk sp s L H1 H2 H3 H4. destruct (written_runs _ _ Hw L i stk sp s None rest H1 H2 (conj Hn H3) Ht) as [n [sp' [N [R S']]]].
    exists n, (mkXp (at_pos (i + List.length toks) stk) sp' L None). split; [exact N|]. split; [exact R|].
    econstructor; [exact H1|exact S'|now apply leaf_clean|now apply leaf_no_decl]. }
  destruct Ho as [i stk|i stk sp s L H1 H2 H3 H4]; [|eapply Hin; eassumption].
  inversion Hw as [n a kids tk Hk|n a|s|s]; subst.
  - destruct (Hin stk _ _ 1 ltac:(lia) fresh_settles fresh_clean fresh_no_decl) as [m [p' [N [R O']]]].
    exists m, p'. split; [exact N|]. split; [|exact O']. destruct m as [|m].
    + exfalso. inversion R; subst. inversion O'; subst. cbn [List.length] in *. lia.
    + eapply runs_same; [|exact R]. eapply fresh_step, token_start, Ht.
  - destruct (Hin stk _ _ 1 ltac:(lia) fresh_settles fresh_clean fresh_no_decl) as [m [p' [N [R O']]]].
    exists m, p'. split; [exact N|]. split; [|exact O']. destruct m as [|m].
    + exfalso. inversion R; subst. inversion O'; subst. cbn [List.length] in *. lia.
    + eapply runs_same; [|exact R]. eapply fresh_step, token_void, Ht.
  - exists 1. eexists. cbn [List.length]. split; [lia|]. split; [|constructor]. apply runs_one. unfold XmlStream.xstep. cbn [xp_dec].
    rewrite (token_other _ _ _ _ Ht I). replace (i + 1) with (S i) by lia. reflexivity.
  - exists 1. eexists. cbn [List.length]. split; [lia|]. split; [|constructor]. apply runs_one. unfold XmlStream.xstep. cbn [xp_dec].
    rewrite (token_other _ _ _ _ Ht I). replace (i + 1) with (S i) by lia. reflexivity.
Qed.

Lemma outside_trees ts toks : writtens ts toks -> forall i p rest, outside i p -> Forall (without name) ts -> toks_from i = toks ++ rest ->
  exists n p', n <= 2 * List.length toks /\ runs p n p' /\ outside (i + List.length toks) p'.
Proof.
  induction 1 as [|t toks ts tokss Hw _ IH]; intros i p rest Ho Hn Ht.
  - exists 0, p. cbn [List.length]. rewrite Nat.add_0_r. split; [lia|]. split; [constructor|exact Ho].
  - inversion Hn; subst. rewrite <- app_assoc in Ht.
    destruct (outside_tree _ _ _ _ _ Ho Hw ltac:(assumption) Ht) as [n1 [p1 [N1 [R1 O1]]]].
    destruct (IH _ _ _ O1 ltac:(assumption) (toks_skip _ _ _ _ Ht)) as [n2 [p2 [N2 [R2 O2]]]].
    exists (n1 + n2), p2. rewrite app_length, Nat.add_assoc. split; [lia|]. split; [eapply runs_app; eassumption|exact O2].
Qed.

Lemma outside_open i p n a rest : outside i p -> n <> name -> toks_from i = RStart n a :: rest ->
  exists p', runs p 1 p' /\ outside (S i) p'.
Proof.
  intros Ho Hn Ht. destruct (outside_start _ _ _ _ Ho Ht I) as [stk [sp [s [L [H1 [H2 [H3 [H4 E]]]]]]]].
  assert (Hu : unseen None L s (XElem n a [])) by (split; [now apply without_elem|exact H3]).
  pose proof (element_step L i stk sp s n a None _ H1 H2 Hu (token_start _ _ _ _ _ Ht)) as E1.
  eexists. split; [apply runs_one; rewrite E; exact E1|].
  econstructor; [lia|apply st_here; [cbn; lia|reflexivity]| |]; constructor; try assumption; [split; [exact Hn|constructor]|exact I].
Qed.

Lemma opening_runs op : opening name op -> forall i p rest, outside i p -> toks_from i = op ++ rest ->
  exists n p', n <= 2 * List.length op /\ runs p n p' /\ outside (i + List.length op) p'.
Proof.
  induction 1 as [|t toks op Hw Hn _ IH|n a op Hn _ IH]; intros i p rest Ho Ht.
  - exists 0, p. cbn [List.length]. rewrite Nat.add_0_r. split; [lia|]. split; [constructor|exact Ho].
  - rewrite <- app_assoc in Ht. destruct (outside_tree _ _ _ _ _ Ho Hw Hn Ht) as [n1 [p1 [N1 [R1 O1]]]].
    destruct (IH _ _ _ O1 (toks_skip _ _ _ _ Ht)) as [n2 [p2 [N2 [R2 O2]]]].
    exists (n1 + n2), p2. rewrite app_length, Nat.add_assoc. split; [lia|]. split; [eapply runs_app; eassumption|exact O2].
  - cbn [app] in Ht. destruct (outside_open _ _ _ _ _ Ho Hn Ht) as [p1 [R1 O1]].
    destruct (IH _ _ _ O1 (toks_next _ _ _ _ Ht)) as [n2 [p2 [N2 [R2 O2]]]].
    exists (1 + n2), p2. cbn [List.length]. rewrite <- Nat.add_succ_comm. split; [lia|]. split; [eapply runs_app; eassumption|exact O2].
Qed.

(** *** Records *)

Lemma record_step i stk sp s L a d : 1 <= L -> settles L sp s -> Forall no_decl s -> 
  token file chunk (at_pos i stk) = (d, Ok (RStart name a)) ->
  xstep (mkXp (at_pos i stk) sp L None) = (mkXp d (mkFrame L (KElem name a) [] [] :: s) (S L) (Some (S (List.length s), L)), Ok None).
Proof.
  intros HL Hs Hd Ht. unfold XmlStream.xstep. cbn [xp_dec]. rewrite Ht. cbn [xp_level xp_spine xp_stream].
  destruct L as [|L]; [lia|]. rewrite (settles_add _ _ _ _ Hs). cbn [whole f_kind f_before f_after app].
  rewrite whole_found; [reflexivity|exact Hd|].
  intros path. cbn [existsb selects]. now rewrite fits_last, bytes_eqb_same.
Qed.

Lemma record_end L d sp s kids a d1 n : token file chunk d = (d1, Ok (REnd n)) ->
  settles (S L) sp (mkFrame L (KElem name a) kids [] :: s) ->
  xstep (mkXp d sp (S L) (Some (S (List.length s), L))) = (mkXp d1 sp L (Some (S (List.length s), L)), Ok (Some (XElem name a kids))).
Proof.
  intros Ht Hs. unfold XmlStream.xstep. cbn [xp_dec]. rewrite Ht. cbn [xp_level xp_spine xp_stream].
  replace (S L - 1) with L by lia. rewrite Nat.eqb_refl. destruct (settles_climb _ _ _ Hs) as [_ E]. cbn [List.length] in E. rewrite E.
  unfold frame_tree. cbn [f_kind f_before f_after]. now rewrite app_nil_r.
Qed.

Lemma settle_resting i stk sp s L a kids : 1 <= L -> settles (S L) sp (mkFrame L (KElem name a) kids [] :: s) ->
  (exists f r, s = f :: r /\ f_level f < L /\ f_after f = []) -> clean s -> Forall no_decl s ->
  forall j, resting j (settle (xseek j (mkXp (at_pos i stk) sp L (Some (S (List.length s), L))))) /\
  resting i (settle (mkXp (at_pos i stk) sp L (Some (S (List.length s), L)))).
Proof.
  intros HL Hs [f [r [-> [F1 F2]]]] Hc Hd j. destruct (settles_climb _ _ _ Hs) as [_ E].
  assert (Hc' : clean (mkFrame (f_level f) (f_kind f) (f_after f) [] :: r)).
  { inversion Hc as [|? ? [G1 G2] G3]; subst. constructor; [|exact G3]. split; [exact G1|]. rewrite F2. constructor. }
  assert (Hd' : Forall no_decl (mkFrame (f_level f) (f_kind f) (f_after f) [] :: r)).
  { inversion Hd; subst. constructor; assumption. }
  unfold settle, xseek. cbn [xp_stream xp_spine xp_dec xp_level at_pos x_ahead x_stack x_close x_err]. change (S (List.length (f :: r))) with (List.length (mkFrame L (KElem name a) kids [] :: f :: r)).
  rewrite E. split; apply resting_elem; auto.
Qed.

(** The state after a record: wherever reading goes on next, nothing of it is left. *)
Definition ready (i : nat) (p : xpstate) : Prop :=
  resting i (settle p) /\ (forall j, resting j (settle (xseek j p))) /\ x_pos (xp_dec p) = i.

Lemma outside_record i p a kids toks rest : outside i p -> written (XElem name a kids) toks -> toks_from i = toks ++ rest ->
  exists n p', n <= 2 * List.length toks /\ (forall fuel, n <= fuel -> xparse fuel p = (p', Ok (XElem name a kids))) /\ ready (i + List.length toks) p'.
Proof.
  intros Ho Hw Ht. inversion Hw as [n a' kids' tk Hk E1 E2|n a' E1 E2| |]; subst.
  - cbn [app] in Ht. destruct (outside_start _ _ _ _ Ho Ht I) as [stk [sp [s [L [H1 [H2 [H3 [H4 E]]]]]]]].
    pose proof (record_step i stk sp s L a _ H1 H2 H4 (token_start _ _ _ _ _ Ht)) as X1.
    assert (S1 : settles (S L) (mkFrame L (KElem name a) [] [] :: s) (mkFrame L (KElem name a) [] [] :: s)) by (apply st_here; [cbn; lia|reflexivity]).
    pose proof (toks_next _ _ _ _ Ht) as Ht1. rewrite <- app_assoc in Ht1.
    assert (Hu : Forall (unseen (Some (S (List.length s), L)) (S L) (mkFrame L (KElem name a) [] [] :: s)) kids)
      by (apply Forall_forall; intros; cbn [unseen]; lia).
    destruct (writtens_run _ _ Hk (S L) (S i) (name :: stk) _ _ (Some (S (List.length s), L)) _ ltac:(lia) S1 Hu Ht1) as [m [sp' [Hm [R S2]]]].
    rewrite push_all_top in S2 by reflexivity. cbn [f_level f_kind f_before app] in S2.
    pose proof (toks_skip _ _ _ _ Ht1) as Ht2. cbn [app] in Ht2.
    pose proof (record_end L _ sp' s kids a _ name (token_end _ stk _ _ Ht2) S2) as X2.
    exists (S (m + 1)). eexists. cbn [List.length]. rewrite app_length. cbn [List.length]. split; [lia|]. split.
    + intros fuel Hf. replace fuel with (S m + (fuel - S m)) by lia.
      rewrite (runs_parse p (S m) _ _ (runs_more _ _ _ _ (eq_trans E X1) R)).
      destruct (fuel - S m) as [|f] eqn:Ef; [lia|]. cbn [XmlStream.xparse]. rewrite X2. reflexivity.
    + replace (i + S (List.length tk + 1)) with (S (S i + List.length tk)) by lia.
      destruct (settle_resting (S (S i + List.length tk)) stk sp' s L a kids H1 S2 (settles_top _ _ _ H2) H3 H4 0) as [_ Y].
      split; [exact Y|]. split; [|reflexivity]. intros j. apply (settle_resting (S (S i + List.length tk)) stk sp' s L a kids H1 S2 (settles_top _ _ _ H2) H3 H4 j).
  - cbn [app] in Ht. destruct (outside_start _ _ _ _ Ho Ht I) as [stk [sp [s [L [H1 [H2 [H3 [H4 E]]]]]]]].
    pose proof (record_step i stk sp s L a _ H1 H2 H4 (token_void _ _ _ _ _ Ht)) as X1.
    assert (S1 : settles (S L) (mkFrame L (KElem name a) [] [] :: s) (mkFrame L (KElem name a) [] [] :: s)) by (apply st_here; [cbn; lia|reflexivity]).
    pose proof (record_end L _ _ s [] a _ name (token_void_end (S i) stk name) S1) as X2.
    exists 2. eexists. cbn [List.length]. split; [lia|]. split.
    + intros fuel Hf. destruct fuel as [|[|f]]; [lia|lia|]. cbn [XmlStream.xparse]. rewrite E, X1, X2. reflexivity.
    + replace (i + 1) with (S i) by lia.
      destruct (settle_resting (S i) stk _ s L a [] H1 S1 (settles_top _ _ _ H2) H3 H4 0) as [_ Y].
      split; [exact Y|]. split; [|reflexivity]. intros j. apply (settle_resting (S i) stk _ s L a [] H1 S1 (settles_top _ _ _ H2) H3 H4 j).
Qed.

(** *** A record and what is before it *)

Definition leads (toks : list rawtok) (t : xtree) : Prop :=
  exists hd op gap gaptoks rectoks a kids, toks = hd ++ op ++ gaptoks ++ rectoks /\ Forall heading hd /\ opening name op /\
    writtens gap gaptoks /\ Forall (without name) gap /\ written (XElem name a kids) rectoks /\ t = XElem name a kids.

Lemma written_nonempty t toks : written t toks -> toks <> [].
Proof. intros H. destruct H; discriminate. Qed.

Lemma leads_nonempty toks t : leads toks t -> toks <> [].
Proof.
  intros (hd & op & gap & gt & rt & a & kids & -> & _ & _ & _ & _ & Hw & _). apply written_nonempty in Hw.
  intros E. apply app_eq_nil in E as [_ E]. apply app_eq_nil in E as [_ E]. apply app_eq_nil in E as [_ E]. contradiction.
Qed.

Lemma leads_parse toks t i p rest fuel : leads toks t -> resting i p -> toks_from i = toks ++ rest -> 2 * List.length toks <= fuel ->
  exists p', xparse fuel p = (p', Ok t) /\ ready (i + List.length toks) p'.
Proof.
  intros (hd & op & gap & gt & rt & a & kids & -> & Hhd & Hop & Hgap & Hgn & Hw & ->) Hr Ht Hf.
  rewrite <- !app_assoc in Ht. rewrite !app_length in Hf.
  destruct (heading_runs _ Hhd _ _ _ (resting_before _ _ Hr) Ht) as [p1 [R1 B1]].
  pose proof (toks_skip _ _ _ _ Ht) as Ht1.
  destruct (opening_runs _ Hop _ _ _ (before_outside _ _ B1) Ht1) as [n2 [p2 [N2 [R2 O2]]]].
  pose proof (toks_skip _ _ _ _ Ht1) as Ht2.
  destruct (outside_trees _ _ Hgap _ _ _ O2 Hgn Ht2) as [n3 [p3 [N3 [R3 O3]]]].
  pose proof (toks_skip _ _ _ _ Ht2) as Ht3.
  destruct (outside_record _ _ _ _ _ _ O3 Hw Ht3) as [n4 [p4 [N4 [X4 Y4]]]].
  exists p4. rewrite !app_length, !Nat.add_assoc. split; [|exact Y4].
  pose proof (runs_app _ _ _ _ _ R1 (runs_app _ _ _ _ _ R2 R3)) as R.
  replace fuel with ((List.length hd + (n2 + n3)) + (fuel - (List.length hd + (n2 + n3)))) by lia.
  rewrite (runs_parse _ _ _ _ R). apply X4. lia.
Qed.

Lemma resting_fuel i p : resting i p -> 3 * List.length file <= xfuel file p.
Proof. intros [|]; unfold xfuel; cbn [xp_dec at_pos x_ahead x_stack]; lia. Qed.

Lemma toks_fuel i toks rest p : toks_from i = toks ++ rest -> resting i p -> 2 * List.length toks <= xfuel file p.
Proof.
  intros Ht Hr. pose proof (resting_fuel _ _ Hr).
  assert (E : List.length (toks_from i) = List.length (toks ++ rest)) by congruence. rewrite skipn_length, map_length, app_length in E. lia.
Qed.

Lemma leads_read toks t i p rest : leads toks t -> resting i (settle p) -> toks_from i = toks ++ rest ->
  exists p', xread file chunk pat p = (p', Ok t) /\ ready (i + List.length toks) p'.
Proof. intros Hl Hr Ht. unfold xread. apply (leads_parse _ _ _ _ rest); try assumption. now apply (toks_fuel _ _ _ _ Ht). Qed.
End Name.
