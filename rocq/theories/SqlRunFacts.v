(** Reasoning about programs that send SQL: what holds in every state the database
    goes through, and at the end. *)
From Coq Require Import List ZArith Lia Bool String.
From Coq Require Import Strings.Byte.
From Verif Require Import Base BaseFacts Value Json Sql SqlIndex SqlFacts.
Import ListNotations.
Open Scope Z_scope.

Section Run.
Variable visit : list (list sqlv) -> list (res (list sqlv)).
Variable fts_ok : list bytes -> bytes -> bytes -> bool.
Variable fts_match : table -> sqlv -> res (list (list sqlv)).

Notation exec := (exec_stmt visit fts_ok fts_match).
Notation execq := (exec_sql visit fts_ok fts_match).
Notation run := (srun visit fts_ok fts_match).
Notation states := (sstates visit fts_ok fts_match).

(** [I] in every state, [Q] after success. *)
Fixpoint holds {A} (I : db -> Prop) (Q : db -> A -> Prop) (p : sprog A) (d : db) : Prop :=
  I d /\ match p with
         | SRet (Ok a) => Q d a
         | SRet _ => True
         | SDo q args k => holds I Q (k (snd (execq q args d))) (fst (execq q args d))
         end.

Lemma holds_states {A} I Q (p : sprog A) : forall d, holds I Q p d -> Forall I (states p d).
Proof.
  induction p as [r|q args k IH]; intros d H; cbn [holds] in H; cbn [sstates].
  - destruct H. now constructor.
  - destruct H as [Hi H]. constructor; [assumption|]. apply IH. assumption.
Qed.

Lemma holds_run {A} I Q (p : sprog A) : forall d d' a, holds I Q p d -> run p d = (d', Ok a) -> Q d' a.
Proof.
  induction p as [r|q args k IH]; intros d d' a H E; cbn [holds] in H; cbn [srun] in E.
  - injection E as <- ->. apply H.
  - destruct H as [_ H]. eapply IH; eassumption.
Qed.

Lemma holds_here {A} I Q (p : sprog A) d : holds I Q p d -> I d.
Proof. destruct p; cbn [holds]; tauto. Qed.

Lemma holds_weaken {A} (I I' : db -> Prop) (Q Q' : db -> A -> Prop) (p : sprog A) : forall d,
  (forall x, I x -> I' x) -> (forall x a, I x -> Q x a -> Q' x a) -> holds I Q p d -> holds I' Q' p d.
Proof.
  intros d Hi Hq. revert d. induction p as [r|q args k IH]; intros d [H1 H2]; cbn [holds]; split; auto.
  destruct r; auto.
Qed.

Lemma holds_bind {A B} I (Q : db -> B -> Prop) (p : sprog A) (f : A -> sprog B) : forall d,
  holds I (fun d' a => holds I Q (f a) d') p d -> holds I Q (sbind p f) d.
Proof.
  induction p as [r|q args k IH]; intros d [H1 H2]; cbn [sbind holds].
  - destruct r; cbn [holds]; auto.
  - split; [assumption|]. apply IH. assumption.
Qed.

Lemma holds_ret {A} (I : db -> Prop) (Q : db -> A -> Prop) r d :
  I d -> (forall a, r = Ok a -> Q d a) -> holds I Q (SRet r) d.
Proof. intros H1 H2. split; [assumption|]. destruct r; auto. Qed.

(** A statement. *)
Lemma execq_parse q s args d : parse q = Some s ->
  execq q args d = match exec s args d with
                   | Ok (d', a) => (d', Ok a)
                   | Err e => (d, Err e) | Panic => (d, Panic) | NoFuel => (d, NoFuel)
                   end.
Proof. intros E. unfold exec_sql. rewrite E. destruct (exec s args d) as [[d' a]| | |]; reflexivity. Qed.

Lemma holds_exec {I : db -> Prop} {Q : db -> unit -> Prop} q s args d : parse q = Some s -> I d ->
  (forall d' a, exec s args d = Ok (d', a) -> I d' /\ Q d' tt) ->
  holds I Q (sql_exec q args) d.
Proof.
  intros E Hi H. unfold sql_exec. cbn [holds]. rewrite (execq_parse _ _ _ _ E).
  split; [assumption|]. destruct (exec s args d) as [[d' a]| | |] eqn:X; cbn [fst snd rbind]; auto.
  destruct (H d' a eq_refl). auto.
Qed.

Lemma holds_row {I : db -> Prop} {Q : db -> list sqlv -> Prop} q s args d : parse q = Some s -> I d ->
  (forall d' row a, exec s args d = Ok (d', Ok row :: a) -> Q d' row) ->
  (forall d' a, exec s args d = Ok (d', a) -> I d') ->
  holds I Q (sql_row q args) d.
Proof.
  intros E Hi H H'. unfold sql_row. cbn [holds]. rewrite (execq_parse _ _ _ _ E).
  split; [assumption|]. destruct (exec s args d) as [[d' a]| | |] eqn:X; cbn [fst snd rbind]; auto.
  split; [eapply H'; reflexivity|]. destruct a as [|[row| | |] a]; auto.
  eapply H. reflexivity.
Qed.

(** A statement that cannot be read changes nothing. *)
Lemma holds_syntax {I : db -> Prop} {Q : db -> unit -> Prop} q args d : parse q = None -> I d ->
  holds I Q (sql_exec q args) d.
Proof.
  intros E Hi. unfold sql_exec. cbn [holds]. unfold exec_sql. rewrite E. cbn [fst snd rbind]. auto.
Qed.

(** SanitizeIdentifier *)
Lemma execq_escape n d : execq escape_sql [SText n] d = (d, Ok [Ok [SText (double_quotes (until_nul n))]]).
Proof. rewrite (execq_parse _ _ _ _ parse_escape). reflexivity. Qed.

Lemma run_sanitize n d : run (sanitize_identifier n) d = (d, Ok (quote n)).
Proof.
  unfold sanitize_identifier, sql_row. cbn [sbind srun]. rewrite execq_escape. reflexivity.
Qed.

Lemma run_bind {A B} (p : sprog A) (f : A -> sprog B) : forall d,
  run (sbind p f) d = match run p d with
                      | (d', Ok a) => run (f a) d'
                      | (d', Err e) => (d', Err e) | (d', Panic) => (d', Panic) | (d', NoFuel) => (d', NoFuel)
                      end.
Proof.
  induction p as [r|q args k IH]; intros d; cbn [sbind srun].
  - destruct r; reflexivity.
  - apply IH.
Qed.

Lemma holds_sanitize (I : db -> Prop) (Q : db -> bytes -> Prop) n d :
  I d -> Q d (quote n) -> holds I Q (sanitize_identifier n) d.
Proof.
  intros Hi H. unfold sanitize_identifier, sql_row. cbn [sbind holds]. rewrite execq_escape. cbn. auto.
Qed.

Lemma holds_smapM_sanitize {A} (I : db -> Prop) (f : A -> bytes) l : forall (Q : db -> list bytes -> Prop) d,
  I d -> Q d (map (fun x => quote (f x)) l) -> holds I Q (smapM (fun x => sanitize_identifier (f x)) l) d.
Proof.
  induction l as [|x l IH]; intros Q d Hi H; cbn [smapM].
  - apply holds_ret; [assumption|]. intros a [= <-]. exact H.
  - apply holds_bind, holds_sanitize; [assumption|]. apply holds_bind, IH; [assumption|].
    apply holds_ret; [assumption|]. intros a [= <-]. exact H.
Qed.

End Run.
