(** The stream simulates the flat array of SpecStorage.v. *)
From Coq Require Import List ZArith Lia Bool String.
From Coq Require Import Strings.Byte.
From Coq Require Import ZifyBool ZifyNat.
From Verif Require Import Base BaseFacts Codec CodecFacts Stream StreamFacts Node Heap SpecStorage.
Import ListNotations.
Open Scope Z_scope.

(** Running operations of the specification on the modelled stream. *)
Definition stream_op (o : sop) : M sobs :=
  match o with
  | OpAdd bs => do off <- stream_add bs; ret (ObsOffset off)
  | OpReplace off bs => do _ <- stream_replace off bs; ret ObsUnit
  | OpFlush => do _ <- stream_flush; ret ObsUnit
  | OpGet off n => do bs <- stream_get off n; ret (ObsBytes bs)
  end.
Fixpoint stream_run (os : list sop) : M (list sobs) :=
  match os with
  | [] => ret []
  | o :: os' => do b <- stream_op o; do bs <- stream_run os'; ret (b :: bs)
  end.

(** A stream just opened on a file, with any buffer limit. *)
Definition opened (file : bytes) (bmax : Z) : stream :=
  mkStream file (zlen file) (zlen file) bmax [] [].

Lemma opened_wf f b : swf (opened f b).
Proof. split; simpl; unfold flat; simpl; rewrite ?app_nil_r; reflexivity. Qed.

Lemma arr_store_overwrite a off bs : 0 <= off -> arr_store a off bs = overwrite a off bs.
Proof.
  intros H. unfold arr_store, overwrite, zlen. do 3 f_equal. lia.
Qed.

Lemma stream_op_sim s o :
  swf s -> zlen (flat s) < max_alloc -> arr_valid (flat s) o ->
  exists s', stream_op o s = (Ok (snd (arr_step (flat s) o)), s') /\ swf s' /\
    flat s' = fst (arr_step (flat s) o).
Proof.
  intros Hw Hb Hv. destruct o as [bs|off bs| |off n]; cbn [stream_op arr_step fst snd arr_valid] in *; unfold mbind, ret.
  - destruct (add_spec s bs Hw) as (s' & E & Hw' & Hf & _). rewrite E. eauto.
  - destruct (replace_spec s off bs Hw Hv) as (s' & E & Hw' & Hf & _). rewrite E.
    exists s'. rewrite arr_store_overwrite by lia. auto.
  - destruct (flush_spec s Hw) as (s' & E & Hw' & Hf & _). rewrite E. eauto.
  - pose proof Hw as [_ Hs]. rewrite get_spec; try assumption; try lia.
    + eauto.
    + rewrite Hs. unfold max_alloc, two63 in *. lia.
Qed.

Lemma stream_run_sim os : forall s,
  swf s -> zlen (flat s) < max_alloc -> arr_all_valid (flat s) os ->
  exists s', stream_run os s = (Ok (snd (arr_run (flat s) os)), s') /\ swf s' /\
    flat s' = fst (arr_run (flat s) os).
Proof.
  induction os as [|o os IH]; intros s Hw Hb Hv.
  - exists s. simpl. auto.
  - cbn [arr_all_valid] in Hv. destruct Hv as (Hv & Hb1 & Hvs).
    destruct (stream_op_sim s o Hw Hb Hv) as (s1 & E1 & Hw1 & Hf1).
    cbn [stream_run arr_run]. unfold mbind, ret. rewrite E1.
    destruct (arr_step (flat s) o) as [a1 b1] eqn:Ea. cbn [fst snd] in *. subst a1.
    destruct (IH s1 Hw1 Hb1 Hvs) as (s2 & E2 & Hw2 & Hf2). rewrite E2.
    destruct (arr_run (flat s1) os) as [a2 bs] eqn:Er. cbn [fst snd] in *. eauto.
Qed.

Lemma storage_is_array file bmax os :
  zlen file < 281474976710656 -> arr_all_valid file os ->
  exists s', stream_run os (opened file bmax) = (Ok (snd (arr_run file os)), s') /\
    exists s'', stream_flush s' = (Ok tt, s'') /\ st_file s'' = fst (arr_run file os).
Proof.
  intros Hb Hv.
  assert (Hfl : flat (opened file bmax) = file) by (unfold flat; simpl; apply app_nil_r).
  destruct (stream_run_sim os (opened file bmax) (opened_wf _ _)) as (s' & E & Hw & Hf).
  - rewrite Hfl. exact Hb.
  - rewrite Hfl. exact Hv.
  - rewrite Hfl in *. exists s'. split; [exact E|].
    destruct (flush_spec s' Hw) as (s'' & E2 & Hw2 & Hf2 & Hbuf & _).
    exists s''. split; [exact E2|]. rewrite <- Hf, <- Hf2. unfold flat. rewrite Hbuf, app_nil_r. reflexivity.
Qed.

Lemma storage_past_end s off bs : swf s -> zlen (flat s) < off -> stream_replace off bs s = (Panic, s).
Proof. apply replace_past_end. Qed.
