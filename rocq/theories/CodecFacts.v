From Coq Require Import List ZArith Lia Bool.
From Coq Require Import Strings.Byte.
From Verif Require Import Base BaseFacts Codec.
Import ListNotations.
Open Scope Z_scope.

Lemma Z_of_byte_of_Z z : Z_of_byte (byte_of_Z z) = z mod 256.
Proof.
  unfold Z_of_byte, byte_of_Z.
  pose proof (Z.mod_pos_bound z 256 ltac:(lia)) as Hb.
  destruct (Byte.of_N (Z.to_N (z mod 256))) as [b|] eqn:E.
  - apply Byte.to_of_N in E. rewrite E. lia.
  - apply Byte.of_N_None_iff in E. lia.
Qed.

Lemma Z_of_byte_range b : 0 <= Z_of_byte b < 256.
Proof. unfold Z_of_byte. pose proof (Byte.to_N_bounded b). lia. Qed.

Lemma byte_of_Z_of_byte b : byte_of_Z (Z_of_byte b) = b.
Proof.
  unfold byte_of_Z. rewrite Z.mod_small by apply Z_of_byte_range.
  unfold Z_of_byte. rewrite N2Z.id, Byte.of_to_N. reflexivity.
Qed.

Lemma put_be_length n z : List.length (put_be n z) = n.
Proof. induction n; simpl; congruence. Qed.

Lemma get_be_fold acc n z :
  fold_left (fun acc b => acc * 256 + Z_of_byte b) (put_be n z) acc
  = acc * 256 ^ Z.of_nat n + z mod 256 ^ Z.of_nat n.
Proof.
  revert acc; induction n as [|n IH]; intros acc.
  - simpl. rewrite Z.mod_1_r. lia.
  - cbn [put_be fold_left]. rewrite IH, Z_of_byte_of_Z.
    rewrite Nat2Z.inj_succ, Z.pow_succ_r by lia.
    set (P := 256 ^ Z.of_nat n).
    assert (HP : 0 < P) by (apply Z.pow_pos_nonneg; lia).
    rewrite (Z.mul_comm 256 P), Z.rem_mul_r by lia. ring.
Qed.

Lemma get_put_be n z : get_be (put_be n z) = z mod 256 ^ Z.of_nat n.
Proof. unfold get_be. rewrite get_be_fold. lia. Qed.

Lemma get_i64_put z : in_i64 z -> get_i64 (put_u64 z) = z.
Proof.
  intros Hz. unfold get_i64, put_u64. rewrite get_put_be.
  unfold to_i64, wrap64.
  change (256 ^ Z.of_nat 8) with two64.
  rewrite Zplus_mod_idemp_l. apply (wrap64_id z Hz).
Qed.

Lemma get_put_u16 z : 0 <= z < 65536 -> get_be (put_u16 z) = z.
Proof.
  intros. unfold put_u16. rewrite get_put_be.
  change (256 ^ Z.of_nat 2) with 65536. apply Z.mod_small. lia.
Qed.

Lemma put_u64_length z : List.length (put_u64 z) = 8%nat.
Proof. apply put_be_length. Qed.

Lemma get_be_range bs : 0 <= get_be bs < 256 ^ zlen bs.
Proof.
  unfold get_be.
  assert (H : forall acc, 0 <= acc ->
     0 <= fold_left (fun acc b => acc * 256 + Z_of_byte b) bs acc
       < (acc + 1) * 256 ^ zlen bs).
  { induction bs as [|b bs IH]; intros acc Hacc.
    - cbn [fold_left]. change (256 ^ zlen (@nil byte)) with 1. lia.
    - cbn [fold_left]. pose proof (Z_of_byte_range b).
      specialize (IH (acc * 256 + Z_of_byte b) ltac:(lia)).
      rewrite zlen_cons, Z.pow_add_r by (pose proof (zlen_nonneg bs); lia).
      change (256 ^ 1) with 256.
      set (P := 256 ^ zlen bs) in *.
      assert (0 < P) by (apply Z.pow_pos_nonneg; [lia | apply zlen_nonneg]).
      nia. }
  specialize (H 0 ltac:(lia)). lia.
Qed.

Lemma put_get_be n bs : List.length bs = n -> put_be n (get_be bs) = bs.
Proof.
  revert bs; induction n as [|n IH]; intros bs Hl.
  - destruct bs; [reflexivity | discriminate].
  - destruct bs as [|b bs]; [discriminate|]. simpl in Hl. injection Hl as Hl.
    assert (Hg : get_be (b :: bs) = Z_of_byte b * 256 ^ Z.of_nat n + get_be bs).
    { change (get_be (b :: bs)) with
        (fold_left (fun acc b => acc * 256 + Z_of_byte b) bs (Z_of_byte b)).
      pose proof (get_be_fold (Z_of_byte b) n (get_be bs)) as Hf.
      rewrite (IH bs Hl) in Hf. rewrite Hf. f_equal.
      rewrite <- get_put_be, (IH bs Hl). reflexivity. }
    assert (Hr := get_be_range bs). unfold zlen in Hr. rewrite Hl in Hr.
    assert (HP : 0 < 256 ^ Z.of_nat n) by (apply Z.pow_pos_nonneg; lia).
    cbn [put_be]. rewrite Hg. f_equal.
    + rewrite Z.add_comm, Z.div_add, Z.div_small by lia. apply byte_of_Z_of_byte.
    + rewrite <- (IH bs Hl) at 2.
      assert (Hk : forall m k z, (m <= n)%nat -> put_be m (k * 256 ^ Z.of_nat n + z) = put_be m z).
      { clear. induction m as [|m IHm]; intros k z Hm; [reflexivity|].
        cbn [put_be]. rewrite IHm by lia. f_equal.
        replace (Z.of_nat n) with ((Z.of_nat n - Z.of_nat m - 1) + 1 + Z.of_nat m) by lia.
        rewrite !Z.pow_add_r by lia. change (256 ^ 1) with 256.
        set (P := 256 ^ Z.of_nat m).
        set (Q := 256 ^ (Z.of_nat n - Z.of_nat m - 1)).
        assert (0 < P) by (apply Z.pow_pos_nonneg; lia).
        replace (k * (Q * 256 * P) + z) with (z + (k * Q * 256) * P) by ring.
        rewrite Z.div_add by lia. unfold byte_of_Z.
        rewrite Z_mod_plus_full. reflexivity. }
      apply Hk. lia.
Qed.
