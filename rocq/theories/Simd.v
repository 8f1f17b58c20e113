(** Vector-length constants and rounding.
    Source: skel/simint/vectorization/vectorization.h:71-81. *)
From Coq Require Import ZArith Lia Arith ZifyNat.
From Verif Require Import Base.
Set Implicit Arguments.

(** [#define SIMINT_SIMD_ROUND(x) ((x + (SIMINT_SIMD_LEN-1)) & ~(SIMINT_SIMD_LEN-1))]
    vectorization.h:71.  Two's-complement masks as [Z] bit operations. *)
Definition simd_round_mask (len x : Z) : Z :=
  Z.land (x + (len - 1)) (Z.lnot (len - 1)).

(** The specification: the least multiple of [len] that is at least [x]. *)
Definition is_round_up (len x r : Z) : Prop :=
  (len | r)%Z /\ (x <= r)%Z /\ forall r', (len | r')%Z -> (x <= r')%Z -> (r <= r')%Z.

Lemma simd_round_mask_div k x :
  (0 <= k)%Z ->
  simd_round_mask (2 ^ k) x = ((x + (2 ^ k - 1)) / 2 ^ k * 2 ^ k)%Z.
Proof.
  intros Hk. unfold simd_round_mask.
  replace (2 ^ k - 1)%Z with (Z.ones k) by (rewrite Z.ones_equiv; lia).
  rewrite <- Z.ldiff_land, Z.ldiff_ones_r by exact Hk.
  rewrite Z.shiftl_mul_pow2, Z.shiftr_div_pow2 by exact Hk. reflexivity.
Qed.

Lemma simd_round_mask_spec k x :
  (0 <= k)%Z -> is_round_up (2 ^ k) x (simd_round_mask (2 ^ k) x).
Proof.
  intros Hk. rewrite simd_round_mask_div by exact Hk.
  assert (Hp : (0 < 2 ^ k)%Z) by (apply Z.pow_pos_nonneg; lia).
  remember (2 ^ k)%Z as len eqn:E. clear E k Hk.
  pose proof (Z.div_mod (x + (len - 1)) len ltac:(lia)) as D.
  pose proof (Z.mod_pos_bound (x + (len - 1)) len Hp) as B.
  remember ((x + (len - 1)) / len)%Z as q.
  remember ((x + (len - 1)) mod len)%Z as m.
  clear Heqq Heqm.
  split; [exists q; lia|]. split; [nia|].
  intros r' [t ->] Hx. assert (q <= t)%Z; [|nia].
  assert (x + len - 1 < (t + 1) * len)%Z by nia. nia.
Qed.

(** The same rounding on [nat], used by all other models. *)
Definition rnd (len x : nat) : nat := (x + (len - 1)) / len * len.

Lemma rnd_mask k x :
  Z.of_nat (rnd (2 ^ k) x) = simd_round_mask (2 ^ Z.of_nat k) (Z.of_nat x).
Proof.
  rewrite simd_round_mask_div by lia. unfold rnd.
  assert (H : 2 ^ k <> 0) by (apply Nat.pow_nonzero; lia).
  rewrite Nat2Z.inj_mul, Nat2Z.inj_div, Nat2Z.inj_add, Nat2Z.inj_sub by lia.
  rewrite Nat2Z.inj_pow. reflexivity.
Qed.

Section Rnd.
  Variable len : nat.
  Hypothesis Hlen : 0 < len.

  Lemma rnd_ge x : x <= rnd len x.
  Proof. unfold rnd. pose proof (Nat.div_mod (x + (len - 1)) len ltac:(lia)).
    pose proof (Nat.mod_upper_bound (x + (len - 1)) len ltac:(lia)). nia. Qed.
  Lemma rnd_lt x : rnd len x < x + len.
  Proof. unfold rnd. pose proof (Nat.div_mod (x + (len - 1)) len ltac:(lia)).
    pose proof (Nat.mod_upper_bound (x + (len - 1)) len ltac:(lia)). nia. Qed.
  Lemma rnd_divide x : Nat.divide len (rnd len x).
  Proof. unfold rnd. eexists; reflexivity. Qed.
  Lemma rnd_least x r : Nat.divide len r -> x <= r -> rnd len x <= r.
  Proof. intros [q ->] H. unfold rnd. apply Nat.mul_le_mono_r.
    apply Nat.lt_succ_r, Nat.div_lt_upper_bound; nia. Qed.
  Lemma rnd_id x : Nat.divide len x -> rnd len x = x.
  Proof. intros H. pose proof (@rnd_least x x H (le_n _)). pose proof (rnd_ge x). lia. Qed.
  Lemma rnd_rnd x : rnd len (rnd len x) = rnd len x.
  Proof. apply rnd_id, rnd_divide. Qed.
  Lemma rnd_0 : rnd len 0 = 0.
  Proof. apply rnd_id. exists 0; reflexivity. Qed.
  Lemma rnd_add_l a x : Nat.divide len a -> rnd len (a + x) = a + rnd len x.
  Proof. intros [q ->]. unfold rnd.
    replace (q * len + x + (len - 1)) with (x + (len - 1) + q * len) by lia.
    rewrite Nat.div_add by lia. lia. Qed.
  Lemma rnd_mono a b : a <= b -> rnd len a <= rnd len b.
  Proof. intros H. apply rnd_least; [apply rnd_divide|]. pose proof (rnd_ge b). lia. Qed.
End Rnd.

(** [SIMINT_NSHELL_SIMD = 2*SIMINT_SIMD_LEN], vectorization.h:81. *)
Definition nshell_simd (len : nat) : nat := 2 * len.
