(** Sequences of real numbers as formal power series: product, shift, derivative. *)
From Coq Require Import List Arith Reals Lra Lia Factorial.
Import ListNotations.
Local Open Scope R_scope.

(** Sum of [f 0 .. f n]. *)
Fixpoint upto (n : nat) (f : nat -> R) : R := match n with O => f O | S m => upto m f + f (S m) end.
Lemma upto_ext n f g : (forall i, (i <= n)%nat -> f i = g i) -> upto n f = upto n g.
Proof. induction n as [|n IH]; intros H; cbn; [apply H; lia|]. rewrite IH, (H (S n)) by (try lia; intros; apply H; lia). reflexivity. Qed.
Lemma upto_plus n f g : upto n (fun i => f i + g i) = upto n f + upto n g.
Proof. induction n as [|n IH]; cbn; [reflexivity|]. rewrite IH. ring. Qed.
Lemma upto_scal n c f : upto n (fun i => c * f i) = c * upto n f.
Proof. induction n as [|n IH]; cbn; [reflexivity|]. rewrite IH. ring. Qed.
Lemma upto_scal_r n c f : upto n (fun i => f i * c) = upto n f * c.
Proof. induction n as [|n IH]; cbn; [reflexivity|]. rewrite IH. ring. Qed.
Lemma upto_0 n : upto n (fun _ => 0) = 0.
Proof. induction n as [|n IH]; cbn; [reflexivity|]. rewrite IH. ring. Qed.
Lemma upto_S n f : upto (S n) f = f O + upto n (fun i => f (S i)).
Proof. induction n as [|n IH]; [reflexivity|]. change (upto (S (S n)) f) with (upto (S n) f + f (S (S n))). rewrite IH. cbn. ring. Qed.
Lemma upto_swap n m f : upto n (fun i => upto m (f i)) = upto m (fun j => upto n (fun i => f i j)).
Proof. induction n as [|n IH]; [reflexivity|]. cbn [upto]. rewrite IH, <- upto_plus. reflexivity. Qed.
Lemma upto_more n k f : (forall i, (n < i <= n + k)%nat -> f i = 0) -> upto (n + k) f = upto n f.
Proof.
  induction k as [|k IH]; intros H; [now rewrite Nat.add_0_r|]. rewrite Nat.add_succ_r. cbn [upto]. rewrite IH, (H (S (n + k))) by (try lia; intros; apply H; lia). ring.
Qed.
Lemma upto_cut n m f : (n <= m)%nat -> (forall i, (n < i <= m)%nat -> f i = 0) -> upto m f = upto n f.
Proof. intros L H. replace m with (n + (m - n))%nat by lia. apply upto_more. intros i Hi. apply H. lia. Qed.
Lemma upto_rev n f : upto n f = upto n (fun i => f (n - i)%nat).
Proof.
  revert f. induction n as [|n IH]; intros f; [reflexivity|]. rewrite upto_S, (IH (fun i => f (S i))). cbn [upto].
  replace (S n - S n)%nat with 0%nat by lia. rewrite Rplus_comm. f_equal. apply upto_ext. intros i Hi. f_equal. lia.
Qed.

Definition seqr := nat -> R.
Definition sh (s : seqr) (n : nat) : R := match n with O => 0 | S m => s m end.
Definition D (s : seqr) (n : nat) : R := INR (S n) * s (S n).
Definition conv (a b : seqr) (n : nat) : R := upto n (fun i => a i * b (n - i)%nat).

Lemma conv_ext a a' b b' n : (forall i, (i <= n)%nat -> a i = a' i) -> (forall i, (i <= n)%nat -> b i = b' i) -> conv a b n = conv a' b' n.
Proof. intros Ha Hb. apply upto_ext. intros i Hi. rewrite Ha, Hb by lia. reflexivity. Qed.
Lemma conv_comm a b n : conv a b n = conv b a n.
Proof. unfold conv. rewrite upto_rev. apply upto_ext. intros i Hi. replace (n - (n - i))%nat with i by lia. ring. Qed.
Lemma conv_plus a b c n : conv a (fun i => b i + c i) n = conv a b n + conv a c n.
Proof. unfold conv. rewrite <- upto_plus. apply upto_ext. intros; ring. Qed.
Lemma conv_scal a x b n : conv a (fun i => x * b i) n = x * conv a b n.
Proof. unfold conv. rewrite <- upto_scal. apply upto_ext. intros; ring. Qed.
Lemma conv_scal_l a x b n : conv (fun i => x * a i) b n = x * conv a b n.
Proof. unfold conv. rewrite <- upto_scal. apply upto_ext. intros; ring. Qed.
Lemma conv_sh_l a b n : conv (sh a) b n = sh (conv a b) n.
Proof.
  destruct n as [|n]; [cbn; ring|]. unfold conv. rewrite upto_S. cbn [sh]. rewrite Rmult_0_l, Rplus_0_l. apply upto_ext. intros; f_equal.
Qed.
Lemma conv_sh_r a b n : conv a (sh b) n = sh (conv a b) n.
Proof. rewrite conv_comm, conv_sh_l. destruct n; [reflexivity|]. apply conv_comm. Qed.
Lemma half_D a b n : upto (S n) (fun i => INR i * a i * b (S n - i)%nat) = conv (D a) b n.
Proof.
  rewrite upto_S. cbn [INR]. unfold conv, D. replace (0 * a 0%nat * b (S n - 0)%nat) with 0 by ring. rewrite Rplus_0_l. apply upto_ext. intros i Hi.
  replace (S n - S i)%nat with (n - i)%nat by lia. reflexivity.
Qed.
(** The rule of Leibniz. *)
Lemma D_conv a b n : D (conv a b) n = conv (D a) b n + conv a (D b) n.
Proof.
  rewrite (conv_comm a (D b)), <- !half_D. rewrite (upto_rev (S n) (fun i => INR i * b i * a (S n - i)%nat)), <- upto_plus.
  unfold D at 1, conv. rewrite <- upto_scal. apply upto_ext. intros i Hi.
  replace (S n - (S n - i))%nat with i by lia. rewrite minus_INR by lia. ring.
Qed.

(** The exponential series of a multiple of the variable, and that of a multiple of its square. *)
Definition ser (x : R) (n : nat) : R := x ^ n / INR (fact n).
Lemma fact_pos n : INR (fact n) <> 0.
Proof. apply INR_fact_neq_0. Qed.
Lemma INR_S_pos n : INR (S n) <> 0.
Proof. apply not_0_INR. lia. Qed.
Lemma fact_S n : INR (fact (S n)) = INR (S n) * INR (fact n).
Proof. rewrite <- mult_INR. reflexivity. Qed.
Lemma D_ser x n : D (ser x) n = x * ser x n.
Proof. unfold D, ser. rewrite fact_S. cbn [pow]. field. split; [apply fact_pos|apply INR_S_pos]. Qed.
Definition evens (a : seqr) (n : nat) : R := if Nat.even n then a (n / 2)%nat else 0.
Definition sq (x : R) : seqr := evens (ser x).
Lemma even_half n : Nat.even n = true -> exists k, n = (2 * k)%nat.
Proof. intros H. apply Nat.even_spec in H. destruct H as [k ->]. exists k. lia. Qed.
Lemma D_sq x n : D (sq x) n = 2 * x * sh (sq x) n.
Proof.
  unfold D, sq, evens. destruct n as [|n]; [cbn; ring|]. change (sh _ (S n)) with (if Nat.even n then ser x (n / 2) else 0).
  change (Nat.even (S (S n))) with (Nat.even n). destruct (Nat.even n) eqn:E; [|ring].
  destruct (even_half n E) as [k ->]. replace (S (S (2 * k)) / 2)%nat with (S k) by (replace (S (S (2 * k))) with (S k * 2)%nat by lia; now rewrite Nat.div_mul).
  replace (2 * k / 2)%nat with k by (rewrite Nat.mul_comm; now rewrite Nat.div_mul).
  pose proof (D_ser x k) as S1. unfold D in S1. replace (INR (S (S (2 * k)))) with (2 * INR (S k)) by (rewrite !S_INR, mult_INR; cbn [INR]; ring).
  rewrite Rmult_assoc, S1. ring.
Qed.
(** A sum in steps of two is a product with such a series. *)
Lemma steps_conv (a b : seqr) n : upto (n / 2) (fun u => a u * b (n - 2 * u)%nat) = conv (evens a) b n.
Proof.
  unfold conv. assert (G : forall m, (2 * m <= n)%nat -> upto (2 * m) (fun i => evens a i * b (n - i)%nat) = upto m (fun u => a u * b (n - 2 * u)%nat)).
  { induction m as [|m IH]; intros L; [reflexivity|]. replace (2 * S m)%nat with (S (S (2 * m))) by lia. cbn [upto]. rewrite IH by lia.
    assert (E : evens a (S (2 * m)) = 0). { unfold evens. replace (Nat.even (S (2 * m))) with false; [reflexivity|]. symmetry. rewrite Nat.even_succ. rewrite <- Nat.negb_even, Nat.even_mul. reflexivity. }
    rewrite E. assert (E' : evens a (S (S (2 * m))) = a (S m)).
    { unfold evens. change (Nat.even (S (S (2 * m)))) with (Nat.even (2 * m)). rewrite Nat.even_mul. cbn [orb Nat.even].
      replace (S (S (2 * m)) / 2)%nat with (S m) by (replace (S (S (2 * m))) with (S m * 2)%nat by lia; now rewrite Nat.div_mul). reflexivity. }
    rewrite E'. replace (S (S (2 * m))) with (2 * S m)%nat by lia. ring. }
  pose proof (Nat.div_mod n 2 ltac:(lia)) as DM. pose proof (Nat.mod_upper_bound n 2 ltac:(lia)) as MB.
  rewrite <- G by lia. symmetry. apply upto_cut; [lia|]. intros i Hi. assert (i = S (2 * (n / 2)))%nat as -> by lia.
  unfold evens. replace (Nat.even (S (2 * (n / 2)))) with false; [ring|]. symmetry. rewrite Nat.even_succ, <- Nat.negb_even, Nat.even_mul. reflexivity.
Qed.
