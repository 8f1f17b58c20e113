(** The Boys function as a power series, for stating and proving the accuracy of the tables.
    F_n(x) = integral over t from 0 to 1 of t^(2n) exp(-x t^2); expanding the exponential and
    integrating term by term, F_n(x) = sum over k of (-x)^k / (k! (2n + 2k + 1)).  Everything is stated
    about the partial sums, so no real numbers are needed. *)
From Coq Require Import Arith ZArith QArith Qabs Qfield Lia Lqa.
Set Implicit Arguments.
Local Open Scope Q_scope.

Definition nq (n : nat) : Q := inject_Z (Z.of_nat n).

(** Sum of f k for k < n. *)
Fixpoint qsum (f : nat -> Q) (n : nat) : Q :=
  match n with O => 0 | S m => qsum f m + f m end.

(** (-x)^k / k!. *)
Fixpoint term (x : Q) (k : nat) : Q :=
  match k with O => 1 | S j => term x j * (- x) / nq (S j) end.

(** Partial sums of F_n(x) and of exp(-x). *)
Definition boys_sum (n : nat) (x : Q) (K : nat) : Q :=
  qsum (fun k => term x k / nq (2 * n + 2 * k + 1)) K.
Definition exp_sum (x : Q) (K : nat) : Q := qsum (term x) K.

(** [v] differs from F_n(x), from exp(-x), by at most [e]. *)
Definition near_boys (n : nat) (x v e : Q) : Prop :=
  exists N, forall K, (N <= K)%nat -> Qabs (v - boys_sum n x K) <= e.
Definition near_exp (x v e : Q) : Prop :=
  exists N, forall K, (N <= K)%nat -> Qabs (v - exp_sum x K) <= e.

(** ** Elementary *)
Lemma nq_S n : nq (S n) == nq n + 1.
Proof. unfold nq. rewrite Nat2Z.inj_succ, <- Z.add_1_r, inject_Z_plus. reflexivity. Qed.
Lemma nq_add a b : nq (a + b) == nq a + nq b.
Proof. unfold nq. rewrite Nat2Z.inj_add, inject_Z_plus. reflexivity. Qed.
Lemma nq_mul a b : nq (a * b) == nq a * nq b.
Proof. unfold nq. rewrite Nat2Z.inj_mul, inject_Z_mult. reflexivity. Qed.
Lemma nq_pos n : 0 <= nq n.
Proof. unfold nq. change 0 with (inject_Z 0). rewrite <- Zle_Qle. lia. Qed.
Lemma nq_le a b : (a <= b)%nat -> nq a <= nq b.
Proof. intros H. unfold nq. rewrite <- Zle_Qle. lia. Qed.
Lemma nq_S_pos n : 0 < nq (S n).
Proof. rewrite nq_S. pose proof (nq_pos n). lra. Qed.
Lemma nq_S_nz n : ~ nq (S n) == 0.
Proof. pose proof (nq_S_pos n). lra. Qed.
Lemma odd_pos a b : 1 <= nq (2 * a + 2 * b + 1).
Proof. change 1 with (nq 1). apply nq_le. lia. Qed.

Lemma qsum_ext f g n : (forall k, (k < n)%nat -> f k == g k) -> qsum f n == qsum g n.
Proof. induction n as [|n IH]; intros H; simpl; [reflexivity|]. rewrite IH, H by (intros; auto with arith). reflexivity. Qed.
Lemma qsum_add f g n : qsum (fun k => f k + g k) n == qsum f n + qsum g n.
Proof. induction n as [|n IH]; simpl; [ring|]. rewrite IH. ring. Qed.
Lemma qsum_scale c f n : qsum (fun k => c * f k) n == c * qsum f n.
Proof. induction n as [|n IH]; simpl; [ring|]. rewrite IH. ring. Qed.
Lemma qsum_first f n : qsum f (S n) == f 0%nat + qsum (fun k => f (S k)) n.
Proof. induction n as [|n IH]; simpl; [ring|]. simpl in IH. rewrite IH. ring. Qed.
Lemma qsum_split f a b : qsum f (a + b) == qsum f a + qsum (fun k => f (a + k)%nat) b.
Proof.
  induction b as [|b IH]; simpl; [rewrite Nat.add_0_r; ring|].
  rewrite Nat.add_succ_r. simpl. rewrite IH. ring.
Qed.
Lemma qsum_abs f n : Qabs (qsum f n) <= qsum (fun k => Qabs (f k)) n.
Proof.
  induction n as [|n IH]; simpl; [apply Qle_refl|].
  eapply Qle_trans; [apply Qabs_triangle|]. lra.
Qed.
Lemma qsum_le f g n : (forall k, (k < n)%nat -> f k <= g k) -> qsum f n <= qsum g n.
Proof.
  induction n as [|n IH]; intros H; simpl; [apply Qle_refl|].
  apply Qplus_le_compat; [apply IH; intros; apply H; lia|apply H; lia].
Qed.
Lemma qsum_nonneg f n : (forall k, (k < n)%nat -> 0 <= f k) -> 0 <= qsum f n.
Proof.
  induction n as [|n IH]; intros H; simpl; [apply Qle_refl|].
  assert (0 <= qsum f n) by (apply IH; intros; apply H; lia).
  assert (0 <= f n) by (apply H; lia). lra.
Qed.

(** ** The recursion in the order, exact on partial sums *)
Lemma term_S x k : nq (S k) * term x (S k) == - x * term x k.
Proof. cbn [term]. field. apply nq_S_nz. Qed.

Lemma odd_nz a b : ~ nq (2 * a + 2 * b + 1) == 0.
Proof. pose proof (odd_pos a b). lra. Qed.

Lemma nq_odd a b : nq (2 * a + 2 * b + 1) == 2 * nq a + 2 * nq b + 1.
Proof. rewrite !nq_add, !nq_mul. reflexivity. Qed.

(** (2n + 1) F_n = 2x F_{n+1} + exp(-x). *)
Lemma boys_sum_recursion n x K :
  (2 * nq n + 1) * boys_sum n x (S K) == 2 * x * boys_sum (S n) x K + exp_sum x (S K).
Proof.
  unfold boys_sum, exp_sum. induction K as [|K IH].
  - cbn [qsum term]. assert (E : nq (2 * n + 2 * 0 + 1) == 2 * nq n + 1) by (rewrite nq_odd; change (nq 0) with 0; ring).
    rewrite E. field. pose proof (nq_pos n). lra.
  - cbn [qsum] in *.
    rewrite Qmult_plus_distr_r, IH.
    assert (O : ~ nq (2 * n + 2 * S K + 1) == 0) by apply odd_nz.
    assert (E1 : nq (2 * S n + 2 * K + 1) == nq (2 * n + 2 * S K + 1)).
    { replace (2 * S n + 2 * K + 1)%nat with (2 * n + 2 * S K + 1)%nat by lia. reflexivity. }
    rewrite E1.
    assert (ET : - x * term x K == nq (S K) * term x (S K)) by (symmetry; apply term_S).
    pose proof (nq_odd n (S K)) as EO.
    set (w := nq (2 * n + 2 * S K + 1)) in *. set (t := term x (S K)) in *.
    assert (X : 2 * x * (term x K / w) == - (2 * nq (S K) * t / w)).
    { setoid_replace (2 * x * (term x K / w)) with (- (2 * (- x * term x K)) / w) by (field; exact O).
      rewrite ET. field. exact O. }
    rewrite Qmult_plus_distr_r, X.
    setoid_replace ((2 * nq n + 1) * (t / w)) with ((w - 2 * nq (S K)) * t / w) by (rewrite EO; field; rewrite <- EO; exact O).
    field. exact O.
Qed.

(** ** Bounds on the terms *)
(** x^k / k!. *)
Definition uterm (x : Q) (k : nat) : Q := term (- x) k.
Lemma uterm_0 x : uterm x 0 == 1. Proof. reflexivity. Qed.
Lemma uterm_S x k : uterm x (S k) == uterm x k * x / nq (S k).
Proof. unfold uterm. cbn [term]. field. apply nq_S_nz. Qed.
Lemma uterm_nonneg x k : 0 <= x -> 0 <= uterm x k.
Proof.
  intros H. induction k as [|k IH]; [discriminate|]. rewrite uterm_S.
  apply Qle_shift_div_l; [apply nq_S_pos|]. rewrite Qmult_0_l. apply Qmult_le_0_compat; assumption.
Qed.
Lemma term_abs x k : 0 <= x -> Qabs (term x k) == uterm x k.
Proof.
  intros H. induction k as [|k IH]; [reflexivity|]. rewrite uterm_S, <- IH. cbn [term].
  unfold Qdiv. rewrite !Qabs_Qmult, Qabs_opp. rewrite (Qabs_pos x H), (Qabs_pos (/ nq (S k))); [reflexivity|].
  apply Qinv_le_0_compat. pose proof (nq_S_pos k). lra.
Qed.

(** Sign of a term. *)
Lemma term_even_odd x k : term x k == if Nat.even k then uterm x k else - uterm x k.
Proof.
  induction k as [|k IH]; [reflexivity|].
  rewrite Nat.even_succ, <- Nat.negb_even. cbn [term]. rewrite IH.
  destruct (Nat.even k); cbn [negb]; rewrite uterm_S; field; apply nq_S_nz.
Qed.

(** Once 2x <= k + 1 the terms at least halve. *)
Lemma uterm_halve x k : 0 <= x -> 2 * x <= nq (S k) -> 2 * uterm x (S k) <= uterm x k.
Proof.
  intros H L. rewrite uterm_S. pose proof (uterm_nonneg k H) as U. pose proof (nq_S_pos k) as N.
  setoid_replace (2 * (uterm x k * x / nq (S k))) with (uterm x k * (2 * x) / nq (S k)) by (field; apply nq_S_nz).
  apply Qle_shift_div_r; [exact N|]. rewrite !(Qmult_comm (uterm x k)). apply Qmult_le_compat_r; assumption.
Qed.
Lemma uterm_tail x k0 m : 0 <= x -> 2 * x <= nq (S k0) ->
  qsum (fun j => uterm x (k0 + j)) m <= 2 * uterm x k0 - 2 * uterm x (k0 + m).
Proof.
  intros H L. induction m as [|m IH]; cbn [qsum].
  - rewrite Nat.add_0_r. lra.
  - assert (T : 2 * uterm x (S (k0 + m)) <= uterm x (k0 + m)).
    { apply uterm_halve; [exact H|]. apply (Qle_trans _ _ _ L), nq_le. lia. }
    rewrite Nat.add_succ_r. lra.
Qed.

Lemma inv_odd_le a b v : Qabs (v / nq (2 * a + 2 * b + 1)) <= Qabs v.
Proof.
  unfold Qdiv. rewrite Qabs_Qmult. pose proof (odd_pos a b) as O. set (w := nq (2 * a + 2 * b + 1)) in *.
  assert (I : 0 <= / w) by (apply Qinv_le_0_compat; lra).
  rewrite (Qabs_pos _ I). pose proof (Qabs_nonneg v) as V.
  setoid_replace (Qabs v) with (Qabs v * 1) at 2 by ring.
  rewrite !(Qmult_comm (Qabs v)). apply Qmult_le_compat_r; [|exact V].
  setoid_replace (/ w) with (1 / w) by (unfold Qdiv; ring). apply Qle_shift_div_r; lra.
Qed.

Lemma boys_sum_tail n x k0 m : 0 <= x -> 2 * x <= nq (S k0) ->
  Qabs (boys_sum n x (k0 + m) - boys_sum n x k0) <= 2 * uterm x k0.
Proof.
  intros H L. unfold boys_sum. rewrite qsum_split.
  set (s := qsum (fun k => term x k / nq (2 * n + 2 * k + 1)) k0).
  setoid_replace (s + qsum (fun k => term x (k0 + k) / nq (2 * n + 2 * (k0 + k) + 1)) m - s)
    with (qsum (fun k => term x (k0 + k) / nq (2 * n + 2 * (k0 + k) + 1)) m) by ring.
  eapply Qle_trans; [apply qsum_abs|].
  eapply Qle_trans; [apply (@qsum_le _ (fun j => uterm x (k0 + j)))|].
  - intros k _. eapply Qle_trans; [apply inv_odd_le|]. rewrite term_abs by exact H. apply Qle_refl.
  - eapply Qle_trans; [apply uterm_tail; assumption|]. pose proof (uterm_nonneg (k0 + m) H). lra.
Qed.
Lemma exp_sum_tail x k0 m : 0 <= x -> 2 * x <= nq (S k0) ->
  Qabs (exp_sum x (k0 + m) - exp_sum x k0) <= 2 * uterm x k0.
Proof.
  intros H L. unfold exp_sum. rewrite qsum_split.
  set (s := qsum (term x) k0).
  setoid_replace (s + qsum (fun k => term x (k0 + k)) m - s) with (qsum (fun k => term x (k0 + k)) m) by ring.
  eapply Qle_trans; [apply qsum_abs|].
  eapply Qle_trans; [apply (@qsum_le _ (fun j => uterm x (k0 + j)))|].
  - intros k _. rewrite term_abs by exact H. apply Qle_refl.
  - eapply Qle_trans; [apply uterm_tail; assumption|]. pose proof (uterm_nonneg (k0 + m) H). lra.
Qed.

(** A bound for all partial sums of all orders. *)
Lemma boys_sum_crude n x K : 0 <= x -> Qabs (boys_sum n x K) <= qsum (uterm x) K.
Proof.
  intros H. unfold boys_sum. eapply Qle_trans; [apply qsum_abs|]. apply qsum_le. intros k _.
  eapply Qle_trans; [apply inv_odd_le|]. rewrite term_abs by exact H. apply Qle_refl.
Qed.
Lemma usum_bound x k0 K : 0 <= x -> 2 * x <= nq (S k0) ->
  qsum (uterm x) K <= qsum (uterm x) k0 + 2 * uterm x k0.
Proof.
  intros H L. pose proof (uterm_nonneg k0 H) as U. destruct (Nat.le_gt_cases K k0) as [C|C].
  - replace k0 with (K + (k0 - K))%nat at 1 by lia. rewrite qsum_split.
    assert (0 <= qsum (fun k => uterm x (K + k)) (k0 - K)) by (apply qsum_nonneg; intros; apply uterm_nonneg, H).
    lra.
  - replace K with (k0 + (K - k0))%nat by lia. rewrite qsum_split.
    pose proof (uterm_tail (k0 := k0) (K - k0) H L) as T. pose proof (uterm_nonneg (k0 + (K - k0)) H). lra.
Qed.

(** ** Taylor expansion around [a], exact on partial sums *)
(** Binomial theorem for (-p)^j / j!. *)
Definition conv (p q : Q) (K : nat) : Q := qsum (fun j => term p j * term q (K - j)) (S K).
Lemma conv_S p q K : nq (S K) * conv p q (S K) == - (p + q) * conv p q K.
Proof.
  unfold conv.
  assert (A : nq (S K) * qsum (fun j => term p j * term q (S K - j)) (S (S K)) ==
    qsum (fun j => nq j * term p j * term q (S K - j)) (S (S K)) +
    qsum (fun j => term p j * (nq (S K - j) * term q (S K - j))) (S (S K))).
  { rewrite <- qsum_scale, <- qsum_add. apply qsum_ext. intros k Hk.
    replace (S K) with (k + (S K - k))%nat at 1 by lia. rewrite nq_add. ring. }
  rewrite A. clear A.
  assert (B : qsum (fun j => nq j * term p j * term q (S K - j)) (S (S K)) == - p * qsum (fun j => term p j * term q (K - j)) (S K)).
  { rewrite qsum_first. change (nq 0) with 0. rewrite <- qsum_scale.
    setoid_replace (0 * term p 0 * term q (S K - 0)) with 0 by ring. rewrite Qplus_0_l.
    apply qsum_ext. intros k Hk. rewrite term_S. replace (S K - S k)%nat with (K - k)%nat by lia. ring. }
  rewrite B. clear B.
  assert (C : qsum (fun j => term p j * (nq (S K - j) * term q (S K - j))) (S (S K)) == - q * qsum (fun j => term p j * term q (K - j)) (S K)).
  { set (h := fun j => term p j * (nq (S K - j) * term q (S K - j))).
    change (qsum h (S K) + h (S K) == - q * qsum (fun j => term p j * term q (K - j)) (S K)).
    assert (Z : h (S K) == 0) by (unfold h; rewrite Nat.sub_diag; change (nq 0) with 0; ring).
    rewrite Z, Qplus_0_r, <- qsum_scale. apply qsum_ext. intros k Hk. unfold h.
    replace (S K - k)%nat with (S (K - k)) by lia. rewrite term_S. ring. }
  rewrite C. ring.
Qed.
Lemma term_conv p q K : conv p q K == term (p + q) K.
Proof.
  induction K as [|K IH]; [unfold conv; cbn [qsum term Nat.sub]; ring|].
  assert (E : nq (S K) * conv p q (S K) == nq (S K) * term (p + q) (S K)) by (rewrite conv_S, IH, term_S; reflexivity).
  apply Qmult_inj_l in E; [exact E|apply nq_S_nz].
Qed.

Lemma term_ext x y k : x == y -> term x k == term y k.
Proof. intros H. induction k as [|k IH]; [reflexivity|]. cbn [term]. rewrite IH, H. reflexivity. Qed.

(** [d] is the distance from [y] to the expansion point: a = y + d; the coefficient d^j / j!. *)
Definition dpow (d : Q) (j : nat) : Q := term (- d) j.
Lemma taylor_exact n a d K :
  boys_sum n (a - d) K == qsum (fun j => dpow d j * boys_sum (n + j) a (K - j)) K.
Proof.
  induction K as [|K IH]; [reflexivity|].
  unfold boys_sum at 1. cbn [qsum]. fold (boys_sum n (a - d) K). rewrite IH.
  rewrite Nat.sub_succ_l by lia. rewrite Nat.sub_diag.
  assert (A : qsum (fun j => dpow d j * boys_sum (n + j) a (S K - j)) K ==
    qsum (fun j => dpow d j * boys_sum (n + j) a (K - j)) K + qsum (fun j => dpow d j * term a (K - j) / nq (2 * n + 2 * K + 1)) K).
  { rewrite <- qsum_add. apply qsum_ext. intros k Hk. replace (S K - k)%nat with (S (K - k)) by lia.
    unfold boys_sum. cbn [qsum]. replace (2 * (n + k) + 2 * (K - k) + 1)%nat with (2 * n + 2 * K + 1)%nat by lia.
    field. apply odd_nz. }
  rewrite A. clear A.
  assert (B : boys_sum (n + K) a 1 == term a (K - K) / nq (2 * n + 2 * K + 1)).
  { rewrite Nat.sub_diag. unfold boys_sum. cbn [qsum]. replace (2 * (n + K) + 2 * 0 + 1)%nat with (2 * n + 2 * K + 1)%nat by lia. ring. }
  rewrite B. clear B.
  assert (C : term (a - d) K / nq (2 * n + 2 * K + 1) == qsum (fun j => dpow d j * term a (K - j) / nq (2 * n + 2 * K + 1)) (S K)).
  { assert (E : term (a - d) K == conv (- d) a K) by (rewrite term_conv; apply term_ext; ring).
    rewrite E. unfold conv, dpow, Qdiv. rewrite Qmult_comm, <- qsum_scale. apply qsum_ext. intros k _. ring. }
  rewrite C. cbn [qsum]. unfold Qdiv. ring.
Qed.
