(** The long-range formula of the Boys function with rounding.
    Source: skel/simint/boys/boys_long.h:13-58, skel/simint/boys/boys_longfac.h.

    [long_loop], [long_writes], [long_single] and [long_single_vec] of Boys.v again over the real numbers with [rnd] after every
    literal, factor and operation, for one lane as in RoundSplit.v.  [rpow] is the power function of the library.  The exponents
    [-(2n+1)] and [-(n+1/2)] are taken to be exact: they are integers and halves below 64. *)
From Coq Require Import List Arith Reals Lra Lia ZArith Qreals.
Import ListNotations.
From Verif Require Import Base Boys BoysData BoysAccuracy RoundSum RoundBoys RoundSplit.
Local Open Scope R_scope.

(** ** Model *)
Section Model.
Variables (rnd : R -> R) (rpow : R -> R -> R).
(** Factor [n] as a double: the literal of boys_longfac.h, rounded. *)
Definition rfac (n : nat) : option R := option_map (fun q => rnd (Q2R (Qcanon.this q))) (nth_error longfac n).
(** boys_long.h:19-24 (and 43-48): orders [i], [i + 1], ..., [k] of them. *)
Fixpoint rlong_loop (i k : nat) (x1 x2 : R) (F : list R) : option (list R) :=
  match k with
  | 0%nat => Some F
  | S k' => match rfac i with
            | Some f => match rput F i (rnd (f * x2)) with Some F' => rlong_loop (S i) k' x1 (rnd (x2 * x1)) F' | None => None end
            | None => None
            end
  end.
(** :13-25 (and 35-49). *)
Definition rlong (x : R) (n : nat) (F : list R) : option (list R) :=
  let x1 := rnd (rnd 1 / x) in rlong_loop 0 (S n) x1 (rnd (sqrt x1)) F.
(** :27-33. *)
Definition rlong_single (x : R) (n : nat) : option R :=
  option_map (fun f => rnd (f * rnd (sqrt (rpow x (- (2 * INR n + 1)))))) (rfac n).
(** :51-58. *)
Definition rlong_single_vec (x : R) (n : nat) : option R :=
  option_map (fun f => rnd (f * rpow x (- (INR n + 1 / 2)))) (rfac n).
End Model.

(** ** Specification *)
(** [v] is the formula: factor [n] of the table over the square root of [x^(2n+1)]. *)
Definition formula (x : R) (n : nat) (v : R) : Prop :=
  exists q, nth_error longfac n = Some q /\ v = Q2R (Qcanon.this q) / sqrt (x ^ (2 * n + 1)).

(** ** Errors *)
Lemma within_sqrt c x v : c <= 3 / 2 -> 0 < v -> within c x v -> within c (sqrt x) (sqrt v).
Proof.
  intros H V (C & _ & E). assert (Hx : (2 - c) * v <= x). { pose proof (Rle_abs (- (x - v))) as K. rewrite Rabs_Ropp in K. lra. }
  assert (X : 0 < x) by nra. pose proof (sqrt_lt_R0 v V) as SV. pose proof (sqrt_lt_R0 x X) as SX. split; [exact C|]. split; [lra|].
  apply (Rmult_le_reg_r (sqrt x + sqrt v)); [lra|]. rewrite <- (Rabs_right (sqrt x + sqrt v)) at 1 by lra. rewrite <- Rabs_mult.
  replace ((sqrt x - sqrt v) * (sqrt x + sqrt v)) with (sqrt x * sqrt x - sqrt v * sqrt v) by ring. rewrite !sqrt_sqrt by lra.
  apply Rle_trans with (1 := E). replace ((c - 1) * sqrt v * (sqrt x + sqrt v)) with ((c - 1) * sqrt v * sqrt x + (c - 1) * (sqrt v * sqrt v)) by ring.
  rewrite sqrt_sqrt by lra. assert (0 <= (c - 1) * sqrt v * sqrt x) by (apply Rmult_le_pos; [apply Rmult_le_pos; lra|lra]). lra.
Qed.
Lemma sqrt_odd x n : 0 < x -> / sqrt (x ^ (2 * n + 1)) = sqrt (/ x) * (/ x) ^ n.
Proof.
  intros H. rewrite pow_add, pow_1, (Nat.mul_comm 2), pow_mult. replace ((x ^ n) ^ 2) with (x ^ n * x ^ n) by ring.
  pose proof (pow_lt x n H) as P. pose proof (sqrt_lt_R0 x H). rewrite sqrt_mult_alt by nra. rewrite sqrt_square by lra. rewrite Rinv_mult.
  rewrite pow_inv, sqrt_inv. ring.
Qed.
Lemma fac_pos q n : nth_error longfac n = Some q -> 0 <= Q2R (Qcanon.this q).
Proof.
  intros E. apply nth_error_In in E.
  assert (A : forallb (fun q => Z.leb 0 (QArith_base.Qnum (Qcanon.this q))) longfac = true) by (vm_compute; reflexivity).
  rewrite forallb_forall in A. specialize (A q E). apply Z.leb_le, IZR_le in A. unfold Q2R. apply Rmult_le_pos; [exact A|].
  left. apply Rinv_0_lt_compat, IZR_lt. reflexivity.
Qed.
Lemma fac_there n : (n <= 31)%nat -> exists q, nth_error longfac n = Some q.
Proof. intros H. apply nth_error_lt_Some. rewrite longfac_length. unfold NFAC. lia. Qed.

Section Error.
Variables (u : R) (rnd : R -> R).
Hypothesis Hr : rounding u rnd.
Let Hu : 0 <= u. Proof. exact (proj1 Hr). Qed.

Lemma fac_near n q y c v : nth_error longfac n = Some q -> within c y v -> exists f, rfac rnd n = Some f /\ within (c * (1 + u) ^ 2) (rnd (f * y)) (Q2R (Qcanon.this q) * v).
Proof.
  intros E W. exists (rnd (Q2R (Qcanon.this q))). split; [unfold rfac; rewrite E; reflexivity|].
  replace (c * (1 + u) ^ 2) with ((1 + u) * c * (1 + u)) by ring. apply (within_rnd u rnd Hr), within_prod; [apply (within_lit u rnd Hr), (fac_pos q n E)|exact W].
Qed.
Lemma loop_near x x1 : 0 < x -> within ((1 + u) ^ 2) x1 (/ x) -> forall k i x2 F, (i + k <= 32)%nat -> (i + k <= length F)%nat ->
  within ((1 + u) ^ (3 * i + 3)) x2 (sqrt (/ x) * (/ x) ^ i) ->
  exists F', rlong_loop rnd i k x1 x2 F = Some F' /\ length F' = length F /\
    (forall j, (j < i \/ i + k <= j)%nat -> nth_error F' j = nth_error F j) /\
    forall j, (i <= j < i + k)%nat -> exists b v, nth_error F' j = Some b /\ formula x j v /\ Rabs (b - v) <= ((1 + u) ^ (3 * j + 5) - 1) * v.
Proof.
  intros Hx W1. induction k as [|k IH]; intros i x2 F H1 H2 W2.
  - exists F. repeat split; try reflexivity. intros j Hj. lia.
  - destruct (fac_there i ltac:(lia)) as [q Eq]. destruct (fac_near i q _ _ _ Eq W2) as (f & Ef & Wf).
    cbn [rlong_loop]. rewrite Ef, rput_ok by lia.
    destruct (IH (S i) (rnd (x2 * x1)) (upd F i (rnd (f * x2)))) as (F' & E & L & O & B); [lia|rewrite upd_length; lia| |].
    + replace ((1 + u) ^ (3 * S i + 3)) with ((1 + u) ^ (3 * i + 3) * (1 + u) ^ 2 * (1 + u)).
      * apply (within_rnd u rnd Hr). replace (sqrt (/ x) * (/ x) ^ S i) with (sqrt (/ x) * (/ x) ^ i * / x) by (simpl; ring). apply within_prod; assumption.
      * rewrite <- pow_add. rewrite Rmult_comm, tech_pow_Rmult. f_equal. lia.
    + exists F'. rewrite upd_length in L. split; [exact E|]. split; [exact L|]. split.
      * intros j Hj. rewrite O by lia. apply nth_error_upd_other. lia.
      * intros j Hj. destruct (Nat.eq_dec j i) as [->|N]; [|apply B; lia].
        exists (rnd (f * x2)), (Q2R (Qcanon.this q) / sqrt (x ^ (2 * i + 1))). split; [rewrite O by lia; apply nth_error_upd_same; lia|].
        split; [exists q; split; [exact Eq|reflexivity]|]. unfold Rdiv. rewrite (sqrt_odd x i Hx).
        replace ((1 + u) ^ (3 * i + 5)) with ((1 + u) ^ (3 * i + 3) * (1 + u) ^ 2) by (rewrite <- pow_add; f_equal; lia). apply Wf.
Qed.
End Error.

Theorem long_rounded u rnd x n F : rounding u rnd -> u <= / 1000 -> 0 < x -> (n <= 31)%nat -> (n < length F)%nat ->
  exists F', rlong rnd x n F = Some F' /\ length F' = length F /\ (forall k, (n < k)%nat -> nth_error F' k = nth_error F k) /\
    forall k, (k <= n)%nat -> exists b v, nth_error F' k = Some b /\ formula x k v /\ Rabs (b - v) <= ((1 + u) ^ (3 * k + 5) - 1) * v.
Proof.
  intros Hr Hs Hx Hn HF. assert (Hu : 0 <= u) by apply Hr. assert (IX : 0 < / x) by (apply Rinv_0_lt_compat, Hx). unfold rlong.
  assert (W1 : within ((1 + u) ^ 2) (rnd (rnd 1 / x)) (/ x)).
  { pose proof (within_rnd u rnd Hr _ _ _ (within_prod _ _ _ _ _ _ (within_lit u rnd Hr 1 ltac:(lra)) (within_self (/ x) ltac:(lra)))) as K.
    rewrite Rmult_1_l in K. replace ((1 + u) ^ 2) with ((1 + u) * 1 * (1 + u)) by ring. exact K. }
  set (x1 := rnd (rnd 1 / x)) in *.
  destruct (loop_near u rnd Hr x x1 Hx W1 (S n) 0 (rnd (sqrt x1)) F ltac:(lia) ltac:(lia)) as (F' & E & L & O & B).
  - replace (sqrt (/ x) * (/ x) ^ 0) with (sqrt (/ x)) by (simpl; ring). replace ((1 + u) ^ (3 * 0 + 3)) with ((1 + u) ^ 2 * (1 + u)) by (simpl; ring).
    apply (within_rnd u rnd Hr), within_sqrt; [nra|exact IX|exact W1].
  - exists F'. split; [exact E|]. split; [exact L|]. split; [intros k Hk; apply O; lia|intros k Hk; apply B; lia].
Qed.
Lemma power_odd x n : 0 < x -> Rpower x (- (2 * INR n + 1)) = / x ^ (2 * n + 1).
Proof.
  intros H. rewrite Rpower_Ropp. f_equal. replace (2 * INR n + 1) with (INR (2 * n + 1)) by (rewrite plus_INR, mult_INR; simpl; ring). apply Rpower_pow, H.
Qed.
Lemma power_half x n : 0 < x -> Rpower x (- (INR n + 1 / 2)) = / sqrt (x ^ (2 * n + 1)).
Proof.
  intros H. rewrite <- Rpower_sqrt by (apply pow_lt, H). rewrite <- Rpower_pow, Rpower_mult, Rpower_Ropp by exact H. do 2 f_equal.
  rewrite plus_INR, mult_INR. simpl. field.
Qed.
(** The two forms for one order, with a power function right up to [w]. *)
Theorem single_rounded u w rnd rpow x n : rounding u rnd -> 0 <= w <= 1 / 2 -> 0 < x -> (n <= 31)%nat ->
  (forall p, Rabs (rpow x p - Rpower x p) <= w * Rpower x p) ->
  exists a b v, rlong_single rnd rpow x n = Some a /\ rlong_single_vec rnd rpow x n = Some b /\ formula x n v /\
    Rabs (a - v) <= ((1 + w) * (1 + u) ^ 3 - 1) * v /\ Rabs (b - v) <= ((1 + w) * (1 + u) ^ 2 - 1) * v.
Proof.
  intros Hr Hw Hx Hn Hp. assert (Hu : 0 <= u) by apply Hr. destruct (fac_there n Hn) as [q Eq]. pose proof (pow_lt x (2 * n + 1) Hx) as P.
  assert (W : forall p, within (1 + w) (rpow x p) (Rpower x p)).
  { intros p. split; [lra|]. split; [left; apply exp_pos|]. replace (1 + w - 1) with w by ring. apply Hp. }
  pose proof (within_rnd u rnd Hr _ _ _ (within_sqrt (1 + w) _ _ ltac:(lra) (exp_pos _ : 0 < Rpower x (- (2 * INR n + 1))) (W (- (2 * INR n + 1))))) as A.
  rewrite (power_odd x n Hx), sqrt_inv in A.
  destruct (fac_near u rnd Hr n q _ _ _ Eq A) as (f & Ef & Wf).
  pose proof (W (- (INR n + 1 / 2))) as B. rewrite (power_half x n Hx) in B. destruct (fac_near u rnd Hr n q _ _ _ Eq B) as (f' & Ef' & Wf').
  rewrite Ef in Ef'. injection Ef' as <-. eexists _, _, (Q2R (Qcanon.this q) / sqrt (x ^ (2 * n + 1))). unfold rlong_single, rlong_single_vec. rewrite Ef.
  split; [reflexivity|]. split; [reflexivity|]. split; [exists q; split; [exact Eq|reflexivity]|]. split.
  - replace ((1 + w) * (1 + u) ^ 3) with ((1 + w) * (1 + u) * (1 + u) ^ 2) by ring. apply Wf.
  - apply Wf'.
Qed.

Lemma long_example : exists F', rlong (scale_rnd (/ 1000)) 40 3 (repeat 0 5) = Some F' /\ nth_error F' 4 = Some 0 /\
  forall k, (k <= 3)%nat -> exists b v, nth_error F' k = Some b /\ formula 40 k v /\ Rabs (b - v) <= 15 / 1000 * v.
Proof.
  destruct (long_rounded (/ 1000) (scale_rnd (/ 1000)) 40 3 (repeat 0 5)) as (F' & E & L & O & B); [apply scale_rounding; lra|lra|lra|lia|rewrite repeat_length; lia|].
  exists F'. split; [exact E|]. split; [rewrite O by lia; reflexivity|]. intros k Hk. destruct (B k Hk) as (b & v & Eb & Fv & Bb). exists b, v. split; [exact Eb|]. split; [exact Fv|].
  apply Rle_trans with (1 := Bb). apply Rmult_le_compat_r.
  - destruct Fv as (q & Eq & ->). apply Rmult_le_pos; [apply (fac_pos q k Eq)|]. left. apply Rinv_0_lt_compat, sqrt_lt_R0, pow_lt. lra.
  - assert (P : (1 + / 1000) ^ (3 * k + 5) <= (1 + / 1000) ^ 14) by (apply Rle_pow; [lra|lia]). apply Rle_trans with ((1 + / 1000) ^ 14 - 1); [lra|]. simpl. lra.
Qed.
(** An exact power function. *)
Lemma single_example : exists a b v, rlong_single (scale_rnd (/ 1000)) Rpower 40 24 = Some a /\ rlong_single_vec (scale_rnd (/ 1000)) Rpower 40 24 = Some b /\ formula 40 24 v /\
  Rabs (a - v) <= ((1 + 0) * (1 + / 1000) ^ 3 - 1) * v /\ Rabs (b - v) <= ((1 + 0) * (1 + / 1000) ^ 2 - 1) * v.
Proof.
  apply single_rounded; [apply scale_rounding; lra|lra|lra|lia|]. intros p. rewrite Rminus_diag_eq, Rabs_R0 by reflexivity. lra.
Qed.
