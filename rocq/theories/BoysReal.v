(** The Boys function as an integral of real numbers, and what the code computes against it.
    The partial sums of [BoysSeries] are shown to be those of the integral; then the accuracy results of
    [BoysAccuracy] speak about the integral, and the long-range formula (boys_long.h) is bounded for every argument. *)
From Coq Require Import List Arith ZArith QArith Qabs Qcanon Reals Qreals Lra Lia Psatz.
Import ListNotations.
From Verif Require Import Base Boys BoysProof BoysSeries BoysData BoysAccuracy BoysLong Constants ConstantsProof.
Local Open Scope R_scope.

(** ** Definition *)
Definition boys_fun (n : nat) (x t : R) : R := t ^ (2 * n) * exp (- (x * (t * t))).
Lemma boys_fun_der n x t : exists l, derivable_pt_lim (boys_fun n x) t l.
Proof.
  assert (D : derivable_pt (boys_fun n x) t) by (unfold boys_fun; reg). destruct D as [l H]. exists l. exact H.
Qed.
Lemma boys_fun_cont n x t : continuity_pt (boys_fun n x) t.
Proof. destruct (boys_fun_der n x t) as [l H]. apply derivable_continuous_pt. exists l. exact H. Qed.
Lemma boys_fun_int n x : Riemann_integrable (boys_fun n x) 0 1.
Proof. apply continuity_implies_RiemannInt; [lra|]. intros t _. apply boys_fun_cont. Qed.
(** F_n(x): the integral over t from 0 to 1 of t^(2n) exp(-x t^2). *)
Definition boysR (n : nat) (x : R) : R := RiemannInt (boys_fun_int n x).

(** ** Integrals through antiderivatives *)
Lemma prim_of (f : R -> R) a b (ab : a <= b) (c : forall t, a <= t <= b -> continuity_pt f t) (pr : Riemann_integrable f a b) :
  exists P, (forall t, a <= t <= b -> derivable_pt_lim P t (f t)) /\ P b - P a = RiemannInt pr.
Proof.
  exists (primitive ab (FTC_P1 ab c)). split.
  - intros t Ht. apply RiemannInt_P28. exact Ht.
  - symmetry. apply RiemannInt_P20.
Qed.
Lemma prim_bound (f g h P Q S : R -> R) a b : a <= b ->
  (forall t, a <= t <= b -> derivable_pt_lim P t (f t)) -> (forall t, a <= t <= b -> derivable_pt_lim Q t (g t)) ->
  (forall t, a <= t <= b -> derivable_pt_lim S t (h t)) -> (forall t, a <= t <= b -> Rabs (f t - g t) <= h t) ->
  Rabs ((P b - P a) - (Q b - Q a)) <= S b - S a.
Proof.
  intros [ab|<-] HP HQ HS B; [|apply Rabs_le; lra].
  destruct (MVT_cor2 (fun t => S t - (P t - Q t)) (fun t => h t - (f t - g t)) a b ab) as (c & E & Hc).
  { intros c Hc. apply (derivable_pt_lim_minus S (fun t => P t - Q t)); [apply HS, Hc|].
    apply (derivable_pt_lim_minus P Q); [apply HP, Hc|apply HQ, Hc]. }
  destruct (MVT_cor2 (fun t => S t + (P t - Q t)) (fun t => h t + (f t - g t)) a b ab) as (d & E' & Hd).
  { intros d Hd. apply (derivable_pt_lim_plus S (fun t => P t - Q t)); [apply HS, Hd|].
    apply (derivable_pt_lim_minus P Q); [apply HP, Hd|apply HQ, Hd]. }
  cbn beta in *. assert (Bc := B c ltac:(lra)). assert (Bd := B d ltac:(lra)). apply abs_both in Bc, Bd.
  apply Rabs_le. nra.
Qed.
Lemma boysR_prim n x : exists P, (forall t, 0 <= t <= 1 -> derivable_pt_lim P t (boys_fun n x t)) /\ P 1 - P 0 = boysR n x.
Proof. apply (prim_of _ 0 1 ltac:(lra)). intros t _. apply boys_fun_cont. Qed.

(** ** The exponential series *)
Fixpoint rterm (x : R) (k : nat) : R := match k with 0%nat => 1 | S j => rterm x j * (- x) / INR (S j) end.
Fixpoint rsums (f : nat -> R) (n : nat) : R := match n with 0%nat => 0 | S m => rsums f m + f m end.
Lemma rterm_pow x k : rterm x k = (- x) ^ k / INR (fact k).
Proof.
  induction k as [|k IH]; [cbn; field|]. cbn [rterm pow]. rewrite IH. change (fact (S k)) with (S k * fact k)%nat. rewrite mult_INR.
  field. split; [apply INR_fact_neq_0|apply not_0_INR; lia].
Qed.
Lemma der_pow k t : derivable_pt_lim (fun t => t ^ S k) t (INR (S k) * t ^ k).
Proof. apply (derivable_pt_lim_pow t (S k)). Qed.
(** Remainder of exp(-y): sign and size. *)
Definition rem (K : nat) (y : R) : R := (-1) ^ K * (exp (- y) - rsums (rterm y) K).
Lemma rem_next K y : rem (S K) y = y ^ K / INR (fact K) - rem K y.
Proof.
  unfold rem. cbn [rsums pow]. rewrite rterm_pow. replace (- y) with ((-1) * y) by ring. rewrite Rpow_mult_distr.
  assert (E : (-1) ^ K * (-1) ^ K = 1) by (rewrite <- Rpow_mult_distr; replace ((-1) * (-1)) with 1 by ring; apply pow1).
  transitivity (- (-1) ^ K * (exp (-1 * y) - rsums (rterm y) K) + ((-1) ^ K * (-1) ^ K) * (y ^ K / INR (fact K))); [field; apply INR_fact_neq_0|].
  rewrite E. ring.
Qed.
Lemma rem_der K y : derivable_pt_lim (rem (S K)) y (rem K y).
Proof.
  induction K as [|K IH].
  - assert (D : derivable_pt_lim (fun y => 1 - exp (- y)) y (0 - exp (- y) * -1)).
    { apply (derivable_pt_lim_minus (fun _ => 1) (fun y => exp (- y))); [apply derivable_pt_lim_const|].
      apply (derivable_pt_lim_comp Ropp exp); [|apply derivable_pt_lim_exp].
      replace (-1) with (- 1) by ring. apply (derivable_pt_lim_opp id). apply derivable_pt_lim_id. }
    replace (rem 0 y) with (0 - exp (- y) * -1) by (unfold rem; cbn; ring).
    eapply derivable_pt_lim_ext; [|exact D]. intros z. unfold rem. cbn. field.
  - assert (D : derivable_pt_lim (fun y => / INR (fact (S K)) * y ^ S K - rem (S K) y) y (/ INR (fact (S K)) * (INR (S K) * y ^ K) - rem K y)).
    { apply (derivable_pt_lim_minus (fun y => / INR (fact (S K)) * y ^ S K) (rem (S K))); [|exact IH].
      apply (derivable_pt_lim_scal (fun y => y ^ S K)). apply der_pow. }
    rewrite (rem_next K y). replace (y ^ K / INR (fact K)) with (/ INR (fact (S K)) * (INR (S K) * y ^ K)).
    + eapply derivable_pt_lim_ext; [|exact D]. intros z. rewrite (rem_next (S K) z). unfold Rdiv. ring.
    + change (fact (S K)) with (S K * fact K)%nat. rewrite mult_INR. field. split; [apply INR_fact_neq_0|apply not_0_INR; lia].
Qed.
Lemma rem_at0 K : rem (S K) 0 = 0.
Proof.
  unfold rem. rewrite Ropp_0, exp_0. assert (E : rsums (rterm 0) (S K) = 1); [|rewrite E; ring].
  induction K as [|K IH]; [cbn; ring|]. cbn [rsums] in *. rewrite IH. cbn [rterm]. unfold Rdiv. ring.
Qed.
Lemma rem_pos K y : 0 <= y -> 0 <= rem K y.
Proof.
  revert y. induction K as [|K IH]; intros y Hy; [unfold rem; cbn; pose proof (exp_pos (- y)); lra|].
  destruct Hy as [Hy|<-]; [|rewrite rem_at0; lra].
  destruct (MVT_cor2 (rem (S K)) (rem K) 0 y Hy (fun c _ => rem_der K c)) as (c & E & Hc). rewrite rem_at0 in E.
  specialize (IH c ltac:(lra)). nra.
Qed.
Lemma exp_rest K y : 0 <= y -> Rabs (exp (- y) - rsums (rterm y) K) <= y ^ K / INR (fact K).
Proof.
  intros Hy. pose proof (rem_pos K y Hy) as A. pose proof (rem_pos (S K) y Hy) as B. rewrite rem_next in B.
  replace (Rabs (exp (- y) - rsums (rterm y) K)) with (Rabs (rem K y)).
  - rewrite Rabs_right by lra. lra.
  - unfold rem. rewrite Rabs_mult, pow_1_abs. ring.
Qed.

(** ** The series of the integral *)
Definition boys_sumR (n : nat) (x : R) (K : nat) : R := rsums (fun k => rterm x k / INR (2 * n + 2 * k + 1)) K.
Lemma rsums_ext f g n : (forall k, f k = g k) -> rsums f n = rsums g n.
Proof. intros H. induction n as [|n IH]; [reflexivity|]. cbn. rewrite IH, H. reflexivity. Qed.
Lemma sum_der n x K t : derivable_pt_lim (fun t => rsums (fun k => rterm x k / INR (2 * n + 2 * k + 1) * t ^ (2 * n + 2 * k + 1)) K) t
  (rsums (fun k => rterm x k * t ^ (2 * n + 2 * k)) K).
Proof.
  induction K as [|K IH]; [apply derivable_pt_lim_const|]. cbn [rsums].
  apply (derivable_pt_lim_plus (fun t => rsums (fun k => rterm x k / INR (2 * n + 2 * k + 1) * t ^ (2 * n + 2 * k + 1)) K)); [exact IH|].
  replace (rterm x K * t ^ (2 * n + 2 * K)) with (rterm x K / INR (2 * n + 2 * K + 1) * (INR (2 * n + 2 * K + 1) * t ^ (2 * n + 2 * K))).
  - apply (derivable_pt_lim_scal (fun t => t ^ (2 * n + 2 * K + 1))). rewrite Nat.add_1_r. apply der_pow.
  - field. apply not_0_INR. lia.
Qed.
Lemma boys_rest n x K : 0 <= x -> Rabs (boysR n x - boys_sumR n x K) <= x ^ K / INR (fact K).
Proof.
  intros Hx. destruct (boysR_prim n x) as (P & HP & EP). rewrite <- EP. set (c := x ^ K / INR (fact K)).
  assert (B := prim_bound (boys_fun n x) (fun t => rsums (fun k => rterm x k * t ^ (2 * n + 2 * k)) K) (fun _ => c) P
    (fun t => rsums (fun k => rterm x k / INR (2 * n + 2 * k + 1) * t ^ (2 * n + 2 * k + 1)) K) (fun t => c * t) 0 1 ltac:(lra) HP
    (fun t _ => sum_der n x K t)).
  cbn beta in B. replace (c * 1 - c * 0) with c in B by ring.
  replace (rsums (fun k => rterm x k / INR (2 * n + 2 * k + 1) * 1 ^ (2 * n + 2 * k + 1)) K -
           rsums (fun k => rterm x k / INR (2 * n + 2 * k + 1) * 0 ^ (2 * n + 2 * k + 1)) K) with (boys_sumR n x K) in B.
  - apply B; clear B.
    + intros t _. pose proof (derivable_pt_lim_scal id c t 1 (derivable_pt_lim_id t)) as D. rewrite Rmult_1_r in D. exact D.
    + intros t Ht. unfold boys_fun.
      replace (rsums (fun k => rterm x k * t ^ (2 * n + 2 * k)) K) with (t ^ (2 * n) * rsums (rterm (x * (t * t))) K).
      * rewrite <- Rmult_minus_distr_l, Rabs_mult. rewrite (Rabs_right (t ^ (2 * n))) by (apply Rle_ge, pow_le; lra).
        assert (T2 : 0 <= t * t <= 1) by nra.
        assert (T1 : 0 <= t ^ (2 * n) <= 1). { split; [apply pow_le; lra|]. rewrite <- (pow1 (2 * n)). apply pow_incr. lra. }
        pose proof (exp_rest K (x * (t * t)) ltac:(nra)) as R.
        assert (L : (x * (t * t)) ^ K / INR (fact K) <= c).
        { unfold c, Rdiv. apply Rmult_le_compat_r; [apply Rlt_le, Rinv_0_lt_compat, INR_fact_lt_0|]. apply pow_incr. nra. }
        pose proof (Rabs_pos (exp (- (x * (t * t))) - rsums (rterm (x * (t * t))) K)). nra.
      * clear. induction K as [|K IH]; [cbn; ring|]. cbn [rsums]. rewrite Rmult_plus_distr_l, IH. f_equal. rewrite !rterm_pow.
        replace (- (x * (t * t))) with ((- x) * (t * t)) by ring. rewrite Rpow_mult_distr, pow_add. rewrite (pow_mult t 2 K).
        replace (t ^ 2) with (t * t) by ring. field. apply INR_fact_neq_0.
  - clear. unfold boys_sumR. assert (Z : rsums (fun k => rterm x k / INR (2 * n + 2 * k + 1) * 0 ^ (2 * n + 2 * k + 1)) K = 0).
    { induction K as [|K IH]; [reflexivity|]. cbn [rsums]. rewrite IH. rewrite pow_i by lia. ring. }
    rewrite Z, Rminus_0_r. apply rsums_ext. intros k. rewrite pow1. ring.
Qed.

(** ** Back to the rational statements *)
Lemma q2r_nq n : Q2R (nq n) = INR n.
Proof. unfold nq. rewrite q2r_z, INR_IZR_INZ. reflexivity. Qed.
Lemma q2r_0 : Q2R 0 = 0.
Proof. unfold Q2R. cbn. lra. Qed.
Lemma q2r_1 : Q2R 1 = 1.
Proof. unfold Q2R. cbn. lra. Qed.
Lemma q2r_term x k : Q2R (term x k) = rterm (Q2R x) k.
Proof.
  induction k as [|k IH]; [apply q2r_1|]. cbn [term rterm]. rewrite Q2R_div by apply nq_S_nz. rewrite Q2R_mult, IH, Q2R_opp, q2r_nq. reflexivity.
Qed.
Lemma q2r_qsum f n : Q2R (qsum f n) = rsums (fun k => Q2R (f k)) n.
Proof. induction n as [|n IH]; [apply q2r_0|]. cbn [qsum rsums]. rewrite Q2R_plus, IH. reflexivity. Qed.
Lemma q2r_boys_sum n x K : Q2R (boys_sum n x K) = boys_sumR n (Q2R x) K.
Proof.
  unfold boys_sum, boys_sumR. rewrite q2r_qsum. apply rsums_ext. intros k. rewrite Q2R_div, q2r_term, q2r_nq; [reflexivity|].
  rewrite Nat.add_1_r. apply nq_S_nz.
Qed.
Lemma q2r_exp_sum x K : Q2R (exp_sum x K) = rsums (rterm (Q2R x)) K.
Proof. unfold exp_sum. rewrite q2r_qsum. apply rsums_ext. intros k. apply q2r_term. Qed.
Lemma q2r_abs_le q e : (Qabs q <= e)%Q <-> Rabs (Q2R q) <= Q2R e.
Proof.
  rewrite Qabs_Qle_condition. split.
  - intros [A B]. apply Qle_Rle in A, B. rewrite Q2R_opp in A. apply Rabs_le. lra.
  - intros H. apply abs_both in H. split; apply Rle_Qle; [rewrite Q2R_opp|]; lra.
Qed.
(** A sequence converging to [a] whose late members are within [e] of [v]. *)
Lemma late_within (a v e : R) (s : nat -> R) (b : nat -> R) : Un_cv b 0 -> (forall K, Rabs (a - s K) <= b K) ->
  (exists N, forall K, (N <= K)%nat -> Rabs (v - s K) <= e) -> Rabs (a - v) <= e.
Proof.
  intros Cb Hs [N HN]. apply le_epsilon. intros d Hd. destruct (Cb d Hd) as [M HM]. specialize (HM (max N M) ltac:(lia)). specialize (HN (max N M) ltac:(lia)).
  specialize (Hs (max N M)). unfold R_dist in HM. rewrite Rminus_0_r in HM. pose proof (Rle_abs (b (max N M))).
  replace (a - v) with ((a - s (max N M)) + - (v - s (max N M))) by ring. eapply Rle_trans; [apply Rabs_triang|]. rewrite Rabs_Ropp. lra.
Qed.
Lemma within_late (a v e : R) (s : nat -> R) (b : nat -> R) : Un_cv b 0 -> (forall K, Rabs (a - s K) <= b K) -> Rabs (a - v) < e ->
  exists N, forall K, (N <= K)%nat -> Rabs (v - s K) <= e.
Proof.
  intros Cb Hs H. destruct (Cb (e - Rabs (a - v)) ltac:(lra)) as [M HM]. exists M. intros K HK. specialize (HM K HK). specialize (Hs K).
  unfold R_dist in HM. rewrite Rminus_0_r in HM. pose proof (Rle_abs (b K)).
  replace (v - s K) with ((a - s K) + - (a - v)) by ring. eapply Rle_trans; [apply Rabs_triang|]. rewrite Rabs_Ropp. lra.
Qed.
Theorem near_boys_real n x v e : (0 <= x)%Q -> near_boys n x v e -> Rabs (boysR n (Q2R x) - Q2R v) <= Q2R e.
Proof.
  intros Hx [N H]. apply Qle_Rle in Hx. rewrite q2r_0 in Hx. apply (late_within _ _ _ (boys_sumR n (Q2R x)) _ (cv_speed_pow_fact (Q2R x))).
  - intros K. apply boys_rest, Hx.
  - exists N. intros K HK. specialize (H K HK). apply q2r_abs_le in H. rewrite Q2R_minus, q2r_boys_sum in H. exact H.
Qed.
Theorem near_exp_real x v e : (0 <= x)%Q -> near_exp x v e -> Rabs (exp (- Q2R x) - Q2R v) <= Q2R e.
Proof.
  intros Hx [N H]. apply Qle_Rle in Hx. rewrite q2r_0 in Hx. apply (late_within _ _ _ (rsums (rterm (Q2R x))) _ (cv_speed_pow_fact (Q2R x))).
  - intros K. apply exp_rest, Hx.
  - exists N. intros K HK. specialize (H K HK). apply q2r_abs_le in H. rewrite Q2R_minus, q2r_exp_sum in H. exact H.
Qed.
Theorem real_near_boys n x v e : (0 <= x)%Q -> Rabs (boysR n (Q2R x) - Q2R v) < Q2R e -> near_boys n x v e.
Proof.
  intros Hx H. apply Qle_Rle in Hx. rewrite q2r_0 in Hx.
  destruct (within_late _ _ _ (boys_sumR n (Q2R x)) _ (cv_speed_pow_fact (Q2R x)) (fun K => boys_rest n _ K Hx) H) as [N HN].
  exists N. intros K HK. apply q2r_abs_le. rewrite Q2R_minus, q2r_boys_sum. apply HN, HK.
Qed.
Theorem real_near_exp x v e : (0 <= x)%Q -> Rabs (exp (- Q2R x) - Q2R v) < Q2R e -> near_exp x v e.
Proof.
  intros Hx H. apply Qle_Rle in Hx. rewrite q2r_0 in Hx.
  destruct (within_late _ _ _ (rsums (rterm (Q2R x))) _ (cv_speed_pow_fact (Q2R x)) (fun K => exp_rest K _ Hx) H) as [N HN].
  exists N. intros K HK. apply q2r_abs_le. rewrite Q2R_minus, q2r_exp_sum. apply HN, HK.
Qed.

(** ** The recursion and positivity of the integral *)
Lemma boys_by_parts n x : (2 * INR n + 1) * boysR n x = 2 * x * boysR (S n) x + exp (- x).
Proof.
  destruct (boysR_prim n x) as (P & HP & EP). destruct (boysR_prim (S n) x) as (Q & HQ & EQ). rewrite <- EP, <- EQ.
  assert (D : forall t, derivable_pt_lim (fun t => t ^ (2 * n + 1) * exp (- (x * (t * t)))) t ((2 * INR n + 1) * boys_fun n x t - 2 * x * boys_fun (S n) x t)).
  { intros t. assert (E : derivable_pt_lim (fun t => exp (- (x * (t * t)))) t (exp (- (x * (t * t))) * (- (x * (1 * t + t * 1))))).
    { apply (derivable_pt_lim_comp (fun t => - (x * (t * t))) exp); [|apply derivable_pt_lim_exp].
      apply (derivable_pt_lim_opp (fun t => x * (t * t))). apply (derivable_pt_lim_scal (fun t => t * t)).
      apply (derivable_pt_lim_mult id id); apply derivable_pt_lim_id. }
    pose proof (derivable_pt_lim_mult (fun t => t ^ (2 * n + 1)) (fun t => exp (- (x * (t * t)))) t _ _ (eq_ind_r (fun k => derivable_pt_lim (fun t => t ^ k) t _) (der_pow (2 * n) t) (Nat.add_1_r (2 * n))) E) as M.
    cbn beta in M. match type of M with derivable_pt_lim _ _ ?a => replace (_ - _) with a; [exact M|] end.
    unfold boys_fun. replace (2 * S n)%nat with (S (2 * n + 1)) by lia. rewrite Nat.add_1_r. cbn [pow]. rewrite S_INR, mult_INR. cbn [INR]. ring. }
  assert (B := prim_bound (fun t => (2 * INR n + 1) * boys_fun n x t - 2 * x * boys_fun (S n) x t) (fun t => (2 * INR n + 1) * boys_fun n x t - 2 * x * boys_fun (S n) x t) (fun _ => 0)
    (fun t => t ^ (2 * n + 1) * exp (- (x * (t * t)))) (fun t => (2 * INR n + 1) * P t - 2 * x * Q t) (fun _ => 0) 0 1 ltac:(lra) (fun t _ => D t)).
  cbn beta in B. specialize (B ltac:(intros t Ht; apply (derivable_pt_lim_minus (fun t => (2 * INR n + 1) * P t) (fun t => 2 * x * Q t));
    [apply (derivable_pt_lim_scal P), HP, Ht|apply (derivable_pt_lim_scal Q), HQ, Ht]) ltac:(intros; apply derivable_pt_lim_const)
    ltac:(intros t _; rewrite Rminus_diag_eq, Rabs_R0 by reflexivity; lra)).
  rewrite pow1, pow_i in B by lia. replace (- (x * (1 * 1))) with (- x) in B by ring. apply abs_both in B. lra.
Qed.
Lemma boysR_pos n x : 0 <= boysR n x.
Proof.
  destruct (boysR_prim n x) as (P & HP & EP). rewrite <- EP. destruct (MVT_cor2 P (boys_fun n x) 0 1 ltac:(lra) HP) as (c & E & Hc). rewrite E.
  unfold boys_fun. pose proof (exp_pos (- (x * (c * c)))). pose proof (pow_le c (2 * n) ltac:(lra)). nra.
Qed.
