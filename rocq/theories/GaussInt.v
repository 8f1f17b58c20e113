(** The Gaussian integral: sqrt x F_0(x) tends to sqrt pi / 2, with the difference bounded by exp (- x).
    x F_0(x)^2 and the integral over t from 0 to 1 of exp (- x (1 + t^2)) / (1 + t^2) have opposite derivatives,
    and at 0 the second one is the arc tangent of 1. *)
From Coq Require Import Arith Reals Lra Lia Psatz.
From Verif Require Import Base ConstantsProof BoysReal BoysRealLong RealDeriv.
Local Open Scope R_scope.

Definition gfun (y t : R) : R := exp (- (y * (1 + t * t))) * / (1 + t * t).
Lemma one_sq t : 0 < 1 + t * t. Proof. nra. Qed.
Lemma gfun_cont y t : continuity_pt (gfun y) t.
Proof.
  assert (D : derivable_pt (gfun y) t).
  { unfold gfun. pose proof (one_sq t) as P. reg; unfold plus_fct, mult_fct, fct_cte, id; lra. }
  apply derivable_continuous_pt, D.
Qed.
Lemma gfun_int y : Riemann_integrable (gfun y) 0 1.
Proof. apply continuity_implies_RiemannInt; [lra|]. intros t _. apply gfun_cont. Qed.
Definition gtail (y : R) : R := RiemannInt (gfun_int y).
Lemma gtail_prim y : exists P, (forall t, 0 <= t <= 1 -> derivable_pt_lim P t (gfun y t)) /\ P 1 - P 0 = gtail y.
Proof. apply (prim_of _ 0 1 ltac:(lra)). intros t _. apply gfun_cont. Qed.

(** A function with a quadratic remainder has the derivative. *)
Lemma quad_der (f : R -> R) x l M d : 0 < d -> 0 < M -> (forall h, Rabs h <= d -> Rabs (f (x + h) - (f x + h * l)) <= M * (h * h)) ->
  derivable_pt_lim f x l.
Proof.
  intros Hd HM B eps Heps. assert (Hp : 0 < Rmin d (eps / (M + M))) by (apply Rmin_pos; [lra|apply Rdiv_lt_0_compat; lra]).
  exists (mkposreal _ Hp). intros h Nh Hh. change (Rabs h < Rmin d (eps / (M + M))) in Hh.
  assert (H1 : Rabs h <= d) by (pose proof (Rmin_l d (eps / (M + M))); lra).
  assert (H2 : Rabs h < eps / (M + M)) by (pose proof (Rmin_r d (eps / (M + M))); lra).
  specialize (B h H1). replace ((f (x + h) - f x) / h - l) with ((f (x + h) - (f x + h * l)) / h) by (field; exact Nh).
  unfold Rdiv at 1. rewrite Rabs_mult, Rabs_inv. pose proof (Rabs_pos_lt h Nh) as Ph.
  apply (Rmult_lt_reg_r (Rabs h)); [exact Ph|]. rewrite Rmult_assoc, Rinv_l, Rmult_1_r by lra.
  apply Rle_lt_trans with (1 := B). replace (h * h) with (Rabs h * Rabs h) by (rewrite <- Rabs_mult; apply Rabs_pos_eq; nra).
  assert (H3 : M * Rabs h < eps).
  { apply (Rmult_lt_compat_l M) in H2; [|exact HM]. apply Rlt_trans with (1 := H2). apply (Rmult_lt_reg_r 2); [lra|].
    replace (M * (eps / (M + M)) * 2) with eps by (field; lra). lra. }
  nra.
Qed.

Lemma gfun_le y t : 0 <= t <= 1 -> 0 <= gfun y t <= exp (2 * Rabs y).
Proof.
  intros Ht. unfold gfun. pose proof (one_sq t) as P. assert (T : 0 <= t * t <= 1) by nra.
  assert (I : 0 < / (1 + t * t) <= 1).
  { split; [apply Rinv_0_lt_compat, P|]. rewrite <- Rinv_1. apply Rinv_le_contravar; lra. }
  assert (B : 0 < exp (- (y * (1 + t * t))) <= exp (2 * Rabs y)).
  { split; [apply exp_pos|]. assert (D : - (y * (1 + t * t)) <= 2 * Rabs y).
    { pose proof (Rle_abs (- y)) as E. rewrite Rabs_Ropp in E. pose proof (Rabs_pos y). set (s := t * t) in *. set (z := Rabs y) in *. clearbody s z. nra. }
    destruct D as [D|D]; [left; apply exp_increasing, D|right; rewrite D; reflexivity]. }
  nra.
Qed.
Lemma gtail_near y h : Rabs h <= / 4 -> Rabs (gtail (y + h) - (gtail y + h * (- (exp (- y) * boysR 0 y)))) <= 8 * exp (2 * Rabs y) * (h * h).
Proof.
  intros Hh. destruct (gtail_prim (y + h)) as (P & HP & EP). destruct (gtail_prim y) as (Q & HQ & EQ).
  destruct (boysR_prim 0 y) as (Q' & HQ' & EQ').
  assert (Hh' : - / 4 <= h <= / 4) by (unfold Rabs in Hh; destruct (Rcase_abs h); lra).
  set (C := 8 * exp (2 * Rabs y) * (h * h)).
  pose proof (@prim_bound (gfun (y + h)) (fun t => gfun y t - h * exp (- y) * boys_fun 0 y t) (fun _ => C)
    P (fun t => Q t - h * exp (- y) * Q' t) (fun t => C * t) 0 1 ltac:(lra)) as B.
  replace (gtail (y + h) - (gtail y + h * (- (exp (- y) * boysR 0 y)))) with
    (P 1 - P 0 - ((Q 1 - h * exp (- y) * Q' 1) - (Q 0 - h * exp (- y) * Q' 0))) by (rewrite <- EP, <- EQ, <- EQ'; ring).
  replace C with (C * 1 - C * 0) by ring. apply B; clear B.
  - exact HP.
  - intros t Ht. apply (derivable_pt_lim_minus Q (fun t => h * exp (- y) * Q' t)); [apply HQ, Ht|]. apply (derivable_pt_lim_scal Q' (h * exp (- y))), HQ', Ht.
  - intros t _. replace C with (C * 1) at 1 by ring. apply (derivable_pt_lim_scal id). apply derivable_pt_lim_id.
  - intros t Ht. pose proof (@gfun_le y t Ht) as L. pose proof (one_sq t) as P0.
    assert (E : gfun (y + h) t - (gfun y t - h * exp (- y) * boys_fun 0 y t) =
      gfun y t * (exp (- (h * (1 + t * t))) - 1 - (- (h * (1 + t * t))))).
    { unfold gfun, boys_fun. change (t ^ (2 * 0)) with 1. replace (- ((y + h) * (1 + t * t))) with (- (y * (1 + t * t)) + - (h * (1 + t * t))) by ring. rewrite exp_plus.
      replace (exp (- (y * (1 + t * t)))) with (exp (- y) * exp (- (y * (t * t)))) by (rewrite <- exp_plus; f_equal; ring). field. lra. }
    rewrite E. assert (T : 0 <= t * t <= 1) by nra. set (s := 1 + t * t) in *. assert (S2 : 1 <= s <= 2) by (unfold s; lra). clearbody s.
    pose proof (@exp_near (- (h * s)) ltac:(nra)) as [N1 N2].
    assert (S : (- (h * s)) * (- (h * s)) <= 4 * (h * h)).
    { replace (- (h * s) * - (h * s)) with (h * h * (s * s)) by ring. assert (0 <= h * h) by nra. assert (s * s <= 4) by nra. nra. }
    rewrite Rabs_pos_eq by (apply Rmult_le_pos; lra).
    set (w := exp (- (h * s)) - 1 - - (h * s)) in *. clearbody w.
    set (f := gfun y t) in *. clearbody f. unfold C. pose proof (exp_pos (2 * Rabs y)). nra.
Qed.
Lemma gtail_der y : derivable_pt_lim gtail y (- (exp (- y) * boysR 0 y)).
Proof.
  apply (quad_der gtail y _ (8 * exp (2 * Rabs y)) (/ 4)); [lra|pose proof (exp_pos (2 * Rabs y)); lra|]. intros h Hh. apply gtail_near, Hh.
Qed.
Lemma gtail_0 : gtail 0 = PI / 4.
Proof.
  destruct (gtail_prim 0) as (P & HP & EP). rewrite <- EP, <- atan_1.
  assert (B := prim_bound (gfun 0) (gfun 0) (fun _ => 0) P atan (fun _ => 0) 0 1 ltac:(lra) HP).
  assert (B' : Rabs (P 1 - P 0 - (atan 1 - atan 0)) <= 0 - 0).
  { apply B.
    - intros t _. unfold gfun. pose proof (one_sq t). replace (exp (- (0 * (1 + t * t))) * / (1 + t * t)) with (/ (1 + t ^ 2)).
      + apply derivable_pt_lim_atan.
      + rewrite Rmult_0_l, Ropp_0, exp_0. cbn [pow]. field. lra.
    - intros; apply derivable_pt_lim_const.
    - intros t _. rewrite Rminus_diag_eq, Rabs_R0 by reflexivity. lra. }
  rewrite atan_0 in B'. apply abs_both in B'. lra.
Qed.
Lemma sq_der y : derivable_pt_lim (fun y => y * (boysR 0 y * boysR 0 y)) y (exp (- y) * boysR 0 y).
Proof.
  pose proof (boysR_der 0 y) as D. pose proof (derivable_pt_lim_mult id _ y _ _ (derivable_pt_lim_id y) (derivable_pt_lim_mult _ _ y _ _ D D)) as M.
  match type of M with derivable_pt_lim _ _ ?a => replace (exp (- y) * boysR 0 y) with a; [exact M|] end.
  pose proof (boys_by_parts 0 y) as B. cbn [INR] in B. replace (exp (- y)) with (boysR 0 y - 2 * y * boysR 1 y) by lra. unfold id, mult_fct. ring.
Qed.
Lemma gauss_sum y : 0 <= y -> y * (boysR 0 y * boysR 0 y) + gtail y = PI / 4.
Proof.
  intros [Hy|<-]; [|rewrite gtail_0; ring].
  destruct (MVT_cor2 (fun y => y * (boysR 0 y * boysR 0 y) + gtail y) (fun _ => 0) 0 y Hy) as (c & E & _).
  { intros c _. replace 0 with (exp (- c) * boysR 0 c + - (exp (- c) * boysR 0 c)) by ring. apply (derivable_pt_lim_plus (fun y => y * (boysR 0 y * boysR 0 y)) gtail); [apply sq_der|apply gtail_der]. }
  cbn beta in E. rewrite gtail_0 in E. lra.
Qed.
Lemma gtail_pos y : 0 < gtail y.
Proof.
  destruct (gtail_prim y) as (P & HP & EP). rewrite <- EP. destruct (MVT_cor2 P (gfun y) 0 1 ltac:(lra) HP) as (c & E & Hc). rewrite E.
  unfold gfun. pose proof (exp_pos (- (y * (1 + c * c)))). pose proof (Rinv_0_lt_compat _ (one_sq c)). nra.
Qed.
Lemma gtail_le y : 0 <= y -> gtail y <= exp (- y) * (PI / 4).
Proof.
  intros Hy. destruct (gtail_prim y) as (P & HP & EP). rewrite <- EP, <- atan_1.
  destruct (MVT_cor2 (fun t => exp (- y) * atan t - P t) (fun t => exp (- y) * / (1 + t ^ 2) - gfun y t) 0 1 ltac:(lra)) as (c & E & Hc).
  { intros c Hc. apply (derivable_pt_lim_minus (fun t => exp (- y) * atan t) P); [|apply HP; lra]. apply (derivable_pt_lim_scal atan), derivable_pt_lim_atan. }
  cbn beta in E. rewrite atan_0 in E. assert (0 <= exp (- y) * / (1 + c ^ 2) - gfun y c).
  { unfold gfun. replace (1 + c ^ 2) with (1 + c * c) by ring. pose proof (Rinv_0_lt_compat _ (one_sq c)).
    assert (exp (- (y * (1 + c * c))) <= exp (- y)).
    { assert (D : - (y * (1 + c * c)) <= - y) by nra. destruct D as [D|D]; [left; apply exp_increasing, D|right; rewrite D; reflexivity]. }
    nra. }
  lra.
Qed.

(** sqrt y F_0(y) against sqrt pi / 2. *)
Theorem gauss_limit y : 0 <= y -> 0 < sqrt PI / 2 - sqrt y * boysR 0 y <= exp (- y) * (sqrt PI / 2).
Proof.
  intros Hy. pose proof (gauss_sum y Hy) as S. pose proof (gtail_pos y) as T. pose proof (gtail_le y Hy) as U. pose proof PI_RGT_0 as P0.
  set (p := sqrt PI / 2). set (q := sqrt y * boysR 0 y). assert (Hp : 0 < p) by (unfold p; pose proof (sqrt_lt_R0 PI P0); lra).
  assert (Hq : 0 <= q) by (apply Rmult_le_pos; [apply sqrt_pos|apply boysR_pos]).
  assert (Ep : p * p = PI / 4) by (unfold p; replace (sqrt PI / 2 * (sqrt PI / 2)) with (sqrt PI * sqrt PI / 4) by field; rewrite sqrt_sqrt by lra; reflexivity).
  assert (Eq : q * q = y * (boysR 0 y * boysR 0 y)).
  { unfold q. replace (sqrt y * boysR 0 y * (sqrt y * boysR 0 y)) with (sqrt y * sqrt y * (boysR 0 y * boysR 0 y)) by ring. rewrite sqrt_sqrt by lra. reflexivity. }
  rewrite <- Eq in S. rewrite <- Ep in S, U. clearbody p q. split; [nra|].
  assert (D : (p - q) * p <= exp (- y) * p * p) by nra. apply (Rmult_le_reg_r p); [exact Hp|]. exact D.
Qed.
