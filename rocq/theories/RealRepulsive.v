(** The electron repulsion of the real functions (1/x, exp, sqrt and the integral F_n) is nonnegative: [repulsive] of
    Screen.v, for all charges with positive exponents. *)
From Coq Require Import List Arith ZArith QArith_base Reals Qreals Lra Lia Psatz.
Import ListNotations.
From Verif Require Import Base Cart QList VRRStep OSFamily EndToEnd OrdRing Screen ConstantsProof Normalize RealScreen BoysReal BoysRealLong NormPos RealLine RealCharge OSSplit.
Local Open Scope R_scope.

Notation chargeR := (@charge Rcring).
Definition ch_p (x : chargeR) : R := g_exp (ch_a x) + g_exp (ch_b x).
Definition ch_P (x : chargeR) (d : dir) : R := @gcen Rcring Rinv (ch_a x) (ch_b x) d.
Definition ch_pos (x : chargeR) : Prop := 0 < g_exp (ch_a x) /\ 0 < g_exp (ch_b x).
Lemma ch_p_pos x : ch_pos x -> 0 < ch_p x.
Proof. intros [A B]. unfold ch_p. lra. Qed.
Lemma ofnat_INR n : @ofnat Rcring n = INR n.
Proof. induction n as [|n IH]; [reflexivity|]. rewrite S_INR, ofnat_S, IH. reflexivity. Qed.

(** ** The coefficients *)
Section Coef.
Variables p q s : R.
Hypothesis p0 : 0 < p.
Hypothesis q0' : 0 < q.
Hypothesis s0 : 0 < s.
Let w := s * s.
Let g := 2 * w.
Let D := p * q + (p + q) * w.
Let rho := p * q * / (p + q).
Let u := w / (rho + w).
Let al := p * g / (p + g) + q * g / (q + g).
Lemma w_pos : 0 < w.
Proof. unfold w. nra. Qed.
Lemma D_pos : 0 < D.
Proof. pose proof w_pos. unfold D. assert (0 < p * q) by (apply Rmult_lt_0_compat; assumption). assert (0 < (p + q) * w) by (apply Rmult_lt_0_compat; lra). lra. Qed.
Lemma u_eq : u = (p + q) * w / D.
Proof.
  pose proof w_pos. pose proof D_pos. unfold u, rho. replace (p * q * / (p + q) + w) with (D / (p + q)) by (unfold D; field; lra). field. lra.
Qed.
Lemma al_eq : al = 4 * w * D / ((p + g) * (q + g)).
Proof. pose proof w_pos. unfold al, D, g. field. lra. Qed.
Lemma al_pos : 0 < al.
Proof.
  pose proof w_pos. pose proof D_pos. rewrite al_eq. unfold g. apply Rdiv_lt_0_compat; apply Rmult_lt_0_compat; lra.
Qed.
Lemma cen_eq P Q : g / (p + g) * ((p * g / (p + g) * P + q * g / (q + g) * Q) / al - P) = - (rho * / p) * (P - Q) * u.
Proof. pose proof w_pos. pose proof D_pos as D0. rewrite u_eq, al_eq. unfold rho, g, D in *. field. repeat split; lra. Qed.
Lemma cen_eq' P Q : g / (q + g) * ((p * g / (p + g) * P + q * g / (q + g) * Q) / al - Q) = rho * / q * (P - Q) * u.
Proof. pose proof w_pos. pose proof D_pos as D0. rewrite u_eq, al_eq. unfold rho, g, D in *. field. repeat split; lra. Qed.
Lemma var_eq : / (2 * (p + g)) + g / (p + g) * (g / (p + g)) / (2 * al) = / 2 * / p * (1 + - (rho * / p) * u).
Proof. pose proof w_pos. pose proof D_pos as D0. rewrite u_eq, al_eq. unfold rho, g, D in *. field. repeat split; lra. Qed.
Lemma var_eq' : / (2 * (q + g)) + g / (q + g) * (g / (q + g)) / (2 * al) = / 2 * / q * (1 + - (rho * / q) * u).
Proof. pose proof w_pos. pose proof D_pos as D0. rewrite u_eq, al_eq. unfold rho, g, D in *. field. repeat split; lra. Qed.
Lemma cross_eq : g / (p + g) * (g / (q + g)) / (2 * al) = / 2 * / (p + q) * u.
Proof. pose proof w_pos. pose proof D_pos as D0. rewrite u_eq, al_eq. unfold g. field. repeat split; lra. Qed.
Lemma exp_eq : p * g / (p + g) * (q * g / (q + g)) / al = rho * u.
Proof. pose proof w_pos. pose proof D_pos as D0. rewrite u_eq, al_eq. unfold rho, g. field. repeat split; lra. Qed.
Lemma root_eq G : / sqrt (p + g) * / sqrt (q + g) * (G / sqrt al) = G / (2 * s) * / sqrt D.
Proof.
  pose proof w_pos. pose proof D_pos as D0. assert (P1 : 0 < p + g) by (unfold g; lra). assert (Q1 : 0 < q + g) by (unfold g; lra). pose proof al_pos as A0.
  assert (E : sqrt al * (sqrt (p + g) * sqrt (q + g)) = 2 * s * sqrt D).
  { rewrite <- sqrt_mult by lra. rewrite <- sqrt_mult by (try apply Rlt_le, Rmult_lt_0_compat; lra). rewrite <- (sqrt_square (2 * s)) by lra. rewrite <- sqrt_mult by nra. f_equal.
    rewrite al_eq. unfold w. field. lra. }
  pose proof (sqrt_lt_R0 _ P1). pose proof (sqrt_lt_R0 _ Q1). pose proof (sqrt_lt_R0 _ A0). pose proof (sqrt_lt_R0 _ D0).
  transitivity (G / (sqrt al * (sqrt (p + g) * sqrt (q + g)))); [field; lra|]. rewrite E. field. lra.
Qed.
End Coef.

(** ** One direction at one [s] *)
Definition smear (s : R) (x : chargeR) (d : dir) (y : R) : R :=
  let p := ch_p x in let g := 2 * (s * s) in
  / sqrt (p + g) * amp (p * g / (p + g)) (g / (p + g)) (/ (2 * (p + g))) (ch_P x d) (ch_P x d - g_at (ch_a x) d) (g_at (ch_a x) d - g_at (ch_b x) d)
    (gexp d (ch_i x)) (gexp d (ch_j x)) y.
Definition coefs (x y : chargeR) : @vcoef Rcring := @eri_coefs Rcring Rinv (/ 2) (ch_a x) (ch_b x) (ch_a y) (ch_b y).
Definition rhoR (x y : chargeR) : R := ch_p x * ch_p y * / (ch_p x + ch_p y).
Definition frac (x y : chargeR) (s : R) : R := s * s / (rhoR x y + s * s).
Definition dirval (x y : chargeR) (u : R) (d : dir) : R :=
  @along Rcring (coefs x y) (fun n => u ^ n) d (gexp d (ch_i x)) (gexp d (ch_j x)) (gexp d (ch_i y)) (gexp d (ch_j y)).
Definition dvol (x y : chargeR) (s : R) : R := ch_p x * ch_p y + (ch_p x + ch_p y) * (s * s).
Lemma rho_pos x y : ch_pos x -> ch_pos y -> 0 < rhoR x y.
Proof. intros X Y. apply ch_p_pos in X, Y. unfold rhoR. apply Rmult_lt_0_compat; [apply Rmult_lt_0_compat; assumption|apply Rinv_0_lt_compat; lra]. Qed.
Lemma smear_line s x y d G : 0 < s -> ch_pos x -> ch_pos y -> line gau G -> 
  line (fun t => smear s x d t * smear s y d t)
    (G / (2 * s) * (/ sqrt (dvol x y s) * exp (- (rhoR x y * frac x y s * ((ch_P x d - ch_P y d) * (ch_P x d - ch_P y d)))) * dirval x y (frac x y s) d)).
Proof.
  intros S0 X Y HG. pose proof (ch_p_pos x X) as PX. pose proof (ch_p_pos y Y) as PY. pose proof (rho_pos x y X Y) as R0. assert (SS : 0 < s * s) by nra.
  set (p := ch_p x) in *. set (q := ch_p y) in *. set (g := 2 * (s * s)).
  assert (G0 : 0 < g) by (unfold g; lra). assert (PG : 0 < p + g) by lra. assert (QG : 0 < q + g) by lra.
  assert (A1 : 0 < p * g / (p + g)) by (apply Rdiv_lt_0_compat; [apply Rmult_lt_0_compat|]; assumption).
  assert (A2 : 0 < q * g / (q + g)) by (apply Rdiv_lt_0_compat; [apply Rmult_lt_0_compat|]; assumption).
  pose proof (overlap_line (p * g / (p + g)) (q * g / (q + g)) (g / (p + g)) (g / (q + g)) (/ (2 * (p + g))) (/ (2 * (q + g))) (ch_P x d) (ch_P y d)
    (ch_P x d - g_at (ch_a x) d) (ch_P y d - g_at (ch_a y) d) (g_at (ch_a x) d - g_at (ch_b x) d) (g_at (ch_a y) d - g_at (ch_b y) d) A1 A2
    (@along Rcring (coefs x y) (fun n => frac x y s ^ n) d)) as L.
  specialize (L (@along_0 Rcring (coefs x y) _ eq_refl d)).
  assert (F : frac x y s = s * s / (p * q * / (p + q) + s * s)) by reflexivity.
  assert (La : forall a b c e, @lowb Rcring (coefs x y) (fun n => frac x y s ^ n) d a b c e = INR a * @along Rcring (coefs x y) (fun n => frac x y s ^ n) d (pred a) b c e + INR b * @along Rcring (coefs x y) (fun n => frac x y s ^ n) d a (pred b) c e).
  { intros a b c e. unfold lowb. rewrite !ofnat_INR. reflexivity. }
  assert (Lb : forall a b c e, @lowk Rcring (coefs x y) (fun n => frac x y s ^ n) d a b c e = INR c * @along Rcring (coefs x y) (fun n => frac x y s ^ n) d a b (pred c) e + INR e * @along Rcring (coefs x y) (fun n => frac x y s ^ n) d a b c (pred e)).
  { intros a b c e. unfold lowk. rewrite !ofnat_INR. reflexivity. }
  match type of L with ?A -> ?B -> ?C -> ?D -> _ => assert (HA : A); [|assert (HB : B); [|assert (HC : C); [|assert (HD : D)]]] end.
  - intros a b c e. rewrite <- La, <- Lb. refine (eq_trans (@along_a Rcring (coefs x y) (frac x y s) _ (fun n => eq_refl) d a b c e) _).
    cbn [coefs eri_coefs k_PA k_aPQ k_h k_a k_hpq]. unfold rho, gp.
    change (@cadd Rcring) with Rplus. change (@cmul Rcring) with Rmult. change (@csub Rcring) with Rminus. change (@copp Rcring) with Ropp. change (@c1 Rcring) with 1.
    fold (ch_p x). fold (ch_p y). fold (ch_P x d). fold (ch_P y d). fold p q. match goal with |- @eq _ ?x ?y => change (@eq R x y) end.
    pose proof (cen_eq p q s PX PY S0 (ch_P x d) (ch_P y d)) as E1. pose proof (var_eq p q s PX PY S0) as E2. pose proof (cross_eq p q s PX PY S0) as E3.
    cbv zeta in E1, E2, E3. fold g in E1, E2, E3. rewrite E1, E2, E3, F. ring.
  - intros a b c e. rewrite <- La, <- Lb. refine (eq_trans (@along_b Rcring (coefs x y) (frac x y s) _ (fun n => eq_refl) d a b c e) _).
    cbn [coefs eri_coefs k_PA k_aPQ k_h k_a k_hpq]. unfold rho, gp.
    change (@cadd Rcring) with Rplus. change (@cmul Rcring) with Rmult. change (@csub Rcring) with Rminus. change (@copp Rcring) with Ropp. change (@c1 Rcring) with 1.
    fold (ch_p x). fold (ch_p y). fold (ch_P x d). fold (ch_P y d). fold p q. match goal with |- @eq _ ?x ?y => change (@eq R x y) end.
    pose proof (cen_eq p q s PX PY S0 (ch_P x d) (ch_P y d)) as E1. pose proof (var_eq p q s PX PY S0) as E2. pose proof (cross_eq p q s PX PY S0) as E3.
    cbv zeta in E1, E2, E3. fold g in E1, E2, E3. rewrite E1, E2, E3, F. ring.
  - intros a b c e. rewrite <- La, <- Lb. refine (eq_trans (@along_c Rcring (coefs x y) (frac x y s) _ (fun n => eq_refl) d a b c e) _).
    cbn [coefs eri_coefs k_PA k_aPQ k_h k_a k_hpq]. unfold rho, gp.
    change (@cadd Rcring) with Rplus. change (@cmul Rcring) with Rmult. change (@csub Rcring) with Rminus. change (@copp Rcring) with Ropp. change (@c1 Rcring) with 1.
    fold (ch_p x). fold (ch_p y). fold (ch_P x d). fold (ch_P y d). fold p q. match goal with |- @eq _ ?x ?y => change (@eq R x y) end.
    pose proof (cen_eq' p q s PX PY S0 (ch_P x d) (ch_P y d)) as E1. pose proof (var_eq' p q s PX PY S0) as E2. pose proof (cross_eq p q s PX PY S0) as E3.
    cbv zeta in E1, E2, E3. fold g in E1, E2, E3. rewrite E1, E2, E3, F. ring.
  - intros a b c e. rewrite <- La, <- Lb. refine (eq_trans (@along_d Rcring (coefs x y) (frac x y s) _ (fun n => eq_refl) d a b c e) _).
    cbn [coefs eri_coefs k_PA k_aPQ k_h k_a k_hpq]. unfold rho, gp.
    change (@cadd Rcring) with Rplus. change (@cmul Rcring) with Rmult. change (@csub Rcring) with Rminus. change (@copp Rcring) with Ropp. change (@c1 Rcring) with 1.
    fold (ch_p x). fold (ch_p y). fold (ch_P x d). fold (ch_P y d). fold p q. match goal with |- @eq _ ?x ?y => change (@eq R x y) end.
    pose proof (cen_eq' p q s PX PY S0 (ch_P x d) (ch_P y d)) as E1. pose proof (var_eq' p q s PX PY S0) as E2. pose proof (cross_eq p q s PX PY S0) as E3.
    cbv zeta in E1, E2, E3. fold g in E1, E2, E3. rewrite E1, E2, E3, F. ring.
  - specialize (L HA HB HC HD G HG (gexp d (ch_i x)) (gexp d (ch_j x)) (gexp d (ch_i y)) (gexp d (ch_j y))). clear HA HB HC HD La Lb.
    pose proof (line_scal (/ sqrt (p + g) * / sqrt (q + g)) _ _ L) as M. refine (line_ext _ _ _ _ _ _ M).
    + intros t. unfold smear. cbv zeta. fold p q g. ring.
    + pose proof (root_eq p q s PX PY S0 G) as E1. pose proof (exp_eq p q s PX PY S0) as E2. cbv zeta in E1, E2. fold g in E1, E2. rewrite E2.
      unfold dirval, rhoR, dvol. fold p q. rewrite F.
      match goal with |- ?r1 * ?r2 * (?e * ?gs * ?j) = _ => transitivity (r1 * r2 * gs * e * j); [ring|] end. rewrite E1. ring.
Qed.

(** ** All three directions, at one [s] *)
Definition ch_E (x : chargeR) : R := @overlap_exp Rcring Rinv exp (ch_a x) (ch_b x).
Definition dirfac (s : R) (x y : chargeR) (d : dir) : R :=
  / sqrt (dvol x y s) * exp (- (rhoR x y * frac x y s * ((ch_P x d - ch_P y d) * (ch_P x d - ch_P y d)))) * dirval x y (frac x y s) d.
Definition kern (c s : R) (x y : chargeR) : R := c * c * (ch_E x * ch_E y * (dirfac s x y DX * dirfac s x y DY * dirfac s x y DZ)).
Lemma kern_psd c s : 0 < s -> psd chargeR ch_pos (kern c s).
Proof.
  intros S0. destruct line_gauss as (G & G0 & HG). apply (psd_scal chargeR ch_pos (c * c)); [nra|]. apply psd_weight.
  set (t := G / (2 * s)). assert (T : 0 < t) by (apply Rdiv_lt_0_compat; lra).
  apply (psd_ext chargeR ch_pos (fun x y => / (t * t * t) * (1 * (t * dirfac s x y DX) * (t * dirfac s x y DY) * (t * dirfac s x y DZ)))).
  - intros x y _ _. field. lra.
  - apply psd_scal; [left; apply Rinv_0_lt_compat, Rmult_lt_0_compat; [apply Rmult_lt_0_compat|]; exact T|].
    apply (psd_overlap chargeR ch_pos (fun x => smear s x DZ) (fun x y => 1 * (t * dirfac s x y DX) * (t * dirfac s x y DY))); [|intros; apply smear_line; assumption].
    apply (psd_overlap chargeR ch_pos (fun x => smear s x DY) (fun x y => 1 * (t * dirfac s x y DX))); [|intros; apply smear_line; assumption].
    apply (psd_overlap chargeR ch_pos (fun x => smear s x DX) (fun x y => 1)); [|intros; apply smear_line; assumption]. apply psd_one.
Qed.

(** ** From [s] to [t] *)
Definition tt (r s : R) : R := s / sqrt (r + s * s).
Lemma tt_der r s : 0 < r -> derivable_pt_lim (tt r) s (r / ((r + s * s) * sqrt (r + s * s))).
Proof.
  intros R0. assert (W : 0 < r + s * s) by nra. pose proof (sqrt_lt_R0 _ W) as Q0.
  assert (D : derivable_pt_lim (fun s => sqrt (r + s * s)) s (/ (2 * sqrt (r + s * s)) * (0 + (1 * s + s * 1)))).
  { apply (derivable_pt_lim_comp (fun s => r + s * s) sqrt); [|apply derivable_pt_lim_sqrt, W].
    apply (derivable_pt_lim_plus (fun _ => r) (fun s => s * s)); [apply derivable_pt_lim_const|]. apply (derivable_pt_lim_mult id id); apply derivable_pt_lim_id. }
  eapply dcong; [apply (derivable_pt_lim_div id (fun s => sqrt (r + s * s)) s); [apply derivable_pt_lim_id|exact D|lra]|].
  unfold id, Rsqr. set (z := sqrt (r + s * s)) in *. assert (Z : z * z = r + s * s) by (apply sqrt_sqrt; lra). rewrite <- Z. replace r with (z * z - s * s) by lra. field. lra.
Qed.
Lemma tt_range r s : 0 < r -> 0 <= s -> 0 <= tt r s <= 1.
Proof.
  intros R0 S0. assert (W : 0 < r + s * s) by nra. pose proof (sqrt_lt_R0 _ W) as Q0. assert (s <= sqrt (r + s * s)) by (rewrite <- (sqrt_square s) at 1 by exact S0; apply sqrt_le_1; nra).
  unfold tt, Rdiv. assert (I0 : 0 < / sqrt (r + s * s)) by (apply Rinv_0_lt_compat, Q0). split; [apply Rmult_le_pos; lra|].
  apply (Rmult_le_reg_r (sqrt (r + s * s))); [exact Q0|]. rewrite Rmult_assoc, Rinv_l by lra. lra.
Qed.
Lemma tt_sq r s : 0 < r -> tt r s * tt r s = s * s / (r + s * s).
Proof.
  intros R0. assert (W : 0 < r + s * s) by nra. pose proof (sqrt_lt_R0 _ W) as Q0. unfold tt. set (z := sqrt (r + s * s)) in *. assert (Z : z * z = r + s * s) by (apply sqrt_sqrt; lra).
  rewrite <- Z. field. lra.
Qed.
Lemma tt_tends r : 0 < r -> tends (tt r) 1.
Proof.
  intros R0 e He. exists (1 + r / e). assert (RE : 0 < r / e) by (apply Rdiv_lt_0_compat; lra). split; [lra|]. intros s Hs.
  pose proof (tt_range r s R0 ltac:(lra)) as T. pose proof (tt_sq r s R0) as Q. assert (W : 0 < r + s * s) by nra.
  assert (B : 1 - tt r s * tt r s <= e).
  { rewrite Q. replace (1 - s * s / (r + s * s)) with (r / (r + s * s)) by (field; lra). apply (Rmult_le_reg_r (r + s * s)); [exact W|]. unfold Rdiv. rewrite Rmult_assoc, Rinv_l by lra.
    assert (r <= e * s). { replace r with (e * (r / e)) at 1 by (field; lra). apply Rmult_le_compat_l; lra. } nra. }
  apply Rabs_le. nra.
Qed.
Lemma tends_cont Q l r : derivable_pt_lim Q 1 l -> 0 < r -> tends (fun s => Q (tt r s) - Q 0) (Q 1 - Q 0).
Proof.
  intros D R0 e He. assert (C : continuity_pt Q 1) by (apply derivable_continuous_pt; exists l; exact D).
  destruct (C e He) as (dl & D0 & HC). destruct (tt_tends r R0 (dl / 2) ltac:(lra)) as (X & X1 & HX). exists X. split; [exact X1|]. intros s Hs.
  specialize (HX s Hs). replace (Q (tt r s) - Q 0 - (Q 1 - Q 0)) with (Q (tt r s) - Q 1) by ring.
  destruct (Req_dec (tt r s) 1) as [E|E]; [rewrite E, Rminus_eq_0, Rabs_R0; lra|].
  apply Rlt_le, HC. split; [split; [exact I|lra]|]. unfold dist. cbn. unfold R_dist. lra.
Qed.

(** ** The integral *)
Notation boysF := boysR.
Definition eriR (c : R) (x y : chargeR) : R := @repulsion Rcring Rinv exp sqrt boysF (/ 2) c x y.
Definition pre (c : R) (x y : chargeR) : R := c * c * / ch_p x * / ch_p y * sqrt (/ (ch_p x + ch_p y)) * (ch_E x * ch_E y).
Definition xarg (x y : chargeR) : R := rhoR x y * @dist2 Rcring (ch_P x) (ch_P y).
Definition quart (x y : chargeR) : qrt := Q4 (ch_i x) (ch_j x) (ch_i y) (ch_j y).
Definition integrand (c : R) (x y : chargeR) (t : R) : R :=
  pre c x y * exp (- (xarg x y * (t * t))) * (dirval x y (t * t) DX * dirval x y (t * t) DY * dirval x y (t * t) DZ).
Lemma os_integrand c x y t : @os_value Rcring (coefs x y) (fun n => pre c x y * boys_fun n (xarg x y) t) 0 (quart x y) = integrand c x y t.
Proof.
  set (h := pre c x y * exp (- (xarg x y * (t * t)))).
  transitivity (@os_value Rcring (coefs x y) (fun n => (h * ((t * t)%R ^ n)%R + 0 * 0)%R) 0 (quart x y)).
  - f_equal. apply FunctionalExtensionality.functional_extensionality. intros n. unfold h, boys_fun. rewrite pow_mult. replace (t ^ 2) with (t * t) by ring.
    match goal with |- @eq _ ?x ?y => change (@eq R x y) end. ring.
  - refine (eq_trans (@os_linear Rcring (coefs x y) (fun n => (t * t) ^ n) (fun _ => 0) h 0 0 (quart x y)) _).
    rewrite (@os_split Rcring (coefs x y) (t * t)%R (fun n => ((t * t) ^ n)%R) eq_refl (fun n => eq_refl)). unfold integrand. fold h. unfold one_dir, quart. cbn [qa qb qc qd].
    fold (dirval x y (t * t) DX). fold (dirval x y (t * t) DY). fold (dirval x y (t * t) DZ).
    change (@cadd Rcring) with Rplus. change (@cmul Rcring) with Rmult. match goal with |- @eq _ ?x ?y => change (@eq R x y) end. cbn [pow]. ring.
Qed.
Lemma eri_integral c x y : exists Q, (forall t, 0 <= t <= 1 -> derivable_pt_lim Q t (integrand c x y t)) /\ Q 1 - Q 0 = eriR c x y.
Proof.
  destruct (@os_comb Rcring (coefs x y) (quart x y) 0) as [l Hl].
  assert (E : eriR c x y = @lcomb Rcring l (fun n => pre c x y * boysR n (xarg x y))).
  { rewrite <- Hl. reflexivity. }
  assert (A : forall m : list (R * nat), exists Q, (forall t, 0 <= t <= 1 -> derivable_pt_lim Q t (@lcomb Rcring m (fun n => pre c x y * boys_fun n (xarg x y) t))) /\ Q 1 - Q 0 = @lcomb Rcring m (fun n => pre c x y * boysR n (xarg x y))).
  { induction m as [|[k n] m (Q & Q1 & Q2)].
    - exists (fun _ => 0). split; [intros; apply derivable_pt_lim_const|]. cbn. ring.
    - destruct (boysR_prim n (xarg x y)) as (P & P1 & P2). exists (fun t => k * (pre c x y * P t) + Q t). split.
      + intros t Ht. cbn [lcomb fst snd]. apply (derivable_pt_lim_plus (fun t => k * (pre c x y * P t)) Q); [|apply Q1, Ht].
        apply (derivable_pt_lim_scal (fun t => pre c x y * P t)), (derivable_pt_lim_scal P), P1, Ht.
      + cbn [lcomb fst snd]. rewrite <- Q2, <- P2. change (@cadd Rcring) with Rplus. change (@cmul Rcring) with Rmult. match goal with |- @eq _ ?x ?y => change (@eq R x y) end. ring. }
  destruct (A l) as (Q & Q1 & Q2). exists Q. split; [|rewrite E; exact Q2]. intros t Ht. rewrite <- os_integrand, Hl. apply Q1, Ht.
Qed.
Lemma integrand_kern c x y s : 0 <= s -> ch_pos x -> ch_pos y ->
  integrand c x y (tt (rhoR x y) s) * (rhoR x y / ((rhoR x y + s * s) * sqrt (rhoR x y + s * s))) = kern c s x y.
Proof.
  intros S0 X Y. pose proof (rho_pos x y X Y) as R0. pose proof (ch_p_pos x X) as PX. pose proof (ch_p_pos y Y) as PY. assert (SS : 0 <= s * s) by nra.
  unfold integrand. rewrite (tt_sq _ s R0). fold (frac x y s). unfold kern, dirfac, pre.
  set (jx := dirval x y (frac x y s) DX). set (jy := dirval x y (frac x y s) DY). set (jz := dirval x y (frac x y s) DZ).
  assert (EX : exp (- (xarg x y * frac x y s)) = exp (- (rhoR x y * frac x y s * ((ch_P x DX - ch_P y DX) * (ch_P x DX - ch_P y DX)))) *
    exp (- (rhoR x y * frac x y s * ((ch_P x DY - ch_P y DY) * (ch_P x DY - ch_P y DY)))) * exp (- (rhoR x y * frac x y s * ((ch_P x DZ - ch_P y DZ) * (ch_P x DZ - ch_P y DZ))))).
  { rewrite <- !exp_plus. f_equal. unfold xarg, dist2. change (@cadd Rcring) with Rplus. change (@cmul Rcring) with Rmult. change (@csub Rcring) with Rminus. ring. }
  rewrite EX. clear EX. set (ex := exp _). set (ey := exp (- (_ * ((ch_P x DY - _) * _)))). set (ez := exp (- (_ * ((ch_P x DZ - _) * _)))).
  set (p := ch_p x) in *. set (q := ch_p y) in *. set (r := rhoR x y) in *.
  assert (R1 : 0 < r + s * s) by lra. assert (PQ : 0 < p + q) by lra. set (z := sqrt (r + s * s)). set (v := sqrt (p + q)).
  assert (Z : z * z = r + s * s) by (apply sqrt_sqrt; lra). assert (V : v * v = p + q) by (apply sqrt_sqrt; lra).
  assert (Z0 : 0 < z) by (apply sqrt_lt_R0, R1). assert (V0 : 0 < v) by (apply sqrt_lt_R0, PQ).
  assert (DV : sqrt (dvol x y s) = v * z).
  { unfold v, z. rewrite <- sqrt_mult by lra. f_equal. unfold dvol, r, rhoR. fold p q. field. lra. }
  assert (IV : sqrt (/ (p + q)) = / v) by (unfold v; apply sqrt_inv).
  rewrite DV, IV, <- Z. replace r with (p * q * / (v * v)) by (unfold r, rhoR; fold p q; rewrite V; reflexivity). field. lra.
Qed.
Theorem eri_psd c : psd chargeR ch_pos (eriR c).
Proof.
  apply (psd_half chargeR ch_pos (kern c)); [apply kern_psd|]. intros x y X Y. destruct (eri_integral c x y) as (Q & Q1 & Q2). pose proof (rho_pos x y X Y) as R0.
  exists (fun s => Q (tt (rhoR x y) s)). split.
  - intros s S0. rewrite <- (integrand_kern c x y s S0 X Y). apply (derivable_pt_lim_comp (tt (rhoR x y)) Q); [apply tt_der, R0|apply Q1, tt_range; assumption].
  - assert (T0 : tt (rhoR x y) 0 = 0) by (unfold tt, Rdiv; ring). rewrite T0, <- Q2. apply (tends_cont Q _ _ (Q1 1 ltac:(lra)) R0).
Qed.
Lemma lsum_rsum (A : Type) (f : A -> R) l : @rsum Rcring (map f l) = lsum f l.
Proof. induction l as [|x l IH]; [reflexivity|]. cbn [map rsum lsum]. rewrite IH. reflexivity. Qed.
Lemma Rlt_ordered x : lt Rordered c0 x <-> 0 < x.
Proof. apply Rleb_lt. Qed.
Lemma Rle_ordered (x y : R) : le Rordered x y <-> x <= y.
Proof. apply Rleb_le. Qed.
Theorem real_repulsive (c : R) : repulsive Rordered Rinv exp sqrt boysR (/ 2 : Rcring) c.
Proof.
  intros l Hl. apply Rle_ordered. rewrite lsum_rsum.
  rewrite (lsum_ext _ _ (fun p => lsum (fun q => fst p * fst q * eriR c (snd p) (snd q)) l) l) by (intros p _; apply (lsum_rsum _ (fun q => fst p * fst q * eriR c (snd p) (snd q)))).
  apply (eri_psd c l). intros p Hp. destruct (Hl p Hp) as [A B]. split; apply Rlt_ordered; assumption.
Qed.
Lemma real_embeds : embeds Rordered (Q2R : Q -> Rcring).
Proof.
  constructor.
  - exact RMicromega.Q2R_0.
  - intros x y. apply Qreals.Q2R_mult.
  - intros x y H. apply Rle_ordered, Qreals.Qle_Rle, H.
Qed.

(** A pair of s functions with exponents 1 at one point, and its repulsion with itself. *)
Definition rx_gauss : @EndToEnd.gauss Rcring := @Gauss Rcring 1 (fun _ => 0).
Definition rx_charge : chargeR := Charge rx_gauss rx_gauss (G 0 0 0) (G 0 0 0).
Lemma rx_physical : physical Rordered rx_charge.
Proof. split; apply Rlt_ordered; cbn; lra. Qed.
Lemma boys_zero : boysR 0 0 = 1.
Proof.
  destruct (boysR_prim 0 0) as (P & HP & EP). rewrite <- EP. destruct (MVT_cor2 P (boys_fun 0 0) 0 1 ltac:(lra) HP) as (c & E & _). rewrite E.
  unfold boys_fun. change (2 * 0)%nat with 0%nat. rewrite pow_O, Rmult_0_l, Ropp_0, exp_0. ring.
Qed.
Lemma rx_repulsion : @repulsion Rcring Rinv exp sqrt boysR (/ 2) 1 rx_charge rx_charge = / 8.
Proof.
  unfold repulsion, prim_eri. change (Q4 (ch_i rx_charge) (ch_j rx_charge) (ch_i rx_charge) (ch_j rx_charge)) with q0. rewrite os_value_start.
  unfold eri_start, overlap_exp, dist2, gcen, rho, gp. cbn [rx_charge rx_gauss ch_a ch_b g_exp g_at].
  change (@cadd Rcring) with Rplus. change (@cmul Rcring) with Rmult. change (@csub Rcring) with Rminus. change (@copp Rcring) with Ropp.
  match goal with |- @eq _ ?x ?y => change (@eq R x y) end.
  match goal with |- context [boysR 0 ?x] => replace x with 0 by field end. rewrite boys_zero.
  match goal with |- context [exp ?x] => replace x with 0 by field end. rewrite exp_0.
  replace (/ (1 + 1 + (1 + 1))) with (/ 2 * / 2) by field. rewrite sqrt_square by lra. field.
Qed.
