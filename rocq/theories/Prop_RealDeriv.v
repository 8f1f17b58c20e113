(** Property theorems C65 and C66: the derivative kernel with the real functions. *)
From Coq Require Import List Arith ZArith QArith Reals Qreals.
Import ListNotations.
From Verif Require Import Base Cart QList HRRStep HRRAlgo HRROrder HRRExec VRRStep VRRAlgo VRRExec Kernel KernelSpec Layout Create PairData Mdir Deriv
  OSFamily EndToEnd EndToEndProof Screen ScreenProof Normalize BoysReal RealScreened DerivKernel DerivKernelProof RealDeriv RealDerivKernel.
Local Open Scope R_scope.

(** C65.  The Boys function is differentiable and its derivative is minus the next one. *)
Theorem C65_boys : forall n x, derivable_pt_lim (boysR n) x (- boysR (S n) x).
Proof. exact boysR_der. Qed.
Print Assumptions C65_boys.

(** What [eri_deriv] says is the partial derivative of the contracted integral with respect to coordinate [d] of the
    centre of shell [x], the three other shells fixed, for shells of any momenta. *)
Theorem C65_derivative : forall (c52 : R) (A B C D : @shell Rcring) x d q, pos_exps A -> pos_exps B -> pos_exps C -> pos_exps D ->
  derivable_pt_lim (fun t => @eri Rcring Rinv exp sqrt boysR (/ 2) c52 (moving x d t CI A) (moving x d t CJ B) (moving x d t CK C) (moving x d t CL D) q) 0
    (@eri_deriv Rcring Rinv exp sqrt boysR (/ 2) c52 A B C D x d q).
Proof. exact eri_moves. Qed.
Print Assumptions C65_derivative.

(** Without screening each of the twelve numbers the kernel stores for an integral is that partial derivative. *)
Theorem C65_kernel : forall (c52 : R) (g : @gen Rcring) (c : qam), dsetup_ok g c ->
  forall k len nss, kind_len k len -> (0 < nss)%nat -> Nat.divide len nss ->
  forall bra ket : @pairs Rcring, ps_deriv bra = true -> ps_deriv ket = true ->
  (forall t, (t < ps_n bra)%nat -> ps_same bra t = true -> ps_B bra t = ps_A bra t) ->
  (forall t, (t < ps_n ket)%nat -> ps_same ket t = true -> ps_B ket t = ps_A ket t) ->
  screen_fits len nss (ps_meth bra) (ps_n bra) (ps_pr bra) -> screen_fits len nss (ps_meth ket) (ps_n ket) (ps_pr ket) ->
  (forall t, (t < ps_n bra)%nat -> (0 < sp_np (ps_pr bra t))%nat) -> (forall t, (t < ps_n ket)%nat -> (0 < sp_np (ps_pr ket t))%nat) ->
  (forall t, (t < ps_n bra)%nat -> pos_exps (ps_A bra t) /\ pos_exps (ps_B bra t)) ->
  (forall t, (t < ps_n ket)%nat -> pos_exps (ps_A ket t) /\ pos_exps (ps_B ket t)) ->
  forall kfb kfk nb nk scrb scrk mxb mxk tol zf out, (nb <= ps_n bra)%nat -> (nk <= ps_n ket)%nat -> (tol <= 0)%Q ->
  bra_aligned len nss (batch_of bra nb scrb mxb) -> (nb * nk * (12 * qncart c) <= length out)%nat ->
  exists mb mk r, ps_create len nss bra kfb = Some mb /\ ps_create len nss ket kfk = Some mk /\
    @whole_deriv Rcring Rinv exp sqrt boysR (/ 2) c52 g c k len nss bra ket mb mk
      (batch_of bra nb scrb mxb) (batch_of ket nk scrk mxk) tol zf out = Some (r, (nb * nk)%nat) /\
    forall ab cd q x d, (ab < nb)%nat -> (cd < nk)%nat -> qclass q = c -> exists v : R,
      nth_error r (12 * ((ab * nk + cd) * qncart c + qindex psi4 q) + (3 * cidx x + idx_of_dir d)) = Some v /\
      derivable_pt_lim (fun t => @eri Rcring Rinv exp sqrt boysR (/ 2) c52 (moving x d t CI (ps_A bra ab)) (moving x d t CJ (ps_B bra ab))
                                   (moving x d t CK (ps_A ket cd)) (moving x d t CL (ps_B ket cd)) q) 0 v.
Proof. exact deriv_real. Qed.
Print Assumptions C65_kernel.
(** A pair of s shells two units apart and one at the middle meets the hypotheses; the derivative is not zero. *)
Example C65_example : (forall c, (qtotal c < 5)%nat -> dsetup_ok re_gen c) /\ (forall w, rk_side (rk_bra w) /\ rk_side (rk_ket w)) /\
  (forall w scr mx, bra_aligned 2 2 (batch_of (rk_bra w) 1 scr mx)) /\
  (forall c52, c52 <> 0 -> @eri_deriv Rcring Rinv exp sqrt boysR (/ 2) c52 (rk_A (rk_w c52)) rk_B (rk_C (rk_w c52)) (rk_C 1) CI DX OSFamily.q0 = - (exp (-2) / 4)) /\
  / 50 < exp (-2) / 4.
Proof.
  split; [exact rk_ok|]. split; [exact rk_sides|]. split; [exact rk_aligned|]. split; [exact rk_deriv|exact exp_m2].
Qed.

(** C66.  The error of a screened derivative kernel is not bounded as that of the integral kernel is (C60): one primitive
    each, screen values above the diagonal integrals; the kernel stores 0, the derivative exceeds the tolerance. *)
Theorem C66_deriv_error_refuted : forall c52, c52 <> 0 ->
  let bra := rk_bra (rk_w c52) in let ket := rk_ket (rk_w c52) in
  let BP := batch_of bra 1 (scr_rd 2 2 bra (rk_block bra) (fun _ _ _ => rk_svb)) rk_svb in
  let BK := batch_of ket 1 (scr_rd 2 2 ket (rk_block ket) (fun _ _ _ => rk_svk)) rk_svk in
  @diagonal Rcring Rinv exp sqrt boysR (/ 2) c52 (ps_A bra 0) (ps_B bra 0) 0 0 (g0, g0) <= Q2R rk_svb /\
  @diagonal Rcring Rinv exp sqrt boysR (/ 2) c52 (ps_A ket 0) (ps_B ket 0) 0 0 (g0, g0) <= Q2R rk_svk /\
  forall zf out, length out = 12%nat ->
  exists r, @whole_deriv Rcring Rinv exp sqrt boysR (/ 2) c52 re_gen ssss CallReduce 2 2 bra ket (rk_block bra) (rk_block ket) BP BK (rk_t * rk_t) zf out = Some (r, 1%nat) /\
    nth_error r 0 = Some 0 /\
    exists v, derivable_pt_lim (fun t => @eri Rcring Rinv exp sqrt boysR (/ 2) c52 (moving CI DX t CI (ps_A bra 0)) (moving CI DX t CJ (ps_B bra 0))
                                   (moving CI DX t CK (ps_A ket 0)) (moving CI DX t CL (ps_B ket 0)) OSFamily.q0) 0 v /\
      Q2R rk_t < Rabs (v - 0).
Proof. exact deriv_error. Qed.
Print Assumptions C66_deriv_error_refuted.
