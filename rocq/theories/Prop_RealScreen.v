(** Property theorems C60 with the real functions: no hypothesis on the Boys function, exp, sqrt and 1/x is left. *)
From Coq Require Import List Arith ZArith QArith Reals Qreals.
Import ListNotations.
From Verif Require Import Base Cart QList HRRStep HRRAlgo HRRExec VRRStep VRRAlgo VRRExec Kernel KernelSpec Layout Create PairData Mdir Deriv
  OSFamily EndToEnd EndToEndProof OrdRing Screen ScreenExample Normalize RealScreen BoysReal RealLine RealRepulsive RealScreened.
Local Open Scope R_scope.

(** C60.  The electron repulsion is positive: every finite combination of products of primitive Gaussians with positive
    exponents has a nonnegative energy, with F_n the integral over t from 0 to 1 of t^(2n) exp(-x t^2). *)
Theorem C60_repulsive_real : forall (c52 : R) (l : list (R * @charge Rcring)),
  (forall p, In p l -> 0 < g_exp (ch_a (snd p)) /\ 0 < g_exp (ch_b (snd p))) ->
  0 <= lsum (fun p => lsum (fun q => fst p * fst q * @repulsion Rcring Rinv exp sqrt boysR (/ 2) c52 (snd p) (snd q)) l) l.
Proof. exact eri_psd. Qed.
Print Assumptions C60_repulsive_real.
Example C60_repulsive_real_met : physical Rordered rx_charge /\ @repulsion Rcring Rinv exp sqrt boysR (/ 2) 1 rx_charge rx_charge = / 8.
Proof. split; [exact rx_physical|exact rx_repulsion]. Qed.

(** The Schwarz bound for contracted integrals of any momenta. *)
Theorem C60_schwarz_real : forall (c52 : R) (A B C D : @shell Rcring) a b c d, pos_exps A -> pos_exps B -> pos_exps C -> pos_exps D ->
  Rabs (@eri Rcring Rinv exp sqrt boysR (/ 2) c52 A B C D (Q4 a b c d)) <=
  sqrt (@eri Rcring Rinv exp sqrt boysR (/ 2) c52 A B A B (Q4 a b a b) * @eri Rcring Rinv exp sqrt boysR (/ 2) c52 C D C D (Q4 c d c d)).
Proof. exact schwarz_real. Qed.
Print Assumptions C60_schwarz_real.
Theorem C60_diagonal_real : forall (c52 : R) (A B : @shell Rcring) a b, pos_exps A -> pos_exps B ->
  0 <= @eri Rcring Rinv exp sqrt boysR (/ 2) c52 A B A B (Q4 a b a b).
Proof. exact diagonal_real. Qed.
Print Assumptions C60_diagonal_real.

(** The error of the screened kernel ... *)
Theorem C60_error_real : forall (c52 : R) (g : @gen Rcring) (c : qam) (k : call_kind) (len nss : nat) (bra ket : @pairs Rcring) mb mk ob ok nb nk,
  block_ok len nss bra mb ob nb -> block_ok len nss ket mk ok nk ->
  forall (svb svk : nat -> nat -> nat -> Q) (mxb mxk : Q),
  (forall ab i j, (ab < nb)%nat -> In (i, j) (sp_prims (ps_pr bra ab)) ->
     (0 <= svb ab i j <= mxb)%Q /\ forall x, comp_of (am0 c) (am1 c) x -> @diagonal Rcring Rinv exp sqrt boysR (/ 2) c52 (ps_A bra ab) (ps_B bra ab) i j x <= Q2R (svb ab i j)) ->
  (forall cd i j, (cd < nk)%nat -> In (i, j) (sp_prims (ps_pr ket cd)) ->
     (0 <= svk cd i j <= mxk)%Q /\ forall x, comp_of (am2 c) (am3 c) x -> @diagonal Rcring Rinv exp sqrt boysR (/ 2) c52 (ps_A ket cd) (ps_B ket cd) i j x <= Q2R (svk cd i j)) ->
  (forall ab, (ab < nb)%nat -> pos_exps (ps_A bra ab) /\ pos_exps (ps_B bra ab)) ->
  (forall cd, (cd < nk)%nat -> pos_exps (ps_A ket cd) /\ pos_exps (ps_B ket cd)) ->
  forall t zf out, setup_ok g c -> kind_len k len -> (0 < nss)%nat -> (forall t, (t < nk)%nat -> (0 < sp_np (ps_pr ket t))%nat) ->
  (0 <= t)%Q -> screens (ps_meth bra) = true -> screens (ps_meth ket) = true ->
  let BP := batch_of bra nb (scr_rd len nss bra mb svb) mxb in
  let BK := batch_of ket nk (scr_rd len nss ket mk svk) mxk in
  bra_aligned len nss BP -> (nb * nk * qncart c <= length out)%nat ->
  exists d, @whole_kernel Rcring Rinv exp sqrt boysR (/ 2) c52 g c k len nss bra ket mb mk BP BK (t * t) zf out = Some (d, (nb * nk)%nat) /\
    forall ab cd q, (ab < nb)%nat -> (cd < nk)%nat -> qclass q = c -> exists v : R,
      nth_error d ((ab * nk + cd) * qncart c + qindex (e_o (g_E g)) q) = Some v /\
      Rabs (@eri Rcring Rinv exp sqrt boysR (/ 2) c52 (ps_A bra ab) (ps_B bra ab) (ps_A ket cd) (ps_B ket cd) q - v) <=
        INR (sh_n (ps_A bra ab) * sh_n (ps_B bra ab) * (sh_n (ps_A ket cd) * sh_n (ps_B ket cd))) * Q2R t.
Proof. exact error_real. Qed.
Print Assumptions C60_error_real.

(** ... and of a call left out. *)
Theorem C60_skipped_real : forall (c52 : R) (c : qam) (len nss : nat) (bra ket : @pairs Rcring) mb mk ob ok nb nk,
  block_ok len nss bra mb ob nb -> block_ok len nss ket mk ok nk ->
  forall (svb svk : nat -> nat -> nat -> Q) (mxb mxk : Q),
  (forall ab i j, (ab < nb)%nat -> In (i, j) (sp_prims (ps_pr bra ab)) ->
     (0 <= svb ab i j <= mxb)%Q /\ forall x, comp_of (am0 c) (am1 c) x -> @diagonal Rcring Rinv exp sqrt boysR (/ 2) c52 (ps_A bra ab) (ps_B bra ab) i j x <= Q2R (svb ab i j)) ->
  (forall cd i j, (cd < nk)%nat -> In (i, j) (sp_prims (ps_pr ket cd)) ->
     (0 <= svk cd i j <= mxk)%Q /\ forall x, comp_of (am2 c) (am3 c) x -> @diagonal Rcring Rinv exp sqrt boysR (/ 2) c52 (ps_A ket cd) (ps_B ket cd) i j x <= Q2R (svk cd i j)) ->
  (forall ab, (ab < nb)%nat -> pos_exps (ps_A bra ab) /\ pos_exps (ps_B bra ab)) ->
  (forall cd, (cd < nk)%nat -> pos_exps (ps_A ket cd) /\ pos_exps (ps_B ket cd)) ->
  forall t ab cd q, early_exit t mxb mxk = true -> (ab < nb)%nat -> (cd < nk)%nat -> qclass q = c ->
  Rabs (@eri Rcring Rinv exp sqrt boysR (/ 2) c52 (ps_A bra ab) (ps_B bra ab) (ps_A ket cd) (ps_B ket cd) q) <=
    INR (sh_n (ps_A bra ab) * sh_n (ps_B bra ab) * (sh_n (ps_A ket cd) * sh_n (ps_B ket cd))) * Q2R t.
Proof. exact skipped_real. Qed.
Print Assumptions C60_skipped_real.

(** (ps|ss) over two shells, one with two primitives, meets the hypotheses. *)
Example C60_error_real_met : forall c52 : R, setup_ok re_gen sc_c /\
  (exists ord, block_ok 2 2 re_bra (re_block re_bra) ord 1) /\ (exists ord, block_ok 2 2 re_ket (re_block re_ket) ord 1) /\
  (forall t, (pos_exps (ps_A re_bra t) /\ pos_exps (ps_B re_bra t)) /\ pos_exps (ps_A re_ket t) /\ pos_exps (ps_B re_ket t)) /\
  (exists n : nat, forall t i j x, In (i, j) (sp_prims (ps_pr re_bra t)) -> comp_of 1 0 x ->
     @diagonal Rcring Rinv exp sqrt boysR (/ 2) c52 (ps_A re_bra t) (ps_B re_bra t) i j x <= Q2R (inject_Z (Z.of_nat n))) /\
  (exists n : nat, forall t i j x, In (i, j) (sp_prims (ps_pr re_ket t)) -> comp_of 0 0 x ->
     @diagonal Rcring Rinv exp sqrt boysR (/ 2) c52 (ps_A re_ket t) (ps_B re_ket t) i j x <= Q2R (inject_Z (Z.of_nat n))) /\
  (forall t, (t < 1)%nat -> (0 < sp_np (ps_pr re_ket t))%nat) /\ (forall scr mx, bra_aligned 2 2 (batch_of re_bra 1 scr mx)) /\
  sp_prims (ps_pr re_bra 0) = [(0, 0); (1, 0)]%nat.
Proof.
  intros c52. split; [exact re_ok|]. split; [exact (proj2 (re_side re_bra (or_introl eq_refl)))|]. split; [exact (proj2 (re_side re_ket (or_intror eq_refl)))|].
  split; [exact re_pos|]. split; [exact (re_covers c52 1 0 re_bra (or_introl eq_refl))|]. split; [exact (re_covers c52 0 0 re_ket (or_intror eq_refl))|].
  split; [exact (proj1 (re_side re_ket (or_intror eq_refl)))|]. split; [exact re_aligned|reflexivity].
Qed.
