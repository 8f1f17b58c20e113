(** Property theorem C67: the integrals are determined by those of s functions and by differentiation. *)
From Coq Require Import List Arith ZArith QArith Reals Qreals.
Import ListNotations.
From Verif Require Import Base Cart QList HRRStep HRRAlgo HRROrder HRRExec VRRStep VRRAlgo VRRExec Kernel KernelSpec Layout Create PairData Mdir
  OSFamily EndToEnd EndToEndProof Normalize BoysReal RealScreened DerivKernel RealDeriv RealDerivKernel RealUnique.
Local Open Scope R_scope.

(** C67.  If the integrals [G] of s functions are the textbook ones and the derivatives of [G] with respect to the centres are those of
    integrals of Cartesian Gaussians, then the specification of the kernels (the Obara-Saika values) is [G], for any powers. *)
Theorem C67_unique : forall c52 k, c52 * c52 = k -> forall G, integrals k G ->
  forall q a b c e, pos4 a b c e -> G a b c e q = @prim_eri Rcring Rinv exp sqrt boysR (/ 2) c52 a b c e q.
Proof. exact integrals_unique. Qed.
Print Assumptions C67_unique.

(** There is such a [G]. *)
Theorem C67_exists : forall c52 k, c52 * c52 = k -> integrals k (@prim_eri Rcring Rinv exp sqrt boysR (/ 2) c52).
Proof. exact prim_integrals. Qed.
Print Assumptions C67_exists.

(** The whole kernel, without screening, stores the contracted [G]. *)
Theorem C67_kernel : forall c52 k, c52 * c52 = k -> forall G, integrals k G -> forall (g : @gen Rcring) (c : qam), setup_ok g c ->
  forall (kd : call_kind) (len nss : nat), kind_len kd len -> (0 < nss)%nat -> Nat.divide len nss ->
  forall bra ket : @pairs Rcring, (forall t, (t < ps_n bra)%nat -> ps_same bra t = true -> ps_B bra t = ps_A bra t) ->
  (forall t, (t < ps_n ket)%nat -> ps_same ket t = true -> ps_B ket t = ps_A ket t) ->
  screen_fits len nss (ps_meth bra) (ps_n bra) (ps_pr bra) -> screen_fits len nss (ps_meth ket) (ps_n ket) (ps_pr ket) ->
  (forall t, (t < ps_n bra)%nat -> (0 < sp_np (ps_pr bra t))%nat) -> (forall t, (t < ps_n ket)%nat -> (0 < sp_np (ps_pr ket t))%nat) ->
  (forall t, (t < ps_n bra)%nat -> pos_exps (ps_A bra t) /\ pos_exps (ps_B bra t)) ->
  (forall t, (t < ps_n ket)%nat -> pos_exps (ps_A ket t) /\ pos_exps (ps_B ket t)) ->
  forall kfb kfk nb nk scrb scrk mxb mxk tol zf out, (nb <= ps_n bra)%nat -> (nk <= ps_n ket)%nat -> (tol <= 0)%Q ->
  bra_aligned len nss (batch_of bra nb scrb mxb) -> (nb * nk * qncart c <= length out)%nat ->
  exists mb mk d, ps_create len nss bra kfb = Some mb /\ ps_create len nss ket kfk = Some mk /\
    @whole_kernel Rcring Rinv exp sqrt boysR (/ 2) c52 g c kd len nss bra ket mb mk
      (batch_of bra nb scrb mxb) (batch_of ket nk scrk mxk) tol zf out = Some (d, (nb * nk)%nat) /\
    forall ab cd q, (ab < nb)%nat -> (cd < nk)%nat -> qclass q = c ->
      nth_error d ((ab * nk + cd) * qncart c + qindex (e_o (g_E g)) q) =
      Some (contracted G (ps_A bra ab) (ps_B bra ab) (ps_A ket cd) (ps_B ket cd) q).
Proof. exact kernel_unique. Qed.
Print Assumptions C67_kernel.
(** Shells meeting the hypotheses, and the value of an integral of s functions. *)
Example C67_example : (forall w, rk_side (rk_bra w) /\ rk_side (rk_ket w)) /\
  (forall k (a : @gauss Rcring), g_exp a = 1 -> s_repulsion k a a a a = k / (4 * 2)).
Proof. split; [exact rk_sides|exact same_s]. Qed.
