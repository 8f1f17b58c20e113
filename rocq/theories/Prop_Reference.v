(** C68 and C69: the reference of the tests (skel/test/ValeevRef.cpp) and their comparison (skel/test/Common.cpp,
    test_eri.cpp, test_eri_deriv1.cpp), with the real functions. *)
From Coq Require Import List Arith ZArith QArith Reals.
Import ListNotations.
From Verif Require Import Base Cart QList HRRStep HRRAlgo HRRExec Mdir VRRStep VRRAlgo VRRExec Kernel KernelSpec Layout Create PairData Deriv OSFamily
  EndToEnd EndToEndProof DerivKernel DerivKernelProof Normalize BoysReal RealScreened RealDerivKernel Reference ReferenceProof RefLoops RefBuffer RefBufferProof RefTests.
Local Open Scope R_scope.

(** C68.  The sum over factorials the reference forms for four primitives is the Obara-Saika value the kernels compute: for all
    exponents, centres and powers that fit its tables, for any function in the place of the Boys function, and whatever the
    elements of the tables that were not set contain. *)
Theorem C68_reference : forall (junk : nat -> R) (a b c e : @EndToEnd.gauss Rcring) (q : qrt),
  0 < g_exp a -> 0 < g_exp b -> 0 < g_exp c -> 0 < g_exp e ->
  (forall d, (gexp d (qa q) + gexp d (qb q) + gexp d (qc q) + gexp d (qd q) < 200)%nat) ->
  forall k52 c52 boys, c52 * c52 = k52 ->
  ref_eri junk k52 boys a b c e q = @prim_eri Rcring Rinv exp sqrt boys (/ 2) c52 a b c e q.
Proof. exact ref_eri_ok. Qed.
Print Assumptions C68_reference.

(** The buffer of the reference: the contracted integral of every quartet of shells and of components in its place. *)
Theorem C68_integrals : forall (junk : nat -> R) (k52 c52 : R) boys, c52 * c52 = k52 -> forall nA nB nC nD (A B C D : nat -> @shell Rcring) c,
  (forall i, (i < nA)%nat -> pos_exps (A i)) -> (forall i, (i < nB)%nat -> pos_exps (B i)) -> (forall i, (i < nC)%nat -> pos_exps (C i)) -> (forall i, (i < nD)%nat -> pos_exps (D i)) ->
  (qtotal c < 200)%nat -> forall buf, (nA * nB * nC * nD * qncart c <= length buf)%nat ->
  exists b, valeev0 junk k52 boys nA nB nC nD A B C D c buf = Some b /\ length b = length buf /\
    (forall i j k l q, (i < nA)%nat -> (j < nB)%nat -> (k < nC)%nat -> (l < nD)%nat -> qclass q = c ->
      nth_error b ((((i * nB + j) * nC + k) * nD + l) * qncart c + qindex psi4 q)%nat =
      Some (@eri Rcring Rinv exp sqrt boys (/ 2) c52 (A i) (B j) (C k) (D l) q)) /\
    (forall y, (nA * nB * nC * nD * qncart c <= y)%nat -> nth_error b y = nth_error buf y).
Proof. exact valeev0_ok. Qed.
Print Assumptions C68_integrals.

(** The buffer of derivatives, for one first shell. *)
Theorem C68_derivatives : forall (junk : nat -> R) (k52 c52 : R) boys, c52 * c52 = k52 -> forall nA nB nC nD (A B C D : nat -> @shell Rcring) c, (nA <= 1)%nat ->
  (forall i, (i < nA)%nat -> pos_exps (A i)) -> (forall i, (i < nB)%nat -> pos_exps (B i)) -> (forall i, (i < nC)%nat -> pos_exps (C i)) -> (forall i, (i < nD)%nat -> pos_exps (D i)) ->
  (qtotal c < 199)%nat -> forall buf, (nA * nB * nC * nD * qncart c * 12 <= length buf)%nat ->
  exists b, valeev1 junk k52 boys nA nB nC nD A B C D c buf = Some b /\ length b = length buf /\
    (forall i j k l q x d, (i < nA)%nat -> (j < nB)%nat -> (k < nC)%nat -> (l < nD)%nat -> qclass q = c ->
      nth_error b (((((i * nB + j) * nC + k) * nD + l) * qncart c + qindex psi4 q) * 12 + (3 * cidx x + idx_of_dir d))%nat =
      Some (@eri_deriv Rcring Rinv exp sqrt boys (/ 2) c52 (A i) (B j) (C k) (D l) x d q)) /\
    (forall y, (nA * nB * nC * nD * qncart c * 12 <= y)%nat -> nth_error b y = nth_error buf y).
Proof. exact valeev1_ok. Qed.
Print Assumptions C68_derivatives.
(** For two first shells it is not so: the second block starts at element 1. *)
Theorem C68_derivatives_refuted : forall c52, c52 <> 0 -> forall junk k52, c52 * c52 = k52 -> forall buf, (24 <= length buf)%nat ->
  exists b, valeev1 junk k52 boysR 2 1 1 1 (fun _ => rk_A (rk_w c52)) (fun _ => rk_B) (fun _ => rk_C (rk_w c52)) (fun _ => rk_C 1) (QAM 0 0 0 0) buf = Some b /\
    nth_error b 1 <> Some (@eri_deriv Rcring Rinv exp sqrt boysR (/ 2) c52 (rk_A (rk_w c52)) rk_B (rk_C (rk_w c52)) (rk_C 1) CI DY OSFamily.q0).
Proof. exact deriv_overlap. Qed.
Print Assumptions C68_derivatives_refuted.

(** One pass of test_eri: for a pair of bra shells and all the pairs of the ket shells, the created pairs, the whole kernel and the
    reference give buffers between which the comparison finds no error. *)
Theorem C68_test : forall (junk : nat -> R) (k52 c52 : R) (boys : nat -> R -> R), c52 * c52 = k52 ->
  forall (A B : @shell Rcring) (nC nD : nat) (C D : nat -> @shell Rcring) (sb sk : nat -> bool) (der : bool),
  let bra := all_pairs 1 1 (fun _ => A) (fun _ => B) sb NoScreen der in
  let ket := all_pairs nC nD C D sk NoScreen der in
  pos_exps A -> pos_exps B -> (forall i, (i < nC)%nat -> pos_exps (C i)) -> (forall i, (i < nD)%nat -> pos_exps (D i)) ->
  (0 < sh_n A)%nat -> (0 < sh_n B)%nat -> (forall i, (i < nC)%nat -> (0 < sh_n (C i))%nat) -> (forall i, (i < nD)%nat -> (0 < sh_n (D i))%nat) ->
  (forall t, (t < ps_n bra)%nat -> ps_same bra t = true -> ps_B bra t = ps_A bra t) ->
  (forall t, (t < ps_n ket)%nat -> ps_same ket t = true -> ps_B ket t = ps_A ket t) ->
  forall (g : @gen Rcring) c, setup_ok g c -> e_o (g_E g) = psi4 -> (qtotal c < 200)%nat ->
  forall kd len nss, kind_len kd len -> (0 < nss)%nat -> Nat.divide len nss ->
  forall kfb kfk scrb scrk mxb mxk zf out buf, (nC * nD * qncart c <= length out)%nat -> (nC * nD * qncart c <= length buf)%nat ->
  exists mb mk d b, ps_create len nss bra kfb = Some mb /\ ps_create len nss ket kfk = Some mk /\
    @whole_kernel Rcring Rinv exp sqrt boys (/ 2) c52 g c kd len nss bra ket mb mk (batch_of bra 1 scrb mxb) (batch_of ket (nC * nD) scrk mxk) 0 zf out = Some (d, nC * nD)%nat /\
    valeev0 junk k52 boys 1 1 nC nD (fun _ => A) (fun _ => B) C D c buf = Some b /\
    calc_error (map Some d) (map Some b) (nC * nD * qncart c) = (Some 0, Some 0).
Proof. exact test_eri_ok. Qed.
Print Assumptions C68_test.
(** The same for test_eri_deriv1. *)
Theorem C68_test_derivatives : forall (junk : nat -> R) (k52 c52 : R) (boys : nat -> R -> R), c52 * c52 = k52 ->
  forall (A B : @shell Rcring) (nC nD : nat) (C D : nat -> @shell Rcring) (sb sk : nat -> bool) (der : bool),
  let bra := all_pairs 1 1 (fun _ => A) (fun _ => B) sb NoScreen der in
  let ket := all_pairs nC nD C D sk NoScreen der in
  pos_exps A -> pos_exps B -> (forall i, (i < nC)%nat -> pos_exps (C i)) -> (forall i, (i < nD)%nat -> pos_exps (D i)) ->
  (0 < sh_n A)%nat -> (0 < sh_n B)%nat -> (forall i, (i < nC)%nat -> (0 < sh_n (C i))%nat) -> (forall i, (i < nD)%nat -> (0 < sh_n (D i))%nat) ->
  (forall t, (t < ps_n bra)%nat -> ps_same bra t = true -> ps_B bra t = ps_A bra t) ->
  (forall t, (t < ps_n ket)%nat -> ps_same ket t = true -> ps_B ket t = ps_A ket t) ->
  forall (g : @gen Rcring) c, der = true -> dsetup_ok g c -> (qtotal c < 199)%nat ->
  forall kd len nss, kind_len kd len -> (0 < nss)%nat -> Nat.divide len nss ->
  forall kfb kfk scrb scrk mxb mxk zf out buf, (nC * nD * (12 * qncart c) <= length out)%nat -> (nC * nD * (12 * qncart c) <= length buf)%nat ->
  exists mb mk d b, ps_create len nss bra kfb = Some mb /\ ps_create len nss ket kfk = Some mk /\
    @whole_deriv Rcring Rinv exp sqrt boys (/ 2) c52 g c kd len nss bra ket mb mk (batch_of bra 1 scrb mxb) (batch_of ket (nC * nD) scrk mxk) 0 zf out = Some (d, nC * nD)%nat /\
    valeev1 junk k52 boys 1 1 nC nD (fun _ => A) (fun _ => B) C D c buf = Some b /\
    calc_error (map Some d) (map Some b) (nC * nD * (12 * qncart c)) = (Some 0, Some 0).
Proof. exact test_deriv_ok. Qed.
Print Assumptions C68_test_derivatives.
(** A generator and shells that meet the hypotheses, two bra shells and four pairs of ket shells, two of them of equal shells. *)
Example C68_example : (forall c, (qtotal c < 5)%nat -> dsetup_ok re_gen c) /\ e_o (g_E re_gen) = psi4 /\
  (forall w, pos_exps (rk_A w) /\ sh_n (rk_A w) = 1%nat) /\ pos_exps rk_B /\
  (forall m d t, (t < 4)%nat -> let ket := all_pairs 2 2 rt_shell rt_shell (fun t => (t =? 0)%nat || (t =? 3)%nat) m d in
     ps_same ket t = true -> ps_B ket t = ps_A ket t) /\
  map (fun t => ps_same (all_pairs 2 2 rt_shell rt_shell (fun t => (t =? 0)%nat || (t =? 3)%nat) NoScreen true) t) [0; 1; 2; 3]%nat = [true; false; false; true].
Proof. exact rt_example. Qed.

(** C69.  A class of momenta without a mark: each computed number is within one of the two tolerances of its reference, or the
    reference is below 1e-15 in size. *)
Theorem C69_unmarked : forall blocks, marked blocks = false ->
  forall b x r, In b blocks -> In (Some x, Some r) (combine (fst b) (snd b)) -> rnd_zero < Rabs r ->
  Rabs (x - r) <= / 10 ^ 14 \/ Rabs (x - r) <= / 10 ^ 8 * Rabs r.
Proof. exact unmarked. Qed.
Print Assumptions C69_unmarked.
(** Exact results are not marked. *)
Theorem C69_exact : forall blocks, (forall b, In b blocks -> exists l, b = (map Some l, map Some l)) -> marked blocks = false.
Proof. exact equal_unmarked. Qed.
Print Assumptions C69_exact.
(** But neither are results that are all NaN, *)
Theorem C69_nan_refuted : forall blocks, (forall b, In b blocks -> exists n, fst b = repeat None n) -> marked blocks = false.
Proof. exact nan_unmarked. Qed.
Print Assumptions C69_nan_refuted.
(** nor any result where the integral is 0, *)
Theorem C69_zero_refuted : forall x, marked [([Some x], [Some 0])] = false.
Proof. exact zero_unmarked. Qed.
Print Assumptions C69_zero_refuted.
(** and two results that are not marked alone are marked together. *)
Theorem C69_separate_refuted : let x1 := 1 + / 10 ^ 13 in let x2 := / 10 ^ 14 + / 10 ^ 21 in let r2 := / 10 ^ 14 in
  marked [([Some x1], [Some 1])] = false /\ marked [([Some x2], [Some r2])] = false /\ marked [([Some x1; Some x2], [Some 1; Some r2])] = true.
Proof. exact mixed_marked. Qed.
Print Assumptions C69_separate_refuted.
