(** Property theorems C64: a whole derivative kernel, from the shells to the derivatives of the contracted integrals. *)
From Coq Require Import List Arith ZArith QArith Qcanon.
Import ListNotations.
From Verif Require Import Base Cart QList HRRStep HRRAlgo HRROrder HRRExec VRRStep VRRAlgo VRRExec Kernel KernelSpec Starts Layout Create PairData Mdir
  Deriv DerivExample EndToEnd EndToEndProof DerivKernel DerivKernelProof DerivKernelExample.
Local Open Scope nat_scope.

(** C64.  Without screening the generated derivative kernel stores the twelve derivatives of every contracted integral
    of the shells, those of the centre it computes by translational invariance included, and nothing else. *)
Theorem C64_derivatives : forall (R : cring) (inv expf sqrtf : R -> R) (boys : nat -> R -> R) (half sqrt2pi52 : R)
  (g : @gen R) (c : qam), dsetup_ok g c ->
  forall (k : call_kind) (len nss : nat), kind_len k len -> 0 < nss ->
  forall (bra ket : @pairs R) mb mk ob ok nb nk scrb scrk mxb mxk, block_ok len nss bra mb ob nb -> block_ok len nss ket mk ok nk ->
  ps_deriv bra = true -> ps_deriv ket = true -> (forall t, t < nk -> 0 < sp_np (ps_pr ket t)) -> cmul two half = c1 ->
  (forall ab cd, ab < nb -> cd < nk -> divisible inv (ps_A bra ab) (ps_B bra ab) (ps_A ket cd) (ps_B ket cd)) ->
  forall tol zf out, (tol <= 0)%Q -> bra_aligned len nss (batch_of bra nb scrb mxb) -> nb * nk * (12 * qncart c) <= length out ->
  exists r, whole_deriv inv expf sqrtf boys half sqrt2pi52 g c k len nss bra ket mb mk
              (batch_of bra nb scrb mxb) (batch_of ket nk scrk mxk) tol zf out = Some (r, nb * nk) /\
    length r = length out /\
    (forall ab cd q x d, ab < nb -> cd < nk -> qclass q = c ->
       nth_error r (12 * ((ab * nk + cd) * qncart c + qindex psi4 q) + (3 * cidx x + idx_of_dir d)) =
       Some (eri_deriv inv expf sqrtf boys half sqrt2pi52 (ps_A bra ab) (ps_B bra ab) (ps_A ket cd) (ps_B ket cd) x d q)) /\
    (forall i, nb * nk * (12 * qncart c) <= i -> nth_error r i = nth_error out i).
Proof. exact @deriv_integrals. Qed.
Print Assumptions C64_derivatives.

(** The same from the shells on: both batches are created and the kernel is called with them. *)
Theorem C64_created : forall (R : cring) (inv expf sqrtf : R -> R) (boys : nat -> R -> R) (half sqrt2pi52 : R)
  (g : @gen R) (c : qam), dsetup_ok g c ->
  forall (k : call_kind) (len nss : nat), kind_len k len -> 0 < nss -> Nat.divide len nss -> cmul two half = c1 ->
  forall bra ket : @pairs R, ps_deriv bra = true -> ps_deriv ket = true ->
  (forall t, t < ps_n bra -> ps_same bra t = true -> ps_B bra t = ps_A bra t) ->
  (forall t, t < ps_n ket -> ps_same ket t = true -> ps_B ket t = ps_A ket t) ->
  screen_fits len nss (ps_meth bra) (ps_n bra) (ps_pr bra) -> screen_fits len nss (ps_meth ket) (ps_n ket) (ps_pr ket) ->
  (forall t, t < ps_n bra -> 0 < sp_np (ps_pr bra t)) -> (forall t, t < ps_n ket -> 0 < sp_np (ps_pr ket t)) ->
  (forall ab cd, ab < ps_n bra -> cd < ps_n ket -> divisible inv (ps_A bra ab) (ps_B bra ab) (ps_A ket cd) (ps_B ket cd)) ->
  forall kfb kfk nb nk scrb scrk mxb mxk tol zf out, nb <= ps_n bra -> nk <= ps_n ket -> (tol <= 0)%Q ->
  bra_aligned len nss (batch_of bra nb scrb mxb) -> nb * nk * (12 * qncart c) <= length out ->
  exists mb mk r, ps_create len nss bra kfb = Some mb /\ ps_create len nss ket kfk = Some mk /\
    whole_deriv inv expf sqrtf boys half sqrt2pi52 g c k len nss bra ket mb mk
      (batch_of bra nb scrb mxb) (batch_of ket nk scrk mxk) tol zf out = Some (r, nb * nk) /\
    length r = length out /\
    (forall ab cd q x d, ab < nb -> cd < nk -> qclass q = c ->
       nth_error r (12 * ((ab * nk + cd) * qncart c + qindex psi4 q) + (3 * cidx x + idx_of_dir d)) =
       Some (eri_deriv inv expf sqrtf boys half sqrt2pi52 (ps_A bra ab) (ps_B bra ab) (ps_A ket cd) (ps_B ket cd) x d q)) /\
    (forall i, nb * nk * (12 * qncart c) <= i -> nth_error r i = nth_error out i).
Proof. exact @deriv_created. Qed.
Print Assumptions C64_created.

(** With screening: the missing terms are of stored primitives with a small product of the screen values stored with
    them; all twelve derivatives of a quartet miss the same terms. *)
Theorem C64_screened : forall (R : cring) (inv expf sqrtf : R -> R) (boys : nat -> R -> R) (half sqrt2pi52 : R)
  (g : @gen R) (c : qam), dsetup_ok g c ->
  forall (k : call_kind) (len nss : nat), kind_len k len -> 0 < nss ->
  forall (bra ket : @pairs R) mb mk ob ok nb nk scrb scrk mxb mxk, block_ok len nss bra mb ob nb -> block_ok len nss ket mk ok nk ->
  ps_deriv bra = true -> ps_deriv ket = true -> (forall t, t < nk -> 0 < sp_np (ps_pr ket t)) -> cmul two half = c1 ->
  (forall ab cd, ab < nb -> cd < nk -> divisible inv (ps_A bra ab) (ps_B bra ab) (ps_A ket cd) (ps_B ket cd)) ->
  forall svb svk tol zf out, scrb = scr_rd len nss bra mb svb -> scrk = scr_rd len nss ket mk svk ->
  screens (ps_meth bra) = true -> screens (ps_meth ket) = true ->
  bra_aligned len nss (batch_of bra nb scrb mxb) -> nb * nk * (12 * qncart c) <= length out ->
  exists keep r, whole_deriv inv expf sqrtf boys half sqrt2pi52 g c k len nss bra ket mb mk
              (batch_of bra nb scrb mxb) (batch_of ket nk scrk mxk) tol zf out = Some (r, nb * nk) /\
    (forall ab cd q x d, ab < nb -> cd < nk -> qclass q = c ->
       nth_error r (12 * ((ab * nk + cd) * qncart c + qindex psi4 q) + (3 * cidx x + idx_of_dir d)) =
       Some (stored_dterms inv expf sqrtf boys half sqrt2pi52 (ps_same bra ab) (ps_same ket cd)
               (ps_A bra ab) (ps_B bra ab) (ps_A ket cd) (ps_B ket cd) (keep ab cd) x d q)) /\
    (forall ab cd i j k l, ab < nb -> cd < nk -> In (i, j) (sp_prims (ps_pr bra ab)) -> In (k, l) (sp_prims (ps_pr ket cd)) ->
       (0 <= svb ab i j)%Q -> (svk cd k l <= mxk)%Q -> keep ab cd i j k l = false -> (svb ab i j * svk cd k l < tol)%Q).
Proof. exact @deriv_integrals_screened. Qed.
Print Assumptions C64_screened.

(** The kept and the missing terms add up to the derivative. *)
Theorem C64_terms : forall (R : cring) (inv expf sqrtf : R -> R) (boys : nat -> R -> R) (half sqrt2pi52 : R)
  (sb sk : bool) (A B C D : @shell R) keep x d q, (sb = true -> B = A) -> (sk = true -> D = C) ->
  cadd (stored_dterms inv expf sqrtf boys half sqrt2pi52 sb sk A B C D keep x d q)
       (stored_dterms inv expf sqrtf boys half sqrt2pi52 sb sk A B C D (fun i j k l => negb (keep i j k l)) x d q) =
  eri_deriv inv expf sqrtf boys half sqrt2pi52 A B C D x d q.
Proof. exact @stored_dsplit. Qed.
Print Assumptions C64_terms.

(** Code generation succeeds, every vector and every shell quartet runs to its end within its arrays and leaves no
    entry undetermined. *)
Theorem C64_defined : forall (R : cring) (inv expf sqrtf : R -> R) (boys : nat -> R -> R) (half sqrt2pi52 : R)
  (g : @gen R) (c : qam), dsetup_ok g c ->
  forall (len nss : nat) (bra ket : @pairs R) mb mk ob ok nb nk, block_ok len nss bra mb ob nb -> block_ok len nss ket mk ok nk ->
  ps_deriv bra = true -> ps_deriv ket = true -> cmul two half = c1 ->
  (forall ab cd, ab < nb -> cd < nk -> divisible inv (ps_A bra ab) (ps_B bra ab) (ps_A ket cd) (ps_B ket cd)) ->
  let rb := rd inv expf sqrt2pi52 len nss bra mb in
  let rk := rd inv expf sqrt2pi52 len nss ket mk in
  exists hp vp, dplans g c = Some (hp, vp) /\
  let tops := g_enumt g (hp_top hp) in
  (forall gP gQ ppf qpf, exists l, one_vector inv sqrtf boys half (g_P g) vp tops (S (qtotal c)) gP gQ ppf qpf = Some l /\
     length l = length (comps tops)) /\
  (forall drop ab cd, ab < nb -> cd < nk -> exists l,
     one_deriv (g_E g) hp tops c (fun d => rb (ADist (idx_of_dir d)) ab) (fun d => rk (ADist (idx_of_dir d)) cd)
       (map (quartet_sum (rk a_prefac)
               (fun i j pf n => cfac (fun a => rb a i) (fun a => rk a j) (tag_at tops n)
                  (dflt n (one_vector inv sqrtf boys half (g_P g) vp tops (S (qtotal c))
                             (geo (fun a => rb a i)) (geo (fun a => rk a j)) (rb a_prefac i) pf)))
               drop (start len nss (fun t => sp_np (ps_pr bra t)) ab) (sp_np (ps_pr bra ab))
               (start len nss (fun t => sp_np (ps_pr ket t)) cd) (sp_np (ps_pr ket cd)))
          (seq 0 (length (comps tops)))) = Some l /\ length l = 12 * qncart c).
Proof. exact @deriv_defined. Qed.
Print Assumptions C64_defined.

(** The (ps|pp) derivative kernel for the bra pairs (AA| and (AB| and the ket pair |BA) meets the hypotheses; a run of the
    (ss|ss) derivative kernel with (AA|BA): the mean exponent of the primitives (1,0) and (0,1) of the bra is in it. *)
Example C64_example :
  dsetup_ok dk_gen dk_c /\ dsetup_ok dk_gen ssss /\ kind_len CallReduce 2 /\ dk_side dk_bra /\ dk_side dk_ket /\
  (forall ab cd, ab < 2 -> cd < 1 -> @divisible Qcring Qcinv (ps_A dk_bra ab) (ps_B dk_bra ab) (ps_A dk_ket cd) (ps_B dk_ket cd)) /\
  (forall scr mx, bra_aligned 2 2 (batch_of dk_bra 2 scr mx)) /\
  @cmul Qcring two dk_half = c1 /\
  dk_run ssss (dk_one dk_A dk_A true) (dk_one dk_B dk_A false) 13 =
    Some ([-5487955339 # 3024; 0; 5487955339 # 1512; -5487955339 # 3024; 0; 5487955339 # 1512;
           58363806457 # 10080; 0; -58363806457 # 5040; -9333187513 # 4320; 0; 9333187513 # 2160; 99]%Q, 1) /\
  dk_want ssss (dk_one dk_A dk_A true) (dk_one dk_B dk_A false) =
    [-5487955339 # 3024; 0; 5487955339 # 1512; -5487955339 # 3024; 0; 5487955339 # 1512;
     58363806457 # 10080; 0; -58363806457 # 5040; -9333187513 # 4320; 0; 9333187513 # 2160]%Q.
Proof.
  split; [apply dk_ok; repeat constructor|]. split; [apply dk_ok; repeat constructor|]. split; [apply Nat.lt_0_succ|].
  split; [exact dk_bra_side|]. split; [exact dk_ket_side|]. split; [exact dk_div|]. split; [exact dk_aligned|].
  split; [apply Qc_is_canon; reflexivity|]. split; vm_compute; reflexivity.
Qed.
