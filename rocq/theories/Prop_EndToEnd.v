(** Property theorems C58: a whole kernel, from the shells to the contracted integrals. *)
From Coq Require Import List Arith ZArith QArith.
Import ListNotations.
From Verif Require Import Base Cart QList HRRStep HRRAlgo HRROrder HRRExec VRRStep VRRAlgo VRRExec Kernel KernelSpec Starts Layout Create PairData Mdir Deriv EndToEnd EndToEndProof EndToEndExample.
Local Open Scope nat_scope.

(** C58.  Without screening the generated kernel stores the contracted integrals of the shells, and nothing else. *)
Theorem C58_kernel_integrals : forall (R : cring) (inv expf sqrtf : R -> R) (boys : nat -> R -> R) (half sqrt2pi52 : R)
  (g : @gen R) (c : qam), setup_ok g c ->
  forall (k : call_kind) (len nss : nat), kind_len k len -> 0 < nss ->
  forall (bra ket : @pairs R) mb mk ob ok nb nk scrb scrk mxb mxk, block_ok len nss bra mb ob nb -> block_ok len nss ket mk ok nk ->
  (forall t, t < nk -> 0 < sp_np (ps_pr ket t)) ->
  forall tol zf out, (tol <= 0)%Q -> bra_aligned len nss (batch_of bra nb scrb mxb) -> nb * nk * qncart c <= length out ->
  exists d, whole_kernel inv expf sqrtf boys half sqrt2pi52 g c k len nss bra ket mb mk
              (batch_of bra nb scrb mxb) (batch_of ket nk scrk mxk) tol zf out = Some (d, nb * nk) /\
    length d = length out /\
    (forall ab cd q, ab < nb -> cd < nk -> qclass q = c ->
       nth_error d ((ab * nk + cd) * qncart c + qindex (e_o (g_E g)) q) =
       Some (eri inv expf sqrtf boys half sqrt2pi52 (ps_A bra ab) (ps_B bra ab) (ps_A ket cd) (ps_B ket cd) q)) /\
    (forall i, nb * nk * qncart c <= i -> nth_error d i = nth_error out i).
Proof. exact @kernel_integrals. Qed.
Print Assumptions C58_kernel_integrals.

(** The same from the shells on: both batches are created (allocated, filled, sorted by any screen values) and the
    kernel is called with them. *)
Theorem C58_created : forall (R : cring) (inv expf sqrtf : R -> R) (boys : nat -> R -> R) (half sqrt2pi52 : R)
  (g : @gen R) (c : qam), setup_ok g c ->
  forall (k : call_kind) (len nss : nat), kind_len k len -> 0 < nss -> Nat.divide len nss ->
  forall bra ket : @pairs R, (forall t, t < ps_n bra -> ps_same bra t = true -> ps_B bra t = ps_A bra t) ->
  (forall t, t < ps_n ket -> ps_same ket t = true -> ps_B ket t = ps_A ket t) ->
  screen_fits len nss (ps_meth bra) (ps_n bra) (ps_pr bra) -> screen_fits len nss (ps_meth ket) (ps_n ket) (ps_pr ket) ->
  (forall t, t < ps_n bra -> 0 < sp_np (ps_pr bra t)) -> (forall t, t < ps_n ket -> 0 < sp_np (ps_pr ket t)) ->
  forall kfb kfk nb nk scrb scrk mxb mxk tol zf out, nb <= ps_n bra -> nk <= ps_n ket -> (tol <= 0)%Q ->
  bra_aligned len nss (batch_of bra nb scrb mxb) -> nb * nk * qncart c <= length out ->
  exists mb mk d, ps_create len nss bra kfb = Some mb /\ ps_create len nss ket kfk = Some mk /\
    whole_kernel inv expf sqrtf boys half sqrt2pi52 g c k len nss bra ket mb mk
      (batch_of bra nb scrb mxb) (batch_of ket nk scrk mxk) tol zf out = Some (d, nb * nk) /\
    length d = length out /\
    (forall ab cd q, ab < nb -> cd < nk -> qclass q = c ->
       nth_error d ((ab * nk + cd) * qncart c + qindex (e_o (g_E g)) q) =
       Some (eri inv expf sqrtf boys half sqrt2pi52 (ps_A bra ab) (ps_B bra ab) (ps_A ket cd) (ps_B ket cd) q)) /\
    (forall i, nb * nk * qncart c <= i -> nth_error d i = nth_error out i).
Proof. exact @kernel_created. Qed.
Print Assumptions C58_created.

(** With screening: the missing terms are of stored primitives with a small product of the screen values [svb] and
    [svk] stored with them. *)
Theorem C58_screened : forall (R : cring) (inv expf sqrtf : R -> R) (boys : nat -> R -> R) (half sqrt2pi52 : R)
  (g : @gen R) (c : qam), setup_ok g c ->
  forall (k : call_kind) (len nss : nat), kind_len k len -> 0 < nss ->
  forall (bra ket : @pairs R) mb mk ob ok nb nk scrb scrk mxb mxk, block_ok len nss bra mb ob nb -> block_ok len nss ket mk ok nk ->
  (forall t, t < nk -> 0 < sp_np (ps_pr ket t)) ->
  forall svb svk tol zf out, scrb = scr_rd len nss bra mb svb -> scrk = scr_rd len nss ket mk svk ->
  screens (ps_meth bra) = true -> screens (ps_meth ket) = true ->
  bra_aligned len nss (batch_of bra nb scrb mxb) -> nb * nk * qncart c <= length out ->
  exists keep d, whole_kernel inv expf sqrtf boys half sqrt2pi52 g c k len nss bra ket mb mk
              (batch_of bra nb scrb mxb) (batch_of ket nk scrk mxk) tol zf out = Some (d, nb * nk) /\
    (forall ab cd q, ab < nb -> cd < nk -> qclass q = c ->
       nth_error d ((ab * nk + cd) * qncart c + qindex (e_o (g_E g)) q) =
       Some (stored_terms inv expf sqrtf boys half sqrt2pi52 (ps_same bra ab) (ps_same ket cd)
               (ps_A bra ab) (ps_B bra ab) (ps_A ket cd) (ps_B ket cd) (keep ab cd) q)) /\
    (forall ab cd i j k l, ab < nb -> cd < nk -> In (i, j) (sp_prims (ps_pr bra ab)) -> In (k, l) (sp_prims (ps_pr ket cd)) ->
       (0 <= svb ab i j)%Q -> (svk cd k l <= mxk)%Q -> keep ab cd i j k l = false -> (svb ab i j * svk cd k l < tol)%Q).
Proof. exact @kernel_integrals_screened. Qed.
Print Assumptions C58_screened.

(** The kept and the missing terms add up to the integral. *)
Theorem C58_terms : forall (R : cring) (inv expf sqrtf : R -> R) (boys : nat -> R -> R) (half sqrt2pi52 : R)
  (sb sk : bool) (A B C D : @shell R) keep q, (sb = true -> B = A) -> (sk = true -> D = C) ->
  cadd (stored_terms inv expf sqrtf boys half sqrt2pi52 sb sk A B C D keep q)
       (stored_terms inv expf sqrtf boys half sqrt2pi52 sb sk A B C D (fun i j k l => negb (keep i j k l)) q) =
  eri inv expf sqrtf boys half sqrt2pi52 A B C D q.
Proof. exact @stored_split. Qed.
Print Assumptions C58_terms.

(** Code generation succeeds, every vector and every shell quartet runs to its end within its arrays and
    leaves no entry undetermined. *)
Theorem C58_defined : forall (R : cring) (inv expf sqrtf : R -> R) (boys : nat -> R -> R) (half sqrt2pi52 : R)
  (g : @gen R) (c : qam), setup_ok g c ->
  forall (len nss : nat), 0 < nss -> forall (bra ket : @pairs R) mb mk ob ok nb nk, block_ok len nss bra mb ob nb -> block_ok len nss ket mk ok nk ->
  let rb := rd inv expf sqrt2pi52 len nss bra mb in
  let rk := rd inv expf sqrt2pi52 len nss ket mk in
  exists hp vp, plans g c = Some (hp, vp) /\
  let tops := g_enumt g (hp_top hp) in
  (forall gP gQ ppf qpf, exists l, one_vector inv sqrtf boys half (g_P g) vp tops (qtotal c) gP gQ ppf qpf = Some l /\
     length l = length (comps tops)) /\
  (forall drop ab cd, ab < nb -> cd < nk -> exists l,
     one_quartet (g_E g) hp tops c (fun d => rb (ADist (idx_of_dir d)) ab) (fun d => rk (ADist (idx_of_dir d)) cd)
       (map (quartet_sum (rk a_prefac)
               (fun i j pf n => dflt n (one_vector inv sqrtf boys half (g_P g) vp tops (qtotal c)
                                          (geo (fun a => rb a i)) (geo (fun a => rk a j)) (rb a_prefac i) pf))
               drop (start len nss (fun t => sp_np (ps_pr bra t)) ab) (sp_np (ps_pr bra ab))
               (start len nss (fun t => sp_np (ps_pr ket t)) cd) (sp_np (ps_pr ket cd)))
          (seq 0 (length (comps tops)))) = Some l /\ length l = qncart c).
Proof. exact @kernel_defined. Qed.
Print Assumptions C58_defined.

(** The (pp|ps) kernel for the bra pairs (AA|, (BB|, (AB| and the ket pairs |BB), |BA) meets the hypotheses, with blocks
    sorted by screen value; a run of the (ps|ss) and the (sp|ss) kernel; the first again with screening, which keeps only
    the terms of the bra primitive (1,0): there the product is large enough for one of the two ket primitives of the vector. *)
Example C58_example :
  setup_ok ee_gen ee_c /\ kind_len CallReduce 2 /\ ee_side ee_bra /\ ee_side ee_ket /\
  (exists ord, block_ok 2 2 ee_bra (ee_block ee_bra) ord (ps_n ee_bra) /\ (screens (ps_meth ee_bra) = true -> by_screen (ps_n ee_bra) ee_kf ord)) /\
  (forall scr mx, bra_aligned 2 2 (batch_of ee_bra 3 scr mx)) /\
  ee_run (QAM 1 0 0 0) (ee_one ee_A ee_B) (ee_one ee_B ee_A) 0 =
    Some ([8930228435991737672; 0; 39595311850336513768; 99; 99]%Z, 1) /\
  ee_want (QAM 1 0 0 0) (ee_one ee_A ee_B) (ee_one ee_B ee_A) = [8930228435991737672; 0; 39595311850336513768]%Z /\
  ee_run (QAM 0 1 0 0) (ee_one ee_B ee_A) (ee_one ee_B ee_B) 0 =
    Some ([-40967491275734279816; 0; 99707872604551131704; 99; 99]%Z, 1) /\
  ee_run (QAM 1 0 0 0) (ee_one ee_A ee_B) (ee_one ee_B ee_A) (3 # 100) =
    Some ([25408111882032788832; 0; 124502077830913829424; 99; 99]%Z, 1) /\
  ee_kept (QAM 1 0 0 0) ee_A ee_B ee_B ee_A (fun i j k l => i =? 1) = [25408111882032788832; 0; 124502077830913829424]%Z.
Proof.
  split; [exact ee_ok|]. split; [apply Nat.lt_0_succ|]. split; [exact ee_bra_side|]. split; [exact ee_ket_side|].
  split; [exact (ee_block_ok ee_bra_side)|]. split; [exact ee_aligned|]. vm_compute. repeat split.
Qed.
