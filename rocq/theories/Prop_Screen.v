(** Property theorems C60: screening values, and the error screening makes. *)
From Coq Require Import List Arith ZArith QArith Qcanon.
Import ListNotations.
From Verif Require Import Base Cart QList HRRStep HRRAlgo HRROrder HRRExec VRRStep VRRAlgo VRRExec Kernel KernelSpec Starts Tables Layout Create PairData Mdir Deriv DerivExample
  OSFamily EndToEnd EndToEndProof OrdRing Screen ScreenProof ScreenExample.
Local Open Scope nat_scope.

(** C60.  Schwarz screening of primitives: the value of a primitive pair is its largest diagonal integral and the
    returned value the largest of them.  The buffer read is the one of [C60_buffer]. *)
Theorem C60_primscreen : forall (R : cring) (O : ordered R) (inv expf sqrtf : R -> R) (boys : nat -> R -> R) (half sqrt2pi52 : R)
  (o : ordering) (la lb : nat) compute same (A B : @shell R),
  (forall i j, In (i, j) (sp_prims (SP (sh_n A) (sh_n B) same)) ->
     computes inv expf sqrtf boys half sqrt2pi52 o la lb compute (uncontract A i) (uncontract B j)) ->
  exists l tm, primscreen_schwarz O compute (ncart la) (ncart lb) same A B = Some (l, tm) /\
    length l = length (sp_prims (SP (sh_n A) (sh_n B) same)) /\
    (forall k i j, nth_error (sp_prims (SP (sh_n A) (sh_n B) same)) k = Some (i, j) ->
       exists M, nth_error l k = Some M /\
         is_max O (comp_of la lb) (fun x => vabs O (diagonal inv expf sqrtf boys half sqrt2pi52 A B i j x)) M) /\
    is_max O (fun M => In M l) (fun M => M) tm.
Proof. exact @primscreen_ok. Qed.
Print Assumptions C60_primscreen.

(** Schwarz screening of shells: the largest integral of (ab|ab). *)
Theorem C60_shellscreen : forall (R : cring) (O : ordered R) (inv expf sqrtf : R -> R) (boys : nat -> R -> R) (half sqrt2pi52 : R)
  (o : ordering) (la lb : nat) compute (A B : @shell R), computes inv expf sqrtf boys half sqrt2pi52 o la lb compute A B ->
  exists M, shellscreen_schwarz O compute (ncart la) (ncart lb) A B = Some M /\
    is_max O (fun q => qclass q = QAM la lb la lb) (fun q => vabs O (eri inv expf sqrtf boys half sqrt2pi52 A B A B q)) M.
Proof. exact @shellscreen_ok. Qed.
Print Assumptions C60_shellscreen.

(** The buffer, filled by the generated kernel of (ab|ab). *)
Theorem C60_buffer : forall (R : cring) (inv expf sqrtf : R -> R) (boys : nat -> R -> R) (half sqrt2pi52 : R) (g : @gen R) la lb k len nss junk (A B : @shell R),
  setup_ok g (QAM la lb la lb) -> kind_len k len -> 0 < nss -> Nat.divide len nss -> 0 < sh_n A -> 0 < sh_n B ->
  computes inv expf sqrtf boys half sqrt2pi52 (e_o (g_E g)) la lb
    (eri_buffer inv expf sqrtf boys half sqrt2pi52 g (QAM la lb la lb) k len nss junk) A B.
Proof. exact @buffer_computes. Qed.
Print Assumptions C60_buffer.

(** Two shell values bound every integral of the quartet. *)
Theorem C60_shell_bound : forall (R : cring) (O : ordered R) (inv expf sqrtf : R -> R) (boys : nat -> R -> R) (half sqrt2pi52 : R),
  repulsive O inv expf sqrtf boys half sqrt2pi52 -> forall la lb lc ld (A B C D : @shell R) M N q,
  positive O A -> positive O B -> positive O C -> positive O D ->
  is_max O (fun q => qclass q = QAM la lb la lb) (fun q => vabs O (eri inv expf sqrtf boys half sqrt2pi52 A B A B q)) M ->
  is_max O (fun q => qclass q = QAM lc ld lc ld) (fun q => vabs O (eri inv expf sqrtf boys half sqrt2pi52 C D C D q)) N ->
  qclass q = QAM la lb lc ld ->
  le O (cmul (eri inv expf sqrtf boys half sqrt2pi52 A B C D q) (eri inv expf sqrtf boys half sqrt2pi52 A B C D q)) (cmul M N).
Proof. exact @shell_bound. Qed.
Print Assumptions C60_shell_bound.

(** A kernel run with tolerance [t] stores numbers within [t] per primitive quartet of the integrals. *)
Theorem C60_error : forall (R : cring) (O : ordered R) (inv expf sqrtf : R -> R) (boys : nat -> R -> R) (half sqrt2pi52 : R) (emb : Q -> R),
  embeds O emb -> repulsive O inv expf sqrtf boys half sqrt2pi52 ->
  forall (g : @gen R) (c : qam), setup_ok g c -> forall (k : call_kind) (len nss : nat), kind_len k len -> 0 < nss ->
  forall (bra ket : @pairs R) mb mk ob ok nb nk, block_ok len nss bra mb ob nb -> block_ok len nss ket mk ok nk ->
  (forall t, t < nk -> 0 < sp_np (ps_pr ket t)) ->
  forall (svb svk : nat -> nat -> nat -> Q) (mxb mxk : Q),
  (forall ab i j, ab < nb -> In (i, j) (sp_prims (ps_pr bra ab)) ->
     covers O inv expf sqrtf boys half sqrt2pi52 emb (am0 c) (am1 c) (ps_A bra ab) (ps_B bra ab) i j (svb ab i j)) ->
  (forall cd i j, cd < nk -> In (i, j) (sp_prims (ps_pr ket cd)) ->
     covers O inv expf sqrtf boys half sqrt2pi52 emb (am2 c) (am3 c) (ps_A ket cd) (ps_B ket cd) i j (svk cd i j)) ->
  (forall ab i j, ab < nb -> In (i, j) (sp_prims (ps_pr bra ab)) -> (0 <= svb ab i j <= mxb)%Q) ->
  (forall cd i j, cd < nk -> In (i, j) (sp_prims (ps_pr ket cd)) -> (0 <= svk cd i j <= mxk)%Q) ->
  (forall ab, ab < nb -> positive O (ps_A bra ab) /\ positive O (ps_B bra ab)) ->
  (forall cd, cd < nk -> positive O (ps_A ket cd) /\ positive O (ps_B ket cd)) ->
  forall t zf out, (0 <= t)%Q -> screens (ps_meth bra) = true -> screens (ps_meth ket) = true ->
  let BP := batch_of bra nb (scr_rd len nss bra mb svb) mxb in
  let BK := batch_of ket nk (scr_rd len nss ket mk svk) mxk in
  bra_aligned len nss BP -> nb * nk * qncart c <= length out ->
  exists d, whole_kernel inv expf sqrtf boys half sqrt2pi52 g c k len nss bra ket mb mk BP BK (t * t) zf out = Some (d, nb * nk) /\
    forall ab cd q, ab < nb -> cd < nk -> qclass q = c -> exists v,
      nth_error d ((ab * nk + cd) * qncart c + qindex (e_o (g_E g)) q) = Some v /\
      le O (vabs O (csub (eri inv expf sqrtf boys half sqrt2pi52 (ps_A bra ab) (ps_B bra ab) (ps_A ket cd) (ps_B ket cd) q) v))
        (cmul (ofnat (sh_n (ps_A bra ab) * sh_n (ps_B bra ab) * (sh_n (ps_A ket cd) * sh_n (ps_B ket cd)))) (emb t)).
Proof. exact @screened_kernel_error. Qed.
Print Assumptions C60_error.

(** A call left out altogether by its largest screen values (ostei.c:19-20) leaves out integrals that small. *)
Theorem C60_skipped : forall (R : cring) (O : ordered R) (inv expf sqrtf : R -> R) (boys : nat -> R -> R) (half sqrt2pi52 : R) (emb : Q -> R),
  embeds O emb -> repulsive O inv expf sqrtf boys half sqrt2pi52 ->
  forall (c : qam) (len nss : nat) (bra ket : @pairs R) mb mk ob ok nb nk, block_ok len nss bra mb ob nb -> block_ok len nss ket mk ok nk ->
  forall (svb svk : nat -> nat -> nat -> Q) (mxb mxk : Q),
  (forall ab i j, ab < nb -> In (i, j) (sp_prims (ps_pr bra ab)) ->
     covers O inv expf sqrtf boys half sqrt2pi52 emb (am0 c) (am1 c) (ps_A bra ab) (ps_B bra ab) i j (svb ab i j)) ->
  (forall cd i j, cd < nk -> In (i, j) (sp_prims (ps_pr ket cd)) ->
     covers O inv expf sqrtf boys half sqrt2pi52 emb (am2 c) (am3 c) (ps_A ket cd) (ps_B ket cd) i j (svk cd i j)) ->
  (forall ab i j, ab < nb -> In (i, j) (sp_prims (ps_pr bra ab)) -> (0 <= svb ab i j <= mxb)%Q) ->
  (forall cd i j, cd < nk -> In (i, j) (sp_prims (ps_pr ket cd)) -> (0 <= svk cd i j <= mxk)%Q) ->
  (forall ab, ab < nb -> positive O (ps_A bra ab) /\ positive O (ps_B bra ab)) ->
  (forall cd, cd < nk -> positive O (ps_A ket cd) /\ positive O (ps_B ket cd)) ->
  forall t ab cd q, early_exit t mxb mxk = true -> ab < nb -> cd < nk -> qclass q = c ->
  le O (vabs O (eri inv expf sqrtf boys half sqrt2pi52 (ps_A bra ab) (ps_B bra ab) (ps_A ket cd) (ps_B ket cd) q))
    (cmul (ofnat (sh_n (ps_A bra ab) * sh_n (ps_B bra ab) * (sh_n (ps_A ket cd) * sh_n (ps_B ket cd)))) (emb t)).
Proof. exact @skipped_error. Qed.
Print Assumptions C60_skipped.

(** The fast value is the diagonal integral of the primitives taken as s functions. *)
Theorem C60_fast_value : forall (R : cring) (inv expf sqrtf pow25 : R -> R) (boys : nat -> R -> R) (half sqrt2pi52 sqrt2times : R) (A B : @shell R) i j,
  fast_hyps inv expf sqrtf pow25 boys sqrt2pi52 sqrt2times (cadd (sh_alpha A i) (sh_alpha B j)) ->
  fast_gab inv expf pow25 sqrt2times A B i j = diagonal inv expf sqrtf boys half sqrt2pi52 A B i j (g0, g0).
Proof. exact @fast_value. Qed.
Print Assumptions C60_fast_value.

(** It is not a bound for other momenta (shell_screen.h:51-53 says it is): the p function along x on [A] has a
    larger diagonal integral wherever the centre of the primitive pair is more than 1 away from [A] along x. *)
Theorem C60_fast_refuted : forall (R : cring) (O : ordered R) (inv expf sqrtf pow25 : R -> R) (boys : nat -> R -> R) (half sqrt2pi52 sqrt2times : R) (A B : @shell R) i j,
  let p := cadd (sh_alpha A i) (sh_alpha B j) in
  let d := csub (gcen inv (prim A i) (prim B j) DX) (sh_pos A 0) in
  fast_hyps inv expf sqrtf pow25 boys sqrt2pi52 sqrt2times p -> lt O c1 (cmul d d) ->
  lt O c0 (fast_gab inv expf pow25 sqrt2times A B i j) -> le O c0 (cmul (cmul half (inv (cadd p p))) (boys 1 c0)) ->
  lt O (fast_gab inv expf pow25 sqrt2times A B i j) (diagonal inv expf sqrtf boys half sqrt2pi52 A B i j (G 1 0 0, g0)).
Proof. exact @fast_low. Qed.
Print Assumptions C60_fast_refuted.

(** Nor is the fast value of a shell pair, the sum over the diagonal, even for s functions: two equal primitives. *)
Theorem C60_shell_fast_refuted : forall (R : cring) (inv expf sqrtf pow25 : R -> R) (boys : nat -> R -> R) (half sqrt2pi52 sqrt2times : R) (A B : @shell R),
  fast_hyps inv expf sqrtf pow25 boys sqrt2pi52 sqrt2times (cadd (sh_alpha A 0) (sh_alpha B 0)) -> sh_n A = 2 -> sh_n B = 1 ->
  sh_alpha A 1 = sh_alpha A 0 -> sh_coef A 1 = sh_coef A 0 ->
  let v := shellscreen_fast inv expf pow25 sqrt2times false A B in
  eri inv expf sqrtf boys half sqrt2pi52 A B A B q0 = cadd v v.
Proof. exact @shell_fast_low. Qed.
Print Assumptions C60_shell_fast_refuted.

(** Rational external functions meeting the hypotheses; (ps|ss) run without screening and with [t = 1/2000], when the
    terms of the second bra primitive are left out; the values of the primitives of (ps|. *)
Example C60_example :
  repulsive Qcordered Qcinv sc_exp r1_sqrt r1_boys sc_half (1%Qc : Qcring) /\ embeds Qcordered Q2Qc /\
  setup_ok sc_gen sc_c /\ setup_ok sc_gen (QAM 1 0 1 0) /\
  (exists ord, block_ok 2 2 sc_bra (sc_block sc_bra) ord 1) /\ (exists ord, block_ok 2 2 sc_ket (sc_block sc_ket) ord 1) /\
  (forall t i j, covers Qcordered Qcinv sc_exp r1_sqrt r1_boys sc_half (1%Qc : Qcring) Q2Qc 1 0 (ps_A sc_bra t) (ps_B sc_bra t) i j (sc_svb t i j)) /\
  (forall t i j, covers Qcordered Qcinv sc_exp r1_sqrt r1_boys sc_half (1%Qc : Qcring) Q2Qc 0 0 (ps_A sc_ket t) (ps_B sc_ket t) i j (sc_svk t i j)) /\
  (forall i j, In (i, j) (sp_prims (ps_pr sc_bra 0)) -> (0 <= sc_svb 0 i j <= 1)%Q) /\
  (forall i j, In (i, j) (sp_prims (ps_pr sc_ket 0)) -> (0 <= sc_svk 0 i j <= 1)%Q) /\
  (forall t, positive Qcordered (ps_A sc_bra t) /\ positive Qcordered (ps_B sc_bra t)) /\
  (forall t, positive Qcordered (ps_A sc_ket t) /\ positive Qcordered (ps_B sc_ket t)) /\
  (forall scr mx, bra_aligned 2 2 (batch_of sc_bra 1 scr mx)) /\
  (forall A B, @computes Qcring Qcinv sc_exp r1_sqrt r1_boys sc_half (1%Qc : Qcring) psi4 1 0 sc_compute A B) /\
  sc_show (sc_run 0) = Some ([675 # 802816; 0; -675 # 802816; 99; 99]%Q, 1) /\
  sc_show (sc_run (1 # 4000000)) = Some ([27 # 25088; 0; -27 # 25088; 99; 99]%Q, 1) /\
  option_map (fun p => (map this (fst p), this (snd p))) (primscreen_schwarz Qcordered sc_compute 3 1 false sc_A sc_B) =
    Some ([9 # 3136; 9 # 65536]%Q, (9 # 3136)%Q).
Proof.
  split; [apply r1_repulsive|]. split; [exact Qc_embeds|]. split; [apply sc_ok; left; reflexivity|]. split; [apply sc_ok; right; reflexivity|].
  split; [exact (proj2 (sc_side (or_introl eq_refl)))|]. split; [exact (proj2 (sc_side (or_intror eq_refl)))|].
  split; [intros t i j; exact (@sc_sv_covers 1 0 sc_bra t i j Tables.psi4_starts)|].
  split; [intros t i j; exact (@sc_sv_covers 0 0 sc_ket t i j Tables.psi4_starts)|].
  split; [exact (proj1 sc_range)|]. split; [exact (proj2 sc_range)|]. split; [exact (proj1 sc_positive)|]. split; [exact (proj2 sc_positive)|]. split; [exact sc_aligned|]. split; [exact sc_computes|]. vm_compute. repeat split.
Qed.
Example C60_fast_example :
  (forall p, @fast_hyps Qcring Qcinv fs_exp r1_sqrt fs_pow fs_boys (1%Qc : Qcring) (1%Qc : Qcring) p) /\
  map this [@fast_gab Qcring Qcinv fs_exp fs_pow (1%Qc : Qcring) sc_A sc_B 0 0;
            @diagonal Qcring Qcinv fs_exp r1_sqrt fs_boys sc_half (1%Qc : Qcring) sc_A sc_B 0 0 (g0, g0);
            @diagonal Qcring Qcinv fs_exp r1_sqrt fs_boys sc_half (1%Qc : Qcring) sc_A sc_B 0 0 (G 1 0 0, g0)] = [1 # 16; 1 # 16; 109 # 768]%Q /\
  map this [@shellscreen_fast Qcring Qcinv fs_exp fs_pow (1%Qc : Qcring) false fs_A sc_B;
            @eri Qcring Qcinv fs_exp r1_sqrt fs_boys sc_half (1%Qc : Qcring) fs_A sc_B fs_A sc_B q0] = [1 # 2; 1]%Q.
Proof. split; [exact fs_hyps|]. vm_compute. repeat split. Qed.
