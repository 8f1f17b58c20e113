(** A kernel run from shells to integrals, used by the examples of [Prop_EndToEnd].  Values are integers and the
    external functions arbitrary ones. *)
From Coq Require Import List Arith Lia Bool ZArith QArith Permutation.
Import ListNotations.
From Verif Require Import Base Simd Cart Tables Mdir Contract Offsets Starts Kernel HRRStep HRRAlgo HRROrder GenHRR HRRExec HRRExample
  VRRStep VRRAlgo VRROrder VRRExec VRRExecSpec VRRExecExample KernelSpec Layout Create PairData Recur Deriv DerivSpec OSFamily Work EndToEnd EndToEndProof.
Set Implicit Arguments.
Local Open Scope nat_scope.

(** psi4 order, inline code up to total momentum 1, the (pp|ps) kernel. *)
Definition ee_c : qam := QAM 1 1 1 0.
Definition ee_gen : @gen Zring :=
  @Gen Zring (@HEnv Zring (nodup dbl_eq_dec) penum psi4 true true (fun _ => 0%Z) (fun _ => 0%Z) 2 20 12)
    (nodup tqam_eq_dec) (nodup tqam_eq_dec) (vx_par psi4 2 20).
Lemma ee_ok : setup_ok ee_gen ee_c.
Proof.
  split; cbn [ee_gen g_E g_enumq g_enumt g_P e_enum e_enumc e_o e_fuel].
  - apply nodup_enum.
  - apply nodup_enum.
  - apply nodup_enum.
  - apply penum_set.
  - apply psi4_starts.
  - cbn. lia.
  - intros x [<-|[]]. left. cbn. lia.
  - apply vx_par_ok, psi4_starts.
  - reflexivity.
  - cbn. lia.
  - cbn. lia.
  - left. cbn. lia.
Qed.
Definition ee_inv (x : Z) : Z := (x - 2)%Z.
Definition ee_exp (x : Z) : Z := (x * x + 1)%Z.
Definition ee_sqrt (x : Z) : Z := (2 * x + 1)%Z.
Definition ee_boys (n : nat) (x : Z) : Z := (x + 1 - Z.of_nat n)%Z.
Definition ee_A : @shell Zring := @Shell Zring 2 (fun ax => Z.of_nat ax - 1)%Z (fun i => Z.of_nat (S i)) (fun i => 1 + Z.of_nat i)%Z.
Definition ee_B : @shell Zring := @Shell Zring 1 (fun ax => 1 - Z.of_nat ax * Z.of_nat ax)%Z (fun _ => 3%Z) (fun _ => (-1)%Z).
(** Bra: (AA|, (BB|, (AB| with 3, 1 and 2 stored primitives; ket: |BB), |BA). *)
Definition ee_bra : @pairs Zring :=
  @Pairs Zring 3 (fun t => nth t [ee_A; ee_B; ee_A] ee_A) (fun t => nth t [ee_A; ee_B; ee_B] ee_B) (fun t => t <? 2) Schwarz false.
Definition ee_ket : @pairs Zring :=
  @Pairs Zring 2 (fun t => ee_B) (fun t => nth t [ee_B; ee_A] ee_A) (fun _ => false) Schwarz false.
(** Screen values: those of pair 0 are 1, 4, 3 for the primitives (0,0), (1,0), (1,1). *)
Definition ee_kf (x : option dval) : Z := match x with Some (Of AScreen t i j) => Z.of_nat ((3 * i + 4 * j + 2 * t + 1) mod 5) | _ => 0%Z end.
Definition ee_sv (t i j : nat) : Q := ee_kf (Some (Of AScreen t i j)) # 10.
Definition ee_block (S : @pairs Zring) : list (option dval) := match ps_create 2 2 S ee_kf with Some m => m | None => [] end.
Definition ee_side (S : @pairs Zring) : Prop :=
  (forall t, t < ps_n S -> ps_same S t = true -> ps_B S t = ps_A S t) /\ screen_fits 2 2 (ps_meth S) (ps_n S) (ps_pr S) /\
  (forall t, t < ps_n S -> 0 < sp_np (ps_pr S t)).
Lemma ee_bra_side : ee_side ee_bra.
Proof.
  split; [|split].
  - intros t Ht E. cbn [ps_n ee_bra] in Ht. do 3 (destruct t; [try reflexivity; discriminate E|]). lia.
  - intros t Ht. cbn [ps_n ee_bra] in Ht. do 3 (destruct t; [vm_compute; lia|]). lia.
  - intros t Ht. cbn [ps_n ee_bra] in Ht. do 3 (destruct t; [vm_compute; lia|]). lia.
Qed.
Lemma ee_ket_side : ee_side ee_ket.
Proof.
  split; [|split].
  - intros t Ht E. discriminate E.
  - intros t Ht. cbn [ps_n ee_ket] in Ht. do 2 (destruct t; [vm_compute; lia|]). lia.
  - intros t Ht. cbn [ps_n ee_ket] in Ht. do 2 (destruct t; [vm_compute; lia|]). lia.
Qed.
Lemma ee_block_ok S : ee_side S -> exists ord, block_ok 2 2 S (ee_block S) ord (ps_n S) /\ (screens (ps_meth S) = true -> by_screen (ps_n S) ee_kf ord).
Proof.
  intros (A & B & C). destruct (@created Zring 2 2 S ee_kf (ps_n S)) as (m & ord & E & H); auto.
  { exists 1. reflexivity. }
  exists ord. unfold ee_block. rewrite E. exact H.
Qed.
(** The order of the primitives of the first bra pair in its block, from their alpha (array 9). *)
Definition ee_order : list (option (option dval)) :=
  map (fun k => nth_error (ee_block ee_bra) (off 2 2 Schwarz false 3 (ps_pr ee_bra) (APrim 9) + k)) (seq 0 3).
(** The integrals in the order of the output. *)
Definition ee_want (c : qam) (bra ket : @pairs Zring) : list Z :=
  flat_map (fun ab => flat_map (fun cd => map (fun q =>
    @eri Zring ee_inv ee_exp ee_sqrt ee_boys 5%Z 7%Z (ps_A bra ab) (ps_B bra ab) (ps_A ket cd) (ps_B ket cd) q)
      (qtargets psi4 c)) (seq 0 (ps_n ket))) (seq 0 (ps_n bra)).
Definition ee_kept (c : qam) (A B C D : @shell Zring) (keep : nat -> nat -> nat -> nat -> bool) : list Z :=
  map (@stored_terms Zring ee_inv ee_exp ee_sqrt ee_boys 5%Z 7%Z false false A B C D keep) (qtargets psi4 c).
(** A run of a smaller kernel, (ps|ss) for (AB|BA). *)
Definition ee_run (c : qam) (bra ket : @pairs Zring) (tol : Q) : option (list Z * nat) :=
  @whole_kernel Zring ee_inv ee_exp ee_sqrt ee_boys 5%Z 7%Z ee_gen c CallReduce 2 2 bra ket (ee_block bra) (ee_block ket)
    (batch_of bra (ps_n bra) (scr_rd 2 2 bra (ee_block bra) ee_sv) 1) (batch_of ket (ps_n ket) (scr_rd 2 2 ket (ee_block ket) ee_sv) 1) tol false (repeat 99%Z 5).
Definition ee_one (A B : @shell Zring) : @pairs Zring := @Pairs Zring 1 (fun _ => A) (fun _ => B) (fun _ => false) Schwarz false.
Lemma ee_aligned scr mx : bra_aligned 2 2 (batch_of ee_bra 3 scr mx).
Proof. intros g Hg. destruct g; [exists 2; reflexivity|]. cbn [batch_of b_clip] in Hg. lia. Qed.
