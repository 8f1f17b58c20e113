(** A derivative kernel run from shells to derivatives, used by the examples of [Prop_DerivKernel].  Values are rational
    numbers; exp, sqrt and the Boys function are arbitrary functions. *)
From Coq Require Import List Arith Lia Bool ZArith QArith Qcanon Permutation.
Import ListNotations.
From Verif Require Import Base Simd Cart Tables Mdir Contract Offsets Starts Kernel HRRStep HRRAlgo HRROrder GenHRR HRRExec HRRExample
  VRRStep VRRAlgo VRROrder VRRExec VRRExecSpec VRRExecExample KernelSpec Layout Create PairData Recur Driver Deriv DerivSpec DerivExample OSFamily Work
  EndToEnd EndToEndProof DerivKernel DerivKernelProof.
Set Implicit Arguments.
Local Open Scope nat_scope.

Definition dk_c : qam := QAM 1 0 1 1.
(** External code from total momentum 2 on. *)
Definition dk_gen : @gen Qcring :=
  @Gen Qcring (@HEnv Qcring (nodup dbl_eq_dec) penum psi4 true true (fun _ => 0%Qc) (fun _ => 0%Qc) 2 20 12)
    (nodup tqam_eq_dec) (nodup tqam_eq_dec) (vx_par psi4 2 20).
Lemma dk_small c x : qtotal c < 5 -> In x (needed_am c) -> dsum (brac x) < 20 /\ dsum (ketc x) < 20.
Proof. intros H Hx. apply needed_total in Hx. rewrite tq_total in Hx. lia. Qed.
Lemma dk_ok c : qtotal c < 5 -> dsetup_ok dk_gen c.
Proof.
  intros Hc. split; cbn [dk_gen g_E g_enumq g_enumt g_P e_enum e_enumc e_o e_fuel].
  - apply nodup_enum.
  - apply nodup_enum.
  - apply nodup_enum.
  - apply penum_set.
  - reflexivity.
  - lia.
  - intros x Hx. destruct (dk_small c x Hc Hx) as [A B]. left. cbn [dk_gen g_E e_sg vx_par g_P p_sg]. lia.
  - apply vx_par_ok, psi4_starts.
  - reflexivity.
  - cbn. lia.
  - cbn. lia.
  - left. cbn [dk_gen g_E e_sg vx_par g_P p_sg]. lia.
  - unfold qtotal in Hc. unfold amax. lia.
Qed.
Definition dk_half : Qc := Q2Qc (1 # 2).
Definition dk_exp (x : Qc) : Qc := (x * x + 1)%Qc.
Definition dk_sqrt (x : Qc) : Qc := (x + x + 1)%Qc.
Definition dk_boys (n : nat) (x : Qc) : Qc := (x + 1 - Q2Qc (inject_Z (Z.of_nat n)))%Qc.
Definition dk_z (z : Z) : Qc := Q2Qc (inject_Z z).
Definition dk_A : @shell Qcring := @Shell Qcring 2 (fun ax => dk_z (Z.of_nat ax - 1)) (fun i => dk_z (Z.of_nat (S i))) (fun i => dk_z (1 + Z.of_nat i)).
Definition dk_B : @shell Qcring := @Shell Qcring 1 (fun ax => dk_z (1 - Z.of_nat ax * Z.of_nat ax)) (fun _ => dk_z 3) (fun _ => dk_z (-1)).
(** Bra: (AA| with three stored primitives, (AB|; ket: |BA). *)
Definition dk_bra : @pairs Qcring :=
  @Pairs Qcring 2 (fun _ => dk_A) (fun t => nth t [dk_A; dk_B] dk_B) (fun t => t =? 0) NoScreen true.
Definition dk_ket : @pairs Qcring := @Pairs Qcring 1 (fun _ => dk_B) (fun _ => dk_A) (fun _ => false) NoScreen true.
Definition dk_side (S : @pairs Qcring) : Prop :=
  ps_deriv S = true /\
  (forall t, t < ps_n S -> ps_same S t = true -> ps_B S t = ps_A S t) /\ screen_fits 2 2 (ps_meth S) (ps_n S) (ps_pr S) /\
  (forall t, t < ps_n S -> 0 < sp_np (ps_pr S t)).
Lemma dk_bra_side : dk_side dk_bra.
Proof.
  split; [reflexivity|]. split; [|split].
  - intros t Ht E. cbn [ps_n dk_bra] in Ht. do 2 (destruct t; [try reflexivity; discriminate E|]). lia.
  - intros t Ht. cbn [ps_n dk_bra] in Ht. do 2 (destruct t; [vm_compute; lia|]). lia.
  - intros t Ht. cbn [ps_n dk_bra] in Ht. do 2 (destruct t; [vm_compute; lia|]). lia.
Qed.
Lemma dk_ket_side : dk_side dk_ket.
Proof.
  split; [reflexivity|]. split; [|split].
  - intros t Ht E. discriminate E.
  - intros t Ht. cbn [ps_n dk_ket] in Ht. destruct t; [vm_compute; lia|]. lia.
  - intros t Ht. cbn [ps_n dk_ket] in Ht. destruct t; [vm_compute; lia|]. lia.
Qed.
Lemma dk_inv (x : Qc) : x <> 0%Qc -> @invertible Qcring Qcinv x.
Proof. apply Qcmult_inv_r. Qed.
Lemma dk_alpha ab i j k l : ab < 2 -> i < sh_n (ps_A dk_bra ab) -> j < sh_n (ps_B dk_bra ab) -> k < 1 -> l < 2 ->
  let p := @cadd Qcring (sh_alpha (ps_A dk_bra ab) i) (sh_alpha (ps_B dk_bra ab) j) in
  let q := @cadd Qcring (sh_alpha dk_B k) (sh_alpha dk_A l) in
  p <> 0%Qc /\ q <> 0%Qc /\ @cadd Qcring p q <> 0%Qc.
Proof.
  intros H1 H2 H3 H4 H5. assert (k = 0) by lia. subst k.
  destruct ab as [|[|ab]]; [| |lia]; cbn in H2, H3; destruct i as [|[|i]]; try lia; destruct j as [|[|j]]; try lia; destruct l as [|[|l]]; try lia;
    repeat split; intros E; apply (f_equal this) in E; vm_compute in E; discriminate E.
Qed.
Lemma dk_div ab cd : ab < 2 -> cd < 1 -> @divisible Qcring Qcinv (ps_A dk_bra ab) (ps_B dk_bra ab) (ps_A dk_ket cd) (ps_B dk_ket cd).
Proof.
  intros H1 H2 i j k l H3 H4 H5 H6. destruct (@dk_alpha ab i j k l H1 H3 H4 H5 H6) as (N1 & N2 & N3).
  repeat split; apply dk_inv; assumption.
Qed.
Definition dk_kf (x : option dval) : Z := 0%Z.
Definition dk_block (S : @pairs Qcring) : list (option dval) := match ps_create 2 2 S dk_kf with Some m => m | None => [] end.
Definition dk_run (c : qam) (bra ket : @pairs Qcring) (n : nat) : option (list Q * nat) :=
  match @whole_deriv Qcring Qcinv dk_exp dk_sqrt dk_boys dk_half (dk_z 7) dk_gen c CallReduce 2 2 bra ket (dk_block bra) (dk_block ket)
    (batch_of bra (ps_n bra) (fun _ => 1%Q) 1) (batch_of ket (ps_n ket) (fun _ => 1%Q) 1) 0 false (repeat (dk_z 99) n) with
  | Some (l, m) => Some (map this l, m) | None => None end.
Definition dk_one (A B : @shell Qcring) (same : bool) : @pairs Qcring := @Pairs Qcring 1 (fun _ => A) (fun _ => B) (fun _ => same) NoScreen true.
(** The derivatives in the order of the output. *)
Definition dk_want (c : qam) (bra ket : @pairs Qcring) : list Q :=
  flat_map (fun ab => flat_map (fun cd => flat_map (fun q => flat_map (fun x => map (fun d => this
    (@eri_deriv Qcring Qcinv dk_exp dk_sqrt dk_boys dk_half (dk_z 7) (ps_A bra ab) (ps_B bra ab) (ps_A ket cd) (ps_B ket cd) x d q)) [DX; DY; DZ])
      [CI; CJ; CK; CL]) (qtargets psi4 c)) (seq 0 (ps_n ket))) (seq 0 (ps_n bra)).
Lemma dk_aligned scr mx : bra_aligned 2 2 (batch_of dk_bra 2 scr mx).
Proof. intros g Hg. cbn [batch_of b_clip] in Hg. lia. Qed.
