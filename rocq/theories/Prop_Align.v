(** C78: alignment of the vector accesses. *)
From Coq Require Import List Arith QArith.
Import ListNotations.
From Verif Require Import Base Simd Layout Kernel Cat Work Align AlignProof.
Local Open Scope nat_scope.

(** Every vector a kernel loads from the ket is in its array, in the block, and aligned. *)
Theorem C78_loads : forall scalar len nss P K tol zf meth deriv ketvrr n pr base a j,
  0 < len -> 0 < nss -> Nat.divide len nss -> allocated scalar len base -> (forall t, t < n -> sp_wf (pr t)) ->
  b_clip K <= n -> (forall t, t < n -> b_np K t = npf pr t) -> ((0 < tol)%Q -> meth <> NoScreen) ->
  In (a, j) (kernel_loads len nss P K tol zf deriv ketvrr) ->
  arr_ok meth deriv a = true /\ j + len <= size len nss n pr a /\
  off len nss meth deriv n pr a + j + len <= total_doubles len nss meth deriv n pr /\
  Nat.divide (8 * len) (base + 8 * (off len nss meth deriv n pr a + j)).
Proof.
  exact (fun scalar len nss P K tol zf meth deriv ketvrr n pr base a j H0 Hn Hd Hb Hw Hc Hp Hs Hi =>
    eq_ind (len * 8) (fun s => _ /\ _ /\ _ /\ Nat.divide s _)
      (@loads_aligned scalar len nss P K tol zf meth deriv ketvrr n pr base a j H0 Hn Hd Hb Hw Hc Hp Hs Hi) (8 * len) (Nat.mul_comm len 8)).
Qed.
Print Assumptions C78_loads.

(** The arrays of concatenated pairs are aligned in the same way. *)
Theorem C78_cat : forall scalar len nss (A : Type) (ins : nat -> mpair A) nm base k j,
  0 < len -> 0 < nss -> allocated scalar len base -> Nat.divide len j ->
  Nat.divide (simd_align len) (cat_addr base (cat_alloc len nss ins nm) k j) /\
  Nat.divide (simd_align len) (cat_addr base (cs_alloc len nss ins nm) k j).
Proof. exact @cat_aligned. Qed.
Print Assumptions C78_cat.

(** So is the workspace of every thread of the test programs, and every vector of primitive integrals in a workspace. *)
Theorem C78_work : forall scalar len nss plan vs l all t, allocated scalar len all ->
  Nat.divide (simd_align len) (thread_area all t (worksize len nss plan vs l)).
Proof. exact @work_aligned. Qed.
Print Assumptions C78_work.
Theorem C78_vectors : forall len nss fin w a m i x work, 0 < len ->
  wok w -> Nat.divide len nss -> Nat.divide (simd_align len) work -> addr len nss fin w (EPrim a m i 0) = Some x ->
  Nat.divide (simd_align len) (elt work x).
Proof. exact @vectors_aligned. Qed.
Print Assumptions C78_vectors.

(** contract_all for AVX-512 loads from a local array: aligned exactly if the compiler happens to align that array ... *)
Theorem C78_contract : forall tmp ncart, 8 <= ncart ->
  ((forall x, In x (tmp_loads tmp ncart) -> Nat.divide (simd_align 8) x) <-> Nat.divide (simd_align 8) tmp).
Proof. exact tmp_aligned_iff. Qed.
Print Assumptions C78_contract.
(** ... which nothing asks of it. *)
Theorem C78_contract_refuted : exists tmp, local_array tmp /\
  forall ncart, 8 <= ncart -> exists x, In x (tmp_loads tmp ncart) /\ ~ Nat.divide (simd_align 8) x.
Proof. exact tmp_misaligned. Qed.
Print Assumptions C78_contract_refuted.

(** SIMINT_ASSUME_ALIGN_DBL of the integrals, in the test programs: true of thread [t] exactly if [len] divides where its area
    starts; always for thread 0; not for thread 1 of 5 s shells and a p shell, whatever the vectors. *)
Theorem C78_results : forall scalar len all t maxam el, 0 < len -> allocated scalar len all ->
  (Nat.divide (simd_align len) (thread_area all t (maxsize maxam el)) <-> Nat.divide len (t * maxsize maxam el)).
Proof. exact @results_iff. Qed.
Print Assumptions C78_results.
Theorem C78_results_refuted : exists maxam el, forall k all, 0 < k -> Nat.divide (simd_align (2 ^ k)) all ->
  ~ Nat.divide (simd_align (2 ^ k)) (thread_area all 1 (maxsize maxam el)).
Proof. exact results_second. Qed.
Print Assumptions C78_results_refuted.
(** And in example1.c: true of all six calls exactly if the vectors are shorter than 8 doubles. *)
Theorem C78_example1 : forall k a, k <= 3 -> Nat.divide (simd_align (2 ^ k)) a ->
  ((forall x, In x (example1_targets a) -> Nat.divide (simd_align (2 ^ k)) x) <-> k < 3).
Proof. exact example1_iff. Qed.
Print Assumptions C78_example1.

(** Vectors of 4, batches of 8: 16 primitives in the ket, two in the bra, with screening. *)
Example C78_example :
  length (kernel_loads 4 8 ex_bra ex_ket (1 # 2) false true (Some true)) = 88 /\
  nth_error (kernel_loads 4 8 ex_bra ex_ket (1 # 2) false true (Some true)) 10 = Some (a_prefac, 0) /\
  nth_error (kernel_loads 4 8 ex_bra ex_ket (1 # 2) false true (Some true)) 87 = Some (a_prefac, 12) /\
  kernel_loads 4 8 ex_bra ex_ket 2 false true (Some true) = [] /\
  map (fun x => (x - 4096) / 8 mod 8) (example1_targets 4096) = [0; 0; 0; 0; 0; 4] /\
  tmp_loads 16 18 <> [].
Proof. vm_compute. repeat split; discriminate. Qed.
