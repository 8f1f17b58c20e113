From Coq Require Import List Arith ZArith QArith.
Import ListNotations.
From Verif Require Import Base Simd Starts Layout Kernel IntRange IntRangeProof.
Set Implicit Arguments.
Local Open Scope nat_scope.

(** C81: when the [int] arithmetic of the library stays in range.  First: a kernel whose results, counted
    in doubles, do not exceed INT_MAX, and whose bra and ket positions do not either, computes every [int]
    without overflow, also when its momenta are permuted; what it clears is the array of results. *)
Theorem C81_kernel len nss P K tops nf (hashrr deriv : bool) : 0 < len -> 0 < nss ->
  (if hashrr then forall t, In t tops -> fits (nss * t) else tops = [nf] /\ deriv = false) -> 0 < nf ->
  fits (b_clip P * b_clip K * (if deriv then nf * 12 else nf)) ->
  fits (total (b_np P) (b_clip P)) -> fits (rnd len (start len nss (b_np K) (b_clip K)) + (len - 1)) ->
  fits (b_clip K + nss) -> fits (b_clip P) ->
  in_range (kernel_ints len nss P K tops nf hashrr deriv) /\ in_range (permute_ints P K nf deriv).
Proof. exact (@kernel_all len nss P K tops nf hashrr deriv). Qed.
Print Assumptions C81_kernel.
Example C81_kernel_example : in_range (kernel_ints 4 2 bra_ex ket_ex [6; 10] 18 true false) /\
  In (9 * 18) (kernel_ints 4 2 bra_ex ket_ex [6; 10] 18 true false).
Proof. exact kernel_ex. Qed.

Theorem C81_clear P K nf : fits (b_clip P * b_clip K * nf) ->
  memset_bytes P K nf = (Z.of_nat (b_clip P) * Z.of_nat (b_clip K) * Z.of_nat nf * 8)%Z.
Proof. exact (@memset_exact P K nf). Qed.
Print Assumptions C81_clear.
Example C81_clear_example : memset_bytes bra_ex ket_ex 18 = 1440%Z.
Proof. reflexivity. Qed.

(** The bound is needed: a kernel without overflow has all its results, up to the last quartet, below it. *)
Theorem C81_kernel_bound len nss P K tops nf (hashrr deriv : bool) : 0 < len -> 0 < nss ->
  in_range (kernel_ints len nss P K tops nf hashrr deriv) ->
  fits (b_clip P * b_clip K) /\
  (if hashrr then forall k, k < b_clip P * b_clip K -> fits (k * (if deriv then nf * 12 else nf))
   else fits (b_clip P * b_clip K * nf)).
Proof. exact (@kernel_ints_needs len nss P K tops nf hashrr deriv). Qed.
Print Assumptions C81_kernel_bound.
Example C81_kernel_bound_example : In (9 * 18) (kernel_ints 4 2 bra_ex ket_ex [6; 10] 18 true false).
Proof. exact (proj2 kernel_ex). Qed.

(** A result that fits in memory is not enough. *)
Theorem C81_results_refuted : ~ (forall len nss P K tops nf (deriv : bool), 0 < len -> 0 < nss -> 0 < nf ->
  (forall t, In t tops -> fits (nss * t)) ->
  (Z.of_nat (b_clip P) * Z.of_nat (b_clip K) * Z.of_nat (if deriv then nf * 12 else nf) * 8 < 2 ^ 63)%Z ->
  fits (total (b_np P) (b_clip P)) -> fits (rnd len (start len nss (b_np K) (b_clip K)) + (len - 1)) ->
  fits (b_clip K + nss) -> fits (b_clip P) ->
  in_range (kernel_ints len nss P K tops nf true deriv)).
Proof. exact results_refuted. Qed.
Print Assumptions C81_results_refuted.

(** Allocation of shell pairs. *)
Theorem C81_allocation len nss n pr : 0 < len -> 0 < nss -> fits (2 * n) -> fits (2 * alloc len nss n pr + len) ->
  in_range (allocation_ints len nss n pr).
Proof. exact (@allocation_ok len nss n pr). Qed.
Print Assumptions C81_allocation.
Example C81_allocation_example : in_range (allocation_ints 4 2 2 ex_pairs) /\ In 12 (allocation_ints 4 2 2 ex_pairs).
Proof. exact (conj (proj1 alloc_ex) (proj1 (proj2 alloc_ex))). Qed.

Theorem C81_allocation_bound len nss n pr : 0 < len -> 0 < nss -> in_range (allocation_ints len nss n pr) ->
  fits (2 * n) /\ fits (alloc len nss n pr) /\
  (forall k, k < n -> fits (if sp_same (pr k) then sp_n1 (pr k) * (sp_n1 (pr k) + 1) else sp_n1 (pr k) * sp_n2 (pr k))).
Proof. exact (@allocation_needs len nss n pr). Qed.
Print Assumptions C81_allocation_bound.
Example C81_allocation_bound_example : in_range (allocation_ints 4 2 2 ex_pairs).
Proof. exact (proj1 alloc_ex). Qed.

(** The size in bytes is computed in [size_t] and does not wrap. *)
Theorem C81_memsize meth deriv len nss n pr : fits n -> fits (alloc len nss n pr) ->
  memsize meth deriv (Z.of_nat n) (Z.of_nat (alloc len nss n pr)) =
  (8 * Z.of_nat (total_doubles len nss meth deriv n pr) + 4 * Z.of_nat n)%Z.
Proof. exact (@memsize_exact meth deriv len nss n pr). Qed.
Print Assumptions C81_memsize.
Example C81_memsize_example :
  memsize Schwarz true 2 12 = (8 * Z.of_nat (total_doubles 4 2 Schwarz true 2 ex_pairs) + 4 * 2)%Z.
Proof. exact (proj2 (proj2 alloc_ex)). Qed.

(** A batch whose count fits can still overflow: a shell paired with itself. *)
Theorem C81_same_shell_refuted : ~ (forall len nss n pr, 0 < len -> 0 < nss -> fits (2 * n) ->
  fits (alloc len nss n pr + len) -> in_range (allocation_ints len nss n pr)).
Proof. exact halving_refuted. Qed.
Print Assumptions C81_same_shell_refuted.

(** Areas of the test programs. *)
Theorem C81_tests nthread maxel maxam (deriv : bool) : 1 <= nthread -> maxam <= 1000 ->
  (in_range (area_ints nthread maxel maxam deriv) <->
   (Z.of_nat nthread * (Z.of_nat maxel * Z.of_nat (ncart_max maxam)) ^ 2 * (if deriv then 12 else 1) <= INT_MAX)%Z).
Proof. exact (@area_iff nthread maxel maxam deriv). Qed.
Print Assumptions C81_tests.
Example C81_tests_example : in_range (area_ints 16 80 3 true) /\ ~ in_range (area_ints 64 700 3 false).
Proof. exact area_ex. Qed.

(** The size of one area can be in range and that of all areas not. *)
Theorem C81_threads_refuted : ~ (forall nthread maxel maxam deriv, 1 <= nthread -> maxam <= 1000 ->
  in_range (maxsize_ints maxel maxam deriv) -> in_range (area_ints nthread maxel maxam deriv)).
Proof. exact threads_refuted. Qed.
Print Assumptions C81_threads_refuted.
