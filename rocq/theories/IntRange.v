(** The [int] arithmetic of the kernels, of the allocation of shell pairs and of the test programs.
    Source: generator/ostei/OSTEI_Writer.cpp:190-238, 416-421, 460-500, 564-566, 713-747,
    generator/ostei/OSTEI_Writer_Base.cpp:20-30, generator/ostei/OSTEI_HRR_Writer.cpp:132-146,
    generator/ostei/OSTEIDeriv1_Writer.cpp:205-250, 635-958; skel/simint/shell/shell.c:131-185, 325-382;
    skel/test/test_eri.cpp:57-75, test_eri_deriv1.cpp:57-75, benchmark_eri.cpp:50-57.

    The counters of the library are [int]; a result above INT_MAX is undefined behaviour.  A run is
    described by the list of the exact values of its [int] expressions (all are non-negative), in the
    order of evaluation; it is defined when all are in range.  Up to the first value out of range the
    exact values are the values of the program.  [int] has 32 bits and [size_t] 64.

    Simplifications: no primitive is screened (screening leaves out values, it adds none); the counters
    of a loop are listed by the values tested at its head. *)
From Coq Require Import List Arith Lia Bool ZArith QArith.
Import ListNotations.
From Verif Require Import Base Simd Offsets Starts Layout Kernel.
Set Implicit Arguments.
Local Open Scope nat_scope.

Definition INT_MAX : Z := 2147483647%Z.
Definition fits (v : nat) : Prop := (Z.of_nat v <= INT_MAX)%Z.
Definition in_range (t : list nat) : Prop := Forall fits t.
(** Arithmetic in [size_t]. *)
Definition size_t (z : Z) : Z := (z mod 2 ^ 64)%Z.

(** ** Kernels *)
Section KernelInts.
(** Vector length, SIMINT_NSHELL_SIMD, bra, ket. *)
Variables (len nss : nat) (P K : batch).
(** Components of the accumulated classes, components of the result, has the class an HRR, is it a
    derivative class. *)
Variables (tops : list nat) (nf : nat) (hashrr deriv : bool).

Local Notation p := (b_clip P).
Local Notation q := (b_clip K).
(** Doubles of one quartet. *)
Definition per_quartet : nat := if deriv then nf * 12 else nf.

(** [P.nshell12_clip * Q.nshell12_clip * ncart * sizeof(double)], OSTEI_Writer.cpp:418-421: the factors
    are multiplied as [int] before [sizeof]. *)
Definition memset_ints : list nat := if hashrr then [] else [p * q; p * q * nf].
Definition memset_bytes : Z := size_t (Z.of_nat (p * q * nf) * 8).
(** [jend += Q.nprim12[cd+i]], OSTEI_Writer.cpp:484-486: [m] more pairs. *)
Fixpoint jend_ints (cd m i jend : nat) : list nat :=
  match m with
  | 0 => []
  | S m' => [cd + i; jend + b_np K (cd + i); S i] ++ jend_ints cd m' (S i) (jend + b_np K (cd + i))
  end.
(** The loop over vectors, OSTEI_Writer.cpp:564-566 ([j += SIMINT_SIMD_LEN], [j + SIMINT_SIMD_LEN]). *)
Definition j_ints (jstart jend : nat) : list nat :=
  map (fun v => jstart + v * len + len) (seq 0 (nvec len (jend - jstart))).
(** One primitive of the bra: pointers into the accumulated arrays (OSTEI_Writer_Base.cpp:20-30), vectors. *)
Definition i_ints (abcd jstart jend i : nat) : list nat :=
  map (fun t => abcd * t) tops ++ j_ints jstart jend ++ [S i].
(** Loop around the HRR, OSTEI_HRR_Writer.cpp:132-146. *)
Fixpoint hrr_ints (m abcd real : nat) : list nat :=
  match m with
  | 0 => []
  | S m' =>
    map (fun t => abcd * t) tops ++ [real * nf] ++ (if deriv then [real * nf * 12] else []) ++
    [S abcd; S real] ++ hrr_ints m' (S abcd) (S real)
  end.
(** OSTEI_Writer.cpp:480-731; [abcd]: quartets done ([real_abcd] with an HRR). *)
Fixpoint cd_ints (istart n m b jstart abcd : nat) : list nat :=
  match m with
  | 0 => []
  | S m' =>
    let cd := b * nss in
    let nb := batch_size nss K cd in
    let jend := batch_end nss K cd jstart in
    [cd + nss; nb] ++ jend_ints cd nb 0 jstart ++
    flat_map (i_ints (if hashrr then 0 else abcd) jstart jend) (seq istart n) ++
    [jend + (len - 1); rnd len jend] ++
    (if hashrr then hrr_ints nb 0 abcd else [abcd + nb]) ++
    cd_ints istart n m' (S b) (rnd len jend) (abcd + nb)
  end.
(** OSTEI_Writer.cpp:470-736. *)
Fixpoint ab_ints (m ab istart abcd : nat) : list nat :=
  match m with
  | 0 => []
  | S m' =>
    [istart + b_np P ab] ++ cd_ints istart (b_np P ab) (nbatch nss K) 0 0 abcd ++ [S ab] ++
    ab_ints m' (S ab) (istart + b_np P ab) (abcd + q)
  end.
(** The whole kernel; the last value is the one returned (747).  Line 740 is compiled in with
    SIMINT_PRIM_SCREEN_STAT only and is left out. *)
Definition kernel_ints : list nat := memset_ints ++ ab_ints p 0 0 0 ++ [p * q].

(** Kernel for permuted momenta, OSTEI_Writer.cpp:190-238, OSTEIDeriv1_Writer.cpp:205-250: the sums
    [q*N + a*.. + b*.. + c*.. + d] take values [q*N + r] with [r < N]. *)
Definition permute_ints : list nat :=
  flat_map (fun k => map (fun r => k * nf + r) (seq 0 nf) ++
    (if deriv then map (fun r => 12 * (k * nf + r)) (seq 0 nf) ++ [k * 12; k * 12 * nf] else [k * nf]) ++ [S k])
    (seq 0 (p * q)).
End KernelInts.

(** ** Allocation of a batch of shell pairs *)
Section AllocInts.
Variables (len nss : nat) (n : nat) (pr : nat -> spair).
(** shell.c:366-369. *)
Definition np_ints (s : spair) : list nat :=
  if sp_same s then [sp_n1 s + 1; sp_n1 s * (sp_n1 s + 1)] else [sp_n1 s * sp_n2 s].
(** shell.c:364-379. *)
Fixpoint alloc_ints (m i nprim batchprim : nat) : list nat :=
  match m with
  | 0 => []
  | S m' =>
    let bp := batchprim + npf pr i in
    np_ints (pr i) ++ [bp; S i] ++
    (if ((S i) mod nss =? 0) || (n <=? S i)
     then [bp + (len - 1); rnd len bp; nprim + rnd len bp]
     else []) ++ [2 * S i] ++
    (if ((S i) mod nss =? 0) || (n <=? S i) then alloc_ints m' (S i) (nprim + rnd len bp) 0
     else alloc_ints m' (S i) nprim bp)
  end.
Definition allocation_ints : list nat := alloc_ints n 0 0 0.
End AllocInts.

(** shell.c:135-148, in [size_t]. *)
Definition memsize (meth : method) (deriv : bool) (npair nprim : Z) : Z :=
  let dprim := size_t (nprim * 8) in
  let ishell := size_t (npair * 4) in
  let dshell := size_t (npair * 8) in
  size_t (size_t (size_t (dprim * Z.of_nat (nprim_arr meth deriv)) + size_t (dshell * 3)) + ishell).

(** ** Areas of the test programs *)
Section TestInts.
(** Threads, the two results of FindMaxParams (momentum clipped), derivatives. *)
Variables (nthread maxel maxam : nat) (deriv : bool).
Definition ncart_max : nat := (maxam + 1) * (maxam + 2) / 2.
(** test_eri.cpp:60-61, benchmark_eri.cpp:53-54; test_eri_deriv1.cpp:58-59 multiplies by 12 at the end. *)
Definition maxsize_ints : list nat :=
  [maxam + 1; maxam + 2; (maxam + 1) * (maxam + 2);
   maxel * maxel; maxel * maxel * ncart_max; maxel * maxel * ncart_max * ncart_max] ++
  (if deriv then [maxel * maxel * ncart_max * ncart_max * 12] else []).
Definition maxsize_val : nat :=
  if deriv then maxel * maxel * ncart_max * ncart_max * 12 else maxel * maxel * ncart_max * ncart_max.
(** [nthread * maxsize * sizeof(double)], test_eri.cpp:74; [ithread * maxsize] is smaller. *)
Definition area_ints : list nat := maxsize_ints ++ [nthread * maxsize_val].
Definition area_bytes : Z := size_t (Z.of_nat (nthread * maxsize_val) * 8).
End TestInts.

(** ** Examples *)
(** Bra of 2 pairs and ket of 5 pairs, as in the smaller examples of [Kernel]. *)
Definition bra_ex : batch := Batch (fun t => S t) 2 (fun _ => 1%Q) 1%Q.
Definition ket_ex : batch := Batch (fun t => 2 + t mod 2) 5 (fun _ => 1%Q) 1%Q.
(** 464 pairs on each side, one primitive each. *)
Definition big : batch := Batch (fun _ => 1) 464 (fun _ => 1%Q) 1%Q.
