(** Alignment of the vector accesses.
    Source: skel/simint/vectorization/vectorization.h:24-68 (SIMINT_SIMD_ALIGN_DBL, SIMINT_ASSUME_ALIGN_DBL,
    SIMINT_ALLOC), intrinsics_{sse,avx,avx512}.h (SIMINT_DBLLOAD and mask_load are the aligned loads
    [_mm_load_pd], [_mm256_load_pd], [_mm512_load_pd]), intrinsics_avx512.h:97-134 (contract_all);
    generator/ostei/OSTEI_Writer.cpp:409-410, 470-733, generator/ostei/OSTEIDeriv1_Writer.cpp:628-629,
    760-900 (the loads of the loop nest); skel/simint/shell/shell.c:131-185, 605-757 (the arrays);
    skel/test/test_eri.cpp:60-135, skel/test/test_eri_deriv1.cpp, benchmark_eri.cpp:51-172 (areas of the
    threads); skel/examples/example1.c:118-153.

    Addresses are natural numbers, in bytes; a double has 8 bytes.  An aligned load at an address that
    is not a multiple of the size of the vector is undefined behaviour.  What the allocators promise is
    a premise ([allocated]).  Values are not modelled here, only which addresses are loaded from; which
    loads are left out depends on the screen values, as in [Kernel]. *)
From Coq Require Import List Arith Lia Bool QArith.
Import ListNotations.
From Verif Require Import Base Simd Offsets Starts Layout Kernel Cat.
Set Implicit Arguments.
Local Open Scope nat_scope.

(** Byte address of element [k] of an array of doubles at [a]. *)
Definition elt (a k : nat) : nat := a + 8 * k.
(** vectorization.h:24. *)
Definition simd_align (len : nat) : nat := len * 8.
(** What SIMINT_ALLOC guarantees (vectorization.h:62-68): with SIMINT_SCALAR it is malloc (aligned for
    every basic type), otherwise posix_memalign with SIMINT_SIMD_ALIGN. *)
Definition allocated (scalar : bool) (len a : nat) : Prop :=
  if scalar then len = 1 /\ Nat.divide 8 a else Nat.divide (simd_align len) a.

(** ** The loads of a kernel *)
Section Loads.
(** Vector length, SIMINT_NSHELL_SIMD, bra, ket, tolerance, kind of [vector_max]. *)
Variables (len nss : nat) (P K : batch) (tol : Q) (zf : bool).
(** Is it a kernel for derivatives; does the ket have a vertical recurrence, and with PA or PB
    (OSTEI_Writer.cpp:627-653). *)
Variables (deriv : bool) (ketvrr : option bool).

(** Vectors loaded after the screening test: alpha (595), alpha2 and beta2 (OSTEIDeriv1_Writer.cpp:800-801),
    x, y, z (605-607), PA or PB (640-652), prefac (688). *)
Definition ket_arrs : list arr :=
  [a_alpha] ++ (if deriv then [AAlpha2; ABeta2] else []) ++ [APrim 0; APrim 1; APrim 2] ++
  (match ketvrr with
   | None => []
   | Some true => [APrim 3; APrim 4; APrim 5]
   | Some false => [APrim 6; APrim 7; APrim 8]
   end) ++ [a_prefac].
(** Lines 564-712: [m] more vectors, [v] done; the load of the screen values is in line 575. *)
Fixpoint jloads (i jstart m v : nat) : list (arr * nat) :=
  match m with
  | 0 => []
  | S m' =>
    let j := jstart + v * len in
    (if check_screen tol then [(AScreen, j)] else []) ++
    (if vec_skip len P K tol zf i j then [] else map (fun a => (a, j)) ket_arrs) ++
    jloads i jstart m' (S v)
  end.
(** Lines 499-713: [m] more bra primitives from [i]. *)
Fixpoint iloads (jstart jend m i : nat) : list (arr * nat) :=
  match m with
  | 0 => []
  | S m' =>
    (if bra_skip P K tol i then [] else jloads i jstart (nvec len (jend - jstart)) 0) ++
    iloads jstart jend m' (S i)
  end.
(** Lines 480-731: [m] more batches, [b] done. *)
Fixpoint cdloads (istart n m b jstart : nat) : list (arr * nat) :=
  match m with
  | 0 => []
  | S m' =>
    let jend := batch_end nss K (b * nss) jstart in
    iloads jstart jend n istart ++ cdloads istart n m' (S b) (rnd len jend)
  end.
(** Lines 470-736. *)
Fixpoint abloads (m ab istart : nat) : list (arr * nat) :=
  match m with
  | 0 => []
  | S m' => cdloads istart (b_np P ab) (nbatch nss K) 0 0 ++ abloads m' (S ab) (istart + b_np P ab)
  end.
Definition kernel_loads : list (arr * nat) := abloads (b_clip P) 0 0.
End Loads.

(** ** The arrays of pairs put together from others, shell.c:131-185 with [nprim] of 622-637 or 745-757 *)
(** Element [j] of the array number [k] of a block at [a] whose arrays have [al] elements. *)
Definition cat_addr (a al k j : nat) : nat := elt a (al * k + j).

(** ** contract_all for AVX-512, intrinsics_avx512.h:97-134 *)
(** The loads from [double tmp[64]] for [ncart] components. *)
Definition tmp_loads (tmp ncart : nat) : list nat :=
  flat_map (fun _ => map (fun i => elt tmp (i * 8)) (seq 0 8)) (seq 0 (ncart / 8)).
(** Where a compiler may put a local array of doubles without an alignment attribute: the language
    says 8, the x86-64 ABI 16 for arrays of 16 bytes or more. *)
Definition local_array (a : nat) : Prop := Nat.divide 16 a.

(** ** Areas of the threads *)
(** [all + ithread * size], test_eri.cpp:131-133, benchmark_eri.cpp:171-172. *)
Definition thread_area (all t size : nat) : nat := elt all (t * size).
(** [maxsize], test_eri.cpp:60-61: [el] is [maxparams.second]. *)
Definition maxsize (maxam el : nat) : nat :=
  let nc := (maxam + 1) * (maxam + 2) / 2 in el * el * nc * nc.

(** ** example1.c:118-153: where the integrals of the six calls go *)
(** [ntotal] before each call: shell pairs of the two sides and components. *)
Fixpoint ntotals (n : nat) (l : list (nat * nat * nat)) : list nat :=
  match l with
  | [] => []
  | (p, q, c) :: r => n :: ntotals (n + p * q * c) r
  end.
(** 4 s shells and one p shell; (ss|ss), (ps|ss), (ps|ps), (pp|ss), (pp|ps), (pp|pp). *)
Definition example1_calls : list (nat * nat * nat) :=
  [(16, 16, 1); (4, 16, 3); (4, 4, 9); (1, 16, 9); (1, 4, 27); (1, 1, 81)].
Definition example1_targets (a : nat) : list nat := map (elt a) (ntotals 0 example1_calls).

(** A ket with three shell pairs for the examples: 2 * 2, 6 and 6 primitives, vectors of 4. *)
Definition ex_ket : batch := Batch (npf ex_pairs) 3 (fun _ => 1%Q) 1%Q.
Definition ex_bra : batch := Batch (fun _ => 2) 1 (fun _ => 1%Q) 1%Q.
