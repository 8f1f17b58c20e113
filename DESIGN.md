# Design: a Coq model of simint-generator

Source modelled: `/repo` (simint-chem/simint-generator), read as text. Model and
proofs: Coq 8.16.1, `rocq/theories`, logical name `Verif`.

## Reading guide

* Model files (`theories/*.v` without the `Prop_` prefix) hold definitions that
  mirror functions of the code, each with a comment naming file and lines, followed by
  lemmas.
* `Prop_*.v` files hold only the property theorems. Each is closed by
  `exact lemma` and followed by `Print Assumptions`; an `Example` beside it shows that its
  hypotheses are met by a concrete non-trivial case.
* `MANIFEST.json` maps each property of `properties.jsonl` to exact theorem names.

## Modelling conventions

* **Integers.** `int`/`size_t` become `nat` or `Z` without a bound. C overflow is modelled in `IntRange.v` only
  (C81: sizes below which the expressions of kernels, allocations and test programs stay in range).
* **Floating point.** Values are elements of an arbitrary commutative ring, given by the
  record `cring` (carrier, operations, `ring_theory` proof). A theorem of the form
  `forall R : cring, ...` holds for the reals and for every other ring, and uses no axioms.
  Rounding is not modelled. Divisions are represented by an element `inv` with a hypothesis
  `x * inv = 1`. `exp`, `sqrt`, `pow` are opaque section variables / function arguments.
* **Memory.** C arrays are finite lists or functions from index to value. Where a property is
  about bounds or uninitialised data, reads return `option` and `None` is the
  undefined-behaviour outcome.
* **Loops** become structural recursion or `fold`. `while` loops with no structural measure
  carry fuel and return `None` when it runs out; theorems exclude that outcome.
* **std::set / std::map** are lists with the set's iteration order where order is observable,
  and predicates where it is not (said at the definition).
* **External effects** (files, subprocesses, threads) are not modelled, except where an
  order of writes matters.
* A statement that is false of the code is proved as `..._refuted` with a
  concrete witness, next to the theorem for the largest condition under which it holds.

## Trusted base

* Coq's kernel (with `vm_compute`), `coqc` 8.16.1.
* The transcription of the code into Gallina (comments cite lines).
* `Print Assumptions` of each property theorem: see the end of this file.

## Plan per property

| id | model | how proved |
|----|-------|------------|
| C01 | `Cart.v`: the Psi4 iteration, `ncart`, position | closed form for the position; induction on L |
| C02 | `Tables.v`: the two ordering tables transcribed | finite domain: `forallb` by `vm_compute`, lifted by `forallb_forall` |
| C03 | `Recur.v`: the table transcribed + the python generator | generator proved for every L; table equal to generator output by `vm_compute` |
| C04 | both tables | equality by `vm_compute`; witness for GAMESS |
| C05 | `Cart.v`: `hash_exp` with bit operations | bit lemmas; witness outside the range |
| C06 | `Cart.v`: mixed-radix positions | arithmetic |
| C07 | `HRRStep.v` | ring identity over `cring` |
| C08, C09 | `HRRAlgo.v`, `HRRExec.v`: worklist, order, emitted statements, interpreter | invariants over the worklist; induction over statements |
| C10 | `GenHRR.v`: loops of the run-time routines | induction over loops, index lemmas |
| C11 | `VRRStep.v` | case analysis, ring |
| C12, C13, C14 | `VRRAlgo.v`, `VRRExec.v` | as HRR, plus the auxiliary-order requirement invariant |
| C15, C16 | `GenVRR.v` | index lemmas, program equivalence |
| C17 | `VRRExec.v` | membership |
| C18, C19 | `Work.v`: partition, worksize maximum | arithmetic, monotonicity |
| C20 | `Offsets.v`, `Starts.v`: lane state machine | invariant over lanes and vectors |
| C21 | `Contract.v` | list/sum algebra |
| C22, C23, C24 | `Kernel.v`: loop nest over a layout | loop invariants; witness for the bra defect |
| C25 | `Ssss.v` | frame lemma + witness |
| C26 | `PairData.v` | inequality over `Z`/`Q` + witness |
| C27, C28, C31 | `Layout.v`: allocation, fill, screen padding over a flat block | invariants + witness |
| C29 | `PairData.v` | sums over pairs, ring |
| C30 | `Sort.v`: in-place quicksort with bounds-checked accesses | Hoare partition invariant |
| C32, C33 | `Cat.v` | invariant + witnesses |
| C34, C35, C36 | `Heap.v`: heap of buffers, life-cycle operations | invariant over histories + witnesses |
| C37 | `PairData.v` | arithmetic |
| C38 | `PairData.v` | ring |
| C39 | `Permute.v` | index bijection |
| C40, C41, C52 | `Driver.v`, `DriverList.v`: create.py loops, external routines, file lists | list reasoning |
| C42, C43 | `Deriv.v` (formation loop), `DerivSpec.v` (translational invariance from the recurrence, kernel coefficients, whole quartet), `DerivExample.v` | index lemmas over the table, ring, composition with the horizontal run |
| C44, C45 | `Boys.v` (model), `BoysProof.v` | arithmetic over `Q`/`Z`, frame lemmas for the stores, ring |
| C53 | `BoysSeries.v` (power series), `BoysData.v` (tables), `BoysCheck.v`/`BoysTable.v`/`BoysFacts.v` (certified enclosures of all entries), `BoysAccuracy.v` | interval arithmetic proved sound, run by `vm_compute`; exact Taylor re-expansion of the series; error propagation |
| C54 | `BoysLong.v` | evaluation at x = 36.6025 against the enclosure |
| C46, C47 | `OneE.v` (model), `OneEProof.v`, `OneESpec.v`, `OneEInt.v` | loop invariants over the table, ring; existence by integration by parts of polynomials |
| C48 | `Potential.v` (model), `PotentialProof.v`, `PotentialSpec.v`, `PotentialInt.v` | loop invariant: which scratch elements are determined; existence by commuting shift operators |
| C49 | `Naming.v`: array, function and file names over `string`; `None` for reading `amchar` outside its letters | suffixes of equal length, distinct letters |
| C50, C55 | `CmdLine.v` (model, grammar of command lines), `CmdLineProof.v` | refinement of the two index loops by readings, unique readings, decimal text round trip |
| C51 | `Simd.v` | bit lemmas |
| C56 | `InitData.v` (assignments of the shipped files), `Dispatch.v` (gen_fill.py, table, calls) | invariant over the guarded assignments, for any maximum; the shipped files compared with the generator's output |
| C57 | `OSFamily.v` | commuting operators on polynomials in twelve variables give the solution; induction on the total momentum for uniqueness |
| C58 | `EndToEnd.v` (model of a whole kernel, integral specification), `EndToEndProof.v`, `EndToEndExample.v` | composition of C08, C09, C14, C15, C22, C27, C29, C57, C59 |
| C59 | `Create.v`: rows of the filled block (C29) rearranged by the sort (C30) | one rearrangement for all rows, read back as an order of primitive pairs |
| C60 | `OrdRing.v` (ordered rings), `Screen.v` (model, specification), `ScreenProof.v`, `ScreenExample.v` | maxima by loop invariants; Schwarz inequality of a positive form over finite combinations of charges, symmetry of the integrals (C57); error summed over the terms C58 leaves out. In `Prop_Screen.v` positivity of the Coulomb form is a hypothesis (`repulsive`) on the external functions; for the real functions it is proved (`Prop_RealScreen.v`). `OSSplit.v`: a quartet is a sum over directions of one-dimensional chains; `RealLine.v`: limits of integrals over the line, positive kernels; `RealCharge.v`: Gaussian overlap as such a limit; `RealRepulsive.v`: the energy is an average over t of products of positive kernels; `RealScreened.v`: the bounds of `ScreenProof.v` without the hypothesis |
| C61 | `Normalize.v` (model over the real numbers), `NormalizeProof.v` | the moments of a centred Gaussian from the recurrences of C46, the double sum factored out; the rest is algebra of real powers. `NormPos.v`: `norm_sum > 0` exactly when the shell is not the zero function - the double sum is the limit of integrals of squares (tools of C63), and combinations of Gaussians with distinct exponents do not vanish. Where it is zero the code divides by zero; the model then says nothing (real division is total). |
| C62 | `Constants.v` (literals, exact values), `ConstantsProof.v` | pi between two rationals 67 decimals long by Machin's series (stdlib `Machin`), then powers of the literals compared with powers of the bounds. |
| C63 | `BoysReal.v` (the integral, its power series), `BoysRealLong.v` (the long-range formula), `BoysRealSplit.v` | antiderivatives and the mean value theorem instead of integration lemmas; recursion by parts; error carried up the orders; exp(-x) x^(n+1/2) falling from 36.5 on; a table of 32 bounds checked over `Q`. The library square root and exponential are assumed good to 10^-15 (hypotheses `sqrt_good`, `exp_good`, met by the example). |
| C64 | `DerivKernel.v` (model of a whole derivative kernel, specification), `DerivKernelProof.v`, `DerivKernelExample.v` | composition of C58 with the plans for the tagged request, C42, C43 and the packing of equal shells (C29) |
| C65 | `OSMoves.v` (the recurrence differentiated, any ring), `RealDeriv.v` (Boys function, primitives, sums), `RealDerivKernel.v` | the family of Obara-Saika values is determined by its recurrence, so the differentiated family is found by induction on the recurrence; only the s integrals need calculus. Composed with C64. |
| C66 | `RealDerivKernel.v` (witness `rk_*`) | refuted: a pair of s shells, value and derivative in closed form |
| C67 | `RealUnique.v` (specification `s_repulsion`, `obeys`, `integrals`; proof) | induction on the sum of the powers: the raised function is fixed by the derivative of the lower one (uniqueness of limits) and C65. The specification does not mention a recurrence. |
| C68 | `Reference.v`, `RefBuffer.v` (model of ValeevRef.cpp and of the passes of the tests), `SeqConv.v`, `Moments.v`, `Expect.v`, `ReferenceProof.v`, `RefBufferProof.v` | both closed forms are linear in the values of the Boys function, so it is enough to take powers of a number for these; then the sums split into the three directions, each the expectation of a polynomial under a Gaussian weight, and the moments obey the Obara-Saika recurrence. The buffers by C70, the kernels by C58 and C64. `RefTests.v`: the overlap for two first shells. Long double rounding and reading the basis file are left out; `Valeev_F` is C71. |
| C69 | `RefBuffer.v` (`value` with NaN, `calc_error`, `update_error`, `marked`), `RefTests.v` | the fold only grows; refutations by evaluation. The rounding of `fabs(calc - r)` is left out. |
| C70 | `RefLoops.v` | rows of the triangle as for the iterator of the generator; stores at consecutive places from `i * n234` on. |
| C71 | `ValeevF.v` | the remainder of the series is the last term times 2x F of a higher order; where the loop stops that factor is below exp(-x); term by term comparison with order 0 and x = 20 bounds the number of passes (82); downward the relative error does not grow because exp(-x) > 0. `erfl` is an argument with its definition as hypothesis. |
| C72 | `Packed.v` | triangular numbers are strictly increasing, so the index of a pair is injective on unordered pairs and onto; eight nested loop invariants: what is written is right, and which cells are written; unvisited quartets by the permutations. The computation of one quartet is a function with its property as hypothesis. |
| C73 | `MolFile.v` (files as sequences of tokens), `MolFileProof.v` | parsing what is printed, by induction over shells, rows and contractions; the map of shells by its keys in order; monotone sizes. Spelling of numbers left out. Refutations by concrete files and sizes. |
| C74 | `ScreenTest.v` (the loops with their counters), `ScreenTestProof.v` | the counters by induction over the nested loops as counts over products; numbers of pairs and quartets as triangular numbers; monotonicity of the threshold for the last part. Refutation: one shell with one primitive and vector length 4. |
| C75 | `Fortran.v` (both declarations as text, the preprocessor, the layout of structures for any sizes and alignments, prototypes, wrappers), `FortranProof.v` | equality of the member lists after preprocessing; offsets of the members after the conditional ones by monotonicity of rounding up; a byte past everything initialised for the refutation; finite case analysis over the interface bodies. Code generation of the compilers is trusted. |
| C76 | `BoysGrid.v` (the loop over the points, the declared array, the lookup, binary numbers rounded to nearest even), `BoysGridProof.v` | the points are the multiples of the spacing below the largest argument, counted by the ceiling, declared by the floor; with rounding a check of 366 points by computation, lifted over all row functions |
| C77 | `BoysScripts.v` (factor tables, values, cutoff search over the reals), `GaussInt.v` (the Gaussian integral by the limit of an increasing family), `BoysScriptsProof.v` | the incomplete gamma function enters by its derivative and its value at 0; the error of the long-range form is a tail of a positive integral, so it decreases; the search ends because the tail tends to 0 |
| C78 | `Align.v` (the loads of the loop nest as a list of array and index, byte addresses, areas of threads, contract_all's local array), `AlignProof.v` | induction over the four loops: each batch starts at `start` of its first pair, a multiple of the vector length; `alloc_ok` for the ends; divisibility; witnesses for the refutations. What `posix_memalign` and `malloc` promise is a premise. |
| C79 | `BuildSel.v` (names, definitions, included files, header selection) | only the name in small letters matters (by induction on the text), then case analysis over the list |
| C80 | `Vector.v` (macros of all headers over intrinsics given by their documented formulas, mask_load, minimum and maximum) | ring identities per header; invariants of the folds |
| C81 | `IntRange.v` (exact values of the `int` expressions of a kernel, an allocation, the test programs), `IntRangeProof.v` | induction over the loop nest, invariant on positions; membership of the largest value for the converse |
| C82 | `Threads.v` (accesses of the iterations of the parallel loops of the tests and the benchmark; keys of the shell map) | classification of the accesses of a thread; invariant: keys looked up in the order of the loops |
| C83 | `TypeOrder.v` (operators of QAM, DAM, Gaussian, Doublet, Quartet; std::set as an increasing list; sets of targets) | lexicographic composition of orders; insertion keeps an increasing list; uniqueness of increasing lists |
| C84 | `PointCharge.v` over `Potential.v` (C48) and `RealUnique.v` (C67) | the coefficients and starting values of the vertical recurrence with a ket of exponent q converge to those of osoei_potential.c; induction over the recurrence carries the limit to all momenta |
| C85 | `RealOneE.v` over `OneE.v` (C46, C47) | derivative of a family of overlaps whose coefficients move, by induction over the recurrences; product over the directions; uniqueness by induction on the momenta |
| C86 | `Programs.v` over `Dispatch.v` (C56), `MolFile.v` (C73) | induction over the list of calls with the position as accumulator; positions covered exactly once; refutation for every prefix before a screened call |
| C87 | `RealGram.v` over `OneE.v` (C46, C47) and C85 | specification: limit of integrals over growing intervals, iterated; integral of the products on a line by induction over the recurrences (integration by parts); the quadratic form is the integral of a square |
| C88 | `RoundSum.v` (the routines of `Contract.v`, C21, with rounding) | which values reach which element and in which order; the error of a sum by induction over the additions; invariant over the calls |
| C89 | `RoundHRR.v` (the run of `HRRExec.v`, C09, with the right-hand side as an argument) | simulation: exact and rounded run side by side, the bound of a class by the units of momentum moved; the exact run is C09 |
| C90 | `RoundBoys.v` (the Taylor branch of `Boys.v`, C44, with rounding), `RoundBoysAcc.v` (against the integral of `BoysReal.v`) | intervals for the index; the error of the nested expression by induction over its levels; the remainder of the expansion by comparing primitives, the table by `entry_value` |
| C91 | `RoundSplit.v` (`boys_F_split` of `Boys.v`, C44, C45, with rounding, one lane) | relative errors multiply along the recursion, whose terms are all nonnegative; `boys_by_parts` for the exact recursion; C90 for the start |
| C92 | `RoundLong.v` (the long-range formula of `Boys.v`, C44, with rounding, one lane) | relative errors multiply in products and pass through the square root; induction over the loop |

## What is modelled, what is not

Modelled (files under `/repo`):

* `python/ordering_common`, `python/gen_ordering.py`, `python/gen_recurinfo.py`, `generator/Ordering_*.cpp`,
  `generator/Types.{hpp,cpp}` (Gaussians, iteration, hashing), `generator/Ncart.hpp` - `Cart.v`, `Tables.v`, `OrderData.v`, `Recur.v`, `RecurData.v`.
* `generator/ostei/Makowski.hpp`, `OSTEI_HRR_Algorithm_Base.cpp`, `OSTEI_HRR_Writer.cpp`, `OSTEI_VRR_Algorithm_Base.cpp`,
  `OSTEI_VRR_Writer.cpp`: plans, and the meaning of the emitted statements (an interpreter for what is printed) - `Mdir.v`, `HRR*.v`, `VRR*.v`.
* `generator/ostei/OSTEI_Writer.cpp`, `OSTEIDeriv1_Writer.cpp`: workspace partition, loop nest, accumulation, permuted kernels, formation of derivatives - `Work.v`, `Kernel*.v`, `Offsets.v`, `Permute.v`, `Deriv*.v`; all of it together for one kernel - `EndToEnd*.v`.
* `create.py`, the generator main programs as far as they choose classes and routines - `Driver*.v`, `Work.v`; the command lines between them and `generator/CommandLine.cpp` - `CmdLine*.v`; names, `generator/Naming.hpp` - `Naming.v`.
* Run-time library `skel/`: shell pairs (`shell.c`, `shell_screen.c`), general HRR/VRR routines, `ostei_s_s_s_s.c`, contraction and rounding macros,
  Boys function, one-electron integrals, table of kernels and calls through it (`ostei_init.c`, `ostei_deriv1_init.c`, `ostei.c`, `python/gen_fill.py`) - `Layout.v`, `PairData.v`, `Sort.v`, `Create.v`, `Screen.v`, `Normalize.v`, `Constants.v`, `Cat.v`, `Heap.v`, `Starts.v`, `GenHRR*.v`, `GenVRR*.v`, `Ssss.v`, `Contract.v`, `Simd.v`, `Boys*.v`, `OneE*.v`, `Potential*.v`, `InitData.v`, `Dispatch.v`.
* `skel/test`: the reference integrals (`ValeevRef.cpp`), the passes of `test_eri.cpp` and `test_eri_deriv1.cpp` and their comparison (`Common.cpp`) - `Reference.v`, `RefLoops.v`, `RefBuffer.v`, `ValeevF.v`.
* `skel/examples/example_packed.c`: index and loops - `Packed.v`.
* `skel/test/dat/gen/gen_mol.py`, `ReadBasis` and `FindMaxParams` of `skel/test/Common.cpp`, buffer sizes of the tests - `MolFile.v`.
* `skel/test/screentest.cpp` (without reading and printing) - `ScreenTest.v`.
* `skel/simint/simint.f90` (types, interface bodies, sizes and intents of the wrappers) - `Fortran.v`.
* `python/boys/gen_boys_shortgrid.py` (points, array, constants) - `BoysGrid.v`.
* `python/boys/boys_common/boys.py`, `gen_boys_longfac.py`, `cutoff_finder.py`, `python/gen_shellconstants.py` (numbers, not the printing) - `BoysScripts.v`.
* `skel/simint/vectorization`: macros and functions of all headers - `Vector.v`, `Contract.v`, `Simd.v`; alignment of the accesses - `Align.v`; `skel/cmake/DefaultFlags.cmake` as far as it chooses the header - `BuildSel.v`.
* Ranges of the `int` expressions of kernels, `simint_allocate_multi_shellpair2` and the areas of the tests - `IntRange.v`.
* The parallel loops of `skel/test` (which places each iteration reads and writes) - `Threads.v`.
* The operators `<` and `==` of `generator/Types.hpp` and the sets with them (the specification of `std::set`, not its tree) - `TypeOrder.v`; it supplies the enumerations that C08 to C14, C18, C41 and C58 take as parameters.
- `RoundSum.v`: `contract`, `contract_all`, `contract_fac`, `contract_all_fac` of all vector headers with rounding after every operation
  (relative error; no overflow, no underflow of products, no fused operations).
- `RoundHRR.v`: the horizontal recurrence (inline, external, table-driven) with rounding after every operation or after fused ones
  (relative error; no overflow, no underflow).
- `RoundBoys.v`: index, distance and nested expression of the Taylor branch with rounding after every operation or after fused ones
  (relative error; no overflow, no underflow). `RoundBoysAcc.v` holds proofs only.
- `RoundSplit.v`: both forms of `boys_F_split` for one lane below the largest argument, with rounding; the exponential of the library is an
  argument. `RoundLong.v`: the three long-range functions with rounding; the power function is an argument, the exponents are exact.
  The downward recursion from the long-range formula is not modelled with rounding.
- `Programs.v`: `examples/example1.c`, `example_water_spsp.c`, `example_water_ppps_deriv.c` (classes, numbers of
  pairs, factors, buffers, what is printed; not the numbers in the shells), `benchmark_eri.cpp` (fixed classes, look-ups,
  calls and areas; not the timing).

Not modelled:

* The C text itself (spelling, indentation, declarations of constants); statements are modelled by what they assign.
* Floating-point rounding (except C88 to C92), integer overflow (except C81), alignment (except C78), threads (except C82), files and subprocesses.
* The bodies of the Fortran wrappers beyond the conversions and intents above, CMake files (except the lists of sources and the choice of the vector header), of the tests everything but the molecule files, the sizes of the buffers, the reference integrals, the passes of test_eri and test_eri_deriv1, their comparison, the accesses of their parallel loops and screentest, the intrinsic functions of compilers (their documented formulas are taken as given).
* `boys_F_split_simd` variants other than the text of `boys.h`.

## Assumptions

`Print Assumptions` follows every property theorem in the `Prop_*.v` files.

All theorems outside `Prop_Reals.v`, `Prop_RealScreen.v`, `Prop_RealDeriv.v`, `Prop_RealUnique.v`, `Prop_Reference.v`, `Prop_ValeevF.v`, `Prop_BoysScripts.v`, `Prop_PointCharge.v`, `Prop_RealOneE.v`, `Prop_RealGram.v`, `Prop_RoundSum.v`, `Prop_RoundHRR.v`, `Prop_RoundBoys.v`, `Prop_RoundSplit.v` and `Prop_RoundLong.v` print "Closed under the global context": no axiom is used.

The theorems of `Prop_Reals.v` (`C61_*`, `C62_*`, `C63_*`, `C60_fast_value_real`, `C60_fast_real_refuted`) and of `Prop_RealScreen.v`
(`C60_repulsive_real`, `C60_schwarz_real`, `C60_diagonal_real`, `C60_error_real`, `C60_skipped_real`) and of `Prop_RealDeriv.v` (`C65_*`, `C66_*`), of `Prop_RealUnique.v` (`C67_*`), of `Prop_Reference.v` (`C68_*`, `C69_*`) of `Prop_ValeevF.v` (`C71_*`), of `Prop_BoysScripts.v` (`C77_*`) of `Prop_PointCharge.v` (`C84_*`), of `Prop_RealOneE.v` (`C85_*`), of `Prop_RealGram.v` (`C87_*`), of `Prop_RoundSum.v` (`C88_*`), of `Prop_RoundHRR.v` (`C89_*`), of `Prop_RoundBoys.v` (`C90_*`), of `Prop_RoundSplit.v` (`C91_*`) and of `Prop_RoundLong.v` (`C92_*`) are about the real numbers of
the standard library. Each of them depends on these four axioms, all of the standard library (some on fewer: `C69_*`, `C88_*`, `C89_*`, `C90_taylor_rounding` and `C90_coarse_refuted` only on the
second and third, `C68_*` also on the first, and of these only `C68_derivatives_refuted` on the fourth; `C71_orders_refuted`, `C77_asymptotic`, `C77_longfac`, `C84_unit`, `C87_gradient`, `C92_long_rounding` and all `C85_*` not on the fourth, `C85_second` not on the first either):

* `ClassicalDedekindReals.sig_not_dec`
* `ClassicalDedekindReals.sig_forall_dec`
* `FunctionalExtensionality.functional_extensionality_dep`
* `Classical_Prop.classic`

Tools that list the axioms of the whole loaded context also show those of standard library modules loaded by tactics (`lia`, `lra`,
`ring`, `ssreflect`'s `under`); no theorem outside these fifteen files depends on them.
