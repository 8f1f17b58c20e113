{"id": "C01", "title": "Cartesian component order is a bijection for every angular momentum", "statement": "For every angular momentum L the list of Cartesian components used to lay out integrals contains every exponent triple (i,j,k) with i+j+k=L exactly once and has (L+1)(L+2)/2 entries; the position reported for a component is the position at which a caller finds that component in an output block.", "quantifier": "every angular momentum L >= 0 and every exponent triple", "why_tests_cant": "Tests compare integrals for a few low angular momenta; a missing or duplicated component only at some L would go unseen, and an unbounded L cannot be enumerated.", "anchors": ["python/ordering_common: IteratePsi4", "python/gen_ordering.py", "generator/Types.cpp: GaussianOrder, AllGaussiansForAM", "generator/Ncart.hpp: NCART"]}
{"id": "C02", "title": "Shipped ordering tables are permutations and agree with their index maps", "statement": "For every angular momentum covered by the shipped ordering tables (Psi4 and GAMESS builds, 0..24), the table lists every Cartesian component exactly once, the hashed index table maps each component back to its position, and the hash separates all components, so looking a valid component up never throws and never returns another component's position.", "quantifier": "every ordering (Psi4, GAMESS), every angular momentum in the tables, every component", "why_tests_cant": "Several thousand hand-pasted table rows; ordinary tests touch only the small-L rows of one ordering.", "anchors": ["generator/Ordering_Psi4.cpp", "generator/Ordering_GAMESS.cpp", "generator/Types.hpp: HashExpList", "generator/Types.cpp: GaussianOrder"]}
{"id": "C03", "title": "Run-time recursion table matches the component order", "statement": "Every row of the run-time recursion lookup table describes the component at that position of the output order; its stated direction has a non-zero exponent, and the neighbour positions it lists (one quantum less, two less, one more) are exactly the positions of those neighbours in the blocks of the neighbouring angular momenta, with -1 precisely when the neighbour does not exist.", "quantifier": "every row of the shipped table (angular momentum 0..18), every direction, every neighbour kind; and every L for the generator of the table", "why_tests_cant": "A wrong neighbour index corrupts only particular components of particular high-L classes.", "anchors": ["skel/simint/recur_lookup.c: recurinfo_array, am_recur_map", "python/gen_recurinfo.py"]}
{"id": "C04", "title": "Output order of compiled-in and table-driven code agree only for the Psi4 order", "statement": "The position a component occupies in generated code equals the position used by the run-time tables (table-driven recurrences, derivative assembly, one-electron integrals) for every component when the generator is built with the Psi4 order; with the GAMESS order they differ already for d functions, so mixing them permutes integrals.", "quantifier": "every component of every angular momentum in the tables, both orderings", "why_tests_cant": "Requires comparing two configurations over all rows; test suites build one configuration.", "anchors": ["generator/Ordering_GAMESS.cpp", "generator/Ordering_Psi4.cpp", "skel/simint/recur_lookup.c", "generator/CMakeLists.txt"]}
{"id": "C05", "title": "Component hash is collision free in its range and only there", "statement": "Two exponent triples with the same hash are equal as long as every exponent is between 0 and 255; beyond that range distinct components collide.", "quantifier": "all pairs of exponent triples", "why_tests_cant": "Pairs over an unbounded domain.", "anchors": ["generator/Types.hpp: HashExpList"]}
{"id": "C06", "title": "Flattened quartet index is a bijection onto the output block", "statement": "For every class (la lb|lc ld), the flattened position of a Cartesian quartet is below the block size NCART(la)*NCART(lb)*NCART(lc)*NCART(ld) and distinct quartets have distinct positions; every position is used. The row-major order is a, b, c, d.", "quantifier": "every class and every quartet of components", "why_tests_cant": "Unbounded family of classes.", "anchors": ["generator/Types.hpp: Doublet::index, Quartet::index", "generator/Types.cpp: GenerateQuartetTargets"]}
{"id": "C07", "title": "Each horizontal recurrence step rewrites an integral exactly", "statement": "For every doublet with a non-zero moving centre, replacing the integral by the two source integrals chosen by the generator with the sign and AB/CD distance it uses is an exact identity for every integral family obeying the horizontal (transfer) relation, whichever of the four directions is used.", "quantifier": "every doublet, every direction (I,J,K,L), every integral family and geometry", "why_tests_cant": "Universal over doublets and real geometries.", "anchors": ["generator/ostei/Makowski.hpp: Makowski_HRR::DoubletStep_", "dox/basic.dox"]}
{"id": "C08", "title": "Horizontal plan is complete, terminating and correctly ordered", "statement": "For every requested class and direction pair the plan produced terminates, every source of every step is either a fully contracted top-level class provided by the vertical stage or has been produced by an earlier step, and every requested component is produced.", "quantifier": "every final class, every choice of bra/ket direction", "why_tests_cant": "Unbounded family of classes; ordering errors only show for some.", "anchors": ["generator/ostei/OSTEI_HRR_Algorithm_Base.cpp: Create, HRRDoubletLoop_, PruneDoublets_, AMOrder_AddWithDependencies_"]}
{"id": "C09", "title": "Generated horizontal code computes the requested integrals", "statement": "Running the emitted horizontal statements in the emitted order on any memory that holds the correct top-level integrals leaves the correct value of every requested integral at its output position, for every class and geometry.", "quantifier": "every class, every direction choice, every geometry and integral family", "why_tests_cant": "Universal over classes and reals.", "anchors": ["generator/ostei/OSTEI_HRR_Writer.cpp: WriteBraSteps_, WriteKetSteps_, WriteHRR", "generator/ostei/OSTEI_HRR_Algorithm_Base.cpp"]}
{"id": "C10", "title": "Table-driven horizontal routine equals the recurrence and stays in bounds", "statement": "The run-time general horizontal routines write every entry of the output block exactly once, each equal to the transfer relation applied to the input blocks, reading only inside the input blocks, for all angular momenta and all other-side sizes.", "quantifier": "all am, all ncart of the spectator side, all four routines", "why_tests_cant": "Loop bounds and index arithmetic over unbounded sizes.", "anchors": ["skel/simint/ostei/ostei_general_hrr.c"]}
{"id": "C11", "title": "Each vertical recurrence step rewrites an integral exactly", "statement": "For every Cartesian quartet and auxiliary order the eight source integrals chosen by the generator, with the integer multiplicities and coefficient names the writer attaches, reproduce the Obara-Saika vertical recurrence; sources that do not exist are exactly those whose multiplicity is zero.", "quantifier": "every quartet, every direction, every auxiliary order, every integral family obeying the recurrence", "why_tests_cant": "Universal over quartets and reals.", "anchors": ["generator/ostei/Makowski.hpp: Makowski_VRR::VRRStep_", "generator/ostei/OSTEI_VRR_Algorithm_Base.cpp: Create", "generator/ostei/OSTEI_VRR_Writer.cpp: WriteVRRSteps_"]}
{"id": "C12", "title": "Vertical plan is complete, terminating and correctly ordered", "statement": "For every set of requested top-level classes the plan terminates, ends at (ss|ss), lists each class once after all classes it depends on, and gives every class a single recurrence direction.", "quantifier": "every requested set and every centre preference order", "why_tests_cant": "Unbounded family.", "anchors": ["generator/ostei/OSTEI_VRR_Algorithm_Base.cpp: Create_WithOrder, AMOrder_AddWithDependencies_, PruneQuartets_"]}
{"id": "C13", "title": "Auxiliary orders are sufficient: no read of an uncomputed order", "statement": "For every class in the vertical plan the number of auxiliary orders computed covers every order read by the classes built from it, plus order zero for requested classes, and the orders required of (ss|ss) never exceed the total angular momentum, so the Boys values computed are enough and each array is large enough.", "quantifier": "every plan, every class and every order", "why_tests_cant": "An off-by-one reads uninitialised scratch only in some classes.", "anchors": ["generator/ostei/OSTEI_VRR_Algorithm_Base.cpp: Create_WithOrder (vrrmreq_max_)", "generator/ostei/OSTEI_VRR_Writer.cpp: WriteVRRSteps_", "generator/ostei/OSTEI_Writer.cpp: Write_Full_"]}
{"id": "C14", "title": "Generated vertical code computes every primitive integral", "statement": "Starting from correct (ss|ss)^(m) values for m=0..L, running the emitted vertical statements in order yields the correct value of every component of every requested class at order zero.", "quantifier": "every class, geometry, exponents", "why_tests_cant": "Universal over classes and reals.", "anchors": ["generator/ostei/OSTEI_VRR_Writer.cpp: WriteVRRSteps_, WriteVRR", "generator/ostei/OSTEI_VRR_Algorithm_Base.cpp"]}
{"id": "C15", "title": "Table-driven vertical routines equal the recurrence", "statement": "The run-time general vertical routines (all four directions and both fast paths) write each entry of the output block for every order with the value of the vertical recurrence, and read only entries that exist.", "quantifier": "all am, all auxiliary ranges, all directions, both fast paths", "why_tests_cant": "Index arithmetic over unbounded sizes.", "anchors": ["skel/simint/ostei/ostei_general_vrr.c"]}
{"id": "C16", "title": "Fast path and general path of the table-driven vertical routine agree", "statement": "When the preconditions for the (x s|z s) fast path hold, taking it gives the same block as the general path would.", "quantifier": "all inputs satisfying the dispatch condition", "why_tests_cant": "Equivalence of two programs over all inputs.", "anchors": ["skel/simint/ostei/ostei_general_vrr.c: ostei_general_vrr_I, ostei_general_vrr_K"]}
{"id": "C17", "title": "Integer constants used by vertical code are declared", "statement": "Every integer multiplicity constant that emitted vertical code refers to is declared by the same function.", "quantifier": "every plan", "why_tests_cant": "Unbounded family of plans.", "anchors": ["generator/ostei/OSTEI_VRR_Algorithm_Base.cpp: GetMaxInt", "generator/ostei/OSTEI_VRR_Writer.cpp: GetConstants"]}
{"id": "C18", "title": "Workspace regions of a generated kernel never overlap", "statement": "The scratch arrays carved from the caller's workspace (contraction batches, primitive arrays for every auxiliary order, transfer intermediates) are pairwise disjoint, and each starts on a vector boundary whenever the workspace does and vector accesses are made to it.", "quantifier": "every class and every vector length", "why_tests_cant": "Layout is computed arithmetic over an unbounded family.", "anchors": ["generator/ostei/OSTEI_Writer.cpp: PartitionWorkspace"]}
{"id": "C19", "title": "The advertised workspace size is enough for every class", "statement": "If the caller allocates the size reported by the library for maximum angular momentum L and derivative order d, then every kernel whose angular momenta are all at most L writes only inside the workspace.", "quantifier": "every vector length, every L up to the configured maximum, every class (including permuted ones)", "why_tests_cant": "Maximum over thousands of kernels; overflow corrupts memory silently.", "anchors": ["create.py: worksize", "skel/simint/ostei/ostei_config.h.in: simint_ostei_worksize", "generator/ostei/OSTEI_Writer.cpp: PartitionWorkspace"]}
{"id": "C20", "title": "Each vector lane is credited to its own shell pair", "statement": "While walking a ket batch in vectors, the destination slot attributed to every lane that carries a real primitive is exactly the shell pair that primitive belongs to, and never a slot outside the batch, provided every shell pair has at least one primitive; with an empty shell pair the attribution is wrong.", "quantifier": "every list of primitive counts, every vector length, every position", "why_tests_cant": "State machine over unbounded lists; depends on alignment of counts with the vector length.", "anchors": ["generator/ostei/OSTEI_Writer.cpp: WriteShellOffsets", "skel/ostei_s_s_s_s.c"]}
{"id": "C21", "title": "Contraction adds each lane once to its slot and touches nothing else", "statement": "Both contraction forms (with per-lane offsets and the all-to-one form, scalar and blocked AVX/AVX512 shuffles) add to each destination element exactly the sum of the lanes assigned to it, and leave other elements unchanged.", "quantifier": "every number of components, offsets and lane values", "why_tests_cant": "Blocked forms have remainder paths depending on ncart mod width.", "anchors": ["skel/simint/vectorization/intrinsics_*.h: contract, contract_all"]}
{"id": "C22", "title": "Contracted integral is the sum over all primitive quartets", "statement": "With screening off, each output element of a kernel call equals the sum over all primitive pairs of its bra and ket shell pairs of the primitive value, each counted once; padding and clipped lanes contribute nothing; the results of distinct shell quartets do not mix; the result is stored at position (ab*nket+cd).", "quantifier": "every bra and ket batch (any sizes, any clip), every vector length", "why_tests_cant": "Loop nest with batch padding; needs all size combinations.", "anchors": ["generator/ostei/OSTEI_Writer.cpp: Write_Full_", "skel/ostei_s_s_s_s.c", "skel/simint/shell/shell.c: simint_fill_multi_shellpair2"]}
{"id": "C23", "title": "Bra batches longer than the SIMD batch read the right primitives only if each full batch is vector aligned", "statement": "A kernel that loops over the bra reads for shell pair ab exactly the primitives stored for ab if all completed groups of NSHELL_SIMD shell pairs before it hold a multiple of SIMD_LEN primitives (in particular if the bra has at most NSHELL_SIMD shell pairs, or SIMD_LEN=1). Otherwise it reads padding or another shell's primitives and returns wrong integrals.", "quantifier": "every list of primitive counts and every vector length", "why_tests_cant": "Only bras with more than 2*SIMD_LEN shell pairs and particular counts fail.", "anchors": ["generator/ostei/OSTEI_Writer.cpp:734 istart = iend", "generator/ostei/OSTEIDeriv1_Writer.cpp:934", "skel/ostei_s_s_s_s.c:317", "skel/simint/shell/shell.c: simint_fill_multi_shellpair2 padding"]}
{"id": "C24", "title": "Primitive screening only drops negligible work and keeps the bookkeeping", "statement": "With screening on, a primitive quartet is dropped only if the product of its stored bra and ket screen values is below the squared tolerance; every kept quartet is still credited to its own shell pair, and the number returned is unchanged.", "quantifier": "every screen array, tolerance and batch shape", "why_tests_cant": "All combinations of skipped vectors and shell boundaries.", "anchors": ["generator/ostei/OSTEI_Writer.cpp: Write_Full_", "skel/simint/ostei/ostei.c: simint_compute_ostei"]}
{"id": "C25", "title": "Computing integrals does not change the caller's shell pairs except past the clip", "statement": "The kernel for (ss|ss) with screening writes into the caller's ket screen array: it leaves all screen values of the counted shell pairs unchanged, but when the caller has clipped the ket inside a vector the screen values of shell pairs after the clip are destroyed, so a later unclipped call may drop significant integrals.", "quantifier": "every ket batch and clip value", "why_tests_cant": "Needs a history of two calls with different clips.", "anchors": ["skel/ostei_s_s_s_s.c:205-211"]}
{"id": "C26", "title": "Dropped same-shell contributions can exceed the tolerance", "statement": "The per-primitive screen value bounds a primitive's contribution when its prefactor is not doubled; for the off-diagonal primitives of a pair made of one shell with itself the stored prefactor is doubled but the screen value is not, so a dropped contribution can be as large as twice (per side) the tolerance.", "quantifier": "every primitive quartet satisfying the Schwarz inequality", "why_tests_cant": "Quantifies over all primitive values.", "anchors": ["skel/simint/shell/shell_screen.c: simint_primscreen_schwarz", "skel/simint/shell/shell.c:457-461"]}
{"id": "C27", "title": "Shell-pair allocation is exactly what filling needs", "statement": "For every list of shell pairs, filling writes every primitive array only at positions below the allocated length, uses all of it, and arrays inside the one allocated block do not overlap each other.", "quantifier": "every list of shells (any primitive counts, same-shell or not), every vector length", "why_tests_cant": "Sizes are computed twice by different loops.", "anchors": ["skel/simint/shell/shell.c: simint_allocate_multi_shellpair2, simint_allocate_multi_shellpair_base, simint_fill_multi_shellpair2"]}
{"id": "C28", "title": "Filling lays primitives out contiguously with zero-weight padding at batch ends", "statement": "After filling, the primitives of shell pair n are at consecutive positions starting where the previous pair ended (rounded up to the vector length after every NSHELL_SIMD pairs), all positions not holding a primitive have weight 0 and exponent 1, and the per-pair and total primitive counts are right.", "quantifier": "every list of shell pairs", "why_tests_cant": "Layout invariant over unbounded lists.", "anchors": ["skel/simint/shell/shell.c: simint_fill_multi_shellpair2"]}
{"id": "C29", "title": "Same-shell packing preserves the contracted value and its derivatives", "statement": "Summing over the packed (lower-triangle, doubled off-diagonal) primitives of a shell paired with itself gives the same value as summing over all ordered primitive pairs, for every symmetric primitive value; with the packed derivative exponents the sum of the 2*exponent-weighted values also equals the full sum.", "quantifier": "every number of primitives, coefficients, exponents and symmetric integrand", "why_tests_cant": "Algebraic identity over all sizes.", "anchors": ["skel/simint/shell/shell.c: simint_fill_multi_shellpair2 (same_shell, alpha2, beta2)"]}
{"id": "C30", "title": "Primitive sort permutes whole primitives and sorts by screen value", "statement": "Sorting a screened shell pair terminates, never accesses outside the range of the shell, keeps every primitive's fields together (the multiset of primitive records is unchanged), leaves primitives of other shells and the padding untouched and leaves each shell's screen values in non-increasing order.", "quantifier": "every list of screen values including ties", "why_tests_cant": "In-place Hoare partition with subtle termination and bounds.", "anchors": ["skel/simint/shell/shell.c: simint_shellpair_screenval_quicksort, simint_sort_multi_shellpair"]}
{"id": "C31", "title": "Schwarz screening during fill stays inside the screen array only for aligned pairs", "statement": "Filling with Schwarz screening writes only inside the screen array if for the pair list every running start plus the pair's rounded count stays within the allocation; otherwise it overwrites the data following the screen array in the block (for instance the first AB distance), corrupting previously stored values.", "quantifier": "every list of shell pairs and vector length", "why_tests_cant": "Silent in-block corruption; depends on alignment of counts.", "anchors": ["skel/simint/shell/shell_screen.c: simint_primscreen_schwarz padding loop", "skel/simint/shell/shell.c: simint_allocate_multi_shellpair_base, simint_fill_multi_shellpair2"]}
{"id": "C32", "title": "Concatenating shell pairs reproduces the inputs only for single-pair inputs", "statement": "Concatenation gives the same layout as filling all the pairs at once when every input holds one shell pair; an input with two or more shell pairs has the primitives of its first pair copied for all its pairs.", "quantifier": "every list of inputs", "why_tests_cant": "Unbounded lists, only multi-pair inputs fail.", "anchors": ["skel/simint/shell/shell.c: simint_cat_multi_shellpair, simint_cat_shellpairs"]}
{"id": "C33", "title": "Total primitive count after concatenation depends on the old contents of the output", "statement": "After concatenation the reported total number of primitives is the previous value of that field plus the inputs' totals, so it is the sum of the inputs only when the field was zero before.", "quantifier": "every output state", "why_tests_cant": "History dependence.", "anchors": ["skel/simint/shell/shell.c: Pout->nprim +="]}
{"id": "C34", "title": "Copying a shell copies its data, and reads only the source when the destination is not larger", "statement": "After copying a shell the destination has the same parameters and primitives as the source, the source is unchanged and later changes to one do not affect the other; the copy reads beyond the source buffer exactly when the destination already owned a larger buffer than the source.", "quantifier": "every pair of shells and every prior history of the destination", "why_tests_cant": "Depends on destination's allocation history.", "anchors": ["skel/simint/shell/shell.c: simint_copy_shell, simint_allocate_shell"]}
{"id": "C35", "title": "Shell memory life cycle never leaks, double frees or dangles", "statement": "For every sequence of initialise/create/copy/free calls on a set of shells, every live buffer is owned by exactly one shell, nothing is freed twice, buffers are only replaced by larger ones, and after freeing everything no buffer is live.", "quantifier": "every call history", "why_tests_cant": "Histories.", "anchors": ["skel/simint/shell/shell.c: simint_allocate_shell, simint_free_shell, simint_create_shell, simint_copy_shell"]}
{"id": "C36", "title": "Same-shell detection is by storage, not by value", "statement": "Two shells are treated as the same exactly when they share storage and primitive count; shells created through the library that are different objects are never confused, but a shallow copy moved to another centre is treated as the same shell and gets the packed (wrong) primitive list.", "quantifier": "every pair of shells", "why_tests_cant": "Aliasing-dependent.", "anchors": ["skel/simint/shell/shell.h: compare_shell", "skel/simint/shell/shell.c"]}
{"id": "C37", "title": "Shell-level early exit never fires for filled pairs", "statement": "Because the stored maximum screen value of a filled pair is never below 1e99, a compute call on two filled pairs is never rejected as a whole for any tolerance below 1e99; for concatenated pairs likewise.", "quantifier": "every tolerance, every pair of filled shell pairs", "why_tests_cant": "Universal over tolerances.", "anchors": ["skel/simint/shell/shell.c: screen_max = 1.e99", "skel/simint/ostei/ostei.c"]}
{"id": "C38", "title": "Primitive pair data obey the Gaussian product theorem identities", "statement": "For every primitive pair stored by filling: alpha*(P-A) = beta*(B-A), (alpha+beta)*P = alpha*A+beta*B, PA-PB = B-A componentwise and PA, PB, AB are mutually consistent for use in the recurrences.", "quantifier": "every shell pair and primitive", "why_tests_cant": "Universal over reals.", "anchors": ["skel/simint/shell/shell.c: simint_fill_multi_shellpair2"]}
{"id": "C39", "title": "Permuted kernels return the requested order", "statement": "Calling the kernel for a class with swapped centres in the bra and/or the ket returns, at every position of the row-major output for the requested class, the integral with those indices; omitting the final reordering for the special classes is harmless.", "quantifier": "every class and both swaps", "why_tests_cant": "Unbounded family; the shortcut is only valid for particular shapes.", "anchors": ["generator/ostei/OSTEI_Writer.cpp: Write_Permute_, IsSpecialPermutation_"]}
{"id": "C40", "title": "Every class within the maximum has exactly one kernel", "statement": "For every maximum angular momentum and permutation option of the driver, each of the (L+1)^4 classes is provided by exactly one generated function definition (directly or as a permutation of a generated one), and every function a permuted kernel calls exists.", "quantifier": "every max am and permute setting", "why_tests_cant": "Combinatorial over all quartets.", "anchors": ["create.py: valid quartets", "generator/ostei/OSTEI_Writer.cpp: Write_Permutations_", "python/gen_fill.py"]}
{"id": "C41", "title": "File lists select everything a build of lower maximum needs", "statement": "The file list written for maximum L contains the sources of exactly the classes with all momenta at most L and of the external recurrence routines their kernels call; the lists for different derivative orders are the same list object, so the order-0 list also contains derivative sources. Without derivatives the list is closed under calls between routines. With derivatives it is not: when vertical routines of total momentum 2L+1 are separate, the list has VRR_J_s_X_s_s but not VRR_I_X_s_s_s which it calls.", "quantifier": "every L and derivative order", "why_tests_cant": "Global property of the driver's loops.", "anchors": ["create.py: filelists, reqext_vrr, reqext_hrr"]}
{"id": "C42", "title": "Derivative kernels: missing centre by translational invariance", "statement": "The derivative on the centre not computed directly equals minus the sum of the other three, which is the exact derivative for every translationally invariant integral.", "quantifier": "every class and component", "why_tests_cant": "Universal over reals.", "anchors": ["generator/ostei/OSTEIDeriv1_Writer.cpp: WriteFormDeriv"]}
{"id": "C43", "title": "Derivative kernels: raise/lower formula and positions", "statement": "Each derivative component is formed from exactly the raised integral scaled by twice the exponent and the lowered integral scaled by the exponent of that Cartesian direction, taken from the right positions, and stored in the block of its centre and direction.", "quantifier": "every class, component, centre and direction", "why_tests_cant": "Universal.", "anchors": ["generator/ostei/OSTEIDeriv1_Writer.cpp: WriteFormDeriv, Write_Permute_"]}
{"id": "C44", "title": "Boys table lookups stay inside the table exactly up to n=24", "statement": "For every argument below the switch-over point and every order up to 24 the Taylor evaluation reads only the table row of the nearest grid point, with expansion distance at most half a grid step; from order 25 on (classes with total angular momentum 25 and above, e.g. (77|77)) it reads past the row.", "quantifier": "every argument and order", "why_tests_cant": "Real-valued argument; only highest classes affected.", "anchors": ["skel/simint/boys/boys_taylor.h", "skel/simint/boys/boys.h", "skel/simint/boys/boys_shortgrid.c"]}
{"id": "C45", "title": "Downward Boys recursion is exact", "statement": "If the highest order value and exp(-x) are correct, the values produced for all lower orders satisfy the Boys recursion, hence are correct for every argument and maximum order.", "quantifier": "every x and n", "why_tests_cant": "Universal.", "anchors": ["skel/simint/boys/boys.h: boys_F_recur"]}
{"id": "C46", "title": "Overlap recursion table solves the defining relations", "statement": "The table of 1-D overlaps built by the library satisfies both Obara-Saika relations at every entry, hence equals any family satisfying them with the same starting value; exchanging the two functions transposes it.", "quantifier": "every pair of angular momenta, geometry and exponents", "why_tests_cant": "Universal.", "anchors": ["skel/simint/osoei/osoei_terms.c: overlap terms"]}
{"id": "C47", "title": "Kinetic-energy recursion equals the operator definition", "statement": "Each 1-D kinetic-energy entry equals -1/2 times the second derivative of the second Gaussian expressed through overlaps: T_ij = -2b^2 S_i,j+2 + b(2j+1) S_ij - j(j-1)/2 S_i,j-2.", "quantifier": "every pair of angular momenta, geometry and exponents", "why_tests_cant": "Universal.", "anchors": ["skel/simint/osoei/osoei_terms.c: kinetic terms"]}
{"id": "C48", "title": "Nuclear-attraction code never depends on uninitialised scratch", "statement": "The potential integral output is independent of the initial contents of its workspace even though some scratch entries computed on the way are not initialised.", "quantifier": "every pair of angular momenta and every initial memory", "why_tests_cant": "Universal over initial memory.", "anchors": ["skel/simint/osoei/osoei_potential.c"]}
{"id": "C49", "title": "Generated variable and function names are unique", "statement": "Two different classes (with tags) or kinds of array never receive the same array name, two different kernels or routines never the same function or file name; names are formed without reading outside the letter table exactly for momenta 0 to 60 and are C identifiers exactly below 60; the split forms of a name agree with the whole form. The derivative writer looks up a name for momentum -1 for every class with an s function, and file names differ only in case from momentum 25 on.", "quantifier": "all pairs of classes whose momenta have a letter", "why_tests_cant": "All pairs.", "anchors": ["generator/Naming.hpp: ArrVarName, PrimVarName, HRRVarName", "generator/Types.hpp: amchar"]}
{"id": "C50", "title": "Command-line parsing consumes arguments or fails", "statement": "For every argument list the common pass either rejects it or assigns each common option the integer following it (the last one counts) and returns the other arguments in order; an option given last without its value or with a value that does not start with an integer is an error. The whole program then accepts exactly the lists whose remaining arguments read as its own options with values; this is the reading of the original list unless a file name is itself the name of a common option.", "quantifier": "every argument vector", "why_tests_cant": "All strings.", "anchors": ["generator/CommandLine.cpp", "generator/ostei/ostei_generator.cpp", "generator/ostei/ostei_vrr_generator.cpp", "generator/ostei/ostei_hrr_generator.cpp"]}
{"id": "C51", "title": "Rounding to the vector length", "statement": "For every power-of-two vector length the mask-based rounding gives the least multiple of the vector length not below the argument.", "quantifier": "every length 2^k and every non-negative count", "why_tests_cant": "Bit manipulation over all integers.", "anchors": ["skel/simint/vectorization/vectorization.h: SIMINT_SIMD_ROUND"]}
{"id": "C52", "title": "External recurrence routines used by a plan exist with the same argument order", "statement": "Every external recurrence routine a kernel or a permuted routine calls is in the set the driver generates, and caller and callee agree on the order of array arguments.", "quantifier": "every class within the maximum", "why_tests_cant": "Closure property over all classes.", "anchors": ["create.py: reqext_vrr", "generator/ostei/OSTEI_VRR_Writer.cpp: WriteVRR_External_, WriteVRRFile", "generator/ostei/OSTEI_HRR_Writer.cpp"]}
{"id": "C53", "title": "Boys table and short-range values are correct to 1e-15", "statement": "Each of the 366 x 32 table entries equals the Boys function at its grid point to half a unit in the 18th significant digit, and for every argument below the switch-over point and every order up to 24 the stored value differs from the Boys function by at most 1e-15 of itself before rounding, provided exp(-x) does.", "quantifier": "every table entry; every real (rational) argument, vector length, lane and order", "why_tests_cant": "Real-valued argument; comparison needs more precision than the program has.", "anchors": ["skel/simint/boys/boys_shortgrid.c", "skel/simint/boys/boys_taylor.h", "skel/simint/boys/boys.h"]}
{"id": "C54", "title": "Long-range Boys values near the switch-over point", "statement": "The long-range factors are the right ones, but because the asymptotic formula is used from x = 36.5 on whatever the order, the values stored for classes with high total angular momentum are wrong just above it (at x = 36.6025: relative error above 5e-9 for total 8, 6e-5 for 16, 1e-2 for 24), F_0 included, while orders up to three are accurate to 1e-12.", "quantifier": "witness argument; every listed class total", "why_tests_cant": "The affected arguments form a narrow window and only high classes are affected.", "anchors": ["skel/simint/boys/boys_long.h", "skel/simint/boys/boys.h: boys_F_split_large_n", "skel/simint/boys/boys_longfac.h"]}
{"id": "C55", "title": "The driver's command lines are understood", "statement": "For every class, direction, output path and option value in int range, the generator program parses the command line composed by create.py to exactly the class, paths, thresholds, permutation flag and recurrence direction the driver meant.", "quantifier": "all classes, directories and thresholds", "why_tests_cant": "All integers and paths; a misread flag would silently generate a different routine.", "anchors": ["create.py: runostei, HRR and VRR loops", "generator/CommandLine.cpp", "generator/ostei/ostei_vrr_generator.cpp", "generator/ostei/ostei_hrr_generator.cpp"]}
{"id": "C56", "title": "Calls reach the kernel of their class", "statement": "After simint_init the pointer table holds, for every derivative order and class up to the maxima of the build (momentum 7, first derivatives), the function of exactly that class, every store being inside the table; an unscreened call runs that function with the squared tolerance and a screened one returns. Classes above momentum 7 and higher derivatives are null in the shipped filling files, as is everything before initialisation.", "quantifier": "all build maxima, classes, derivative orders, screening values and tolerances", "why_tests_cant": "8192 assignments and every combination of build maxima; tests call a handful of classes in one configuration, and the missing entries only show in builds with larger maxima.", "anchors": ["python/gen_fill.py", "skel/simint/ostei/ostei_init.c", "skel/simint/ostei/ostei_deriv1_init.c", "skel/simint/ostei/ostei.c", "skel/simint/simint_init.c"]}
{"id": "C57", "title": "The vertical recurrence determines the integrals", "statement": "For every set of recurrence coefficients and every sequence of (ss|ss) start values there is exactly one family of quantities, over all quartets of Cartesian functions and orders, that satisfies the eight-term vertical recurrence at every function and direction the generator may choose; it is invariant under exchanging functions of a side or the sides, satisfies the horizontal recurrence when the coefficients differ by the distances, and is linear in the start values. So every route the generator picks computes the same number.", "quantifier": "all rings, coefficients, start values, quartets and orders", "why_tests_cant": "The consistency of twelve raising steps in any sequence, for all momenta, is an algebraic fact, not a finite check.", "anchors": ["generator/ostei/Makowski.hpp", "generator/ostei/OSTEI_VRR_Algorithm_Base.cpp: Create_Single_", "generator/ostei/OSTEI_VRR_Writer.cpp"]}
{"id": "C58", "title": "A generated kernel computes the contracted integrals of the shells", "statement": "Put together: the block created by simint_create_multi_shellpair2, sorted by any screen values, the plans the generator creates for the class, the (ss|ss) values, the emitted vertical code for one vector, the loop nest with lane attribution and contraction, and the emitted horizontal code for one shell quartet. For every class, SIMD length and batch, if the completed groups of bra pairs hold full vectors and no ket pair is empty, the output is, for every shell quartet and component, the sum over all primitives of the four shells of coefficients times the primitive integral (the unique solution of the recurrence started from the Boys function), at its documented place; nothing else is written; no array is over-read and no undetermined entry reaches the output. With a tolerance the output misses only terms of primitive pairs whose product of screen values is below it, and the missing terms account for the whole difference.", "quantifier": "all classes, batches, shells, SIMD lengths, rings and external functions meeting the stated setup", "why_tests_cant": "One statement over every class the generator can emit and every batch; the test program compares a few molecules against a reference.", "anchors": ["generator/ostei/OSTEI_Writer.cpp: Write_Full_", "generator/ostei/ostei_generator.cpp", "generator/ostei/OSTEI_HRR_Writer.cpp", "generator/ostei/OSTEI_VRR_Writer.cpp", "skel/simint/shell/shell.c: simint_fill_multi_shellpair2"]}
{"id": "C59", "title": "A created batch holds every primitive once, in one order shared by all arrays", "statement": "simint_create_multi_shellpair2 (allocation, filling and, with a screening method, sorting) succeeds whenever the screening routines fit in the screen array and no screened pair is empty. In the resulting block every array holds, in the range of each shell pair, its value for every primitive pair exactly once; the order of the primitive pairs is the same in all arrays of the pair, the padding keeps its neutral values, the distances stay with their pair, and with a screening method the screen values do not increase along the pair.", "quantifier": "every SIMD length, number of pairs, screening method, derivative setting, shell pairs and screen values", "why_tests_cant": "The order of the primitives does not change the integrals up to rounding, so a test comparing integrals cannot see an array left out of the sort when its values are nearly equal.", "anchors": ["skel/simint/shell/shell.c: simint_create_multi_shellpair2, simint_fill_multi_shellpair2, simint_sort_multi_shellpair"]}
{"id": "C60", "title": "Screening values are the largest diagonal integrals, and screening costs at most the tolerance per primitive quartet", "statement": "Each value written by simint_primscreen_schwarz is the largest diagonal integral of its primitive pair, the value returned is the largest of them, and simint_shellscreen_schwarz returns the largest integral of (ab|ab). If every combination of charge distributions has nonnegative energy, which holds for the real Boys function, exponential and square root and positive exponents, the integrals of a quartet are bounded by the geometric mean of two shell values, a kernel called with tolerance t stores numbers that differ from the integrals by at most t times the number of primitive quartets, and the same bounds every integral of a call left out by the largest values. The fast value is the diagonal integral of s functions on the same primitives and, against the comment in shell_screen.h, no bound for other momenta; the fast shell value is no bound even for s shells.", "quantifier": "every ordered ring of values and external functions, orderings, shells, batches, screen values covering the diagonal integrals, tolerances", "why_tests_cant": "A test samples geometries; a screen value that is too small shows only where the neglected integrals happen to exceed the tolerance of the comparison.", "anchors": ["skel/simint/shell/shell_screen.c: simint_primscreen_schwarz, simint_shellscreen_schwarz, simint_primscreen_fastschwarz, simint_shellscreen_fastschwarz", "skel/simint/shell/shell_screen.h:45-55", "skel/simint/ostei/ostei.c:11-26", "generator/ostei/OSTEI_Writer.cpp: screening tests"]}
{"id": "C61", "title": "Normalised shells have unit self-overlap", "statement": "After simint_normalize_shells, the overlap computed by simint_compute_overlap of component (x,y,z) of a shell of momentum l with itself is (2x-1)!!(2y-1)!!(2z-1)!!/(2l-1)!! to within 1e-17 relative, in particular 1 for (l,0,0). A single primitive gets the textbook constant, the scale of the given coefficients is irrelevant. Momenta above 20 read past the table of factors. Normalising a second time changes a shell unless all exponents in use are equal. The norm divided by is positive exactly when the shell is not the zero function; otherwise the code divides by zero.", "quantifier": "every shell with positive exponents that is not the zero function (some exponent whose coefficients do not cancel), every component", "why_tests_cant": "Reference integrals are computed with the same normalised shells; a wrong factor for a high momentum or an accidental second normalisation scales both sides.", "anchors": ["skel/simint/shell/shell.c: simint_normalize_shells", "skel/simint/shell/shell_constants.c", "skel/simint/osoei/osoei_overlap.c"]}
{"id": "C62", "title": "The numerical constants are the numbers they are named after", "statement": "The literals PI, TWO_PI_52, SQRT_TWO_PI_52, SQRT_TWO_TIMES_PI_52 of constants.h differ from pi, 2 pi^(5/2), sqrt(2 pi^(5/2)), sqrt(2) pi^(5/2) by at most half a unit of the 63rd, 58th, 59th, 54th decimal; the entries of norm_fac are pi^(3/2)(2l-1)!!/2^l and those of boys_longfac are sqrt(pi)(2n-1)!!/2^(n+1), both to 18 significant digits.", "quantifier": "all entries of the two tables, the real numbers of the standard library", "why_tests_cant": "A wrong digit past the tolerance of a comparison, or in a table entry for a momentum no test uses, is not seen.", "anchors": ["skel/simint/constants.h:3-12", "skel/simint/shell/shell_constants.c:16-36", "skel/simint/boys/boys_longfac.h"]}
{"id": "C63", "title": "The stored Boys values are the Boys integral", "statement": "What boys_F_split stores for order k in any lane is the integral of t^(2k) exp(-x t^2) over [0,1] to a relative error of 1e-15 for x below 36.5 and maximum order up to 24. From 36.5 on the relative error is at most the bound of order k when the maximum order n is below 4, and at most the bound of order n otherwise; the bounds grow from 1.04e-15 (order 0) to 6.57e-9 (order 8), 7.56e-5 (16), 1.48e-2 (24) and 0.184 (31), and at x = 36.6025 errors of 5e-9, 6.6e-5 and 1e-2 do occur for n = 8, 16, 24.", "quantifier": "every argument x >= 0, every vector length, all orders up to 31 (24 below 36.5), square root and exponential with relative error at most 1e-15, exact arithmetic otherwise", "why_tests_cant": "Reference values are sampled at finitely many arguments, rarely near the switch-over point with high maximum order, where the loss of accuracy is largest.", "anchors": ["skel/simint/boys/boys.h", "skel/simint/boys/boys_taylor.h", "skel/simint/boys/boys_long.h", "skel/simint/boys/boys_shortgrid.c"]}
{"id": "C64", "title": "A whole derivative kernel stores the twelve derivatives of every integral", "statement": "From the shells on: after both batches have been created and filled, the generated derivative kernel of a class stores, for every bra pair, ket pair, component and each of the four centres and three directions, the sum over all primitives of coefficients times twice the exponent times the raised integral minus the power times the lowered integral, at offset 12*((ab*nket+cd)*ncart+component)+3*centre+direction. This includes the centre that is obtained by translational invariance and pairs of equal shells, whose primitives are stored once with the mean exponent. With screening only terms with a small product of screen values are missing, the same ones for all twelve. Nothing past the end is touched, no read of an undetermined element happens.", "quantifier": "every quartet class with momenta up to 18, every vector length and contraction method, every number of shells and primitives, every arithmetic (commutative ring) in which the sums of exponents have inverses, every external exp, sqrt, Boys function, every enumeration order of the generator's sets", "why_tests_cant": "Derivative tests compare a few classes and geometries with a reference; they do not show that tags, contraction factors, packed equal shells, plans and the formation step agree for every class and batch shape.", "anchors": ["generator/ostei/ostei_deriv1_generator.cpp", "generator/ostei/OSTEIDeriv1_Writer.cpp", "skel/simint/shell/shell.c"]}
{"id": "C65", "title": "The derivative kernels store the partial derivatives of the integrals", "statement": "With the real exponential, square root and Boys function the combination of raised and lowered integrals that a derivative kernel stores is the partial derivative, in the sense of analysis, of the contracted repulsion integral with respect to the coordinate of the centre, the other three shells held fixed. The Boys function of order n is differentiable with derivative minus that of order n+1. Without screening each of the twelve numbers per integral in the output of the whole kernel is such a derivative, including the centre obtained by translational invariance.", "quantifier": "all real centres, coefficients and positive exponents, all momenta (the analytic part), every class with momenta up to 18 for the kernel, every vector length, contraction method, batch shape and enumeration order", "why_tests_cant": "Finite differences at a few geometries carry rounding and step errors; they cannot show the limit for every geometry, exponent and momentum.", "anchors": ["generator/ostei/ostei_deriv1_generator.cpp", "generator/ostei/OSTEIDeriv1_Writer.cpp", "skel/simint/boys/boys.h"]}
{"id": "C66", "title": "Screening a derivative kernel bounds the error of the derivatives (refuted)", "statement": "Expected: with screen values at least as large as the diagonal integrals of the primitives, a screened derivative kernel errs by at most the screening tolerance per skipped primitive, as the integral kernel does (C60). This is false: the screen values are those of the integrals, not of the derivatives. Two s shells two units apart against one at the middle, one primitive each, are skipped; the kernel stores zero while the derivative exceeds the tolerance.", "quantifier": "one witness, for every value of the constant factor of the integral", "why_tests_cant": "Tests of derivatives run without screening or with a tolerance far below the values they look at.", "anchors": ["generator/ostei/OSTEIDeriv1_Writer.cpp", "skel/simint/shell/shell_screen.c"]}
{"id": "C67", "title": "What the kernels compute is determined by the s integrals and by differentiation", "statement": "Take any function of four Gaussians and their powers that is the textbook formula for s functions (with the Boys integral) and whose derivatives with respect to the centres are 2 alpha times the raised minus the power times the lowered function, as for integrals of Cartesian Gaussians. Then it equals the value the kernels are specified by, for all powers; such a function exists; and the whole kernel, from the shells on and without screening, stores the contraction of it.", "quantifier": "all real centres and coefficients, positive exponents, all powers; for the kernel every class, vector length, contraction method, batch shape and enumeration order", "why_tests_cant": "The specification itself cannot be tested; comparing with reference values covers finitely many integrals.", "anchors": ["generator/ostei/OSTEI_VRR_Algorithm_Base.cpp", "generator/ostei/OSTEI_Writer.cpp", "skel/simint/boys/boys.h"]}
{"id": "C68", "title": "The reference of the tests computes the same integrals as the kernels", "statement": "The sum over factorials that ValeevRef_eri forms equals the Obara-Saika value the kernels compute, whatever the unset elements of its tables contain; ValeevRef_Deriv0 and ValeevRef_Deriv1 store the contracted integrals and their twelve derivatives in the places where the kernels store them (Deriv1 only for one first shell: for two the blocks overlap, which is refuted); and one pass of test_eri and of test_eri_deriv1, from the shells through the created pairs and the whole kernel, compares two buffers in which CalcError finds the errors 0 and 0.", "quantifier": "all real centres and coefficients, positive exponents, all powers whose sum is below the size 200 of the tables, any function in the place of the Boys function, all numbers of shells and primitives, every class, vector length, contraction method and enumeration order", "why_tests_cant": "The test compares two programs on one basis set; that the two closed forms agree for all exponents, centres and powers is an identity no number of runs shows.", "anchors": ["skel/test/ValeevRef.cpp", "skel/test/test_eri.cpp", "skel/test/test_eri_deriv1.cpp", "skel/test/Common.cpp", "skel/simint/shell/shell.c"]}
{"id": "C69", "title": "What the comparison of the tests finds", "statement": "If a class of momenta is not marked by test_eri, every computed number is within 1e-14 or a relative 1e-8 of its reference unless the reference is at most 1e-15 in size; exact results are not marked. Refuted: that results which are NaN are marked (a kernel storing only NaN is never marked), that a wrong result is marked where the integral is zero (any number passes), and that results which pass on their own pass together (the two maxima may come from different integrals).", "quantifier": "all lists of blocks and all values, NaN included", "why_tests_cant": "This is about what the test itself overlooks.", "anchors": ["skel/test/Common.cpp", "skel/test/Common.hpp", "skel/test/test_eri.cpp", "skel/test/test_eri_deriv1.cpp"]}
{"id": "C70", "title": "Order of the components and places of the results in the reference of the tests", "statement": "The loop with IterateGaussian visits the components of a shell of any momentum in the order in which the kernels store them and then ends; the nested loops over shells and components store every value within the buffer, in the row-major place of its quartet, and nothing else. With twelve values for each quartet this holds for one first shell only: with two the second block covers the first from element 1 on (refuted).", "quantifier": "all momenta, all numbers of shells, all buffers that are large enough", "why_tests_cant": "The tests pass one first shell at a time and momenta up to the configured maximum.", "anchors": ["skel/test/Common.cpp", "skel/test/ValeevRef.cpp"]}
{"id": "C71", "title": "Accuracy of the Boys function of the reference of the tests", "statement": "Valeev_F ends its series by the tolerance and inside the table of double factorials, and every order it stores is within a relative (2n+1) 1e-17 of the Boys integral, for arguments up to 20 and orders n up to 116 (rounding left out); above 20 the error is that of the constant sqrt(pi)/2 carried by the upward recursion. Refuted: that it is defined for all orders the tables of factorials are made for (at 198 and 199 it reads past the double factorials).", "quantifier": "all real arguments from 0 on, all orders in the named range, any error function meeting its definition as an integral", "why_tests_cant": "The tests use it as their reference; its truncation error over a continuum of arguments is not observable from test results.", "anchors": ["skel/test/ValeevRef.cpp", "skel/test/ValeevRef.hpp"]}
{"id": "C72", "title": "Packed storage of the integrals in the example", "statement": "The packed index of example_packed.c is below the length of the storage, is the same for two quartets of functions exactly if they differ by one of the permutations of an integral, and reaches every cell; the loops over the distinct shell quartets, with the given counter of the intermediate buffer, put every integral (in whatever order its indices are asked for) into its cell, access nothing outside the arrays, leave no cell unwritten and compute each distinct shell quartet once.", "quantifier": "all numbers of shells and of functions per shell, all symmetric integrals, any computation of a shell quartet that fills the intermediate buffer in the order of the kernels", "why_tests_cant": "The example prints only counts; one molecule exercises one set of indices.", "anchors": ["skel/examples/example_packed.c"]}
{"id": "C73", "title": "The molecule files of the tests and the buffers sized from them", "statement": "What gen_mol.py writes for any geometry and any basis set file is read by ReadBasis as the same atoms and, for every angular momentum, exactly the shells of that momentum in order, shells with several contractions split; the buffers sized by FindMaxParams hold the results of every pass of the tests, and the areas of the threads are inside the allocation and disjoint if the product is an int. Refuted: that the file may end without white space; that NPRIM2 counts primitives of the general contractions; that the letters of the generator and of the reader agree from k on; that the product of threads and size fits an int (R-camphor.aug-cc-pvqz with derivatives and two threads).", "quantifier": "all basis set files of the Gaussian format, all geometries over the known elements, all maps of shells, all numbers of threads", "why_tests_cant": "The tests only read the files that are shipped, with the number of threads of the machine; a wrong split of a basis set would be used by both sides of the comparison.", "anchors": ["skel/test/dat/gen/gen_mol.py", "skel/test/Common.cpp", "skel/test/test_eri.cpp", "skel/test/test_eri_deriv1.cpp", "skel/test/test_overlap.cpp", "skel/test/benchmark_eri.cpp"]}
{"id": "C74", "title": "The program that counts what screening saves", "statement": "screentest runs to its end exactly if every pair of shells has a multiple of the vector length of primitive pairs; then its counters are the exact numbers of pairs, primitive pairs, quartets and primitive quartets above and below the threshold, they add up to the numbers of all of them, and there are at most as many significant quartets as quartets of significant pairs. Refuted: that it runs to its end in vectorised builds; its consistency check compares the unpadded number of primitives the library stores with a padded count.", "quantifier": "all lists of shells, all screening values of an ordered ring, all vector lengths", "why_tests_cant": "The program is a tool with printed output that no test reads, and whether it stops early depends on the vector length of the build and the basis set.", "anchors": ["skel/test/screentest.cpp", "skel/simint/shell/shell.c", "skel/simint/vectorization/vectorization.h"]}
{"id": "C75", "title": "The Fortran interface and the structures of the library", "statement": "On every machine the Fortran type of a shell has every member where the C structure has it, and the interface bodies call the functions of the library with the types of their prototypes. The type of a pair of shells agrees exactly if the file is preprocessed or derivatives are built; then every pair of an initialised array can be created and freed. Otherwise (GNU and Clang flags, no derivatives) an array of two or more pairs is used with bytes that were never initialised, and the pointer prefac the shipped example follows is the number screen_max. The sizes of the workspace come through exactly if they are below 2^31; pairs from one list of shells are right for contiguous arguments and read outside of the copy otherwise; simint_copy_shell alone makes a structure undefined that the library then reads.", "quantifier": "all sizes and alignments of the basic types, all settings of preprocessing and derivatives, all numbers of pairs and shells", "why_tests_cant": "No test uses the Fortran interface; the example is built with one compiler and one derivative setting and its output is not compared.", "anchors": ["skel/simint/simint.f90", "skel/simint/shell/shell.h", "skel/simint/shell/shell.c", "skel/cmake/DefaultFlags.cmake", "skel/simint/CMakeLists.txt", "skel/examples/example_water_spsp.f90"]}
{"id": "C76", "title": "The script for the table of the Boys function", "statement": "Without rounding the table gen_boys_shortgrid.py writes serves every argument below the largest one if the largest argument divided by the spacing has a fraction above 0 and at most 1/2: the row looked up exists and was computed at the nearest point. Refuted otherwise: for a multiple the last row declared is never written, so it is zero and is looked up; for a fraction above 1/2 the lookup is past the table. The shipped table (spacing 0.1 up to 36.5, a multiple) is complete only because of the rounding in 854 bits; with 43 instead of 36.5, or spacing 0.125, the last row is zero.", "quantifier": "all positive spacings and largest arguments, all row functions; the shipped arguments and two others with rounding after every operation", "why_tests_cant": "The script is run by hand; the tests see one shipped table, for which the two countings happen to agree.", "anchors": ["python/boys/gen_boys_shortgrid.py", "skel/simint/boys/boys_taylor.h"]}
{"id": "C77", "title": "The scripts behind the long-range formula", "statement": "What the scripts take for the Boys function is the integral, and their long-range form is the table factor sqrt(pi)(2n-1)!!/2^(n+1) over sqrt(x^(2n+1)); the table of normalisation constants is pi^(3/2)(2n-1)!!/2^n. The long-range form is above the integral and its error decreases with the argument. The search for cutoffs ends for all spacings and tolerances, each cutoff is the first point tried with an error below the tolerance, and the error stays below for all larger arguments; a cutoff is missing only if some error equals the tolerance. 36.5 is such a point for 1e-17 and all orders of the table.", "quantifier": "all orders, arguments, spacings and tolerances", "why_tests_cant": "The cutoff script samples the error on a grid and the library relies on it for all larger arguments; no test runs the scripts.", "anchors": ["python/boys/boys_common/boys.py", "python/boys/gen_boys_longfac.py", "python/boys/cutoff_finder.py", "python/gen_shellconstants.py"]}
{"id": "C78", "title": "Vector loads are aligned and stay inside their arrays", "statement": "Every vector a kernel loads from the arrays of the ket begins at a multiple of the size of a vector and ends inside the array and the allocated block, whatever the screening leaves out; the same alignment holds for the arrays of concatenated pairs, the workspace of every thread of the test programs and every vector of primitive integrals in a workspace. It fails for the local array of contract_all with AVX-512, which has no alignment attribute, and the alignment claimed of the integrals (SIMINT_ASSUME_ALIGN_DBL) is false for thread 1 of the tests for some bases and for the last call of example1.c with vectors of 8.", "quantifier": "all vector lengths dividing the batch size, all batches of shell pairs, screen values, tolerances, thread numbers, classes and base addresses the allocator may return", "why_tests_cant": "Whether a misaligned access faults depends on where the compiler and the allocator put things and on the instruction chosen; a run that succeeds says nothing about the next compiler, basis or thread count.", "anchors": ["skel/simint/vectorization/vectorization.h", "skel/simint/vectorization/intrinsics_avx512.h", "generator/ostei/OSTEI_Writer.cpp", "generator/ostei/OSTEIDeriv1_Writer.cpp", "skel/test/test_eri.cpp", "skel/examples/example1.c"]}
{"id": "C79", "title": "The vector type given to a build", "statement": "A value of SIMINT_VECTOR is refused exactly if it is not in the list of valid names; each of twelve valid names, in any mixture of small and capital letters, leads to one header, with the vector length of that name; the other two valid names (avx512, scalar-avx512) are accepted but include a file that does not exist, and no header tests their definition. The buffered sums of the (ss|ss) kernel are compiled for micavx512 only, and two headers lack count_prim_screen_survival.", "quantifier": "all strings given as SIMINT_VECTOR", "why_tests_cant": "A build configures one vector type; the tests of that build never see what the other names do.", "anchors": ["skel/cmake/DefaultFlags.cmake", "skel/CMakeLists.txt", "skel/simint/vectorization/vectorization.h", "skel/ostei_s_s_s_s.c"]}
{"id": "C80", "title": "The vector headers agree lane by lane", "statement": "In every header and with every switch the arithmetic macros do to each lane what their names say (so FMADD and FMSUB mean the same everywhere), mask_load gives the first lanes and zeros, reading the whole vector except with the scalar and SVE headers, and vector_min and vector_max are the smallest and largest lane; vector_max of the SSE header is a lane only if some lane is not negative.", "quantifier": "all headers and switches, vector lengths, lanes, values, numbers of valid lanes and memory contents", "why_tests_cant": "One build uses one header; the headers of other processors cannot even be compiled on the machine that runs the tests.", "anchors": ["skel/simint/vectorization/intrinsics_scalar.h", "skel/simint/vectorization/intrinsics_sse.h", "skel/simint/vectorization/intrinsics_avx.h", "skel/simint/vectorization/intrinsics_avx512.h", "skel/simint/vectorization/intrinsics_asimd.h", "skel/simint/vectorization/intrinsics_sve.h"]}
{"id": "C81", "title": "The int arithmetic of kernels, allocations and tests stays in range below stated sizes", "statement": "A kernel whose results (12 times the components with derivatives), bra primitives, padded ket positions and pair counts do not exceed INT_MAX evaluates no int expression out of range, clears exactly its results, and a kernel in range has all its results below that bound; the allocation of a batch is in range if twice its padded primitives is, and its size in size_t does not wrap; the areas of the test programs are in range exactly if threads times squared dimension is. Fitting in memory is not enough (464 x 464 pairs of f functions), nor is a count in range when a shell is paired with itself, nor an area in range for one thread.", "quantifier": "all batches, vector lengths, classes with and without HRR and derivatives, numbers of pairs and primitives, threads and molecules", "why_tests_cant": "Results of 16 GB and more are needed to see an overflow, and a wrapped product can still give plausible numbers.", "anchors": ["generator/ostei/OSTEI_Writer.cpp:416-421", "generator/ostei/OSTEI_HRR_Writer.cpp:132-146", "generator/ostei/OSTEIDeriv1_Writer.cpp:205-250", "skel/simint/shell/shell.c:131-185", "skel/simint/shell/shell.c:356-382", "skel/test/test_eri.cpp:57-75", "skel/test/test_eri_deriv1.cpp:57-75", "skel/test/benchmark_eri.cpp:50-57"]}
{"id": "C82", "title": "Threads of the test programs do not race, except on missing momenta and on the times", "statement": "In the parallel loops of test_eri and test_eri_deriv1 no two threads access the same place with a write unless both are in the critical section or both atomic, for every molecule including those with momenta that have no shells; the loops of test_ke, test_overlap and test_potential are free of races exactly if every momentum up to the highest has shells (otherwise threads add nodes to the shell map at the same time); the benchmark races on nothing but its times, and on these exactly if the bra has more than one pair.", "quantifier": "all molecules, momentum limits, workspace sizes, and all assignments of iterations to threads", "why_tests_cant": "A race shows only under some timings, and the shipped molecules have no gap between their momenta.", "anchors": ["skel/test/test_eri.cpp:95-232", "skel/test/test_eri_deriv1.cpp:95-232", "skel/test/test_ke.cpp:67-107", "skel/test/test_overlap.cpp:67-107", "skel/test/test_potential.cpp:79-123", "skel/test/benchmark_eri.cpp:82-225"]}
{"id": "C83", "title": "The comparison operators of the generator are orders and its sets are complete", "statement": "For the momenta in the written tables (up to 24, both orders of components) operator< of components, of doublets of one type, of quartets with a bra left and a ket right, and of tagged classes is a strict total order whose equivalence is equality of all members, and does not throw; so a std::set of them gives every inserted element once, in an order that does not depend on the insertions, and the targets of a class come in the order of their indices. Not so across types: a bra and a ket with the same components are merged by a set though != holds, quartets with bras of different types break the transitivity of equivalence, and == of quartets ignores the tag that < compares.", "quantifier": "all components, doublets, quartets, classes and tags; all sequences of insertions; all index tables that agree with an order of components", "why_tests_cant": "A comparison that is no strict weak order makes std::set lose elements only for some contents; generating one class exercises a few sets, and the types are never mixed today.", "anchors": ["generator/Types.hpp:40-130", "generator/Types.hpp:270-312", "generator/Types.hpp:406-470", "generator/Types.hpp:482-558", "generator/Types.cpp:16-104", "generator/ostei/OSTEI_Types.hpp:20-78"]}
{"id": "C84", "title": "Nuclear attraction is the limit of repulsion with a point charge", "statement": "With exact arithmetic, exponential and Boys function every element that osoei_potential.c stores for two shells and any nuclei is the limit, as the exponent grows, of minus the contracted electron repulsion of the two functions with the nuclei smeared to Gaussian distributions of the same charges, where the repulsion integrals are any that have the textbook values for s functions and the right derivatives with respect to the centres. So its recurrences, their signs and the prefactor of the starting values agree with the repulsion integrals of the kernels.", "quantifier": "all pairs of shells (momenta up to 18, any primitives with positive exponents, any centres), numbers and places of nuclei, charges, scratch contents, sequences of exponents that grow beyond bounds", "why_tests_cant": "It is a limit; and test_potential only prints the values it computes.", "anchors": ["skel/simint/osoei/osoei_potential.c:11-219", "skel/simint/boys/boys.h:1-40"]}
{"id": "C85", "title": "Overlap and kinetic energy are what differentiation makes of the overlap of s functions", "statement": "With exact arithmetic, square root and exponential: any function of two Gaussians and their powers that has the textbook values for two s functions and whose derivatives with respect to the centres are those of Cartesian Gaussians is what osoei_overlap.c stores, contracted, for every pair of shells; and osoei_ke.c stores minus half the sum of the second derivatives of it along the axes with respect to the second centre. Such a function exists and is unique.", "quantifier": "all functions with these values and derivatives; all pairs of shells (momenta up to 18, positive exponents, any centres, coefficients, numbers of primitives)", "why_tests_cant": "test_overlap and test_ke only print the values they compute; derivatives and uniqueness are statements about all centres.", "anchors": ["skel/simint/osoei/osoei_terms.c:8-160", "skel/simint/osoei/osoei_overlap.c:9-67", "skel/simint/osoei/osoei_ke.c:10-68"]}
{"id": "C86", "title": "Results of several calls in one buffer: where the examples store, and when the benchmark is defined", "statement": "A program that stores the results of its calls one after the other and advances by (return value) x (factor) keeps them in the buffer, apart and without gaps when nothing is screened and every factor is the number of elements per shell quartet, and apart only if no factor is smaller; a screened call (return value -1) makes the next one store outside the buffer or over earlier results, whatever the sizes. example1 and the water examples are of the good kind, find their functions in every library built for p functions, and print exactly what was stored; the count from 2l+1 in the derivative example is right exactly for s and p functions. benchmark_eri, whose four classes are fixed, is defined exactly when the basis has s, d and f shells and the library is built for f functions.", "quantifier": "all lists of calls (classes, numbers of shell pairs, factors, screening), buffer sizes, classes, bases and build limits", "why_tests_cant": "The examples are not run as tests, use no screening and only s and p shells; the benchmark is only run on bases its author had.", "anchors": ["skel/examples/example1.c:95-153", "skel/examples/example_water_spsp.c:82-121", "skel/examples/example_water_ppps_deriv.c:80-121", "skel/test/benchmark_eri.cpp:46-172", "skel/simint/ostei/ostei.c:10-43"]}
{"id": "C87", "title": "Overlap and kinetic energy are integrals over space, and their matrices are positive semidefinite", "statement": "With exact arithmetic, square root and exponential: for any two shells and components, what osoei_overlap.c stores is the iterated integral over space of the product of the two contracted Cartesian Gaussians, and what osoei_ke.c stores is half the integral of the product of their gradients. Swapping the shells transposes the block. The overlap matrix and the kinetic energy matrix over any list of functions are positive semidefinite.", "quantifier": "all pairs of shells (momenta up to 18, positive exponents, any centres, coefficients, numbers of primitives), all components, all lists of such functions and all weights, any previous contents of the output", "why_tests_cant": "The test programs compare with reference code that uses the same recurrences; an integral over space and a sign for all weights are not values a program can compare.", "anchors": ["skel/simint/osoei/osoei_terms.c:8-160", "skel/simint/osoei/osoei_overlap.c:9-67", "skel/simint/osoei/osoei_ke.c:10-68"]}
{"id": "C88", "title": "Rounding errors of the contraction are bounded, whatever order the vector header adds in", "statement": "With any rounding of relative error at most u after every addition and multiplication, contract, contract_all (in the form of every header, for every order in which an instruction sums the lanes) and the forms with a factor add to each element the exact sum of its lanes up to ((1+u)^k - 1) times the sum of the absolute values, where k is the number of lanes (one more with a factor); over all calls of a kernel k is the number of calls times the lanes. Two forms with the same number of lanes differ by at most both errors. Refuted: that they give the same result.", "quantifier": "all rounding functions of bounded relative error, numbers of lanes and components, offsets, lanes, destinations, orders of reduction, lists of calls", "why_tests_cant": "The tests compare with a tolerance chosen by hand on the machine at hand; a bound for every input and every vector header is a statement about all orders of additions.", "anchors": ["skel/simint/vectorization/intrinsics_scalar.h:32-87", "skel/simint/vectorization/intrinsics_sse.h:74-129", "skel/simint/vectorization/intrinsics_avx.h:84-193", "skel/simint/vectorization/intrinsics_avx512.h:79-176", "skel/simint/vectorization/intrinsics_asimd.h:65-121", "skel/simint/vectorization/intrinsics_sve.h:107-165"]}
{"id": "C89", "title": "Rounding errors of the horizontal recurrence are bounded, in every form the code takes", "statement": "With any rounding of relative error at most u after every operation, product and sum fused or not, the emitted horizontal code gives every requested integral with at most 2 rounding errors for each unit of momentum moved on top of those of the top integrals: |computed - exact| <= ((1+u)^(k+2m) - 1) (1+H)^m T, where m is the number of units moved, H bounds the distances between the centres, T the top integrals and k their errors. This holds in every combination of inline, external and table-driven forms.", "quantifier": "all rounding functions of bounded relative error, choices of fused operations, requests, directions, thresholds between the forms, families of integrals, distances, top integrals with errors", "why_tests_cant": "The tests compare a few quartets with a tolerance chosen by hand; the bound holds for all momenta, geometries, forms and choices of the compiler.", "anchors": ["generator/ostei/OSTEI_HRR_Writer.cpp:22-101", "generator/ostei/OSTEI_HRR_Writer.cpp:148-273", "skel/simint/ostei/ostei_general_hrr.c:5-207"]}
{"id": "C90", "title": "With rounding the Taylor branch of the Boys function stays inside its table and its errors are bounded", "statement": "With any rounding of relative error at most u <= 1/4096 of every literal, table entry and operation, additions fused with one of their products or not, the Taylor branch reads eight entries of one row of the table for every argument below 36.5 and every order up to 24. The grid point is at most half a step plus ((1+u)^4-1)(x+1/20) away; the computed distance is right up to ((1+u)^3-1)(xi+x), and the result is the expansion at the computed distance up to ((1+u)^17-1) times the sum of the absolute terms. For u at most 1e-6 the result is therefore the Boys function, as an integral, up to a relative error of 2e-15 + 250 u. Refuted: that it stays inside the table with the rounding of half precision.", "quantifier": "all rounding functions of bounded relative error, choices of fused operations, arguments, orders up to 24", "why_tests_cant": "Whether a rounded index can leave the table, and how far rounding carries the result away, is a statement about all arguments; tests see a few of them on one machine.", "anchors": ["skel/simint/boys/boys_taylor.h:14-136", "skel/simint/boys/boys_shortgrid.h:3-8"]}
{"id": "C91", "title": "With rounding every order of the Boys function is right up to 3e-15 and 540 units of rounding", "statement": "With any rounding of relative error at most u <= 1e-6 of every literal, table entry and operation, multiply-adds fused or not, and an exponential function right up to 250 u, boys_F_split leaves in F, for an argument below 36.5 and a highest order up to 24, all orders of the Boys function (the integral of t^(2n) exp(-x t^2)) with a relative error of at most 3e-15 + 540 u: by the expansion for highest orders below 4, by the expansion and the downward recursion from 4 on. Nothing above the highest order is changed.", "quantifier": "all rounding functions of bounded relative error, exponential functions within the bound, choices of fused operations, arguments below 36.5, orders up to 24, arrays F", "why_tests_cant": "The recursion passes rounding errors from order to order; that they add up to no more than this is a statement about all arguments and all roundings, of which a test sees a few on one machine.", "anchors": ["skel/simint/boys/boys.h:14-92", "skel/simint/boys/boys_taylor.h:14-136"]}
{"id": "C92", "title": "With rounding the long-range formula of the Boys function has a bounded relative error", "statement": "With any rounding of relative error at most u <= 1e-3 of every literal, factor and operation, boys_F_long leaves in F, for a positive argument and a highest order up to 31, for every order k the formula boys_longfac[k] / sqrt(x^(2k+1)) with a relative error of at most (1+u)^(3k+5) - 1, and changes nothing above the highest order. The forms for one order compute the same formula: with a power function right up to w <= 1/2 their relative errors are at most (1+w)(1+u)^3 - 1 (boys_F_long_single) and (1+w)(1+u)^2 - 1 (boys_F_long_single_vec).", "quantifier": "all rounding functions of bounded relative error, power functions within the bound, positive arguments, orders up to 31, arrays F", "why_tests_cant": "The loop multiplies rounded powers together; that the error grows only with the order is a statement about all arguments and all roundings.", "anchors": ["skel/simint/boys/boys_long.h:13-58", "skel/simint/boys/boys_longfac.h:1-50"]}
