(** C86: programs that store the results of several calls one after the other, and the benchmark with fixed classes. *)
From Coq Require Import List Arith ZArith QArith.
Import ListNotations.
From Verif Require Import Base Cart Work Naming Dispatch MolFile Programs.
Local Open Scope Z_scope.

(** With exact factors and nothing screened the results of all calls lie in the buffer, none over another, without
    gaps, and [ntotal] is their number. *)
Theorem C86_blocks : forall (l : list call) (size : Z), Forall exact_call l -> all_stored l <= size ->
  in_buffer size (blocks 0 l) /\ separate (blocks 0 l) /\ total 0 l = all_stored l /\
  (forall x, 0 <= x < total 0 l <-> exists b, In b (blocks 0 l) /\ inside b x).
Proof. exact blocks_exact. Qed.
Print Assumptions C86_blocks.

(** The results stay apart exactly when no factor (except that of the last call) is below the number of elements. *)
Theorem C86_apart : forall l : list call, (forall c, In c l -> k_screened c = false /\ 0 < quartets c /\ 0 <= k_mult c) ->
  (separate (blocks 0 l) <-> forall i c, nth_error l i = Some c -> (S i < length l)%nat -> comps c <= k_mult c).
Proof. exact blocks_apart. Qed.
Print Assumptions C86_apart.

(** With screening the scheme of the examples fails: after a call that returns -1 the next one stores outside the
    buffer or over results already there. *)
Theorem C86_screened_refuted : forall (pre : list call) (s c : call) (post : list call) (size : Z),
  Forall exact_call pre -> k_screened s = true -> 0 < k_mult s -> k_screened c = false -> 0 < quartets c ->
  ~ (in_buffer size (blocks 0 (pre ++ s :: c :: post)) /\ separate (blocks 0 (pre ++ s :: c :: post))).
Proof. exact blocks_screened. Qed.
Print Assumptions C86_screened_refuted.

(** example1: 925 integrals in a buffer for 2401; the two water examples print what was stored. *)
Theorem C86_examples : (in_buffer example1_size (blocks 0 example1) /\ separate (blocks 0 example1) /\
    total 0 example1 = 925 /\ all_stored example1 = 925) /\
  (stored water_spsp = spsp_printed /\ stored water_spsp <= example1_size /\
   stored water_deriv = deriv_printed (k_q water_deriv) /\ stored water_deriv <= deriv_size).
Proof. exact (conj example1_ok water_ok). Qed.
Print Assumptions C86_examples.

(** Every call of the examples finds its function in a library built for p functions. *)
Theorem C86_called : forall MD MA : nat, (1 <= MA)%nat -> exists t, simint_init MD MA = Some t /\
  (forall c, In c (water_spsp :: example1) \/ ((1 <= MD)%nat /\ c = water_deriv) ->
     exists f, fn_name (kernel_of (k_der c) (k_q c)) = Some f /\
       forall pmax qmax, compute MD MA t (k_der c) (k_q c) pmax qmax 0 = Called f (0 * 0)%Q).
Proof. exact examples_called. Qed.
Print Assumptions C86_called.

(** The count of the derivative example, from 2l+1, is never too large, and right exactly for s and p functions. *)
Theorem C86_printed : forall q : qam,
  deriv_printed q <= stored (Call 1 q 1 1 false 1) /\ (deriv_printed q = stored (Call 1 q 1 1 false 1) <-> (amax q <= 1)%nat).
Proof. exact printed_stored. Qed.
Print Assumptions C86_printed.

(** benchmark_eri is defined exactly for a basis with s, d and f shells and a library built for f functions; then its
    blocks and classes fit. *)
Theorem C86_benchmark : forall V (m : shellmap V) limit,
  (bench_defined m limit <-> at_am m 0 <> [] /\ at_am m 2 <> [] /\ at_am m 3 <> [] /\ (3 <= limit)%nat) /\
  (forall q, bench_defined m limit -> In q bench_classes -> at_am m (am0 q) <> [] -> at_am m (am1 q) <> [] ->
     bench_block m q <= t_maxsize 1 limit (find_max m) /\ (amax q <= t_maxam limit (find_max m))%nat).
Proof. exact (fun V m limit => conj (bench_iff m limit) (@bench_fits V m limit)). Qed.
Print Assumptions C86_benchmark.
Theorem C86_benchmark_refuted : (forall V (m : shellmap V) limit, at_am m 3 = [] -> ~ bench_defined m limit) /\
  (forall V (m : shellmap V) limit, (limit < 3)%nat -> ~ bench_defined m limit).
Proof. exact bench_undefined. Qed.
Print Assumptions C86_benchmark_refuted.

Example C86_positions : blocks 0 screened_first = [(0, 0); (-3, 144)] /\ blocks 0 wrong_factor = [(0, 192); (64, 144)] /\
  blocks 0 example1 = [(0, 256); (256, 192); (448, 144); (592, 144); (736, 108); (844, 81)] /\ Forall exact_call example1.
Proof. repeat split; repeat constructor. Qed.
Example C86_example : bench_defined (some_basis [0; 1; 2; 3]%nat) 3 /\ ~ bench_defined (some_basis [0; 1; 2]%nat) 7 /\
  bench_block (some_basis [0; 1; 2; 3]%nat) (QAM 3 1 3 0) = 300 /\ t_maxsize 1 3 (find_max (some_basis [0; 1; 2; 3]%nat)) = 10000.
Proof. exact bench_example. Qed.
