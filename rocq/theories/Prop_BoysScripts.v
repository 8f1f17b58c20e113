(** C77: the scripts behind the long-range formula of the Boys function, python/boys. *)
From Coq Require Import List Arith Reals.
Import ListNotations.
From Verif Require Import Constants BoysReal BoysScripts BoysScriptsProof.
Local Open Scope R_scope.

(** C77.  What the scripts take for the Boys function is the integral; what they take for its long-range form is the factor of the table
    over sqrt (x^(2n+1)), and the factor is sqrt(pi) (2n-1)!! / 2^(n+1). *)
Theorem C77_value : forall g n x i, lower_gamma g -> 0 <= x -> (i <= n)%nat -> nth i (boys_value g n x) 0 = boysR i x.
Proof. exact value_ok. Qed.
Print Assumptions C77_value.
Theorem C77_asymptotic : forall n x i, 0 < x -> (i <= n)%nat -> nth i (boys_asymptotic n x) 0 = nth i (longfac_loop n) 0 / sqrt (x ^ (2 * i + 1)).
Proof. exact asymptotic_ok. Qed.
Print Assumptions C77_asymptotic.
Theorem C77_longfac : forall n, longfac_loop n = map (fun i => sqrt PI * IZR (odd_fact i) / 2 ^ (i + 1)) (seq 0 (n + 1)).
Proof. exact longfac_loop_ok. Qed.
Print Assumptions C77_longfac.
Theorem C77_normfac : forall maxam l, normfac_script maxam = Some l ->
  l = map (fun i => Rpower PI (3 / 2) * IZR (odd_fact i) / 2 ^ i) (seq 0 (maxam + 1)).
Proof. exact normfac_ok. Qed.
Print Assumptions C77_normfac.
(** Every order and every argument: the long-range form is above the integral, and comes closer as the argument grows. *)
Theorem C77_above : forall n x, 0 < x -> boysR n x < long_exact n / sqrt (x ^ (2 * n + 1)).
Proof. exact long_above. Qed.
Print Assumptions C77_above.
Theorem C77_closer : forall n x y, 0 < x <= y ->
  long_exact n / sqrt (y ^ (2 * n + 1)) - boysR n y <= long_exact n / sqrt (x ^ (2 * n + 1)) - boysR n x.
Proof. exact long_closer. Qed.
Print Assumptions C77_closer.
(** The search for the cutoffs ends for all positive spacings and tolerances.  A cutoff found is the first point of the search where the
    error is below the tolerance, and it stays below for all larger arguments, not only for the points tried.  No cutoff is left out
    unless an error is exactly the tolerance. *)
Theorem C77_cutoffs : forall g n inc eps, lower_gamma g -> 0 < inc -> 0 < eps ->
  exists cs f0, (forall fuel, (f0 <= fuel)%nat -> cutoff_finder g n inc eps fuel = Some cs) /\ length cs = (n + 1)%nat /\
  forall i, (i <= n)%nat ->
    match nth i cs None with
    | Some y => (exists j, (1 <= j)%nat /\ y = INR j * inc /\
          forall m, (1 <= m < j)%nat -> eps <= Rabs (boysR i (INR m * inc) - long_exact i / sqrt ((INR m * inc) ^ (2 * i + 1)))) /\
        forall z, y <= z -> Rabs (boysR i z - long_exact i / sqrt (z ^ (2 * i + 1))) < eps
    | None => exists z, 0 < z /\ Rabs (boysR i z - long_exact i / sqrt (z ^ (2 * i + 1))) = eps
    end.
Proof. exact finder_ok. Qed.
Print Assumptions C77_cutoffs.
(** The argument at which the library changes to the long-range form, 36.5, is such a point for the tolerance 1e-17 the script has by
    default and for all orders of the table. *)
Theorem C77_switch : forall n x, (n <= 31)%nat -> 73 / 2 <= x -> Rabs (boysR n x - long_exact n / sqrt (x ^ (2 * n + 1))) < / 10 ^ 17.
Proof. exact switch_ok. Qed.
Print Assumptions C77_switch.
Example C77_example : lower_gamma gamma_half /\ cutoff_finder gamma_half 0 1 (1 / 2) 2 = Some [Some 1].
Proof. exact (conj gamma_half_ok finder_example). Qed.
(** With momentum 0 only the script for the normalisation constants stops with an error; with 1 it does not. *)
Example C77_example_normfac : normfac_script 0 = None /\ normfac_script 1 <> None.
Proof. split; [reflexivity|discriminate]. Qed.
