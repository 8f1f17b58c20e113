(** Property theorem C84: nuclear attraction is the limit of repulsion with a point charge. *)
From Coq Require Import List Arith ZArith QArith Reals Qreals.
Import ListNotations.
From Verif Require Import Base Cart QList HRRStep VRRStep Layout Mdir PairData Recur Deriv OneE OneEInt Potential PotentialSpec PotentialInt
  OSFamily EndToEnd Normalize BoysReal RealDeriv RealUnique PointCharge.
Local Open Scope R_scope.

(** C84.  Whatever gives repulsion integrals ([integrals]: textbook values for s functions, right derivatives with respect to the
    centres), every element of the block computed for the nuclei is the limit of the repulsion with the nuclei smeared to Gaussian
    distributions of the same charge, as these become sharper; with exact exp and Boys function. *)
Theorem C84_limit : forall H, integrals two_pi52 H -> forall nc Zc X (A B : @oshell Rcring) W0 out,
  (os_am A <= 18)%nat -> (os_am B <= 18)%nat -> (ncart (os_am A) * ncart (os_am B) <= length out)%nat -> shaped (os_am A) (os_am B) W0 ->
  positive (os_sh A) -> positive (os_sh B) ->
  exists out', @compute_potential Rcring Rinv exp (/ 2) PI (fun _ x n => boysR n x) nc Zc X A B W0 out = Some out' /\
    forall a b, gam a = os_am A -> gam b = os_am B -> exists v, rdv out' (pos a * ncart (os_am B) + pos b) = Some v /\
      forall qs, (forall n, 0 < qs n) -> cv_infty qs -> Un_cv (fun n => smeared H nc Zc X (os_sh A) (os_sh B) a b (qs n)) v.
Proof. exact attraction_limit. Qed.
Print Assumptions C84_limit.

(** The smeared charges are right: the distribution of exponent [q] times [unit_charge q] integrates to 1. *)
Theorem C84_unit : forall q, 0 < q -> unit_charge q * (sqrt (PI / q) * sqrt (PI / q) * sqrt (PI / q)) = 1.
Proof. exact unit_is_one. Qed.
Print Assumptions C84_unit.

(** Shells, scratch, integrals and sequences meeting the hypotheses, and a value. *)
Example C84_met : forall l l' w w', positive (os_sh (pc_shell l w)) /\ positive (os_sh (pc_shell l' w')) /\ shaped l l' (pc_work l l') /\
  integrals two_pi52 (@prim_eri Rcring Rinv exp sqrt boysR (/ 2) (sqrt two_pi52)) /\
  (forall n, 0 < INR (S n)) /\ cv_infty (fun n => INR (S n)).
Proof. exact pc_met. Qed.
Example C84_example : forall al1 al2 (x : nat -> R), 0 < al1 -> 0 < al2 ->
  p_start (R := Rcring) Rinv exp PI (fun _ x n => boysR n x) 0 al1 x al2 x x 0 = 2 * PI / (al1 + al2).
Proof. exact s_on_nucleus. Qed.
