(** Property theorem C91: all orders of the Boys function with rounding. *)
From Coq Require Import List Arith Reals.
Import ListNotations.
From Verif Require Import Base BoysReal RoundSum RoundBoys RoundSplit.
Local Open Scope R_scope.

(** C91.  With any rounding of relative error at most [u <= 1e-6] of every literal, table entry and operation, fused or not, and an
    exponential right up to 250 such errors, the code leaves in [F] all orders of the Boys function (the integral) at an argument of the
    Taylor branch, each with a relative error of at most 3e-15 + 540 u, and changes nothing above the highest order. *)
Theorem C91_split_rounding : forall u rnd rexp fs fd x n F, rounding u rnd -> u <= / 1000000 -> 0 <= x < 73 / 2 -> (n <= 24)%nat ->
  (n < length F)%nat -> Rabs (rexp (- x) - exp (- x)) <= 250 * u * exp (- x) ->
  exists F', rsplit rnd rexp fs fd x n F = Some F' /\ length F' = length F /\ (forall k, (n < k)%nat -> nth_error F' k = nth_error F k) /\
    forall k, (k <= n)%nat -> exists b, nth_error F' k = Some b /\ Rabs (b - boysR k x) <= (3 / 1000000000000000 + 540 * u) * boysR k x.
Proof. exact split_rounded. Qed.
Print Assumptions C91_split_rounding.

(** Rounding errors of a millionth and an exponential off by 1e-4: orders 0 to 6 at the argument 20, by the recursion. *)
Example C91_example : exists F', rsplit (scale_rnd (/ 1000000)) (fun y => exp y * (1 + / 10000)) (fun _ _ => FmaCoef) (fun _ => true) 20 6 (repeat 0 8) = Some F' /\
  nth_error F' 7 = Some 0 /\ forall k, (k <= 6)%nat -> exists b, nth_error F' k = Some b /\ Rabs (b - boysR k 20) <= / 1000 * boysR k 20.
Proof. exact split_example. Qed.
