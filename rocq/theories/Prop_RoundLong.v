(** Property theorem C92: the long-range formula of the Boys function with rounding. *)
From Coq Require Import List Arith Reals.
Import ListNotations.
From Verif Require Import Base RoundSum RoundBoys RoundLong.
Local Open Scope R_scope.

(** C92.  With any rounding of relative error at most [u <= 1e-3] of every literal, factor and operation, the long-range loop leaves in
    [F] the formula of every order [k] up to 31, with [3 k + 5] rounding errors, and changes nothing above the highest order ... *)
Theorem C92_long_rounding : forall u rnd x n F, rounding u rnd -> u <= / 1000 -> 0 < x -> (n <= 31)%nat -> (n < length F)%nat ->
  exists F', rlong rnd x n F = Some F' /\ length F' = length F /\ (forall k, (n < k)%nat -> nth_error F' k = nth_error F k) /\
    forall k, (k <= n)%nat -> exists b v, nth_error F' k = Some b /\ formula x k v /\ Rabs (b - v) <= ((1 + u) ^ (3 * k + 5) - 1) * v.
Proof. exact long_rounded. Qed.
Print Assumptions C92_long_rounding.

(** ... and the two forms for one order compute the same formula, with three and two rounding errors and that of the power function. *)
Theorem C92_single_rounding : forall u w rnd rpow x n, rounding u rnd -> 0 <= w <= 1 / 2 -> 0 < x -> (n <= 31)%nat ->
  (forall p, Rabs (rpow x p - Rpower x p) <= w * Rpower x p) ->
  exists a b v, rlong_single rnd rpow x n = Some a /\ rlong_single_vec rnd rpow x n = Some b /\ formula x n v /\
    Rabs (a - v) <= ((1 + w) * (1 + u) ^ 3 - 1) * v /\ Rabs (b - v) <= ((1 + w) * (1 + u) ^ 2 - 1) * v.
Proof. exact single_rounded. Qed.
Print Assumptions C92_single_rounding.

(** Rounding errors of a thousandth: orders 0 to 3, and order 24, at the argument 40. *)
Example C92_long_example : exists F', rlong (scale_rnd (/ 1000)) 40 3 (repeat 0 5) = Some F' /\ nth_error F' 4 = Some 0 /\
  forall k, (k <= 3)%nat -> exists b v, nth_error F' k = Some b /\ formula 40 k v /\ Rabs (b - v) <= 15 / 1000 * v.
Proof. exact long_example. Qed.
Example C92_single_example : exists a b v, rlong_single (scale_rnd (/ 1000)) Rpower 40 24 = Some a /\
  rlong_single_vec (scale_rnd (/ 1000)) Rpower 40 24 = Some b /\ formula 40 24 v /\
  Rabs (a - v) <= ((1 + 0) * (1 + / 1000) ^ 3 - 1) * v /\ Rabs (b - v) <= ((1 + 0) * (1 + / 1000) ^ 2 - 1) * v.
Proof. exact single_example. Qed.
