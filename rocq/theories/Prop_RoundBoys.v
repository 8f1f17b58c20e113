(** Property theorem C90: the Taylor branch of the Boys function with rounding. *)
From Coq Require Import List Arith ZArith Reals.
Import ListNotations.
From Verif Require Import Base BoysReal RoundSum RoundBoys RoundBoysAcc.
Local Open Scope R_scope.

(** C90.  With any rounding of relative error at most [u <= 1/4096] of every literal, table entry and operation, fused or not, the
    Taylor branch reads inside one row of the table for every argument and order up to 24; the grid point is at most half a step
    away, the distance [dx] to it and the value of the expansion at [dx] are right, up to the errors stated. *)
Theorem C90_taylor_rounding : forall u rnd fs x n, rounding u rnd -> u <= / 4096 -> 0 <= x < 73 / 2 -> (n <= 24)%nat ->
  exists i g dx r, rtaylor rnd fs x n = Some r /\ (0 <= i <= 365)%Z /\ (forall k, (k < 8)%nat -> entry_at i (n + k) (g k)) /\
    Rabs (IZR i / 10 - x) <= / 20 + ((1 + u) ^ 4 - 1) * (x + / 20) /\
    Rabs (dx - (IZR i / 10 - x)) <= ((1 + u) ^ 3 - 1) * (IZR i / 10 + x) /\
    Rabs (r - terms g dx) <= ((1 + u) ^ 17 - 1) * terms (fun k => Rabs (g k)) (Rabs dx).
Proof. exact taylor_rounded. Qed.
Print Assumptions C90_taylor_rounding.

(** So the result is the Boys function, the integral of [t^(2n) exp(-x t^2)] over the unit interval, up to a relative error of 2e-15
    for the table and the expansion and 250 units of rounding. *)
Theorem C90_accuracy : forall u rnd fs x n, rounding u rnd -> u <= / 1000000 -> 0 <= x < 73 / 2 -> (n <= 24)%nat ->
  exists r, rtaylor rnd fs x n = Some r /\ Rabs (r - boysR n x) <= (2 / 1000000000000000 + 250 * u) * boysR n x.
Proof. exact taylor_accurate. Qed.
Print Assumptions C90_accuracy.

(** With a coarser rounding, that of half precision, an argument below the largest one is looked up past the table. *)
Theorem C90_coarse_refuted : rounding (/ 2048) (scale_rnd (/ 2048)) /\ 0 <= 36499 / 1000 < 73 / 2 /\
  forall fs n, rtaylor (scale_rnd (/ 2048)) fs (36499 / 1000) n = None.
Proof. exact coarse_past. Qed.
Print Assumptions C90_coarse_refuted.

(** A rounding that always errs by 1/4096 meets the hypotheses; it looks up the argument 1 in row 10. *)
Example C90_example : rounding (/ 4096) (scale_rnd (/ 4096)) /\ rlookup (scale_rnd (/ 4096)) 1 = 10%Z.
Proof. split; [apply scale_rounding; apply Rlt_le, Rinv_0_lt_compat, IZR_lt; reflexivity|exact lookup_example]. Qed.

(** A rounding that always errs by a millionth: order 3 at the argument 36, with every addition fused. *)
Example C90_accuracy_example : exists r, rtaylor (scale_rnd (/ 1000000)) (fun _ => FmaDx) 36 3 = Some r /\
  Rabs (r - boysR 3 36) <= (2 / 1000000000000000 + 250 * / 1000000) * boysR 3 36.
Proof. exact accuracy_example. Qed.
