(** C71: the Boys function of the reference of the tests, skel/test/ValeevRef.cpp. *)
From Coq Require Import List Arith Reals.
Import ListNotations.
From Verif Require Import BoysReal Reference ValeevF.
Local Open Scope R_scope.

(** C71.  For arguments up to 20 and orders up to 116 the loop ends by its tolerance, inside the table of double factorials, and every
    order from 0 to [n] is within a relative (2n+1) 1e-17 of the integral: stopping when a term is small does not lose more than that
    term, and the downward recursion does not enlarge the relative error. *)
Theorem C71_short : forall erfl n x, 0 <= x <= 20 -> (n <= 116)%nat -> exists F, valeev_F erfl n x = Some F /\ length F = S n /\
  forall m, (m <= n)%nat -> exists v, nth_error F m = Some v /\ Rabs (v - boysR m x) <= (2 * INR n + 1) / 10 ^ 17 * boysR m x.
Proof. exact F_short. Qed.
Print Assumptions C71_short.
(** Above 20 the error is what the recursion makes of the error of the constant sqrt(pi)/2; [df_loop (2 * m)] is (2m-1)!!. *)
Theorem C71_long : forall erfl n x, is_erf erfl -> 20 < x -> exists F, valeev_F erfl n x = Some F /\ length F = S n /\
  forall m, (m <= n)%nat -> exists v, nth_error F m = Some v /\ Rabs (v - boysR m x) <= 2 / 10 ^ 65 * df_loop (2 * m) / (2 * x) ^ m.
Proof. exact F_long. Qed.
Print Assumptions C71_long.
(** Not for all orders the tables of factorials are made for: at 198 and 199 the series reads past the double factorials. *)
Theorem C71_orders_refuted : forall erfl n x, (198 <= n < 200)%nat -> x <= 20 -> valeev_F erfl n x = None.
Proof. exact F_outside. Qed.
Print Assumptions C71_orders_refuted.
Example C71_example : forall erfl, exists v w, valeev_F erfl 1 0 = Some [v; w] /\ Rabs (v - 1) <= 3 / 10 ^ 17 /\ Rabs (w - / 3) <= / 10 ^ 17.
Proof. exact F_at_0. Qed.
