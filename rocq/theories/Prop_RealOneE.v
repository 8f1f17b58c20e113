(** Property theorem C85: overlaps are determined by those of s functions and by differentiation; kinetic energy is minus half the
    Laplacian. *)
From Coq Require Import List Arith ZArith Reals.
Import ListNotations.
From Verif Require Import Base Cart Mdir PairData Recur Deriv OneE OneESpec OneEInt EndToEnd Normalize RealDeriv RealUnique PointCharge RealOneE.
Local Open Scope R_scope.

(** C85.  Textbook overlaps of s functions and the derivatives of Cartesian Gaussians with respect to their centres determine the
    overlaps for all powers ... *)
Theorem C85_unique : forall O O', overlap_integrals O -> overlap_integrals O' ->
  forall u v (a b : @EndToEnd.gauss Rcring), 0 < g_exp a -> 0 < g_exp b -> O a b u v = O' a b u v.
Proof. exact overlap_unique. Qed.
Print Assumptions C85_unique.

(** ... there are such overlaps ... *)
Theorem C85_exists : exists O, overlap_integrals O.
Proof. exact (ex_intro _ box box_integrals). Qed.
Print Assumptions C85_exists.

(** ... and osoei_overlap.c stores them, contracted ... *)
Theorem C85_overlap : forall O, overlap_integrals O -> forall (A B : @oshell Rcring) out,
  (os_am A <= 18)%nat -> (os_am B <= 18)%nat -> (ncart (os_am A) * ncart (os_am B) <= length out)%nat ->
  positive (os_sh A) -> positive (os_sh B) ->
  exists out', @compute_overlap Rcring Rinv sqrt exp (/ 2) PI A B out = Some out' /\
    forall a b, gam a = os_am A -> gam b = os_am B -> rdv out' (pos a * ncart (os_am B) + pos b) =
      Some (sum_to (sh_n (os_sh A)) (fun i => sum_to (sh_n (os_sh B)) (fun j =>
              sh_coef (os_sh A) i * sh_coef (os_sh B) j * O (gauss_at (os_sh A) i) (gauss_at (os_sh B) j) a b))).
Proof. exact overlap_code. Qed.
Print Assumptions C85_overlap.

(** ... and osoei_ke.c minus half the sum of their second derivatives along the three axes, with respect to the centre of the second
    function. *)
Theorem C85_kinetic : forall O, overlap_integrals O -> forall (A B : @oshell Rcring) out,
  (os_am A <= 18)%nat -> (os_am B <= 18)%nat -> (ncart (os_am A) * ncart (os_am B) <= length out)%nat ->
  positive (os_sh A) -> positive (os_sh B) ->
  exists out', @compute_ke Rcring Rinv sqrt exp (/ 2) PI A B out = Some out' /\
    forall a b, gam a = os_am A -> gam b = os_am B -> exists D : nat -> nat -> dir -> R,
      (forall i j d, (i < sh_n (os_sh A))%nat -> (j < sh_n (os_sh B))%nat ->
         second (fun t => O (gauss_at (os_sh A) i) (slid d t (gauss_at (os_sh B) j)) a b) (D i j d)) /\
      rdv out' (pos a * ncart (os_am B) + pos b) =
      Some (sum_to (sh_n (os_sh A)) (fun i => sum_to (sh_n (os_sh B)) (fun j =>
              sh_coef (os_sh A) i * sh_coef (os_sh B) j * (- / 2 * (D i j DX + D i j DY + D i j DZ))))).
Proof. exact kinetic_code. Qed.
Print Assumptions C85_kinetic.

(** There is only one second derivative. *)
Theorem C85_second : forall f D D', second f D -> second f D' -> D = D'.
Proof. exact second_unique. Qed.
Print Assumptions C85_second.

Example C85_example : (forall l w, positive (os_sh (pc_shell l w))) /\
  forall a : @EndToEnd.gauss Rcring, g_exp a = PI / 2 -> s_overlap a a = 1.
Proof. exact (conj (fun l w => proj1 (pc_met l l w w)) same_overlap). Qed.
