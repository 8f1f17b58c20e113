(** Property theorems C57: the recurrences determine the integrals. *)
From Coq Require Import List ZArith.
Import ListNotations.
From Verif Require Import Base Cart VRRStep OSFamily.

(** C57.  For every ring, coefficients and (ss|ss)^(m) exactly one family satisfies the vertical recurrence. *)
Theorem C57_exists : forall (R : cring) (K : @vcoef R) (u : nat -> R),
  exists V, os_family K V /\ (forall N, V N q0 = u N) /\
    forall W, os_family K W -> (forall N, W N q0 = u N) -> forall N q, W N q = V N q.
Proof. exact @os_family_exists. Qed.
Print Assumptions C57_exists.

(** It is [os_value K u]. *)
Theorem C57_value : forall (R : cring) (K : @vcoef R) (u : nat -> R),
  os_family K (os_value K u) /\ forall N, os_value K u N q0 = u N.
Proof. exact (fun R K u => conj (@os_value_family R K u) (@os_value_start R K u)). Qed.
Print Assumptions C57_value.

(** Exchanging the two functions of a side, or the sides, together with their coefficients changes nothing. *)
Theorem C57_exchange : forall (R : cring) x (K : @vcoef R) u N q,
  os_value (xcoef x K) u N q = os_value K u N (xqrt x q).
Proof. exact @os_exchange. Qed.
Print Assumptions C57_exchange.

(** It satisfies the horizontal recurrence at every order. *)
Theorem C57_horizontal : forall (R : cring) (K : @vcoef R) u (AB CD : dir -> R),
  (forall i, k_PA K CJ i = cadd (k_PA K CI i) (AB i) /\ k_PA K CL i = cadd (k_PA K CK i) (CD i)) -> forall N i q,
  os_value K u N (craise CJ i q) = cadd (os_value K u N (craise CI i q)) (cmul (AB i) (os_value K u N q)) /\
  os_value K u N (craise CL i q) = cadd (os_value K u N (craise CK i q)) (cmul (CD i) (os_value K u N q)).
Proof. exact @os_horizontal. Qed.
Print Assumptions C57_horizontal.

Theorem C57_linear : forall (R : cring) (K : @vcoef R) u v x y N q,
  os_value K (fun n => cadd (cmul x (u n)) (cmul y (v n))) N q = cadd (cmul x (os_value K u N q)) (cmul y (os_value K v N q)).
Proof. exact @os_linear. Qed.
Print Assumptions C57_linear.

(** (px s|px s) and (s px|s px) with arbitrary numbers. *)
Example C57_example : let u := fun n => (Z.of_nat n * Z.of_nat n + 1)%Z in
  os_value c57_K u 0 (Q4 (G 1 0 0) (G 0 0 0) (G 1 0 0) (G 0 0 0)) = (2 * 3 * 1 + 2 * 13 * 2 + 11 * 3 * 2 + 11 * 13 * 5 + 31 * 2)%Z /\
  os_value c57_K u 0 (Q4 (G 0 0 0) (G 1 0 0) (G 1 0 0) (G 0 0 0)) =
    (os_value c57_K u 0 (Q4 (G 1 0 0) (G 0 0 0) (G 1 0 0) (G 0 0 0)) + 3 * os_value c57_K u 0 (Q4 (G 0 0 0) (G 0 0 0) (G 1 0 0) (G 0 0 0)))%Z.
Proof. split; vm_compute; reflexivity. Qed.
