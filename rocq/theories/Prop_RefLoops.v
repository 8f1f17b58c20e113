(** C70: the loops of the reference of the tests, skel/test/Common.cpp and skel/test/ValeevRef.cpp. *)
From Coq Require Import List Arith ZArith.
Import ListNotations.
From Verif Require Import Base Cart RefLoops.

(** C70.  The loop with IterateGaussian visits the components of a shell in the order of the kernels' buffers, and ends. *)
Theorem C70_components : forall am, t_comps am = Some (olist psi4 am).
Proof. exact t_comps_ok. Qed.
Print Assumptions C70_components.
(** With one value for each quartet, or with one first shell, everything is stored within the buffer and in its place. *)
Theorem C70_places : forall (T : Type) nA nB nC nD (c : qam) blk (vals : nat -> nat -> nat -> nat -> qrt -> list T),
  (forall i j k l q, length (vals i j k l q) = blk) -> blk = 1 \/ nA <= 1 ->
  forall buf, nA * nB * nC * nD * qncart c * blk <= length buf -> exists b,
  ref_fill nA nB nC nD c vals buf = Some b /\ length b = length buf /\
  (forall i j k l q x, i < nA -> j < nB -> k < nC -> l < nD -> qclass q = c -> x < blk ->
    nth_error b (((((i * nB + j) * nC + k) * nD + l) * qncart c + qindex psi4 q) * blk + x) = nth_error (vals i j k l q) x) /\
  (forall y, nA * nB * nC * nD * qncart c * blk <= y -> nth_error b y = nth_error buf y).
Proof. exact fill_ok. Qed.
Print Assumptions C70_places.
(** With twelve values and two first shells the second block covers the first from element 1 on. *)
Theorem C70_places_refuted : forall (T : Type) (vals : nat -> nat -> nat -> nat -> qrt -> list T) (buf : list T),
  (forall i j k l q, length (vals i j k l q) = 12) -> 24 <= length buf ->
  exists b, ref_fill 2 1 1 1 (QAM 0 0 0 0) vals buf = Some b /\
    nth_error b 1 = nth_error (vals 1 0 0 0 (Q4 (G 0 0 0) (G 0 0 0) (G 0 0 0) (G 0 0 0))) 0.
Proof. exact fill_overlap. Qed.
Print Assumptions C70_places_refuted.
Example C70_example : t_comps 2 = Some [G 2 0 0; G 1 1 0; G 1 0 1; G 0 2 0; G 0 1 1; G 0 0 2] /\
  ref_fill 1 1 2 1 (QAM 0 0 0 1) (fun i j k l q => [(k, gx (qd q), gy (qd q))]) (repeat (9, 9, 9) 7) =
  Some [(0, 1, 0); (0, 0, 1); (0, 0, 0); (1, 1, 0); (1, 0, 1); (1, 0, 0); (9, 9, 9)].
Proof. split; reflexivity. Qed.
