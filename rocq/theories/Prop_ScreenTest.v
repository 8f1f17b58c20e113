(** C74: the program that counts how much screening saves. *)
From Coq Require Import List Arith ZArith Bool.
Import ListNotations.
From Verif Require Import Base OrdRing ScreenTest ScreenTestProof.
Local Open Scope nat_scope.

(** It runs to its end exactly if every pair of shells has a multiple of the vector length of primitives. *)
Theorem C74_runs : forall (R : cring) (O : ordered R) (tol2 : R) (len : nat) (nprim : list nat)
  (shellscr : nat -> R) (primscr : nat -> nat -> R) (primmax : nat -> R), 0 < len ->
  (exists r, screentest O tol2 len nprim shellscr primscr primmax = Some r) <->
  forall i j, j <= i -> i < length nprim ->
    Nat.divide len (if i =? j then nth i nprim 0 * (nth i nprim 0 + 1) / 2 else nth i nprim 0 * nth j nprim 0).
Proof. exact @runs. Qed.
Print Assumptions C74_runs.

(** In particular without vectorisation it always does. *)
Theorem C74_scalar : forall (R : cring) (O : ordered R) (tol2 : R) (nprim : list nat)
  (shellscr : nat -> R) (primscr : nat -> nat -> R) (primmax : nat -> R),
  exists r, screentest O tol2 1 nprim shellscr primscr primmax = Some r.
Proof. exact @runs_scalar. Qed.
Print Assumptions C74_scalar.

(** Refuted: that it does with any vector length. *)
Theorem C74_vector_refuted : ~ forall len (nprim : list nat) (shellscr : nat -> Z) (primscr : nat -> nat -> Z) (primmax : nat -> Z), 0 < len -> nprim <> [] ->
  (forall n, In n nprim -> 0 < n) -> exists r, @screentest Zring Zordered 20%Z len nprim shellscr primscr primmax = Some r.
Proof. exact vector_stops. Qed.
Print Assumptions C74_vector_refuted.

(** What the counters are. *)
Theorem C74_counted : forall (R : cring) (O : ordered R) (tol2 : R) (len : nat) (nprim : list nat)
  (shellscr : nat -> R) (primscr : nat -> nat -> R) (primmax : nat -> R) (r : counts),
  screentest O tol2 len nprim shellscr primscr primmax = Some r ->
  let sig := significant O tol2 in let N := npair_total nprim in let P := prim_pairs nprim in let M := list_sum nprim in
  let smax := shell_max O nprim shellscr in let pmax := prim_max O nprim primmax in
  (snd (c_pair r) = how_many (fun ij => sig (cmul (shellscr ij) smax)) (seq 0 N) /\ fst (c_pair r) + snd (c_pair r) = N) /\
  (snd (c_prim r) = how_many (fun x => sig (cmul (primscr (fst x) (snd x)) pmax)) P /\
   fst (c_prim r) + snd (c_prim r) = length P /\ length P = M * (M + 1) / 2) /\
  (snd (c_quartet r) = how_many (fun xy => (snd xy <=? fst xy) && sig (cmul (shellscr (fst xy)) (shellscr (snd xy)))) (list_prod (seq 0 N) (seq 0 N)) /\
   fst (c_quartet r) + snd (c_quartet r) = N * (N + 1) / 2) /\
  (snd (c_primq r) = how_many (fun xy => before (snd xy) (fst xy) &&
     sig (cmul (primscr (fst (fst xy)) (snd (fst xy))) (primscr (fst (snd xy)) (snd (snd xy))))) (list_prod P P) /\
   fst (c_primq r) + snd (c_primq r) = length P * (length P + 1) / 2).
Proof. exact @counted. Qed.
Print Assumptions C74_counted.

(** A pair counted as never significant is in no quartet counted as significant: there are at most as many significant
    quartets as quartets of significant pairs, contracted and primitive. *)
Theorem C74_saved : forall (R : cring) (O : ordered R) (tol2 : R) (len : nat) (nprim : list nat)
  (shellscr : nat -> R) (primscr : nat -> nat -> R) (primmax : nat -> R),
  (forall ij, ij < npair_total nprim -> le O c0 (shellscr ij)) ->
  (forall ij p, ij < npair_total nprim -> p < nth_np nprim ij -> le O c0 (primscr ij p) /\ le O (primscr ij p) (primmax ij)) ->
  forall r, screentest O tol2 len nprim shellscr primscr primmax = Some r ->
  snd (c_quartet r) <= snd (c_pair r) * (snd (c_pair r) + 1) / 2 /\ snd (c_primq r) <= snd (c_prim r) * (snd (c_prim r) + 1) / 2.
Proof. exact @saved. Qed.
Print Assumptions C74_saved.

Example C74_example : ex_run 1 = Some (Counts (1, 2) (4, 2) (3, 3) (18, 3)) /\ ex_run 4 = None.
Proof. split; vm_compute; reflexivity. Qed.
