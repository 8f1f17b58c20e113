(** The program that counts how much screening saves.
    Source: skel/test/screentest.cpp.

    The shells are given by their numbers of primitives and the results of the screening functions of the library
    (simint_shellscreen, and the arrays [screen] and [screen_max] of the pairs) by functions.  A thrown
    [std::logic_error] is [None].  Reading the file, printing and the fractions are left out. *)
From Coq Require Import List Arith Lia Bool ZArith.
Import ListNotations.
From Verif Require Import Base Simd OrdRing Layout.
Set Implicit Arguments.
Local Open Scope nat_scope.
Local Notation "x <- e ;; f" := (match e with Some x => f | None => None end)
  (at level 60, e at next level, right associativity).

(** The four pairs of counters: always insignificant and significant. *)
Record counts := Counts { c_pair : nat * nat; c_prim : nat * nat; c_quartet : nat * nat; c_primq : nat * nat }.

Section ScreenTest.
Context {R : cring}.
Variables (O : ordered R) (tol2 : R) (len : nat).
(** Number of primitives of each shell of [shellvec] (:38-40); [simint_shellscreen] of pair [ij] (:94);
    [shellpairvec[ij].screen[p]] and [.screen_max] (:108, 165). *)
Variables (nprim : list nat) (shellscr : nat -> R) (primscr : nat -> nat -> R) (primmax : nat -> R).
Definition nshell : nat := length nprim.
Definition np (i : nat) : nat := nth i nprim 0.

(** The loops over [i] and [j <= i] that append to a vector (:44-51, 84-99). *)
Definition over_pairs A (f : nat -> nat -> A) : list A := flat_map (fun i => map (f i) (seq 0 (i + 1))) (seq 0 nshell).
(** [nprim] of each of [shellpairvec] (:49): the library counts without padding (shell.c:532, 572-573), and two shells are the
    same if they are stored at the same place (shell.h:89-94). *)
Definition stored_nprim : list nat := over_pairs (fun i j => sp_np (SP (np i) (np j) (i =? j))).
(** [shellpair_nprim] (:89-97). *)
Definition pair_nprim : list nat := over_pairs (fun i j => if i =? j then np i * (np i + 1) / 2 else np i * np j).
(** [nshellpair_total] (:57). *)
Definition npair_total : nat := nshell * (nshell + 1) / 2.

(** [if(val < SIMINT_SCREEN_TOL2) insig++; else sig++]. *)
Definition tick (v : R) (c : nat * nat) : nat * nat :=
  if leb O tol2 v then (fst c, snd c + 1) else (fst c + 1, snd c).
(** A loop from 0 to [n - 1]. *)
Definition loop A (body : nat -> A -> A) (n : nat) (s : A) : A := fold_left (fun s i => body i s) (seq 0 n) s.
Definition nth_np (ij : nat) : nat := nth ij pair_nprim 0.

(** The maxima (:72-73, 95, 107-108). *)
Definition shell_max : R := loop (fun ij m => vmax O m (shellscr ij)) (length stored_nprim) c0.
Definition prim_max : R := loop (fun ij m => vmax O m (primmax ij)) (length stored_nprim) c0.

(** :122-133. *)
Definition count_pairs : nat * nat := loop (fun ij => tick (cmul (shellscr ij) shell_max)) (length stored_nprim) (0, 0).
(** :150-171: [None] is the exception of :161. *)
Definition count_prims : option (nat * nat) :=
  loop (fun ij oc => c <- oc ;;
    if rnd len (nth_np ij) =? nth ij stored_nprim 0
    then Some (loop (fun p => tick (cmul (primscr ij p) prim_max)) (nth_np ij) c) else None) (length stored_nprim) (Some (0, 0)).
(** :189-200. *)
Definition count_quartets : nat * nat :=
  loop (fun ij => loop (fun kl => tick (cmul (shellscr ij) (shellscr kl))) (ij + 1)) (length stored_nprim) (0, 0).
(** :218-239. *)
Definition count_primq : nat * nat :=
  loop (fun ij => loop (fun kl => loop (fun p => loop (fun q => tick (cmul (primscr ij p) (primscr kl q)))
    (if ij =? kl then p + 1 else nth_np kl)) (nth_np ij)) (ij + 1)) (length stored_nprim) (0, 0).

Definition both (c : nat * nat) : nat := fst c + snd c.
(** The program, :54-244. *)
Definition screentest : option counts :=
  if negb (npair_total =? length stored_nprim) then None else
  if negb (length pair_nprim =? npair_total) then None else
  let cp := count_pairs in
  if negb (both cp =? npair_total) then None else
  cm <- count_prims ;;
  let cq := count_quartets in
  if negb (both cq =? npair_total * (npair_total + 1) / 2) then None else
  let cr := count_primq in
  if negb (both cr =? both cm * (both cm + 1) / 2) then None else
  Some (Counts cp cm cq cr).

(** ** Specification *)
(** The primitive pairs of the molecule, and the order that makes a quartet a pair of pairs counted once. *)
Definition prim_pairs : list (nat * nat) :=
  flat_map (fun ij => map (pair ij) (seq 0 (nth_np ij))) (seq 0 npair_total).
Definition before (x y : nat * nat) : bool := (fst x <? fst y) || ((fst x =? fst y) && (snd x <=? snd y)).
Definition how_many A (P : A -> bool) (l : list A) : nat := length (filter P l).
Definition significant (v : R) : bool := leb O tol2 v.
End ScreenTest.
