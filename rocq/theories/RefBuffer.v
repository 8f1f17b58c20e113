(** What the reference of the tests computes for the shells, skel/test/ValeevRef.cpp: the contraction of
    ValeevRef_Deriv0 and the twelve derivatives of ValeevRef_Deriv1, over the reals; and the comparison of the tests,
    skel/test/Common.cpp (CalcError) and skel/test/test_eri.cpp. *)
From Coq Require Import List Arith ZArith QArith Reals Lra Lia Bool.
Import ListNotations.
From Verif Require Import Base Cart QList VRRStep PairData EndToEnd Normalize Reference RefLoops.
Local Open Scope R_scope.

Section Shells.
Variables (junk : nat -> R) (k52 : R) (boys : nat -> R -> R).
Local Notation shellR := (@PairData.shell Rcring).
(** The four loops over the primitives, ValeevRef.cpp:480-483, 551-554. *)
Definition quads (A B C D : shellR) : list (nat * nat * nat * nat) :=
  flat_map (fun m => flat_map (fun n => flat_map (fun o => map (fun p => (m, n, o, p)) (seq 0 (sh_n D))) (seq 0 (sh_n C))) (seq 0 (sh_n B))) (seq 0 (sh_n A)).
Definition ref4 (A B C D : shellR) (t : nat * nat * nat * nat) (q : qrt) : R :=
  let '(m, n, o, p) := t in ref_eri junk k52 boys (prim A m) (prim B n) (prim C o) (prim D p) q.
(** [myint], ValeevRef.cpp:478-494. *)
Definition ref_int (A B C D : shellR) (q : qrt) : R :=
  fold_left (fun s t => s + ref4 A B C D t q * sh_coef A (fst (fst (fst t))) * sh_coef B (snd (fst (fst t))) * sh_coef C (snd (fst t)) * sh_coef D (snd t)) (quads A B C D) 0.
(** [ValeevRef_Deriv0], ValeevRef.cpp:437-503. *)
Definition valeev0 (nA nB nC nD : nat) (A B C D : nat -> shellR) (c : qam) (buf : list R) : option (list R) :=
  ref_fill nA nB nC nD c (fun i j k l q => [ref_int (A i) (B j) (C k) (D l) q]) buf.

(** [prefac], ValeevRef.cpp:557. *)
Definition ref_pre (A B C D : shellR) (t : nat * nat * nat * nat) : R :=
  let '(m, n, o, p) := t in sh_coef A m * sh_coef B n * sh_coef C o * sh_coef D p.
(** [alpha] of the centre that is moved. *)
Definition ref_alpha (A B C D : shellR) (t : nat * nat * nat * nat) (x : ctr) : R :=
  let '(m, n, o, p) := t in match x with CI => sh_alpha A m | CJ => sh_alpha B n | CK => sh_alpha C o | CL => sh_alpha D p end.
(** [valp - valm] of one centre and direction, ValeevRef.cpp:565-587, 591-612, 616-637: [valm] is not computed where the
    power would become negative ([ValidGaussian]). *)
Definition ref_move (A B C D : shellR) (t : nat * nat * nat * nat) (x : ctr) (d : dir) (q : qrt) : R :=
  let valp := ref4 A B C D t (craise x d q) in
  let valm := match clower x d q with Some q' => ref4 A B C D t q' | None => 0 end in
  valp * (2 * ref_alpha A B C D t x) - valm * INR (gexp d (cget x q)).
(** One pass of the loop over the primitives, ValeevRef.cpp:555-643: [myints[3*x+d]] of the first three centres grows,
    that of the fourth is set from them. *)
Definition ref_step (A B C D : shellR) (q : qrt) (s : ctr -> dir -> R) (t : nat * nat * nat * nat) : ctr -> dir -> R :=
  let s' x d := s x d + ref_move A B C D t x d q * ref_pre A B C D t in
  fun x d => match x with CL => - (s' CI d + s' CJ d + s' CK d) | _ => s' x d end.
Definition ref_moves (A B C D : shellR) (q : qrt) : ctr -> dir -> R := fold_left (ref_step A B C D q) (quads A B C D) (fun _ _ => 0).
Definition twelve (s : ctr -> dir -> R) : list R := flat_map (fun x => map (s x) [DX; DY; DZ]) [CI; CJ; CK; CL].
(** [ValeevRef_Deriv1], ValeevRef.cpp:506-656. *)
Definition valeev1 (nA nB nC nD : nat) (A B C D : nat -> shellR) (c : qam) (buf : list R) : option (list R) :=
  ref_fill nA nB nC nD c (fun i j k l q => twelve (ref_moves (A i) (B j) (C k) (D l) q)) buf.
End Shells.

(** *** The comparison *)
(** A computed double: a number or NaN. *)
Definition value : Type := option R.
Definition vbin (f : R -> R -> R) (x y : value) : value := match x, y with Some x, Some y => Some (f x y) | _, _ => None end.
Definition vabs (x : value) : value := option_map Rabs x.
(** [x > y]: false with a NaN. *)
Definition vgt (x y : value) : bool := match x, y with Some x, Some y => if Rlt_dec y x then true else false | _, _ => false end.
(** [RND_ZERO], Common.hpp:14. *)
Definition rnd_zero : R := / 10 ^ 15.
(** [rel], Common.cpp:227. *)
Definition rel_error (diff r : value) : value := if vgt (vabs r) (Some rnd_zero) then vabs (vbin Rdiv diff r) else Some 0.
(** One pass of the loop of [CalcError], Common.cpp:223-232. *)
Definition err_step (e : value * value) (p : value * value) : value * value :=
  let '(calc, r) := p in
  let diff := vabs (vbin Rminus calc r) in
  let rel := rel_error diff r in
  (if vgt diff (fst e) then diff else fst e, if vgt rel (snd e) then rel else snd e).
(** [CalcError], Common.cpp:218-235, on the first [ncalc] elements. *)
Definition calc_error (calc ref : list value) (ncalc : nat) : value * value :=
  fold_left err_step (firstn ncalc (combine calc ref)) (Some 0, Some 0).
(** [bad], test_eri.cpp:227 and test_eri_deriv1.cpp:229: what makes the test print its mark. *)
Definition bad (e : value * value) : bool := vgt (fst e) (Some (/ 10 ^ 14)) && vgt (snd e) (Some (/ 10 ^ 8)).
(** [std::max], and [UpdateErrorMap], test_eri.cpp:25-31 and test_eri_deriv1.cpp:24-30. *)
Definition vmax (a b : value) : value := if vgt b a then b else a.
Definition update_error (e p : value * value) : value * value := (vmax (fst e) (fst p), vmax (snd e) (snd p)).
(** The mark of one class of momenta: the loop over the shells of the bra (test_eri.cpp:125-209), the entry of [errors]
    starting from zero (:70-74), and [bad].  [blocks]: the two buffers of every pass. *)
Definition marked (blocks : list (list value * list value)) : bool :=
  bad (fold_left (fun e b => update_error e (calc_error (fst b) (snd b) (length (snd b)))) blocks (Some 0, Some 0)).

(** The array of shells [simint_allocate_multi_shellpair] and [simint_fill_multi_shellpair] hand on, shell.c:341-348, 410-417. *)
Definition ab_array (na nb : nat) (A B : nat -> @PairData.shell Rcring) : list (@PairData.shell Rcring) :=
  flat_map (fun i => flat_map (fun j => [A i; B j]) (seq 0 nb)) (seq 0 na).
(** The pairs in it; [same] is what [compare_shell] gave for each (shell.c:366, 460). *)
Definition all_pairs (na nb : nat) (A B : nat -> @PairData.shell Rcring) (same : nat -> bool) (m : Layout.method) (der : bool) : @pairs Rcring :=
  Pairs (na * nb) (fun t => A (t / nb)%nat) (fun t => B (t mod nb)%nat) same m der.
