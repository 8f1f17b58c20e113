(** One-electron integrals: overlap and kinetic energy.
    Source: skel/simint/osoei/osoei_terms.c, osoei_overlap.c, osoei_ke.c, skel/simint/simint_oneelectron.c.

    Arrays are lists of optional values: [None] as a content is an indeterminate element, [None] as a result is
    undefined behaviour (an access outside the array or the use of an indeterminate element).  [1.0/x], [sqrt],
    [exp] are functions given from outside, 0.5 and PI constants of the ring. *)
From Coq Require Import List Arith Lia Bool ZArith Ring.
Import ListNotations.
From Verif Require Import Base Cart Mdir RecurData Recur PairData Deriv.
Set Implicit Arguments.

Section OneE.
Context {R : cring}.
Add Ring RRo : (cth R).
Local Open Scope r_scope.
Local Notation mem := (list (option R)).
Local Notation "x <- e ;; f" := (match e with Some x => f | None => None end)
  (at level 60, e at next level, right associativity).

(** ** Model *)
(** [for(i = ...) body]. *)
Fixpoint loopM (A : Type) (f : nat -> A -> option A) (l : list nat) (m : A) : option A :=
  match l with [] => Some m | i :: r => m' <- f i m ;; loopM f r m' end.
(** [x += v]. *)
Definition acc (m : mem) (p : nat) (v : R) : option mem := w <- rdv m p ;; wr m p (w + v).

(** The macros [S_IJ], [T_IJ], osoei_terms.c:5-6; [base] is the offset of [s_ij] (of [t_ij]) in [terms]. *)
Definition ij (base nam2 i j : nat) : nat := (base + (i * nam2 + j))%nat.

Section Steps.
Variables (nam1 nam2 sb : nat) (pa pb h : R).
Local Notation SIJ i j := (ij sb nam2 i j).
(** osoei_terms.c:56-58, 134-136. *)
Definition s_i0 (i : nat) (m : mem) : option mem :=
  a <- rdv m (SIJ (i - 1) 0) ;; m1 <- wr m (SIJ i 0) (pa * a) ;;
  if (1 <? i)%nat then b <- rdv m1 (SIJ (i - 2) 0) ;; acc m1 (SIJ i 0) (ofnat (i - 1) * h * b) else Some m1.
(** osoei_terms.c:65-67, 146-148. *)
Definition s_0j (j : nat) (m : mem) : option mem :=
  a <- rdv m (SIJ 0 (j - 1)) ;; m1 <- wr m (SIJ 0 j) (pb * a) ;;
  if (1 <? j)%nat then b <- rdv m1 (SIJ 0 (j - 2)) ;; acc m1 (SIJ 0 j) (ofnat (j - 1) * h * b) else Some m1.
(** osoei_terms.c:74-76, 158-160. *)
Definition s_ij (i j : nat) (m : mem) : option mem :=
  a <- rdv m (SIJ i (j - 1)) ;; b <- rdv m (SIJ (i - 1) (j - 1)) ;;
  m1 <- wr m (SIJ i j) (pb * a + h * ofnat i * b) ;;
  if (1 <? j)%nat then c <- rdv m1 (SIJ i (j - 2)) ;; acc m1 (SIJ i j) (h * ofnat (j - 1) * c) else Some m1.

(** osoei_terms.c:45-78, one direction. *)
Definition overlap_dir (s00 : R) (m : mem) : option mem :=
  m0 <- wr m (SIJ 0 0) s00 ;;
  m1 <- loopM s_i0 (seq 1 (nam1 - 1)) m0 ;;
  m2 <- loopM s_0j (seq 1 (nam2 - 1)) m1 ;;
  loopM (fun i => loopM (s_ij i) (seq 1 (nam2 - 1))) (seq 1 (nam1 - 1)) m2.

Variables (tb : nat) (al1 al2 oop mu : R).
Local Notation TIJ i j := (ij tb nam2 i j).
(** osoei_terms.c:138-140. *)
Definition t_i0 (i : nat) (m : mem) : option mem :=
  a <- rdv m (TIJ (i - 1) 0) ;; s <- rdv m (SIJ i 0) ;;
  m1 <- wr m (TIJ i 0) (pa * a + ofnat 2 * mu * s) ;;
  if (1 <? i)%nat
  then b <- rdv m1 (TIJ (i - 2) 0) ;; c <- rdv m1 (SIJ (i - 2) 0) ;;
       acc m1 (TIJ i 0) (ofnat (i - 1) * h * b - al2 * oop * ofnat (i - 1) * c)
  else Some m1.
(** osoei_terms.c:149-151. *)
Definition t_0j (j : nat) (m : mem) : option mem :=
  a <- rdv m (TIJ 0 (j - 1)) ;; s <- rdv m (SIJ 0 j) ;;
  m1 <- wr m (TIJ 0 j) (pb * a + ofnat 2 * mu * s) ;;
  if (1 <? j)%nat
  then b <- rdv m1 (TIJ 0 (j - 2)) ;; c <- rdv m1 (SIJ 0 (j - 2)) ;;
       acc m1 (TIJ 0 j) (ofnat (j - 1) * h * b - al1 * oop * ofnat (j - 1) * c)
  else Some m1.
(** osoei_terms.c:161-163. *)
Definition t_ij (i j : nat) (m : mem) : option mem :=
  a <- rdv m (TIJ i (j - 1)) ;; b <- rdv m (TIJ (i - 1) (j - 1)) ;; s <- rdv m (SIJ i j) ;;
  m1 <- wr m (TIJ i j) (pb * a + h * ofnat i * b + ofnat 2 * mu * s) ;;
  if (1 <? j)%nat
  then c <- rdv m1 (TIJ i (j - 2)) ;; d <- rdv m1 (SIJ i (j - 2)) ;;
       acc m1 (TIJ i j) (h * ofnat (j - 1) * c - al1 * oop * ofnat (j - 1) * d)
  else Some m1.
(** osoei_terms.c:116-165, one direction; [a1sq], [PA2] are expanded. *)
Definition ke_dir (s00 : R) (m : mem) : option mem :=
  m0 <- wr m (SIJ 0 0) s00 ;;
  s <- rdv m0 (SIJ 0 0) ;;
  m0' <- wr m0 (TIJ 0 0) (s * (al1 - ofnat 2 * al1 * al1 * (pa * pa + h))) ;;
  m1 <- loopM (fun i m => m' <- s_i0 i m ;; t_i0 i m') (seq 1 (nam1 - 1)) m0' ;;
  m2 <- loopM (fun j m => m' <- s_0j j m ;; t_0j j m') (seq 1 (nam2 - 1)) m1 ;;
  loopM (fun i => loopM (fun j m => m' <- s_ij i j m ;; t_ij i j m') (seq 1 (nam2 - 1))) (seq 1 (nam1 - 1)) m2.
End Steps.

(** ** The constants of a primitive pair, osoei_terms.c:13-41, 87-115 *)
Section Terms.
Variables (invf sqrtf expf : R -> R) (half PI : R).
Definition t_oop (al1 al2 : R) : R := invf (al1 + al2).
Definition t_mu (al1 al2 : R) : R := al1 * al2 * t_oop al1 al2.
Definition t_oo2p (al1 al2 : R) : R := half * t_oop al1 al2.
Definition t_P (al1 : R) (x1 : nat -> R) (al2 : R) (x2 : nat -> R) (d : nat) : R :=
  (al1 * x1 d + al2 * x2 d) * t_oop al1 al2.
Definition t_PA al1 x1 al2 x2 d : R := t_P al1 x1 al2 x2 d - x1 d.
Definition t_PB al1 x1 al2 x2 d : R := t_P al1 x1 al2 x2 d - x2 d.
Definition t_AB2 (x1 x2 : nat -> R) d : R := (x1 d - x2 d) * (x1 d - x2 d).
(** osoei_terms.c:51, 128. *)
Definition t_s00 al1 x1 al2 x2 d : R := sqrtf (PI * t_oop al1 al2) * expf (- (t_mu al1 al2) * t_AB2 x1 x2 d).

(** [simint_osoei_overlap_terms], osoei_terms.c:8-79. *)
Definition overlap_terms al1 x1 al2 x2 (nam1 nam2 : nat) (m : mem) : option mem :=
  loopM (fun d => overlap_dir nam1 nam2 (d * nam1 * nam2) (t_PA al1 x1 al2 x2 d) (t_PB al1 x1 al2 x2 d)
                    (t_oo2p al1 al2) (t_s00 al1 x1 al2 x2 d)) (seq 0 3) m.
(** [simint_osoei_ke_terms], osoei_terms.c:82-166. *)
Definition ke_terms al1 x1 al2 x2 (nam1 nam2 : nat) (m : mem) : option mem :=
  loopM (fun d => ke_dir nam1 nam2 (d * nam1 * nam2) (t_PA al1 x1 al2 x2 d) (t_PB al1 x1 al2 x2 d)
                    (t_oo2p al1 al2) ((d + 3) * nam1 * nam2) al1 al2 (t_oop al1 al2) (t_mu al1 al2)
                    (t_s00 al1 x1 al2 x2 d)) (seq 0 3) m.

(** ** Contracted integrals *)
(** A shell: angular momentum, position, exponents, coefficients. *)
Record oshell := OS { os_am : nat; os_sh : @shell R }.
(** [aminfo1[n].ijk[d]]. *)
Definition row_exp (r : recur_row) (d : dir) : option nat :=
  if (row_ijk r d <? 0)%Z then None else Some (Z.to_nat (row_ijk r d)).
(** [xidx] etc., osoei_overlap.c:50-54. *)
Definition sidx (nam2 : nat) (r1 r2 : recur_row) (d : dir) : option nat :=
  a <- row_exp r1 d ;; b <- row_exp r2 d ;; Some (a * nam2 + b)%nat.
(** osoei_overlap.c:56-58. *)
Definition overlap_val (nam1 nam2 : nat) (work : mem) (r1 r2 : recur_row) : option R :=
  let nam12 := (nam1 * nam2)%nat in
  x <- sidx nam2 r1 r2 DX ;; y <- sidx nam2 r1 r2 DY ;; z <- sidx nam2 r1 r2 DZ ;;
  a <- rdv work (0 * nam12 + x) ;; b <- rdv work (1 * nam12 + y) ;; c <- rdv work (2 * nam12 + z) ;;
  Some (a * b * c).
(** osoei_ke.c:57-59. *)
Definition ke_val (nam1 nam2 : nat) (work : mem) (r1 r2 : recur_row) : option R :=
  let nam12 := (nam1 * nam2)%nat in
  x <- sidx nam2 r1 r2 DX ;; y <- sidx nam2 r1 r2 DY ;; z <- sidx nam2 r1 r2 DZ ;;
  sx <- rdv work (0 * nam12 + x) ;; sy <- rdv work (1 * nam12 + y) ;; sz <- rdv work (2 * nam12 + z) ;;
  tx <- rdv work (3 * nam12 + x) ;; ty <- rdv work (4 * nam12 + y) ;; tz <- rdv work (5 * nam12 + z) ;;
  Some (tx * sy * sz + sx * ty * sz + sx * sy * tz).
(** The loops over [n], [m] with [outidx++]: osoei_overlap.c:45-62, osoei_ke.c:46-63. *)
Definition add_block (val : recur_row -> recur_row -> option R) (am1 am2 : nat) (prefac : R) (out : mem)
  : option mem :=
  r <- loopM (fun n => loopM (fun m (st : nat * mem) =>
         r1 <- recur_lookup am1 n ;; r2 <- recur_lookup am2 m ;; v <- val r1 r2 ;;
         o <- acc (snd st) (fst st) (prefac * v) ;; Some (S (fst st), o))
       (seq 0 (ncart am2))) (seq 0 (ncart am1)) (0, out) ;;
  Some (snd r).
(** [memset(integrals, 0, ...)]: the first [n] elements. *)
Definition zero_out (n : nat) (out : mem) : option mem := loopM (fun i o => wr o i c0) (seq 0 n) out.
(** [simint_compute_osoei_overlap] and [simint_compute_osoei_ke]: [words] is 3 or 6, the size of [work] in
    blocks; its contents are indeterminate at first and kept from one primitive pair to the next. *)
Definition compute_with (words : nat)
  (terms : R -> (nat -> R) -> R -> (nat -> R) -> nat -> nat -> mem -> option mem)
  (val : nat -> nat -> mem -> recur_row -> recur_row -> option R) (A B : oshell) (out : mem) : option mem :=
  let nam1 := S (os_am A) in let nam2 := S (os_am B) in
  if (os_am A <? length am_recur_map)%nat && (os_am B <? length am_recur_map)%nat then
  out0 <- zero_out (ncart (os_am A) * ncart (os_am B)) out ;;
  r <- loopM (fun i => loopM (fun j (st : mem * mem) =>
         w <- terms (sh_alpha (os_sh A) i) (sh_pos (os_sh A)) (sh_alpha (os_sh B) j) (sh_pos (os_sh B)) nam1 nam2 (fst st) ;;
         o <- add_block (val nam1 nam2 w) (os_am A) (os_am B) (sh_coef (os_sh A) i * sh_coef (os_sh B) j) (snd st) ;;
         Some (w, o))
       (seq 0 (sh_n (os_sh B)))) (seq 0 (sh_n (os_sh A))) (repeat None (words * (nam1 * nam2)), out0) ;;
  Some (snd r)
  else None.
(** osoei_overlap.c:9-67 ([simint_compute_overlap], simint_oneelectron.c:4-9). *)
Definition compute_overlap : oshell -> oshell -> mem -> option mem := compute_with 3 overlap_terms overlap_val.
(** osoei_ke.c:10-68 ([simint_compute_ke], simint_oneelectron.c:12-17). *)
Definition compute_ke : oshell -> oshell -> mem -> option mem := compute_with 6 ke_terms ke_val.
End Terms.

(** ** Specification *)
(** The two Obara-Saika relations for a family of one-dimensional overlaps; a term with factor 0 stands for a
    missing function. *)
Definition os_left (pa h : R) (F : nat -> nat -> R) : Prop := forall i j,
  F (S i) j = pa * F i j + h * (ofnat i * F (i - 1)%nat j + ofnat j * F i (j - 1)%nat).
Definition os_right (pb h : R) (F : nat -> nat -> R) : Prop := forall i j,
  F i (S j) = pb * F i j + h * (ofnat i * F (i - 1)%nat j + ofnat j * F i (j - 1)%nat).
Definition overlaps (pa pb h s00 : R) (F : nat -> nat -> R) : Prop :=
  os_left pa h F /\ os_right pb h F /\ F 0%nat 0%nat = s00.
(** Kinetic energy: minus half the second derivative of the second function, of exponent [b]. *)
Definition kinetic (half b : R) (F : nat -> nat -> R) (i j : nat) : R :=
  - (ofnat 2 * b * b * F i (j + 2)%nat) + b * ofnat (2 * j + 1) * F i j
  - half * ofnat (j * (j - 1)) * F i (j - 2)%nat.
(** Polynomials in the distance from the product centre as lists of coefficients; the integral of one against a
    Gaussian with variance [h] and total weight [s00]: the moments are [s00], 0, [h s00], 0, [3 h^2 s00], ... *)
Fixpoint moment (h s00 : R) (k : nat) : R :=
  match k with
  | 0 => s00
  | 1 => c0
  | S (S k' as k1) => ofnat k1 * h * moment h s00 k'
  end.
Fixpoint integral_from (h s00 : R) (k : nat) (p : list R) : R :=
  match p with [] => c0 | a :: r => a * moment h s00 k + integral_from h s00 (S k) r end.
Definition integral (h s00 : R) (p : list R) : R := integral_from h s00 0 p.
Fixpoint padd (p q : list R) : list R :=
  match p, q with [], q => q | p, [] => p | a :: p', b :: q' => a + b :: padd p' q' end.
(** Product with [t + a]. *)
Definition pmul1 (a : R) (p : list R) : list R := padd (map (fun x => a * x) p) (c0 :: p).
Fixpoint piter (a : R) (n : nat) (p : list R) : list R :=
  match n with 0 => p | S k => pmul1 a (piter a k p) end.
(** [(t + pa)^i (t + pb)^j]. *)
Definition pij (pa pb : R) (i j : nat) : list R := piter pa i (piter pb j [c1]).
End OneE.
