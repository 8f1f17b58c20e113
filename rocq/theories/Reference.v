(** The reference the tests compare with, skel/test/ValeevRef.cpp: an integral of four primitives as a sum of products of
    factorials (not by recurrences).  Numbers are real; the rounding of long double is left out.  An element of a table that has
    not been set has the value [junk] gives it. *)
From Coq Require Import List Arith ZArith Reals Lra Lia Factorial Bool.
Import ListNotations.
From Verif Require Import Base Cart QList VRRStep EndToEnd Normalize SeqConv.
Local Open Scope R_scope.

(** [MAXFAC], ValeevRef.hpp:3. *)
Definition maxfac : nat := 200.
(** [fac], ValeevRef.cpp:403-406: [fac[i] = fac[i-1] * i]. *)
Fixpoint fac_loop (i : nat) : R := match i with O => 1 | S k => fac_loop k * INR (S k) end.
(** [df], ValeevRef.cpp:408-413: [df[0] = df[1] = df[2] = 1], [df[i] = (i-1) * df[i-2]]. *)
Fixpoint df_loop (i : nat) : R := match i with S (S (S k as m)) => INR (S m) * df_loop m | _ => 1 end.

Section Tables.
Variable junk : nat -> R.
(** A read of element [k] of a table of [n] elements. *)
Definition rd (n : nat) (t : nat -> R) (k : nat) : R := if (k <? n)%nat then t k else junk k.
Definition fac (i : nat) : R := rd maxfac fac_loop i.
(** [bc], ValeevRef.cpp:415-421: row [i] has its first [i+1] elements set. *)
Definition bc (i j : nat) : R := if (i <? maxfac)%nat && (j <=? i)%nat then fac i / (fac (i - j) * fac j) else junk (i + j).

(** [flp] and its five fellows, ValeevRef.cpp:218-301. *)
Definition f_coef (l1 l2 : nat) (PA PB : R) (k : nat) : R :=
  upto (min k l1) (fun i => let j := (k - i)%nat in
    if (l2 <? j)%nat then 0
    else bc l1 i * bc l2 j * (if (0 <? l1 - i)%nat then PA ^ (l1 - i) else 1) * (if (0 <? l2 - j)%nat then PB ^ (l2 - j) else 1)).

(** The four loops of one direction, ValeevRef.cpp:303-310, 316-323, 329-336. *)
Definition loops (L1 L2 : nat) (f : nat -> nat -> nat -> nat -> R) : R :=
  upto L1 (fun lp => upto L2 (fun lq => upto (lp / 2) (fun u1 => upto (lq / 2) (fun u2 => f lp lq u1 u2)))).
(** [Gx], ValeevRef.cpp:311-314; [Gy] and [Gz] (324-328, 337-343) are the same. *)
Definition g_coef (gp gq gpq : R) (fp fq : nat -> R) (lp lq u1 u2 : nat) : R :=
  (-1) ^ lp * fp lp * fq lq * fac lp * fac lq * powerRZ gp (Z.of_nat u1 - Z.of_nat lp) * powerRZ gq (Z.of_nat u2 - Z.of_nat lq) *
  fac (lp + lq - 2 * u1 - 2 * u2) * gpq ^ (lp + lq - 2 * u1 - 2 * u2) / (fac u1 * fac u2 * fac (lp - 2 * u1) * fac (lq - 2 * u2)).
(** What is added, ValeevRef.cpp:351-377. *)
Definition term (gpq PQx PQy PQz Gx Gy Gz : R) (F : nat -> R) (lp lq u1 u2 mp mq v1 v2 np nq w1 w2 tx ty tz : nat) : R :=
  let zeta := (lp + lq + mp + mq + np + nq - 2 * u1 - 2 * u2 - 2 * v1 - 2 * v2 - 2 * w1 - 2 * w2 - tx - ty - tz)%nat in
  Gx * Gy * Gz * F zeta * (-1) ^ (tx + ty + tz) * PQx ^ (lp + lq - 2 * u1 - 2 * u2 - 2 * tx) * PQy ^ (mp + mq - 2 * v1 - 2 * v2 - 2 * ty)
    * PQz ^ (np + nq - 2 * w1 - 2 * w2 - 2 * tz)
  / (4 ^ (u1 + u2 + tx + v1 + v2 + ty + w1 + w2 + tz) * gpq ^ tx * gpq ^ ty * gpq ^ tz
     * fac (lp + lq - 2 * u1 - 2 * u2 - 2 * tx) * fac tx * fac (mp + mq - 2 * v1 - 2 * v2 - 2 * ty) * fac ty
     * fac (np + nq - 2 * w1 - 2 * w2 - 2 * tz) * fac tz).
(** All the loops, ValeevRef.cpp:303-382. *)
Definition ref_sum (gp gq gpq PQx PQy PQz : R) (fxp fxq fyp fyq fzp fzq : nat -> R) (F : nat -> R) (L1 L2 M1 M2 N1 N2 : nat) : R :=
  loops L1 L2 (fun lp lq u1 u2 => let Gx := g_coef gp gq gpq fxp fxq lp lq u1 u2 in
  loops M1 M2 (fun mp mq v1 v2 => let Gy := g_coef gp gq gpq fyp fyq mp mq v1 v2 in
  loops N1 N2 (fun np nq w1 w2 => let Gz := g_coef gp gq gpq fzp fzq np nq w1 w2 in
    upto ((lp + lq - 2 * u1 - 2 * u2) / 2) (fun tx => upto ((mp + mq - 2 * v1 - 2 * v2) / 2) (fun ty => upto ((np + nq - 2 * w1 - 2 * w2) / 2) (fun tz =>
      term gpq PQx PQy PQz Gx Gy Gz F lp lq u1 u2 mp mq v1 v2 np nq w1 w2 tx ty tz)))))).

(** [ValeevRef_eri], ValeevRef.cpp:148-392, with [norm_flag] 0 (what the tests pass); [k52] is [2 * powl(M_PI, 2.5)] and [F] the
    function behind [Valeev_F]. *)
Definition total (q : qrt) : nat := gam (qa q) + gam (qb q) + gam (qc q) + gam (qd q).
Definition ref_eri (k52 : R) (boys : nat -> R -> R) (a b c e : @EndToEnd.gauss Rcring) (q : qrt) : R :=
  let gp := g_exp a + g_exp b in let gq := g_exp c + g_exp e in let gpq := gp * gq / (gp + gq) in
  let P := fun d => (g_exp a * g_at a d + g_exp b * g_at b d) / gp in
  let Q := fun d => (g_exp c * g_at c d + g_exp e * g_at e d) / gq in
  let AB2 := (g_at a DX - g_at b DX) * (g_at a DX - g_at b DX) + (g_at a DY - g_at b DY) * (g_at a DY - g_at b DY) + (g_at a DZ - g_at b DZ) * (g_at a DZ - g_at b DZ) in
  let CD2 := (g_at c DX - g_at e DX) * (g_at c DX - g_at e DX) + (g_at c DY - g_at e DY) * (g_at c DY - g_at e DY) + (g_at c DZ - g_at e DZ) * (g_at c DZ - g_at e DZ) in
  let PQ := fun d => P d - Q d in
  let PQ2 := PQ DX * PQ DX + PQ DY * PQ DY + PQ DZ * PQ DZ in
  let K1 := exp (- g_exp a * g_exp b * AB2 / gp) in let K2 := exp (- g_exp c * g_exp e * CD2 / gq) in
  let pfac := k52 * K1 * K2 / (gp * gq * sqrt (gp + gq)) in
  let F := rd (total q + 1) (fun m => boys m (PQ2 * gpq)) in
  let l := fun s d => gexp d (cget s q) in
  let fp := fun d => rd (l CI d + l CJ d + 1) (f_coef (l CI d) (l CJ d) (P d - g_at a d) (P d - g_at b d)) in
  let fq := fun d => rd (l CK d + l CL d + 1) (f_coef (l CK d) (l CL d) (Q d - g_at c d) (Q d - g_at e d)) in
  ref_sum gp gq gpq (PQ DX) (PQ DY) (PQ DZ) (fp DX) (fq DX) (fp DY) (fq DY) (fp DZ) (fq DZ) F
    (l CI DX + l CJ DX) (l CK DX + l CL DX) (l CI DY + l CJ DY) (l CK DY + l CL DY) (l CI DZ + l CJ DZ) (l CK DZ + l CL DZ)
  * pfac.
End Tables.
