(** Normalisation of shells.
    Source: skel/simint/shell/shell.c:248-279 (simint_normalize_shells), shell_constants.c.

    Values are real numbers, [pow] is [Rpower] (for positive bases), [sqrt] the real square root; rounding is not
    modelled.  [os_am] is the angular momentum of a shell. *)
From Coq Require Import List Arith ZArith QArith Reals Qreals Lra Lia.
Import ListNotations.
From Verif Require Import Base Cart GenHRR PairData OneE Constants.
Local Open Scope R_scope.

Definition Rcring : cring := @CRing R 0 1 Rplus Rmult Rminus Ropp RTheory.

(** shell.c:253-255: [m] and [m2]. *)
Definition nm (l : nat) : R := INR l + 15 / 10.
Definition nm2 (l : nat) : R := / 2 * nm l.
(** shell.c:257-270. *)
Definition norm_sum (l : nat) (A : @shell Rcring) : R :=
  fold_left (fun s j => fold_left (fun s k =>
      s + (sh_coef A j * sh_coef A k * Rpower (sh_alpha A j * sh_alpha A k) (nm2 l)) / Rpower (sh_alpha A j + sh_alpha A k) (nm l))
    (seq 0 (sh_n A)) s) (seq 0 (sh_n A)) 0.
(** shell.c:272-276; the table has 21 entries, [None]: read past its end. *)
Definition normalize (G : @oshell Rcring) : option (@oshell Rcring) :=
  match nth_error norm_fac (os_am G) with
  | None => None
  | Some f =>
    let A := os_sh G in
    let norm := 1 / sqrt (norm_sum (os_am G) A * Q2R f) in
    Some (OS (os_am G) (@Shell Rcring (sh_n A) (sh_pos A) (sh_alpha A)
      (fun j => if (j <? sh_n A)%nat then sh_coef A j * (norm * Rpower (sh_alpha A j) (nm2 (os_am G))) else sh_coef A j)))
  end.
(** The loop over the shells; each has storage of its own. *)
Definition normalize_shells (l : list (@oshell Rcring)) : option (list (@oshell Rcring)) := mapM normalize l.

(** ** Specification *)
(** The usual normalisation constant of a primitive x^l exp(-alpha r^2), squared:
    (2 alpha / pi)^(3/2) (4 alpha)^l / (2l-1)!!. *)
Definition prim_norm2 (l : nat) (al : R) : R := sqrt (2 * al / PI) ^ 3 * (4 * al) ^ l / IZR (odd_fact l).
(** All exponents are positive. *)
Definition pos_exps (A : @shell Rcring) : Prop := forall j, (j < sh_n A)%nat -> 0 < sh_alpha A j.
(** The shell with all coefficients multiplied by [c]. *)
Definition scale_coefs (c : R) (G : @oshell Rcring) : @oshell Rcring :=
  let A := os_sh G in OS (os_am G) (@Shell Rcring (sh_n A) (sh_pos A) (sh_alpha A) (fun j => c * sh_coef A j)).
(** Relative error of the table entries. *)
Definition norm_rel (l : nat) : R := norm_exact l / Q2R (nth l norm_fac 1%Q).

(** Examples. *)
Definition nx_shell (l n : nat) : @oshell Rcring :=
  OS l (@Shell Rcring n (fun d => INR d) (fun j => 4 ^ j) (fun _ => 1)).
