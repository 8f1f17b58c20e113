(** The scripts for the factors of the long-range formula, for the normalisation constants and for the place where the long-range
    formula may be used.
    Source: python/boys/boys_common/boys.py:10-38, python/boys/gen_boys_longfac.py:37-42, python/gen_shellconstants.py:36-42,
    python/boys/cutoff_finder.py:25-46.
    Numbers are real numbers: the rounding of the multiprecision library and the printing of the results are not modelled.  The
    incomplete gamma function of the library is an argument, [lower_gamma] says what is asked of it. *)
From Coq Require Import List Arith Reals Lra.
Import ListNotations.
From Verif Require Import Base Constants.
Local Open Scope R_scope.

(** ** Tables of factors *)
(** gen_boys_longfac.py:37-42, the entries from 0 to [n]. *)
Fixpoint longfac_loop (n : nat) : list R :=
  match n with
  | O => [sqrt PI / 2]
  | S k => longfac_loop k ++ [last (longfac_loop k) 0 * (1 / 2) * (2 * INR (S k) - 1)]
  end.
(** gen_shellconstants.py:36-42.  The list has [maxam + 1] places; the assignment to the second one fails if there is none. *)
Fixpoint normfac_from (l : nat) : list R :=
  match l with
  | O => [Rpower PI (3 / 2); Rpower PI (3 / 2) / 2]
  | S k => normfac_from k ++ [last (normfac_from k) 0 * INR (2 * (k + 2) - 1) / 2]
  end.
Definition normfac_script (maxam : nat) : option (list R) := match maxam with O => None | S k => Some (normfac_from k) end.

(** ** Values of the Boys function, boys.py *)
Section Values.
Variable gammainc : R -> R -> R.  (** [mp.gammainc (N, 0, x)] *)
(** boys.py:13-19. *)
Definition boys_entry (x : R) (i : nat) : R :=
  if Req_EM_T x 0 then 1 / (2 * INR i + 1)
  else gammainc (INR i + 1 / 2) x * 1 / (2 * Rpower x (INR i + 1 / 2)).
Definition boys_value (n : nat) (x : R) : list R := map (boys_entry x) (seq 0 (n + 1)).
(** boys.py:29-36; [odd_fact i] is (2i-1)!!. *)
Definition asym_entry (x : R) (i : nat) : R :=
  if Req_EM_T x 0 then 1 / (2 * INR i + 1)
  else sqrt (PI / x ^ (2 * i + 1)) * (IZR (odd_fact i) / 2 ^ (i + 1)).
Definition boys_asymptotic (n : nat) (x : R) : list R := map (asym_entry x) (seq 0 (n + 1)).

(** ** cutoff_finder.py *)
(** Line 40. *)
Definition diffs (n : nat) (x : R) : list R := map (fun p => Rabs (fst p - snd p)) (combine (boys_value n x) (boys_asymptotic n x)).
(** Line 41: [max] of a list that is not empty. *)
Definition list_max (l : list R) : R := match l with [] => 0 | a :: r => fold_left Rmax r a end.
(** Lines 43-46: a cutoff is not set twice (a cutoff of 0 would count as not set). *)
Definition set_cutoff (eps x : R) (c : option R) (d : R) : option R :=
  match c with
  | Some y => if Req_EM_T y 0 then (if Rlt_dec d eps then Some x else c) else c
  | None => if Rlt_dec d eps then Some x else None
  end.
Definition set_cutoffs (eps x : R) (cs : list (option R)) (ds : list R) : list (option R) :=
  map (fun p => set_cutoff eps x (fst p) (snd p)) (combine cs ds).
(** Lines 34-46; [None] if [fuel] is too small. *)
Fixpoint cutoff_loop (n : nat) (inc eps : R) (fuel : nat) (x maxdiff : R) (cs : list (option R)) : option (list (option R)) :=
  match fuel with
  | O => None
  | S f => if Rlt_dec eps maxdiff
           then let x' := x + inc in cutoff_loop n inc eps f x' (list_max (diffs n x')) (set_cutoffs eps x' cs (diffs n x'))
           else Some cs
  end.
(** Lines 28-32. *)
Definition cutoff_finder (n : nat) (inc eps : R) (fuel : nat) : option (list (option R)) :=
  cutoff_loop n inc eps fuel 0 (eps * 2) (repeat None (n + 1)).
End Values.

(** Specification of the incomplete gamma function: at orders n + 1/2 an integral of t^(a-1) exp (-t) from 0. *)
Definition lower_gamma (g : R -> R -> R) : Prop := forall n, let a := INR n + 1 / 2 in
  (forall x, 0 < x -> derivable_pt_lim (g a) x (Rpower x (a - 1) * exp (- x))) /\
  (forall e, 0 < e -> exists d, 0 < d /\ forall x, 0 < x < d -> Rabs (g a x) < e).
