(** Screening values, and what screening costs.
    Source: skel/simint/shell/shell_screen.c:47-83 (simint_shellscreen_schwarz), 86-118
    (simint_shellscreen_fastschwarz), 126-223 (simint_primscreen_schwarz), 226-273
    (simint_primscreen_fastschwarz), skel/simint/shell/shell_screen.h:49-53,
    skel/simint/ostei/ostei.c:10-24 (simint_compute_ostei).

    [compute A B] is the content of the buffer [integrals] after simint_compute_eri(&P, &P, 0.0, ..) for the pair
    of [A] and [B] ([ncart1234 + 8] doubles), [None] if the call fails; [C58] says what it is.  Numbers are of an
    ordered ring; [pow25 x] is pow(x, 2.5), [expf], [boys] .. as in [EndToEnd].  The positions written in the
    output array are the subject of [Layout]; here the values. *)
From Coq Require Import List Arith ZArith Lia Bool Ring QArith Permutation.
Import ListNotations.
From Verif Require Import Base Simd Cart Mdir Contract Offsets Starts Kernel HRRStep HRRAlgo HRROrder GenHRR HRRExec
  VRRStep VRRAlgo VRROrder VRRExec VRRExecSpec KernelSpec Layout Create PairData Recur Deriv DerivSpec OSFamily Work OrdRing EndToEnd EndToEndProof.
Set Implicit Arguments.
Local Open Scope nat_scope.

Section Model.
Context {R : cring}.
Variable O : ordered R.
Variables (inv expf pow25 : R -> R) (sqrt2times : R).
Local Open Scope r_scope.

(** One primitive of a shell, shell_screen.c:160-162, 169-171. *)
Definition uncontract (A : @shell R) (i : nat) : @shell R := @Shell R 1 (sh_pos A) (fun _ => sh_alpha A i) (fun _ => sh_coef A i).
(** [abint > max ? abint : max] with [abint = fabs(integrals[n])] for the positions in [l]; [None]: outside. *)
Fixpoint max_over (ints : list R) (l : list nat) (m : R) : option R :=
  match l with
  | [] => Some m
  | n :: l' => match nth_error ints n with
               | Some x => max_over ints l' (vmax O m (vabs O x))
               | None => None
               end
  end.
(** shell_screen.c:180-196. *)
Definition diag_positions (n1 n2 : nat) : list nat :=
  flat_map (fun m => map (fun n => (m * n2 * n1 * n2 + m * n2 + (n * n1 * n2 + n))%nat) (seq 0 n2)) (seq 0 n1).
(** simint_primscreen_schwarz: the value of each primitive pair in the order of the loops and the return value;
    [same]: compare_shell. *)
Definition primscreen_schwarz (compute : @shell R -> @shell R -> option (list R)) (n1 n2 : nat) (same : bool) (A B : @shell R) : option (list R * R) :=
  fold_left (fun acc ij => match acc with
    | None => None
    | Some (l, tm) =>
      match compute (uncontract A (fst ij)) (uncontract B (snd ij)) with
      | None => None
      | Some ints => match max_over ints (diag_positions n1 n2) c0 with
                     | None => None
                     | Some m => Some (l ++ [m], if leb O m tm then tm else m)
                     end
      end
    end) (sp_prims (SP (sh_n A) (sh_n B) same)) (Some ([], c0)).
(** simint_shellscreen_schwarz. *)
Definition shellscreen_schwarz (compute : @shell R -> @shell R -> option (list R)) (n1 n2 : nat) (A B : @shell R) : option R :=
  match compute A B with
  | None => None
  | Some ints => max_over ints (seq 0 (n1 * n2 * (n1 * n2))) c0
  end.
(** shell_screen.c:100-113 and 244-256. *)
Definition fast_gab (A B : @shell R) (i j : nat) : R :=
  let a := sh_alpha A i in let b := sh_alpha B j in
  let p := a + b in
  let rx := sh_pos A 0%nat - sh_pos B 0%nat in let ry := sh_pos A 1%nat - sh_pos B 1%nat in let rz := sh_pos A 2%nat - sh_pos B 2%nat in
  let r2 := rx * rx + ry * ry + rz * rz in
  let rh := (a * b) * inv p in
  sqrt2times * pow25 (inv p) * expf (- (c1 + c1) * rh * r2) * (sh_coef A i * sh_coef A i * sh_coef B j * sh_coef B j).
Definition primscreen_fast (same : bool) (A B : @shell R) : list R * R :=
  fold_left (fun acc ij => let v := fast_gab A B (fst ij) (snd ij) in (fst acc ++ [v], if leb O v (snd acc) then snd acc else v))
    (sp_prims (SP (sh_n A) (sh_n B) same)) ([], c0).
Definition shellscreen_fast (same : bool) (A B : @shell R) : R :=
  fold_left (fun v ij => v + fast_gab A B (fst ij) (snd ij)) (sp_prims (SP (sh_n A) (sh_n B) same)) c0.
End Model.

(** shell_screen.c:64-69 and 173-178: the buffer after creating the unscreened pair of [A] and [B] and computing
    (ab|ab); [junk] is what the buffer held.  The kernel of the class is called directly; for classes that are
    reached through a permuted kernel see [Permute]. *)
Section Buffer.
Context {R : cring}.
Variables (inv expf sqrtf : R -> R) (boys : nat -> R -> R) (half sqrt2pi52 : R).
Definition one_pair (A B : @shell R) : @pairs R := @Pairs R 1 (fun _ => A) (fun _ => B) (fun _ => false) NoScreen false.
Definition eri_buffer (g : @gen R) (c : qam) (k : call_kind) (len nss : nat) (junk : R) (A B : @shell R) : option (list R) :=
  let S := one_pair A B in
  match ps_create len nss S (fun _ => 0%Z) with
  | None => None
  | Some m => option_map fst (whole_kernel inv expf sqrtf boys half sqrt2pi52 g c k len nss S S m m
                (batch_of S 1 (fun _ => 0%Q) big) (batch_of S 1 (fun _ => 0%Q) big) 0 false (repeat junk (qncart c + 8)))
  end.
End Buffer.

(** ** Specification *)
Section Spec.
Context {R : cring}.
Variable O : ordered R.
Variables (inv expf sqrtf : R -> R) (boys : nat -> R -> R) (half sqrt2pi52 : R).
Local Open Scope r_scope.
Local Notation ERI := (eri inv expf sqrtf boys half sqrt2pi52).
Local Notation PERI := (prim_eri inv expf sqrtf boys half sqrt2pi52).

(** Product of two primitives: a charge distribution. *)
Record charge := Charge { ch_a : @EndToEnd.gauss R; ch_b : @EndToEnd.gauss R; ch_i : Cart.gauss; ch_j : Cart.gauss }.
Definition repulsion (d e : charge) : R := PERI (ch_a d) (ch_b d) (ch_a e) (ch_b e) (Q4 (ch_i d) (ch_j d) (ch_i e) (ch_j e)).
(** Positive exponents, of a charge and of a shell. *)
Definition physical (d : charge) : Prop := lt O c0 (g_exp (ch_a d)) /\ lt O c0 (g_exp (ch_b d)).
Definition positive (A : @shell R) : Prop := forall i, (i < sh_n A)%nat -> lt O c0 (sh_alpha A i).
(** Every finite combination of such charges has a nonnegative energy.  A property of the external functions; proved
    of the real ones in RealRepulsive.v. *)
Definition repulsive : Prop := forall l : list (R * charge), (forall p, In p l -> physical (snd p)) ->
  le O c0 (rsum (map (fun p => rsum (map (fun q => fst p * fst q * repulsion (snd p) (snd q)) l)) l)).
(** Diagonal integral of primitives [i, j] of shells [A, B], with their coefficients. *)
Definition diagonal (A B : @shell R) (i j : nat) (x : Cart.gauss * Cart.gauss) : R :=
  sh_coef A i * sh_coef B j * sh_coef A i * sh_coef B j * PERI (prim A i) (prim B j) (prim A i) (prim B j) (Q4 (fst x) (snd x) (fst x) (snd x)).
Definition comp_of (la lb : nat) (x : Cart.gauss * Cart.gauss) : Prop := gam (fst x) = la /\ gam (snd x) = lb.
(** What the buffer holds. *)
Definition computes (o : ordering) (la lb : nat) (compute : @shell R -> @shell R -> option (list R)) (A B : @shell R) : Prop :=
  exists d, compute A B = Some d /\ forall q, qclass q = QAM la lb la lb -> nth_error d (qindex o q) = Some (ERI A B A B q).
(** The rational numbers of the screening tests among the values. *)
Record embeds (emb : Q -> R) : Prop := {
  em_zero : emb 0%Q = c0; em_mul : forall x y, emb (x * y)%Q = emb x * emb y; em_le : forall x y, (x <= y)%Q -> le O (emb x) (emb y) }.
(** [sv] is at least every diagonal integral of primitives [i, j]. *)
Definition covers (emb : Q -> R) (la lb : nat) (A B : @shell R) (i j : nat) (sv : Q) : Prop :=
  forall x, comp_of la lb x -> le O (diagonal A B i j x) (emb sv).
End Spec.
