(** A whole derivative kernel: from the shells to the twelve derivatives of every contracted integral.
    Source: generator/ostei/ostei_deriv1_generator.cpp:85-140 (what is created from what),
    generator/ostei/OSTEIDeriv1_Writer.cpp:54-94 (accumulation with the factors), 334-537 (formation of the
    derivatives), 539-940 (Write_Full_; here 744-746, 799-801 and 874-912: the work of one vector),
    skel/simint/shell/shell.c:425-582 (the block the kernel reads).

    Simplifications: those of [EndToEnd].  The block of a shell quartet is formed apart and put in its place in the
    output afterwards ([Kernel.put]); the C code forms it in place ([Deriv.form_all] has the positions). *)
From Coq Require Import List Arith ZArith Lia Bool Ring QArith.
Import ListNotations.
From Verif Require Import Base Simd Cart Mdir Contract Offsets Starts Kernel HRRStep HRRAlgo HRROrder GenHRR HRRExec
  VRRStep VRRAlgo VRROrder VRRExec VRRExecSpec KernelSpec Layout Create PairData Recur Driver Deriv DerivSpec OSFamily Work EndToEnd.
Set Implicit Arguments.
Local Open Scope nat_scope.

Section Model.
Context {R : cring}.
Variables (inv expf sqrtf : R -> R) (boys : nat -> R -> R) (half sqrt2pi52 : R).

(** The two plans, ostei_deriv1_generator.cpp:94-140. *)
Definition dplans (g : @gen R) (c : qam) : option (hplan * vplan) :=
  let E := g_E g in
  match hrr_create (e_enum E) (g_enumq g) (e_o E) (e_blf E) (e_klf E) (e_fuel E) (needed_am c) with
  | None => None
  | Some hp =>
    let init := flat_map (fun t => qtargets (e_o E) (tq_am t)) (g_enumt g (hp_top hp)) in
    match vrr_create (p_enum (g_P g)) (p_enumq (g_P g)) (p_fuel (g_P g)) (idx_order init) init with
    | None => None
    | Some vp => Some (hp, vp)
    end
  end.
(** [cfac_2a] to [cfac_2d], lines 745-746 and 800-801: [fP], [fK] read the arrays at the primitive; a class without
    tag is contracted without a factor, lines 68-73 and 82-87. *)
Definition cfac (fP fK : arr -> R) (tag : nat) (v : R) : R :=
  match tag with
  | 1 => cmul (fP AAlpha2) v
  | 2 => cmul (fP ABeta2) v
  | 3 => cmul (fK AAlpha2) v
  | 4 => cmul (fK ABeta2) v
  | _ => v
  end.
Definition tag_at (tops : list tqam) (n : nat) : nat := match nth_error (comps tops) n with Some (t, _) => tq_tag t | None => 0 end.
(** Horizontal recurrence and formation of the derivatives of one quartet, lines 924-925. *)
Definition one_deriv (E : @henv R) (hp : hplan) (tops : list tqam) (c : qam) (AB CD : dir -> R) (l : list R) : option (list R) :=
  match run (at_dist E AB CD) hp (hrr_arrays tops l) (hp_order hp) with
  | None => None
  | Some M' =>
    match form_deriv M' c 0 (repeat None (12 * qncart c)) with
    | None => None
    | Some o => somes_all o
    end
  end.
(** The kernel; the largest order of the Boys function is [L + 1], lines 892-893 and 903-904. *)
Definition whole_deriv (g : @gen R) (c : qam) (k : call_kind) (len nss : nat)
  (bra ket : @pairs R) (mb mk : list (option dval)) (BP BK : batch) (tol : Q) (zf : bool) (out : list R) : option (list R * nat) :=
  match dplans g c with
  | None => None
  | Some (hp, vp) =>
    let tops := g_enumt g (hp_top hp) in
    let nc := length (comps tops) in
    let rP := rd inv expf sqrt2pi52 len nss bra mb in
    let rK := rd inv expf sqrt2pi52 len nss ket mk in
    let val i j pf n := cfac (fun a => rP a i) (fun a => rK a j) (tag_at tops n)
        (dflt n (one_vector inv sqrtf boys half (g_P g) vp tops (S (qtotal c))
                   (geo (fun a => rP a i)) (geo (fun a => rK a j)) (rP a_prefac i) pf)) in
    kernel_hrr len nss nc BP BK (rK a_prefac) val tol zf (call_of k len nc) (12 * qncart c)
      (fun ab cd f n => dflt n (one_deriv (g_E g) hp tops c (fun d => rP (ADist (idx_of_dir d)) ab) (fun d => rK (ADist (idx_of_dir d)) cd)
                                  (map f (seq 0 nc)))) out
  end.
End Model.

(** ** Specification *)
Section Spec.
Context {R : cring}.
Variables (inv expf sqrtf : R -> R) (boys : nat -> R -> R) (half sqrt2pi52 : R).
Local Open Scope r_scope.
(** Derivative of a primitive integral with respect to coordinate [d] of centre [x]: twice the exponent times the
    integral with that function raised minus its power times the integral with it lowered.  (That this is the
    derivative is [eri_moves] in [RealDeriv].) *)
Definition pick {A} (a b c d : A) (x : ctr) : A := match x with CI => a | CJ => b | CK => c | CL => d end.
Definition minus_lowered (W : qrt -> R) (x : ctr) (i : dir) (q : qrt) : R :=
  match clower x i q with Some q' => ofnat (gexp i (cget x q)) * W q' | None => c0 end.
Definition prim_deriv (e : R) (a b c d : gauss) (x : ctr) (i : dir) (q : qrt) : R :=
  e * prim_eri inv expf sqrtf boys half sqrt2pi52 a b c d (craise x i q)
  - minus_lowered (prim_eri inv expf sqrtf boys half sqrt2pi52 a b c d) x i q.
Definition eri_deriv (A B C D : @shell R) (x : ctr) (i : dir) (q : qrt) : R :=
  over A (fun n1 => over B (fun n2 => over C (fun n3 => over D (fun n4 =>
    sh_coef A n1 * sh_coef B n2 * sh_coef C n3 * sh_coef D n4 *
    prim_deriv (two * g_exp (pick (prim A n1) (prim B n2) (prim C n3) (prim D n4) x))
      (prim A n1) (prim B n2) (prim C n3) (prim D n4) x i q)))).

(** With screening: sum over the stored primitive pairs.  A pair of different primitives of equal shells stands for
    both orders and has the mean of the two exponents. *)
Definition stored_exp (same : bool) (A B : @shell R) (i j : nat) (first : bool) : R :=
  if same && negb (i =? j)%nat then sh_alpha A i + sh_alpha B j else two * (if first then sh_alpha A i else sh_alpha B j).
Definition stored_dterm (sb sk : bool) (A B C D : @shell R) (i j k l : nat) (x : ctr) (d : dir) (q : qrt) : R :=
  mult sb i j * mult sk k l *
  (sh_coef A i * sh_coef B j * sh_coef C k * sh_coef D l *
   prim_deriv (pick (stored_exp sb A B i j true) (stored_exp sb A B i j false) (stored_exp sk C D k l true) (stored_exp sk C D k l false) x)
     (prim A i) (prim B j) (prim C k) (prim D l) x d q).
Definition stored_dterms (sb sk : bool) (A B C D : @shell R) (keep : nat -> nat -> nat -> nat -> bool) (x : ctr) (d : dir) (q : qrt) : R :=
  rsum (map (fun ij => rsum (map (fun kl =>
    if keep (fst ij) (snd ij) (fst kl) (snd kl) then stored_dterm sb sk A B C D (fst ij) (snd ij) (fst kl) (snd kl) x d q else c0)
    (sp_prims (SP (sh_n C) (sh_n D) sk)))) (sp_prims (SP (sh_n A) (sh_n B) sb))).
End Spec.
