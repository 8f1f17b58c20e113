(** Property theorems C42, C43: derivative kernels. *)
From Coq Require Import List Arith ZArith.
Import ListNotations.
From Verif Require Import Base Cart Mdir Tables HRRAlgo HRROrder HRRExec VRRStep Work PairData Permute Driver Deriv DerivSpec DerivExample.

(** C42.  For integrals obeying the recurrence with the coefficients of the kernel the four derivatives add up
    to zero, primitive by primitive and after contraction ... *)
Theorem C42_invariance (R : cring) (l : list (@pquart R)) d q :
  (forall p, In p l -> os_family (pq_K p) (pq_W p) /\ exps_ok (pq_K p) (pq_e p)) ->
  all4 (fun x => raise_lower (contracted_sum l) x d q) = c0.
Proof. exact (@contracted_invariant R l d q). Qed.
Print Assumptions C42_invariance.

(** ... the coefficients the kernel computes from what the shell pair routines store are of that kind ... *)
Theorem C42_coefficients (R : cring) (inv expf : R -> R) (half sqrt2pi52 : R) sb sk (A B C D : @shell R) i j k l W :
  (sb = true -> B = A) -> (sk = true -> D = C) -> (two * half = c1)%r ->
  ((sh_alpha A i + sh_alpha B j) * inv (sh_alpha A i + sh_alpha B j) = c1)%r ->
  ((sh_alpha C k + sh_alpha D l) * inv (sh_alpha C k + sh_alpha D l) = c1)%r ->
  ((sh_alpha A i + sh_alpha B j + (sh_alpha C k + sh_alpha D l)) *
     inv (sh_alpha A i + sh_alpha B j + (sh_alpha C k + sh_alpha D l)) = c1)%r ->
  let P := stored_pair inv expf sqrt2pi52 sb A B i j in
  let Q := stored_pair inv expf sqrt2pi52 sk C D k l in
  let p := PQ (kernel_coefs inv half P Q) W (kernel_exps P Q) in
  exps_ok (pq_K p) (pq_e p) /\
  forall E : @henv R, (forall d, e_AB E d = sh_pos A (idx_of_dir d) - sh_pos B (idx_of_dir d))%r ->
    (forall d, e_CD E d = sh_pos C (idx_of_dir d) - sh_pos D (idx_of_dir d))%r -> dist_ok E p.
Proof. exact (@stored_meets R inv expf half sqrt2pi52 sb sk A B C D i j k l W). Qed.
Print Assumptions C42_coefficients.

Example C42_coefficients_met : let half := QArith_base.Qmake 1 2 in
  @cmul Qcring two (Qcanon.Q2Qc half) = c1 /\
  forall i, i < 2 ->
  (let p := @cadd Qcring (sh_alpha qx_A i) (sh_alpha qx_B 0) in
   let q := @cadd Qcring (sh_alpha qx_A i) (sh_alpha qx_A 1) in
   @cmul Qcring p (Qcanon.Qcinv p) = c1 /\ @cmul Qcring q (Qcanon.Qcinv q) = c1 /\
   @cmul Qcring (@cadd Qcring p q) (Qcanon.Qcinv (@cadd Qcring p q)) = c1).
Proof. exact qx_hyps. Qed.

(** ... so after the horizontal recurrence all four blocks of the quartet, the one of the missing centre
    included, hold the derivative formula of their own centre, and nothing else is written. *)
Theorem C42_kernel (R : cring) (E : @henv R) enumq c :
  enum_ok (e_enum E) -> enum_ok enumq -> set_enum (e_enumc E) -> e_o E = psi4 ->
  e_fuel E = 3 + qtotal c -> table_ok_for E (needed_am c) -> amax c <= 18 ->
  exists hp, hrr_create (e_enum E) enumq (e_o E) (e_blf E) (e_klf E) (e_fuel E) (needed_am c) = Some hp /\
    forall l M abcd out,
      (forall p, In p l -> os_family (pq_K p) (pq_W p) /\ dist_ok E p /\ exps_ok (pq_K p) (pq_e p)) ->
      hrr_pre E hp (contracted_sum l) M -> 12 * (S abcd * qncart c) <= length out ->
      exists M' out', run E hp M (hp_order hp) = Some M' /\ form_deriv M' c abcd out = Some out' /\
        length out' = length out /\
        (forall q x d, qclass q = c ->
           nth_error out' (12 * (abcd * qncart c + qindex psi4 q) + (3 * cidx x + idx_of_dir d)) =
             Some (Some (raise_lower (contracted_sum l) x d q))) /\
        (forall i, i < 12 * (abcd * qncart c) \/ 12 * (S abcd * qncart c) <= i -> nth_error out' i = nth_error out i).
Proof. exact (@deriv_quartet R E enumq c). Qed.
Print Assumptions C42_kernel.

Example C42_hypotheses_met se sg c : sg = 20 \/ sg = 0 -> qtotal c <= 17 ->
  let E := dx_env psi4 se sg c in
  enum_ok (e_enum E) /\ enum_ok (nodup tqam_eq_dec) /\ set_enum (e_enumc E) /\ e_o E = psi4 /\
  e_fuel E = 3 + qtotal c /\ table_ok_for E (needed_am c) /\ amax c <= 18 /\
  (forall p, In p dx_prims -> os_family (pq_K p) (pq_W p) /\ dist_ok E p /\ exps_ok (pq_K p) (pq_e p)) /\
  (forall hp, hrr_pre E hp (contracted_sum dx_prims) (dx_mem psi4 (contracted_sum dx_prims) hp)).
Proof. exact (@dx_hyps se sg c). Qed.

Example C42_example : dx_check 10 20 (QAM 1 0 0 0) = true /\ dx_check 0 0 (QAM 1 1 0 1) = true /\
  dx_check 0 20 (QAM 0 1 2 0) = true.
Proof. vm_compute. repeat split. Qed.

(** C43.  Whatever the integrals, position 12*(quartet*components + component) + 3*centre + direction holds the
    raised integral of that centre's factor minus exponent times the lowered one, or for the missing centre
    minus the sum of the others; for every quartet of a batch. *)
Theorem C43_positions (R : cring) (V : nat -> nat -> qrt -> R) (Ms : nat -> @hmem R) am : amax am <= 18 ->
  forall n abcd out,
  12 * ((abcd + n) * qncart am) <= length out ->
  (forall k, abcd <= k < abcd + n -> supplied (V k) (Ms k) (needed_am am)) ->
  exists out', form_all Ms am abcd n out = Some out' /\ length out' = length out /\
    (forall k q x d, abcd <= k < abcd + n -> qclass q = am ->
       nth_error out' (12 * (k * qncart am + qindex psi4 q) + (3 * cidx x + idx_of_dir d)) =
         Some (Some (deriv_value (V k) am q x d))) /\
    (forall i, i < 12 * (abcd * qncart am) \/ 12 * ((abcd + n) * qncart am) <= i -> nth_error out' i = nth_error out i).
Proof. exact (@form_all_ok R V Ms am). Qed.
Print Assumptions C43_positions.

(** The formula is the derivative of a Gaussian with respect to its centre: evaluating with pairs (value,
    derivative) gives it. *)
Theorem C43_formula (R : cring) (u : dir -> R) (w f alpha : R) (d : dir) (g : gauss) :
  @gauss_value (dual R) (du u d) (dw u w alpha d) (f, c0) g =
  (gauss_value u w f g,
   (two * alpha) * gauss_value u w f (up d g) -
   match down d g with Some g' => ofnat (gexp d g) * gauss_value u w f g' | None => c0 end)%r.
Proof. exact (@raise_lower_derivative R u w f alpha d g). Qed.
Print Assumptions C43_formula.

(** Every derivative kernel has a horizontal recurrence (the loop that forms the derivatives is inside its loop),
    and none of its arrays is the output array. *)
Theorem C43_in_hrr_loop c blf klf hp : plan_ok blf klf (needed_am c) hp ->
  (hp_bra hp <> [] \/ hp_ket hp <> []) /\ hp_order hp <> [].
Proof. exact (@deriv_hashrr c blf klf hp). Qed.
Print Assumptions C43_in_hrr_loop.

Theorem C43_output_separate c blf klf hp t : plan_ok blf klf (needed_am c) hp ->
  In t (hp_order hp) \/ In t (hp_top hp) -> t <> TQ 0 c.
Proof. exact (@final_not_planned c blf klf hp t). Qed.
Print Assumptions C43_output_separate.

(** The permuted entry points put the twelve numbers of each component back in the requested order. *)
Theorem C43_permuted (Sh T : Type) (I : Sh -> Sh -> Sh -> Sh -> nat -> nat -> nat -> nat -> nat -> T)
  s12 s34 am ret raw (A B C D : nat -> Sh) :
  sym12 I -> ret * (12 * qncart am) <= length raw ->
  output_for 12 am ret raw
    (fun q => fst (exch s12 (A q) (B q))) (fun q => snd (exch s12 (A q) (B q)))
    (fun q => fst (exch s34 (C q) (D q))) (fun q => snd (exch s34 (C q) (D q))) I ->
  exists out, permuted_fn12 s12 s34 am ret raw = Some out /\ length out = length raw /\
    (forall i, ret * (12 * qncart am) <= i -> nth_error out i = nth_error raw i) /\
    output_for 12 (permute s12 s34 am) ret out A B C D I.
Proof. exact (@permuted12_ok Sh T I s12 s34 am ret raw A B C D). Qed.
Print Assumptions C43_permuted.

Example C43_permuted_example : sym12 px_I /\
  permuted_fn12 true false (QAM 1 0 1 0) 2 (px_raw true false (QAM 1 0 1 0) 2) = Some (px_raw false false (QAM 0 1 1 0) 2) /\
  px_raw true false (QAM 1 0 1 0) 2 <> px_raw false false (QAM 0 1 1 0) 2.
Proof. split; [exact px_I_sym|]. vm_compute. split; [reflexivity|discriminate]. Qed.

(** The table is in the standard order only: with the GAMESS order wrong components are combined. *)
Theorem C43_gamess_refuted : exists c (V : nat -> qrt -> Z) (M : @hmem Zring) out out' q x d v,
  amax c <= 18 /\ 12 * qncart c <= length out /\ supplied_in gamess V M (needed_am c) /\
  @form_deriv Zring M c 0 out = Some out' /\ qclass q = c /\ x <> missing_center c /\
  nth_error out' (12 * qindex gamess q + (3 * cidx x + idx_of_dir d)) = Some (Some v) /\
  v <> raise_lower (R := Zring) V x d q.
Proof. exact gamess_deriv_wrong. Qed.
Print Assumptions C43_gamess_refuted.
