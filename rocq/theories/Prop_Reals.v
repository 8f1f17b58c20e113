(** Property theorems C61 (normalisation), C62 (constants), C63 (the Boys function as an integral) and the part of C60
    about the real functions. *)
From Coq Require Import List Arith ZArith QArith Qcanon Reals Qreals.
Import ListNotations.
From Verif Require Import Base Cart QList HRRStep PairData Deriv Mdir OneE OneEInt Boys BoysSeries BoysData BoysAccuracy BoysLong OrdRing Screen ScreenProof Constants ConstantsProof Normalize NormalizeProof RealScreen BoysReal BoysRealLong BoysRealSplit NormPos.
Local Open Scope R_scope.

(** C61.  After normalisation the overlap of component (x, y, z) of a shell with itself is
    (2x-1)!! (2y-1)!! (2z-1)!! / (2l-1)!!, up to the error of the table entry ... *)
Theorem C61_normalized : forall G G' out, normalize G = Some G' -> (os_am G <= 18)%nat -> pos_exps (os_sh G) ->
  0 < norm_sum (os_am G) (os_sh G) -> (ncart (os_am G) * ncart (os_am G) <= length out)%nat ->
  exists out', @compute_overlap Rcring Rinv sqrt exp (/ 2) PI G' G' out = Some out' /\ length out' = length out /\
    forall a, Cart.gam a = os_am G -> rdv out' (pos a * ncart (os_am G) + pos a) =
      Some (IZR (odd_fact (gx a) * odd_fact (gy a) * odd_fact (gz a)) / IZR (odd_fact (os_am G)) * norm_rel (os_am G)).
Proof. exact normalized_self. Qed.
Print Assumptions C61_normalized.

(** ... which is below 1e-17. *)
Theorem C61_table_error : forall l, (l <= 20)%nat -> Rabs (norm_rel l - 1) <= Q2R (1 # 100000000000000000).
Proof. exact norm_rel_near. Qed.
Print Assumptions C61_table_error.

(** Positive coefficients suffice. *)
Theorem C61_positive : forall l (A : @shell Rcring), pos_exps A -> (1 <= sh_n A)%nat ->
  (forall j, (j < sh_n A)%nat -> 0 < sh_coef A j) -> 0 < norm_sum l A.
Proof. exact norm_sum_pos. Qed.
Print Assumptions C61_positive.

(** The norm is positive exactly for shells that are not the zero function: some exponent whose coefficients, taken
    together, do not cancel.  The code divides by its square root. *)
Theorem C61_norm_positive : forall l (A : @shell Rcring), pos_exps A ->
  (0 < norm_sum l A <-> exists i, (i < sh_n A)%nat /\
     rsums (fun k => if Req_EM_T (sh_alpha A k) (sh_alpha A i) then sh_coef A k else 0) (sh_n A) <> 0).
Proof. exact norm_sum_iff. Qed.
Print Assumptions C61_norm_positive.
Theorem C61_distinct : forall l (A : @shell Rcring), pos_exps A ->
  (forall j k, (j < sh_n A)%nat -> (k < sh_n A)%nat -> sh_alpha A j = sh_alpha A k -> j = k) ->
  (exists j, (j < sh_n A)%nat /\ sh_coef A j <> 0) -> 0 < norm_sum l A.
Proof. exact norm_sum_distinct. Qed.
Print Assumptions C61_distinct.
Example C61_distinct_met l n : (2 <= n)%nat -> pos_exps (os_sh (nx_alt l n)) /\
  (forall j k, (j < n)%nat -> (k < n)%nat -> sh_alpha (os_sh (nx_alt l n)) j = sh_alpha (os_sh (nx_alt l n)) k -> j = k) /\
  (exists j, (j < n)%nat /\ sh_coef (os_sh (nx_alt l n)) j <> 0) /\ sh_coef (os_sh (nx_alt l n)) 1%nat < 0.
Proof. exact (nx_alt_met l n). Qed.
(** Two primitives of the same exponent with opposite coefficients: division by zero. *)
Theorem C61_zero_norm : forall l, pos_exps (os_sh (nx_cancel l)) /\ norm_sum l (os_sh (nx_cancel l)) = 0.
Proof. exact nx_cancel_zero. Qed.
Print Assumptions C61_zero_norm.

(** A primitive gets the usual constant, sqrt((2 alpha / pi)^(3/2) (4 alpha)^l / (2l-1)!!). *)
Theorem C61_primitive : forall G G', normalize G = Some G' -> sh_n (os_sh G) = 1%nat -> 0 < sh_alpha (os_sh G) 0%nat -> 0 < sh_coef (os_sh G) 0%nat ->
  0 < sh_coef (os_sh G') 0%nat /\
  sh_coef (os_sh G') 0%nat * sh_coef (os_sh G') 0%nat = prim_norm2 (os_am G) (sh_alpha (os_sh G) 0%nat) * norm_rel (os_am G).
Proof. exact one_coef. Qed.
Print Assumptions C61_primitive.

(** The scale of the given coefficients does not matter. *)
Theorem C61_scale : forall c G G1 G2, 0 < c -> 0 < norm_sum (os_am G) (os_sh G) ->
  normalize G = Some G1 -> normalize (scale_coefs c G) = Some G2 ->
  forall j, (j < sh_n (os_sh G))%nat -> sh_coef (os_sh G2) j = sh_coef (os_sh G1) j.
Proof. exact normalize_scale. Qed.
Print Assumptions C61_scale.

(** Momenta above 20 read past the table; a list of shells below is normalised one by one. *)
Theorem C61_domain : forall G, (exists G', normalize G = Some G') <-> (os_am G <= 20)%nat.
Proof. exact normalize_dom. Qed.
Print Assumptions C61_domain.
Theorem C61_list : forall l, Forall (fun G => (os_am G <= 20)%nat) l ->
  exists l', normalize_shells l = Some l' /\ Forall2 (fun G G' => normalize G = Some G') l l'.
Proof. exact normalize_shells_ok. Qed.
Print Assumptions C61_list.

(** Normalising again changes nothing for a single primitive, and only if all exponents in use are equal. *)
Theorem C61_again_one : forall G G1 G2, normalize G = Some G1 -> normalize G1 = Some G2 -> sh_n (os_sh G) = 1%nat ->
  0 < sh_alpha (os_sh G) 0%nat -> 0 < sh_coef (os_sh G) 0%nat -> sh_coef (os_sh G2) 0%nat = sh_coef (os_sh G1) 0%nat.
Proof. exact twice_one. Qed.
Print Assumptions C61_again_one.
Theorem C61_again : forall G G1 G2, normalize G = Some G1 -> normalize G1 = Some G2 -> pos_exps (os_sh G) ->
  (forall j, (j < sh_n (os_sh G))%nat -> sh_coef (os_sh G2) j = sh_coef (os_sh G1) j) ->
  forall j k, (j < sh_n (os_sh G))%nat -> (k < sh_n (os_sh G))%nat -> sh_coef (os_sh G1) j <> 0 -> sh_coef (os_sh G1) k <> 0 ->
  sh_alpha (os_sh G) j = sh_alpha (os_sh G) k.
Proof. exact twice_same. Qed.
Print Assumptions C61_again.
Theorem C61_again_refuted : exists G1 G2, normalize (nx_shell 0 2) = Some G1 /\ normalize G1 = Some G2 /\
  exists j, (j < 2)%nat /\ sh_coef (os_sh G2) j <> sh_coef (os_sh G1) j.
Proof. exact nx_twice. Qed.
Print Assumptions C61_again_refuted.

(** Shells of any momentum with exponents 1, 4, 16, ... meet the hypotheses. *)
Example C61_example l n : (1 <= n)%nat -> pos_exps (os_sh (nx_shell l n)) /\ 0 < norm_sum l (os_sh (nx_shell l n)).
Proof. exact (nx_met l n). Qed.

(** C62.  The literals of constants.h are the numbers they are named after, to the given decimals ... *)
Theorem C62_pi : near (half_unit 63) lit_PI PI.
Proof. exact near_pi. Qed.
Print Assumptions C62_pi.
Theorem C62_two_pi_52 : near (half_unit 58) lit_TWO_PI_52 (2 * pi52).
Proof. exact near_two_pi_52. Qed.
Print Assumptions C62_two_pi_52.
Theorem C62_sqrt_two_pi_52 : near (half_unit 59) lit_SQRT_TWO_PI_52 (sqrt (2 * pi52)).
Proof. exact near_sqrt_two_pi_52. Qed.
Print Assumptions C62_sqrt_two_pi_52.
Theorem C62_sqrt_two_times_pi_52 : near (half_unit 54) lit_SQRT_TWO_TIMES_PI_52 (sqrt 2 * pi52).
Proof. exact near_sqrt_two_times_pi_52. Qed.
Print Assumptions C62_sqrt_two_times_pi_52.

(** ... and the two tables hold the numbers their comments say, to 18 significant digits. *)
Theorem C62_norm_fac : forall l, (l <= 20)%nat -> near (half_unit (nth l norm_decimals 0%Z)) (nth l norm_fac 0%Q) (norm_exact l).
Proof. exact norm_near. Qed.
Print Assumptions C62_norm_fac.
Theorem C62_longfac : forall n, (n <= 31)%nat ->
  near (half_unit (nth n long_decimals 0%Z)) (Qcanon.this (nth n longfac (Qcanon.Q2Qc 0))) (long_exact n).
Proof. exact long_near. Qed.
Print Assumptions C62_longfac.

(** The table of decimals is 18 significant digits: each entry has 18 digits before the decimal it is rounded at. *)
Example C62_example : forallb (fun l => let x := (nth l norm_fac 0 * dec_scale (nth l norm_decimals 0%Z))%Q in
    andb (Qle_bool (inject_Z (10 ^ 17)) x) (Qle_bool x (inject_Z (10 ^ 18)))) (seq 0 21) = true.
Proof. vm_compute. reflexivity. Qed.

(** C60 for the real functions: the fast value is the diagonal integral of s functions; and below the one of a p function. *)
Theorem C60_fast_value_real : forall boys half (A B : @shell Rcring) i j, 0 < sh_alpha A i + sh_alpha B j -> boys 0%nat 0 = 1 ->
  @fast_gab Rcring Rinv exp pow25 rc_sqrt2times A B i j = @diagonal Rcring Rinv exp sqrt boys half rc_sqrt2pi52 A B i j (g0, g0).
Proof. exact real_fast_value. Qed.
Print Assumptions C60_fast_value_real.
Theorem C60_fast_real_refuted : forall boys, boys_at0 boys ->
  @fast_gab Rcring Rinv exp pow25 rc_sqrt2times rx_A rx_B 0 0 <
  @diagonal Rcring Rinv exp sqrt boys (/ 2) rc_sqrt2pi52 rx_A rx_B 0 0 (G 1 0 0, g0).
Proof. exact real_fast_low. Qed.
Print Assumptions C60_fast_real_refuted.
Example C60_real_example : boys_at0 (fun n _ => / (2 * INR n + 1)).
Proof. exact boys_at0_ex. Qed.

(** C63.  [boysR n x] is the Riemann integral of t^(2n) exp(-x t^2) over [0, 1].  Every table entry is its value at the
    grid point, to half a unit of the 18th significant digit ... *)
Theorem C63_entries : forall i row n v, nth_error shortgrid i = Some row -> nth_error row n = Some v ->
  Rabs (boysR n (INR i / 10) - Q2R (this v)) <= Q2R (this v) / (2 * 10 ^ 17).
Proof. exact entry_real. Qed.
Print Assumptions C63_entries.

(** ... and what boys_F_split stores, for every lane: below 36.5 within 10^-15 of the integral, relatively; from 36.5
    on within [long_rel k] for order [k] of a class of maximum order below 4, within [long_rel n] for all orders of a
    class of maximum order [n] otherwise, if the library square root and exponential are within 10^-15. *)
Theorem C63_split : forall len zf novec qsqrt qexp qpow xs n F,
  (0 < len)%nat -> (forall v, (v < len)%nat -> (Q2Qc 0 <= xs v)%Qc) -> (n <= 31)%nat ->
  (forall v, (v < len)%nat -> (xs v < Q2Qc (73 # 2))%Qc -> (n <= 24)%nat) ->
  ((n + 1) * len <= length F)%nat ->
  (forall v, (v < len)%nat -> (Q2Qc (73 # 2) <= xs v)%Qc -> sqrt_good qsqrt (xs v) /\ ((4 <= n)%nat -> pow_sqrt_ok qsqrt qpow (xs v) n)) ->
  ((4 <= n)%nat -> forall v, (v < len)%nat -> exp_good qexp (xs v) /\ 0 <= Q2R (this (qexp (- xs v)%Qc))) ->
  exists F', split len zf novec qsqrt qexp qpow shortgrid longfac xs n F = Some F' /\ length F' = length F /\
    forall v k, (v < len)%nat -> (k <= n)%nat -> exists b, nth_error F' (v + k * len) = Some b /\
      ((xs v < Q2Qc (73 # 2))%Qc -> Rabs (boysR k (Q2R (this (xs v))) - Q2R (this b)) <= / 10 ^ 15 * Q2R (this b)) /\
      ((Q2Qc (73 # 2) <= xs v)%Qc ->
        Rabs (boysR k (Q2R (this (xs v))) - Q2R (this b)) <= Q2R (long_rel (if n <? 4 then k else n)%nat) * Q2R (this b)).
Proof. exact split_real. Qed.
Print Assumptions C63_split.

Example C63_split_met : (forall v, (v < 2)%nat -> (Q2Qc 0 <= m_xs v)%Qc) /\
  (forall v, (v < 2)%nat -> (MAXX <= m_xs v)%Qc -> sqrt_good l_sqrt (m_xs v) /\ pow_sqrt_ok l_sqrt l_pow (m_xs v) 6) /\
  (forall v, (v < 2)%nat -> exp_good m_exp (m_xs v) /\ 0 <= Q2R (this (m_exp (- m_xs v)%Qc))) /\
  (m_xs 0 < MAXX)%Qc /\ (MAXX <= m_xs 1)%Qc.
Proof. exact m_real. Qed.

(** The bounds for orders 8, 16 and 24 are 6.57e-9, 7.56e-5 and 1.48e-2, and the error does get that large: at
    x = 36.6025 the highest order and F_0 are off by at least 5e-9, 6.6e-5 and 1e-2 of their value. *)
Theorem C63_accuracy_refuted : forall n r, In (n, r) [(8%nat, 200000000%Z); (16%nat, 15000%Z); (24%nat, 100%Z)] ->
  exists F v w, split 1 false false l_sqrt l_exp l_pow shortgrid longfac (fun _ => Q2Qc (14641 # 400)) n (repeat (Q2Qc 0) (n + 1)) = Some F /\
    nth_error F n = Some v /\ nth_error F 0 = Some w /\
    Rabs (boysR n (14641 / 400) - Q2R (this v)) >= Q2R (this v) / IZR r /\
    Rabs (boysR 0 (14641 / 400) - Q2R (this w)) >= Q2R (this w) / IZR r.
Proof. exact wrong_real. Qed.
Print Assumptions C63_accuracy_refuted.

(** The recursion used downwards holds exactly for the integral. *)
Theorem C63_recursion : forall n x, (2 * INR n + 1) * boysR n x = 2 * x * boysR (S n) x + exp (- x).
Proof. exact boys_by_parts. Qed.
Print Assumptions C63_recursion.

Example C63_bounds : long_rel 8 = (657 # 10 ^ 11)%Q /\ long_rel 16 = (756 # 10 ^ 7)%Q /\ long_rel 24 = (148 # 10 ^ 4)%Q.
Proof. repeat split. Qed.
