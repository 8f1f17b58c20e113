(** boys_F_split (boys.h) against the integral: what every lane and order stores, on both sides of the switch-over point. *)
From Coq Require Import List Arith ZArith QArith Qabs Qcanon Reals Qreals Lra Lia Psatz.
Import ListNotations.
From Verif Require Import Base Boys BoysProof BoysSeries BoysData BoysTable BoysAccuracy BoysLong Constants ConstantsProof BoysReal BoysRealLong.
Local Open Scope R_scope.

(** ** Relative to the value *)
(** exp(-x) x^n sqrt(x) falls from x = 36.5 on. *)
Lemma falls n x : (n <= 31)%nat -> 73 / 2 <= x ->
  exp (- x) * (sqrt x * x ^ n) <= exp (- (73 / 2)) * (sqrt (73 / 2) * (73 / 2) ^ n).
Proof.
  intros N X. set (x0 := 73 / 2). assert (X0 : x0 = 73 / 2) by reflexivity. clearbody x0. set (u := (x - x0) / x0).
  assert (U : 0 <= u) by (unfold u; apply Rmult_le_pos; [lra|left; apply Rinv_0_lt_compat; lra]).
  assert (XE : x = x0 * (1 + u)) by (unfold u; field; lra).
  assert (E1 : 1 + u <= exp u) by apply exp_ineq1_le.
  assert (XL : x <= x0 * exp u) by (rewrite XE; apply Rmult_le_compat_l; lra).
  assert (P : x ^ n <= x0 ^ n * exp (INR n * u)).
  { replace (exp (INR n * u)) with (exp u ^ n).
    - rewrite <- Rpow_mult_distr. apply pow_incr. lra.
    - clear. induction n as [|n IH]; [cbn; rewrite Rmult_0_l, exp_0; reflexivity|]. rewrite S_INR. replace ((INR n + 1) * u) with (u + INR n * u) by ring.
      rewrite exp_plus. cbn [pow]. rewrite IH. reflexivity. }
  assert (S : sqrt x <= sqrt x0 * exp (u / 2)).
  { apply (Rle_trans _ (sqrt (x0 * exp u))); [apply sqrt_le_1; [lra| |exact XL]; pose proof (exp_pos u); nra|].
    rewrite sqrt_mult by (try lra; left; apply exp_pos). apply Rmult_le_compat_l; [apply sqrt_pos|]. apply Req_le. apply sqrt_lem_1; [left; apply exp_pos|left; apply exp_pos|].
    rewrite <- exp_plus. f_equal. lra. }
  assert (PX : 0 < x ^ n) by (apply pow_lt; lra). assert (P0 : 0 < x0 ^ n) by (apply pow_lt; lra). assert (S0 : 0 < sqrt x0) by (apply sqrt_lt_R0; lra).
  assert (SX : 0 < sqrt x) by (apply sqrt_lt_R0; lra).
  assert (N1 : INR n <= 31) by (replace 31 with (INR 31) by (rewrite INR_IZR_INZ; reflexivity); apply le_INR; lia).
  apply (Rle_trans _ (exp (- x) * ((sqrt x0 * exp (u / 2)) * (x0 ^ n * exp (INR n * u))))).
  { apply Rmult_le_compat_l; [left; apply exp_pos|]. apply Rmult_le_compat; lra. }
  replace (exp (- x) * (sqrt x0 * exp (u / 2) * (x0 ^ n * exp (INR n * u)))) with (exp (- x) * exp (u / 2) * exp (INR n * u) * (sqrt x0 * x0 ^ n)) by ring.
  apply Rmult_le_compat_r; [nra|]. rewrite <- !exp_plus.
  assert (L : - x + u / 2 + INR n * u <= - x0) by (rewrite XE, X0; nra).
  destruct L as [L|L]; [left; apply exp_increasing, L|rewrite L; apply Rle_refl].
Qed.
Lemma sqrt_switch : sqrt (73 / 2) <= Q2R (60416 # 10000).
Proof.
  assert (H : 60416 / 10000 * (60416 / 10000) >= 73 / 2) by lra. replace (Q2R (60416 # 10000)) with (60416 / 10000) by (unfold Q2R; cbn; lra).
  rewrite <- (sqrt_square (60416 / 10000)) by lra. apply sqrt_le_1; lra.
Qed.
(** The bound, and the table check. *)
Definition rel_bound (n : nat) : Q :=
  Qred (tail_coef n * ((14070 # 100000000000000000000) * ((60416 # 10000) * qpw (73 # 2) n)) / this (nth n longfac 0%Qc) + (2 * nq n + 2) * (1 # 10 ^ 17)).
Definition rel_check (n : nat) : bool := Qle_bool (rel_bound n * (1 + (1 # 10 ^ 15)) + (1 # 10 ^ 15)) (long_rel n).
Lemma rel_checked : forallb rel_check (seq 0 32) = true.
Proof. vm_compute. reflexivity. Qed.
Lemma lform_relative n x : (n <= 31)%nat -> 73 / 2 <= x -> Rabs (lform n x - boysR n x) <= Q2R (rel_bound n) * lform n x.
Proof.
  intros N X. eapply Rle_trans; [apply lform_error; assumption|]. pose proof (lform_pos n x N ltac:(lra)) as LP. pose proof (lfac_pos n N) as FP.
  assert (FZ : ~ (this (nth n longfac 0%Qc) == 0)%Q).
  { intros E. unfold lfac in FP. apply Qeq_eqR in E. rewrite E, q2r_0 in FP. lra. }
  unfold rel_bound. rewrite (Qeq_eqR _ _ (Qred_correct _)), Q2R_plus, Q2R_div, !Q2R_mult, qpw_ok, Q2R_plus, Q2R_mult, q2r_nq by exact FZ.
  replace (Q2R 2) with 2 by (unfold Q2R; cbn; lra). replace (Q2R (1 # 10 ^ 17)) with e17 by (unfold e17, Q2R; cbn [Qnum Qden]; rewrite Rmult_1_l, pow_IZR; reflexivity).
  replace (Q2R (73 # 2)) with (73 / 2) by (unfold Q2R; cbn; lra). fold (lfac n).
  match goal with |- _ <= (?a + ?b) * ?c => replace ((a + b) * c) with (a * c + b * c) by ring end. apply Rplus_le_compat_r.
  assert (S0 : 0 < sqrt x) by (apply sqrt_lt_R0; lra). assert (P0 : 0 < x ^ n) by (apply pow_lt; lra).
  assert (A0 : 0 <= Q2R (tail_coef n)) by (rewrite <- q2r_0; apply Qle_Rle; clear; induction n as [|n IH]; [discriminate|]; cbn [tail_coef]; apply Qmult_le_0_compat; [|discriminate]; assert (0 <= nq n)%Q by (unfold nq; change 0%Q with (inject_Z 0); rewrite <- Zle_Qle; lia); nra).
  replace (exp (- x)) with (exp (- x) * (sqrt x * x ^ n) / lfac n * lform n x) by (unfold lform; field; repeat split; lra).
  set (c := exp (- x) * (sqrt x * x ^ n)) in *.
  assert (C : c <= Q2R (14070 # 100000000000000000000) * (Q2R (60416 # 10000) * (73 / 2) ^ n)).
  { eapply Rle_trans; [apply (falls n x N X)|]. apply Rmult_le_compat; [left; apply exp_pos| |apply exp_switch|].
    - apply Rmult_le_pos; [apply sqrt_pos|apply pow_le; lra].
    - apply Rmult_le_compat_r; [apply pow_le; lra|apply sqrt_switch]. }
  unfold Rdiv. rewrite <- !Rmult_assoc. apply Rmult_le_compat_r; [lra|]. apply Rmult_le_compat_r; [left; apply Rinv_0_lt_compat, FP|].
  rewrite (Rmult_assoc (Q2R (tail_coef n))), (Rmult_assoc (Q2R (tail_coef n))). rewrite <- (Rmult_assoc (Q2R (14070 # _))) in C. apply Rmult_le_compat_l; [exact A0|].
  exact C.
Qed.

(** ** The value the code computes *)
Definition e15 : R := / 10 ^ 15.
Lemma q2r_e15 : Q2R (1 # 10 ^ 15) = e15.
Proof. unfold e15, Q2R. cbn [Qnum Qden]. rewrite Rmult_1_l, pow_IZR. reflexivity. Qed.
Lemma switch_real (x : Qc) : (MAXX <= x)%Qc -> 73 / 2 <= Q2R (this x).
Proof. intros H. apply Qle_Rle in H. replace (Q2R (this MAXX)) with (73 / 2) in H by (unfold Q2R; cbn; lra). exact H. Qed.
Lemma q2r_pow (x : Qc) n : Q2R (this (x ^ n)%Qc) = Q2R (this x) ^ n.
Proof.
  induction n as [|n IH]; [cbn; apply q2r_1|]. change (x ^ S n)%Qc with (x * x ^ n)%Qc. cbn [pow]. rewrite <- IH, <- Q2R_mult. apply Qeq_eqR. apply Qred_correct.
Qed.
Lemma q2r_mul (x y : Qc) : Q2R (this (x * y)%Qc) = Q2R (this x) * Q2R (this y).
Proof. rewrite <- Q2R_mult. apply Qeq_eqR. apply Qred_correct. Qed.
Lemma q2r_add (x y : Qc) : Q2R (this (x + y)%Qc) = Q2R (this x) + Q2R (this y).
Proof. rewrite <- Q2R_plus. apply Qeq_eqR. apply Qred_correct. Qed.
Lemma q2r_inv (x : Qc) : x <> 0%Qc -> Q2R (this (1 / x)%Qc) = / Q2R (this x).
Proof.
  intros H. assert (N : ~ (this x == 0)%Q) by (intros E; apply H, Qc_is_canon; exact E).
  rewrite <- Q2R_inv by exact N. apply Qeq_eqR. change (Qred (1 * Qred (/ this x)) == / this x)%Q. rewrite !Qred_correct. apply Qmult_1_l.
Qed.
(** The library square root, where the code calls it: relative error at most 10^-15. *)
Definition sqrt_good (qsqrt : Qc -> Qc) (x : Qc) : Prop :=
  Rabs (sqrt (/ Q2R (this x)) - Q2R (this (qsqrt (1 / x)%Qc))) <= e15 * Q2R (this (qsqrt (1 / x)%Qc)).
Definition exp_good (qexp : Qc -> Qc) (x : Qc) : Prop :=
  Rabs (exp (- Q2R (this x)) - Q2R (this (qexp (- x)%Qc))) <= e15 * Q2R (this (qexp (- x)%Qc)).
Theorem long_value qsqrt x n v : (n <= 31)%nat -> (MAXX <= x)%Qc -> sqrt_good qsqrt x -> long_range qsqrt longfac x n v ->
  Rabs (boysR n (Q2R (this x)) - Q2R (this v)) <= Q2R (long_rel n) * Q2R (this v).
Proof.
  intros N X SG (f & Hf & ->). pose proof (switch_real x X) as XR. rewrite !q2r_mul, q2r_pow.
  assert (XN : x <> 0%Qc) by (intros ->; revert X; vm_compute; intros X; apply X; reflexivity).
  rewrite q2r_inv by exact XN. unfold sqrt_good in SG. rewrite <- (fac_nth _ _ Hf).
  set (y := Q2R (this x)) in *. clearbody y. set (q := Q2R (this (qsqrt (1 / x)%Qc))) in *. clearbody q.
  assert (Y0 : 0 < sqrt y) by (apply sqrt_lt_R0; lra). assert (P0 : 0 < y ^ n) by (apply pow_lt; lra).
  rewrite sqrt_inv in SG by lra. rewrite pow_inv. set (w := lfac n * (q * / y ^ n)).
  assert (W : Rabs (lform n y - w) <= e15 * w).
  { unfold w, lform. set (c := lfac n * / y ^ n). assert (C : 0 < c) by (apply Rmult_lt_0_compat; [apply lfac_pos, N|apply Rinv_0_lt_compat, P0]).
    replace (lfac n / (sqrt y * y ^ n)) with (/ sqrt y * c) by (unfold c; field; lra). replace (lfac n * (q * / y ^ n)) with (q * c) by (unfold c; ring).
    apply abs_both in SG. apply Rabs_le. nra. }
  pose proof (lform_relative n y N XR) as LR. pose proof (lform_pos n y N ltac:(lra)) as LP.
  pose proof (proj1 (forallb_forall _ _) rel_checked n ltac:(apply in_seq; lia)) as CK. unfold rel_check in CK. apply Qle_bool_iff in CK. apply Qle_Rle in CK.
  rewrite Q2R_plus, Q2R_mult, Q2R_plus, q2r_1, q2r_e15 in CK.
  assert (R0 : 0 <= Q2R (rel_bound n)).
  { destruct (Rle_dec 0 (Q2R (rel_bound n))) as [H|H]; [exact H|]. exfalso. pose proof (Rabs_pos (lform n y - boysR n y)). nra. }
  set (r := Q2R (rel_bound n)) in *. clearbody r. set (t := Q2R (long_rel n)) in *. clearbody t.
  assert (E : 0 < e15 <= 1 / 1000) by (unfold e15; cbn [pow]; lra). clearbody w. apply abs_both in W. apply abs_both in LR.
  assert (W0 : 0 < w) by nra.
  assert (H1 : r * lform n y <= r * (w * (1 + e15))) by (apply Rmult_le_compat_l; lra).
  assert (H2 : (r * (1 + e15) + e15) * w <= t * w) by (apply Rmult_le_compat_r; lra).
  apply Rabs_le. nra.
Qed.
Lemma recursion_real qexp (x : Qc) n B e : 0 <= e -> (0 <= x)%Qc -> boys_recursion qexp x n B ->
  Rabs (boysR n (Q2R (this x)) - Q2R (this (B n))) <= e * Q2R (this (B n)) ->
  Rabs (exp (- Q2R (this x)) - Q2R (this (qexp (- x)%Qc))) <= e * Q2R (this (qexp (- x)%Qc)) ->
  forall k, (k <= n)%nat -> Rabs (boysR k (Q2R (this x)) - Q2R (this (B k))) <= e * Q2R (this (B k)).
Proof.
  intros E0 X0 REC TOP EX. apply Qle_Rle in X0. change (this 0%Qc) with 0%Q in X0. rewrite q2r_0 in X0.
  assert (G : forall m k, (n - k = m)%nat -> (k <= n)%nat -> Rabs (boysR k (Q2R (this x)) - Q2R (this (B k))) <= e * Q2R (this (B k))).
  { induction m as [|m IH]; intros k M K.
    - replace k with n by lia. exact TOP.
    - specialize (IH (S k) ltac:(lia) ltac:(lia)). pose proof (REC k ltac:(lia)) as RQ.
      assert (RR : (2 * INR k + 1) * Q2R (this (B k)) = 2 * Q2R (this x) * Q2R (this (B (S k))) + Q2R (this (qexp (- x)%Qc))).
      { replace ((2 * INR k + 1) * Q2R (this (B k))) with (Q2R (this ((Q2Qc 2 * qn k + 1) * B k)%Qc)).
        - rewrite RQ. rewrite q2r_add, !q2r_mul. f_equal. f_equal. f_equal. unfold Q2R. cbn. lra.
        - rewrite q2r_mul. f_equal. rewrite q2r_add, q2r_mul. f_equal; [f_equal|].
          + unfold Q2R. cbn. lra.
          + rewrite <- q2r_nq. apply Qeq_eqR. unfold qn, qz. apply Qred_correct.
          + apply q2r_1. }
      pose proof (boys_by_parts k (Q2R (this x))) as BP. pose proof (pos_INR k) as KP.
      set (y := Q2R (this x)) in *. set (b := Q2R (this (B k))) in *. set (b1 := Q2R (this (B (S k)))) in *. set (ex := Q2R (this (qexp (- x)%Qc))) in *.
      set (f := boysR k y) in *. set (f1 := boysR (S k) y) in *. clearbody y b b1 ex f f1. set (c := 2 * INR k + 1) in *. assert (C : 0 < c) by (unfold c; lra).
      clearbody c. apply abs_both in IH. apply abs_both in EX. 
      assert (H : c * (f - b) = 2 * y * (f1 - b1) + (exp (- y) - ex)) by lra.
      assert (Y1 : Rabs (2 * y * (f1 - b1)) <= 2 * y * (e * b1)) by (rewrite Rabs_mult, (Rabs_right (2 * y)) by lra; apply Rmult_le_compat_l; [lra|apply Rabs_le, IH]).
      apply abs_both in Y1. assert (Hc : Rabs (c * (f - b)) <= c * (e * b)).
      { rewrite H. replace (c * (e * b)) with (2 * y * (e * b1) + e * ex) by (transitivity (e * (2 * y * b1 + ex)); [ring|rewrite <- RR; ring]). apply Rabs_le. lra. }
      rewrite Rabs_mult, (Rabs_right c) in Hc by lra. apply Rmult_le_reg_l in Hc; assumption. }
  intros k K. apply (G (n - k)%nat); auto.
Qed.
Lemma long_rel_e15 n : (n <= 31)%nat -> e15 <= Q2R (long_rel n).
Proof.
  intros N. rewrite <- q2r_e15. apply Qle_Rle. assert (A : forallb (fun n => Qle_bool (1 # 10 ^ 15) (long_rel n)) (seq 0 32) = true) by (vm_compute; reflexivity).
  apply Qle_bool_iff. exact (proj1 (forallb_forall _ _) A n ltac:(apply in_seq; lia)).
Qed.
Lemma q2r_scale q : Q2R (1 / inject_Z (10 ^ 15) * q) = e15 * Q2R q.
Proof. rewrite Q2R_mult. f_equal. rewrite <- q2r_e15. apply Qeq_eqR. reflexivity. Qed.

(** boys_F_split against the integral, all lanes: below the switch-over point every order is within 10^-15; from it
    on, orders of a class with maximum order below 4 are within their own bound and all others within that of the
    maximum order. *)
Theorem split_real len zf novec qsqrt qexp qpow xs n F :
  (0 < len)%nat -> (forall v, (v < len)%nat -> (0 <= xs v)%Qc) -> (n <= 31)%nat ->
  (forall v, (v < len)%nat -> (xs v < MAXX)%Qc -> (n <= 24)%nat) ->
  ((n + 1) * len <= length F)%nat ->
  (forall v, (v < len)%nat -> (MAXX <= xs v)%Qc -> sqrt_good qsqrt (xs v) /\ ((4 <= n)%nat -> pow_sqrt_ok qsqrt qpow (xs v) n)) ->
  ((4 <= n)%nat -> forall v, (v < len)%nat -> exp_good qexp (xs v) /\ 0 <= Q2R (this (qexp (- xs v)%Qc))) ->
  exists F', split len zf novec qsqrt qexp qpow shortgrid longfac xs n F = Some F' /\ length F' = length F /\
    forall v k, (v < len)%nat -> (k <= n)%nat -> exists b, nth_error F' (v + k * len) = Some b /\
      ((xs v < MAXX)%Qc -> Rabs (boysR k (Q2R (this (xs v))) - Q2R (this b)) <= e15 * Q2R (this b)) /\
      ((MAXX <= xs v)%Qc -> Rabs (boysR k (Q2R (this (xs v))) - Q2R (this b)) <= Q2R (long_rel (if n <? 4 then k else n)%nat) * Q2R (this b)).
Proof.
  intros LEN POS N31 N24 L SQ EX.
  destruct (@split_ok len zf novec qsqrt qexp qpow shortgrid longfac LEN shortgrid_ok longfac_length xs n POS
    N24 N31 F L (fun N4 v Hv Hx => proj2 (SQ v Hv Hx) N4)) as (F' & S1 & L1 & _ & V).
  exists F'. split; [exact S1|]. split; [exact L1|]. intros v k Hv K.
  destruct (V v Hv) as (B & V1 & V2 & V3 & V4). exists (B k). split; [apply V1, K|].
  assert (XP : (0 <= this (xs v))%Q) by (apply POS, Hv).
  assert (E0 : 0 < e15) by (unfold e15; cbn [pow]; lra).
  split; intros X; destruct (Nat.ltb_spec n 4) as [C|C].
  - destruct (V3 C k K) as [V5 _]. destruct (expansion_accurate (V5 X) ltac:(lia)) as [P NB].
    apply near_boys_real in NB; [|exact XP]. rewrite q2r_scale in NB. exact NB.
  - destruct V2 as [V5 _]. destruct (expansion_accurate (V5 X) (N24 v Hv X)) as [P NB]. apply near_boys_real in NB; [|exact XP]. rewrite q2r_scale in NB.
    destruct (EX C v Hv) as [EG _]. apply (recursion_real qexp (xs v) n B e15); auto; lra.
  - destruct (V3 C k K) as [_ V5]. apply (long_value qsqrt); [lia|exact X|apply (SQ v Hv X)|exact (V5 X)].
  - destruct V2 as [_ V5]. pose proof (long_rel_e15 n N31) as LE. destruct (EX C v Hv) as [EG EP].
    apply (recursion_real qexp (xs v) n B (Q2R (long_rel n))); auto; [lra| |].
    + apply (long_value qsqrt); [lia|exact X|apply (SQ v Hv X)|exact (V5 X)].
    + unfold exp_good in EG. apply abs_both in EG. apply Rabs_le. nra.
Qed.

(** ** The cases of BoysLong.v *)
Lemma entry_real i row n v : nth_error shortgrid i = Some row -> nth_error row n = Some v ->
  Rabs (boysR n (INR i / 10) - Q2R (this v)) <= Q2R (this v) / (2 * 10 ^ 17).
Proof.
  intros Hi Hn. destruct (@entry_value i row n v Hi Hn) as [_ NB]. apply near_boys_real in NB.
  - rewrite !Q2R_div, !q2r_nq in NB by (apply Qeq_bool_neq; reflexivity). rewrite q2r_z in NB. replace (INR 10) with 10 in NB by (rewrite INR_IZR_INZ; reflexivity).
    replace (2 * 10 ^ 17) with (IZR RE); [exact NB|]. unfold RE. rewrite mult_IZR, pow_IZR. reflexivity.
  - apply Qle_shift_div_l; [reflexivity|]. rewrite Qmult_0_l. unfold nq. change 0%Q with (inject_Z 0). rewrite <- Zle_Qle. lia.
Qed.
Lemma lx_real : Q2R (this lx) = 14641 / 400.
Proof. unfold Q2R. cbn. lra. Qed.
Lemma wrong_real n r : In (n, r) bad_list -> exists F v w, l_split n = Some F /\ nth_error F n = Some v /\ nth_error F 0 = Some w /\
  Rabs (boysR n (14641 / 400) - Q2R (this v)) >= Q2R (this v) / IZR r /\ Rabs (boysR 0 (14641 / 400) - Q2R (this w)) >= Q2R (this w) / IZR r.
Proof.
  intros H. destruct (@long_range_wrong n r H) as (F & v & w & S1 & Ev & Ew & N1 & N2). exists F, v, w. rewrite <- lx_real.
  assert (RZ : ~ (inject_Z r == 0)%Q). { cbn in H. intros E. destruct H as [H|[H|[H|[]]]]; injection H as <- <-; discriminate. }
  assert (DV : forall q, Q2R (q / inject_Z r) = Q2R q / IZR r) by (intros q; rewrite Q2R_div, q2r_z by exact RZ; reflexivity).
  refine (conj S1 (conj Ev (conj Ew (conj _ _)))); apply Rnot_lt_ge; intros C; [apply N1|apply N2]; apply real_near_boys; try discriminate; rewrite DV; exact C.
Qed.
Lemma l_sqrt_good : sqrt_good l_sqrt lx.
Proof.
  unfold sqrt_good. replace (Q2R (this (l_sqrt (1 / lx)%Qc))) with (20 / 121).
  - rewrite lx_real. replace (sqrt (/ (14641 / 400))) with (20 / 121) by (symmetry; apply sqrt_lem_1; lra). rewrite Rminus_diag_eq, Rabs_R0 by reflexivity.
    unfold e15. cbn [pow]. lra.
  - replace (this (l_sqrt (1 / lx)%Qc)) with (20 # 121)%Q by (vm_compute; reflexivity). unfold Q2R. cbn. lra.
Qed.
Lemma near_exp_good qexp x : (0 <= x)%Qc -> near_exp (this x) (this (qexp (- x)%Qc)) (1 / inject_Z (10 ^ 15) * this (qexp (- x)%Qc)) -> exp_good qexp x.
Proof. intros X H. apply near_exp_real in H; [|exact X]. rewrite q2r_scale in H. exact H. Qed.
Lemma m_exp_lx : m_exp (- lx)%Qc = l_exp (- lx)%Qc.
Proof. unfold m_exp. destruct (Qc_eq_dec (- lx) (- m_x))%Qc as [E|_]; [|reflexivity]. exfalso. revert E. vm_compute. discriminate. Qed.
(** Two lanes, one on each side of the switch-over point, maximum order 6. *)
Lemma m_real : (forall v, (v < 2)%nat -> (0 <= m_xs v)%Qc) /\
  (forall v, (v < 2)%nat -> (MAXX <= m_xs v)%Qc -> sqrt_good l_sqrt (m_xs v) /\ pow_sqrt_ok l_sqrt l_pow (m_xs v) 6) /\
  (forall v, (v < 2)%nat -> exp_good m_exp (m_xs v) /\ 0 <= Q2R (this (m_exp (- m_xs v)%Qc))) /\
  (m_xs 0 < MAXX)%Qc /\ (MAXX <= m_xs 1)%Qc.
Proof.
  destruct (@m_hyps 6 ltac:(cbn; auto)) as (A & B & C & D & E1 & E2).
  refine (conj A (conj _ (conj _ (conj C D)))).
  - intros v Hv HM. split; [|apply B; assumption]. destruct v as [|v]; [exfalso; exact (Qclt_not_le _ _ C HM)|]. exact l_sqrt_good.
  - assert (LP : forall q, (0 < q)%Q -> 0 <= Q2R q) by (intros q Hq; rewrite <- q2r_0; apply Qle_Rle, Qlt_le_weak, Hq).
    intros v Hv. split.
    + apply near_exp_good; [apply A, Hv|]. destruct v as [|v]; [exact E2|]. cbn [m_xs]. rewrite m_exp_lx. exact (proj2 l_exp_ok).
    + apply LP. destruct v as [|v]; [exact E1|]. cbn [m_xs]. rewrite m_exp_lx. exact (proj1 l_exp_ok).
Qed.
