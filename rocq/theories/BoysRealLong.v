(** The long-range formula of the Boys function (boys_long.h) against the integral, for every argument. *)
From Coq Require Import List Arith ZArith QArith Qabs Qcanon Reals Qreals Lra Lia Psatz.
Import ListNotations.
From Verif Require Import Base Boys BoysProof BoysSeries BoysData BoysAccuracy BoysLong Constants ConstantsProof BoysReal.
Local Open Scope R_scope.

(** Relative error of orders evaluated by the long-range formula from 36.5 on, three digits, rounded up. *)
Definition long_rel (n : nat) : Q := nth n
  [104#10^17; 202#10^17; 265#10^16; 370#10^15; 395#10^14; 330#10^13; 226#10^12; 131#10^11; 657#10^11; 292#10^10; 116#10^9;
   418#10^9; 138#10^8; 417#10^8; 118#10^7; 308#10^7; 756#10^7; 175#10^6; 382#10^6; 789#10^6; 156#10^5; 291#10^5; 522#10^5;
   896#10^5; 148#10^4; 235#10^4; 359#10^4; 529#10^4; 756#10^4; 105#10^3; 141#10^3; 184#10^3]%Q 1%Q.
(** The coefficient of exp(-x) in the error. *)
Fixpoint tail_coef (n : nat) : Q := match n with 0%nat => 1 # 73 | S k => ((2 * nq k + 1) * tail_coef k + 1) * (1 # 73) end.

(** ** F_0 *)
Definition gau (s : R) : R := exp (- (s * s)).
Lemma gau_der s : derivable_pt_lim gau s (gau s * (- (1 * s + s * 1))).
Proof.
  unfold gau. apply (derivable_pt_lim_comp (fun s => - (s * s)) exp); [|apply derivable_pt_lim_exp].
  apply (derivable_pt_lim_opp (fun s => s * s)). apply (derivable_pt_lim_mult id id); apply derivable_pt_lim_id.
Qed.
Lemma gau_cont s : continuity_pt gau s.
Proof. apply derivable_continuous_pt. eexists. apply gau_der. Qed.
Lemma boys0_scaled a b P : 0 < a <= b -> (forall s, 0 <= s <= b -> derivable_pt_lim P s (gau s)) -> a * boysR 0 (a * a) = P a - P 0.
Proof.
  intros Ha HP. destruct (boysR_prim 0 (a * a)) as (Q & HQ & EQ). rewrite <- EQ.
  assert (B := prim_bound (fun t => a * boys_fun 0 (a * a) t) (fun t => gau (a * t) * a) (fun _ => 0) (fun t => a * Q t) (fun t => P (a * t)) (fun _ => 0) 0 1 ltac:(lra)).
  cbn beta in B. rewrite Rmult_1_r, Rmult_0_r in B. assert (Z : Rabs (a * Q 1 - a * Q 0 - (P a - P 0)) <= 0 - 0); [|apply abs_both in Z; lra].
  apply B; clear B.
  - intros t Ht. apply (derivable_pt_lim_scal Q). apply HQ, Ht.
  - intros t Ht. apply (derivable_pt_lim_comp (fun t => a * t) P).
    + pose proof (derivable_pt_lim_scal id a t 1 (derivable_pt_lim_id t)) as D. rewrite Rmult_1_r in D. exact D.
    + apply HP. nra.
  - intros t _. apply derivable_pt_lim_const.
  - intros t _. unfold boys_fun, gau. change (2 * 0)%nat with 0%nat. cbn [pow]. replace (- (a * a * (t * t))) with (- (a * t * (a * t))) by ring.
    rewrite Rminus_diag_eq by ring. rewrite Rabs_R0. lra.
Qed.
Lemma tail_der s : 0 < s -> derivable_pt_lim (fun s => - (gau s * / (2 * s))) s (gau s * (1 + / (2 * (s * s)))).
Proof.
  intros Hs. assert (D : derivable_pt_lim (fun s => 2 * s) s (2 * 1)) by (apply (derivable_pt_lim_scal id); apply derivable_pt_lim_id).
  pose proof (derivable_pt_lim_opp _ _ _ (derivable_pt_lim_div gau (fun s => 2 * s) s _ _ (gau_der s) D ltac:(lra))) as M. cbn beta in M.
  match type of M with derivable_pt_lim _ _ ?a => replace (gau s * (1 + / (2 * (s * s)))) with a; [exact M|] end.
  unfold Rsqr. field. lra.
Qed.
Lemma boys0_between x y : 0 < x -> x <= y ->
  0 <= sqrt y * boysR 0 y - sqrt x * boysR 0 x <= exp (- x) / (2 * sqrt x).
Proof.
  intros Hx Hy. set (a := sqrt x). set (b := sqrt y). assert (Ha : 0 < a) by (apply sqrt_lt_R0, Hx). assert (Hab : a <= b) by (apply sqrt_le_1; lra).
  destruct (prim_of gau 0 b ltac:(lra) (fun t _ => gau_cont t) (@continuity_implies_RiemannInt gau 0 b ltac:(lra) (fun t _ => gau_cont t))) as (P & HP & _).
  assert (Eb : b * boysR 0 y = P b - P 0) by (rewrite <- (boys0_scaled b b P ltac:(lra) HP); do 2 f_equal; symmetry; apply sqrt_sqrt; lra).
  assert (Ea : a * boysR 0 x = P a - P 0) by (rewrite <- (boys0_scaled a b P ltac:(lra) HP); do 2 f_equal; symmetry; apply sqrt_sqrt; lra).
  rewrite Eb, Ea. replace (P b - P 0 - (P a - P 0)) with (P b - P a) by ring.
  replace (exp (- x)) with (gau a) by (unfold gau; f_equal; f_equal; apply sqrt_sqrt; lra). split.
  - destruct Hab as [Hab|<-]; [|lra]. destruct (MVT_cor2 P gau a b Hab ltac:(intros c Hc; apply HP; lra)) as (c & E & Hc). rewrite E. unfold gau.
    pose proof (exp_pos (- (c * c))). nra.
  - assert (B := prim_bound gau (fun _ => 0) (fun s => gau s * (1 + / (2 * (s * s)))) P (fun _ => 0) (fun s => - (gau s * / (2 * s))) a b Hab
      ltac:(intros t Ht; apply HP; lra) ltac:(intros; apply derivable_pt_lim_const) ltac:(intros t Ht; apply tail_der; lra)).
    cbn beta in B. assert (G : 0 < gau b) by apply exp_pos. assert (I : 0 < / (2 * b)) by (apply Rinv_0_lt_compat; lra).
    assert (Rabs (P b - P a - (0 - 0)) <= - (gau b * / (2 * b)) - - (gau a * / (2 * a))).
    { apply B. intros t Ht. rewrite Rminus_0_r. rewrite Rabs_right by (apply Rle_ge, Rlt_le, exp_pos). assert (0 < gau t) by apply exp_pos.
      assert (0 < / (2 * (t * t))) by (apply Rinv_0_lt_compat; nra). nra. }
    pose proof (Rmult_lt_0_compat _ _ G I). apply abs_both in H. unfold Rdiv. lra.
Qed.

(** ** Numbers *)
Lemma exp_top K y : 0 <= y -> exp (- y) <= rsums (rterm y) K + Rabs (rterm y K).
Proof.
  intros Hy. pose proof (exp_rest K y Hy) as H. rewrite rterm_pow. unfold Rdiv. rewrite Rabs_mult, <- RPow_abs, Rabs_Ropp, (Rabs_right y) by lra.
  rewrite (Rabs_right (/ _)) by (left; apply Rinv_0_lt_compat, INR_fact_lt_0). apply abs_both in H. unfold Rdiv in H. lra.
Qed.
Lemma exp_half : exp (- (1 / 2)) <= Q2R (60653066 # 100000000).
Proof.
  eapply Rle_trans; [apply (exp_top 11); lra|]. cbn [rsums rterm]. cbn [INR]. unfold Q2R. cbn [Qnum Qden]. rewrite Rabs_left by lra. lra.
Qed.
Lemma exp_neg_mult k y : exp (- (INR k * y)) = exp (- y) ^ k.
Proof.
  induction k as [|k IH]; [cbn; rewrite Rmult_0_l, Ropp_0; apply exp_0|]. rewrite S_INR. replace (- ((INR k + 1) * y)) with (- y + - (INR k * y)) by ring.
  rewrite exp_plus, IH. reflexivity.
Qed.
Lemma exp_halves k (q : Q) : (qpw (60653066 # 100000000) k <= q)%Q -> exp (- (INR k * (1 / 2))) <= Q2R q.
Proof.
  intros H. rewrite exp_neg_mult. apply Qle_Rle in H. rewrite qpw_ok in H. eapply Rle_trans; [|exact H]. apply pow_incr. split; [apply Rlt_le, exp_pos|apply exp_half].
Qed.
Lemma exp_switch : exp (- (73 / 2)) <= Q2R (14070 # 100000000000000000000).
Proof. replace (73 / 2) with (INR 73 * (1 / 2)) by (rewrite INR_IZR_INZ; cbn; lra). apply exp_halves. apply Qle_bool_iff. vm_compute. reflexivity. Qed.
Lemma exp_far : exp (- (169 / 4)) <= Q2R (1 # 1000000000000000000).
Proof.
  apply (Rle_trans _ (exp (- (INR 84 * (1 / 2))))).
  - destruct (Req_dec (169/4) (INR 84 * (1/2))) as [->|N]; [lra|]. apply Rlt_le, exp_increasing. rewrite INR_IZR_INZ. cbn. lra.
  - apply exp_halves. apply Qle_bool_iff. vm_compute. reflexivity.
Qed.

(** ** The factors *)
Definition lfac (n : nat) : R := Q2R (this (nth n longfac 0%Qc)).
Definition e17 : R := / 10 ^ 17.
Lemma fac_nth n f : nth_error longfac n = Some f -> lfac n = Q2R (this f).
Proof. intros H. unfold lfac. rewrite (nth_error_nth _ _ _ H). reflexivity. Qed.
Lemma q2r_e17 q : Q2R (q / inject_Z (10 ^ 17)) = Q2R q * e17.
Proof.
  rewrite Q2R_div by (apply Qeq_bool_neq; reflexivity). rewrite q2r_z. unfold Rdiv, e17. f_equal. f_equal. rewrite pow_IZR. reflexivity.
Qed.
Lemma lfac_next n : (n < 31)%nat -> 1 / 4 <= lfac (S n) /\ Rabs (lfac (S n) - (2 * INR n + 1) / 2 * lfac n) <= lfac (S n) * e17.
Proof.
  intros H. destruct (proj1 factors_ok n H) as (a & b & Ea & Eb & L & B). rewrite (fac_nth _ _ Ea), (fac_nth _ _ Eb). split.
  - apply Qle_Rle in L. replace (Q2R (1 # 4)) with (1 / 4) in L by (unfold Q2R; cbn; lra). exact L.
  - apply q2r_abs_le in B. rewrite q2r_e17, Q2R_minus, Q2R_mult, Q2R_div, Q2R_plus, Q2R_mult, q2r_nq in B by (unfold Qeq; cbn; lia).
    replace (Q2R 2) with 2 in B by (unfold Q2R; cbn; lra). replace (Q2R 1) with 1 in B by (unfold Q2R; cbn; lra). exact B.
Qed.
Lemma lfac_first : Rabs (13 / 2 * boysR 0 (169 / 4) - lfac 0) <= lfac 0 * e17.
Proof.
  destruct (proj2 factors_ok) as (f & Ef & N). cbv zeta in N. apply near_boys_real in N; [|discriminate]. rewrite q2r_e17, Q2R_mult, <- (fac_nth _ _ Ef) in N.
  replace (Q2R (169 # 4)) with (169 / 4) in N by (unfold Q2R; cbn; lra). replace (Q2R (2 / 13)) with (2 / 13) in N by (unfold Q2R; cbn; lra).
  apply abs_both in N. apply Rabs_le. lra.
Qed.
Lemma lfac0 : 8 / 10 <= lfac 0.
Proof. unfold lfac. replace (8 / 10) with (Q2R (8 # 10)) by (unfold Q2R; cbn; lra). apply Qle_Rle. apply Qle_bool_iff. vm_compute. reflexivity. Qed.
Lemma lfac_pos n : (n <= 31)%nat -> 0 < lfac n.
Proof. destruct n as [|n]; intros H; [pose proof lfac0; lra|]. destruct (lfac_next n ltac:(lia)). lra. Qed.

(** ** The formula in exact arithmetic *)
Definition lform (n : nat) (x : R) : R := lfac n / (sqrt x * x ^ n).
Lemma lform_pos n x : (n <= 31)%nat -> 0 < x -> 0 < lform n x.
Proof. intros N X. apply Rdiv_lt_0_compat; [apply lfac_pos, N|]. apply Rmult_lt_0_compat; [apply sqrt_lt_R0, X|apply pow_lt, X]. Qed.
Lemma e17_small : 0 < e17 /\ 64 * e17 <= 1 / 1000.
Proof. unfold e17. cbn [pow]. lra. Qed.
Lemma lform_next n x : (n < 31)%nat -> 0 < x ->
  Rabs (lform (S n) x - (2 * INR n + 1) * / (2 * x) * lform n x) <= lform (S n) x * e17.
Proof.
  intros N X. destruct (lfac_next n N) as [_ B]. assert (S0 : 0 < sqrt x) by (apply sqrt_lt_R0, X). assert (P0 : 0 < x ^ n) by (apply pow_lt, X).
  set (c := / (sqrt x * x ^ S n)). assert (C : 0 < c) by (apply Rinv_0_lt_compat; cbn [pow]; apply Rmult_lt_0_compat; [exact S0|apply Rmult_lt_0_compat; assumption]).
  replace (lform (S n) x) with (lfac (S n) * c) by reflexivity.
  replace ((2 * INR n + 1) * / (2 * x) * lform n x) with ((2 * INR n + 1) / 2 * lfac n * c) by (unfold c, lform; cbn [pow]; field; lra).
  apply abs_both in B. apply Rabs_le. nra.
Qed.
Lemma lform_error n x : (n <= 31)%nat -> 73 / 2 <= x ->
  Rabs (lform n x - boysR n x) <= Q2R (tail_coef n) * exp (- x) + (2 * INR n + 2) * e17 * lform n x.
Proof.
  intros N X. assert (S0 : 0 < sqrt x) by (apply sqrt_lt_R0; lra). assert (SX : sqrt x * sqrt x = x) by (apply sqrt_sqrt; lra).
  destruct e17_small as [E0 E1]. assert (EX : 0 < exp (- x)) by apply exp_pos.
  assert (I : 0 < / (2 * x) <= 1 / 73).
  { split; [apply Rinv_0_lt_compat; lra|]. replace (1 / 73) with (/ 73) by lra. apply Rinv_le_contravar; lra. }
  induction n as [|n IH].
  - pose proof lfac0 as L0. pose proof lfac_first as LF. apply abs_both in LF.
    assert (S13 : sqrt (169 / 4) = 13 / 2) by (apply sqrt_lem_1; lra).
    assert (A : Rabs (lfac 0 - sqrt x * boysR 0 x) <= exp (- x) / (2 * sqrt x) + 2 * e17 * lfac 0).
    { assert (T : 0 < exp (- x) / (2 * sqrt x)) by (apply Rdiv_lt_0_compat; lra). assert (LE : 0 < e17 * lfac 0) by nra.
      destruct (Rle_dec x (169 / 4)) as [C|C].
      - pose proof (boys0_between x (169 / 4) ltac:(lra) C) as B. rewrite S13 in B. apply Rabs_le. lra.
      - pose proof (boys0_between (169 / 4) x ltac:(lra) ltac:(lra)) as B. rewrite S13 in B. pose proof exp_far as EF.
        assert (F : exp (- (169 / 4)) / (2 * (13 / 2)) <= e17 * lfac 0).
        { assert (Q2R (1 # 1000000000000000000) <= e17 / 10) by (unfold Q2R, e17; cbn [Qnum Qden pow]; lra). nra. }
        apply Rabs_le. lra. }
    unfold lform. cbn [INR pow tail_coef]. rewrite Rmult_1_r.
    replace (lfac 0 / sqrt x - boysR 0 x) with ((lfac 0 - sqrt x * boysR 0 x) * / sqrt x) by (field; lra).
    rewrite Rabs_mult, (Rabs_right (/ sqrt x)) by (left; apply Rinv_0_lt_compat, S0).
    assert (IS : 0 < / sqrt x) by (apply Rinv_0_lt_compat, S0).
    apply (Rle_trans _ ((exp (- x) / (2 * sqrt x) + 2 * e17 * lfac 0) * / sqrt x)); [apply Rmult_le_compat_r; lra|].
    replace ((exp (- x) / (2 * sqrt x) + 2 * e17 * lfac 0) * / sqrt x) with (exp (- x) * / (2 * (sqrt x * sqrt x)) + 2 * e17 * (lfac 0 / sqrt x)) by (field; lra).
    rewrite SX. replace (Q2R (1 # 73)) with (1 / 73) by (unfold Q2R; cbn; lra).
    assert (exp (- x) * / (2 * x) <= 1 / 73 * exp (- x)) by nra. lra.
  - specialize (IH ltac:(lia)). pose proof (lform_next n x ltac:(lia) ltac:(lra)) as LN. pose proof (boys_by_parts n x) as BP.
    pose proof (lform_pos n x ltac:(lia) ltac:(lra)) as P0. pose proof (lform_pos (S n) x ltac:(lia) ltac:(lra)) as P1.
    cbn [tail_coef]. rewrite Q2R_mult, Q2R_plus, Q2R_mult, Q2R_plus, Q2R_mult, q2r_nq, q2r_1, S_INR.
    replace (Q2R 2) with 2 by (unfold Q2R; cbn; lra). replace (Q2R (1 # 73)) with (1 / 73) by (unfold Q2R; cbn; lra).
    assert (N0 : 0 <= INR n) by apply pos_INR. assert (N1 : INR n <= 31) by (replace 31 with (INR 31) by (rewrite INR_IZR_INZ; reflexivity); apply le_INR; lia).
    set (a := Q2R (tail_coef n)) in *. set (i := / (2 * x)) in *. set (m := 2 * INR n + 1) in *. set (ex := exp (- x)) in *.
    set (l0 := lform n x) in *. set (l1 := lform (S n) x) in *.
    assert (A0 : 0 <= a) by (unfold a; replace 0 with (Q2R 0) by apply q2r_0; apply Qle_Rle; clear; induction n as [|n IH]; [discriminate|]; cbn [tail_coef]; apply Qmult_le_0_compat; [|discriminate]; assert (0 <= nq n)%Q by (unfold nq; change 0%Q with (inject_Z 0); rewrite <- Zle_Qle; lia); nra).
    assert (B1 : boysR (S n) x = (m * boysR n x - ex) * i) by (unfold i; rewrite BP; field; lra).
    rewrite B1. clear B1 BP.
    assert (M : 1 <= m <= 63) by (unfold m; lra).
    replace (2 * (INR n + 1) + 2) with (m + 3) by (unfold m; ring). replace (2 * INR n + 2) with (m + 1) in IH by (unfold m; ring).
    clearbody a i m ex l0 l1. set (b := boysR n x) in *. clearbody b.
    apply abs_both in IH. apply abs_both in LN.
    assert (H1 : Rabs ((l0 - b) * (m * i)) <= (a * ex + (m + 1) * e17 * l0) * (m * i)).
    { rewrite Rabs_mult, (Rabs_right (m * i)) by nra. apply Rmult_le_compat_r; [nra|]. apply Rabs_le. exact IH. }
    apply abs_both in H1.
    assert (H2 : m * i * l0 <= l1 * (1 + e17)) by lra.
    assert (H3 : (m + 1) * e17 * (m * i * l0) <= (m + 1) * e17 * (l1 * (1 + e17))) by (apply Rmult_le_compat_l; [nra|exact H2]).
    assert (H4 : (m + 1) * e17 * (l1 * (1 + e17)) <= (m + 2) * e17 * l1).
    { assert (0 < e17 * l1) by nra. assert ((m + 1) * e17 <= 1) by nra. nra. }
    assert (H5 : (a * ex * m + ex) * i <= (m * a + 1) * (1 / 73) * ex).
    { replace ((m * a + 1) * (1 / 73) * ex) with ((a * ex * m + ex) * (1 / 73)) by field. apply Rmult_le_compat_l; [|lra]. assert (0 <= a * ex) by nra. nra. }
    assert (H6 : 0 < ex * i) by nra.
    apply Rabs_le. nra.
Qed.
