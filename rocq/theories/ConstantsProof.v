(** Proofs about the constants, see [Constants]: pi to 67 decimals from Machin's series. *)
From Coq Require Import List Bool ZArith QArith Qcanon Reals Qreals Machin Lra Lia Psatz.
Import ListNotations.
From Verif Require Import Base BoysAccuracy Constants.
Local Open Scope R_scope.

Definition scale : Z := Eval vm_compute in (10 ^ 70)%Z.
(** One term of the arctangent series of [1/b], rounded down. *)
Definition zterm (b : Z) (n : nat) : Z := (scale / (b ^ (2 * Z.of_nat n + 1) * (2 * Z.of_nat n + 1)))%Z.
Fixpoint zsum (n : nat) : Z :=
  let t k := if Nat.even k then (2 * zterm 3 k + zterm 7 k)%Z else (- (2 * zterm 3 k + zterm 7 k))%Z in
  match n with 0%nat => t 0%nat | S k => (zsum k + t n)%Z end.
Lemma scale_pos : (0 < scale)%Z.
Proof. reflexivity. Qed.
Lemma zterm_ok b n : (1 < b)%Z -> 0 <= IZR scale * Ratan_seq (/ IZR b) n - IZR (zterm b n) <= 1.
Proof.
  intros Hb. unfold zterm. set (d := (b ^ (2 * Z.of_nat n + 1) * (2 * Z.of_nat n + 1))%Z).
  assert (Pb : (0 < b ^ (2 * Z.of_nat n + 1))%Z) by (apply Z.pow_pos_nonneg; lia).
  assert (Hd : (0 < d)%Z) by (unfold d; nia).
  assert (E : Ratan_seq (/ IZR b) n = / IZR d).
  { unfold Ratan_seq, d. rewrite mult_IZR. rewrite INR_IZR_INZ. rewrite Nat2Z.inj_add, Nat2Z.inj_mul. cbn [Z.of_nat Pos.of_succ_nat Pos.succ].
    replace ((2 * Z.of_nat n + 1))%Z with (Z.of_nat (2 * n + 1)) by lia. rewrite <- pow_IZR.
    assert (IZR b <> 0) by (apply not_0_IZR; lia). assert (IZR (Z.of_nat (2 * n + 1)) <> 0) by (apply not_0_IZR; lia).
    rewrite pow_inv. field. split; [assumption|]. apply pow_nonzero; assumption. }
  rewrite E. pose proof (Z.div_mod scale d ltac:(lia)) as D. pose proof (Z.mod_pos_bound scale d Hd) as M.
  assert (Rd : 0 < IZR d) by (apply (IZR_lt 0), Hd).
  assert (F : IZR scale * / IZR d - IZR (scale / d) = IZR (scale mod d) * / IZR d).
  { rewrite D at 1. rewrite plus_IZR, mult_IZR. field. lra. }
  rewrite F. assert (0 <= IZR (scale mod d)) by (apply (IZR_le 0); lia). assert (IZR (scale mod d) <= IZR d) by (apply IZR_le; lia).
  assert (0 < / IZR d) by (apply Rinv_0_lt_compat, Rd). split; [nra|].
  apply Rmult_le_reg_r with (IZR d); [exact Rd|]. rewrite Rmult_assoc, Rinv_l by lra. lra.
Qed.
Lemma abs_both x e : Rabs x <= e -> - e <= x <= e.
Proof. unfold Rabs. destruct (Rcase_abs x); lra. Qed.
Lemma even_sign k : (-1) ^ k = if Nat.even k then 1 else -1.
Proof.
  induction k as [|k IH]; [reflexivity|]. rewrite <- tech_pow_Rmult, IH, Nat.even_succ, <- Nat.negb_even. destruct (Nat.even k); cbn [negb]; ring.
Qed.
Lemma zsum_ok n : Rabs (IZR scale * sum_f_R0 (tg_alt PI_2_3_7_tg) n - IZR (zsum n)) <= 3 * INR (S n).
Proof.
  assert (T : forall k, Rabs (IZR scale * tg_alt PI_2_3_7_tg k - IZR (if Nat.even k then (2 * zterm 3 k + zterm 7 k)%Z else (- (2 * zterm 3 k + zterm 7 k))%Z)) <= 3).
  { intros k. unfold tg_alt, PI_2_3_7_tg. rewrite even_sign. pose proof (zterm_ok 3 k ltac:(lia)). pose proof (zterm_ok 7 k ltac:(lia)).
    destruct (Nat.even k); rewrite ?opp_IZR, plus_IZR, mult_IZR; apply Rabs_le; lra. }
  induction n as [|n IH].
  - cbn [sum_f_R0 zsum]. specialize (T 0%nat). cbn [Nat.even] in T. replace (INR 1) with 1 by reflexivity. rewrite Rmult_1_r. exact T.
  - cbn [sum_f_R0]. replace (zsum (S n)) with (zsum n + (if Nat.even (S n) then (2 * zterm 3 (S n) + zterm 7 (S n))%Z else (- (2 * zterm 3 (S n) + zterm 7 (S n)))%Z))%Z by reflexivity.
    rewrite plus_IZR, S_INR. specialize (T (S n)). set (t := if Nat.even (S n) then _ else _) in *.
    apply Rle_trans with (Rabs (IZR scale * sum_f_R0 (tg_alt PI_2_3_7_tg) n - IZR (zsum n)) + Rabs (IZR scale * tg_alt PI_2_3_7_tg (S n) - IZR t)).
    + match goal with |- Rabs ?x <= Rabs ?a + Rabs ?b => replace x with (a + b) by ring end. apply Rabs_triang.
    + lra.
Qed.
(** Computed once. *)
Definition z72 : Z := Eval vm_compute in zsum 72.
Definition zt73 : Z := Eval vm_compute in (- (2 * zterm 3 73 + zterm 7 73))%Z.
Definition z73 : Z := Eval vm_compute in (z72 + zt73)%Z.
Lemma z72_ok : zsum 72 = z72.
Proof. vm_compute. reflexivity. Qed.
Lemma zsum_S n : zsum (S n) = (zsum n + (if Nat.even (S n) then 2 * zterm 3 (S n) + zterm 7 (S n) else - (2 * zterm 3 (S n) + zterm 7 (S n))))%Z.
Proof. reflexivity. Qed.
Lemma zt73_ok : (if Nat.even 73 then 2 * zterm 3 73 + zterm 7 73 else - (2 * zterm 3 73 + zterm 7 73))%Z = zt73.
Proof. vm_compute. reflexivity. Qed.
Lemma z73_ok : zsum 73 = z73.
Proof. rewrite (zsum_S 72), z72_ok, zt73_ok. reflexivity. Qed.
Definition pi_lo : Q := (4 * (z73 - 222) # Z.to_pos scale).
Definition pi_hi : Q := (4 * (z72 + 219) # Z.to_pos scale).
Lemma pi_bounds : Q2R pi_lo <= PI <= Q2R pi_hi.
Proof.
  pose proof (PI_2_3_7_ineq 36) as [L U]. pose proof (zsum_ok 73) as A. pose proof (zsum_ok 72) as B. rewrite z73_ok in A. rewrite z72_ok in B.
  change (S (2 * 36)) with 73%nat in L. change (2 * 36)%nat with 72%nat in U.
  rewrite INR_IZR_INZ in A, B. change (Z.of_nat 74) with 74%Z in A. change (Z.of_nat 73) with 73%Z in B.
  set (sl := sum_f_R0 (tg_alt PI_2_3_7_tg) 73) in *. set (su := sum_f_R0 (tg_alt PI_2_3_7_tg) 72) in *. clearbody sl su.
  unfold pi_lo, pi_hi, Q2R. cbn [Qnum Qden]. rewrite Z2Pos.id by exact scale_pos. rewrite !mult_IZR, minus_IZR, plus_IZR.
  generalize dependent z73. generalize dependent z72. intros zu B zl A.
  assert (S : 0 < IZR scale) by (apply (IZR_lt 0), scale_pos).
  generalize dependent (IZR scale). intros s A B S.
  apply abs_both in A, B. assert (s * sl <= s * (PI / 4)) by (apply Rmult_le_compat_l; lra). assert (s * (PI / 4) <= s * su) by (apply Rmult_le_compat_l; lra).
  split; (apply Rmult_le_reg_r with s; [exact S|]; rewrite Rmult_assoc, Rinv_l by lra; lra).
Qed.

(** ** Comparing with a literal *)
Fixpoint qpw (q : Q) (n : nat) : Q := match n with 0%nat => 1%Q | S k => (q * qpw q k)%Q end.
Lemma qpw_ok q n : Q2R (qpw q n) = Q2R q ^ n.
Proof. induction n as [|n IH]; cbn [qpw pow]; [unfold Q2R; cbn; lra|]. rewrite Q2R_mult, IH. reflexivity. Qed.
Lemma pow_lt_strict x y n : (0 < n)%nat -> 0 <= x -> x < y -> x ^ n < y ^ n.
Proof.
  intros Hn Hx Hy. destruct n as [|n]; [lia|]. clear Hn. induction n as [|n IH]; [cbn; lra|].
  rewrite <- (tech_pow_Rmult x), <- (tech_pow_Rmult y). assert (0 <= x ^ S n) by (apply pow_le, Hx). nra.
Qed.
Lemma near_pow n (x : R) lit e (lo hi : Q) : (0 < n)%nat -> 0 <= x -> (0 <= lit - e)%Q -> (0 <= e)%Q -> Q2R lo <= x ^ n <= Q2R hi ->
  (qpw (lit - e) n <= lo)%Q -> (hi <= qpw (lit + e) n)%Q -> near e lit x.
Proof.
  intros Hn Hx He E0 [L U] A B. apply Qle_Rle in A, B, He, E0. rewrite qpw_ok in A, B. rewrite Q2R_minus in A, He. rewrite Q2R_plus in B.
  replace (Q2R 0) with 0 in * by (unfold Q2R; cbn; lra). unfold near. apply Rabs_le. split.
  - destruct (Rle_lt_dec (Q2R lit - Q2R e) x) as [H|H]; [lra|]. exfalso. pose proof (pow_lt_strict x _ n Hn Hx H). lra.
  - destruct (Rle_lt_dec x (Q2R lit + Q2R e)) as [H|H]; [lra|]. exfalso. assert (H0 : 0 <= Q2R lit + Q2R e) by lra.
    pose proof (pow_lt_strict _ x n Hn H0 H). lra.
Qed.
Lemma pi_pow n : Q2R (qpw pi_lo n) <= PI ^ n <= Q2R (qpw pi_hi n).
Proof.
  rewrite !qpw_ok. pose proof pi_bounds. pose proof PI_RGT_0. assert (0 <= Q2R pi_lo).
  { replace 0 with (Q2R 0) by (unfold Q2R; cbn; lra). apply Qle_Rle. apply Qle_bool_iff. vm_compute. reflexivity. }
  split; apply pow_incr; lra.
Qed.
Lemma scaled_pi_pow c n : (0 <= c)%Q -> Q2R (c * qpw pi_lo n) <= Q2R c * PI ^ n <= Q2R (c * qpw pi_hi n).
Proof.
  intros H. apply Qle_Rle in H. replace (Q2R 0) with 0 in H by (unfold Q2R; cbn; lra). rewrite !Q2R_mult. pose proof (pi_pow n).
  split; apply Rmult_le_compat_l; lra.
Qed.
Ltac decide_q := apply Qle_bool_iff; vm_compute; reflexivity.
Lemma near_pi : near (half_unit 63) lit_PI PI.
Proof.
  apply near_pow with (n := 1%nat) (lo := pi_lo) (hi := pi_hi); try decide_q; [lia|pose proof PI_RGT_0; lra|]. rewrite pow_1. apply pi_bounds.
Qed.
Lemma rpow_half k : (Rpower PI (INR k / 2)) ^ 2 = PI ^ k.
Proof. rewrite <- (Rpower_pow k) by apply PI_RGT_0. cbn [pow]. rewrite Rmult_1_r, <- Rpower_plus. f_equal. lra. Qed.
Lemma rpow_pos x : 0 < Rpower PI x.
Proof. unfold Rpower. apply exp_pos. Qed.
Lemma pi52_sq : pi52 ^ 2 = PI ^ 5.
Proof. unfold pi52. replace (5 / 2) with (INR 5 / 2) by (cbn; lra). apply rpow_half. Qed.
Lemma q2r_z z : Q2R (inject_Z z) = IZR z.
Proof. unfold Q2R. cbn. lra. Qed.
Lemma near_two_pi_52 : near (half_unit 58) lit_TWO_PI_52 (2 * pi52).
Proof.
  apply near_pow with (n := 2%nat) (lo := (inject_Z 4 * qpw pi_lo 5)%Q) (hi := (inject_Z 4 * qpw pi_hi 5)%Q); try decide_q; [lia|pose proof (rpow_pos (5/2)); unfold pi52; lra|].
  replace ((2 * pi52) ^ 2) with (Q2R (inject_Z 4) * PI ^ 5) by (rewrite <- pi52_sq, q2r_z; ring). apply scaled_pi_pow. decide_q.
Qed.
Lemma near_sqrt_two_pi_52 : near (half_unit 59) lit_SQRT_TWO_PI_52 (sqrt (2 * pi52)).
Proof.
  assert (P : 0 <= 2 * pi52) by (pose proof (rpow_pos (5/2)); unfold pi52; lra).
  apply near_pow with (n := 4%nat) (lo := (inject_Z 4 * qpw pi_lo 5)%Q) (hi := (inject_Z 4 * qpw pi_hi 5)%Q); try decide_q; [lia|apply sqrt_pos|].
  replace (sqrt (2 * pi52) ^ 4) with (Q2R (inject_Z 4) * PI ^ 5). { apply scaled_pi_pow. decide_q. }
  rewrite <- pi52_sq, q2r_z. replace (sqrt (2 * pi52) ^ 4) with ((sqrt (2 * pi52) * sqrt (2 * pi52)) * (sqrt (2 * pi52) * sqrt (2 * pi52))) by ring.
  rewrite sqrt_sqrt by exact P. ring.
Qed.
Lemma near_sqrt_two_times_pi_52 : near (half_unit 54) lit_SQRT_TWO_TIMES_PI_52 (sqrt 2 * pi52).
Proof.
  assert (P : 0 <= sqrt 2) by apply sqrt_pos.
  apply near_pow with (n := 2%nat) (lo := (inject_Z 2 * qpw pi_lo 5)%Q) (hi := (inject_Z 2 * qpw pi_hi 5)%Q); try decide_q; [lia|pose proof (rpow_pos (5/2)); unfold pi52; nra|].
  replace ((sqrt 2 * pi52) ^ 2) with (Q2R (inject_Z 2) * PI ^ 5). { apply scaled_pi_pow. decide_q. }
  rewrite <- pi52_sq, q2r_z. replace ((sqrt 2 * pi52) ^ 2) with ((sqrt 2 * sqrt 2) * pi52 ^ 2) by ring. rewrite sqrt_sqrt by lra. reflexivity.
Qed.

(** ** Tables *)
(** 24 decimals are enough for them. *)
Definition pi_lo24 : Q := 3.141592653589793238462643.
Definition pi_hi24 : Q := 3.141592653589793238462644.
Lemma scaled_pi_pow24 c n : (0 <= c)%Q -> Q2R (c * qpw pi_lo24 n) <= Q2R c * PI ^ n <= Q2R (c * qpw pi_hi24 n).
Proof.
  intros H. apply Qle_Rle in H. replace (Q2R 0) with 0 in H by (unfold Q2R; cbn; lra). rewrite !Q2R_mult, !qpw_ok. pose proof pi_bounds as B.
  assert (L : Q2R pi_lo24 <= Q2R pi_lo) by (apply Qle_Rle; decide_q). assert (U : Q2R pi_hi <= Q2R pi_hi24) by (apply Qle_Rle; decide_q).
  assert (P : 0 <= Q2R pi_lo24). { replace 0 with (Q2R 0) by (unfold Q2R; cbn; lra). apply Qle_Rle. decide_q. }
  pose proof PI_RGT_0. split; (apply Rmult_le_compat_l; [exact H|]); apply pow_incr; lra.
Qed.
(** [x^2 = pi^k (odd / 2^m)^2]. *)
Definition square_factor (l m : nat) : Q := (inject_Z (odd_fact l * odd_fact l) / inject_Z (2 ^ (2 * Z.of_nat m)))%Q.
Definition entry_check (k l m : nat) (lit : Q) (e : Q) : bool :=
  Qle_bool 0 (lit - e) && Qle_bool 0 e && Qle_bool (qpw (lit - e) 2) (square_factor l m * qpw pi_lo24 k) && Qle_bool (square_factor l m * qpw pi_hi24 k) (qpw (lit + e) 2).
Lemma square_factor_ok l m : Q2R (square_factor l m) = (IZR (odd_fact l) / 2 ^ m) ^ 2.
Proof.
  unfold square_factor. rewrite Q2R_div.
  - rewrite !q2r_z, mult_IZR. replace (2 ^ (2 * Z.of_nat m))%Z with (2 ^ Z.of_nat (2 * m))%Z by (f_equal; lia). rewrite <- pow_IZR.
    rewrite pow_mult. assert (2 ^ m <> 0) by (apply pow_nonzero; lra). replace ((2 ^ 2) ^ m) with (2 ^ m * 2 ^ m); [field; assumption|].
    rewrite <- Rpow_mult_distr. f_equal. ring.
  - intros H. assert (0 < 2 ^ (2 * Z.of_nat m))%Z by (apply Z.pow_pos_nonneg; lia). revert H H0. generalize (2 ^ (2 * Z.of_nat m))%Z. unfold Qeq. cbn. lia.
Qed.
Lemma odd_fact_pos l : (0 < odd_fact l)%Z.
Proof. induction l as [|l IH]; [reflexivity|]. cbn [odd_fact]. nia. Qed.
Lemma entry_near k l m lit e : entry_check k l m lit e = true -> near e lit (Rpower PI (INR k / 2) * IZR (odd_fact l) / 2 ^ m).
Proof.
  unfold entry_check. intros H. apply andb_prop in H as [H H4]. apply andb_prop in H as [H H3]. apply andb_prop in H as [H1 H2].
  apply Qle_bool_iff in H1, H2, H3, H4.
  pose proof (odd_fact_pos l) as P. apply (IZR_lt 0) in P. assert (0 < 2 ^ m) by (apply pow_lt; lra). pose proof (rpow_pos (INR k / 2)) as Q.
  apply near_pow with (n := 2%nat) (lo := (square_factor l m * qpw pi_lo24 k)%Q) (hi := (square_factor l m * qpw pi_hi24 k)%Q); try assumption; [lia| |].
  - apply Rlt_le. unfold Rdiv. repeat apply Rmult_lt_0_compat; try assumption. apply Rinv_0_lt_compat. assumption.
  - replace ((Rpower PI (INR k / 2) * IZR (odd_fact l) / 2 ^ m) ^ 2) with (Q2R (square_factor l m) * PI ^ k).
    + apply scaled_pi_pow24. unfold square_factor. apply Qle_shift_div_l.
      * assert (E : (0 < 2 ^ (2 * Z.of_nat m))%Z) by (apply Z.pow_pos_nonneg; lia). revert E. generalize (2 ^ (2 * Z.of_nat m))%Z. unfold Qlt. cbn. lia.
      * rewrite Qmult_0_l. pose proof (odd_fact_pos l) as O. revert O. generalize (odd_fact l). intros z O. unfold Qle. cbn. nia.
    + rewrite square_factor_ok, <- rpow_half. unfold Rdiv. ring.
Qed.
Lemma norm_checked : forallb (fun l => entry_check 3 l l (nth l norm_fac 0%Q) (half_unit (nth l norm_decimals 0%Z))) (seq 0 21) = true.
Proof. vm_compute. reflexivity. Qed.
Lemma norm_near l : (l <= 20)%nat -> near (half_unit (nth l norm_decimals 0%Z)) (nth l norm_fac 0%Q) (norm_exact l).
Proof.
  intros H. pose proof norm_checked as C. rewrite forallb_forall in C. specialize (C l ltac:(apply in_seq; lia)). apply entry_near in C.
  unfold norm_exact. replace (3 / 2) with (INR 3 / 2) by (cbn; lra). exact C.
Qed.
Lemma long_checked : forallb (fun n => entry_check 1 n (S n) (this (nth n longfac 0%Qc)) (half_unit (nth n long_decimals 0%Z))) (seq 0 32) = true.
Proof. vm_compute. reflexivity. Qed.
Lemma long_near n : (n <= 31)%nat -> near (half_unit (nth n long_decimals 0%Z)) (this (nth n longfac 0%Qc)) (long_exact n).
Proof.
  intros H. pose proof long_checked as C. rewrite forallb_forall in C. specialize (C n ltac:(apply in_seq; lia)). apply entry_near in C.
  unfold long_exact. rewrite Nat.add_1_r, <- Rpower_sqrt by apply PI_RGT_0. replace (/ 2) with (INR 1 / 2) by (cbn; lra). exact C.
Qed.
