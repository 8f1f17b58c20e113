(** The rounded Taylor branch (RoundBoys) against the Boys function, the integral of BoysReal. *)
From Coq Require Import List Arith Reals Lra Lia ZArith QArith Qreals.
Import ListNotations.
From Verif Require Import Base Boys BoysProof BoysSeries BoysData BoysTable BoysAccuracy BoysReal Normalize RoundSum RoundHRR RoundBoys.
Local Open Scope R_scope.

(** ** The exponential series *)
Definition eterm (s : R) (k : nat) : R := s ^ k / INR (fact k).
Lemma eterm_der k s : derivable_pt_lim (fun s => eterm s (S k)) s (eterm s k).
Proof.
  unfold eterm, Rdiv. change (fact (S k)) with (S k * fact k)%nat. rewrite mult_INR.
  replace (s ^ k * / INR (fact k)) with (/ (INR (S k) * INR (fact k)) * (INR (S k) * s ^ k)).
  - apply (derivable_pt_lim_ext (fun s => / (INR (S k) * INR (fact k)) * s ^ S k)); [intros; ring|].
    apply (derivable_pt_lim_scal (fun s => s ^ S k)), der_pow.
  - field. split; [apply INR_fact_neq_0|apply not_0_INR; lia].
Qed.
Lemma esum_der K s : derivable_pt_lim (fun s => rsums (eterm s) (S K)) s (rsums (eterm s) K).
Proof.
  induction K as [|K IH].
  - apply (derivable_pt_lim_ext (fun _ => 1)); [intros; unfold eterm; simpl; field|]. apply derivable_pt_lim_const.
  - cbn [rsums]. apply (derivable_pt_lim_plus (fun s => rsums (eterm s) (S K)) (fun s => eterm s (S K))); [exact IH|apply eterm_der].
Qed.
Lemma exp_up b K : 0 <= b -> forall s, 0 <= s <= b -> Rabs (exp s - rsums (eterm s) K) <= exp b * eterm s K.
Proof.
  intros Hb. induction K as [|K IH]; intros s Hs.
  - unfold eterm. cbn [rsums pow fact INR]. rewrite Rminus_0_r, Rabs_right by (left; apply exp_pos).
    replace (exp b * (1 / 1)) with (exp b) by field. destruct (Req_dec s b) as [->|N]; [lra|]. left. apply exp_increasing. lra.
  - pose proof (prim_bound exp (fun s => rsums (eterm s) K) (fun s => exp b * eterm s K) exp (fun s => rsums (eterm s) (S K)) (fun s => exp b * eterm s (S K))
      0 s ltac:(lra) (fun t _ => derivable_pt_lim_exp t) (fun t _ => esum_der K t)
      (fun t _ => derivable_pt_lim_scal (fun s => eterm s (S K)) (exp b) t _ (eterm_der K t))
      (fun t Ht => IH t ltac:(lra))) as B. cbv beta in B.
    assert (Z : forall k, rsums (eterm 0) (S k) = 1).
    { induction k as [|k IHk]; [unfold eterm; simpl; field|]. change (rsums (eterm 0) (S (S k))) with (rsums (eterm 0) (S k) + eterm 0 (S k)).
      rewrite IHk. unfold eterm. cbn [pow]. unfold Rdiv. ring. }
    rewrite Z, exp_0 in B. replace (eterm 0 (S K)) with 0 in B by (unfold eterm, Rdiv; cbn [pow]; ring).
    replace (exp s - 1 - (rsums (eterm s) (S K) - 1)) with (exp s - rsums (eterm s) (S K)) in B by ring.
    rewrite Rmult_0_r, Rminus_0_r in B. exact B.
Qed.
Lemma eterm_abs s k : Rabs (eterm s k) = eterm (Rabs s) k.
Proof. unfold eterm, Rdiv. rewrite Rabs_mult, RPow_abs, (Rabs_right (/ _)); [reflexivity|]. apply Rle_ge, Rlt_le, Rinv_0_lt_compat, INR_fact_lt_0. Qed.
Lemma exp_near s b K : Rabs s <= b -> Rabs (exp s - rsums (eterm s) K) <= exp b * eterm (Rabs s) K.
Proof.
  intros H. pose proof (Rabs_pos s). destruct (Rle_dec 0 s) as [P|P].
  - rewrite (Rabs_right s) in * by lra. apply exp_up; lra.
  - rewrite (Rabs_left s) in * by lra. pose proof (exp_rest K (- s) ltac:(lra)) as B. rewrite Ropp_involutive in B.
    rewrite (rsums_ext (BoysReal.rterm (- s)) (eterm s)) in B by (intros k; rewrite rterm_pow, Ropp_involutive; reflexivity).
    apply Rle_trans with (1 := B). fold (eterm (- s) K). assert (1 <= exp b) by (pose proof (exp_ineq1_le b); lra).
    assert (0 <= eterm (- s) K). { unfold eterm. apply Rmult_le_pos; [apply pow_le; lra|apply Rlt_le, Rinv_0_lt_compat, INR_fact_lt_0]. }
    nra.
Qed.

(** ** The Boys function around another argument *)
Definition bsum (n : nat) (a d : R) (K : nat) : R := rsums (fun k => boysR (n + k) a * eterm d k) K.
Lemma bsum_prim n a d K : exists Q, (forall t, 0 <= t <= 1 -> derivable_pt_lim Q t (rsums (fun k => boys_fun (n + k) a t * eterm d k) K)) /\
  Q 1 - Q 0 = bsum n a d K.
Proof.
  unfold bsum. induction K as [|K [Q [HQ EQ]]].
  - exists (fun _ => 0). split; [intros; apply derivable_pt_lim_const|cbn [rsums]; ring].
  - destruct (boysR_prim (n + K) a) as [P [HP EP]]. exists (fun t => Q t + eterm d K * P t). split.
    + intros t Ht. cbn [rsums]. apply (derivable_pt_lim_plus Q); [apply HQ, Ht|]. rewrite Rmult_comm.
      apply (derivable_pt_lim_scal P), HP, Ht.
    + cbn [rsums]. rewrite <- EQ, <- EP. ring.
Qed.
Lemma boys_fun_pos n x t : 0 <= t -> 0 <= boys_fun n x t.
Proof. intros H. unfold boys_fun. apply Rmult_le_pos; [apply pow_le, H|left; apply exp_pos]. Qed.
Lemma boys_move n a x t : boys_fun n x t = boys_fun n a t * exp ((a - x) * (t * t)).
Proof. unfold boys_fun. rewrite Rmult_assoc, <- exp_plus. f_equal. f_equal. ring. Qed.
Lemma boys_shift n k a t d : boys_fun (n + k) a t * eterm d k = boys_fun n a t * eterm (d * (t * t)) k.
Proof.
  unfold boys_fun, eterm. replace (2 * (n + k))%nat with (2 * n + 2 * k)%nat by lia. rewrite pow_add, (pow_mult t 2 k), Rpow_mult_distr.
  replace (t ^ 2) with (t * t) by ring. unfold Rdiv. ring.
Qed.
Lemma rsums_scal c f K : rsums (fun k => c * f k) K = c * rsums f K.
Proof. induction K as [|K IH]; cbn [rsums]; [ring|rewrite IH; ring]. Qed.
Lemma boys_taylor n a x K : Rabs (boysR n x - bsum n a (a - x) K) <= exp (Rabs (a - x)) * eterm (Rabs (a - x)) K * boysR n a.
Proof.
  set (d := a - x). destruct (boysR_prim n x) as [P [HP EP]]. destruct (bsum_prim n a d K) as [Q [HQ EQ]].
  destruct (boysR_prim n a) as [S0 [HS ES]]. rewrite <- EP, <- EQ, <- ES. set (c := exp (Rabs d) * eterm (Rabs d) K).
  replace (c * (S0 1 - S0 0)) with ((fun t => c * S0 t) 1 - (fun t => c * S0 t) 0) by (cbv beta; ring).
  apply (prim_bound (boys_fun n x) _ (fun t => c * boys_fun n a t) P Q (fun t => c * S0 t) 0 1 ltac:(lra) HP HQ).
  - intros t Ht. apply (derivable_pt_lim_scal S0), HS, Ht.
  - intros t Ht. rewrite (boys_move n a x t). fold d.
    rewrite (rsums_ext (fun k => boys_fun (n + k) a t * eterm d k) (fun k => boys_fun n a t * eterm (d * (t * t)) k)) by (intros; apply boys_shift).
    rewrite rsums_scal, <- Rmult_minus_distr_l, Rabs_mult, (Rabs_right (boys_fun n a t)) by (apply Rle_ge, boys_fun_pos; lra).
    rewrite (Rmult_comm c). apply Rmult_le_compat_l; [apply boys_fun_pos; lra|].
    assert (T : 0 <= t * t <= 1) by nra.
    assert (L : Rabs (d * (t * t)) <= Rabs d). { rewrite Rabs_mult, (Rabs_right (t * t)) by lra. pose proof (Rabs_pos d). nra. }
    apply Rle_trans with (1 := exp_near _ (Rabs d) K L). apply Rmult_le_compat_l; [left; apply exp_pos|].
    unfold eterm, Rdiv. apply Rmult_le_compat_r; [apply Rlt_le, Rinv_0_lt_compat, INR_fact_lt_0|]. apply pow_incr. split; [apply Rabs_pos|exact L].
Qed.
Lemma boys_order n k a : 0 <= boysR (n + k) a <= boysR n a.
Proof.
  split; [apply boysR_pos|]. destruct (boysR_prim (n + k) a) as [P [HP EP]]. destruct (boysR_prim n a) as [S0 [HS ES]].
  pose proof (prim_bound (boys_fun (n + k) a) (fun _ => 0) (boys_fun n a) P (fun _ => 0) S0 0 1 ltac:(lra) HP (fun t _ => derivable_pt_lim_const 0 t) HS) as B.
  rewrite EP, ES in B. assert (B' : Rabs (boysR (n + k) a - (0 - 0)) <= boysR n a).
  { apply B. intros t Ht. rewrite Rminus_0_r, Rabs_right by (apply Rle_ge, boys_fun_pos; lra).
    unfold boys_fun. apply Rmult_le_compat_r; [left; apply exp_pos|]. replace (2 * (n + k))%nat with (2 * n + 2 * k)%nat by lia. rewrite pow_add.
    assert (0 <= t ^ (2 * n)) by (apply pow_le; lra). assert (t ^ (2 * k) <= 1) by (rewrite <- (pow1 (2 * k)); apply pow_incr; lra).
    assert (0 <= t ^ (2 * k)) by (apply pow_le; lra). nra. }
  pose proof (Rle_abs (boysR (n + k) a - (0 - 0))). lra.
Qed.
Lemma boys_ratio n a x : boysR n a <= exp (Rabs (a - x)) * boysR n x.
Proof.
  set (d := a - x). destruct (boysR_prim n a) as [P [HP EP]]. destruct (boysR_prim n x) as [S0 [HS ES]].
  pose proof (prim_bound (boys_fun n a) (fun _ => 0) (fun t => exp (Rabs d) * boys_fun n x t) P (fun _ => 0) (fun t => exp (Rabs d) * S0 t) 0 1 ltac:(lra) HP
    (fun t _ => derivable_pt_lim_const 0 t) (fun t Ht => derivable_pt_lim_scal S0 _ t _ (HS t Ht))) as B. cbv beta in B. rewrite EP in B.
  rewrite <- ES, Rmult_minus_distr_l. pose proof (Rle_abs (boysR n a - (0 - 0))).
  assert (B' : Rabs (boysR n a - (0 - 0)) <= exp (Rabs d) * S0 1 - exp (Rabs d) * S0 0); [|lra].
  apply B. intros t Ht. rewrite Rminus_0_r, Rabs_right by (apply Rle_ge, boys_fun_pos; lra).
  rewrite (boys_move n x a t). rewrite Rmult_comm. apply Rmult_le_compat_r; [apply boys_fun_pos; lra|].
  assert (T : 0 <= t * t <= 1) by nra. assert (L : (x - a) * (t * t) <= Rabs d).
  { pose proof (Rle_abs (- d)) as K. rewrite Rabs_Ropp in K. pose proof (Rabs_pos d). unfold d in *. nra. }
  destruct L as [L|L]; [left; apply exp_increasing, L|rewrite L; lra].
Qed.

(** ** The four errors *)
Lemma terms_sums g d : terms g d = rsums (fun k => g k * eterm d k) 8.
Proof.
  unfold terms. assert (G : forall f, total (map f (seq 0 8)) = rsums f 8) by (intros f; unfold total; cbn [seq map fold_right rsums]; ring).
  rewrite G. apply rsums_ext. intros k. unfold eterm, Rdiv. ring.
Qed.
Lemma rsums_abs (f : nat -> R) K : Rabs (rsums f K) <= rsums (fun k => Rabs (f k)) K.
Proof. induction K as [|K IH]; cbn [rsums]; [rewrite Rabs_R0; lra|]. apply Rle_trans with (1 := Rabs_triang _ _). lra. Qed.
Lemma rsums_minus f g K : rsums f K - rsums g K = rsums (fun k => f k - g k) K.
Proof. induction K as [|K IH]; cbn [rsums]; [ring|rewrite <- IH; ring]. Qed.
Lemma rsums_mono f g K : (forall k, (k < K)%nat -> f k <= g k) -> rsums f K <= rsums g K.
Proof. induction K as [|K IH]; intros H; cbn [rsums]; [lra|]. pose proof (H K ltac:(lia)). pose proof (IH ltac:(intros; apply H; lia)). lra. Qed.
Lemma eterm_pos d k : 0 <= d -> 0 <= eterm d k.
Proof. intros H. unfold eterm. apply Rmult_le_pos; [apply pow_le, H|apply Rlt_le, Rinv_0_lt_compat, INR_fact_lt_0]. Qed.
Lemma esum_exp d : 0 <= d -> forall K, rsums (eterm d) K <= exp d.
Proof.
  intros H K. revert d H. induction K as [|K IH]; intros d H; [cbn [rsums]; left; apply exp_pos|].
  pose proof (prim_bound (fun s => rsums (eterm s) K) (fun _ => 0) exp (fun s => rsums (eterm s) (S K)) (fun _ => 0) exp
    0 d ltac:(lra) (fun t _ => esum_der K t) (fun t _ => derivable_pt_lim_const 0 t) (fun t _ => derivable_pt_lim_exp t)) as B.
  assert (P : forall s, 0 <= s -> forall k, 0 <= rsums (eterm s) k).
  { intros s Hs k. induction k as [|k IHk]; cbn [rsums]; [lra|]. pose proof (eterm_pos s k Hs). lra. }
  assert (Z : forall k, rsums (eterm 0) (S k) = 1).
  { induction k as [|k IHk]; [unfold eterm; simpl; field|]. change (rsums (eterm 0) (S (S k))) with (rsums (eterm 0) (S k) + eterm 0 (S k)).
    rewrite IHk. unfold eterm. cbn [pow]. unfold Rdiv. ring. }
  cbv beta in B. rewrite Z, exp_0 in B.
  assert (B' : Rabs (rsums (eterm d) (S K) - 1 - (0 - 0)) <= exp d - 1).
  { apply B. intros t Ht. rewrite Rminus_0_r, Rabs_right by (apply Rle_ge, P; lra). apply IH. lra. }
  pose proof (Rle_abs (rsums (eterm d) (S K) - 1 - (0 - 0))). lra.
Qed.
Lemma exp_small s b : 0 <= s < 1 -> 1 <= b * (1 - s) -> exp s <= b.
Proof.
  intros H Hb. pose proof (exp_ineq1_le (- s)) as K. pose proof (exp_pos s). assert (E : exp s * exp (- s) = 1) by (rewrite <- exp_plus, Rplus_opp_r; apply exp_0).
  apply (Rmult_le_reg_r (1 - s)); [lra|]. nra.
Qed.
Lemma pow_lin u k : 0 <= u <= / 1000000 -> (k <= 17)%nat -> 0 <= (1 + u) ^ k - 1 <= 1001 / 1000 * INR k * u.
Proof.
  intros H Hk. split; [pose proof (pow_R1_Rle (1 + u) k ltac:(lra)); lra|]. induction k as [|k IH]; [simpl; lra|].
  specialize (IH ltac:(lia)). rewrite S_INR. assert (K : INR k <= 17) by (change 17 with (IZR (Z.of_nat 17)); rewrite <- INR_IZR_INZ; apply le_INR; lia).
  pose proof (pos_INR k). cbn [pow]. assert (0 <= INR k * u <= 17 * / 1000000) by nra. nra.
Qed.
Lemma entry_real i j v : entry_at i j v -> Rabs (v - boysR j (IZR i / 10)) <= / 100000000000000000 * boysR j (IZR i / 10).
Proof.
  intros (row & q & Hi & Er & Eq & ->). destruct (@entry_value _ _ _ _ Er Eq) as [P N].
  assert (Q0 : (0 <= nq (Z.to_nat i) / nq 10)%Q) by (apply Qle_shift_div_l; [reflexivity|]; rewrite Qmult_0_l; unfold nq, Qle; simpl; lia).
  pose proof (near_boys_real j _ _ _ Q0 N) as K.
  assert (A : Q2R (nq (Z.to_nat i) / nq 10) = IZR i / 10).
  { rewrite Q2R_div by (vm_compute; discriminate). unfold nq, Q2R, inject_Z. cbn [Qnum Qden]. rewrite Z2Nat.id by exact Hi. change (Z.of_nat 10) with 10%Z. field. }
  rewrite A in K. rewrite Q2R_div in K by (vm_compute; discriminate).
  assert (B : Q2R (inject_Z RE) = 200000000000000000) by (unfold Q2R, inject_Z; cbn [Qnum Qden]; change RE with 200000000000000000%Z; field).
  rewrite B in K. apply Qlt_Rlt in P. rewrite q2r_0 in P. set (v := Q2R (Qcanon.this q)) in *. set (f := boysR j (IZR i / 10)) in *.
  rewrite Rabs_minus_sym in K. pose proof (Rle_abs (v - f)). lra.
Qed.

(** The result against the integral: at most 2e-15 from the expansion and the table, and 250 units of rounding. *)
Theorem taylor_accurate u rnd fs x n : rounding u rnd -> u <= / 1000000 -> 0 <= x < 73 / 2 -> (n <= 24)%nat ->
  exists r, rtaylor rnd fs x n = Some r /\ Rabs (r - boysR n x) <= (2 / 1000000000000000 + 250 * u) * boysR n x.
Proof.
  intros Hr Hs Hx Hn. destruct (taylor_rounded u rnd fs x n Hr ltac:(lra) Hx Hn) as (i & g & dx & r & Er & Hi & Hg & Ha & Hd & H1).
  exists r. split; [exact Er|]. assert (Hu : 0 <= u) by apply Hr.
  destruct (pow_lin u 4 (conj Hu Hs) ltac:(lia)) as [P40 P41]. destruct (pow_lin u 3 (conj Hu Hs) ltac:(lia)) as [P30 P31].
  destruct (pow_lin u 17 (conj Hu Hs) ltac:(lia)) as [P170 P171].
  replace (INR 4) with 4 in P41 by (simpl; ring). replace (INR 3) with 3 in P31 by (simpl; ring). replace (INR 17) with 17 in P171 by (simpl; ring).
  set (e4 := (1 + u) ^ 4 - 1) in *. set (e3 := (1 + u) ^ 3 - 1) in *. set (e17 := (1 + u) ^ 17 - 1) in *. clearbody e4 e3 e17.
  set (a := IZR i / 10) in *. assert (A0 : 0 <= a <= 73 / 2).
  { destruct Hi as [I0 I1]. apply IZR_le in I0, I1. unfold a. lra. }
  assert (D0 : Rabs (a - x) <= 502 / 10000).
  { assert (e4 * (x + / 20) <= e4 * (73 / 2 + / 20)) by (apply Rmult_le_compat_l; lra). lra. }
  assert (D1 : Rabs (dx - (a - x)) <= 2194 / 10 * u).
  { assert (e3 * (a + x) <= e3 * 73) by (apply Rmult_le_compat_l; lra). lra. }
  assert (D2 : Rabs dx <= 505 / 10000).
  { replace dx with ((a - x) + (dx - (a - x))) by ring. apply Rle_trans with (1 := Rabs_triang _ _). lra. }
  pose proof (Rabs_pos dx) as D3. set (F := boysR n x). set (Fa := boysR n a).
  assert (F0 : 0 <= F) by apply boysR_pos. assert (Fa0 : 0 <= Fa) by apply boysR_pos.
  assert (X1 : exp (Rabs dx) <= 1054 / 1000).
  { apply exp_small; lra. }
  assert (X2 : exp (Rabs (a - x)) <= 1054 / 1000).
  { pose proof (Rabs_pos (a - x)). apply exp_small; lra. }
  assert (FF : Fa <= 1054 / 1000 * F). { apply Rle_trans with (1 := boys_ratio n a x). apply Rmult_le_compat_r; assumption. }
  assert (G : forall k, (k < 8)%nat -> Rabs (g k - boysR (n + k) a) <= / 100000000000000000 * Fa /\ Rabs (g k) <= 1001 / 1000 * Fa).
  { intros k Hk. pose proof (entry_real _ _ _ (Hg k Hk)) as K. fold a in K. destruct (boys_order n k a) as [O0 O1]. fold Fa in O1. split; [lra|].
    replace (g k) with (boysR (n + k) a + (g k - boysR (n + k) a)) by ring. apply Rle_trans with (1 := Rabs_triang _ _). rewrite (Rabs_right (boysR _ _)) by lra. lra. }
  pose proof (esum_exp (Rabs dx) D3 8) as S8.
  assert (E1 : Rabs (r - terms g dx) <= 19 * u * F).
  { apply Rle_trans with (1 := H1). rewrite terms_sums.
    assert (T : rsums (fun k => Rabs (g k) * eterm (Rabs dx) k) 8 <= 1001 / 1000 * Fa * exp (Rabs dx)).
    { apply Rle_trans with (rsums (fun k => 1001 / 1000 * Fa * eterm (Rabs dx) k) 8).
      - apply rsums_mono. intros k Hk. apply Rmult_le_compat_r; [apply eterm_pos, D3|apply G, Hk].
      - rewrite rsums_scal. apply Rmult_le_compat_l; [lra|exact S8]. }
    assert (T' : rsums (fun k => Rabs (g k) * eterm (Rabs dx) k) 8 <= 11103 / 10000 * F + 2 / 1000 * F).
    { apply Rle_trans with (1 := T). assert (1001 / 1000 * Fa * exp (Rabs dx) <= 1001 / 1000 * Fa * (1054 / 1000)) by (apply Rmult_le_compat_l; lra). lra. }
    apply Rle_trans with (e17 * (11123 / 10000 * F)); [apply Rmult_le_compat_l; lra|].
    apply Rle_trans with (1001 / 1000 * 17 * u * (11123 / 10000 * F)); [apply Rmult_le_compat_r; lra|]. assert (0 <= u * F) by (apply Rmult_le_pos; assumption). lra. }
  assert (E2 : Rabs (terms g dx - bsum n a dx 8) <= / 10000000000000000 * F).
  { rewrite terms_sums. unfold bsum. rewrite rsums_minus. apply Rle_trans with (1 := rsums_abs _ _).
    apply Rle_trans with (rsums (fun k => / 100000000000000000 * Fa * eterm (Rabs dx) k) 8).
    - apply rsums_mono. intros k Hk. rewrite <- Rmult_minus_distr_r, Rabs_mult, eterm_abs. apply Rmult_le_compat_r; [apply eterm_pos, D3|apply G, Hk].
    - rewrite rsums_scal. apply Rle_trans with (/ 100000000000000000 * Fa * (1054 / 1000)); [apply Rmult_le_compat_l; lra|lra]. }
  assert (E3 : Rabs (bsum n a dx 8 - boysR n (a - dx)) <= 119 / 100000000000000000 * F).
  { rewrite Rabs_minus_sym. pose proof (boys_taylor n a (a - dx) 8) as K. replace (a - (a - dx)) with dx in K by ring. apply Rle_trans with (1 := K). fold Fa.
    assert (T8 : 0 <= eterm (Rabs dx) 8 <= 106 / 100000000000000000).
    { split; [apply eterm_pos, D3|]. unfold eterm. replace (INR (fact 8)) with 40320 by (rewrite INR_IZR_INZ; reflexivity).
      assert (P : Rabs dx ^ 8 <= (505 / 10000) ^ 8) by (apply pow_incr; lra). apply Rle_trans with ((505 / 10000) ^ 8 / 40320); [lra|]. simpl. lra. }
    apply Rle_trans with (1054 / 1000 * (106 / 100000000000000000) * Fa); [|lra]. apply Rmult_le_compat_r; [exact Fa0|].
    apply Rmult_le_compat; try tauto. left; apply exp_pos. }
  assert (E4 : Rabs (boysR n (a - dx) - F) <= 220 * u * F).
  { pose proof (boys_taylor n x (a - dx) 1) as K. unfold bsum in K. cbn [rsums] in K. rewrite Nat.add_0_r in K. fold F in K.
    replace (x - (a - dx)) with (dx - (a - x)) in K by ring. set (d := dx - (a - x)) in *.
    replace (0 + F * eterm d 0) with F in K by (unfold eterm; simpl; field). replace (eterm (Rabs d) 1) with (Rabs d) in K by (unfold eterm; simpl; field).
    apply Rle_trans with (1 := K). apply Rmult_le_compat_r; [exact F0|]. pose proof (Rabs_pos d).
    assert (X3 : exp (Rabs d) <= 1001 / 1000) by (apply exp_small; lra).
    apply Rle_trans with (1001 / 1000 * (2194 / 10 * u)); [|lra]. apply Rmult_le_compat; try assumption. left; apply exp_pos. }
  replace (r - F) with ((r - terms g dx) + ((terms g dx - bsum n a dx 8) + ((bsum n a dx 8 - boysR n (a - dx)) + (boysR n (a - dx) - F)))) by ring.
  apply Rle_trans with (1 := Rabs_triang _ _). apply Rle_trans with (Rabs (r - terms g dx) + (/ 10000000000000000 * F + (119 / 100000000000000000 * F + 220 * u * F))).
  - apply Rplus_le_compat_l. apply Rle_trans with (1 := Rabs_triang _ _). apply Rplus_le_compat; [exact E2|]. apply Rle_trans with (1 := Rabs_triang _ _). lra.
  - assert (0 <= u * F) by (apply Rmult_le_pos; assumption). lra.
Qed.

Lemma accuracy_example : exists r, rtaylor (scale_rnd (/ 1000000)) (fun _ => FmaDx) 36 3 = Some r /\
  Rabs (r - boysR 3 36) <= (2 / 1000000000000000 + 250 * / 1000000) * boysR 3 36.
Proof. apply taylor_accurate; [apply scale_rounding; lra|lra|lra|lia]. Qed.
