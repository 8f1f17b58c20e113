(** Proofs about normalisation, see [Normalize]. *)
From Coq Require Import List Arith ZArith QArith Reals Qreals Lra Lia.
Import ListNotations.
From Verif Require Import Base Cart GenHRR Deriv PairData OneE OneEInt Constants ConstantsProof Normalize.
Local Open Scope R_scope.

Lemma fold_rsum A (f : A -> R) : forall l s, fold_left (fun s k => s + f k) l s = s + @rsum Rcring (map f l).
Proof. induction l as [|x l IH]; intros s; cbn [fold_left map]; [cbn; lra|]. rewrite IH. cbn [rsum]. change (@cadd Rcring) with Rplus. cbn. lra. Qed.
Lemma norm_sum_ok l (A : @shell Rcring) : norm_sum l A = @prim_sum Rcring (sh_n A) (sh_n A) (fun j k =>
   sh_coef A j * sh_coef A k * Rpower (sh_alpha A j * sh_alpha A k) (nm2 l) / Rpower (sh_alpha A j + sh_alpha A k) (nm l)).
Proof.
  unfold norm_sum, prim_sum.
  set (f := fun j k : nat => sh_coef A j * sh_coef A k * Rpower (sh_alpha A j * sh_alpha A k) (nm2 l) / Rpower (sh_alpha A j + sh_alpha A k) (nm l)).
  transitivity (fold_left (fun s j => s + @rsum Rcring (map (f j) (seq 0 (sh_n A)))) (seq 0 (sh_n A)) 0).
  - assert (G : forall w s, fold_left (fun s j => fold_left (fun s k => s + f j k) (seq 0 (sh_n A)) s) w s =
                          fold_left (fun s j => s + @rsum Rcring (map (f j) (seq 0 (sh_n A)))) w s); [|apply G].
    induction w as [|j w IH]; intros s; [reflexivity|]. cbn [fold_left]. rewrite fold_rsum. apply IH.
  - rewrite (fold_rsum nat (fun j => @rsum Rcring (map (f j) (seq 0 (sh_n A))))). apply Rplus_0_l.
Qed.
(** Moments of a Gaussian. *)
Lemma centred_overlap (h s00 : R) (F : nat -> nat -> R) : @overlaps Rcring 0 0 h s00 F -> forall k, F k k = IZR (odd_fact k) * h ^ k * s00.
Proof.
  intros (L & Rr & S0).
  assert (Mv : forall i j, F (S i) j = F i (S j)) by (intros i j; rewrite L, Rr; cbn; lra).
  assert (Up : forall j i, F i j = F (i + j)%nat 0%nat).
  { induction j as [|j IH]; intros i; [rewrite Nat.add_0_r; reflexivity|]. rewrite <- Mv, IH. f_equal. lia. }
  assert (Ev : forall k, F (2 * k)%nat 0%nat = IZR (odd_fact k) * h ^ k * s00).
  { induction k as [|k IH]; [change (2 * 0)%nat with 0%nat; cbn [odd_fact pow]; rewrite S0; lra|]. replace (2 * S k)%nat with (S (S (2 * k))) by lia. rewrite L.
    replace (S (2 * k) - 1)%nat with (2 * k)%nat by lia. rewrite IH. cbn [odd_fact]. rewrite mult_IZR, plus_IZR, mult_IZR, <- INR_IZR_INZ.
    assert (E : @ofnat Rcring (S (2 * k)) = 2 * INR k + 1).
    { transitivity (INR (S (2 * k))); [|rewrite S_INR, mult_INR; cbn; lra]. generalize (S (2 * k)). clear. induction n as [|n IH]; [reflexivity|].
      rewrite ofnat_S, IH, S_INR. cbn. lra. }
    rewrite E. cbn -[pow INR]. change (h ^ S k) with (h * h ^ k). lra. }
  intros k. rewrite Up, <- Ev. f_equal. lia.
Qed.
Lemma rpower_neg x y : Rpower x (- y) = / Rpower x y.
Proof. apply Rpower_Ropp. Qed.
(** One primitive pair. *)
Lemma pair_value p l : 0 < p -> / (2 * p) ^ l * (sqrt (PI / p)) ^ 3 = Rpower PI (3 / 2) / 2 ^ l * / Rpower p (nm l).
Proof.
  intros Hp. pose proof PI_RGT_0 as Pi. assert (E : sqrt (PI / p) ^ 3 = Rpower PI (3 / 2) * / Rpower p (3 / 2)).
  { unfold Rdiv at 1. rewrite <- Rpower_sqrt by (apply Rmult_lt_0_compat; [lra|apply Rinv_0_lt_compat, Hp]).
    rewrite <- Rpower_mult_distr by (try apply Rinv_0_lt_compat; lra). rewrite Rpow_mult_distr.
    assert (P : forall x, 0 < x -> Rpower x (/ 2) ^ 3 = Rpower x (3 / 2)).
    { intros x Hx. rewrite <- Rpower_pow by (unfold Rpower; apply exp_pos). rewrite Rpower_mult. f_equal. cbn. lra. }
    rewrite !P by (try apply Rinv_0_lt_compat; lra). f_equal. unfold Rpower. rewrite ln_Rinv by exact Hp. rewrite <- exp_Ropp. f_equal. ring. }
  rewrite E. unfold nm. rewrite Rpower_plus, Rpower_pow by exact Hp. replace (15 / 10) with (3 / 2) by lra. rewrite Rpow_mult_distr.
  assert (p ^ l <> 0) by (apply pow_nonzero; lra). assert (2 ^ l <> 0) by (apply pow_nonzero; lra).
  assert (Rpower p (3 / 2) <> 0) by (apply Rgt_not_eq; unfold Rpower; apply exp_pos). field. auto.
Qed.
Lemma rpow_pos x y : 0 < Rpower x y.
Proof. unfold Rpower. apply exp_pos. Qed.
Lemma norm_fac_pos l f : nth_error norm_fac l = Some f -> 0 < Q2R f.
Proof.
  intros H. replace 0 with (Q2R 0) by (unfold Q2R; cbn; lra). apply Qlt_Rlt.
  assert (A : forallb (fun q => (0 <? Qnum q)%Z) norm_fac = true) by reflexivity.
  rewrite forallb_forall in A. specialize (A f (nth_error_In _ _ H)). apply Z.ltb_lt in A. unfold Qlt. cbn. lia.
Qed.
Lemma prim_sum_scale n1 n2 c (f : nat -> nat -> R) : @prim_sum Rcring n1 n2 (fun i j => c * f i j) = c * @prim_sum Rcring n1 n2 f.
Proof.
  unfold prim_sum. transitivity (@rsum Rcring (map (fun i => c * @rsum Rcring (map (f i) (seq 0 n2))) (seq 0 n1))).
  - apply (@rsum_map_ext Rcring). intros i _. exact (@rsum_map_scale Rcring nat c (f i) (seq 0 n2)).
  - exact (@rsum_map_scale Rcring nat c (fun i => @rsum Rcring (map (f i) (seq 0 n2))) (seq 0 n1)).
Qed.
Lemma normalize_inv G G' : normalize G = Some G' -> exists f, nth_error norm_fac (os_am G) = Some f /\ os_am G' = os_am G /\
  sh_n (os_sh G') = sh_n (os_sh G) /\ sh_pos (os_sh G') = sh_pos (os_sh G) /\ sh_alpha (os_sh G') = sh_alpha (os_sh G) /\
  (forall j, (j < sh_n (os_sh G))%nat -> sh_coef (os_sh G') j =
     sh_coef (os_sh G) j * (1 / sqrt (norm_sum (os_am G) (os_sh G) * Q2R f) * Rpower (sh_alpha (os_sh G) j) (nm2 (os_am G)))).
Proof.
  unfold normalize. destruct (nth_error norm_fac (os_am G)) as [f|]; [|discriminate]. intros H. injection H as <-. exists f.
  cbn [os_am os_sh sh_n sh_pos sh_alpha sh_coef]. repeat (split; [reflexivity|]). intros j Hj. apply Nat.ltb_lt in Hj. rewrite Hj. reflexivity.
Qed.
Lemma norm_sq x : 0 < x -> 1 / sqrt x * (1 / sqrt x) = / x.
Proof. intros H. pose proof (sqrt_lt_R0 _ H). rewrite <- (sqrt_sqrt x) at 3 by lra. field. lra. Qed.

Lemma normalized_self G G' out : normalize G = Some G' -> (os_am G <= 18)%nat -> pos_exps (os_sh G) -> 0 < norm_sum (os_am G) (os_sh G) ->
  (ncart (os_am G) * ncart (os_am G) <= length out)%nat ->
  exists out', @compute_overlap Rcring Rinv sqrt exp (/ 2) PI G' G' out = Some out' /\ length out' = length out /\
    forall a, Cart.gam a = os_am G -> rdv out' (pos a * ncart (os_am G) + pos a) =
      Some (IZR (odd_fact (gx a) * odd_fact (gy a) * odd_fact (gz a)) / IZR (odd_fact (os_am G)) * norm_rel (os_am G)).
Proof.
  intros N L Pe Ps Lo. destruct (normalize_inv _ _ N) as (f & Ef & Ea & En & Ex & El & Ec). clear N.
  destruct (@overlap_integrals_ok Rcring Rinv sqrt exp (/ 2) PI G' G' out
    (fun i j d => @prim_sint Rcring Rinv sqrt exp (/ 2) PI (sh_alpha (os_sh G') i) (sh_pos (os_sh G')) (sh_alpha (os_sh G') j) (sh_pos (os_sh G')) d))
    as (o & E & Lo' & V & _).
  - lia.
  - lia.
  - rewrite Ea. exact Lo.
  - intros i j d _ _ _. apply prim_sint_ok.
  - exists o. split; [exact E|]. split; [exact Lo'|]. intros a Ga. rewrite Ea in V. rewrite (V a a Ga Ga). clear V E. f_equal.
    rewrite En. set (l := os_am G) in *. set (A := os_sh G) in *. set (norm := 1 / sqrt (norm_sum l A * Q2R f)) in *.
    pose proof (norm_fac_pos _ _ Ef) as Fp.
    transitivity (@prim_sum Rcring (sh_n A) (sh_n A) (fun i j =>
      (norm * norm * (IZR (odd_fact (gx a) * odd_fact (gy a) * odd_fact (gz a)) * (Rpower PI (3 / 2) / 2 ^ l))) *
      (sh_coef A i * sh_coef A j * Rpower (sh_alpha A i * sh_alpha A j) (nm2 l) / Rpower (sh_alpha A i + sh_alpha A j) (nm l)))).
    + apply prim_sum_ext. intros i j Hi Hj. rewrite !Ec by assumption. unfold comp3. rewrite El, Ex.
      pose proof (Pe i Hi) as Pi. pose proof (Pe j Hj) as Pj. set (p := sh_alpha A i + sh_alpha A j) in *.
      assert (Pp : 0 < p) by (unfold p; lra).
      assert (F : forall d k, @prim_sint Rcring Rinv sqrt exp (/ 2) PI (sh_alpha A i) (sh_pos A) (sh_alpha A j) (sh_pos A) d k k =
        IZR (odd_fact k) * (/ (2 * p)) ^ k * sqrt (PI / p)).
      { intros d k. apply centred_overlap. pose proof (@prim_sint_ok Rcring Rinv sqrt exp (/ 2) PI (sh_alpha A i) (sh_pos A) (sh_alpha A j) (sh_pos A) d) as O.
        unfold prim_overlaps in O.
        assert (Ec0 : (sh_alpha A i * sh_pos A d + sh_alpha A j * sh_pos A d) * / p - sh_pos A d = 0) by (unfold p in *; field; lra).
        assert (Eh : / 2 * / p = / (2 * p)) by (field; lra).
        assert (Es : @t_s00 Rcring Rinv sqrt exp PI (sh_alpha A i) (sh_pos A) (sh_alpha A j) (sh_pos A) d = sqrt (PI / p)).
        { unfold t_s00, t_oop, t_AB2. cbn -[sqrt exp PI]. fold p. 
          replace (- _ * _) with 0 by ring. rewrite exp_0, Rmult_1_r. reflexivity. }
        rewrite Es in O. unfold t_PA, t_PB, t_P, t_oo2p, t_oop in O. cbn [cadd cmul csub Rcring] in O. fold p in O. 
        rewrite Ec0, Eh in O. exact O. }
      rewrite !F. pose proof (pair_value p l Pp) as V. rewrite <- (Rpower_mult_distr _ _ _ Pi Pj). fold l.
      change (@cmul Rcring) with Rmult. rewrite !mult_IZR.
      replace (Rpower PI (3 / 2) / 2 ^ l) with (/ (2 * p) ^ l * sqrt (PI / p) ^ 3 * Rpower p (nm l)).
      * assert (Ep : (2 * p) ^ l = (2 * p) ^ gx a * (2 * p) ^ gy a * (2 * p) ^ gz a) by (rewrite <- Ga; unfold Cart.gam; rewrite !pow_add; ring).
        rewrite Ep, !pow_inv. pose proof (rpow_pos p (nm l)).
        assert ((2 * p) <> 0) by lra. match goal with |- @eq _ ?x ?y => change (@eq R x y) end. field. repeat split; try lra; apply pow_nonzero; assumption.
      * rewrite V. field. split; [apply pow_nonzero; lra|apply Rgt_not_eq, rpow_pos].
    + rewrite prim_sum_scale, <- norm_sum_ok. unfold norm. rewrite norm_sq by (apply Rmult_lt_0_compat; assumption).
      unfold norm_rel, norm_exact. rewrite (nth_error_nth _ _ _ Ef).
      assert (0 < IZR (odd_fact l)) by (apply IZR_lt, odd_fact_pos).
      assert (2 ^ l <> 0) by (apply pow_nonzero; lra). match goal with |- @eq _ ?x ?y => change (@eq R x y) end. field. repeat split; lra.
Qed.

(** The relative error of the table. *)
Lemma norm_rel_near l : (l <= 20)%nat -> Rabs (norm_rel l - 1) <= Q2R (1 # 100000000000000000).
Proof.
  intros H. pose proof (norm_near l H) as N. unfold near in N. unfold norm_rel.
  assert (Ef : nth_error norm_fac l = Some (nth l norm_fac 0%Q)) by (apply nth_error_nth'; cbn; lia).
  rewrite (nth_error_nth _ _ 1%Q Ef). pose proof (norm_fac_pos _ _ Ef) as Fp. set (f := nth l norm_fac 0%Q) in *.
  replace (norm_exact l / Q2R f - 1) with ((norm_exact l - Q2R f) / Q2R f) by (field; lra).
  unfold Rdiv. rewrite Rabs_mult, (Rabs_right (/ Q2R f)) by (apply Rle_ge, Rlt_le, Rinv_0_lt_compat, Fp).
  apply (Rmult_le_reg_r (Q2R f)); [exact Fp|]. rewrite Rmult_assoc, Rinv_l, Rmult_1_r by lra. eapply Rle_trans; [exact N|].
  rewrite <- Q2R_mult. apply Qle_Rle. unfold f. clear - H.
  assert (A : forallb (fun l => Qle_bool (half_unit (nth l norm_decimals 0%Z)) ((1 # 100000000000000000) * nth l norm_fac 0%Q)) (seq 0 21) = true) by (vm_compute; reflexivity).
  rewrite forallb_forall in A. apply Qle_bool_imp_le. apply A. apply in_seq. lia.
Qed.

(** Domain. *)
Lemma normalize_dom G : (exists G', normalize G = Some G') <-> (os_am G <= 20)%nat.
Proof.
  unfold normalize. pose proof (nth_error_Some norm_fac (os_am G)) as N. change (length norm_fac) with 21%nat in N.
  destruct (nth_error norm_fac (os_am G)) as [f|].
  - split; [intros _|eexists; reflexivity]. assert (os_am G < 21)%nat by (apply N; discriminate). lia.
  - split; [intros [G' E]; discriminate|]. intros H. exfalso. apply (proj2 N); [lia|reflexivity].
Qed.
Lemma normalize_shells_ok l : Forall (fun G => (os_am G <= 20)%nat) l ->
  exists l', normalize_shells l = Some l' /\ Forall2 (fun G G' => normalize G = Some G') l l'.
Proof.
  induction 1 as [|G l H _ [l' [E F]]]; [exists []; split; [reflexivity|constructor]|].
  destruct (proj2 (normalize_dom G) H) as [G' N]. exists (G' :: l'). split; [|constructor; assumption].
  unfold normalize_shells in *. cbn [mapM]. rewrite N, E. reflexivity.
Qed.

(** Positive coefficients. *)
Lemma rsum_pos A (f : A -> R) l : (forall a, In a l -> 0 <= f a) -> 0 <= @rsum Rcring (map f l).
Proof.
  induction l as [|a l IH]; intros H; [cbn; lra|]. cbn [map rsum]. specialize (IH (fun b I => H b (or_intror I))).
  pose proof (H a (or_introl eq_refl)). change (@cadd Rcring) with Rplus. lra.
Qed.
Lemma norm_sum_pos l (A : @shell Rcring) : pos_exps A -> (1 <= sh_n A)%nat -> (forall j, (j < sh_n A)%nat -> 0 < sh_coef A j) -> 0 < norm_sum l A.
Proof.
  intros Pe Hn Pc. rewrite norm_sum_ok.
  assert (T : forall j k, (j < sh_n A)%nat -> (k < sh_n A)%nat ->
    0 < sh_coef A j * sh_coef A k * Rpower (sh_alpha A j * sh_alpha A k) (nm2 l) / Rpower (sh_alpha A j + sh_alpha A k) (nm l)).
  { intros j k Hj Hk. repeat (apply Rmult_lt_0_compat); try apply Pc; try apply rpow_pos; try assumption. apply Rinv_0_lt_compat, rpow_pos. }
  unfold prim_sum. destruct (sh_n A) as [|n]; [lia|]. cbn [seq map rsum]. change (@cadd Rcring) with Rplus.
  assert (0 <= @rsum Rcring (map (fun i => @rsum Rcring (map (fun k => sh_coef A i * sh_coef A k * Rpower (sh_alpha A i * sh_alpha A k) (nm2 l) / Rpower (sh_alpha A i + sh_alpha A k) (nm l)) (seq 0 (S n)))) (seq 1 n))).
  { apply rsum_pos. intros i Hi. apply in_seq in Hi. apply rsum_pos. intros k Hk. apply in_seq in Hk. apply Rlt_le, T; lia. }
  assert (0 <= @rsum Rcring (map (fun k => sh_coef A 0%nat * sh_coef A k * Rpower (sh_alpha A 0%nat * sh_alpha A k) (nm2 l) / Rpower (sh_alpha A 0%nat + sh_alpha A k) (nm l)) (seq 1 n))).
  { apply rsum_pos. intros k Hk. apply in_seq in Hk. apply Rlt_le, T; lia. }
  pose proof (T 0%nat 0%nat ltac:(lia) ltac:(lia)). apply Rplus_lt_le_0_compat; [apply Rplus_lt_le_0_compat|]; assumption.
Qed.

(** Scaling. *)
Lemma norm_sum_scale l c (G : @oshell Rcring) : norm_sum l (os_sh (scale_coefs c G)) = c * c * norm_sum l (os_sh G).
Proof.
  rewrite !norm_sum_ok. cbn [scale_coefs os_sh sh_n sh_coef sh_alpha]. rewrite <- prim_sum_scale. apply (@prim_sum_ext Rcring). intros i j _ _.
  match goal with |- @eq _ ?x ?y => change (@eq R x y) end. field. apply Rgt_not_eq, rpow_pos.
Qed.
Lemma normalize_scale c G G1 G2 : 0 < c -> 0 < norm_sum (os_am G) (os_sh G) -> normalize G = Some G1 -> normalize (scale_coefs c G) = Some G2 ->
  forall j, (j < sh_n (os_sh G))%nat -> sh_coef (os_sh G2) j = sh_coef (os_sh G1) j.
Proof.
  intros Hc Ps N1 N2 j Hj. destruct (normalize_inv _ _ N1) as (f1 & E1 & _ & _ & _ & _ & C1). destruct (normalize_inv _ _ N2) as (f2 & E2 & _ & _ & _ & _ & C2).
  change (os_am (scale_coefs c G)) with (os_am G) in *. rewrite E1 in E2. injection E2 as <-. pose proof (norm_fac_pos _ _ E1) as Fp.
  rewrite C1, C2 by exact Hj. rewrite norm_sum_scale. cbn [scale_coefs os_sh sh_coef sh_alpha].
  replace (c * c * norm_sum (os_am G) (os_sh G) * Q2R f1) with ((c * c) * (norm_sum (os_am G) (os_sh G) * Q2R f1)) by ring.
  rewrite sqrt_mult by nra. rewrite sqrt_square by lra.
  pose proof (sqrt_lt_R0 (norm_sum (os_am G) (os_sh G) * Q2R f1) ltac:(nra)).
  match goal with |- @eq _ ?x ?y => change (@eq R x y) end. field. lra.
Qed.

(** One primitive. *)
Lemma norm_sum_one l (A : @shell Rcring) : sh_n A = 1%nat -> 0 < sh_alpha A 0%nat ->
  norm_sum l A = sh_coef A 0%nat * sh_coef A 0%nat * / Rpower 2 (nm l).
Proof.
  intros Hn Ha. rewrite norm_sum_ok, Hn. unfold prim_sum. cbn [seq map rsum]. change (@cadd Rcring) with Rplus. change (@c0 Rcring) with 0.
  set (c := sh_coef A 0%nat). set (a := sh_alpha A 0%nat) in *. replace (a + a) with (2 * a) by ring.
  rewrite <- !Rpower_mult_distr by lra. rewrite <- Rpower_plus. replace (nm2 l + nm2 l) with (nm l) by (unfold nm2; field).
  pose proof (rpow_pos 2 (nm l)). pose proof (rpow_pos a (nm l)). match goal with |- @eq _ ?x ?y => change (@eq R x y) end. field. lra.
Qed.
Lemma one_coef G G' : normalize G = Some G' -> sh_n (os_sh G) = 1%nat -> 0 < sh_alpha (os_sh G) 0%nat -> 0 < sh_coef (os_sh G) 0%nat ->
  0 < sh_coef (os_sh G') 0%nat /\ sh_coef (os_sh G') 0%nat * sh_coef (os_sh G') 0%nat = prim_norm2 (os_am G) (sh_alpha (os_sh G) 0%nat) * norm_rel (os_am G).
Proof.
  intros N Hn Ha Hc. destruct (normalize_inv _ _ N) as (f & Ef & _ & _ & _ & _ & C). rewrite Hn in C. rewrite C by lia. rewrite norm_sum_one by assumption.
  pose proof (norm_fac_pos _ _ Ef) as Fp. set (c := sh_coef (os_sh G) 0%nat) in *. set (a := sh_alpha (os_sh G) 0%nat) in *. set (l := os_am G) in *.
  pose proof (rpow_pos 2 (nm l)) as P2. pose proof (rpow_pos a (nm2 l)) as Pa.
  assert (Pt : 0 < c * c * / Rpower 2 (nm l) * Q2R f).
  { assert (0 < / Rpower 2 (nm l)) by (apply Rinv_0_lt_compat, P2). apply Rmult_lt_0_compat; [|exact Fp]. apply Rmult_lt_0_compat; [|assumption]. apply Rmult_lt_0_compat; exact Hc. }
  pose proof (sqrt_lt_R0 _ Pt) as Sp. split.
  - change (0 < c * (1 / sqrt (c * c * / Rpower 2 (nm l) * Q2R f) * Rpower a (nm2 l))).
    apply Rmult_lt_0_compat; [exact Hc|]. apply Rmult_lt_0_compat; [|exact Pa]. unfold Rdiv. rewrite Rmult_1_l. apply Rinv_0_lt_compat, Sp.
  - pose proof (norm_sq _ Pt) as Q. change (@cmul Rcring) with Rmult.
    transitivity (c * c * (1 / sqrt (c * c * / Rpower 2 (nm l) * Q2R f) * (1 / sqrt (c * c * / Rpower 2 (nm l) * Q2R f))) * (Rpower a (nm2 l) * Rpower a (nm2 l))).
    { match goal with |- @eq _ ?x ?y => change (@eq R x y) end. ring. }
    rewrite Q, <- Rpower_plus. replace (nm2 l + nm2 l) with (nm l) by (unfold nm2; field).
    unfold prim_norm2, norm_rel, norm_exact. rewrite (nth_error_nth _ _ _ Ef).
    pose proof (pair_value (/ (2 * a)) l) as V. pose proof PI_RGT_0 as Pi.
    assert (S3 : sqrt (2 * a / PI) ^ 3 = Rpower 2 (3/2) * Rpower a (3 / 2) / Rpower PI (3 / 2)).
    { rewrite <- Rpower_sqrt by (apply Rmult_lt_0_compat; [lra|apply Rinv_0_lt_compat; lra]). unfold Rdiv.
      rewrite <- Rpower_mult_distr by (try apply Rinv_0_lt_compat; lra). rewrite <- Rpower_mult_distr by lra.
      rewrite !Rpow_mult_distr.
      assert (P : forall x, Rpower x (/ 2) ^ 3 = Rpower x (3 / 2)).
      { intros x. rewrite <- Rpower_pow by apply rpow_pos. rewrite Rpower_mult. f_equal. cbn. lra. }
      rewrite !P. fold (3 / 2). f_equal. unfold Rpower. rewrite ln_Rinv by lra. rewrite <- exp_Ropp. f_equal. ring. }
    rewrite S3. unfold nm in *. replace (15 / 10) with (3 / 2) in * by lra. rewrite !Rpower_plus, !Rpower_pow in * by lra.
    replace 4 with (2 * 2) by ring. rewrite !Rpow_mult_distr.
    pose proof (rpow_pos 2 (3 / 2)). pose proof (rpow_pos a (3 / 2)). pose proof (rpow_pos PI (3 / 2)).
    assert (0 < IZR (odd_fact l)) by (apply IZR_lt, odd_fact_pos).
    assert (0 < 2 ^ l) by (apply pow_lt; lra). assert (0 < a ^ l) by (apply pow_lt; lra).
    match goal with |- @eq _ ?x ?y => change (@eq R x y) end. field. repeat split; lra.
Qed.

(** Applying it twice. *)
Lemma twice_ratio G G1 G2 : normalize G = Some G1 -> normalize G1 = Some G2 -> forall j k, (j < sh_n (os_sh G))%nat -> (k < sh_n (os_sh G))%nat ->
  sh_coef (os_sh G2) j * sh_coef (os_sh G1) k * Rpower (sh_alpha (os_sh G) k) (nm2 (os_am G)) =
  sh_coef (os_sh G2) k * sh_coef (os_sh G1) j * Rpower (sh_alpha (os_sh G) j) (nm2 (os_am G)).
Proof.
  intros N1 N2 j k Hj Hk. destruct (normalize_inv _ _ N1) as (f1 & E1 & A1 & n1 & _ & L1 & _). destruct (normalize_inv _ _ N2) as (f2 & E2 & _ & _ & _ & _ & C2).
  rewrite n1, A1, L1 in C2. rewrite !C2 by assumption. match goal with |- @eq _ ?x ?y => change (@eq R x y) end. ring.
Qed.
Lemma rpower_inj x y z : 0 < x -> 0 < y -> 0 < z -> Rpower x z = Rpower y z -> x = y.
Proof.
  intros Hx Hy Hz E. unfold Rpower in E. apply exp_inv in E. apply ln_inv; try assumption. apply (Rmult_eq_reg_l z); lra.
Qed.
Lemma nm2_pos l : 0 < nm2 l.
Proof. unfold nm2, nm. pose proof (pos_INR l). lra. Qed.
Lemma twice_same G G1 G2 : normalize G = Some G1 -> normalize G1 = Some G2 -> pos_exps (os_sh G) ->
  (forall j, (j < sh_n (os_sh G))%nat -> sh_coef (os_sh G2) j = sh_coef (os_sh G1) j) ->
  forall j k, (j < sh_n (os_sh G))%nat -> (k < sh_n (os_sh G))%nat -> sh_coef (os_sh G1) j <> 0 -> sh_coef (os_sh G1) k <> 0 ->
  sh_alpha (os_sh G) j = sh_alpha (os_sh G) k.
Proof.
  intros N1 N2 Pe S j k Hj Hk Nj Nk. pose proof (twice_ratio _ _ _ N1 N2 j k Hj Hk) as Q. rewrite !S in Q by assumption.
  apply (rpower_inj _ _ (nm2 (os_am G))); [apply Pe, Hj|apply Pe, Hk|apply nm2_pos|]. symmetry.
  apply (Rmult_eq_reg_l (sh_coef (os_sh G1) j * sh_coef (os_sh G1) k)); [|apply Rmult_integral_contrapositive; split; assumption].
  rewrite Q. match goal with |- @eq _ ?x ?y => change (@eq R x y) end. ring.
Qed.
Lemma twice_one G G1 G2 : normalize G = Some G1 -> normalize G1 = Some G2 -> sh_n (os_sh G) = 1%nat -> 0 < sh_alpha (os_sh G) 0%nat -> 0 < sh_coef (os_sh G) 0%nat ->
  sh_coef (os_sh G2) 0%nat = sh_coef (os_sh G1) 0%nat.
Proof.
  intros N1 N2 Hn Ha Hc. destruct (one_coef _ _ N1 Hn Ha Hc) as [P1 S1]. destruct (normalize_inv _ _ N1) as (f & _ & A1 & n1 & _ & L1 & _).
  destruct (one_coef _ _ N2) as [P2 S2]; [rewrite n1; exact Hn|rewrite L1; exact Ha|exact P1|]. rewrite A1, L1 in S2. rewrite <- S1 in S2.
  apply Rsqr_inj; [apply Rlt_le, P2|apply Rlt_le, P1|exact S2].
Qed.

(** Examples. *)
Lemma nx_pos l n : pos_exps (os_sh (nx_shell l n)).
Proof. intros j _. cbn. apply pow_lt. lra. Qed.
Lemma nx_sum l n : (1 <= n)%nat -> 0 < norm_sum l (os_sh (nx_shell l n)).
Proof. intros H. apply norm_sum_pos; [apply nx_pos|exact H|]. intros j _. cbn. lra. Qed.
Lemma nx_twice : exists G1 G2, normalize (nx_shell 0 2) = Some G1 /\ normalize G1 = Some G2 /\ exists j, (j < 2)%nat /\ sh_coef (os_sh G2) j <> sh_coef (os_sh G1) j.
Proof.
  destruct (proj2 (normalize_dom (nx_shell 0 2)) ltac:(cbn; lia)) as [G1 N1]. destruct (normalize_inv _ _ N1) as (f & Ef & A1 & n1 & _ & L1 & C1).
  destruct (proj2 (normalize_dom G1) ltac:(rewrite A1; cbn; lia)) as [G2 N2]. exists G1, G2. split; [exact N1|]. split; [exact N2|].
  assert (Nz : forall j, (j < 2)%nat -> sh_coef (os_sh G1) j <> 0).
  { intros j Hj. rewrite C1 by exact Hj. pose proof (norm_fac_pos _ _ Ef) as Fp. pose proof (nx_sum 0 2 ltac:(lia)) as Ps. change (os_am (nx_shell 0 2)) with 0%nat in *.
    set (s := norm_sum 0 (os_sh (nx_shell 0 2)) * Q2R f). assert (Pt : 0 < s) by (apply Rmult_lt_0_compat; assumption). pose proof (sqrt_lt_R0 _ Pt) as Sp.
    apply Rgt_not_eq. cbn [nx_shell os_sh sh_coef sh_alpha]. pose proof (rpow_pos (4 ^ j) (nm2 0)) as Rp. apply Rmult_lt_0_compat; [lra|].
    apply Rmult_lt_0_compat; [|exact Rp]. unfold Rdiv. rewrite Rmult_1_l. apply Rinv_0_lt_compat, Sp. }
  destruct (Req_dec (sh_coef (os_sh G2) 0%nat) (sh_coef (os_sh G1) 0%nat)) as [E0|E0]; [|exists 0%nat; split; [lia|exact E0]].
  destruct (Req_dec (sh_coef (os_sh G2) 1%nat) (sh_coef (os_sh G1) 1%nat)) as [E1|E1]; [|exists 1%nat; split; [lia|exact E1]].
  exfalso. assert (Q := twice_same _ _ _ N1 N2 (nx_pos 0 2)). specialize (Q ltac:(cbn; intros j Hj; destruct j as [|[|j]]; [exact E0|exact E1|lia])).
  specialize (Q 0%nat 1%nat ltac:(cbn; lia) ltac:(cbn; lia) (Nz 0%nat ltac:(lia)) (Nz 1%nat ltac:(lia))). cbn in Q. lra.
Qed.
Lemma nx_met l n : (1 <= n)%nat -> pos_exps (os_sh (nx_shell l n)) /\ 0 < norm_sum l (os_sh (nx_shell l n)).
Proof. intros H. split; [apply nx_pos|apply nx_sum, H]. Qed.
