(** The attraction of an electron to a nucleus (osoei_potential.c) as the limit of its repulsion with an ever sharper
    distribution of charge.  The left side uses only what characterises repulsion integrals, RealUnique.v [integrals]: the values
    for s functions and the derivatives with respect to the centres; neither the recurrences nor the starting values of
    osoei_potential.c appear in it. *)
From Coq Require Import List Arith ZArith QArith Reals Qreals Lra Lia.
Import ListNotations.
From Verif Require Import Base Cart QList HRRStep VRRStep Layout Mdir PairData Recur Deriv OneE OneEInt Potential PotentialSpec PotentialInt
  OSFamily EndToEnd EndToEndProof Normalize BoysReal OSMoves DerivKernel RealDeriv RealRepulsive RealDerivKernel RealUnique.
Local Open Scope R_scope.

(** ** Specification *)
(** Two s functions at [X] whose product is exp (- q |r - X|^2), and the factor that makes the total charge of the product 1. *)
Definition sharp (q : R) (X : nat -> R) : @gauss Rcring := @Gauss Rcring (q / 2) (fun d => X (idx_of_dir d)).
Definition unit_charge (q : R) : R := q / PI * sqrt (q / PI).
Definition two_pi52 : R := 2 * (PI * PI * sqrt PI).
(** Potential energy of two contracted functions in the field of [nc] nuclei, each smeared to a Gaussian of exponent [q]. *)
Definition smeared (H : @gauss Rcring -> @gauss Rcring -> @gauss Rcring -> @gauss Rcring -> qrt -> R)
  (nc : nat) (Zc : nat -> R) (X : nat -> nat -> R) (A B : @shell Rcring) (a b : Cart.gauss) (q : R) : R :=
  - sum_to nc (fun c => sum_to (sh_n A) (fun i => sum_to (sh_n B) (fun j =>
      Zc c * sh_coef A i * sh_coef B j *
      (unit_charge q * H (gauss_at A i) (gauss_at B j) (sharp q (X c)) (sharp q (X c)) (Q4 a b (G 0 0 0) (G 0 0 0)))))).

(** ** Limits *)
Lemma cv_const x : Un_cv (fun _ => x) x.
Proof. intros e He. exists 0%nat. intros. rewrite R_dist_eq. exact He. Qed.
Lemma cv_ext f g l : (forall n, f n = g n) -> Un_cv f l -> Un_cv g l.
Proof. intros E H e He. destruct (H e He) as [N HN]. exists N. intros n Hn. rewrite <- E. apply HN, Hn. Qed.
Lemma cv_eq f l l' : Un_cv f l -> l = l' -> Un_cv f l'.
Proof. intros H <-. exact H. Qed.
Lemma cv_sum n f l : (forall i, (i < n)%nat -> Un_cv (fun k => f k i) (l i)) -> Un_cv (fun k => sum_to n (f k)) (sum_to n l).
Proof.
  induction n as [|n IH]; intros H; cbn [sum_to]; [apply cv_const|]. apply (CV_plus (fun k => sum_to n (f k)) (fun k => f k n)); [|apply H; lia].
  apply IH. intros i Hi. apply H. lia.
Qed.

Lemma gam_raise a : gam a = 0%nat \/ exists d a', a = up d a'.
Proof.
  destruct a as [x y z]. destruct x as [|x]; [|right; exists DX, (G x y z); reflexivity].
  destruct y as [|y]; [|right; exists DY, (G 0 y z); reflexivity].
  destruct z as [|z]; [left; reflexivity|right; exists DZ, (G 0 0 z); reflexivity].
Qed.
Lemma gam_up d a : gam (up d a) = S (gam a).
Proof. destruct a, d; unfold gam; cbn; lia. Qed.
Lemma gam_down d a a' : down d a = Some a' -> S (gam a') = gam a.
Proof. destruct a as [x y z], d; cbn; [destruct x|destruct y|destruct z]; try discriminate; injection 1 as <-; unfold gam; cbn; lia. Qed.

(** ** The recurrences converge *)
Section Conv.
Variables (pa pb pc : dir -> R) (h : R) (M : nat) (s : nat -> R) (T : nat -> Cart.gauss -> Cart.gauss -> R).
Hypothesis HT : @attractions Rcring pa pb pc h M s T.
Variables (K : nat -> @vcoef Rcring) (V : nat -> nat -> qrt -> R) (w : nat -> R).
Hypothesis HV : forall n, @os_family Rcring (K n) (V n).
Hypothesis Hpa : forall n d, k_PA (K n) CI d = pa d.
Hypothesis Hpb : forall n d, k_PA (K n) CJ d = pb d.
Hypothesis Hh : forall n, k_h (K n) SB = h.
Hypothesis Hpc : forall d, Un_cv (fun n => k_aPQ (K n) SB d) (- pc d).
Hypothesis Ha : Un_cv (fun n => k_a (K n) SB) (-1).
Hypothesis Hs : forall N, (N <= M)%nat -> Un_cv (fun n => w n * V n N OSFamily.q0) (s N).
Let g0 := G 0 0 0.
Let W n N a b : R := w n * V n N (Q4 a b g0 g0).

Lemma os_at n c d N a b : cside c = SB ->
  V n N (craise c d (Q4 a b g0 g0)) =
  k_PA (K n) c d * V n N (Q4 a b g0 g0) + k_aPQ (K n) SB d * V n (S N) (Q4 a b g0 g0)
   + same_side_term (K n) (V n) SB N CI d (Q4 a b g0 g0) + same_side_term (K n) (V n) SB N CJ d (Q4 a b g0 g0).
Proof.
  intros C. pose proof (HV n c d N (Q4 a b g0 g0)) as E. cbn zeta in E. rewrite C in E. cbn [lefts rights other] in E.
  assert (Z1 : @other_side_term Rcring (K n) (V n) N CK d (Q4 a b g0 g0) = 0) by (unfold other_side_term, clower; destruct d; reflexivity).
  assert (Z2 : @other_side_term Rcring (K n) (V n) N CL d (Q4 a b g0 g0) = 0) by (unfold other_side_term, clower; destruct d; reflexivity).
  rewrite Z1, Z2 in E. rewrite E. flat. match goal with |- ?x = ?y => change (@eq R x y) end. ring.
Qed.
Definition low (x : R) d (a : Cart.gauss) (f : Cart.gauss -> R) (f' : Cart.gauss -> R) : R :=
  match down d a with Some a' => INR (gexp d a) * h * (f a' + x * f' a') | None => 0 end.
Lemma low_cv (x : nat -> R) d a f f' l l' : Un_cv x (-1) ->
  (forall a', down d a = Some a' -> Un_cv (fun n => f n a') (l a') /\ Un_cv (fun n => f' n a') (l' a')) ->
  Un_cv (fun n => low (x n) d a (f n) (f' n)) (h * @lowered Rcring d a (fun a' => l a' - l' a')).
Proof.
  intros X H. unfold low, lowered. destruct (down d a) as [a'|].
  - destruct (H a' eq_refl) as [A B]. eapply cv_eq.
    + apply CV_mult; [apply cv_const|]. apply CV_plus; [exact A|]. apply CV_mult; [exact X|exact B].
    + rewrite ofnat_INR. flat. match goal with |- ?x = ?y => change (@eq R x y) end. ring.
  - eapply cv_eq; [apply cv_const|]. change (@c0 Rcring) with 0. match goal with |- ?x = ?y => change (@eq R x y) end. ring.
Qed.
Lemma W_left n N d a b : W n N (up d a) b = pa d * W n N a b + k_aPQ (K n) SB d * W n (S N) a b
  + low (k_a (K n) SB) d a (fun a' => W n N a' b) (fun a' => W n (S N) a' b)
  + low (k_a (K n) SB) d b (fun b' => W n N a b') (fun b' => W n (S N) a b').
Proof.
  unfold W. change (Q4 (up d a) b g0 g0) with (craise CI d (Q4 a b g0 g0)). rewrite os_at by reflexivity.
  rewrite Hpa. unfold same_side_term, clower, low. cbn [cget cset qa qb qc qd]. rewrite !Hh, !ofnat_INR.
  destruct (down d a), (down d b); flat; change (@c0 Rcring) with 0; match goal with |- ?x = ?y => change (@eq R x y) end; ring.
Qed.
Lemma W_right n N d a b : W n N a (up d b) = pb d * W n N a b + k_aPQ (K n) SB d * W n (S N) a b
  + low (k_a (K n) SB) d a (fun a' => W n N a' b) (fun a' => W n (S N) a' b)
  + low (k_a (K n) SB) d b (fun b' => W n N a b') (fun b' => W n (S N) a b').
Proof.
  unfold W. change (Q4 a (up d b) g0 g0) with (craise CJ d (Q4 a b g0 g0)). rewrite os_at by reflexivity.
  rewrite Hpb. unfold same_side_term, clower, low. cbn [cget cset qa qb qc qd]. rewrite !Hh, !ofnat_INR.
  destruct (down d a), (down d b); flat; change (@c0 Rcring) with 0; match goal with |- ?x = ?y => change (@eq R x y) end; ring.
Qed.
Theorem family_cv : forall k N a b, (gam a + gam b <= k)%nat -> (N + gam a + gam b <= M)%nat -> Un_cv (fun n => W n N a b) (T N a b).
Proof.
  destruct HT as (TL & TR & T0). induction k as [|k IH]; intros N a b Hk HM.
  - assert (a = G 0 0 0) as -> by (destruct a as [x y z]; unfold gam in *; cbn in *; f_equal; lia).
    assert (b = G 0 0 0) as -> by (destruct b as [x y z]; unfold gam in *; cbn in *; f_equal; lia).
    rewrite T0 by lia. apply Hs. lia.
  - destruct (gam_raise a) as [Za|(d & a' & ->)]; [destruct (gam_raise b) as [Zb|(d & b' & ->)]|].
    + apply IH; lia.
    + rewrite TR. eapply cv_ext; [intros n; symmetry; apply W_right|]. rewrite gam_up in *. eapply cv_eq.
      * apply CV_plus; [apply CV_plus; [apply CV_plus|]|].
        -- apply CV_mult; [apply cv_const|apply IH; lia].
        -- apply CV_mult; [apply Hpc|apply IH; lia].
        -- apply (@low_cv (fun n => k_a (K n) SB) d a (fun n a' => W n N a' b') (fun n a' => W n (S N) a' b') (fun a' => T N a' b') (fun a' => T (S N) a' b') Ha).
           intros a' E. apply gam_down in E. split; apply IH; lia.
        -- apply (@low_cv (fun n => k_a (K n) SB) d b' (fun n c => W n N a c) (fun n c => W n (S N) a c) (fun c => T N a c) (fun c => T (S N) a c) Ha).
           intros c E. apply gam_down in E. split; apply IH; lia.
      * flat. match goal with |- ?x = ?y => change (@eq R x y) end. ring.
    + rewrite TL. eapply cv_ext; [intros n; symmetry; apply W_left|]. rewrite gam_up in *. eapply cv_eq.
      * apply CV_plus; [apply CV_plus; [apply CV_plus|]|].
        -- apply CV_mult; [apply cv_const|apply IH; lia].
        -- apply CV_mult; [apply Hpc|apply IH; lia].
        -- apply (@low_cv (fun n => k_a (K n) SB) d a' (fun n c => W n N c b) (fun n c => W n (S N) c b) (fun c => T N c b) (fun c => T (S N) c b) Ha).
           intros c E. apply gam_down in E. split; apply IH; lia.
        -- apply (@low_cv (fun n => k_a (K n) SB) d b (fun n c => W n N a' c) (fun n c => W n (S N) a' c) (fun c => T N a' c) (fun c => T (S N) a' c) Ha).
           intros c E. apply gam_down in E. split; apply IH; lia.
      * flat. match goal with |- ?x = ?y => change (@eq R x y) end. ring.
Qed.
End Conv.

(** ** Coefficients and starting values converge *)
Section Start.
Variable c52 : R.
Hypothesis Hc : c52 * c52 = two_pi52.
Variable qs : nat -> R.
Hypothesis Hq : forall n, 0 < qs n.
Hypothesis Hinf : cv_infty qs.
Variables (al1 al2 : R) (x1 x2 X : nat -> R).
Hypothesis H1 : 0 < al1.
Hypothesis H2 : 0 < al2.
Let p := al1 + al2.
Let ga := @Gauss Rcring al1 (fun d => x1 (idx_of_dir d)).
Let gb := @Gauss Rcring al2 (fun d => x2 (idx_of_dir d)).
Let ratio n := qs n / (p + qs n).

Lemma ratio_cv : Un_cv ratio 1.
Proof.
  assert (P : 0 < p) by (unfold p; lra).
  apply cv_ext with (f := fun n => 1 - p * / (p + qs n)).
  - intros n. unfold ratio. field. specialize (Hq n). lra.
  - eapply cv_eq; [apply CV_minus; [apply cv_const|apply CV_mult; [apply cv_const|]]|].
    + apply cv_infty_cv_0. intros x. destruct (Hinf x) as [N HN]. exists N. intros n Hn. specialize (HN n Hn). lra.
    + lra.
Qed.
Lemma sharp_gp n : gp (sharp (qs n) X) (sharp (qs n) X) = qs n.
Proof. unfold gp, sharp. cbn [g_exp]. flat. match goal with |- ?x = ?y => change (@eq R x y) end. field. Qed.
Lemma sharp_cen n d : @gcen Rcring Rinv (sharp (qs n) X) (sharp (qs n) X) d = X (idx_of_dir d).
Proof.
  unfold gcen. rewrite sharp_gp. unfold sharp. cbn [g_exp g_at]. flat. match goal with |- ?x = ?y => change (@eq R x y) end.
  field. specialize (Hq n). lra.
Qed.
Lemma rho_ratio n : @rho Rcring Rinv ga gb (sharp (qs n) X) (sharp (qs n) X) = p * ratio n.
Proof. unfold rho. rewrite sharp_gp. unfold gp, ga, gb, ratio, p. cbn [g_exp]. flat. match goal with |- ?x = ?y => change (@eq R x y) end.
  field. specialize (Hq n). lra. Qed.
Lemma cen_P d : @gcen Rcring Rinv ga gb d = t_P (R := Rcring) Rinv al1 x1 al2 x2 (idx_of_dir d).
Proof. reflexivity. Qed.
Let K n := @eri_coefs Rcring Rinv (/ 2) ga gb (sharp (qs n) X) (sharp (qs n) X).
Lemma K_aPQ d : Un_cv (fun n => k_aPQ (K n) SB d) (- p_PC (R := Rcring) (t_P (R := Rcring) Rinv al1 x1 al2 x2) X (idx_of_dir d)).
Proof.
  assert (P : 0 < p) by (unfold p; lra).
  apply cv_ext with (f := fun n => - ratio n * (t_P (R := Rcring) Rinv al1 x1 al2 x2 (idx_of_dir d) - X (idx_of_dir d))).
  - intros n. unfold K, eri_coefs. cbn [k_aPQ]. rewrite rho_ratio, sharp_cen, cen_P. unfold gp, ga, gb. cbn [g_exp]. flat.
    fold p. match goal with |- ?x = ?y => change (@eq R x y) end. field. unfold p in P |- *; lra.
  - unfold p_PC. eapply cv_eq; [apply CV_mult; [apply CV_opp, ratio_cv|apply cv_const]|]. flat.
    match goal with |- ?x = ?y => change (@eq R x y) end. ring.
Qed.
Lemma K_a : Un_cv (fun n => k_a (K n) SB) (-1).
Proof.
  assert (P : 0 < p) by (unfold p; lra).
  apply cv_ext with (f := fun n => - ratio n).
  - intros n. unfold K, eri_coefs. cbn [k_a]. rewrite rho_ratio. unfold gp, ga, gb. cbn [g_exp]. flat.
    fold p. match goal with |- ?x = ?y => change (@eq R x y) end. field. unfold p in P |- *; lra.
  - apply CV_opp, ratio_cv.
Qed.
Let u n N := @eri_start Rcring Rinv exp sqrt boysR c52 ga gb (sharp (qs n) X) (sharp (qs n) X) N.
Lemma u_eq n N : unit_charge (qs n) * u n N =
  2 * PI * sqrt (ratio n) * / p * exp (- (al1 * al2 * / p * between (fun d => x1 (idx_of_dir d)) (fun d => x2 (idx_of_dir d)))) *
  boysR N (p * ratio n * between (fun d => t_P (R := Rcring) Rinv al1 x1 al2 x2 (idx_of_dir d)) (fun d => X (idx_of_dir d))).
Proof.
  assert (P : 0 < p) by (unfold p; lra). pose proof (Hq n) as Q. pose proof PI_RGT_0 as PP.
  unfold u, eri_start. rewrite rho_ratio, sharp_gp. unfold overlap_exp. rewrite sharp_gp.
  assert (Z : @dist2 Rcring (g_at (sharp (qs n) X)) (g_at (sharp (qs n) X)) = 0).
  { unfold dist2. flat. match goal with |- ?x = ?y => change (@eq R x y) end. ring. }
  rewrite Z. unfold dist2. rewrite !sharp_cen, !cen_P. unfold between, gp, ga, gb. cbn [g_exp g_at]. flat. fold p.
  rewrite Hc, Rmult_0_r, Ropp_0, exp_0. unfold unit_charge, two_pi52.
  assert (E : sqrt (qs n / PI) * sqrt PI * sqrt (/ (p + qs n)) = sqrt (ratio n)).
  { rewrite <- !sqrt_mult_alt; [|apply Rmult_le_pos; [apply Rlt_le, Rdiv_lt_0_compat; assumption|lra]|apply Rlt_le, Rdiv_lt_0_compat; assumption].
    f_equal. unfold ratio. field. split; lra. }
  rewrite <- E. match goal with |- ?x = ?y => change (@eq R x y) end.
  match goal with |- context [boysF ?n ?w] => generalize (boysF n w); intro end.
  match goal with |- context [exp ?w] => generalize (exp w); intro end.
  field. repeat split; lra.
Qed.
Lemma start_cv M N : Un_cv (fun n => unit_charge (qs n) * u n N) (p_start (R := Rcring) Rinv exp PI (fun _ x n => boysR n x) M al1 x1 al2 x2 X N).
Proof.
  eapply cv_ext; [intros n; symmetry; apply u_eq|].
  set (B := between _ _). set (D := between (fun d => t_P (R := Rcring) Rinv al1 x1 al2 x2 (idx_of_dir d)) _).
  eapply cv_eq.
  - apply CV_mult; [apply CV_mult; [apply CV_mult; [apply CV_mult; [apply cv_const|]|apply cv_const]|apply cv_const]|].
    + apply (continuity_seq sqrt ratio 1); [apply sqrt_continuity_pt; lra|exact ratio_cv].
    + apply (continuity_seq (boysR N) (fun n => p * ratio n * D) (p * 1 * D)).
      * apply derivable_continuous_pt. exists (- boysR (S N) (p * 1 * D)). apply boysR_der.
      * apply CV_mult; [apply CV_mult; [apply cv_const|exact ratio_cv]|apply cv_const].
  - rewrite sqrt_1. unfold p_start. rewrite ofnat_INR. unfold t_mu, t_oop. flat. fold p.
    match goal with |- ?x = ?y => change (@eq R x y) end.
    replace (p * 1 * D) with (p_PC2 (R := Rcring) (t_P (R := Rcring) Rinv al1 x1 al2 x2) X * p).
    + replace (- (al1 * al2 * / p) * p_AB2 (R := Rcring) x1 x2) with (- (al1 * al2 * / p * B)).
      * cbn [INR]. ring.
      * unfold B, between, p_AB2, t_AB2. cbn [idx_of_dir]. flat. match goal with |- ?x = ?y => change (@eq R x y) end. ring.
    + unfold D, between, p_PC2, p_PC. cbn [idx_of_dir]. flat. match goal with |- ?x = ?y => change (@eq R x y) end. ring.
Qed.
Theorem prim_cv M T : @prim_attractions Rcring Rinv exp (/ 2) PI (fun _ x n => boysR n x) M al1 x1 al2 x2 X T ->
  forall a b, (gam a + gam b <= M)%nat ->
  Un_cv (fun n => unit_charge (qs n) * @prim_eri Rcring Rinv exp sqrt boysR (/ 2) c52 ga gb (sharp (qs n) X) (sharp (qs n) X) (Q4 a b (G 0 0 0) (G 0 0 0))) (T 0%nat a b).
Proof.
  intros HT a b HM.
  apply (@family_cv _ _ _ _ _ _ _ HT K (fun n => os_value (K n) (u n)) (fun n => unit_charge (qs n))) with (k := (gam a + gam b)%nat); try lia.
  - intros n. apply os_value_family.
  - intros n d. unfold K, eri_coefs. cbn [k_PA]. reflexivity.
  - intros n d. reflexivity.
  - intros n. reflexivity.
  - exact K_aPQ.
  - exact K_a.
  - intros N _. eapply cv_ext; [|apply start_cv]. intros n. cbn beta. rewrite os_value_start. reflexivity.
Qed.
End Start.

Lemma rsum_sum n f : @rsum Rcring (map f (seq 0 n)) = sum_to n f.
Proof.
  induction n as [|n IH]; [reflexivity|]. rewrite rsum_snoc. cbn [sum_to]. rewrite IH. reflexivity.
Qed.
Lemma sum_ext n f g : (forall i, (i < n)%nat -> f i = g i) -> sum_to n f = sum_to n g.
Proof. induction n as [|n IH]; intros H; [reflexivity|]. cbn [sum_to]. rewrite IH, H by (intros; auto with arith). reflexivity. Qed.

Definition positive (A : @shell Rcring) : Prop := forall i, (i < sh_n A)%nat -> 0 < sh_alpha A i.

Theorem attraction_limit H : integrals two_pi52 H -> forall nc Zc X (A B : @oshell Rcring) W0 out,
  (os_am A <= 18)%nat -> (os_am B <= 18)%nat -> (ncart (os_am A) * ncart (os_am B) <= length out)%nat -> shaped (os_am A) (os_am B) W0 ->
  positive (os_sh A) -> positive (os_sh B) ->
  exists out', @compute_potential Rcring Rinv exp (/ 2) PI (fun _ x n => boysR n x) nc Zc X A B W0 out = Some out' /\
    forall a b, gam a = os_am A -> gam b = os_am B -> exists v, rdv out' (pos a * ncart (os_am B) + pos b) = Some v /\
      forall qs, (forall n, 0 < qs n) -> cv_infty qs -> Un_cv (fun n => smeared H nc Zc X (os_sh A) (os_sh B) a b (qs n)) v.
Proof.
  intros HH nc Zc X A B W0 out HA HB Hl HW PA PB.
  assert (Hc : sqrt two_pi52 * sqrt two_pi52 = two_pi52).
  { apply sqrt_sqrt. unfold two_pi52. pose proof PI_RGT_0. pose proof (sqrt_pos PI). nra. }
  destruct (@potential_ok Rcring Rinv exp (/ 2) PI (fun _ x n => boysR n x) nc Zc X A B W0 out
     (fun c i j => @prim_pfam Rcring Rinv exp (/ 2) PI (fun _ x n => boysR n x) (os_am A + os_am B) (sh_alpha (os_sh A) i) (sh_pos (os_sh A))
        (sh_alpha (os_sh B) j) (sh_pos (os_sh B)) (X c)) HA HB Hl HW) as (out' & E & _ & V & _).
  { intros. apply prim_pfam_ok. }
  exists out'. split; [exact E|]. intros a b Ga Gb. rewrite V by assumption. eexists. split; [reflexivity|].
  intros qs Hq Hinf. unfold smeared. 
  unfold centre_sum, prim_sum. rewrite rsum_sum. apply CV_opp.
  apply cv_sum. intros c Hcn. rewrite rsum_sum. apply cv_sum. intros i Hi. rewrite rsum_sum. apply cv_sum. intros j Hj.
  eapply cv_eq.
  - apply CV_mult; [apply cv_const|].
    eapply cv_ext; [|refine (@prim_cv (sqrt two_pi52) Hc qs Hq Hinf (sh_alpha (os_sh A) i) (sh_alpha (os_sh B) j) (sh_pos (os_sh A)) (sh_pos (os_sh B)) (X c) (PA i Hi) (PB j Hj)
       (os_am A + os_am B) _ (@prim_pfam_ok Rcring Rinv exp (/ 2) PI (fun _ x n => boysR n x) _ _ _ _ _ _) a b _); lia].
    intros n. cbn beta. f_equal. symmetry. apply (@integrals_unique _ _ Hc H HH). unfold pos4, gauss_at, sharp. cbn [g_exp].
    pose proof (PA i Hi). pose proof (PB j Hj). pose proof (Hq n). repeat split; try assumption; lra.
  - flat. match goal with |- ?x = ?y => change (@eq R x y) end. ring.
Qed.

(** ** A case *)
(** Shells of [l] with two primitives and charge 3 at [w]. *)
Definition pc_shell (l : nat) (w : R) : @oshell Rcring := @OS Rcring l (@Shell Rcring 2 (fun _ => w) (fun i => INR (S i)) (fun i => INR (S i))).
Definition pc_work (am1 am2 : nat) : @wmem Rcring := fun i j => if (i <=? am1)%nat && (j <=? am2)%nat then repeat None (cap am1 am2) else [].
Lemma pc_met l l' w w' : positive (os_sh (pc_shell l w)) /\ positive (os_sh (pc_shell l' w')) /\ shaped l l' (pc_work l l') /\
  integrals two_pi52 (@prim_eri Rcring Rinv exp sqrt boysR (/ 2) (sqrt two_pi52)) /\
  (forall n, 0 < INR (S n)) /\ cv_infty (fun n => INR (S n)).
Proof.
  assert (P : forall l w, positive (os_sh (pc_shell l w))) by (intros ? ? i _; unfold pc_shell; cbn [os_sh sh_alpha]; apply lt_0_INR; lia).
  split; [apply P|]. split; [apply P|]. split.
  { intros i j. unfold pc_work. destruct ((i <=? l)%nat && (j <=? l')%nat); [apply repeat_length|reflexivity]. }
  split. { apply prim_integrals. apply sqrt_sqrt. unfold two_pi52. pose proof PI_RGT_0. pose proof (sqrt_pos PI). nra. }
  split; [intros n; apply lt_0_INR; lia|].
  intros M. destruct (Rlt_le_dec M 0) as [L|L].
  - exists 0%nat. intros n _. apply Rlt_trans with (1 := L). apply lt_0_INR. lia.
  - destruct (archimed M) as [U _]. exists (Z.to_nat (Rdefinitions.up M)). intros n Hn. apply Rlt_le_trans with (IZR (Rdefinitions.up M)); [lra|].
    assert (0 <= Rdefinitions.up M)%Z by (apply le_IZR; lra). rewrite INR_IZR_INZ. apply IZR_le. lia.
Qed.
(** The smeared charge is a unit charge: [unit_charge q] times the integral (pi / q)^(3/2) of exp (- q r^2) is 1. *)
Lemma unit_is_one q : 0 < q -> unit_charge q * (sqrt (PI / q) * sqrt (PI / q) * sqrt (PI / q)) = 1.
Proof.
  intros Q. pose proof PI_RGT_0. unfold unit_charge. rewrite sqrt_sqrt by (apply Rlt_le, Rdiv_lt_0_compat; lra).
  replace (q / PI * sqrt (q / PI) * (PI / q * sqrt (PI / q))) with (sqrt (q / PI) * sqrt (PI / q)) by (field; lra).
  rewrite <- sqrt_mult_alt by (apply Rlt_le, Rdiv_lt_0_compat; lra). replace (q / PI * (PI / q)) with 1 by (field; lra). apply sqrt_1.
Qed.
(** One pair of s functions with the nucleus at their common place: 2 pi / p. *)
Lemma s_on_nucleus al1 al2 (x : nat -> R) : 0 < al1 -> 0 < al2 ->
  p_start (R := Rcring) Rinv exp PI (fun _ x n => boysR n x) 0 al1 x al2 x x 0 = 2 * PI / (al1 + al2).
Proof.
  intros A B. unfold p_start. rewrite ofnat_INR.
  assert (E1 : p_PC2 (R := Rcring) (t_P (R := Rcring) Rinv al1 x al2 x) x = 0).
  { unfold p_PC2, p_PC, t_P, t_oop. flat. match goal with |- ?x = ?y => change (@eq R x y) end. field. lra. }
  assert (E2 : p_AB2 (R := Rcring) x x = 0).
  { unfold p_AB2, t_AB2. flat. match goal with |- ?x = ?y => change (@eq R x y) end. ring. }
  rewrite E1, E2. unfold t_oop. flat. rewrite Rmult_0_l, Rmult_0_r, exp_0, boys_at_zero. match goal with |- ?x = ?y => change (@eq R x y) end.
  cbn [INR]. field. lra.
Qed.
