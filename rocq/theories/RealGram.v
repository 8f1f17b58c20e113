(** Overlap and kinetic energy integrals (osoei_overlap.c, osoei_ke.c) over the real numbers are integrals over space of products
    of contracted Cartesian Gaussians and of their gradients; so the matrices the code computes are positive semidefinite.
    The specification is the definition of the integrals; it uses neither the recurrences nor the factorisation of the code. *)
From Coq Require Import List Arith ZArith Reals Lra Lia.
Import ListNotations.
From Verif Require Import Base ConstantsProof Cart Mdir PairData Recur Deriv OneE OneESpec OneEInt EndToEnd Normalize NormPos BoysReal BoysRealLong GaussInt
  RealLine RealCharge RealDeriv RealUnique PointCharge RealOneE.
Local Open Scope R_scope.

Local Notation integral1 := RealLine.line.
Local Notation closed1 := RealOneE.line.

(** ** Specification *)
(** Iterated integral over space; [RealLine.line f L]: the integral of [f] over the whole line is [L]. *)
Definition space (f : R -> R -> R -> R) (L : R) : Prop := exists (f1 : R -> R -> R) (f2 : R -> R),
  (forall x y, integral1 (fun z => f x y z) (f1 x y)) /\ (forall x, integral1 (fun y => f1 x y) (f2 x)) /\ integral1 f2 L.
(** Cartesian Gaussian. *)
Definition gto (a : @EndToEnd.gauss Rcring) (u : Cart.gauss) (x y z : R) : R :=
  (x - g_at a DX) ^ gx u * (y - g_at a DY) ^ gy u * (z - g_at a DZ) ^ gz u *
  exp (- (g_exp a * ((x - g_at a DX) * (x - g_at a DX) + (y - g_at a DY) * (y - g_at a DY) + (z - g_at a DZ) * (z - g_at a DZ)))).
(** Contracted function of a shell: component [u]. *)
Definition orbital (S : @shell Rcring) (u : Cart.gauss) (x y z : R) : R :=
  sum_to (sh_n S) (fun i => sh_coef S i * gto (gauss_at S i) u x y z).
(** [g] is the partial derivative of [f] in direction [d]. *)
Definition partial (d : dir) (f g : R -> R -> R -> R) : Prop := forall x y z,
  match d with
  | DX => derivable_pt_lim (fun t => f t y z) x (g x y z)
  | DY => derivable_pt_lim (fun t => f x t z) y (g x y z)
  | DZ => derivable_pt_lim (fun t => f x y t) z (g x y z)
  end.

(** ** Integrals over the line *)
Lemma line_unique f L M : integral1 f L -> integral1 f M -> L = M.
Proof.
  intros H H'. destruct (Req_dec L M) as [|N]; [assumption|exfalso]. set (e := Rabs (L - M) / 3).
  assert (He : 0 < e) by (unfold e; pose proof (Rabs_pos_lt (L - M) ltac:(lra)); lra).
  destruct (H e He) as (X & X1 & HX). destruct (H' e He) as (Y & Y1 & HY).
  set (T := Rmax X Y). pose proof (Rmax_l X Y). pose proof (Rmax_r X Y). fold T in H0, H1.
  destruct (HX T T H0 H0) as (P & P1 & P2). destruct (HY T T H1 H1) as (Q & Q1 & Q2).
  destruct (MVT_cor2 (fun y => P y - Q y) (fun y => f y - f y) (- T) T ltac:(lra)) as (c & E & _).
  { intros y Hy. apply (derivable_pt_lim_minus P Q); [apply P1|apply Q1]; lra. }
  assert (E' : P T - P (- T) = Q T - Q (- T)) by lra. rewrite E' in P2.
  assert (K : Rabs (L - M) <= 2 * e) by (apply abs_both in P2; apply abs_both in Q2; apply Rabs_le; lra).
  assert (Ee : 3 * e = Rabs (L - M)) by (unfold e; field). lra.
Qed.
Lemma line_pi : integral1 gau (sqrt PI).
Proof.
  assert (HT : tends (fun T => T * boysR 0 (T * T)) (sqrt PI / 2)).
  { intros e He. destruct (exp_beats 0 (e / (sqrt PI / 2))) as (X & X1 & HX).
    { pose proof (sqrt_lt_R0 PI PI_RGT_0). apply Rdiv_lt_0_compat; lra. }
    exists X. split; [exact X1|]. intros T HT. assert (TT : T <= T * T) by (apply sq_above; lra).
    destruct (gauss_limit (T * T) ltac:(nra)) as [U V]. rewrite sqrt_square in U, V by lra.
    specialize (HX (T * T) ltac:(lra)). cbn [pow] in HX. rewrite Rminus_0_r, Rmult_1_r, sqrt_square in HX by lra.
    pose proof (exp_pos (- (T * T))) as EP. pose proof (sqrt_lt_R0 PI PI_RGT_0) as SP. rewrite Rabs_right in HX by nra.
    assert (exp (- (T * T)) <= e / (sqrt PI / 2)) by nra.
    assert (exp (- (T * T)) * (sqrt PI / 2) <= e).
    { replace e with (e / (sqrt PI / 2) * (sqrt PI / 2)) by (field; lra). apply Rmult_le_compat_r; lra. }
    rewrite Rabs_left1 by lra. lra. }
  intros e He. destruct (HT (e / 2) ltac:(lra)) as (X & X1 & HX). exists X. split; [exact X1|]. intros S T HS HT'.
  destruct (prim_of gau (- S) T ltac:(lra) (fun t _ => gau_cont t) (@continuity_implies_RiemannInt gau (- S) T ltac:(lra) (fun t _ => gau_cont t))) as (P & HP & _).
  exists P. split; [exact HP|]. pose proof (boys0_scaled T T P ltac:(lra) ltac:(intros; apply HP; lra)) as E1.
  pose proof (boys0_scaled S S (fun y => - P (- y)) ltac:(lra)) as E2.
  assert (E3 : S * boysR 0 (S * S) = - P (- S) - - P (- 0)).
  { apply E2. intros s Hs. pose proof (derivable_pt_lim_opp _ _ _ (derivable_pt_lim_comp (fun y => - y) P s _ _ (derivable_pt_lim_opp id s 1 (derivable_pt_lim_id s)) (HP (- s) ltac:(lra)))) as D.
    replace (gau s) with (- (gau (- s) * - (1))); [exact D|]. unfold gau. replace (- s * - s) with (s * s) by ring. ring. }
  rewrite Ropp_0 in E3. pose proof (HX T HT') as A. pose proof (HX S HS) as B. rewrite E1 in A. rewrite E3 in B. apply abs_both in A. apply abs_both in B. apply Rabs_le. lra.
Qed.

(** ** One direction *)
(** Factor of a Gaussian in one direction, and its derivative. *)
Definition fac (al A : R) (i : nat) (x : R) : R := (x - A) ^ i * exp (- (al * ((x - A) * (x - A)))).
Definition dfac (al A : R) (i : nat) (x : R) : R := INR i * fac al A (i - 1) x - 2 * al * fac al A (S i) x.
Lemma pow_der A i x : derivable_pt_lim (fun y => (y - A) ^ i) x (INR i * (x - A) ^ (i - 1)).
Proof.
  assert (L : derivable_pt_lim (fun y => y - A) x 1).
  { eapply dcong; [apply (derivable_pt_lim_minus id (fun _ => A)); [apply derivable_pt_lim_id|apply derivable_pt_lim_const]|ring]. }
  eapply dcong; [apply (derivable_pt_lim_comp (fun y => y - A) (fun t => t ^ i) x _ _ L (derivable_pt_lim_pow (x - A) i))|].
  replace (pred i) with (i - 1)%nat by lia. ring.
Qed.
Lemma exp_der b c x : derivable_pt_lim (fun y => exp (- (b * ((y - c) * (y - c))))) x (- (2 * b) * (x - c) * exp (- (b * ((x - c) * (x - c))))).
Proof.
  assert (L : derivable_pt_lim (fun y => y - c) x 1).
  { eapply dcong; [apply (derivable_pt_lim_minus id (fun _ => c)); [apply derivable_pt_lim_id|apply derivable_pt_lim_const]|ring]. }
  eapply dcong; [apply (derivable_pt_lim_comp (fun y => - (b * ((y - c) * (y - c)))) exp); [|apply derivable_pt_lim_exp]|].
  - apply (derivable_pt_lim_opp (fun y => b * ((y - c) * (y - c)))), (derivable_pt_lim_scal (fun y => (y - c) * (y - c))), (derivable_pt_lim_mult (fun y => y - c) (fun y => y - c)); exact L.
  - cbn beta. ring.
Qed.
Lemma fac_der al A i x : derivable_pt_lim (fac al A i) x (dfac al A i x).
Proof.
  eapply dcong; [apply (derivable_pt_lim_mult (fun y => (y - A) ^ i) (fun y => exp (- (al * ((y - A) * (y - A)))))); [apply pow_der|apply exp_der]|].
  unfold dfac, fac. cbn [pow]. ring.
Qed.
Lemma small_power Y A f : small Y f -> forall n, small Y (fun y => (y - A) ^ n * f y).
Proof.
  intros S. induction n as [|n IH]; [apply (small_ext Y f); [intros; cbn; ring|exact S]|].
  apply (small_ext Y (fun y => (Y - A) * ((y - A) ^ n * f y) + (y - Y) * ((y - A) ^ n * f y))); [intros; cbn [pow]; ring|].
  apply small_plus; [apply small_scal, IH|apply small_mult, IH].
Qed.
Section Line.
Variables (al be A B : R).
Hypothesis Ha : 0 < al.
Hypothesis Hb : 0 < be.
Let p := al + be.
Let Y := (al * A + be * B) / p.
Let g (y : R) := exp (- (al * ((y - A) * (y - A)))) * exp (- (be * ((y - B) * (y - B)))).
Let H (i j : nat) (y : R) := (y - A) ^ i * (y - B) ^ j.
Let gsmall : small Y g := g_small al be A B Ha Hb.
Let Hsmall i j : small Y (fun y => H i j y * g y).
Proof.
  apply (small_ext Y (fun y => (y - A) ^ i * ((y - B) ^ j * g y))); [intros; unfold H; ring|]. apply small_power, small_power, gsmall.
Qed.
Let Hder i j y : derivable_pt_lim (H i j) y (INR i * H (i - 1) j y + INR j * H i (j - 1) y).
Proof.
  eapply dcong; [apply (derivable_pt_lim_mult (fun y => (y - A) ^ i) (fun y => (y - B) ^ j)); apply pow_der|]. unfold H. ring.
Qed.
Let start : integral1 g (closed1 al be A B 0 0).
Proof.
  assert (P0 : 0 < p) by (unfold p; lra). rewrite line_start. fold p.
  apply (line_ext (fun y => exp (- (al * be / p * ((A - B) * (A - B)))) * gau (sqrt p * (y - Y))) _ (exp (- (al * be / p * ((A - B) * (A - B)))) * (sqrt PI / sqrt p))).
  - intros y. unfold g. rewrite (g_one al be A B Ha Hb). fold p. fold Y. unfold gau. f_equal. f_equal. f_equal.
    replace (sqrt p * (y - Y) * (sqrt p * (y - Y))) with (sqrt p * sqrt p * ((y - Y) * (y - Y))) by ring. rewrite sqrt_sqrt by lra. reflexivity.
  - rewrite <- (sqrt_div PI p) by (pose proof PI_RGT_0; lra). unfold Rdiv. rewrite Rmult_comm. f_equal. f_equal. ring.
  - apply line_scal. apply line_move; [apply sqrt_lt_R0, P0|apply line_pi].
Qed.
Let val i j := integral1 (fun y => H i j y * g y) (closed1 al be A B i j).
Let lows i j : ((1 <= i)%nat -> val (i - 1) j) -> ((1 <= j)%nat -> val i (j - 1)) ->
  integral1 (fun y => (INR i * H (i - 1) j y + INR j * H i (j - 1) y) * g y) (INR i * closed1 al be A B (i - 1) j + INR j * closed1 al be A B i (j - 1)).
Proof.
  intros I1 I2. apply (line_ext (fun y => INR i * (H (i - 1) j y * g y) + INR j * (H i (j - 1) y * g y)) _ (INR i * closed1 al be A B (i - 1) j + INR j * closed1 al be A B i (j - 1)));
    [intros; ring|reflexivity|].
  apply line_plus.
  - destruct i as [|i]; [apply (line_ext (fun _ => 0) _ 0); [intros; cbn [INR]; ring|cbn [INR]; ring|apply line_zero]|]. apply line_scal, I1. lia.
  - destruct j as [|j]; [apply (line_ext (fun _ => 0) _ 0); [intros; cbn [INR]; ring|cbn [INR]; ring|apply line_zero]|]. apply line_scal, I2. lia.
Qed.
Let step i j (c : R) : val i j -> ((1 <= i)%nat -> val (i - 1) j) -> ((1 <= j)%nat -> val i (j - 1)) ->
  integral1 (fun y => (y - c) * (H i j y * g y)) ((Y - c) * closed1 al be A B i j +
    / (2 * p) * (INR i * closed1 al be A B (i - 1) j + INR j * closed1 al be A B i (j - 1))).
Proof.
  intros V I1 I2. apply (line_ext (fun y => (Y - c) * (H i j y * g y) + (y - Y) * (H i j y * g y)) _ ((Y - c) * closed1 al be A B i j +
    / (2 * p) * (INR i * closed1 al be A B (i - 1) j + INR j * closed1 al be A B i (j - 1)))); [intros; ring|reflexivity|].
  apply line_plus; [apply line_scal, V|].
  apply (by_parts al be A B Ha Hb (H i j) (fun y => INR i * H (i - 1) j y + INR j * H i (j - 1) y)); [apply Hsmall|apply Hder|apply lows; assumption].
Qed.
Let all n : forall i j, (i + j <= n)%nat -> val i j.
Proof.
  assert (P0 : 0 < p) by (unfold p; lra).
  destruct (line_overlaps al be (fun _ => A) (fun _ => B) 0%nat) as (L & Rt & _). cbv beta in L, Rt.
  assert (EPA : @t_PA Rcring Rinv al (fun _ => A) be (fun _ => B) 0 = Y - A) by (unfold t_PA, t_P, t_oop, Y, p; flat; req; field; lra).
  assert (EPB : @t_PB Rcring Rinv al (fun _ => A) be (fun _ => B) 0 = Y - B) by (unfold t_PB, t_P, t_oop, Y, p; flat; req; field; lra).
  assert (Eh : @t_oo2p Rcring Rinv (/ 2) al be = / (2 * p)) by (unfold t_oo2p, t_oop, p; flat; req; field; lra).
  rewrite EPA, Eh in L. rewrite EPB, Eh in Rt.
  induction n as [|n IH]; intros i j Hn.
  - assert (i = 0%nat) as -> by lia. assert (j = 0%nat) as -> by lia. unfold val. apply (line_ext g _ (closed1 al be A B 0 0)); [intros; unfold H; cbn; ring|reflexivity|exact start].
  - destruct i as [|i]; [destruct j as [|j]|].
    + apply IH. lia.
    + unfold val. apply (line_ext (fun y => (y - B) * (H 0 j y * g y)) _ ((Y - B) * closed1 al be A B 0 j +
        / (2 * p) * (INR 0 * closed1 al be A B (0 - 1) j + INR j * closed1 al be A B 0 (j - 1)))); [intros; unfold H; cbn [pow]; ring| |].
      * rewrite (Rt 0%nat j), !ofnat_INR. flat. req. ring.
      * apply step; [apply IH; lia|intros; lia|intros; apply IH; lia].
    + unfold val. apply (line_ext (fun y => (y - A) * (H i j y * g y)) _ ((Y - A) * closed1 al be A B i j +
        / (2 * p) * (INR i * closed1 al be A B (i - 1) j + INR j * closed1 al be A B i (j - 1)))); [intros; unfold H; cbn [pow]; ring| |].
      * rewrite (L i j), !ofnat_INR. flat. req. ring.
      * apply step; [apply IH; lia|intros; apply IH; lia|intros; apply IH; lia].
Qed.
(** The closed form of C85 is the integral. *)
Theorem line_integral i j : integral1 (fun x => fac al A i x * fac be B j x) (closed1 al be A B i j).
Proof.
  apply (line_ext (fun y => H i j y * g y) _ (closed1 al be A B i j)); [intros; unfold H, g, fac; ring|reflexivity|]. apply (all (i + j)); lia.
Qed.
(** The integral of the product of the derivatives, by parts. *)
Theorem line_gradient i j : integral1 (fun x => dfac al A i x * dfac be B j x) (- line2 al be A B i j).
Proof.
  set (ddf := fun x => INR j * dfac be B (j - 1) x - 2 * be * dfac be B (S j) x).
  assert (Dd : forall x, derivable_pt_lim (dfac be B j) x (ddf x)).
  { intros x. apply (derivable_pt_lim_minus (fun x => INR j * fac be B (j - 1) x) (fun x => 2 * be * fac be B (S j) x)).
    - apply (derivable_pt_lim_scal (fac be B (j - 1))), fac_der.
    - apply (derivable_pt_lim_scal (fac be B (S j))), fac_der. }
  assert (T : integral1 (fun x => dfac al A i x * dfac be B j x + fac al A i x * ddf x) 0).
  { apply (line_total (fun x => fac al A i x * dfac be B j x)).
    - intros x. apply (derivable_pt_lim_mult (fac al A i) (dfac be B j)); [apply fac_der|apply Dd].
    - apply (vanish_ext (fun y => INR j * ((y - Y) ^ 0 * (H i (j - 1) y * g y)) + - (2 * be) * ((y - Y) ^ 0 * (H i (S j) y * g y)))).
      + intros x. unfold dfac, fac, H, g. cbn [pow]. ring.
      + apply vanish_plus; apply vanish_scal; apply (Hsmall _ _ 0%nat). }
  assert (S2 : integral1 (fun x => fac al A i x * ddf x) (line2 al be A B i j)).
  { apply (line_ext (fun x => (2 * be) * (2 * be * (fac al A i x * fac be B (S (S j)) x) + - INR (S j) * (fac al A i x * fac be B j x)) +
        - INR j * (2 * be * (fac al A i x * fac be B j x) + - INR (j - 1) * (fac al A i x * fac be B (j - 2) x))) _
      ((2 * be) * (2 * be * closed1 al be A B i (S (S j)) + - INR (S j) * closed1 al be A B i j) +
        - INR j * (2 * be * closed1 al be A B i j + - INR (j - 1) * closed1 al be A B i (j - 2)))).
    - intros x. unfold ddf, dfac. destruct j as [|j']; [cbn [INR Nat.sub]; ring|]. cbn [Nat.sub]. rewrite !Nat.sub_0_r. ring.
    - unfold line2. ring.
    - apply line_plus; apply line_scal; apply line_plus; apply line_scal; apply line_integral. }
  apply (line_ext (fun x => (dfac al A i x * dfac be B j x + fac al A i x * ddf x) + (-1) * (fac al A i x * ddf x)) _ (0 + (-1) * line2 al be A B i j));
    [intros; ring|ring|]. apply line_plus; [exact T|apply line_scal, S2].
Qed.
End Line.

(** ** Space *)
Lemma space_ext f h L M : (forall x y z, f x y z = h x y z) -> L = M -> space f L -> space h M.
Proof.
  intros E -> (f1 & f2 & A & B & C). exists f1, f2. split; [|split; assumption]. intros x y.
  apply (line_ext (fun z => f x y z) _ (f1 x y)); [intros; apply E|reflexivity|apply A].
Qed.
Lemma space_zero : space (fun _ _ _ => 0) 0.
Proof. exists (fun _ _ => 0), (fun _ => 0). repeat split; intros; apply line_zero. Qed.
Lemma space_scal c f L : space f L -> space (fun x y z => c * f x y z) (c * L).
Proof.
  intros (f1 & f2 & A & B & C). exists (fun x y => c * f1 x y), (fun x => c * f2 x).
  repeat split; intros; apply line_scal; [apply A|apply B|exact C].
Qed.
Lemma space_plus f h L M : space f L -> space h M -> space (fun x y z => f x y z + h x y z) (L + M).
Proof.
  intros (f1 & f2 & A & B & C) (h1 & h2 & A' & B' & C'). exists (fun x y => f1 x y + h1 x y), (fun x => f2 x + h2 x).
  repeat split; intros; apply line_plus; auto.
Qed.
Lemma space_pos f L : (forall x y z, 0 <= f x y z) -> space f L -> 0 <= L.
Proof.
  intros P (f1 & f2 & A & B & C). eapply line_pos; [|exact C]. intros x. eapply line_pos; [|apply B]. intros y. eapply line_pos; [|apply A]. intros z. apply P.
Qed.
Lemma space_unique f L M : space f L -> space f M -> L = M.
Proof.
  intros (f1 & f2 & A & B & C) (h1 & h2 & A' & B' & C').
  assert (E1 : forall x y, f1 x y = h1 x y) by (intros; eapply line_unique; [apply A|apply A']).
  assert (E2 : forall x, f2 x = h2 x).
  { intros x. eapply line_unique; [apply B|]. apply (line_ext (fun y => h1 x y) _ (h2 x)); [intros; symmetry; apply E1|reflexivity|apply B']. }
  eapply line_unique; [exact C|]. apply (line_ext h2 _ M); [intros; symmetry; apply E2|reflexivity|exact C'].
Qed.
Lemma space_sum n f L : (forall i, (i < n)%nat -> space (f i) (L i)) -> space (fun x y z => sum_to n (fun i => f i x y z)) (sum_to n L).
Proof.
  induction n as [|n IH]; intros H; [exact space_zero|]. cbn [sum_to]. apply space_plus; [apply IH; intros; apply H; lia|apply H; lia].
Qed.
Lemma space_prod f g h a b c : integral1 f a -> integral1 g b -> integral1 h c -> space (fun x y z => f x * g y * h z) (a * b * c).
Proof.
  intros Hf Hg Hh. exists (fun x y => f x * g y * c), (fun x => f x * (b * c)). split; [|split].
  - intros x y. apply line_scal, Hh.
  - intros x. apply (line_ext (fun y => f x * c * g y) _ (f x * c * b)); [intros; ring|ring|]. apply line_scal, Hg.
  - apply (line_ext (fun x => (b * c) * f x) _ (b * c * a)); [intros; ring|ring|]. apply line_scal, Hf.
Qed.

(** ** Gaussians *)
Definition dgto (d : dir) (a : @EndToEnd.gauss Rcring) (u : Cart.gauss) (x y z : R) : R :=
  let f e := fac (g_exp a) (g_at a e) (gexp e u) in let f' e := dfac (g_exp a) (g_at a e) (gexp e u) in
  match d with DX => f' DX x * f DY y * f DZ z | DY => f DX x * f' DY y * f DZ z | DZ => f DX x * f DY y * f' DZ z end.
Lemma gto_fac (a : @EndToEnd.gauss Rcring) u x y z : gto a u x y z =
  fac (g_exp a) (g_at a DX) (gx u) x * fac (g_exp a) (g_at a DY) (gy u) y * fac (g_exp a) (g_at a DZ) (gz u) z.
Proof.
  unfold gto, fac. rewrite Rmult_plus_distr_l, Rmult_plus_distr_l, !Ropp_plus_distr, !exp_plus. ring.
Qed.
Lemma gto_partial d (a : @EndToEnd.gauss Rcring) u : partial d (gto a u) (dgto d a u).
Proof.
  intros x y z. unfold dgto. destruct d; cbn [gexp].
  - eapply der_ext; [intros t; symmetry; rewrite gto_fac; rewrite (Rmult_assoc (fac _ _ _ t)), (Rmult_comm (fac _ _ _ t)); reflexivity|].
    eapply der_eq; [apply derivable_pt_lim_scal, fac_der|ring].
  - eapply der_ext; [intros t; symmetry; rewrite gto_fac; rewrite (Rmult_comm (fac _ _ _ x)), Rmult_assoc, (Rmult_comm (fac _ _ _ t)); reflexivity|].
    eapply der_eq; [apply derivable_pt_lim_scal, fac_der|ring].
  - eapply der_ext; [intros t; symmetry; rewrite gto_fac; reflexivity|].
    eapply der_eq; [apply derivable_pt_lim_scal, fac_der|ring].
Qed.
Lemma gto_overlap (a b : @EndToEnd.gauss Rcring) u v : 0 < g_exp a -> 0 < g_exp b ->
  space (fun x y z => gto a u x y z * gto b v x y z) (box a b u v).
Proof.
  intros Ha Hb. set (F e := fun t => fac (g_exp a) (g_at a e) (gexp e u) t * fac (g_exp b) (g_at b e) (gexp e v) t).
  apply (space_ext (fun x y z => F DX x * F DY y * F DZ z) _ (box a b u v)); [intros; rewrite !gto_fac; unfold F; cbn [gexp]; ring|reflexivity|].
  unfold box. apply space_prod; apply line_integral; assumption.
Qed.
Lemma gto_gradient d (a b : @EndToEnd.gauss Rcring) u v : 0 < g_exp a -> 0 < g_exp b ->
  space (fun x y z => dgto d a u x y z * dgto d b v x y z)
    (- (rest d a b u v * line2 (g_exp a) (g_exp b) (g_at a d) (g_at b d) (gexp d u) (gexp d v))).
Proof.
  intros Ha Hb. set (F e := fun t => fac (g_exp a) (g_at a e) (gexp e u) t * fac (g_exp b) (g_at b e) (gexp e v) t).
  set (D e := fun t => dfac (g_exp a) (g_at a e) (gexp e u) t * dfac (g_exp b) (g_at b e) (gexp e v) t).
  assert (HF : forall e, integral1 (F e) (closed1 (g_exp a) (g_exp b) (g_at a e) (g_at b e) (gexp e u) (gexp e v))) by (intros; apply line_integral; assumption).
  assert (HD : forall e, integral1 (D e) (- line2 (g_exp a) (g_exp b) (g_at a e) (g_at b e) (gexp e u) (gexp e v))) by (intros; apply line_gradient; assumption).
  destruct d.
  - eapply space_ext; [| |apply (space_prod (D DX) (F DY) (F DZ)); [apply HD|apply HF|apply HF]]; [intros; unfold D, F, dgto; cbn [gexp]; ring|unfold rest; ring].
  - eapply space_ext; [| |apply (space_prod (F DX) (D DY) (F DZ)); [apply HF|apply HD|apply HF]]; [intros; unfold D, F, dgto; cbn [gexp]; ring|unfold rest; ring].
  - eapply space_ext; [| |apply (space_prod (F DX) (F DY) (D DZ)); [apply HF|apply HF|apply HD]]; [intros; unfold D, F, dgto; cbn [gexp]; ring|unfold rest; ring].
Qed.

(** ** Contracted functions *)
Lemma sum_scal n c f : sum_to n (fun i => c * f i) = c * sum_to n f.
Proof. induction n as [|n IH]; cbn [sum_to]; [ring|]. rewrite IH. ring. Qed.
Lemma sum_plus n f g : sum_to n (fun i => f i + g i) = sum_to n f + sum_to n g.
Proof. induction n as [|n IH]; cbn [sum_to]; [ring|]. rewrite IH. ring. Qed.
Lemma sum_prod n m f g : sum_to n f * sum_to m g = sum_to n (fun i => sum_to m (fun j => f i * g j)).
Proof. induction n as [|n IH]; cbn [sum_to]; [ring|]. rewrite Rmult_plus_distr_r, IH. f_equal. symmetry. apply sum_scal. Qed.
(** Products of sums of functions: the integral of the product of two contracted functions. *)
Lemma contracted_space (A B : @shell Rcring) (f h : nat -> R -> R -> R -> R) (L : nat -> nat -> R) :
  (forall i j, (i < sh_n A)%nat -> (j < sh_n B)%nat -> space (fun x y z => f i x y z * h j x y z) (L i j)) ->
  space (fun x y z => sum_to (sh_n A) (fun i => sh_coef A i * f i x y z) * sum_to (sh_n B) (fun j => sh_coef B j * h j x y z))
    (sum_to (sh_n A) (fun i => sum_to (sh_n B) (fun j => sh_coef A i * sh_coef B j * L i j))).
Proof.
  intros H. apply (space_ext (fun x y z => sum_to (sh_n A) (fun i => sum_to (sh_n B) (fun j => sh_coef A i * sh_coef B j * (f i x y z * h j x y z)))) _
    (sum_to (sh_n A) (fun i => sum_to (sh_n B) (fun j => sh_coef A i * sh_coef B j * L i j)))); [|reflexivity|].
  - intros x y z. rewrite sum_prod. apply sum_ext. intros i _. apply sum_ext. intros j _. flat. req. ring.
  - apply (space_sum _ (fun i x y z => sum_to (sh_n B) (fun j => sh_coef A i * sh_coef B j * (f i x y z * h j x y z)))). intros i Hi.
    apply (space_sum _ (fun j x y z => sh_coef A i * sh_coef B j * (f i x y z * h j x y z))). intros j Hj.
    apply (space_scal (sh_coef A i * sh_coef B j) (fun x y z => f i x y z * h j x y z)), H; assumption.
Qed.
Definition dorbital (d : dir) (S : @shell Rcring) (u : Cart.gauss) (x y z : R) : R :=
  sum_to (sh_n S) (fun i => sh_coef S i * dgto d (gauss_at S i) u x y z).
Lemma sum_der n (f : nat -> R -> R) (g : nat -> R) x : (forall i, derivable_pt_lim (f i) x (g i)) -> derivable_pt_lim (fun t => sum_to n (fun i => f i t)) x (sum_to n g).
Proof.
  intros H. induction n as [|n IH]; cbn [sum_to]; [apply derivable_pt_lim_const|]. apply (derivable_pt_lim_plus (fun t => sum_to n (fun i => f i t)) (f n)); [exact IH|apply H].
Qed.
Lemma orbital_partial d S u : partial d (orbital S u) (dorbital d S u).
Proof.
  intros x y z. unfold orbital, dorbital. destruct d.
  - apply (sum_der _ (fun i t => sh_coef S i * gto (gauss_at S i) u t y z)). intros i. apply derivable_pt_lim_scal. apply (gto_partial DX (gauss_at S i) u x y z).
  - apply (sum_der _ (fun i t => sh_coef S i * gto (gauss_at S i) u x t z)). intros i. apply derivable_pt_lim_scal. apply (gto_partial DY (gauss_at S i) u x y z).
  - apply (sum_der _ (fun i t => sh_coef S i * gto (gauss_at S i) u x y t)). intros i. apply derivable_pt_lim_scal. apply (gto_partial DZ (gauss_at S i) u x y z).
Qed.
Lemma partial_unique d f g h : partial d f g -> partial d f h -> forall x y z, g x y z = h x y z.
Proof. intros H K x y z. specialize (H x y z). specialize (K x y z). destruct d; eapply uniqueness_limite; eassumption. Qed.

(** ** The code *)
(** What the code stores for component [a] of [A] and [b] of [B]. *)
Definition stores_overlap (A B : @oshell Rcring) (a b : Cart.gauss) (v : R) : Prop :=
  forall out, (ncart (os_am A) * ncart (os_am B) <= length out)%nat ->
  exists out', @compute_overlap Rcring Rinv sqrt exp (/ 2) PI A B out = Some out' /\ rdv out' (pos a * ncart (os_am B) + pos b) = Some v.
Definition stores_kinetic (A B : @oshell Rcring) (a b : Cart.gauss) (v : R) : Prop :=
  forall out, (ncart (os_am A) * ncart (os_am B) <= length out)%nat ->
  exists out', @compute_ke Rcring Rinv sqrt exp (/ 2) PI A B out = Some out' /\ rdv out' (pos a * ncart (os_am B) + pos b) = Some v.
(** A component of a shell the code can treat. *)
Definition usable (A : @oshell Rcring) (a : Cart.gauss) : Prop := (os_am A <= 18)%nat /\ positive (os_sh A) /\ gam a = os_am A.
Theorem overlap_space (A B : @oshell Rcring) a b : usable A a -> usable B b -> exists v, stores_overlap A B a b v /\
  space (fun x y z => orbital (os_sh A) a x y z * orbital (os_sh B) b x y z) v.
Proof.
  intros (HA & PA & Ga) (HB & PB & Gb).
  exists (sum_to (sh_n (os_sh A)) (fun i => sum_to (sh_n (os_sh B)) (fun j =>
              sh_coef (os_sh A) i * sh_coef (os_sh B) j * box (gauss_at (os_sh A) i) (gauss_at (os_sh B) j) a b))). split.
  - intros out Hl. destruct (@overlap_code box box_integrals A B out HA HB Hl PA PB) as (out' & E & V). exists out'. split; [exact E|apply V; assumption].
  - apply (contracted_space (os_sh A) (os_sh B) (fun i => gto (gauss_at (os_sh A) i) a) (fun j => gto (gauss_at (os_sh B) j) b)).
    intros i j Hi Hj. apply gto_overlap; [apply PA, Hi|apply PB, Hj].
Qed.
Theorem kinetic_space (A B : @oshell Rcring) a b (DA DB : dir -> R -> R -> R -> R) : usable A a -> usable B b ->
  (forall d, partial d (orbital (os_sh A) a) (DA d)) -> (forall d, partial d (orbital (os_sh B) b) (DB d)) -> exists v, stores_kinetic A B a b v /\
  space (fun x y z => / 2 * (DA DX x y z * DB DX x y z + DA DY x y z * DB DY x y z + DA DZ x y z * DB DZ x y z)) v.
Proof.
  intros (HA & PA & Ga) (HB & PB & Gb) HDA HDB.
  set (W i j d := rest d (gauss_at (os_sh A) i) (gauss_at (os_sh B) j) a b *
    line2 (sh_alpha (os_sh A) i) (sh_alpha (os_sh B) j) (sh_pos (os_sh A) (idx_of_dir d)) (sh_pos (os_sh B) (idx_of_dir d)) (gexp d a) (gexp d b)).
  exists (sum_to (sh_n (os_sh A)) (fun i => sum_to (sh_n (os_sh B)) (fun j =>
              sh_coef (os_sh A) i * sh_coef (os_sh B) j * (- / 2 * (W i j DX + W i j DY + W i j DZ))))). split.
  - intros out Hl. destruct (@kinetic_code box box_integrals A B out HA HB Hl PA PB) as (out' & E & V). exists out'. split; [exact E|].
    destruct (V a b Ga Gb) as (D & HD & ->). f_equal. apply sum_ext. intros i Hi. apply sum_ext. intros j Hj.
    assert (EW : forall d, D i j d = W i j d).
    { intros d. eapply second_unique; [apply HD; assumption|]. apply (box_second d (gauss_at (os_sh A) i) (gauss_at (os_sh B) j) a b); [apply PA, Hi|apply PB, Hj]. }
    rewrite !EW. reflexivity.
  - assert (T : forall d, space (fun x y z => DA d x y z * DB d x y z)
        (sum_to (sh_n (os_sh A)) (fun i => sum_to (sh_n (os_sh B)) (fun j => sh_coef (os_sh A) i * sh_coef (os_sh B) j * (- W i j d))))).
    { intros d. eapply space_ext; [| |apply (contracted_space (os_sh A) (os_sh B) (fun i => dgto d (gauss_at (os_sh A) i) a) (fun j => dgto d (gauss_at (os_sh B) j) b) (fun i j => - W i j d))].
      - intros x y z. rewrite (partial_unique d _ _ _ (HDA d) (orbital_partial d _ _)), (partial_unique d _ _ _ (HDB d) (orbital_partial d _ _)). reflexivity.
      - reflexivity.
      - intros i j Hi Hj. apply gto_gradient; [apply PA, Hi|apply PB, Hj]. }
    eapply space_ext; [| |apply (space_scal (/ 2)); apply space_plus; [apply space_plus; [apply (T DX)|apply (T DY)]|apply (T DZ)]].
    + intros x y z. cbn beta. reflexivity.
    + rewrite <- !sum_plus, <- sum_scal. apply sum_ext. intros i _. rewrite <- !sum_plus, <- sum_scal. apply sum_ext. intros j _. flat. req. ring.
Qed.
Lemma stores_overlap_unique A B a b v w : stores_overlap A B a b v -> stores_overlap A B a b w -> v = w.
Proof.
  intros H K. destruct (H (repeat None (ncart (os_am A) * ncart (os_am B)))) as (o & E & V); [rewrite repeat_length; lia|].
  destruct (K (repeat None (ncart (os_am A) * ncart (os_am B)))) as (o' & E' & V'); [rewrite repeat_length; lia|]. congruence.
Qed.
Lemma stores_kinetic_unique A B a b v w : stores_kinetic A B a b v -> stores_kinetic A B a b w -> v = w.
Proof.
  intros H K. destruct (H (repeat None (ncart (os_am A) * ncart (os_am B)))) as (o & E & V); [rewrite repeat_length; lia|].
  destruct (K (repeat None (ncart (os_am A) * ncart (os_am B)))) as (o' & E' & V'); [rewrite repeat_length; lia|]. congruence.
Qed.

(** ** Positive semidefinite *)
(** [M] and weights [w] on a list of functions: the sum of [w_p w_q M p q]. *)
Fixpoint over_list (A : Type) (f : A -> R) (l : list A) : R := match l with [] => 0 | x :: r => f x + over_list A f r end.
Arguments over_list {A}.
Definition quadratic (M : (@oshell Rcring * Cart.gauss) -> (@oshell Rcring * Cart.gauss) -> R) (l : list (R * (@oshell Rcring * Cart.gauss))) : R :=
  over_list (fun p => over_list (fun q => fst p * fst q * M (snd p) (snd q)) l) l.
Lemma over_scal (A : Type) c (f : A -> R) l : over_list (fun x => c * f x) l = c * over_list f l.
Proof. induction l as [|x r IH]; cbn [over_list]; [ring|]. rewrite IH. ring. Qed.
Lemma over_ext (A : Type) (f g : A -> R) l : (forall x, f x = g x) -> over_list f l = over_list g l.
Proof. intros H. induction l as [|x r IH]; cbn [over_list]; [reflexivity|]. now rewrite H, IH. Qed.
Lemma space_list (A : Type) (f : A -> R -> R -> R -> R) L l : (forall p, In p l -> space (f p) (L p)) -> space (fun x y z => over_list (fun p => f p x y z) l) (over_list L l).
Proof.
  induction l as [|p r IH]; intros H; [exact space_zero|]. cbn [over_list]. apply space_plus; [apply H; now left|apply IH; intros; apply H; now right].
Qed.
Lemma quadratic_space M l (f : (@oshell Rcring * Cart.gauss) -> R -> R -> R -> R) :
  (forall p q, In p l -> In q l -> space (fun x y z => f (snd p) x y z * f (snd q) x y z) (M (snd p) (snd q))) ->
  space (fun x y z => over_list (fun p => fst p * f (snd p) x y z) l * over_list (fun p => fst p * f (snd p) x y z) l) (quadratic M l).
Proof.
  intros H. apply (space_ext (fun x y z => over_list (fun p => over_list (fun q => fst p * fst q * (f (snd p) x y z * f (snd q) x y z)) l) l) _ (quadratic M l)); [|reflexivity|].
  - intros x y z. set (s := over_list (fun p => fst p * f (snd p) x y z) l) at 2. rewrite Rmult_comm, <- over_scal. apply over_ext. intros p.
    unfold s. rewrite Rmult_comm, <- over_scal. apply over_ext. intros q. ring.
  - unfold quadratic. apply (space_list _ (fun p x y z => over_list (fun q => fst p * fst q * (f (snd p) x y z * f (snd q) x y z)) l)). intros p Hp.
    apply (space_list _ (fun q x y z => fst p * fst q * (f (snd p) x y z * f (snd q) x y z))). intros q Hq.
    apply (space_scal (fst p * fst q) (fun x y z => f (snd p) x y z * f (snd q) x y z)), H; assumption.
Qed.
Theorem overlap_psd M l : (forall p, In p l -> usable (fst (snd p)) (snd (snd p))) ->
  (forall p q, In p l -> In q l -> stores_overlap (fst (snd p)) (fst (snd q)) (snd (snd p)) (snd (snd q)) (M (snd p) (snd q))) -> 0 <= quadratic M l.
Proof.
  intros U S. eapply space_pos; [|apply (quadratic_space M l (fun t => orbital (os_sh (fst t)) (snd t)))].
  - intros x y z. apply Rle_0_sqr.
  - intros p q Hp Hq. destruct (overlap_space _ _ _ _ (U p Hp) (U q Hq)) as (v & V & I).
    rewrite (stores_overlap_unique _ _ _ _ _ _ (S p q Hp Hq) V). exact I.
Qed.
Lemma quadratic_plus M N l : quadratic (fun p q => M p q + N p q) l = quadratic M l + quadratic N l.
Proof.
  assert (P : forall (A : Type) (f g : A -> R) k, over_list (fun x => f x + g x) k = over_list f k + over_list g k).
  { intros A f g. induction k as [|x r IH]; cbn [over_list]; [ring|]. rewrite IH. ring. }
  unfold quadratic. rewrite <- P. apply over_ext. intros p. rewrite <- P. apply over_ext. intros q. ring.
Qed.
Theorem kinetic_psd M l : (forall p, In p l -> usable (fst (snd p)) (snd (snd p))) ->
  (forall p q, In p l -> In q l -> stores_kinetic (fst (snd p)) (fst (snd q)) (snd (snd p)) (snd (snd q)) (M (snd p) (snd q))) -> 0 <= quadratic M l.
Proof.
  intros U S.
  set (s d := fun x y z => over_list (fun p => fst p * dorbital d (os_sh (fst (snd p))) (snd (snd p)) x y z) l).
  assert (Q : space (fun x y z => / 2 * (s DX x y z * s DX x y z + s DY x y z * s DY x y z + s DZ x y z * s DZ x y z)) (quadratic M l)).
  { apply (space_ext (fun x y z => over_list (fun p => over_list (fun q => fst p * fst q *
        (/ 2 * (dorbital DX (os_sh (fst (snd p))) (snd (snd p)) x y z * dorbital DX (os_sh (fst (snd q))) (snd (snd q)) x y z +
                dorbital DY (os_sh (fst (snd p))) (snd (snd p)) x y z * dorbital DY (os_sh (fst (snd q))) (snd (snd q)) x y z +
                dorbital DZ (os_sh (fst (snd p))) (snd (snd p)) x y z * dorbital DZ (os_sh (fst (snd q))) (snd (snd q)) x y z))) l) l) _ (quadratic M l)); [|reflexivity|].
    - intros x y z.
      assert (P : forall (A : Type) (f g : A -> R) k, over_list (fun x => f x + g x) k = over_list f k + over_list g k).
      { intros A f g. induction k as [|t r IH]; cbn [over_list]; [ring|]. rewrite IH. ring. }
      assert (T : forall d, s d x y z * s d x y z = over_list (fun p => over_list (fun q => fst p * fst q *
        (dorbital d (os_sh (fst (snd p))) (snd (snd p)) x y z * dorbital d (os_sh (fst (snd q))) (snd (snd q)) x y z)) l) l).
      { intros d. set (k := s d x y z) at 2. unfold s. rewrite Rmult_comm, <- over_scal. apply over_ext. intros p.
        unfold k, s. rewrite Rmult_comm, <- over_scal. apply over_ext. intros q. ring. }
      rewrite !T, <- !P, <- over_scal. apply over_ext. intros p. rewrite <- !P, <- over_scal. apply over_ext. intros q. ring.
    - unfold quadratic. apply (space_list _ (fun p x y z => over_list (fun q => fst p * fst q *
        (/ 2 * (dorbital DX (os_sh (fst (snd p))) (snd (snd p)) x y z * dorbital DX (os_sh (fst (snd q))) (snd (snd q)) x y z +
                dorbital DY (os_sh (fst (snd p))) (snd (snd p)) x y z * dorbital DY (os_sh (fst (snd q))) (snd (snd q)) x y z +
                dorbital DZ (os_sh (fst (snd p))) (snd (snd p)) x y z * dorbital DZ (os_sh (fst (snd q))) (snd (snd q)) x y z))) l)). intros p Hp.
      apply (space_list _ (fun q x y z => fst p * fst q *
        (/ 2 * (dorbital DX (os_sh (fst (snd p))) (snd (snd p)) x y z * dorbital DX (os_sh (fst (snd q))) (snd (snd q)) x y z +
                dorbital DY (os_sh (fst (snd p))) (snd (snd p)) x y z * dorbital DY (os_sh (fst (snd q))) (snd (snd q)) x y z +
                dorbital DZ (os_sh (fst (snd p))) (snd (snd p)) x y z * dorbital DZ (os_sh (fst (snd q))) (snd (snd q)) x y z)))). intros q Hq.
      eapply space_scal. destruct (kinetic_space _ _ _ _ (fun d => dorbital d (os_sh (fst (snd p))) (snd (snd p))) (fun d => dorbital d (os_sh (fst (snd q))) (snd (snd q)))
        (U p Hp) (U q Hq) (fun d => orbital_partial d _ _) (fun d => orbital_partial d _ _)) as (v & V & I).
      rewrite (stores_kinetic_unique _ _ _ _ _ _ (S p q Hp Hq) V). exact I. }
  eapply space_pos; [|exact Q]. intros x y z. cbn beta. pose proof (Rle_0_sqr (s DX x y z)). pose proof (Rle_0_sqr (s DY x y z)). pose proof (Rle_0_sqr (s DZ x y z)).
  unfold Rsqr in *. lra.
Qed.
(** Swapping the shells transposes the matrices. *)
Theorem overlap_sym (A B : @oshell Rcring) a b v w : usable A a -> usable B b -> stores_overlap A B a b v -> stores_overlap B A b a w -> v = w.
Proof.
  intros UA UB SV SW. destruct (overlap_space A B a b UA UB) as (v' & V & I). destruct (overlap_space B A b a UB UA) as (w' & W & J).
  rewrite (stores_overlap_unique _ _ _ _ _ _ SV V), (stores_overlap_unique _ _ _ _ _ _ SW W). eapply space_unique; [exact I|].
  apply (space_ext (fun x y z => orbital (os_sh B) b x y z * orbital (os_sh A) a x y z) _ w'); [intros; ring|reflexivity|exact J].
Qed.
Theorem kinetic_sym (A B : @oshell Rcring) a b v w : usable A a -> usable B b -> stores_kinetic A B a b v -> stores_kinetic B A b a w -> v = w.
Proof.
  intros UA UB SV SW.
  destruct (kinetic_space A B a b _ _ UA UB (fun d => orbital_partial d _ _) (fun d => orbital_partial d _ _)) as (v' & V & I).
  destruct (kinetic_space B A b a _ _ UB UA (fun d => orbital_partial d _ _) (fun d => orbital_partial d _ _)) as (w' & W & J).
  rewrite (stores_kinetic_unique _ _ _ _ _ _ SV V), (stores_kinetic_unique _ _ _ _ _ _ SW W). eapply space_unique; [exact I|].
  eapply space_ext; [| |exact J]; [intros; cbn beta; ring|reflexivity].
Qed.

(** ** Example *)
Lemma gram_usable w : usable (pc_shell 2 w) (G 1 1 0).
Proof. split; [cbn; lia|]. split; [exact (proj1 (pc_met 2 2 w w))|reflexivity]. Qed.
Lemma gram_norm (a : @EndToEnd.gauss Rcring) : g_exp a = PI / 2 -> space (fun x y z => gto a (G 0 0 0) x y z * gto a (G 0 0 0) x y z) 1.
Proof.
  intros E. assert (P : 0 < g_exp a) by (rewrite E; pose proof PI_RGT_0; lra).
  rewrite <- (same_overlap a E). rewrite <- (proj1 (box_integrals a a P P)). apply gto_overlap; exact P.
Qed.
