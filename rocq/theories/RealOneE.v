(** Overlap and kinetic energy integrals (osoei_terms.c, osoei_overlap.c, osoei_ke.c) over the real numbers: the overlaps are
    determined by those of s functions and by differentiation with respect to the centres; the kinetic energy is minus half the
    Laplacian of the overlap with respect to the centre of the second function.  The specification uses neither the recurrences nor
    the factorisation of the code. *)
From Coq Require Import List Arith ZArith Reals Lra Lia.
Import ListNotations.
From Verif Require Import Base Cart Mdir PairData Recur Deriv OneE OneESpec OneEInt EndToEnd Normalize RealDeriv RealUnique PointCharge.
Local Open Scope R_scope.

(** ** Specification *)
Local Notation pair_fun := (@EndToEnd.gauss Rcring -> @EndToEnd.gauss Rcring -> Cart.gauss -> Cart.gauss -> R).
(** A Gaussian moved by [t] in direction [d]. *)
Definition slid (d : dir) (t : R) (a : @EndToEnd.gauss Rcring) : @EndToEnd.gauss Rcring :=
  @Gauss Rcring (g_exp a) (fun e => g_at a e + (if dir_eq_dec e d then t else 0)).
(** Overlap of two s functions, textbook value. *)
Definition s_overlap (a b : @EndToEnd.gauss Rcring) : R :=
  let p := g_exp a + g_exp b in PI / p * sqrt (PI / p) * exp (- (g_exp a * g_exp b / p * between (g_at a) (g_at b))).
(** The derivative of a Cartesian Gaussian with respect to its centre: twice the exponent times the one with a power raised, minus
    the power times the one with it lowered. *)
Definition lowered_by (d : dir) (u : Cart.gauss) (f : Cart.gauss -> R) : R :=
  match down d u with Some u' => INR (gexp d u) * f u' | None => 0 end.
Definition overlap_integrals (O : pair_fun) : Prop := forall a b : @EndToEnd.gauss Rcring, 0 < g_exp a -> 0 < g_exp b ->
  O a b (G 0 0 0) (G 0 0 0) = s_overlap a b /\
  forall d u v,
    derivable_pt_lim (fun t => O (slid d t a) b u v) 0 (2 * g_exp a * O a b (up d u) v - lowered_by d u (fun u' => O a b u' v)) /\
    derivable_pt_lim (fun t => O a (slid d t b) u v) 0 (2 * g_exp b * O a b u (up d v) - lowered_by d v (fun v' => O a b u v')).
(** [D] is the second derivative at 0. *)
Definition second (f : R -> R) (D : R) : Prop := exists g, (forall t, derivable_pt_lim f t (g t)) /\ derivable_pt_lim g 0 D.

(** ** One direction *)
Lemma der_ext f g x l : (forall t, f t = g t) -> derivable_pt_lim f x l -> derivable_pt_lim g x l.
Proof. intros E H e He. destruct (H e He) as [d Hd]. exists d. intros h Hh Hl. rewrite <- !E. apply Hd; assumption. Qed.
Lemma der_eq f x l l' : derivable_pt_lim f x l -> l = l' -> derivable_pt_lim f x l'.
Proof. intros H <-. exact H. Qed.
(** A family whose coefficients move. *)
Lemma family_der (pa pb s : R -> R) (F : R -> nat -> nat -> R) (h x t0 : R) :
  (forall t, @overlaps Rcring (pa t) (pb t) h (s t) (F t)) ->
  derivable_pt_lim pa t0 (h * x - 1) -> derivable_pt_lim pb t0 (h * x) -> derivable_pt_lim s t0 (x * pa t0 * s t0) ->
  forall n i j, (i + j <= n)%nat -> derivable_pt_lim (fun t => F t i j) t0 (x * F t0 (S i) j - INR i * F t0 (i - 1)%nat j).
Proof.
  intros HF Da Db Ds.
  assert (L : forall t i j, F t (S i) j = pa t * F t i j + h * (INR i * F t (i - 1)%nat j + INR j * F t i (j - 1)%nat)).
  { intros t i j. destruct (HF t) as (E & _ & _). rewrite E, !ofnat_INR. reflexivity. }
  assert (Rt : forall t i j, F t i (S j) = pb t * F t i j + h * (INR i * F t (i - 1)%nat j + INR j * F t i (j - 1)%nat)).
  { intros t i j. destruct (HF t) as (_ & E & _). rewrite E, !ofnat_INR. reflexivity. }
  assert (Z : forall t, F t 0%nat 0%nat = s t) by (intros t; apply (HF t)). clear HF.
  induction n as [|n IH]; intros i j Hn.
  - assert (i = 0%nat) as -> by lia. assert (j = 0%nat) as -> by lia.
    eapply der_ext; [intros t; symmetry; apply Z|]. eapply der_eq; [exact Ds|]. rewrite L, Z. cbn [INR]. ring.
  - assert (Low : forall k (f : nat -> R -> R) g, (forall m, (S m <= k)%nat -> derivable_pt_lim (f m) t0 (g m)) ->
        derivable_pt_lim (fun t => INR k * f (k - 1)%nat t) t0 (INR k * g (k - 1)%nat)).
    { intros k f g H. destruct k as [|k].
      - eapply der_ext with (f := fct_cte 0); [intros; unfold fct_cte; cbn [INR]; ring|]. eapply der_eq; [apply derivable_pt_lim_const|]. cbn [INR]. ring.
      - replace (S k - 1)%nat with k by lia. apply derivable_pt_lim_scal. apply H. lia. }
    destruct i as [|i]; [destruct j as [|j]|].
    + apply IH. lia.
    + eapply der_ext; [intros t; symmetry; apply Rt|]. eapply der_eq.
      * apply derivable_pt_lim_plus; [apply derivable_pt_lim_mult; [exact Db|apply IH; lia]|].
        apply derivable_pt_lim_scal, derivable_pt_lim_plus.
        -- apply (Low 0%nat (fun m t => F t m j) (fun m => x * F t0 (S m) j - INR m * F t0 (m - 1)%nat j)). intros m Hm. lia.
        -- apply (Low j (fun m t => F t 0%nat m) (fun m => x * F t0 1%nat m - INR 0 * F t0 (0 - 1)%nat m)). intros m Hm. apply IH. lia.
      * rewrite (Rt t0 1%nat j). cbn [INR Nat.sub]. ring.
    + eapply der_ext; [intros t; symmetry; apply L|]. eapply der_eq.
      * apply derivable_pt_lim_plus; [apply derivable_pt_lim_mult; [exact Da|apply IH; lia]|].
        apply derivable_pt_lim_scal, derivable_pt_lim_plus.
        -- apply (Low i (fun m t => F t m j) (fun m => x * F t0 (S m) j - INR m * F t0 (m - 1)%nat j)). intros m Hm. apply IH. lia.
        -- apply (Low j (fun m t => F t i m) (fun m => x * F t0 (S i) m - INR i * F t0 (i - 1)%nat m)). intros m Hm. apply IH. lia.
      * replace (S i - 1)%nat with i by lia. rewrite (L t0 (S i) j). replace (S i - 1)%nat with i by lia. rewrite S_INR.
        destruct i as [|i].
        -- cbn [INR]. ring.
        -- replace (S i - 1)%nat with i by lia. 
           assert (E := L t0 i j). set (A := F t0 (S i) j) in *. 
           transitivity ((h * x - 1) * A + x * (pa t0 * F t0 (S (S i)) j) + h * (INR (S i) * (x * A) + INR j * (x * F t0 (S (S i)) (j - 1)%nat))
              - INR (S i) * (pa t0 * F t0 i j + h * (INR i * F t0 (i - 1)%nat j + INR j * F t0 i (j - 1)%nat))).
           { unfold A. ring. }
           rewrite <- E. fold A. ring.
Qed.

(** The integrals of one direction, for two centres on a line. *)
Definition line (al be A B : R) (i j : nat) : R :=
  @integral Rcring (@t_oo2p Rcring Rinv (/ 2) al be) (@t_s00 Rcring Rinv sqrt exp PI al (fun _ => A) be (fun _ => B) 0)
    (@pij Rcring (@t_PA Rcring Rinv al (fun _ => A) be (fun _ => B) 0) (@t_PB Rcring Rinv al (fun _ => A) be (fun _ => B) 0) i j).
Lemma line_overlaps al be (x1 x2 : nat -> R) d : @prim_overlaps Rcring Rinv sqrt exp (/ 2) PI al x1 be x2 d (line al be (x1 d) (x2 d)).
Proof. apply (@integral_overlaps Rcring). Qed.

Ltac req := match goal with |- ?x = ?y => change (@eq R x y) end.
Lemma line_left al be A B t i j : 0 < al -> 0 < be ->
  derivable_pt_lim (fun s => line al be (A + s) B i j) t
    (2 * al * line al be (A + t) B (S i) j - INR i * line al be (A + t) B (i - 1)%nat j).
Proof.
  intros Ha Hb.
  apply (@family_der (fun s => @t_PA Rcring Rinv al (fun _ => A + s) be (fun _ => B) 0) (fun s => @t_PB Rcring Rinv al (fun _ => A + s) be (fun _ => B) 0)
    (fun s => @t_s00 Rcring Rinv sqrt exp PI al (fun _ => A + s) be (fun _ => B) 0) (fun s => line al be (A + s) B) (@t_oo2p Rcring Rinv (/ 2) al be) (2 * al) t)
    with (n := (i + j)%nat); [| | | |lia].
  - intros s. apply (line_overlaps al be (fun _ => A + s) (fun _ => B) 0%nat).
  - apply der_ext with (f := fun s => (al * (A + s) + be * B) * / (al + be) - (A + s)); [intros; reflexivity|].
    unfold t_oo2p, t_oop. flat.
    eapply der_eq; [apply derivable_pt_lim_minus; [apply derivable_pt_lim_mult; [apply derivable_pt_lim_plus; [apply derivable_pt_lim_mult;
      [apply derivable_pt_lim_const|apply derivable_pt_lim_plus; [apply derivable_pt_lim_const|apply derivable_pt_lim_id]]|apply derivable_pt_lim_const]|apply derivable_pt_lim_const]|
      apply derivable_pt_lim_plus; [apply derivable_pt_lim_const|apply derivable_pt_lim_id]]|]. unfold fct_cte. req. field. lra.
  - apply der_ext with (f := fun s => (al * (A + s) + be * B) * / (al + be) - B); [intros; reflexivity|].
    unfold t_oo2p, t_oop. flat.
    eapply der_eq; [apply derivable_pt_lim_minus; [apply derivable_pt_lim_mult; [apply derivable_pt_lim_plus; [apply derivable_pt_lim_mult;
      [apply derivable_pt_lim_const|apply derivable_pt_lim_plus; [apply derivable_pt_lim_const|apply derivable_pt_lim_id]]|apply derivable_pt_lim_const]|apply derivable_pt_lim_const]|
      apply derivable_pt_lim_const]|]. unfold fct_cte. req. field. lra.
  - apply der_ext with (f := fun s => sqrt (PI * / (al + be)) * exp (- (al * be * / (al + be)) * ((A + s - B) * (A + s - B)))); [intros; reflexivity|].
    unfold t_s00, t_PA, t_P, t_mu, t_AB2, t_oop. flat.
    set (m := - (al * be * / (al + be))).
    assert (D : derivable_pt_lim (fun s => m * ((A + s - B) * (A + s - B))) t (m * (2 * (A + t - B)))).
    { apply (@derivable_pt_lim_scal (fun s => (A + s - B) * (A + s - B))).
      assert (D1 : derivable_pt_lim (fun s => A + s - B) t 1).
      { eapply der_eq; [apply (@derivable_pt_lim_minus (fun s => A + s) (fun _ => B)); [apply (@derivable_pt_lim_plus (fun _ => A) id);
          [apply derivable_pt_lim_const|apply derivable_pt_lim_id]|apply derivable_pt_lim_const]|]. ring. }
      eapply der_eq; [apply (@derivable_pt_lim_mult _ _ _ _ _ D1 D1)|]. ring. }
    eapply der_eq; [apply (@derivable_pt_lim_scal (fun s => exp (m * ((A + s - B) * (A + s - B))))); exact (@derivable_pt_lim_comp (fun s => m * ((A + s - B) * (A + s - B))) exp t _ _ D (derivable_pt_lim_exp _))|].
    req. set (E := exp _). set (q := sqrt _). unfold m. field. lra.
Qed.
Lemma line_right al be A B t i j : 0 < al -> 0 < be ->
  derivable_pt_lim (fun s => line al be A (B + s) i j) t
    (2 * be * line al be A (B + t) i (S j) - INR j * line al be A (B + t) i (j - 1)%nat).
Proof.
  intros Ha Hb.
  assert (S : forall A B i j, line be al B A j i = line al be A B i j).
  { intros A' B' i' j'. apply (@overlaps_unique Rcring (@t_PA Rcring Rinv al (fun _ => A') be (fun _ => B') 0) (@t_PB Rcring Rinv al (fun _ => A') be (fun _ => B') 0)
      (@t_oo2p Rcring Rinv (/ 2) al be) (@t_s00 Rcring Rinv sqrt exp PI al (fun _ => A') be (fun _ => B') 0) (fun i j => line be al B' A' j i) (line al be A' B')).
    - pose proof (line_overlaps be al (fun _ => B') (fun _ => A') 0%nat) as (L & Rt & Z).
      assert (P : @t_P Rcring Rinv be (fun _ => B') al (fun _ => A') 0 = @t_P Rcring Rinv al (fun _ => A') be (fun _ => B') 0).
      { unfold t_P, t_oop. flat. rewrite (Rplus_comm be al). req. ring. }
      assert (Hh : @t_oo2p Rcring Rinv (/ 2) be al = @t_oo2p Rcring Rinv (/ 2) al be) by (unfold t_oo2p, t_oop; flat; rewrite (Rplus_comm be al); reflexivity).
      unfold t_PA, t_PB in *. rewrite P in *. rewrite Hh in *. split; [|split].
      + intros i0 j0. rewrite (Rt j0 i0). flat. req. ring.
      + intros i0 j0. rewrite (L j0 i0). flat. req. ring.
      + rewrite Z. unfold t_s00, t_mu, t_oop, t_AB2. flat. rewrite (Rplus_comm be al). req. do 2 f_equal. ring.
    - apply (line_overlaps al be (fun _ => A') (fun _ => B') 0%nat). }
  rewrite <- !S. eapply der_ext; [intros s; apply S|]. apply line_left; assumption.
Qed.

(** ** Three directions *)
Definition box (a b : @EndToEnd.gauss Rcring) (u v : Cart.gauss) : R :=
  line (g_exp a) (g_exp b) (g_at a DX) (g_at b DX) (gx u) (gx v) * line (g_exp a) (g_exp b) (g_at a DY) (g_at b DY) (gy u) (gy v) *
  line (g_exp a) (g_exp b) (g_at a DZ) (g_at b DZ) (gz u) (gz v).
Lemma line_start al be A B : line al be A B 0 0 = sqrt (PI * / (al + be)) * exp (- (al * be * / (al + be)) * ((A - B) * (A - B))).
Proof. destruct (line_overlaps al be (fun _ => A) (fun _ => B) 0%nat) as (_ & _ & Z). exact Z. Qed.
Lemma box_start (a b : @EndToEnd.gauss Rcring) : 0 < g_exp a -> 0 < g_exp b -> box a b (G 0 0 0) (G 0 0 0) = s_overlap a b.
Proof.
  intros Ha Hb. pose proof PI_RGT_0. unfold box, s_overlap, between. cbn [gx gy gz]. rewrite !line_start. cbv zeta. fold (Rdiv PI (g_exp a + g_exp b)).
  set (r := PI / (g_exp a + g_exp b)). assert (0 < r) by (apply Rdiv_lt_0_compat; lra).
  replace (r * sqrt r) with (sqrt r * sqrt r * sqrt r) by (rewrite sqrt_sqrt by lra; reflexivity).
  set (m := g_exp a * g_exp b * / (g_exp a + g_exp b)).
  match goal with |- _ = _ * exp ?w => replace w with (- m * ((g_at a DX - g_at b DX) * (g_at a DX - g_at b DX)) + - m * ((g_at a DY - g_at b DY) * (g_at a DY - g_at b DY))
    + - m * ((g_at a DZ - g_at b DZ) * (g_at a DZ - g_at b DZ))) by (unfold m, Rdiv; ring) end.
  rewrite !exp_plus. ring.
Qed.
(** The factor of direction [d] and the product of the others. *)
Definition rest (d : dir) (a b : @EndToEnd.gauss Rcring) (u v : Cart.gauss) : R :=
  let l e := line (g_exp a) (g_exp b) (g_at a e) (g_at b e) (gexp e u) (gexp e v) in
  match d with DX => l DY * l DZ | DY => l DX * l DZ | DZ => l DX * l DY end.
Lemma box_split d (a b : @EndToEnd.gauss Rcring) u v : box a b u v = rest d a b u v * line (g_exp a) (g_exp b) (g_at a d) (g_at b d) (gexp d u) (gexp d v).
Proof. unfold box, rest. destruct d; cbn [gexp]; ring. Qed.
Lemma rest_slid_l d t a b u v : rest d (slid d t a) b u v = rest d a b u v.
Proof. unfold rest, slid. cbn [g_exp g_at]. destruct d; cbn [dir_eq_dec]; repeat (match goal with |- context [dir_eq_dec ?x ?y] => destruct (dir_eq_dec x y); try congruence end); rewrite !Rplus_0_r; reflexivity. Qed.
Lemma rest_slid_r d t a b u v : rest d a (slid d t b) u v = rest d a b u v.
Proof. unfold rest, slid. cbn [g_exp g_at]. destruct d; cbn [dir_eq_dec]; repeat (match goal with |- context [dir_eq_dec ?x ?y] => destruct (dir_eq_dec x y); try congruence end); rewrite !Rplus_0_r; reflexivity. Qed.
Lemma rest_up_l d a b u v : rest d a b (up d u) v = rest d a b u v.
Proof. destruct d; reflexivity. Qed.
Lemma rest_up_r d a b u v : rest d a b u (up d v) = rest d a b u v.
Proof. destruct d; reflexivity. Qed.
Lemma slid_here d t (a : @EndToEnd.gauss Rcring) : g_at (slid d t a) d = g_at a d + t.
Proof. unfold slid. cbn [g_at]. destruct (dir_eq_dec d d); [reflexivity|congruence]. Qed.
Lemma gexp_up_same d u : gexp d (up d u) = S (gexp d u).
Proof. destruct d; reflexivity. Qed.
Lemma low_l d (a b : @EndToEnd.gauss Rcring) u v : lowered_by d u (fun u' => box a b u' v) =
  rest d a b u v * (INR (gexp d u) * line (g_exp a) (g_exp b) (g_at a d) (g_at b d) (gexp d u - 1) (gexp d v)).
Proof.
  unfold lowered_by. destruct (down d u) as [u'|] eqn:E.
  - apply down_some in E. subst u. rewrite (box_split d), rest_up_l, gexp_up_same. replace (S (gexp d u') - 1)%nat with (gexp d u') by lia. ring.
  - assert (Z : gexp d u = 0%nat) by (destruct u as [x y z], d; cbn in *; [destruct x|destruct y|destruct z]; congruence).
    rewrite Z. cbn [INR]. ring.
Qed.
Lemma low_r d (a b : @EndToEnd.gauss Rcring) u v : lowered_by d v (fun v' => box a b u v') =
  rest d a b u v * (INR (gexp d v) * line (g_exp a) (g_exp b) (g_at a d) (g_at b d) (gexp d u) (gexp d v - 1)).
Proof.
  unfold lowered_by. destruct (down d v) as [v'|] eqn:E.
  - apply down_some in E. subst v. rewrite (box_split d), rest_up_r, gexp_up_same. replace (S (gexp d v') - 1)%nat with (gexp d v') by lia. ring.
  - assert (Z : gexp d v = 0%nat) by (destruct v as [x y z], d; cbn in *; [destruct x|destruct y|destruct z]; congruence).
    rewrite Z. cbn [INR]. ring.
Qed.
Theorem box_integrals : overlap_integrals box.
Proof.
  intros a b Ha Hb. split; [apply box_start; assumption|]. intros d u v. split.
  - eapply der_ext; [intros t; symmetry; rewrite (box_split d), rest_slid_l, slid_here; reflexivity|]. cbn [slid g_exp].
    eapply der_eq; [apply derivable_pt_lim_scal, line_left; assumption|]. rewrite low_l, (box_split d a b (up d u) v), rest_up_l, gexp_up_same, !Rplus_0_r. ring.
  - eapply der_ext; [intros t; symmetry; rewrite (box_split d), rest_slid_r, slid_here; reflexivity|]. cbn [slid g_exp].
    eapply der_eq; [apply derivable_pt_lim_scal, line_right; assumption|]. rewrite low_r, (box_split d a b u (up d v)), rest_up_r, gexp_up_same, !Rplus_0_r. ring.
Qed.
Theorem overlap_unique O O' : overlap_integrals O -> overlap_integrals O' ->
  forall u v (a b : @EndToEnd.gauss Rcring), 0 < g_exp a -> 0 < g_exp b -> O a b u v = O' a b u v.
Proof.
  intros H H'. assert (K : forall n u v, (gam u + gam v <= n)%nat -> forall (a b : @EndToEnd.gauss Rcring), 0 < g_exp a -> 0 < g_exp b -> O a b u v = O' a b u v).
  2: { intros u v. apply (K _ u v (le_n _)). }
  induction n as [|n IH]; intros u v Hn a b Ha Hb.
  - assert (u = G 0 0 0) as -> by (destruct u as [x y z]; unfold gam in *; cbn in *; f_equal; lia).
    assert (v = G 0 0 0) as -> by (destruct v as [x y z]; unfold gam in *; cbn in *; f_equal; lia).
    destruct (H a b Ha Hb) as [-> _], (H' a b Ha Hb) as [-> _]. reflexivity.
  - destruct (gam_raise u) as [Zu|(d & u' & ->)]; [destruct (gam_raise v) as [Zv|(d & v' & ->)]|].
    + apply IH; [lia|assumption|assumption].
    + destruct (H a b Ha Hb) as [_ D], (H' a b Ha Hb) as [_ D']. destruct (D d u v') as [_ E], (D' d u v') as [_ E']. rewrite gam_up in Hn.
      assert (Q : 2 * g_exp b * O a b u (up d v') - lowered_by d v' (fun w => O a b u w) = 2 * g_exp b * O' a b u (up d v') - lowered_by d v' (fun w => O' a b u w)).
      { eapply uniqueness_limite; [exact E|]. eapply der_ext; [|exact E']. intros t. symmetry. apply IH; [lia|assumption|exact Hb]. }
      assert (L : lowered_by d v' (fun w => O a b u w) = lowered_by d v' (fun w => O' a b u w)).
      { unfold lowered_by. destruct (down d v') as [w|] eqn:Ed; [|reflexivity]. apply gam_down in Ed. f_equal. apply IH; [lia|assumption|assumption]. }
      rewrite L in Q. apply (Rmult_eq_reg_l (2 * g_exp b)); lra.
    + destruct (H a b Ha Hb) as [_ D], (H' a b Ha Hb) as [_ D']. destruct (D d u' v) as [E _], (D' d u' v) as [E' _]. rewrite gam_up in Hn.
      assert (Q : 2 * g_exp a * O a b (up d u') v - lowered_by d u' (fun w => O a b w v) = 2 * g_exp a * O' a b (up d u') v - lowered_by d u' (fun w => O' a b w v)).
      { eapply uniqueness_limite; [exact E|]. eapply der_ext; [|exact E']. intros t. symmetry. apply IH; [lia|exact Ha|assumption]. }
      assert (L : lowered_by d u' (fun w => O a b w v) = lowered_by d u' (fun w => O' a b w v)).
      { unfold lowered_by. destruct (down d u') as [w|] eqn:Ed; [|reflexivity]. apply gam_down in Ed. f_equal. apply IH; [lia|assumption|assumption]. }
      rewrite L in Q. apply (Rmult_eq_reg_l (2 * g_exp a)); lra.
Qed.

(** ** The second derivative *)
Definition line2 (al be A B : R) (i j : nat) : R :=
  2 * be * (2 * be * line al be A B i (S (S j)) - INR (S j) * line al be A B i j)
  - INR j * (2 * be * line al be A B i j - INR (j - 1) * line al be A B i (j - 2)).
Lemma line_second al be A B i j : 0 < al -> 0 < be -> second (fun t => line al be A (B + t) i j) (line2 al be A B i j).
Proof.
  intros Ha Hb. exists (fun t => 2 * be * line al be A (B + t) i (S j) - INR j * line al be A (B + t) i (j - 1)). split.
  - intros t. apply line_right; assumption.
  - eapply der_eq; [apply derivable_pt_lim_minus; [apply derivable_pt_lim_scal|]|].
    + apply line_right; assumption.
    + apply derivable_pt_lim_scal, line_right; assumption.
    + rewrite !Rplus_0_r. unfold line2. destruct j as [|j]; [cbn [INR Nat.sub]; ring|]. cbn [Nat.sub]. rewrite Nat.sub_0_r. ring.
Qed.
Lemma line_kinetic al be A B i j : @kinetic Rcring (/ 2) be (line al be A B) i j = - / 2 * line2 al be A B i j.
Proof.
  unfold kinetic, line2. rewrite !ofnat_INR. flat. req. replace (j + 2)%nat with (S (S j)) by lia.
  rewrite plus_INR, !mult_INR, !S_INR. cbn [INR]. field.
Qed.
Lemma second_unique f D D' : second f D -> second f D' -> D = D'.
Proof.
  intros (g & H & E) (g' & H' & E'). eapply uniqueness_limite; [exact E|]. eapply der_ext; [|exact E'].
  intros t. eapply uniqueness_limite; [apply H'|apply H].
Qed.
Lemma second_ext f g D : (forall t, f t = g t) -> second f D -> second g D.
Proof. intros E (h & H & K). exists h. split; [|exact K]. intros t. eapply der_ext; [exact E|apply H]. Qed.
Lemma box_second d (a b : @EndToEnd.gauss Rcring) u v : 0 < g_exp a -> 0 < g_exp b -> second (fun t => box a (slid d t b) u v)
  (rest d a b u v * line2 (g_exp a) (g_exp b) (g_at a d) (g_at b d) (gexp d u) (gexp d v)).
Proof.
  intros Ha Hb. destruct (line_second (g_exp a) (g_exp b) (g_at a d) (g_at b d) (gexp d u) (gexp d v) Ha Hb) as (g & H & K).
  exists (fun t => rest d a b u v * g t). split; [|apply derivable_pt_lim_scal, K].
  intros t. eapply der_ext; [intros s; symmetry; rewrite (box_split d), rest_slid_r, slid_here; reflexivity|]. cbn [slid g_exp].
  apply derivable_pt_lim_scal, H.
Qed.

(** ** The code *)
Theorem overlap_code O : overlap_integrals O -> forall (A B : @oshell Rcring) out,
  (os_am A <= 18)%nat -> (os_am B <= 18)%nat -> (ncart (os_am A) * ncart (os_am B) <= length out)%nat ->
  positive (os_sh A) -> positive (os_sh B) ->
  exists out', @compute_overlap Rcring Rinv sqrt exp (/ 2) PI A B out = Some out' /\
    forall a b, gam a = os_am A -> gam b = os_am B -> rdv out' (pos a * ncart (os_am B) + pos b) =
      Some (sum_to (sh_n (os_sh A)) (fun i => sum_to (sh_n (os_sh B)) (fun j =>
              sh_coef (os_sh A) i * sh_coef (os_sh B) j * O (gauss_at (os_sh A) i) (gauss_at (os_sh B) j) a b))).
Proof.
  intros HO A B out HA HB Hl PA PB.
  destruct (@overlap_integrals_ok Rcring Rinv sqrt exp (/ 2) PI A B out
    (fun i j d => line (sh_alpha (os_sh A) i) (sh_alpha (os_sh B) j) (sh_pos (os_sh A) d) (sh_pos (os_sh B) d)) HA HB Hl) as (out' & E & _ & V & _).
  { intros. apply line_overlaps. }
  exists out'. split; [exact E|]. intros a b Ga Gb. rewrite V by assumption. f_equal. unfold prim_sum. rewrite rsum_sum.
  apply sum_ext. intros i Hi. rewrite rsum_sum. apply sum_ext. intros j Hj.
  rewrite (@overlap_unique O box HO box_integrals) by (unfold gauss_at; cbn [g_exp]; first [apply PA; assumption|apply PB; assumption]).
  unfold comp3, box, gauss_at. cbn [g_exp g_at idx_of_dir]. flat. req. ring.
Qed.
Theorem kinetic_code O : overlap_integrals O -> forall (A B : @oshell Rcring) out,
  (os_am A <= 18)%nat -> (os_am B <= 18)%nat -> (ncart (os_am A) * ncart (os_am B) <= length out)%nat ->
  positive (os_sh A) -> positive (os_sh B) ->
  exists out', @compute_ke Rcring Rinv sqrt exp (/ 2) PI A B out = Some out' /\
    forall a b, gam a = os_am A -> gam b = os_am B -> exists D : nat -> nat -> dir -> R,
      (forall i j d, (i < sh_n (os_sh A))%nat -> (j < sh_n (os_sh B))%nat ->
         second (fun t => O (gauss_at (os_sh A) i) (slid d t (gauss_at (os_sh B) j)) a b) (D i j d)) /\
      rdv out' (pos a * ncart (os_am B) + pos b) =
      Some (sum_to (sh_n (os_sh A)) (fun i => sum_to (sh_n (os_sh B)) (fun j =>
              sh_coef (os_sh A) i * sh_coef (os_sh B) j * (- / 2 * (D i j DX + D i j DY + D i j DZ))))).
Proof.
  intros HO A B out HA HB Hl PA PB.
  destruct (@ke_integrals_ok Rcring Rinv sqrt exp (/ 2) PI A B out
    (fun i j d => line (sh_alpha (os_sh A) i) (sh_alpha (os_sh B) j) (sh_pos (os_sh A) d) (sh_pos (os_sh B) d)) HA HB Hl) as (out' & E & _ & V & _).
  { flat. change (@c1 Rcring) with 1. req. field. }
  { intros i j Hi Hj. specialize (PA i Hi). specialize (PB j Hj). flat. change (@c1 Rcring) with 1. req. apply Rinv_r. lra. }
  { intros. apply line_overlaps. }
  exists out'. split; [exact E|]. intros a b Ga Gb.
  exists (fun i j d => rest d (gauss_at (os_sh A) i) (gauss_at (os_sh B) j) a b *
    line2 (sh_alpha (os_sh A) i) (sh_alpha (os_sh B) j) (sh_pos (os_sh A) (idx_of_dir d)) (sh_pos (os_sh B) (idx_of_dir d)) (gexp d a) (gexp d b)).
  split.
  - intros i j d Hi Hj. eapply second_ext; [|apply (box_second d (gauss_at (os_sh A) i) (gauss_at (os_sh B) j) a b); [apply PA, Hi|apply PB, Hj]].
    intros t. symmetry. apply (@overlap_unique O box HO box_integrals); unfold gauss_at; cbn [slid g_exp]; [apply PA|apply PB]; assumption.
  - rewrite V by assumption. f_equal. unfold prim_sum. rewrite rsum_sum.
    apply sum_ext. intros i Hi. rewrite rsum_sum. apply sum_ext. intros j Hj. cbv zeta. unfold kin3. rewrite !line_kinetic.
    unfold rest, gauss_at. cbn [g_exp g_at idx_of_dir gexp]. flat. req. ring.
Qed.
(** ** A case *)
Lemma same_overlap (a : @EndToEnd.gauss Rcring) : g_exp a = PI / 2 -> s_overlap a a = 1.
Proof.
  intros E. pose proof PI_RGT_0. unfold s_overlap. cbv zeta. rewrite E. assert (Z : between (g_at a) (g_at a) = 0) by (unfold between; ring). rewrite Z, Rmult_0_r, Ropp_0, exp_0.
  replace (PI / (PI / 2 + PI / 2)) with 1 by (field; lra). rewrite sqrt_1. ring.
Qed.
