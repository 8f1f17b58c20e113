(** The derivatives with the real functions: [DerivKernel.eri_deriv] is the partial derivative of the contracted integral
    with respect to the position of a shell. *)
From Coq Require Import List Arith ZArith QArith Reals Qreals Lra Lia Psatz.
Import ListNotations.
From Verif Require Import Base Cart Mdir VRRStep OSFamily Layout PairData EndToEnd Deriv DerivKernel OSMoves Normalize NormPos BoysReal OneE.
Local Open Scope R_scope.

(** ** The Boys function *)
Lemma exp_near (w : R) : - / 2 <= w <= / 2 -> 0 <= exp w - 1 - w <= 2 * (w * w).
Proof.
  intros Hw. assert (A : forall z, 1 + z <= exp z).
  { intros z. destruct (Req_dec z 0) as [->|N]; [rewrite exp_0; lra|]. left. apply exp_ineq1, N. }
  pose proof (A w). pose proof (A (- w)) as B. rewrite exp_Ropp in B. pose proof (exp_pos w) as P.
  assert (C : exp w * (1 - w) <= 1).
  { apply (Rmult_le_compat_l (exp w)) in B; [|lra]. rewrite Rinv_r in B by lra. lra. }
  split; [lra|]. nra.
Qed.
Lemma boys_fun_le n x t : 0 <= t <= 1 -> 0 <= boys_fun n x t <= exp (Rabs x).
Proof.
  intros Ht. unfold boys_fun. assert (A : 0 <= t ^ (2 * n) <= 1).
  { split; [apply pow_le; lra|]. rewrite <- (pow1 (2 * n)). apply pow_incr. lra. }
  assert (B : 0 < exp (- (x * (t * t))) <= exp (Rabs x)).
  { split; [apply exp_pos|]. assert (D : - (x * (t * t)) <= Rabs x).
    { pose proof (Rle_abs (- x)) as E. rewrite Rabs_Ropp in E. pose proof (Rabs_pos x). assert (T : 0 <= t * t <= 1) by nra.
      set (s := t * t) in *. set (y := Rabs x) in *. clearbody s y. clear - E H T. nra. }
    destruct D as [D|D]; [left; apply exp_increasing, D|right; rewrite D; reflexivity]. }
  nra.
Qed.
Lemma boys_near n x h : Rabs h <= / 2 -> Rabs (boysR n (x + h) - (boysR n x - h * boysR (S n) x)) <= 2 * exp (Rabs x) * (h * h).
Proof.
  intros Hh. destruct (boysR_prim n (x + h)) as (P & HP & EP). destruct (boysR_prim n x) as (Q & HQ & EQ).
  destruct (boysR_prim (S n) x) as (Q' & HQ' & EQ').
  assert (Hh' : - / 2 <= h <= / 2) by (unfold Rabs in Hh; destruct (Rcase_abs h); lra).
  pose proof (@prim_bound (boys_fun n (x + h)) (fun t => boys_fun n x t - h * boys_fun (S n) x t) (fun _ => 2 * exp (Rabs x) * (h * h))
    P (fun t => Q t - h * Q' t) (fun t => 2 * exp (Rabs x) * (h * h) * t) 0 1 ltac:(lra)) as B.
  replace (boysR n (x + h) - (boysR n x - h * boysR (S n) x)) with
    (P 1 - P 0 - ((Q 1 - h * Q' 1) - (Q 0 - h * Q' 0))) by (rewrite <- EP, <- EQ, <- EQ'; ring).
  replace (2 * exp (Rabs x) * (h * h)) with (2 * exp (Rabs x) * (h * h) * 1 - 2 * exp (Rabs x) * (h * h) * 0) by ring.
  apply B; clear B.
  - exact HP.
  - intros t Ht. apply (derivable_pt_lim_minus Q (fun t => h * Q' t)); [apply HQ, Ht|]. apply (derivable_pt_lim_scal Q' h), HQ', Ht.
  - intros t _. replace (2 * exp (Rabs x) * (h * h)) with (2 * exp (Rabs x) * (h * h) * 1) at 1 by ring.
    apply (derivable_pt_lim_scal id). apply derivable_pt_lim_id.
  - intros t Ht. pose proof (@boys_fun_le n x t Ht) as L.
    assert (E : boys_fun n (x + h) t - (boys_fun n x t - h * boys_fun (S n) x t) =
      boys_fun n x t * (exp (- (h * (t * t))) - 1 - (- (h * (t * t))))).
    { unfold boys_fun. replace (- ((x + h) * (t * t))) with (- (x * (t * t)) + - (h * (t * t))) by ring. rewrite exp_plus.
      replace (2 * S n)%nat with (2 + 2 * n)%nat by lia. rewrite pow_add. cbn [pow]. ring. }
    rewrite E. assert (T : 0 <= t * t <= 1) by nra.
    pose proof (@exp_near (- (h * (t * t))) ltac:(nra)) as [N1 N2].
    assert (S : (- (h * (t * t))) * (- (h * (t * t))) <= h * h).
    { replace (- (h * (t * t)) * - (h * (t * t))) with (h * h * ((t * t) * (t * t))) by ring. assert (0 <= h * h) by nra.
      assert ((t * t) * (t * t) <= 1) by nra. nra. }
    rewrite Rabs_pos_eq by (apply Rmult_le_pos; lra).
    set (w := exp (- (h * (t * t))) - 1 - - (h * (t * t))) in *. clearbody w.
    set (f := boys_fun n x t) in *. clearbody f. pose proof (exp_pos (Rabs x)). nra.
Qed.
(** F_n' = - F_(n+1). *)
Lemma boysR_der n x : derivable_pt_lim (boysR n) x (- boysR (S n) x).
Proof.
  intros eps Heps. set (M := 2 * exp (Rabs x)). assert (HM : 0 < M) by (unfold M; pose proof (exp_pos (Rabs x)); lra).
  assert (Hd : 0 < Rmin (/ 2) (eps / (M + M))) by (apply Rmin_pos; [lra|apply Rdiv_lt_0_compat; lra]).
  exists (mkposreal _ Hd). intros h Nh Hh. change (Rabs h < Rmin (/ 2) (eps / (M + M))) in Hh.
  assert (H1 : Rabs h <= / 2) by (pose proof (Rmin_l (/ 2) (eps / (M + M))); lra).
  assert (H2 : Rabs h < eps / (M + M)) by (pose proof (Rmin_r (/ 2) (eps / (M + M))); lra).
  pose proof (@boys_near n x h H1) as B. fold M in B. clearbody M.
  replace ((boysR n (x + h) - boysR n x) / h - - boysR (S n) x) with ((boysR n (x + h) - (boysR n x - h * boysR (S n) x)) / h) by (field; exact Nh).
  unfold Rdiv at 1. rewrite Rabs_mult, Rabs_inv. pose proof (Rabs_pos_lt h Nh) as Ph.
  apply (Rmult_lt_reg_r (Rabs h)); [exact Ph|]. rewrite Rmult_assoc, Rinv_l, Rmult_1_r by lra.
  apply Rle_lt_trans with (1 := B). replace (h * h) with (Rabs h * Rabs h) by (rewrite <- Rabs_mult; apply Rabs_pos_eq; nra).
  assert (H3 : M * Rabs h < eps).
  { apply (Rmult_lt_compat_l M) in H2; [|exact HM]. apply Rlt_trans with (1 := H2). apply (Rmult_lt_reg_r 2); [lra|].
    replace (M * (eps / (M + M)) * 2) with eps by (field; lra). lra. }
  nra.
Qed.

(** ** Derivatives at 0 *)
Lemma der_quadratic (f : R -> R) w z : (forall t, f t = f 0 + t * w + t * t * z) -> derivable_pt_lim f 0 w.
Proof.
  intros H. assert (D : derivable_pt_lim (fun t => f 0 + (t * w + t * t * z)) 0 (0 + ((1 * w + 0 * 0) + ((1 * 0 + 0 * 1) * z + 0 * 0 * 0)))).
  { apply (derivable_pt_lim_plus (fun _ => f 0) (fun t => t * w + t * t * z)); [apply derivable_pt_lim_const|].
    apply (derivable_pt_lim_plus (fun t => t * w) (fun t => t * t * z)).
    - apply (derivable_pt_lim_mult id (fun _ => w)); [apply derivable_pt_lim_id|apply derivable_pt_lim_const].
    - apply (derivable_pt_lim_mult (fun t => t * t) (fun _ => z)); [|apply derivable_pt_lim_const].
      apply (derivable_pt_lim_mult id id); apply derivable_pt_lim_id. }
  replace w with (0 + ((1 * w + 0 * 0) + ((1 * 0 + 0 * 1) * z + 0 * 0 * 0))) by ring.
  eapply derivable_pt_lim_ext; [|exact D]. intros t. cbn. rewrite (H t). ring.
Qed.
Lemma der_affine (f : R -> R) w : (forall t, f t = f 0 + t * w) -> derivable_pt_lim f 0 w.
Proof. intros H. apply der_quadratic with (z := 0). intros t. rewrite H. ring. Qed.

Section Moving.
Variables (K : R -> @vcoef Rcring) (u : R -> nat -> R) (e : R) (x : ctr) (d : dir).
Let V (t : R) : nat -> qrt -> R := @os_value Rcring (K t) (u t).
Hypothesis Hh : forall t s, k_h (K t) s = k_h (K 0) s.
Hypothesis Ha : forall t s, k_a (K t) s = k_a (K 0) s.
Hypothesis Hpq : forall t, k_hpq (K t) = k_hpq (K 0).
Hypothesis HPA : forall c i, derivable_pt_lim (fun t => k_PA (K t) c i) 0
  (@hit Rcring x i x d * (e * @cu Rcring (K 0) c x) - @hit Rcring c i x d).
Hypothesis HaPQ : forall c i, derivable_pt_lim (fun t => k_aPQ (K t) (cside c) i) 0 (@hit Rcring x i x d * (e * @cw Rcring (K 0) c x)).
Hypothesis Hu : forall m, derivable_pt_lim (fun t => u t m) 0 (e * (k_PA (K 0) x d * u 0 m + k_aPQ (K 0) (cside x) d * u 0 (S m))).

Lemma cu_const t c f : @cu Rcring (K t) c f = @cu Rcring (K 0) c f.
Proof. unfold cu. rewrite Hh. reflexivity. Qed.
Lemma cw_const t c f : @cw Rcring (K t) c f = @cw Rcring (K 0) c f.
Proof. unfold cw. rewrite Hh, Ha, Hpq. reflexivity. Qed.
Lemma der_lowered (F : R -> qrt -> R) (G : qrt -> R) f i q : (forall q', clower f i q = Some q' -> derivable_pt_lim (fun t => F t q') 0 (G q')) ->
  derivable_pt_lim (fun t => @minus_lowered Rcring (F t) f i q) 0 (@minus_lowered Rcring G f i q).
Proof.
  intros H. unfold minus_lowered. destruct (clower f i q) as [q'|].
  - apply (derivable_pt_lim_scal (fun t => F t q')). apply H. reflexivity.
  - apply derivable_pt_lim_const.
Qed.
Theorem os_value_moves q m : derivable_pt_lim (fun t => V t m q) 0 (@moves Rcring (V 0) e x d m q).
Proof.
  remember (qdeg q) as n eqn:E. assert (L : (qdeg q <= n)%nat) by lia. clear E. revert q L m.
  induction n as [|n IH]; intros q L m.
  1: assert (q = OSFamily.q0) as -> by (apply qdeg_zero; lia).
  2: destruct (Nat.eq_dec (qdeg q) 0) as [Z|Z]; [apply qdeg_zero in Z; subst q; clear L|].
  1,2: rewrite (@moves_start Rcring (K 0) (V 0) e x d (@os_value_family Rcring (K 0) (u 0))); unfold V; rewrite !os_value_start;
       apply (derivable_pt_lim_ext (fun t => u t m)); [intros t; symmetry; exact (@os_value_start Rcring (K t) (u t) m)|apply Hu].
  destruct (@qdeg_pos q) as (c & i & q' & ->); [lia|]. rewrite qdeg_raise in L.
  rewrite (@moves_raise Rcring (K 0) (V 0) e x d (@os_value_family Rcring (K 0) (u 0))).
  set (ex := fun f t => @cu Rcring (K 0) c f * @minus_lowered Rcring (V t m) f i q' + @cw Rcring (K 0) c f * @minus_lowered Rcring (V t (S m)) f i q').
  apply (derivable_pt_lim_ext (fun t => k_PA (K t) c i * V t m q' + k_aPQ (K t) (cside c) i * V t (S m) q' + (ex CI t + ex CJ t + ex CK t + ex CL t))).
  { intros t. unfold V, ex. symmetry. etransitivity; [exact (@family_sum Rcring (K t) _ (@os_value_family Rcring (K t) (u t)) c i m q')|].
    unfold sum4. rewrite (cu_const t c CI), (cu_const t c CJ), (cu_const t c CK), (cu_const t c CL), (cw_const t c CI), (cw_const t c CJ), (cw_const t c CK), (cw_const t c CL). reflexivity. }
  assert (Dl : forall m f, derivable_pt_lim (fun t => @minus_lowered Rcring (V t m) f i q') 0 (@minus_lowered Rcring (@moves Rcring (V 0) e x d m) f i q')).
  { intros m' f. apply der_lowered. intros q'' Hq. apply IH. apply clower_some in Hq. subst q'. rewrite qdeg_raise in L. lia. }
  pose proof (IH q' ltac:(lia) m) as D0. pose proof (IH q' ltac:(lia) (S m)) as D1. clear IH.
  pose proof (HPA c i) as P. pose proof (HaPQ c i) as A.
  pose proof (derivable_pt_lim_mult _ _ _ _ _ P D0) as M0. pose proof (derivable_pt_lim_mult _ _ _ _ _ A D1) as M1.
  assert (Df : forall f, derivable_pt_lim (ex f) 0
     (@cu Rcring (K 0) c f * @minus_lowered Rcring (@moves Rcring (V 0) e x d m) f i q' + @cw Rcring (K 0) c f * @minus_lowered Rcring (@moves Rcring (V 0) e x d (S m)) f i q')).
  { intros f. apply (derivable_pt_lim_plus (fun t => @cu Rcring (K 0) c f * @minus_lowered Rcring (V t m) f i q') (fun t => @cw Rcring (K 0) c f * @minus_lowered Rcring (V t (S m)) f i q')).
    - apply (derivable_pt_lim_scal (fun t => @minus_lowered Rcring (V t m) f i q')), Dl.
    - apply (derivable_pt_lim_scal (fun t => @minus_lowered Rcring (V t (S m)) f i q')), Dl. }
  pose proof (derivable_pt_lim_plus _ _ _ _ _ (derivable_pt_lim_plus _ _ _ _ _ M0 M1)
    (derivable_pt_lim_plus _ _ _ _ _ (derivable_pt_lim_plus _ _ _ _ _ (derivable_pt_lim_plus _ _ _ _ _ (Df CI) (Df CJ)) (Df CK)) (Df CL))) as T.
  match goal with |- derivable_pt_lim _ _ ?r => match type of T with derivable_pt_lim _ _ ?l => replace r with l end end.
  - eapply derivable_pt_lim_ext; [|exact T]. intros t. reflexivity.
  - unfold sum4. change (@cadd Rcring) with Rplus. change (@cmul Rcring) with Rmult. change (@csub Rcring) with Rminus.
    match goal with |- @eq _ ?x ?y => change (@eq R x y) end. ring.
Qed.
End Moving.

(** ** The integrals *)
Ltac flat := change (@cadd Rcring) with Rplus in *; change (@cmul Rcring) with Rmult in *; change (@csub Rcring) with Rminus in *;
  change (@copp Rcring) with Ropp in *; match goal with |- @eq _ ?x ?y => change (@eq R x y) | _ => idtac end.
(** A shell with its centre moved by [t] in direction [d]; the centre [x] of four moved. *)
Definition moved (S : @shell Rcring) (d : dir) (t : R) : @shell Rcring :=
  @Shell Rcring (sh_n S) (fun k => if (k =? idx_of_dir d)%nat then sh_pos S k + t else sh_pos S k) (sh_alpha S) (sh_coef S).
Definition moving (x : ctr) (d : dir) (t : R) (y : ctr) (S : @shell Rcring) : @shell Rcring := if ctr_eq_dec x y then moved S d t else S.

Definition shift (x : ctr) (d : dir) (t : R) (y : ctr) (g : @gauss Rcring) : @gauss Rcring :=
  if ctr_eq_dec x y then @Gauss Rcring (g_exp g) (fun i => if (idx_of_dir i =? idx_of_dir d)%nat then g_at g i + t else g_at g i) else g.
Definition pushed (x : ctr) (d : dir) (y : ctr) (i : dir) : R := if var_eq_dec (x, d) (y, i) then 1 else 0.
Lemma shift_exp x d t y g : g_exp (shift x d t y g) = g_exp g.
Proof. unfold shift. destruct (ctr_eq_dec x y); reflexivity. Qed.
Lemma shift_at x d t y g i : g_at (shift x d t y g) i = g_at g i + t * pushed x d y i.
Proof.
  unfold shift, pushed. destruct (ctr_eq_dec x y) as [<-|N].
  - cbn [g_at]. destruct (var_eq_dec (x, d) (x, i)) as [E|N].
    + injection E as <-. rewrite Nat.eqb_refl. flat. ring.
    + destruct (Nat.eqb_spec (idx_of_dir i) (idx_of_dir d)) as [E|_]; [|flat; symmetry; ring].
      exfalso. apply N. destruct i, d; cbn in E; congruence.
  - destruct (var_eq_dec (x, d) (y, i)) as [E|_]; [congruence|flat; symmetry; ring].
Qed.
Lemma pushed_hit x d y i : pushed x d y i = @hit Rcring y i x d.
Proof. unfold pushed, hit. destruct (var_eq_dec (x, d) (y, i)), (var_eq_dec (y, i) (x, d)); try congruence; reflexivity. Qed.

Section Prim.
Variables (c52 : R) (a b c e : @gauss Rcring) (x : ctr) (d : dir).
Hypothesis Pa : 0 < g_exp a.
Hypothesis Pb : 0 < g_exp b.
Hypothesis Pc : 0 < g_exp c.
Hypothesis Pe : 0 < g_exp e.
Let sa t := shift x d t CI a.
Let sb t := shift x d t CJ b.
Let sc t := shift x d t CK c.
Let se t := shift x d t CL e.
Let K t := @eri_coefs Rcring Rinv (/ 2) (sa t) (sb t) (sc t) (se t).
Let u t := @eri_start Rcring Rinv exp sqrt boysR c52 (sa t) (sb t) (sc t) (se t).
Let ex : R := 2 * g_exp (pick a b c e x).

Lemma gp_shift t : @gp Rcring (sa t) (sb t) = g_exp a + g_exp b /\ @gp Rcring (sc t) (se t) = g_exp c + g_exp e.
Proof. unfold gp, sa, sb, sc, se. rewrite !shift_exp. split; reflexivity. Qed.
Lemma rho_shift t : @rho Rcring Rinv (sa t) (sb t) (sc t) (se t) = @rho Rcring Rinv a b c e.
Proof. unfold rho. destruct (gp_shift t) as [-> ->]. reflexivity. Qed.
(** Velocities of the two product centres. *)
Definition vP (i : dir) : R := (g_exp a * pushed x d CI i + g_exp b * pushed x d CJ i) * / (g_exp a + g_exp b).
Definition vQ (i : dir) : R := (g_exp c * pushed x d CK i + g_exp e * pushed x d CL i) * / (g_exp c + g_exp e).
Lemma cenP t i : @gcen Rcring Rinv (sa t) (sb t) i = @gcen Rcring Rinv a b i + t * vP i.
Proof.
  unfold gcen. destruct (gp_shift t) as [-> _]. unfold sa, sb. rewrite !shift_exp, !shift_at. unfold gp, vP. flat. ring.
Qed.
Lemma cenQ t i : @gcen Rcring Rinv (sc t) (se t) i = @gcen Rcring Rinv c e i + t * vQ i.
Proof.
  unfold gcen. destruct (gp_shift t) as [_ ->]. unfold sc, se. rewrite !shift_exp, !shift_at. unfold gp, vQ. flat. ring.
Qed.
Lemma shift0 y g i : g_at (shift x d 0 y g) i = g_at g i.
Proof. rewrite shift_at. flat. ring. Qed.
Lemma k_h_shift t s : k_h (K t) s = k_h (K 0) s.
Proof. unfold K, eri_coefs; cbn [k_h]. destruct (gp_shift t) as [-> ->], (gp_shift 0) as [-> ->]. reflexivity. Qed.
Lemma k_a_shift t s : k_a (K t) s = k_a (K 0) s.
Proof. unfold K, eri_coefs; cbn [k_a]. rewrite !rho_shift. destruct (gp_shift t) as [-> ->], (gp_shift 0) as [-> ->]. reflexivity. Qed.
Lemma k_hpq_shift t : k_hpq (K t) = k_hpq (K 0).
Proof. unfold K, eri_coefs; cbn [k_hpq]. destruct (gp_shift t) as [-> ->], (gp_shift 0) as [-> ->]. reflexivity. Qed.

Lemma hit_here i : @hit Rcring x i x d = if dir_eq_dec i d then 1 else 0.
Proof. unfold hit. destruct (var_eq_dec (x, i) (x, d)), (dir_eq_dec i d); try congruence; reflexivity. Qed.
Lemma pushed_split y i : pushed x d y i = (if ctr_eq_dec x y then 1 else 0) * (if dir_eq_dec i d then 1 else 0).
Proof. unfold pushed. destruct (var_eq_dec (x, d) (y, i)), (ctr_eq_dec x y), (dir_eq_dec i d); try congruence; ring. Qed.
Lemma k_PA_shift f i : derivable_pt_lim (fun t => k_PA (K t) f i) 0
  (@hit Rcring x i x d * (ex * @cu Rcring (K 0) f x) - @hit Rcring f i x d).
Proof.
  apply der_affine. intros t. rewrite hit_here, <- pushed_hit, pushed_split. unfold K, eri_coefs, cu; cbn [k_PA k_h].
  destruct (gp_shift 0) as [-> ->]. rewrite !cenP, !cenQ. unfold sa, sb, sc, se. rewrite !shift_at. unfold vP, vQ, ex. rewrite !pushed_split.
  destruct f, x; cbn [same_side cside pick ctr_eq_dec]; repeat match goal with |- context [ctr_eq_dec ?a ?b] => destruct (ctr_eq_dec a b); try congruence end;
    flat; change (@c0 Rcring) with 0; destruct (dir_eq_dec i d); field; lra.
Qed.
Lemma k_aPQ_shift f i : derivable_pt_lim (fun t => k_aPQ (K t) (cside f) i) 0 (@hit Rcring x i x d * (ex * @cw Rcring (K 0) f x)).
Proof.
  apply der_affine. intros t. rewrite hit_here. unfold K, eri_coefs, cw; cbn [k_aPQ k_h k_a k_hpq]. rewrite !rho_shift.
  destruct (gp_shift 0) as [-> ->]. destruct (gp_shift t) as [-> ->]. rewrite !cenP, !cenQ. unfold vP, vQ, ex. rewrite !pushed_split. unfold rho, gp.
  destruct f, x; cbn [same_side cside pick ctr_eq_dec]; repeat match goal with |- context [ctr_eq_dec ?a ?b] => destruct (ctr_eq_dec a b); try congruence end;
    flat; destruct (dir_eq_dec i d); field; lra.
Qed.
Definition dot3 (f g : dir -> R) : R := f DX * g DX + f DY * g DY + f DZ * g DZ.
Lemma dist2_moves (f g vf vg : dir -> R) : forall ft gt : R -> dir -> R,
  (forall t i, ft t i = f i + t * vf i) -> (forall t i, gt t i = g i + t * vg i) ->
  derivable_pt_lim (fun t => @dist2 Rcring (ft t) (gt t)) 0 (2 * dot3 (fun i => f i - g i) (fun i => vf i - vg i)).
Proof.
  intros ft gt Hf Hg. apply der_quadratic with (z := @dist2 Rcring vf vg). intros t. unfold dist2, dot3. flat. rewrite !Hf, !Hg. ring.
Qed.
Lemma overlap_moves (g h : R -> @gauss Rcring) k D : (forall t, g_exp (g t) * g_exp (h t) * / (g_exp (g t) + g_exp (h t)) = k) ->
  derivable_pt_lim (fun t => @dist2 Rcring (g_at (g t)) (g_at (h t))) 0 D ->
  derivable_pt_lim (fun t => @overlap_exp Rcring Rinv exp (g t) (h t)) 0 (@overlap_exp Rcring Rinv exp (g 0) (h 0) * - (k * D)).
Proof.
  intros Hk HD. unfold overlap_exp, gp. flat. rewrite (Hk 0).
  apply (derivable_pt_lim_ext (fun t => exp (- (k * @dist2 Rcring (g_at (g t)) (g_at (h t)))))).
  { intros t. rewrite (Hk t). reflexivity. }
  apply (derivable_pt_lim_comp (fun t => - (k * @dist2 Rcring (g_at (g t)) (g_at (h t)))) exp).
  - apply (derivable_pt_lim_opp (fun t => k * @dist2 Rcring (g_at (g t)) (g_at (h t)))).
    apply (derivable_pt_lim_scal (fun t => @dist2 Rcring (g_at (g t)) (g_at (h t)))), HD.
  - apply derivable_pt_lim_exp.
Qed.
Lemma dist2_ext (f f' g g' : dir -> R) : (forall i, f i = f' i) -> (forall i, g i = g' i) -> @dist2 Rcring f g = @dist2 Rcring f' g'.
Proof. intros H H'. unfold dist2. rewrite !H, !H'. reflexivity. Qed.
Definition vel (y : ctr) (i : dir) : R := pushed x d y i.
Let k1 := g_exp a * g_exp b * / (g_exp a + g_exp b).
Let k2 := g_exp c * g_exp e * / (g_exp c + g_exp e).
Let w1 := 2 * dot3 (fun i => g_at a i - g_at b i) (fun i => vel CI i - vel CJ i).
Let w2 := 2 * dot3 (fun i => g_at c i - g_at e i) (fun i => vel CK i - vel CL i).
Let w3 := 2 * dot3 (fun i => @gcen Rcring Rinv a b i - @gcen Rcring Rinv c e i) (fun i => vP i - vQ i).
Let r := @rho Rcring Rinv a b c e.
Let C := c52 * c52 * / (g_exp a + g_exp b) * / (g_exp c + g_exp e) * sqrt (/ (g_exp a + g_exp b + (g_exp c + g_exp e))).
Lemma start_moves m : derivable_pt_lim (fun t => u t m) 0
  (- (k1 * w1 + k2 * w2) * u 0 m - r * w3 * u 0 (S m)).
Proof.
  assert (D1 : derivable_pt_lim (fun t => @overlap_exp Rcring Rinv exp (sa t) (sb t)) 0 (@overlap_exp Rcring Rinv exp (sa 0) (sb 0) * - (k1 * w1))).
  { apply overlap_moves.
    - intros t. unfold sa, sb. rewrite !shift_exp. reflexivity.
    - apply dist2_moves; intros t i; apply shift_at. }
  assert (D2 : derivable_pt_lim (fun t => @overlap_exp Rcring Rinv exp (sc t) (se t)) 0 (@overlap_exp Rcring Rinv exp (sc 0) (se 0) * - (k2 * w2))).
  { apply overlap_moves.
    - intros t. unfold sc, se. rewrite !shift_exp. reflexivity.
    - apply dist2_moves; intros t i; apply shift_at. }
  set (X := fun t => @dist2 Rcring (@gcen Rcring Rinv (sa t) (sb t)) (@gcen Rcring Rinv (sc t) (se t))).
  assert (D3 : derivable_pt_lim X 0 w3) by (apply dist2_moves; intros t i; [apply cenP|apply cenQ]).
  assert (D4 : derivable_pt_lim (fun t => boysR m (r * X t)) 0 (- boysR (S m) (r * X 0) * (r * w3))).
  { apply (derivable_pt_lim_comp (fun t => r * X t) (boysR m)); [apply (derivable_pt_lim_scal X), D3|apply boysR_der]. }
  pose proof (derivable_pt_lim_mult _ _ _ _ _ (derivable_pt_lim_mult _ _ _ _ _ D1 D2) D4) as T.
  apply (derivable_pt_lim_scal _ C) in T.
  assert (U : forall t n, u t n = C * (@overlap_exp Rcring Rinv exp (sa t) (sb t) * @overlap_exp Rcring Rinv exp (sc t) (se t) * boysR n (r * X t))).
  { intros t n. unfold u, eri_start. rewrite rho_shift. destruct (gp_shift t) as [-> ->]. unfold C, X, r. flat. ring. }
  rewrite !U. match type of T with derivable_pt_lim _ _ ?l => match goal with |- derivable_pt_lim _ _ ?g => replace g with l end end.
  - eapply derivable_pt_lim_ext; [|exact T]. intros t. symmetry. apply U.
  - cbn beta. unfold mult_fct, mult_real_fct. ring.
Qed.
Lemma start_os m : derivable_pt_lim (fun t => u t m) 0 (ex * (k_PA (K 0) x d * u 0 m + k_aPQ (K 0) (cside x) d * u 0 (S m))).
Proof.
  assert (E1 : ex * k_PA (K 0) x d = - (k1 * w1 + k2 * w2)).
  { unfold K, eri_coefs; cbn [k_PA]. rewrite !cenP, !cenQ. unfold sa, sb, sc, se. rewrite !shift_at. unfold gcen, gp, k1, k2, w1, w2, ex, dot3, vel.
    rewrite !pushed_split. destruct x, d; cbn [pick];
    repeat match goal with |- context [ctr_eq_dec ?a ?b] => destruct (ctr_eq_dec a b); try congruence end;
    repeat match goal with |- context [dir_eq_dec ?a ?b] => destruct (dir_eq_dec a b); try congruence end; flat; field; lra. }
  assert (E2 : ex * k_aPQ (K 0) (cside x) d = - (r * w3)).
  { unfold K, eri_coefs; cbn [k_aPQ]. rewrite !cenP, !cenQ, rho_shift. destruct (gp_shift 0) as [-> ->]. fold r. unfold w3, ex, dot3, vP, vQ. clearbody r.
    generalize (@gcen Rcring Rinv a b) (@gcen Rcring Rinv c e). intros P Q.
    rewrite !pushed_split. destruct x, d; cbn [pick cside];
    repeat match goal with |- context [ctr_eq_dec ?a ?b] => destruct (ctr_eq_dec a b); try congruence end;
    repeat match goal with |- context [dir_eq_dec ?a ?b] => destruct (dir_eq_dec a b); try congruence end; flat; field; lra. }
  replace (ex * (k_PA (K 0) x d * u 0 m + k_aPQ (K 0) (cside x) d * u 0 (S m))) with (- (k1 * w1 + k2 * w2) * u 0 m - r * w3 * u 0 (S m)); [apply start_moves|].
  rewrite <- E1. replace (r * w3) with (- (ex * k_aPQ (K 0) (cside x) d)) by (rewrite E2; ring). ring.
Qed.
(** The derivative of a primitive integral. *)
Lemma family_same (K1 K2 : @vcoef Rcring) V : (forall f i, k_PA K1 f i = k_PA K2 f i) -> (forall s i, k_aPQ K1 s i = k_aPQ K2 s i) ->
  (forall s, k_h K1 s = k_h K2 s) -> (forall s, k_a K1 s = k_a K2 s) -> k_hpq K1 = k_hpq K2 -> os_family K1 V -> os_family K2 V.
Proof.
  intros H1 H2 H3 H4 H5 H f i m q s. rewrite <- H1, <- H2. rewrite (H f i m q). unfold same_side_term, other_side_term. rewrite H3, H4, H5. reflexivity.
Qed.
Lemma at_start m q : @os_value Rcring (K 0) (u 0) m q = @os_value Rcring (@eri_coefs Rcring Rinv (/ 2) a b c e) (@eri_start Rcring Rinv exp sqrt boysR c52 a b c e) m q.
Proof.
  assert (cP : forall i, @gcen Rcring Rinv (sa 0) (sb 0) i = @gcen Rcring Rinv a b i) by (intros i; rewrite cenP; flat; symmetry; rewrite Rmult_0_l; symmetry; apply Rplus_0_r).
  assert (cQ : forall i, @gcen Rcring Rinv (sc 0) (se 0) i = @gcen Rcring Rinv c e i) by (intros i; rewrite cenQ; flat; symmetry; rewrite Rmult_0_l; symmetry; apply Rplus_0_r).
  apply (@os_family_unique Rcring (@eri_coefs Rcring Rinv (/ 2) a b c e)).
  - apply (@family_same (K 0)); unfold K, eri_coefs; cbn [k_PA k_aPQ k_h k_a k_hpq].
    + intros f i. rewrite !cP, !cQ. unfold sa, sb, sc, se. rewrite !shift0. reflexivity.
    + intros s i. rewrite !cP, !cQ, rho_shift. destruct (gp_shift 0) as [-> ->]. reflexivity.
    + intros s. destruct (gp_shift 0) as [-> ->]. reflexivity.
    + intros s. rewrite rho_shift. destruct (gp_shift 0) as [-> ->]. reflexivity.
    + destruct (gp_shift 0) as [-> ->]. reflexivity.
    + apply os_value_family.
  - apply os_value_family.
  - intros N. rewrite !os_value_start. unfold u, eri_start. rewrite rho_shift, (@dist2_ext _ _ _ _ cP cQ). destruct (gp_shift 0) as [-> ->]. unfold overlap_exp.
    destruct (gp_shift 0) as [-> ->]. unfold sa, sb, sc, se. rewrite !shift_exp.
    rewrite (@dist2_ext (g_at (shift x d 0 CI a)) (g_at a) (g_at (shift x d 0 CJ b)) (g_at b)) by (intros; apply shift0).
    rewrite (@dist2_ext (g_at (shift x d 0 CK c)) (g_at c) (g_at (shift x d 0 CL e)) (g_at e)) by (intros; apply shift0). reflexivity.
Qed.
Lemma prim_moves q : derivable_pt_lim (fun t => @prim_eri Rcring Rinv exp sqrt boysR (/ 2) c52 (sa t) (sb t) (sc t) (se t) q) 0
  (@prim_deriv Rcring Rinv exp sqrt boysR (/ 2) c52 ex a b c e x d q).
Proof.
  unfold prim_eri, prim_deriv.
  replace (@csub Rcring (@cmul Rcring ex (@prim_eri Rcring Rinv exp sqrt boysR (/ 2) c52 a b c e (craise x d q)))
    (@minus_lowered Rcring (@prim_eri Rcring Rinv exp sqrt boysR (/ 2) c52 a b c e) x d q)) with (@moves Rcring (@os_value Rcring (K 0) (u 0)) ex x d 0 q).
  - apply (@os_value_moves K u ex x d).
    + apply k_h_shift.
    + apply k_a_shift.
    + apply k_hpq_shift.
    + apply k_PA_shift.
    + apply k_aPQ_shift.
    + apply start_os.
  - unfold moves. rewrite at_start. rewrite (@lowered_ext Rcring _ (@prim_eri Rcring Rinv exp sqrt boysR (/ 2) c52 a b c e) x d q).
    + reflexivity.
    + intros r'. rewrite at_start. reflexivity.
Qed.
End Prim.

(** *** Contracted integrals *)
Lemma rsum_moves (l : list nat) (F : nat -> R -> R) (G : nat -> R) : (forall n, In n l -> derivable_pt_lim (F n) 0 (G n)) ->
  derivable_pt_lim (fun t => @rsum Rcring (map (fun n => F n t) l)) 0 (@rsum Rcring (map G l)).
Proof.
  induction l as [|n l IH]; intros H; cbn [map]; [apply derivable_pt_lim_const|].
  apply (derivable_pt_lim_plus (F n) (fun t => @rsum Rcring (map (fun n => F n t) l))); [apply H; now left|].
  apply IH. intros; apply H; now right.
Qed.
Lemma over_moves (A : R -> @shell Rcring) (A0 : @shell Rcring) (F : nat -> R -> R) (G : nat -> R) : (forall t, sh_n (A t) = sh_n A0) ->
  (forall n, (n < sh_n A0)%nat -> derivable_pt_lim (F n) 0 (G n)) ->
  derivable_pt_lim (fun t => @over Rcring (A t) (fun n => F n t)) 0 (@over Rcring A0 G).
Proof.
  intros Hk H. apply (derivable_pt_lim_ext (fun t => @rsum Rcring (map (fun n => F n t) (seq 0 (sh_n A0))))).
  - intros t. unfold over. rewrite Hk. reflexivity.
  - apply rsum_moves. intros n Hn. apply in_seq in Hn. apply H. lia.
Qed.
Lemma moving_n x d t y S : sh_n (moving x d t y S) = sh_n S.
Proof. unfold moving. destruct (ctr_eq_dec x y); reflexivity. Qed.
Lemma moving_coef x d t y S n : sh_coef (moving x d t y S) n = sh_coef S n.
Proof. unfold moving. destruct (ctr_eq_dec x y); reflexivity. Qed.
Lemma moving_prim x d t y S n : @prim Rcring (moving x d t y S) n = shift x d t y (@prim Rcring S n).
Proof. unfold moving, shift. destruct (ctr_eq_dec x y); reflexivity. Qed.

(** The partial derivative of a contracted integral with respect to coordinate [d] of the centre of shell [x]. *)
Theorem eri_moves (c52 : R) (A B C D : @shell Rcring) x d q : pos_exps A -> pos_exps B -> pos_exps C -> pos_exps D ->
  derivable_pt_lim (fun t => @eri Rcring Rinv exp sqrt boysR (/ 2) c52 (moving x d t CI A) (moving x d t CJ B) (moving x d t CK C) (moving x d t CL D) q) 0
    (@eri_deriv Rcring Rinv exp sqrt boysR (/ 2) c52 A B C D x d q).
Proof.
  intros PA PB PC PD. unfold eri, eri_deriv.
  apply (@over_moves (fun t => moving x d t CI A) A); [intros; apply moving_n|]. intros i Hi.
  apply (@over_moves (fun t => moving x d t CJ B) B); [intros; apply moving_n|]. intros j Hj.
  apply (@over_moves (fun t => moving x d t CK C) C); [intros; apply moving_n|]. intros k Hk.
  apply (@over_moves (fun t => moving x d t CL D) D); [intros; apply moving_n|]. intros l Hl.
  pose proof (@prim_moves c52 (prim A i) (prim B j) (prim C k) (prim D l) x d (PA i Hi) (PB j Hj) (PC k Hk) (PD l Hl) q) as M.
  apply (derivable_pt_lim_scal _ (sh_coef A i * sh_coef B j * sh_coef C k * sh_coef D l)) in M.
  eapply derivable_pt_lim_ext; [|exact M]. intros t. rewrite !moving_coef, !moving_prim. reflexivity.
Qed.
