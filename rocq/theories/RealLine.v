(** Integrals over the whole line of polynomials times Gaussians, and kernels with nonnegative energies: what the
    positivity of the electron repulsion (Screen.v, [repulsive]) is proved from. *)
From Coq Require Import List Arith ZArith Reals Lra Lia Psatz.
Import ListNotations.
From Verif Require Import Base ConstantsProof BoysReal BoysRealLong NormPos.
Local Open Scope R_scope.

(** ** Integrals over the line *)
(** On every large interval [f] has an antiderivative, whose increase tends to [L]. *)
Definition line (f : R -> R) (L : R) : Prop := forall e, 0 < e -> exists X, 1 <= X /\ forall S T, X <= S -> X <= T ->
  exists P, (forall y, - S <= y <= T -> derivable_pt_lim P y (f y)) /\ Rabs (P T - P (- S) - L) <= e.
Lemma line_ext f g L M : (forall y, f y = g y) -> L = M -> line f L -> line g M.
Proof.
  intros H -> D e He. destruct (D e He) as (X & X1 & HX). exists X. split; [exact X1|]. intros S T HS HT.
  destruct (HX S T HS HT) as (P & P1 & P2). exists P. split; [intros y Hy; rewrite <- H; apply P1, Hy|exact P2].
Qed.
Lemma line_zero : line (fun _ => 0) 0.
Proof.
  intros e He. exists 1. split; [lra|]. intros S T _ _. exists (fun _ => 0). split; [intros; apply derivable_pt_lim_const|]. rewrite !Rminus_0_r, Rabs_R0. lra.
Qed.
Lemma line_scal c f L : line f L -> line (fun y => c * f y) (c * L).
Proof.
  intros D e He. pose proof (Rabs_pos c) as C. destruct (D (e / (Rabs c + 1)) ltac:(apply Rdiv_lt_0_compat; lra)) as (X & X1 & HX). exists X. split; [exact X1|].
  intros S T HS HT. destruct (HX S T HS HT) as (P & P1 & P2). exists (fun y => c * P y). split; [intros y Hy; apply (derivable_pt_lim_scal P), P1, Hy|].
  replace (c * P T - c * P (- S) - c * L) with (c * (P T - P (- S) - L)) by ring. rewrite Rabs_mult. replace e with ((Rabs c + 1) * (e / (Rabs c + 1))) by (field; lra).
  apply Rmult_le_compat; [lra|apply Rabs_pos|lra|exact P2].
Qed.
Lemma line_plus f g L M : line f L -> line g M -> line (fun y => f y + g y) (L + M).
Proof.
  intros D D' e He. destruct (D (e / 2) ltac:(lra)) as (X & X1 & HX). destruct (D' (e / 2) ltac:(lra)) as (Y & Y1 & HY).
  exists (Rmax X Y). pose proof (Rmax_l X Y). pose proof (Rmax_r X Y). split; [lra|]. intros S T HS HT.
  destruct (HX S T ltac:(lra) ltac:(lra)) as (P & P1 & P2). destruct (HY S T ltac:(lra) ltac:(lra)) as (Q & Q1 & Q2).
  exists (fun y => P y + Q y). split; [intros y Hy; apply (derivable_pt_lim_plus P Q); [apply P1, Hy|apply Q1, Hy]|].
  apply abs_both in P2. apply abs_both in Q2. apply Rabs_le. lra.
Qed.
Lemma line_pos f L : (forall y, 0 <= f y) -> line f L -> 0 <= L.
Proof.
  intros F D. destruct (Rle_dec 0 L) as [|N]; [assumption|]. destruct (D (- L / 2) ltac:(lra)) as (X & X1 & HX). destruct (HX X X (Rle_refl X) (Rle_refl X)) as (P & P1 & P2).
  destruct (MVT_cor2 P f (- X) X ltac:(lra) P1) as (c & E & _). specialize (F c). apply abs_both in P2. assert (0 <= f c * (X - - X)) by (apply Rmult_le_pos; lra). lra.
Qed.
(** Tends to 0 at both ends. *)
Definition vanish (f : R -> R) : Prop := tends f 0 /\ tends (fun x => f (- x)) 0.
Lemma line_total F f : (forall y, derivable_pt_lim F y (f y)) -> vanish F -> line f 0.
Proof.
  intros D [V W] e He. destruct (V (e / 2) ltac:(lra)) as (X & X1 & HX). destruct (W (e / 2) ltac:(lra)) as (Y & Y1 & HY).
  exists (Rmax X Y). pose proof (Rmax_l X Y). pose proof (Rmax_r X Y). split; [lra|]. intros S T HS HT. exists F. split; [intros; apply D|].
  specialize (HX T ltac:(lra)). specialize (HY S ltac:(lra)). apply abs_both in HX. apply abs_both in HY. apply Rabs_le. lra.
Qed.
Lemma line_move f L k Y : 0 < k -> line f L -> line (fun y => f (k * (y - Y))) (L / k).
Proof.
  intros K D e He. destruct (D (k * e) ltac:(nra)) as (X & X1 & HX). exists (1 + Rabs Y + X / k). assert (XK : 0 < X / k) by (apply Rdiv_lt_0_compat; lra). pose proof (Rabs_pos Y) as YP.
  split; [lra|]. intros S T HS HT. assert (YB : - Rabs Y <= Y <= Rabs Y) by (apply abs_both; lra). assert (KX : k * (X / k) = X) by (field; lra).
  destruct (HX (k * (S + Y)) (k * (T - Y))) as (P & P1 & P2); [rewrite <- KX; apply Rmult_le_compat_l; lra|rewrite <- KX; apply Rmult_le_compat_l; lra|].
  exists (fun y => P (k * (y - Y)) * / k). split.
  - intros y Hy. assert (A : derivable_pt_lim (fun y => k * (y - Y)) y k).
    { pose proof (derivable_pt_lim_scal (fun y => y - Y) k y (1 - 0) (derivable_pt_lim_minus id (fun _ => Y) y 1 0 (derivable_pt_lim_id y) (derivable_pt_lim_const Y y))) as A.
      rewrite Rminus_0_r, Rmult_1_r in A. exact A. }
    assert (B : derivable_pt_lim P (k * (y - Y)) (f (k * (y - Y)))).
    { apply P1. split; [replace (- (k * (S + Y))) with (k * (- S - Y)) by ring|]; apply Rmult_le_compat_l; lra. }
    pose proof (derivable_pt_lim_scal _ (/ k) y _ (derivable_pt_lim_comp (fun y => k * (y - Y)) P y _ _ A B)) as C. cbn beta in C.
    replace (f (k * (y - Y))) with (/ k * (f (k * (y - Y)) * k)) by (field; lra).
    replace (fun y0 : R => P (k * (y0 - Y)) * / k) with (mult_real_fct (/ k) (comp P (fun y => k * (y - Y)))); [exact C|].
    apply FunctionalExtensionality.functional_extensionality. intros z. unfold mult_real_fct, comp. ring.
  - replace (k * (- S - Y)) with (- (k * (S + Y))) by ring. replace (P (k * (T - Y)) * / k - P (- (k * (S + Y))) * / k - L / k) with (/ k * (P (k * (T - Y)) - P (- (k * (S + Y))) - L)) by (unfold Rdiv; ring).
    rewrite Rabs_mult, Rabs_right by (left; apply Rinv_0_lt_compat, K). apply (Rmult_le_reg_l k); [exact K|]. rewrite <- Rmult_assoc, Rinv_r by lra. lra.
Qed.
Lemma sq_above x : 1 <= x -> x <= x * x.
Proof. intros H. rewrite <- (Rmult_1_l x) at 1. apply Rmult_le_compat_r; lra. Qed.
Lemma boys0_strict : 0 < boysR 0 1.
Proof.
  destruct (boysR_prim 0 1) as (P & HP & EP). rewrite <- EP. destruct (MVT_cor2 P (boys_fun 0 1) 0 1 ltac:(lra) HP) as (c & E & Hc). rewrite E.
  pose proof (exp_pos (- (1 * (c * c)))) as B. assert (0 < boys_fun 0 1 c) by (unfold boys_fun; change (2 * 0)%nat with 0%nat; rewrite pow_O, Rmult_1_l; exact B). lra.
Qed.
(** The Gaussian integral. *)
Lemma line_gauss : exists G, 0 < G /\ line gau G.
Proof.
  destruct scaled0_limit as (G & G0 & HG). exists (2 * G).
  assert (HT : tends (fun T => T * boysR 0 (T * T)) G).
  { intros e He. destruct (exp_beats 0 e He) as (X & X1 & HX). exists X. split; [exact X1|]. intros T HT. assert (TT : T <= T * T) by (apply sq_above; lra).
    specialize (HG (T * T) ltac:(lra)). unfold scaled in HG. rewrite sqrt_square in HG by lra. cbn [pow] in HG. rewrite Rmult_1_r in HG. eapply Rle_trans; [exact HG|].
    specialize (HX (T * T) ltac:(lra)). cbn [pow] in HX. rewrite Rminus_0_r, Rmult_1_r, sqrt_square in HX by lra. pose proof (exp_pos (- (T * T))). rewrite Rabs_right in HX by nra. nra. }
  split.
  - enough (boysR 0 1 <= G) as B1 by (pose proof boys0_strict; lra). destruct (Rle_dec (boysR 0 1) G) as [|N]; [assumption|].
    destruct (HT ((boysR 0 1 - G) / 2) ltac:(lra)) as (X & X1 & HX). specialize (HX X ltac:(lra)). apply abs_both in HX.
    pose proof (sq_above X X1). pose proof (boys0_between 1 (X * X) ltac:(lra) ltac:(lra)) as B. rewrite sqrt_1, sqrt_square in B by lra. lra.
  - intros e He. destruct (HT (e / 2) ltac:(lra)) as (X & X1 & HX). exists X. split; [exact X1|]. intros S T HS HT'.
    destruct (prim_of gau (- S) T ltac:(lra) (fun t _ => gau_cont t) (@continuity_implies_RiemannInt gau (- S) T ltac:(lra) (fun t _ => gau_cont t))) as (P & HP & _).
    exists P. split; [exact HP|]. pose proof (boys0_scaled T T P ltac:(lra) ltac:(intros; apply HP; lra)) as E1.
    pose proof (boys0_scaled S S (fun y => - P (- y)) ltac:(lra)) as E2.
    assert (E3 : S * boysR 0 (S * S) = - P (- S) - - P (- 0)).
    { apply E2. intros s Hs. pose proof (derivable_pt_lim_opp _ _ _ (derivable_pt_lim_comp (fun y => - y) P s _ _ (derivable_pt_lim_opp id s 1 (derivable_pt_lim_id s)) (HP (- s) ltac:(lra)))) as D.
      replace (gau s) with (- (gau (- s) * - (1))); [exact D|]. unfold gau. replace (- s * - s) with (s * s) by ring. ring. }
    rewrite Ropp_0 in E3. pose proof (HX T HT') as A. pose proof (HX S HS) as B. rewrite E1 in A. rewrite E3 in B. apply abs_both in A. apply abs_both in B. apply Rabs_le. lra.
Qed.

(** ** Fast decay about [Y] *)
Lemma tends_ext f g L : (forall x, f x = g x) -> tends f L -> tends g L.
Proof. intros H D e He. destruct (D e He) as (X & X1 & HX). exists X. split; [exact X1|]. intros x Hx. rewrite <- H. apply HX, Hx. Qed.
Lemma tends_plus f g L M : tends f L -> tends g M -> tends (fun x => f x + g x) (L + M).
Proof.
  intros D D' e He. destruct (D (e / 2) ltac:(lra)) as (X & X1 & HX). destruct (D' (e / 2) ltac:(lra)) as (Y & Y1 & HY).
  exists (Rmax X Y). pose proof (Rmax_l X Y). pose proof (Rmax_r X Y). split; [lra|]. intros x Hx.
  specialize (HX x ltac:(lra)). specialize (HY x ltac:(lra)). apply abs_both in HX. apply abs_both in HY. apply Rabs_le. lra.
Qed.
Lemma vanish_ext f g : (forall x, f x = g x) -> vanish f -> vanish g.
Proof. intros H [A B]. split; [exact (tends_ext _ _ _ H A)|]. apply (tends_ext (fun x => f (- x))); [intros; apply H|exact B]. Qed.
Lemma vanish_plus f g : vanish f -> vanish g -> vanish (fun x => f x + g x).
Proof. intros [A B] [C D]. split; rewrite <- (Rplus_0_l 0); [apply (tends_plus f g)|apply (tends_plus (fun x => f (- x)) (fun x => g (- x)))]; assumption. Qed.
Lemma vanish_scal c f : vanish f -> vanish (fun x => c * f x).
Proof. intros [A B]. split; rewrite <- (Rmult_0_r c); [apply (tends_scal c f)|apply (tends_scal c (fun x => f (- x)))]; assumption. Qed.
Lemma tends_move f Y : tends f 0 -> tends (fun x => f (x - Y)) 0.
Proof.
  intros D e He. destruct (D e He) as (X & X1 & HX). exists (X + Rabs Y). pose proof (Rabs_pos Y). split; [lra|]. intros x Hx. apply HX.
  assert (- Rabs Y <= Y <= Rabs Y) by (apply abs_both; lra). lra.
Qed.
Lemma vanish_move f Y : vanish f -> vanish (fun x => f (x - Y)).
Proof.
  intros [A B]. split; [apply tends_move, A|]. apply (tends_ext (fun x => f (- (x - - Y)))); [intros x; f_equal; ring|]. apply (tends_move (fun x => f (- x)) (- Y)), B.
Qed.
Definition small (Y : R) (f : R -> R) : Prop := forall n, vanish (fun y => (y - Y) ^ n * f y).
Lemma small_ext Y f g : (forall x, f x = g x) -> small Y f -> small Y g.
Proof. intros H D n. apply (vanish_ext (fun y => (y - Y) ^ n * f y)); [intros y; rewrite H; reflexivity|apply D]. Qed.
Lemma small_plus Y f g : small Y f -> small Y g -> small Y (fun y => f y + g y).
Proof. intros A B n. apply (vanish_ext (fun y => (y - Y) ^ n * f y + (y - Y) ^ n * g y)); [intros y; ring|]. apply vanish_plus; [apply A|apply B]. Qed.
Lemma small_scal Y c f : small Y f -> small Y (fun y => c * f y).
Proof. intros A n. apply (vanish_ext (fun y => c * ((y - Y) ^ n * f y))); [intros y; ring|]. apply vanish_scal, A. Qed.
Lemma small_mult Y f : small Y f -> small Y (fun y => (y - Y) * f y).
Proof. intros A n. apply (vanish_ext (fun y => (y - Y) ^ S n * f y)); [intros y; cbn; ring|]. apply A. Qed.
Lemma small_gauss Y a : 0 < a -> small Y (fun y => exp (- (a * ((y - Y) * (y - Y))))).
Proof.
  intros A n. apply (vanish_move (fun x => x ^ n * exp (- (a * (x * x)))) Y).
  assert (M : tends (fun x => Rabs x ^ n * exp (- (a * (x * x)))) 0).
  { intros e He. assert (AN : 0 < a ^ n) by (apply pow_lt, A). destruct (exp_beats n (e * a ^ n) ltac:(nra)) as (X & X1 & HX). exists (1 + X / a). assert (XA : 0 < X / a) by (apply Rdiv_lt_0_compat; lra).
    split; [lra|]. intros x Hx. assert (W : X <= a * (x * x)). { replace X with (a * (X / a)) by (field; lra). pose proof (sq_above x ltac:(lra)). apply Rmult_le_compat_l; lra. }
    specialize (HX _ W). set (w := a * (x * x)) in *. rewrite Rminus_0_r in *. pose proof (exp_pos (- w)) as EP. assert (SW : 1 <= sqrt w) by (rewrite <- sqrt_1; apply sqrt_le_1; lra).
    assert (XN : 0 < x ^ n) by (apply pow_lt; lra). assert (X2 : x ^ n <= (x * x) ^ n) by (apply pow_incr; pose proof (sq_above x ltac:(lra)); lra). assert (WN : w ^ n = a ^ n * (x * x) ^ n) by apply Rpow_mult_distr.
    rewrite (Rabs_right x) by lra. assert (P1 : 0 <= x ^ n * exp (- w)) by (apply Rmult_le_pos; lra). rewrite Rabs_right by lra.
    assert (WP : 0 < w ^ n) by (apply pow_lt; lra). rewrite Rabs_right in HX by (apply Rle_ge, Rmult_le_pos; [apply Rmult_le_pos; lra|lra]).
    apply (Rmult_le_reg_l (a ^ n)); [exact AN|]. rewrite (Rmult_comm _ e). eapply Rle_trans; [|exact HX]. rewrite <- Rmult_assoc. apply Rmult_le_compat_r; [lra|].
    apply (Rle_trans _ (w ^ n)); [rewrite WN; apply Rmult_le_compat_l; lra|]. rewrite <- (Rmult_1_l (w ^ n)) at 1. apply Rmult_le_compat_r; lra. }
  assert (G : forall f, (forall x, Rabs (f x) = Rabs x ^ n * exp (- (a * (x * x)))) -> tends f 0).
  { intros f F e He. destruct (M e He) as (X & X1 & HX). exists X. split; [exact X1|]. intros x Hx. specialize (HX x Hx). rewrite Rminus_0_r in *. rewrite F.
    eapply Rle_trans; [apply Rle_abs|exact HX]. }
  split; apply G; intros x; rewrite Rabs_mult, <- RPow_abs, ?Rabs_Ropp, (Rabs_right (exp _)) by (left; apply exp_pos); [reflexivity|]. do 4 f_equal. ring.
Qed.

(** ** Kernels with nonnegative energies *)
Section Psd.
Variable I : Type.
Variable ok : I -> Prop.
Fixpoint lsum (A : Type) (f : A -> R) (l : list A) : R := match l with [] => 0 | x :: r => f x + lsum A f r end.
Arguments lsum {A}.
Lemma lsum_ext (A : Type) (f g : A -> R) l : (forall x, In x l -> f x = g x) -> lsum f l = lsum g l.
Proof. induction l as [|x l IH]; intros H; [reflexivity|]. cbn. rewrite (H x) by now left. rewrite IH; [reflexivity|]. intros y Hy. apply H. now right. Qed.
Lemma lsum_scal (A : Type) c (f : A -> R) l : lsum (fun x => c * f x) l = c * lsum f l.
Proof. induction l as [|x l IH]; cbn; [ring|rewrite IH; ring]. Qed.
Lemma lsum_map (A B : Type) (g : A -> B) (f : B -> R) l : lsum f (map g l) = lsum (fun x => f (g x)) l.
Proof. induction l as [|x l IH]; cbn; [ring|rewrite IH; ring]. Qed.
Definition energy (K : I -> I -> R) (l : list (R * I)) : R := lsum (fun p => lsum (fun q => fst p * fst q * K (snd p) (snd q)) l) l.
Definition oks (l : list (R * I)) : Prop := forall p, In p l -> ok (snd p).
Definition psd (K : I -> I -> R) : Prop := forall l, oks l -> 0 <= energy K l.
Lemma psd_ext K K' : (forall i j, ok i -> ok j -> K i j = K' i j) -> psd K -> psd K'.
Proof. intros H D l Hl. replace (energy K' l) with (energy K l); [apply D, Hl|]. apply lsum_ext. intros p Hp. apply lsum_ext. intros q Hq. rewrite H by (apply Hl; assumption). reflexivity. Qed.
Lemma psd_one : psd (fun _ _ => 1).
Proof.
  intros l _. unfold energy. replace (lsum _ l) with (lsum fst l * lsum fst l); [apply Rle_0_sqr|]. rewrite <- lsum_scal. apply lsum_ext. intros p _.
  rewrite Rmult_comm, <- lsum_scal. apply lsum_ext. intros q _. ring.
Qed.
Lemma psd_weight w K : psd K -> psd (fun i j => w i * w j * K i j).
Proof.
  intros H l Hl. set (l' := map (fun p => (fst p * w (snd p), snd p)) l).
  replace (energy (fun i j => w i * w j * K i j) l) with (energy K l').
  - apply H. intros p Hp. unfold l' in Hp. apply in_map_iff in Hp. destruct Hp as (q & <- & Hq). apply (Hl q Hq).
  - unfold energy, l'. rewrite lsum_map. apply lsum_ext. intros p _. rewrite lsum_map. apply lsum_ext. intros q _. cbn [fst snd]. ring.
Qed.
Lemma psd_scal c K : 0 <= c -> psd K -> psd (fun i j => c * K i j).
Proof.
  intros C H l Hl. replace (energy (fun i j => c * K i j) l) with (c * energy K l); [apply Rmult_le_pos; [exact C|apply H, Hl]|].
  unfold energy. rewrite <- lsum_scal. apply lsum_ext. intros p _. rewrite <- lsum_scal. apply lsum_ext. intros q _. ring.
Qed.
Lemma line_lsum (A : Type) (f : A -> R -> R) L l : (forall x, In x l -> line (f x) (L x)) -> line (fun y => lsum (fun x => f x y) l) (lsum L l).
Proof. induction l as [|x l IH]; intros H; [apply line_zero|]. cbn. apply line_plus; [apply H; now left|]. apply IH. intros z Hz. apply H. now right. Qed.
Lemma psd_line (k : R -> I -> I -> R) K : (forall y, psd (k y)) -> (forall i j, ok i -> ok j -> line (fun y => k y i j) (K i j)) -> psd K.
Proof.
  intros H D l Hl. apply (line_pos (fun y => energy (k y) l)); [intros y; apply H, Hl|]. apply (line_lsum _ (fun p y => lsum (fun q => fst p * fst q * k y (snd p) (snd q)) l)).
  intros p Hp. apply (line_lsum _ (fun q y => fst p * fst q * k y (snd p) (snd q))). intros q Hq. apply line_scal, D; apply Hl; assumption.
Qed.
(** Multiplying by an overlap. *)
Lemma psd_overlap (f : I -> R -> R) K J : psd K -> (forall i j, ok i -> ok j -> line (fun y => f i y * f j y) (J i j)) -> psd (fun i j => K i j * J i j).
Proof.
  intros H D. apply (psd_line (fun y i j => f i y * f j y * K i j)); [intros y; apply psd_weight, H|]. intros i j Hi Hj.
  apply (line_ext (fun y => K i j * (f i y * f j y)) _ (K i j * J i j)); [intros; ring|reflexivity|]. apply line_scal, D; assumption.
Qed.
(** From 0 to infinity, each pair with its own antiderivative. *)
Lemma psd_half (k : R -> I -> I -> R) K : (forall s, 0 < s -> psd (k s)) ->
  (forall i j, ok i -> ok j -> exists P, (forall s, 0 <= s -> derivable_pt_lim P s (k s i j)) /\ tends (fun s => P s - P 0) (K i j)) -> psd K.
Proof.
  intros H D l Hl.
  assert (E : exists Q, (forall s, 0 <= s -> derivable_pt_lim Q s (energy (k s) l)) /\ tends (fun s => Q s - Q 0) (energy K l)).
  { assert (G : forall (A : Type) (f : A -> R -> R) (L : A -> R) l, (forall x, In x l -> exists P, (forall s, 0 <= s -> derivable_pt_lim P s (f x s)) /\ tends (fun s => P s - P 0) (L x)) ->
      exists P, (forall s, 0 <= s -> derivable_pt_lim P s (lsum (fun x => f x s) l)) /\ tends (fun s => P s - P 0) (lsum L l)).
    { intros A f L m. induction m as [|x m IH]; intros HM.
      - exists (fun _ => 0). split; [intros; apply derivable_pt_lim_const|]. intros e He. exists 1. split; [lra|]. intros. cbn. rewrite !Rminus_0_r, Rabs_R0. lra.
      - destruct IH as (P & P1 & P2); [intros z Hz; apply HM; now right|]. destruct (HM x (or_introl eq_refl)) as (Q & Q1 & Q2). exists (fun s => Q s + P s). split.
        + intros s Hs. cbn. apply (derivable_pt_lim_plus Q P); [apply Q1, Hs|apply P1, Hs].
        + cbn. apply (tends_ext (fun s => Q s - Q 0 + (P s - P 0))); [intros; ring|]. apply (tends_plus (fun s => Q s - Q 0) (fun s => P s - P 0)); assumption. }
    apply (G _ (fun p s => lsum (fun q => fst p * fst q * k s (snd p) (snd q)) l)). intros p Hp.
    apply (G _ (fun q s => fst p * fst q * k s (snd p) (snd q))). intros q Hq. destruct (D (snd p) (snd q) (Hl p Hp) (Hl q Hq)) as (P & P1 & P2).
    exists (fun s => fst p * fst q * P s). split; [intros s Hs; apply (derivable_pt_lim_scal P), P1, Hs|].
    apply (tends_ext (fun s => fst p * fst q * (P s - P 0))); [intros; ring|]. apply (tends_scal (fst p * fst q)), P2. }
  destruct E as (Q & Q1 & Q2). destruct (Rle_dec 0 (energy K l)) as [|N]; [assumption|]. destruct (Q2 (- energy K l / 2) ltac:(lra)) as (X & X1 & HX).
  specialize (HX X ltac:(lra)). apply abs_both in HX. destruct (MVT_cor2 Q (fun s => energy (k s) l) 0 X ltac:(lra)) as (c & E & Hc); [intros; apply Q1; lra|].
  pose proof (H c ltac:(lra) l Hl) as P. assert (0 <= energy (k c) l * (X - 0)) by (apply Rmult_le_pos; lra). lra.
Qed.
End Psd.
Arguments lsum {A}.
