(** The norm of a contracted shell (shell.c:257-270) is positive unless the shell is the zero function. *)
From Coq Require Import List Arith ZArith Reals Lra Lia Psatz.
Import ListNotations.
From Verif Require Import Base PairData OneE Normalize NormalizeProof ConstantsProof BoysReal BoysRealLong.
Local Open Scope R_scope.

(** ** Sums *)
Lemma rsums_le f g n : (forall k, (k < n)%nat -> f k <= g k) -> rsums f n <= rsums g n.
Proof. induction n as [|n IH]; intros H; [cbn; lra|]. cbn. specialize (IH ltac:(intros; apply H; lia)). specialize (H n ltac:(lia)). lra. Qed.
Lemma rsums_eq f g n : (forall k, (k < n)%nat -> f k = g k) -> rsums f n = rsums g n.
Proof. induction n as [|n IH]; intros H; [reflexivity|]. cbn. rewrite IH, H by (intros; try apply H; lia). reflexivity. Qed.
Lemma rsums_scal c f n : rsums (fun k => c * f k) n = c * rsums f n.
Proof. induction n as [|n IH]; cbn; [ring|rewrite IH; ring]. Qed.
Lemma rsums_plus f g n : rsums (fun k => f k + g k) n = rsums f n + rsums g n.
Proof. induction n as [|n IH]; cbn; [ring|rewrite IH; ring]. Qed.
Lemma rsums_zero f n : (forall k, (k < n)%nat -> f k = 0) -> rsums f n = 0.
Proof. intros H. rewrite (rsums_eq f (fun k => 0 * 0)) by (intros; rewrite H by assumption; ring). rewrite rsums_scal. ring. Qed.
Lemma rsums_abs f n : Rabs (rsums f n) <= rsums (fun k => Rabs (f k)) n.
Proof. induction n as [|n IH]; cbn; [rewrite Rabs_R0; lra|]. eapply Rle_trans; [apply Rabs_triang|]. lra. Qed.
Lemma rsums_prod f g n m : rsums f n * rsums g m = rsums (fun j => rsums (fun k => f j * g k) m) n.
Proof. induction n as [|n IH]; cbn; [ring|]. rewrite <- IH, rsums_scal. ring. Qed.
Lemma fold_rsums f n : forall s, fold_left (fun s k => s + f k) (seq 0 n) s = s + rsums f n.
Proof. induction n as [|n IH]; intros s; [cbn; ring|]. rewrite seq_S, fold_left_app, IH. cbn. ring. Qed.
Lemma fold_ext (A B : Type) (f g : A -> B -> A) l : (forall a b, f a b = g a b) -> forall s, fold_left f l s = fold_left g l s.
Proof. intros H. induction l as [|x l IH]; intros s; [reflexivity|]. cbn. rewrite H. apply IH. Qed.

(** ** Combinations of powers *)
Definition roots_prod (r : list R) (y : R) : R := fold_right (fun t a => (y - t) * a) 1 r.
Lemma powers_roots d y N M : (forall k, (1 <= k <= M)%nat -> rsums (fun j => d j * y j ^ k) N = 0) ->
  forall r k, (1 <= k)%nat -> (k + length r <= M)%nat -> rsums (fun j => d j * y j ^ k * roots_prod r (y j)) N = 0.
Proof.
  intros H r. induction r as [|t r IH]; intros k K L.
  - cbn. rewrite <- (H k) by (cbn in L; lia). apply rsums_eq. intros; ring.
  - cbn [length] in L. cbn [roots_prod fold_right]. fold (roots_prod r).
    rewrite (rsums_eq _ (fun j => d j * y j ^ S k * roots_prod r (y j) + (- t) * (d j * y j ^ k * roots_prod r (y j)))).
    + rewrite rsums_plus, rsums_scal, !IH by lia. ring.
    + intros j _. cbn [pow roots_prod fold_right]. fold (roots_prod r (y j)). ring.
Qed.
Lemma roots_in r y : In y r -> roots_prod r y = 0.
Proof. induction r as [|t r IH]; [easy|]. cbn. intros [->|H]; [ring|]. fold (roots_prod r y). rewrite IH by exact H. ring. Qed.
Lemma roots_out r y : ~ In y r -> roots_prod r y <> 0.
Proof.
  induction r as [|t r IH]; cbn; intros H; [lra|]. fold (roots_prod r y). apply Rmult_integral_contrapositive. split; [|apply IH; tauto]. intros E. apply H. left. lra.
Qed.
Lemma filter_len (A : Type) (f : A -> bool) l : (length (filter f l) <= length l)%nat.
Proof. induction l as [|x l IH]; [apply le_n|]. cbn. destruct (f x); cbn; lia. Qed.
Definition neq_to (y t : R) : bool := if Req_EM_T t y then false else true.
(** Coefficients of equal exponents taken together. *)
Definition merged (c a : nat -> R) (N i : nat) : R := rsums (fun k => if Req_EM_T (a k) (a i) then c k else 0) N.
Lemma powers_merged d y N i : (i < N)%nat -> (forall j, (j < N)%nat -> 0 < y j) ->
  (forall k, (1 <= k <= N + 1)%nat -> rsums (fun j => d j * y j ^ k) N = 0) -> merged d y N i = 0.
Proof.
  intros Hi Y H. set (r := filter (neq_to (y i)) (map y (seq 0 N))).
  assert (Z := powers_roots d y N (N + 1) H r 1 ltac:(lia)).
  assert (L : (1 + length r <= N + 1)%nat).
  { unfold r. pose proof (filter_len _ (neq_to (y i)) (map y (seq 0 N))) as L. rewrite map_length, seq_length in L. lia. }
  specialize (Z L). assert (NI : ~ In (y i) r).
  { unfold r. rewrite filter_In. intros [_ E]. unfold neq_to in E. destruct (Req_EM_T (y i) (y i)); [discriminate|contradiction]. }
  pose proof (roots_out _ _ NI) as NZ. specialize (Y i Hi) as Yi.
  assert (E : y i * roots_prod r (y i) * merged d y N i = 0).
  { rewrite <- Z. unfold merged. rewrite <- rsums_scal. apply rsums_eq. intros k Hk. destruct (Req_EM_T (y k) (y i)) as [->|NE]; [cbn; ring|].
    rewrite (roots_in r (y k)); [ring|]. unfold r. apply filter_In. split.
    - apply in_map, in_seq. lia.
    - unfold neq_to. destruct (Req_EM_T (y k) (y i)); [contradiction|reflexivity]. }
  apply Rmult_integral in E. destruct E as [E|E]; [|exact E]. exfalso. apply Rmult_integral in E. destruct E as [E|E]; [lra|contradiction].
Qed.

(** ** Integrals from 0 to T *)
(** [f] has an antiderivative on [0, b] whose increase from 0 to T is [g T]. *)
Definition integ (b : R) (f g : R -> R) : Prop :=
  exists P, (forall s, 0 <= s <= b -> derivable_pt_lim P s (f s)) /\ forall T, 0 < T <= b -> P T - P 0 = g T.
Lemma integ_sum b N f g : 0 < b -> (forall k, (k < N)%nat -> integ b (f k) (g k)) ->
  integ b (fun s => rsums (fun k => f k s) N) (fun T => rsums (fun k => g k T) N).
Proof.
  intros B. induction N as [|N IH]; intros H.
  - exists (fun _ => 0). split; [intros; apply derivable_pt_lim_const|]. intros. cbn. ring.
  - destruct (IH ltac:(intros; apply H; lia)) as (P & D & E). destruct (H N ltac:(lia)) as (Q & D' & E').
    exists (fun s => P s + Q s). split.
    + intros s Hs. cbn. apply (derivable_pt_lim_plus P Q); [apply D, Hs|apply D', Hs].
    + intros T HT. cbn. rewrite <- E, <- E' by exact HT. ring.
Qed.
Lemma integ_scal b c f g : integ b f g -> integ b (fun s => c * f s) (fun T => c * g T).
Proof.
  intros (P & D & E). exists (fun s => c * P s). split; [intros s Hs; apply (derivable_pt_lim_scal P), D, Hs|]. intros T HT. rewrite <- E by exact HT. ring.
Qed.
Lemma integ_ext b f f' g g' : (forall s, f s = f' s) -> (forall T, g T = g' T) -> integ b f g -> integ b f' g'.
Proof. intros F G (P & D & E). exists P. split; [intros s Hs; rewrite <- F; apply D, Hs|]. intros T HT. rewrite <- G. apply E, HT. Qed.
Definition moment (n : nat) (p s : R) : R := s ^ (2 * n) * exp (- (p * (s * s))).
Lemma integ_moment b n p : 0 < b -> integ b (moment n p) (fun T => T ^ (2 * n + 1) * boysR n (p * (T * T))).
Proof.
  intros B. assert (C : forall t, continuity_pt (moment n p) t) by (intros t; apply (boys_fun_cont n p t)).
  destruct (prim_of (moment n p) 0 b ltac:(lra) (fun t _ => C t) (@continuity_implies_RiemannInt (moment n p) 0 b ltac:(lra) (fun t _ => C t))) as (P & HP & _).
  exists P. split; [exact HP|]. intros T HT. destruct (boysR_prim n (p * (T * T))) as (Q & HQ & EQ). rewrite <- EQ.
  assert (Bd := prim_bound (fun t => T ^ (2 * n + 1) * boys_fun n (p * (T * T)) t) (fun t => moment n p (T * t) * T) (fun _ => 0) (fun t => T ^ (2 * n + 1) * Q t) (fun t => P (T * t)) (fun _ => 0) 0 1 ltac:(lra)).
  cbn beta in Bd. rewrite Rmult_1_r, Rmult_0_r in Bd. assert (Z : Rabs (T ^ (2 * n + 1) * Q 1 - T ^ (2 * n + 1) * Q 0 - (P T - P 0)) <= 0 - 0); [|apply abs_both in Z; lra].
  apply Bd; clear Bd.
  - intros t Ht. apply (derivable_pt_lim_scal Q). apply HQ, Ht.
  - intros t Ht. apply (derivable_pt_lim_comp (fun t => T * t) P).
    + pose proof (derivable_pt_lim_scal id T t 1 (derivable_pt_lim_id t)) as D. rewrite Rmult_1_r in D. exact D.
    + apply HP. nra.
  - intros t _. apply derivable_pt_lim_const.
  - intros t _. unfold boys_fun, moment. replace (- (p * (T * T) * (t * t))) with (- (p * (T * t * (T * t)))) by ring.
    rewrite Rpow_mult_distr, pow_add, pow_1. rewrite Rminus_diag_eq by ring. rewrite Rabs_R0. lra.
Qed.
Definition comb (d a : nat -> R) (N : nat) (s : R) : R := rsums (fun j => d j * exp (- (a j * (s * s)))) N.
Definition squares (n : nat) (d a : nat -> R) (N : nat) (T : R) : R :=
  rsums (fun j => rsums (fun k => d j * d k * (T ^ (2 * n + 1) * boysR n ((a j + a k) * (T * T)))) N) N.
Lemma integ_square b n d a N : 0 < b -> integ b (fun s => s ^ (2 * n) * (comb d a N s * comb d a N s)) (squares n d a N).
Proof.
  intros B. apply (integ_ext b (fun s => rsums (fun j => rsums (fun k => d j * d k * moment n (a j + a k) s) N) N) _ (squares n d a N)); [|reflexivity|].
  - intros s. unfold comb. rewrite rsums_prod, <- rsums_scal. apply rsums_eq. intros j _. rewrite <- rsums_scal. apply rsums_eq. intros k _.
    unfold moment. replace (- ((a j + a k) * (s * s))) with (- (a j * (s * s)) + - (a k * (s * s))) by ring. rewrite exp_plus. ring.
  - apply integ_sum; [exact B|]. intros j _. apply integ_sum; [exact B|]. intros k _. apply integ_scal. apply integ_moment, B.
Qed.
Lemma square_grows n d a N T : 1 <= T -> squares n d a N 1 <= squares n d a N T.
Proof.
  intros H. destruct (integ_square T n d a N ltac:(lra)) as (P & D & E). rewrite <- !E by lra. destruct H as [H|<-]; [|lra].
  destruct (MVT_cor2 P (fun s => s ^ (2 * n) * (comb d a N s * comb d a N s)) 1 T H ltac:(intros c Hc; apply D; lra)) as (c & Ec & Hc).
  pose proof (pow_le c (2 * n) ltac:(lra)) as P1. pose proof (Rle_0_sqr (comb d a N c)) as P2. pose proof (Rmult_le_pos _ _ (Rmult_le_pos _ _ P1 P2) (Rlt_le _ _ (Rlt_Rminus _ _ H))) as P3. unfold Rsqr in P3. lra.
Qed.
Lemma square_pos n d a N s : 0 < s < 1 -> comb d a N s <> 0 -> 0 < squares n d a N 1.
Proof.
  intros Hs NZ. destruct (integ_square 1 n d a N ltac:(lra)) as (P & D & E). rewrite <- E by lra.
  set (f := fun s => s ^ (2 * n) * (comb d a N s * comb d a N s)) in *.
  change (forall s, 0 <= s <= 1 -> derivable_pt_lim P s (f s)) in D.
  assert (F0 : forall c, 0 <= c -> 0 <= f c) by (intros c Hc; unfold f; exact (Rmult_le_pos _ _ (pow_le c (2 * n) Hc) (Rle_0_sqr (comb d a N c)))).
  assert (FS : 0 < f s) by (unfold f; apply Rmult_lt_0_compat; [apply pow_lt; lra|]; apply Rsqr_pos_lt in NZ; exact NZ).
  assert (MON : forall u v, 0 <= u -> u <= v -> v <= 1 -> P u <= P v).
  { intros u v U [V| <-] W; [|lra]. destruct (MVT_cor2 P f u v V ltac:(intros c Hc; apply D; lra)) as (c & Ec & Hc). specialize (F0 c ltac:(lra)). nra. }
  destruct (D s ltac:(lra) (f s) FS) as [dl Hd]. set (h := Rmin (dl / 2) ((1 - s) / 2)). pose proof (cond_pos dl) as DP.
  assert (H0 : 0 < h) by (unfold h; apply Rmin_pos; lra). assert (H1 : h <= dl / 2) by apply Rmin_l. assert (H2 : h <= (1 - s) / 2) by apply Rmin_r.
  specialize (Hd h ltac:(lra) ltac:(rewrite Rabs_right; lra)). apply Rabs_def2 in Hd. destruct Hd as [_ Hd]. clearbody f h.
  assert (G : P s < P (s + h)).
  { assert (0 < (P (s + h) - P s) / h) as Q by lra. replace (P (s + h)) with (P s + (P (s + h) - P s) / h * h) by (field; lra). nra. }
  pose proof (MON 0 s ltac:(lra) ltac:(lra) ltac:(lra)). pose proof (MON (s + h) 1 ltac:(lra) ltac:(lra) ltac:(lra)). lra.
Qed.
Lemma comb_nonzero d a N i : (i < N)%nat -> merged d a N i <> 0 -> exists s, 0 < s < 1 /\ comb d a N s <> 0.
Proof.
  intros Hi NZ. set (h := / (INR N + 2)). pose proof (pos_INR N) as NP. assert (H0 : 0 < h) by (apply Rinv_0_lt_compat; lra).
  set (y := fun j => exp (- (a j * h))).
  assert (ALL : (exists k, (1 <= k <= N + 1)%nat /\ rsums (fun j => d j * y j ^ k) N <> 0) \/ forall k, (1 <= k <= N + 1)%nat -> rsums (fun j => d j * y j ^ k) N = 0).
  { clear. generalize (N + 1)%nat as M. induction M as [|M [(k & K & Z)|IH]]; [right; lia|left; exists k; split; [lia|exact Z]|].
    destruct (Req_EM_T (rsums (fun j => d j * y j ^ S M) N) 0) as [E|E]; [right|left; exists (S M); split; [lia|exact E]].
    intros k K. destruct (Nat.eq_dec k (S M)) as [->|]; [exact E|apply IH; lia]. }
  destruct ALL as [(k & K & Z)|Z].
  - exists (sqrt (INR k * h)). assert (K0 : 1 <= INR k) by (apply (le_INR 1); lia). assert (K1 : INR k <= INR N + 1) by (rewrite <- S_INR; apply le_INR; lia).
    assert (KH : 0 < INR k * h < 1).
    { split; [nra|]. apply (Rmult_lt_reg_r (INR N + 2)); [lra|]. unfold h. rewrite Rmult_assoc, Rinv_l by lra. lra. }
    split; [split; [apply sqrt_lt_R0; lra|rewrite <- sqrt_1; apply sqrt_lt_1; lra]|].
    intros C. apply Z. rewrite <- C. unfold comb. rewrite sqrt_sqrt by lra. apply rsums_eq. intros j _. f_equal. unfold y. rewrite <- exp_neg_mult. f_equal. ring.
  - exfalso. apply NZ. assert (M := powers_merged d y N i Hi ltac:(intros; apply exp_pos) Z). rewrite <- M. unfold merged. apply rsums_eq. intros k _.
    destruct (Req_EM_T (a k) (a i)) as [E|E]; destruct (Req_EM_T (y k) (y i)) as [E'|E']; try reflexivity.
    + exfalso. apply E'. unfold y. rewrite E. reflexivity.
    + exfalso. apply E. unfold y in E'. apply exp_inv in E'. apply (Rmult_eq_reg_r h); lra.
Qed.

(** ** The integral to infinity *)
Definition scaled (n : nat) (x : R) : R := sqrt x * x ^ n * boysR n x.
Lemma scaled0_limit : exists G, 0 <= G /\ forall x, 1 <= x -> Rabs (scaled 0 x - G) <= exp (- x).
Proof.
  set (E := fun v => exists x, 1 <= x /\ v = sqrt x * boysR 0 x).
  assert (UB : forall x, 1 <= x -> is_upper_bound E (sqrt x * boysR 0 x + exp (- x) / (2 * sqrt x))).
  { intros x X v (y & Y & ->). assert (S0 : 1 <= sqrt x) by (rewrite <- sqrt_1; apply sqrt_le_1; lra).
    assert (T : 0 < exp (- x) / (2 * sqrt x)) by (apply Rdiv_lt_0_compat; [apply exp_pos|lra]).
    destruct (Rle_dec x y) as [C|C]; [pose proof (boys0_between x y ltac:(lra) C); lra|pose proof (boys0_between y x ltac:(lra) ltac:(lra)); lra]. }
  destruct (completeness E) as (G & G1 & G2).
  - eexists. apply (UB 1). lra.
  - exists (sqrt 1 * boysR 0 1), 1. split; [lra|reflexivity].
  - exists G. assert (L : forall x, 1 <= x -> sqrt x * boysR 0 x <= G) by (intros x X; apply G1; exists x; split; [exact X|reflexivity]). split.
    + specialize (L 1 ltac:(lra)). rewrite sqrt_1 in L. pose proof (boysR_pos 0 1). lra.
    + intros x X. specialize (L x X). specialize (G2 _ (UB x X)). assert (S0 : 1 <= sqrt x) by (rewrite <- sqrt_1; apply sqrt_le_1; lra).
      assert (T : exp (- x) / (2 * sqrt x) <= exp (- x)).
      { unfold Rdiv. pose proof (exp_pos (- x)). assert (/ (2 * sqrt x) <= 1) by (rewrite <- Rinv_1; apply Rinv_le_contravar; lra). nra. }
      unfold scaled. cbn [pow]. rewrite Rmult_1_r. apply Rabs_le. lra.
Qed.
(** f tends to L at infinity. *)
Definition tends (f : R -> R) (L : R) : Prop := forall e, 0 < e -> exists X, 1 <= X /\ forall x, X <= x -> Rabs (f x - L) <= e.
Lemma exp_beats n : tends (fun x => sqrt x * x ^ n * exp (- x)) 0.
Proof.
  intros e He. set (m := INR (n + 2)). assert (M : 1 <= m) by (apply (le_INR 1); lia). set (c := m ^ (n + 2)). assert (C : 0 < c) by (apply pow_lt; lra).
  exists (1 + c / e). assert (CE : 0 < c / e) by (apply Rdiv_lt_0_compat; assumption). split; [lra|]. intros x X.
  assert (EX : (x / m) ^ (n + 2) <= exp x).
  { replace (exp x) with (exp (x / m) ^ (n + 2)).
    - apply pow_incr. split; [apply Rlt_le, Rdiv_lt_0_compat; lra|]. pose proof (exp_ineq1_le (x / m)). lra.
    - replace (x / m) with (- - (x / m)) by ring. rewrite <- exp_neg_mult. f_equal. fold m. field. lra. }
  unfold Rdiv in EX. rewrite Rpow_mult_distr, pow_inv in EX. fold c in EX.
  assert (SL : sqrt x <= x). { rewrite <- (sqrt_square x) at 2 by lra. apply sqrt_le_1; nra. }
  assert (S0 : 0 <= sqrt x) by apply sqrt_pos. assert (P0 : 0 < x ^ n) by (apply pow_lt; lra). pose proof (exp_pos x) as E0.
  rewrite Rminus_0_r, Rabs_right, exp_Ropp by (apply Rle_ge, Rmult_le_pos; [apply Rmult_le_pos; lra|left; apply exp_pos]).
  rewrite pow_add in EX. cbn [pow] in EX. rewrite Rmult_1_r in EX.
  assert (K : sqrt x * x ^ n <= e * exp x).
  { apply (Rle_trans _ (x * x ^ n)); [nra|]. assert (XC : c <= e * x) by (replace c with (e * (c / e)) by (field; lra); nra).
    assert (Y : x ^ n * (x * x) <= c * exp x).
    { replace (x ^ n * (x * x)) with (c * (x ^ n * (x * x) * / c)) by (field; lra). apply Rmult_le_compat_l; lra. }
    assert (c * exp x <= e * x * exp x) by (apply Rmult_le_compat_r; lra).
    apply (Rmult_le_reg_l x); [lra|]. nra. }
  apply (Rmult_le_reg_r (exp x)); [exact E0|]. rewrite Rmult_assoc, Rinv_l by lra. lra.
Qed.
Lemma scaled_next n x : 0 < x -> scaled (S n) x = / 2 * ((2 * INR n + 1) * scaled n x - sqrt x * x ^ n * exp (- x)).
Proof.
  intros X. unfold scaled. pose proof (boys_by_parts n x) as B. cbn [pow].
  replace ((2 * INR n + 1) * (sqrt x * x ^ n * boysR n x)) with (sqrt x * x ^ n * ((2 * INR n + 1) * boysR n x)) by ring. rewrite B. field.
Qed.
Lemma scaled_limit n : exists K, 0 <= K /\ tends (scaled n) K.
Proof.
  induction n as [|n (K & K0 & IH)].
  - destruct scaled0_limit as (G & G0 & H). exists G. split; [exact G0|]. intros e He. destruct (exp_beats 0 e He) as (X & X1 & HX).
    exists X. split; [exact X1|]. intros x Hx. eapply Rle_trans; [apply H; lra|]. specialize (HX x Hx). cbn [pow] in HX. rewrite Rminus_0_r, Rmult_1_r in HX.
    assert (1 <= sqrt x) by (rewrite <- sqrt_1; apply sqrt_le_1; lra). pose proof (exp_pos (- x)). rewrite Rabs_right in HX by nra. nra.
  - exists (/ 2 * ((2 * INR n + 1) * K)). pose proof (pos_INR n) as NP. split; [nra|]. intros e He. set (m := 2 * INR n + 1) in *. assert (M : 1 <= m) by (unfold m; lra).
    destruct (IH (e / m) ltac:(apply Rdiv_lt_0_compat; lra)) as (X & X1 & HX). destruct (exp_beats n e He) as (Y & Y1 & HY).
    exists (Rmax X Y). pose proof (Rmax_l X Y). pose proof (Rmax_r X Y). split; [lra|]. intros x Hx. rewrite scaled_next by lra. fold m.
    specialize (HX x ltac:(lra)). specialize (HY x ltac:(lra)). apply abs_both in HX. apply abs_both in HY.
    assert (EM : m * (e / m) = e) by (field; lra). assert (A : m * (scaled n x - K) <= e) by (rewrite <- EM; apply Rmult_le_compat_l; lra).
    assert (B : - e <= m * (scaled n x - K)) by (rewrite <- EM; replace (- (m * (e / m))) with (m * (- (e / m))) by ring; apply Rmult_le_compat_l; lra).
    apply Rabs_le. lra.
Qed.
(** One term of the double sum. *)
Lemma moment_limit n K p : tends (scaled n) K -> 0 < p -> tends (fun T => T ^ (2 * n + 1) * boysR n (p * (T * T))) (K / (p ^ n * sqrt p)).
Proof.
  intros H P e He. assert (S0 : 0 < sqrt p) by (apply sqrt_lt_R0, P). assert (P0 : 0 < p ^ n) by (apply pow_lt, P). set (w := p ^ n * sqrt p) in *.
  assert (W : 0 < w) by (apply Rmult_lt_0_compat; assumption). destruct (H (e * w) ltac:(nra)) as (X & X1 & HX).
  exists (1 + X / p). assert (XP : 0 < X / p) by (apply Rdiv_lt_0_compat; lra). split; [lra|]. intros T HT.
  assert (TT : X <= p * (T * T)).
  { replace X with (p * (X / p)) by (field; lra). apply Rmult_le_compat_l; [lra|]. nra. }
  specialize (HX _ TT). replace (T ^ (2 * n + 1) * boysR n (p * (T * T))) with (scaled n (p * (T * T)) / w).
  - replace (scaled n (p * (T * T)) / w - K / w) with ((scaled n (p * (T * T)) - K) * / w) by (field; lra). rewrite Rabs_mult, (Rabs_right (/ w)) by (left; apply Rinv_0_lt_compat, W).
    apply (Rmult_le_reg_r w); [exact W|]. rewrite Rmult_assoc, Rinv_l by lra. lra.
  - unfold scaled, w. rewrite sqrt_mult, sqrt_square by nra. rewrite !Rpow_mult_distr, pow_add, pow_mult. cbn [pow]. rewrite !Rmult_1_r, Rpow_mult_distr. field. split; lra.
Qed.
Lemma tends_sum N f L : (forall k, (k < N)%nat -> tends (f k) (L k)) -> tends (fun x => rsums (fun k => f k x) N) (rsums L N).
Proof.
  induction N as [|N IH]; intros H e He.
  - exists 1. split; [lra|]. intros x _. cbn. rewrite Rminus_0_r, Rabs_R0. lra.
  - destruct (IH ltac:(intros; apply H; lia) (e / 2) ltac:(lra)) as (X & X1 & HX). destruct (H N ltac:(lia) (e / 2) ltac:(lra)) as (Y & Y1 & HY).
    exists (Rmax X Y). pose proof (Rmax_l X Y). pose proof (Rmax_r X Y). split; [lra|]. intros x Hx. cbn.
    specialize (HX x ltac:(lra)). specialize (HY x ltac:(lra)). apply abs_both in HX. apply abs_both in HY. apply Rabs_le. lra.
Qed.
Lemma tends_scal c f L : tends f L -> tends (fun x => c * f x) (c * L).
Proof.
  intros H e He. pose proof (Rabs_pos c) as C. destruct (H (e / (Rabs c + 1)) ltac:(apply Rdiv_lt_0_compat; lra)) as (X & X1 & HX). exists X. split; [exact X1|].
  intros x Hx. specialize (HX x Hx). rewrite <- Rmult_minus_distr_l, Rabs_mult. replace e with ((Rabs c + 1) * (e / (Rabs c + 1))) by (field; lra).
  pose proof (Rabs_pos (f x - L)). apply Rmult_le_compat; lra.
Qed.
(** ** The double sum *)
Definition gram (n : nat) (d a : nat -> R) (N : nat) : R :=
  rsums (fun j => rsums (fun k => d j * d k * / ((a j + a k) ^ n * sqrt (a j + a k))) N) N.
Lemma gram_limit n d a N : (forall j, (j < N)%nat -> 0 < a j) -> exists K, 0 <= K /\ tends (squares n d a N) (K * gram n d a N).
Proof.
  intros A. destruct (scaled_limit n) as (K & K0 & HK). exists K. split; [exact K0|].
  replace (K * gram n d a N) with (rsums (fun j => rsums (fun k => d j * d k * (K / ((a j + a k) ^ n * sqrt (a j + a k)))) N) N).
  - unfold squares. apply (tends_sum N (fun j T => rsums (fun k => d j * d k * (T ^ (2 * n + 1) * boysR n ((a j + a k) * (T * T)))) N)
      (fun j => rsums (fun k => d j * d k * (K / ((a j + a k) ^ n * sqrt (a j + a k)))) N)). intros j Hj.
    apply (tends_sum N (fun k T => d j * d k * (T ^ (2 * n + 1) * boysR n ((a j + a k) * (T * T))))
      (fun k => d j * d k * (K / ((a j + a k) ^ n * sqrt (a j + a k))))). intros k Hk.
    apply (tends_scal (d j * d k)). apply moment_limit; [exact HK|]. pose proof (A j Hj). pose proof (A k Hk). lra.
  - unfold gram. rewrite <- rsums_scal. apply rsums_eq. intros j _. rewrite <- rsums_scal. apply rsums_eq. intros k _. unfold Rdiv. ring.
Qed.
Theorem gram_pos n d a N i : (forall j, (j < N)%nat -> 0 < a j) -> (i < N)%nat -> merged d a N i <> 0 -> 0 < gram n d a N.
Proof.
  intros A Hi NZ. destruct (comb_nonzero d a N i Hi NZ) as (s & Hs & Cs). pose proof (square_pos n d a N s Hs Cs) as P.
  destruct (gram_limit n d a N A) as (K & K0 & HK). set (q := squares n d a N 1) in *. destruct (HK (q / 2) ltac:(lra)) as (X & X1 & HX).
  specialize (HX X ltac:(lra)). pose proof (square_grows n d a N X X1) as G. fold q in G. apply abs_both in HX.
  assert (0 < K * gram n d a N) by lra. nra.
Qed.

(** ** The sum of the code *)
Lemma norm_sum_rsums l (A : @shell Rcring) : norm_sum l A = rsums (fun j => rsums (fun k =>
  (sh_coef A j * sh_coef A k * Rpower (sh_alpha A j * sh_alpha A k) (nm2 l)) / Rpower (sh_alpha A j + sh_alpha A k) (nm l)) (sh_n A)) (sh_n A).
Proof.
  unfold norm_sum. set (g := fun j k => (sh_coef A j * sh_coef A k * Rpower (sh_alpha A j * sh_alpha A k) (nm2 l)) / Rpower (sh_alpha A j + sh_alpha A k) (nm l)).
  rewrite (fold_ext _ _ _ (fun s j => s + rsums (fun k => g j k) (sh_n A))).
  - rewrite fold_rsums. apply Rplus_0_l.
  - intros s j. exact (fold_rsums (g j) (sh_n A) s).
Qed.
Definition dcoef (l : nat) (A : @shell Rcring) (j : nat) : R := sh_coef A j * Rpower (sh_alpha A j) (nm2 l).
Lemma half_power p l : 0 < p -> Rpower p (nm l) = p ^ S l * sqrt p.
Proof.
  intros P. unfold nm. replace (INR l + 15 / 10) with (INR (S l) + / 2) by (rewrite S_INR; lra). rewrite Rpower_plus, Rpower_pow, Rpower_sqrt by exact P. reflexivity.
Qed.
Lemma norm_sum_gram l (A : @shell Rcring) : pos_exps A -> norm_sum l A = gram (S l) (dcoef l A) (sh_alpha A) (sh_n A).
Proof.
  intros P. rewrite norm_sum_rsums. unfold gram. apply rsums_eq. intros j Hj. apply rsums_eq. intros k Hk. pose proof (P j Hj) as Pj. pose proof (P k Hk) as Pk.
  assert (S0 : 0 < sh_alpha A j + sh_alpha A k) by (apply Rplus_lt_0_compat; assumption). change (@cadd Rcring) with Rplus in S0. rewrite half_power by exact S0.
  unfold dcoef. rewrite <- Rpower_mult_distr by assumption. unfold Rdiv. match goal with |- @eq _ ?x ?y => change (@eq R x y) end. ring.
Qed.
Lemma merged_scale l (A : @shell Rcring) i : merged (dcoef l A) (sh_alpha A) (sh_n A) i = Rpower (sh_alpha A i) (nm2 l) * merged (sh_coef A) (sh_alpha A) (sh_n A) i.
Proof.
  unfold merged. rewrite <- rsums_scal. apply rsums_eq. intros k _. unfold dcoef. destruct (Req_EM_T (sh_alpha A k) (sh_alpha A i)) as [->|_]; ring.
Qed.
Theorem norm_sum_strict l (A : @shell Rcring) i : pos_exps A -> (i < sh_n A)%nat -> merged (sh_coef A) (sh_alpha A) (sh_n A) i <> 0 -> 0 < norm_sum l A.
Proof.
  intros P Hi NZ. rewrite norm_sum_gram by exact P. apply (gram_pos (S l) (dcoef l A) (sh_alpha A) (sh_n A) i); [exact P|exact Hi|].
  rewrite merged_scale. apply Rmult_integral_contrapositive. split; [|exact NZ]. unfold Rpower. pose proof (exp_pos (nm2 l * ln (sh_alpha A i))). lra.
Qed.
(** Distinct exponents: one coefficient other than zero. *)
Lemma merged_distinct c a N i : (i < N)%nat -> (forall j k, (j < N)%nat -> (k < N)%nat -> a j = a k -> j = k) -> merged c a N i = c i.
Proof.
  intros Hi D. unfold merged. assert (G : forall M, (M <= N)%nat -> rsums (fun k => if Req_EM_T (a k) (a i) then c k else 0) M = if (i <? M)%nat then c i else 0).
  { induction M as [|M IH]; intros H; [reflexivity|]. cbn [rsums]. rewrite IH by lia. destruct (Req_EM_T (a M) (a i)) as [E|E].
    - apply D in E; [|lia|lia]. subst M. rewrite Nat.ltb_irrefl, (proj2 (Nat.ltb_lt i (S i)) ltac:(lia)). ring.
    - assert (i <> M) by (intros ->; apply E; reflexivity). destruct (Nat.ltb_spec i M), (Nat.ltb_spec i (S M)); try lia; ring. }
  rewrite G by lia. rewrite (proj2 (Nat.ltb_lt i N) Hi). reflexivity.
Qed.
(** The other way: if the coefficients of every exponent cancel, the sum is zero. *)
Lemma merged_none c a N (h : R -> R) : (forall i, (i < N)%nat -> merged c a N i = 0) -> rsums (fun j => c j * h (a j)) N = 0.
Proof.
  intros H. set (D := nodup Req_EM_T (map a (seq 0 N))).
  assert (ND : NoDup D) by apply NoDup_nodup. assert (IN : forall x, In x D <-> exists j, (j < N)%nat /\ a j = x).
  { intros x. unfold D. rewrite nodup_In, in_map_iff. split; intros (j & A & B); [apply in_seq in B; exists j; split; [lia|exact A]|exists j; split; [exact B|apply in_seq; lia]]. }
  assert (P : forall L x, NoDup L -> fold_right (fun t s => (if Req_EM_T x t then h t else 0) + s) 0 L = if in_dec Req_EM_T x L then h x else 0).
  { induction L as [|t L IH]; intros x NL; [reflexivity|]. inversion NL as [|? ? NI NL']; subst. cbn [fold_right]. rewrite IH by exact NL'.
    destruct (in_dec Req_EM_T x (t :: L)) as [I|I]; destruct (Req_EM_T x t) as [->|E]; destruct (in_dec Req_EM_T _ L) as [J|J]; try contradiction; try ring.
    - exfalso. destruct I as [->|I]; [apply E; reflexivity|contradiction].
    - exfalso. apply I. left. reflexivity.
    - exfalso. apply I. right. exact J. }
  rewrite (rsums_eq _ (fun j => c j * fold_right (fun t s => (if Req_EM_T (a j) t then h t else 0) + s) 0 D)).
  2:{ intros j Hj. rewrite P by exact ND. destruct (in_dec Req_EM_T (a j) D) as [_|C]; [reflexivity|]. exfalso. apply C, IN. exists j. split; [exact Hj|reflexivity]. }
  assert (DI : forall t, In t D -> rsums (fun j => c j * (if Req_EM_T (a j) t then h t else 0)) N = 0).
  { intros t T. apply IN in T. destruct T as (i & Hi & <-). transitivity (h (a i) * merged c a N i); [|rewrite H by exact Hi; ring].
    unfold merged. rewrite <- rsums_scal. apply rsums_eq. intros k _. destruct (Req_EM_T (a k) (a i)); ring. }
  clear P ND IN. induction D as [|t D IH]; [cbn; apply rsums_zero; intros; ring|]. cbn [fold_right].
  rewrite (rsums_eq _ (fun j => c j * (if Req_EM_T (a j) t then h t else 0) + c j * fold_right (fun t s => (if Req_EM_T (a j) t then h t else 0) + s) 0 D)) by (intros; ring).
  rewrite rsums_plus, IH, DI by (intros; try apply DI; cbn; auto). ring.
Qed.
Theorem norm_sum_zero l (A : @shell Rcring) : (forall i, (i < sh_n A)%nat -> merged (sh_coef A) (sh_alpha A) (sh_n A) i = 0) -> norm_sum l A = 0.
Proof.
  intros H. rewrite norm_sum_rsums. apply rsums_zero. intros j _.
  transitivity (rsums (fun k => sh_coef A k * (sh_coef A j * Rpower (sh_alpha A j * sh_alpha A k) (nm2 l) / Rpower (sh_alpha A j + sh_alpha A k) (nm l))) (sh_n A)).
  - apply rsums_eq. intros k _. unfold Rdiv. ring.
  - apply (merged_none (sh_coef A) (sh_alpha A) (sh_n A) (fun x => sh_coef A j * Rpower (sh_alpha A j * x) (nm2 l) / Rpower (sh_alpha A j + x) (nm l))). exact H.
Qed.
Theorem norm_sum_iff l (A : @shell Rcring) : pos_exps A ->
  (0 < norm_sum l A <-> exists i, (i < sh_n A)%nat /\ merged (sh_coef A) (sh_alpha A) (sh_n A) i <> 0).
Proof.
  intros P. split.
  - intros H. assert (ALL : forall M, (exists i, (i < M)%nat /\ merged (sh_coef A) (sh_alpha A) (sh_n A) i <> 0) \/ forall i, (i < M)%nat -> merged (sh_coef A) (sh_alpha A) (sh_n A) i = 0).
    { induction M as [|M [(i & I & Z)|IH]]; [right; lia|left; exists i; split; [lia|exact Z]|].
      destruct (Req_EM_T (merged (sh_coef A) (sh_alpha A) (sh_n A) M) 0) as [E|E]; [right|left; exists M; split; [lia|exact E]].
      intros i I. destruct (Nat.eq_dec i M) as [->|]; [exact E|apply IH; lia]. }
    destruct (ALL (sh_n A)) as [E|Z]; [exact E|]. rewrite (norm_sum_zero l A Z) in H. lra.
  - intros (i & I & Z). exact (norm_sum_strict l A i P I Z).
Qed.
Theorem norm_sum_distinct l (A : @shell Rcring) : pos_exps A ->
  (forall j k, (j < sh_n A)%nat -> (k < sh_n A)%nat -> sh_alpha A j = sh_alpha A k -> j = k) ->
  (exists j, (j < sh_n A)%nat /\ sh_coef A j <> 0) -> 0 < norm_sum l A.
Proof. intros P D (j & J & Z). apply (norm_sum_strict l A j P J). rewrite merged_distinct by assumption. exact Z. Qed.

(** Examples: alternating coefficients; two primitives that cancel. *)
Definition nx_alt (l n : nat) : @oshell Rcring := OS l (@Shell Rcring n (fun d => INR d) (fun j => 4 ^ j) (fun j => (-1) ^ j)).
Definition nx_cancel (l : nat) : @oshell Rcring := OS l (@Shell Rcring 2 (fun d => INR d) (fun _ => 3) (fun j => (-1) ^ j)).
Lemma nx_alt_met l n : (2 <= n)%nat -> pos_exps (os_sh (nx_alt l n)) /\
  (forall j k, (j < n)%nat -> (k < n)%nat -> sh_alpha (os_sh (nx_alt l n)) j = sh_alpha (os_sh (nx_alt l n)) k -> j = k) /\
  (exists j, (j < n)%nat /\ sh_coef (os_sh (nx_alt l n)) j <> 0) /\ sh_coef (os_sh (nx_alt l n)) 1%nat < 0.
Proof.
  intros H. refine (conj (fun j _ => pow_lt 4 j ltac:(lra)) (conj _ (conj _ _))).
  - intros j k _ _ E. cbn in E. apply (f_equal ln) in E. rewrite !ln_pow in E by lra.
    assert (0 < ln 4) by (rewrite <- ln_1; apply ln_increasing; lra). apply INR_eq. apply (Rmult_eq_reg_r (ln 4)); lra.
  - exists 0%nat. split; [lia|cbn; lra].
  - cbn. lra.
Qed.
Lemma nx_cancel_zero l : pos_exps (os_sh (nx_cancel l)) /\ norm_sum l (os_sh (nx_cancel l)) = 0.
Proof.
  split; [intros j _; cbn; lra|]. apply norm_sum_zero. intros i Hi. unfold merged. cbn. destruct (Req_EM_T 3 3); [lra|lra].
Qed.
