(** Proofs about [BoysScripts]. *)
From Coq Require Import List Arith ZArith QArith Qreals Reals Lra Lia Psatz.
Import ListNotations.
From Verif Require Import Base Constants ConstantsProof BoysReal BoysRealLong RealDeriv ValeevF GaussInt BoysScripts.
Local Open Scope R_scope.

(** *** Tables of factors *)
Lemma odd_S k : IZR (odd_fact (S k)) = (2 * INR k + 1) * IZR (odd_fact k).
Proof. change (odd_fact (S k)) with ((2 * Z.of_nat k + 1) * odd_fact k)%Z. rewrite mult_IZR, plus_IZR, mult_IZR, <- INR_IZR_INZ. reflexivity. Qed.
Lemma odd_fact_pos k : 0 < IZR (odd_fact k).
Proof. induction k as [|k IH]; [cbn; lra|]. rewrite odd_S. pose proof (pos_INR k). nra. Qed.
Lemma long_S k : long_exact (S k) = long_exact k * ((2 * INR k + 1) / 2).
Proof. unfold long_exact. rewrite odd_S. change (S k + 1)%nat with (S (k + 1)). cbn [pow]. field. apply pow_nonzero. lra. Qed.
Lemma long_0 : long_exact 0 = sqrt PI / 2.
Proof. unfold long_exact. cbn [odd_fact Nat.add pow]. field. Qed.
Lemma long_pos k : 0 < long_exact k.
Proof.
  unfold long_exact. pose proof (sqrt_lt_R0 PI PI_RGT_0). pose proof (odd_fact_pos k). apply Rdiv_lt_0_compat; [nra|]. apply pow_lt. lra.
Qed.
Lemma longfac_loop_ok n : longfac_loop n = map long_exact (seq 0 (n + 1)).
Proof.
  induction n as [|n IH]; [cbn [longfac_loop Nat.add seq map]; rewrite long_0; reflexivity|].
  cbn [longfac_loop]. rewrite IH. replace (S n + 1)%nat with (n + 1 + 1)%nat by lia. rewrite (seq_app (n + 1) 1 0), map_app. f_equal.
  rewrite (seq_app n 1 0), map_app. cbn [seq map]. rewrite last_last. cbn [Nat.add]. replace (n + 1)%nat with (S n) by lia. rewrite long_S, S_INR. f_equal. field.
Qed.
Lemma norm_S k : norm_exact (S k) = norm_exact k * (2 * INR k + 1) / 2.
Proof. unfold norm_exact. rewrite odd_S. cbn [pow]. field. apply pow_nonzero. lra. Qed.
Lemma normfac_from_ok n : normfac_from n = map norm_exact (seq 0 (n + 2)).
Proof.
  induction n as [|n IH].
  - cbn [normfac_from Nat.add seq map]. rewrite (norm_S 0). unfold norm_exact. cbn [odd_fact pow INR]. f_equal; [field|]. f_equal. field.
  - cbn [normfac_from]. rewrite IH. replace (S n + 2)%nat with (n + 2 + 1)%nat by lia. rewrite (seq_app (n + 2) 1 0), map_app. f_equal.
    replace (n + 2)%nat with (n + 1 + 1)%nat at 1 by lia. rewrite (seq_app (n + 1) 1 0), map_app. cbn [seq map]. rewrite last_last. cbn [Nat.add].
    replace (n + 2)%nat with (S (n + 1)) by lia. rewrite norm_S. f_equal.
    replace (2 * S (n + 1) - 1)%nat with (2 * (n + 1) + 1)%nat by lia. rewrite (plus_INR (2 * (n + 1)) 1), mult_INR. cbn [INR]. reflexivity.
Qed.
Theorem normfac_ok maxam l : normfac_script maxam = Some l -> l = map norm_exact (seq 0 (maxam + 1)).
Proof.
  destruct maxam as [|k]; [discriminate|]. intros H. injection H as <-. rewrite normfac_from_ok. do 2 f_equal. lia.
Qed.

(** *** Powers *)
Lemma half_power x n : 0 < x -> Rpower x (INR n + 1 / 2) = x ^ n * sqrt x.
Proof. intros H. rewrite Rpower_plus, Rpower_pow by exact H. replace (1 / 2) with (/ 2) by field. rewrite Rpower_sqrt by exact H. reflexivity. Qed.
Lemma sqrt_odd_pow x n : 0 <= x -> sqrt (x ^ (2 * n + 1)) = sqrt x * x ^ n.
Proof.
  intros H. replace (x ^ (2 * n + 1)) with (x * (x ^ n * x ^ n)) by (rewrite pow_add, pow_1; replace (2 * n)%nat with (n + n)%nat by lia; rewrite pow_add; ring).
  pose proof (pow_le x n H). rewrite sqrt_mult_alt by exact H. rewrite sqrt_square by assumption. reflexivity.
Qed.

(** *** The values of the script *)
Lemma boys_at0 n : boysR n 0 = 1 / (2 * INR n + 1).
Proof. pose proof (boys_by_parts n 0) as B. rewrite Ropp_0, exp_0 in B. pose proof (odd_pos n). apply (Rmult_eq_reg_l (2 * INR n + 1)); [|lra]. rewrite B. field. lra. Qed.
Lemma boys_le1 n x : 0 <= x -> 0 <= boysR n x <= 1.
Proof.
  intros Hx. split; [apply boysR_pos|]. pose proof (boys_rest n x 0 Hx) as R0. unfold boys_sumR in R0. cbn [rsums pow] in R0.
  change (INR (fact 0)) with 1 in R0. rewrite Rminus_0_r, Rabs_right in R0 by (apply Rle_ge, boysR_pos). lra.
Qed.
Definition scaled (n : nat) (x : R) : R := 2 * (Rpower x (INR n + 1 / 2) * boysR n x).
Lemma scaled_der n x : 0 < x -> derivable_pt_lim (scaled n) x (Rpower x (INR n + 1 / 2 - 1) * exp (- x)).
Proof.
  intros Hx. set (a := INR n + 1 / 2).
  pose proof (derivable_pt_lim_scal _ 2 x _ (derivable_pt_lim_mult _ _ x _ _ (derivable_pt_lim_power x a Hx) (boysR_der n x))) as D.
  match type of D with derivable_pt_lim _ _ ?l => replace (Rpower x (a - 1) * exp (- x)) with l; [exact D|] end.
  replace (Rpower x a) with (Rpower x (a - 1) * x).
  2:{ rewrite <- (Rpower_1 x Hx) at 2. rewrite <- Rpower_plus. f_equal. ring. }
  pose proof (boys_by_parts n x) as B. replace (exp (- x)) with ((2 * INR n + 1) * boysR n x - 2 * x * boysR (S n) x) by lra. unfold a. field.
Qed.
Lemma scaled_small n u : 0 < u <= 1 -> 0 <= scaled n u <= 2 * sqrt u.
Proof.
  intros Hu. unfold scaled. rewrite half_power by lra. pose proof (boys_le1 n u ltac:(lra)). pose proof (sqrt_pos u).
  assert (P : 0 <= u ^ n <= 1) by (split; [apply pow_le; lra|rewrite <- (pow1 n); apply pow_incr; lra]).
  assert (0 <= u ^ n * boysR n u <= 1) by nra. nra.
Qed.
Lemma scaled_start n e : 0 < e -> exists d, 0 < d /\ forall x, 0 < x < d -> Rabs (scaled n x) < e.
Proof.
  intros He. exists (Rmin 1 (e * e / 4)). split; [apply Rmin_pos; nra|]. intros x Hx. pose proof (Rmin_l 1 (e * e / 4)). pose proof (Rmin_r 1 (e * e / 4)).
  pose proof (scaled_small n x ltac:(lra)) as S. rewrite Rabs_right by lra. apply Rle_lt_trans with (1 := proj2 S).
  assert (sqrt x < e / 2); [|lra]. apply Rsqr_incrst_0; [|apply sqrt_pos|lra]. rewrite Rsqr_sqrt by lra. unfold Rsqr. lra.
Qed.
Theorem boys_entry_ok g x n : lower_gamma g -> 0 <= x -> boys_entry g x n = boysR n x.
Proof.
  intros Hg Hx. unfold boys_entry. destruct (Req_EM_T x 0) as [->|N]; [symmetry; apply boys_at0|]. assert (X : 0 < x) by lra.
  destruct (Hg n) as [D0 S0]. set (a := INR n + 1 / 2) in *. set (h := fun u => g a u - scaled n u).
  assert (C : forall u, 0 < u < x -> h u = h x).
  { intros u Hu. destruct (MVT_cor2 h (fun _ => 0) u x ltac:(lra)) as (c & E & _); [|lra].
    intros c Hc. replace 0 with (Rpower c (a - 1) * exp (- c) - Rpower c (a - 1) * exp (- c)) by ring.
    apply (derivable_pt_lim_minus (g a) (scaled n)); [apply D0; lra|apply scaled_der; lra]. }
  assert (Z : h x = 0).
  { destruct (Req_dec (h x) 0) as [Z|Z]; [exact Z|]. apply Rabs_pos_lt in Z. set (e := Rabs (h x) / 2). assert (He : 0 < e) by (unfold e; lra).
    destruct (S0 e He) as (d1 & P1 & B1). destruct (scaled_start n e He) as (d2 & P2 & B2).
    set (u := Rmin x (Rmin d1 d2) / 2). assert (U : 0 < Rmin x (Rmin d1 d2)) by (repeat apply Rmin_pos; assumption).
    pose proof (Rmin_l x (Rmin d1 d2)). pose proof (Rmin_r x (Rmin d1 d2)). pose proof (Rmin_l d1 d2). pose proof (Rmin_r d1 d2).
    pose proof (B1 u ltac:(unfold u; lra)). pose proof (B2 u ltac:(unfold u; lra)). pose proof (C u ltac:(unfold u; lra)) as E.
    assert (Rabs (h u) <= Rabs (g a u) + Rabs (scaled n u)) by (unfold h, Rminus; eapply Rle_trans; [apply Rabs_triang|]; rewrite Rabs_Ropp; lra).
    rewrite E in *. unfold e in *. lra. }
  unfold h, scaled in Z. fold a in Z. assert (P : Rpower x a <> 0) by (unfold a; rewrite half_power by exact X; pose proof (pow_lt x n X); pose proof (sqrt_lt_R0 x X); nra).
  replace (g a x) with (2 * (Rpower x a * boysR n x)) by lra. field. exact P.
Qed.
(** There is such a function. *)
Definition gamma_half (a x : R) : R := scaled (Z.to_nat (Int_part a)) x.
Lemma int_half n : Int_part (INR n + 1 / 2) = Z.of_nat n.
Proof.
  unfold Int_part. rewrite <- (tech_up (INR n + 1 / 2) (Z.of_nat n + 1)); [lia| |]; rewrite plus_IZR, <- INR_IZR_INZ; lra.
Qed.
Lemma gamma_half_ok : lower_gamma gamma_half.
Proof.
  intros n a. unfold gamma_half, a. rewrite int_half, Nat2Z.id. split; [intros x Hx; apply scaled_der, Hx|apply scaled_start].
Qed.

(** *** The long-range formula *)
Definition lform (n : nat) (x : R) : R := long_exact n / (sqrt x * x ^ n).
Lemma asym_entry_ok x n : 0 < x -> asym_entry x n = lform n x.
Proof.
  intros Hx. unfold asym_entry. destruct (Req_EM_T x 0) as [E|_]; [lra|]. pose proof (pow_lt x (2 * n + 1) Hx). rewrite sqrt_div_alt by assumption.
  rewrite sqrt_odd_pow by lra. unfold lform, long_exact. pose proof (sqrt_lt_R0 x Hx). pose proof (pow_lt x n Hx). field. repeat split; try lra. apply pow_nonzero. lra.
Qed.
Definition gap (n : nat) (x : R) : R := lform n x - boysR n x.
Lemma lform_S n x : 0 < x -> 2 * x * lform (S n) x = (2 * INR n + 1) * lform n x.
Proof.
  intros Hx. unfold lform. rewrite long_S. cbn [pow]. pose proof (sqrt_lt_R0 x Hx). pose proof (pow_lt x n Hx). field. lra.
Qed.
Lemma gap_S n x : 0 < x -> gap (S n) x = ((2 * INR n + 1) * gap n x + exp (- x)) / (2 * x).
Proof.
  intros Hx. unfold gap. pose proof (lform_S n x Hx) as A. pose proof (boys_by_parts n x) as B. apply (Rmult_eq_reg_l (2 * x)); [|lra].
  replace (2 * x * (((2 * INR n + 1) * (lform n x - boysR n x) + exp (- x)) / (2 * x))) with ((2 * INR n + 1) * lform n x - ((2 * INR n + 1) * boysR n x - exp (- x))) by (field; lra).
  rewrite B. lra.
Qed.
Lemma gap_0 x : 0 < x -> gap 0 x = (sqrt PI / 2 - sqrt x * boysR 0 x) / sqrt x.
Proof. intros Hx. unfold gap, lform. rewrite long_0. cbn [pow]. pose proof (sqrt_lt_R0 x Hx). field. lra. Qed.
Theorem gap_pos n x : 0 < x -> 0 < gap n x.
Proof.
  intros Hx. induction n as [|n IH].
  - rewrite gap_0 by exact Hx. apply Rdiv_lt_0_compat; [apply gauss_limit; lra|apply sqrt_lt_R0, Hx].
  - rewrite gap_S by exact Hx. pose proof (odd_pos n). pose proof (exp_pos (- x)). apply Rdiv_lt_0_compat; [nra|lra].
Qed.
Lemma div_decr a b p q : 0 <= b <= a -> 0 < p <= q -> b / q <= a / p.
Proof.
  intros Hab Hpq. unfold Rdiv. assert (/ q <= / p) by (apply Rinv_le_contravar; lra). pose proof (Rinv_0_lt_compat q ltac:(lra)). nra.
Qed.
Theorem gap_decr n x y : 0 < x <= y -> gap n y <= gap n x.
Proof.
  intros Hxy. induction n as [|n IH].
  - rewrite !gap_0 by lra. apply div_decr; [|split; [apply sqrt_lt_R0; lra|apply sqrt_le_1; lra]].
    pose proof (boys0_between x y ltac:(lra) ltac:(lra)). pose proof (gauss_limit y ltac:(lra)). lra.
  - rewrite !gap_S by lra. pose proof (odd_pos n). pose proof (gap_pos n y ltac:(lra)). pose proof (exp_pos (- y)).
    assert (exp (- y) <= exp (- x)) by (destruct Hxy as [_ [L|<-]]; [left; apply exp_increasing; lra|lra]). apply div_decr; [nra|lra].
Qed.
Fixpoint gap_coef (n : nat) : R := match n with O => sqrt PI / 2 | S k => ((2 * INR k + 1) * gap_coef k + 1) / 2 end.
Lemma gap_coef_pos n : 0 < gap_coef n.
Proof. induction n as [|n IH]; cbn [gap_coef]; [pose proof (sqrt_lt_R0 PI PI_RGT_0); lra|]. pose proof (odd_pos n). nra. Qed.
Lemma gap_le n x : 1 <= x -> gap n x <= gap_coef n * exp (- x).
Proof.
  intros Hx. pose proof (exp_pos (- x)) as E. induction n as [|n IH].
  - rewrite gap_0 by lra. pose proof (gauss_limit x ltac:(lra)) as [_ G]. assert (S : 1 <= sqrt x) by (rewrite <- sqrt_1; apply sqrt_le_1; lra).
    cbn [gap_coef]. apply (Rmult_le_reg_r (sqrt x)); [lra|]. unfold Rdiv at 1. rewrite Rmult_assoc, Rinv_l, Rmult_1_r by lra.
    pose proof (sqrt_lt_R0 PI PI_RGT_0). assert (0 < sqrt PI / 2 * exp (- x)) by nra. nra.
  - rewrite gap_S by lra. cbn [gap_coef]. pose proof (odd_pos n). pose proof (gap_coef_pos n).
    apply Rle_trans with (((2 * INR n + 1) * (gap_coef n * exp (- x)) + exp (- x)) / 2); [|right; field].
    assert (G : 0 < gap n x) by (apply gap_pos; lra). apply div_decr; [split; nra|lra].
Qed.
Lemma INR_above r : exists K, r < INR K.
Proof.
  exists (Z.to_nat (up r)). destruct (archimed r) as [A _]. destruct (Z.le_gt_cases 0 (up r)) as [P|P].
  - rewrite INR_IZR_INZ, Z2Nat.id by exact P. lra.
  - apply IZR_lt in P. apply Rlt_le_trans with 0; [lra|apply pos_INR].
Qed.
Lemma gap_limit n inc eps : 0 < inc -> 0 < eps -> exists K, forall k, (K <= k)%nat -> gap n (INR k * inc) <= eps.
Proof.
  intros Hi He. pose proof (gap_coef_pos n) as C. set (c := gap_coef n) in *.
  destruct (INR_above (Rmax 1 (c / eps) / inc)) as [K HK]. exists K. intros k Hk. apply le_INR in Hk.
  assert (X : Rmax 1 (c / eps) <= INR k * inc).
  { apply (Rmult_le_reg_r (/ inc)); [apply Rinv_0_lt_compat, Hi|]. rewrite Rmult_assoc, Rinv_r, Rmult_1_r by lra. unfold Rdiv at 1 in HK. lra. }
  set (x := INR k * inc) in *. clearbody x. pose proof (Rmax_l 1 (c / eps)). pose proof (Rmax_r 1 (c / eps)) as Q.
  apply Rle_trans with (1 := gap_le n x ltac:(lra)). fold c. assert (E : x <= exp x) by (pose proof (exp_ineq1_le x); lra).
  rewrite exp_Ropp. assert (P : 0 < exp x) by apply exp_pos. apply (Rmult_le_reg_r (exp x)); [exact P|]. rewrite Rmult_assoc, Rinv_l by lra.
  assert (c <= eps * x). { apply (Rmult_le_compat_l eps) in Q; [|lra]. replace (eps * (c / eps)) with c in Q by (field; lra). pose proof (Rmult_le_compat_l eps (Rmax 1 (c / eps)) x ltac:(lra) X). nra. }
  nra.
Qed.
Lemma gap_limits n inc eps : 0 < inc -> 0 < eps -> exists K, forall i, (i <= n)%nat -> forall k, (K <= k)%nat -> gap i (INR k * inc) <= eps.
Proof.
  intros Hi He. induction n as [|n (K & HK)].
  - destruct (gap_limit 0 inc eps Hi He) as [K HK]. exists K. intros i Hn k Hk. replace i with 0%nat by lia. apply HK, Hk.
  - destruct (gap_limit (S n) inc eps Hi He) as [L HL]. exists (Nat.max K L). intros i Hn k Hk.
    destruct (Nat.eq_dec i (S n)) as [->|N]; [apply HL; lia|apply HK; lia].
Qed.

(** *** The loop of the cutoff finder *)
Section Finder.
Variables (g : R -> R -> R) (n : nat) (inc eps : R).
Hypothesis Hg : lower_gamma g.
Hypothesis Hi : 0 < inc.
Hypothesis He : 0 < eps.
Lemma map_combine A B C D (f : A * B -> D) (p : C -> A) (q : C -> B) (l : list C) : map f (combine (map p l) (map q l)) = map (fun c => f (p c, q c)) l.
Proof. induction l as [|c l IH]; [reflexivity|]. cbn [map combine]. rewrite IH. reflexivity. Qed.
Lemma diffs_ok x : 0 < x -> diffs g n x = map (fun i => gap i x) (seq 0 (n + 1)).
Proof.
  intros Hx. unfold diffs, boys_value, boys_asymptotic. rewrite map_combine. apply map_ext. intros i. cbn [fst snd].
  rewrite (boys_entry_ok g x i Hg ltac:(lra)), asym_entry_ok by exact Hx. rewrite Rabs_minus_sym. apply Rabs_right, Rle_ge, Rlt_le, gap_pos, Hx.
Qed.
Lemma fold_max_le l : forall a e, fold_left Rmax l a <= e <-> a <= e /\ forall b, In b l -> b <= e.
Proof.
  induction l as [|b l IH]; intros a e; cbn [fold_left In]; [tauto|]. rewrite IH. unfold Rmax. destruct (Rle_dec a b) as [L|L]; split.
  - intros [H1 H2]. split; [lra|]. intros c [<-|Hc]; [lra|auto].
  - intros [H1 H2]. split; [apply H2; auto|auto].
  - intros [H1 H2]. split; [lra|]. intros c [<-|Hc]; [lra|auto].
  - intros [H1 H2]. split; [lra|auto].
Qed.
Lemma list_max_le l e : l <> [] -> (list_max l <= e <-> forall b, In b l -> b <= e).
Proof.
  destruct l as [|a l]; [congruence|]. intros _. cbn [list_max]. rewrite fold_max_le. cbn [In]. split.
  - intros [H1 H2] b [<-|Hb]; auto.
  - intros H. split; [auto|auto].
Qed.
Lemma max_small x : 0 < x -> (list_max (diffs g n x) <= eps <-> forall i, (i <= n)%nat -> gap i x <= eps).
Proof.
  intros Hx. rewrite diffs_ok by exact Hx. rewrite list_max_le.
  - split.
    + intros H i Hn. apply H, in_map_iff. exists i. split; [reflexivity|]. apply in_seq. lia.
    + intros H b Hb. apply in_map_iff in Hb as (i & <- & Hb). apply in_seq in Hb. apply H. lia.
  - rewrite Nat.add_1_r. discriminate.
Qed.
(** What an entry says after [k] points. *)
Definition found (k i : nat) (c : option R) : Prop :=
  match c with
  | Some y => exists j, (1 <= j <= k)%nat /\ y = INR j * inc /\ gap i y < eps /\ forall m, (1 <= m < j)%nat -> eps <= gap i (INR m * inc)
  | None => forall m, (1 <= m <= k)%nat -> eps <= gap i (INR m * inc)
  end.
Definition founds (k : nat) (cs : list (option R)) : Prop := length cs = (n + 1)%nat /\ forall i, (i <= n)%nat -> found k i (nth i cs None).
Lemma set_found k i c : found k i c -> found (S k) i (set_cutoff eps (INR (S k) * inc) c (gap i (INR (S k) * inc))).
Proof.
  intros F. unfold set_cutoff. destruct c as [y|].
  - cbn [found] in F. destruct F as (j & J & E & G & M). assert (Y : 0 < y) by (rewrite E; apply Rmult_lt_0_compat; [apply lt_0_INR; lia|exact Hi]).
    destruct (Req_EM_T y 0) as [Z|_]; [lra|]. exists j. split; [lia|]. auto.
  - cbn [found] in F. destruct (Rlt_dec _ eps) as [L|L].
    + exists (S k). split; [lia|]. split; [reflexivity|]. split; [exact L|]. intros m Hm. apply F. lia.
    + intros m Hm. destruct (Nat.eq_dec m (S k)) as [->|N]; [lra|apply F; lia].
Qed.
Lemma set_founds k cs : founds k cs -> founds (S k) (set_cutoffs eps (INR (S k) * inc) cs (diffs g n (INR (S k) * inc))).
Proof.
  intros [L F]. assert (X : 0 < INR (S k) * inc) by (apply Rmult_lt_0_compat; [apply lt_0_INR; lia|exact Hi]). rewrite diffs_ok by exact X. unfold set_cutoffs. split.
  - rewrite map_length, combine_length, map_length, seq_length. lia.
  - intros i Hn. specialize (F i Hn). set (f := fun p => _).
    rewrite (nth_indep _ None (f (None, 0))) by (rewrite map_length, combine_length, map_length, seq_length; lia).
    rewrite map_nth, combine_nth by (rewrite map_length, seq_length; lia). unfold f. cbn [fst snd].
    rewrite (nth_indep _ 0 (gap 0 (INR (S k) * inc))) by (rewrite map_length, seq_length; lia).
    rewrite (map_nth (fun i => gap i (INR (S k) * inc))), seq_nth by lia. apply set_found, F.
Qed.
Lemma loop_ends K : (forall i, (i <= n)%nat -> forall k, (K <= k)%nat -> gap i (INR k * inc) <= eps) ->
  forall r k x md cs, (K <= k + r)%nat -> x = INR k * inc -> (1 <= k)%nat -> md = list_max (diffs g n x) -> founds k cs ->
  exists k' cs', (1 <= k')%nat /\ (forall fuel, (r < fuel)%nat -> cutoff_loop g n inc eps fuel x md cs = Some cs') /\ founds k' cs' /\
    forall i, (i <= n)%nat -> gap i (INR k' * inc) <= eps.
Proof.
  intros HK. induction r as [|r IH]; intros k x md cs Hr Hx Hk Hm Hc.
  - assert (X : 0 < x) by (rewrite Hx; apply Rmult_lt_0_compat; [apply lt_0_INR; lia|exact Hi]).
    assert (M : md <= eps) by (rewrite Hm; apply max_small; [exact X|]; intros i Hn; rewrite Hx; apply HK; lia).
    exists k, cs. split; [exact Hk|]. split; [|split; [exact Hc|intros i Hn; apply HK; lia]].
    intros [|f] Hf; [lia|]. cbn [cutoff_loop]. destruct (Rlt_dec eps md); [lra|reflexivity].
  - destruct (Rlt_dec eps md) as [L|L].
    + assert (X' : x + inc = INR (S k) * inc) by (rewrite Hx, S_INR; ring).
      destruct (IH (S k) (x + inc) (list_max (diffs g n (x + inc))) (set_cutoffs eps (x + inc) cs (diffs g n (x + inc)))) as (k' & cs' & K1 & F & R1 & R2);
        [lia|exact X'|lia|reflexivity|rewrite X'; apply set_founds, Hc|].
      exists k', cs'. split; [exact K1|]. split; [|split; assumption]. intros [|f] Hf; [lia|]. cbn [cutoff_loop]. destruct (Rlt_dec eps md); [|contradiction]. apply F. lia.
    + exists k, cs. split; [exact Hk|]. split; [|split; [exact Hc|]].
      * intros [|f] Hf; [lia|]. cbn [cutoff_loop]. destruct (Rlt_dec eps md); [contradiction|reflexivity].
      * assert (X : 0 < x) by (rewrite Hx; apply Rmult_lt_0_compat; [apply lt_0_INR; lia|exact Hi]).
        assert (M : md <= eps) by lra. rewrite Hm in M. pose proof (proj1 (max_small x X) M) as Q. rewrite Hx in Q. exact Q.
Qed.
Lemma finder_ends : exists k cs f0, (1 <= k)%nat /\ (forall fuel, (f0 <= fuel)%nat -> cutoff_finder g n inc eps fuel = Some cs) /\ founds k cs /\
  forall i, (i <= n)%nat -> gap i (INR k * inc) <= eps.
Proof.
  destruct (gap_limits n inc eps Hi He) as [K HK].
  assert (F0 : founds 0 (repeat None (n + 1))).
  { split; [apply repeat_length|]. intros i Hn. rewrite nth_repeat. intros m Hm. lia. }
  pose proof (set_founds 0 _ F0) as F1. cbn [INR] in F1. rewrite Rmult_1_l in F1.
  destruct (loop_ends K HK K 1 inc (list_max (diffs g n inc)) (set_cutoffs eps inc (repeat None (n + 1)) (diffs g n inc))) as (k & cs & K1 & L & R1 & R2);
    [lia|cbn; ring|lia|reflexivity|exact F1|].
  exists k, cs, (S (S K)). split; [exact K1|]. split; [|split; assumption]. intros [|f] Hf; [lia|]. unfold cutoff_finder. cbn [cutoff_loop].
  destruct (Rlt_dec eps (eps * 2)); [|lra]. rewrite Rplus_0_l. apply L. lia.
Qed.
Theorem finder_ok : exists cs f0, (forall fuel, (f0 <= fuel)%nat -> cutoff_finder g n inc eps fuel = Some cs) /\ length cs = (n + 1)%nat /\
  forall i, (i <= n)%nat ->
    match nth i cs None with
    | Some y => (exists j, (1 <= j)%nat /\ y = INR j * inc /\
          forall m, (1 <= m < j)%nat -> eps <= Rabs (boysR i (INR m * inc) - long_exact i / sqrt ((INR m * inc) ^ (2 * i + 1)))) /\
        forall z, y <= z -> Rabs (boysR i z - long_exact i / sqrt (z ^ (2 * i + 1))) < eps
    | None => exists z, 0 < z /\ Rabs (boysR i z - long_exact i / sqrt (z ^ (2 * i + 1))) = eps
    end.
Proof.
  destruct finder_ends as (k & cs & f0 & K1 & E & [L F] & G). exists cs, f0. split; [exact E|]. split; [exact L|].
  assert (AG : forall i z, 0 < z -> Rabs (boysR i z - long_exact i / sqrt (z ^ (2 * i + 1))) = gap i z).
  { intros i z Hz. rewrite sqrt_odd_pow by lra. fold (lform i z). rewrite Rabs_minus_sym. apply Rabs_right, Rle_ge, Rlt_le, gap_pos, Hz. }
  intros i Hn. specialize (F i Hn). destruct (nth i cs None) as [y|].
  - destruct F as (j & J & Y & S & M). assert (Y0 : 0 < y) by (rewrite Y; apply Rmult_lt_0_compat; [apply lt_0_INR; lia|exact Hi]). split.
    + exists j. split; [lia|]. split; [exact Y|]. intros m Hm. rewrite AG by (apply Rmult_lt_0_compat; [apply lt_0_INR; lia|exact Hi]). apply M, Hm.
    + intros z Hz. rewrite AG by lra. apply Rle_lt_trans with (2 := S). apply gap_decr. lra.
  - exists (INR k * inc). assert (X : 0 < INR k * inc) by (apply Rmult_lt_0_compat; [apply lt_0_INR; lia|exact Hi]). split; [exact X|]. rewrite AG by exact X.
    apply Rle_antisym; [apply G, Hn|apply F; lia].
Qed.
End Finder.

(** The long-range formula is above the function and comes closer as the argument grows. *)
Theorem long_above n x : 0 < x -> boysR n x < long_exact n / sqrt (x ^ (2 * n + 1)).
Proof. intros Hx. rewrite sqrt_odd_pow by lra. fold (lform n x). pose proof (gap_pos n x Hx). unfold gap in *. lra. Qed.
Theorem long_closer n x y : 0 < x <= y ->
  long_exact n / sqrt (y ^ (2 * n + 1)) - boysR n y <= long_exact n / sqrt (x ^ (2 * n + 1)) - boysR n x.
Proof. intros H. rewrite !sqrt_odd_pow by lra. apply (gap_decr n x y H). Qed.
Theorem asymptotic_ok n x i : 0 < x -> (i <= n)%nat -> nth i (boys_asymptotic n x) 0 = nth i (longfac_loop n) 0 / sqrt (x ^ (2 * i + 1)).
Proof.
  intros Hx Hn. unfold boys_asymptotic. rewrite longfac_loop_ok. rewrite (nth_indep _ 0 (asym_entry x 0)) by (rewrite map_length, seq_length; lia).
  rewrite map_nth, (nth_indep _ 0 (long_exact 0)) by (rewrite map_length, seq_length; lia). rewrite map_nth, seq_nth by lia. cbn [Nat.add].
  rewrite asym_entry_ok by exact Hx. rewrite sqrt_odd_pow by lra. reflexivity.
Qed.
Theorem value_ok g n x i : lower_gamma g -> 0 <= x -> (i <= n)%nat -> nth i (boys_value g n x) 0 = boysR i x.
Proof.
  intros Hg Hx Hn. unfold boys_value. rewrite (nth_indep _ 0 (boys_entry g x 0)) by (rewrite map_length, seq_length; lia).
  rewrite map_nth, seq_nth by lia. apply boys_entry_ok; assumption.
Qed.
Lemma finder_example : cutoff_finder gamma_half 0 1 (1 / 2) 2 = Some [Some 1].
Proof.
  assert (G : gap 0 1 < 1 / 2).
  { rewrite gap_0 by lra. rewrite sqrt_1. pose proof (gauss_limit 1 ltac:(lra)) as [_ G]. rewrite sqrt_1 in G.
    assert (E : exp (Ropp 1) <= 1 / 2). { rewrite exp_Ropp. pose proof (exp_ineq1_le 1). replace (1 / 2) with (/ 2) by field. apply Rinv_le_contravar; lra. }
    assert (S : sqrt PI <= 3 / 2 + 1 / 2). { replace (3 / 2 + 1 / 2) with (sqrt 4); [apply sqrt_le_1_alt, PI_4|]. replace 4 with (2 * 2) by ring. rewrite sqrt_square; lra. }
    pose proof (sqrt_lt_R0 PI PI_RGT_0). pose proof (exp_pos (- 1)).
    assert (E2 : exp (Ropp 1) < 1 / 2). { rewrite exp_Ropp. pose proof (exp_ineq1 1 ltac:(lra)). replace (1 / 2) with (/ 2) by field. apply Rinv_lt_contravar; lra. }
    unfold Rdiv in *. rewrite Rinv_1, Rmult_1_r. nra. }
  unfold cutoff_finder. cbn [cutoff_loop Nat.add repeat]. destruct (Rlt_dec (1 / 2) (1 / 2 * 2)); [|lra]. rewrite Rplus_0_l.
  rewrite (diffs_ok gamma_half 0 gamma_half_ok 1 ltac:(lra)). cbn [Nat.add seq map list_max fold_left].
  destruct (Rlt_dec (1 / 2) (gap 0 1)); [lra|]. unfold set_cutoffs. cbn [combine map fst snd set_cutoff]. destruct (Rlt_dec (gap 0 1) (1 / 2)); [reflexivity|lra].
Qed.

(** *** The argument at which the library changes to the long-range formula, boys_shortgrid.h:4 *)
Lemma gauss_tail x : 0 < x -> sqrt PI / 2 - sqrt x * boysR 0 x <= exp (- x) / (2 * sqrt x).
Proof.
  intros Hx. apply Rnot_lt_le. intros L. set (d := sqrt PI / 2 - sqrt x * boysR 0 x - exp (- x) / (2 * sqrt x)). assert (D : 0 < d) by (unfold d; lra).
  pose proof (sqrt_lt_R0 PI PI_RGT_0) as S. destruct (INR_above (x + sqrt PI / d)) as [K HK]. set (y := INR K) in *.
  assert (Q : 0 < sqrt PI / d) by (apply Rdiv_lt_0_compat; assumption).
  pose proof (boys0_between x y Hx ltac:(lra)) as B. pose proof (gauss_limit y ltac:(lra)) as G.
  assert (E : exp (- y) * (sqrt PI / 2) < d).
  { rewrite exp_Ropp. assert (P : 0 < exp y) by apply exp_pos. pose proof (exp_ineq1_le y) as Y. apply (Rmult_lt_reg_r (exp y)); [exact P|].
    replace (/ exp y * (sqrt PI / 2) * exp y) with (sqrt PI / 2) by (field; lra). assert (M : sqrt PI / d < exp y) by lra.
    apply (Rmult_lt_compat_l d) in M; [|exact D]. replace (d * (sqrt PI / d)) with (sqrt PI) in M by (field; lra). lra. }
  unfold d in *. lra.
Qed.
Lemma tail_pos n : (0 < tail_coef n)%Q.
Proof.
  induction n as [|n IH]; [reflexivity|]. cbn [tail_coef]. apply Qlt_le_trans with (1 # 73)%Q; [reflexivity|].
  assert (N : (0 <= BoysSeries.nq n)%Q) by (unfold BoysSeries.nq, Qle; cbn; lia). set (t := tail_coef n) in *. set (k := BoysSeries.nq n) in *. clearbody t k. nra.
Qed.
Lemma gap_switch n x : 73 / 2 <= x -> gap n x <= Q2R (tail_coef n) * exp (- x).
Proof.
  intros Hx. pose proof (exp_pos (- x)) as E. induction n as [|n IH].
  - rewrite gap_0 by lra. cbn [tail_coef]. replace (Q2R (1 # 73)) with (/ 73) by (unfold Q2R; cbn; lra).
    pose proof (gauss_tail x ltac:(lra)) as G. pose proof (gauss_limit x ltac:(lra)) as L. assert (S : 0 < sqrt x) by (apply sqrt_lt_R0; lra).
    apply Rle_trans with (exp (- x) / (2 * sqrt x) / sqrt x); [apply div_decr; lra|].
    replace (exp (- x) / (2 * sqrt x) / sqrt x) with (exp (- x) / (2 * (sqrt x * sqrt x))) by (field; lra). rewrite sqrt_sqrt by lra.
    replace (/ 73 * exp (- x)) with (exp (- x) / 73) by field. apply div_decr; lra.
  - rewrite gap_S by lra. cbn [tail_coef]. rewrite !Q2R_mult, !Q2R_plus, Q2R_mult, Q2R_plus, Q2R_mult, q2r_nq, q2r_1. replace (Q2R 2) with 2 by (unfold Q2R; cbn; lra). replace (Q2R (1 # 73)) with (/ 73) by (unfold Q2R; cbn; lra).
    pose proof (odd_pos n). assert (G : 0 < gap n x) by (apply gap_pos; lra).
    replace (((2 * INR n + 1) * Q2R (tail_coef n) + 1) * / 73 * exp (- x)) with (((2 * INR n + 1) * (Q2R (tail_coef n) * exp (- x)) + exp (- x)) / 73) by field.
    apply div_decr; [split; nra|lra].
Qed.
Lemma switch_coefs : forallb (fun n => Qle_bool (tail_coef n * (14070 # 100000000000000000000)) (9 # 1000000000000000000)) (seq 0 32) = true.
Proof. vm_compute. reflexivity. Qed.
Theorem switch_ok n x : (n <= 31)%nat -> 73 / 2 <= x -> Rabs (boysR n x - long_exact n / sqrt (x ^ (2 * n + 1))) < / 10 ^ 17.
Proof.
  intros Hn Hx. rewrite sqrt_odd_pow by lra. fold (lform n x). rewrite Rabs_minus_sym, Rabs_right by (apply Rle_ge, Rlt_le, gap_pos; lra). fold (gap n x).
  apply Rle_lt_trans with (gap n (73 / 2)); [apply gap_decr; lra|]. apply Rle_lt_trans with (1 := gap_switch n (73 / 2) ltac:(lra)).
  pose proof exp_switch as S. pose proof switch_coefs as C. rewrite forallb_forall in C. specialize (C n ltac:(apply in_seq; lia)). apply Qle_bool_iff, Qle_Rle in C. rewrite Q2R_mult in C.
  pose proof (tail_pos n) as T. apply Qlt_Rlt in T. rewrite q2r_0 in T. apply Rle_lt_trans with (Q2R (9 # 1000000000000000000)); [nra|]. unfold Q2R. cbn [Qnum Qden]. lra.
Qed.
