(** The Boys function of the reference of the tests, [Valeev_F], skel/test/ValeevRef.cpp:97-145, over the reals (the rounding of
    long double is left out).  The value of the library function erfl is an argument. *)
From Coq Require Import List Arith ZArith QArith Reals Qreals Lra Lia Bool.
Import ListNotations.
From Verif Require Import Base Normalize BoysReal BoysRealLong Constants ConstantsProof Reference.
Local Open Scope R_scope.

(** [EPS], ValeevRef.hpp:4. *)
Definition v_eps : R := / 10 ^ 17.
(** [K], ValeevRef.cpp:105. *)
Definition lit_K : Q := 0.8862269254527580136490837416705725913987747280611935641069038949264556422955160906874753283692723327.
(** A read of [df], 2 * MAXFAC elements (ValeevRef.cpp:408-413); [None] outside. *)
Definition df_at (j : nat) : option R := if (j <? 2 * maxfac)%nat then Some (df_loop j) else None.

(** The do loop, ValeevRef.cpp:132-139; [fuel] counts the passes that are left when [i] is MAXFAC - fuel: the loop ends by its
    condition before the fuel does. *)
Fixpoint v_series (fuel m2 i : nat) (t2 num sum : R) : option R :=
  match fuel with
  | O => None
  | S fuel =>
    let i := S i in
    let num := num * t2 in
    match df_at (m2 + 2 * i + 2) with
    | None => None
    | Some d =>
      let term1 := num / d in
      let sum := sum + term1 in
      if Rlt_dec v_eps (Rabs term1) then (if (i <? maxfac)%nat then v_series fuel m2 i t2 num sum else Some sum) else Some sum
    end
  end.
(** The downward recursion, ValeevRef.cpp:141-144: [acc] is F[m], F[m+1], ... *)
Fixpoint v_down (m : nat) (t2 et f : R) (acc : list R) : list R :=
  match m with O => acc | S k => let f' := (t2 * f + et) / (2 * INR k + 1) in v_down k t2 et f' (f' :: acc) end.
(** The upward recursion, ValeevRef.cpp:115-118: [n] values after [f = F[m]]. *)
Fixpoint v_up (n m : nat) (t2 et f : R) : list R :=
  match n with O => [] | S k => let f' := ((2 * INR m + 1) * f - et) / t2 in f' :: v_up k (S m) t2 et f' end.
(** [Valeev_F]: F[0] ... F[n]; [None] when an element outside [df] is read. *)
Definition valeev_F (erfl : R -> R) (n : nat) (x : R) : option (list R) :=
  let t2 := 2 * x in
  let et := exp (- x) in
  if Rlt_dec 20 x then
    let f := Q2R lit_K * erfl (sqrt x) / sqrt x in Some (f :: v_up n 0 t2 et f)
  else
    match df_at (2 * n) with
    | None => None
    | Some num =>
      match v_series maxfac (2 * n) 0 t2 num (1 / (2 * INR n + 1)) with
      | None => None
      | Some sum => let f := sum * et in Some (v_down n t2 et f [f])
      end
    end.

(** Specification of the error function: 2 / sqrt pi times an integral of exp (-t^2) from 0. *)
Definition is_erf (erfl : R -> R) : Prop := forall s, 0 < s ->
  exists P, (forall t, 0 <= t <= s -> derivable_pt_lim P t (exp (- (t * t)))) /\ erfl s = 2 / sqrt PI * (P s - P 0).

(** *** The Boys function decreases with its order *)
Lemma boys_decr n x : boysR (S n) x <= boysR n x.
Proof.
  destruct (boysR_prim n x) as (P & HP & EP). destruct (boysR_prim (S n) x) as (Q & HQ & EQ). rewrite <- EP, <- EQ.
  destruct (MVT_cor2 (fun t => P t - Q t) (fun t => boys_fun n x t - boys_fun (S n) x t) 0 1 ltac:(lra)) as (c & E & Hc).
  { intros c Hc. apply (derivable_pt_lim_minus P Q); [apply HP, Hc|apply HQ, Hc]. }
  assert (0 <= boys_fun n x c - boys_fun (S n) x c).
  { unfold boys_fun. replace (2 * S n)%nat with (2 + 2 * n)%nat by lia. rewrite pow_add. pose proof (exp_pos (- (x * (c * c)))). pose proof (pow_le c (2 * n) ltac:(lra)).
    assert (c ^ 2 <= 1) by (cbn; nra). assert (0 <= c ^ 2) by (cbn; nra). set (e := exp _) in *. set (y := c ^ (2 * n)) in *. clearbody e y.
    replace (y * e - c ^ 2 * y * e) with (y * e * (1 - c ^ 2)) by ring. apply Rmult_le_pos; [apply Rmult_le_pos|]; lra. }
  cbn beta in E. lra.
Qed.

(** *** The terms of the series *)
Fixpoint aterm (n : nat) (x : R) (i : nat) : R := match i with O => 1 / (2 * INR n + 1) | S j => aterm n x j * (2 * x) / (2 * INR (n + S j) + 1) end.
Fixpoint asum (n : nat) (x : R) (i : nat) : R := match i with O => aterm n x 0 | S j => asum n x j + aterm n x (S j) end.
Lemma odd_pos n : 0 < 2 * INR n + 1.
Proof. pose proof (pos_INR n). lra. Qed.
Lemma boys_series n x i : boysR n x = exp (- x) * asum n x i + aterm n x i * (2 * x) * boysR (n + S i) x.
Proof.
  induction i as [|i IH].
  - cbn [asum aterm]. pose proof (boys_by_parts n x) as B. pose proof (odd_pos n). rewrite Nat.add_1_r. apply (Rmult_eq_reg_l (2 * INR n + 1)); [|lra]. rewrite B. field. lra.
  - rewrite IH. cbn [asum aterm]. pose proof (boys_by_parts (n + S i) x) as B. pose proof (odd_pos (n + S i)) as P. replace (n + S (S i))%nat with (S (n + S i)) by lia.
    set (o := 2 * INR (n + S i) + 1) in *. replace (boysR (n + S i) x) with ((2 * x * boysR (S (n + S i)) x + exp (- x)) / o) by (rewrite <- B; field; lra). field. lra.
Qed.
Lemma aterm_pos n x i : 0 <= x -> 0 <= aterm n x i.
Proof.
  intros Hx. induction i as [|i IH]; cbn [aterm]; [pose proof (odd_pos n); apply Rlt_le, Rdiv_lt_0_compat; lra|].
  pose proof (odd_pos (n + S i)). apply Rmult_le_pos; [nra|]. apply Rlt_le, Rinv_0_lt_compat. lra.
Qed.
(** The remainder, where the terms fall by a factor of two at least. *)
Lemma boys_tail k x : 0 <= x -> 4 * x <= 2 * INR k + 1 -> 2 * x * boysR k x <= exp (- x).
Proof.
  intros Hx H. pose proof (boys_by_parts k x) as B. pose proof (boys_decr k x). pose proof (boysR_pos k x). pose proof (boysR_pos (S k) x). set (f := boysR k x) in *. set (g := boysR (S k) x) in *. nra.
Qed.
(** While they do not, a term is not small. *)
Lemma aterm_low n x i : 0 <= x -> 2 * INR (n + i) + 3 < 4 * x -> / 2 ^ i / (2 * INR n + 1) <= aterm n x i.
Proof.
  intros Hx. induction i as [|i IH]; intros H; [cbn [aterm pow]; rewrite Rinv_1; lra|].
  cbn [aterm pow]. replace (n + S i)%nat with (S (n + i)) in * by lia. rewrite S_INR in *. specialize (IH ltac:(lra)). pose proof (odd_pos n) as On. pose proof (pos_INR (n + i)) as Pk.
  assert (P2 : 0 < 2 ^ i) by (apply pow_lt; lra). rewrite Rinv_mult.
  assert (A : / 2 * aterm n x i <= aterm n x i * (2 * x) / (2 * (INR (n + i) + 1) + 1)).
  { pose proof (aterm_pos n x i Hx). unfold Rdiv. rewrite Rmult_assoc, (Rmult_comm (/ 2)). apply Rmult_le_compat_l; [assumption|].
    apply (Rmult_le_reg_r (2 * (INR (n + i) + 1) + 1)); [lra|]. rewrite Rmult_assoc, Rinv_l by lra. lra. }
  apply Rle_trans with (/ 2 * aterm n x i); [|exact A]. unfold Rdiv in *. rewrite Rmult_assoc. apply Rmult_le_compat_l; [lra|exact IH].
Qed.
Lemma not_small n x i : 0 <= x <= 20 -> 2 * INR (n + i) + 3 < 4 * x -> v_eps < aterm n x i.
Proof.
  intros Hx H. eapply Rlt_le_trans; [|apply aterm_low; [lra|exact H]].
  assert (Hni : INR (n + i) < INR 39) by (cbn; lra). apply INR_lt in Hni.
  assert (Hn : INR n <= 38) by (replace 38 with (INR 38) by (cbn; lra); apply le_INR; lia). pose proof (pos_INR n).
  assert (Hi : 2 ^ i <= 2 ^ 38) by (apply Rle_pow; [lra|lia]). assert (P : 0 < 2 ^ i) by (apply pow_lt; lra).
  unfold v_eps, Rdiv. rewrite <- Rinv_mult. apply Rinv_lt_contravar; [apply Rmult_lt_0_compat; [nra|apply pow_lt; lra]|].
  apply Rle_lt_trans with (2 ^ 38 * 77); [|lra]. apply Rmult_le_compat; lra.
Qed.
(** The terms for order 0 and x = 20 are the largest. *)
Lemma aterm_mono n x i : 0 <= x <= 20 -> aterm n x i <= aterm 0 20 i.
Proof.
  intros Hx. induction i as [|i IH]; cbn [aterm].
  - pose proof (pos_INR n). cbn [INR]. apply (Rmult_le_reg_r (2 * INR n + 1)); [lra|]. unfold Rdiv. rewrite Rmult_assoc, Rinv_l by lra. lra.
  - unfold Rdiv. pose proof (odd_pos (n + S i)). pose proof (aterm_pos n x i ltac:(lra)). apply Rmult_le_compat.
    + nra.
    + apply Rlt_le, Rinv_0_lt_compat; assumption.
    + apply Rmult_le_compat; lra.
    + apply Rinv_le_contravar; [apply odd_pos|]. assert (INR (0 + S i) <= INR (n + S i)) by (apply le_INR; lia). lra.
Qed.
Fixpoint odds (i : nat) : Z := match i with O => 1 | S j => odds j * (2 * Z.of_nat (S j) + 1) end%Z.
Lemma odds_pos i : (0 < odds i)%Z.
Proof. induction i as [|i IH]; cbn [odds]; lia. Qed.
Lemma aterm_top i : aterm 0 20 i = IZR (40 ^ Z.of_nat i) / IZR (odds i).
Proof.
  induction i as [|i IH]; [cbn; field|]. cbn [aterm odds]. rewrite IH. rewrite mult_IZR, plus_IZR, mult_IZR. cbn [Nat.add]. rewrite INR_IZR_INZ.
  replace (40 ^ Z.of_nat (S i))%Z with (40 * 40 ^ Z.of_nat i)%Z by (rewrite Nat2Z.inj_succ, Z.pow_succ_r by lia; reflexivity). rewrite mult_IZR.
  assert (0 < IZR (odds i)) by (apply IZR_lt, odds_pos). assert (0 <= IZR (Z.of_nat (S i))) by (apply IZR_le; lia). field. lra.
Qed.
Lemma small_82 : aterm 0 20 82 <= v_eps.
Proof.
  rewrite aterm_top. assert (P : 0 < IZR (odds 82)) by (apply IZR_lt, odds_pos).
  assert (C : (40 ^ Z.of_nat 82 * 10 ^ 17 <= odds 82)%Z) by (vm_compute; discriminate). apply IZR_le in C. rewrite mult_IZR in C.
  unfold v_eps. replace (10 ^ 17)%R with (IZR (10 ^ 17)) by (symmetry; exact (pow_IZR 10 17)).
  assert (Q : 0 < IZR (10 ^ 17)) by (apply IZR_lt; lia). generalize dependent (IZR (40 ^ Z.of_nat 82)). generalize dependent (IZR (odds 82)). generalize dependent (IZR (10 ^ 17)).
  intros q Q o O p C. apply (Rmult_le_reg_r (o * q)); [nra|]. replace (p / o * (o * q)) with (p * q) by (field; lra). replace (/ q * (o * q)) with o by (field; lra). exact C.
Qed.

(** *** The loop *)
Lemma df_pos_step k : 0 < df_loop k /\ 0 < df_loop (S k).
Proof.
  induction k as [|k [IH1 IH2]]; [cbn; lra|]. split; [exact IH2|]. destruct k as [|k]; [cbn; lra|].
  cbn [df_loop]. apply Rmult_lt_0_compat; [apply lt_0_INR; lia|exact IH1].
Qed.
Lemma df_pos k : 0 < df_loop k.
Proof. apply df_pos_step. Qed.
Lemma df_next j : df_loop (S (S (S j))) = INR (S (S j)) * df_loop (S j).
Proof. reflexivity. Qed.
Lemma df_step k : df_loop (2 * k + 2) = (2 * INR k + 1) * df_loop (2 * k).
Proof.
  destruct k as [|k]; [cbn; lra|]. replace (2 * S k + 2)%nat with (S (S (S (2 * k + 1)))) by lia. rewrite df_next.
  replace (S (2 * k + 1))%nat with (2 * S k)%nat by lia. rewrite (S_INR (2 * S k)), mult_INR. reflexivity.
Qed.
Lemma df_ratio n x i : df_loop (2 * n) * (2 * x) ^ i / df_loop (2 * n + 2 * i + 2) = aterm n x i.
Proof.
  induction i as [|i IH].
  - replace (2 * n + 2 * 0 + 2)%nat with (2 * n + 2)%nat by lia. rewrite df_step. cbn [aterm pow]. pose proof (df_pos (2 * n)). pose proof (odd_pos n). field. lra.
  - cbn [aterm]. rewrite <- IH. replace (2 * n + 2 * S i + 2)%nat with (2 * (n + S i) + 2)%nat by lia. rewrite df_step. replace (2 * (n + S i))%nat with (2 * n + 2 * i + 2)%nat by lia.
    pose proof (df_pos (2 * n + 2 * i + 2)). pose proof (odd_pos (n + S i)). cbn [pow]. field. lra.
Qed.
Lemma series_ok n x : 0 <= x <= 20 -> (n <= 116)%nat -> forall fuel i, (i < 82)%nat -> (82 - i <= fuel)%nat ->
  exists j, (i < j <= 82)%nat /\ v_series fuel (2 * n) i (2 * x) (df_loop (2 * n) * (2 * x) ^ i) (asum n x i) = Some (asum n x j) /\ aterm n x j <= v_eps.
Proof.
  intros Hx Hn. induction fuel as [|fuel IH]; intros i Hi Hf; [lia|]. cbn [v_series].
  unfold df_at. destruct (Nat.ltb_spec (2 * n + 2 * S i + 2) (2 * maxfac)) as [_|L]; [|unfold maxfac in L; lia].
  replace (df_loop (2 * n) * (2 * x) ^ i * (2 * x)) with (df_loop (2 * n) * (2 * x) ^ S i) by (cbn [pow]; ring). rewrite df_ratio.
  change (asum n x i + aterm n x (S i)) with (asum n x (S i)). rewrite (Rabs_right (aterm n x (S i))) by (apply Rle_ge, aterm_pos; lra).
  destruct (Rlt_dec v_eps (aterm n x (S i))) as [L|L].
  - assert (S i <> 82)%nat.
    { intros E. rewrite E in L. pose proof (aterm_mono n x 82 Hx). pose proof small_82. lra. }
    destruct (Nat.ltb_spec (S i) maxfac) as [_|M]; [|unfold maxfac in M; lia].
    destruct (IH (S i) ltac:(lia) ltac:(lia)) as (j & Hj & E & T). exists j. split; [lia|]. split; assumption.
  - exists (S i). split; [lia|]. split; [reflexivity|lra].
Qed.
(** F[n]. *)
Lemma top_value n x j : 0 <= x <= 20 -> aterm n x j <= v_eps -> Rabs (asum n x j * exp (- x) - boysR n x) <= v_eps * exp (- x).
Proof.
  intros Hx T. pose proof (boys_series n x j) as B. pose proof (aterm_pos n x j ltac:(lra)) as P.
  assert (H : 4 * x <= 2 * INR (n + S j) + 1).
  { destruct (Rle_lt_dec (4 * x) (2 * INR (n + S j) + 1)) as [L|L]; [exact L|]. exfalso.
    assert (2 * INR (n + j) + 3 < 4 * x) by (replace (n + S j)%nat with (S (n + j)) in L by lia; rewrite S_INR in L; lra). pose proof (not_small n x j Hx H). lra. }
  pose proof (boys_tail (n + S j) x ltac:(lra) H) as T'. pose proof (boysR_pos (n + S j) x) as P'. pose proof (exp_pos (- x)) as E.
  replace (asum n x j * exp (- x) - boysR n x) with (- (aterm n x j * (2 * x * boysR (n + S j) x))) by (rewrite B; ring).
  rewrite Rabs_Ropp. assert (0 <= 2 * x * boysR (n + S j) x) by (apply Rmult_le_pos; lra). rewrite Rabs_right by (apply Rle_ge, Rmult_le_pos; assumption).
  apply Rmult_le_compat; assumption.
Qed.
(** Downwards the relative error does not grow. *)
Lemma down_ok x e : 0 <= x -> 0 <= e -> forall m f acc, Rabs (f - boysR m x) <= e * boysR m x ->
  length (v_down m (2 * x) (exp (- x)) f acc) = (m + length acc)%nat /\
  (forall k, (k < m)%nat -> exists v, nth_error (v_down m (2 * x) (exp (- x)) f acc) k = Some v /\ Rabs (v - boysR k x) <= e * boysR k x) /\
  (forall k, nth_error (v_down m (2 * x) (exp (- x)) f acc) (m + k) = nth_error acc k).
Proof.
  intros Hx He. induction m as [|m IH]; intros f acc Hf; cbn [v_down]; [split; [reflexivity|split; [intros k Hk; lia|reflexivity]]|].
  set (f' := (2 * x * f + exp (- x)) / (2 * INR m + 1)). pose proof (odd_pos m) as O. pose proof (boys_by_parts m x) as B. pose proof (exp_pos (- x)) as E.
  assert (Hf' : Rabs (f' - boysR m x) <= e * boysR m x).
  { replace (f' - boysR m x) with (2 * x / (2 * INR m + 1) * (f - boysR (S m) x)).
    2:{ unfold f'. apply (Rmult_eq_reg_l (2 * INR m + 1)); [|lra]. rewrite (Rmult_minus_distr_l _ (_ / _)), B. field. lra. }
    assert (G : 2 * x / (2 * INR m + 1) * boysR (S m) x <= boysR m x).
    { apply (Rmult_le_reg_l (2 * INR m + 1)); [lra|]. rewrite B. replace ((2 * INR m + 1) * (2 * x / (2 * INR m + 1) * boysR (S m) x)) with (2 * x * boysR (S m) x) by (field; lra). lra. }
    assert (P : 0 <= 2 * x / (2 * INR m + 1)) by (apply Rmult_le_pos; [lra|apply Rlt_le, Rinv_0_lt_compat; lra]).
    rewrite Rabs_mult, (Rabs_right (2 * x / _)) by lra. set (r := 2 * x / _) in *. set (g := boysR (S m) x) in *. set (h := boysR m x) in *. clearbody r g h.
    apply Rle_trans with (r * (e * g)); [apply Rmult_le_compat_l; assumption|]. replace (r * (e * g)) with (e * (r * g)) by ring. apply Rmult_le_compat_l; assumption. }
  destruct (IH f' (f' :: acc) Hf') as (L & V & W). split; [rewrite L; cbn [length]; lia|]. split.
  - intros k Hk. destruct (Nat.eq_dec k m) as [->|N]; [|apply V; lia]. exists f'. split; [|exact Hf']. pose proof (W 0%nat) as W0. rewrite Nat.add_0_r in W0. exact W0.
  - intros k. replace (S m + k)%nat with (m + S k)%nat by lia. apply W.
Qed.
(** For x up to 20. *)
Theorem F_short erfl n x : 0 <= x <= 20 -> (n <= 116)%nat -> exists F, valeev_F erfl n x = Some F /\ length F = S n /\
  forall m, (m <= n)%nat -> exists v, nth_error F m = Some v /\ Rabs (v - boysR m x) <= (2 * INR n + 1) / 10 ^ 17 * boysR m x.
Proof.
  intros Hx Hn. unfold valeev_F. destruct (Rlt_dec 20 x) as [L|_]; [lra|]. unfold df_at at 1. destruct (Nat.ltb_spec (2 * n) (2 * maxfac)) as [_|L]; [|unfold maxfac in L; lia].
  destruct (series_ok n x Hx Hn maxfac 0%nat ltac:(lia) ltac:(unfold maxfac; lia)) as (j & _ & E & T). cbn [pow asum aterm] in E. rewrite Rmult_1_r in E. rewrite E. clear E.
  set (f := asum n x j * exp (- x)). pose proof (odd_pos n) as O.
  assert (Hf : Rabs (f - boysR n x) <= (2 * INR n + 1) / 10 ^ 17 * boysR n x).
  { eapply Rle_trans; [apply (top_value n x j Hx T)|]. unfold v_eps, Rdiv. replace ((2 * INR n + 1) * / 10 ^ 17 * boysR n x) with (/ 10 ^ 17 * ((2 * INR n + 1) * boysR n x)) by ring.
    apply Rmult_le_compat_l; [apply Rlt_le, Rinv_0_lt_compat, pow_lt; lra|]. rewrite boys_by_parts. pose proof (boysR_pos (S n) x). assert (0 <= 2 * x * boysR (S n) x) by (apply Rmult_le_pos; lra). lra. }
  assert (E0 : 0 <= (2 * INR n + 1) / 10 ^ 17) by (apply Rmult_le_pos; [lra|apply Rlt_le, Rinv_0_lt_compat, pow_lt; lra]).
  destruct (down_ok x _ ltac:(lra) E0 n f [f] Hf) as (Le & V & W). eexists. split; [reflexivity|]. split; [rewrite Le; cbn; lia|].
  intros m Hm. destruct (Nat.eq_dec m n) as [->|N]; [|apply V; lia]. exists f. split; [|exact Hf]. pose proof (W 0%nat) as W0. rewrite Nat.add_0_r in W0. exact W0.
Qed.

(** *** Large x *)
Lemma near_K : near (1 # 10 ^ 65) lit_K (sqrt PI / 2).
Proof.
  pose proof PI_RGT_0 as P0. pose proof pi_bounds as PB.
  apply near_pow with (n := 2%nat) (lo := ((1 # 4) * pi_lo)%Q) (hi := ((1 # 4) * pi_hi)%Q); try decide_q; [lia|pose proof (sqrt_pos PI); lra|].
  replace ((sqrt PI / 2) ^ 2) with (/ 4 * PI) by (replace ((sqrt PI / 2) ^ 2) with (sqrt PI * sqrt PI / 4) by field; rewrite sqrt_sqrt by lra; field).
  rewrite !Q2R_mult. replace (Q2R (1 # 4)) with (/ 4) by (unfold Q2R; cbn; lra). lra.
Qed.
Lemma up_ok x c : 0 < x -> 0 <= c -> forall n m f, Rabs (f - boysR m x) <= c * df_loop (2 * m) / (2 * x) ^ m ->
  length (v_up n m (2 * x) (exp (- x)) f) = n /\
  forall k, (k < n)%nat -> exists v, nth_error (v_up n m (2 * x) (exp (- x)) f) k = Some v /\
    Rabs (v - boysR (S (m + k)) x) <= c * df_loop (2 * S (m + k)) / (2 * x) ^ S (m + k).
Proof.
  intros Hx Hc. induction n as [|n IH]; intros m f Hf; cbn [v_up]; [split; [reflexivity|intros k Hk; lia]|].
  set (f' := ((2 * INR m + 1) * f - exp (- x)) / (2 * x)). pose proof (odd_pos m) as O. pose proof (boys_by_parts m x) as B.
  assert (Hf' : Rabs (f' - boysR (S m) x) <= c * df_loop (2 * S m) / (2 * x) ^ S m).
  { replace (f' - boysR (S m) x) with ((2 * INR m + 1) / (2 * x) * (f - boysR m x)).
    2:{ unfold f'. apply (Rmult_eq_reg_l (2 * x)); [|lra]. replace (2 * x * ((2 * INR m + 1) / (2 * x) * (f - boysR m x))) with ((2 * INR m + 1) * f - (2 * INR m + 1) * boysR m x) by (field; lra). rewrite B. field. lra. }
    replace (2 * S m)%nat with (2 * m + 2)%nat by lia. rewrite df_step. cbn [pow].
    replace (c * ((2 * INR m + 1) * df_loop (2 * m)) / (2 * x * (2 * x) ^ m)) with ((2 * INR m + 1) / (2 * x) * (c * df_loop (2 * m) / (2 * x) ^ m)) by (field; split; [apply pow_nonzero|]; lra).
    assert (P : 0 <= (2 * INR m + 1) / (2 * x)) by (apply Rmult_le_pos; [lra|apply Rlt_le, Rinv_0_lt_compat; lra]).
    rewrite Rabs_mult, (Rabs_right (_ / _)) by lra. apply Rmult_le_compat_l; assumption. }
  destruct (IH (S m) f' Hf') as [L V]. split; [cbn [length]; rewrite L; reflexivity|].
  intros [|k] Hk; [exists f'; rewrite Nat.add_0_r; split; [reflexivity|exact Hf']|]. destruct (V k ltac:(lia)) as (v & E & H). exists v. split; [exact E|].
  replace (m + S k)%nat with (S m + k)%nat by lia. exact H.
Qed.
Theorem F_long erfl n x : is_erf erfl -> 20 < x -> exists F, valeev_F erfl n x = Some F /\ length F = S n /\
  forall m, (m <= n)%nat -> exists v, nth_error F m = Some v /\ Rabs (v - boysR m x) <= 2 / 10 ^ 65 * df_loop (2 * m) / (2 * x) ^ m.
Proof.
  intros He Hx. unfold valeev_F. destruct (Rlt_dec 20 x) as [_|L]; [|lra]. set (f := Q2R lit_K * erfl (sqrt x) / sqrt x).
  assert (Sx : 0 < sqrt x) by (apply sqrt_lt_R0; lra). pose proof PI_RGT_0 as P0. assert (Sp : 0 < sqrt PI) by (apply sqrt_lt_R0; lra).
  assert (C : 0 < 10 ^ 65) by (apply pow_lt; lra).
  assert (Hf : Rabs (f - boysR 0 x) <= 2 / 10 ^ 65 * df_loop (2 * 0) / (2 * x) ^ 0).
  { destruct (He (sqrt x) Sx) as (P & HP & E). pose proof (boys0_scaled (sqrt x) (sqrt x) P ltac:(lra) HP) as B. rewrite sqrt_sqrt in B by lra.
    assert (F0 : f = Q2R lit_K * (2 / sqrt PI) * boysR 0 x) by (unfold f; rewrite E, <- B; field; lra).
    assert (B1 : 0 <= boysR 0 x <= 1).
    { split; [apply boysR_pos|]. pose proof (boys_by_parts 0 x) as BP. cbn [INR] in BP. pose proof (boys_decr 0 x).
      pose proof (boys_rest 0 x 0 ltac:(lra)) as R0. cbn in R0. rewrite Rminus_0_r, Rabs_right in R0 by (apply Rle_ge, boysR_pos). lra. }
    pose proof near_K as N. unfold near in N. replace (Q2R (1 # 10 ^ 65)) with (/ 10 ^ 65) in N.
    2:{ unfold Q2R. cbn [Qnum Qden]. rewrite Rmult_1_l. f_equal. rewrite pow_IZR. apply f_equal. vm_compute. reflexivity. }
    rewrite F0. replace (Q2R lit_K * (2 / sqrt PI) * boysR 0 x - boysR 0 x) with (- ((sqrt PI / 2 - Q2R lit_K) * (2 / sqrt PI) * boysR 0 x)) by (field; lra).
    rewrite Rabs_Ropp, !Rabs_mult, (Rabs_right (boysR 0 x)) by lra. replace (2 / 10 ^ 65 * df_loop (2 * 0) / (2 * x) ^ 0) with (/ 10 ^ 65 * 2) by (change (df_loop (2 * 0)) with 1; rewrite pow_O; field; lra).
    assert (S1 : 1 <= sqrt PI) by (rewrite <- sqrt_1; apply sqrt_le_1_alt; pose proof PI2_1; lra).
    assert (D : 0 <= 2 / sqrt PI <= 2).
    { split; [apply Rlt_le, Rdiv_lt_0_compat; lra|]. apply (Rmult_le_reg_r (sqrt PI)); [lra|]. unfold Rdiv. rewrite Rmult_assoc, Rinv_l by lra. lra. }
    rewrite (Rabs_right (2 / sqrt PI)) by lra. pose proof (Rabs_pos (sqrt PI / 2 - Q2R lit_K)).
    set (u := Rabs _) in *. set (w := / 10 ^ 65) in *. set (d := 2 / sqrt PI) in *. set (b := boysR 0 x) in *. clearbody u w d b.
    apply Rle_trans with (u * d * 1); [apply Rmult_le_compat_l; [nra|lra]|]. rewrite Rmult_1_r. apply Rmult_le_compat; lra. }
  assert (C0 : 0 <= 2 / 10 ^ 65) by (apply Rlt_le, Rdiv_lt_0_compat; lra).
  destruct (up_ok x _ ltac:(lra) C0 n 0%nat f Hf) as [L V]. eexists. split; [reflexivity|]. split; [cbn [length]; rewrite L; reflexivity|].
  intros [|m] Hm; [exists f; split; [reflexivity|exact Hf]|]. destruct (V m ltac:(lia)) as (v & E & H). exists v. split; [exact E|exact H].
Qed.
(** Orders whose factorials are still in the tables but for which the series reads past [df]. *)
Theorem F_outside erfl n x : (198 <= n < 200)%nat -> x <= 20 -> valeev_F erfl n x = None.
Proof.
  intros Hn Hx. unfold valeev_F. destruct (Rlt_dec 20 x) as [L|_]; [lra|]. unfold df_at at 1. destruct (Nat.ltb_spec (2 * n) (2 * maxfac)) as [_|L]; [|reflexivity].
  assert (G : forall fuel t2 num sum, v_series (S fuel) (2 * n) 0 t2 num sum = None).
  { intros fuel t2 num sum. cbn [v_series]. unfold df_at. destruct (Nat.ltb_spec (2 * n + 2 * 1 + 2) (2 * maxfac)) as [L'|_]; [unfold maxfac in L'; lia|reflexivity]. }
  rewrite (G 199%nat : forall t2 num sum, v_series maxfac (2 * n) 0 t2 num sum = None). reflexivity.
Qed.
(** At x = 0: F[0] and F[1] are 1 and 1/3. *)
Lemma F_at_0 erfl : exists v w, valeev_F erfl 1 0 = Some [v; w] /\ Rabs (v - 1) <= 3 / 10 ^ 17 /\ Rabs (w - / 3) <= / 10 ^ 17.
Proof.
  destruct (F_short erfl 1 0 ltac:(lra) ltac:(lia)) as (F & E & L & V). destruct F as [|v [|w [|]]]; try discriminate L. exists v, w. split; [exact E|].
  assert (Z : forall n, boysR n 0 = / (2 * INR n + 1)).
  { intros n. pose proof (boys_by_parts n 0) as B. rewrite Ropp_0, exp_0 in B. pose proof (pos_INR n). apply (Rmult_eq_reg_l (2 * INR n + 1)); [|lra]. rewrite B. field. lra. }
  destruct (V 0%nat ltac:(lia)) as (v' & E1 & H1). destruct (V 1%nat ltac:(lia)) as (w' & E2 & H2). injection E1 as <-. injection E2 as <-. rewrite !Z in H1, H2. cbn [INR] in H1, H2.
  replace (/ (2 * 0 + 1)) with 1 in H1 by field. replace (/ (2 * 1 + 1)) with (/ 3) in H2 by field.
  split; [eapply Rle_trans; [exact H1|right; field; lra]|eapply Rle_trans; [exact H2|right; field; lra]].
Qed.
