(** What the comparison of the tests finds and what it does not, and the derivative reference for more than one first shell. *)
From Coq Require Import List Arith ZArith QArith Reals Lra Lia Bool.
Import ListNotations.
From Verif Require Import Base Cart QList HRRStep HRRAlgo HRRExec Mdir VRRStep Layout PairData Deriv OSFamily OSMoves
  EndToEnd EndToEndProof DerivKernel DerivKernelProof Normalize BoysReal RealScreened RealDerivKernel Reference ReferenceProof RefLoops RefBuffer RefBufferProof.
From Verif Require RealUnique.
Local Open Scope R_scope.

(** *** A number in an error *)
Definition num (v : value) : Prop := exists x, v = Some x.
Lemma vmax_num a b : num a -> num (vmax a b).
Proof. intros [x ->]. unfold vmax, vgt. destruct b as [y|]; [|exists x; reflexivity]. destruct (Rlt_dec x y); eexists; reflexivity. Qed.
Lemma vmax_step a b : (if vgt b a then b else a) = vmax a b.
Proof. reflexivity. Qed.
(** [le v r]: [v] is a number of at most [r]. *)
Definition le (v : value) (r : value) : Prop := match v, r with Some x, Some y => x <= y | _, _ => False end.
Lemma vmax_left a b : num a -> le a (vmax a b).
Proof. intros [x ->]. unfold vmax, vgt, le. destruct b as [y|]; [destruct (Rlt_dec x y); lra|lra]. Qed.
Lemma vmax_right a x : num a -> le (Some x) (vmax a (Some x)).
Proof. intros [y ->]. unfold vmax, vgt, le. destruct (Rlt_dec y x); lra. Qed.
Lemma le_trans a b c : le a b -> le b c -> le a c.
Proof. destruct a, b, c; cbn; try tauto. lra. Qed.
Lemma le_num a b : le a b -> num b.
Proof. destruct a, b; cbn; try tauto. intros _. eexists; reflexivity. Qed.
Lemma le_refl a : num a -> le a a.
Proof. intros [x ->]. cbn. lra. Qed.

Definition nums (e : value * value) : Prop := num (fst e) /\ num (snd e).
Definition les (e f : value * value) : Prop := le (fst e) (fst f) /\ le (snd e) (snd f).
Lemma les_trans e f g : les e f -> les f g -> les e g.
Proof. intros [H1 H2] [H3 H4]. split; eapply le_trans; eassumption. Qed.
Lemma step_grows e p : nums e -> nums (err_step e p) /\ les e (err_step e p).
Proof.
  intros [H1 H2]. destruct p as [calc r]. unfold err_step. cbn [fst snd].
  repeat split; cbn [fst snd]; rewrite vmax_step; first [apply vmax_num; assumption|apply vmax_left; assumption].
Qed.
Lemma fold_grows l e : nums e -> nums (fold_left err_step l e) /\ les e (fold_left err_step l e).
Proof.
  revert e. induction l as [|p l IH]; intros e H; cbn [fold_left]; [split; [exact H|split; apply le_refl; apply H]|].
  destruct (step_grows e p H) as [N L]. destruct (IH _ N) as [N' L']. split; [exact N'|eapply les_trans; eassumption].
Qed.
(** The errors of one entry. *)
Definition entry_error (x r : R) : value * value := (Some (Rabs (x - r)), Some (if Rlt_dec rnd_zero (Rabs r) then Rabs (Rabs (x - r) / r) else 0)).
Lemma step_entry e x r : nums e -> les (entry_error x r) (err_step e (Some x, Some r)).
Proof.
  intros [H1 H2]. unfold err_step, entry_error. cbn [fst snd].
  assert (Z : rel_error (vabs (vbin Rminus (Some x) (Some r))) (Some r) = Some (if Rlt_dec rnd_zero (Rabs r) then Rabs (Rabs (x - r) / r) else 0))
    by (unfold rel_error, vgt, vabs, vbin; cbn [option_map]; destruct (Rlt_dec rnd_zero (Rabs r)); reflexivity).
  rewrite Z. split; cbn [fst snd]; rewrite vmax_step; apply vmax_right; assumption.
Qed.
Lemma fold_entry l e x r : nums e -> In (Some x, Some r) l -> les (entry_error x r) (fold_left err_step l e).
Proof.
  revert e. induction l as [|p l IH]; intros e H; [intros []|]. intros [->|I]; cbn [fold_left].
  - eapply les_trans; [apply step_entry; exact H|]. apply fold_grows, step_grows, H.
  - apply IH; [apply step_grows, H|exact I].
Qed.
Lemma zero_nums : nums (Some 0, Some 0).
Proof. split; eexists; reflexivity. Qed.
Lemma update_grows e p : nums e -> nums (update_error e p) /\ les e (update_error e p).
Proof. intros [H1 H2]. repeat split; cbn [update_error fst snd]; first [apply vmax_num; assumption|apply vmax_left; assumption]. Qed.
Lemma update_right e p : nums e -> nums p -> les p (update_error e p).
Proof. intros [H1 H2] [[x E] [y E']]. destruct p as [p1 p2]. cbn [fst snd] in *. subst. split; cbn [update_error fst snd]; apply vmax_right; assumption. Qed.
Definition update_block e (b : list value * list value) := update_error e (calc_error (fst b) (snd b) (length (snd b))).
Lemma blocks_grow l e : nums e -> nums (fold_left update_block l e) /\ les e (fold_left update_block l e).
Proof.
  revert e. induction l as [|p l IH]; intros e H; cbn [fold_left]; [split; [exact H|split; apply le_refl; apply H]|].
  destruct (update_grows e (calc_error (fst p) (snd p) (length (snd p))) H) as [N L]. destruct (IH _ N) as [N' L']. split; [exact N'|eapply les_trans; eassumption].
Qed.
Lemma blocks_entry l e b x r : nums e -> In b l -> In (Some x, Some r) (combine (fst b) (snd b)) -> les (entry_error x r) (fold_left update_block l e).
Proof.
  intros H I J. revert e H. induction l as [|p l IH]; intros e H; [destruct I|]. destruct I as [->|I]; cbn [fold_left].
  - eapply les_trans; [|apply blocks_grow; apply (update_grows e (calc_error (fst b) (snd b) (length (snd b)))); exact H].
    eapply les_trans; [|apply update_right; [exact H|apply fold_grows, zero_nums]].
    unfold calc_error. apply fold_entry; [exact zero_nums|]. rewrite firstn_all2; [exact J|]. rewrite combine_length. lia.
  - apply (IH I). apply update_grows. exact H.
Qed.
(** A class without a mark: every pair of numbers is within one of the two tolerances, or the reference is below 1e-15. *)
Theorem unmarked blocks : marked blocks = false -> forall b x r, In b blocks -> In (Some x, Some r) (combine (fst b) (snd b)) -> rnd_zero < Rabs r ->
  Rabs (x - r) <= / 10 ^ 14 \/ Rabs (x - r) <= / 10 ^ 8 * Rabs r.
Proof.
  intros M b x r I J Hr. destruct (blocks_entry blocks (Some 0, Some 0) b x r zero_nums I J) as [L1 L2]. unfold marked, bad in M. fold update_block in M.
  change (fun e b => update_error e (calc_error (fst b) (snd b) (length (snd b)))) with update_block in M.
  destruct (fold_left update_block blocks (Some 0, Some 0)) as [[e1|] [e2|]]; cbn [fst snd le entry_error] in *; try tauto.
  destruct (Rlt_dec rnd_zero (Rabs r)) as [_|N]; [|contradiction]. apply andb_false_iff in M. unfold vgt in M.
  assert (P : 0 < Rabs r) by (unfold rnd_zero in Hr; assert (0 < / 10 ^ 15) by (apply Rinv_0_lt_compat, pow_lt; lra); lra).
  destruct M as [M|M].
  - left. destruct (Rlt_dec (/ 10 ^ 14) e1); [discriminate M|]. lra.
  - right. destruct (Rlt_dec (/ 10 ^ 8) e2); [discriminate M|]. assert (Q : Rabs (Rabs (x - r) / r) <= / 10 ^ 8) by lra.
    unfold Rdiv in Q. rewrite Rabs_mult, Rabs_Rabsolu, Rabs_inv in Q. apply (Rmult_le_reg_r (/ Rabs r)); [apply Rinv_0_lt_compat, P|].
    rewrite Rmult_assoc, Rinv_r, Rmult_1_r by lra. exact Q.
Qed.
(** Entries that are all equal to the reference give no mark. *)
Theorem equal_unmarked blocks : (forall b, In b blocks -> exists l, b = (map Some l, map Some l)) -> marked blocks = false.
Proof.
  intros H. assert (E : fold_left update_block blocks (Some 0, Some 0) = (Some 0, Some 0)).
  { induction blocks as [|b l IH]; [reflexivity|]. cbn [fold_left]. destruct (H b (or_introl eq_refl)) as [u ->]. unfold update_block at 2. cbn [fst snd].
    rewrite no_error by reflexivity. unfold update_error, vmax, vgt. cbn [fst snd]. destruct (Rlt_dec 0 0); [lra|]. apply IH. intros b Hb. apply H. right. exact Hb. }
  unfold marked. change (fun e b => update_error e (calc_error (fst b) (snd b) (length (snd b)))) with update_block. rewrite E. unfold bad, vgt. cbn [fst snd].
  assert (0 < / 10 ^ 14) by (apply Rinv_0_lt_compat, pow_lt; lra). destruct (Rlt_dec (/ 10 ^ 14) 0); [lra|reflexivity].
Qed.

(** *** NaN *)
(** A kernel that only stores NaN is not marked, whatever the reference. *)
Lemma zero_zero : vgt (Some 0) (Some 0) = false.
Proof. unfold vgt. destruct (Rlt_dec 0 0); [lra|reflexivity]. Qed.
Lemma nan_rel r : rel_error None r = Some 0 \/ rel_error None r = None.
Proof. unfold rel_error. destruct (vgt (vabs r) (Some rnd_zero)); [right; destruct r; reflexivity|left; reflexivity]. Qed.
Lemma nan_step r : err_step (Some 0, Some 0) (None, r) = (Some 0, Some 0).
Proof.
  unfold err_step. cbn [fst snd]. change (vabs (vbin Rminus None r)) with (@None R).
  destruct (nan_rel r) as [->| ->]; [rewrite zero_zero|]; reflexivity.
Qed.
Theorem nan_unmarked blocks : (forall b, In b blocks -> exists n, fst b = repeat None n) -> marked blocks = false.
Proof.
  intros H. assert (E : fold_left update_block blocks (Some 0, Some 0) = (Some 0, Some 0)).
  { induction blocks as [|b l IH]; [reflexivity|]. cbn [fold_left]. destruct (H b (or_introl eq_refl)) as [n En].
    assert (C : forall k, calc_error (fst b) (snd b) k = (Some 0, Some 0)).
    { rewrite En. unfold calc_error. generalize (snd b). clear. induction n as [|n IH]; intros [|r ref] [|k]; cbn [repeat combine firstn fold_left]; try reflexivity.
      rewrite nan_step. apply IH. }
    unfold update_block at 2. rewrite C. unfold update_error, vmax, vgt. cbn [fst snd]. destruct (Rlt_dec 0 0); [lra|]. apply IH. intros b' Hb. apply H. right. exact Hb. }
  unfold marked. change (fun e b => update_error e (calc_error (fst b) (snd b) (length (snd b)))) with update_block. rewrite E. unfold bad, vgt. cbn [fst snd].
  assert (0 < / 10 ^ 14) by (apply Rinv_0_lt_compat, pow_lt; lra). destruct (Rlt_dec (/ 10 ^ 14) 0); [lra|reflexivity].
Qed.
(** Where the reference is 0 any value is accepted. *)
Theorem zero_unmarked x : marked [([Some x], [Some 0])] = false.
Proof.
  unfold marked. cbn [fold_left fst snd length]. unfold calc_error. cbn [firstn combine fold_left]. unfold err_step. cbn [fst snd].
  assert (Z : rel_error (vabs (vbin Rminus (Some x) (Some 0))) (Some 0) = Some 0).
  { unfold rel_error, vabs, vgt. cbn [option_map]. rewrite Rabs_R0. unfold rnd_zero. assert (0 < / 10 ^ 15) by (apply Rinv_0_lt_compat, pow_lt; lra). destruct (Rlt_dec (/ 10 ^ 15) 0); [lra|reflexivity]. }
  rewrite Z, zero_zero. unfold bad, update_error, vmax. cbn [fst snd]. rewrite zero_zero.
  assert (Y : vgt (Some 0) (Some (/ 10 ^ 8)) = false) by (unfold vgt; assert (0 < / 10 ^ 8) by (apply Rinv_0_lt_compat, pow_lt; lra); destruct (Rlt_dec (/ 10 ^ 8) 0); [lra|reflexivity]).
  rewrite Y. apply andb_false_r.
Qed.
(** Two entries, each within one of the tolerances, are marked together: the absolute error comes from the first, the relative
    error from the second. *)
Theorem mixed_marked : let x1 := 1 + / 10 ^ 13 in let x2 := / 10 ^ 14 + / 10 ^ 21 in let r2 := / 10 ^ 14 in
  marked [([Some x1], [Some 1])] = false /\ marked [([Some x2], [Some r2])] = false /\ marked [([Some x1; Some x2], [Some 1; Some r2])] = true.
Proof.
  assert (T : forall n, 0 < / 10 ^ n) by (intros n; apply Rinv_0_lt_compat, pow_lt; lra).
  assert (Ra : forall n, Rabs (/ 10 ^ n) = / 10 ^ n) by (intros n; apply Rabs_right; left; apply T).
  assert (D : forall v, vgt (Some v) (Some 0) = if Rlt_dec 0 v then true else false) by reflexivity.
  intros x1 x2 r2.
  assert (A1 : vabs (vbin Rminus (Some x1) (Some 1)) = Some (/ 10 ^ 13)).
  { unfold vabs, vbin. cbn [option_map]. replace (x1 - 1) with (/ 10 ^ 13) by (unfold x1; ring). rewrite Ra. reflexivity. }
  assert (A2 : vabs (vbin Rminus (Some x2) (Some r2)) = Some (/ 10 ^ 21)).
  { unfold vabs, vbin. cbn [option_map]. replace (x2 - r2) with (/ 10 ^ 21) by (unfold x2, r2; ring). rewrite Ra. reflexivity. }
  assert (B1 : rel_error (Some (/ 10 ^ 13)) (Some 1) = Some (/ 10 ^ 13)).
  { unfold rel_error, vabs, vgt, vbin. cbn [option_map]. rewrite Rabs_R1. unfold Rdiv. rewrite Rinv_1, Rmult_1_r, Ra. unfold rnd_zero. destruct (Rlt_dec (/ 10 ^ 15) 1); [reflexivity|exfalso; lra]. }
  assert (B2 : rel_error (Some (/ 10 ^ 21)) (Some r2) = Some (/ 10 ^ 7)).
  { unfold rel_error, vabs, vgt, vbin. cbn [option_map]. unfold r2. rewrite Ra. replace (/ 10 ^ 21 / / 10 ^ 14) with (/ 10 ^ 7) by (field; lra). rewrite Ra. unfold rnd_zero.
    destruct (Rlt_dec (/ 10 ^ 15) (/ 10 ^ 14)); [reflexivity|exfalso; lra]. }
  assert (G : forall u v, (v < u)%R -> vgt (Some u) (Some v) = true) by (intros u v H; unfold vgt; destruct (Rlt_dec v u); [reflexivity|contradiction]).
  assert (N : forall u v, (u <= v)%R -> vgt (Some u) (Some v) = false) by (intros u v H; unfold vgt; destruct (Rlt_dec v u); [exfalso; lra|reflexivity]).
  unfold marked. cbn [fold_left fst snd length]. unfold calc_error. cbn [firstn combine fold_left]. unfold err_step. cbn [fst snd].
  rewrite A1, A2, B1, B2. rewrite !(G _ 0) by apply T. cbn [fst snd]. rewrite (N (/ 10 ^ 21) (/ 10 ^ 13)) by lra. rewrite (G (/ 10 ^ 7) (/ 10 ^ 13)) by lra.
  unfold update_error, vmax. cbn [fst snd]. rewrite !(G _ 0) by apply T. unfold bad. cbn [fst snd].
  rewrite (N (/ 10 ^ 13) (/ 10 ^ 8)), (N (/ 10 ^ 21) (/ 10 ^ 14)), (G (/ 10 ^ 13) (/ 10 ^ 14)), (G (/ 10 ^ 7) (/ 10 ^ 8)) by lra.
  repeat split; reflexivity.
Qed.

(** *** More than one first shell in the derivative reference *)
Section Overlap.
Variable c52 : R.
Hypothesis H52 : c52 <> 0.
Local Notation w := (rk_w c52).
(** By symmetry the derivative with respect to the y coordinate vanishes. *)
Lemma rk_deriv_y : @eri_deriv Rcring Rinv exp sqrt boysR (/ 2) c52 (rk_A w) rk_B (rk_C w) (rk_C 1) CI DY OSFamily.q0 = 0.
Proof.
  unfold eri_deriv, over. change (sh_n (rk_A w)) with 1%nat. change (sh_n rk_B) with 1%nat. change (sh_n (rk_C w)) with 1%nat. change (sh_n (rk_C 1)) with 1%nat.
  cbn [seq map rsum fold_right]. unfold prim_deriv, prim_eri.
  set (a := prim (rk_A w) 0). set (b := prim rk_B 0). set (c := prim (rk_C w) 0). set (d := prim (rk_C 1) 0).
  pose proof (@moves_start Rcring (@eri_coefs Rcring Rinv (/ 2) a b c d) (@os_value Rcring (@eri_coefs Rcring Rinv (/ 2) a b c d) (@eri_start Rcring Rinv exp sqrt boysR c52 a b c d))
      (two * g_exp (pick a b c d CI))%r CI DY (@os_value_family _ _ _) 0) as M.
  unfold moves in M. unfold prim_deriv, prim_eri. cbn beta in *. flat. change (@c0 Rcring) with 0.
  match type of M with ?l = ?r => match goal with |- ?k * ?t + 0 + 0 + 0 + 0 = _ => change t with l end end. rewrite M. clear M.
  assert (Ep : @k_PA Rcring (@eri_coefs Rcring Rinv (/ 2) a b c d) CI DY = 0).
  { unfold a, b, c, d, eri_coefs, gcen, gp, prim, rk_A, rk_B, rk_C, rk_w. cbn [k_PA k_aPQ cside pick g_exp g_at sh_alpha sh_pos sh_coef idx_of_dir Nat.eqb]. flat. field. }
  assert (Eq : @k_aPQ Rcring (@eri_coefs Rcring Rinv (/ 2) a b c d) (cside CI) DY = 0).
  { unfold a, b, c, d, eri_coefs, gcen, rho, gp, prim, rk_A, rk_B, rk_C, rk_w. cbn [k_PA k_aPQ cside pick g_exp g_at sh_alpha sh_pos sh_coef idx_of_dir Nat.eqb]. flat. field. }
  rewrite Ep, Eq. flat. ring.
Qed.
(** For two first shells the second block lands on the second element of the first. *)
Theorem deriv_overlap junk k52 : c52 * c52 = k52 -> forall buf, (24 <= length buf)%nat ->
  exists b, valeev1 junk k52 boysR 2 1 1 1 (fun _ => rk_A w) (fun _ => rk_B) (fun _ => rk_C w) (fun _ => rk_C 1) (QAM 0 0 0 0) buf = Some b /\
    nth_error b 1 <> Some (@eri_deriv Rcring Rinv exp sqrt boysR (/ 2) c52 (rk_A w) rk_B (rk_C w) (rk_C 1) CI DY OSFamily.q0).
Proof.
  intros Hc buf Hb. unfold valeev1.
  destruct (@fill_overlap R (fun _ _ _ _ q => twelve (ref_moves junk k52 boysR (rk_A w) rk_B (rk_C w) (rk_C 1) q)) buf (fun _ _ _ _ _ => eq_refl) Hb) as (b & E & V).
  exists b. split; [exact E|]. rewrite V. cbn beta. rewrite rk_deriv_y. change (nth_error (twelve ?s) 0) with (Some (s CI DX)).
  assert (P : forall v, pos_exps (rk_A v) /\ pos_exps rk_B /\ pos_exps (rk_C v)) by (intros v; repeat split; intros i _; cbn; lra).
  assert (V0 : ref_moves junk k52 boysR (rk_A w) rk_B (rk_C w) (rk_C 1) OSFamily.q0 CI DX = - (exp (-2) / 4)).
  { etransitivity; [|apply (rk_deriv c52 H52)]. apply (@ref_moves_ok junk k52 c52 boysR Hc); [apply (P w)|apply (P w)|apply (P w)|apply (P 1)|apply (small1_class OSFamily.q0 (QAM 0 0 0 0)); [reflexivity|cbn; lia]]. }
  intros N. pose proof (exp_pos (-2)). assert (N' : Some (- (exp (-2) / 4)) = Some 0) by (rewrite <- V0; exact N). injection N' as N'. lra.
Qed.
End Overlap.

(** *** Example *)
(** Two ket shells: s functions at 0 and at x = 1. *)
Definition rt_shell (i : nat) : @shell Rcring := if (i =? 0)%nat then rk_C 1 else rk_A 2.
Lemma rt_example : (forall c, (qtotal c < 5)%nat -> dsetup_ok re_gen c) /\ e_o (g_E re_gen) = psi4 /\
  (forall w, pos_exps (rk_A w) /\ sh_n (rk_A w) = 1%nat) /\ pos_exps rk_B /\
  (forall m d t, (t < 4)%nat -> let ket := all_pairs 2 2 rt_shell rt_shell (fun t => (t =? 0)%nat || (t =? 3)%nat) m d in
     ps_same ket t = true -> ps_B ket t = ps_A ket t) /\
  map (fun t => ps_same (all_pairs 2 2 rt_shell rt_shell (fun t => (t =? 0)%nat || (t =? 3)%nat) NoScreen true) t) [0; 1; 2; 3]%nat = [true; false; false; true].
Proof.
  split; [exact rk_ok|]. split; [reflexivity|]. split; [intros w; split; [intros i _; cbn; lra|reflexivity]|]. split; [intros i _; cbn; lra|]. split; [|reflexivity].
  intros m d t Ht ket E. destruct t as [|[|[|[|t]]]]; try reflexivity; try discriminate E; lia.
Qed.
