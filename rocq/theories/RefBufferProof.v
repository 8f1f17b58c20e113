(** The buffers the tests compare: the reference's is the integrals of the shells, and so is the kernels'. *)
From Coq Require Import List Arith ZArith QArith Reals Lra Lia Bool.
Import ListNotations.
From Verif Require Import Base Cart QList HRRStep HRRAlgo HRRExec Mdir VRRStep VRRAlgo VRRExec Kernel KernelSpec Layout Create PairData Deriv DerivSpec OSFamily
  EndToEnd EndToEndProof DerivKernel DerivKernelProof Normalize BoysReal Reference ReferenceProof RefLoops RefBuffer.
From Verif Require RealUnique.
Local Open Scope R_scope.

Lemma fold_sum A (f : A -> R) l x : fold_left (fun s t => s + f t) l x = x + @rsum Rcring (map f l).
Proof.
  revert x. induction l as [|a l IH]; intros x; cbn [fold_left map]; [cbn; ring|]. rewrite IH.
  change (@rsum Rcring (f a :: map f l)) with (f a + @rsum Rcring (map f l)). ring.
Qed.
Definition small (q : qrt) : Prop := forall d, (gexp d (qa q) + gexp d (qb q) + gexp d (qc q) + gexp d (qd q) < 200)%nat.
Lemma quads_sum (A B C D : @shell Rcring) (f : nat -> nat -> nat -> nat -> R) :
  @rsum Rcring (map (fun t => f (fst (fst (fst t))) (snd (fst (fst t))) (snd (fst t)) (snd t)) (quads A B C D)) =
  @over Rcring A (fun i => @over Rcring B (fun j => @over Rcring C (fun k => @over Rcring D (fun l => f i j k l)))).
Proof.
  unfold quads, over. etransitivity; [apply (@rsum_flat_map Rcring)|]. apply rsum_map_ext. intros i _.
  etransitivity; [apply (@rsum_flat_map Rcring)|]. apply rsum_map_ext. intros j _.
  etransitivity; [apply (@rsum_flat_map Rcring)|]. apply rsum_map_ext. intros k _. rewrite map_map. reflexivity.
Qed.
Lemma over_ext (A : @shell Rcring) f g : (forall i, (i < sh_n A)%nat -> f i = g i) -> @over Rcring A f = @over Rcring A g.
Proof. intros E. unfold over. apply rsum_map_ext. intros i Hi. apply in_seq in Hi. apply E. lia. Qed.

Section Shells.
Variables (junk : nat -> R) (k52 c52 : R) (boys : nat -> R -> R).
Hypothesis Hc : c52 * c52 = k52.
Variables A B C D : @shell Rcring.
Hypothesis HA : pos_exps A.
Hypothesis HB : pos_exps B.
Hypothesis HC : pos_exps C.
Hypothesis HD : pos_exps D.
Local Notation P i j k l := (@prim_eri Rcring Rinv exp sqrt boys (/ 2) c52 (prim A i) (prim B j) (prim C k) (prim D l)).
Lemma ref4_ok i j k l q : (i < sh_n A)%nat -> (j < sh_n B)%nat -> (k < sh_n C)%nat -> (l < sh_n D)%nat -> small q ->
  ref4 junk k52 boys A B C D (i, j, k, l) q = P i j k l q.
Proof. intros Hi Hj Hk Hl Hq. unfold ref4. apply ref_eri_ok; try exact Hq; try exact Hc; [apply HA|apply HB|apply HC|apply HD]; assumption. Qed.
Theorem ref_int_ok q : small q -> ref_int junk k52 boys A B C D q = @eri Rcring Rinv exp sqrt boys (/ 2) c52 A B C D q.
Proof.
  intros Hq. unfold ref_int, eri. rewrite fold_sum, Rplus_0_l.
  set (f := fun i j k l => ref4 junk k52 boys A B C D (i, j, k, l) q * sh_coef A i * sh_coef B j * sh_coef C k * sh_coef D l).
  transitivity (@rsum Rcring (map (fun t => f (fst (fst (fst t))) (snd (fst (fst t))) (snd (fst t)) (snd t)) (quads A B C D))).
  { f_equal. apply map_ext. intros [[[i j] k] l]. reflexivity. }
  etransitivity; [exact (quads_sum A B C D f)|]. apply over_ext. intros i Hi. apply over_ext. intros j Hj. apply over_ext. intros k Hk. apply over_ext. intros l Hl.
  unfold f. rewrite ref4_ok by assumption. cbn [cmul Rcring]. generalize (P i j k l q). intros v. match goal with |- ?x = ?y => change (@eq R x y) end. cbn. ring.
Qed.

(** *** Derivatives *)
Definition small1 (q : qrt) : Prop := forall d, (gexp d (qa q) + gexp d (qb q) + gexp d (qc q) + gexp d (qd q) < 199)%nat.
Lemma small_raise x d q : small1 q -> small (craise x d q).
Proof.
  intros H i. specialize (H i). destruct q as [[] [] [] []], x, d, i; cbn in *; lia.
Qed.
Lemma small_lower x d q q' : small1 q -> clower x d q = Some q' -> small q'.
Proof.
  intros H E i. specialize (H i). unfold clower in E. destruct q as [a b c e].
  destruct x; cbn [cget qa qb qc qd] in E;
  [destruct a as [u v w]|destruct b as [u v w]|destruct c as [u v w]|destruct e as [u v w]];
  destruct d; cbn in E; [destruct u|destruct v|destruct w|destruct u|destruct v|destruct w|destruct u|destruct v|destruct w|destruct u|destruct v|destruct w];
  inversion E; subst; destruct i; cbn in *; lia.
Qed.
Lemma ref_move_ok i j k l x d q : (i < sh_n A)%nat -> (j < sh_n B)%nat -> (k < sh_n C)%nat -> (l < sh_n D)%nat -> small1 q ->
  ref_move junk k52 boys A B C D (i, j, k, l) x d q =
  @prim_deriv Rcring Rinv exp sqrt boys (/ 2) c52 (Rmult 2 (@g_exp Rcring (pick (prim A i) (prim B j) (prim C k) (prim D l) x))) (prim A i) (prim B j) (prim C k) (prim D l) x d q.
Proof.
  intros Hi Hj Hk Hl Hq. unfold ref_move, prim_deriv, minus_lowered. cbn zeta. rewrite ref4_ok by (try assumption; apply small_raise; assumption).
  generalize (P i j k l (craise x d q)). intros v.
  replace (ref_alpha A B C D (i, j, k, l) x) with (g_exp (pick (prim A i) (prim B j) (prim C k) (prim D l) x)) by (destruct x; reflexivity).
  generalize (g_exp (pick (prim A i) (prim B j) (prim C k) (prim D l) x)). intros e.
  destruct (clower x d q) as [q'|] eqn:E.
  - rewrite ref4_ok by (try assumption; eapply small_lower; eassumption). rewrite RealUnique.ofnat_INR. generalize (P i j k l q'). intros w.
    match goal with |- ?x = ?y => change (@eq R x y) end. cbn. ring.
  - match goal with |- ?x = ?y => change (@eq R x y) end. cbn. ring.
Qed.
(** Translational invariance of one primitive. *)
Lemma inv_prim i j k l d q : (i < sh_n A)%nat -> (j < sh_n B)%nat -> (k < sh_n C)%nat -> (l < sh_n D)%nat ->
  all4 (fun x => @prim_deriv Rcring Rinv exp sqrt boys (/ 2) c52 (Rmult 2 (@g_exp Rcring (pick (prim A i) (prim B j) (prim C k) (prim D l) x))) (prim A i) (prim B j) (prim C k) (prim D l) x d q) = 0.
Proof.
  intros Hi Hj Hk Hl. pose proof (HA i Hi) as Pa. pose proof (HB j Hj) as Pb. pose proof (HC k Hk) as Pc. pose proof (HD l Hl) as Pd.
  set (K := @eri_coefs Rcring Rinv (/ 2) (prim A i) (prim B j) (prim C k) (prim D l)).
  set (e := fun x : ctr => Rmult 2 (@g_exp Rcring (pick (prim A i) (prim B j) (prim C k) (prim D l) x))).
  assert (EX : @exps_ok Rcring K e).
  { unfold exps_ok, K, e, eri_coefs, rho, gcen, gp. cbn [k_PA k_aPQ k_h k_hpq k_a pick prim g_exp g_at].
    cbn [cadd cmul copp csub c0 c1 Rcring car]. cbn in Pa, Pb, Pc, Pd.
    generalize dependent (sh_alpha A i). generalize dependent (sh_alpha B j). generalize dependent (sh_alpha C k). generalize dependent (sh_alpha D l). cbn.
    intros p4 P4 p3 P3 p2 P2 p1 P1.
    repeat split; try intros dd; match goal with |- ?x = ?y => change (@eq R x y) end; unfold Rminus; field; lra. }
  pose proof (@prim_invariant Rcring K (@os_value Rcring K (@eri_start Rcring Rinv exp sqrt boys c52 (prim A i) (prim B j) (prim C k) (prim D l))) e d q (@os_value_family Rcring K _) EX) as I.
  unfold prim_deriv, all4 in *. change (fun x => @lowered Rcring (@os_value Rcring K (@eri_start Rcring Rinv exp sqrt boys c52 (prim A i) (prim B j) (prim C k) (prim D l)) 0) x d q)
    with (fun x => @minus_lowered Rcring (P i j k l) x d q) in I.
  cbv beta in I. fold (e CI) (e CJ) (e CK) (e CL).
  change (@os_value Rcring K (@eri_start Rcring Rinv exp sqrt boys c52 (prim A i) (prim B j) (prim C k) (prim D l)) 0) with (P i j k l) in I.
  change (@lowered Rcring (P i j k l)) with (@minus_lowered Rcring (P i j k l)) in I.
  generalize dependent (@minus_lowered Rcring (P i j k l)). generalize dependent (P i j k l). intros Pv ml I.
  cbn in I |- *. change (e CI) with (e CI : R) in *. lra.
Qed.
Lemma moves_fold q l : forall s, (forall d, s CL d = - (s CI d + s CJ d + s CK d)) ->
  (forall d, let r := fold_left (ref_step junk k52 boys A B C D q) l s in r CL d = - (r CI d + r CJ d + r CK d)) /\
  (forall x d, x <> CL -> fold_left (ref_step junk k52 boys A B C D q) l s x d =
     fold_left (fun v t => v + ref_move junk k52 boys A B C D t x d q * ref_pre A B C D t) l (s x d)).
Proof.
  induction l as [|t l IH]; intros s Hs; cbn [fold_left]; [split; [exact Hs|reflexivity]|].
  destruct (IH (ref_step junk k52 boys A B C D q s t)) as [I1 I2].
  { intros d. unfold ref_step. ring. }
  split; [exact I1|]. intros x d Hx. rewrite I2 by exact Hx. f_equal. unfold ref_step. destruct x; try reflexivity. congruence.
Qed.
Definition two_R : @two Rcring = (2 : R).
Proof. unfold two. cbn. ring. Qed.
Lemma moves_three x d q : small1 q -> x <> CL -> ref_moves junk k52 boys A B C D q x d = @eri_deriv Rcring Rinv exp sqrt boys (/ 2) c52 A B C D x d q.
Proof.
  intros Hq Hx. unfold ref_moves. destruct (moves_fold q (quads A B C D) (fun _ _ => 0)) as [_ M]; [intros; ring|]. rewrite (M x d Hx), fold_sum, Rplus_0_l.
  unfold eri_deriv. rewrite two_R.
  set (f := fun i j k l => ref_move junk k52 boys A B C D (i, j, k, l) x d q * (sh_coef A i * sh_coef B j * sh_coef C k * sh_coef D l)).
  transitivity (@rsum Rcring (map (fun t => f (fst (fst (fst t))) (snd (fst (fst t))) (snd (fst t)) (snd t)) (quads A B C D))).
  { f_equal. apply map_ext. intros [[[i j] k] l]. reflexivity. }
  etransitivity; [exact (quads_sum A B C D f)|]. apply over_ext. intros i Hi. apply over_ext. intros j Hj. apply over_ext. intros k Hk. apply over_ext. intros l Hl.
  unfold f. rewrite ref_move_ok by assumption. cbn [cmul Rcring]. match goal with |- ?v * _ = _ => generalize v end. intros v.
  match goal with |- ?x = ?y => change (@eq R x y) end. cbn. ring.
Qed.
Lemma over_add (E : @shell Rcring) f g : @over Rcring E (fun i => f i + g i) = @over Rcring E f + @over Rcring E g.
Proof. unfold over. exact (@rsum_map_add Rcring _ f g _). Qed.
Lemma over_zero (E : @shell Rcring) f : (forall i, (i < sh_n E)%nat -> f i = 0) -> @over Rcring E f = 0.
Proof. intros H. unfold over. apply (@rsum_map_zero Rcring). intros i Hi. apply in_seq in Hi. apply H. lia. Qed.
Lemma deriv_sum d q : all4 (fun x => @eri_deriv Rcring Rinv exp sqrt boys (/ 2) c52 A B C D x d q) = 0.
Proof.
  unfold all4, eri_deriv. rewrite two_R. cbn [cadd Rcring].
  rewrite <- !over_add. apply over_zero. intros i Hi. rewrite <- !over_add. apply over_zero. intros j Hj. rewrite <- !over_add. apply over_zero. intros k Hk.
  rewrite <- !over_add. apply over_zero. intros l Hl. pose proof (inv_prim i j k l d q Hi Hj Hk Hl) as I. unfold all4 in I. cbn [cadd cmul Rcring] in *.
  match goal with |- ?c * ?p1 + _ * ?p2 + _ * ?p3 + _ * ?p4 = 0 => transitivity (c * (p1 + p2 + p3 + p4)) end; [|rewrite I; cbn; ring].
  repeat match goal with |- context [prim_deriv ?a ?b ?c ?d ?e ?f ?g ?h ?i ?j ?k ?l ?m ?n] => let v := fresh in set (v := prim_deriv a b c d e f g h i j k l m n) end.
  match goal with |- ?x = ?y => change (@eq R x y) end. cbn. ring.
Qed.
Theorem ref_moves_ok x d q : small1 q -> ref_moves junk k52 boys A B C D q x d = @eri_deriv Rcring Rinv exp sqrt boys (/ 2) c52 A B C D x d q.
Proof.
  intros Hq. destruct (ctr_eq_dec x CL) as [->|Hx]; [|apply moves_three; assumption].
  pose proof (deriv_sum d q) as Z. unfold all4 in Z. cbn [cadd Rcring] in Z.
  destruct (moves_fold q (quads A B C D) (fun _ _ => 0)) as [M _]; [intros; ring|]. specialize (M d). cbv zeta in M. fold (ref_moves junk k52 boys A B C D q) in M.
  rewrite M, !moves_three by (try assumption; discriminate). cbn in Z |- *. lra.
Qed.
End Shells.

(** *** The buffers *)
Lemma small_class q c : qclass q = c -> (qtotal c < 200)%nat -> small q.
Proof. intros <- H d. unfold qtotal in H. destruct q as [[] [] [] []], d; cbn in *; lia. Qed.
Lemma small1_class q c : qclass q = c -> (qtotal c < 199)%nat -> small1 q.
Proof. intros <- H d. unfold qtotal in H. destruct q as [[] [] [] []], d; cbn in *; lia. Qed.
Theorem valeev0_ok junk k52 c52 boys : c52 * c52 = k52 -> forall nA nB nC nD (A B C D : nat -> @shell Rcring) c,
  (forall i, (i < nA)%nat -> pos_exps (A i)) -> (forall i, (i < nB)%nat -> pos_exps (B i)) -> (forall i, (i < nC)%nat -> pos_exps (C i)) -> (forall i, (i < nD)%nat -> pos_exps (D i)) ->
  (qtotal c < 200)%nat -> forall buf, (nA * nB * nC * nD * qncart c <= length buf)%nat ->
  exists b, valeev0 junk k52 boys nA nB nC nD A B C D c buf = Some b /\ length b = length buf /\
    (forall i j k l q, (i < nA)%nat -> (j < nB)%nat -> (k < nC)%nat -> (l < nD)%nat -> qclass q = c ->
      nth_error b ((((i * nB + j) * nC + k) * nD + l) * qncart c + qindex psi4 q)%nat = Some (@eri Rcring Rinv exp sqrt boys (/ 2) c52 (A i) (B j) (C k) (D l) q)) /\
    (forall y, (nA * nB * nC * nD * qncart c <= y)%nat -> nth_error b y = nth_error buf y).
Proof.
  intros Hc nA nB nC nD A B C D c PA PB PC PD Hs buf Hl. unfold valeev0.
  destruct (@fill_ok R nA nB nC nD c 1 (fun i j k l q => [ref_int junk k52 boys (A i) (B j) (C k) (D l) q]) (fun _ _ _ _ _ => eq_refl) (or_introl eq_refl) buf) as (b & E & L & V & O); [rewrite Nat.mul_1_r; exact Hl|].
  exists b. split; [exact E|]. split; [exact L|]. split.
  - intros i j k l q Hi Hj Hk Hl' Hq. pose proof (V i j k l q 0%nat Hi Hj Hk Hl' Hq ltac:(lia)) as V0. rewrite Nat.mul_1_r, Nat.add_0_r in V0. rewrite V0. refine (f_equal (@Some R) _).
    apply ref_int_ok; auto. eapply small_class; eassumption.
  - intros y Hy. apply O. rewrite Nat.mul_1_r. exact Hy.
Qed.
Lemma twelve_len s : length (twelve s) = 12%nat.
Proof. reflexivity. Qed.
Lemma twelve_at s x d : nth_error (twelve s) (3 * cidx x + idx_of_dir d) = Some (s x d).
Proof. destruct x, d; reflexivity. Qed.
Theorem valeev1_ok junk k52 c52 boys : c52 * c52 = k52 -> forall nA nB nC nD (A B C D : nat -> @shell Rcring) c, (nA <= 1)%nat ->
  (forall i, (i < nA)%nat -> pos_exps (A i)) -> (forall i, (i < nB)%nat -> pos_exps (B i)) -> (forall i, (i < nC)%nat -> pos_exps (C i)) -> (forall i, (i < nD)%nat -> pos_exps (D i)) ->
  (qtotal c < 199)%nat -> forall buf, (nA * nB * nC * nD * qncart c * 12 <= length buf)%nat ->
  exists b, valeev1 junk k52 boys nA nB nC nD A B C D c buf = Some b /\ length b = length buf /\
    (forall i j k l q x d, (i < nA)%nat -> (j < nB)%nat -> (k < nC)%nat -> (l < nD)%nat -> qclass q = c ->
      nth_error b (((((i * nB + j) * nC + k) * nD + l) * qncart c + qindex psi4 q) * 12 + (3 * cidx x + idx_of_dir d))%nat =
      Some (@eri_deriv Rcring Rinv exp sqrt boys (/ 2) c52 (A i) (B j) (C k) (D l) x d q)) /\
    (forall y, (nA * nB * nC * nD * qncart c * 12 <= y)%nat -> nth_error b y = nth_error buf y).
Proof.
  intros Hc nA nB nC nD A B C D c H1 PA PB PC PD Hs buf Hl. unfold valeev1.
  destruct (@fill_ok R nA nB nC nD c 12 (fun i j k l q => twelve (ref_moves junk k52 boys (A i) (B j) (C k) (D l) q)) (fun _ _ _ _ _ => eq_refl) (or_intror H1) buf Hl) as (b & E & L & V & O).
  exists b. split; [exact E|]. split; [exact L|]. split; [|exact O].
  intros i j k l q x d Hi Hj Hk Hl' Hq. rewrite (V i j k l q (3 * cidx x + idx_of_dir d)%nat) by (try assumption; destruct x, d; cbn; lia).
  rewrite twelve_at. refine (f_equal (@Some R) _). apply ref_moves_ok; auto. eapply small1_class; eassumption.
Qed.

(** *** The pairs *)
Lemma ab_array_at na nb (A B : nat -> @shell Rcring) i j : (i < na)%nat -> (j < nb)%nat ->
  nth_error (ab_array na nb A B) (2 * (i * nb + j)) = Some (A i) /\ nth_error (ab_array na nb A B) (2 * (i * nb + j) + 1) = Some (B j).
Proof.
  intros Hi Hj. unfold ab_array.
  assert (F : forall y, (y < 2)%nat -> nth_error (flat_map (fun i => flat_map (fun j => [A i; B j]) (seq 0 nb)) (seq 0 na)) (2 * (i * nb + j) + y) = nth_error [A i; B j] y).
  { intros y Hy. replace (2 * (i * nb + j) + y)%nat with (i * (nb * 2) + (j * 2 + y))%nat by lia.
    rewrite (nth_error_flat_map_const _ _ (k := (nb * 2)%nat)) with (a := i); [| |nia|rewrite nth_error_seq by lia; reflexivity].
    2:{ intros a _. rewrite (@length_flat_map_const _ _ _ (seq 0 nb) 2) by reflexivity. rewrite seq_length. reflexivity. }
    rewrite (nth_error_flat_map_const _ _ (k := 2%nat)) with (a := j); [reflexivity|reflexivity|exact Hy|rewrite nth_error_seq by lia; reflexivity]. }
  split; [rewrite <- (Nat.add_0_r (2 * _)), (F 0%nat) by lia; reflexivity|rewrite (F 1%nat) by lia; reflexivity].
Qed.
Lemma all_pairs_ok na nb A B same m der t : (t < na * nb)%nat ->
  nth_error (ab_array na nb A B) (2 * t) = Some (ps_A (all_pairs na nb A B same m der) t) /\
  nth_error (ab_array na nb A B) (2 * t + 1) = Some (ps_B (all_pairs na nb A B same m der) t).
Proof.
  intros Ht. assert (Hn : nb <> 0%nat) by nia. cbn [all_pairs ps_A ps_B].
  pose proof (Nat.div_mod t nb Hn) as E. assert (E' : t = (t / nb * nb + t mod nb)%nat) by lia.
  destruct (ab_array_at na nb A B (t / nb) (t mod nb)) as [E1 E2]; [apply Nat.div_lt_upper_bound; lia|apply Nat.mod_upper_bound; exact Hn|].
  rewrite <- E' in E1, E2. split; assumption.
Qed.

(** *** The comparison *)
Lemma err_none e v : e = (Some 0, Some 0) -> err_step e (Some v, Some v) = (Some 0, Some 0).
Proof.
  intros ->. unfold err_step, rel_error, vbin, vabs, vgt. cbn [option_map fst snd]. rewrite Rminus_diag_eq by reflexivity. rewrite Rabs_R0.
  destruct (Rlt_dec 0 0) as [L|_]; [lra|]. destruct (Rlt_dec rnd_zero (Rabs v)) as [L|_]; cbn.
  - unfold Rdiv. rewrite Rmult_0_l, Rabs_R0. destruct (Rlt_dec 0 0); [lra|reflexivity].
  - destruct (Rlt_dec 0 0); [lra|reflexivity].
Qed.
Lemma no_error (calc ref : list R) n : (forall y, (y < n)%nat -> nth_error calc y = nth_error ref y) -> calc_error (map Some calc) (map Some ref) n = (Some 0, Some 0).
Proof.
  unfold calc_error. revert n ref. induction calc as [|v calc IH]; intros n ref H; [destruct n; reflexivity|].
  destruct n as [|n]; [reflexivity|]. destruct ref as [|r ref]; [reflexivity|]. cbn [map combine firstn fold_left].
  assert (E : v = r) by (specialize (H 0%nat ltac:(lia)); cbn in H; congruence). subst r. rewrite err_none by reflexivity. apply IH.
  intros y Hy. exact (H (S y) ltac:(lia)).
Qed.
Lemma read_at n nD c y : (y < n * nD * qncart c)%nat -> exists k l q, (k < n)%nat /\ (l < nD)%nat /\ qclass q = c /\ y = ((k * nD + l) * qncart c + qindex psi4 q)%nat.
Proof.
  intros Hy. assert (Hq : qncart c <> 0%nat) by nia. assert (HD : nD <> 0%nat) by nia.
  pose proof (Nat.div_mod y (qncart c) Hq) as E. pose proof (Nat.mod_upper_bound y (qncart c) Hq) as M.
  destruct (@qindex_surj psi4 c (y mod qncart c) M) as (q & Eq & Iq). set (t := (y / qncart c)%nat) in *.
  assert (Ht : (t < n * nD)%nat) by (unfold t; apply Nat.div_lt_upper_bound; [exact Hq|lia]).
  pose proof (Nat.div_mod t nD HD) as E2. exists (t / nD)%nat, (t mod nD)%nat, q. split; [apply Nat.div_lt_upper_bound; lia|].
  split; [apply Nat.mod_upper_bound; exact HD|]. split; [exact Eq|]. rewrite Iq. replace (t / nD * nD + t mod nD)%nat with t by lia. lia.
Qed.
(** *** The two tests *)
Lemma none_fits len nss n (pr : nat -> spair) : (0 < len)%nat -> (0 < nss)%nat -> (forall t, (t < n)%nat -> sp_wf (pr t)) -> screen_fits len nss NoScreen n pr.
Proof.
  intros Hl Hn Hw t Ht. cbn [screen_extent]. pose proof (@st_alloc len nss n pr Hl Hn Hw t Ht). lia.
Qed.
Section Tests.
Variables (junk : nat -> R) (k52 c52 : R) (boys : nat -> R -> R).
Hypothesis Hc : c52 * c52 = k52.
Variables (A B : @shell Rcring) (nC nD : nat) (C D : nat -> @shell Rcring) (sb sk : nat -> bool) (der : bool).
Let bra := all_pairs 1 1 (fun _ => A) (fun _ => B) sb NoScreen der.
Let ket := all_pairs nC nD C D sk NoScreen der.
Hypothesis PA : pos_exps A.
Hypothesis PB : pos_exps B.
Hypothesis PC : forall i, (i < nC)%nat -> pos_exps (C i).
Hypothesis PD : forall i, (i < nD)%nat -> pos_exps (D i).
Hypothesis NA : (0 < sh_n A)%nat.
Hypothesis NB : (0 < sh_n B)%nat.
Hypothesis NC : forall i, (i < nC)%nat -> (0 < sh_n (C i))%nat.
Hypothesis ND : forall i, (i < nD)%nat -> (0 < sh_n (D i))%nat.
Hypothesis Sb : forall t, (t < ps_n bra)%nat -> ps_same bra t = true -> ps_B bra t = ps_A bra t.
Hypothesis Sk : forall t, (t < ps_n ket)%nat -> ps_same ket t = true -> ps_B ket t = ps_A ket t.
Lemma np_pos n1 n2 s : (0 < n1)%nat -> (0 < n2)%nat -> (0 < sp_np (SP n1 n2 s))%nat.
Proof.
  intros H1 H2. unfold sp_np. cbn [sp_n1 sp_n2 sp_same]. destruct s; [|nia].
  apply Nat.div_str_pos. split; [lia|]. nia.
Qed.
Lemma wf_pairs (S : @pairs Rcring) : (forall t, (t < ps_n S)%nat -> ps_same S t = true -> ps_B S t = ps_A S t) -> forall t, (t < ps_n S)%nat -> sp_wf (ps_pr S t).
Proof. intros H t Ht E. cbn in *. rewrite (H t Ht E). reflexivity. Qed.
Lemma ket_div t : (t < nC * nD)%nat -> (t / nD < nC /\ t mod nD < nD)%nat.
Proof. intros H. assert (nD <> 0)%nat by nia. split; [apply Nat.div_lt_upper_bound; lia|apply Nat.mod_upper_bound; assumption]. Qed.
Lemma bra_np t : (t < ps_n bra)%nat -> (0 < sp_np (ps_pr bra t))%nat.
Proof. intros Ht. apply np_pos; assumption. Qed.
Lemma ket_np t : (t < ps_n ket)%nat -> (0 < sp_np (ps_pr ket t))%nat.
Proof. intros Ht. cbn in Ht. destruct (ket_div t Ht). apply np_pos; [apply NC|apply ND]; assumption. Qed.
Lemma aligned1 len nss scr mx : (0 < nss)%nat -> bra_aligned len nss (batch_of bra 1 scr mx).
Proof. intros Hn gg Hg. cbn in Hg. lia. Qed.
Lemma pair_of k l : (l < nD)%nat -> ((k * nD + l) / nD = k /\ (k * nD + l) mod nD = l)%nat.
Proof.
  intros Hl. assert (nD <> 0)%nat by lia. split; [rewrite Nat.div_add_l by assumption; rewrite Nat.div_small by exact Hl; lia|].
  rewrite Nat.add_comm, Nat.mod_add by assumption. apply Nat.mod_small, Hl.
Qed.
(** What test_eri does for one pair of bra shells: no error is found. *)
Theorem test_eri_ok (g : @gen Rcring) c : setup_ok g c -> e_o (g_E g) = psi4 -> (qtotal c < 200)%nat ->
  forall kd len nss, kind_len kd len -> (0 < nss)%nat -> Nat.divide len nss ->
  forall kfb kfk scrb scrk mxb mxk zf out buf, (nC * nD * qncart c <= length out)%nat -> (nC * nD * qncart c <= length buf)%nat ->
  exists mb mk d b, ps_create len nss bra kfb = Some mb /\ ps_create len nss ket kfk = Some mk /\
    @whole_kernel Rcring Rinv exp sqrt boys (/ 2) c52 g c kd len nss bra ket mb mk (batch_of bra 1 scrb mxb) (batch_of ket (nC * nD) scrk mxk) 0 zf out = Some (d, nC * nD)%nat /\
    valeev0 junk k52 boys 1 1 nC nD (fun _ => A) (fun _ => B) C D c buf = Some b /\
    calc_error (map Some d) (map Some b) (nC * nD * qncart c) = (Some 0, Some 0).
Proof.
  intros Hg Ho Hs kd len nss Hk Hn Hd kfb kfk scrb scrk mxb mxk zf out buf Lo Lb.
  pose proof (kind_len_pos kd len Hk) as Hl.
  destruct (@kernel_created Rcring Rinv exp sqrt boys (/ 2) c52 g c Hg kd len nss Hk Hn Hd bra ket Sb Sk
    (none_fits len nss _ _ Hl Hn (wf_pairs bra Sb)) (none_fits len nss _ _ Hl Hn (wf_pairs ket Sk)) bra_np ket_np kfb kfk 1%nat (nC * nD)%nat scrb scrk mxb mxk 0%Q zf out)
    as (mb & mk & d & Eb & Ek & Er & Ld & V & _); [cbn; lia|cbn; lia|apply Qle_refl|apply aligned1; exact Hn|rewrite Nat.mul_1_l; exact Lo|].
  destruct (@valeev0_ok junk k52 c52 boys Hc 1%nat 1%nat nC nD (fun _ => A) (fun _ => B) C D c (fun _ _ => PA) (fun _ _ => PB) PC PD Hs buf) as (b & Ev & _ & W & _); [rewrite !Nat.mul_1_l; exact Lb|].
  exists mb, mk, d, b. split; [exact Eb|]. split; [exact Ek|]. split; [rewrite Nat.mul_1_l in Er; exact Er|]. split; [exact Ev|].
  apply no_error. intros y Hy. destruct (read_at nC nD c y Hy) as (k & l & q & Hk' & Hl' & Hq & ->). rewrite Ho in V.
  assert (Hkl : (k * nD + l < nC * nD)%nat) by nia.
  pose proof (V 0%nat (k * nD + l)%nat q ltac:(lia) Hkl Hq) as V0. pose proof (W 0%nat 0%nat k l q ltac:(lia) ltac:(lia) Hk' Hl' Hq) as W0.
  cbn [Nat.mul Nat.add] in V0, W0. etransitivity; [exact V0|]. symmetry. etransitivity; [exact W0|].
  cbn [bra ket all_pairs ps_A ps_B]. destruct (pair_of k l Hl') as [E1 E2]. unfold bra, ket. cbn [all_pairs ps_A ps_B]. rewrite E1, E2. reflexivity.
Qed.
(** The same for test_eri_deriv1. *)
Theorem test_deriv_ok (g : @gen Rcring) c : der = true -> dsetup_ok g c -> (qtotal c < 199)%nat ->
  forall kd len nss, kind_len kd len -> (0 < nss)%nat -> Nat.divide len nss ->
  forall kfb kfk scrb scrk mxb mxk zf out buf, (nC * nD * (12 * qncart c) <= length out)%nat -> (nC * nD * (12 * qncart c) <= length buf)%nat ->
  exists mb mk d b, ps_create len nss bra kfb = Some mb /\ ps_create len nss ket kfk = Some mk /\
    @whole_deriv Rcring Rinv exp sqrt boys (/ 2) c52 g c kd len nss bra ket mb mk (batch_of bra 1 scrb mxb) (batch_of ket (nC * nD) scrk mxk) 0 zf out = Some (d, nC * nD)%nat /\
    valeev1 junk k52 boys 1 1 nC nD (fun _ => A) (fun _ => B) C D c buf = Some b /\
    calc_error (map Some d) (map Some b) (nC * nD * (12 * qncart c)) = (Some 0, Some 0).
Proof.
  intros Hder Hg Hs kd len nss Hk Hn Hd kfb kfk scrb scrk mxb mxk zf out buf Lo Lb.
  pose proof (kind_len_pos kd len Hk) as Hl.
  assert (H2 : @cmul Rcring two (/ 2) = @c1 Rcring) by (rewrite two_R; cbn; field).
  assert (Hdv : forall ab cd, (ab < ps_n bra)%nat -> (cd < ps_n ket)%nat -> @divisible Rcring Rinv (ps_A bra ab) (ps_B bra ab) (ps_A ket cd) (ps_B ket cd)).
  { intros ab cd _ Hcd i j k l Hi Hj Hk' Hl'. cbn in Hcd. destruct (ket_div cd Hcd) as [D1 D2].
    pose proof (PA i Hi). pose proof (PB j Hj). pose proof (PC _ D1 k Hk'). pose proof (PD _ D2 l Hl'). unfold invertible. cbn in *. repeat split; apply Rinv_r; lra. }
  destruct (@deriv_created Rcring Rinv exp sqrt boys (/ 2) c52 g c Hg kd len nss Hk Hn Hd H2 bra ket Hder Hder Sb Sk
    (none_fits len nss _ _ Hl Hn (wf_pairs bra Sb)) (none_fits len nss _ _ Hl Hn (wf_pairs ket Sk)) bra_np ket_np Hdv kfb kfk 1%nat (nC * nD)%nat scrb scrk mxb mxk 0%Q zf out)
    as (mb & mk & d & Eb & Ek & Er & Ld & V & _); [cbn; lia|cbn; lia|apply Qle_refl|apply aligned1; exact Hn|rewrite Nat.mul_1_l; exact Lo|].
  destruct (@valeev1_ok junk k52 c52 boys Hc 1%nat 1%nat nC nD (fun _ => A) (fun _ => B) C D c (le_n 1) (fun _ _ => PA) (fun _ _ => PB) PC PD Hs buf) as (b & Ev & _ & W & _).
  { rewrite !Nat.mul_1_l. replace (nC * nD * qncart c * 12)%nat with (nC * nD * (12 * qncart c))%nat by ring. exact Lb. }
  exists mb, mk, d, b. split; [exact Eb|]. split; [exact Ek|]. split; [rewrite Nat.mul_1_l in Er; exact Er|]. split; [exact Ev|].
  apply no_error. intros y Hy. pose proof (Nat.div_mod y 12 ltac:(lia)) as Ey. pose proof (Nat.mod_upper_bound y 12 ltac:(lia)) as My.
  destruct (read_at nC nD c (y / 12)) as (k & l & q & Hk' & Hl' & Hq & Eyq); [apply Nat.div_lt_upper_bound; lia|].
  assert (Ex : exists x dd, (y mod 12 = 3 * cidx x + idx_of_dir dd)%nat).
  { destruct (y mod 12) as [|[|[|[|[|[|[|[|[|[|[|[|m]]]]]]]]]]]]; [exists CI, DX|exists CI, DY|exists CI, DZ|exists CJ, DX|exists CJ, DY|exists CJ, DZ|exists CK, DX|exists CK, DY|exists CK, DZ|exists CL, DX|exists CL, DY|exists CL, DZ|lia]; reflexivity. }
  destruct Ex as (x & dd & Ex).
  assert (Hkl : (k * nD + l < nC * nD)%nat) by nia.
  pose proof (V 0%nat (k * nD + l)%nat q x dd ltac:(lia) Hkl Hq) as V0. pose proof (W 0%nat 0%nat k l q x dd ltac:(lia) ltac:(lia) Hk' Hl' Hq) as W0.
  replace y with (12 * (y / 12) + (3 * cidx x + idx_of_dir dd))%nat by lia.
  etransitivity; [|etransitivity; [exact V0|]].
  - match goal with |- nth_error _ ?a = nth_error _ ?b => replace a with b by (rewrite Eyq; ring); reflexivity end.
  - symmetry. etransitivity; [|etransitivity; [exact W0|]].
    + match goal with |- nth_error _ ?a = nth_error _ ?b => replace a with b by (rewrite Eyq; ring); reflexivity end.
    + unfold bra, ket. cbn [all_pairs ps_A ps_B Nat.mul Nat.add]. destruct (pair_of k l Hl') as [E1 E2]. rewrite E1, E2. reflexivity.
Qed.
End Tests.
