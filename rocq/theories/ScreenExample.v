(** Cases for [Prop_Screen]: external functions for which every charge combination has a nonnegative energy, a
    screened kernel over the rationals, and fast screening values that are too small. *)
From Coq Require Import List Arith ZArith Lia Bool Ring QArith Qcanon Permutation.
Import ListNotations.
From Verif Require Import Base Simd Cart QList Tables Mdir Contract Offsets Starts Kernel HRRStep HRRAlgo HRROrder GenHRR HRRExec HRRExample
  VRRStep VRRAlgo VRROrder VRRExec VRRExecSpec VRRExecExample KernelSpec Layout Create PairData Recur Deriv DerivSpec DerivExample OSFamily Work OrdRing EndToEnd EndToEndProof Screen ScreenProof.
Set Implicit Arguments.
Local Open Scope nat_scope.

(** ** Energies that are products *)
Section RankOne.
Context {R : cring}.
Add Ring Rring_r1 : (cth R).
Variables (inv expf : R -> R) (half sqrt2pi52 : R).
Local Open Scope r_scope.
Definition r1_sqrt (_ : R) : R := c1.
Definition r1_boys (n : nat) (_ : R) : R := match n with 0%nat => c1 | _ => c0 end.
Local Notation PERI := (prim_eri inv expf r1_sqrt r1_boys half sqrt2pi52).
Definition r1_coef (a b : @EndToEnd.gauss R) : @vcoef R :=
  VC (fun x i => match x with CI => gcen inv a b i - g_at a i | CJ => gcen inv a b i - g_at b i | _ => c0 end) (fun _ _ => c0)
     (fun s => match s with SB => half * inv (gp a b) | SK => c0 end) (fun _ => c0) c0.
Definition r1_start (a b : @EndToEnd.gauss R) (n : nat) : R := match n with 0%nat => sqrt2pi52 * inv (gp a b) * overlap_exp inv expf a b | _ => c0 end.
Definition r1_factor (a b : @EndToEnd.gauss R) (i j : Cart.gauss) : R := os_value (r1_coef a b) (r1_start a b) 0 (Q4 i j g0 g0).
Lemma r1_eri a b c d q : PERI a b c d q = r1_factor a b (qa q) (qb q) * r1_factor c d (qc q) (qd q).
Proof.
  unfold prim_eri.
  set (W := fun (N : nat) (q : qrt) => match N with 0%nat => r1_factor a b (qa q) (qb q) * r1_factor c d (qc q) (qd q) | _ => c0 end).
  change (os_value (eri_coefs inv half a b c d) (eri_start inv expf r1_sqrt r1_boys sqrt2pi52 a b c d) 0 q = W 0%nat q).
  apply (@os_family_unique R (eri_coefs inv half a b c d)).
  - apply os_value_family.
  - intros x i m p s. destruct m as [|m].
    2:{ unfold W, same_side_term, other_side_term.
        repeat match goal with |- context [match clower ?f ?j ?r with _ => _ end] => destruct (clower f j r) end; ring. }
    assert (Fl : forall (a b : @EndToEnd.gauss R) (g h : Cart.gauss),
      r1_factor a b (up i g) h = (gcen inv a b i - g_at a i) * r1_factor a b g h +
        match down i g with Some g' => ofnat (gexp i g) * (half * inv (gp a b)) * r1_factor a b g' h | None => c0 end +
        match down i h with Some h' => ofnat (gexp i h) * (half * inv (gp a b)) * r1_factor a b g h' | None => c0 end).
    { intros a' b' g h. unfold r1_factor.
      pose proof (@os_value_family R (r1_coef a' b') (r1_start a' b') CI i 0%nat (Q4 g h g0 g0)) as F. cbv zeta in F.
      unfold craise, same_side_term, other_side_term, clower in F. cbn [cside lefts rights other cget cset qa qb qc qd r1_coef k_PA k_aPQ k_h k_a k_hpq] in F.
      rewrite F. replace (down i g0) with (@None Cart.gauss) by (destruct i; reflexivity). destruct (down i g), (down i h); ring. }
    assert (Fr : forall (a b : @EndToEnd.gauss R) (g h : Cart.gauss),
      r1_factor a b g (up i h) = (gcen inv a b i - g_at b i) * r1_factor a b g h +
        match down i g with Some g' => ofnat (gexp i g) * (half * inv (gp a b)) * r1_factor a b g' h | None => c0 end +
        match down i h with Some h' => ofnat (gexp i h) * (half * inv (gp a b)) * r1_factor a b g h' | None => c0 end).
    { intros a' b' g h. unfold r1_factor.
      pose proof (@os_value_family R (r1_coef a' b') (r1_start a' b') CJ i 0%nat (Q4 g h g0 g0)) as F. cbv zeta in F.
      unfold craise, same_side_term, other_side_term, clower in F. cbn [cside lefts rights other cget cset qa qb qc qd r1_coef k_PA k_aPQ k_h k_a k_hpq] in F.
      rewrite F. replace (down i g0) with (@None Cart.gauss) by (destruct i; reflexivity). destruct (down i g), (down i h); ring. }
    unfold W, same_side_term, other_side_term, clower, craise.
    destruct x; subst s; cbn [cside lefts rights other cget cset qa qb qc qd eri_coefs k_PA k_aPQ k_h k_a k_hpq]; cbv zeta;
      rewrite ?Fl, ?Fr;
      destruct (down i (qa p)), (down i (qb p)), (down i (qc p)), (down i (qd p)); cbn [qa qb qc qd cget cset]; ring.
  - intros N. rewrite os_value_start. unfold W, r1_factor. destruct N as [|N]; cbn [qa qb qc qd q0].
    + change (Q4 (G 0 0 0) (G 0 0 0) g0 g0) with q0. rewrite !os_value_start. unfold eri_start, r1_sqrt, r1_boys, r1_start. ring.
    + unfold eri_start, r1_boys. ring.
Qed.
Variable O : ordered R.
Theorem r1_repulsive : repulsive O inv expf r1_sqrt r1_boys half sqrt2pi52.
Proof.
  intros l _. set (F := fun p : R * @charge R => fst p * r1_factor (ch_a (snd p)) (ch_b (snd p)) (ch_i (snd p)) (ch_j (snd p))).
  replace (rsum (map (fun p => rsum (map (fun q => fst p * fst q * repulsion inv expf r1_sqrt r1_boys half sqrt2pi52 (snd p) (snd q)) l)) l))
    with (rsum (map F l) * rsum (map F l)); [apply sq_pos|].
  rewrite <- rsum_map_scale. apply rsum_map_ext. intros p _.
  transitivity (F p * rsum (map F l)); [ring|]. rewrite <- rsum_map_scale. apply rsum_map_ext. intros q _.
  unfold repulsion. rewrite r1_eri. unfold F. cbn [qa qb qc qd]. ring.
Qed.
End RankOne.

(** ** Rational numbers *)
Definition Qcleb (x y : Qc) : bool := Qle_bool (this x) (this y).
Lemma Qcleb_le x y : Qcleb x y = true <-> (x <= y)%Qc.
Proof. apply Qle_bool_iff. Qed.
Lemma Qcleb_lt x y : Qcleb x y = false <-> (y < x)%Qc.
Proof.
  unfold Qcleb. split; intros H.
  - apply Qnot_le_lt. intros L. apply Qle_bool_iff in L. congruence.
  - destruct (Qle_bool (this x) (this y)) eqn:E; [|reflexivity]. apply Qle_bool_iff in E. exfalso. apply (Qlt_not_le _ _ H), E.
Qed.
Definition Qcordered : ordered Qcring.
Proof.
  refine (@Ordered Qcring Qcleb _ _ _ _ _ _).
  - intros x y. rewrite !Qcleb_le. destruct (Qclt_le_dec x y) as [H|H]; [left; apply Qclt_le_weak, H|right; exact H].
  - intros x y. rewrite !Qcleb_le. apply Qcle_antisym.
  - intros x y z. rewrite !Qcleb_le. apply Qcle_trans.
  - intros x y z. rewrite !Qcleb_le. intros H. apply Qcplus_le_compat; [exact H|apply Qcle_refl].
  - intros x y. rewrite !Qcleb_lt. intros H1 H2. cbn. replace 0%Qc with (0 * y)%Qc by ring. apply Qcmult_lt_compat_r; assumption.
  - reflexivity.
Defined.
Lemma Qc_embeds : embeds Qcordered Q2Qc.
Proof.
  split.
  - reflexivity.
  - intros x y. apply Qc_is_canon. transitivity (x * y)%Q; [apply Qred_correct|]. symmetry.
    transitivity (Qred x * Qred y)%Q; [apply Qred_correct|]. rewrite (Qred_correct x), (Qred_correct y). reflexivity.
  - intros x y H. apply Qcleb_le. unfold Qcle. change (Qred x <= Qred y)%Q. rewrite (Qred_correct x), (Qred_correct y). exact H.
Qed.

(** ** A screened kernel *)
Definition sc_gen : @gen Qcring :=
  @Gen Qcring (@HEnv Qcring (nodup dbl_eq_dec) penum psi4 true true (fun _ => c0) (fun _ => c0) 2 20 12)
    (nodup tqam_eq_dec) (nodup tqam_eq_dec) (vx_par psi4 2 20).
Definition sc_c : qam := QAM 1 0 0 0.
Lemma sc_ok c : c = sc_c \/ c = QAM 1 0 1 0 -> setup_ok sc_gen c.
Proof.
  intros Hc. assert (T : qtotal c <= 2) by (destruct Hc as [-> | ->]; cbn; lia).
  split; cbn [sc_gen g_E g_enumq g_enumt g_P e_enum e_enumc e_o e_fuel].
  - apply nodup_enum.
  - apply nodup_enum.
  - apply nodup_enum.
  - apply penum_set.
  - apply psi4_starts.
  - destruct Hc as [-> | ->]; cbn; lia.
  - intros x [<-|[]]. left. destruct Hc as [-> | ->]; cbn; lia.
  - apply vx_par_ok, psi4_starts.
  - reflexivity.
  - destruct Hc as [-> | ->]; cbn; lia.
  - destruct Hc as [-> | ->]; cbn; lia.
  - left. destruct Hc as [-> | ->]; cbn; lia.
Qed.
Definition sc_exp (x : Qc) : Qc := (/ (1 - x))%Qc.
Definition sc_half : Qc := Q2Qc (1 # 2).
Definition sc_z (n : Z) : Qc := Q2Qc (inject_Z n).
Definition sc_A : @shell Qcring := @Shell Qcring 2 (fun ax => sc_z (Z.of_nat ax - 1)) (fun i => sc_z (Z.of_nat (S (4 * i)))) (fun i => sc_z (1 - 3 * Z.of_nat i)).
Definition sc_B : @shell Qcring := @Shell Qcring 1 (fun ax => sc_z (1 - Z.of_nat ax)) (fun _ => sc_z 3) (fun _ => sc_z (-1)).
Definition sc_bra : @pairs Qcring := @Pairs Qcring 1 (fun _ => sc_A) (fun _ => sc_B) (fun _ => false) Schwarz false.
Definition sc_ket : @pairs Qcring := @Pairs Qcring 1 (fun _ => sc_B) (fun _ => sc_A) (fun _ => false) Schwarz false.
(** Screen values, the largest diagonal integrals. *)
Definition sc_diag (A B : @shell Qcring) := @diagonal Qcring Qcinv sc_exp r1_sqrt r1_boys sc_half 1%Qc A B.
Definition sc_comps (la lb : nat) : list (Cart.gauss * Cart.gauss) := list_prod (targets1 psi4 la) (targets1 psi4 lb).
Definition sc_sv (la lb : nat) (S : @pairs Qcring) (t i j : nat) : Q :=
  this (fold_right (vmax Qcordered) c0 (map (sc_diag (ps_A S t) (ps_B S t) i j) (sc_comps la lb))).
Definition sc_svb := sc_sv 1 0 sc_bra.
Definition sc_svk := sc_sv 0 0 sc_ket.
Definition sc_block (S : @pairs Qcring) : list (option dval) := match ps_create 2 2 S (fun _ => 0%Z) with Some m => m | None => [] end.
Definition sc_run (tol : Q) : option (list Qc * nat) :=
  @whole_kernel Qcring Qcinv sc_exp r1_sqrt r1_boys sc_half 1%Qc sc_gen sc_c CallReduce 2 2 sc_bra sc_ket (sc_block sc_bra) (sc_block sc_ket)
    (batch_of sc_bra 1 (scr_rd 2 2 sc_bra (sc_block sc_bra) sc_svb) 1) (batch_of sc_ket 1 (scr_rd 2 2 sc_ket (sc_block sc_ket) sc_svk) 1) tol false (repeat (sc_z 99) 5).
Definition sc_show (r : option (list Qc * nat)) : option (list Q * nat) := option_map (fun p => (map this (fst p), snd p)) r.

(** Integrals computed directly. *)
Definition sc_compute (A B : @shell Qcring) : option (list Qc) :=
  Some (map (@eri Qcring Qcinv sc_exp r1_sqrt r1_boys sc_half 1%Qc A B A B) (qtargets psi4 (QAM 1 0 1 0))).
Lemma sc_computes A B : @computes Qcring Qcinv sc_exp r1_sqrt r1_boys sc_half 1%Qc psi4 1 0 sc_compute A B.
Proof.
  eexists. split; [reflexivity|]. intros q Eq. apply map_nth_error. rewrite <- Eq. apply qtargets_nth, psi4_starts.
Qed.
Lemma sc_sv_covers la lb S t i j : starts_x psi4 ->
  covers Qcordered Qcinv sc_exp r1_sqrt r1_boys sc_half (1%Qc : Qcring) Q2Qc la lb (ps_A S t) (ps_B S t) i j (sc_sv la lb S t i j).
Proof.
  intros Hs [x y] [Hx Hy]. cbn [fst snd] in *. unfold sc_sv. set (v := fold_right _ _ _).
  replace (Q2Qc (this v)) with v by (apply Qc_is_canon; symmetry; apply Qred_correct). subst v.
  assert (I : In (x, y) (sc_comps la lb)).
  { unfold sc_comps. apply in_prod; rewrite targets1_ok by apply Hs.
    - apply (o_in psi4), Hx.
    - apply (o_in psi4), Hy. }
  fold (sc_diag (ps_A S t) (ps_B S t) i j (x, y)). clear Hx Hy. induction (sc_comps la lb) as [|z l IH]; [contradiction|].
  cbn [map fold_right]. destruct I as [-> |I]; [apply max_l|]. apply le_trans with (2 := max_r Qcordered _ _). apply IH, I.
Qed.
Lemma sc_side (S : @pairs Qcring) : S = sc_bra \/ S = sc_ket ->
  (forall t, t < ps_n S -> 0 < sp_np (ps_pr S t)) /\
  exists ord, block_ok 2 2 S (sc_block S) ord 1.
Proof.
  intros HS.
  assert (B : screen_fits 2 2 (ps_meth S) (ps_n S) (ps_pr S)).
  { intros t Ht. destruct HS as [-> | ->]; cbn [ps_n sc_bra sc_ket] in Ht; (destruct t; [vm_compute; lia|lia]). }
  assert (C : forall t, t < ps_n S -> 0 < sp_np (ps_pr S t)).
  { intros t Ht. destruct HS as [-> | ->]; cbn [ps_n sc_bra sc_ket] in Ht; (destruct t; [vm_compute; lia|lia]). }
  split; [exact C|].
  destruct (@created Qcring 2 2 S (fun _ => 0%Z) 1) as (m & ord & E & H & _); auto.
  - exists 1. reflexivity.
  - intros t _ E. destruct HS as [-> | ->]; discriminate E.
  - destruct HS as [-> | ->]; cbn; lia.
  - exists ord. unfold sc_block. rewrite E. exact H.
Qed.
Lemma sc_range : (forall i j, In (i, j) (sp_prims (ps_pr sc_bra 0)) -> (0 <= sc_svb 0 i j <= 1)%Q) /\
  (forall i j, In (i, j) (sp_prims (ps_pr sc_ket 0)) -> (0 <= sc_svk 0 i j <= 1)%Q).
Proof. split; intros i j H; vm_compute in H; destruct H as [H|[H|[]]]; injection H as <- <-; split; vm_compute; discriminate. Qed.
Lemma sc_positive : (forall t, positive Qcordered (ps_A sc_bra t) /\ positive Qcordered (ps_B sc_bra t)) /\
  (forall t, positive Qcordered (ps_A sc_ket t) /\ positive Qcordered (ps_B sc_ket t)).
Proof.
  assert (A : positive Qcordered sc_A) by (intros i Hi; cbn [sc_A sh_n] in Hi; destruct i as [|[|i]]; [reflexivity|reflexivity|lia]).
  assert (B : positive Qcordered sc_B) by (intros i _; reflexivity). split; intros t; split; assumption.
Qed.
Lemma sc_aligned scr mx : bra_aligned 2 2 (batch_of sc_bra 1 scr mx).
Proof. intros g Hg. destruct g; [exists 2; reflexivity|]. cbn [batch_of b_clip] in Hg. lia. Qed.
(** External functions for the fast values. *)
Definition fs_boys (n : nat) (_ : Qc) : Qc := Q2Qc (1 # Pos.of_nat (2 * n + 1)).
Definition fs_pow (x : Qc) : Qc := (x * x)%Qc.
Definition fs_exp (_ : Qc) : Qc := 1%Qc.
Lemma fs_hyps (p : Qcring) : @fast_hyps Qcring Qcinv fs_exp r1_sqrt fs_pow fs_boys 1%Qc 1%Qc p.
Proof.
  split.
  - unfold fs_pow, r1_sqrt. cbn. ring.
  - apply Qc_is_canon. reflexivity.
  - intros x. unfold fs_exp. cbn. ring.
Qed.
Definition fs_A : @shell Qcring := @Shell Qcring 2 (fun _ => c0) (fun _ => sc_z 1) (fun _ => sc_z 2).
