(** The derivative kernel with the real functions: what it stores are the partial derivatives of the contracted integrals;
    and its screening, made with the values for the integrals, does not bound the error of the derivatives. *)
From Coq Require Import List Arith ZArith QArith Reals Qreals Lra Lia Permutation.
Import ListNotations.
From Verif Require Import Base Cart QList HRRStep HRRAlgo HRROrder HRRExec VRRStep VRRAlgo VRRExec Kernel KernelSpec Starts Tables Layout Create PairData Mdir Driver Deriv
  OSFamily EndToEnd EndToEndProof Screen ScreenExample Normalize NormPos BoysReal RealRepulsive OSMoves DerivKernel DerivKernelProof RealDeriv RealScreened HRRExample VRRExecExample Work ScreenProof.
Local Open Scope R_scope.

Lemma pos_divisible (A B C D : @shell Rcring) : pos_exps A -> pos_exps B -> pos_exps C -> pos_exps D -> @divisible Rcring Rinv A B C D.
Proof.
  intros PA PB PC PD i j k l Hi Hj Hk Hl. specialize (PA i Hi). specialize (PB j Hj). specialize (PC k Hk). specialize (PD l Hl).
  unfold invertible. repeat split; apply Rinv_r; change (@cadd Rcring) with Rplus; lra.
Qed.
Lemma real_half : @cmul Rcring two (/ 2) = c1.
Proof. change ((1 + 1) * / 2 = 1). field. Qed.

Theorem deriv_real (c52 : R) (g : @gen Rcring) (c : qam) : dsetup_ok g c ->
  forall k len nss, kind_len k len -> (0 < nss)%nat -> Nat.divide len nss ->
  forall bra ket : @pairs Rcring, ps_deriv bra = true -> ps_deriv ket = true ->
  (forall t, (t < ps_n bra)%nat -> ps_same bra t = true -> ps_B bra t = ps_A bra t) ->
  (forall t, (t < ps_n ket)%nat -> ps_same ket t = true -> ps_B ket t = ps_A ket t) ->
  screen_fits len nss (ps_meth bra) (ps_n bra) (ps_pr bra) -> screen_fits len nss (ps_meth ket) (ps_n ket) (ps_pr ket) ->
  (forall t, (t < ps_n bra)%nat -> (0 < sp_np (ps_pr bra t))%nat) -> (forall t, (t < ps_n ket)%nat -> (0 < sp_np (ps_pr ket t))%nat) ->
  (forall t, (t < ps_n bra)%nat -> pos_exps (ps_A bra t) /\ pos_exps (ps_B bra t)) ->
  (forall t, (t < ps_n ket)%nat -> pos_exps (ps_A ket t) /\ pos_exps (ps_B ket t)) ->
  forall kfb kfk nb nk scrb scrk mxb mxk tol zf out, (nb <= ps_n bra)%nat -> (nk <= ps_n ket)%nat -> (tol <= 0)%Q ->
  bra_aligned len nss (batch_of bra nb scrb mxb) -> (nb * nk * (12 * qncart c) <= length out)%nat ->
  exists mb mk r, ps_create len nss bra kfb = Some mb /\ ps_create len nss ket kfk = Some mk /\
    @whole_deriv Rcring Rinv exp sqrt boysR (/ 2) c52 g c k len nss bra ket mb mk
      (batch_of bra nb scrb mxb) (batch_of ket nk scrk mxk) tol zf out = Some (r, (nb * nk)%nat) /\
    forall ab cd q x d, (ab < nb)%nat -> (cd < nk)%nat -> qclass q = c -> exists v : R,
      nth_error r (12 * ((ab * nk + cd) * qncart c + qindex psi4 q) + (3 * cidx x + idx_of_dir d)) = Some v /\
      derivable_pt_lim (fun t => @eri Rcring Rinv exp sqrt boysR (/ 2) c52 (moving x d t CI (ps_A bra ab)) (moving x d t CJ (ps_B bra ab))
                                   (moving x d t CK (ps_A ket cd)) (moving x d t CL (ps_B ket cd)) q) 0 v.
Proof.
  intros Hg k len nss Hk Hn Hd bra ket Db Dk Sb Sk Fb Fk Nb Nk Pb Pk kfb kfk nb nk scrb scrk mxb mxk tol zf out Cb Ck Ht Hal Hout.
  destruct (@deriv_created Rcring Rinv exp sqrt boysR (/ 2) c52 g c Hg k len nss Hk Hn Hd real_half bra ket Db Dk Sb Sk Fb Fk Nb Nk) with
    (kfb := kfb) (kfk := kfk) (nb := nb) (nk := nk) (scrb := scrb) (scrk := scrk) (mxb := mxb) (mxk := mxk) (tol := tol) (zf := zf) (out := out)
    as (mb & mk & r & Eb & Ek & Er & _ & V & _); try assumption.
  { intros ab cd Ha Hc. destruct (Pb ab Ha), (Pk cd Hc). apply pos_divisible; assumption. }
  exists mb, mk, r. split; [exact Eb|]. split; [exact Ek|]. split; [exact Er|].
  intros ab cd q x d Ha Hc Eq. eexists. split; [apply (V ab cd q x d Ha Hc Eq)|].
  destruct (Pb ab ltac:(lia)), (Pk cd ltac:(lia)). apply eri_moves; assumption.
Qed.

(** ** Example *)
(** Shells with one s primitive of exponent 1: A at x = 1, B at x = -1, C at 0. *)
Definition rk_A (w : R) : @shell Rcring := @Shell Rcring 1 (fun ax => if (ax =? 0)%nat then 1 else 0) (fun _ => 1) (fun _ => w).
Definition rk_B : @shell Rcring := @Shell Rcring 1 (fun ax => if (ax =? 0)%nat then -1 else 0) (fun _ => 1) (fun _ => 1).
Definition rk_C (w : R) : @shell Rcring := @Shell Rcring 1 (fun _ => 0) (fun _ => 1) (fun _ => w).
Definition rk_bra (w : R) : @pairs Rcring := @Pairs Rcring 1 (fun _ => rk_A w) (fun _ => rk_B) (fun _ => false) Schwarz true.
Definition rk_ket (w : R) : @pairs Rcring := @Pairs Rcring 1 (fun _ => rk_C w) (fun _ => rk_C 1) (fun _ => false) Schwarz true.
Lemma rk_ok c : (qtotal c < 5)%nat -> dsetup_ok re_gen c.
Proof.
  intros Hc. split; cbn [re_gen g_E g_enumq g_enumt g_P e_enum e_enumc e_o e_fuel].
  - apply nodup_enum.
  - apply nodup_enum.
  - apply nodup_enum.
  - apply penum_set.
  - reflexivity.
  - lia.
  - intros x Hx. apply needed_total in Hx. rewrite tq_total in Hx. left. cbn [re_gen g_E e_sg vx_par g_P p_sg]. lia.
  - apply vx_par_ok, psi4_starts.
  - reflexivity.
  - cbn. lia.
  - cbn. lia.
  - left. cbn [re_gen g_E e_sg vx_par g_P p_sg]. lia.
  - unfold qtotal in Hc. unfold amax. lia.
Qed.
Definition rk_side (S : @pairs Rcring) : Prop := ps_n S = 1%nat /\ ps_deriv S = true /\ ps_meth S = Schwarz /\
  (forall t, ps_same S t = false) /\ screen_fits 2 2 (ps_meth S) (ps_n S) (ps_pr S) /\ (forall t, sp_np (ps_pr S t) = 1%nat) /\
  forall t, pos_exps (ps_A S t) /\ pos_exps (ps_B S t).
Lemma rk_sides w : rk_side (rk_bra w) /\ rk_side (rk_ket w).
Proof.
  split; (split; [reflexivity|]; split; [reflexivity|]; split; [reflexivity|]; split; [reflexivity|]; split;
    [intros t Ht; cbn [ps_n rk_bra rk_ket] in Ht; (destruct t; [vm_compute; lia|lia])|]; split; [reflexivity|]; intros t; split; intros i _; cbn; lra).
Qed.
Definition rk_block (S : @pairs Rcring) : list (option dval) := match ps_create 2 2 S (fun _ => 0%Z) with Some m => m | None => [] end.
Lemma rk_created S : rk_side S -> exists ord, block_ok 2 2 S (rk_block S) ord 1.
Proof.
  intros (N & D1 & D2 & Sm & F & L & D3).
  destruct (@created Rcring 2 2 S (fun _ => 0%Z) 1) as (m & ord & E & H & _); auto.
  - exists 1%nat. reflexivity.
  - intros t _ E. rewrite Sm in E. discriminate E.
  - intros t Ht. rewrite L. lia.
  - lia.
  - exists ord. unfold rk_block. rewrite E. exact H.
Qed.
Lemma rk_aligned w scr mx : bra_aligned 2 2 (batch_of (rk_bra w) 1 scr mx).
Proof. intros g Hg. cbn [batch_of b_clip] in Hg. lia. Qed.

(** The integral (AB|CC), the two diagonal integrals and the derivative with respect to the x coordinate of A. *)
Definition rk_w (c52 : R) : R := / c52.
Ltac flat := change (@cadd Rcring) with Rplus in *; change (@cmul Rcring) with Rmult in *; change (@csub Rcring) with Rminus in *;
  change (@copp Rcring) with Ropp in *; match goal with |- @eq _ ?x ?y => change (@eq R x y) | _ => idtac end.
Lemma boys_at_zero n : boysR n 0 = / (2 * INR n + 1).
Proof.
  pose proof (boys_by_parts n 0) as B. rewrite Ropp_0, exp_0 in B. pose proof (pos_INR n).
  apply (Rmult_eq_reg_l (2 * INR n + 1)); [|lra]. rewrite B. field. lra.
Qed.
Lemma quarter : sqrt (/ (1 + 1 + (1 + 1))) = / 2.
Proof. replace (/ (1 + 1 + (1 + 1))) with (/ 2 * / 2) by field. apply sqrt_square. lra. Qed.
Section Values.
Variable c52 : R.
Hypothesis H52 : c52 <> 0.
Local Notation PE := (@prim_eri Rcring Rinv exp sqrt boysR (/ 2) c52).
Local Notation w := (rk_w c52).
Lemma rk_diag_bra : @diagonal Rcring Rinv exp sqrt boysR (/ 2) c52 (rk_A w) rk_B 0 0 (g0, g0) = exp (-4) / 8.
Proof.
  unfold diagonal, prim_eri. cbn [fst snd]. change (Q4 g0 g0 g0 g0) with OSFamily.q0. rewrite os_value_start.
  unfold eri_start, overlap_exp, dist2, gcen, rho, gp, prim, rk_A, rk_B, rk_w. cbn [g_exp g_at sh_alpha sh_pos sh_coef idx_of_dir Nat.eqb]. flat.
  match goal with |- context [boysR 0 ?x] => replace x with 0 by field end. rewrite boys_at_zero.
  match goal with |- context [exp ?x] => replace x with (-2) by field end. rewrite quarter.
  replace (exp (-4)) with (exp (-2) * exp (-2)) by (rewrite <- exp_plus; f_equal; ring). cbn [INR]. field. exact H52.
Qed.
Lemma rk_diag_ket : @diagonal Rcring Rinv exp sqrt boysR (/ 2) c52 (rk_C w) (rk_C 1) 0 0 (g0, g0) = / 8.
Proof.
  unfold diagonal, prim_eri. cbn [fst snd]. change (Q4 g0 g0 g0 g0) with OSFamily.q0. rewrite os_value_start.
  unfold eri_start, overlap_exp, dist2, gcen, rho, gp, prim, rk_C, rk_w. cbn [g_exp g_at sh_alpha sh_pos sh_coef idx_of_dir Nat.eqb]. flat.
  match goal with |- context [boysR 0 ?x] => replace x with 0 by field end. rewrite boys_at_zero.
  match goal with |- context [exp ?x] => replace x with 0 by field end. rewrite quarter, exp_0. cbn [INR]. field. exact H52.
Qed.
Lemma rk_deriv : @eri_deriv Rcring Rinv exp sqrt boysR (/ 2) c52 (rk_A w) rk_B (rk_C w) (rk_C 1) CI DX OSFamily.q0 = - (exp (-2) / 4).
Proof.
  unfold eri_deriv, over. change (sh_n (rk_A w)) with 1%nat. change (sh_n rk_B) with 1%nat. change (sh_n (rk_C w)) with 1%nat. change (sh_n (rk_C 1)) with 1%nat.
  cbn [seq map rsum fold_right]. unfold prim_deriv, prim_eri.
  set (a := prim (rk_A w) 0). set (b := prim rk_B 0). set (c := prim (rk_C w) 0). set (d := prim (rk_C 1) 0).
  pose proof (@moves_start Rcring (@eri_coefs Rcring Rinv (/ 2) a b c d) (@os_value Rcring (@eri_coefs Rcring Rinv (/ 2) a b c d) (@eri_start Rcring Rinv exp sqrt boysR c52 a b c d))
      (two * g_exp (pick a b c d CI))%r CI DX (@os_value_family _ _ _) 0) as M.
  unfold moves in M. unfold prim_deriv, prim_eri. cbn beta in *. flat. rewrite !os_value_start in M.
  change (@c0 Rcring) with 0.
  match type of M with ?l = ?r => match goal with |- ?k * ?t + 0 + 0 + 0 + 0 = _ => change t with l end end. rewrite M. clear M.
  unfold a, b, c, d, eri_coefs, eri_start, overlap_exp, dist2, gcen, rho, gp, prim, rk_A, rk_B, rk_C, rk_w, two. cbn [k_PA k_aPQ cside pick g_exp g_at sh_alpha sh_pos sh_coef idx_of_dir Nat.eqb].
  flat. change (@c1 Rcring) with 1. rewrite quarter.
  match goal with |- context [boysR 0 ?x] => replace x with 0 by field end. rewrite (boys_at_zero 0).
  match goal with |- context [exp (- (1 * 1 * / (1 + 1) * ((1 - -1) * _ + _ + _)))] => idtac end.
  repeat match goal with |- context [exp (- ?x)] => first [replace (- x) with (-2) by field | replace (- x) with 0 by field] end.
  rewrite exp_0. cbn [INR]. field. exact H52.
Qed.
End Values.
Lemma exp_m2 : / 50 < exp (-2) / 4.
Proof.
  pose proof exp_le_3 as E. replace (-2) with (- (1 + 1)) by ring. rewrite exp_Ropp, exp_plus. pose proof (exp_pos 1) as P.
  set (y := exp 1) in *. clearbody y. apply (Rmult_lt_reg_r (50 * (y * y))); [nra|]. replace (/ 50 * (50 * (y * y))) with (y * y) by field.
  replace (/ (y * y) / 4 * (50 * (y * y))) with (25 / 2) by (field; lra). nra.
Qed.
Lemma exp_m4 : exp (-4) / 8 <= / 320.
Proof.
  assert (B : forall x y, 0 <= y <= exp (x / 2) -> y * y <= exp x).
  { intros x y H. replace x with (x / 2 + x / 2) by field. rewrite exp_plus. pose proof (exp_pos (x / 2)). nra. }
  assert (A0 : 9 / 8 <= exp (1 / 8)) by (left; replace (9 / 8) with (1 + 1 / 8) by field; apply exp_ineq1; lra).
  assert (A1 : 81 / 64 <= exp (1 / 4)) by (replace (81 / 64) with (9 / 8 * (9 / 8)) by field; apply B; replace (1 / 4 / 2) with (1 / 8) by field; lra).
  assert (A2 : 8 / 5 <= exp (1 / 2)) by (apply Rle_trans with (81 / 64 * (81 / 64)); [lra|]; apply B; replace (1 / 2 / 2) with (1 / 4) by field; lra).
  assert (A3 : 64 / 25 <= exp 1) by (replace (64 / 25) with (8 / 5 * (8 / 5)) by field; apply B; lra).
  assert (A4 : 13 / 2 <= exp 2) by (apply Rle_trans with (64 / 25 * (64 / 25)); [lra|]; apply B; replace (2 / 2) with 1 by field; lra).
  assert (A5 : 40 <= exp 4) by (apply Rle_trans with (13 / 2 * (13 / 2)); [lra|]; apply B; replace (4 / 2) with 2 by field; lra).
  replace (-4) with (- (4)) by ring. rewrite exp_Ropp. set (y := exp 4) in *. clearbody y.
  apply (Rmult_le_reg_r (320 * y)); [lra|]. replace (/ y / 8 * (320 * y)) with 40 by (field; lra). replace (/ 320 * (320 * y)) with y by field. exact A5.
Qed.

(** The screen values are above the diagonal integrals of the two pairs, their product is below the square of the
    tolerance 1/50: the kernel skips the quartet and stores 0; the derivative is larger than the tolerance. *)
Definition rk_svb : Q := 1 # 320.
Definition rk_svk : Q := 1 # 8.
Definition rk_t : Q := 1 # 50.
Theorem deriv_error c52 : c52 <> 0 ->
  let bra := rk_bra (rk_w c52) in let ket := rk_ket (rk_w c52) in
  let BP := batch_of bra 1 (scr_rd 2 2 bra (rk_block bra) (fun _ _ _ => rk_svb)) rk_svb in
  let BK := batch_of ket 1 (scr_rd 2 2 ket (rk_block ket) (fun _ _ _ => rk_svk)) rk_svk in
  diag_real c52 (ps_A bra 0) (ps_B bra 0) 0 0 (g0, g0) <= Q2R rk_svb /\
  diag_real c52 (ps_A ket 0) (ps_B ket 0) 0 0 (g0, g0) <= Q2R rk_svk /\
  forall zf out, length out = 12%nat ->
  exists r, @whole_deriv Rcring Rinv exp sqrt boysR (/ 2) c52 re_gen ssss CallReduce 2 2 bra ket (rk_block bra) (rk_block ket) BP BK (rk_t * rk_t) zf out = Some (r, 1%nat) /\
    nth_error r 0 = Some 0 /\
    exists v, derivable_pt_lim (fun t => @eri Rcring Rinv exp sqrt boysR (/ 2) c52 (moving CI DX t CI (ps_A bra 0)) (moving CI DX t CJ (ps_B bra 0))
                                   (moving CI DX t CK (ps_A ket 0)) (moving CI DX t CL (ps_B ket 0)) OSFamily.q0) 0 v /\
      Q2R rk_t < Rabs (v - 0).
Proof.
  intros H52 bra ket BP BK. destruct (rk_sides (rk_w c52)) as [Sb Sk]. fold bra in Sb. fold ket in Sk.
  destruct (rk_created bra Sb) as [ob Hb]. destruct (rk_created ket Sk) as [ok Hk].
  split; [|split].
  - unfold diag_real. change (ps_A bra 0) with (rk_A (rk_w c52)). change (ps_B bra 0) with rk_B. rewrite (rk_diag_bra c52 H52).
    unfold rk_svb, Q2R; cbn [Qnum Qden]. pose proof exp_m4. lra.
  - unfold diag_real. change (ps_A ket 0) with (rk_C (rk_w c52)). change (ps_B ket 0) with (rk_C 1). rewrite (rk_diag_ket c52 H52).
    unfold rk_svk, Q2R; cbn [Qnum Qden]. lra.
  - intros zf out Hout.
    destruct (@deriv_kept Rcring Rinv exp sqrt boysR (/ 2) c52 re_gen ssss (rk_ok ssss ltac:(cbn; lia)) CallReduce 2 2 ltac:(cbn; lia) ltac:(lia) bra ket (rk_block bra) (rk_block ket)
      ob ok 1 1 (b_scr BP) (b_scr BK) rk_svb rk_svk Hb Hk eq_refl eq_refl) with (tol := (rk_t * rk_t)%Q) (zf := zf) (out := out) as (r & E & L & V & O).
    + intros t Ht. cbn. lia.
    + exact real_half.
    + intros ab cd _ _. apply pos_divisible; intros i _; cbn; lra.
    + apply rk_aligned.
    + rewrite Hout. reflexivity.
    + exists r. split; [exact E|]. split.
      * pose proof (V 0%nat 0%nat OSFamily.q0 CI DX ltac:(lia) ltac:(lia) eq_refl) as V0.
        change (12 * ((0 * 1 + 0) * qncart ssss + qindex psi4 OSFamily.q0) + (3 * cidx CI + idx_of_dir DX))%nat with 0%nat in V0.
        rewrite V0. f_equal.
        rewrite (@dkept_terms Rcring Rinv exp sqrt boysR (/ 2) c52 2 2 bra ket (rk_block bra) (rk_block ket) ob ok 1 1 Hb Hk eq_refl eq_refl _ 0%nat 0%nat ltac:(lia) ltac:(lia)).
        unfold stored_dterms. change (sp_prims _) with [(0, 0)]%nat.
        cbn [map rsum fold_right fst snd].
        assert (Kf : dkeep_at 2 2 bra ket ob ok (dropped 2 BP BK (rk_t * rk_t) zf) 0 0 0 0 0 0 = false).
        { unfold dkeep_at. apply negb_false_iff. unfold dropped. apply orb_true_iff. left. unfold bra_skip. apply andb_true_iff. split; [reflexivity|].
          assert (I : In (0, 0)%nat (ob 0%nat)).
          { apply (Permutation_in _ (Permutation_sym (ho_perm (bo_holds Hb) (t := 0%nat) ltac:(cbn; lia)))). left. reflexivity. }
          apply place_in in I.
          pose proof (@rd_scr Rcring Rinv exp sqrt boysR c52 2 2 bra (rk_block bra) ob 1 0 _ 0 0 (fun _ _ _ => rk_svb) Hb eq_refl ltac:(lia) I) as Rb.
          cbn [b_scr BP batch_of b_scrmax BK]. rewrite Rb. reflexivity. }
        match goal with |- context [dkeep_at ?a ?b ?c ?d ?e ?f ?g ?h ?i ?j ?k ?l ?m] => replace (dkeep_at a b c d e f g h i j k l m) with false by (symmetry; exact Kf) end. flat. change (@c0 Rcring) with 0. ring.
      * exists (- (exp (-2) / 4)). split.
        -- rewrite <- (rk_deriv c52 H52). apply eri_moves; intros i _; cbn; lra.
        -- pose proof exp_m2. rewrite Rminus_0_r, Rabs_Ropp, Rabs_pos_eq by lra. unfold rk_t, Q2R; cbn [Qnum Qden]. lra.
Qed.
