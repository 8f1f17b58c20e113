(** Schwarz screening with the real functions: the bound of ScreenProof.v and the error of the screened kernel, without
    a hypothesis on the external functions. *)
From Coq Require Import List Arith ZArith QArith Reals Qreals Lra Lia.
Import ListNotations.
From Verif Require Import Base Cart QList HRRStep HRRAlgo HRROrder HRRExec VRRStep VRRAlgo VRRExec Kernel KernelSpec Starts Tables Layout Create PairData Mdir Deriv
  OSFamily EndToEnd EndToEndProof OrdRing Screen ScreenProof Normalize RealScreen BoysReal RealRepulsive.
Local Open Scope R_scope.

Section Real.
(** The stored constant; any number. *)
Variable c52 : R.
Definition eri_real (A B C D : @shell Rcring) (q : qrt) : R := @eri Rcring Rinv exp sqrt boysR (/ 2) c52 A B C D q.
Definition diag_real (A B : @shell Rcring) (i j : nat) (x : Cart.gauss * Cart.gauss) : R := @diagonal Rcring Rinv exp sqrt boysR (/ 2) c52 A B i j x.
Definition kernel_real := @whole_kernel Rcring Rinv exp sqrt boysR (/ 2) c52.
Lemma pos_positive (A : @shell Rcring) : pos_exps A -> positive Rordered A.
Proof. intros H i Hi. apply Rlt_ordered, H, Hi. Qed.
Lemma vabs_real (x : R) : vabs Rordered x = Rabs x.
Proof.
  unfold vabs. cbn [leb Rordered]. change (@c0 Rcring) with 0. destruct (Rleb 0 x) eqn:E.
  - apply Rleb_le in E. symmetry. apply Rabs_right. lra.
  - apply Rleb_lt in E. symmetry. apply Rabs_left. exact E.
Qed.
Theorem schwarz_real A B C D a b c d : pos_exps A -> pos_exps B -> pos_exps C -> pos_exps D ->
  Rabs (eri_real A B C D (Q4 a b c d)) <= sqrt (eri_real A B A B (Q4 a b a b) * eri_real C D C D (Q4 c d c d)).
Proof.
  intros HA HB HC HD. pose proof (@eri_schwarz Rcring Rordered Rinv exp sqrt boysR (/ 2) c52 (real_repulsive c52) A B C D a b c d (pos_positive A HA) (pos_positive B HB) (pos_positive C HC) (pos_positive D HD)) as S.
  apply Rle_ordered in S. rewrite <- sqrt_Rsqr_abs. apply sqrt_le_1_alt. exact S.
Qed.
Theorem diagonal_real A B a b : pos_exps A -> pos_exps B -> 0 <= eri_real A B A B (Q4 a b a b).
Proof.
  intros HA HB. apply Rle_ordered. unfold eri_real. rewrite <- form_eri. apply (@form_pos _ _ _ _ _ _ _ _ (real_repulsive c52)), charges_phys; apply pos_positive; assumption.
Qed.

Section Bound.
Variables (g : @gen Rcring) (c : qam) (k : call_kind) (len nss : nat).
Variables (bra ket : @pairs Rcring) (mb mk : list (option dval)) (ob ok : nat -> list (nat * nat)) (nb nk : nat).
Hypothesis HP : block_ok len nss bra mb ob nb.
Hypothesis HK : block_ok len nss ket mk ok nk.
Variables (svb svk : nat -> nat -> nat -> Q) (mxb mxk : Q).
Hypothesis Hcb : forall ab i j, (ab < nb)%nat -> In (i, j) (sp_prims (ps_pr bra ab)) ->
  (0 <= svb ab i j <= mxb)%Q /\ forall x, comp_of (am0 c) (am1 c) x -> diag_real (ps_A bra ab) (ps_B bra ab) i j x <= Q2R (svb ab i j).
Hypothesis Hck : forall cd i j, (cd < nk)%nat -> In (i, j) (sp_prims (ps_pr ket cd)) ->
  (0 <= svk cd i j <= mxk)%Q /\ forall x, comp_of (am2 c) (am3 c) x -> diag_real (ps_A ket cd) (ps_B ket cd) i j x <= Q2R (svk cd i j).
Hypothesis Hpb : forall ab, (ab < nb)%nat -> pos_exps (ps_A bra ab) /\ pos_exps (ps_B bra ab).
Hypothesis Hpk : forall cd, (cd < nk)%nat -> pos_exps (ps_A ket cd) /\ pos_exps (ps_B ket cd).
Definition nquads (ab cd : nat) : nat := (sh_n (ps_A bra ab) * sh_n (ps_B bra ab) * (sh_n (ps_A ket cd) * sh_n (ps_B ket cd)))%nat.
Let Pb : forall ab, (ab < nb)%nat -> positive Rordered (ps_A bra ab) /\ positive Rordered (ps_B bra ab).
Proof. intros ab H. split; apply pos_positive, Hpb, H. Qed.
Let Pk : forall cd, (cd < nk)%nat -> positive Rordered (ps_A ket cd) /\ positive Rordered (ps_B ket cd).
Proof. intros cd H. split; apply pos_positive, Hpk, H. Qed.
Let Cb : forall ab i j, (ab < nb)%nat -> In (i, j) (sp_prims (ps_pr bra ab)) ->
  covers Rordered Rinv exp sqrt boysR (/ 2 : Rcring) c52 (Q2R : Q -> Rcring) (am0 c) (am1 c) (ps_A bra ab) (ps_B bra ab) i j (svb ab i j).
Proof. intros ab i j H I x Hx. apply Rle_ordered. exact (proj2 (Hcb ab i j H I) x Hx). Qed.
Let Ck : forall cd i j, (cd < nk)%nat -> In (i, j) (sp_prims (ps_pr ket cd)) ->
  covers Rordered Rinv exp sqrt boysR (/ 2 : Rcring) c52 (Q2R : Q -> Rcring) (am2 c) (am3 c) (ps_A ket cd) (ps_B ket cd) i j (svk cd i j).
Proof. intros cd i j H I x Hx. apply Rle_ordered. exact (proj2 (Hck cd i j H I) x Hx). Qed.
Theorem error_real t zf out : setup_ok g c -> kind_len k len -> (0 < nss)%nat -> (forall t, (t < nk)%nat -> (0 < sp_np (ps_pr ket t))%nat) ->
  (0 <= t)%Q -> screens (ps_meth bra) = true -> screens (ps_meth ket) = true ->
  let BP := batch_of bra nb (scr_rd len nss bra mb svb) mxb in
  let BK := batch_of ket nk (scr_rd len nss ket mk svk) mxk in
  bra_aligned len nss BP -> (nb * nk * qncart c <= length out)%nat ->
  exists d, kernel_real g c k len nss bra ket mb mk BP BK (t * t) zf out = Some (d, (nb * nk)%nat) /\
    forall ab cd q, (ab < nb)%nat -> (cd < nk)%nat -> qclass q = c -> exists v : R,
      nth_error d ((ab * nk + cd) * qncart c + qindex (e_o (g_E g)) q) = Some v /\
      Rabs (eri_real (ps_A bra ab) (ps_B bra ab) (ps_A ket cd) (ps_B ket cd) q - v) <= INR (nquads ab cd) * Q2R t.
Proof.
  intros Hg Hk Hnss Hnp Ht Sb Sk BP BK Hal Hout.
  destruct (@screened_kernel_error Rcring Rordered Rinv exp sqrt boysR (/ 2) c52 (Q2R : Q -> Rcring) real_embeds (real_repulsive c52) g c Hg k len nss Hk Hnss bra ket mb mk ob ok nb nk HP HK Hnp
    svb svk mxb mxk Cb Ck (fun ab i j H I => proj1 (Hcb ab i j H I)) (fun cd i j H I => proj1 (Hck cd i j H I)) Pb Pk t zf out Ht Sb Sk Hal Hout) as (d & E & V).
  exists d. split; [exact E|]. intros ab cd q Ha Hc Eq. destruct (V ab cd q Ha Hc Eq) as (v & Ev & L). exists v. split; [exact Ev|].
  apply Rle_ordered in L. rewrite ofnat_INR in L. rewrite vabs_real in L. exact L.
Qed.
Theorem skipped_real t ab cd q : early_exit t mxb mxk = true -> (ab < nb)%nat -> (cd < nk)%nat -> qclass q = c ->
  Rabs (eri_real (ps_A bra ab) (ps_B bra ab) (ps_A ket cd) (ps_B ket cd) q) <= INR (nquads ab cd) * Q2R t.
Proof.
  intros Ee Ha Hc Eq.
  pose proof (@skipped_error Rcring Rordered Rinv exp sqrt boysR (/ 2) c52 (Q2R : Q -> Rcring) real_embeds (real_repulsive c52) c len nss bra ket mb mk ob ok nb nk HP HK
    svb svk mxb mxk Cb Ck (fun ab i j H I => proj1 (Hcb ab i j H I)) (fun cd i j H I => proj1 (Hck cd i j H I)) Pb Pk t ab cd q Ee Ha Hc Eq) as L.
  apply Rle_ordered in L. rewrite ofnat_INR in L. rewrite vabs_real in L. exact L.
Qed.
End Bound.
End Real.

(** ** A case *)
From Verif Require Import HRRExample VRRExecExample VRRExecSpec ScreenExample.
Definition re_gen : @gen Rcring :=
  @Gen Rcring (@HEnv Rcring (nodup dbl_eq_dec) penum psi4 true true (fun _ => c0) (fun _ => c0) 2 20 12)
    (nodup tqam_eq_dec) (nodup tqam_eq_dec) (vx_par psi4 2 20).
Lemma re_ok : setup_ok re_gen sc_c.
Proof.
  split; cbn [re_gen g_E g_enumq g_enumt g_P e_enum e_enumc e_o e_fuel].
  - apply nodup_enum.
  - apply nodup_enum.
  - apply nodup_enum.
  - apply penum_set.
  - apply psi4_starts.
  - cbn; lia.
  - intros x [<-|[]]. left. cbn; lia.
  - apply vx_par_ok, psi4_starts.
  - reflexivity.
  - cbn; lia.
  - cbn; lia.
  - left. cbn; lia.
Qed.
Definition re_A : @shell Rcring := @Shell Rcring 2 (fun ax => INR ax) (fun i => 4 ^ i) (fun i => 1 - 3 * INR i).
Definition re_B : @shell Rcring := @Shell Rcring 1 (fun ax => 1 - INR ax) (fun _ => 3) (fun _ => -1).
Definition re_bra : @pairs Rcring := @Pairs Rcring 1 (fun _ => re_A) (fun _ => re_B) (fun _ => false) Schwarz false.
Definition re_ket : @pairs Rcring := @Pairs Rcring 1 (fun _ => re_B) (fun _ => re_A) (fun _ => false) Schwarz false.
Definition re_block (S : @pairs Rcring) : list (option dval) := match ps_create 2 2 S (fun _ => 0%Z) with Some m => m | None => [] end.
Lemma re_pos t : (pos_exps (ps_A re_bra t) /\ pos_exps (ps_B re_bra t)) /\ pos_exps (ps_A re_ket t) /\ pos_exps (ps_B re_ket t).
Proof.
  assert (A : pos_exps re_A) by (intros i _; cbn; apply pow_lt; lra). assert (B : pos_exps re_B) by (intros i _; cbn; lra). split; split; assumption.
Qed.
Lemma re_side (S : @pairs Rcring) : S = re_bra \/ S = re_ket ->
  (forall t, (t < ps_n S)%nat -> (0 < sp_np (ps_pr S t))%nat) /\ exists ord, block_ok 2 2 S (re_block S) ord 1.
Proof.
  intros HS.
  assert (B : screen_fits 2 2 (ps_meth S) (ps_n S) (ps_pr S)).
  { intros t Ht. destruct HS as [-> | ->]; cbn [ps_n re_bra re_ket] in Ht; (destruct t; [vm_compute; lia|lia]). }
  assert (C : forall t, (t < ps_n S)%nat -> (0 < sp_np (ps_pr S t))%nat).
  { intros t Ht. destruct HS as [-> | ->]; cbn [ps_n re_bra re_ket] in Ht; (destruct t; [vm_compute; lia|lia]). }
  split; [exact C|].
  destruct (@created Rcring 2 2 S (fun _ => 0%Z) 1) as (m & ord & E & H & _); auto.
  - exists 1%nat. reflexivity.
  - intros t _ E. destruct HS as [-> | ->]; discriminate E.
  - destruct HS as [-> | ->]; cbn; lia.
  - exists ord. unfold re_block. rewrite E. exact H.
Qed.
(** Numbers above all diagonal integrals. *)
Lemma nat_above (x : R) : exists m, x <= INR m.
Proof.
  exists (Z.to_nat (Rdefinitions.up x)). destruct (archimed x) as [H _]. rewrite INR_IZR_INZ. apply Rlt_le, (Rlt_le_trans _ _ _ (Rgt_lt _ _ H)), IZR_le. lia.
Qed.
Lemma above (A : Type) (f : A -> R) l : exists n, forall x, In x l -> f x <= INR n.
Proof.
  induction l as [|y l [n IH]]; [exists 0%nat; intros x []|]. destruct (nat_above (f y)) as [m Hm].
  exists (n + m)%nat. rewrite plus_INR. pose proof (pos_INR n). pose proof (pos_INR m). intros x [<-|Hx]; [lra|]. specialize (IH x Hx). lra.
Qed.
Lemma re_covers c52 la lb (S : @pairs Rcring) : (S = re_bra \/ S = re_ket) -> exists n : nat, forall t i j x, In (i, j) (sp_prims (ps_pr S t)) -> comp_of la lb x ->
  diag_real c52 (ps_A S t) (ps_B S t) i j x <= Q2R (inject_Z (Z.of_nat n)).
Proof.
  intros HS. set (L := list_prod (sp_prims (ps_pr S 0)) (sc_comps la lb)).
  destruct (above _ (fun y => diag_real c52 (ps_A S 0) (ps_B S 0) (fst (fst y)) (snd (fst y)) (snd y)) L) as [n H].
  exists n. intros t i j [x y] Hij [Hx Hy]. cbn [fst snd] in *. replace (Q2R (inject_Z (Z.of_nat n))) with (INR n).
  - assert (E : ps_A S t = ps_A S 0 /\ ps_B S t = ps_B S 0 /\ ps_pr S t = ps_pr S 0) by (destruct HS as [-> | ->]; repeat split). destruct E as (-> & -> & E). rewrite E in Hij.
    apply (H ((i, j), (x, y))). unfold L. apply in_prod; [exact Hij|]. unfold sc_comps. apply in_prod; rewrite targets1_ok by apply psi4_starts; apply (o_in psi4); assumption.
  - unfold Q2R. cbn [Qnum Qden inject_Z]. rewrite Rinv_1, Rmult_1_r. apply INR_IZR_INZ.
Qed.
Lemma re_aligned scr mx : bra_aligned 2 2 (batch_of re_bra 1 scr mx).
Proof. intros g Hg. destruct g; [exists 2%nat; reflexivity|]. cbn [batch_of b_clip] in Hg. lia. Qed.
