(** The repulsion integrals of Cartesian Gaussians are determined by those of s functions and by differentiation with
    respect to the centres.  This characterises what the kernels compute without the Obara-Saika recurrence. *)
From Coq Require Import List Arith ZArith QArith Reals Qreals Lra Lia Permutation.
Import ListNotations.
From Verif Require Import Base Cart QList HRRStep HRRAlgo HRROrder HRRExec VRRStep VRRAlgo VRRExec Kernel KernelSpec Layout Create PairData Mdir Driver
  OSFamily EndToEnd EndToEndProof Normalize BoysReal OSMoves DerivKernel RealDeriv RealRepulsive RealDerivKernel.
Local Open Scope R_scope.

(** ** Specification *)
(** Repulsion of four s functions [exp (- alpha |r - A|^2)] as in textbooks, with [k] for 2 pi^(5/2). *)
Definition between (u v : dir -> R) : R := (u DX - v DX) * (u DX - v DX) + (u DY - v DY) * (u DY - v DY) + (u DZ - v DZ) * (u DZ - v DZ).
Definition s_repulsion (k : R) (a b c e : @gauss Rcring) : R :=
  let p := g_exp a + g_exp b in let q := g_exp c + g_exp e in
  k / (p * q * sqrt (p + q)) * exp (- (g_exp a * g_exp b / p * between (g_at a) (g_at b))) * exp (- (g_exp c * g_exp e / q * between (g_at c) (g_at e))) *
  boysR 0 (p * q / (p + q) * between (fun i => (g_exp a * g_at a i + g_exp b * g_at b i) / p) (fun i => (g_exp c * g_at c i + g_exp e * g_at e i) / q)).
(** A Cartesian Gaussian (x - A_x)^l ... exp (- alpha |r - A|^2) differentiated with respect to A_i is 2 alpha times the one with the
    power of direction i raised minus that power times the one with the power lowered.  So the integrals obey: *)
Definition obeys (G : @gauss Rcring -> @gauss Rcring -> @gauss Rcring -> @gauss Rcring -> qrt -> R) (a b c e : @gauss Rcring) (x : ctr) (i : dir) (q : qrt) : Prop :=
  derivable_pt_lim (fun t => G (shift x i t CI a) (shift x i t CJ b) (shift x i t CK c) (shift x i t CL e) q) 0
    (2 * g_exp (pick a b c e x) * G a b c e (craise x i q)
     - match clower x i q with Some q' => INR (gexp i (cget x q)) * G a b c e q' | None => 0 end).
Definition pos4 (a b c e : @gauss Rcring) : Prop := 0 < g_exp a /\ 0 < g_exp b /\ 0 < g_exp c /\ 0 < g_exp e.
Definition integrals (k : R) (G : @gauss Rcring -> @gauss Rcring -> @gauss Rcring -> @gauss Rcring -> qrt -> R) : Prop :=
  forall a b c e, pos4 a b c e -> G a b c e OSFamily.q0 = s_repulsion k a b c e /\ forall x i q, obeys G a b c e x i q.

Fixpoint sum_to (n : nat) (f : nat -> R) : R := match n with O => 0 | S m => sum_to m f + f m end.
Definition gauss_at (S : @shell Rcring) (i : nat) : @gauss Rcring := @Gauss Rcring (sh_alpha S i) (fun d => sh_pos S (idx_of_dir d)).

(** ** Proof *)
Lemma ofnat_INR n : @ofnat Rcring n = INR n.
Proof. induction n; [reflexivity|]. rewrite S_INR. cbn [ofnat]. rewrite IHn. flat. change (@c1 Rcring) with 1. match goal with |- ?x = ?y => change (@eq R x y) end. ring. Qed.

Section Given.
Variables (c52 k : R).
Hypothesis Hk : c52 * c52 = k.
Local Notation P := (@prim_eri Rcring Rinv exp sqrt boysR (/ 2) c52).

Lemma start_textbook a b c e : pos4 a b c e -> P a b c e OSFamily.q0 = s_repulsion k a b c e.
Proof.
  intros (Pa & Pb & Pc & Pe). unfold prim_eri. rewrite os_value_start. unfold eri_start, s_repulsion, overlap_exp, rho, gcen, dist2, between, Rdiv. unfold gp.
  flat. rewrite Hk. rewrite sqrt_inv. rewrite !Rinv_mult. match goal with |- ?x = ?y => change (@eq R x y) end. 
  repeat match goal with |- context [boysF ?n ?w] => generalize (boysF n w); intro end.
  repeat match goal with |- context [exp ?w] => generalize (exp w); intro end. ring.
Qed.
Lemma prim_integrals : integrals k P.
Proof.
  intros a b c e Hp. split; [apply start_textbook, Hp|]. destruct Hp as (Pa & Pb & Pc & Pe). intros x i q. unfold obeys.
  pose proof (@prim_moves c52 a b c e x i Pa Pb Pc Pe q) as M. unfold prim_deriv, minus_lowered in M.
  destruct (clower x i q) as [q'|].
  - rewrite ofnat_INR in M. destruct x; exact M.
  - destruct x; exact M.
Qed.

Lemma shift_pos x i t a b c e : pos4 a b c e -> pos4 (shift x i t CI a) (shift x i t CJ b) (shift x i t CK c) (shift x i t CL e).
Proof. unfold pos4. rewrite !shift_exp. tauto. Qed.
Lemma not_s q : q = OSFamily.q0 \/ exists x i q', q = craise x i q' /\ (qdeg q' < qdeg q)%nat /\
  forall r, clower x i q' = Some r -> (qdeg r < qdeg q)%nat.
Proof.
  destruct (Nat.eq_dec (qdeg q) 0) as [Z|Z]; [left; apply qdeg_zero, Z|right].
  destruct (@qdeg_pos q) as (x & i & q' & ->); [lia|]. exists x, i, q'. split; [reflexivity|]. rewrite qdeg_raise. split; [lia|].
  intros r Hr. apply clower_some in Hr. subst q'. rewrite qdeg_raise. lia.
Qed.

Theorem integrals_unique G : integrals k G -> forall q a b c e, pos4 a b c e -> G a b c e q = P a b c e q.
Proof.
  intros HG. intros q. remember (qdeg q) as n eqn:En. revert q En. induction n as [n IH] using lt_wf_ind. intros q En a b c e Hp.
  destruct (not_s q) as [->|(x & i & q' & -> & L & Lr)].
  - rewrite start_textbook by exact Hp. apply HG, Hp.
  - destruct (HG a b c e Hp) as [_ HGd]. destruct (prim_integrals a b c e Hp) as [_ HPd].
    specialize (HGd x i q'). specialize (HPd x i q'). unfold obeys in HGd, HPd.
    assert (Eq : forall t, P (shift x i t CI a) (shift x i t CJ b) (shift x i t CK c) (shift x i t CL e) q' =
                           G (shift x i t CI a) (shift x i t CJ b) (shift x i t CK c) (shift x i t CL e) q').
    { intros t. symmetry. apply (IH (qdeg q')); [lia|reflexivity|]. apply shift_pos, Hp. }
    apply (derivable_pt_lim_ext _ _ _ _ Eq) in HPd.
    pose proof (uniqueness_limite _ _ _ _ HGd HPd) as U.
    assert (Z : 0 < g_exp (pick a b c e x)) by (destruct Hp as (? & ? & ? & ?); destruct x; assumption).
    destruct (clower x i q') as [r|] eqn:Er.
    + rewrite (IH (qdeg r) ltac:(subst n; apply Lr; reflexivity) r eq_refl a b c e Hp) in U.
      apply (Rmult_eq_reg_l (2 * g_exp (pick a b c e x))); [|apply Rgt_not_eq; lra].
      match type of U with ?X - ?Z = ?Y - ?Z => replace X with (X - Z + Z) by ring end. rewrite U. match goal with |- ?X = ?Y => change (@eq R X Y) end. ring.
    + apply (Rmult_eq_reg_l (2 * g_exp (pick a b c e x))); [|apply Rgt_not_eq; lra].
      match type of U with ?X - 0 = ?Y - 0 => replace X with (X - 0) by ring end. rewrite U. match goal with |- ?X = ?Y => change (@eq R X Y) end. ring.
Qed.

(** The contracted integral: coefficients times the integrals of the primitives, all primitives of each shell. *)
Definition contracted (G : @gauss Rcring -> @gauss Rcring -> @gauss Rcring -> @gauss Rcring -> qrt -> R) (A B C D : @shell Rcring) (q : qrt) : R :=
  sum_to (sh_n A) (fun i => sum_to (sh_n B) (fun j => sum_to (sh_n C) (fun l => sum_to (sh_n D) (fun m =>
    sh_coef A i * sh_coef B j * sh_coef C l * sh_coef D m * G (gauss_at A i) (gauss_at B j) (gauss_at C l) (gauss_at D m) q)))).
Lemma summed_over A f : @over Rcring A f = sum_to (sh_n A) f.
Proof.
  unfold over. assert (H : forall n s, @rsum Rcring (map f (seq s n)) = sum_to n (fun i => f (s + i)%nat)).
  { induction n as [|n IH]; intros s; [reflexivity|]. rewrite seq_S, map_app, rsum_app, IH. cbn [map rsum sum_to]. flat. change (@c0 Rcring) with 0.
    match goal with |- ?x = ?y => change (@eq R x y) end. cbn [fold_right]. ring. }
  rewrite H. reflexivity.
Qed.
Lemma sum_ext n f g : (forall i, (i < n)%nat -> f i = g i) -> sum_to n f = sum_to n g.
Proof. induction n as [|n IH]; intros H; [reflexivity|]. cbn. rewrite IH, (H n) by (try lia; intros; apply H; lia). reflexivity. Qed.
Theorem contracted_unique G : integrals k G -> forall A B C D q, pos_exps A -> pos_exps B -> pos_exps C -> pos_exps D ->
  @eri Rcring Rinv exp sqrt boysR (/ 2) c52 A B C D q = contracted G A B C D q.
Proof.
  intros HG A B C D q PA PB PC PD. unfold eri, contracted.
  rewrite summed_over. apply sum_ext. intros i Hi. rewrite summed_over. apply sum_ext. intros j Hj.
  rewrite summed_over. apply sum_ext. intros l Hl. rewrite summed_over. apply sum_ext. intros m Hm.
  rewrite (@integrals_unique G HG q (gauss_at A i) (gauss_at B j) (gauss_at C l) (gauss_at D m)). 1: reflexivity.
  split; [|split; [|split]]; [exact (PA i Hi)|exact (PB j Hj)|exact (PC l Hl)|exact (PD m Hm)].
Qed.
End Given.

(** The whole kernel. *)
Theorem kernel_unique (c52 k : R) : c52 * c52 = k -> forall G, integrals k G -> forall (g : @gen Rcring) (c : qam), setup_ok g c ->
  forall (kd : call_kind) (len nss : nat), kind_len kd len -> (0 < nss)%nat -> Nat.divide len nss ->
  forall bra ket : @pairs Rcring, (forall t, (t < ps_n bra)%nat -> ps_same bra t = true -> ps_B bra t = ps_A bra t) ->
  (forall t, (t < ps_n ket)%nat -> ps_same ket t = true -> ps_B ket t = ps_A ket t) ->
  screen_fits len nss (ps_meth bra) (ps_n bra) (ps_pr bra) -> screen_fits len nss (ps_meth ket) (ps_n ket) (ps_pr ket) ->
  (forall t, (t < ps_n bra)%nat -> (0 < sp_np (ps_pr bra t))%nat) -> (forall t, (t < ps_n ket)%nat -> (0 < sp_np (ps_pr ket t))%nat) ->
  (forall t, (t < ps_n bra)%nat -> pos_exps (ps_A bra t) /\ pos_exps (ps_B bra t)) ->
  (forall t, (t < ps_n ket)%nat -> pos_exps (ps_A ket t) /\ pos_exps (ps_B ket t)) ->
  forall kfb kfk nb nk scrb scrk mxb mxk tol zf out, (nb <= ps_n bra)%nat -> (nk <= ps_n ket)%nat -> (tol <= 0)%Q ->
  bra_aligned len nss (batch_of bra nb scrb mxb) -> (nb * nk * qncart c <= length out)%nat ->
  exists mb mk d, ps_create len nss bra kfb = Some mb /\ ps_create len nss ket kfk = Some mk /\
    @whole_kernel Rcring Rinv exp sqrt boysR (/ 2) c52 g c kd len nss bra ket mb mk
      (batch_of bra nb scrb mxb) (batch_of ket nk scrk mxk) tol zf out = Some (d, (nb * nk)%nat) /\
    forall ab cd q, (ab < nb)%nat -> (cd < nk)%nat -> qclass q = c ->
      nth_error d ((ab * nk + cd) * qncart c + qindex (e_o (g_E g)) q) =
      Some (contracted G (ps_A bra ab) (ps_B bra ab) (ps_A ket cd) (ps_B ket cd) q).
Proof.
  intros Hc G HG g c Hg kd len nss Hk Hn Hd bra ket Sb Sk Fb Fk Nb Nk Pb Pk kfb kfk nb nk scrb scrk mxb mxk tol zf out Cb Ck Ht Hal Hout.
  destruct (@kernel_created Rcring Rinv exp sqrt boysR (/ 2) c52 g c Hg kd len nss Hk Hn Hd bra ket Sb Sk Fb Fk Nb Nk) with
    (kfb := kfb) (kfk := kfk) (nb := nb) (nk := nk) (scrb := scrb) (scrk := scrk) (mxb := mxb) (mxk := mxk) (tol := tol) (zf := zf) (out := out)
    as (mb & mk & r & Eb & Ek & Er & _ & V & _); try assumption.
  exists mb, mk, r. split; [exact Eb|]. split; [exact Ek|]. split; [exact Er|].
  intros ab cd q Ha Hcd Eq. rewrite (V ab cd q Ha Hcd Eq). f_equal.
  destruct (Pb ab ltac:(lia)), (Pk cd ltac:(lia)). apply (@contracted_unique c52 k Hc G HG); assumption.
Qed.


(** ** Example *)
(** Four equal s functions of exponent 1: 2 pi^(5/2) / (4 sqrt 4). *)
Lemma same_s (k : R) (a : @gauss Rcring) : g_exp a = 1 -> s_repulsion k a a a a = k / (4 * 2).
Proof.
  intros E. unfold s_repulsion. rewrite E. 
  assert (Z : forall u : dir -> R, between u u = 0) by (intros u; unfold between; ring). rewrite !Z.
  rewrite !Rmult_0_r, Ropp_0, exp_0. rewrite boys_at_zero. cbn [INR].
  replace (1 + 1 + (1 + 1)) with (2 * 2) by ring. rewrite sqrt_square by lra. field.
Qed.
