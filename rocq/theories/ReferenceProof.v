(** The reference of the tests gives the value the kernels are specified by. *)
From Coq Require Import List Arith ZArith Reals Lra Lia Factorial Bool.
Import ListNotations.
From Verif Require Import Base Cart QList VRRStep OSFamily OSSplit EndToEnd Normalize SeqConv Moments Expect Reference.
From Verif Require RealUnique.
Local Open Scope R_scope.

Lemma fac_loop_fact n : fac_loop n = INR (fact n).
Proof. induction n as [|n IH]; [reflexivity|]. cbn [fac_loop]. rewrite IH, fact_S. ring. Qed.
(** *** Any values of the Boys function *)
Lemma poly_zero N : forall c : nat -> R, (forall u, upto N (fun k => c k * u ^ k) = 0) -> forall k, (k <= N)%nat -> c k = 0.
Proof.
  induction N as [|N IH]; intros c Hz k Hk.
  - assert (k = 0)%nat as -> by lia. specialize (Hz 0). cbn in Hz. lra.
  - assert (Z : forall k, (k <= N)%nat -> c k = 0).
    { intros j Hj. assert (E : c j * (2 ^ j - 2 ^ S N) = 0).
      { apply (IH (fun k => c k * (2 ^ k - 2 ^ S N))); [|exact Hj]. intros u. pose proof (Hz (2 * u)) as P2. pose proof (Hz u) as P1. cbn [upto] in P1, P2.
        transitivity (upto N (fun k => c k * (2 * u) ^ k) + - 2 ^ S N * upto N (fun k => c k * u ^ k)).
        - rewrite <- upto_scal, <- upto_plus. apply upto_ext. intros i _. rewrite Rpow_mult_distr. ring.
        - rewrite Rpow_mult_distr in P2. assert (A : upto N (fun k => c k * u ^ k) = - (c (S N) * u ^ S N)) by lra.
          assert (B : upto N (fun k => c k * (2 * u) ^ k) = - (c (S N) * (2 ^ S N * u ^ S N))) by lra. rewrite A, B. ring. }
      apply Rmult_integral in E. destruct E as [E|E]; [exact E|]. exfalso.
      assert (L : 2 ^ j < 2 ^ S N) by (apply Rlt_pow; [lra|lia]). lra. }
    destruct (Nat.eq_dec k (S N)) as [->|Nk]; [|apply Z; lia]. specialize (Hz 1). cbn [upto] in Hz.
    rewrite (upto_ext N _ (fun _ => 0)) in Hz by (intros; rewrite Z by lia; ring). rewrite upto_0, pow1 in Hz. lra.
Qed.
Definition linear (N : nat) (Phi : (nat -> R) -> R) : Prop := exists c : nat -> R, forall F, Phi F = upto N (fun k => c k * F k).
Lemma linear_agree N Phi Psi : linear N Phi -> linear N Psi -> (forall u, Phi (fun m => u ^ m) = Psi (fun m => u ^ m)) -> forall F, Phi F = Psi F.
Proof.
  intros [c Hc] [d Hd] E F. rewrite Hc, Hd. apply upto_ext. intros k Hk.
  enough (Z : c k - d k = 0) by (replace (c k) with (d k) by lra; reflexivity).
  apply (poly_zero N (fun k => c k - d k)); [|exact Hk]. intros u. specialize (E u). rewrite Hc, Hd in E.
  transitivity (upto N (fun k => c k * u ^ k) + -1 * upto N (fun k => d k * u ^ k)); [|rewrite E; ring].
  rewrite <- upto_scal, <- upto_plus. apply upto_ext. intros; ring.
Qed.
Lemma linear_upto N n (Phi : nat -> (nat -> R) -> R) : (forall i, (i <= n)%nat -> linear N (Phi i)) -> linear N (fun F => upto n (fun i => Phi i F)).
Proof.
  induction n as [|n IH]; intros Hl; [apply Hl; lia|]. destruct IH as [c Hc]; [intros; apply Hl; lia|]. destruct (Hl (S n) ltac:(lia)) as [d Hd].
  exists (fun k => c k + d k). intros F. cbn [upto]. rewrite Hc, Hd, <- upto_plus. apply upto_ext. intros; ring.
Qed.
Lemma linear_at N m x : (m <= N)%nat -> linear N (fun F => x * F m).
Proof.
  intros L. exists (fun k => if (k =? m)%nat then x else 0). intros F. revert L. induction N as [|N IH]; intros L.
  - assert (m = 0)%nat as -> by lia. reflexivity.
  - cbn [upto]. destruct (Nat.eqb_spec (S N) m) as [<-|Nm].
    + rewrite (upto_ext N _ (fun _ => 0)); [rewrite upto_0; ring|]. intros k Hk. destruct (Nat.eqb_spec k (S N)); [lia|ring].
    + rewrite <- IH by lia. ring.
Qed.
Lemma linear_ext N Phi Psi : (forall F, Phi F = Psi F) -> linear N Phi -> linear N Psi.
Proof. intros E [c Hc]. exists c. intros F. rewrite <- E. apply Hc. Qed.
Lemma linear_more N M Phi : (N <= M)%nat -> linear N Phi -> linear M Phi.
Proof.
  intros L [c Hc]. exists (fun k => if (k <=? N)%nat then c k else 0). intros F. rewrite Hc. symmetry. rewrite (upto_cut N M); [|exact L|intros i Hi; destruct (Nat.leb_spec i N); [lia|ring]].
  apply upto_ext. intros k Hk. destruct (Nat.leb_spec k N); [reflexivity|lia].
Qed.
(** Only the first elements of the table of the Boys function matter. *)
Lemma linear_first N Phi : linear N Phi -> forall F G, (forall k, (k <= N)%nat -> F k = G k) -> Phi F = Phi G.
Proof. intros [c Hc] F G E. rewrite !Hc. apply upto_ext. intros k Hk. rewrite E by exact Hk. reflexivity. Qed.

(** *** The values of the recurrence *)
Lemma lcomb_linear (l : list (R * nat)) : exists N, linear N (fun F => @lcomb Rcring l F).
Proof.
  induction l as [|[x m] l [N IH]].
  - exists 0%nat. exists (fun _ => 0). intros F. cbn. ring.
  - exists (N + m)%nat. destruct (linear_more N (N + m) _ ltac:(lia) IH) as [c Hc]. destruct (linear_at (N + m) m x ltac:(lia)) as [d Hd].
    exists (fun k => c k + d k). intros F. specialize (Hc F). specialize (Hd F). cbn [lcomb fst snd].
    rewrite (upto_ext _ _ (fun k => d k * F k + c k * F k)) by (intros; ring). rewrite upto_plus, <- Hc, <- Hd. reflexivity.
Qed.
Lemma os_linear (K : @vcoef Rcring) q : exists N, linear N (fun F => @os_value Rcring K F 0 q).
Proof.
  destruct (@os_comb Rcring K q 0%nat) as [l Hl]. destruct (lcomb_linear l) as [N HN]. exists N. eapply linear_ext; [|exact HN].
  intros F. cbn beta. symmetry. apply Hl.
Qed.
Section Junk.
Variable junk : nat -> R.
Local Notation fac := (fac junk).
Lemma fac_ok n : (n < 200)%nat -> fac n = INR (fact n).
Proof. intros L. unfold Reference.fac, rd, maxfac. destruct (Nat.ltb_spec n 200) as [_|]; [apply fac_loop_fact|lia]. Qed.
Lemma f_coef_ok l1 l2 x1 x2 k : (l1 < 200)%nat -> (l2 < 200)%nat -> f_coef junk l1 l2 x1 x2 k = pc l1 l2 x1 x2 k.
Proof.
  intros L1 L2. unfold f_coef, pc, conv. symmetry. rewrite (upto_cut (min k l1) k); [|lia|].
  - apply upto_ext. intros i Hi. cbn zeta. destruct (Nat.ltb_spec l2 (k - i)) as [A|A]; [rewrite (bin_out l2) by lia; ring|].
    unfold bin, bc, maxfac. destruct (Nat.leb_spec i l1) as [_|]; [|lia]. destruct (Nat.leb_spec (k - i) l2) as [_|]; [|lia].
    destruct (Nat.ltb_spec l1 200) as [_|]; [|lia]. destruct (Nat.ltb_spec l2 200) as [_|]; [|lia]. cbn [andb].
    rewrite !fac_ok by lia. unfold C.
    assert (E : forall x n, (if (0 <? n)%nat then x ^ n else 1) = x ^ n) by (intros x [|n]; reflexivity). rewrite !E.
    field. repeat split; apply fact_pos.
  - intros i Hi. rewrite (bin_out l1) by lia. ring.
Qed.

(** *** One direction *)
Lemma neg_pow gp a b : gp <> 0 -> (a <= b)%nat -> powerRZ gp (Z.of_nat a - Z.of_nat b) = / gp ^ (b - a).
Proof.
  intros G L. replace (Z.of_nat a - Z.of_nat b)%Z with (- Z.of_nat (b - a))%Z by lia. rewrite powerRZ_neg' by exact G. rewrite <- pow_powerRZ. reflexivity.
Qed.
Definition inner (gpq z u : R) (u1 u2 n t : nat) : R :=
  (-1) ^ t * z ^ (n - 2 * t) * u ^ (n - t) / (4 ^ (u1 + u2 + t) * gpq ^ t * fac (n - 2 * t) * fac t).
Definition one_sum (gp gq gpq z u : R) (fp fq : nat -> R) (L1 L2 : nat) : R :=
  loops L1 L2 (fun lp lq u1 u2 => g_coef junk gp gq gpq fp fq lp lq u1 u2 * upto ((lp + lq - 2 * u1 - 2 * u2) / 2) (inner gpq z u u1 u2 (lp + lq - 2 * u1 - 2 * u2))).
Lemma cser_sum r u z n : cser r u z n = upto (n / 2) (fun t => ser (- (r * u / 4)) t * ser (r * u * z) (n - 2 * t)).
Proof. symmetry. apply steps_conv. Qed.
Lemma H_sum gp gq r u z p q : H gp gq r u z p q =
  upto (p / 2) (fun u1 => upto (q / 2) (fun u2 => INR (fact p) * INR (fact q) * (ser (/ (4 * gp)) u1 * (ser (/ (4 * gq)) u2 * X gp gq r u z (p - 2 * u1) (q - 2 * u2))))).
Proof.
  unfold H, h, serp, sq. rewrite <- steps_conv. rewrite <- upto_scal. apply upto_ext. intros u1 _. unfold Y, serq, sq. rewrite <- steps_conv.
  rewrite <- !upto_scal. apply upto_ext. intros u2 _. reflexivity.
Qed.
Lemma two_half n m : (m <= n / 2)%nat -> (2 * m <= n)%nat.
Proof. intros L. pose proof (Nat.div_mod n 2 ltac:(lia)). lia. Qed.
Lemma g_inner gp gq r z u p q u1 u2 f g : gp <> 0 -> gq <> 0 -> r <> 0 -> (u1 <= p / 2)%nat -> (u2 <= q / 2)%nat -> (p + q < 200)%nat ->
  g_coef junk gp gq r f g p q u1 u2 * upto ((p + q - 2 * u1 - 2 * u2) / 2) (inner r z u u1 u2 (p + q - 2 * u1 - 2 * u2)) =
  f p * g q * (INR (fact p) * INR (fact q) * (ser (/ (4 * gp)) u1 * (ser (/ (4 * gq)) u2 * X gp gq r u z (p - 2 * u1) (q - 2 * u2)))).
Proof.
  intros Gp Gq Gr U1 U2 L. apply two_half in U1. apply two_half in U2.
  set (i := (p - 2 * u1)%nat). set (j := (q - 2 * u2)%nat). replace (p + q - 2 * u1 - 2 * u2)%nat with (i + j)%nat by (unfold i, j; lia).
  unfold X, ch. rewrite cser_sum. rewrite <- !upto_scal. apply upto_ext. intros t Ht. apply two_half in Ht.
  unfold g_coef, inner. replace (p + q - 2 * u1 - 2 * u2)%nat with (i + j)%nat by (unfold i, j; lia). fold i j.
  rewrite !fac_ok by lia. rewrite !neg_pow by (try assumption; lia).
  replace (p - u1)%nat with (i + u1)%nat by (unfold i; lia). replace (q - u2)%nat with (j + u2)%nat by (unfold j; lia).
  replace ((-1) ^ p) with ((-1) ^ i) by (replace p with (2 * u1 + i)%nat by (unfold i; lia); rewrite pow_add, pow_1_even; ring).
  unfold ser. set (m := (i + j - 2 * t)%nat). replace (i + j - t)%nat with (m + t)%nat by (unfold m; lia). replace (i + j)%nat with (m + 2 * t)%nat at 2 by (unfold m; lia).
  rewrite !Rpow_mult_distr, !pow_add, !pow_inv. 
  replace ((- / gp) ^ i) with ((-1) ^ i * / gp ^ i) by (replace (- / gp) with ((-1) * / gp) by ring; rewrite Rpow_mult_distr, pow_inv; reflexivity).
  replace ((- (r * u / 4)) ^ t) with ((-1) ^ t * r ^ t * u ^ t * / 4 ^ t)
    by (replace (- (r * u / 4)) with ((-1) * r * u * / 4) by field; rewrite !Rpow_mult_distr, pow_inv; reflexivity).
  rewrite pow_mult. replace (r ^ 2) with (r * r) by ring. rewrite Rpow_mult_distr. rewrite !Rpow_mult_distr.
  field. repeat split; try apply fact_pos; try apply pow_nonzero; lra || assumption.
Qed.
Lemma one_sum_J gp gq r z u l1 l2 l3 l4 x1 x2 x3 x4 (fp fq : nat -> R) : gp <> 0 -> gq <> 0 -> r <> 0 -> (l1 + l2 + l3 + l4 < 200)%nat ->
  (forall k, (k <= l1 + l2)%nat -> fp k = pc l1 l2 x1 x2 k) -> (forall k, (k <= l3 + l4)%nat -> fq k = pc l3 l4 x3 x4 k) ->
  one_sum gp gq r z u fp fq (l1 + l2) (l3 + l4) = J gp gq r u z x1 x2 x3 x4 l1 l2 l3 l4.
Proof.
  intros Gp Gq Gr L Fp Fq. unfold one_sum, loops, J, Lam. apply upto_ext. intros p Hp. apply upto_ext. intros q Hq.
  rewrite H_sum. rewrite <- upto_scal. apply upto_ext. intros u1 H1. rewrite <- upto_scal. apply upto_ext. intros u2 H2.
  rewrite g_inner by (try assumption; lia). rewrite Fp, Fq by assumption. reflexivity.
Qed.

(** *** Three directions *)
Lemma loops_ext L1 L2 f g : (forall p q u1 u2, (p <= L1)%nat -> (q <= L2)%nat -> (u1 <= p / 2)%nat -> (u2 <= q / 2)%nat -> f p q u1 u2 = g p q u1 u2) ->
  loops L1 L2 f = loops L1 L2 g.
Proof. intros E. unfold loops. apply upto_ext. intros p Hp. apply upto_ext. intros q Hq. apply upto_ext. intros u1 H1. apply upto_ext. intros u2 H2. apply E; assumption. Qed.
Lemma loops_scal L1 L2 x f : loops L1 L2 (fun p q u1 u2 => x * f p q u1 u2) = x * loops L1 L2 f.
Proof.
  unfold loops. rewrite <- upto_scal. apply upto_ext. intros p _. rewrite <- upto_scal. apply upto_ext. intros q _.
  rewrite <- upto_scal. apply upto_ext. intros u1 _. rewrite <- upto_scal. reflexivity.
Qed.
Lemma loops_scal_r L1 L2 x f : loops L1 L2 (fun p q u1 u2 => f p q u1 u2 * x) = loops L1 L2 f * x.
Proof. rewrite Rmult_comm, <- loops_scal. apply loops_ext. intros. ring. Qed.
Lemma upto_triple n1 n2 n3 a b c : upto n1 (fun i => upto n2 (fun j => upto n3 (fun k => a i * b j * c k))) = upto n1 a * upto n2 b * upto n3 c.
Proof.
  rewrite Rmult_assoc, <- upto_scal_r. apply upto_ext. intros i _. rewrite <- upto_scal_r, <- upto_scal. apply upto_ext. intros j _. rewrite upto_scal. ring.
Qed.
Lemma term_split gpq PQx PQy PQz Gx Gy Gz u lp lq u1 u2 mp mq v1 v2 np nq w1 w2 tx ty tz : gpq <> 0 ->
  (2 * u1 <= lp)%nat -> (2 * u2 <= lq)%nat -> (2 * v1 <= mp)%nat -> (2 * v2 <= mq)%nat -> (2 * w1 <= np)%nat -> (2 * w2 <= nq)%nat ->
  (2 * tx <= lp + lq - 2 * u1 - 2 * u2)%nat -> (2 * ty <= mp + mq - 2 * v1 - 2 * v2)%nat -> (2 * tz <= np + nq - 2 * w1 - 2 * w2)%nat ->
  (lp + lq < 200)%nat -> (mp + mq < 200)%nat -> (np + nq < 200)%nat ->
  term junk gpq PQx PQy PQz Gx Gy Gz (fun m => u ^ m) lp lq u1 u2 mp mq v1 v2 np nq w1 w2 tx ty tz =
  Gx * inner gpq PQx u u1 u2 (lp + lq - 2 * u1 - 2 * u2) tx * (Gy * inner gpq PQy u v1 v2 (mp + mq - 2 * v1 - 2 * v2) ty) *
  (Gz * inner gpq PQz u w1 w2 (np + nq - 2 * w1 - 2 * w2) tz).
Proof.
  intros G A1 A2 A3 A4 A5 A6 B1 B2 B3 C1 C2 C3. unfold term, inner. cbn zeta.
  assert (E : (lp + lq + mp + mq + np + nq - 2 * u1 - 2 * u2 - 2 * v1 - 2 * v2 - 2 * w1 - 2 * w2 - tx - ty - tz)%nat =
    ((lp + lq - 2 * u1 - 2 * u2 - tx) + (mp + mq - 2 * v1 - 2 * v2 - ty) + (np + nq - 2 * w1 - 2 * w2 - tz))%nat).
  { clear C1 C2 C3 G. rewrite <- !Nat.sub_add_distr in *. lia. }
  rewrite E. clear E.
  assert (F1 : (lp + lq - 2 * u1 - 2 * u2 - 2 * tx < 200)%nat) by (clear - C1; lia).
  assert (F2 : (mp + mq - 2 * v1 - 2 * v2 - 2 * ty < 200)%nat) by (clear - C2; lia).
  assert (F3 : (np + nq - 2 * w1 - 2 * w2 - 2 * tz < 200)%nat) by (clear - C3; lia).
  assert (F4 : (tx < 200)%nat) by (clear - C1 B1; lia). assert (F5 : (ty < 200)%nat) by (clear - C2 B2; lia). assert (F6 : (tz < 200)%nat) by (clear - C3 B3; lia).
  rewrite !fac_ok by assumption. clear A1 A2 A3 A4 A5 A6 B1 B2 B3 C1 C2 C3 F1 F2 F3 F4 F5 F6.
  replace (u1 + u2 + tx + v1 + v2 + ty + w1 + w2 + tz)%nat with ((u1 + u2 + tx) + (v1 + v2 + ty) + (w1 + w2 + tz))%nat by lia.
  rewrite (pow_add u (_ + _)), (pow_add u (lp + lq - 2 * u1 - 2 * u2 - tx)), (pow_add 4 (_ + _)), (pow_add 4 (u1 + u2 + tx)), (pow_add (-1) (tx + ty)), (pow_add (-1) tx).
  field. repeat split; try apply fact_pos; try apply pow_nonzero; lra || assumption.
Qed.
Lemma ref_sum_split gp gq gpq PQx PQy PQz fxp fxq fyp fyq fzp fzq u L1 L2 M1 M2 N1 N2 : gpq <> 0 ->
  (L1 + L2 < 200)%nat -> (M1 + M2 < 200)%nat -> (N1 + N2 < 200)%nat ->
  ref_sum junk gp gq gpq PQx PQy PQz fxp fxq fyp fyq fzp fzq (fun m => u ^ m) L1 L2 M1 M2 N1 N2 =
  one_sum gp gq gpq PQx u fxp fxq L1 L2 * one_sum gp gq gpq PQy u fyp fyq M1 M2 * one_sum gp gq gpq PQz u fzp fzq N1 N2.
Proof.
  intros G HL HM HN. unfold ref_sum, one_sum. rewrite Rmult_assoc, <- loops_scal_r. apply loops_ext. intros lp lq u1 u2 Hp Hq H1 H2. cbn zeta.
  rewrite <- loops_scal_r, <- loops_scal. apply loops_ext. intros mp mq v1 v2 Mp Mq V1 V2. cbn zeta.
  rewrite <- loops_scal, <- loops_scal. apply loops_ext. intros np nq w1 w2 Np Nq W1 W2. cbn zeta.
  apply two_half in H1, H2, V1, V2, W1, W2.
  set (A := fun tx => g_coef junk gp gq gpq fxp fxq lp lq u1 u2 * inner gpq PQx u u1 u2 (lp + lq - 2 * u1 - 2 * u2) tx).
  set (B := fun ty => g_coef junk gp gq gpq fyp fyq mp mq v1 v2 * inner gpq PQy u v1 v2 (mp + mq - 2 * v1 - 2 * v2) ty).
  set (E := fun tz => g_coef junk gp gq gpq fzp fzq np nq w1 w2 * inner gpq PQz u w1 w2 (np + nq - 2 * w1 - 2 * w2) tz).
  transitivity (upto ((lp + lq - 2 * u1 - 2 * u2) / 2) A * upto ((mp + mq - 2 * v1 - 2 * v2) / 2) B * upto ((np + nq - 2 * w1 - 2 * w2) / 2) E).
  2:{ unfold A, B, E. rewrite !upto_scal. ring. }
  rewrite <- upto_triple. apply upto_ext. intros tx Tx. apply upto_ext. intros ty Ty. apply upto_ext. intros tz Tz.
  apply two_half in Tx, Ty, Tz. unfold A, B, E. apply term_split; assumption || lia.
Qed.

Lemma linear_loops N L1 L2 (Phi : nat -> nat -> nat -> nat -> (nat -> R) -> R) : (forall p q u1 u2, (p <= L1)%nat -> (q <= L2)%nat -> linear N (Phi p q u1 u2)) ->
  linear N (fun F => loops L1 L2 (fun p q u1 u2 => Phi p q u1 u2 F)).
Proof.
  intros Hl. unfold loops. apply (linear_upto N L1 (fun p F => upto L2 (fun q => upto (p / 2) (fun u1 => upto (q / 2) (fun u2 => Phi p q u1 u2 F))))). intros p Hp.
  apply (linear_upto N L2 (fun q F => upto (p / 2) (fun u1 => upto (q / 2) (fun u2 => Phi p q u1 u2 F)))). intros q Hq.
  apply (linear_upto N (p / 2) (fun u1 F => upto (q / 2) (fun u2 => Phi p q u1 u2 F))). intros u1 _.
  apply (linear_upto N (q / 2) (fun u2 F => Phi p q u1 u2 F)). intros u2 _. apply Hl; assumption.
Qed.
Lemma ref_sum_linear gp gq gpq PQx PQy PQz fxp fxq fyp fyq fzp fzq L1 L2 M1 M2 N1 N2 :
  linear (L1 + L2 + (M1 + M2) + (N1 + N2)) (fun F => ref_sum junk gp gq gpq PQx PQy PQz fxp fxq fyp fyq fzp fzq F L1 L2 M1 M2 N1 N2).
Proof.
  unfold ref_sum. set (N := (L1 + L2 + (M1 + M2) + (N1 + N2))%nat).
  apply (linear_loops N L1 L2 (fun lp lq u1 u2 F => loops M1 M2 (fun mp mq v1 v2 => loops N1 N2 (fun np nq w1 w2 =>
    upto ((lp + lq - 2 * u1 - 2 * u2) / 2) (fun tx => upto ((mp + mq - 2 * v1 - 2 * v2) / 2) (fun ty => upto ((np + nq - 2 * w1 - 2 * w2) / 2) (fun tz =>
      term junk gpq PQx PQy PQz (g_coef junk gp gq gpq fxp fxq lp lq u1 u2) (g_coef junk gp gq gpq fyp fyq mp mq v1 v2) (g_coef junk gp gq gpq fzp fzq np nq w1 w2)
        F lp lq u1 u2 mp mq v1 v2 np nq w1 w2 tx ty tz))))))). intros lp lq u1 u2 Hp Hq.
  apply (linear_loops N M1 M2 (fun mp mq v1 v2 F => loops N1 N2 (fun np nq w1 w2 =>
    upto ((lp + lq - 2 * u1 - 2 * u2) / 2) (fun tx => upto ((mp + mq - 2 * v1 - 2 * v2) / 2) (fun ty => upto ((np + nq - 2 * w1 - 2 * w2) / 2) (fun tz =>
      term junk gpq PQx PQy PQz (g_coef junk gp gq gpq fxp fxq lp lq u1 u2) (g_coef junk gp gq gpq fyp fyq mp mq v1 v2) (g_coef junk gp gq gpq fzp fzq np nq w1 w2)
        F lp lq u1 u2 mp mq v1 v2 np nq w1 w2 tx ty tz)))))). intros mp mq v1 v2 Mp Mq.
  apply (linear_loops N N1 N2 (fun np nq w1 w2 F =>
    upto ((lp + lq - 2 * u1 - 2 * u2) / 2) (fun tx => upto ((mp + mq - 2 * v1 - 2 * v2) / 2) (fun ty => upto ((np + nq - 2 * w1 - 2 * w2) / 2) (fun tz =>
      term junk gpq PQx PQy PQz (g_coef junk gp gq gpq fxp fxq lp lq u1 u2) (g_coef junk gp gq gpq fyp fyq mp mq v1 v2) (g_coef junk gp gq gpq fzp fzq np nq w1 w2)
        F lp lq u1 u2 mp mq v1 v2 np nq w1 w2 tx ty tz))))). intros np nq w1 w2 Np Nq.
  generalize (g_coef junk gp gq gpq fxp fxq lp lq u1 u2) (g_coef junk gp gq gpq fyp fyq mp mq v1 v2) (g_coef junk gp gq gpq fzp fzq np nq w1 w2). intros Gx Gy Gz.
  apply (linear_upto N _ (fun tx F => upto ((mp + mq - 2 * v1 - 2 * v2) / 2) (fun ty => upto ((np + nq - 2 * w1 - 2 * w2) / 2) (fun tz =>
    term junk gpq PQx PQy PQz Gx Gy Gz F lp lq u1 u2 mp mq v1 v2 np nq w1 w2 tx ty tz)))). intros tx _.
  apply (linear_upto N _ (fun ty F => upto ((np + nq - 2 * w1 - 2 * w2) / 2) (fun tz => term junk gpq PQx PQy PQz Gx Gy Gz F lp lq u1 u2 mp mq v1 v2 np nq w1 w2 tx ty tz))). intros ty _.
  apply (linear_upto N _ (fun tz F => term junk gpq PQx PQy PQz Gx Gy Gz F lp lq u1 u2 mp mq v1 v2 np nq w1 w2 tx ty tz)). intros tz _.
  set (z := (lp + lq + mp + mq + np + nq - 2 * u1 - 2 * u2 - 2 * v1 - 2 * v2 - 2 * w1 - 2 * w2 - tx - ty - tz)%nat).
  assert (Hz : (z <= N)%nat). { unfold z, N. rewrite <- !Nat.sub_add_distr. clear - Hp Hq Mp Mq Np Nq. generalize (2 * u1 + (2 * u2 + (2 * v1 + (2 * v2 + (2 * w1 + (2 * w2 + (tx + (ty + tz))))))))%nat. intros m. lia. }
  eapply linear_ext; [|exact (linear_at N z (term junk gpq PQx PQy PQz Gx Gy Gz (fun _ => 1) lp lq u1 u2 mp mq v1 v2 np nq w1 w2 tx ty tz) Hz)].
  intros F. unfold term. cbn zeta. fold z. unfold Rdiv. ring.
Qed.
End Junk.

(** *** One direction of the recurrence *)
Section Along.
Variables (K : @vcoef Rcring) (d : dir) (gp gq r u z x1 x2 x3 x4 : R).
Hypothesis gp0 : gp <> 0.
Hypothesis gq0 : gq <> 0.
Hypothesis E1 : k_PA K CI d = x1.
Hypothesis E2 : k_PA K CJ d = x2.
Hypothesis E3 : k_PA K CK d = x3.
Hypothesis E4 : k_PA K CL d = x4.
Hypothesis A1 : k_aPQ K SB d = (- (r * / gp) * z : R).
Hypothesis A2 : k_aPQ K SK d = (r * / gq * z : R).
Hypothesis H1 : k_h K SB = (/ 2 * / gp : R).
Hypothesis H2 : k_h K SK = (/ 2 * / gq : R).
Hypothesis R1 : k_a K SB = (- (r * / gp) : R).
Hypothesis R2 : k_a K SK = (- (r * / gq) : R).
Hypothesis HP : k_hpq K = (r * / (2 * gp * gq) : R).
Let pw : nat -> Rcring := fun n => u ^ n.
Let JJ := J gp gq r u z x1 x2 x3 x4.
Lemma along_J : forall n a b c e, (a + b + c + e <= n)%nat -> @along Rcring K pw d a b c e = JJ a b c e.
Proof.
  assert (P0 : pw 0%nat = @c1 Rcring) by reflexivity. assert (PS : forall n, pw (S n) = @cmul Rcring u (pw n)) by reflexivity.
  assert (LB : forall n a b c e, (forall a b c e, (a + b + c + e <= n)%nat -> @along Rcring K pw d a b c e = JJ a b c e) -> (a + b + c + e <= S n)%nat ->
    @lowb Rcring K pw d a b c e = low1 gp gq r u z x1 x2 x3 x4 a b c e).
  { intros n a b c e IH L. unfold lowb, low1. rewrite !RealUnique.ofnat_INR. apply f_equal2.
    - destruct a as [|a]; [cbn; ring|]. cbn [pred]. rewrite IH by lia. reflexivity.
    - destruct b as [|b]; [cbn; ring|]. cbn [pred]. rewrite IH by lia. reflexivity. }
  assert (LK : forall n a b c e, (forall a b c e, (a + b + c + e <= n)%nat -> @along Rcring K pw d a b c e = JJ a b c e) -> (a + b + c + e <= S n)%nat ->
    @lowk Rcring K pw d a b c e = low2 gp gq r u z x1 x2 x3 x4 a b c e).
  { intros n a b c e IH L. unfold lowk, low2. rewrite !RealUnique.ofnat_INR. apply f_equal2.
    - destruct c as [|c]; [cbn; ring|]. cbn [pred]. rewrite IH by lia. reflexivity.
    - destruct e as [|e]; [cbn; ring|]. cbn [pred]. rewrite IH by lia. reflexivity. }
  intros n. induction n as [|n IH]; intros a b c e L.
  - assert (a = 0 /\ b = 0 /\ c = 0 /\ e = 0)%nat as (-> & -> & -> & ->) by lia. rewrite (@along_0 Rcring K pw P0). unfold JJ. rewrite J_0. reflexivity.
  - destruct a as [|a]; [destruct b as [|b]; [destruct c as [|c]; [destruct e as [|e]|]|]|].
    + rewrite (@along_0 Rcring K pw P0). unfold JJ. rewrite J_0. reflexivity.
    + rewrite (@along_d Rcring K u pw PS). rewrite (LB n), (LK n) by (assumption || lia). rewrite (IH 0 0 0 e)%nat by lia. unfold JJ. rewrite J_d by assumption.
      rewrite E4, A2, H2, R2, HP. unfold v2, v12. change (@eq (car Rcring)) with (@eq R). cbn [cadd cmul c1 Rcring]. ring.
    + rewrite (@along_c Rcring K u pw PS). rewrite (LB n), (LK n) by (assumption || lia). rewrite (IH 0 0 c e)%nat by lia. unfold JJ. rewrite J_c by assumption.
      rewrite E3, A2, H2, R2, HP. unfold v2, v12. change (@eq (car Rcring)) with (@eq R). cbn [cadd cmul c1 Rcring]. ring.
    + rewrite (@along_b Rcring K u pw PS). rewrite (LB n), (LK n) by (assumption || lia). rewrite (IH 0 b c e)%nat by lia. unfold JJ. rewrite J_b by assumption.
      rewrite E2, A1, H1, R1, HP. unfold v1, v12. change (@eq (car Rcring)) with (@eq R). cbn [cadd cmul c1 Rcring]. ring.
    + rewrite (@along_a Rcring K u pw PS). rewrite (LB n), (LK n) by (assumption || lia). rewrite (IH a b c e)%nat by lia. unfold JJ. rewrite J_a by assumption.
      rewrite E1, A1, H1, R1, HP. unfold v1, v12. change (@eq (car Rcring)) with (@eq R). cbn [cadd cmul c1 Rcring]. ring.
Qed.
End Along.

(** *** The whole function *)
Section Whole.
Variables (junk : nat -> R) (a b c e : @EndToEnd.gauss Rcring) (q : qrt).
Hypothesis pa : 0 < g_exp a.
Hypothesis pb : 0 < g_exp b.
Hypothesis pc' : 0 < g_exp c.
Hypothesis pe : 0 < g_exp e.
Hypothesis small : forall d, (gexp d (qa q) + gexp d (qb q) + gexp d (qc q) + gexp d (qd q) < 200)%nat.
Let gp : R := g_exp a + g_exp b.
Let gq : R := g_exp c + g_exp e.
Let gpq : R := gp * gq / (gp + gq).
Let P d : R := (g_exp a * g_at a d + g_exp b * g_at b d) / gp.
Let Q d : R := (g_exp c * g_at c d + g_exp e * g_at e d) / gq.
Let PQ d : R := P d - Q d.
Let l s d := gexp d (cget s q).
Let fp d := rd junk (l CI d + l CJ d + 1) (f_coef junk (l CI d) (l CJ d) (P d - g_at a d) (P d - g_at b d)).
Let fq d := rd junk (l CK d + l CL d + 1) (f_coef junk (l CK d) (l CL d) (Q d - g_at c d) (Q d - g_at e d)).
Let Phi (F : nat -> R) : R := ref_sum junk gp gq gpq (PQ DX) (PQ DY) (PQ DZ) (fp DX) (fq DX) (fp DY) (fq DY) (fp DZ) (fq DZ) F
    (l CI DX + l CJ DX) (l CK DX + l CL DX) (l CI DY + l CJ DY) (l CK DY + l CL DY) (l CI DZ + l CJ DZ) (l CK DZ + l CL DZ).
Let K : @vcoef Rcring := @eri_coefs Rcring Rinv (/ 2) a b c e.
Let gp0 : gp <> 0.
Proof. unfold gp. cbn in *. lra. Qed.
Let gq0 : gq <> 0.
Proof. unfold gq. cbn in *. lra. Qed.
Let s0 : gp + gq <> 0.
Proof. unfold gp, gq. cbn in *. lra. Qed.
Let gpq0 : gpq <> 0.
Proof. unfold gpq, Rdiv. apply Rmult_integral_contrapositive_currified; [apply Rmult_integral_contrapositive_currified; assumption|apply Rinv_neq_0_compat; exact s0]. Qed.
Lemma small4 d : (l CI d + l CJ d + (l CK d + l CL d) < 200)%nat.
Proof. pose proof (small d). unfold l. cbn [cget]. lia. Qed.
Lemma dir_ok u d : one_sum junk gp gq gpq (PQ d) u (fp d) (fq d) (l CI d + l CJ d) (l CK d + l CL d) = @one_dir Rcring K (fun m => u ^ m) d q.
Proof.
  pose proof (small4 d) as S4. rewrite (one_sum_J junk gp gq gpq (PQ d) u (l CI d) (l CJ d) (l CK d) (l CL d) (P d - g_at a d) (P d - g_at b d) (Q d - g_at c d) (Q d - g_at e d)); try assumption; try lia.
  - unfold one_dir. symmetry. apply along_J with (n := (l CI d + l CJ d + l CK d + l CL d)%nat); try assumption; try reflexivity.
    unfold gpq. cbn. fold gp gq. change (/ 2 * / (gp + gq) = gp * gq / (gp + gq) * / (2 * gp * gq)). field. repeat split; assumption.
  - intros k Hk. unfold fp, rd. destruct (Nat.ltb_spec k (l CI d + l CJ d + 1)); [|lia]. apply f_coef_ok; lia.
  - intros k Hk. unfold fq, rd. destruct (Nat.ltb_spec k (l CK d + l CL d + 1)); [|lia]. apply f_coef_ok; lia.
Qed.
Lemma sum_value F : Phi F = @os_value Rcring K F 0 q.
Proof.
  pose proof (ref_sum_linear junk gp gq gpq (PQ DX) (PQ DY) (PQ DZ) (fp DX) (fq DX) (fp DY) (fq DY) (fp DZ) (fq DZ)
    (l CI DX + l CJ DX) (l CK DX + l CL DX) (l CI DY + l CJ DY) (l CK DY + l CL DY) (l CI DZ + l CJ DZ) (l CK DZ + l CL DZ)) as L1.
  destruct (os_linear K q) as [N L2].
  eapply (linear_agree (max _ N) Phi (fun F => @os_value Rcring K F 0 q)).
  - eapply linear_more; [|exact L1]. apply Nat.le_max_l.
  - eapply linear_more; [|exact L2]. apply Nat.le_max_r.
  - intros u. unfold Phi. rewrite ref_sum_split; [|exact gpq0|apply small4..]. rewrite !dir_ok.
    rewrite (@os_split Rcring K u (fun m => u ^ m) eq_refl (fun n => eq_refl) 0 q). cbn. ring.
Qed.
Lemma os_scal (x : R) F : @os_value Rcring K (fun m => x * F m) 0 q = x * @os_value Rcring K F 0 q.
Proof. destruct (os_linear K q) as [N [cc Hc]]. rewrite !Hc, <- upto_scal. apply upto_ext. intros; ring. Qed.
Theorem ref_eri_ok k52 c52 boys : c52 * c52 = k52 -> ref_eri junk k52 boys a b c e q = @prim_eri Rcring Rinv exp sqrt boys (/ 2) c52 a b c e q.
Proof.
  intros C52. unfold prim_eri. fold K.
  set (x := PQ DX * PQ DX + PQ DY * PQ DY + PQ DZ * PQ DZ).
  set (AB2 := (g_at a DX - g_at b DX) * (g_at a DX - g_at b DX) + (g_at a DY - g_at b DY) * (g_at a DY - g_at b DY) + (g_at a DZ - g_at b DZ) * (g_at a DZ - g_at b DZ)).
  set (CD2 := (g_at c DX - g_at e DX) * (g_at c DX - g_at e DX) + (g_at c DY - g_at e DY) * (g_at c DY - g_at e DY) + (g_at c DZ - g_at e DZ) * (g_at c DZ - g_at e DZ)).
  set (pf := k52 * exp (- g_exp a * g_exp b * AB2 / gp) * exp (- g_exp c * g_exp e * CD2 / gq) / (gp * gq * sqrt (gp + gq))).
  assert (E : forall m, @eri_start Rcring Rinv exp sqrt boys c52 a b c e m = pf * boys m (x * gpq)).
  { intros m. transitivity (c52 * c52 * / gp * / gq * sqrt (/ (gp + gq)) * (exp (- (g_exp a * g_exp b * / gp * AB2)) * exp (- (g_exp c * g_exp e * / gq * CD2))) * boys m (gp * gq * / (gp + gq) * x)); [reflexivity|].
    replace (gp * gq * / (gp + gq) * x) with (x * gpq) by (unfold gpq, Rdiv; ring).
    replace (- (g_exp a * g_exp b * / gp * AB2)) with (- g_exp a * g_exp b * AB2 / gp) by (unfold Rdiv; ring).
    replace (- (g_exp c * g_exp e * / gq * CD2)) with (- g_exp c * g_exp e * CD2 / gq) by (unfold Rdiv; ring).
    assert (Sp : 0 < gp + gq) by (unfold gp, gq; cbn in *; lra).
    rewrite sqrt_inv. assert (Sn : sqrt (gp + gq) <> 0) by (apply Rgt_not_eq, sqrt_lt_R0, Sp).
    unfold pf. rewrite <- C52. generalize (exp (- g_exp a * g_exp b * AB2 / gp)) (exp (- g_exp c * g_exp e * CD2 / gq)) (boys m (x * gpq)). intros e1 e2 bo.
    match goal with |- ?x = ?y => change (@eq R x y) end. field. repeat split; assumption. }
  transitivity (pf * @os_value Rcring K (fun m => boys m (x * gpq)) 0 q).
  2:{ rewrite <- os_scal. destruct (os_linear K q) as [N LN]. refine (linear_first N _ LN _ _ _). intros k _. symmetry. apply E. }
  rewrite <- sum_value, Rmult_comm. unfold ref_eri. cbn zeta. fold gp gq gpq. f_equal.
  change (Phi (rd junk (total q + 1) (fun m => boys m (x * gpq))) = Phi (fun m => boys m (x * gpq))).
  refine (linear_first _ _ (ref_sum_linear junk _ _ _ _ _ _ _ _ _ _ _ _ _ _ _ _ _ _) _ _ _).
  intros k Hk. unfold rd. destruct (Nat.ltb_spec k (total q + 1)) as [_|A]; [reflexivity|]. exfalso. revert Hk A. unfold l, total. cbn [cget].
  destruct q as [[] [] [] []]. cbn. lia.
Qed.
End Whole.
