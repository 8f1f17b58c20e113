(** Products of powers of shifted variables, their coefficients, and the values the moments give them. *)
From Coq Require Import List Arith ZArith Reals Lra Lia Factorial.
Import ListNotations.
From Verif Require Import SeqConv Moments.
Local Open Scope R_scope.

(** Coefficients of (y + x)^l. *)
Definition bin (l : nat) (x : R) (i : nat) : R := if (i <=? l)%nat then C l i * x ^ (l - i) else 0.
Lemma bin_out l x i : (l < i)%nat -> bin l x i = 0.
Proof. intros L. unfold bin. destruct (Nat.leb_spec i l); [lia|reflexivity]. Qed.
Lemma C_0 n : C n 0 = 1.
Proof. unfold C. rewrite Nat.sub_0_r. cbn [fact INR]. field. apply fact_pos. Qed.
Lemma C_n n : C n n = 1.
Proof. unfold C. rewrite Nat.sub_diag. cbn [fact INR]. field. apply fact_pos. Qed.
Lemma bin_S l x i : bin (S l) x i = x * bin l x i + sh (bin l x) i.
Proof.
  unfold bin. destruct i as [|i]; cbn [sh].
  - cbn [Nat.leb]. rewrite !C_0, !Nat.sub_0_r. cbn [pow]. ring.
  - change (S i <=? S l)%nat with (i <=? l)%nat. destruct (Nat.leb_spec i l) as [L|L].
    + change (S l - S i)%nat with (l - i)%nat. destruct (Nat.leb_spec (S i) l) as [L'|L'].
      * rewrite <- pascal by lia. replace (l - i)%nat with (S (l - S i)) by lia. cbn [pow]. ring.
      * assert (i = l) by lia. subst i. rewrite !C_n, Nat.sub_diag. ring.
    + destruct (Nat.leb_spec (S i) l); [lia|]. ring.
Qed.
Lemma D_bin l x i : D (bin l x) i = INR l * bin (pred l) x i.
Proof.
  unfold D, bin. destruct l as [|l]; [cbn [INR]; rewrite Rmult_0_l; cbn [Nat.leb]; ring|]. cbn [pred].
  change (S i <=? S l)%nat with (i <=? l)%nat. destruct (Nat.leb_spec i l) as [L|L]; [|ring].
  change (S l - S i)%nat with (l - i)%nat. unfold C. change (S l - S i)%nat with (l - i)%nat. rewrite !fact_S. field.
  repeat split; try apply fact_pos; apply INR_S_pos.
Qed.
(** Coefficients of (y + x1)^l1 (y + x2)^l2. *)
Definition pc (l1 l2 : nat) (x1 x2 : R) : seqr := conv (bin l1 x1) (bin l2 x2).
Lemma pc_out l1 l2 x1 x2 k : (l1 + l2 < k)%nat -> pc l1 l2 x1 x2 k = 0.
Proof.
  intros L. unfold pc, conv. erewrite upto_ext; [apply upto_0|]. intros i Hi. cbn beta.
  destruct (Nat.le_gt_cases i l1) as [A|A]; [rewrite (bin_out l2) by lia; ring|rewrite (bin_out l1) by lia; ring].
Qed.
Lemma pc_S1 l1 l2 x1 x2 k : pc (S l1) l2 x1 x2 k = x1 * pc l1 l2 x1 x2 k + sh (pc l1 l2 x1 x2) k.
Proof.
  unfold pc. rewrite (conv_comm (bin (S l1) x1)). rewrite (conv_ext _ (bin l2 x2) _ (fun i => x1 * bin l1 x1 i + sh (bin l1 x1) i)); [|reflexivity|intros; apply bin_S].
  rewrite conv_plus, conv_scal, conv_comm, conv_sh_r. f_equal. destruct k; [reflexivity|]. apply conv_comm.
Qed.
Lemma pc_S2 l1 l2 x1 x2 k : pc l1 (S l2) x1 x2 k = x2 * pc l1 l2 x1 x2 k + sh (pc l1 l2 x1 x2) k.
Proof.
  unfold pc. rewrite (conv_ext _ (bin l1 x1) _ (fun i => x2 * bin l2 x2 i + sh (bin l2 x2) i)); [|reflexivity|intros; apply bin_S].
  rewrite conv_plus, conv_scal, conv_sh_r. reflexivity.
Qed.
Lemma D_pc l1 l2 x1 x2 k : D (pc l1 l2 x1 x2) k = INR l1 * pc (pred l1) l2 x1 x2 k + INR l2 * pc l1 (pred l2) x1 x2 k.
Proof.
  unfold pc. rewrite D_conv. f_equal.
  - rewrite (conv_ext _ (fun i => INR l1 * bin (pred l1) x1 i) _ (bin l2 x2)); [|intros; apply D_bin|reflexivity]. apply conv_scal_l.
  - rewrite (conv_ext _ (bin l1 x1) _ (fun i => INR l2 * bin (pred l2) x2 i)); [|reflexivity|intros; apply D_bin]. apply conv_scal.
Qed.
Lemma prev_sum (f w : seqr) N : f (S N) = 0 -> upto N (fun p => f p * prevf p w) = upto N (fun p => D f p * w p).
Proof.
  intros Z. transitivity (upto (S N) (fun p => f p * prevf p w)); [cbn [upto]; rewrite Z; ring|].
  rewrite upto_S. cbn [prevf]. rewrite Rmult_0_r, Rplus_0_l. apply upto_ext. intros i _. unfold D. ring.
Qed.

Section Expect.
Variables gp gq r u z x1 x2 x3 x4 : R.
Hypothesis gp0 : gp <> 0.
Hypothesis gq0 : gq <> 0.
Local Notation HH := (H gp gq r u z).
Definition Lam (f g : seqr) (N M : nat) : R := upto N (fun p => upto M (fun q => f p * g q * HH p q)).
Definition J (l1 l2 l3 l4 : nat) : R := Lam (pc l1 l2 x1 x2) (pc l3 l4 x3 x4) (l1 + l2) (l3 + l4).
Lemma J_big l1 l2 l3 l4 N M : (l1 + l2 <= N)%nat -> (l3 + l4 <= M)%nat -> Lam (pc l1 l2 x1 x2) (pc l3 l4 x3 x4) N M = J l1 l2 l3 l4.
Proof.
  intros L L'. unfold J, Lam. rewrite (upto_cut (l1 + l2) N); [|exact L|].
  - apply upto_ext. intros p Hp. apply upto_cut; [exact L'|]. intros q Hq. rewrite (pc_out l3) by lia. ring.
  - intros p Hp. erewrite upto_ext; [apply upto_0|]. intros q _. cbn beta. rewrite (pc_out l1) by lia. ring.
Qed.
Lemma Lam_ext f f' g g' N M : (forall p, f p = f' p) -> (forall p, g p = g' p) -> Lam f g N M = Lam f' g' N M.
Proof. intros E E'. unfold Lam. apply upto_ext. intros p _. apply upto_ext. intros q _. rewrite E, E'. reflexivity. Qed.
Lemma Lam_lin1 a b f f' g N M : Lam (fun p => a * f p + b * f' p) g N M = a * Lam f g N M + b * Lam f' g N M.
Proof.
  unfold Lam. rewrite <- !upto_scal, <- upto_plus. apply upto_ext. intros p _. rewrite <- !upto_scal, <- upto_plus. apply upto_ext. intros q _. ring.
Qed.
Lemma Lam_lin2 a b f g g' N M : Lam f (fun p => a * g p + b * g' p) N M = a * Lam f g N M + b * Lam f g' N M.
Proof.
  unfold Lam. rewrite <- !upto_scal, <- upto_plus. apply upto_ext. intros p _. rewrite <- !upto_scal, <- upto_plus. apply upto_ext. intros q _. ring.
Qed.
Definition low1 (a b c d : nat) : R := INR a * J (pred a) b c d + INR b * J a (pred b) c d.
Definition low2 (a b c d : nat) : R := INR c * J a b (pred c) d + INR d * J a b c (pred d).
Lemma Lam_D1 a b c d : Lam (D (pc a b x1 x2)) (pc c d x3 x4) (a + b) (c + d) = low1 a b c d.
Proof.
  rewrite (Lam_ext _ (fun p => INR a * pc (pred a) b x1 x2 p + INR b * pc a (pred b) x1 x2 p) _ (pc c d x3 x4)); [|intros; apply D_pc|reflexivity].
  rewrite Lam_lin1, !J_big by lia. reflexivity.
Qed.
Lemma Lam_D2 a b c d : Lam (pc a b x1 x2) (D (pc c d x3 x4)) (a + b) (c + d) = low2 a b c d.
Proof.
  rewrite (Lam_ext _ (pc a b x1 x2) _ (fun p => INR c * pc (pred c) d x3 x4 p + INR d * pc c (pred d) x3 x4 p)); [|reflexivity|intros; apply D_pc].
  rewrite Lam_lin2, !J_big by lia. reflexivity.
Qed.
(** Multiplying with the variable of the first, and of the second factor. *)
Lemma Lam_sh1 a b c d : Lam (sh (pc a b x1 x2)) (pc c d x3 x4) (S (a + b)) (c + d) =
  - (r * / gp) * z * u * J a b c d + v1 gp r u * low1 a b c d + v12 gp gq r u * low2 a b c d.
Proof.
  rewrite <- Lam_D1, <- Lam_D2. unfold J, Lam. rewrite upto_S.
  rewrite (upto_ext (c + d) _ (fun _ => 0)) by (intros; cbn [sh]; ring). rewrite upto_0, Rplus_0_l.
  rewrite (upto_ext (a + b) _ (fun p => - (r * / gp) * z * u * upto (c + d) (fun q => pc a b x1 x2 p * pc c d x3 x4 q * HH p q)
    + v1 gp r u * upto (c + d) (fun q => pc c d x3 x4 q * (pc a b x1 x2 p * prevf p (fun p => HH p q)))
    + v12 gp gq r u * (pc a b x1 x2 p * upto (c + d) (fun q => pc c d x3 x4 q * prevf q (HH p))))).
  2:{ intros p _. rewrite <- !upto_scal, <- !upto_plus. apply upto_ext. intros q _. cbn [sh]. rewrite H_p by assumption. ring. }
  rewrite !upto_plus, !upto_scal. f_equal; [f_equal|].
  - f_equal. rewrite upto_swap. rewrite (upto_swap (a + b) (c + d) (fun p q => D (pc a b x1 x2) p * pc c d x3 x4 q * HH p q)). apply upto_ext. intros q _.
    rewrite upto_scal, prev_sum by (apply pc_out; lia). rewrite <- upto_scal. apply upto_ext. intros p _. ring.
  - f_equal. apply upto_ext. intros p _. rewrite prev_sum by (apply pc_out; lia). rewrite <- upto_scal. apply upto_ext. intros q _. ring.
Qed.
Lemma Lam_sh2 a b c d : Lam (pc a b x1 x2) (sh (pc c d x3 x4)) (a + b) (S (c + d)) =
  r * / gq * z * u * J a b c d + v2 gq r u * low2 a b c d + v12 gp gq r u * low1 a b c d.
Proof.
  rewrite <- Lam_D1, <- Lam_D2. unfold J, Lam.
  rewrite (upto_ext (a + b) _ (fun p => r * / gq * z * u * upto (c + d) (fun q => pc a b x1 x2 p * pc c d x3 x4 q * HH p q)
    + v2 gq r u * (pc a b x1 x2 p * upto (c + d) (fun q => pc c d x3 x4 q * prevf q (HH p)))
    + v12 gp gq r u * upto (c + d) (fun q => pc c d x3 x4 q * (pc a b x1 x2 p * prevf p (fun p => HH p q))))).
  2:{ intros p _. rewrite upto_S. cbn [sh]. rewrite Rmult_0_r, Rmult_0_l, Rplus_0_l. rewrite <- !upto_scal, <- !upto_plus. apply upto_ext. intros q _.
      rewrite H_q by assumption. ring. }
  rewrite !upto_plus, !upto_scal. f_equal; [f_equal|].
  - f_equal. apply upto_ext. intros p _. rewrite prev_sum by (apply pc_out; lia). rewrite <- upto_scal. apply upto_ext. intros q _. ring.
  - f_equal. rewrite upto_swap. rewrite (upto_swap (a + b) (c + d) (fun p q => D (pc a b x1 x2) p * pc c d x3 x4 q * HH p q)). apply upto_ext. intros q _.
    rewrite upto_scal, prev_sum by (apply pc_out; lia). rewrite <- upto_scal. apply upto_ext. intros p _. ring.
Qed.
Lemma Lam_plus1 x f f' g N M : Lam (fun p => x * f p + f' p) g N M = x * Lam f g N M + Lam f' g N M.
Proof. rewrite <- (Rmult_1_l (Lam f' g N M)), <- Lam_lin1. apply Lam_ext; intros; [ring|reflexivity]. Qed.
Lemma Lam_plus2 x f g g' N M : Lam f (fun p => x * g p + g' p) N M = x * Lam f g N M + Lam f g' N M.
Proof. rewrite <- (Rmult_1_l (Lam f g' N M)), <- Lam_lin2. apply Lam_ext; intros; [reflexivity|ring]. Qed.
Lemma J_a a b c d : J (S a) b c d = (x1 + - (r * / gp) * z * u) * J a b c d + v1 gp r u * low1 a b c d + v12 gp gq r u * low2 a b c d.
Proof.
  unfold J at 1. rewrite (Lam_ext _ _ _ _ _ _ (pc_S1 a b x1 x2) (fun p => eq_refl)). rewrite Lam_plus1. cbn [Nat.add]. rewrite J_big, Lam_sh1 by lia. ring.
Qed.
Lemma J_b a b c d : J a (S b) c d = (x2 + - (r * / gp) * z * u) * J a b c d + v1 gp r u * low1 a b c d + v12 gp gq r u * low2 a b c d.
Proof.
  unfold J at 1. rewrite (Lam_ext _ _ _ _ _ _ (pc_S2 a b x1 x2) (fun p => eq_refl)). rewrite Lam_plus1. rewrite Nat.add_succ_r. rewrite J_big, Lam_sh1 by lia. ring.
Qed.
Lemma J_c a b c d : J a b (S c) d = (x3 + r * / gq * z * u) * J a b c d + v2 gq r u * low2 a b c d + v12 gp gq r u * low1 a b c d.
Proof.
  unfold J at 1. rewrite (Lam_ext _ _ _ _ _ _ (fun p => eq_refl) (pc_S1 c d x3 x4)). rewrite Lam_plus2. cbn [Nat.add]. rewrite J_big, Lam_sh2 by lia. ring.
Qed.
Lemma J_d a b c d : J a b c (S d) = (x4 + r * / gq * z * u) * J a b c d + v2 gq r u * low2 a b c d + v12 gp gq r u * low1 a b c d.
Proof.
  unfold J at 1. rewrite (Lam_ext _ _ _ _ _ _ (fun p => eq_refl) (pc_S2 c d x3 x4)). rewrite Lam_plus2. rewrite Nat.add_succ_r. rewrite J_big, Lam_sh2 by lia. ring.
Qed.
Lemma J_0 : J 0 0 0 0 = 1.
Proof. unfold J, Lam, pc, conv, bin. cbn [upto Nat.add Nat.sub Nat.leb pow]. rewrite H_0, !C_0. ring. Qed.
End Expect.
