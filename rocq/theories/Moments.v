(** The moments of the two Gaussian distributions of one direction in closed form, and the recurrences they obey. *)
From Coq Require Import List Arith ZArith Reals Lra Lia Factorial.
Import ListNotations.
From Verif Require Import SeqConv.
Local Open Scope R_scope.

Section Moments.
Variables gp gq r u z : R.
Hypothesis gp0 : gp <> 0.
Hypothesis gq0 : gq <> 0.
(** exp (r u z w - r u w^2 / 4) *)
Definition cser : seqr := conv (sq (- (r * u / 4))) (ser (r * u * z)).
Lemma D_cser n : D cser n = r * u * z * cser n - r * u / 2 * sh cser n.
Proof.
  unfold cser. rewrite D_conv. rewrite (conv_ext _ (fun i => 2 * - (r * u / 4) * sh (sq (- (r * u / 4))) i) _ (ser (r * u * z)));
    [|intros; apply D_sq|reflexivity].
  rewrite conv_scal_l, conv_sh_l. rewrite (conv_ext _ (sq (- (r * u / 4))) _ (fun i => r * u * z * ser (r * u * z) i)); [|reflexivity|intros; apply D_ser].
  rewrite conv_scal. field.
Qed.
Definition ch (n : nat) : R := INR (fact n) * cser n.
Definition prevf (n : nat) (f : nat -> R) : R := match n with O => 0 | S m => INR n * f m end.
Lemma ch_S n : ch (S n) = r * u * z * ch n - r * u / 2 * prevf n ch.
Proof.
  unfold ch at 1. rewrite fact_S. pose proof (D_cser n) as H. unfold D in H.
  replace (INR (S n) * INR (fact n) * cser (S n)) with (INR (fact n) * (INR (S n) * cser (S n))) by ring. rewrite H. unfold ch, prevf.
  destruct n as [|n]; [cbn [sh]; ring|]. cbn [sh]. rewrite fact_S. ring.
Qed.
(** Two variables. *)
Definition X (i j : nat) : R := ser (- / gp) i * ser (/ gq) j * ch (i + j).
Definition shi (i j : nat) : R := sh (fun i => X i j) i.
Definition shj (i j : nat) : R := sh (X i) j.
Lemma X_low i j : ser (- / gp) i * ser (/ gq) j * prevf (i + j) ch = - / gp * shi i j + / gq * shj i j.
Proof.
  unfold shi, shj, X. destruct i as [|i], j as [|j]; cbn [sh prevf Nat.add].
  - ring.
  - pose proof (D_ser (/ gq) j) as H. unfold D in H.
    replace (ser (- / gp) 0 * ser (/ gq) (S j) * (INR (S j) * ch j)) with (ser (- / gp) 0 * (INR (S j) * ser (/ gq) (S j)) * ch j) by ring. rewrite H. ring.
  - rewrite Nat.add_0_r. pose proof (D_ser (- / gp) i) as H. unfold D in H.
    replace (ser (- / gp) (S i) * ser (/ gq) 0 * (INR (S i) * ch i)) with ((INR (S i) * ser (- / gp) (S i)) * ser (/ gq) 0 * ch i) by ring. rewrite H. ring.
  - rewrite Nat.add_succ_r. pose proof (D_ser (- / gp) i) as H. pose proof (D_ser (/ gq) j) as H'. unfold D in H, H'.
    replace (INR (S (S (i + j)))) with (INR (S i) + INR (S j)) by (rewrite <- plus_INR; f_equal; lia).
    replace (ser (- / gp) (S i) * ser (/ gq) (S j) * ((INR (S i) + INR (S j)) * ch (S (i + j)))) with
      ((INR (S i) * ser (- / gp) (S i)) * ser (/ gq) (S j) * ch (S (i + j)) + ser (- / gp) (S i) * (INR (S j) * ser (/ gq) (S j)) * ch (S (i + j))) by ring.
    rewrite H, H'. ring.
Qed.
Lemma X_i i j : D (fun i => X i j) i = - / gp * (r * u * z * X i j - r * u / 2 * (- / gp * shi i j + / gq * shj i j)).
Proof.
  unfold D, X at 1. cbn [Nat.add]. rewrite ch_S. pose proof (D_ser (- / gp) i) as H. unfold D in H.
  replace (INR (S i) * (ser (- / gp) (S i) * ser (/ gq) j * (r * u * z * ch (i + j) - r * u / 2 * prevf (i + j) ch))) with
    ((INR (S i) * ser (- / gp) (S i)) * ser (/ gq) j * (r * u * z * ch (i + j) - r * u / 2 * prevf (i + j) ch)) by ring.
  rewrite H, <- X_low. unfold X. ring.
Qed.
Lemma X_j i j : D (X i) j = / gq * (r * u * z * X i j - r * u / 2 * (- / gp * shi i j + / gq * shj i j)).
Proof.
  unfold D, X at 1. rewrite Nat.add_succ_r. rewrite ch_S. pose proof (D_ser (/ gq) j) as H. unfold D in H.
  replace (INR (S j) * (ser (- / gp) i * ser (/ gq) (S j) * (r * u * z * ch (i + j) - r * u / 2 * prevf (i + j) ch))) with
    (ser (- / gp) i * (INR (S j) * ser (/ gq) (S j)) * (r * u * z * ch (i + j) - r * u / 2 * prevf (i + j) ch)) by ring.
  rewrite H, <- X_low. unfold X. ring.
Qed.
Definition serp : seqr := sq (/ (4 * gp)).
Definition serq : seqr := sq (/ (4 * gq)).
Definition Y (i q : nat) : R := conv serq (X i) q.
Definition h (p q : nat) : R := conv serp (fun i => Y i q) p.

Definition mean : R := r * u * z.
(** Y: derivative in the first variable. *)
Lemma Y_i i q : D (fun i => Y i q) i = - / gp * (mean * Y i q - r * u / 2 * (- / gp * sh (fun i => Y i q) i + / gq * sh (Y i) q)).
Proof.
  unfold D, Y at 1. rewrite <- conv_scal.
  rewrite (conv_ext _ serq _ (fun j => - / gp * (mean * X i j) + / gp * (r * u / 2) * (- / gp * shi i j + / gq * shj i j)));
    [|reflexivity|intros j _; fold (D (fun i => X i j) i); rewrite X_i; unfold mean; ring].
  rewrite conv_plus, !conv_scal, conv_plus, !conv_scal.
  assert (E1 : conv serq (shi i) q = sh (fun i => Y i q) i).
  { destruct i as [|i]; cbn [sh]; [|reflexivity]. unfold conv. erewrite upto_ext; [apply upto_0|]. intros k _. unfold shi. cbn [sh]. ring. }
  assert (E2 : conv serq (shj i) q = sh (Y i) q) by (unfold shj; rewrite conv_sh_r; reflexivity).
  rewrite E1, E2. unfold Y. ring.
Qed.
Lemma Y_j i q : D (Y i) q = / (2 * gq) * sh (Y i) q + / gq * (mean * Y i q - r * u / 2 * (- / gp * sh (fun i => Y i q) i + / gq * sh (Y i) q)).
Proof.
  unfold Y at 1. rewrite D_conv.
  rewrite (conv_ext (D serq) (fun i => 2 * / (4 * gq) * sh serq i) (X i) (X i)); [|intros; apply D_sq|reflexivity]. rewrite conv_scal_l, conv_sh_l.
  rewrite (conv_ext _ serq _ (fun j => / gq * (mean * X i j) + - / gq * (r * u / 2) * (- / gp * shi i j + / gq * shj i j)));
    [|reflexivity|intros j _; rewrite X_j; unfold mean; ring].
  rewrite conv_plus, !conv_scal, conv_plus, !conv_scal.
  assert (E1 : conv serq (shi i) q = sh (fun i => Y i q) i).
  { destruct i as [|i]; cbn [sh]; [|reflexivity]. unfold conv. erewrite upto_ext; [apply upto_0|]. intros k _. unfold shi. cbn [sh]. ring. }
  assert (E2 : conv serq (shj i) q = sh (Y i) q) by (unfold shj; rewrite conv_sh_r; reflexivity).
  assert (E3 : sh (conv serq (X i)) q = sh (Y i) q) by reflexivity.
  rewrite E1, E2, E3. unfold Y. field. split; assumption.
Qed.
Lemma conv_shq p q : conv serp (fun i => sh (Y i) q) p = sh (h p) q.
Proof.
  destruct q as [|q]; cbn [sh]; [|reflexivity]. unfold conv. erewrite upto_ext; [apply upto_0|]. intros k _. cbn [sh]. ring.
Qed.
Lemma h_i p q : D (fun p => h p q) p = / (2 * gp) * sh (fun p => h p q) p
  + - / gp * (mean * h p q - r * u / 2 * (- / gp * sh (fun p => h p q) p + / gq * sh (h p) q)).
Proof.
  change (D (fun p => h p q) p) with (D (conv serp (fun i => Y i q)) p). rewrite D_conv.
  rewrite (conv_ext (D serp) (fun i => 2 * / (4 * gp) * sh serp i) (fun i => Y i q) (fun i => Y i q)); [|intros; apply D_sq|reflexivity]. rewrite conv_scal_l, conv_sh_l.
  rewrite (conv_ext _ serp _ (fun i => - / gp * (mean * Y i q) + / gp * (r * u / 2) * (- / gp * sh (fun i => Y i q) i + / gq * sh (Y i) q)));
    [|reflexivity|intros i _; rewrite Y_i; ring].
  rewrite conv_plus, !conv_scal, conv_plus, !conv_scal, conv_shq, conv_sh_r.
  assert (E3 : sh (conv serp (fun i => Y i q)) p = sh (fun p => h p q) p) by reflexivity.
  rewrite E3. unfold h. field. split; assumption.
Qed.
Lemma h_j p q : D (h p) q = / (2 * gq) * sh (h p) q
  + / gq * (mean * h p q - r * u / 2 * (- / gp * sh (fun p => h p q) p + / gq * sh (h p) q)).
Proof.
  unfold D, h at 1. rewrite <- conv_scal.
  rewrite (conv_ext _ serp _ (fun i => (/ (2 * gq)) * sh (Y i) q + (/ gq * (mean * Y i q) + - / gq * (r * u / 2) * (- / gp * sh (fun i => Y i q) i + / gq * sh (Y i) q))));
    [|reflexivity|intros i _; fold (D (Y i) q); rewrite Y_j; ring].
  rewrite conv_plus, conv_plus, !conv_scal, conv_plus, !conv_scal, !conv_shq, conv_sh_r.
  assert (E3 : sh (conv serp (fun i => Y i q)) p = sh (fun p => h p q) p) by reflexivity.
  rewrite E3. unfold h. ring.
Qed.

(** The moments themselves. *)
Definition H (p q : nat) : R := INR (fact p) * INR (fact q) * h p q.
Definition v1 : R := / 2 * / gp * (1 + - (r * / gp) * u).
Definition v2 : R := / 2 * / gq * (1 + - (r * / gq) * u).
Definition v12 : R := r * / (2 * gp * gq) * u.
Lemma H_p p q : H (S p) q = - (r * / gp) * z * u * H p q + v1 * prevf p (fun p => H p q) + v12 * prevf q (H p).
Proof.
  unfold H at 1. rewrite fact_S. pose proof (h_i p q) as E. unfold D in E.
  replace (INR (S p) * INR (fact p) * INR (fact q) * h (S p) q) with (INR (fact p) * INR (fact q) * (INR (S p) * h (S p) q)) by ring. rewrite E.
  unfold mean, v1, v12, H. destruct p as [|p], q as [|q]; cbn [sh prevf]; rewrite ?fact_S; field; repeat split; assumption.
Qed.
Lemma H_q p q : H p (S q) = r * / gq * z * u * H p q + v2 * prevf q (H p) + v12 * prevf p (fun p => H p q).
Proof.
  unfold H at 1. rewrite fact_S. pose proof (h_j p q) as E. unfold D in E.
  replace (INR (fact p) * (INR (S q) * INR (fact q)) * h p (S q)) with (INR (fact p) * INR (fact q) * (INR (S q) * h p (S q))) by ring. rewrite E.
  unfold mean, v2, v12, H. destruct p as [|p], q as [|q]; cbn [sh prevf]; rewrite ?fact_S; field; repeat split; assumption.
Qed.
Lemma H_0 : H 0 0 = 1.
Proof. unfold H, h, Y, X, ch, cser, conv, serp, serq, sq, evens, ser. cbn. field. Qed.
End Moments.
