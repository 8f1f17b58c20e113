(** A concrete family obeying the vertical recurrence, used to show that the hypotheses of the
    vertical theorems can be met.  Over the integers, with [p_i] a number per direction,

      V m q = (-1)^m * prod_i H (p_i) (sum of the four exponents along i)

    where [H p 0 = 1], [H p 1 = p], [H p (n+1) = p * H p n + n * H p (n-1)]. *)
From Coq Require Import List Arith Lia Bool ZArith.
Import ListNotations.
From Verif Require Import Base Cart Tables Mdir HRRAlgo HRRExample VRRStep VRRAlgo VRROrder.
Set Implicit Arguments.

Ltac zr := change (@cadd Zring) with Z.add; change (@cmul Zring) with Z.mul; change (@c0 Zring) with 0%Z;
  match goal with |- @eq _ ?a ?b => change (@eq Z a b) end.

Fixpoint herm2 (p : Z) (n : nat) : Z * Z :=
  match n with
  | 0 => (1, 0)%Z
  | S k => let (a, b) := herm2 p k in (p * a + Z.of_nat k * b, a)%Z
  end.
Definition herm p n := fst (herm2 p n).

Lemma herm_rec p n : herm p (S n) = (p * herm p n + Z.of_nat n * herm p (n - 1))%Z.
Proof.
  unfold herm. cbn [herm2]. destruct (herm2 p n) as [a b] eqn:E. cbn [fst].
  destruct n as [|k].
  - simpl in E. injection E as <- <-. simpl. lia.
  - cbn [herm2] in E. destruct (herm2 p k) as [a' b'] eqn:E'. injection E as <- <-.
    replace (S k - 1) with k by lia. rewrite E'. cbn [fst]. reflexivity.
Qed.

Definition ex_p (i : dir) : Z := match i with DX => 2 | DY => -3 | DZ => 5 end.
Definition qexp (i : dir) (q : qrt) : nat :=
  gexp i (qa q) + gexp i (qb q) + gexp i (qc q) + gexp i (qd q).
Definition sgn (m : nat) : Z := if Nat.even m then 1%Z else (-1)%Z.
Definition ex_W (m : nat) (q : qrt) : Z :=
  (sgn m * (herm (ex_p DX) (qexp DX q) * herm (ex_p DY) (qexp DY q) * herm (ex_p DZ) (qexp DZ q)))%Z.
Definition ex_aPQ (s : side) (i : dir) : Z :=
  match s, i with SB, DX => 1 | SB, DY => 4 | SB, DZ => -2 | SK, DX => 7 | SK, DY => -1 | SK, DZ => 3 end.
Definition ex_K : @vcoef Zring :=
  @VC Zring (fun c i => (ex_p i + ex_aPQ (cside c) i)%Z) ex_aPQ (fun _ => (-1)%Z) (fun _ => 2%Z) (-1)%Z.

Lemma sgn_S m : sgn (S m) = (- sgn m)%Z.
Proof. unfold sgn. rewrite Nat.even_succ, <- Nat.negb_even. destruct (Nat.even m); reflexivity. Qed.

Lemma qexp_raise_same c i q : qexp i (craise c i q) = S (qexp i q).
Proof. unfold qexp. destruct c, q; unfold craise; cbn; rewrite gexp_up_same; lia. Qed.
Lemma qexp_raise_other c i j q : i <> j -> qexp j (craise c i q) = qexp j q.
Proof. intros H. unfold qexp. destruct c, q; unfold craise; cbn; rewrite gexp_up_other by congruence; lia. Qed.

Definition dprod (i : dir) (q : qrt) : Z :=
  match i with
  | DX => herm (ex_p DY) (qexp DY q) * herm (ex_p DZ) (qexp DZ q)
  | DY => herm (ex_p DX) (qexp DX q) * herm (ex_p DZ) (qexp DZ q)
  | DZ => herm (ex_p DX) (qexp DX q) * herm (ex_p DY) (qexp DY q)
  end%Z.
Lemma ex_W_dir i m q : ex_W m q = (sgn m * (herm (ex_p i) (qexp i q) * dprod i q))%Z.
Proof. unfold ex_W, dprod. destruct i; ring. Qed.
Lemma dprod_raise c i q : dprod i (craise c i q) = dprod i q.
Proof. unfold dprod. destruct i; rewrite !qexp_raise_other by discriminate; reflexivity. Qed.

Lemma ofnat_Z n : @ofnat Zring n = Z.of_nat n.
Proof. induction n as [|n IH]; [reflexivity|]. cbn [ofnat]. rewrite IH. change (@cadd Zring) with Z.add.
  change (@c1 Zring) with 1%Z. lia. Qed.

Definition low_val (i : dir) (q : qrt) : Z := (herm (ex_p i) (qexp i q - 1) * dprod i q)%Z.

Lemma same_term s m f i q :
  same_side_term ex_K ex_W s m f i q = (sgn m * (Z.of_nat (gexp i (cget f q)) * low_val i q))%Z.
Proof.
  unfold same_side_term. destruct (clower f i q) as [q'|] eqn:E.
  - apply clower_some in E. subst q. rewrite ofnat_Z. unfold ex_K; cbn [k_h k_a].
    rewrite !(ex_W_dir i), sgn_S. unfold low_val. rewrite dprod_raise, qexp_raise_same.
    replace (S (qexp i q') - 1) with (qexp i q') by lia.
    zr; ring.
  - apply clower_none in E. rewrite E. cbn [Z.of_nat]; zr; ring.
Qed.
Lemma other_term m f i q :
  other_side_term ex_K ex_W m f i q = (sgn m * (Z.of_nat (gexp i (cget f q)) * low_val i q))%Z.
Proof.
  unfold other_side_term. destruct (clower f i q) as [q'|] eqn:E.
  - apply clower_some in E. subst q. rewrite ofnat_Z. unfold ex_K; cbn [k_hpq].
    rewrite !(ex_W_dir i), sgn_S. unfold low_val. rewrite dprod_raise, qexp_raise_same.
    replace (S (qexp i q') - 1) with (qexp i q') by lia.
    zr; ring.
  - apply clower_none in E. rewrite E. cbn [Z.of_nat]; zr; ring.
Qed.

Lemma ex_family : os_family ex_K ex_W.
Proof.
  intros c i m q s. rewrite !same_term, !other_term.
  rewrite (ex_W_dir i m (craise c i q)), (ex_W_dir i m q), (ex_W_dir i (S m) q), sgn_S.
  rewrite dprod_raise, qexp_raise_same, herm_rec.
  change (@cadd Zring) with Z.add; change (@cmul Zring) with Z.mul.
  unfold ex_K; cbn [k_PA k_aPQ]. change (cside c) with s.
  assert (Z.of_nat (qexp i q) = Z.of_nat (gexp i (cget (lefts s) q)) + Z.of_nat (gexp i (cget (rights s) q))
    + Z.of_nat (gexp i (cget (lefts (other s)) q)) + Z.of_nat (gexp i (cget (rights (other s)) q)))%Z as ->.
  { unfold qexp. destruct s, q; cbn; lia. }
  unfold low_val. zr; ring.
Qed.

(** Requests of the examples: all components of (ps|ds) and (ps|ps). *)
Definition ex_init : list qrt := qtargets psi4 (QAM 1 0 2 0) ++ qtargets psi4 (QAM 1 0 1 0).
Lemma ex_init_whole : whole_classes ex_init.
Proof.
  intros q q' H E. unfold ex_init in *. apply in_app_iff in H. apply in_app_iff.
  destruct H as [H|H]; [left|right]; apply in_qtargets in H; try exact psi4_starts; apply in_qtargets; try exact psi4_starts; congruence.
Qed.

(** The contents of the array of class [a] with [N] orders. *)
Definition ex_blk (a : qam) (N : nat) : list (option Z) :=
  flat_map (fun n => map (fun q => Some (ex_W n q)) (qtargets psi4 a)) (seq 0 N).
