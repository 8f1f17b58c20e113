(** Overlap and kinetic energy integrals: the families, the three directions, contraction. *)
From Coq Require Import List Arith Lia Bool ZArith Ring.
Import ListNotations.
From Verif Require Import Base Cart Mdir RecurData Recur PairData Deriv OneE OneEProof.
Set Implicit Arguments.

Section Families.
Context {R : cring}.
Add Ring RRos : (cth R).
Local Open Scope r_scope.
Local Notation mem := (list (option R)).

(** ** Uniqueness *)
Lemma overlaps_unique (pa pb h s00 : R) F G : overlaps pa pb h s00 F -> overlaps pa pb h s00 G ->
  forall i j, F i j = G i j.
Proof.
  intros [FL [FR F0]] [GL [GR G0]].
  assert (H : forall n i j, (i + j < n)%nat -> F i j = G i j).
  { induction n as [|n IH]; intros i j Hn; [lia|].
    destruct j as [|j].
    - destruct i as [|i]; [congruence|]. rewrite FL, GL.
      rewrite (IH i 0%nat) by lia. rewrite (IH (i - 1)%nat 0%nat) by lia. cbn [ofnat]. ring.
    - rewrite FR, GR. rewrite (IH i j) by lia. rewrite (IH (i - 1)%nat j) by lia.
      rewrite (IH i (j - 1)%nat) by lia. reflexivity. }
  intros i j. apply (H (S (i + j))). lia.
Qed.

(** ** Existence: integrals of polynomials against the Gaussian *)
Section Exist.
Variables (h s00 : R).
Local Notation I := (integral_from h s00).
Lemma I_padd k : forall p q, I k (padd p q) = I k p + I k q.
Proof.
  intros p; revert k; induction p as [|a p IH]; intros k [|b q]; cbn [padd integral_from]; try ring.
  rewrite IH. ring.
Qed.
Lemma I_scale a : forall p k, I k (map (fun x => a * x) p) = a * I k p.
Proof. induction p as [|x p IH]; intros k; cbn [map integral_from]; [ring|]. rewrite IH. ring. Qed.
(** Derivative; [k] is the exponent of the head. *)
Fixpoint pder (k : nat) (p : list R) : list R :=
  match p with [] => [] | a :: r => ofnat k * a :: pder (S k) r end.
(** Integration by parts. *)
Lemma moment_SS k : moment h s00 (S (S k)) = ofnat (S k) * h * moment h s00 k.
Proof. reflexivity. Qed.
Lemma I_shift : forall p k, I (S (S k)) p = h * I k (pder (S k) p).
Proof.
  induction p as [|a p IH]; intros k; cbn [integral_from pder]; [ring|].
  rewrite IH, moment_SS. ring.
Qed.
Definition der (p : list R) : list R := match p with [] => [] | _ :: r => pder 1 r end.
Lemma I_parts p : integral h s00 (c0 :: p) = h * integral h s00 (der p).
Proof.
  unfold integral, der. destruct p as [|a p]; cbn [integral_from]; [ring|].
  change (moment h s00 1) with (@c0 R). rewrite (I_shift p 0). ring.
Qed.
Lemma I_pmul1 a p : integral h s00 (pmul1 a p) = a * integral h s00 p + h * integral h s00 (der p).
Proof.
  unfold pmul1. unfold integral at 1. rewrite I_padd, I_scale. fold (integral h s00 p).
  f_equal. apply I_parts.
Qed.
(** Product rule, as far as integrals can see; [p ~ q] when all coefficients agree. *)
Definition peq (p q : list R) : Prop := forall k, nth k p c0 = nth k q c0.
Lemma peq_integral_from p : forall q k, peq p q -> I k p = I k q.
Proof.
  assert (Z : forall q k, (forall n, c0 = nth n q c0) -> c0 = I k q).
  { induction q as [|b q IH]; intros k H; [reflexivity|]. cbn [integral_from].
    rewrite <- (IH (S k)) by (intros n; exact (H (S n))). pose proof (H 0%nat) as E0. cbn [nth] in E0. rewrite <- E0. ring. }
  induction p as [|a p IH]; intros q k H.
  - cbn [integral_from]. apply Z. intros n. specialize (H n). destruct n; exact H.
  - destruct q as [|b q].
    + symmetry. change (c0 = I k (a :: p)). apply Z. intros n. specialize (H n). symmetry.
      rewrite H. destruct n; reflexivity.
    + cbn [integral_from]. rewrite (IH q (S k)) by (intros n; exact (H (S n))).
      pose proof (H 0%nat) as E. cbn in E. rewrite E. reflexivity.
Qed.
Lemma nth_padd : forall (p q : list R) k, nth k (padd p q) c0 = nth k p c0 + nth k q c0.
Proof.
  induction p as [|a p IH]; intros [|b q] [|k]; cbn [padd nth]; try ring. apply IH.
Qed.
Lemma nth_scale (a : R) : forall p k, nth k (map (fun x => a * x) p) c0 = a * nth k p c0.
Proof. induction p as [|x p IH]; intros [|k]; cbn [map nth]; try ring. apply IH. Qed.
Lemma nth_pder : forall (p : list R) n k, nth k (pder n p) c0 = ofnat (n + k) * nth k p c0.
Proof.
  induction p as [|x p IH]; intros n [|k]; cbn [pder nth]; try ring.
  - rewrite Nat.add_0_r. ring.
  - rewrite IH. replace (S n + k)%nat with (n + S k)%nat by lia. reflexivity.
Qed.
Lemma nth_der (p : list R) k : nth k (der p) c0 = ofnat (S k) * nth (S k) p c0.
Proof. destruct p as [|a p]; cbn [der nth]; [destruct k; ring|]. rewrite nth_pder. reflexivity. Qed.
Lemma nth_pmul1 (a : R) p k : nth k (pmul1 a p) c0 = a * nth k p c0 + match k with 0 => c0 | S k' => nth k' p c0 end.
Proof. unfold pmul1. rewrite nth_padd, nth_scale. destruct k; reflexivity. Qed.
Lemma peq_pmul1 a p q : peq p q -> peq (pmul1 a p) (pmul1 a q).
Proof. intros H k. rewrite !nth_pmul1, H. destruct k; [reflexivity|]. rewrite H. reflexivity. Qed.
Lemma der_pmul1 a p : peq (der (pmul1 a p)) (padd p (pmul1 a (der p))).
Proof.
  intros k. rewrite nth_der, nth_padd, !nth_pmul1, nth_der.
  destruct k as [|k]; cbn [ofnat].
  - ring.
  - rewrite nth_der. cbn [ofnat]. ring.
Qed.
Lemma peq_trans p q r : peq p q -> peq q r -> peq p r.
Proof. intros A B k. rewrite A. apply B. Qed.
Lemma peq_padd p p' q q' : peq p p' -> peq q q' -> peq (padd p q) (padd p' q').
Proof. intros A B k. rewrite !nth_padd, A, B. reflexivity. Qed.
Lemma pmul1_padd a p q : peq (pmul1 a (padd p q)) (padd (pmul1 a p) (pmul1 a q)).
Proof. intros k. rewrite nth_padd, !nth_pmul1, nth_padd. destruct k; [ring|]. rewrite nth_padd. ring. Qed.
Lemma pmul1_scale a c p : peq (pmul1 a (map (fun x => c * x) p)) (map (fun x => c * x) (pmul1 a p)).
Proof. intros k. rewrite nth_scale, !nth_pmul1, nth_scale. destruct k; [ring|]. rewrite nth_scale. ring. Qed.
Lemma pmul1_comm a b p : peq (pmul1 a (pmul1 b p)) (pmul1 b (pmul1 a p)).
Proof.
  intros k. rewrite !nth_pmul1. destruct k as [|k]; [ring|]. rewrite !nth_pmul1.
  destruct k; ring.
Qed.
Lemma piter_S_in a n p : peq (piter a n (pmul1 a p)) (piter a (S n) p).
Proof. induction n as [|n IH]; intros k; [reflexivity|]. exact (peq_pmul1 a IH k). Qed.
Lemma piter_comm a b n p : peq (piter a n (pmul1 b p)) (pmul1 b (piter a n p)).
Proof.
  induction n as [|n IH]; [intros k; reflexivity|]. cbn [piter].
  eapply peq_trans; [apply peq_pmul1; exact IH|]. apply pmul1_comm.
Qed.
(** Derivative of a power times [p]. *)
Lemma der_piter a n p :
  peq (der (piter a n p)) (padd (map (fun x => ofnat n * x) (piter a (n - 1) p)) (piter a n (der p))).
Proof.
  induction n as [|n IH].
  - intros k. cbn [piter Nat.sub]. rewrite nth_padd, nth_scale. cbn [ofnat]. ring.
  - cbn [piter]. eapply peq_trans; [apply der_pmul1|].
    eapply peq_trans; [apply peq_padd; [intros k; reflexivity|apply peq_pmul1; exact IH]|].
    eapply peq_trans; [apply peq_padd; [intros k; reflexivity|apply pmul1_padd]|].
    cbn [Nat.sub]. rewrite Nat.sub_0_r. intros k. rewrite !nth_padd, (pmul1_scale a (ofnat n) _ k), !nth_scale.
    destruct n as [|n].
    + cbn [piter Nat.sub ofnat]. ring.
    + cbn [Nat.sub]. rewrite Nat.sub_0_r. cbn [piter ofnat]. ring.
Qed.
Lemma der_one : der [@c1 R] = [].
Proof. reflexivity. Qed.
Lemma piter_nil a n : peq (piter a n []) [].
Proof.
  induction n as [|n IH]; [intros k; reflexivity|]. cbn [piter].
  eapply peq_trans; [apply peq_pmul1; exact IH|]. intros k. rewrite nth_pmul1. destruct k; [|destruct k]; cbn [nth]; ring.
Qed.
Variables (pa pb : R).
Lemma piter_peq a n p q : peq p q -> peq (piter a n p) (piter a n q).
Proof. intros H. induction n as [|n IH]; [exact H|]. apply peq_pmul1. exact IH. Qed.
Lemma piter_padd a n p q : peq (piter a n (padd p q)) (padd (piter a n p) (piter a n q)).
Proof.
  induction n as [|n IH]; [intros k; reflexivity|]. cbn [piter].
  eapply peq_trans; [apply peq_pmul1; exact IH|apply pmul1_padd].
Qed.
Lemma piter_scale a n c p : peq (piter a n (map (fun x => c * x) p)) (map (fun x => c * x) (piter a n p)).
Proof.
  induction n as [|n IH]; [intros k; reflexivity|]. cbn [piter].
  eapply peq_trans; [apply peq_pmul1; exact IH|apply pmul1_scale].
Qed.
Lemma der_pij i j : peq (der (pij pa pb i j))
  (padd (map (fun x => ofnat i * x) (pij pa pb (i - 1) j)) (map (fun x => ofnat j * x) (pij pa pb i (j - 1)))).
Proof.
  unfold pij. eapply peq_trans; [apply der_piter|]. apply peq_padd; [intros k; reflexivity|].
  eapply peq_trans; [|apply piter_scale]. apply piter_peq.
  eapply peq_trans; [apply der_piter|]. rewrite der_one. intros k. rewrite nth_padd, (piter_nil pb j k).
  destruct k; cbn [nth]; ring.
Qed.
Definition sint (i j : nat) : R := integral h s00 (pij pa pb i j).
Lemma sint_der i j : integral h s00 (der (pij pa pb i j)) = ofnat i * sint (i - 1) j + ofnat j * sint i (j - 1).
Proof.
  unfold integral. rewrite (peq_integral_from 0 (der_pij i j)), I_padd, !I_scale. reflexivity.
Qed.
Lemma integral_overlaps : overlaps pa pb h s00 sint.
Proof.
  split; [|split].
  - intros i j. unfold sint at 1. change (pij pa pb (S i) j) with (pmul1 pa (pij pa pb i j)).
    rewrite I_pmul1, sint_der. reflexivity.
  - intros i j. unfold sint at 1.
    assert (E : peq (pij pa pb i (S j)) (pmul1 pb (pij pa pb i j))) by (apply piter_comm).
    unfold integral. rewrite (peq_integral_from 0 E). fold (integral h s00 (pmul1 pb (pij pa pb i j))).
    rewrite I_pmul1, sint_der. reflexivity.
  - unfold sint, integral, pij. cbn [piter integral_from moment]. ring.
Qed.
End Exist.

(** ** Exchange *)
Lemma overlaps_swap (pa pb h s00 : R) F : overlaps pa pb h s00 F -> overlaps pb pa h s00 (fun i j => F j i).
Proof.
  intros [HL [HR H0]]. split; [|split; [|exact H0]].
  - intros i j. rewrite HR. ring.
  - intros i j. rewrite HL. ring.
Qed.
Lemma kinetic_swap (pa pb h s00 half al1 al2 oop : R) F :
  overlaps pa pb h s00 F -> half + half = c1 -> (al1 + al2) * oop = c1 -> h = half * oop -> al1 * pa + al2 * pb = c0 ->
  forall i j, kinetic half al1 (fun i j => F j i) j i = kinetic half al2 F i j.
Proof.
  intros HF Hh Ho H2 Hp.
  pose proof (overlaps_swap HF) as HG.
  assert (Ho' : (al2 + al1) * oop = c1) by (rewrite <- Ho; ring).
  assert (Hp' : al2 * pb + al1 * pa = c0) by (rewrite <- Hp; ring).
  set (T := kinetic half al2 F). set (U := kinetic half al1 (fun i j => F j i)).
  pose proof (kin_left (le_n 1) (le_n 1) HF half al1 al2 oop Hh Ho H2 Hp) as TL.
  pose proof (kin_right (le_n 1) (le_n 1) HF half al1 al2 oop Hh Ho H2) as TR.
  pose proof (kin_left (le_n 1) (le_n 1) HG half al2 al1 oop Hh Ho' H2 Hp') as UL.
  pose proof (kin_right (le_n 1) (le_n 1) HG half al2 al1 oop Hh Ho' H2) as UR.
  fold T in TL, TR. fold U in UL, UR.
  assert (E : forall n i j, (i + j < n)%nat -> U j i = T i j).
  { induction n as [|n IH]; intros i j Hn; [lia|].
    destruct j as [|j].
    - destruct i as [|i].
      + unfold T. rewrite (kin_00 HF half al1 al2 oop Hh Ho H2 Hp). unfold U, kinetic. cbn [Nat.add Nat.sub Nat.mul].
        destruct HF as [HL [HR H0]]. rewrite (HL 1%nat 0%nat), (HL 0%nat 0%nat). cbn [Nat.sub]. rewrite H0.
        cbn [ofnat]. ring.
      + rewrite TL, UR. rewrite (IH i 0%nat) by lia. rewrite (IH (i - 1)%nat 0%nat) by lia. cbn [ofnat]. ring.
    - rewrite TR, UL.
      rewrite (IH i j) by lia. rewrite (IH (i - 1)%nat j) by lia. rewrite (IH i (j - 1)%nat) by lia. ring. }
  intros i j. apply (E (S (i + j))). lia.
Qed.
End Families.
