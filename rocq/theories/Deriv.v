(** Forming the derivatives.
    Source: generator/ostei/OSTEIDeriv1_Writer.cpp:334-537 ([WriteFormDeriv]);
    the request is [needed_am] (Driver.v, ostei_deriv1_generator.cpp:91-125). *)
From Coq Require Import List Arith Lia Bool ZArith Ring.
Import ListNotations.
From Verif Require Import Base Cart Tables Mdir RecurData Recur HRRStep HRRAlgo HRROrder HRRExec VRRStep Work Driver.
Set Implicit Arguments.

Section Form.
Context {R : cring}.
Add Ring RRd : (cth R).
Local Notation mem := (@hmem R).
Local Notation "x <- e ;; f" := (match e with Some x => f | None => None end)
  (at level 60, e at next level, right associativity).

(** ** Model *)
(** Number of a centre in the output block. *)
Definition cidx (x : ctr) : nat := match x with CI => 0 | CJ => 1 | CK => 2 | CL => 3 end.
(** Row of the table: [ijk], [idx\[d\]\[0\]], [idx\[d\]\[2\]]. *)
Definition row_ijk (r : recur_row) (d : dir) : Z :=
  let '((i, j, k), _, _, _, _) := r in match d with DX => i | DY => j | DZ => k end.
Definition row_idx (r : recur_row) (d : dir) : Z * Z * Z :=
  let '(_, _, tx, ty, tz) := r in match d with DX => tx | DY => ty | DZ => tz end.
Definition row_dn (r : recur_row) (d : dir) : Z := let '(a, _, _) := row_idx r d in a.
Definition row_up (r : recur_row) (d : dir) : Z := let '(_, _, c) := row_idx r d in c.

Definition nset (n : ctr -> nat) (x : ctr) (v : nat) (y : ctr) : nat := if ctr_eq_dec x y then v else n y.
(** The printed index into an array of class [a], lines 388-390, 418-420, 451-453, 484-486 and the others;
    the factors are those of the class of the array. *)
Definition full_idx (a : qam) (n : ctr -> nat) : nat :=
  n CI * (ncart (am1 a) * ncart (am2 a) * ncart (am3 a)) + n CJ * (ncart (am2 a) * ncart (am3 a))
  + n CK * ncart (am3 a) + n CL.
(** Read of a determined element; store into the output block. *)
Definition rdv (l : list (option R)) (i : nat) : option R :=
  match nth_error l i with Some v => v | None => None end.
Definition wr (out : list (option R)) (p : nat) (v : R) : option (list (option R)) :=
  if p <? length out then Some (upd out p (Some v)) else None.

Definition place (start : nat) (x : ctr) (d : dir) : nat := start + (3 * cidx x + idx_of_dir d).
(** Lines 391-393, 421-423, 454-456, 487-489. *)
Definition put_raised (M : mem) (am : qam) (n : ctr -> nat) (start : nat) (x : ctr) (r : recur_row) (d : dir)
  (out : list (option R)) : option (list (option R)) :=
  if (row_up r d <? 0)%Z then None else
  v <- rdv (M (TQ (dtag x) (araise x am))) (full_idx (araise x am) (nset n x (Z.to_nat (row_up r d)))) ;;
  wr out (place start x d) v.
(** Lines 403-405, 433-435, 466-468, 499-501. *)
Definition sub_lowered (M : mem) (m : qam) (n : ctr -> nat) (start : nat) (x : ctr) (r : recur_row) (d : dir)
  (out : list (option R)) : option (list (option R)) :=
  if (row_dn r d <? 0)%Z then Some out else
  w <- rdv out (place start x d) ;;
  v <- rdv (M (TQ 0 m)) (full_idx m (nset n x (Z.to_nat (row_dn r d)))) ;;
  wr out (place start x d) (w - ofnat (Z.to_nat (row_ijk r d)) * v)%r.
Definition dirs3 (f : dir -> list (option R) -> option (list (option R))) (out : list (option R)) :=
  a <- f DX out ;; b <- f DY a ;; f DZ b.
(** Lines 379-408, 410-438, 440-471, 473-504. *)
Definition centre (M : mem) (am : qam) (n : ctr -> nat) (start : nat) (x : ctr) (out : list (option R))
  : option (list (option R)) :=
  r <- recur_lookup (aget x am) (n x) ;;
  o <- dirs3 (put_raised M am n start x r) out ;;
  match alower x am with
  | None => Some o
  | Some m => dirs3 (sub_lowered M m n start x r) o
  end.
(** Lines 507-541. *)
Definition others (x : ctr) : ctr * ctr * ctr :=
  match x with CI => (CJ, CK, CL) | CJ => (CI, CK, CL) | CK => (CI, CJ, CL) | CL => (CI, CJ, CK) end.
Definition free_centre (start : nat) (x : ctr) (d : dir) (out : list (option R)) : option (list (option R)) :=
  let '(y1, y2, y3) := others x in
  a <- rdv out (place start y1 d) ;; b <- rdv out (place start y2 d) ;; c <- rdv out (place start y3 d) ;;
  wr out (place start x d) (- (a + b + c))%r.
(** Nothing is printed for the missing centre. *)
Definition unless (M : mem) (am : qam) (missing : ctr) (n : ctr -> nat) (start : nat) (x : ctr)
  (out : list (option R)) : option (list (option R)) :=
  if ctr_eq_dec missing x then Some out else centre M am n start x out.
(** The body of the loop. *)
Definition block (M : mem) (am : qam) (missing : ctr) (n : ctr -> nat) (start : nat) (out : list (option R))
  : option (list (option R)) :=
  a <- unless M am missing n start CI out ;; b <- unless M am missing n start CJ a ;;
  c <- unless M am missing n start CK b ;; d <- unless M am missing n start CL c ;;
  dirs3 (free_centre start missing) d.
(** Loops over [n1] to [n4], lines 371-375. *)
Definition tuples (am : qam) : list (ctr -> nat) :=
  flat_map (fun n1 => flat_map (fun n2 => flat_map (fun n3 => map (fun n4 x =>
    match x with CI => n1 | CJ => n2 | CK => n3 | CL => n4 end) (seq 0 (ncart (am3 am))))
    (seq 0 (ncart (am2 am)))) (seq 0 (ncart (am1 am)))) (seq 0 (ncart (am0 am))).
Fixpoint blocks (M : mem) (am : qam) (missing : ctr) (l : list (ctr -> nat)) (start : nat) (out : list (option R))
  : option (list (option R)) :=
  match l with
  | [] => Some out
  | n :: r => o <- block M am missing n start out ;; blocks M am missing r (start + 12) o
  end.
(** [&recurinfo_array[am_recur_map[am]]] is formed for all four centres, lines 359-362; the output pointer is
    that of quartet [abcd], OSTEI_HRR_Writer.cpp:131-143 and OSTEIDeriv1_Writer.cpp:364-368. *)
Definition form_deriv (M : mem) (am : qam) (abcd : nat) (out : list (option R)) : option (list (option R)) :=
  if forallb (fun x => aget x am <? length am_recur_map) [CI; CJ; CK; CL]
  then blocks M am (missing_center am) (tuples am) (12 * (abcd * qncart am)) out else None.
(** One quartet after the other, [real_abcd++]. *)
Fixpoint form_all (Ms : nat -> mem) (am : qam) (abcd n : nat) (out : list (option R)) : option (list (option R)) :=
  match n with
  | 0 => Some out
  | S m => o <- form_deriv (Ms abcd) am abcd out ;; form_all Ms am (S abcd) m o
  end.

(** ** Specification *)
(** Derivative of the function with components [q] with respect to coordinate [d] of centre [x]: [V g] are
    the integrals with factor [g] (1 to 4: twice the exponent of that centre; 0: none). *)
Definition raise_lower (V : nat -> qrt -> R) (x : ctr) (d : dir) (q : qrt) : R :=
  (V (dtag x) (craise x d q) -
   match clower x d q with Some q' => ofnat (gexp d (cget x q)) * V 0 q' | None => c0 end)%r.
Definition free_value (V : nat -> qrt -> R) (x : ctr) (d : dir) (q : qrt) : R :=
  let '(y1, y2, y3) := others x in
  (- (raise_lower V y1 d q + raise_lower V y2 d q + raise_lower V y3 d q))%r.
(** The arrays of the request hold the integrals. *)
Definition supplied (V : nat -> qrt -> R) (M : mem) (am : list tqam) : Prop :=
  forall t q, In t am -> qclass q = tq_am t -> nth_error (M t) (qindex psi4 q) = Some (Some (V (tq_tag t) q)).

(** ** Proofs *)
Definition sets (o o' : list (option R)) (p : nat) (v : R) : Prop :=
  length o' = length o /\ nth_error o' p = Some (Some v) /\ forall i, i <> p -> nth_error o' i = nth_error o i.
Lemma wr_ok o p v : p < length o -> exists o', wr o p v = Some o' /\ sets o o' p v.
Proof.
  intros H. unfold wr. destruct (Nat.ltb_spec p (length o)); [|lia]. eexists. split; [reflexivity|].
  split; [apply upd_length|]. split; [apply nth_error_upd_same; exact H|].
  intros i Hi. apply nth_error_upd_other. congruence.
Qed.

(** Three directions one after the other. *)
Lemma place_inj start x y d e : place start x d = place start y e -> x = y /\ d = e.
Proof. unfold place. destruct x, y, d, e; cbn; intros H; try (split; reflexivity); lia. Qed.
Definition sets3 (o o' : list (option R)) (start : nat) (x : ctr) (F : dir -> R) : Prop :=
  length o' = length o /\ (forall d, nth_error o' (place start x d) = Some (Some (F d))) /\
  forall i, (forall d, i <> place start x d) -> nth_error o' i = nth_error o i.
Lemma dirs3_ok (pre : list (option R) -> dir -> Prop) f o start x F :
  (forall d, pre o d) ->
  (forall o1 o2 d, length o1 = length o2 -> (forall i, i <> place start x d -> nth_error o2 i = nth_error o1 i) ->
     forall e, e <> d -> pre o1 e -> pre o2 e) ->
  (forall o1 d, length o1 = length o -> pre o1 d -> exists o2, f d o1 = Some o2 /\ sets o1 o2 (place start x d) (F d)) ->
  exists o', dirs3 f o = Some o' /\ sets3 o o' start x F.
Proof.
  intros P0 Pk Hf. unfold dirs3.
  destruct (Hf o DX eq_refl (P0 DX)) as [a [-> [La [Va Oa]]]].
  assert (Pa : forall e, e <> DX -> pre a e) by (intros e He; apply (Pk o a DX (eq_sym La) Oa e He), P0).
  destruct (Hf a DY La (Pa DY ltac:(discriminate))) as [b [-> [Lb [Vb Ob]]]].
  assert (Pb : pre b DZ) by (apply (Pk a b DY (eq_sym Lb) Ob DZ); [discriminate|apply Pa; discriminate]).
  destruct (Hf b DZ (eq_trans Lb La) Pb) as [c [-> [Lc [Vc Oc]]]].
  exists c. split; [reflexivity|]. split; [congruence|].
  assert (N : forall d e, d <> e -> place start x d <> place start x e) by (intros d e H K; apply place_inj in K; tauto).
  split.
  - intros [| |].
    + rewrite Oc, Ob by (apply N; discriminate). exact Va.
    + rewrite Oc by (apply N; discriminate). exact Vb.
    + exact Vc.
  - intros i Hi. rewrite Oc, Ob, Oa by apply Hi. reflexivity.
Qed.

Section OneBlock.
Variables (V : nat -> qrt -> R) (M : mem) (q : qrt) (start : nat).
Let am := qclass q.
Let n (x : ctr) : nat := pos (cget x q).

Lemma full_idx_q p : full_idx (qclass p) (fun x => pos (cget x p)) = qindex psi4 p.
Proof. rewrite qindex_row_major. unfold full_idx, qclass; cbn [am1 am2 am3 cget opos psi4]. nia. Qed.
Lemma full_idx_ext a f g : (forall x, f x = g x) -> full_idx a f = full_idx a g.
Proof. intros H. unfold full_idx. rewrite !H. reflexivity. Qed.
Lemma araise_class x d : qclass (craise x d q) = araise x am.
Proof. unfold am, craise. destruct q as [a b c e], x; unfold qclass, araise; cbn [cset qa qb qc qd am0 am1 am2 am3 cget]; rewrite gam_up; reflexivity. Qed.
Lemma raised_idx x d : full_idx (araise x am) (nset n x (pos (up d (cget x q)))) = qindex psi4 (craise x d q).
Proof.
  rewrite <- (araise_class x d), <- full_idx_q. apply full_idx_ext. intros y. unfold nset, craise.
  destruct (ctr_eq_dec x y) as [->|N]; [rewrite cget_cset; reflexivity|].
  rewrite cget_cset_other by exact N. reflexivity.
Qed.
Lemma lowered_idx x d g : down d (cget x q) = Some g ->
  full_idx (qclass (cset x g q)) (nset n x (pos g)) = qindex psi4 (cset x g q).
Proof.
  intros H. rewrite <- full_idx_q. apply full_idx_ext. intros y. unfold nset.
  destruct (ctr_eq_dec x y) as [->|N]; [rewrite cget_cset; reflexivity|].
  rewrite cget_cset_other by exact N. reflexivity.
Qed.
Lemma alower_class x m d g : alower x am = Some m -> down d (cget x q) = Some g -> qclass (cset x g q) = m.
Proof.
  intros H K. apply gam_down in K. unfold am in H.
  destruct q as [a b c e], x; cbn [cget qa qb qc qd qclass alower am0 am1 am2 am3 cset] in *;
    rewrite K in H; injection H as <-; reflexivity.
Qed.
Lemma alower_none_class x : alower x am = None -> gam (cget x q) = 0.
Proof.
  unfold am. destruct q as [a b c e], x; cbn [cget qa qb qc qd qclass alower am0 am1 am2 am3];
    match goal with |- context [gam ?g] => destruct (gam g) end; intros H; [reflexivity|discriminate|..];
    try reflexivity; try discriminate.
Qed.

Lemma centre_ok x o : gam (cget x q) <= 18 -> start + 12 <= length o ->
  (forall d, nth_error (M (TQ (dtag x) (araise x am))) (qindex psi4 (craise x d q)) = Some (Some (V (dtag x) (craise x d q)))) ->
  (forall q' d, clower x d q = Some q' -> nth_error (M (TQ 0 (qclass q'))) (qindex psi4 q') = Some (Some (V 0 q'))) ->
  exists o', centre M am n start x o = Some o' /\ sets3 o o' start x (fun d => raise_lower V x d q).
Proof.
  intros Hg HL HU HD. unfold centre.
  assert (Ea : aget x am = gam (cget x q)) by (destruct x; reflexivity).
  rewrite Ea. destruct (recur_lookup_ok (cget x q) Hg) as [r [Er Hr]]. unfold n at 1. rewrite Er.
  assert (Pl : forall d, place start x d < length o).
  { intros d. unfold place. destruct x, d; cbn [cidx idx_of_dir]; lia. }
  assert (RU : forall d, row_up r d = Z.of_nat (pos (up d (cget x q)))).
  { intros d. destruct r as [[[[ijk dd] tx] ty] tz]. destruct Hr as (_ & _ & _ & Tx & Ty & Tz).
    unfold row_up, row_idx. destruct d; rewrite ?Tx, ?Ty, ?Tz; reflexivity. }
  assert (RD : forall d, row_dn r d = nbr (down d (cget x q))).
  { intros d. destruct r as [[[[ijk dd] tx] ty] tz]. destruct Hr as (_ & _ & _ & Tx & Ty & Tz).
    unfold row_dn, row_idx. destruct d; rewrite ?Tx, ?Ty, ?Tz; reflexivity. }
  assert (RE : forall d, row_ijk r d = Z.of_nat (gexp d (cget x q))).
  { intros d. destruct r as [[[[[[i j] k] dd] tx] ty] tz]. destruct Hr as (E & _). unfold toZ in E. injection E as -> -> ->.
    destruct d; reflexivity. }
  destruct (@dirs3_ok (fun _ _ => True) (put_raised M am n start x r) o start x (fun d => V (dtag x) (craise x d q)))
    as [o1 [E1 [L1 [V1 O1]]]]; auto.
  { intros o1 d Lo _. unfold put_raised. rewrite RU.
    destruct (Z.ltb_spec (Z.of_nat (pos (up d (cget x q)))) 0); [lia|]. rewrite Nat2Z.id, raised_idx.
    unfold rdv. rewrite HU. apply wr_ok. rewrite Lo. apply Pl. }
  rewrite E1. destruct (alower x am) as [m|] eqn:Em.
  - set (G := fun d => raise_lower V x d q).
    destruct (@dirs3_ok (fun o2 d => nth_error o2 (place start x d) = Some (Some (V (dtag x) (craise x d q))))
      (sub_lowered M m n start x r) o1 start x G) as [o2 [E2 [L2 [V2 O2]]]].
    + exact V1.
    + intros oa ob d Lab Hab e He Hp. rewrite Hab; [exact Hp|]. intros K. apply place_inj in K. tauto.
    + intros oa d La Hp. unfold sub_lowered. rewrite RD. unfold G, raise_lower, clower.
      destruct (down d (cget x q)) as [g|] eqn:Ed; cbn [nbr].
      * destruct (Z.ltb_spec (Z.of_nat (pos g)) 0); [lia|]. rewrite RE, !Nat2Z.id.
        rewrite <- (@alower_class x m d g Em Ed). rewrite (@lowered_idx x d g Ed).
        assert (Hc : clower x d q = Some (cset x g q)) by (unfold clower; rewrite Ed; reflexivity).
        unfold rdv. rewrite Hp. rewrite (HD _ d Hc). apply wr_ok. rewrite La, L1. apply Pl.
      * exists oa. split; [reflexivity|]. split; [reflexivity|]. split; [|reflexivity].
        rewrite Hp. f_equal. f_equal. ring.
    + exists o2. split; [exact E2|]. split; [congruence|]. split; [exact V2|].
      intros i Hi. rewrite O2, O1 by exact Hi. reflexivity.
  - exists o1. split; [reflexivity|]. split; [exact L1|]. split; [|exact O1].
    intros d. rewrite V1. unfold raise_lower, clower. pose proof (@alower_none_class x Em) as Z.
    assert (D0 : down d (cget x q) = None) by (apply down_none; pose proof (gexp_le d (cget x q)); lia).
    rewrite D0. f_equal. f_equal. ring.
Qed.

Definition block_value (missing x : ctr) (d : dir) : R :=
  if ctr_eq_dec missing x then free_value V missing d q else raise_lower V x d q.

Lemma block_ok missing o : (forall x, gam (cget x q) <= 18) -> start + 12 <= length o ->
  (forall x d, x <> missing -> nth_error (M (TQ (dtag x) (araise x am))) (qindex psi4 (craise x d q)) = Some (Some (V (dtag x) (craise x d q)))) ->
  (forall x q' d, x <> missing -> clower x d q = Some q' -> nth_error (M (TQ 0 (qclass q'))) (qindex psi4 q') = Some (Some (V 0 q'))) ->
  exists o', block M am missing n start o = Some o' /\ length o' = length o /\
    (forall x d, nth_error o' (place start x d) = Some (Some (block_value missing x d))) /\
    (forall i, i < start \/ start + 12 <= i -> nth_error o' i = nth_error o i).
Proof.
  intros Hg HL HU HD. unfold block.
  set (run := unless M am missing n start).
  assert (Step : forall x o1, length o1 = length o -> exists o2, run x o1 = Some o2 /\ length o2 = length o1 /\
    (x <> missing -> forall d, nth_error o2 (place start x d) = Some (Some (raise_lower V x d q))) /\
    (forall i, (forall d, i <> place start x d) -> nth_error o2 i = nth_error o1 i)).
  { intros x o1 Lo. unfold run, unless. destruct (ctr_eq_dec missing x) as [->|N].
    - exists o1. split; [reflexivity|]. split; [reflexivity|]. split; [congruence|reflexivity].
    - destruct (@centre_ok x o1 (Hg x) ltac:(lia) (fun d => HU x d (not_eq_sym N)) (fun q' d => HD x q' d (not_eq_sym N)))
        as [o2 [E [L [Vv O]]]].
      exists o2. auto. }
  destruct (Step CI o eq_refl) as [a [Ea [La [Va Oa]]]]. rewrite Ea.
  destruct (Step CJ a ltac:(congruence)) as [b [Eb [Lb [Vb Ob]]]]. rewrite Eb.
  destruct (Step CK b ltac:(congruence)) as [c [Ec [Lc [Vc Oc]]]]. rewrite Ec.
  destruct (Step CL c ltac:(congruence)) as [e [Ee [Le [Ve Oe]]]]. rewrite Ee.
  assert (N : forall x y d, x <> y -> forall d', place start x d <> place start y d')
    by (intros x y d H d' K; apply place_inj in K; tauto).
  assert (VV : forall x, x <> missing -> forall d, nth_error e (place start x d) = Some (Some (raise_lower V x d q))).
  { intros x Hx d. destruct x.
    - rewrite Oe, Oc, Ob by (apply N; discriminate). apply Va, Hx.
    - rewrite Oe, Oc by (apply N; discriminate). apply Vb, Hx.
    - rewrite Oe by (apply N; discriminate). apply Vc, Hx.
    - apply Ve, Hx. }
  assert (OO : forall i, (forall x d, i <> place start x d) -> nth_error e i = nth_error o i)
    by (intros i Hi; rewrite Oe, Oc, Ob, Oa by apply Hi; reflexivity).
  destruct (@dirs3_ok (fun o2 d => forall x, x <> missing -> nth_error o2 (place start x d) = Some (Some (raise_lower V x d q)))
    (free_centre start missing) e start missing (fun d => free_value V missing d q)) as [f [Ef [Lf [Vf Of]]]].
  - intros d x Hx. apply VV, Hx.
  - intros oa ob d Lab Hab d' Hd Hp x Hx. rewrite Hab; [apply Hp, Hx|]. intros K. apply place_inj in K. tauto.
  - intros oa d Lo Hp. unfold free_centre, free_value.
    destruct (others missing) as [[y1 y2] y3] eqn:Eo.
    assert (Hy : y1 <> missing /\ y2 <> missing /\ y3 <> missing)
      by (destruct missing; injection Eo as <- <- <-; repeat split; discriminate).
    unfold rdv. rewrite !Hp by apply Hy. apply wr_ok. unfold place. destruct missing, d; cbn [cidx idx_of_dir]; lia.
  - exists f. split; [exact Ef|]. split; [congruence|]. split.
    + intros x d. unfold block_value. destruct (ctr_eq_dec missing x) as [->|Nx]; [apply Vf|].
      rewrite Of by (apply N; congruence). apply VV. congruence.
    + intros i Hi. rewrite Of, OO; [reflexivity| |].
      * intros x d K. unfold place in K. destruct x, d; cbn in K; lia.
      * intros d K. unfold place in K. destruct missing, d; cbn in K; lia.
Qed.
End OneBlock.

Lemma two_lt a b m n : a < m -> b < n -> a * n + b < m * n.
Proof. clear. nia. Qed.
Lemma tuples_nth am q : qclass q = am -> exists n, nth_error (tuples am) (qindex psi4 q) = Some n /\
  forall x, n x = pos (cget x q).
Proof.
  intros <-. rewrite qindex_row_major. cbn [opos psi4]. unfold tuples, qclass; cbn [am0 am1 am2 am3].
  pose proof (pos_lt (qa q)). pose proof (pos_lt (qb q)). pose proof (pos_lt (qc q)). pose proof (pos_lt (qd q)).
  set (f3 := fun n1 n2 n3 => map (fun n4 (x : ctr) => match x with CI => n1 | CJ => n2 | CK => n3 | CL => n4 end) (seq 0 (ncart (gam (qd q))))).
  set (f2 := fun n1 n2 => flat_map (f3 n1 n2) (seq 0 (ncart (gam (qc q))))).
  set (f1 := fun n1 => flat_map (f2 n1) (seq 0 (ncart (gam (qb q))))).
  assert (L3 : forall n1 n2 n3, length (f3 n1 n2 n3) = ncart (gam (qd q))) by (intros; unfold f3; rewrite map_length, seq_length; reflexivity).
  assert (L2 : forall n1 n2, length (f2 n1 n2) = ncart (gam (qc q)) * ncart (gam (qd q))).
  { intros. unfold f2. rewrite (@length_flat_map_const _ _ _ _ (ncart (gam (qd q)))) by (intros; apply L3). rewrite seq_length. reflexivity. }
  assert (L1 : forall n1, length (f1 n1) = ncart (gam (qb q)) * (ncart (gam (qc q)) * ncart (gam (qd q)))).
  { intros. unfold f1. rewrite (@length_flat_map_const _ _ _ _ (ncart (gam (qc q)) * ncart (gam (qd q)))) by (intros; apply L2). rewrite seq_length. reflexivity. }
  change (exists n : ctr -> nat, nth_error (flat_map f1 (seq 0 (ncart (gam (qa q)))))
    (((pos (qa q) * ncart (gam (qb q)) + pos (qb q)) * ncart (gam (qc q)) + pos (qc q)) * ncart (gam (qd q)) + pos (qd q)) = Some n /\
    forall x, n x = pos (cget x q)).
  replace (((pos (qa q) * ncart (gam (qb q)) + pos (qb q)) * ncart (gam (qc q)) + pos (qc q)) * ncart (gam (qd q)) + pos (qd q))
    with (pos (qa q) * (ncart (gam (qb q)) * (ncart (gam (qc q)) * ncart (gam (qd q)))) +
          (pos (qb q) * (ncart (gam (qc q)) * ncart (gam (qd q))) + (pos (qc q) * ncart (gam (qd q)) + pos (qd q)))) by nia.
  assert (B3 := two_lt H1 H2). assert (B2 := two_lt H0 B3).
  rewrite (@nth_error_flat_map_const _ _ f1 _ _ (fun a _ => L1 a) _ _ (pos (qa q)));
    [|assumption|rewrite nth_error_seq by assumption; reflexivity].
  unfold f1. rewrite (@nth_error_flat_map_const _ _ (f2 (pos (qa q))) _ _ (fun a _ => L2 _ a) _ _ (pos (qb q)));
    [|assumption|rewrite nth_error_seq by assumption; reflexivity].
  unfold f2. rewrite (@nth_error_flat_map_const _ _ (f3 (pos (qa q)) (pos (qb q))) _ _ (fun a _ => L3 _ _ a) _ _ (pos (qc q)));
    [|assumption|rewrite nth_error_seq by assumption; reflexivity].
  unfold f3. rewrite nth_error_map, nth_error_seq by assumption. cbn [option_map Nat.add].
  eexists. split; [reflexivity|]. intros [| | |]; reflexivity.
Qed.
Lemma tuples_length am : length (tuples am) = qncart am.
Proof.
  unfold tuples, qncart.
  rewrite (@length_flat_map_const _ _ _ _ (ncart (am1 am) * (ncart (am2 am) * ncart (am3 am)))).
  { rewrite seq_length. lia. }
  intros a _. rewrite (@length_flat_map_const _ _ _ _ (ncart (am2 am) * ncart (am3 am))).
  { rewrite seq_length. reflexivity. }
  intros b _. rewrite (@length_flat_map_const _ _ _ _ (ncart (am3 am))).
  { rewrite seq_length. reflexivity. }
  intros c _. rewrite map_length, seq_length. reflexivity.
Qed.

Lemma block_ext M am missing n n' start o : (forall x, n x = n' x) ->
  block M am missing n start o = block M am missing n' start o.
Proof.
  intros H.
  assert (Hs : forall x v a, full_idx a (nset n x v) = full_idx a (nset n' x v)).
  { intros x v a. apply full_idx_ext. intros y. unfold nset. destruct (ctr_eq_dec x y); [reflexivity|apply H]. }
  assert (Hc : forall x o, centre M am n start x o = centre M am n' start x o).
  { intros x o1. unfold centre. rewrite H. destruct (recur_lookup (aget x am) (n' x)); [|reflexivity].
    assert (Dx : forall f g, (forall d o, f d o = g d o) -> forall o, dirs3 f o = dirs3 g o).
    { intros f g E o2. unfold dirs3. rewrite E. destruct (g DX o2); [|reflexivity]. rewrite E.
      destruct (g DY l); [|reflexivity]. apply E. }
    rewrite (@Dx (put_raised M am n start x r) (put_raised M am n' start x r)).
    2:{ intros d o2. unfold put_raised. rewrite Hs. reflexivity. }
    destruct (dirs3 _ o1); [|reflexivity]. destruct (alower x am); [|reflexivity].
    apply Dx. intros d o2. unfold sub_lowered. rewrite Hs. reflexivity. }
  assert (Hu : forall x o, unless M am missing n start x o = unless M am missing n' start x o)
    by (intros x o1; unfold unless; rewrite Hc; reflexivity).
  unfold block. rewrite !Hu.
  repeat match goal with |- (match ?e with _ => _ end) = _ => destruct e; try reflexivity; rewrite ?Hu end.
Qed.

Lemma blocks_ok M am missing (G : nat -> ctr -> dir -> R) : forall l k0 o,
  (forall k n, nth_error l k = Some n -> forall o1, length o1 = length o ->
     exists o2, block M am missing n (12 * (k0 + k)) o1 = Some o2 /\ length o2 = length o1 /\
       (forall x d, nth_error o2 (place (12 * (k0 + k)) x d) = Some (Some (G (k0 + k) x d))) /\
       (forall i, i < 12 * (k0 + k) \/ 12 * (k0 + k) + 12 <= i -> nth_error o2 i = nth_error o1 i)) ->
  exists o', blocks M am missing l (12 * k0) o = Some o' /\ length o' = length o /\
    (forall k x d, k < length l -> nth_error o' (place (12 * (k0 + k)) x d) = Some (Some (G (k0 + k) x d))) /\
    (forall i, i < 12 * k0 \/ 12 * (k0 + length l) <= i -> nth_error o' i = nth_error o i).
Proof.
  induction l as [|n l IH]; intros k0 o H.
  - exists o. split; [reflexivity|]. split; [reflexivity|]. split; [intros k x d Hk; simpl in Hk; lia|reflexivity].
  - destruct (H 0 n eq_refl o eq_refl) as [o1 [E1 [L1 [V1 O1]]]]. rewrite Nat.add_0_r in *.
    destruct (IH (S k0) o1) as [o2 [E2 [L2 [V2 O2]]]].
    { intros k m Hk oo Lo. destruct (H (S k) m Hk oo ltac:(congruence)) as [o3 K].
      replace (S k0 + k) with (k0 + S k) by lia. exists o3. exact K. }
    exists o2. cbn [blocks]. rewrite E1. replace (12 * k0 + 12) with (12 * S k0) by lia. split; [exact E2|].
    split; [congruence|]. split.
    + intros k x d Hk. destruct k as [|k].
      * rewrite Nat.add_0_r. rewrite O2; [apply V1|]. left. unfold place. destruct x, d; cbn [cidx idx_of_dir]; lia.
      * replace (k0 + S k) with (S k0 + k) by lia. apply V2. simpl in Hk. lia.
    + intros i Hi. simpl in Hi. rewrite O2, O1 by lia. reflexivity.
Qed.

Lemma needed_raised am x : x <> missing_center am -> In (TQ (dtag x) (araise x am)) (needed_am am).
Proof.
  intros H. unfold needed_am. apply in_flat_map. exists x. split; [destruct x; simpl; auto|].
  destruct (ctr_eq_dec x (missing_center am)); [contradiction|]. left. reflexivity.
Qed.
Lemma needed_lowered am x m : x <> missing_center am -> alower x am = Some m -> In (TQ 0 m) (needed_am am).
Proof.
  intros H E. unfold needed_am. apply in_flat_map. exists x. split; [destruct x; simpl; auto|].
  destruct (ctr_eq_dec x (missing_center am)); [contradiction|]. right. rewrite E. left. reflexivity.
Qed.

(** Value at position [3*x + d] of the block of [q]. *)
Definition deriv_value (V : nat -> qrt -> R) (am : qam) (q : qrt) (x : ctr) (d : dir) : R :=
  if ctr_eq_dec (missing_center am) x then free_value V x d q else raise_lower V x d q.

(** Every component, centre and direction. *)
Theorem form_deriv_ok (V : nat -> qrt -> R) (M : mem) am abcd out :
  amax am <= 18 -> 12 * (S abcd * qncart am) <= length out -> supplied V M (needed_am am) ->
  exists out', form_deriv M am abcd out = Some out' /\ length out' = length out /\
    (forall q x d, qclass q = am ->
       nth_error out' (12 * (abcd * qncart am + qindex psi4 q) + (3 * cidx x + idx_of_dir d)) =
         Some (Some (deriv_value V am q x d))) /\
    (forall i, i < 12 * (abcd * qncart am) \/ 12 * (S abcd * qncart am) <= i -> nth_error out' i = nth_error out i).
Proof.
  intros Ha HL HM.
  assert (Hx : forall x, aget x am <= 18) by (intros x; unfold amax in Ha; destruct am, x; cbn in *; lia).
  unfold form_deriv.
  replace (forallb _ _) with true.
  2:{ symmetry. apply forallb_forall. intros x _. apply Nat.ltb_lt. pose proof (Hx x).
      rewrite am_recur_map_ok, map_length, seq_length. lia. }
  set (b := abcd * qncart am).
  assert (Ef : forall q, qclass q = am -> find (fun q0 => qindex psi4 q0 =? qindex psi4 q) (qtargets psi4 am) = Some q).
  { intros q Hq. destruct (find _ _) as [q'|] eqn:F.
    - apply find_some in F as [F1 F2]. apply Nat.eqb_eq in F2. apply (in_qtargets am q' psi4_starts) in F1.
      f_equal. apply (qindex_inj psi4); congruence.
    - exfalso. assert (Iq : In q (qtargets psi4 am)) by (apply in_qtargets; [apply psi4_starts|exact Hq]).
      pose proof (find_none _ _ F q Iq) as K. cbv beta in K. rewrite Nat.eqb_refl in K. discriminate. }
  destruct (@blocks_ok M am (missing_center am)
    (fun k x d => match find (fun q => qindex psi4 q =? k - b) (qtargets psi4 am) with
       | Some q => block_value V q (missing_center am) x d | None => c0 end) (tuples am) b out) as [o' [E [L [Vv O]]]].
  - intros k n Hk o1 Lo.
    assert (Hk' : k < qncart am) by (rewrite <- tuples_length; apply nth_error_Some; congruence).
    destruct (@qindex_surj psi4 am k Hk') as [q [Hq Hi]].
    destruct (@tuples_nth am q Hq) as [n' [Hn' Hp]]. rewrite Hi in Hn'. assert (n' = n) by congruence. subst n'.
    destruct (@block_ok V M q (12 * (b + k)) (missing_center am) o1) as [o2 [E2 [L2 [V2 O2]]]].
    + intros x. specialize (Hx x). rewrite <- Hq, aget_class in Hx. exact Hx.
    + rewrite Lo. unfold b. clear - HL Hk'. nia.
    + intros x d Nx. rewrite Hq. apply (HM (TQ (dtag x) (araise x am))); [apply needed_raised, Nx|].
      cbn [tq_am]. rewrite araise_class, Hq. reflexivity.
    + intros x q' d Nx Hc. destruct (alower x am) as [m|] eqn:Em.
      * assert (Hm : qclass q' = m).
        { unfold clower in Hc. destruct (down d (cget x q)) as [g|] eqn:Ed; [|discriminate]. injection Hc as <-.
          apply (@alower_class q x m d g); [rewrite Hq; exact Em|exact Ed]. }
        rewrite Hm. apply (HM (TQ 0 m)); [apply (@needed_lowered am x m Nx Em)|exact Hm].
      * exfalso. pose proof (@alower_none_class q x) as Z. rewrite Hq in Z. specialize (Z Em).
        unfold clower in Hc. destruct (down d (cget x q)) eqn:Ed; [|discriminate]. apply gam_down in Ed. lia.
    + exists o2. rewrite Hq in E2. rewrite (@block_ext M am _ n (fun x => pos (cget x q)) (12 * (b + k)) o1 Hp).
      split; [exact E2|]. split; [exact L2|]. split; [|exact O2].
      intros x d. replace (b + k - b) with k by lia. specialize (Ef q Hq). rewrite Hi in Ef. rewrite Ef. apply V2.
  - exists o'. split; [exact E|]. split; [exact L|]. split.
    + intros q x d Hq.
      assert (Hk : qindex psi4 q < length (tuples am)) by (rewrite tuples_length, <- Hq; apply qindex_lt).
      specialize (Vv (qindex psi4 q) x d Hk). unfold place in Vv. rewrite Vv.
      replace (b + qindex psi4 q - b) with (qindex psi4 q) by lia. rewrite (Ef q Hq).
      unfold block_value, deriv_value. destruct (ctr_eq_dec (missing_center am) x) as [<-|]; reflexivity.
    + intros i Hi. apply O. rewrite tuples_length. unfold b. lia.
Qed.

Theorem form_all_ok (V : nat -> nat -> qrt -> R) (Ms : nat -> mem) am : amax am <= 18 -> forall n abcd out,
  12 * ((abcd + n) * qncart am) <= length out ->
  (forall k, abcd <= k < abcd + n -> supplied (V k) (Ms k) (needed_am am)) ->
  exists out', form_all Ms am abcd n out = Some out' /\ length out' = length out /\
    (forall k q x d, abcd <= k < abcd + n -> qclass q = am ->
       nth_error out' (12 * (k * qncart am + qindex psi4 q) + (3 * cidx x + idx_of_dir d)) =
         Some (Some (deriv_value (V k) am q x d))) /\
    (forall i, i < 12 * (abcd * qncart am) \/ 12 * ((abcd + n) * qncart am) <= i -> nth_error out' i = nth_error out i).
Proof.
  intros Ha. induction n as [|n IH]; intros abcd out HL HM.
  - exists out. split; [reflexivity|]. split; [reflexivity|]. split; [lia|reflexivity].
  - destruct (@form_deriv_ok (V abcd) (Ms abcd) am abcd out Ha) as [o1 [E1 [L1 [V1 O1]]]].
    { clear - HL. nia. }
    { apply HM. lia. }
    destruct (IH (S abcd) o1) as [o2 [E2 [L2 [V2 O2]]]].
    { rewrite L1. replace (S abcd + n) with (abcd + S n) by lia. exact HL. }
    { intros k Hk. apply HM. lia. }
    exists o2. cbn [form_all]. rewrite E1. split; [exact E2|]. split; [congruence|]. split.
    + intros k q x d Hk Hq. destruct (Nat.eq_dec k abcd) as [->|N].
      * rewrite O2; [apply V1, Hq|]. left.
        pose proof (qindex_lt psi4 q) as Q. rewrite Hq in Q. clear - Q. destruct x, d; cbn [cidx idx_of_dir]; nia.
      * apply V2; [lia|exact Hq].
    + intros i Hi. rewrite O2, O1; [reflexivity| |]; clear - Hi; [nia|].
      replace (S abcd + n) with (abcd + S n) by lia. nia.
Qed.
End Form.
