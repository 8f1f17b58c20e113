(** One horizontal recurrence step.
    Source: generator/ostei/Makowski.hpp:25-82 ([Makowski_HRR::DoubletStep_]) and the
    signs of generator/ostei/OSTEI_HRR_Writer.cpp:42-44, 81-83. *)
From Coq Require Import List Arith Lia Bool ZArith.
Import ListNotations.
From Verif Require Import Base Cart Mdir.
Set Implicit Arguments.

(** Step direction inside one side.  [true] is [RRStepType::I] or [K] (momentum is
    moved onto the left function), [false] is [J] or [L] (Types.hpp:170-176). *)
Definition moving (lf : bool) (d : dbl) : gauss := if lf then dl d else dr d.
Definition still (lf : bool) (d : dbl) : gauss := if lf then dr d else dl d.
Definition mk (lf : bool) (m s : gauss) : dbl := if lf then D m s else D s m.

(** [struct HRRDoubletStep]: target, the two sources and the Cartesian direction. *)
Record hstep := HS { hs_target : dbl; hs_src0 : dbl; hs_src1 : dbl; hs_dir : dir }.

(** Outcomes of [DoubletStep_]: an exception (Makowski.hpp:30-31), undefined behaviour
    (dereference of [end()], Makowski.hpp:51-52), or a step. *)
Inductive hres := HThrow | HUndef | HStep (s : hstep).

Definition doublet_step (lf : bool) (t : dbl) : hres :=
  if gam (dl t) + gam (dr t) =? 0 then HThrow
  else match mdir (moving lf t) with
       | None => HUndef
       | Some i =>
         match down i (moving lf t) with
         | None => HUndef      (* negative exponent; shown not to happen *)
         | Some common =>
           HStep (HS t (mk lf common (up i (still lf t)))
                       (mk lf common (still lf t)) i)
         end
       end.

(** ** Specification: the transfer relation *)
Section Spec.
Context {R : cring}.

(** [V] is a family of integrals over products of two Gaussians with centre
    distance [X = A - B]: (a, b+1_i) = (a+1_i, b) + (A-B)_i (a, b). *)
Definition transfer (X : dir -> R) (V : dbl -> R) : Prop :=
  forall a b i, V (D a (up i b)) = (V (D (up i a) b) + X i * V (D a b))%r.

(** Right-hand side the writer prints: [src0 + (h * src1)] or [src0 - (h * src1)]. *)
Definition hrr_rhs (lf : bool) (h v0 v1 : R) : R :=
  if lf then (v0 - h * v1)%r else (v0 + h * v1)%r.

Add Ring hrr_ring : (cth R).

Lemma hrr_step_exact lf X V t s :
  transfer X V -> doublet_step lf t = HStep s ->
  V t = hrr_rhs lf (X (hs_dir s)) (V (hs_src0 s)) (V (hs_src1 s)).
Proof.
  intros HV. unfold doublet_step.
  destruct (gam (dl t) + gam (dr t) =? 0); [discriminate|].
  destruct (mdir (moving lf t)) as [i|] eqn:Em; [|discriminate].
  destruct (down i (moving lf t)) as [c|] eqn:Ed; [|discriminate].
  intros E; injection E as <-; simpl.
  apply down_some in Ed. destruct t as [l r], lf; simpl in *; subst.
  - rewrite (HV c r i). ring.
  - rewrite (HV l c i). reflexivity.
Qed.
End Spec.

Lemma doublet_step_ok lf t : gam (moving lf t) <> 0 ->
  exists s, doublet_step lf t = HStep s /\ hs_target s = t.
Proof.
  intros H. unfold doublet_step.
  destruct (Nat.eqb_spec (gam (dl t) + gam (dr t)) 0) as [E|E].
  - exfalso. destruct lf; simpl in H; lia.
  - destruct (mdir_some _ H) as [i Hi]. rewrite Hi.
    destruct (mdir_down _ Hi) as [c [Hc _]]. rewrite Hc. eexists; split; reflexivity.
Qed.

(** Shape of a step: sources carry one quantum less on the moving side; the first keeps the
    total, the second has one less in total. *)
Definition step_shape (lf : bool) (s : hstep) : Prop :=
  exists c, moving lf (hs_target s) = up (hs_dir s) c /\
    is_mdir (moving lf (hs_target s)) (hs_dir s) /\
    hs_src0 s = mk lf c (up (hs_dir s) (still lf (hs_target s))) /\
    hs_src1 s = mk lf c (still lf (hs_target s)).

Lemma doublet_step_shape lf t s : doublet_step lf t = HStep s ->
  hs_target s = t /\ step_shape lf s.
Proof.
  unfold doublet_step.
  destruct (gam (dl t) + gam (dr t) =? 0); [discriminate|].
  destruct (mdir (moving lf t)) as [i|] eqn:Em; [|discriminate].
  destruct (down i (moving lf t)) as [c|] eqn:Ed; [|discriminate].
  intros E; injection E as <-; simpl. split; [reflexivity|].
  exists c; simpl. split; [apply down_some; exact Ed|].
  split; [apply mdir_spec; exact Em|]. split; reflexivity.
Qed.

Lemma moving_mk lf m s : moving lf (mk lf m s) = m.
Proof. destruct lf; reflexivity. Qed.
Lemma still_mk lf m s : still lf (mk lf m s) = s.
Proof. destruct lf; reflexivity. Qed.
Lemma mk_eta lf t : mk lf (moving lf t) (still lf t) = t.
Proof. destruct lf, t; reflexivity. Qed.

(** Class requirements of a step, as in [GenerateAMReq], OSTEI_HRR_Algorithm_Base.cpp:368-392. *)
Definition hreq (lf : bool) (c : nat * nat) : (nat * nat) * (nat * nat) :=
  if lf then ((fst c - 1, snd c + 1), (fst c - 1, snd c))
  else ((fst c + 1, snd c - 1), (fst c, snd c - 1)).

Lemma step_classes lf t s : doublet_step lf t = HStep s ->
  dclass (hs_src0 s) = fst (hreq lf (dclass t)) /\
  dclass (hs_src1 s) = snd (hreq lf (dclass t)) /\
  gam (moving lf t) = S (gam (moving lf (hs_src0 s))) /\
  gam (moving lf t) = S (gam (moving lf (hs_src1 s))).
Proof.
  intros H. apply doublet_step_shape in H as [<- [c [Hm [_ [H0 H1]]]]].
  rewrite H0, H1. rewrite Hm, !moving_mk, gam_up.
  destruct (hs_target s) as [l r], lf; simpl in *; subst;
    unfold dclass, hreq; simpl; rewrite ?gam_up; repeat split; try (f_equal; lia); lia.
Qed.

(** A family meeting [transfer]: the point value (r-A)^a (r-B)^b. *)
Definition zpow (b : Z) (n : nat) : Z := Z.pow b (Z.of_nat n).
Definition point_family (u v : dir -> Z) (d : dbl) : Z :=
  (zpow (u DX) (gx (dl d)) * zpow (u DY) (gy (dl d)) * zpow (u DZ) (gz (dl d)) *
   (zpow (v DX) (gx (dr d)) * zpow (v DY) (gy (dr d)) * zpow (v DZ) (gz (dr d))))%Z.

Lemma zpow_S b n : zpow b (S n) = (b * zpow b n)%Z.
Proof. unfold zpow. rewrite Nat2Z.inj_succ, Z.pow_succ_r by lia. reflexivity. Qed.

Lemma point_family_transfer u v :
  @transfer Zring (fun i => (v i - u i)%Z) (point_family u v).
Proof.
  intros [a b c] [a' b' c'] i. unfold point_family. simpl.
  destruct i; simpl; rewrite !zpow_S; ring.
Qed.

Lemma hrr_step_total (lf : bool) (t : dbl) : gam (moving lf t) <> 0 ->
  exists s, doublet_step lf t = HStep s /\ hs_target s = t /\
    gam (moving lf (hs_src0 s)) < gam (moving lf t) /\
    gam (moving lf (hs_src1 s)) < gam (moving lf t) /\
    forall (R : cring) (X : dir -> R) (V : dbl -> R), transfer X V ->
      V t = if lf then (V (hs_src0 s) - X (hs_dir s) * V (hs_src1 s))%r
            else (V (hs_src0 s) + X (hs_dir s) * V (hs_src1 s))%r.
Proof.
  intros H. destruct (doublet_step_ok lf t H) as [s [E Et]]. exists s.
  destruct (step_classes lf t E) as [_ [_ [K0 K1]]].
  split; [exact E|]. split; [exact Et|]. split; [lia|]. split; [lia|].
  intros R X V HV. pose proof (@hrr_step_exact R lf X V t s HV E) as K. unfold hrr_rhs in K. exact K.
Qed.
