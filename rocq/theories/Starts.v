(** Positions of primitives in the arrays of a batch of shell pairs: where they are stored and
    where the kernels look for them.
    Source: skel/simint/shell/shell.c:425-582 (simint_fill_multi_shellpair2, positions only),
    generator/ostei/OSTEI_Writer.cpp:469-473, 734; OSTEIDeriv1_Writer.cpp:934;
    skel/ostei_s_s_s_s.c:317. *)
From Coq Require Import List Arith Lia Bool.
Import ListNotations.
From Verif Require Import Base Simd Offsets.
Set Implicit Arguments.

Section Starts.
(** Vector length and [SIMINT_NSHELL_SIMD]. *)
Variables (len nss : nat).
(** Where the first primitive of shell pair [t] is stored: right after the previous pair, and on a
    multiple of the vector length after every [nss] pairs (shell.c:425-582). *)
Fixpoint start (np : nat -> nat) (t : nat) : nat :=
  match t with
  | 0 => 0
  | S t' => let e := start np t' + np t' in if (t mod nss =? 0) then rnd len e else e
  end.
(** Plain running sum: [istart], OSTEI_Writer.cpp:473, 734. *)
Fixpoint total (np : nat -> nat) (t : nat) : nat :=
  match t with 0 => 0 | S t' => total np t' + np t' end.

Lemma total_S np t : total np (S t) = total np t + np t. Proof. reflexivity. Qed.


Hypothesis Hlen : 0 < len.
Hypothesis Hnss : 0 < nss.

Lemma start_in np b t : t < nss -> start np (b * nss + t) = start np (b * nss) + psum np (b * nss) t.
Proof.
  induction t as [|t IH]; intros Ht; [rewrite !Nat.add_0_r; reflexivity|].
  rewrite Nat.add_succ_r. cbn [start psum]. rewrite IH by lia.
  replace (S (b * nss + t) mod nss) with (S t).
  - cbn [Nat.eqb]. lia.
  - replace (S (b * nss + t)) with (S t + b * nss) by lia. rewrite Nat.mod_add, Nat.mod_small by lia. reflexivity.
Qed.
Lemma start_next np b : start np (S b * nss) = rnd len (start np (b * nss) + psum np (b * nss) nss).
Proof.
  assert (HP : psum np (b * nss) (S (nss - 1)) = psum np (b * nss) nss) by (f_equal; lia). cbn [psum] in HP.
  replace (S b * nss) with (S (b * nss + (nss - 1))) by (simpl; lia).
  cbn [start]. replace (S (b * nss + (nss - 1)) mod nss) with 0.
  - cbn [Nat.eqb]. rewrite start_in by lia. f_equal. lia.
  - replace (S (b * nss + (nss - 1))) with (S b * nss) by (simpl; lia). rewrite Nat.mod_mul by lia. reflexivity.
Qed.
Lemma start_divide np b : Nat.divide len (start np (b * nss)).
Proof. destruct b as [|b]; [exists 0; reflexivity|]. rewrite start_next. apply rnd_divide. Qed.

(** *** Bra start *)
(** Primitives of the group of [nss] shell pairs number [g]. *)
Definition group_total (np : nat -> nat) (g : nat) : nat := psum np (g * nss) nss.
Lemma total_psum np a t : total np (a + t) = total np a + psum np a t.
Proof. induction t as [|t IH]; [rewrite !Nat.add_0_r; reflexivity|]. rewrite Nat.add_succ_r. cbn [total psum]. lia. Qed.

Theorem bra_start_iff np n :
  (forall t, t < n -> total np t = start np t) <->
  (forall g, S g * nss < n -> Nat.divide len (group_total np g)).
Proof.
  split.
  - intros H g Hg.
    pose proof (H _ Hg) as H1. pose proof (H (g * nss) ltac:(simpl in Hg; lia)) as H0.
    pose proof (start_next np g) as S1. pose proof (start_divide np g) as D0.
    pose proof (start_divide np (S g)) as D1.
    replace (S g * nss) with (g * nss + nss) in H1 at 1 by (simpl; lia). rewrite total_psum in H1.
    fold (group_total np g) in H1. rewrite H0 in H1.
    apply (Nat.divide_add_cancel_r _ _ _ D0). rewrite H1. exact D1.
  - intros H t. 
    assert (HG : forall g, g * nss < n -> total np (g * nss) = start np (g * nss)).
    { induction g as [|g IH]; intros Hg; [reflexivity|]. rewrite (start_next), <- IH by (simpl in Hg; lia).
      fold (group_total np g).
      replace (S g * nss) with (g * nss + nss) by (simpl; lia). rewrite total_psum. fold (group_total np g).
      symmetry. apply (rnd_id Hlen). apply Nat.divide_add_r; [|apply H; simpl in *; lia].
      rewrite IH by (simpl in Hg; lia). apply start_divide; assumption. }
    intros Ht. pose proof (Nat.div_mod t nss ltac:(lia)) as D. pose proof (Nat.mod_upper_bound t nss ltac:(lia)) as M.
    replace t with (t / nss * nss + t mod nss) by lia. rewrite (start_in) by exact M. rewrite total_psum, HG by lia. reflexivity.
Qed.

End Starts.
