(** The table-driven horizontal routines in terms of integral families. *)
From Coq Require Import List Arith Lia Bool ZArith.
Import ListNotations.
From Verif Require Import Base Cart Mdir HRRStep HRRAlgo RecurData Recur GenHRR.
Set Implicit Arguments.

Section GenSpec.
Context {R : cring}.

(** Block [b] holds the values [V] of class [c] (Psi4 order). *)
Definition holds_block (V : qrt -> R) (c : qam) (b : @block R) : Prop :=
  length b = qncart c /\
  forall q, qclass q = c -> nth_error b (qindex psi4 q) = Some (Some (V q)).

Definition bra_transfer (X : dir -> R) (V : qrt -> R) : Prop :=
  forall k, transfer X (fun b => V (qof b k)).
Definition ket_transfer (X : dir -> R) (V : qrt -> R) : Prop :=
  forall b, transfer X (fun k => V (qof b k)).

Lemma bra_block_holds lf i j k l (X : dir -> R) V th1 th2 out c1 c2 :
  bra_transfer X V -> bra_block_ok lf i j k l X th1 th2 out ->
  c1 = QAM (fst (fst (hreq lf (i, j)))) (snd (fst (hreq lf (i, j)))) k l ->
  c2 = QAM (fst (snd (hreq lf (i, j)))) (snd (snd (hreq lf (i, j)))) k l ->
  holds_block V c1 th1 -> holds_block V c2 th2 -> holds_block V (QAM i j k l) out.
Proof.
  intros HV [Hs Hq] -> -> [_ H1] [_ H2]. split; [exact Hs|].
  intros q Hc. destruct (Hq q Hc) as [h [v0 [v1 [Ht [R0 [R1 R2]]]]]].
  assert (Hb : dclass (bra q) = (i, j)) by (destruct q; injection Hc as <- <- <- <-; reflexivity).
  destruct (step_classes _ _ Ht) as [K0 [K1 _]]. rewrite Hb in K0, K1.
  unfold entry in *.
  rewrite H1 in R0.
  2: { destruct q as [a b c d]; injection Hc as <- <- <- <-. unfold qclass, qof, dclass, ket in *; cbn in *.
       rewrite <- K0. reflexivity. }
  rewrite H2 in R1.
  2: { destruct q as [a b c d]; injection Hc as <- <- <- <-. unfold qclass, qof, dclass, ket in *; cbn in *.
       rewrite <- K1. reflexivity. }
  injection R0 as <-. injection R1 as <-. rewrite R2. simpl. f_equal. f_equal. symmetry.
  pose proof (@hrr_step_exact R _ _ _ _ _ (HV (ket q)) Ht) as X0. cbv beta in X0. rewrite qof_eta in X0. exact X0.
Qed.

Lemma ket_block_holds lf i j k l (X : dir -> R) V th1 th2 out c1 c2 :
  ket_transfer X V -> ket_block_ok lf i j k l X th1 th2 out ->
  c1 = QAM i j (fst (fst (hreq lf (k, l)))) (snd (fst (hreq lf (k, l)))) ->
  c2 = QAM i j (fst (snd (hreq lf (k, l)))) (snd (snd (hreq lf (k, l)))) ->
  holds_block V c1 th1 -> holds_block V c2 th2 -> holds_block V (QAM i j k l) out.
Proof.
  intros HV [Hs Hq] -> -> [_ H1] [_ H2]. split; [exact Hs|].
  intros q Hc. destruct (Hq q Hc) as [h [v0 [v1 [Ht [R0 [R1 R2]]]]]].
  assert (Hb : dclass (ket q) = (k, l)) by (destruct q; injection Hc as <- <- <- <-; reflexivity).
  destruct (step_classes _ _ Ht) as [K0 [K1 _]]. rewrite Hb in K0, K1.
  unfold entry in *.
  rewrite H1 in R0.
  2: { destruct q as [a b c d]; injection Hc as <- <- <- <-. unfold qclass, qof, dclass, bra in *; cbn in *.
       rewrite <- K0. reflexivity. }
  rewrite H2 in R1.
  2: { destruct q as [a b c d]; injection Hc as <- <- <- <-. unfold qclass, qof, dclass, bra in *; cbn in *.
       rewrite <- K1. reflexivity. }
  injection R0 as <-. injection R1 as <-. rewrite R2. simpl. f_equal. f_equal. symmetry.
  pose proof (@hrr_step_exact R _ _ _ _ _ (HV (bra q)) Ht) as X0. cbv beta in X0. rewrite qof_eta in X0. exact X0.
Qed.

Lemma gen_I_family i j k l (X : dir -> R) V th1 th2 :
  1 <= i <= 18 -> j <= 18 -> bra_transfer X V ->
  holds_block V (QAM (i - 1) (j + 1) k l) th1 -> holds_block V (QAM (i - 1) j k l) th2 ->
  exists out, gen_I i j k l X th1 th2 = Some out /\ holds_block V (QAM i j k l) out.
Proof.
  intros Hi Hj HV H1 H2. destruct (@gen_I_ok R i j k l X th1 th2 Hi Hj (proj1 H1) (proj1 H2)) as [out [E Ho]].
  exists out. split; [exact E|]. eapply bra_block_holds; eauto.
Qed.

Lemma gen_J_family i j k l (X : dir -> R) V th1 th2 :
  i <= 18 -> 1 <= j <= 18 -> bra_transfer X V ->
  holds_block V (QAM (i + 1) (j - 1) k l) th1 -> holds_block V (QAM i (j - 1) k l) th2 ->
  exists out, gen_J i j k l X th1 th2 = Some out /\ holds_block V (QAM i j k l) out.
Proof.
  intros Hi Hj HV H1 H2. destruct (@gen_J_ok R i j k l X th1 th2 Hi Hj (proj1 H1) (proj1 H2)) as [out [E Ho]].
  exists out. split; [exact E|]. eapply bra_block_holds; eauto.
Qed.

Lemma gen_K_family i j k l (X : dir -> R) V th1 th2 :
  1 <= k <= 18 -> l <= 18 -> ket_transfer X V ->
  holds_block V (QAM i j (k - 1) (l + 1)) th1 -> holds_block V (QAM i j (k - 1) l) th2 ->
  exists out, gen_K i j k l X th1 th2 = Some out /\ holds_block V (QAM i j k l) out.
Proof.
  intros Hi Hj HV H1 H2. destruct (@gen_K_ok R i j k l X th1 th2 Hi Hj (proj1 H1) (proj1 H2)) as [out [E Ho]].
  exists out. split; [exact E|]. eapply ket_block_holds; eauto.
Qed.

Lemma gen_L_family i j k l (X : dir -> R) V th1 th2 :
  k <= 18 -> 1 <= l <= 18 -> ket_transfer X V ->
  holds_block V (QAM i j (k + 1) (l - 1)) th1 -> holds_block V (QAM i j k (l - 1)) th2 ->
  exists out, gen_L i j k l X th1 th2 = Some out /\ holds_block V (QAM i j k l) out.
Proof.
  intros Hi Hj HV H1 H2. destruct (@gen_L_ok R i j k l X th1 th2 Hi Hj (proj1 H1) (proj1 H2)) as [out [E Ho]].
  exists out. split; [exact E|]. eapply ket_block_holds; eauto.
Qed.
End GenSpec.
