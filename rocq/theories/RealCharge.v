(** Overlaps along one direction of two charges smeared by a Gaussian: each is a polynomial times a Gaussian in the
    position [y], and their overlaps obey the recurrence along that direction. *)
From Coq Require Import List Arith ZArith Reals Lra Lia Psatz.
Import ListNotations.
From Verif Require Import Base ConstantsProof BoysReal BoysRealLong NormPos RealLine.
Local Open Scope R_scope.

(** ** The polynomials *)
Fixpoint hp0 (v z : R) (a : nat) : R :=
  match a with 0%nat => 1 | S m => z * hp0 v z m + v * (INR m * match m with 0%nat => 0 | S k => hp0 v z k end) end.
(** In two exponents: the second about a centre [D] away from the first. *)
Fixpoint hp (v D z : R) (b a : nat) : R := match b with 0%nat => hp0 v z a | S m => hp v D z m (S a) + D * hp v D z m a end.
Lemma hp0_S v z a : hp0 v z (S a) = z * hp0 v z a + v * (INR a * hp0 v z (pred a)).
Proof. destruct a as [|a]; [cbn; ring|reflexivity]. Qed.
Lemma hp_a v D z b : forall a, hp v D z b (S a) = z * hp v D z b a + v * (INR a * hp v D z b (pred a) + INR b * hp v D z (pred b) a).
Proof.
  induction b as [|b IH]; intros a.
  - cbn [hp pred]. rewrite hp0_S. cbn [INR]. ring.
  - change (hp v D z (S b) (S a)) with (hp v D z b (S (S a)) + D * hp v D z b (S a)). rewrite (IH (S a)). cbn [pred].
    rewrite (S_INR a), (S_INR b). replace (D * hp v D z b (S a)) with (D * (z * hp v D z b a + v * (INR a * hp v D z b (pred a) + INR b * hp v D z (pred b) a))) by (rewrite <- IH; reflexivity).
    change (hp v D z (S b) a) with (hp v D z b (S a) + D * hp v D z b a).
    assert (E1 : INR a * hp v D z (S b) (pred a) = INR a * (hp v D z b a + D * hp v D z b (pred a))) by (destruct a as [|a]; [cbn [INR]; ring|reflexivity]).
    assert (E2 : INR b * hp v D z b a = INR b * (hp v D z (pred b) (S a) + D * hp v D z (pred b) a)) by (destruct b as [|b]; [cbn [INR]; ring|reflexivity]).
    replace ((INR b + 1) * hp v D z b a) with (INR b * hp v D z b a + hp v D z b a) by ring. rewrite E1, E2. ring.
Qed.
Lemma hp_b v D z b a : hp v D z (S b) a = (z + D) * hp v D z b a + v * (INR a * hp v D z b (pred a) + INR b * hp v D z (pred b) a).
Proof. change (hp v D z (S b) a) with (hp v D z b (S a) + D * hp v D z b a). rewrite hp_a. ring. Qed.
Lemma dcong f x l m : derivable_pt_lim f x l -> l = m -> derivable_pt_lim f x m.
Proof. intros H <-. exact H. Qed.
Lemma hp0_der v z a : derivable_pt_lim (fun z => hp0 v z a) z (INR a * hp0 v z (pred a)) /\ derivable_pt_lim (fun z => hp0 v z (S a)) z (INR (S a) * hp0 v z a).
Proof.
  induction a as [|a [IH1 IH2]]; (split; [try exact IH2|]).
  - cbn [hp0 INR pred]. eapply dcong; [apply derivable_pt_lim_const|ring].
  - eapply dcong; [apply (derivable_pt_lim_plus (fun z => z * 1) (fun z => v * (0 * 0))); [|apply derivable_pt_lim_const]|].
    + apply (derivable_pt_lim_mult id (fun _ => 1)); [apply derivable_pt_lim_id|apply derivable_pt_lim_const].
    + unfold id. cbn. ring.
  - change (derivable_pt_lim (fun z => z * hp0 v z (S a) + v * (INR (S a) * hp0 v z a)) z (INR (S (S a)) * hp0 v z (S a))).
    eapply dcong; [apply (derivable_pt_lim_plus (fun z => z * hp0 v z (S a)) (fun z => v * (INR (S a) * hp0 v z a)))|].
    + apply (derivable_pt_lim_mult id (fun z => hp0 v z (S a))); [apply derivable_pt_lim_id|exact IH2].
    + apply (derivable_pt_lim_scal (fun z => INR (S a) * hp0 v z a)), (derivable_pt_lim_scal (fun z => hp0 v z a)). exact IH1.
    + unfold id. rewrite (hp0_S v z a), (S_INR (S a)), (S_INR a). ring.
Qed.
Lemma hp_der v D z b : forall a, derivable_pt_lim (fun z => hp v D z b a) z (INR a * hp v D z b (pred a) + INR b * hp v D z (pred b) a).
Proof.
  induction b as [|b IH]; intros a.
  - cbn [hp pred INR]. eapply dcong; [apply hp0_der|ring].
  - cbn [pred]. eapply dcong; [apply (derivable_pt_lim_plus (fun z => hp v D z b (S a)) (fun z => D * hp v D z b a)); [apply IH|]|].
    + apply (derivable_pt_lim_scal (fun z => hp v D z b a)), IH.
    + cbn [pred]. rewrite !S_INR.
      assert (E1 : INR a * hp v D z (S b) (pred a) = INR a * (hp v D z b a + D * hp v D z b (pred a))) by (destruct a as [|a]; [cbn [INR]; ring|reflexivity]).
      assert (E2 : INR b * hp v D z b a = INR b * (hp v D z (pred b) (S a) + D * hp v D z (pred b) a)) by (destruct b as [|b]; [cbn [INR]; ring|reflexivity]).
      rewrite E1. replace ((INR b + 1) * hp v D z b a) with (INR b * hp v D z b a + hp v D z b a) by ring. rewrite E2. ring.
Qed.

(** ** The overlaps *)
Section Overlap.
Variables (a1 a2 k1 k2 v1 v2 P Q m1 m2 D1 D2 : R).
Hypothesis A1 : 0 < a1.
Hypothesis A2 : 0 < a2.
Definition amp (al k v ce me De : R) (a b : nat) (y : R) : R := hp v De (me + k * (y - ce)) b a * exp (- (al * ((y - ce) * (y - ce)))).
Let f1 := amp a1 k1 v1 P m1 D1.
Let f2 := amp a2 k2 v2 Q m2 D2.
Let al := a1 + a2.
Let Y := (a1 * P + a2 * Q) / al.
Let g (y : R) := exp (- (a1 * ((y - P) * (y - P)))) * exp (- (a2 * ((y - Q) * (y - Q)))).
Let E0 := exp (- (a1 * a2 / al * ((P - Q) * (P - Q)))).
Lemma g_one y : g y = E0 * exp (- (al * ((y - Y) * (y - Y)))).
Proof. unfold g, E0, Y, al. rewrite <- !exp_plus. f_equal. field. lra. Qed.
Lemma g_der y : derivable_pt_lim g y (- (2 * al) * (y - Y) * g y).
Proof.
  assert (Q0 : forall b c y, derivable_pt_lim (fun y => exp (- (b * ((y - c) * (y - c))))) y (- (2 * b) * (y - c) * exp (- (b * ((y - c) * (y - c)))))).
  { intros b c x. assert (L : derivable_pt_lim (fun y => y - c) x 1).
    { eapply dcong; [apply (derivable_pt_lim_minus id (fun _ => c)); [apply derivable_pt_lim_id|apply derivable_pt_lim_const]|ring]. }
    eapply dcong; [apply (derivable_pt_lim_comp (fun y => - (b * ((y - c) * (y - c)))) exp); [|apply derivable_pt_lim_exp]|].
    - apply (derivable_pt_lim_opp (fun y => b * ((y - c) * (y - c)))), (derivable_pt_lim_scal (fun y => (y - c) * (y - c))), (derivable_pt_lim_mult (fun y => y - c) (fun y => y - c)); exact L.
    - cbn beta. ring. }
  eapply dcong; [apply (derivable_pt_lim_mult (fun y => exp (- (a1 * ((y - P) * (y - P))))) (fun y => exp (- (a2 * ((y - Q) * (y - Q)))))); apply Q0|].
  unfold g, Y, al. cbn beta. field. lra.
Qed.
Let H1 (a b : nat) (y : R) := hp v1 D1 (m1 + k1 * (y - P)) b a.
Let H2 (a b : nat) (y : R) := hp v2 D2 (m2 + k2 * (y - Q)) b a.
Lemma lin_der me k c y : derivable_pt_lim (fun y => me + k * (y - c)) y k.
Proof.
  eapply dcong; [apply (derivable_pt_lim_plus (fun _ => me) (fun y => k * (y - c))); [apply derivable_pt_lim_const|]|].
  - apply (derivable_pt_lim_scal (fun y => y - c)), (derivable_pt_lim_minus id (fun _ => c)); [apply derivable_pt_lim_id|apply derivable_pt_lim_const].
  - ring.
Qed.
Lemma H_der v D me k c a b y : derivable_pt_lim (fun y => hp v D (me + k * (y - c)) b a) y
  (k * (INR a * hp v D (me + k * (y - c)) b (pred a) + INR b * hp v D (me + k * (y - c)) (pred b) a)).
Proof.
  eapply dcong; [apply (derivable_pt_lim_comp (fun y => me + k * (y - c)) (fun z => hp v D z b a)); [apply lin_der|apply hp_der]|]. ring.
Qed.
(** Polynomials keep the decay. *)
Lemma small_lin me k c f : small Y f -> small Y (fun y => (me + k * (y - c)) * f y).
Proof.
  intros S. apply (small_ext Y (fun y => (me + k * (Y - c)) * f y + k * ((y - Y) * f y))); [intros; ring|]. apply small_plus; [apply small_scal, S|apply small_scal, small_mult, S].
Qed.
Lemma small_hp v D me k c f : small Y f -> forall b a, small Y (fun y => hp v D (me + k * (y - c)) b a * f y).
Proof.
  intros S. induction b as [|b IH]; intros a.
  - cbn [hp]. enough (G : small Y (fun y => hp0 v (me + k * (y - c)) a * f y) /\ small Y (fun y => hp0 v (me + k * (y - c)) (Datatypes.S a) * f y)) by apply G.
    induction a as [|a [I1 I2]]; (split; [try exact I2|]).
    + apply (small_ext Y f); [intros; cbn; ring|exact S].
    + apply (small_ext Y (fun y => (me + k * (y - c)) * f y)); [intros; cbn; ring|apply small_lin, S].
    + apply (small_ext Y (fun y => (me + k * (y - c)) * (hp0 v (me + k * (y - c)) (Datatypes.S a) * f y) + v * INR (Datatypes.S a) * (hp0 v (me + k * (y - c)) a * f y))).
      * intros y. rewrite (hp0_S v _ (Datatypes.S a)). cbn [pred]. ring.
      * apply small_plus; [apply (small_lin me k c (fun y => hp0 v (me + k * (y - c)) (Datatypes.S a) * f y)), I2|apply small_scal, I1].
  - apply (small_ext Y (fun y => hp v D (me + k * (y - c)) b (Datatypes.S a) * f y + D * (hp v D (me + k * (y - c)) b a * f y))); [intros; cbn [hp]; ring|].
    apply small_plus; [apply IH|apply small_scal, IH].
Qed.
Lemma g_small : small Y g.
Proof.
  apply (small_ext Y (fun y => E0 * exp (- (al * ((y - Y) * (y - Y)))))); [intros; symmetry; apply g_one|]. apply small_scal, small_gauss. unfold al. lra.
Qed.
(** Integration by parts. *)
Lemma by_parts H H' L : small Y (fun y => H y * g y) -> (forall y, derivable_pt_lim H y (H' y)) -> line (fun y => H' y * g y) L ->
  line (fun y => (y - Y) * (H y * g y)) (/ (2 * al) * L).
Proof.
  intros S D I. assert (al0 : 0 < al) by (unfold al; lra).
  apply (line_ext (fun y => - / (2 * al) * (H' y * g y + H y * (- (2 * al) * (y - Y) * g y)) + / (2 * al) * (H' y * g y)) _ (0 + / (2 * al) * L)); [intros; field; lra|ring|].
  apply line_plus; [|apply line_scal, I]. apply (line_total (fun y => - / (2 * al) * (H y * g y))).
  - intros y. apply (derivable_pt_lim_scal (fun y => H y * g y)), (derivable_pt_lim_mult H g); [apply D|apply g_der].
  - apply vanish_scal. apply (vanish_ext (fun y => (y - Y) ^ 0 * (H y * g y))); [intros; cbn; ring|]. apply S.
Qed.
Variable J : nat -> nat -> nat -> nat -> R.
Hypothesis J0 : J 0 0 0 0 = 1.
Let kk := k1 * k2 / (2 * al).
Let low1 a b c d := INR a * J (pred a) b c d + INR b * J a (pred b) c d.
Let low2 a b c d := INR c * J a b (pred c) d + INR d * J a b c (pred d).
Hypothesis Ja : forall a b c d, J (S a) b c d = (m1 + k1 * (Y - P)) * J a b c d + (v1 + k1 * k1 / (2 * al)) * low1 a b c d + kk * low2 a b c d.
Hypothesis Jb : forall a b c d, J a (S b) c d = (m1 + D1 + k1 * (Y - P)) * J a b c d + (v1 + k1 * k1 / (2 * al)) * low1 a b c d + kk * low2 a b c d.
Hypothesis Jc : forall a b c d, J a b (S c) d = (m2 + k2 * (Y - Q)) * J a b c d + (v2 + k2 * k2 / (2 * al)) * low2 a b c d + kk * low1 a b c d.
Hypothesis Jd : forall a b c d, J a b c (S d) = (m2 + D2 + k2 * (Y - Q)) * J a b c d + (v2 + k2 * k2 / (2 * al)) * low2 a b c d + kk * low1 a b c d.
Variable G : R.
Hypothesis HG : line gau G.
Let B0 := E0 * (G / sqrt al).
Let val a b c d := line (fun y => H1 a b y * H2 c d y * g y) (B0 * J a b c d).
Lemma val_lows a b c d : val (pred a) b c d -> val a (pred b) c d -> val a b (pred c) d -> val a b c (pred d) ->
  line (fun y => (INR a * H1 (pred a) b y + INR b * H1 a (pred b) y) * H2 c d y * g y) (B0 * low1 a b c d) /\
  line (fun y => H1 a b y * (INR c * H2 (pred c) d y + INR d * H2 c (pred d) y) * g y) (B0 * low2 a b c d).
Proof.
  intros U1 U2 U3 U4. split.
  - apply (line_ext (fun y => INR a * (H1 (pred a) b y * H2 c d y * g y) + INR b * (H1 a (pred b) y * H2 c d y * g y)) _ (INR a * (B0 * J (pred a) b c d) + INR b * (B0 * J a (pred b) c d))); [intros; ring|unfold low1; ring|].
    apply line_plus; apply line_scal; assumption.
  - apply (line_ext (fun y => INR c * (H1 a b y * H2 (pred c) d y * g y) + INR d * (H1 a b y * H2 c (pred d) y * g y)) _ (INR c * (B0 * J a b (pred c) d) + INR d * (B0 * J a b c (pred d)))); [intros; ring|unfold low2; ring|].
    apply line_plus; apply line_scal; assumption.
Qed.
Lemma val_shift a b c d : val a b c d -> val (pred a) b c d -> val a (pred b) c d -> val a b (pred c) d -> val a b c (pred d) ->
  line (fun y => (y - Y) * (H1 a b y * H2 c d y * g y)) (/ (2 * al) * (k1 * (B0 * low1 a b c d) + k2 * (B0 * low2 a b c d))).
Proof.
  intros U U1 U2 U3 U4. destruct (val_lows a b c d U1 U2 U3 U4) as [L1 L2].
  apply (by_parts (fun y => H1 a b y * H2 c d y) (fun y => k1 * (INR a * H1 (pred a) b y + INR b * H1 a (pred b) y) * H2 c d y + H1 a b y * (k2 * (INR c * H2 (pred c) d y + INR d * H2 c (pred d) y)))).
  - apply (small_ext Y (fun y => H1 a b y * (H2 c d y * g y))); [intros; ring|]. apply (small_hp v1 D1 m1 k1 P (fun y => H2 c d y * g y)), (small_hp v2 D2 m2 k2 Q g), g_small.
  - intros y. apply (derivable_pt_lim_mult (H1 a b) (H2 c d)); apply H_der.
  - apply (line_ext (fun y => k1 * ((INR a * H1 (pred a) b y + INR b * H1 a (pred b) y) * H2 c d y * g y) + k2 * (H1 a b y * (INR c * H2 (pred c) d y + INR d * H2 c (pred d) y) * g y)) _
      (k1 * (B0 * low1 a b c d) + k2 * (B0 * low2 a b c d))); [intros; ring|reflexivity|]. apply line_plus; apply line_scal; assumption.
Qed.
Lemma val_all n : forall a b c d, (a + b + c + d <= n)%nat -> val a b c d.
Proof.
  assert (al0 : 0 < al) by (unfold al; lra).
  induction n as [|n IH]; intros a b c d Hn.
  - assert (a = 0%nat /\ b = 0%nat /\ c = 0%nat /\ d = 0%nat) as (-> & -> & -> & ->) by lia. unfold val. rewrite J0, Rmult_1_r. unfold B0.
    apply (line_ext (fun y => E0 * gau (sqrt al * (y - Y))) _ (E0 * (G / sqrt al))); [|reflexivity|].
    + intros y. unfold H1, H2. cbn [hp hp0]. rewrite g_one, !Rmult_1_l. unfold gau. do 3 f_equal.
      transitivity (sqrt al * sqrt al * ((y - Y) * (y - Y))); [ring|]. rewrite sqrt_sqrt by lra. reflexivity.
    + apply line_scal, line_move; [apply sqrt_lt_R0, al0|exact HG].
  - assert (RA : forall a b c d, (a + b + c + d <= n)%nat ->
      line (fun y => (INR a * H1 (pred a) b y + INR b * H1 a (pred b) y) * H2 c d y * g y) (B0 * low1 a b c d) /\
      line (fun y => H1 a b y * (INR c * H2 (pred c) d y + INR d * H2 c (pred d) y) * g y) (B0 * low2 a b c d) /\
      line (fun y => (y - Y) * (H1 a b y * H2 c d y * g y)) (/ (2 * al) * (k1 * (B0 * low1 a b c d) + k2 * (B0 * low2 a b c d)))).
    { intros a' b' c' d' L. destruct (val_lows a' b' c' d') as [L1 L2]; try (apply IH; lia). split; [exact L1|]. split; [exact L2|]. apply val_shift; apply IH; lia. }
    destruct a as [|a]; [destruct b as [|b]; [destruct c as [|c]; [destruct d as [|d]; [apply IH; lia|]|]|]|].
    + destruct (RA 0%nat 0%nat 0%nat d ltac:(lia)) as (L1 & L2 & L3). unfold val. rewrite Jd.
      apply (line_ext (fun y => (m2 + D2 + k2 * (Y - Q)) * (H1 0 0 y * H2 0 d y * g y) + k2 * ((y - Y) * (H1 0 0 y * H2 0 d y * g y)) + v2 * (H1 0 0 y * (INR 0 * H2 (pred 0) d y + INR d * H2 0 (pred d) y) * g y)) _
        ((m2 + D2 + k2 * (Y - Q)) * (B0 * J 0 0 0 d) + k2 * (/ (2 * al) * (k1 * (B0 * low1 0 0 0 d) + k2 * (B0 * low2 0 0 0 d))) + v2 * (B0 * low2 0 0 0 d))).
      * intros y. unfold H2. rewrite (hp_b v2 D2 _ d 0). ring.
      * unfold kk. field. lra.
      * apply line_plus; [apply line_plus|]; apply line_scal; [apply IH; lia|exact L3|exact L2].
    + destruct (RA 0%nat 0%nat c d ltac:(lia)) as (L1 & L2 & L3). unfold val. rewrite Jc.
      apply (line_ext (fun y => (m2 + k2 * (Y - Q)) * (H1 0 0 y * H2 c d y * g y) + k2 * ((y - Y) * (H1 0 0 y * H2 c d y * g y)) + v2 * (H1 0 0 y * (INR c * H2 (pred c) d y + INR d * H2 c (pred d) y) * g y)) _
        ((m2 + k2 * (Y - Q)) * (B0 * J 0 0 c d) + k2 * (/ (2 * al) * (k1 * (B0 * low1 0 0 c d) + k2 * (B0 * low2 0 0 c d))) + v2 * (B0 * low2 0 0 c d))).
      * intros y. unfold H2. rewrite (hp_a v2 D2 _ d c). ring.
      * unfold kk. field. lra.
      * apply line_plus; [apply line_plus|]; apply line_scal; [apply IH; lia|exact L3|exact L2].
    + destruct (RA 0%nat b c d ltac:(lia)) as (L1 & L2 & L3). unfold val. rewrite Jb.
      apply (line_ext (fun y => (m1 + D1 + k1 * (Y - P)) * (H1 0 b y * H2 c d y * g y) + k1 * ((y - Y) * (H1 0 b y * H2 c d y * g y)) + v1 * ((INR 0 * H1 (pred 0) b y + INR b * H1 0 (pred b) y) * H2 c d y * g y)) _
        ((m1 + D1 + k1 * (Y - P)) * (B0 * J 0 b c d) + k1 * (/ (2 * al) * (k1 * (B0 * low1 0 b c d) + k2 * (B0 * low2 0 b c d))) + v1 * (B0 * low1 0 b c d))).
      * intros y. unfold H1. rewrite (hp_b v1 D1 _ b 0). ring.
      * unfold kk. field. lra.
      * apply line_plus; [apply line_plus|]; apply line_scal; [apply IH; lia|exact L3|exact L1].
    + destruct (RA a b c d ltac:(lia)) as (L1 & L2 & L3). unfold val. rewrite Ja.
      apply (line_ext (fun y => (m1 + k1 * (Y - P)) * (H1 a b y * H2 c d y * g y) + k1 * ((y - Y) * (H1 a b y * H2 c d y * g y)) + v1 * ((INR a * H1 (pred a) b y + INR b * H1 a (pred b) y) * H2 c d y * g y)) _
        ((m1 + k1 * (Y - P)) * (B0 * J a b c d) + k1 * (/ (2 * al) * (k1 * (B0 * low1 a b c d) + k2 * (B0 * low2 a b c d))) + v1 * (B0 * low1 a b c d))).
      * intros y. unfold H1. rewrite (hp_a v1 D1 _ b a). ring.
      * unfold kk. field. lra.
      * apply line_plus; [apply line_plus|]; apply line_scal; [apply IH; lia|exact L3|exact L1].
Qed.
Theorem overlap_line a b c d : line (fun y => f1 a b y * f2 c d y) (E0 * (G / sqrt al) * J a b c d).
Proof.
  apply (line_ext (fun y => H1 a b y * H2 c d y * g y) _ (B0 * J a b c d)); [|reflexivity|apply (val_all (a + b + c + d)); lia].
  intros y. unfold f1, f2, amp, H1, H2, g. ring.
Qed.
End Overlap.
