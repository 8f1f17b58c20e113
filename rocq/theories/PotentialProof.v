(** Nuclear attraction integrals: the recurrence fills the scratch array as required. *)
From Coq Require Import List Arith Lia Bool ZArith Ring.
Import ListNotations.
From Verif Require Import Base Cart Mdir RecurData Recur PairData Deriv OneE OneEProof Potential.
Set Implicit Arguments.

Section PotProof.
Context {R : cring}.
Add Ring RRpp : (cth R).
Local Open Scope r_scope.
Local Notation val := (option R).
Local Notation wmem := (@wmem R).

(** ** Memory *)
Definition wput (W W' : wmem) (i j p : nat) (v : val) : Prop :=
  (forall a b, ~ (a = i /\ b = j) -> W' a b = W a b) /\ length (W' i j) = length (W i j) /\
  nth_error (W' i j) p = Some v /\ forall q, q <> p -> nth_error (W' i j) q = nth_error (W i j) q.
Lemma wset_put (W : wmem) i j p v : p < length (W i j) -> exists W', wset W i j p v = Some W' /\ wput W W' i j p v.
Proof.
  intros H. unfold wset. destruct (Nat.ltb_spec p (length (W i j))); [|lia].
  eexists. split; [reflexivity|]. unfold wput.
  assert (E : (i =? i) && (j =? j) = true) by (rewrite !Nat.eqb_refl; reflexivity). split; [|rewrite E; split; [|split]].
  - intros a b N. destruct (Nat.eqb_spec a i), (Nat.eqb_spec b j); cbn [andb]; try reflexivity. tauto.
  - apply upd_length.
  - apply nth_error_upd_same. exact H.
  - intros q Hq. apply nth_error_upd_other. congruence.
Qed.
Lemma wput_wput (W W1 W2 : wmem) i j p v w : wput W W1 i j p v -> wput W1 W2 i j p w -> wput W W2 i j p w.
Proof.
  intros [A [B [C D]]] [A' [B' [C' D']]]. split; [|split; [|split]].
  - intros a b N. rewrite A', A by exact N. reflexivity.
  - congruence.
  - exact C'.
  - intros q Hq. rewrite D', D by exact Hq. reflexivity.
Qed.
Lemma wacc_put (W W1 : wmem) i j p v x : wput W W1 i j p v ->
  exists W2, wacc W1 i j p x = Some W2 /\ wput W W2 i j p (vadd v x).
Proof.
  intros P. unfold wacc. destruct P as [A [B [C D]]] eqn:EP. rewrite C.
  destruct (@wset_put W1 i j p (vadd v x)) as [W2 [-> P2]]; [eapply nth_error_Some_lt; exact C|].
  exists W2. split; [reflexivity|]. eapply wput_wput; [exact P|exact P2].
Qed.
Lemma geti_nat (l : list val) (n : nat) z : z = Z.of_nat n -> geti l z = nth_error l n.
Proof. intros ->. unfold geti. destruct (Z.ltb_spec (Z.of_nat n) 0); [lia|]. rewrite Nat2Z.id. reflexivity. Qed.

(** ** Rows of the table *)
Lemma row_dir_ok g r : row_ok g r -> gam g <> 0 -> exists d, row_dir r = Some d /\ mdir g = Some d.
Proof.
  destruct r as [[[[ijk dd] tx] ty] tz]. cbn [row_ok]. intros [_ [Hd _]] H. destruct (Hd H) as [e [He ->]].
  exists e. split; [destruct e; reflexivity|]. apply is_mdir_mdir. exact He.
Qed.
Lemma row_ok_idx g r d : row_ok g r -> row_idx r d = (nbr (down d g), nbr (down2 d g), Z.of_nat (pos (up d g))).
Proof.
  destruct r as [[[[ijk dd] tx] ty] tz]. cbn [row_ok]. intros [_ [_ [_ [X [Y Z]]]]].
  unfold idx_ok in *. subst. destruct d; reflexivity.
Qed.
Lemma row_ok_dn g r d : row_ok g r -> row_dn r d = nbr (down d g).
Proof. intros H. unfold row_dn. rewrite (@row_ok_idx g r d H). reflexivity. Qed.
Lemma row_ok_dn2 g r d : row_ok g r -> row_dn2 r d = nbr (down2 d g).
Proof. intros H. unfold row_dn2. rewrite (@row_ok_idx g r d H). reflexivity. Qed.
Lemma row_ok_ijk g r d : row_ok g r -> row_ijk r d = Z.of_nat (gexp d g).
Proof.
  destruct r as [[[[ijk dd] tx] ty] tz]. cbn [row_ok]. intros [-> _]. destruct g, d; reflexivity.
Qed.

Section Run.
Variables (am1 am2 : nat) (pa pb pc : dir -> R) (h : R) (start : nat -> R) (T : nat -> gauss -> gauss -> R).
Hypotheses (L1 : am1 <= 18) (L2 : am2 <= 18).
Hypothesis HT : attractions pa pb pc h (am1 + am2) start T.
Local Notation am12 := (am1 + am2)%nat.

Definition pidx (N : nat) (a b : gauss) : nat := ((N * ncart (gam a) + pos a) * ncart (gam b) + pos b)%nat.
(** Up to which auxiliary index a class is determined. *)
Definition mv (i j : nat) : nat := if (j =? 0)%nat then (am12 - i)%nat else (am2 - j)%nat.
Definition goodk (i j k : nat) (W : wmem) : Prop := forall N a b,
  gam a = i -> gam b = j -> N <= mv i j -> pidx N a b < k -> nth_error (W i j) (pidx N a b) = Some (Some (T N a b)).
Definition full (i j : nat) (W : wmem) : Prop := forall k, goodk i j k W.

Lemma mixed_lt a b n m : a < n -> b < m -> a * m + b < n * m.
Proof. intros. apply Nat.lt_le_trans with (S a * m)%nat; [cbn [Nat.mul]; lia|apply Nat.mul_le_mono_r; lia]. Qed.
Lemma pidx_lt N a b : pidx N a b < S N * ncart (gam a) * ncart (gam b).
Proof.
  unfold pidx. apply mixed_lt; [|apply pos_lt]. apply Nat.lt_le_trans with (N * ncart (gam a) + ncart (gam a))%nat.
  - pose proof (pos_lt a). lia.
  - cbn [Nat.mul]. lia.
Qed.
Lemma pidx_cap N a b : gam a <= am1 -> gam b <= am2 -> N <= am12 + 2 -> pidx N a b < cap am1 am2.
Proof.
  intros Ha Hb HN. eapply Nat.lt_le_trans; [apply pidx_lt|]. unfold cap.
  replace (ncart (am1 + 1) * ncart (am2 + 1) * (S am1 + S am2 + 1))%nat
    with ((S am1 + S am2 + 1) * ncart (am1 + 1) * ncart (am2 + 1))%nat by lia.
  apply Nat.mul_le_mono; [apply Nat.mul_le_mono|]; [lia| |]; apply ncart_mono; lia.
Qed.
Lemma shaped_len (W : wmem) i j : shaped am1 am2 W -> i <= am1 -> j <= am2 -> length (W i j) = cap am1 am2.
Proof.
  intros H Hi Hj. rewrite H. destruct (Nat.leb_spec i am1); [|lia]. destruct (Nat.leb_spec j am2); [|lia]. reflexivity.
Qed.
Lemma shaped_put (W W' : wmem) i j p v : shaped am1 am2 W -> wput W W' i j p v -> shaped am1 am2 W'.
Proof.
  intros H [A [B _]] a b. destruct (Nat.eq_dec a i) as [->|N].
  - destruct (Nat.eq_dec b j) as [->|N]; [rewrite B; apply H|]. rewrite A by tauto. apply H.
  - rewrite A by tauto. apply H.
Qed.

(** Reading an element of a class already formed. *)
Lemma read_ok W N a b z : shaped am1 am2 W -> gam a <= am1 -> gam b <= am2 -> N <= am12 + 2 ->
  full (gam a) (gam b) W -> z = Z.of_nat (pidx N a b) ->
  exists v, geti (W (gam a) (gam b)) z = Some v /\ (N <= mv (gam a) (gam b) -> v = Some (T N a b)).
Proof.
  intros HS Ha Hb HN HF E. rewrite (geti_nat _ _ E).
  destruct (@nth_error_lt_Some _ (W (gam a) (gam b)) (pidx N a b)) as [v Hv].
  { rewrite (shaped_len HS Ha Hb). apply pidx_cap; assumption. }
  exists v. split; [exact Hv|]. intros Hm.
  pose proof (HF (S (pidx N a b)) N a b eq_refl eq_refl Hm (Nat.lt_succ_diag_r _)) as E2. congruence.
Qed.
Lemma pidx_inj N a b N' a' b' : gam a = gam a' -> gam b = gam b' -> pidx N a b = pidx N' a' b' -> N = N' /\ a = a' /\ b = b'.
Proof.
  intros Ga Gb E. unfold pidx in E. rewrite Ga, Gb in E.
  apply mixed_inj in E; [|rewrite <- Gb; apply pos_lt|apply pos_lt]. destruct E as [E1 E2].
  apply mixed_inj in E1; [|rewrite <- Ga; apply pos_lt|apply pos_lt]. destruct E1 as [-> E1].
  split; [reflexivity|]. split; [apply (opos_inj psi4 a a' Ga E1)|apply (opos_inj psi4 b b' Gb E2)].
Qed.
(** Writing the next element. *)
Lemma goodk_put W W' N a b v : wput W W' (gam a) (gam b) (pidx N a b) v ->
  (N <= mv (gam a) (gam b) -> v = Some (T N a b)) ->
  goodk (gam a) (gam b) (pidx N a b) W -> goodk (gam a) (gam b) (S (pidx N a b)) W'.
Proof.
  intros [A [B [C D]]] HV H N' a' b' Ga Gb HN Hk.
  destruct (Nat.eq_dec (pidx N' a' b') (pidx N a b)) as [E|NE].
  - pose proof E as E2. apply pidx_inj in E; [|exact Ga|exact Gb]. destruct E as [-> [-> ->]].
    rewrite C. f_equal. apply HV. exact HN.
  - rewrite D by exact NE. apply H; auto. lia.
Qed.
Lemma full_other W W' i j p v a b : wput W W' i j p v -> ~ (a = i /\ b = j) -> full a b W -> full a b W'.
Proof. intros [A _] N H k N' x y Ga Gb HN Hk. rewrite A by exact N. apply (H k); assumption. Qed.

Lemma lowered_none d a (f : gauss -> R) : down d a = None -> lowered d a f = c0.
Proof. intros H. unfold lowered. rewrite H. reflexivity. Qed.
Lemma lowered_some d a a' (f : gauss -> R) : down d a = Some a' -> lowered d a f = ofnat (gexp d a) * f a'.
Proof. intros H. unfold lowered. rewrite H. reflexivity. Qed.
Lemma pos_0 : pos (G 0 0 0) = 0%nat. Proof. reflexivity. Qed.
Lemma gam_0 g : gam g = 0%nat -> g = G 0 0 0.
Proof. destruct g as [x y z]; unfold gam; cbn; intros. f_equal; lia. Qed.

Ltac zidx := unfold pidx; rewrite ?gam_up; cbn [nbr]; cbn [gam gx gy gz Nat.add]; nia.

(** *** One element of the first column *)
Definition O3 : gauss := G 0 0 0.
Lemma step_i0_ok W i m n g : 1 <= i <= am1 -> m <= am12 - i -> gam g = i -> pos g = n -> shaped am1 am2 W ->
  (forall i', i' < i -> full i' 0 W) -> goodk i 0 (pidx m g O3) W ->
  exists W' v, step_i0 pa pc h i m n (pidx m g O3, W) = Some (S (pidx m g O3), W') /\
    wput W W' i 0 (pidx m g O3) v /\ (m <= mv i 0 -> v = Some (T m g O3)).
Proof.
  intros Hi Hm Gg Pg HS HF HG. unfold step_i0.
  destruct (@recur_lookup_ok g ltac:(lia)) as [r [Hr Kr]]. rewrite Gg, Pg in Hr. rewrite Hr.
  destruct (@row_dir_ok g r Kr ltac:(lia)) as [d [Hd Md]]. rewrite Hd.
  rewrite (@row_ok_dn g r d Kr), (@row_ok_dn2 g r d Kr), (@row_ok_ijk g r d Kr).
  destruct (@mdir_down g d Md) as [g' [Hdn Eg]].
  assert (Gg' : gam g' = (i - 1)%nat) by (apply gam_down in Hdn; lia).
  assert (Mv0 : mv i 0 = (am12 - i)%nat) by reflexivity.
  assert (Mv1 : mv (gam g') (gam O3) = (am12 - (i - 1))%nat) by (rewrite Gg'; reflexivity).
  assert (F1 : full (gam g') (gam O3) W) by (rewrite Gg'; apply HF; lia).
  rewrite Hdn.
  assert (Z1 : (Z.of_nat (m * ncart (i - 1)) + nbr (Some g'))%Z = Z.of_nat (pidx m g' O3))
    by (unfold pidx; rewrite Gg'; cbn [nbr]; change (ncart (gam O3)) with 1%nat; change (pos O3) with 0%nat; lia).
  assert (Z2 : (Z.of_nat ((m + 1) * ncart (i - 1)) + nbr (Some g'))%Z = Z.of_nat (pidx (S m) g' O3))
    by (unfold pidx; rewrite Gg'; cbn [nbr]; change (ncart (gam O3)) with 1%nat; change (pos O3) with 0%nat;
        replace (m + 1)%nat with (S m) by lia; lia).
  destruct (@read_ok W m g' O3 _ HS ltac:(lia) ltac:(cbn; lia) ltac:(lia) F1 Z1) as [va [Ra Va]].
  destruct (@read_ok W (S m) g' O3 _ HS ltac:(lia) ltac:(cbn; lia) ltac:(lia) F1 Z2) as [vb [Rb Vb]].
  rewrite Gg' in Ra, Rb. change (gam O3) with 0%nat in Ra, Rb. rewrite Ra, Rb.
  destruct (@wset_put W i 0 (pidx m g O3) (vsub (vscale (pa d) va) (vscale (pc d) vb))) as [W1 [-> P1]].
  { rewrite (shaped_len HS) by lia. apply pidx_cap; cbn; lia. }
  destruct HT as [TL _]. pose proof (TL m d g' O3) as E. rewrite <- Eg in E.
  rewrite (@lowered_none d O3) in E by (destruct d; reflexivity).
  assert (Eg' : gexp d g = S (gexp d g')) by (rewrite Eg; apply gexp_up_same).
  assert (Va' : m <= mv i 0 -> va = Some (T m g' O3)) by (intros; apply Va; lia).
  assert (Vb' : m <= mv i 0 -> vb = Some (T (S m) g' O3)) by (intros; apply Vb; lia).
  unfold down2. rewrite Hdn.
  destruct (Z.ltb_spec 1 (Z.of_nat (gexp d g))) as [Hx|Hx].
  - destruct (down d g') as [g''|] eqn:Hdn2; [|apply down_none in Hdn2; lia].
    assert (Gg'' : gam g'' = (i - 2)%nat) by (apply gam_down in Hdn2; lia).
    assert (Hi2 : 2 <= i) by (apply gam_down in Hdn2; lia).
    destruct (Nat.ltb_spec 1 i); [|lia]. cbn [ptr].
    assert (E1 : W1 (i - 2)%nat 0%nat = W (i - 2)%nat 0%nat) by (apply P1; lia). rewrite E1.
    assert (F2 : full (gam g'') (gam O3) W) by (rewrite Gg''; apply HF; lia).
    assert (Z3 : (Z.of_nat (m * ncart (i - 2)) + nbr (Some g''))%Z = Z.of_nat (pidx m g'' O3))
      by (unfold pidx; rewrite Gg''; cbn [nbr]; change (ncart (gam O3)) with 1%nat; change (pos O3) with 0%nat; lia).
    assert (Z4 : (Z.of_nat ((m + 1) * ncart (i - 2)) + nbr (Some g''))%Z = Z.of_nat (pidx (S m) g'' O3))
      by (unfold pidx; rewrite Gg''; cbn [nbr]; change (ncart (gam O3)) with 1%nat; change (pos O3) with 0%nat;
          replace (m + 1)%nat with (S m) by lia; lia).
    destruct (@read_ok W m g'' O3 _ HS ltac:(lia) ltac:(cbn; lia) ltac:(lia) F2 Z3) as [vc [Rc Vc]].
    destruct (@read_ok W (S m) g'' O3 _ HS ltac:(lia) ltac:(cbn; lia) ltac:(lia) F2 Z4) as [ve [Re Ve]].
    rewrite Gg'' in Rc, Re. change (gam O3) with 0%nat in Rc, Re. rewrite Rc, Re.
    match goal with |- context [wacc W1 i 0 _ ?x] => destruct (@wacc_put W W1 i 0 _ _ x P1) as [W2 [-> P2]] end.
    eexists W2, _. split; [reflexivity|]. split; [exact P2|]. intros Hmv.
    rewrite Va', Vb' by exact Hmv.
    rewrite Vc by (rewrite Gg''; change (mv (i - 2) (gam O3)) with (am12 - (i - 2))%nat; lia).
    rewrite Ve by (rewrite Gg''; change (mv (i - 2) (gam O3)) with (am12 - (i - 2))%nat; lia).
    cbn [vsub vadd vscale lift2]. f_equal. rewrite E, (@lowered_some d g' g'' _ Hdn2).
    replace (Z.to_nat (Z.of_nat (gexp d g) - 1)) with (gexp d g') by lia. ring.
  - eexists W1, _. split; [reflexivity|]. split; [exact P1|]. intros Hmv.
    rewrite Va', Vb' by exact Hmv. cbn [vsub vadd vscale lift2]. f_equal.
    rewrite E, lowered_none by (apply down_none; lia). ring.
Qed.

(** *** One element of the other classes *)
Lemma step_ij_ok W i j m n o g f : i <= am1 -> 1 <= j <= am2 -> m <= am2 - j + 1 ->
  gam g = i -> pos g = n -> gam f = j -> pos f = o -> shaped am1 am2 W ->
  full i (j - 1) W -> (1 <= i -> full (i - 1) (j - 1) W) -> (2 <= j -> full i (j - 2) W) ->
  exists W' v, step_ij pb pc h i j m n o (pidx m g f, W) = Some (S (pidx m g f), W') /\
    wput W W' i j (pidx m g f) v /\ (m <= mv i j -> v = Some (T m g f)).
Proof.
  intros Hi Hj Hm Gg Pg Gf Pf HS F14 F25 F36. unfold step_ij.
  destruct (@recur_lookup_ok g ltac:(lia)) as [r1 [Hr1 K1]]. rewrite Gg, Pg in Hr1. rewrite Hr1.
  destruct (@recur_lookup_ok f ltac:(lia)) as [r2 [Hr2 K2]]. rewrite Gf, Pf in Hr2. rewrite Hr2.
  destruct (@row_dir_ok f r2 K2 ltac:(lia)) as [d [Hd Md]]. rewrite Hd.
  rewrite (@row_ok_dn f r2 d K2), (@row_ok_dn2 f r2 d K2), (@row_ok_ijk f r2 d K2), (@row_ok_dn g r1 d K1), (@row_ok_ijk g r1 d K1).
  destruct (@mdir_down f d Md) as [f' [Hdn Ef]].
  assert (Gf' : gam f' = (j - 1)%nat) by (apply gam_down in Hdn; lia).
  assert (MV : forall k, (am2 - j <= mv i (j - k))%nat /\ (k <= 2 -> k <= j -> 1 <= k -> S (am2 - j) <= mv i (j - k))%nat).
  { intros k. unfold mv. destruct (Nat.eqb_spec (j - k) 0); split; lia. }
  assert (Mv : mv i j = (am2 - j)%nat) by (unfold mv; destruct (Nat.eqb_spec j 0); [lia|reflexivity]).
  rewrite Hdn.
  assert (F1 : full (gam g) (gam f') W) by (rewrite Gg, Gf'; exact F14).
  assert (Z1 : (Z.of_nat (ncart (j - 1) * (m * ncart i + n)) + nbr (Some f'))%Z = Z.of_nat (pidx m g f'))
    by (unfold pidx; rewrite Gg, Gf', Pg; cbn [nbr]; lia).
  assert (Z2 : (Z.of_nat (ncart (j - 1) * ((m + 1) * ncart i + n)) + nbr (Some f'))%Z = Z.of_nat (pidx (S m) g f'))
    by (unfold pidx; rewrite Gg, Gf', Pg; cbn [nbr]; replace (m + 1)%nat with (S m) by lia; lia).
  destruct (@read_ok W m g f' _ HS ltac:(lia) ltac:(lia) ltac:(lia) F1 Z1) as [va [Ra Va]].
  destruct (@read_ok W (S m) g f' _ HS ltac:(lia) ltac:(lia) ltac:(lia) F1 Z2) as [vb [Rb Vb]].
  rewrite Gg, Gf' in Ra, Rb, Va, Vb. rewrite Ra, Rb.
  destruct (@wset_put W i j (pidx m g f) (vsub (vscale (pb d) va) (vscale (pc d) vb))) as [W1 [-> P1]].
  { rewrite (shaped_len HS) by lia. apply pidx_cap; lia. }
  destruct HT as [_ [TR _]]. pose proof (TR m d g f') as E. rewrite <- Ef in E.
  assert (Ef' : gexp d f = S (gexp d f')) by (rewrite Ef; apply gexp_up_same).
  set (v1 := vsub (vscale (pb d) va) (vscale (pc d) vb)) in *.
  set (x1 := pb d * T m g f' - pc d * T (S m) g f') in *.
  assert (V1 : m <= mv i j -> v1 = Some x1).
  { intros Hmv. destruct (MV 1%nat) as [M0 M1]. unfold v1. rewrite Va by lia. rewrite Vb by lia. reflexivity. }
  (* terms 2 and 5 *)
  set (x2 := h * lowered d g (fun a' => T m a' f' - T (S m) a' f')) in *.
  match goal with |- context [match (if (0 <? Z.of_nat (gexp d g))%Z then ?blk else Some W1) with _ => _ end] =>
    assert (S2 : exists W2 v2, (if (0 <? Z.of_nat (gexp d g))%Z then blk else Some W1) = Some W2 /\
      wput W W2 i j (pidx m g f) v2 /\ (m <= mv i j -> v2 = Some (x1 + x2))) end.
  { destruct (Z.ltb_spec 0 (Z.of_nat (gexp d g))) as [Hx|Hx].
    - destruct (down d g) as [g'|] eqn:Hdg; [|apply down_none in Hdg; lia].
      assert (Gg' : gam g' = (i - 1)%nat) by (apply gam_down in Hdg; lia).
      assert (Hi1 : 1 <= i) by (apply gam_down in Hdg; lia).
      destruct (Nat.ltb_spec 0 i); [|lia]. cbn [ptr].
      assert (E1 : W1 (i - 1)%nat (j - 1)%nat = W (i - 1)%nat (j - 1)%nat) by (apply P1; lia). rewrite E1.
      assert (F2 : full (gam g') (gam f') W) by (rewrite Gg', Gf'; apply F25; exact Hi1).
      assert (Z3 : (Z.of_nat (ncart (j - 1)) * (Z.of_nat (m * ncart (i - 1)) + nbr (Some g')) + nbr (Some f'))%Z =
        Z.of_nat (pidx m g' f')) by (unfold pidx; rewrite Gg', Gf'; cbn [nbr]; lia).
      assert (Z4 : (Z.of_nat (ncart (j - 1)) * (Z.of_nat ((m + 1) * ncart (i - 1)) + nbr (Some g')) + nbr (Some f'))%Z =
        Z.of_nat (pidx (S m) g' f')) by (unfold pidx; rewrite Gg', Gf'; cbn [nbr]; replace (m + 1)%nat with (S m) by lia; lia).
      destruct (@read_ok W m g' f' _ HS ltac:(lia) ltac:(lia) ltac:(lia) F2 Z3) as [vc [Rc Vc]].
      destruct (@read_ok W (S m) g' f' _ HS ltac:(lia) ltac:(lia) ltac:(lia) F2 Z4) as [ve [Re Ve]].
      rewrite Gg', Gf' in Rc, Re, Vc, Ve. rewrite Rc, Re.
      match goal with |- context [wacc W1 i j _ ?x] => destruct (@wacc_put W W1 i j _ _ x P1) as [W2 [-> P2]] end.
      eexists W2, _. split; [reflexivity|]. split; [exact P2|]. intros Hmv.
      rewrite V1 by exact Hmv.
      assert (Mm : (S (am2 - j) <= mv (i - 1) (j - 1))%nat) by (unfold mv; destruct (Nat.eqb_spec (j - 1) 0); lia).
      rewrite Vc by lia. rewrite Ve by lia.
      cbn [vsub vadd vscale lift2]. f_equal. unfold x2. rewrite (@lowered_some d g g' _ Hdg), Nat2Z.id. ring.
    - eexists W1, _. split; [reflexivity|]. split; [exact P1|]. intros Hmv. rewrite V1 by exact Hmv. f_equal.
      unfold x2. rewrite lowered_none by (apply down_none; lia). ring. }
  destruct S2 as [W2 [v2 [-> [P2 V2]]]].
  (* terms 3 and 6 *)
  unfold down2. rewrite Hdn.
  destruct (Z.ltb_spec 1 (Z.of_nat (gexp d f))) as [Hx|Hx].
  - destruct (down d f') as [f''|] eqn:Hdf; [|apply down_none in Hdf; lia].
    assert (Gf'' : gam f'' = (j - 2)%nat) by (apply gam_down in Hdf; lia).
    assert (Hj2 : 2 <= j) by (apply gam_down in Hdf; lia).
    destruct (Nat.ltb_spec 1 j); [|lia]. cbn [ptr].
    assert (E1 : W2 i (j - 2)%nat = W i (j - 2)%nat) by (apply P2; lia). rewrite E1.
    assert (F3 : full (gam g) (gam f'') W) by (rewrite Gg, Gf''; apply F36; exact Hj2).
    assert (Z3 : (Z.of_nat (ncart (j - 2) * (m * ncart i + n)) + nbr (Some f''))%Z = Z.of_nat (pidx m g f''))
      by (unfold pidx; rewrite Gg, Gf'', Pg; cbn [nbr]; lia).
    assert (Z4 : (Z.of_nat (ncart (j - 2) * ((m + 1) * ncart i + n)) + nbr (Some f''))%Z = Z.of_nat (pidx (S m) g f''))
      by (unfold pidx; rewrite Gg, Gf'', Pg; cbn [nbr]; replace (m + 1)%nat with (S m) by lia; lia).
    destruct (@read_ok W m g f'' _ HS ltac:(lia) ltac:(lia) ltac:(lia) F3 Z3) as [vc [Rc Vc]].
    destruct (@read_ok W (S m) g f'' _ HS ltac:(lia) ltac:(lia) ltac:(lia) F3 Z4) as [ve [Re Ve]].
    rewrite Gg, Gf'' in Rc, Re, Vc, Ve. rewrite Rc, Re.
    match goal with |- context [wacc W2 i j _ ?x] => destruct (@wacc_put W W2 i j _ _ x P2) as [W3 [-> P3]] end.
    eexists W3, _. split; [reflexivity|]. split; [exact P3|]. intros Hmv.
    rewrite V2 by exact Hmv. destruct (MV 2%nat) as [M0 M1].
    rewrite Vc by lia. rewrite Ve by lia.
    cbn [vsub vadd vscale lift2]. f_equal. rewrite E, (@lowered_some d f' f'' _ Hdf). unfold x1, x2.
    replace (Z.to_nat (Z.of_nat (gexp d f) - 1)) with (gexp d f') by lia. ring.
  - eexists W2, _. split; [reflexivity|]. split; [exact P2|]. intros Hmv. rewrite V2 by exact Hmv. f_equal.
    rewrite E, (@lowered_none d f') by (apply down_none; lia). unfold x1, x2. ring.
Qed.

(** *** Loops *)
Definition same_but (i j : nat) (W W' : wmem) : Prop := forall a b, ~ (a = i /\ b = j) -> W' a b = W a b.
Lemma same_refl i j W : same_but i j W W.
Proof. intros a b _. reflexivity. Qed.
Lemma same_put i j p v W0 W W' : same_but i j W0 W -> wput W W' i j p v -> same_but i j W0 W'.
Proof. intros H [A _] a b N. rewrite A, H by exact N. reflexivity. Qed.
Lemma full_same i j W W' a b : same_but i j W W' -> ~ (a = i /\ b = j) -> full a b W -> full a b W'.
Proof. intros S N H k N' x y Ga Gb HN Hk. rewrite S by exact N. apply (H k); assumption. Qed.
Lemma goodk_full i j k W : S (mv i j) * ncart i * ncart j <= k -> goodk i j k W -> full i j W.
Proof.
  intros H G k' N a b Ga Gb HN _. apply G; auto. eapply Nat.lt_le_trans; [apply pidx_lt|].
  eapply Nat.le_trans; [|exact H]. rewrite Ga, Gb. apply Nat.mul_le_mono_r. apply Nat.mul_le_mono_r. lia.
Qed.
Lemma goodk_0 i j W : goodk i j 0 W.
Proof. intros N a b _ _ _ H. lia. Qed.

Lemma form_i0_ok W0 i : 1 <= i <= am1 -> shaped am1 am2 W0 -> (forall i', i' < i -> full i' 0 W0) ->
  exists W', form_i0 am1 am2 pa pc h i W0 = Some W' /\ shaped am1 am2 W' /\ same_but i 0 W0 W' /\ full i 0 W'.
Proof.
  intros Hi HS HF. unfold form_i0.
  set (Q := fun k (st : nat * wmem) => fst st = k /\ shaped am1 am2 (snd st) /\ same_but i 0 W0 (snd st) /\ goodk i 0 k (snd st)).
  destruct (@loopM_ok _ (fun m => Q (m * ncart i)%nat) (fun m => loopM (step_i0 pa pc h i m) (seq 0 (ncart i)))
    (S (am12 - i)) 0 (0%nat, W0)) as [st [-> [_ [S1 [S2 G1]]]]].
  - split; [reflexivity|]. split; [exact HS|]. split; [apply same_refl|]. apply goodk_0.
  - intros m st Hm HQ.
    destruct (@loopM_ok _ (fun n => Q (m * ncart i + n)%nat) (step_i0 pa pc h i m) (ncart i) 0 st) as [st' [E' Q']].
    + rewrite Nat.add_0_r. exact HQ.
    + intros n [idx W] Hn [Ei [Sh [Sm Gk]]]. cbn [fst snd] in *.
      destruct (opos_surj psi4 i (i := n) ltac:(lia)) as [g [Gg Pg]]. cbn [opos psi4] in Pg.
      assert (Ep : pidx m g O3 = (m * ncart i + n)%nat).
      { unfold pidx. rewrite Gg, Pg. change (ncart (gam O3)) with 1%nat. change (pos O3) with 0%nat. lia. }
      destruct (@step_i0_ok W i m n g Hi ltac:(lia) Gg Pg Sh) as [W' [v [E [P V]]]].
      { intros i' Hi'. eapply full_same; [exact Sm|lia|apply HF; exact Hi']. }
      { rewrite Ep. exact Gk. }
      exists (S idx, W'). rewrite Ei, <- Ep. split; [exact E|]. replace (m * ncart i + S n)%nat with (S (pidx m g O3)) by lia.
      split; [reflexivity|]. cbn [snd]. split; [exact (shaped_put Sh P)|]. split; [exact (same_put Sm P)|].
      rewrite <- Gg in P, V |- *. apply (@goodk_put W W' m g O3 v P V). rewrite Gg, Ep. exact Gk.
    + exists st'. split; [exact E'|]. replace (S m * ncart i)%nat with (m * ncart i + (0 + ncart i))%nat by (cbn [Nat.mul]; lia).
      exact Q'.
  - exists (snd st). split; [reflexivity|]. split; [exact S1|]. split; [exact S2|].
    eapply goodk_full; [|exact G1]. change (mv i 0) with (am12 - i)%nat. change (ncart 0) with 1%nat.
    rewrite Nat.mul_1_r. apply Nat.mul_le_mono_r. lia.
Qed.

Lemma form_ij_ok W0 i j : i <= am1 -> 1 <= j <= am2 -> shaped am1 am2 W0 ->
  full i (j - 1) W0 -> (1 <= i -> full (i - 1) (j - 1) W0) -> (2 <= j -> full i (j - 2) W0) ->
  exists W', form_ij am2 pb pc h i j W0 = Some W' /\ shaped am1 am2 W' /\ same_but i j W0 W' /\ full i j W'.
Proof.
  intros Hi Hj HS F14 F25 F36. unfold form_ij.
  set (Q := fun k (st : nat * wmem) => fst st = k /\ shaped am1 am2 (snd st) /\ same_but i j W0 (snd st) /\ goodk i j k (snd st)).
  destruct (@loopM_ok _ (fun m => Q (m * ncart i * ncart j)%nat)
    (fun m => loopM (fun n => loopM (step_ij pb pc h i j m n) (seq 0 (ncart j))) (seq 0 (ncart i)))
    (S (am2 - j + 1)) 0 (0%nat, W0)) as [st [-> [_ [S1 [S2 G1]]]]].
  - split; [reflexivity|]. split; [exact HS|]. split; [apply same_refl|]. apply goodk_0.
  - intros m st Hm HQ.
    destruct (@loopM_ok _ (fun n => Q ((m * ncart i + n) * ncart j)%nat)
      (fun n => loopM (step_ij pb pc h i j m n) (seq 0 (ncart j))) (ncart i) 0 st) as [st' [E' Q']].
    + rewrite Nat.add_0_r. exact HQ.
    + intros n st1 Hn HQ1.
      destruct (@loopM_ok _ (fun o => Q ((m * ncart i + n) * ncart j + o)%nat)
        (step_ij pb pc h i j m n) (ncart j) 0 st1) as [st2 [E2 Q2]].
      * rewrite Nat.add_0_r. exact HQ1.
      * intros o [idx W] Ho [Ei [Sh [Sm Gk]]]. cbn [fst snd] in *.
        destruct (opos_surj psi4 i (i := n) ltac:(lia)) as [g [Gg Pg]].
        destruct (opos_surj psi4 j (i := o) ltac:(lia)) as [f [Gf Pf]]. cbn [opos psi4] in Pg, Pf.
        assert (Ep : pidx m g f = ((m * ncart i + n) * ncart j + o)%nat)
          by (unfold pidx; rewrite Gg, Pg, Gf, Pf; reflexivity).
        destruct (@step_ij_ok W i j m n o g f Hi Hj ltac:(lia) Gg Pg Gf Pf Sh) as [W' [v [E [P V]]]].
        { eapply full_same; [exact Sm|lia|exact F14]. }
        { intros H. eapply full_same; [exact Sm|lia|exact (F25 H)]. }
        { intros H. eapply full_same; [exact Sm|lia|exact (F36 H)]. }
        exists (S idx, W'). rewrite Ei, <- Ep. split; [exact E|].
        replace ((m * ncart i + n) * ncart j + S o)%nat with (S (pidx m g f)) by lia.
        split; [reflexivity|]. cbn [snd]. split; [exact (shaped_put Sh P)|]. split; [exact (same_put Sm P)|].
        rewrite <- Gg, <- Gf in P, V |- *. apply (@goodk_put W W' m g f v P V). rewrite Gg, Gf, Ep. exact Gk.
      * exists st2. split; [exact E2|].
        replace ((m * ncart i + S n) * ncart j)%nat with ((m * ncart i + n) * ncart j + (0 + ncart j))%nat by lia. exact Q2.
    + exists st'. split; [exact E'|].
      replace (S m * ncart i * ncart j)%nat with ((m * ncart i + (0 + ncart i)) * ncart j)%nat by (cbn [Nat.mul]; lia).
      exact Q'.
  - exists (snd st). split; [reflexivity|]. split; [exact S1|]. split; [exact S2|].
    eapply goodk_full; [|exact G1]. apply Nat.mul_le_mono_r. apply Nat.mul_le_mono_r.
    unfold mv. destruct (Nat.eqb_spec j 0); lia.
Qed.

Lemma recurrence_ok W0 : shaped am1 am2 W0 -> full 0 0 W0 ->
  exists W', recurrence am1 am2 pa pb pc h W0 = Some W' /\ shaped am1 am2 W' /\
    forall i j, i <= am1 -> j <= am2 -> full i j W'.
Proof.
  intros HS H0. unfold recurrence.
  destruct (@loopM_ok _ (fun i W => shaped am1 am2 W /\ full 0 0 W /\ forall i' j, i' < i -> j <= am2 -> full i' j W)
    (fun i W => match (if (0 <? i)%nat then form_i0 am1 am2 pa pc h i W else Some W) with
                | Some W1 => loopM (form_ij am2 pb pc h i) (seq 1 am2) W1 | None => None end) (S am1) 0 W0)
    as [W' [-> [S1 [_ F1]]]].
  - split; [exact HS|]. split; [exact H0|]. intros; lia.
  - intros i W Hi [Sh [Fz HF]].
    assert (A : exists W1, (if (0 <? i)%nat then form_i0 am1 am2 pa pc h i W else Some W) = Some W1 /\
      shaped am1 am2 W1 /\ full 0 0 W1 /\ full i 0 W1 /\ forall i' j, i' < i -> j <= am2 -> full i' j W1).
    { destruct (Nat.ltb_spec 0 i) as [Hp|Hp].
      - destruct (@form_i0_ok W i ltac:(lia) Sh) as [W1 [E [S1 [Sm F1]]]].
        { intros i' Hi'. apply HF; lia. }
        exists W1. split; [exact E|]. split; [exact S1|]. split; [eapply full_same; [exact Sm|lia|exact Fz]|].
        split; [exact F1|]. intros i' j Hi' Hj. eapply full_same; [exact Sm|lia|apply HF; assumption].
      - exists W. split; [reflexivity|]. split; [exact Sh|]. split; [exact Fz|].
        split; [|exact HF]. replace i with 0%nat by lia. exact Fz. }
    destruct A as [W1 [-> [Sh1 [Fz1 [Fi HF1]]]]].
    destruct (@loopM_ok _ (fun j W => shaped am1 am2 W /\ full 0 0 W /\
        (forall i' k, i' < i -> k <= am2 -> full i' k W) /\ forall k, k < j -> full i k W)
      (form_ij am2 pb pc h i) am2 1 W1) as [W2 [-> [Sh2 [Fz2 [HF2 Fk2]]]]].
    + split; [exact Sh1|]. split; [exact Fz1|]. split; [exact HF1|]. intros k Hk. replace k with 0%nat by lia. exact Fi.
    + intros j V Hj [ShV [FzV [HFV FkV]]].
      destruct (@form_ij_ok V i j ltac:(lia) ltac:(lia) ShV) as [V' [-> [S1 [Sm F1]]]].
      { apply FkV; lia. } { intros; apply HFV; lia. } { intros; apply FkV; lia. }
      exists V'. split; [reflexivity|]. split; [exact S1|]. split; [eapply full_same; [exact Sm|lia|exact FzV]|].
      split.
      * intros i' k Hi' Hk. eapply full_same; [exact Sm|lia|apply HFV; assumption].
      * intros k Hk. destruct (Nat.eq_dec k j) as [->|N]; [exact F1|].
        eapply full_same; [exact Sm|lia|apply FkV; lia].
    + exists W2. split; [reflexivity|]. split; [exact Sh2|]. split; [exact Fz2|].
      intros i' j Hi' Hj. destruct (Nat.eq_dec i' i) as [->|N]; [apply Fk2; lia|apply HF2; lia].
  - exists W'. split; [reflexivity|]. split; [exact S1|]. intros i j Hi Hj. apply F1; lia.
Qed.

Lemma set_start_ok W0 : shaped am1 am2 W0 ->
  exists W', set_start am1 am2 start W0 = Some W' /\ shaped am1 am2 W' /\ full 0 0 W'.
Proof.
  intros HS. unfold set_start.
  destruct (@loopM_ok _ (fun k W => shaped am1 am2 W /\ goodk 0 0 k W) (fun i W => wset W 0 0 i (Some (start i)))
    (S am12) 0 W0) as [W' [-> [S1 G1]]].
  - split; [exact HS|apply goodk_0].
  - intros k W Hk [Sh Gk].
    assert (Ep : pidx k O3 O3 = k).
    { unfold pidx. change (ncart (gam O3)) with 1%nat. change (pos O3) with 0%nat. lia. }
    destruct (@wset_put W 0 0 k (Some (start k))) as [W' [-> P]].
    { rewrite (shaped_len Sh) by lia. rewrite <- Ep. apply pidx_cap; cbn; lia. }
    exists W'. split; [reflexivity|]. split; [exact (shaped_put Sh P)|].
    change 0%nat with (gam O3) in P, Gk |- *. rewrite <- Ep in P, Gk |- *.
    apply (@goodk_put W W' k O3 O3 _ P); [|exact Gk].
    intros Hmv. f_equal. rewrite Ep. destruct HT as [_ [_ H0]]. symmetry. apply H0. lia.
  - exists W'. split; [reflexivity|]. split; [exact S1|]. eapply goodk_full; [|exact G1].
    change (mv 0 0) with (am12 - 0)%nat. change (ncart 0) with 1%nat. lia.
Qed.

(** The scratch array after one pair of primitives. *)
Lemma scratch_ok W0 : shaped am1 am2 W0 ->
  exists W1 W', set_start am1 am2 start W0 = Some W1 /\ recurrence am1 am2 pa pb pc h W1 = Some W' /\
    shaped am1 am2 W' /\
    forall a b, gam a = am1 -> gam b = am2 ->
      nth_error (W' am1 am2) (pos a * ncart am2 + pos b) = Some (Some (T 0 a b)).
Proof.
  intros HS. destruct (set_start_ok HS) as [W1 [E1 [S1 F1]]].
  destruct (recurrence_ok S1 F1) as [W' [E2 [S2 F2]]].
  exists W1, W'. split; [exact E1|]. split; [exact E2|]. split; [exact S2|].
  intros a b Ga Gb. pose proof (F2 am1 am2 (le_n _) (le_n _) (S (pidx 0 a b)) 0%nat a b Ga Gb (Nat.le_0_l _) (Nat.lt_succ_diag_r _)) as E.
  unfold pidx in E. cbn [Nat.mul Nat.add] in E. rewrite Gb in E. exact E.
Qed.
End Run.
End PotProof.
