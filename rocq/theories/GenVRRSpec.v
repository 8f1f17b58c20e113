(** The table-driven vertical routines compute the recurrence; fast paths equal the general path. *)
From Coq Require Import List Arith Lia Bool ZArith.
Import ListNotations.
From Verif Require Import Base Cart Mdir RecurData Recur QList GenHRR VRRStep VRRAlgo GenVRR.
Set Implicit Arguments.

Lemma zncart1_nat n : zncart1 (Z.of_nat (S n)) = Z.of_nat (ncart n).
Proof. unfold zncart1. rewrite <- zncart_nat. unfold zncart. f_equal. lia. Qed.
Lemma zncart2_nat n : zncart2 (Z.of_nat (S (S n))) = Z.of_nat (ncart n).
Proof. unfold zncart2. rewrite <- zncart_nat. unfold zncart. f_equal. lia. Qed.

Lemma row_ijk g r e : row_ok g r -> r_ijk r (Z.of_nat (idx_of_dir e)) = Some (Z.of_nat (gexp e g)).
Proof.
  destruct r as [[[[ijk d] tx] ty] tz]. intros [H _]. subst ijk. destruct g, e; reflexivity.
Qed.

Lemma quads_len ni nj nk nl : length (quads ni nj nk nl) = ni * nj * nk * nl.
Proof.
  unfold quads.
  rewrite (length_flat_map_const _ _ (k := nj * (nk * nl))).
  - rewrite seq_length. lia.
  - intros a _. rewrite (length_flat_map_const _ _ (k := nk * nl)); [rewrite seq_length; reflexivity|].
    intros b _. rewrite (length_flat_map_const _ _ (k := nl)); [rewrite seq_length; reflexivity|].
    intros c _. rewrite map_length, seq_length. reflexivity.
Qed.
Lemma quads_nth ni nj nk nl a b c d : a < ni -> b < nj -> c < nk -> d < nl ->
  nth_error (quads ni nj nk nl) (((a * nj + b) * nk + c) * nl + d) = Some (a, b, c, d).
Proof.
  intros Ha Hb Hc Hd. unfold quads.
  assert (L1 : forall a b c : nat, length (map (fun d : nat => (a, b, c, d)) (seq 0 nl)) = nl)
    by (intros; rewrite map_length, seq_length; reflexivity).
  assert (L2 : forall a b : nat, length (flat_map (fun c : nat => map (fun d : nat => (a, b, c, d)) (seq 0 nl)) (seq 0 nk)) = nk * nl).
  { intros. rewrite (length_flat_map_const _ _ (k := nl)); [rewrite seq_length; reflexivity|]. intros; apply L1. }
  assert (L3 : forall a : nat, length (flat_map (fun b : nat => flat_map (fun c : nat => map (fun d : nat => (a, b, c, d)) (seq 0 nl))
     (seq 0 nk)) (seq 0 nj)) = nj * (nk * nl)).
  { intros. rewrite (length_flat_map_const _ _ (k := nk * nl)); [rewrite seq_length; reflexivity|]. intros; apply L2. }
  replace (((a * nj + b) * nk + c) * nl + d) with (a * (nj * (nk * nl)) + (b * (nk * nl) + (c * nl + d))) by lia.
  assert (c * nl + d < nk * nl) by nia.
  assert (b * (nk * nl) + (c * nl + d) < nj * (nk * nl)) by nia.
  rewrite (nth_error_flat_map_const _ _ (k := nj * (nk * nl))) with (a := a);
    [|intros; apply L3|assumption|rewrite nth_error_seq by lia; f_equal; lia].
  rewrite (nth_error_flat_map_const _ _ (k := nk * nl)) with (a := b);
    [|intros; apply L2|assumption|rewrite nth_error_seq by lia; f_equal; lia].
  rewrite (nth_error_flat_map_const _ _ (k := nl)) with (a := c);
    [|intros; apply L1|assumption|rewrite nth_error_seq by lia; f_equal; lia].
  rewrite nth_error_map, nth_error_seq by lia. reflexivity.
Qed.
Lemma in_quads ni nj nk nl a b c d : In (a, b, c, d) (quads ni nj nk nl) <-> a < ni /\ b < nj /\ c < nk /\ d < nl.
Proof.
  unfold quads. rewrite in_flat_map. split.
  - intros [a' [Ha H]]. apply in_flat_map in H as [b' [Hb H]]. apply in_flat_map in H as [c' [Hc H]].
    apply in_map_iff in H as [d' [E Hd]]. injection E as -> -> -> ->.
    rewrite in_seq in *. lia.
  - intros (Ha & Hb & Hc & Hd). exists a. rewrite in_seq. split; [lia|].
    apply in_flat_map. exists b. rewrite in_seq. split; [lia|].
    apply in_flat_map. exists c. rewrite in_seq. split; [lia|].
    apply in_map_iff. exists d. rewrite in_seq. split; [reflexivity|lia].
Qed.

Lemma in_enumerate A (l : list A) n x : In (n, x) (enumerate l) <-> nth_error l n = Some x.
Proof.
  unfold enumerate. assert (G : forall s (l : list A), In (n, x) (combine (seq s (length l)) l) <-> s <= n /\ nth_error l (n - s) = Some x).
  { clear. intros s l. revert s. induction l as [|y l IH]; intros s; simpl.
    - split; [intros []|]. intros [_ H]. destruct (n - s); discriminate.
    - rewrite IH. split.
      + intros [E|[H1 H2]].
        * injection E as -> ->. rewrite Nat.sub_diag. auto.
        * split; [lia|]. replace (n - s) with (S (n - S s)) by lia. exact H2.
      + intros [H1 H2]. destruct (Nat.eq_dec s n) as [->|N].
        * rewrite Nat.sub_diag in H2. injection H2 as ->. auto.
        * right. split; [lia|]. replace (n - s) with (S (n - S s)) in H2 by lia. exact H2. }
  rewrite G, Nat.sub_0_r. split; [tauto|]. intros; split; [lia|assumption].
Qed.

Section Spec.
Context {R : cring}.
Add Ring vrr_ring : (cth R).
Local Notation block := (@block R).
Local Notation val := (@val R).

(** Array [b] holds orders [0..N-1] of class [a]; the entries may be indeterminate. *)
Definition holds_o (W : nat -> qrt -> val) (a : qam) (N : nat) (b : block) : Prop :=
  forall n q, n < N -> qclass q = a -> nth_error b (n * qncart a + qindex psi4 q) = Some (W n q).
Definition holds_m (V : nat -> qrt -> R) (a : qam) (N : nat) (b : block) : Prop :=
  forall n q, n < N -> qclass q = a -> nth_error b (n * qncart a + qindex psi4 q) = Some (Some (V n q)).

(** The five arguments are the classes the recurrence on [c] needs, for [N] orders; arguments
    of classes that do not exist are not constrained. *)
Definition thetas_o (W : nat -> qrt -> val) (c : ctr) (a : qam) (N : nat) (ts : list (option block)) : Prop :=
  forall n r, nth_error (amreq_all c a) n = Some (Some r) ->
    exists b, nth_error ts n = Some (Some b) /\ holds_o W r N b.
Definition thetas_hold (V : nat -> qrt -> R) (c : ctr) (a : qam) (N : nat) (ts : list (option block)) : Prop :=
  forall n r, nth_error (amreq_all c a) n = Some (Some r) ->
    exists b, nth_error ts n = Some (Some b) /\ holds_m V r N b.

(** The arguments of the routine stepping on [c], from the coefficients. *)
Definition args_of (K : @vcoef R) (c : ctr) : @varg R :=
  VA (k_h K (cside c)) (k_a K (cside c)) (k_hpq K) (k_aPQ K (cside c)) (k_PA K c).

(** The recurrence on possibly indeterminate values. *)
Definition oown (K : @vcoef R) (W : nat -> qrt -> val) (s : side) (n : nat) (f : ctr) (e : dir) (q0 : qrt) (x : val) : val :=
  match clower f e q0 with
  | Some q' => vfma (ofnat (gexp e (cget f q0)) * k_h K s)%r (vfma (k_a K s) (W (S n) q') (W n q')) x
  | None => x
  end.
Definition ooth (K : @vcoef R) (W : nat -> qrt -> val) (n : nat) (f : ctr) (e : dir) (q0 : qrt) (x : val) : val :=
  match clower f e q0 with
  | Some q' => vfma (ofnat (gexp e (cget f q0)) * k_hpq K)%r (W (S n) q') x
  | None => x
  end.
Definition orec (K : @vcoef R) (W : nat -> qrt -> val) (c : ctr) (e : dir) (n : nat) (q0 : qrt) : val :=
  let s := cside c in
  ooth K W n (rights (other s)) e q0 (ooth K W n (lefts (other s)) e q0
   (oown K W s n (rights s) e q0 (oown K W s n (lefts s) e q0
     (vfma (k_PA K c e) (W n q0) (vmul (k_aPQ K s e) (W (S n) q0)))))).
(** ... of a quartet stepped on [c]. *)
Definition ovrec (K : @vcoef R) (W : nat -> qrt -> val) (c : ctr) (n : nat) (q : qrt) : val :=
  match mdir (cget c q) with
  | Some e => match clower c e q with Some q0 => orec K W c e n q0 | None => None end
  | None => None
  end.

Lemma ovrec_raise K W c n e q0 : mdir (cget c (craise c e q0)) = Some e ->
  ovrec K W c n (craise c e q0) = orec K W c e n q0.
Proof. intros H. unfold ovrec. rewrite H, clower_raise. reflexivity. Qed.

(** Where the values of a family are known, so is the result. *)
Lemma orec_known (K : @vcoef R) V W c e n q0 : os_family K V ->
  W n q0 = Some (V n q0) -> W (S n) q0 = Some (V (S n) q0) ->
  (forall f q', clower f e q0 = Some q' -> W n q' = Some (V n q') /\ W (S n) q' = Some (V (S n) q')) ->
  orec K W c e n q0 = Some (V n (craise c e q0)).
Proof.
  intros HV H0 H1 H2. rewrite (HV c e n q0). unfold orec. rewrite H0, H1. cbn [vmul vfma].
  unfold same_side_term, other_side_term, oown, ooth.
  pose proof (H2 (lefts (cside c))) as A1. pose proof (H2 (rights (cside c))) as A2.
  pose proof (H2 (lefts (other (cside c)))) as A3. pose proof (H2 (rights (other (cside c)))) as A4.
  destruct (clower (lefts (cside c)) e q0) as [q1|]; destruct (clower (rights (cside c)) e q0) as [q2|];
  destruct (clower (lefts (other (cside c))) e q0) as [q3|]; destruct (clower (rights (other (cside c))) e q0) as [q4|];
  repeat match goal with H : forall q', Some ?q = Some q' -> _ |- _ => destruct (H q eq_refl) as [? ?]; clear H end;
  repeat match goal with H : W _ _ = Some _ |- _ => rewrite H; clear H end;
  cbn [vmul vfma]; f_equal; ring.
Qed.

Lemma read_rows_ok (K : @vcoef R) c q :
  gam (cget c q) <> 0 -> (forall f, gam (cget f q) <= 18) ->
  exists e q0 w, q = craise c e q0 /\ mdir (cget c q) = Some e /\
    read_rows c (args_of K c) (gam (qa q)) (gam (qb q)) (gam (qc q)) (gam (qd q)) (pos (qa q)) (pos (qb q)) (pos (qc q)) (pos (qd q)) = Some w /\
    w_pa w = k_PA K c e /\ w_apq w = k_aPQ K (cside c) e /\
    (forall f, w_x w f = Z.of_nat (gexp e (cget f q))) /\
    (forall f, w_m1 w f = nbr (down e (cget f q))) /\
    w_m2 w = nbr (down2 e (cget c q)).
Proof.
  intros Hc Hb.
  destruct (@recur_lookup_ok (qa q) (Hb CI)) as [ri [Li Oi]].
  destruct (@recur_lookup_ok (qb q) (Hb CJ)) as [rj [Lj Oj]].
  destruct (@recur_lookup_ok (qc q) (Hb CK)) as [rk [Lk Ok]].
  destruct (@recur_lookup_ok (qd q) (Hb CL)) as [rl [Ll Ol]].
  unfold read_rows. rewrite Li, Lj, Lk, Ll. cbn [obind].
  assert (Hm : row_ok (cget c q) (pick c ri rj rk rl)) by (destruct c; assumption).
  destruct (mdir_pick _ _ Hm Hc) as [e [g [He [Hd [Hdn _]]]]].
  rewrite Hd, !at3_dir. cbn [obind va_PA va_aPQ args_of].
  rewrite (row_ijk _ _ e Oi), (row_ijk _ _ e Oj), (row_ijk _ _ e Ok), (row_ijk _ _ e Ol). cbn [obind].
  rewrite (proj1 (row_idx _ _ e Oi)), (proj1 (row_idx _ _ e Oj)), (proj1 (row_idx _ _ e Ok)), (proj1 (row_idx _ _ e Ol)).
  cbn [obind]. rewrite (proj1 (proj2 (row_idx _ _ e Hm))). cbn [obind].
  eexists e, (cset c g q), _. split.
  { unfold craise. rewrite cget_cset, cset_cset. apply down_some in Hdn. rewrite <- Hdn. symmetry; apply cset_cget. }
  split; [apply is_mdir_mdir; exact He|]. split; [reflexivity|]. cbn [w_pa w_apq w_x w_m1 w_m2].
  split; [reflexivity|]. split; [reflexivity|].
  split; [intros []; reflexivity|]. split; [intros []; reflexivity|reflexivity].
Qed.

Lemma rdp_holds W a N (th : option block) b n q z :
  th = Some b -> holds_o W a N b -> n < N -> qclass q = a -> z = Z.of_nat (n * qncart a + qindex psi4 q) ->
  rdp th z = Some (W n q).
Proof. intros -> H Hn Hq Hz. unfold rdp. rewrite (rdz_nat _ _ Hz). apply H; auto. Qed.

(** One own-side term. *)
Lemma own_term (K : @vcoef R) W s n f e q0 g th ia ib mult x :
  (forall q', clower f e q0 = Some q' -> g = true /\ mult = ofnat (gexp e (cget f q0)) /\
     rdp th ia = Some (W n q') /\ rdp th ib = Some (W (S n) q')) ->
  (clower f e q0 = None -> g = false) ->
  own_add g th ia ib mult (k_h K s) (k_a K s) x = Some (oown K W s n f e q0 x).
Proof.
  intros H1 H2. unfold own_add, oown. destruct (clower f e q0) as [q'|].
  - destruct (H1 q' eq_refl) as [-> [-> [-> ->]]]. reflexivity.
  - rewrite H2 by reflexivity. reflexivity.
Qed.
Lemma oth_term (K : @vcoef R) W n f e q0 g th ia mult x :
  (forall q', clower f e q0 = Some q' -> g = true /\ mult = ofnat (gexp e (cget f q0)) /\
     rdp th ia = Some (W (S n) q')) ->
  (clower f e q0 = None -> g = false) ->
  oth_add g th ia mult (k_hpq K) x = Some (ooth K W n f e q0 x).
Proof.
  intros H1 H2. unfold oth_add, ooth. destruct (clower f e q0) as [q'|].
  - destruct (H1 q' eq_refl) as [-> [-> ->]]. cbn [obind].
    replace (k_hpq K * ofnat (gexp e (cget f q0)))%r with (ofnat (gexp e (cget f q0)) * k_hpq K)%r by ring. reflexivity.
  - rewrite H2 by reflexivity. reflexivity.
Qed.

Lemma dset_pred n : dset (Z.of_nat (S n) - 1) = @ofnat R n.
Proof. unfold dset. f_equal. lia. Qed.
Lemma dset_nat n : dset (Z.of_nat n) = @ofnat R n.
Proof. unfold dset. f_equal. lia. Qed.

Lemma gt1_S n : (1 <? Z.of_nat (S n))%Z = negb (n =? 0).
Proof. destruct n; [reflexivity|]. destruct (Z.ltb_spec 1 (Z.of_nat (S (S n)))); [reflexivity|lia]. Qed.
Lemma z_eqb0 n : (Z.of_nat n =? 0)%Z = (n =? 0).
Proof. destruct n; reflexivity. Qed.

Lemma clower_gexp f e q q' : clower f e q = Some q' -> (gexp e (cget f q) =? 0) = false.
Proof. intros H. apply clower_some in H. subst. rewrite cget_raise_same, gexp_up_same. reflexivity. Qed.

(** A theta argument of an existing source. *)
Lemma theta_at V c a N ts n cs r : thetas_o V c a N ts -> nth_error (amreq_spec c) n = Some cs ->
  alowers cs a = Some r -> exists b, nth_error ts n = Some (Some b) /\ holds_o V r N b.
Proof.
  intros H Hn Hr. apply H. unfold amreq_all. rewrite nth_error_map, Hn. simpl. congruence.
Qed.

Ltac zfin := repeat match goal with |- context [nbr (down ?e (up ?e ?g))] => rewrite (down_up e g) end;
  unfold qncart, qclass; rewrite ?qindex_row_major; cbn [nbr qa qb qc qd am0 am1 am2 am3 opos psi4];
  rewrite ?gam_up, ?zncart1_nat, ?zncart2_nat, ?zncart_nat;
  repeat rewrite ?Nat2Z.inj_succ, ?Nat2Z.inj_add, ?Nat2Z.inj_mul; unfold Z.succ; ring.

(** [V n q0'] read through theta number [k]. *)
Ltac rdth H k cs N :=
  match goal with
  | |- rdp ?th ?z = Some (?V ?n ?q) =>
    let b := fresh "b" in let E := fresh "E" in let Hb := fresh "Hb" in
    destruct (@theta_at _ _ _ _ _ k cs (qclass q) H eq_refl) as [b [E Hb]];
    [unfold qclass; simpl; rewrite ?gam_up; reflexivity|];
    injection E as E;
    apply (@rdp_holds _ _ _ _ _ _ _ _ E Hb); [lia|reflexivity|]
  end.

Ltac rd1 H V q cs n :=
  match goal with |- obind (rdp ?t ?z) _ = _ =>
    let E := fresh "E" in
    assert (E : rdp t z = Some (V n q)) by (rdth H 0 cs n; zfin); rewrite E; clear E end;
  cbn [obind];
  match goal with |- obind (rdp ?t ?z) _ = _ =>
    let E := fresh "E" in
    assert (E : rdp t z = Some (V (S n) q)) by (rdth H 0 cs n; zfin); rewrite E; clear E end;
  cbn [obind vfma vmul].
Ltac lowered f :=
  let q' := fresh "q'" in let E := fresh "E" in let D := fresh "D" in
  intros q' E; unfold clower in E; cbn [cget cset qa qb qc qd] in E;
  match type of E with match down ?e ?g with _ => _ end = _ =>
    destruct (down e g) as [?g'|] eqn:D; [|discriminate]; injection E as <-;
    apply down_some in D; subst g; cbn [cget qa qb qc qd]; rewrite ?down_up, ?gexp_up_same; cbn [nbr] end.
Ltac notlowered f :=
  let E := fresh "E" in intros E; apply clower_none in E; cbn [cget qa qb qc qd] in E; rewrite E; reflexivity.
Ltac ownt K V s n f e q H k cs :=
  rewrite (@own_term K V s n f e q);
  [|lowered f; split; [reflexivity|split; [reflexivity|split; rdth H k cs n; zfin]] | notlowered f ];
  cbn [obind].
Ltac otht K V n f e q H k cs :=
  rewrite (@oth_term K V n f e q);
  [|lowered f; split; [reflexivity|split; [reflexivity|rdth H k cs n; zfin]] | notlowered f ];
  cbn [obind].

Lemma at_c_ok (K : @vcoef R) V c N t1 t2 t3 t4 t5 e q0 w n :
  n < N ->
  let q := craise c e q0 in
  thetas_o V c (qclass q) (S N) [t1; t2; t3; t4; t5] ->
  w_pa w = k_PA K c e -> w_apq w = k_aPQ K (cside c) e ->
  (forall f, w_x w f = Z.of_nat (gexp e (cget f q))) ->
  (forall f, w_m1 w f = nbr (down e (cget f q))) ->
  w_m2 w = nbr (down2 e (cget c q)) ->
  at_c c (gam (qa q)) (gam (qb q)) (gam (qc q)) (gam (qd q)) (args_of K c) t1 t2 t3 t4 t5 w
    (pos (qa q)) (pos (qb q)) (pos (qc q)) (pos (qd q)) n = Some (orec K V c e n q0).
Proof.
  intros Hn q Ht Hpa Hapq Hx Hm1 Hm2.
  unfold q in *. unfold orec.
  destruct q0 as [ga gb gc gd].
  destruct c; cbn [at_c]; unfold at_I, at_J, at_K, at_L; cbv zeta;
    unfold craise, cset, cget in Hx, Hm1, Hm2, Ht |- *; cbn [qa qb qc qd] in *;
    cbn [args_of va_h va_a va_hpq cside lefts rights other] in *;
    rewrite Hpa, Hapq, !Hx, !Hm1, Hm2, ?gexp_up_same, ?gt1_S, ?z_eqb0, ?dset_pred, ?dset_nat;
    unfold down2; rewrite ?down_up; cbn [nbr].
  - rd1 Ht V (Q4 ga gb gc gd) [CI] n. ownt K V SB n CI e (Q4 ga gb gc gd) Ht 1 [CI; CI].
    ownt K V SB n CJ e (Q4 ga gb gc gd) Ht 2 [CJ; CI]. otht K V n CK e (Q4 ga gb gc gd) Ht 3 [CK; CI].
    otht K V n CL e (Q4 ga gb gc gd) Ht 4 [CL; CI]. reflexivity.
  - rd1 Ht V (Q4 ga gb gc gd) [CJ] n. ownt K V SB n CI e (Q4 ga gb gc gd) Ht 1 [CI; CJ].
    ownt K V SB n CJ e (Q4 ga gb gc gd) Ht 2 [CJ; CJ]. otht K V n CK e (Q4 ga gb gc gd) Ht 3 [CK; CJ].
    otht K V n CL e (Q4 ga gb gc gd) Ht 4 [CL; CJ]. reflexivity.
  - rd1 Ht V (Q4 ga gb gc gd) [CK] n. ownt K V SK n CK e (Q4 ga gb gc gd) Ht 1 [CK; CK].
    ownt K V SK n CL e (Q4 ga gb gc gd) Ht 2 [CL; CK]. otht K V n CI e (Q4 ga gb gc gd) Ht 3 [CI; CK].
    otht K V n CJ e (Q4 ga gb gc gd) Ht 4 [CJ; CK]. reflexivity.
  - rd1 Ht V (Q4 ga gb gc gd) [CL] n. ownt K V SK n CK e (Q4 ga gb gc gd) Ht 1 [CK; CL].
    ownt K V SK n CL e (Q4 ga gb gc gd) Ht 2 [CL; CL]. otht K V n CI e (Q4 ga gb gc gd) Ht 3 [CI; CL].
    otht K V n CJ e (Q4 ga gb gc gd) Ht 4 [CJ; CL]. reflexivity.
Qed.

(** ** Writes *)
Lemma perform_spec ws : forall (out : block),
  (forall z v, In (z, v) ws -> (0 <= z < Z.of_nat (length out))%Z) ->
  (forall z v v', In (z, v) ws -> In (z, v') ws -> v = v') ->
  exists out', perform ws out = Some out' /\ length out' = length out /\
    (forall z v, In (z, v) ws -> nth_error out' (Z.to_nat z) = Some v) /\
    (forall k, (forall v, ~ In (Z.of_nat k, v) ws) -> nth_error out' k = nth_error out k).
Proof.
  induction ws as [|[z v] ws IH]; intros out Hr Hf; cbn [perform].
  - exists out. repeat split; auto. intros z v [].
  - unfold wrz. pose proof (Hr z v (or_introl eq_refl)) as Hz.
    assert (((0 <=? z) && (z <? Z.of_nat (length out)))%Z = true) as ->.
    { apply andb_true_intro. split; [apply Z.leb_le|apply Z.ltb_lt]; lia. }
    cbn [obind].
    destruct (IH (upd out (Z.to_nat z) v)) as [out' [E [L [W U]]]].
    { intros z' v' H. rewrite upd_length. apply (Hr z' v'). right; exact H. }
    { intros z' a b Ha Hb. apply (Hf z'); right; assumption. }
    exists out'. split; [exact E|]. split; [rewrite L; apply upd_length|]. split.
    + intros z' v' [H|H]; [|apply W, H]. injection H as <- <-.
      destruct (in_dec Z.eq_dec z (map fst ws)) as [Y|N].
      * apply in_map_iff in Y as [[z2 v2] [E2 Y]]. simpl in E2. subst z2.
        rewrite (W _ _ Y). f_equal. apply (Hf z); [right; exact Y|left; reflexivity].
      * rewrite U; [apply nth_error_upd_same; apply Nat2Z.inj_lt; rewrite Z2Nat.id by apply Hz; apply Hz|]. intros v' H. apply N.
        rewrite Z2Nat.id in H by lia. apply in_map_iff. exists (z, v'). auto.
    + intros k H. rewrite U; [|intros v' K; apply (H v'); right; exact K].
      apply nth_error_upd_other. intros C. apply (H v). left. f_equal. rewrite <- C. lia.
Qed.

Lemma mapM_in A B (f : A -> option B) l out : mapM f l = Some out ->
  forall y, In y out <-> exists x, In x l /\ f x = Some y.
Proof.
  revert out. induction l as [|x l IH]; intros out H y; cbn [mapM] in H.
  - injection H as <-. split; [intros []|intros [x [[] _]]].
  - destruct (f x) as [u|] eqn:E; [|discriminate]. destruct (mapM f l) as [t|]; [|discriminate].
    injection H as <-. simpl. rewrite (IH t eq_refl y). split.
    + intros [<-|[x' [H1 H2]]]; eauto.
    + intros [x' [[<-|H1] H2]]; [left; congruence|right; eauto].
Qed.
Lemma concatM_in A B (f : A -> option (list B)) l out : concatM f l = Some out ->
  forall y, In y out <-> exists x ys, In x l /\ f x = Some ys /\ In y ys.
Proof.
  unfold concatM. destruct (mapM f l) as [ll|] eqn:E; [|discriminate]. intros H y. injection H as <-.
  rewrite in_concat. split.
  - intros [ys [H1 H2]]. apply (mapM_in _ _ E) in H1 as [x [H3 H4]]. eauto.
  - intros [x [ys [H1 [H2 H3]]]]. exists ys. split; [|exact H3]. apply (mapM_in _ _ E). eauto.
Qed.
Lemma mapM_total A B (f : A -> option B) l : (forall x, In x l -> exists y, f x = Some y) -> exists out, mapM f l = Some out.
Proof.
  induction l as [|x l IH]; intros H; cbn [mapM]; [eauto|].
  destruct (H x (or_introl eq_refl)) as [y ->]. destruct IH as [t ->]; [intros; apply H; right; auto|eauto].
Qed.
Lemma concatM_total A B (f : A -> option (list B)) l : (forall x, In x l -> exists y, f x = Some y) -> exists out, concatM f l = Some out.
Proof. intros H. unfold concatM. destruct (mapM_total _ _ H) as [o ->]. eauto. Qed.

(** The writes a routine must make. *)
Definition writes_ok (V : nat -> qrt -> val) (a : qam) (N : nat) (ws : list (Z * val)) : Prop :=
  forall z v, In (z, v) ws <->
    exists n q, n < N /\ qclass q = a /\ z = Z.of_nat (n * qncart a + qindex psi4 q) /\ v = V n q.

Lemma entry_lt n N a q : n < N -> qclass q = a -> n * qncart a + qindex psi4 q < N * qncart a.
Proof. intros Hn Hq. pose proof (qindex_lt psi4 q). rewrite Hq in H. nia. Qed.

Lemma writes_perform V a N ws (out : block) : writes_ok V a N ws -> N * qncart a <= length out ->
  exists out', perform ws out = Some out' /\ length out' = length out /\ holds_o V a N out' /\
    forall k, N * qncart a <= k -> nth_error out' k = nth_error out k.
Proof.
  intros H Hl. destruct (@perform_spec ws out) as [out' [E [L [W U]]]].
  - intros z v Hz. apply H in Hz as [n [q [H1 [H2 [-> _]]]]]. pose proof (@entry_lt n N a q H1 H2). lia.
  - intros z v v' Hv Hv'. apply H in Hv as [n [q [H1 [H2 [H3 ->]]]]].
    apply H in Hv' as [n' [q' [H1' [H2' [H3' ->]]]]].
    assert (EE : n * qncart a + qindex psi4 q = n' * qncart a + qindex psi4 q') by lia.
    pose proof (qindex_lt psi4 q) as Q1. pose proof (qindex_lt psi4 q') as Q2. rewrite H2 in Q1. rewrite H2' in Q2.
    assert (n = n' /\ qindex psi4 q = qindex psi4 q') as [-> EQ] by (eapply mixed_inj; eauto).
    apply qindex_inj in EQ; [subst; reflexivity|congruence].
  - exists out'. split; [exact E|]. split; [exact L|]. split.
    + intros n q Hn Hq. assert (In (Z.of_nat (n * qncart a + qindex psi4 q), V n q) ws) as K.
      { apply H. exists n, q. auto. }
      apply W in K. rewrite Nat2Z.id in K. exact K.
    + intros k Hk. apply U. intros v K. apply H in K as [n [q [H1 [H2 [H3 _]]]]].
      pose proof (@entry_lt n N a q H1 H2). lia.
Qed.

(** ** The general path *)
Lemma path_ok (K : @vcoef R) V c i j k l N t1 t2 t3 t4 t5 :
  aget c (QAM i j k l) <> 0 -> i <= 18 -> j <= 18 -> k <= 18 -> l <= 18 ->
  thetas_o V c (QAM i j k l) (S N) [t1; t2; t3; t4; t5] ->
  exists ws, path c i j k l N (args_of K c) t1 t2 t3 t4 t5 = Some ws /\ writes_ok (ovrec K V c) (QAM i j k l) N ws.
Proof.
  intros Hc Hi Hj Hk Hl Ht.
  set (F := fun x : nat * (nat * nat * nat * nat) => let '(cur, (ii, jj, kk, ll)) := x in
    w <- read_rows c (args_of K c) i j k l ii jj kk ll ;;
    mapM (fun n => v <- at_c c i j k l (args_of K c) t1 t2 t3 t4 t5 w ii jj kk ll n ;;
       Some ((Z.of_nat n * (zncart (Z.of_nat i) * zncart (Z.of_nat j) * zncart (Z.of_nat k) * zncart (Z.of_nat l)) + Z.of_nat cur)%Z, v)) (seq 0 N)).
  assert (Hnc : (zncart (Z.of_nat i) * zncart (Z.of_nat j) * zncart (Z.of_nat k) * zncart (Z.of_nat l))%Z = Z.of_nat (qncart (QAM i j k l))).
  { rewrite !zncart_nat. unfold qncart; simpl. rewrite !Nat2Z.inj_mul. reflexivity. }
  assert (HF : forall q, qclass q = QAM i j k l ->
    F (qindex psi4 q, (pos (qa q), pos (qb q), pos (qc q), pos (qd q))) =
    Some (map (fun n => (Z.of_nat (n * qncart (QAM i j k l) + qindex psi4 q), ovrec K V c n q)) (seq 0 N))).
  { intros q Hq. pose proof Hq as Hq'. unfold qclass in Hq'. injection Hq' as Ei Ej Ek El.
    assert (Hg : gam (cget c q) <> 0) by (rewrite <- aget_class, Hq; exact Hc).
    destruct (@read_rows_ok K c q Hg) as [e [q0 [w [Eq [Ed [Ew [W1 [W2 [W3 [W4 W5]]]]]]]]]].
    { intros []; simpl; lia. }
    rewrite Ei, Ej, Ek, El in Ew.
    unfold F. rewrite Ew. cbn [obind]. rewrite Hnc.
    apply mapM_spec. intros n Hn. apply in_seq in Hn.
    rewrite <- Hq in Ht. rewrite Eq in Ht, W3, W4, W5.
    pose proof (@at_c_ok K V c N t1 t2 t3 t4 t5 e q0 w n ltac:(lia) Ht W1 W2 W3 W4 W5) as A.
    cbv zeta in A. rewrite <- (@ovrec_raise K V c n e q0) in A by (rewrite <- Eq; exact Ed). rewrite <- Eq, Ei, Ej, Ek, El in A. rewrite A. cbn [obind].
    do 2 f_equal. lia. }
  assert (Hqn : forall q, qclass q = QAM i j k l ->
    nth_error (quads (ncart i) (ncart j) (ncart k) (ncart l)) (qindex psi4 q) = Some (pos (qa q), pos (qb q), pos (qc q), pos (qd q))).
  { intros q Hq. injection Hq as E1 E2 E3 E4.
    rewrite qindex_row_major. cbn [opos psi4]. rewrite E2, E3, E4. apply quads_nth.
    - rewrite <- E1; apply pos_lt.
    - rewrite <- E2; apply pos_lt.
    - rewrite <- E3; apply pos_lt.
    - rewrite <- E4; apply pos_lt. }
  assert (Hin : forall x, In x (enumerate (quads (ncart i) (ncart j) (ncart k) (ncart l))) <->
    exists q, qclass q = QAM i j k l /\ x = (qindex psi4 q, (pos (qa q), pos (qb q), pos (qc q), pos (qd q)))).
  { intros [cur [[[ii jj] kk] ll]]. rewrite in_enumerate. split.
    - intros H. assert (Hlt : cur < qncart (QAM i j k l)).
      { unfold qncart; simpl. rewrite <- quads_len. apply nth_error_Some. congruence. }
      destruct (qindex_surj psi4 _ Hlt) as [q [Hq Hi']]. exists q. split; [exact Hq|].
      rewrite <- Hi' in H. rewrite Hqn in H by exact Hq. injection H as <- <- <- <-. rewrite Hi'. reflexivity.
    - intros [q [Hq E]]. injection E as -> -> -> -> ->. apply Hqn, Hq. }
  destruct (@concatM_total _ _ F (enumerate (quads (ncart i) (ncart j) (ncart k) (ncart l)))) as [ws E].
  { intros x Hx. apply Hin in Hx as [q [Hq ->]]. rewrite HF by exact Hq. eauto. }
  exists ws. split; [exact E|].
  intros z v. rewrite (concatM_in _ _ E). split.
  - intros [x [ys [H1 [H2 H3]]]]. apply Hin in H1 as [q [Hq ->]]. rewrite HF in H2 by exact Hq.
    injection H2 as <-. apply in_map_iff in H3 as [n [H4 H5]]. injection H4 as <- <-.
    apply in_seq in H5. exists n, q. repeat split; auto; lia.
  - intros [n [q [Hn [Hq [-> ->]]]]]. eexists _, _. split; [apply Hin; exists q; split; [exact Hq|reflexivity]|].
    split; [apply HF, Hq|]. apply in_map_iff. exists n. split; [reflexivity|]. apply in_seq. lia.
Qed.

(** ** The fast paths *)
Lemma recur00 : exists tx ty tz, recur_lookup 0 0 = Some ((0, 0, 0)%Z, (-1)%Z, tx, ty, tz).
Proof. vm_compute. eauto. Qed.

Lemma read_rows_zero c (C : @varg R) i k ii kk w :
  read_rows c C i 0 k 0 ii 0 kk 0 = Some w -> w_x w CJ = 0%Z /\ w_x w CL = 0%Z.
Proof.
  destruct recur00 as [tx [ty [tz E]]]. unfold read_rows. rewrite E.
  destruct (recur_lookup i ii) as [ri|]; [|discriminate].
  destruct (recur_lookup k kk) as [rk|]; [|discriminate]. cbn [obind].
  set (d := r_dir _). clearbody d.
  intros H.
  repeat match type of H with obind ?o _ = Some _ => destruct o eqn:?; cbn [obind] in H; [|discriminate] end.
  injection H as <-; cbn [w_x pick];
  repeat match goal with
  | E : r_ijk (_, _, _, _, _) _ = Some _ |- _ => unfold r_ijk in E
  | E : (if ?b then _ else _) = Some _ |- _ => destruct b; try discriminate
  | E : Some _ = Some _ |- _ => injection E as <-
  end; auto.
Qed.

Lemma concatM_map A B D (g : A -> B) (f : B -> option (list D)) l : concatM f (map g l) = concatM (fun x => f (g x)) l.
Proof.
  unfold concatM. assert (mapM f (map g l) = mapM (fun x => f (g x)) l) as ->; [|reflexivity].
  induction l as [|x l IH]; [reflexivity|]. cbn [map mapM]. rewrite IH. reflexivity.
Qed.
Lemma concatM_ext A B (f g : A -> option (list B)) l : (forall x, In x l -> f x = g x) -> concatM f l = concatM g l.
Proof.
  intros H. unfold concatM. assert (mapM f l = mapM g l) as ->; [|reflexivity].
  induction l as [|x l IH]; [reflexivity|]. cbn [mapM]. rewrite H by (left; reflexivity).
  rewrite IH by (intros; apply H; right; auto). reflexivity.
Qed.
Lemma enumerate_map A B (g : A -> B) l : enumerate (map g l) = map (fun x => (fst x, g (snd x))) (enumerate l).
Proof.
  unfold enumerate. rewrite map_length. generalize (length l). intros n. generalize 0. revert l.
  induction n as [|n IH]; intros l s; [reflexivity|]. destruct l as [|x l]; [reflexivity|].
  cbn [seq map combine fst snd]. rewrite IH. reflexivity.
Qed.
Lemma quads_pairs ni nk : quads ni 1 nk 1 = map (fun x => (fst x, 0, snd x, 0))
  (flat_map (fun a => map (fun c => (a, c)) (seq 0 nk)) (seq 0 ni)).
Proof.
  unfold quads. cbn [seq flat_map map].
  assert (E : forall (a : nat) l, flat_map (fun c : nat => [(a, 0, c, 0)]) l = map (fun c => (a, 0, c, 0)) l).
  { intros a l. induction l as [|x l IH]; [reflexivity|]. simpl. rewrite IH. reflexivity. }
  induction (seq 0 ni) as [|a l IH]; [reflexivity|]. cbn [flat_map]. rewrite map_app, map_map, IH, E, app_nil_r.
  reflexivity.
Qed.

(** The value the fast loop stores, in closed form. *)
Definition fast_val (C : @varg R) (t1 t2 t4 : option block) (pa apq : R) (own oth : option R)
  (n1 n2 n4 idx1 idx3 idx7 : Z) (n : nat) : option val :=
  let z := Z.of_nat n in
  v1 <- rdp t1 (idx1 + z * n1)%Z ;; v2 <- rdp t1 (idx1 + z * n1 + n1)%Z ;;
  let o := vfma apq v2 (vmul pa v1) in
  o <- (match own with
        | Some tmp2 => u4 <- rdp t2 (idx3 + z * n2 + n2)%Z ;; u3 <- rdp t2 (idx3 + z * n2)%Z ;; Some (vfma tmp2 (vfma (va_a C) u4 u3) o)
        | None => Some o
        end) ;;
  match oth with
  | Some tmp1 => u <- rdp t4 (idx7 + z * n4)%Z ;; Some (vfma tmp1 u o)
  | None => Some o
  end.

Lemma fast_loop_eq (C : @varg R) t1 t2 t4 pa apq own oth nc n1 n2 n4 cur idx1 idx3 idx7 : forall N s,
  fast_loop C t1 t2 t4 pa apq own oth nc n1 n2 n4 N (Z.of_nat s * nc + cur)%Z (idx1 + Z.of_nat s * n1)%Z
    (idx3 + Z.of_nat s * n2)%Z (idx3 + Z.of_nat s * n2 + n2)%Z (idx7 + Z.of_nat s * n4)%Z =
  mapM (fun n => v <- fast_val C t1 t2 t4 pa apq own oth n1 n2 n4 idx1 idx3 idx7 n ;;
                 Some ((Z.of_nat n * nc + cur)%Z, v)) (seq s N).
Proof.
  induction N as [|N IH]; intros s; [reflexivity|]. cbn [fast_loop seq mapM]. unfold fast_val at 1.
  destruct (rdp t1 (idx1 + Z.of_nat s * n1)) as [v1|]; [|reflexivity]. cbn [obind].
  destruct (rdp t1 (idx1 + Z.of_nat s * n1 + n1)) as [v2|]; [|reflexivity]. cbn [obind].
  match goal with |- obind ?o _ = _ => destruct o as [o'|]; [|reflexivity] end. cbn [obind].
  match goal with |- obind ?o _ = _ => destruct o as [o''|]; [|reflexivity] end. cbn [obind].
  rewrite <- (IH (S s)).
  replace (Z.of_nat (S s) * nc + cur)%Z with (Z.of_nat s * nc + cur + nc)%Z by lia.
  replace (idx1 + Z.of_nat (S s) * n1)%Z with (idx1 + Z.of_nat s * n1 + n1)%Z by lia.
  replace (idx3 + Z.of_nat (S s) * n2)%Z with (idx3 + Z.of_nat s * n2 + n2)%Z by lia.
  replace (idx7 + Z.of_nat (S s) * n4)%Z with (idx7 + Z.of_nat s * n4 + n4)%Z by lia.
  destruct (fast_loop _ _ _ _ _ _ _ _ _ _ _ _ _ _ _ _ _ _) as [r|]; reflexivity.
Qed.

Lemma vfma_swap (a b : R) x y : vfma a x (vmul b y) = vfma b y (vmul a x).
Proof. destruct x, y; cbn; try reflexivity. f_equal. ring. Qed.
Lemma gt1_le (z : Z) : (1 <? z)%Z = negb (z <=? 1)%Z.
Proof. destruct (Z.ltb_spec 1 z), (Z.leb_spec z 1); auto; lia. Qed.

Lemma mapM_ext A B (f g : A -> option B) l : (forall x, In x l -> f x = g x) -> mapM f l = mapM g l.
Proof.
  intros H. induction l as [|x l IH]; [reflexivity|]. cbn [mapM]. rewrite H by (left; reflexivity).
  rewrite IH by (intros; apply H; right; auto). reflexivity.
Qed.

Lemma rdp_eq (t : option block) z z' : z = z' -> rdp t z = rdp t z'.
Proof. intros ->; reflexivity. Qed.

Lemma fast_loop_eq0 (C : @varg R) t1 t2 t4 pa apq own oth nc n1 n2 n4 cur idx1 idx3 idx7 N :
  fast_loop C t1 t2 t4 pa apq own oth nc n1 n2 n4 N cur idx1 idx3 (idx3 + n2)%Z idx7 =
  mapM (fun n => v <- fast_val C t1 t2 t4 pa apq own oth n1 n2 n4 idx1 idx3 idx7 n ;;
                 Some ((Z.of_nat n * nc + cur)%Z, v)) (seq 0 N).
Proof.
  rewrite <- fast_loop_eq. f_equal; lia.
Qed.

Ltac samerd := match goal with |- ?A = ?B =>
  match A with context [rdp ?t ?z] => match B with context [rdp t ?z'] =>
    rewrite (@rdp_eq t z z') by (cbn [Z.of_nat]; ring); destruct (rdp t z'); [|reflexivity]; cbn [obind] end end end.

Lemma fast_I_eq i k N (C : @varg R) t1 t2 t4 :
  fast_I i 0 k 0 N C t1 t2 t4 = path CI i 0 k 0 N C t1 t2 None t4 None.
Proof.
  unfold fast_I, path. cbv zeta. change (ncart 0) with 1. rewrite quads_pairs, enumerate_map, concatM_map.
  apply concatM_ext. intros [cur [ii kk]] _. cbn [fst snd].
  destruct (read_rows CI C i 0 k 0 ii 0 kk 0) as [w|] eqn:Ew; [|reflexivity]. cbn [obind].
  destruct (@read_rows_zero _ _ _ _ _ _ _ Ew) as [Xj Xl].
  rewrite fast_loop_eq0. apply mapM_ext. intros n _.
  change (zncart (Z.of_nat 0)) with 1%Z.
  cbn [at_c]. unfold at_I, fast_val. cbv zeta. rewrite Xj, Xl. cbn [Z.eqb negb own_add oth_add].
  change (zncart (Z.of_nat 0)) with 1%Z. change (zncart1 (Z.of_nat 0)) with 0%Z.
  match goal with |- obind ?a _ = obind ?b _ => assert (H : a = b); [|rewrite H; reflexivity] end.
  samerd. samerd. rewrite vfma_swap, gt1_le.
  destruct (w_x w CI <=? 1)%Z; cbn [negb own_add obind]; destruct (w_x w CK =? 0)%Z; cbn [negb oth_add obind].
  - reflexivity.
  - samerd. reflexivity.
  - samerd. samerd.  reflexivity.
  - samerd. samerd.  samerd. reflexivity.
Qed.

Lemma mulC (x y : R) : (x * y = y * x)%r.
Proof. ring. Qed.

Lemma fast_K_eq i k N (C : @varg R) t1 t2 t4 :
  fast_K i 0 k 0 N C t1 t2 t4 = path CK i 0 k 0 N C t1 t2 None t4 None.
Proof.
  unfold fast_K, path. cbv zeta. change (ncart 0) with 1. rewrite quads_pairs, enumerate_map, concatM_map.
  apply concatM_ext. intros [cur [ii kk]] _. cbn [fst snd].
  destruct (read_rows CK C i 0 k 0 ii 0 kk 0) as [w|] eqn:Ew; [|reflexivity]. cbn [obind].
  destruct (@read_rows_zero _ _ _ _ _ _ _ Ew) as [Xj Xl].
  rewrite fast_loop_eq0. apply mapM_ext. intros n _.
  change (zncart (Z.of_nat 0)) with 1%Z.
  cbn [at_c]. unfold at_K, fast_val. cbv zeta. rewrite Xj, Xl. cbn [Z.eqb negb own_add oth_add].
  change (zncart (Z.of_nat 0)) with 1%Z. change (zncart1 (Z.of_nat 0)) with 0%Z.
  match goal with |- obind ?a _ = obind ?b _ => assert (H : a = b); [|rewrite H; reflexivity] end.
  samerd. samerd. rewrite vfma_swap, gt1_le, (mulC (va_h C)).
  destruct (w_x w CK <=? 1)%Z; cbn [negb own_add obind]; destruct (w_x w CI =? 0)%Z; cbn [negb oth_add obind].
  - reflexivity.
  - samerd. reflexivity.
  - samerd. samerd.  reflexivity.
  - samerd. samerd.  samerd. reflexivity.
Qed.

(** Whenever the dispatch takes the fast path, the general path would make the same writes (and
    access the same things). *)
Theorem fast_path_eq c i j k l N (C : @varg R) t1 t2 t3 t4 t5 out :
  dispatch j l t3 t5 = true -> c = CI \/ c = CK ->
  gen_vrr c i j k l N C t1 t2 t3 t4 t5 out = (ws <- path c i j k l N C t1 t2 t3 t4 t5 ;; perform ws out).
Proof.
  intros Hd Hc. unfold gen_vrr. rewrite Hd. unfold dispatch in Hd.
  apply andb_prop in Hd as [Hd H4]. apply andb_prop in Hd as [Hd H3]. apply andb_prop in Hd as [H1 H2].
  apply Nat.eqb_eq in H1, H2. subst j l. destruct t3; [discriminate|]. destruct t5; [discriminate|].
  destruct Hc; subst c; [rewrite fast_I_eq|rewrite fast_K_eq]; reflexivity.
Qed.

Lemma gen_vrr_path c i j k l N (C : @varg R) t1 t2 t3 t4 t5 out :
  gen_vrr c i j k l N C t1 t2 t3 t4 t5 out = (ws <- path c i j k l N C t1 t2 t3 t4 t5 ;; perform ws out).
Proof.
  destruct (dispatch j l t3 t5) eqn:E.
  - destruct c; first [reflexivity | apply fast_path_eq; auto].
  - unfold gen_vrr. rewrite E. destruct c; reflexivity.
Qed.

(** The routine on arrays some entries of which may be indeterminate. *)
Theorem gen_vrr_o (K : @vcoef R) W c i j k l N t1 t2 t3 t4 t5 out :
  aget c (QAM i j k l) <> 0 -> i <= 18 -> j <= 18 -> k <= 18 -> l <= 18 ->
  thetas_o W c (QAM i j k l) (S N) [t1; t2; t3; t4; t5] -> N * qncart (QAM i j k l) <= length out ->
  exists out', gen_vrr c i j k l N (args_of K c) t1 t2 t3 t4 t5 out = Some out' /\
    length out' = length out /\ holds_o (ovrec K W c) (QAM i j k l) N out' /\
    forall x, N * qncart (QAM i j k l) <= x -> nth_error out' x = nth_error out x.
Proof.
  intros Hc Hi Hj Hk Hl Ht Ho. rewrite gen_vrr_path.
  destruct (@path_ok K W c i j k l N t1 t2 t3 t4 t5 Hc Hi Hj Hk Hl Ht) as [ws [E Hw]].
  rewrite E. cbn [obind]. exact (@writes_perform _ _ N ws out Hw Ho).
Qed.

Lemma ovrec_family (K : @vcoef R) V c n q : os_family K V -> gam (cget c q) <> 0 ->
  ovrec K (fun n q => Some (V n q)) c n q = Some (V n q).
Proof.
  intros HV Hg. destruct (vrr_step_some c q 0 Hg) as [s Hs]. apply vrr_step_raise in Hs as [e [q0 [-> [Hd _]]]].
  rewrite ovrec_raise by exact Hd. apply orec_known; auto.
Qed.

Theorem gen_vrr_ok (K : @vcoef R) V c i j k l N t1 t2 t3 t4 t5 out :
  os_family K V -> aget c (QAM i j k l) <> 0 -> i <= 18 -> j <= 18 -> k <= 18 -> l <= 18 ->
  thetas_hold V c (QAM i j k l) (S N) [t1; t2; t3; t4; t5] -> N * qncart (QAM i j k l) <= length out ->
  exists out', gen_vrr c i j k l N (args_of K c) t1 t2 t3 t4 t5 out = Some out' /\
    length out' = length out /\ holds_m V (QAM i j k l) N out' /\
    forall x, N * qncart (QAM i j k l) <= x -> nth_error out' x = nth_error out x.
Proof.
  intros HV Hc Hi Hj Hk Hl Ht Ho.
  destruct (@gen_vrr_o K (fun n q => Some (V n q)) c i j k l N t1 t2 t3 t4 t5 out Hc Hi Hj Hk Hl Ht Ho)
    as [out' [E [L [H U]]]].
  exists out'. split; [exact E|]. split; [exact L|]. split; [|exact U].
  intros n q Hn Hq. rewrite (H n q Hn Hq). f_equal. apply ovrec_family; [exact HV|].
  rewrite <- aget_class, Hq. exact Hc.
Qed.

(** ** [vrr1] *)
Definition single (c : ctr) (n : nat) : qam :=
  match c with CI => QAM n 0 0 0 | CJ => QAM 0 n 0 0 | CK => QAM 0 0 n 0 | CL => QAM 0 0 0 n end.
Definition z4 : qrt := Q4 (G 0 0 0) (G 0 0 0) (G 0 0 0) (G 0 0 0).
Definition qsingle (c : ctr) (g : gauss) : qrt := cset c g z4.

Lemma gam0 g : gam g = 0 -> g = G 0 0 0.
Proof. destruct g as [x y z]; unfold gam; simpl. intros; f_equal; lia. Qed.
Lemma qsingle_class c g : qclass (qsingle c g) = single c (gam g).
Proof. destruct c; reflexivity. Qed.
Lemma qsingle_all c n q : qclass q = single c n -> exists g, q = qsingle c g /\ gam g = n.
Proof.
  destruct q as [a b cc d]. intros H. exists (cget c (Q4 a b cc d)).
  destruct c; injection H as H1 H2 H3 H4; simpl in *;
    repeat match goal with E : gam ?g = 0 |- _ => apply gam0 in E; try subst g end; auto.
Qed.
Lemma qsingle_index c g : qindex psi4 (qsingle c g) = pos g.
Proof.
  rewrite qindex_row_major. unfold qsingle, z4.
  assert (pos (G 0 0 0) = 0) as Z by (vm_compute; reflexivity).
  destruct c; cbn [cset qa qb qc qd opos psi4]; rewrite ?Z; change (ncart (gam (G 0 0 0))) with 1; lia.
Qed.
Lemma single_ncart c n : qncart (single c n) = ncart n.
Proof. destruct c; unfold qncart, single; cbn [am0 am1 am2 am3]; change (ncart 0) with 1; lia. Qed.

Lemma orec_single (K : @vcoef R) W c e g n :
  orec K W c e n (qsingle c g) =
  oown K W (cside c) n c e (qsingle c g)
    (vfma (k_PA K c e) (W n (qsingle c g)) (vmul (k_aPQ K (cside c) e) (W (S n) (qsingle c g)))).
Proof.
  unfold orec, oown, ooth, clower.
  destruct c; cbn [cside lefts rights other cget qsingle cset z4 qa qb qc qd];
    rewrite ?(proj2 (down_none e (G 0 0 0))) by (destruct e; reflexivity); reflexivity.
Qed.

Theorem vrr1_o (K : @vcoef R) V c i N b1 t2 out :
  1 <= i <= 18 -> holds_o V (single c (i - 1)) (S N) b1 ->
  (2 <= i -> exists b2, t2 = Some b2 /\ holds_o V (single c (i - 2)) (S N) b2) ->
  N * ncart i <= length out ->
  exists out', vrr1 i N (k_h K (cside c)) (k_a K (cside c)) (k_aPQ K (cside c)) (k_PA K c) (Some b1) t2 out = Some out' /\
    length out' = length out /\ holds_o (ovrec K V c) (single c i) N out' /\
    forall x, N * ncart i <= x -> nth_error out' x = nth_error out x.
Proof.
  intros Hi H1 H2 Ho. rewrite <- (single_ncart c) in *.
  set (F := fun ii => ri <- recur_lookup i ii ;;
    (let d := r_dir ri in
    pa <- at3 (k_PA K c) d ;; apq <- at3 (k_aPQ K (cside c)) d ;; x <- r_ijk ri d ;; m1 <- r_idx ri d 0 ;; m2 <- r_idx ri d 1 ;;
    mapM (fun n => let z := Z.of_nat n in
      let idx1 := (z * zncart1 (Z.of_nat i) + m1)%Z in
      v1 <- rdp (Some b1) idx1 ;; v2 <- rdp (Some b1) (idx1 + zncart1 (Z.of_nat i))%Z ;;
      let o := vfma pa v1 (vmul apq v2) in
      o <- own_add (1 <? x)%Z t2 (z * zncart2 (Z.of_nat i) + m2)%Z ((z + 1) * zncart2 (Z.of_nat i) + m2)%Z (dset (x - 1)) (k_h K (cside c)) (k_a K (cside c)) o ;;
      Some ((z * zncart (Z.of_nat i) + Z.of_nat ii)%Z, o)) (seq 0 N))).
  assert (HF : forall g, gam g = i ->
    F (pos g) = Some (map (fun n => (Z.of_nat (n * qncart (single c i) + qindex psi4 (qsingle c g)), ovrec K V c n (qsingle c g))) (seq 0 N))).
  { intros g Hg. destruct (@recur_lookup_ok g) as [ri [Lr Or]]; [lia|]. rewrite Hg in Lr.
    unfold F. rewrite Lr. cbn [obind]. cbv zeta.
    destruct (mdir_pick _ _ Or) as [e [g0 [He [Hd [Hdn Hg0]]]]]; [lia|].
    rewrite Hd, !at3_dir. cbn [obind]. rewrite (row_ijk _ _ e Or). cbn [obind].
    destruct (row_idx _ _ e Or) as [I0 [I1 _]]. rewrite I0. cbn [obind]. rewrite I1. cbn [obind].
    apply mapM_spec. intros n Hn. apply in_seq in Hn.
    unfold down2. rewrite Hdn. apply down_some in Hdn. subst g. cbn [nbr].
    assert (Ei : i = S (gam g0)) by lia. clear Hg0 Hg. subst i. replace (S (gam g0) - 1) with (gam g0) in H1 by lia.
    rewrite zncart1_nat.
    rewrite (@rdp_holds V _ (S N) (Some b1) b1 n (qsingle c g0) _ eq_refl H1);
      [|lia|apply qsingle_class|rewrite single_ncart, qsingle_index; lia].
    cbn [obind].
    rewrite (@rdp_holds V _ (S N) (Some b1) b1 (S n) (qsingle c g0) _ eq_refl H1);
      [|lia|apply qsingle_class|rewrite single_ncart, qsingle_index; lia].
    cbn [obind]. rewrite gexp_up_same, gt1_S, dset_pred.
    rewrite (@own_term K V (cside c) n c e (qsingle c g0)).
    - cbn [obind]. rewrite zncart_nat.
      assert (Er : craise c e (qsingle c g0) = qsingle c (up e g0)) by (destruct c; reflexivity).
      rewrite <- Er, ovrec_raise, orec_single
        by (rewrite Er; unfold qsingle; rewrite cget_cset; apply is_mdir_mdir; exact He).
      match goal with |- Some (?a, _) = Some (?c, _) =>
        replace a with c by (rewrite Er, single_ncart, qsingle_index; lia) end.
      reflexivity.
    - unfold clower. assert (cget c (qsingle c g0) = g0) as -> by (apply cget_cset).
      intros q' E. destruct (down e g0) as [g1|] eqn:D; [|discriminate]. apply down_some in D. subst g0.
      assert (q' = qsingle c g1) as ->. { injection E as <-. unfold qsingle. apply cset_cset. }
      rewrite gexp_up_same. cbn [nbr Nat.eqb negb]. split; [reflexivity|]. split; [reflexivity|].
      rewrite gam_up in *. destruct H2 as [b2 [-> H2]]; [lia|].
      replace (S (S (gam g1)) - 2) with (gam g1) in H2 by lia. rewrite zncart2_nat.
      split; apply (@rdp_holds V _ (S N) (Some b2) b2 _ (qsingle c g1) _ eq_refl H2);
        try lia; try apply qsingle_class; rewrite single_ncart, qsingle_index; lia.
    - intros E. apply clower_none in E. unfold qsingle in E. rewrite cget_cset in E. rewrite E. reflexivity. }
  destruct (@concatM_total _ _ F (seq 0 (ncart i))) as [ws E].
  { intros x Hx. apply in_seq in Hx. destruct (@pos_at_class i x) as [g [Hg <-]]; [lia|]. rewrite HF by exact Hg. eauto. }
  unfold vrr1. cbv zeta. change (concatM _ (seq 0 (ncart i))) with (concatM F (seq 0 (ncart i))).
  rewrite E. cbn [obind]. apply writes_perform; [|exact Ho].
  intros z v. rewrite (concatM_in _ _ E). split.
  - intros [x [ys [A1 [A2 A3]]]]. apply in_seq in A1. destruct (@pos_at_class i x) as [g [Hg <-]]; [lia|].
    rewrite HF in A2 by exact Hg. injection A2 as <-. apply in_map_iff in A3 as [n [A4 A5]]. injection A4 as <- <-.
    apply in_seq in A5. exists n, (qsingle c g). split; [lia|]. split; [rewrite qsingle_class; congruence|auto].
  - intros [n [q [Hn [Hq [-> ->]]]]]. destruct (@qsingle_all _ _ _ Hq) as [g [-> Hg]].
    eexists _, _. split; [apply in_seq; split; [apply Nat.le_0_l|rewrite <- Hg; apply pos_lt]|].
    split; [apply HF, Hg|]. apply in_map_iff. exists n. split; [reflexivity|]. apply in_seq. lia.
Qed.

Theorem vrr1_ok (K : @vcoef R) V c i N b1 t2 out :
  os_family K V -> 1 <= i <= 18 -> holds_m V (single c (i - 1)) (S N) b1 ->
  (2 <= i -> exists b2, t2 = Some b2 /\ holds_m V (single c (i - 2)) (S N) b2) ->
  N * ncart i <= length out ->
  exists out', vrr1 i N (k_h K (cside c)) (k_a K (cside c)) (k_aPQ K (cside c)) (k_PA K c) (Some b1) t2 out = Some out' /\
    length out' = length out /\ holds_m V (single c i) N out' /\
    forall x, N * ncart i <= x -> nth_error out' x = nth_error out x.
Proof.
  intros HV Hi H1 H2 Ho.
  destruct (@vrr1_o K (fun n q => Some (V n q)) c i N b1 t2 out Hi H1 H2 Ho) as [out' [E [L [H U]]]].
  exists out'. split; [exact E|]. split; [exact L|]. split; [|exact U].
  intros n q Hn Hq. rewrite (H n q Hn Hq). f_equal. apply ovrec_family; [exact HV|].
  rewrite <- aget_class, Hq. destruct c; simpl; lia.
Qed.
End Spec.
