(** Nuclear attraction integrals: contraction, sum over centres, exchange. *)
From Coq Require Import List Arith Lia Bool ZArith Ring.
Import ListNotations.
From Verif Require Import Base Cart Mdir RecurData Recur PairData Deriv OneE OneEProof OneEInt Potential PotentialProof PotentialSpec.
Set Implicit Arguments.

Section PotInt.
Context {R : cring}.
Add Ring RRpi : (cth R).
Local Open Scope r_scope.
Local Notation val := (option R).
Variables (invf expf : R -> R) (half PI : R) (boys : nat -> R -> nat -> R).

(** The integrals of a pair of primitives and one centre, for total angular momentum up to [M]. *)
Definition prim_attractions (M : nat) (al1 : R) (x1 : nat -> R) (al2 : R) (x2 C : nat -> R)
  (T : nat -> gauss -> gauss -> R) : Prop :=
  attractions (by_dir (t_PA invf al1 x1 al2 x2)) (by_dir (t_PB invf al1 x1 al2 x2))
    (by_dir (p_PC (t_P invf al1 x1 al2 x2) C)) (t_oo2p invf half al1 al2) M
    (p_start invf expf PI boys M al1 x1 al2 x2 C) T.

Lemma prim_pot_ok am1 am2 al1 x1 al2 x2 C T W0 : am1 <= 18 -> am2 <= 18 -> shaped am1 am2 W0 ->
  prim_attractions (am1 + am2) al1 x1 al2 x2 C T ->
  exists W', prim_pot invf expf half PI boys am1 am2 al1 x1 al2 x2 C W0 = Some W' /\ shaped am1 am2 W' /\
    forall a b, gam a = am1 -> gam b = am2 ->
      nth_error (W' am1 am2) (pos a * ncart am2 + pos b) = Some (Some (T 0%nat a b)).
Proof.
  intros H1 H2 HS HT.
  destruct (@scratch_ok R am1 am2 _ _ _ _ _ T H1 H2 HT W0 HS) as [W1 [W' [E1 [E2 [S2 V]]]]].
  exists W'. unfold prim_pot. rewrite E1. split; [exact E2|]. split; [exact S2|exact V].
Qed.

Lemma sub_out_ok nc1 nc2 row z k1 k2 o0 V (U : nat -> nat -> R) o : nc1 * nc2 <= length o0 ->
  (forall n m, n < nc1 -> m < nc2 -> nth_error row (n * nc2 + m) = Some (Some (U n m))) ->
  block_is nc1 nc2 o0 V o ->
  exists o', sub_out (nc1 * nc2) row z k1 k2 o = Some o' /\
    block_is nc1 nc2 o0 (fun n m => V n m - U n m * z * k1 * k2) o'.
Proof.
  intros Ho0 HU HV. unfold sub_out.
  set (f := fun i (out : list val) => match nth_error row i with Some v => match nth_error out i with Some w =>
     if (i <? length out)%nat then Some (upd out i (vsub w (vscale k2 (vscale k1 (vscale z v))))) else None
     | None => None end | None => None end).
  destruct (@loopM_ok _ (fun k x => length x = length o0 /\
      (forall n m, n < nc1 -> m < nc2 -> n * nc2 + m < k -> rdv x (n * nc2 + m) = Some (V n m - U n m * z * k1 * k2)) /\
      (forall n m, n < nc1 -> m < nc2 -> k <= n * nc2 + m -> rdv x (n * nc2 + m) = Some (V n m)) /\
      forall p, nc1 * nc2 <= p -> nth_error x p = nth_error o0 p) f (nc1 * nc2) 0 o) as [o' [E [A [B [_ D]]]]].
  - destruct HV as [A [B C]]. split; [exact A|]. split; [intros; lia|]. split; [intros; apply B; assumption|exact C].
  - intros k x Hk [A [B [C D]]].
    assert (Hn2 : nc2 <> 0%nat) by (intros ->; lia).
    assert (Ek : (k = k / nc2 * nc2 + k mod nc2)%nat) by (rewrite Nat.mul_comm; apply Nat.div_mod; exact Hn2).
    assert (Hm : k mod nc2 < nc2) by (apply Nat.mod_upper_bound; exact Hn2).
    assert (Hn : k / nc2 < nc1) by (apply Nat.div_lt_upper_bound; [exact Hn2|lia]).
    set (n := (k / nc2)%nat) in *. set (m := (k mod nc2)%nat) in *.
    pose proof (HU n m Hn Hm) as Ur. pose proof (C n m Hn Hm ltac:(lia)) as Vx. rewrite <- Ek in Ur, Vx.
    unfold rdv in Vx. destruct (nth_error x k) as [w|] eqn:Ew; [|discriminate]. subst w.
    exists (upd x k (Some (V n m - U n m * z * k1 * k2))). unfold f. rewrite Ur, Ew.
    pose proof (nth_error_Some_lt _ _ Ew) as Lk. destruct (Nat.ltb_spec k (length x)); [|lia].
    split. { cbn [vscale vsub lift2]. do 3 f_equal. ring. }
    split; [rewrite upd_length; exact A|]. split; [|split].
    + intros n' m' Hn' Hm' Hlt. unfold rdv. destruct (Nat.eq_dec (n' * nc2 + m') k) as [E|N].
      * rewrite E, nth_error_upd_same by exact Lk. rewrite Ek in E. apply mixed_inj in E; [|exact Hm'|exact Hm].
        destruct E as [-> ->]. reflexivity.
      * rewrite nth_error_upd_other by congruence. apply (B n' m' Hn' Hm'). lia.
    + intros n' m' Hn' Hm' Hge. unfold rdv. rewrite nth_error_upd_other by lia. apply (C n' m' Hn' Hm'). lia.
    + intros p Hp. rewrite nth_error_upd_other by lia. apply D. exact Hp.
  - exists o'. split; [exact E|]. split; [exact A|]. split; [|exact D]. intros n m Hn Hm. apply B; [exact Hn|exact Hm|].
    apply (@mixed_lt 0 0 (Nat.le_0_l _) (Nat.le_0_l _)); assumption.
Qed.

(** [V] minus the sum of [f] over centres and pairs of primitives. *)
Definition centre_sum (nc n1 n2 : nat) (f : nat -> nat -> nat -> R) : R :=
  rsum (map (fun c => prim_sum n1 n2 (f c)) (seq 0 nc)).

Lemma potential_ok nc Zc X (A B : @oshell R) W0 out T :
  os_am A <= 18 -> os_am B <= 18 -> ncart (os_am A) * ncart (os_am B) <= length out -> shaped (os_am A) (os_am B) W0 ->
  (forall c i j, c < nc -> i < sh_n (os_sh A) -> j < sh_n (os_sh B) ->
     prim_attractions (os_am A + os_am B) (sh_alpha (os_sh A) i) (sh_pos (os_sh A)) (sh_alpha (os_sh B) j) (sh_pos (os_sh B))
       (X c) (T c i j)) ->
  exists out', compute_potential invf expf half PI boys nc Zc X A B W0 out = Some out' /\ length out' = length out /\
    (forall a b, gam a = os_am A -> gam b = os_am B -> rdv out' (pos a * ncart (os_am B) + pos b) =
       Some (- centre_sum nc (sh_n (os_sh A)) (sh_n (os_sh B)) (fun c i j =>
               T c i j 0%nat a b * Zc c * sh_coef (os_sh A) i * sh_coef (os_sh B) j))) /\
    (forall p, ncart (os_am A) * ncart (os_am B) <= p -> nth_error out' p = nth_error out p).
Proof.
  intros HA HB Hout HW HT. unfold compute_potential.
  destruct (zero_out_ok _ _ out Hout) as [o0 [-> Z0]].
  set (nc1 := ncart (os_am A)) in *. set (nc2 := ncart (os_am B)) in *.
  set (n1 := sh_n (os_sh A)) in *. set (n2 := sh_n (os_sh B)) in *.
  set (g := fun n m c i j => T c i j 0%nat (comp_at (os_am A) n) (comp_at (os_am B) m) * Zc c * sh_coef (os_sh A) i * sh_coef (os_sh B) j).
  set (f := fun c i j (st : wmem * list val) =>
         match prim_pot invf expf half PI boys (os_am A) (os_am B) (sh_alpha (os_sh A) i) (sh_pos (os_sh A))
                (sh_alpha (os_sh B) j) (sh_pos (os_sh B)) (X c) (fst st) with Some W =>
         match sub_out (nc1 * nc2) (W (os_am A) (os_am B)) (Zc c) (sh_coef (os_sh A) i) (sh_coef (os_sh B) j) (snd st) with
           Some o => Some (W, o) | None => None end | None => None end).
  destruct (@loopM_ok _ (fun k (st : wmem * list val) => shaped (os_am A) (os_am B) (fst st) /\
      block_is nc1 nc2 out (fun n m => - centre_sum k n1 n2 (g n m)) (snd st))
    (fun c => loopM (fun i => loopM (f c i) (seq 0 n2)) (seq 0 n1)) nc 0 (W0, o0)) as [st [E [_ [L [V O]]]]].
  - split; [exact HW|]. cbn [snd]. eapply block_ext; [|exact Z0]. intros. unfold centre_sum. cbn. ring.
  - intros c st Hc [Sh Bo].
    destruct (@loopM_ok _ (fun k (st : wmem * list val) => shaped (os_am A) (os_am B) (fst st) /\
        block_is nc1 nc2 out (fun n m => - centre_sum c n1 n2 (g n m) - prim_sum k n2 (g n m c)) (snd st))
      (fun i => loopM (f c i) (seq 0 n2)) n1 0 st) as [st1 [E1 [Sh1 Bo1]]].
    + split; [exact Sh|]. eapply block_ext; [|exact Bo]. intros; unfold prim_sum; cbn [seq map rsum]. ring.
    + intros i st2 Hi [Sh2 Bo2].
      destruct (@loopM_ok _ (fun k (st : wmem * list val) => shaped (os_am A) (os_am B) (fst st) /\
        block_is nc1 nc2 out (fun n m => - centre_sum c n1 n2 (g n m) - prim_sum i n2 (g n m c)
          - rsum (map (g n m c i) (seq 0 k))) (snd st)) (f c i) n2 0 st2) as [st3 [E3 [Sh3 Bo3]]].
      * split; [exact Sh2|]. eapply block_ext; [|exact Bo2]. intros; cbn [seq map rsum]. ring.
      * intros j [W x] Hj [ShW Bx]. cbn [fst snd] in *. unfold f. cbn [fst snd].
        destruct (@prim_pot_ok (os_am A) (os_am B) (sh_alpha (os_sh A) i) (sh_pos (os_sh A)) (sh_alpha (os_sh B) j)
          (sh_pos (os_sh B)) (X c) (T c i j) W HA HB ShW (HT c i j ltac:(lia) ltac:(lia) ltac:(lia))) as [W' [-> [ShW' VW]]].
        destruct (@sub_out_ok nc1 nc2 (W' (os_am A) (os_am B)) (Zc c) (sh_coef (os_sh A) i) (sh_coef (os_sh B) j) out
          (fun n m => - centre_sum c n1 n2 (g n m) - prim_sum i n2 (g n m c) - rsum (map (g n m c i) (seq 0 j)))
          (fun n m => T c i j 0%nat (comp_at (os_am A) n) (comp_at (os_am B) m)) x Hout) as [x' [-> Bx']]; [|exact Bx|].
        { intros n m Hn Hm. destruct (opos_surj psi4 (os_am A) Hn) as [a [Ga Pa]].
          destruct (opos_surj psi4 (os_am B) Hm) as [b [Gb Pb]]. cbn [opos psi4] in Pa, Pb.
          pose proof (VW a b Ga Gb) as Q. rewrite Pa, Pb in Q. unfold nc2. rewrite Q.
          rewrite <- Ga, <- Gb, <- Pa, <- Pb, !comp_at_pos. reflexivity. }
        exists (W', x'). split; [reflexivity|]. cbn [fst snd]. split; [exact ShW'|].
        eapply block_ext; [|exact Bx']. intros n m _ _. cbn beta. rewrite rsum_snoc. unfold g. ring.
      * exists st3. split; [exact E3|]. split; [exact Sh3|]. eapply block_ext; [|exact Bo3].
        intros n m _ _. unfold prim_sum. rewrite rsum_snoc. cbn [Nat.add]. ring.
    + exists st1. split; [exact E1|]. split; [exact Sh1|]. eapply block_ext; [|exact Bo1].
      intros n m _ _. unfold centre_sum. rewrite rsum_snoc. cbn [Nat.add]. ring.
  - unfold f in E. rewrite E. exists (snd st). split; [reflexivity|]. split; [exact L|]. split; [|exact O].
    intros a b Ga Gb. rewrite V; [|unfold nc1; rewrite <- Ga; apply pos_lt|unfold nc2; rewrite <- Gb; apply pos_lt].
    cbn [Nat.add]. unfold g. rewrite <- Ga, <- Gb, !comp_at_pos. reflexivity.
Qed.

(** A family for every pair. *)
Definition prim_pfam (M : nat) (al1 : R) (x1 : nat -> R) (al2 : R) (x2 C : nat -> R) : nat -> gauss -> gauss -> R :=
  pot_family (by_dir (t_PA invf al1 x1 al2 x2)) (by_dir (t_PB invf al1 x1 al2 x2))
    (by_dir (p_PC (t_P invf al1 x1 al2 x2) C)) (t_oo2p invf half al1 al2) (p_start invf expf PI boys M al1 x1 al2 x2 C).
Lemma prim_pfam_ok M al1 x1 al2 x2 C : prim_attractions M al1 x1 al2 x2 C (prim_pfam M al1 x1 al2 x2 C).
Proof. apply pot_family_ok. Qed.
Lemma prim_attractions_unique M al1 x1 al2 x2 C T T' : prim_attractions M al1 x1 al2 x2 C T ->
  prim_attractions M al1 x1 al2 x2 C T' -> forall N a b, N + gam a + gam b <= M -> T N a b = T' N a b.
Proof. intros H H' N a b. eapply attractions_unique; [exact H|exact H'|]. reflexivity. Qed.

Definition pair_pfam (A B : @oshell R) (X : nat -> nat -> R) (c i j : nat) : nat -> gauss -> gauss -> R :=
  prim_pfam (os_am A + os_am B) (sh_alpha (os_sh A) i) (sh_pos (os_sh A)) (sh_alpha (os_sh B) j) (sh_pos (os_sh B)) (X c).

(** What was in the scratch array does not matter, and the block is completely determined. *)
Lemma potential_scratch nc Zc X (A B : @oshell R) W0 W1 out :
  os_am A <= 18 -> os_am B <= 18 -> ncart (os_am A) * ncart (os_am B) <= length out ->
  shaped (os_am A) (os_am B) W0 -> shaped (os_am A) (os_am B) W1 ->
  exists out', compute_potential invf expf half PI boys nc Zc X A B W0 out = Some out' /\
    compute_potential invf expf half PI boys nc Zc X A B W1 out = Some out' /\
    forall p, p < ncart (os_am A) * ncart (os_am B) -> exists v, nth_error out' p = Some (Some v).
Proof.
  intros HA HB Hout S0 S1.
  destruct (@potential_ok nc Zc X A B W0 out (pair_pfam A B X) HA HB Hout S0) as [o1 [E1 [L1 [V1 O1]]]].
  { intros c i j _ _ _. apply prim_pfam_ok. }
  destruct (@potential_ok nc Zc X A B W1 out (pair_pfam A B X) HA HB Hout S1) as [o2 [E2 [L2 [V2 O2]]]].
  { intros c i j _ _ _. apply prim_pfam_ok. }
  set (nc1 := ncart (os_am A)) in *. set (nc2 := ncart (os_am B)) in *.
  assert (Q : forall p, p < nc1 * nc2 -> exists v, nth_error o1 p = Some (Some v) /\ nth_error o2 p = Some (Some v)).
  { intros p Hp.
    assert (Hn2 : nc2 <> 0%nat) by (intros ->; lia).
    assert (Ek : (p = p / nc2 * nc2 + p mod nc2)%nat) by (rewrite Nat.mul_comm; apply Nat.div_mod; exact Hn2).
    assert (Hm : p mod nc2 < nc2) by (apply Nat.mod_upper_bound; exact Hn2).
    assert (Hn : p / nc2 < nc1) by (apply Nat.div_lt_upper_bound; [exact Hn2|lia]).
    destruct (opos_surj psi4 (os_am A) Hn) as [a [Ga Pa]].
    destruct (opos_surj psi4 (os_am B) Hm) as [b [Gb Pb]]. cbn [opos psi4] in Pa, Pb.
    pose proof (V1 a b Ga Gb) as Q1. pose proof (V2 a b Ga Gb) as Q2.
    rewrite Pa, Pb, <- Ek in Q1, Q2. unfold rdv in Q1, Q2. eexists.
    destruct (nth_error o1 p) as [w|]; [|discriminate]. destruct (nth_error o2 p) as [w'|]; [|discriminate].
    subst. split; reflexivity. }
  exists o1. split; [exact E1|]. split.
  - rewrite E2. f_equal. apply nth_error_ext. intros p. destruct (Nat.lt_ge_cases p (nc1 * nc2)) as [Hp|Hp].
    + destruct (Q p Hp) as [v [-> ->]]. reflexivity.
    + rewrite O1, O2 by exact Hp. reflexivity.
  - intros p Hp. destruct (Q p Hp) as [v [-> _]]. eauto.
Qed.

(** ** Exchange of the two shells *)
Lemma p_start_comm M al1 x1 al2 x2 C n :
  p_start invf expf PI boys M al2 x2 al1 x1 C n = p_start invf expf PI boys M al1 x1 al2 x2 C n.
Proof.
  unfold p_start. rewrite (oop_comm invf).
  replace (p_PC2 (t_P invf al2 x2 al1 x1) C) with (p_PC2 (t_P invf al1 x1 al2 x2) C)
    by (unfold p_PC2, p_PC; rewrite !(P_comm invf al1 x1 al2 x2); reflexivity).
  replace (t_mu invf al2 al1) with (t_mu invf al1 al2) by (unfold t_mu; rewrite (oop_comm invf); ring).
  replace (p_AB2 x2 x1) with (p_AB2 x1 x2) by (unfold p_AB2, t_AB2; ring).
  replace (al2 + al1) with (al1 + al2) by ring. reflexivity.
Qed.
Lemma attractions_ext (pa pa' pb pb' pc pc' : dir -> R) h M s s' (T : nat -> gauss -> gauss -> R) :
  (forall d, pa d = pa' d) -> (forall d, pb d = pb' d) -> (forall d, pc d = pc' d) -> (forall n, s n = s' n) ->
  attractions pa pb pc h M s T -> attractions pa' pb' pc' h M s' T.
Proof.
  intros Ea Eb Ec Es [TL [TR T0]]. split; [|split].
  - intros N d a b. rewrite TL, Ea, Ec. reflexivity.
  - intros N d a b. rewrite TR, Eb, Ec. reflexivity.
  - intros N H. rewrite T0 by exact H. apply Es.
Qed.
Lemma prim_attractions_swap M al1 x1 al2 x2 C T : prim_attractions M al1 x1 al2 x2 C T ->
  prim_attractions M al2 x2 al1 x1 C (fun N a b => T N b a).
Proof.
  intros H. apply attractions_swap in H. unfold prim_attractions. unfold t_oo2p in *. rewrite (oop_comm invf).
  eapply attractions_ext; [| | | |exact H].
  - intros d. unfold by_dir, t_PA, t_PB. rewrite P_comm. reflexivity.
  - intros d. unfold by_dir, t_PA, t_PB. rewrite P_comm. reflexivity.
  - intros d. unfold by_dir, p_PC. rewrite P_comm. reflexivity.
  - intros n. symmetry. apply p_start_comm.
Qed.
Lemma potential_exchange nc Zc X (A B : @oshell R) W1 W2 o1 o2 : os_am A <= 18 -> os_am B <= 18 ->
  ncart (os_am A) * ncart (os_am B) <= length o1 -> ncart (os_am A) * ncart (os_am B) <= length o2 ->
  shaped (os_am A) (os_am B) W1 -> shaped (os_am B) (os_am A) W2 ->
  exists r1 r2, compute_potential invf expf half PI boys nc Zc X A B W1 o1 = Some r1 /\
    compute_potential invf expf half PI boys nc Zc X B A W2 o2 = Some r2 /\
    forall a b, gam a = os_am A -> gam b = os_am B ->
      exists v, rdv r1 (pos a * ncart (os_am B) + pos b) = Some v /\ rdv r2 (pos b * ncart (os_am A) + pos a) = Some v.
Proof.
  intros HA HB H1 H2 S1 S2.
  destruct (@potential_ok nc Zc X A B W1 o1 (pair_pfam A B X) HA HB H1 S1) as [r1 [E1 [_ [V1 _]]]].
  { intros c i j _ _ _. apply prim_pfam_ok. }
  destruct (@potential_ok nc Zc X B A W2 o2 (fun c j i N a b => pair_pfam A B X c i j N b a) HB HA ltac:(lia) S2)
    as [r2 [E2 [_ [V2 _]]]].
  { intros c j i _ _ _. apply prim_attractions_swap. rewrite Nat.add_comm. apply prim_pfam_ok. }
  exists r1, r2. split; [exact E1|]. split; [exact E2|]. intros a b Ga Gb.
  eexists. split; [apply V1; assumption|]. rewrite V2 by assumption. do 2 f_equal.
  unfold centre_sum. apply rsum_map_ext. intros c _.
  rewrite prim_sum_swap. apply prim_sum_ext. intros i j _ _. ring.
Qed.
End PotInt.
