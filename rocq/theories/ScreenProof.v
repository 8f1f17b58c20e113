(** Proofs about screening values and the error of screening, see [Screen]. *)
From Coq Require Import List Arith ZArith Lia Bool Ring QArith Permutation.
Import ListNotations.
From Verif Require Import Base Simd Cart Mdir Contract Offsets Starts Kernel HRRStep HRRAlgo HRROrder GenHRR HRRExec
  VRRStep VRRAlgo VRROrder VRRExec VRRExecSpec KernelSpec Layout Create PairData Recur Deriv DerivSpec OSFamily Work OrdRing EndToEnd EndToEndProof Screen.
Set Implicit Arguments.
Local Open Scope nat_scope.

Section Max.
Context {R : cring}.
Variable O : ordered R.
Lemma max_over_ok (ints : list R) : forall l m, (forall n, In n l -> exists x, nth_error ints n = Some x) ->
  exists M, max_over O ints l m = Some M /\ le O m M /\ (forall n x, In n l -> nth_error ints n = Some x -> le O (vabs O x) M) /\
    (M = m \/ exists n x, In n l /\ nth_error ints n = Some x /\ vabs O x = M).
Proof.
  induction l as [|n l IH]; intros m H.
  - exists m. split; [reflexivity|]. split; [apply le_refl|]. split; [intros n x []|left; reflexivity].
  - destruct (H n (or_introl eq_refl)) as [x Ex]. cbn [max_over]. rewrite Ex.
    destruct (IH (vmax O m (vabs O x))) as (M & E & L & U & W); [intros k Hk; apply H; right; exact Hk|].
    exists M. split; [exact E|]. split; [apply le_trans with (vmax O m (vabs O x)); [apply max_l|exact L]|]. split.
    + intros k y [<-|Hk] Ey; [|apply (U k y Hk Ey)]. assert (x = y) by congruence. subst y.
      apply le_trans with (vmax O m (vabs O x)); [apply max_r|exact L].
    + destruct W as [W|(k & y & Hk & Ey & W)].
      * destruct (max_case O m (vabs O x)) as [Em|Em]; rewrite Em in W; [left; exact W|].
        right. exists n, x. split; [left; reflexivity|]. split; [exact Ex|congruence].
      * right. exists k, y. split; [right; exact Hk|]. split; assumption.
Qed.
End Max.

Lemma diag_in o la lb n : In n (diag_positions (ncart la) (ncart lb)) <->
  exists x, comp_of la lb x /\ n = qindex o (Q4 (fst x) (snd x) (fst x) (snd x)).
Proof.
  unfold diag_positions. rewrite in_flat_map. split.
  - intros [m [Hm H]]. apply in_map_iff in H as [k [<- Hk]]. apply in_seq in Hm, Hk.
    destruct (@opos_surj o la m ltac:(lia)) as [a [Ea Pa]]. destruct (@opos_surj o lb k ltac:(lia)) as [b [Eb Pb]].
    exists (a, b). split; [split; assumption|]. rewrite qindex_row_major. cbn [qa qb qc qd fst snd]. rewrite Ea, Eb, Pa, Pb. nia.
  - intros [[a b] [[Ea Eb] ->]]. cbn [fst snd] in *. exists (opos o a). split.
    + apply in_seq. pose proof (opos_lt o a). rewrite Ea in H. lia.
    + apply in_map_iff. exists (opos o b). split.
      * rewrite qindex_row_major. cbn [qa qb qc qd]. rewrite Ea, Eb. nia.
      * apply in_seq. pose proof (opos_lt o b). rewrite Eb in H. lia.
Qed.

Section Values.
Context {R : cring}.
Add Ring Rring_scr : (cth R).
Variable O : ordered R.
Variables (inv expf sqrtf : R -> R) (boys : nat -> R -> R) (half sqrt2pi52 : R).
Local Open Scope r_scope.
Local Notation ERI := (eri inv expf sqrtf boys half sqrt2pi52).
Local Notation PERI := (prim_eri inv expf sqrtf boys half sqrt2pi52).
Local Notation DIAG := (diagonal inv expf sqrtf boys half sqrt2pi52).
Local Notation COMP := (computes inv expf sqrtf boys half sqrt2pi52).

Lemma uncontract_eri (A B C D : @shell R) i j k l q :
  ERI (uncontract A i) (uncontract B j) (uncontract C k) (uncontract D l) q =
  sh_coef A i * sh_coef B j * sh_coef C k * sh_coef D l * PERI (prim A i) (prim B j) (prim C k) (prim D l) q.
Proof. unfold eri, over. cbn [uncontract sh_n sh_coef seq map]. unfold rsum. cbn [fold_right]. unfold prim. cbn [uncontract sh_alpha sh_pos]. ring. Qed.

Variables (o : ordering) (la lb : nat) (compute : @shell R -> @shell R -> option (list R)).
Lemma diag_max_ok A B i j : COMP o la lb compute (uncontract A i) (uncontract B j) ->
  exists ints M, compute (uncontract A i) (uncontract B j) = Some ints /\ max_over O ints (diag_positions (ncart la) (ncart lb)) c0 = Some M /\
    is_max O (comp_of la lb) (fun x => vabs O (DIAG A B i j x)) M.
Proof.
  intros (ints & E & V).
  assert (V' : forall x, comp_of la lb x -> nth_error ints (qindex o (Q4 (fst x) (snd x) (fst x) (snd x))) = Some (DIAG A B i j x)).
  { intros x [Ha Hb]. rewrite (V (Q4 (fst x) (snd x) (fst x) (snd x))); [rewrite uncontract_eri; reflexivity|]. unfold qclass. cbn. congruence. }
  destruct (@max_over_ok R O ints (diag_positions (ncart la) (ncart lb)) c0) as (M & EM & L & U & W).
  { intros n Hn. apply (diag_in o) in Hn as [x [Hx ->]]. exists (DIAG A B i j x). apply V', Hx. }
  exists ints, M. split; [exact E|]. split; [exact EM|]. split.
  - intros x Hx. apply (U (qindex o (Q4 (fst x) (snd x) (fst x) (snd x)))); [|apply V', Hx]. apply (diag_in o). exists x. split; [exact Hx|reflexivity].
  - destruct W as [W|(n & y & Hn & Ey & W)]; [left; exact W|]. right. apply (diag_in o) in Hn as [x [Hx ->]]. exists x. split; [exact Hx|].
    rewrite (V' x Hx) in Ey. congruence.
Qed.

Theorem primscreen_ok same A B :
  (forall i j, In (i, j) (sp_prims (SP (sh_n A) (sh_n B) same)) -> COMP o la lb compute (uncontract A i) (uncontract B j)) ->
  exists l tm, primscreen_schwarz O compute (ncart la) (ncart lb) same A B = Some (l, tm) /\
    length l = length (sp_prims (SP (sh_n A) (sh_n B) same)) /\
    (forall k i j, nth_error (sp_prims (SP (sh_n A) (sh_n B) same)) k = Some (i, j) ->
       exists M, nth_error l k = Some M /\ is_max O (comp_of la lb) (fun x => vabs O (DIAG A B i j x)) M) /\
    is_max O (fun M => In M l) (fun M => M) tm.
Proof.
  unfold primscreen_schwarz. set (f := fun acc ij => _). set (P := sp_prims _).
  assert (G : forall Q Q0 l0 t0, (forall i j, In (i, j) Q -> COMP o la lb compute (uncontract A i) (uncontract B j)) ->
     length l0 = length Q0 ->
     (forall k i j, nth_error Q0 k = Some (i, j) -> exists M, nth_error l0 k = Some M /\ is_max O (comp_of la lb) (fun x => vabs O (DIAG A B i j x)) M) ->
     is_max O (fun M => In M l0) (fun M => M) t0 ->
     exists l tm, fold_left f Q (Some (l0, t0)) = Some (l, tm) /\ length l = length (Q0 ++ Q) /\
      (forall k i j, nth_error (Q0 ++ Q) k = Some (i, j) -> exists M, nth_error l k = Some M /\ is_max O (comp_of la lb) (fun x => vabs O (DIAG A B i j x)) M) /\
      is_max O (fun M => In M l) (fun M => M) tm).
  { induction Q as [|[i j] Q IH]; intros Q0 l0 t0 H L V T.
    - exists l0, t0. rewrite app_nil_r. auto.
    - destruct (@diag_max_ok A B i j (H i j (or_introl eq_refl))) as (ints & M & E1 & E2 & HM).
      cbn [fold_left]. unfold f at 2. cbn [fst snd]. rewrite E1, E2.
      assert (L' : length (l0 ++ [M]) = length (Q0 ++ [(i, j)])) by (rewrite !app_length, L; reflexivity).
      replace (Q0 ++ (i, j) :: Q)%list with ((Q0 ++ [(i, j)]) ++ Q)%list by (rewrite <- app_assoc; reflexivity).
      apply IH; [intros i' j' H'; apply H; right; exact H'|exact L'| |].
      + intros k i' j' Hk. destruct (Nat.lt_ge_cases k (length Q0)) as [Hlt|Hge].
        * rewrite nth_error_app1 in Hk by exact Hlt. rewrite nth_error_app1 by (rewrite L; exact Hlt). apply (V k i' j' Hk).
        * rewrite nth_error_app2 in Hk by exact Hge. rewrite nth_error_app2 by (rewrite L; exact Hge). rewrite L.
          destruct (k - length Q0)%nat as [|u] eqn:Eu; [|destruct u; discriminate Hk]. cbn [nth_error] in *.
          exists M. split; [reflexivity|]. assert (i' = i /\ j' = j) as [-> ->] by (split; congruence). exact HM.
      + destruct T as [T1 T2]. split.
        * intros x Hx. apply in_app_iff in Hx as [Hx|[<-|[]]].
          -- specialize (T1 x Hx). destruct (leb O M t0) eqn:E; [exact T1|]. apply le_trans with t0; [exact T1|apply lt_le; exact E].
          -- destruct (leb O M t0) eqn:E; [exact E|apply le_refl].
        * destruct (leb O M t0).
          -- destruct T2 as [T2|[x [Hx T2]]]; [left; exact T2|right; exists x; split; [apply in_app_iff; left; exact Hx|exact T2]].
          -- right. exists M. split; [apply in_app_iff; right; left; reflexivity|reflexivity]. }
  intros H. destruct (G P [] [] c0) as (l & tm & E & L & V & T); auto.
  - intros k i j Hk. destruct k; discriminate Hk.
  - split; [intros x []|left; reflexivity].
  - exists l, tm. auto.
Qed.
Theorem shellscreen_ok A B : COMP o la lb compute A B ->
  exists M, shellscreen_schwarz O compute (ncart la) (ncart lb) A B = Some M /\
    is_max O (fun q => qclass q = QAM la lb la lb) (fun q => vabs O (ERI A B A B q)) M.
Proof.
  intros (ints & E & V). unfold shellscreen_schwarz. rewrite E.
  assert (S : forall n, In n (seq 0 (ncart la * ncart lb * (ncart la * ncart lb))) <-> exists q, qclass q = QAM la lb la lb /\ n = qindex o q).
  { intros n. rewrite in_seq. split.
    - intros H. destruct (@qindex_surj o (QAM la lb la lb) n) as [q [Eq En]]; [unfold qncart; cbn [am0 am1 am2 am3]; nia|]. exists q. auto.
    - intros [q [Eq ->]]. pose proof (qindex_lt o q) as L. rewrite Eq in L. unfold qncart in L. cbn [am0 am1 am2 am3] in L. nia. }
  destruct (@max_over_ok R O ints (seq 0 (ncart la * ncart lb * (ncart la * ncart lb))) c0) as (M & EM & L & U & W).
  { intros n Hn. apply S in Hn as [q [Eq ->]]. exists (ERI A B A B q). apply V, Eq. }
  exists M. split; [exact EM|]. split.
  - intros q Eq. apply (U (qindex o q)); [apply S; exists q; auto|apply V, Eq].
  - destruct W as [W|(n & y & Hn & Ey & W)]; [left; exact W|]. right. apply S in Hn as [q [Eq ->]]. exists q. split; [exact Eq|].
    rewrite (V q Eq) in Ey. congruence.
Qed.
End Values.

(** ** The Schwarz inequality *)
Section Schwarz.
Context {R : cring}.
Add Ring Rring_scw : (cth R).
Variable O : ordered R.
Variables (inv expf sqrtf : R -> R) (boys : nat -> R -> R) (half sqrt2pi52 : R).
Local Open Scope r_scope.
Local Notation ERI := (eri inv expf sqrtf boys half sqrt2pi52).
Local Notation PERI := (prim_eri inv expf sqrtf boys half sqrt2pi52).
Local Notation DIAG := (diagonal inv expf sqrtf boys half sqrt2pi52).
Local Notation REP := (repulsion inv expf sqrtf boys half sqrt2pi52).

(** Bra and ket may be exchanged. *)
Theorem prim_eri_sym (a b c d : @EndToEnd.gauss R) q : PERI c d a b (xqrt XSides q) = PERI a b c d q.
Proof.
  unfold prim_eri. rewrite <- (os_exchange XSides). apply os_value_ext; unfold xcoef, eri_coefs; cbn [k_PA k_aPQ k_h k_a k_hpq]; cbv zeta.
  - intros x i. destruct x; reflexivity.
  - intros s i. unfold rho. replace (gp c d + gp a b) with (gp a b + gp c d) by ring. destruct s; cbn [xside other]; ring.
  - intros s. destruct s; reflexivity.
  - intros s. unfold rho. replace (gp c d + gp a b) with (gp a b + gp c d) by ring. destruct s; cbn [xside other]; ring.
  - replace (gp c d + gp a b) with (gp a b + gp c d) by ring. reflexivity.
  - intros n. unfold eri_start. replace (rho inv c d a b * dist2 (gcen inv c d) (gcen inv a b)) with (rho inv a b c d * dist2 (gcen inv a b) (gcen inv c d)).
    + replace (gp c d + gp a b) with (gp a b + gp c d) by ring. ring.
    + unfold rho, dist2. replace (gp c d + gp a b) with (gp a b + gp c d) by ring. ring.
Qed.
Lemma repulsion_sym d e : REP d e = REP e d.
Proof. unfold repulsion. symmetry. exact (prim_eri_sym (ch_a d) (ch_b d) (ch_a e) (ch_b e) (Q4 (ch_i d) (ch_j d) (ch_i e) (ch_j e))). Qed.

Definition form (l l' : list (R * @charge R)) : R := rsum (map (fun p => rsum (map (fun q => fst p * fst q * REP (snd p) (snd q)) l')) l).
Lemma form_sym l l' : form l l' = form l' l.
Proof.
  unfold form. rewrite rsum_swap. apply rsum_map_ext. intros p _. apply rsum_map_ext. intros q _. rewrite repulsion_sym. ring.
Qed.
Lemma form_app l1 l2 l : form (l1 ++ l2) l = form l1 l + form l2 l.
Proof. unfold form. rewrite map_app, rsum_app. reflexivity. Qed.
Definition scale (x : R) (l : list (R * @charge R)) := map (fun p => (x * fst p, snd p)) l.
Lemma form_scale x l l' : form (scale x l) l' = x * form l l'.
Proof.
  unfold form, scale. rewrite map_map, <- rsum_map_scale. apply rsum_map_ext. intros p _. cbn [fst snd]. rewrite <- rsum_map_scale.
  apply rsum_map_ext. intros q _. ring.
Qed.
Hypothesis Hpsd : repulsive O inv expf sqrtf boys half sqrt2pi52.
Definition phys (l : list (R * @charge R)) : Prop := forall p, In p l -> physical O (snd p).
Lemma form_pos l : phys l -> le O c0 (form l l).
Proof. apply Hpsd. Qed.
Lemma phys_scale x l : phys l -> phys (scale x l).
Proof. intros H p Hp. unfold scale in Hp. apply in_map_iff in Hp as [q [<- Hq]]. exact (H q Hq). Qed.
Theorem form_schwarz l l' : phys l -> phys l' -> le O (form l l' * form l l') (form l l * form l' l').
Proof.
  intros HL HL'. apply schwarz; [apply form_pos, HL|apply form_pos, HL'|]. intros x y.
  replace (x * x * form l l + (x * y + x * y) * form l l' + y * y * form l' l') with (form (scale x l ++ scale y l') (scale x l ++ scale y l')).
  { apply form_pos. intros p Hp. apply in_app_iff in Hp as [Hp|Hp]; [exact (@phys_scale x l HL p Hp)|exact (@phys_scale y l' HL' p Hp)]. }
  rewrite form_app, !form_scale, (form_sym l), (form_sym l'), !form_app, !form_scale, (form_sym l' l). ring.
Qed.

(** Shell pairs as combinations of charges. *)
Definition charges (A B : @shell R) (a b : Cart.gauss) : list (R * @charge R) :=
  flat_map (fun i => map (fun j => (sh_coef A i * sh_coef B j, Charge (prim A i) (prim B j) a b)) (seq 0 (sh_n B))) (seq 0 (sh_n A)).
Lemma charges_phys A B a b : positive O A -> positive O B -> phys (charges A B a b).
Proof.
  intros HA HB p Hp. unfold charges in Hp. apply in_flat_map in Hp as [i [Hi Hp]]. apply in_map_iff in Hp as [j [<- Hj]]. apply in_seq in Hi, Hj.
  split; cbn [snd ch_a ch_b prim g_exp]; [apply HA|apply HB]; lia.
Qed.
Lemma form_eri A B C D a b c d : form (charges A B a b) (charges C D c d) = ERI A B C D (Q4 a b c d).
Proof.
  unfold form, charges, eri, over. rewrite rsum_flat_map. apply rsum_map_ext. intros i _. rewrite map_map. apply rsum_map_ext. intros j _. cbn [fst snd].
  rewrite rsum_flat_map. apply rsum_map_ext. intros k _. rewrite map_map. apply rsum_map_ext. intros l _. cbn [fst snd].
  unfold repulsion. cbn [ch_a ch_b ch_i ch_j]. ring.
Qed.
Theorem eri_schwarz A B C D a b c d : positive O A -> positive O B -> positive O C -> positive O D ->
  le O (ERI A B C D (Q4 a b c d) * ERI A B C D (Q4 a b c d)) (ERI A B A B (Q4 a b a b) * ERI C D C D (Q4 c d c d)).
Proof. intros HA HB HC HD. rewrite <- !form_eri. apply form_schwarz; apply charges_phys; assumption. Qed.
Lemma diag_eri A B i j x : DIAG A B i j x = ERI (uncontract A i) (uncontract B j) (uncontract A i) (uncontract B j) (Q4 (fst x) (snd x) (fst x) (snd x)).
Proof. rewrite uncontract_eri. reflexivity. Qed.
Lemma uncontract_positive A i : lt O c0 (sh_alpha A i) -> positive O (uncontract A i).
Proof. intros H k _. exact H. Qed.
Lemma diag_pos A B i j x : lt O c0 (sh_alpha A i) -> lt O c0 (sh_alpha B j) -> le O c0 (DIAG A B i j x).
Proof. intros HA HB. rewrite diag_eri, <- form_eri. apply form_pos, charges_phys; apply uncontract_positive; assumption. Qed.
(** One term of a contracted integral. *)
Lemma term_schwarz A B C D i j k l q (t := sh_coef A i * sh_coef B j * sh_coef C k * sh_coef D l * PERI (prim A i) (prim B j) (prim C k) (prim D l) q) :
  lt O c0 (sh_alpha A i) -> lt O c0 (sh_alpha B j) -> lt O c0 (sh_alpha C k) -> lt O c0 (sh_alpha D l) ->
  le O (t * t) (DIAG A B i j (qa q, qb q) * DIAG C D k l (qc q, qd q)).
Proof. intros HA HB HC HD. subst t. rewrite <- uncontract_eri, !diag_eri. destruct q as [a b c d]. apply eri_schwarz; apply uncontract_positive; assumption. Qed.

(** The largest of all integrals of (ab|ab) is on the diagonal. *)
Theorem shell_value_diagonal la lb A B M : positive O A -> positive O B -> is_max O (fun q => qclass q = QAM la lb la lb) (fun q => vabs O (ERI A B A B q)) M ->
  is_max O (comp_of la lb) (fun x => vabs O (ERI A B A B (Q4 (fst x) (snd x) (fst x) (snd x)))) M.
Proof.
  intros HA HB [U W].
  assert (U' : forall x, comp_of la lb x -> le O (vabs O (ERI A B A B (Q4 (fst x) (snd x) (fst x) (snd x)))) M).
  { intros [a b] [Ha Hb]. cbn [fst snd] in *. apply (U (Q4 a b a b)). unfold qclass. cbn. congruence. }
  split; [exact U'|]. destruct W as [W|[[a b c d] [Eq W]]]; [left; exact W|]. unfold qclass in Eq. cbn in Eq.
  assert (HM : le O c0 M) by (rewrite <- W; apply abs_pos).
  assert (Pos : forall a b, le O c0 (ERI A B A B (Q4 a b a b))) by (intros a' b'; rewrite <- form_eri; apply form_pos, charges_phys; assumption).
  assert (Ha : gam a = la) by congruence. assert (Hb : gam b = lb) by congruence. assert (Hc : gam c = la) by congruence. assert (Hd : gam d = lb) by congruence.
  pose proof (U' (a, b) (conj Ha Hb)) as L1. pose proof (U' (c, d) (conj Hc Hd)) as L2. cbn [fst snd] in L1, L2. rewrite (abs_id (Pos a b)) in L1. rewrite (abs_id (Pos c d)) in L2.
  pose proof (@eri_schwarz A B A B a b c d HA HB HA HB) as Sch. rewrite <- abs_sq with (O := O), W in Sch.
  destruct (le_lt_dec O M (ERI A B A B (Q4 a b a b))) as [G|G].
  - right. exists (a, b). split; [split; assumption|]. cbn [fst snd]. rewrite (abs_id (Pos a b)). apply (o_antisym O); assumption.
  - destruct (le_lt_eq HM) as [E0|P0]; [left; symmetry; exact E0|]. exfalso.
    assert (K : le O (ERI A B A B (Q4 a b a b) * ERI A B A B (Q4 c d c d)) (ERI A B A B (Q4 a b a b) * M)).
    { apply mul_le; [apply Pos|apply le_refl|apply Pos|exact L2]. }
    pose proof (le_trans Sch K) as K'. apply (proj1 (lt_sub O _ _)) in G. pose proof (o_mul O _ _ G P0) as G'. apply (lt_not_le G').
    apply le_sub1 in K'. apply (proj1 (neg_le O _)) in K'.
    replace ((M - ERI A B A B (Q4 a b a b)) * M) with (- (ERI A B A B (Q4 a b a b) * M - M * M)) by ring. exact K'.
Qed.
(** Shell screening: no integral of the quartet exceeds the geometric mean of the two values. *)
Theorem shell_bound la lb lc ld A B C D M N q : positive O A -> positive O B -> positive O C -> positive O D ->
  is_max O (fun q => qclass q = QAM la lb la lb) (fun q => vabs O (ERI A B A B q)) M ->
  is_max O (fun q => qclass q = QAM lc ld lc ld) (fun q => vabs O (ERI C D C D q)) N ->
  qclass q = QAM la lb lc ld -> le O (ERI A B C D q * ERI A B C D q) (M * N).
Proof.
  intros HA HB HC HD [U _] [U' _] Eq. destruct q as [a b c d]. unfold qclass in Eq. cbn in Eq.
  assert (Pos : forall A B a b, positive O A -> positive O B -> le O c0 (ERI A B A B (Q4 a b a b))) by (intros A' B' a' b' ? ?; rewrite <- form_eri; apply form_pos, charges_phys; assumption).
  apply le_trans with (ERI A B A B (Q4 a b a b) * ERI C D C D (Q4 c d c d)); [apply eri_schwarz; assumption|].
  apply mul_le; [apply Pos; assumption| |apply Pos; assumption|].
  - rewrite <- (abs_id (Pos A B a b HA HB)). apply (U (Q4 a b a b)). unfold qclass. cbn. congruence.
  - rewrite <- (abs_id (Pos C D c d HC HD)). apply (U' (Q4 c d c d)). unfold qclass. cbn. congruence.
Qed.

(** ** The error *)
Lemma mult_sum same n1 n2 : (same = true -> n1 = n2) ->
  rsum (map (fun ij => @mult R same (fst ij) (snd ij)) (sp_prims (SP n1 n2 same))) = ofnat (n1 * n2).
Proof.
  intros H. unfold sp_prims. cbn [sp_same sp_n1 sp_n2]. rewrite rsum_flat_map. destruct same.
  - rewrite <- (H eq_refl). clear H n2. 
    assert (Row : forall i, rsum (map (fun ij => @mult R true (fst ij) (snd ij)) (map (pair i) (seq 0 (S i)))) = ofnat (2 * i + 1)).
    { intros i. rewrite map_map. cbn [fst snd]. rewrite seq_S, map_app, rsum_app. cbn [map Nat.add].
      replace (rsum (map (fun x => @mult R true i x) (seq 0 i))) with (ofnat (2 * i) : R).
      - unfold rsum. cbn [fold_right]. unfold mult. rewrite Nat.eqb_refl. cbn [negb andb]. rewrite ofnat_add. change (ofnat 1) with (@cadd R c0 c1). ring.
      - rewrite (rsum_map_ext _ (fun _ => ofnat 2)).
        + assert (G : forall m s, rsum (map (fun _ : nat => ofnat 2 : R) (seq s m)) = ofnat (2 * m)).
          { induction m as [|m IH]; intros s; [reflexivity|]. cbn [seq map]. change (rsum (ofnat 2 :: map (fun _ => ofnat 2) (seq (S s) m))) with (ofnat 2 + rsum (map (fun _ : nat => ofnat 2 : R) (seq (S s) m))).
            rewrite IH, <- ofnat_add. f_equal. lia. }
          symmetry. apply G.
        + intros x Hx. apply in_seq in Hx. unfold mult. destruct (Nat.eqb_spec i x); [lia|]. cbn [negb andb]. unfold ofnat. ring. }
    induction n1 as [|n IH]; [reflexivity|]. rewrite seq_S, map_app, rsum_app, IH. cbn [map Nat.add].
    match goal with |- _ + rsum [?x] = _ => transitivity (ofnat (n * n) + (ofnat (2 * n + 1) + c0) : R); [f_equal; unfold rsum at 1; cbn [fold_right]; f_equal; apply Row|] end.
    replace (ofnat (2 * n + 1) + c0 : R) with (ofnat (2 * n + 1) : R) by ring. rewrite <- ofnat_add. f_equal. lia.
  - clear H. rewrite (rsum_map_ext _ (fun _ => ofnat n2)).
    + assert (G : forall m s k, rsum (map (fun _ : nat => ofnat k : R) (seq s m)) = ofnat (m * k)).
      { induction m as [|m IH]; intros s k; [reflexivity|]. cbn [seq map]. change (rsum (ofnat k :: map (fun _ => ofnat k) (seq (S s) m))) with (ofnat k + rsum (map (fun _ : nat => ofnat k : R) (seq (S s) m))).
        rewrite IH, <- ofnat_add. f_equal. }
      apply G.
    + intros i _. rewrite map_map. cbn [fst snd]. unfold mult. cbn [andb].
      assert (G : forall m s, rsum (map (fun _ : nat => c1 : R) (seq s m)) = ofnat m).
      { induction m as [|m IH]; intros s; [reflexivity|]. cbn [seq map]. change (rsum (c1 :: map (fun _ => c1) (seq (S s) m))) with (c1 + rsum (map (fun _ : nat => c1 : R) (seq (S s) m))).
        rewrite IH, ofnat_S. ring. }
      apply G.
Qed.
Lemma mult_pos same i j : le O c0 (@mult R same i j).
Proof. unfold mult. pose proof (lt_le (one_pos O)). destruct (same && negb (i =? j))%bool; [apply add_pos; assumption|assumption]. Qed.

Lemma prims_in same n1 n2 i j : (same = true -> n1 = n2) -> In (i, j) (sp_prims (SP n1 n2 same)) -> i < n1 /\ j < n2.
Proof.
  intros Hs H. unfold sp_prims in H. cbn [sp_same sp_n1 sp_n2] in H. apply in_flat_map in H as [i' [Hi H]]. apply in_map_iff in H as [j' [E Hj]].
  injection E as -> ->. apply in_seq in Hi, Hj. destruct same; [pose proof (Hs eq_refl)|]; lia.
Qed.
(** Terms left out whose product of screen values is at most [tau^2] change an integral by at most [tau] times the
    number of primitive quartets. *)
Theorem screening_error sb sk A B C D keep q tau : positive O A -> positive O B -> positive O C -> positive O D -> (sb = true -> B = A) -> (sk = true -> D = C) -> le O c0 tau ->
  (forall i j k l, In (i, j) (sp_prims (SP (sh_n A) (sh_n B) sb)) -> In (k, l) (sp_prims (SP (sh_n C) (sh_n D) sk)) -> keep i j k l = false ->
     le O (DIAG A B i j (qa q, qb q) * DIAG C D k l (qc q, qd q)) (tau * tau)) ->
  le O (vabs O (ERI A B C D q - stored_terms inv expf sqrtf boys half sqrt2pi52 sb sk A B C D keep q))
       (ofnat (sh_n A * sh_n B * (sh_n C * sh_n D)) * tau).
Proof.
  intros HA HB HC HD Hb Hk Ht H. rewrite <- (@stored_split R inv expf sqrtf boys half sqrt2pi52 sb sk A B C D keep q Hb Hk).
  match goal with |- le O (vabs O (?a + ?b - ?a)) _ => replace (a + b - a) with b by ring end.
  assert (HbN : sb = true -> sh_n A = sh_n B) by (intros E; rewrite (Hb E); reflexivity).
  assert (HkN : sk = true -> sh_n C = sh_n D) by (intros E; rewrite (Hk E); reflexivity).
  replace (ofnat (sh_n A * sh_n B * (sh_n C * sh_n D)) * tau) with
    (rsum (map (fun ij => rsum (map (fun kl => @mult R sb (fst ij) (snd ij) * @mult R sk (fst kl) (snd kl) * tau) (sp_prims (SP (sh_n C) (sh_n D) sk)))) (sp_prims (SP (sh_n A) (sh_n B) sb)))).
  2:{ rewrite ofnat_mul, <- (mult_sum HbN), <- (mult_sum HkN).
      rewrite (rsum_map_ext _ (fun ij => rsum (map (fun kl => @mult R sk (fst kl) (snd kl)) (sp_prims (SP (sh_n C) (sh_n D) sk))) * tau * @mult R sb (fst ij) (snd ij))).
      - rewrite rsum_map_scale. ring.
      - intros ij _. rewrite (rsum_map_ext _ (fun kl => @mult R sb (fst ij) (snd ij) * tau * @mult R sk (fst kl) (snd kl))) by (intros kl _; ring).
        rewrite rsum_map_scale. ring. }
  unfold stored_terms. apply abs_sum. intros [i j] Hij. apply abs_sum. intros [k l] Hkl. cbn [fst snd].
  pose proof (@mult_pos sb i j) as P1. pose proof (@mult_pos sk k l) as P2. pose proof (mul_pos P1 P2) as P3.
  destruct (keep i j k l) eqn:Ek; cbn [negb].
  - rewrite (abs_id (le_refl O c0)). apply mul_pos; assumption.
  - unfold stored_term. rewrite abs_mul, (abs_id P3). apply mul_le; [exact P3|apply le_refl|apply abs_pos|].
    apply abs_le_sq; [exact Ht|]. apply le_trans with (DIAG A B i j (qa q, qb q) * DIAG C D k l (qc q, qd q)); [|apply H; assumption].
    destruct (@prims_in _ _ _ _ _ HbN Hij). destruct (@prims_in _ _ _ _ _ HkN Hkl). apply term_schwarz; [apply HA|apply HB|apply HC|apply HD]; assumption.
Qed.
End Schwarz.

(** ** The screened kernel *)
Section Kernel.
Context {R : cring}.
Add Ring Rring_sck : (cth R).
Variable O : ordered R.
Variables (inv expf sqrtf : R -> R) (boys : nat -> R -> R) (half sqrt2pi52 : R).
Local Notation ERI := (eri inv expf sqrtf boys half sqrt2pi52).
Local Notation PERI := (prim_eri inv expf sqrtf boys half sqrt2pi52).
Local Notation DIAG := (diagonal inv expf sqrtf boys half sqrt2pi52).
Local Notation COV := (covers O inv expf sqrtf boys half sqrt2pi52).

(** The buffer really holds (ab|ab). *)
Theorem buffer_computes (g : @gen R) la lb k len nss junk A B : setup_ok g (QAM la lb la lb) -> kind_len k len -> 0 < nss -> Nat.divide len nss ->
  0 < sh_n A -> 0 < sh_n B ->
  computes inv expf sqrtf boys half sqrt2pi52 (e_o (g_E g)) la lb (eri_buffer inv expf sqrtf boys half sqrt2pi52 g (QAM la lb la lb) k len nss junk) A B.
Proof.
  intros Hg Hk Hnss Hdiv HA HB. assert (Hlen : 0 < len) by (apply (kind_len_pos k); exact Hk).
  set (S := one_pair A B).
  assert (Hnp : forall t, t < ps_n S -> 0 < sp_np (ps_pr S t)).
  { intros t _. unfold sp_np. cbn. nia. }
  assert (Hsame : forall t, t < ps_n S -> ps_same S t = true -> ps_B S t = ps_A S t) by (intros t _ E; discriminate E).
  assert (Hf : screen_fits len nss (ps_meth S) (ps_n S) (ps_pr S)).
  { intros t Ht. cbn [ps_meth S one_pair screen_extent]. rewrite Nat.add_0_r.
    assert (W : forall t, t < ps_n S -> sp_wf (ps_pr S t)) by (intros u _ E; discriminate E).
    pose proof (st_alloc (ps_pr S) Hlen Hnss W Ht). lia. }
  destruct (@kernel_created R inv expf sqrtf boys half sqrt2pi52 g (QAM la lb la lb) Hg k len nss Hk Hnss Hdiv S S Hsame Hsame Hf Hf Hnp Hnp
     (fun _ => 0%Z) (fun _ => 0%Z) 1 1 (fun _ => 0%Q) (fun _ => 0%Q) big big 0%Q false (repeat junk (qncart (QAM la lb la lb) + 8)))
     as (mb & mk & d & E1 & E2 & E3 & _ & V & _); try apply le_n.
  - apply Qle_refl.
  - intros u Hu. cbn [batch_of b_clip] in Hu. nia.
  - rewrite repeat_length. lia.
  - assert (mk = mb) by congruence. subst mk. exists d. split.
    + unfold eri_buffer. cbv zeta. fold S. rewrite E1, E3. reflexivity.
    + intros q Eq. specialize (V 0 0 q Nat.lt_0_1 Nat.lt_0_1 Eq). exact V.
Qed.

Variable emb : Q -> R.
Hypothesis Hemb : embeds O emb.
Hypothesis Hpsd : repulsive O inv expf sqrtf boys half sqrt2pi52.
Section Bound.
Variables (g : @gen R) (c : qam).
Hypothesis Hg : setup_ok g c.
Variables (k : call_kind) (len nss : nat).
Hypothesis Hk : kind_len k len.
Hypothesis Hnss : 0 < nss.
Variables (bra ket : @pairs R) (mb mk : list (option dval)) (ob ok : nat -> list (nat * nat)) (nb nk : nat).
Hypothesis HP : block_ok len nss bra mb ob nb.
Hypothesis HK : block_ok len nss ket mk ok nk.
Hypothesis Hnp : forall t, t < nk -> 0 < sp_np (ps_pr ket t).
Variables (svb svk : nat -> nat -> nat -> Q) (mxb mxk : Q).
Hypothesis Hcb : forall ab i j, ab < nb -> In (i, j) (sp_prims (ps_pr bra ab)) -> COV emb (am0 c) (am1 c) (ps_A bra ab) (ps_B bra ab) i j (svb ab i j).
Hypothesis Hck : forall cd i j, cd < nk -> In (i, j) (sp_prims (ps_pr ket cd)) -> COV emb (am2 c) (am3 c) (ps_A ket cd) (ps_B ket cd) i j (svk cd i j).
Hypothesis Hb0 : forall ab i j, ab < nb -> In (i, j) (sp_prims (ps_pr bra ab)) -> (0 <= svb ab i j <= mxb)%Q.
Hypothesis Hk0 : forall cd i j, cd < nk -> In (i, j) (sp_prims (ps_pr ket cd)) -> (0 <= svk cd i j <= mxk)%Q.

Hypothesis Hpb : forall ab, ab < nb -> positive O (ps_A bra ab) /\ positive O (ps_B bra ab).
Hypothesis Hpk : forall cd, cd < nk -> positive O (ps_A ket cd) /\ positive O (ps_B ket cd).

Definition quads (ab cd : nat) : nat :=
  sh_n (ps_A bra ab) * sh_n (ps_B bra ab) * (sh_n (ps_A ket cd) * sh_n (ps_B ket cd)).
Lemma diag_small ab cd i j k' l q t : ab < nb -> cd < nk -> In (i, j) (sp_prims (ps_pr bra ab)) -> In (k', l) (sp_prims (ps_pr ket cd)) -> qclass q = c ->
  (0 <= t)%Q -> (svb ab i j * svk cd k' l <= t * t)%Q ->
  le O (cmul (DIAG (ps_A bra ab) (ps_B bra ab) i j (qa q, qb q)) (DIAG (ps_A ket cd) (ps_B ket cd) k' l (qc q, qd q))) (cmul (emb t) (emb t)).
Proof.
  clear Hnss Hnp Hk Hg. intros Ha Hc Hij Hkl Eq Ht H. rewrite <- (em_mul Hemb). apply le_trans with (emb (svb ab i j * svk cd k' l)%Q); [|apply (em_le Hemb), H].
  rewrite (em_mul Hemb). pose proof (bo_clip HP). pose proof (bo_clip HK).
  assert (Ib : i < sh_n (ps_A bra ab) /\ j < sh_n (ps_B bra ab)).
  { apply (@prims_in (ps_same bra ab)); [|exact Hij]. intros Es. rewrite (@bo_same _ _ _ _ _ _ _ HP ab ltac:(lia) Es). reflexivity. }
  assert (Ik : k' < sh_n (ps_A ket cd) /\ l < sh_n (ps_B ket cd)).
  { apply (@prims_in (ps_same ket cd)); [|exact Hkl]. intros Es. rewrite (@bo_same _ _ _ _ _ _ _ HK cd ltac:(lia) Es). reflexivity. }
  apply mul_le; try (apply diag_pos; [exact Hpsd|apply (Hpb Ha)|apply (Hpb Ha)]; tauto); try (apply diag_pos; [exact Hpsd|apply (Hpk Hc)|apply (Hpk Hc)]; tauto).
  - apply (@Hcb ab i j Ha Hij). rewrite <- Eq. split; reflexivity.
  - apply (@Hck cd k' l Hc Hkl). rewrite <- Eq. split; reflexivity.
Qed.
(** Kernel with tolerance [t]: within [t] per primitive quartet of the integral. *)
Theorem screened_kernel_error t zf out : (0 <= t)%Q -> screens (ps_meth bra) = true -> screens (ps_meth ket) = true ->
  let BP := batch_of bra nb (scr_rd len nss bra mb svb) mxb in
  let BK := batch_of ket nk (scr_rd len nss ket mk svk) mxk in
  bra_aligned len nss BP -> nb * nk * qncart c <= length out ->
  exists d, whole_kernel inv expf sqrtf boys half sqrt2pi52 g c k len nss bra ket mb mk BP BK (t * t) zf out = Some (d, nb * nk) /\
    forall ab cd q, ab < nb -> cd < nk -> qclass q = c -> exists v,
      nth_error d ((ab * nk + cd) * qncart c + qindex (e_o (g_E g)) q) = Some v /\
      le O (vabs O (csub (ERI (ps_A bra ab) (ps_B bra ab) (ps_A ket cd) (ps_B ket cd) q) v)) (cmul (ofnat (quads ab cd)) (emb t)).
Proof.
  intros Ht Sb Sk BP BK Hal Hout.
  destruct (@kernel_integrals_screened R inv expf sqrtf boys half sqrt2pi52 g c Hg k len nss Hk Hnss bra ket mb mk ob ok nb nk
     (scr_rd len nss bra mb svb) (scr_rd len nss ket mk svk) mxb mxk HP HK Hnp svb svk (t * t)%Q zf out eq_refl eq_refl Sb Sk Hal Hout)
     as (keep & d & E & V & W).
  exists d. split; [exact E|]. intros ab cd q Ha Hc Eq. eexists. split; [apply (V ab cd q Ha Hc Eq)|].
  pose proof (bo_clip HP). pose proof (bo_clip HK).
  apply screening_error; try assumption; try apply (Hpb Ha); try apply (Hpk Hc).
  - intros Es. apply (bo_same HP); [lia|exact Es].
  - intros Es. apply (bo_same HK); [lia|exact Es].
  - rewrite <- (em_zero Hemb). apply (em_le Hemb), Ht.
  - intros i j k' l Hij Hkl Ek. apply diag_small; try assumption. apply Qlt_le_weak.
    apply (W ab cd i j k' l Ha Hc Hij Hkl); [apply (@Hb0 ab i j Ha Hij)|apply (@Hk0 cd k' l Hc Hkl)|exact Ek].
Qed.
(** The whole call skipped: every integral is that small. *)
Theorem skipped_error t ab cd q : early_exit t mxb mxk = true -> ab < nb -> cd < nk -> qclass q = c ->
  le O (vabs O (ERI (ps_A bra ab) (ps_B bra ab) (ps_A ket cd) (ps_B ket cd) q)) (cmul (ofnat (quads ab cd)) (emb t)).
Proof.
  clear Hnss Hnp Hk Hg. intros Ee Ha Hc Eq. unfold early_exit in Ee. apply andb_true_iff in Ee as [E1 E2]. apply qltb_spec in E1, E2.
  pose proof (bo_clip HP). pose proof (bo_clip HK).
  assert (Z : stored_terms inv expf sqrtf boys half sqrt2pi52 (ps_same bra ab) (ps_same ket cd) (ps_A bra ab) (ps_B bra ab) (ps_A ket cd) (ps_B ket cd)
      (fun _ _ _ _ => false) q = c0).
  { unfold stored_terms. apply rsum_map_zero. intros ij _. apply rsum_map_zero. reflexivity. }
  replace (ERI (ps_A bra ab) (ps_B bra ab) (ps_A ket cd) (ps_B ket cd) q) with (csub (ERI (ps_A bra ab) (ps_B bra ab) (ps_A ket cd) (ps_B ket cd) q)
    (stored_terms inv expf sqrtf boys half sqrt2pi52 (ps_same bra ab) (ps_same ket cd) (ps_A bra ab) (ps_B bra ab) (ps_A ket cd) (ps_B ket cd)
      (fun _ _ _ _ => false) q)) by (rewrite Z; ring).
  apply screening_error; try assumption; try apply (Hpb Ha); try apply (Hpk Hc).
  - intros Es. apply (bo_same HP); [lia|exact Es].
  - intros Es. apply (bo_same HK); [lia|exact Es].
  - rewrite <- (em_zero Hemb). apply (em_le Hemb), Qlt_le_weak, E1.
  - intros i j k' l Hij Hkl _. apply diag_small; try assumption; [apply Qlt_le_weak, E1|].
    destruct (@Hb0 ab i j Ha Hij) as [B1 B2]. destruct (@Hk0 cd k' l Hc Hkl) as [K1 K2].
    apply Qle_trans with (mxb * mxk)%Q; [|apply Qlt_le_weak, E2]. apply Qmult_le_compat_nonneg; split; assumption.
Qed.
End Bound.
End Kernel.

(** ** Fast screening values *)
Section Fast.
Context {R : cring}.
Add Ring Rring_scf : (cth R).
Variable O : ordered R.
Variables (inv expf sqrtf pow25 : R -> R) (boys : nat -> R -> R) (half sqrt2pi52 sqrt2times : R).
Local Open Scope r_scope.
Local Notation DIAG := (diagonal inv expf sqrtf boys half sqrt2pi52).
Definition g0 : Cart.gauss := Cart.G 0 0 0.
(** pow(1/p, 2.5) and the constants, F_0(0) = 1, exp(x)^2 = exp(2x). *)
Record fast_hyps (p : R) : Prop := {
  fh_pow : sqrt2times * pow25 (inv p) = sqrt2pi52 * sqrt2pi52 * inv p * inv p * sqrtf (inv (p + p));
  fh_boys : boys 0%nat c0 = c1;
  fh_exp : forall x, expf x * expf x = expf (x + x) }.
(** The fast value is the diagonal integral of the primitives taken as s functions. *)
Theorem fast_value A B i j : fast_hyps (sh_alpha A i + sh_alpha B j) ->
  fast_gab inv expf pow25 sqrt2times A B i j = DIAG A B i j (g0, g0).
Proof.
  intros [H1 H2 H3]. unfold fast_gab, diagonal, prim_eri. cbv zeta. cbn [fst snd]. change (Q4 g0 g0 g0 g0) with q0. rewrite os_value_start.
  unfold eri_start, gp, prim. cbn [g_exp]. set (p := sh_alpha A i + sh_alpha B j) in *. rewrite H1.
  match goal with |- context [boys 0%nat ?x] => replace x with (@c0 R) by (unfold dist2; ring) end. rewrite H2.
  unfold overlap_exp, gp. cbn [g_exp g_at]. fold p. rewrite H3.
  match goal with |- context [expf (_ + ?y)] => match goal with |- _ * expf ?x * _ = _ => replace x with (y + y) end end.
  - ring.
  - unfold dist2. cbn [idx_of_dir]. ring.
Qed.
Theorem primscreen_fast_ok same A B (P := sp_prims (SP (sh_n A) (sh_n B) same)) :
  fst (primscreen_fast O inv expf pow25 sqrt2times same A B) = map (fun ij => fast_gab inv expf pow25 sqrt2times A B (fst ij) (snd ij)) P /\
  is_max O (fun ij => In ij P) (fun ij => fast_gab inv expf pow25 sqrt2times A B (fst ij) (snd ij)) (snd (primscreen_fast O inv expf pow25 sqrt2times same A B)).
Proof.
  unfold primscreen_fast. fold P. set (F := fun ij => fast_gab inv expf pow25 sqrt2times A B (fst ij) (snd ij)).
  set (f := fun acc ij => _).
  assert (G : forall Q Q0 a0, fst a0 = map F Q0 -> is_max O (fun ij => In ij Q0) F (snd a0) ->
     fst (fold_left f Q a0) = map F (Q0 ++ Q) /\ is_max O (fun ij => In ij (Q0 ++ Q)%list) F (snd (fold_left f Q a0))).
  { induction Q as [|ij Q IH]; intros Q0 a0 E M.
    - rewrite app_nil_r. auto.
    - cbn [fold_left]. replace (Q0 ++ ij :: Q)%list with ((Q0 ++ [ij]) ++ Q)%list by (rewrite <- app_assoc; reflexivity). apply IH.
      + unfold f. cbn [fst snd]. cbv zeta. rewrite E, map_app. reflexivity.
      + destruct M as [M1 M2]. unfold f. cbv zeta. cbn [fst snd]. fold (F ij). split.
        * intros x Hx. apply in_app_iff in Hx as [Hx|[<-|[]]].
          -- specialize (M1 x Hx). destruct (leb O (F ij) (snd a0)) eqn:El; [exact M1|]. apply le_trans with (snd a0); [exact M1|apply lt_le; exact El].
          -- destruct (leb O (F ij) (snd a0)) eqn:El; [exact El|apply le_refl].
        * destruct (leb O (F ij) (snd a0)).
          -- destruct M2 as [M2|[x [Hx M2]]]; [left; exact M2|right; exists x; split; [apply in_app_iff; left; exact Hx|exact M2]].
          -- right. exists ij. split; [apply in_app_iff; right; left; reflexivity|reflexivity]. }
  apply (G P [] ([], c0)); [reflexivity|]. split; [intros x []|left; reflexivity].
Qed.
(** The diagonal integral of (px s|: the square of [P - A] times the one of (ss|, and more. *)
Lemma diag_px A B i j : DIAG A B i j (Cart.G 1 0 0, g0) =
  (gcen inv (prim A i) (prim B j) DX - sh_pos A 0%nat) * (gcen inv (prim A i) (prim B j) DX - sh_pos A 0%nat) * DIAG A B i j (g0, g0) +
  sh_coef A i * sh_coef B j * sh_coef A i * sh_coef B j * (half * inv ((sh_alpha A i + sh_alpha B j) + (sh_alpha A i + sh_alpha B j))) *
    eri_start inv expf sqrtf boys sqrt2pi52 (prim A i) (prim B j) (prim A i) (prim B j) 1.
Proof.
  unfold diagonal, prim_eri. cbn [fst snd]. set (a := prim A i). set (b := prim B j). set (K := eri_coefs inv half a b a b). set (S := eri_start inv expf sqrtf boys sqrt2pi52 a b a b).
  pose proof (@os_value_family R K S) as F. pose proof (@os_value_start R K S) as Hs. generalize dependent (os_value K S). intros V F Hs.
  assert (E1 : V 0%nat (Q4 g0 g0 (Cart.G 1 0 0) g0) = (gcen inv a b DX - sh_pos A 0%nat) * V 0%nat q0).
  { pose proof (F CK DX 0%nat q0) as E. cbv zeta in E. unfold craise, same_side_term, other_side_term, clower in E. cbn in E.
    etransitivity; [exact E|]. ring. }
  pose proof (F CI DX 0%nat (Q4 g0 g0 (Cart.G 1 0 0) g0)) as E. cbv zeta in E. unfold craise, same_side_term, other_side_term, clower in E. cbn in E.
  change (V 0%nat (Q4 (Cart.G 1 0 0) g0 (Cart.G 1 0 0) g0)) with (V 0%nat (Q4 (Cart.G 1 0 0) (Cart.G 0 0 0) (Cart.G 1 0 0) (Cart.G 0 0 0))).
  unfold g0 in *. rewrite E. rewrite E1. change (Q4 (Cart.G 0 0 0) (Cart.G 0 0 0) (Cart.G 0 0 0) (Cart.G 0 0 0)) with q0. rewrite !Hs.
  change (gp a b) with (sh_alpha A i + sh_alpha B j). ring.
Qed.
(** shell_screen.h:51-53 is wrong: wherever the centre [P] is more than 1 from [A], the fast value is below the
    diagonal integral it stands for. *)
Theorem fast_low A B i j (p := sh_alpha A i + sh_alpha B j) (d := gcen inv (prim A i) (prim B j) DX - sh_pos A 0%nat) :
  fast_hyps p -> lt O c1 (d * d) -> lt O c0 (fast_gab inv expf pow25 sqrt2times A B i j) -> le O c0 (half * inv (p + p) * boys 1%nat c0) ->
  lt O (fast_gab inv expf pow25 sqrt2times A B i j) (DIAG A B i j (Cart.G 1 0 0, g0)).
Proof.
  intros H Hd Hg Hb. rewrite diag_px, <- (fast_value A B i j H). set (v := fast_gab inv expf pow25 sqrt2times A B i j) in *. fold d. fold p.
  match goal with |- lt O v (_ + ?x) => assert (X : x = v * (half * inv (p + p) * boys 1%nat c0)) end.
  { unfold v. rewrite (fast_value A B i j H). unfold diagonal, prim_eri. cbn [fst snd]. change (Q4 g0 g0 g0 g0) with q0. rewrite os_value_start.
    unfold eri_start. match goal with |- context [boys 0%nat ?x] => replace x with (@c0 R) by (unfold dist2; ring) end. rewrite (fh_boys H). ring. }
  rewrite X. apply lt_sub. match goal with |- lt O c0 ?x => replace x with (v * (half * inv (p + p) * boys 1%nat c0) + v * (d * d - c1)) by ring end.
  apply add_lt.
  - apply mul_pos; [apply lt_le, Hg|exact Hb].
  - apply (o_mul O); [exact Hg|]. apply (proj1 (lt_sub O c1 (d * d)) Hd).
Qed.
(** The fast shell value adds up the diagonal only: with two equal primitives it is half the integral of s shells. *)
Theorem shell_fast_low A B (p := sh_alpha A 0%nat + sh_alpha B 0%nat) : fast_hyps p -> sh_n A = 2%nat -> sh_n B = 1%nat ->
  sh_alpha A 1%nat = sh_alpha A 0%nat -> sh_coef A 1%nat = sh_coef A 0%nat ->
  let v := shellscreen_fast inv expf pow25 sqrt2times false A B in eri inv expf sqrtf boys half sqrt2pi52 A B A B q0 = v + v.
Proof.
  intros H Na Nb Ea Ec v. assert (Ev : v = fast_gab inv expf pow25 sqrt2times A B 0 0 + fast_gab inv expf pow25 sqrt2times A B 0 0).
  { unfold v, shellscreen_fast. rewrite Na, Nb. cbn. unfold fast_gab. rewrite Ea, Ec. cbv zeta. ring. }
  rewrite Ev, (fast_value A B 0 0 H). unfold eri, over. rewrite Na, Nb. cbn [seq map]. unfold rsum. cbn [fold_right].
  assert (Ep : prim A 1 = prim A 0) by (unfold prim; rewrite Ea; reflexivity). rewrite Ep, Ec. unfold diagonal. cbn [fst snd]. change (Q4 g0 g0 g0 g0) with q0. ring.
Qed.
End Fast.
