(** Accuracy of the Boys function model (Boys) with the actual table (BoysData), in exact arithmetic:
    the Taylor branch for every argument, and the downward recursion. *)
From Coq Require Import Arith ZArith QArith Qabs Qfield Qcanon Lia Lqa List Bool Factorial.
Import ListNotations.
From Verif Require Import Base Boys BoysProof BoysSeries BoysData BoysCheck BoysTable BoysFacts.
Set Implicit Arguments.
Local Open Scope Q_scope.

(** The two tables as the model of Boys reads them. *)
Definition decs (l : list dec) : list Qc := map (fun d => Q2Qc (dq d)) l.
Definition shortgrid : list (list Qc) := map decs shortgrid_data.
Definition longfac : list Qc := map (fun d => let 'D m e := d in
  if (0 <=? e)%Z then Q2Qc (inject_Z m / inject_Z (10 ^ e)) else Q2Qc (inject_Z (m * 10 ^ (- e)))) longfac_data.

Lemma longfac_length : length longfac = NFAC.
Proof. reflexivity. Qed.
Lemma shortgrid_ok : table_ok shortgrid.
Proof.
  pose proof table_checked as T. apply andb_prop in T. destruct T as [T _]. apply Nat.eqb_eq in T. split.
  - unfold shortgrid. rewrite map_length. exact T.
  - intros r Hr. unfold shortgrid in Hr. apply in_map_iff in Hr. destruct Hr as (l & <- & Hl).
    apply In_nth_error in Hl. destruct Hl as [i Hi]. unfold decs. rewrite map_length.
    apply (@row_parts i _ Hi).
Qed.

(** ** Bounds of the expansion coefficients *)
Notation c20 := (uterm (1 # 20)).
Lemma dpow_abs d j : Qabs (dpow d j) == uterm (Qabs d) j.
Proof.
  unfold dpow. induction j as [|j IH]; [reflexivity|]. rewrite uterm_S, <- IH. cbn [term].
  unfold Qdiv. rewrite !Qabs_Qmult, !Qabs_opp. rewrite (Qabs_pos (/ nq (S j))); [reflexivity|].
  apply Qinv_le_0_compat, Qlt_le_weak, nq_S_pos.
Qed.
Lemma dpow_le d j : Qabs d <= 1 # 20 -> Qabs (dpow d j) <= c20 j.
Proof. intros H. rewrite dpow_abs. apply uterm_mono; [apply Qabs_nonneg|exact H]. Qed.
Lemma c20_nonneg j : 0 <= c20 j.
Proof. apply uterm_nonneg. discriminate. Qed.

(** Same numbers with reduced fractions, for evaluation. *)
Fixpoint rterm (k : nat) : Q := match k with O => 1 | S j => Qred (rterm j * (1 # 20) / nq (S j)) end.
Fixpoint rsumq (f : nat -> Q) (n : nat) : Q := match n with O => 0 | S m => Qred (rsumq f m + f m) end.
Lemma rterm_eq k : c20 k == rterm k.
Proof. induction k as [|k IH]; [reflexivity|]. rewrite uterm_S, IH. cbn [rterm]. rewrite Qred_correct. reflexivity. Qed.
Lemma rsumq_eq f g n : (forall k, f k == g k) -> qsum f n == rsumq g n.
Proof. intros H. induction n as [|n IH]; [reflexivity|]. cbn [qsum rsumq]. rewrite Qred_correct, IH, H. reflexivity. Qed.

Lemma sum8 : qsum c20 8 <= 20 / 19.
Proof. rewrite (@rsumq_eq _ rterm) by apply rterm_eq. vm_compute. discriminate. Qed.
Lemma sum17 : qsum (fun j => c20 (S j)) 7 <= 1 / 19.
Proof. rewrite (@rsumq_eq _ (fun j => rterm (S j))) by (intros; apply rterm_eq). vm_compute. discriminate. Qed.
Lemma sum24 : qsum (fun j => c20 (8 + j)) 24 <= / inject_Z W8 * (20 / 19).
Proof. rewrite (@rsumq_eq _ (fun j => rterm (8 + j))) by (intros; apply rterm_eq). vm_compute. discriminate. Qed.
Lemma c32 : c20 32 == / inject_Z W32.
Proof. rewrite rterm_eq. vm_compute. reflexivity. Qed.
Lemma sum_tail m : qsum (fun j => c20 (8 + (24 + j))) m <= 2 / inject_Z W32.
Proof.
  rewrite (qsum_ext _ (fun j => c20 (32 + j))) by (intros k _; replace (8 + (24 + k))%nat with (32 + k)%nat by lia; reflexivity).
  eapply Qle_trans; [apply uterm_tail; discriminate|]. rewrite c32.
  pose proof (c20_nonneg (32 + m)). unfold Qdiv. lra.
Qed.

Lemma abs_le_iff q e : Qabs q <= e -> - e <= q /\ q <= e.
Proof. intros H. apply Qabs_Qle_condition in H. exact H. Qed.
Lemma abs_prod a b A B : Qabs a <= A -> Qabs b <= B -> Qabs (a * b) <= A * B.
Proof.
  intros HA HB. rewrite Qabs_Qmult. pose proof (Qabs_nonneg a). pose proof (Qabs_nonneg b).
  eapply Qle_trans; [apply Qmult_le_compat_r; [exact HA|assumption]|].
  rewrite !(Qmult_comm A). apply Qmult_le_compat_r; lra.
Qed.


(** ** Error of the expansion, from the facts about one row *)
Section Row.
Variables (n N0 p q : nat) (a d r w8 w32 : Q) (t h : nat -> Q) (u : Q).
Hypothesis P8 : p = 8%nat.
Hypothesis Q24 : q = 24%nat.
Hypothesis N : (n <= 24)%nat.
Hypothesis DX : Qabs d <= 1 # 20.
Hypothesis R0 : 0 < r.
Hypothesis TN : forall m K, (m <= 31)%nat -> (N0 <= K)%nat -> Qabs (t m - boys_sum m a K) <= t m / r.
Hypothesis TP : forall m, (m <= 31)%nat -> 0 < t m.
Hypothesis TL : forall m j, (m + j <= 31)%nat -> t (m + j)%nat <= t m.
Hypothesis HB : forall m K, (m <= 60)%nat -> (N0 <= K)%nat -> Qabs (boys_sum m a K) <= h m.
Hypothesis HL : forall m j, (m + j <= 60)%nat -> h (m + j)%nat <= h m.
Hypothesis UB : forall m K, Qabs (boys_sum m a K) <= u.
Hypothesis S8 : qsum c20 p <= 20 / 19.
Hypothesis S24 : qsum (fun j => c20 (p + j)) q <= / w8 * (20 / 19).
Hypothesis STAIL : forall m, qsum (fun j => c20 (p + (q + j))) m <= 2 / w32.
Hypothesis RS : / r * (20 / 19) <= 1 / inject_Z (10 ^ 17).
Hypothesis RB : h (n + p)%nat * (/ w8 * (20 / 19)) + u * (2 / w32) <= 85 / inject_Z (10 ^ 17) * t n.

Definition expand : Q := qsum (fun j => dpow d j * t (n + j)%nat) p.

Lemma qsum_abs_le f g m : (forall k, (k < m)%nat -> Qabs (f k) <= g k) -> Qabs (qsum f m) <= qsum g m.
Proof. intros H. eapply Qle_trans; [apply qsum_abs|]. apply qsum_le, H. Qed.

Lemma part1 K : (N0 + 32 <= K)%nat ->
  Qabs (qsum (fun j => dpow d j * (t (n + j)%nat - boys_sum (n + j) a (K - j))) p) <= t n / r * (20 / 19).
Proof.
  intros HK. eapply Qle_trans.
  - apply (@qsum_abs_le _ (fun j => (t n / r) * c20 j)). intros j Hj.
    rewrite (Qmult_comm (t n / r)). apply abs_prod; [apply dpow_le, DX|].
    eapply Qle_trans; [apply TN; lia|].
    apply Qmult_le_compat_r; [apply TL; lia|apply Qinv_le_0_compat, Qlt_le_weak, R0].
  - rewrite qsum_scale. rewrite !(Qmult_comm (t n / r)). apply Qmult_le_compat_r; [apply S8|].
    apply Qle_shift_div_l; [apply R0|]. rewrite Qmult_0_l. apply Qlt_le_weak, TP. lia.
Qed.

Lemma part2 K : (N0 + 32 <= K)%nat ->
  Qabs (qsum (fun j => dpow d (p + j) * boys_sum (n + (p + j)) a (K - (p + j))) q) <= h (n + p)%nat * (/ w8 * (20 / 19)).
Proof.
  intros HK. eapply Qle_trans.
  - apply (@qsum_abs_le _ (fun j => h (n + p)%nat * c20 (p + j))). intros j Hj.
    rewrite (Qmult_comm (h (n + p)%nat)). apply abs_prod; [apply dpow_le, DX|].
    eapply Qle_trans; [apply HB; lia|].
    replace (n + (p + j))%nat with (n + p + j)%nat by lia. apply HL. lia.
  - rewrite qsum_scale. rewrite !(Qmult_comm (h (n + p)%nat)). apply Qmult_le_compat_r; [exact S24|].
    eapply Qle_trans; [apply Qabs_nonneg|]. apply (@HB (n + p)%nat N0); lia.
Qed.

Lemma part3 K m : Qabs (qsum (fun j => dpow d (p + (q + j)) * boys_sum (n + (p + (q + j))) a (K - (p + (q + j)))) m) <= u * (2 / w32).
Proof.
  eapply Qle_trans.
  - apply (@qsum_abs_le _ (fun j => u * c20 (p + (q + j)))). intros j Hj.
    rewrite (Qmult_comm u). apply abs_prod; [apply dpow_le, DX|apply UB].
  - rewrite qsum_scale. rewrite !(Qmult_comm u). apply Qmult_le_compat_r; [apply STAIL|].
    eapply Qle_trans; [apply Qabs_nonneg|]. apply (UB 0 0).
Qed.

Lemma split3 f x y z : qsum f (x + (y + z)) == qsum f x + (qsum (fun j => f (x + j)%nat) y + qsum (fun j => f (x + (y + j))%nat) z).
Proof. rewrite qsum_split, (qsum_split (fun k => f (x + k)%nat)). reflexivity. Qed.

Lemma expand_error K : (N0 + 32 <= K)%nat ->
  Qabs (expand - boys_sum n (a - d) K) <= 86 / inject_Z (10 ^ 17) * t n.
Proof.
  intros HK. pose (m := (K - 32)%nat). assert (EK : K = (p + (q + m))%nat) by (unfold m; lia).
  pose proof (part1 HK) as P1. pose proof (part2 HK) as P2. pose proof (part3 K m) as P3.
  assert (E : boys_sum n (a - d) K ==
    qsum (fun j => dpow d j * boys_sum (n + j) a (K - j)) p +
    (qsum (fun j => dpow d (p + j) * boys_sum (n + (p + j)) a (K - (p + j))) q +
     qsum (fun j => dpow d (p + (q + j)) * boys_sum (n + (p + (q + j))) a (K - (p + (q + j)))) m)).
  { rewrite taylor_exact. rewrite <- (split3 (fun j => dpow d j * boys_sum (n + j) a (K - j))). rewrite <- EK. reflexivity. }
  rewrite E. clear E. unfold expand.
  set (X := qsum (fun j => dpow d (p + j) * boys_sum (n + (p + j)) a (K - (p + j))) q) in *.
  set (Y := qsum (fun j => dpow d (p + (q + j)) * boys_sum (n + (p + (q + j))) a (K - (p + (q + j)))) m) in *.
  assert (D1 : qsum (fun j => dpow d j * t (n + j)%nat) p - (qsum (fun j => dpow d j * boys_sum (n + j) a (K - j)) p + (X + Y)) ==
    qsum (fun j => dpow d j * (t (n + j)%nat - boys_sum (n + j) a (K - j))) p - X - Y).
  { assert (Q : qsum (fun j => dpow d j * (t (n + j)%nat - boys_sum (n + j) a (K - j))) p ==
      qsum (fun j => dpow d j * t (n + j)%nat) p + -1 * qsum (fun j => dpow d j * boys_sum (n + j) a (K - j)) p).
    { rewrite <- qsum_scale, <- qsum_add. apply qsum_ext. intros k _. ring. }
    rewrite Q. ring. }
  rewrite D1. clear D1.
  set (Z := qsum (fun j => dpow d j * (t (n + j)%nat - boys_sum (n + j) a (K - j))) p) in *.
  assert (TR : Qabs (Z - X - Y) <= Qabs Z + Qabs X + Qabs Y).
  { eapply Qle_trans; [apply Qabs_triangle|]. rewrite Qabs_opp.
    eapply Qle_trans; [apply Qplus_le_compat; [apply Qabs_triangle|apply Qle_refl]|]. rewrite Qabs_opp. apply Qle_refl. }
  pose proof (@TP n ltac:(lia)) as T0.
  assert (P1' : t n / r * (20 / 19) <= 1 / inject_Z (10 ^ 17) * t n).
  { setoid_replace (t n / r * (20 / 19)) with (/ r * (20 / 19) * t n) by (unfold Qdiv; ring).
    apply Qmult_le_compat_r; [apply RS|lra]. }
  assert (F : 86 / inject_Z (10 ^ 17) * t n == 1 / inject_Z (10 ^ 17) * t n + 85 / inject_Z (10 ^ 17) * t n) by (field; discriminate).
  rewrite F. lra.
Qed.

Hypothesis S17 : forall p', p = S p' -> qsum (fun j => c20 (S j)) p' <= 1 / 19.
Lemma expand_lower : 18 / 19 * t n <= expand.
Proof.
  unfold expand. destruct p as [|p'] eqn:EP; [discriminate|]. rewrite qsum_first.
  assert (E0 : dpow d 0 * t (n + 0)%nat == t n) by (rewrite Nat.add_0_r; unfold dpow; cbn [term]; ring).
  rewrite E0. pose proof (@TP n ltac:(lia)) as T0.
  assert (B : Qabs (qsum (fun k => dpow d (S k) * t (n + S k)%nat) p') <= 1 / 19 * t n).
  { eapply Qle_trans.
    - apply (@qsum_abs_le _ (fun k => t n * c20 (S k))). intros k Hk. rewrite (Qmult_comm (t n)).
      apply abs_prod; [apply dpow_le, DX|]. rewrite Qabs_pos; [apply TL; lia|].
      apply Qlt_le_weak, TP. lia.
    - rewrite qsum_scale, (Qmult_comm (t n)). apply Qmult_le_compat_r; [apply S17; reflexivity|lra]. }
  apply abs_le_iff in B. destruct B as [B _].
  assert (Q : 18 / 19 * t n == t n - 1 / 19 * t n) by (field). rewrite Q. lra.
Qed.

Lemma expand_pos : 0 < expand.
Proof.
  eapply Qlt_le_trans; [|apply expand_lower]. pose proof (@TP n ltac:(lia)) as T0.
  assert (18 / 19 * t n == 18 * t n / 19) as -> by field. apply Qlt_shift_div_l; [reflexivity|]. lra.
Qed.

Lemma expand_relative K : (N0 + 32 <= K)%nat ->
  Qabs (expand - boys_sum n (a - d) K) <= 1 / inject_Z (10 ^ 15) * expand.
Proof.
  intros HK. eapply Qle_trans; [apply (expand_error HK)|]. pose proof expand_lower as L.
  assert (X : 86 / inject_Z (10 ^ 17) * t n == (86 / inject_Z (10 ^ 17) * (19 / 18)) * (18 / 19 * t n)) by (field; discriminate).
  rewrite X. clear X. pose proof expand_pos as EP.
  assert (E1 : 86 / inject_Z (10 ^ 17) * (19 / 18) <= 1 / inject_Z (10 ^ 15)) by (vm_compute; discriminate).
  assert (E0 : 0 <= 86 / inject_Z (10 ^ 17) * (19 / 18)) by (vm_compute; discriminate).
  generalize dependent (86 / inject_Z (10 ^ 17) * (19 / 18)). intros e1 E1 E0.
  generalize dependent (1 / inject_Z (10 ^ 15)). intros e2 E1.
  generalize dependent expand. intros v L EP. generalize dependent (18 / 19 * t n). intros s L.
  clear - E1 E0 L EP. apply (Qle_trans _ (e1 * v)).
  - rewrite !(Qmult_comm e1). apply Qmult_le_compat_r; assumption.
  - apply Qmult_le_compat_r; lra.
Qed.
End Row.

Lemma re_small : / inject_Z RE * (20 / 19) <= 1 / inject_Z (10 ^ 17).
Proof. vm_compute. discriminate. Qed.

Lemma scale_abs c q e : 0 < c -> c * Qabs q <= e -> Qabs q <= e / c.
Proof. intros C H. apply Qle_shift_div_l; [exact C|]. rewrite Qmult_comm. exact H. Qed.

Lemma expand_row_gen n d N0 a c r w8 w32 (t : nat -> Q) (hz : nat -> Z) (uz : Z) :
  (n <= 24)%nat -> Qabs d <= 1 # 20 -> 0 < c -> 0 < r -> 0 < w8 -> 0 < w32 ->
  (forall m K, (m <= 31)%nat -> (N0 <= K)%nat -> Qabs (t m - boys_sum m a K) <= t m / r) ->
  (forall m, (m <= 31)%nat -> 0 < t m) ->
  (forall m j, (m + j <= 31)%nat -> t (m + j)%nat <= t m) ->
  (forall m K, (m <= 60)%nat -> (N0 <= K)%nat -> c * Qabs (boys_sum m a K) <= inject_Z (hz m)) ->
  (forall m j, (m + j <= 60)%nat -> (hz (m + j)%nat <= hz m)%Z) ->
  (forall m K, c * Qabs (boys_sum m a K) <= inject_Z uz) ->
  qsum (fun j => c20 (8 + j)) 24 <= / w8 * (20 / 19) ->
  (forall m, qsum (fun j => c20 (8 + (24 + j))) m <= 2 / w32) ->
  / r * (20 / 19) <= 1 / inject_Z (10 ^ 17) ->
  inject_Z (hz (n + 8)%nat) / w8 * (20 / 19) + 2 * inject_Z uz / w32 <= c * (85 / inject_Z (10 ^ 17)) * t n ->
  0 < expand n 8 d t /\ exists N1, forall K, (N1 <= K)%nat ->
    Qabs (expand n 8 d t - boys_sum n (a - d) K) <= 1 / inject_Z (10 ^ 15) * expand n 8 d t.
Proof.
  intros N DX CP RP P8 P32 TN TP TL HB HL UB S24 ST RS RB.
  assert (HB' : forall m K, (m <= 60)%nat -> (N0 <= K)%nat -> Qabs (boys_sum m a K) <= inject_Z (hz m) / c).
  { intros m K A B. apply scale_abs; [exact CP|apply HB; assumption]. }
  assert (HL' : forall m j, (m + j <= 60)%nat -> inject_Z (hz (m + j)%nat) / c <= inject_Z (hz m) / c).
  { intros m j A. apply Qmult_le_compat_r; [|apply Qinv_le_0_compat; lra]. rewrite <- Zle_Qle. apply HL, A. }
  assert (UB' : forall m K, Qabs (boys_sum m a K) <= inject_Z uz / c).
  { intros m K. apply scale_abs; [exact CP|apply UB]. }
  assert (RB' : inject_Z (hz (n + 8)%nat) / c * (/ w8 * (20 / 19)) + inject_Z uz / c * (2 / w32) <= 85 / inject_Z (10 ^ 17) * t n).
  { assert (Q : inject_Z (hz (n + 8)%nat) / c * (/ w8 * (20 / 19)) + inject_Z uz / c * (2 / w32) ==
      (inject_Z (hz (n + 8)%nat) / w8 * (20 / 19) + 2 * inject_Z uz / w32) / c) by (field; repeat split; lra).
    rewrite Q. apply Qle_shift_div_r; [exact CP|].
    eapply Qle_trans; [exact RB|]. 
    assert (Q2 : c * (85 / inject_Z (10 ^ 17)) * t n == 85 / inject_Z (10 ^ 17) * t n * c) by ring.
    rewrite Q2. apply Qle_refl. }
  assert (S17 : forall p', 8%nat = S p' -> qsum (fun j => c20 (S j)) p' <= 1 / 19).
  { intros p' E. injection E as <-. exact sum17. }
  split.
  - exact (@expand_pos n N0 8 24 a d r w8 w32 t (fun m => inject_Z (hz m) / c) (inject_Z uz / c)
      eq_refl eq_refl N DX TN TP TL HB' HL' UB' sum8 S24 ST RB' S17).
  - exists (N0 + 32)%nat. intros K HK.
    exact (@expand_relative n N0 8 24 a d r w8 w32 t (fun m => inject_Z (hz m) / c) (inject_Z uz / c)
      eq_refl eq_refl N DX RP TN TP TL HB' HL' UB' sum8 S24 ST RS RB' S17 K HK).
Qed.

(** The facts hold for every row of the table. *)
Lemma expand_row i row n d : nth_error shortgrid_data i = Some row -> (n <= 24)%nat -> Qabs d <= 1 # 20 ->
  0 < expand n 8 d (tv row) /\ exists N1, forall K, (N1 <= K)%nat ->
  Qabs (expand n 8 d (tv row) - boys_sum n (gx 10 i - d) K) <= 1 / inject_Z (10 ^ 15) * expand n 8 d (tv row).
Proof.
  intros ROW N DX.
  exact (@expand_row_gen n d (NK i) (gx 10 i) SC (inject_Z RE) (inject_Z W8) (inject_Z W32) (tv row) (hv i) (UMAX * sc)
    N DX SC_pos RE_pos W8_pos W32_pos (@entry_near i row ROW) (@tv_pos i row ROW) (@tv_le i row ROW) (@hv_bound i row ROW) (@hv_le i row ROW)
    (@all_bound i row ROW) sum24 sum_tail re_small (@rem_bound i row ROW n N)).
Qed.
Opaque sc SC run enclosures RE W8 W32.

(** ** The model of Boys *)
Lemma this_sum l : this (fold_right Qcplus 0%Qc l) == fold_right Qplus 0 (map this l).
Proof. induction l as [|x l IH]; [reflexivity|]. cbn [fold_right map]. rewrite this_add, IH. reflexivity. Qed.
Lemma this_inv q : this (/ q)%Qc == / this q.
Proof. apply Qred_correct. Qed.
Lemma this_qn n : this (qn n) == nq n.
Proof. unfold qn, qz. apply this_Q2Qc. Qed.
Lemma dpow_pow (d : Qc) j : this (d ^ j / qn (fact j))%Qc == dpow (this d) j.
Proof.
  unfold dpow. unfold Qcdiv. rewrite this_mul, this_inv, this_qn. induction j as [|j IH]; [reflexivity|].
  cbn [term Qcpower]. rewrite <- IH, this_mul.
  change (fact (S j)) with (S j * fact j)%nat. rewrite nq_mul.
  assert (F : ~ nq (fact j) == 0).
  { destruct (fact j) eqn:E; [pose proof (lt_O_fact j); lia|apply nq_S_nz]. }
  field. split; [exact F|apply nq_S_nz].
Qed.

Lemma near_boys_ext n x y v w e : x == y -> v == w -> near_boys n x v e -> near_boys n y w e.
Proof.
  intros E V [N0 H]. exists N0. intros K HK. specialize (H K HK).
  assert (B : boys_sum n y K == boys_sum n x K).
  { unfold boys_sum. apply qsum_ext. intros k _. rewrite (@term_ext y x) by (symmetry; exact E). reflexivity. }
  rewrite B, <- V. exact H.
Qed.

(** The Taylor branch with the actual table: relative error at most 10^-15 for every argument. *)
Theorem expansion_accurate x n v : expansion shortgrid x n v -> (n <= 24)%nat ->
  0 < this v /\ near_boys n (this x) (this v) (1 / inject_Z (10 ^ 15) * this v).
Proof.
  intros (i & row & T & Hi & Er & HT & [D1 D2] & ->) N.
  unfold shortgrid in Er. rewrite nth_error_map in Er. destruct (nth_error shortgrid_data i) as [r|] eqn:ER; [|discriminate].
  cbn [option_map] in Er. injection Er as <-.
  set (d := (qn i / Q2Qc 10 - x)%Qc) in *.
  assert (DX : Qabs (this d) <= 1 # 20).
  { apply Qabs_Qle_condition. unfold Qcle in D1, D2. rewrite this_opp in D1. rewrite this_Q2Qc in D1, D2. split; assumption. }
  assert (HV : this (fold_right Qcplus 0%Qc (map (fun j => (d ^ j / qn (fact j) * T j)%Qc) (seq 0 8))) == expand n 8 (this d) (tv r)).
  { rewrite this_sum, map_map. unfold expand.
    assert (TJ : forall j, (j < 8)%nat -> this (d ^ j / qn (fact j) * T j)%Qc == dpow (this d) j * tv r (n + j)).
    { intros j Hj. rewrite this_mul, dpow_pow. specialize (HT j Hj). unfold decs in HT. rewrite nth_error_map in HT.
      unfold tv. destruct (nth_error r (n + j)) as [e|]; [|discriminate]. cbn [option_map] in HT. injection HT as <-.
      rewrite this_Q2Qc. reflexivity. }
    cbn [seq map fold_right qsum]. rewrite !TJ by lia. ring. }
  assert (XD : gx 10 i - this d == this x).
  { unfold d. rewrite this_sub. unfold Qcdiv. rewrite this_mul, this_qn. unfold gx.
    assert (I10 : this (/ Q2Qc 10)%Qc == / nq 10) by (vm_compute; reflexivity). rewrite I10. unfold Qdiv. ring. }
  destruct (@expand_row i r n (this d) ER N DX) as [EP [N1 EE]].
  split.
  - rewrite HV. exact EP.
  - apply (@near_boys_ext n (gx 10 i - this d) (this x) (expand n 8 (this d) (tv r))); [exact XD|symmetry; exact HV|].
    exists N1. intros K HK. rewrite HV. apply EE, HK.
Qed.

(** The table: every entry is the Boys function at its grid point, to half a unit in the 18th digit. *)
Theorem entry_value i row n v : nth_error shortgrid i = Some row -> nth_error row n = Some v ->
  0 < this v /\ near_boys n (nq i / nq 10) (this v) (this v / inject_Z RE).
Proof.
  intros Er Ev. unfold shortgrid in Er. rewrite nth_error_map in Er.
  destruct (nth_error shortgrid_data i) as [r|] eqn:ER; [|discriminate].
  cbn [option_map] in Er. injection Er as <-. unfold decs in Ev. rewrite nth_error_map in Ev.
  destruct (nth_error r n) as [d|] eqn:Ed; [|discriminate]. cbn [option_map] in Ev. injection Ev as <-.
  assert (N : (n <= 31)%nat).
  { pose proof (proj1 (@row_parts i r ER)) as L. assert (n < length r)%nat by (apply nth_error_Some; congruence). lia. }
  assert (HV : this (Q2Qc (dq d)) == tv r n) by (rewrite this_Q2Qc; unfold tv; rewrite Ed; reflexivity).
  split; [rewrite HV; exact (@tv_pos i r ER n N)|].
  exists (NK i). intros K HK. rewrite HV. exact (@entry_near i r ER n K N HK).
Qed.

(** The downward recursion keeps a relative error. *)
Theorem recursion_accurate qexp x n B e : 0 <= e -> (0 <= x)%Qc -> boys_recursion qexp x n B ->
  0 < this (B n) -> near_boys n (this x) (this (B n)) (e * this (B n)) ->
  0 < this (qexp (- x)%Qc) -> near_exp (this x) (this (qexp (- x)%Qc)) (e * this (qexp (- x)%Qc)) ->
  forall k, (k <= n)%nat -> 0 < this (B k) /\ near_boys k (this x) (this (B k)) (e * this (B k)).
Proof.
  intros E0 X0 RC P0 NB PE [NE HE].
  assert (G : forall m k, (n - k = m)%nat -> (k <= n)%nat -> 0 < this (B k) /\ near_boys k (this x) (this (B k)) (e * this (B k))).
  { induction m as [|m IH]; intros k E K.
    - assert (k = n) as -> by lia. split; assumption.
    - destruct (IH (S k)) as [P [N1 H1]]; [lia|lia|]. clear IH.
      specialize (RC k ltac:(lia)). apply (f_equal this) in RC.
      assert (RQ : (2 * nq k + 1) * this (B k) == 2 * this x * this (B (S k)) + this (qexp (- x)%Qc)).
      { transitivity (this ((Q2Qc 2 * qn k + 1) * B k)%Qc).
        - rewrite this_mul, this_add, this_mul, this_qn, this_Q2Qc. reflexivity.
        - rewrite RC, this_add, this_mul, this_mul, this_Q2Qc. reflexivity. }
      clear RC. unfold Qcle in X0. change (this 0%Qc) with 0 in X0.
      pose proof (nq_pos k) as NK. set (c := 2 * nq k + 1) in *. assert (C : 0 < c) by (unfold c; lra).
      set (b := this (B k)) in *. set (b1 := this (B (S k))) in *. set (ex := this (qexp (- x)%Qc)) in *. set (y := this x) in *.
      assert (PB : 0 < b).
      { assert (0 < c * b). { rewrite RQ. assert (0 <= 2 * y * b1) by (apply Qmult_le_0_compat; lra). lra. }
        destruct (Qlt_le_dec 0 b) as [Q|Q]; [exact Q|exfalso].
        assert (c * b <= c * 0) by (rewrite !(Qmult_comm c); apply Qmult_le_compat_r; lra). lra. }
      split; [exact PB|]. exists (S (max N1 NE)). intros K' HK. destruct K' as [|K']; [lia|].
      specialize (H1 K' ltac:(lia)). specialize (HE (S K') ltac:(lia)).
      pose proof (boys_sum_recursion k y K') as RS. fold c in RS.
      apply abs_le_iff in H1. apply abs_le_iff in HE. destruct H1 as [H1 H2], HE as [H3 H4].
      set (F := boys_sum k y (S K')) in *. set (F1 := boys_sum (S k) y K') in *. set (EX := exp_sum y (S K')) in *.
      assert (M1 : 2 * y * (- (e * b1)) <= 2 * y * (b1 - F1)) by (rewrite !(Qmult_comm (2 * y)); apply Qmult_le_compat_r; lra).
      assert (M2 : 2 * y * (b1 - F1) <= 2 * y * (e * b1)) by (rewrite !(Qmult_comm (2 * y)); apply Qmult_le_compat_r; lra).
      assert (D : c * (b - F) == 2 * y * (b1 - F1) + (ex - EX)).
      { setoid_replace (c * (b - F)) with (c * b - c * F) by ring. rewrite RQ, RS. ring. }
      assert (EB : c * (e * b) == 2 * y * (e * b1) + e * ex).
      { setoid_replace (c * (e * b)) with (e * (c * b)) by ring. rewrite RQ. ring. }
      assert (EB' : c * (- (e * b)) == 2 * y * (- (e * b1)) - e * ex).
      { setoid_replace (c * (- (e * b))) with (- (e * (c * b))) by ring. rewrite RQ. ring. }
      apply Qabs_Qle_condition. split.
      + apply (Qmult_le_l _ _ c C). rewrite D, EB'. lra.
      + apply (Qmult_le_l _ _ c C). rewrite D, EB. lra. }
  intros k K. apply (G (n - k)%nat); auto.
Qed.

(** boys_F_split for a lane below the switch-over point: every order has relative error at most 10^-15, if
    [exp] has. *)
Theorem split_accurate len zf novec qsqrt qexp qpow xs n F v :
  (0 < len)%nat -> (forall v, (v < len)%nat -> (0 <= xs v)%Qc) -> (n <= 24)%nat ->
  ((n + 1) * len <= length F)%nat ->
  ((4 <= n)%nat -> forall v, (v < len)%nat -> (MAXX <= xs v)%Qc -> pow_sqrt_ok qsqrt qpow (xs v) n) ->
  (v < len)%nat -> (xs v < MAXX)%Qc ->
  let e := 1 / inject_Z (10 ^ 15) in
  0 < this (qexp (- xs v)%Qc) -> near_exp (this (xs v)) (this (qexp (- xs v)%Qc)) (e * this (qexp (- xs v)%Qc)) ->
  exists F', split len zf novec qsqrt qexp qpow shortgrid longfac xs n F = Some F' /\ length F' = length F /\
    forall k, (k <= n)%nat -> exists b, nth_error F' (v + k * len) = Some b /\
      0 < this b /\ near_boys k (this (xs v)) (this b) (e * this b).
Proof.
  intros LEN POS N L PS Hv SH e PE HE.
  destruct (@split_ok len zf novec qsqrt qexp qpow shortgrid longfac LEN shortgrid_ok longfac_length xs n POS
    (fun _ _ _ => N) ltac:(lia) F L PS) as (F' & S1 & L1 & _ & V).
  exists F'. split; [exact S1|]. split; [exact L1|]. intros k K.
  destruct (V v Hv) as (B & V1 & V2 & V3 & V4). exists (B k). split; [apply V1, K|].
  destruct (Nat.lt_ge_cases n 4) as [C|C].
  - destruct (V3 C k K) as [V5 _]. apply expansion_accurate; [apply V5, SH|lia].
  - destruct V2 as [V5 _]. destruct (expansion_accurate (V5 SH) N) as [P NB].
    apply (@recursion_accurate qexp (xs v) n B e); auto. discriminate.
Qed.
