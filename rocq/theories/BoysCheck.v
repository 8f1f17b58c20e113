(** Enclosures of the Boys function at rational points by integer arithmetic: a midpoint and a radius, scaled by
    10^40 (10^60 for the alternating series of exp). *)
From Coq Require Import Arith ZArith QArith Qabs Qfield Lia Lqa List Bool.
Import ListNotations.
From Verif Require Import Base BoysSeries BoysData.
Set Implicit Arguments.
Local Open Scope Q_scope.

Definition sc : Z := 10 ^ 40.
Definition drop : Z := 10 ^ 20.
(** Bound for all partial sums of all orders, x <= 43. *)
Definition UMAX : Z := 10 ^ 19.

(** Integer division, arranged for fast evaluation (quotient and remainder by the binary schoolbook method, one
    subtraction per digit). *)
Definition dfin (b : positive) (q : N) (r : positive) : N * N :=
  match Pos.sub_mask r b with
  | Pos.IsNeg => (N.double q, Npos r)
  | Pos.IsNul => (N.succ_double q, 0%N)
  | Pos.IsPos d => (N.succ_double q, Npos d)
  end.
Fixpoint pdiv (b a : positive) : N * N :=
  match a with
  | xH => dfin b 0%N xH
  | xO a' => let (q, r) := pdiv b a' in match r with N0 => (N.double q, 0%N) | Npos p => dfin b q (xO p) end
  | xI a' => let (q, r) := pdiv b a' in match r with N0 => dfin b q xH | Npos p => dfin b q (xI p) end
  end.
Definition zdiv (a b : Z) : Z :=
  match a, b with Zpos a', Zpos b' => Z.of_N (fst (pdiv b' a')) | _, _ => a / b end%Z.
Lemma dfin_ok b q r : (Npos r < 2 * Npos b)%N ->
  let (q', r') := dfin b q r in (q' * Npos b + r' = 2 * q * Npos b + Npos r /\ r' < Npos b)%N.
Proof.
  intros H. unfold dfin. rewrite ?N.double_spec, ?N.succ_double_spec. pose proof (Pos.sub_mask_spec r b) as S1. inversion S1; subst; cbn; lia.
Qed.
Lemma pdiv_ok b a : let (q, r) := pdiv b a in (q * Npos b + r = Npos a /\ r < Npos b)%N.
Proof.
  induction a as [a IH|a IH|]; cbn [pdiv].
  - destruct (pdiv b a) as [q r]. destruct r as [|p].
    + pose proof (@dfin_ok b q 1 ltac:(lia)) as D. destruct (dfin b q 1). lia.
    + pose proof (@dfin_ok b q (xI p) ltac:(lia)) as D. destruct (dfin b q p~1). lia.
  - destruct (pdiv b a) as [q r]. destruct r as [|p].
    + rewrite N.double_spec. lia.
    + pose proof (@dfin_ok b q (xO p) ltac:(lia)) as D. destruct (dfin b q p~0). lia.
  - pose proof (@dfin_ok b 0 1 ltac:(lia)) as D. destruct (dfin b 0 1). lia.
Qed.
Lemma zdiv_eq a b : zdiv a b = (a / b)%Z.
Proof.
  destruct a as [|a|a], b as [|b|b]; try reflexivity. cbn [zdiv].
  pose proof (pdiv_ok b a) as H. destruct (pdiv b a) as [q r]. cbn [fst].
  apply (Z.div_unique _ _ _ (Z.of_N r)); lia.
Qed.

(** After K terms of exp(-x), scaled by [sc * drop]: sum and its error, next x^K / K! and its error. *)
Record state := State { ev : Z; ee : Z; uv : Z; ue : Z }.
Definition step (dn i : Z) (k : nat) (s : state) : state :=
  let b := (dn * Z.of_nat (S k))%Z in
  State (if Nat.even k then ev s + uv s else ev s - uv s) (ee s + ue s)
        (zdiv (uv s * i) b) (zdiv (ue s * i) b + 2).
Fixpoint run (dn i : Z) (K : nat) : state :=
  match K with O => State 0 0 (sc * drop) 0 | S k => step dn i k (run dn i k) end.
(** The same rounded to the scale [sc], with the bound of the remaining terms added to the error. *)
Definition exp_mid (s : state) : Z := zdiv (ev s) drop.
Definition exp_rad (s : state) : Z := (zdiv (ee s + 2 * (uv s + ue s)) drop + 2)%Z.

(** Orders [n], [n - 1], ..., 0 by the downward recursion; element [m] of the result belongs to order [m]. *)
(** [i2], [e], [er]: twice [i], and [dn] times the value of exp and its error. *)
Fixpoint orders (dn i2 e er : Z) (n : nat) (v r : Z) (acc : list (Z * Z)) : list (Z * Z) :=
  match n with
  | O => (v, r) :: acc
  | S m => let b := (dn * Z.of_nat (2 * m + 1))%Z in
           orders dn i2 e er m (zdiv (i2 * v + e) b) (zdiv (i2 * r + er) b + 2) ((v, r) :: acc)
  end.
(** Starting from order [T], of which only the crude bound is known. *)
Definition enclosures (dn i : Z) (K T : nat) : list (Z * Z) :=
  let s := run dn i K in orders dn (2 * i) (dn * exp_mid s) (dn * exp_rad s) T 0 (UMAX * sc) [].

(** ** Soundness *)
Definition SC : Q := inject_Z sc.
Lemma SC_pos : 0 < SC. Proof. reflexivity. Qed.
Definition DQ : Q := inject_Z drop.
Lemma DQ_pos : 0 < DQ. Proof. reflexivity. Qed.

Lemma iz_pos z : (0 < z)%Z -> 0 < inject_Z z.
Proof. intros H. change 0 with (inject_Z 0). rewrite <- Zlt_Qlt. exact H. Qed.
Lemma zq (a b : Z) : (a <= b)%Z -> inject_Z a <= inject_Z b.
Proof. intros H. rewrite <- Zle_Qle. exact H. Qed.

(** Floor division: below, by less than one. *)
Lemma div_near a b : (0 < b)%Z -> inject_Z (a / b) <= inject_Z a / inject_Z b /\ inject_Z a / inject_Z b <= inject_Z (a / b) + 1.
Proof.
  intros B. pose proof (iz_pos B) as B'. split.
  - apply Qle_shift_div_l; [exact B'|]. rewrite <- inject_Z_mult, <- Zle_Qle, Z.mul_comm. apply Z.mul_div_le, B.
  - apply Qle_shift_div_r; [exact B'|]. change 1 with (inject_Z 1). rewrite <- inject_Z_plus, <- inject_Z_mult, <- Zle_Qle.
    pose proof (Z.mul_succ_div_gt a b B). lia.
Qed.
(** Midpoint and radius through a division. *)
Lemma div_mid (y : Q) v r b : (0 < b)%Z -> Qabs (y - inject_Z v) <= inject_Z r ->
  Qabs (y / inject_Z b - inject_Z (v / b)) <= inject_Z (r / b + 2).
Proof.
  intros B H. pose proof (iz_pos B) as B'. apply Qabs_Qle_condition in H. destruct H as [H1 H2].
  destruct (div_near v B) as [V1 V2]. destruct (div_near r B) as [R1 R2].
  rewrite inject_Z_plus. change (inject_Z 2) with 2. set (bq := inject_Z b) in *. apply Qabs_Qle_condition.
  assert (A1 : (inject_Z v - inject_Z r) / bq <= y / bq) by (apply Qmult_le_compat_r; [lra|apply Qinv_le_0_compat; lra]).
  assert (A2 : y / bq <= (inject_Z v + inject_Z r) / bq) by (apply Qmult_le_compat_r; [lra|apply Qinv_le_0_compat; lra]).
  assert (E1 : (inject_Z v - inject_Z r) / bq == inject_Z v / bq - inject_Z r / bq) by (field; lra).
  assert (E2 : (inject_Z v + inject_Z r) / bq == inject_Z v / bq + inject_Z r / bq) by (field; lra).
  rewrite E1 in A1. rewrite E2 in A2. split; lra.
Qed.

Section Sound.
(** The point is i / dn. *)
Variables dn i : nat.
Hypothesis DN : (0 < dn)%nat.
Notation iz := (Z.of_nat i).
Notation dz := (Z.of_nat dn).
Definition gx : Q := nq i / nq dn.
Lemma dn_pos : 0 < nq dn.
Proof. unfold nq. change 0 with (inject_Z 0). rewrite <- Zlt_Qlt. lia. Qed.
Lemma gx_nonneg : 0 <= gx.
Proof. unfold gx. pose proof (nq_pos i). apply Qle_shift_div_l; [apply dn_pos|]. lra. Qed.

Definition sound (K : nat) (s : state) : Prop :=
  Qabs (SC * DQ * exp_sum gx K - inject_Z (ev s)) <= inject_Z (ee s) /\
  Qabs (SC * DQ * uterm gx K - inject_Z (uv s)) <= inject_Z (ue s).

Opaque sc drop.
Lemma run_sound K : sound K (run dz iz K).
Proof.
  induction K as [|K IH].
  - unfold sound. cbn [run ev ee uv ue]. unfold exp_sum. cbn [qsum]. rewrite uterm_0. split.
    + setoid_replace (SC * DQ * 0 - inject_Z 0) with 0 by (change (inject_Z 0) with 0; ring). discriminate.
    + rewrite inject_Z_mult. fold SC. fold DQ.
      setoid_replace (SC * DQ * 1 - SC * DQ) with 0 by ring. discriminate.
  - cbn [run]. set (s := run dz iz K) in *. destruct IH as [A B]. unfold step, sound. cbn [ev ee uv ue]. split.
    + unfold exp_sum. cbn [qsum]. fold (exp_sum gx K). rewrite term_even_odd.
      apply Qabs_Qle_condition in A, B. destruct A as [A1 A2], B as [B1 B2]. apply Qabs_Qle_condition.
      rewrite !inject_Z_plus. set (c := SC * DQ) in *. set (t := exp_sum gx K) in *. set (u := uterm gx K) in *.
      destruct (Nat.even K).
      * rewrite inject_Z_plus. assert (Q : c * (t + u) == c * t + c * u) by ring. rewrite Q. split; lra.
      * unfold Z.sub. rewrite inject_Z_plus, inject_Z_opp. assert (Q : c * (t + - u) == c * t - c * u) by ring. rewrite Q. split; lra.
    + set (b := (dz * Z.of_nat (S K))%Z). assert (Hb : (0 < b)%Z) by (unfold b; nia).
      assert (U : SC * DQ * uterm gx (S K) == (SC * DQ * uterm gx K * nq i) / inject_Z b).
      { rewrite uterm_S. unfold gx, b. rewrite inject_Z_mult. fold (nq (S K)). fold (nq dn). pose proof dn_pos.
        field; split; first [apply nq_S_nz | lra]. }
      rewrite U, !zdiv_eq. apply div_mid; [exact Hb|]. rewrite !inject_Z_mult. fold (nq i).
      setoid_replace (SC * DQ * uterm gx K * nq i - inject_Z (uv s) * nq i) with ((SC * DQ * uterm gx K - inject_Z (uv s)) * nq i) by ring.
      rewrite Qabs_Qmult, (Qabs_pos (nq i)) by apply nq_pos. apply Qmult_le_compat_r; [exact B|apply nq_pos].
Qed.

Variables K0 T : nat.
Hypothesis KBIG : (2 * i <= dn * S K0)%nat.
Lemma small_x : 2 * gx <= nq (S K0).
Proof.
  unfold gx. pose proof dn_pos as D.
  assert (H : 2 * nq i <= nq (S K0) * nq dn) by (change 2 with (nq 2); rewrite <- !nq_mul; apply nq_le; lia).
  setoid_replace (2 * (nq i / nq dn)) with (2 * nq i / nq dn) by (field; lra). apply Qle_shift_div_r; assumption.
Qed.

(** [(v, r)]: the scaled order [n] is within [r] of [v], from [N] terms on. *)
Definition encl (n N : nat) (p : Z * Z) : Prop :=
  forall K, (N <= K)%nat -> Qabs (SC * boys_sum n gx K - inject_Z (fst p)) <= inject_Z (snd p).
Definition encl_exp (N : nat) (p : Z * Z) : Prop :=
  forall K, (N <= K)%nat -> Qabs (SC * exp_sum gx K - inject_Z (fst p)) <= inject_Z (snd p).

Lemma exp_encl : encl_exp K0 (exp_mid (run dz iz K0), exp_rad (run dz iz K0)).
Proof.
  intros K HK. destruct (run_sound K0) as [A B]. set (s := run dz iz K0) in *. cbn [fst snd].
  pose proof (@exp_sum_tail gx K0 (K - K0) gx_nonneg small_x) as TL. replace (K0 + (K - K0))%nat with K in TL by lia.
  pose proof SC_pos as S1. pose proof DQ_pos as D1.
  assert (CP : 0 < SC * DQ) by (apply Qmult_lt_0_compat; assumption).
  assert (E : SC * exp_sum gx K == SC * DQ * exp_sum gx K / inject_Z drop) by (fold DQ; field; lra).
  rewrite E. unfold exp_mid, exp_rad. rewrite !zdiv_eq. apply div_mid; [reflexivity|].
  apply Qabs_Qle_condition in A, B, TL. destruct A as [A1 A2], B as [B1 B2], TL as [T1 T2].
  set (c := SC * DQ) in *. clearbody c.
  assert (T1' : c * (- (2 * uterm gx K0)) <= c * (exp_sum gx K - exp_sum gx K0)) by (rewrite !(Qmult_comm c); apply Qmult_le_compat_r; lra).
  assert (T2' : c * (exp_sum gx K - exp_sum gx K0) <= c * (2 * uterm gx K0)) by (rewrite !(Qmult_comm c); apply Qmult_le_compat_r; lra).
  assert (Q1 : c * (- (2 * uterm gx K0)) == - (2 * (c * uterm gx K0))) by ring. rewrite Q1 in T1'.
  assert (Q2 : c * (2 * uterm gx K0) == 2 * (c * uterm gx K0)) by ring. rewrite Q2 in T2'.
  assert (Q3 : c * (exp_sum gx K - exp_sum gx K0) == c * exp_sum gx K - c * exp_sum gx K0) by ring. rewrite Q3 in T1', T2'.
  apply Qabs_Qle_condition. rewrite inject_Z_plus, inject_Z_mult, inject_Z_plus. change (inject_Z 2) with 2. split; lra.
Qed.

Lemma down_encl n N v r e er : encl (S n) N (v, r) -> encl_exp N (e, er) ->
  let b := (dz * Z.of_nat (2 * n + 1))%Z in
  encl n (S N) ((2 * iz * v + dz * e) / b, (2 * iz * r + dz * er) / b + 2)%Z.
Proof.
  intros HF HE b K HK. destruct K as [|K]; [lia|].
  specialize (HF K ltac:(lia)). specialize (HE (S K) ltac:(lia)). cbn [fst snd] in *.
  assert (Hb : (0 < b)%Z) by (unfold b; nia). pose proof dn_pos as DP.
  assert (EQ : SC * boys_sum n gx (S K) == (2 * nq i * (SC * boys_sum (S n) gx K) + nq dn * (SC * exp_sum gx (S K))) / inject_Z b).
  { pose proof (boys_sum_recursion n gx K) as RC.
    unfold b. rewrite inject_Z_mult. fold (nq (2 * n + 1)). fold (nq dn).
    assert (O : nq (2 * n + 1) == 2 * nq n + 1) by (rewrite nq_add, nq_mul; reflexivity).
    assert (Z : ~ nq (2 * n + 1) == 0) by (rewrite O; pose proof (nq_pos n); lra).
    assert (X : 2 * nq i * (SC * boys_sum (S n) gx K) + nq dn * (SC * exp_sum gx (S K)) ==
      nq dn * SC * (2 * gx * boys_sum (S n) gx K + exp_sum gx (S K))) by (unfold gx; field; lra).
    rewrite X, <- RC, <- O. field; split; first [exact Z | lra]. }
  rewrite EQ. apply div_mid; [exact Hb|]. pose proof (nq_pos i) as NI.
  rewrite !inject_Z_plus, !inject_Z_mult. change (inject_Z 2) with 2. fold (nq i). fold (nq dn).
  setoid_replace (2 * nq i * (SC * boys_sum (S n) gx K) + nq dn * (SC * exp_sum gx (S K)) - (2 * nq i * inject_Z v + nq dn * inject_Z e))
    with (2 * nq i * (SC * boys_sum (S n) gx K - inject_Z v) + nq dn * (SC * exp_sum gx (S K) - inject_Z e)) by ring.
  eapply Qle_trans; [apply Qabs_triangle|]. rewrite !Qabs_Qmult, (Qabs_pos (nq i)), (Qabs_pos (nq dn)) by lra. change (Qabs 2) with 2.
  apply Qplus_le_compat; rewrite ?(Qmult_comm (2 * nq i)), ?(Qmult_comm (nq dn)); apply Qmult_le_compat_r; try assumption; lra.
Qed.

Lemma encl_weaken n N M p : encl n N p -> (N <= M)%nat -> encl n M p.
Proof. intros H L K HK. apply H. lia. Qed.

Lemma orders_sound e er N top : (forall N', (N <= N')%nat -> encl_exp N' (e, er)) ->
  forall n v r acc M, (N <= M)%nat -> encl n M (v, r) -> (M + n <= N + top)%nat ->
  (forall m p, nth_error acc m = Some p -> encl (S n + m) (N + top) p) ->
  forall m p, nth_error (orders dz (2 * iz) (dz * e) (dz * er) n v r acc) m = Some p -> encl m (N + top) p.
Proof.
  intros HE. induction n as [|n IH]; intros v r acc M NM H L A m p E.
  - cbn [orders] in E. destruct m as [|m].
    + injection E as <-. apply (@encl_weaken 0 M _ _ H). lia.
    + apply (A m p E).
  - cbn [orders] in E. rewrite !zdiv_eq in E. revert E. apply (IH _ _ _ (S M)).
    + lia.
    + apply down_encl; [exact H|apply HE, NM].
    + lia.
    + intros m' p' E'. destruct m' as [|m'].
      * injection E' as <-. rewrite Nat.add_0_r. apply (@encl_weaken _ M _ _ H). lia.
      * replace (S n + S m')%nat with (S (S n) + m')%nat by lia. apply (A m' p' E').
Qed.
End Sound.

(** ** The crude bound *)
(** Upper bounds of x^k / k! and of the sum, x = 43. *)
Fixpoint ups (k : nat) : Z * Z :=
  match k with O => (1, 0) | S j => let '(u, t) := ups j in (u * 43 / Z.of_nat (S j) + 1, t + u) end%Z.
Lemma ups_ok k : uterm 43 k <= inject_Z (fst (ups k)) /\ qsum (uterm 43) k <= inject_Z (snd (ups k)).
Proof.
  induction k as [|k [A B]]; [split; discriminate|]. cbn [ups qsum]. destruct (ups k) as [u t]. cbn [fst snd] in *. split.
  - rewrite uterm_S, inject_Z_plus. assert (P : (0 < Z.of_nat (S k))%Z) by lia.
    destruct (div_near (u * 43) P) as [_ D]. eapply Qle_trans; [|exact D]. fold (nq (S k)).
    apply Qmult_le_compat_r; [|apply Qinv_le_0_compat, Qlt_le_weak, nq_S_pos].
    rewrite inject_Z_mult. change (inject_Z 43) with 43. apply Qmult_le_compat_r; [exact A|discriminate].
  - rewrite inject_Z_plus. lra.
Qed.
Lemma ups_small : (snd (ups 86) + 2 * fst (ups 86) <=? UMAX)%Z = true.
Proof. vm_compute. reflexivity. Qed.
Lemma uterm_mono x y k : 0 <= x -> x <= y -> uterm x k <= uterm y k.
Proof.
  intros H L. induction k as [|k IH]; [apply Qle_refl|]. rewrite !uterm_S.
  apply Qmult_le_compat_r; [|apply Qinv_le_0_compat, Qlt_le_weak, nq_S_pos].
  pose proof (uterm_nonneg k H) as U. eapply Qle_trans; [apply Qmult_le_compat_r; [exact IH|exact H]|].
  rewrite !(Qmult_comm (uterm y k)). apply Qmult_le_compat_r; [exact L|lra].
Qed.
Lemma usum_gen k0 K : (snd (ups k0) + 2 * fst (ups k0) <=? UMAX)%Z = true -> 2 * 43 <= nq (S k0) ->
  qsum (uterm 43) K <= inject_Z UMAX.
Proof.
  intros H L. eapply Qle_trans; [apply (@usum_bound 43 k0 K); [discriminate|exact L]|].
  apply Z.leb_le in H. apply zq in H. rewrite inject_Z_plus, inject_Z_mult in H. change (inject_Z 2) with 2 in H.
  destruct (ups_ok k0) as [A B]. lra.
Qed.
Lemma k86 : 2 * 43 <= nq 87. Proof. vm_compute. discriminate. Qed.
Lemma usum_all K : qsum (uterm 43) K <= inject_Z UMAX.
Proof. exact (@usum_gen 86 K ups_small k86). Qed.
Lemma boys_sum_all n x K : 0 <= x -> x <= 43 -> Qabs (boys_sum n x K) <= inject_Z UMAX.
Proof.
  intros P L. eapply Qle_trans; [apply boys_sum_crude, P|]. eapply Qle_trans; [|apply (usum_all K)].
  apply qsum_le. intros k _. apply uterm_mono; assumption.
Qed.

Section Main.
Variables dn i K0 T : nat.
Hypothesis DN : (0 < dn)%nat.
Hypothesis SMALL : (i <= 43 * dn)%nat.
Hypothesis KBIG : (2 * i <= dn * S K0)%nat.
Lemma gx_small : gx dn i <= 43.
Proof.
  unfold gx. apply Qle_shift_div_r; [apply dn_pos, DN|]. change 43 with (nq 43). rewrite <- nq_mul. apply nq_le, SMALL.
Qed.
Opaque sc.
Lemma total_sound n K : SC * Qabs (boys_sum n (gx dn i) K) <= inject_Z (UMAX * sc).
Proof.
  rewrite inject_Z_mult. fold SC. rewrite !(Qmult_comm SC). rewrite (Qmult_comm (inject_Z UMAX)), (Qmult_comm SC).
  apply Qmult_le_compat_r; [|apply Qlt_le_weak, SC_pos]. apply boys_sum_all; [apply gx_nonneg, DN|exact gx_small].
Qed.
Lemma enclosures_sound m p : nth_error (enclosures (Z.of_nat dn) (Z.of_nat i) K0 T) m = Some p -> encl dn i m (K0 + T) p.
Proof.
  unfold enclosures. set (s := run (Z.of_nat dn) (Z.of_nat i) K0).
  apply (@orders_sound dn i DN) with (K0 := K0) (N := K0) (top := T) (M := K0) (e := exp_mid s) (er := exp_rad s) (n := T) (v := 0%Z) (r := (UMAX * sc)%Z) (acc := []).
  - exact KBIG.
  - intros N' L K HK. apply (@exp_encl dn i DN K0 KBIG); lia.
  - lia.
  - intros K HK. cbn [fst snd]. change (inject_Z 0) with 0.
    setoid_replace (SC * boys_sum T (gx dn i) K - 0) with (SC * boys_sum T (gx dn i) K) by ring.
    rewrite Qabs_Qmult, (Qabs_pos SC) by (apply Qlt_le_weak, SC_pos). apply total_sound.
  - lia.
  - intros m' p' E. destruct m'; discriminate.
Qed.
End Main.
