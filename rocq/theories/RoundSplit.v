(** All orders of the Boys function with rounding, for an argument of the Taylor branch.
    Source: skel/simint/boys/boys.h:14-92, skel/simint/boys/boys_taylor.h:14-136.

    [small_n], [recur_step], [recur_down] and [large_n] of Boys.v again over the real numbers with [rnd] after every literal and operation.
    One lane is modelled: [F] holds its values, order [k] at place [k] (the layout of all lanes is that of C44), and its argument is
    below the largest one, so that every form of the code takes the Taylor branch for it.  [rexp] is the exponential of the library. *)
From Coq Require Import List Arith Reals Lra Lia ZArith.
Import ListNotations.
From Verif Require Import Base BoysReal RoundSum RoundHRR RoundBoys RoundBoysAcc.
Local Open Scope R_scope.

(** ** Model *)
Section Model.
Variables (rnd rexp : R -> R).
(** What the compiler fuses: in the expansion of each order, and in the multiply-add of each step. *)
Variables (fs : nat -> nat -> fma) (fd : nat -> bool).

(** boys.h:76, [1.0 / (2.0 * n2 + 1)]. *)
Definition rden (n2 : nat) : R := rnd (/ rnd (rnd (rnd 2 * INR n2) + 1)).
(** :79, [SIMINT_MUL(den, SIMINT_FMADD(x2, F[n2+1], ex))]. *)
Definition rdown1 (n2 : nat) (x2 ex y : R) : R :=
  rnd (rden n2 * rnd ((if fd n2 then x2 * y else rnd (x2 * y)) + ex)).
Definition rput (F : list R) (k : nat) (v : R) : option (list R) := if (k <? length F)%nat then Some (upd F k v) else None.
(** :74-80. *)
Fixpoint rdown (x2 ex : R) (n : nat) (F : list R) : option (list R) :=
  match n with
  | 0%nat => Some F
  | S n2 => match nth_error F (S n2) with
            | Some y => match rput F n2 (rdown1 n2 x2 ex y) with Some F' => rdown x2 ex n2 F' | None => None end
            | None => None
            end
  end.
(** :43-81. *)
Definition rlarge (x : R) (n : nat) (F : list R) : option (list R) :=
  match rtaylor rnd (fs n) x n with
  | Some t => match rput F n t with Some F' => rdown (rnd (rnd 2 * x)) (rexp (- x)) n F' | None => None end
  | None => None
  end.
(** :14-40, boys_taylor.h:26-39 (and 82-99): orders [i], [i + 1], ..., [k] of them. *)
Fixpoint rsmall (x : R) (i k : nat) (F : list R) : option (list R) :=
  match k with
  | 0%nat => Some F
  | S k' => match rtaylor rnd (fs i) x i with
            | Some t => match rput F i t with Some F' => rsmall x (S i) k' F' | None => None end
            | None => None
            end
  end.
(** :83-92. *)
Definition rsplit (x : R) (n : nat) (F : list R) : option (list R) :=
  if (n <? 4)%nat then rsmall x 0 (S n) F else rlarge x n F.
End Model.

(** ** Errors *)
(** [x] is the nonnegative [v] up to a factor [c]. *)
Definition within (c x v : R) : Prop := 1 <= c /\ 0 <= v /\ Rabs (x - v) <= (c - 1) * v.
Lemma within_prod c d x y v w : within c x v -> within d y w -> within (c * d) (x * y) (v * w).
Proof.
  intros (C & V & E) (D & W & G). split; [nra|]. split; [nra|].
  replace (x * y - v * w) with ((x - v) * (y - w) + ((x - v) * w + v * (y - w))) by ring.
  pose proof (Rabs_pos (x - v)). pose proof (Rabs_pos (y - w)).
  apply Rle_trans with (1 := Rabs_triang _ _). apply Rle_trans with (Rabs (x - v) * Rabs (y - w) + (Rabs (x - v) * w + v * Rabs (y - w))).
  - rewrite <- Rabs_mult. apply Rplus_le_compat_l. apply Rle_trans with (1 := Rabs_triang _ _). rewrite !Rabs_mult, (Rabs_right w), (Rabs_right v) by lra. lra.
  - assert (Rabs (x - v) * Rabs (y - w) <= ((c - 1) * v) * ((d - 1) * w)) by (apply Rmult_le_compat; assumption).
    assert (Rabs (x - v) * w <= ((c - 1) * v) * w) by (apply Rmult_le_compat_r; assumption).
    assert (v * Rabs (y - w) <= v * ((d - 1) * w)) by (apply Rmult_le_compat_l; assumption).
    replace ((c * d - 1) * (v * w)) with ((c - 1) * v * ((d - 1) * w) + ((c - 1) * v * w + v * ((d - 1) * w))) by ring. lra.
Qed.
Lemma within_plus c x y v w : within c x v -> within c y w -> within c (x + y) (v + w).
Proof.
  intros (C & V & E) (_ & W & G). split; [exact C|]. split; [lra|]. replace (x + y - (v + w)) with ((x - v) + (y - w)) by ring.
  apply Rle_trans with (1 := Rabs_triang _ _). lra.
Qed.
Lemma within_mono c d x v : c <= d -> within c x v -> within d x v.
Proof. intros H (C & V & E). split; [lra|]. split; [exact V|]. nra. Qed.
Lemma within_self v : 0 <= v -> within 1 v v.
Proof. intros V. split; [lra|]. split; [exact V|]. rewrite !Rminus_diag_eq, Rabs_R0 by reflexivity. lra. Qed.
Lemma within_inv c x v : c <= 3 / 2 -> 0 < v -> within c x v -> within (c * c) (/ x) (/ v).
Proof.
  intros H V (C & _ & E). assert (Hx : (2 - c) * v <= x). { pose proof (Rle_abs (- (x - v))) as K. rewrite Rabs_Ropp in K. lra. }
  assert (X : 0 < x) by nra. assert (IV : 0 < / v) by (apply Rinv_0_lt_compat, V). split; [nra|]. split; [lra|].
  replace (/ x - / v) with ((- (x - v)) * (/ x * / v)) by (field; lra). rewrite Rabs_mult, Rabs_Ropp, (Rabs_right (/ x * / v)).
  2: { apply Rle_ge, Rlt_le, Rmult_lt_0_compat; [apply Rinv_0_lt_compat, X|exact IV]. }
  rewrite <- Rmult_assoc. apply Rmult_le_compat_r; [lra|]. apply (Rmult_le_reg_r x); [exact X|].
  rewrite Rmult_assoc, Rinv_l, Rmult_1_r by lra. apply Rle_trans with (1 := E).
  apply Rle_trans with ((c * c - 1) * ((2 - c) * v)); [|apply Rmult_le_compat_l; nra].
  replace ((c * c - 1) * ((2 - c) * v)) with ((c - 1) * v * ((c + 1) * (2 - c))) by ring.
  assert (1 <= (c + 1) * (2 - c)) by nra. assert (0 <= (c - 1) * v) by nra. nra.
Qed.

Section Error.
Variables (u : R) (rnd : R -> R).
Hypothesis Hr : rounding u rnd.
Hypothesis Hs : u <= / 1000000.
Let Hu : 0 <= u. Proof. exact (proj1 Hr). Qed.

Lemma within_rnd c x v : within c x v -> within (c * (1 + u)) (rnd x) v.
Proof.
  intros (C & V & E). split; [nra|]. split; [exact V|]. pose proof (proj2 Hr x) as K.
  assert (X : Rabs x <= c * v). { replace x with (v + (x - v)) by ring. apply Rle_trans with (1 := Rabs_triang _ _). rewrite (Rabs_right v) by lra. lra. }
  replace (rnd x - v) with ((rnd x - x) + (x - v)) by ring. apply Rle_trans with (1 := Rabs_triang _ _).
  assert (u * Rabs x <= u * (c * v)) by (apply Rmult_le_compat_l; assumption). lra.
Qed.
Lemma within_lit v : 0 <= v -> within (1 + u) (rnd v) v.
Proof. intros V. rewrite <- (Rmult_1_l (1 + u)). apply within_rnd, within_self, V. Qed.
Lemma rden_near n : within ((1 + u) ^ 7) (rden rnd n) (/ (2 * INR n + 1)).
Proof.
  pose proof (pos_INR n). unfold rden.
  pose proof (within_rnd _ _ _ (within_prod _ _ _ _ _ _ (within_lit 2 ltac:(lra)) (within_self (INR n) ltac:(lra)))) as A.
  assert (A1 : within ((1 + u) ^ 2) 1 1) by (apply (within_mono 1); [apply pow_R1_Rle; lra|apply within_self; lra]).
  replace ((1 + u) * 1 * (1 + u)) with ((1 + u) ^ 2) in A by ring. pose proof (within_rnd _ _ _ (within_plus _ _ _ _ _ A A1)) as B.
  replace ((1 + u) ^ 7) with ((1 + u) ^ 2 * (1 + u) * ((1 + u) ^ 2 * (1 + u)) * (1 + u)) by ring.
  apply within_rnd, within_inv; [|lra|exact B]. pose proof (pow_lin u 3 (conj Hu Hs) ltac:(lia)) as P. simpl in P |- *. lra.
Qed.
Lemma rdown1_near fd n x ex y c : 0 <= x -> within c y (boysR (S n) x) -> within c ex (exp (- x)) ->
  within (c * (1 + u) ^ 12) (rdown1 rnd fd n (rnd (rnd 2 * x)) ex y) (boysR n x).
Proof.
  intros Hx Hy He. assert (C : 1 <= c) by apply Hy. unfold rdown1.
  pose proof (within_rnd _ _ _ (within_prod _ _ _ _ _ _ (within_lit 2 ltac:(lra)) (within_self x Hx))) as X2.
  replace ((1 + u) * 1 * (1 + u)) with ((1 + u) ^ 2) in X2 by ring. pose proof (within_prod _ _ _ _ _ _ X2 Hy) as P.
  assert (U : forall k, 1 <= (1 + u) ^ k) by (intros k; apply pow_R1_Rle; lra).
  assert (P' : within (c * (1 + u) ^ 3) (if fd n then rnd (rnd 2 * x) * y else rnd (rnd (rnd 2 * x) * y)) (2 * x * boysR (S n) x)).
  { destruct (fd n).
    - apply (within_mono ((1 + u) ^ 2 * c)); [|exact P]. pose proof (U 2%nat). replace (c * (1 + u) ^ 3) with ((1 + u) ^ 2 * c * (1 + u)) by ring.
      assert (0 <= (1 + u) ^ 2 * c) by nra. set (q := (1 + u) ^ 2 * c) in *. nra.
    - replace (c * (1 + u) ^ 3) with ((1 + u) ^ 2 * c * (1 + u)) by ring. apply within_rnd, P. }
  assert (E' : within (c * (1 + u) ^ 3) ex (exp (- x))) by (apply (within_mono c); [pose proof (U 3%nat); nra|exact He]).
  pose proof (within_rnd _ _ _ (within_plus _ _ _ _ _ P' E')) as S1. rewrite <- boys_by_parts in S1.
  pose proof (within_rnd _ _ _ (within_prod _ _ _ _ _ _ (rden_near n) S1)) as T. pose proof (pos_INR n).
  replace (/ (2 * INR n + 1) * ((2 * INR n + 1) * boysR n x)) with (boysR n x) in T by (field; lra).
  replace (c * (1 + u) ^ 12) with ((1 + u) ^ 7 * (c * (1 + u) ^ 3 * (1 + u)) * (1 + u)) by ring. exact T.
Qed.
Lemma rput_ok (F : list R) k v : (k < length F)%nat -> rput F k v = Some (upd F k v).
Proof. intros H. unfold rput. apply Nat.ltb_lt in H. rewrite H. reflexivity. Qed.
Lemma rdown_near fd x ex e n : 0 <= x -> within e ex (exp (- x)) -> forall c F y, e <= c -> (n < length F)%nat -> nth_error F n = Some y -> within c y (boysR n x) ->
  exists F', rdown rnd fd (rnd (rnd 2 * x)) ex n F = Some F' /\ length F' = length F /\ (forall k, (n <= k)%nat -> nth_error F' k = nth_error F k) /\
    forall k, (k <= n)%nat -> exists b, nth_error F' k = Some b /\ within (c * (1 + u) ^ (12 * n)) b (boysR k x).
Proof.
  intros Hx He. induction n as [|n IH]; intros c F y Hc HF Ey Hy.
  - exists F. split; [reflexivity|]. split; [reflexivity|]. split; [reflexivity|]. intros k Hk. replace k with 0%nat by lia. exists y. split; [exact Ey|].
    rewrite Rmult_1_r. exact Hy.
  - cbn [rdown]. rewrite Ey, rput_ok by lia. pose proof (rdown1_near fd n x ex y c Hx Hy (within_mono _ _ _ _ Hc He)) as S1.
    set (w := rdown1 _ _ _ _ _ _) in *. assert (C : 1 <= c) by apply Hy.
    assert (U : forall k, 1 <= (1 + u) ^ k) by (intros k; apply pow_R1_Rle; lra).
    destruct (IH (c * (1 + u) ^ 12) (upd F n w) w) as (F' & E & L & O & B).
    + pose proof (U 12%nat). nra.
    + rewrite upd_length. lia.
    + apply nth_error_upd_same. lia.
    + exact S1.
    + exists F'. rewrite upd_length in L. split; [exact E|]. split; [exact L|]. split.
      * intros k Hk. rewrite O by lia. apply nth_error_upd_other. lia.
      * intros k Hk. replace (c * (1 + u) ^ (12 * S n)) with (c * (1 + u) ^ 12 * (1 + u) ^ (12 * n))
          by (rewrite Rmult_assoc, <- pow_add; do 2 f_equal; lia).
        destruct (Nat.eq_dec k (S n)) as [->|N]; [|apply B; lia]. exists y. split.
        -- rewrite O by lia. rewrite nth_error_upd_other by lia. exact Ey.
        -- apply (within_mono c); [|exact Hy]. rewrite Rmult_assoc, <- pow_add. pose proof (U (12 + 12 * n)%nat). nra.
Qed.
Lemma rsmall_near fs x : 0 <= x < 73 / 2 -> forall k i F, (i + k <= 25)%nat -> (i + k <= length F)%nat ->
  exists F', rsmall rnd fs x i k F = Some F' /\ length F' = length F /\
    (forall j, (j < i \/ i + k <= j)%nat -> nth_error F' j = nth_error F j) /\
    forall j, (i <= j < i + k)%nat -> exists b, nth_error F' j = Some b /\ Rabs (b - boysR j x) <= (2 / 1000000000000000 + 250 * u) * boysR j x.
Proof.
  intros Hx. induction k as [|k IH]; intros i F H1 H2.
  - exists F. repeat split; try reflexivity. intros j Hj. lia.
  - cbn [rsmall]. destruct (taylor_accurate u rnd (fs i) x i Hr Hs Hx ltac:(lia)) as (t & Et & Bt). rewrite Et, rput_ok by lia.
    destruct (IH (S i) (upd F i t)) as (F' & E & L & O & B); [lia|rewrite upd_length; lia|].
    exists F'. rewrite upd_length in L. split; [exact E|]. split; [exact L|]. split.
    + intros j Hj. rewrite O by lia. apply nth_error_upd_other. lia.
    + intros j Hj. destruct (Nat.eq_dec j i) as [->|N]; [|apply B; lia]. exists t. split; [|exact Bt].
      rewrite O by lia. apply nth_error_upd_same. lia.
Qed.
Lemma pow_many k : (k <= 288)%nat -> (1 + u) ^ k <= 1 + 2882 / 10 * u.
Proof.
  intros Hk. apply Rle_trans with ((1 + u) ^ 288); [apply Rle_pow; [lra|exact Hk]|].
  assert (G : forall m, INR m <= 288 -> (1 + u) ^ m <= 1 + 1 * INR m * u + INR m * INR m * u * u).
  { induction m as [|m IH]; intros Hm; [simpl; lra|]. rewrite S_INR in Hm |- *. specialize (IH ltac:(lra)). pose proof (pos_INR m). cbn [pow].
    set (p := INR m) in *. clearbody p. apply Rle_trans with ((1 + u) * (1 + 1 * p * u + p * p * u * u)); [apply Rmult_le_compat_l; lra|].
    assert (0 <= u * u) by nra. assert (0 <= p * (u * u)) by nra. assert (p * p * u <= 1) by nra. 
    assert (p * p * u * (u * u) <= 1 * (u * u)) by (apply Rmult_le_compat_r; lra). nra. }
  pose proof (G 288%nat ltac:(rewrite INR_IZR_INZ; simpl; lra)) as K. replace (INR 288) with 288 in K by (rewrite INR_IZR_INZ; reflexivity).
  assert (u * u <= / 1000000 * u) by (apply Rmult_le_compat_r; assumption). nra.
Qed.
End Error.

Theorem split_rounded u rnd rexp fs fd x n F : rounding u rnd -> u <= / 1000000 -> 0 <= x < 73 / 2 -> (n <= 24)%nat -> (n < length F)%nat ->
  Rabs (rexp (- x) - exp (- x)) <= 250 * u * exp (- x) ->
  exists F', rsplit rnd rexp fs fd x n F = Some F' /\ length F' = length F /\ (forall k, (n < k)%nat -> nth_error F' k = nth_error F k) /\
    forall k, (k <= n)%nat -> exists b, nth_error F' k = Some b /\ Rabs (b - boysR k x) <= (3 / 1000000000000000 + 540 * u) * boysR k x.
Proof.
  intros Hr Hs Hx Hn HF He. assert (Hu : 0 <= u) by apply Hr. unfold rsplit. destruct (n <? 4)%nat.
  - destruct (rsmall_near u rnd Hr Hs fs x Hx (S n) 0 F ltac:(lia) ltac:(lia)) as (F' & E & L & O & B). exists F'. split; [exact E|]. split; [exact L|]. split.
    + intros k Hk. apply O. lia.
    + intros k Hk. destruct (B k ltac:(lia)) as (b & Eb & Bb). exists b. split; [exact Eb|]. apply Rle_trans with (1 := Bb).
      apply Rmult_le_compat_r; [apply boysR_pos|lra].
  - unfold rlarge. destruct (taylor_accurate u rnd (fs n) x n Hr Hs Hx Hn) as (t & Et & Bt). rewrite Et, rput_ok by exact HF.
    set (c := 1 + (2 / 1000000000000000 + 250 * u)).
    assert (Ht : within c t (boysR n x)). { split; [unfold c; lra|]. split; [apply boysR_pos|]. unfold c. replace (1 + (2 / 1000000000000000 + 250 * u) - 1) with (2 / 1000000000000000 + 250 * u) by ring. exact Bt. }
    assert (Hex : within (1 + 250 * u) (rexp (- x)) (exp (- x))). { split; [lra|]. split; [left; apply exp_pos|]. replace (1 + 250 * u - 1) with (250 * u) by ring. exact He. }
    destruct (rdown_near u rnd Hr Hs fd x _ _ n ltac:(lra) Hex c (upd F n t) t) as (F' & E & L & O & B).
    + unfold c. lra.
    + rewrite upd_length. exact HF.
    + apply nth_error_upd_same. exact HF.
    + exact Ht.
    + exists F'. rewrite upd_length in L. split; [exact E|]. split; [exact L|]. split.
      * intros k Hk. rewrite O by lia. apply nth_error_upd_other. lia.
      * intros k Hk. destruct (B k Hk) as (b & Eb & (_ & F0 & Bb)). exists b. split; [exact Eb|]. apply Rle_trans with (1 := Bb).
        apply Rmult_le_compat_r; [exact F0|]. pose proof (pow_many u rnd Hr Hs (12 * n) ltac:(lia)) as P.
        assert (c * (1 + u) ^ (12 * n) <= c * (1 + 2882 / 10 * u)) by (apply Rmult_le_compat_l; [unfold c; lra|exact P]). unfold c in *. nra.
Qed.
Lemma split_example : exists F', rsplit (scale_rnd (/ 1000000)) (fun y => exp y * (1 + / 10000)) (fun _ _ => FmaCoef) (fun _ => true) 20 6 (repeat 0 8) = Some F' /\
  nth_error F' 7 = Some 0 /\ forall k, (k <= 6)%nat -> exists b, nth_error F' k = Some b /\ Rabs (b - boysR k 20) <= / 1000 * boysR k 20.
Proof.
  destruct (split_rounded (/ 1000000) (scale_rnd (/ 1000000)) (fun y => exp y * (1 + / 10000)) (fun _ _ => FmaCoef) (fun _ => true) 20 6 (repeat 0 8)) as (F' & E & L & O & B);
    [apply scale_rounding; lra|lra|lra|lia|rewrite repeat_length; lia| |].
  - pose proof (exp_pos (- (20))). replace (exp (- (20)) * (1 + / 10000) - exp (- (20))) with (/ 10000 * exp (- (20))) by ring.
    rewrite Rabs_right; lra.
  - exists F'. split; [exact E|]. split; [rewrite O by lia; reflexivity|]. intros k Hk. destruct (B k Hk) as (b & Eb & Bb). exists b. split; [exact Eb|].
    apply Rle_trans with (1 := Bb). apply Rmult_le_compat_r; [apply boysR_pos|lra].
Qed.
