(** The Taylor expansion of the Boys function with rounding.
    Source: skel/simint/boys/boys_taylor.h:14-136, skel/simint/boys/boys_shortgrid.h.

    The functions of Boys.v again over the real numbers, but every literal, table entry and operation of the code is followed by
    [rnd]; each addition may be fused with one of its products.  [rnd] is any function with a bounded relative error: overflow and
    underflow are left out. *)
From Coq Require Import List Arith Reals Lra Lia ZArith QArith Qreals.
Import ListNotations.
From Verif Require Import Base Boys BoysProof BoysData BoysTable BoysAccuracy Normalize RoundSum RoundHRR.
Local Open Scope R_scope.

(** ** Model *)
(** What is fused with the addition of a level: nothing, the product of coefficient and entry, the product with [dx]. *)
Inductive fma := NoFma | FmaCoef | FmaDx.

Section Model.
Variable rnd : R -> R.
Variable fs : nat -> fma.

(** Conversion of a double to int. *)
Definition trunc_R (y : R) : Z := if Rle_dec 0 y then Int_part y else (- Int_part (- y))%Z.
(** boys_taylor.h:17 (and 45, 78, 118), the macros of boys_shortgrid.h. *)
Definition rlookup (x : R) : Z := trunc_R (rnd (rnd 10 * rnd (x + rnd (/ 20)))).
(** :18-19 (and 46-47, 79-80, 119-120). *)
Definition rshift (x : R) (i : Z) : R := rnd (rnd (IZR i * rnd (/ 10)) - x).

(** One term [(1.0/k!) * gridpts[k]], or [gridpts[k]] alone; [f]: its product is fused. *)
Definition rterm (f : bool) (t : option R * R) : R :=
  match fst t with None => snd t | Some c => if f then c * snd t else rnd (c * snd t) end.
(** The nested expression, :30-38 (and 51-59, 88-96, 124-132). *)
Fixpoint rnested (j : nat) (dx : R) (l : list (option R * R)) : R :=
  match l with
  | [] => 0
  | [t] => rterm false t
  | t :: r => let p := rnested (S j) dx r in
      rnd (rterm (match fs j with FmaCoef => true | _ => false end) t +
           match fs j with FmaDx => dx * p | _ => rnd (dx * p) end)
  end.
Definition literals : list (option R) :=
  [None; None; Some (rnd (1 / 2)); Some (rnd (1 / 6)); Some (rnd (1 / 24)); Some (rnd (1 / 120)); Some (rnd (1 / 720)); Some (rnd (1 / 5040))].
(** Entry [j] of row [i] of the table, as a double: the literal of boys_shortgrid.c, rounded. *)
Definition rentry (i : Z) (j : nat) : option R := option_map (fun q => rnd (Q2R (Qcanon.this q))) (rd_grid shortgrid i j).
(** One order: :17-38 (and 45-59, 78-96, 118-132). *)
Definition rtaylor (x : R) (n : nat) : option R :=
  let i := rlookup x in
  match GenHRR.mapM (fun k => rentry i (n + k)) (seq 0 8) with
  | Some g => Some (rnested 0 (rshift x i) (combine literals g))
  | None => None
  end.
End Model.

(** ** Specification *)
(** The first eight terms of the expansion with values [g], and the sum of their absolute values. *)
Definition terms (g : nat -> R) (d : R) : R := total (map (fun k => g k * d ^ k / INR (fact k)) (seq 0 8)).
Definition entry_at (i : Z) (j : nat) (v : R) : Prop := exists row q, (0 <= i)%Z /\
  nth_error shortgrid (Z.to_nat i) = Some row /\ nth_error row j = Some q /\ v = Q2R (Qcanon.this q).

(** ** Errors *)
Section Error.
Variables (u : R) (rnd : R -> R).
Hypothesis Hr : rounding u rnd.
Let Hu : 0 <= u. Proof. exact (proj1 Hr). Qed.

Lemma near_prod k m x v A y w B : near u k x v A -> near u m y w B -> near u (k + m) (x * y) (v * w) (A * B).
Proof.
  intros [HA HE] [HB HF]. pose proof (Rabs_pos v). pose proof (Rabs_pos w). split; [rewrite Rabs_mult; apply Rmult_le_compat; assumption|].
  set (a := (1 + u) ^ k) in *. set (b := (1 + u) ^ m) in *. rewrite pow_add. fold a b.
  assert (Ha : 1 <= a) by (apply pow_R1_Rle; lra). assert (Hb : 1 <= b) by (apply pow_R1_Rle; lra).
  assert (Y : Rabs y <= b * B). { replace y with (w + (y - w)) by ring. apply Rle_trans with (1 := Rabs_triang _ _). lra. }
  replace (x * y - v * w) with ((x - v) * y + v * (y - w)) by ring. apply Rle_trans with (1 := Rabs_triang _ _). rewrite !Rabs_mult.
  assert (E1 : Rabs (x - v) * Rabs y <= ((a - 1) * A) * (b * B)) by (apply Rmult_le_compat; auto using Rabs_pos).
  assert (E2 : Rabs v * Rabs (y - w) <= A * ((b - 1) * B)) by (apply Rmult_le_compat; auto using Rabs_pos).
  replace ((a * b - 1) * (A * B)) with (((a - 1) * A) * (b * B) + A * ((b - 1) * B)) by ring. lra.
Qed.
Lemma near_lit v : near u 1 (rnd v) v (Rabs v).
Proof. apply (near_rnd u rnd Hr 0). apply near_self. Qed.

(** The nested expression against the exact one. *)
Fixpoint nested (dx : R) (l : list (R * R)) : R := match l with [] => 0 | (c, g) :: r => c * g + dx * nested dx r end.
Definition lit_ok (t : option R * R) (e : R * R) : Prop :=
  match fst t with None => fst e = 1 | Some c => near u 1 c (fst e) (Rabs (fst e)) end /\ near u 1 (snd t) (snd e) (Rabs (snd e)).
Definition eabs (l : list (R * R)) := map (fun e => (Rabs (fst e), Rabs (snd e))) l.

Lemma near_term f t e : lit_ok t e -> near u 3 (rterm rnd f t) (fst e * snd e) (Rabs (fst e) * Rabs (snd e)).
Proof.
  destruct t as [[c|] g], e as [c' g']; unfold lit_ok, rterm; cbn [fst snd]; intros [Hc Hg].
  - pose proof (near_prod _ _ _ _ _ _ _ _ Hc Hg) as K. cbn [Nat.add] in K. destruct f.
    + apply (near_mono u rnd Hr 2); [lia|exact K].
    + apply (near_rnd u rnd Hr 2), K.
  - subst c'. rewrite Rmult_1_l, Rabs_R1, Rmult_1_l. apply (near_mono u rnd Hr 1); [lia|exact Hg].
Qed.
Lemma near_nested fs dx l e : Forall2 lit_ok l e -> forall j, l <> [] ->
  near u (1 + 2 * length l) (rnested rnd fs j dx l) (nested dx e) (nested (Rabs dx) (eabs e)).
Proof.
  induction 1 as [|t [c g] l e Ht F IH]; intros j N; [contradiction|]. pose proof (fun f => near_term f _ _ Ht) as T. cbn [fst snd] in T.
  destruct l as [|t' l].
  - inversion F; subst. cbn [rnested nested eabs map fst snd length]. rewrite !Rmult_0_r, !Rplus_0_r. apply T.
  - specialize (IH (S j) ltac:(discriminate)). set (l' := t' :: l) in *. cbn [nested eabs map fst snd].
    change (rnested rnd fs j dx (t :: l')) with (let p := rnested rnd fs (S j) dx l' in
      rnd (rterm rnd (match fs j with FmaCoef => true | _ => false end) t + match fs j with FmaDx => dx * p | _ => rnd (dx * p) end)).
    cbv zeta. set (p := rnested rnd fs (S j) dx l') in *.
    assert (P0 : near u (1 + 2 * length l') (dx * p) (dx * nested dx e) (Rabs dx * nested (Rabs dx) (eabs e)))
      by (apply near_scale; [lra|exact IH]).
    assert (P : near u (2 + 2 * length l') (match fs j with FmaDx => dx * p | _ => rnd (dx * p) end) (dx * nested dx e) (Rabs dx * nested (Rabs dx) (eabs e))).
    { destruct (fs j); try (apply (near_rnd u rnd Hr), P0). apply (near_mono u rnd Hr (1 + 2 * length l')); [lia|exact P0]. }
    assert (T' : near u (2 + 2 * length l') (rterm rnd (match fs j with FmaCoef => true | _ => false end) t) (c * g) (Rabs c * Rabs g)).
    { apply (near_mono u rnd Hr 3); [unfold l'; cbn [length]; lia|apply T]. }
    pose proof (near_add u rnd Hr _ _ _ _ _ _ _ T' P) as K. unfold radd in K.
    replace (1 + 2 * length (t :: l'))%nat with (S (2 + 2 * length l')) by (cbn [length]; lia). exact K.
Qed.
End Error.

(** ** The index *)
Lemma pow_small u : 0 <= u <= / 4096 -> 0 <= (1 + u) ^ 4 - 1 <= / 1000.
Proof.
  intros H. pose proof (pow_R1_Rle (1 + u) 4 ltac:(lra)). split; [lra|].
  assert (K : (1 + u) ^ 4 <= (1 + / 4096) ^ 4) by (apply pow_incr; lra).
  apply Rle_trans with ((1 + / 4096) ^ 4 - 1); [lra|]. simpl. lra.
Qed.
Lemma trunc_ok y : 0 <= y -> IZR (trunc_R y) <= y < IZR (trunc_R y) + 1 /\ (0 <= trunc_R y)%Z.
Proof.
  intros H. unfold trunc_R. destruct (Rle_dec 0 y); [|contradiction]. destruct (base_Int_part y) as [A B]. split; [lra|].
  assert (K : IZR (-1) < IZR (Int_part y)) by (simpl; lra). apply lt_IZR in K. lia.
Qed.

Section Index.
Variables (u : R) (rnd : R -> R).
Hypothesis Hr : rounding u rnd.
Let Hu : 0 <= u. Proof. exact (proj1 Hr). Qed.

Lemma scaled_near x : 0 <= x -> near u 4 (rnd (rnd 10 * rnd (x + rnd (/ 20)))) (10 * (x + / 20)) (10 * (x + / 20)).
Proof.
  intros Hx. pose proof (near_self u x) as N0. rewrite (Rabs_right x) in N0 by lra.
  pose proof (near_lit u rnd Hr (/ 20)) as N1. rewrite Rabs_right in N1 by lra.
  pose proof (near_lit u rnd Hr 10) as N2. rewrite Rabs_right in N2 by lra.
  pose proof (near_add u rnd Hr 1 x x x _ _ _ (near_mono u rnd Hr 0 1 _ _ _ ltac:(lia) N0) N1) as N3. unfold radd in N3.
  exact (near_rnd u rnd Hr 3 _ _ _ (near_prod u rnd Hr _ _ _ _ _ _ _ _ N2 N3)).
Qed.
Lemma index_ok x : u <= / 4096 -> 0 <= x < 73 / 2 -> (0 <= rlookup rnd x <= 365)%Z /\
  Rabs (IZR (rlookup rnd x) / 10 - x) <= / 20 + ((1 + u) ^ 4 - 1) * (x + / 20).
Proof.
  intros Hs [H0 H1]. destruct (scaled_near x H0) as [_ N]. unfold rlookup. set (y := rnd (rnd 10 * rnd (x + rnd (/ 20)))) in *.
  destruct (pow_small u (conj Hu Hs)) as [P0 P1]. set (e := (1 + u) ^ 4 - 1) in *.
  assert (E : e * (10 * (x + / 20)) <= / 1000 * (10 * (x + / 20))) by (apply Rmult_le_compat_r; lra).
  assert (Na : - (e * (10 * (x + / 20))) <= y - 10 * (x + / 20) <= e * (10 * (x + / 20)))
    by (pose proof (Rle_abs (y - 10 * (x + / 20))); pose proof (Rle_abs (- (y - 10 * (x + / 20)))) as K; rewrite Rabs_Ropp in K; lra).
  assert (Hy : 0 <= y) by lra. destruct (trunc_ok y Hy) as [T Tz]. set (i := trunc_R y) in *. split.
  - split; [exact Tz|]. assert (K : IZR i < IZR 366) by lra. apply lt_IZR in K. lia.
  - apply Rabs_le. lra.
Qed.
Lemma shift_near x i : 0 <= x -> (0 <= i)%Z -> near u 3 (rshift rnd x i) (IZR i / 10 - x) (IZR i / 10 + x).
Proof.
  intros Hx Hi. apply IZR_le in Hi. pose proof (near_lit u rnd Hr (/ 10)) as N1. rewrite Rabs_right in N1 by lra.
  assert (N2 : near u 1 (IZR i * rnd (/ 10)) (IZR i * / 10) (IZR i * / 10)) by (apply near_scale; [rewrite Rabs_right; lra|exact N1]).
  pose proof (near_rnd u rnd Hr _ _ _ _ N2) as N3. pose proof (near_self u x) as N0. rewrite (Rabs_right x) in N0 by lra.
  exact (near_add u rnd Hr 2 _ _ _ _ _ _ N3 (near_opp u _ _ _ _ (near_mono u rnd Hr 0 2 _ _ _ ltac:(lia) N0))).
Qed.
End Index.

(** ** One order *)
Lemma entries_there i n : (0 <= i <= 365)%Z -> (n <= 24)%nat -> forall k, (k < 8)%nat -> exists q, rd_grid shortgrid i (n + k) = Some q /\ entry_at i (n + k) (Q2R (Qcanon.this q)).
Proof.
  intros Hi Hn k Hk. destruct shortgrid_ok as [L W]. unfold NPOINT, NCOL in *.
  destruct (nth_error shortgrid (Z.to_nat i)) as [row|] eqn:Er; [|apply nth_error_None in Er; lia].
  pose proof (W row (nth_error_In _ _ Er)) as Lr.
  destruct (nth_error row (n + k)) as [q|] eqn:Eq; [|apply nth_error_None in Eq; lia].
  exists q. split.
  - unfold rd_grid. replace (0 <=? i)%Z with true by (symmetry; apply Z.leb_le; lia). rewrite Er. exact Eq.
  - exists row, q. repeat split; try assumption. lia.
Qed.
Lemma terms_nested g d : nested d [(1, g 0%nat); (1, g 1%nat); (1 / 2, g 2%nat); (1 / 6, g 3%nat); (1 / 24, g 4%nat); (1 / 120, g 5%nat); (1 / 720, g 6%nat); (1 / 5040, g 7%nat)] = terms g d.
Proof.
  assert (F : INR (fact 2) = 2 /\ INR (fact 3) = 6 /\ INR (fact 4) = 24 /\ INR (fact 5) = 120 /\ INR (fact 6) = 720 /\ INR (fact 7) = 5040).
  { rewrite !fact_simpl, !mult_INR. cbn [fact INR Nat.mul Nat.add]. repeat split; ring. }
  destruct F as [F2 [F3 [F4 [F5 [F6 F7]]]]]. unfold terms, total. cbn [nested seq map fold_right]. rewrite F2, F3, F4, F5, F6, F7.
  cbn [fact INR Nat.mul Nat.add pow]. field.
Qed.

Theorem taylor_rounded u rnd fs x n : rounding u rnd -> u <= / 4096 -> 0 <= x < 73 / 2 -> (n <= 24)%nat ->
  exists i g dx r, rtaylor rnd fs x n = Some r /\ (0 <= i <= 365)%Z /\ (forall k, (k < 8)%nat -> entry_at i (n + k) (g k)) /\
    Rabs (IZR i / 10 - x) <= / 20 + ((1 + u) ^ 4 - 1) * (x + / 20) /\
    Rabs (dx - (IZR i / 10 - x)) <= ((1 + u) ^ 3 - 1) * (IZR i / 10 + x) /\
    Rabs (r - terms g dx) <= ((1 + u) ^ 17 - 1) * terms (fun k => Rabs (g k)) (Rabs dx).
Proof.
  intros Hr Hs Hx Hn. destruct (index_ok u rnd Hr x Hs Hx) as [Hi Hd]. set (i := rlookup rnd x) in *.
  assert (He : exists q, forall k, (k < 8)%nat -> rd_grid shortgrid i (n + k) = Some (q k) /\ entry_at i (n + k) (Q2R (Qcanon.this (q k)))).
  { exists (fun k => match rd_grid shortgrid i (n + k) with Some q => q | None => Qcanon.Q2Qc 0 end). intros k Hk.
    destruct (entries_there i n Hi Hn k Hk) as [q [-> E]]. split; [reflexivity|exact E]. }
  destruct He as [q Hq]. set (g := fun k => Q2R (Qcanon.this (q k))).
  exists i, g, (rshift rnd x i). eexists. split; [|split; [exact Hi|split; [intros k Hk; apply (Hq k Hk)|split; [exact Hd|split]]]].
  - unfold rtaylor. fold i. cbn [GenHRR.mapM seq]. unfold rentry.
    rewrite (proj1 (Hq 0%nat ltac:(lia))), (proj1 (Hq 1%nat ltac:(lia))), (proj1 (Hq 2%nat ltac:(lia))), (proj1 (Hq 3%nat ltac:(lia))),
      (proj1 (Hq 4%nat ltac:(lia))), (proj1 (Hq 5%nat ltac:(lia))), (proj1 (Hq 6%nat ltac:(lia))), (proj1 (Hq 7%nat ltac:(lia))). reflexivity.
  - apply (shift_near u rnd Hr); [apply Hx|apply Hi].
  - set (dx := rshift rnd x i). rewrite <- !terms_nested.
    set (ex := [(1, g 0%nat); (1, g 1%nat); (1 / 2, g 2%nat); (1 / 6, g 3%nat); (1 / 24, g 4%nat); (1 / 120, g 5%nat); (1 / 720, g 6%nat); (1 / 5040, g 7%nat)]).
    match goal with |- Rabs (rnested _ _ _ _ ?l - _) <= _ => assert (F : Forall2 (lit_ok u) l ex) end.
    { assert (P0 : forall v, lit_ok u (None, rnd v) (1, v)) by (intros v; split; [reflexivity|apply (near_lit u rnd Hr)]).
      assert (P1 : forall c v, lit_ok u (Some (rnd c), rnd v) (c, v)) by (intros c v; split; apply (near_lit u rnd Hr)).
      unfold ex. apply Forall2_cons; [apply P0|]. apply Forall2_cons; [apply P0|]. do 6 (apply Forall2_cons; [apply P1|]). apply Forall2_nil. }
    pose proof (near_nested u rnd Hr fs dx _ _ F 0 ltac:(discriminate)) as [_ K]. unfold ex, eabs in K. cbn [map fst snd] in K.
    rewrite Rabs_R1, !(Rabs_right (1 / _)) in K by lra. exact K.
Qed.

(** ** Examples *)
Definition scale_rnd (u x : R) : R := x * (1 + u).
Lemma scale_rounding u : 0 <= u -> rounding u (scale_rnd u).
Proof.
  intros H. split; [exact H|]. intros x. unfold scale_rnd. replace (x * (1 + u) - x) with (u * x) by ring.
  rewrite Rabs_mult, (Rabs_right u) by lra. lra.
Qed.
Lemma lookup_example : rlookup (scale_rnd (/ 4096)) 1 = 10%Z.
Proof.
  unfold rlookup, scale_rnd. match goal with |- trunc_R ?y = _ => assert (Y : 10 <= y < 11) by lra; destruct (trunc_ok y ltac:(lra)) as [T _]; set (i := trunc_R y) in * end.
  assert (A : IZR i < IZR 11) by lra. assert (B : IZR 9 < IZR i) by lra. apply lt_IZR in A, B. lia.
Qed.
(** With the unit of half precision the index can be that of a row past the table. *)
Lemma coarse_past : rounding (/ 2048) (scale_rnd (/ 2048)) /\ 0 <= 36499 / 1000 < 73 / 2 /\
  forall fs n, rtaylor (scale_rnd (/ 2048)) fs (36499 / 1000) n = None.
Proof.
  split; [apply scale_rounding; lra|]. split; [lra|]. intros fs n.
  assert (I : (366 <= rlookup (scale_rnd (/ 2048)) (36499 / 1000))%Z).
  { unfold rlookup, scale_rnd. match goal with |- (_ <= trunc_R ?y)%Z => assert (Y : 366 <= y) by lra; destruct (trunc_ok y ltac:(lra)) as [T _]; set (i := trunc_R y) in * end.
    assert (A : IZR 365 < IZR i) by lra. apply lt_IZR in A. lia. }
  unfold rtaylor. set (i := rlookup _ _) in *.
  assert (N : rentry (scale_rnd (/ 2048)) i (n + 0) = None).
  { unfold rentry, rd_grid. replace (0 <=? i)%Z with true by (symmetry; apply Z.leb_le; lia).
    replace (nth_error shortgrid (Z.to_nat i)) with (@None (list Qcanon.Qc)); [reflexivity|]. symmetry. apply nth_error_None.
    rewrite (proj1 shortgrid_ok). unfold NPOINT. lia. }
  cbn [GenHRR.mapM seq]. rewrite N. reflexivity.
Qed.
