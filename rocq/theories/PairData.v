(** The numbers stored for a primitive pair, the same-shell packing and the screen values.
    Source: skel/simint/shell/shell.c:425-582 (simint_fill_multi_shellpair2), 646-686, 733-830
    (screen_max in simint_cat_multi_shellpair and simint_cat_shellpairs),
    skel/simint/shell/shell_screen.c:126-223, skel/simint/ostei/ostei.c:4-42.

    Division is multiplication by [inv]; [inv] and [expf] are arbitrary functions. *)
From Coq Require Import List Arith Lia Bool Ring QArith.
Import ListNotations.
From Verif Require Import Base Simd Offsets Starts Layout Kernel.
Set Implicit Arguments.

Section Data.
Context {R : cring}.
Add Ring Rring_pd : (cth R).
Variables (inv expf : R -> R) (sqrt2pi52 : R).
Local Open Scope r_scope.
Definition two : R := c1 + c1.

Record shell := Shell { sh_n : nat; sh_pos : nat -> R; sh_alpha : nat -> R; sh_coef : nat -> R }.

(** [Xab], shell.c:466-469. *)
Definition xab2 (A B : shell) : R :=
  let d ax := sh_pos A ax - sh_pos B ax in d 0%nat * d 0%nat + d 1%nat * d 1%nat + d 2%nat * d 2%nat.
(** [P->x] etc., shell.c:500-502. *)
Definition center (A B : shell) (i j ax : nat) : R :=
  (sh_pos A ax * sh_alpha A i + sh_alpha B j * sh_pos B ax) * inv (sh_alpha A i + sh_alpha B j).
(** shell.c:493-526: value stored in array [a] for primitive [(i, j)]. *)
Definition prim_value (same : bool) (A B : shell) (a : arr) (i j : nat) : R :=
  let ab_sum := sh_alpha A i + sh_alpha B j in
  let ab_mul := sh_alpha A i * sh_alpha B j in
  match a with
  | APrim k =>
    if (k <? 3)%nat then center A B i j k
    else if (k <? 6)%nat then center A B i j (k - 3) - sh_pos A (k - 3)
    else if (k <? 9)%nat then center A B i j (k - 6) - sh_pos B (k - 6)
    else if (k =? 9)%nat then ab_sum
    else
      let p := sh_coef A i * sh_coef B j * expf (- (xab2 A B) * ab_mul * inv ab_sum) * sqrt2pi52 * inv ab_sum in
      if same && negb (i =? j)%nat then p * two else p
  | AAlpha2 => if same && negb (i =? j)%nat then ab_sum else two * sh_alpha A i
  | ABeta2 => if same && negb (i =? j)%nat then ab_sum else two * sh_alpha B j
  | ADist ax => sh_pos A ax - sh_pos B ax
  | AScreen => c0
  end.

(** ** Gaussian product identities *)
Theorem product_identities same A B i j ax :
  (ax < 3)%nat ->
  (sh_alpha A i + sh_alpha B j) * inv (sh_alpha A i + sh_alpha B j) = c1 ->
  let v a := prim_value same A B a i j in
  let p := v a_alpha in let P := v (APrim ax) in let PA := v (APrim (3 + ax)) in let PB := v (APrim (6 + ax)) in
  let AB := v (ADist ax) in
  p = sh_alpha A i + sh_alpha B j /\
  p * P = sh_alpha A i * sh_pos A ax + sh_alpha B j * sh_pos B ax /\
  p * PA = sh_alpha B j * (sh_pos B ax - sh_pos A ax) /\
  p * PB = sh_alpha A i * (sh_pos A ax - sh_pos B ax) /\
  sh_pos A ax + PA = P /\ sh_pos B ax + PB = P /\
  PB = PA + AB.
Proof.
  intros Hax Hinv v p P PA PB AB.
  assert (E : p = sh_alpha A i + sh_alpha B j) by reflexivity.
  assert (EP : P = center A B i j ax /\ PA = center A B i j ax - sh_pos A ax /\ PB = center A B i j ax - sh_pos B ax).
  { destruct ax as [|[|[|ax]]]; [repeat split|repeat split|repeat split|lia]. }
  destruct EP as (-> & -> & ->). assert (EA : AB = sh_pos A ax - sh_pos B ax) by reflexivity. rewrite EA, E.
  assert (C : (sh_alpha A i + sh_alpha B j) * center A B i j ax = sh_alpha A i * sh_pos A ax + sh_alpha B j * sh_pos B ax).
  { unfold center. transitivity ((sh_pos A ax * sh_alpha A i + sh_alpha B j * sh_pos B ax) * ((sh_alpha A i + sh_alpha B j) * inv (sh_alpha A i + sh_alpha B j))); [ring|].
    rewrite Hinv. ring. }
  split; [reflexivity|]. split; [exact C|]. split; [|split; [|split; [|split]]].
  - transitivity ((sh_alpha A i + sh_alpha B j) * center A B i j ax - (sh_alpha A i + sh_alpha B j) * sh_pos A ax); [ring|rewrite C; ring].
  - transitivity ((sh_alpha A i + sh_alpha B j) * center A B i j ax - (sh_alpha A i + sh_alpha B j) * sh_pos B ax); [ring|rewrite C; ring].
  - ring.
  - ring.
  - ring.
Qed.

(** ** Same-shell packing *)
(** The ten quantities of a primitive that enter the recurrences. *)
Definition geometry (same : bool) (A B : shell) (i j : nat) : list R :=
  map (fun k => prim_value same A B (APrim k) i j) (seq 0 10).
Definition weight (same : bool) (A B : shell) (i j : nat) : R := prim_value same A B a_prefac i j.
(** All ordered pairs, and the packed list. *)
Definition all_pairs (n : nat) : list (nat * nat) := flat_map (fun i => map (pair i) (seq 0 n)) (seq 0 n).

Lemma ring_sym A i j : sh_alpha A i + sh_alpha A j = sh_alpha A j + sh_alpha A i.
Proof. ring. Qed.
Lemma geometry_sym A i j : geometry false A A i j = geometry false A A j i.
Proof.
  unfold geometry. apply map_ext_in. intros k Hk. apply in_seq in Hk. unfold prim_value.
  assert (C : forall ax, center A A i j ax = center A A j i ax).
  { intros ax. unfold center. rewrite (ring_sym A i j). ring. }
  rewrite !C. destruct (k <? 3)%nat; [reflexivity|]. destruct (k <? 6)%nat; [reflexivity|]. destruct (Nat.ltb_spec k 9); [reflexivity|].
  destruct (Nat.eqb_spec k 9); [apply ring_sym|lia].
Qed.
Lemma geometry_same A i j : geometry true A A i j = geometry false A A i j.
Proof.
  unfold geometry. apply map_ext_in. intros k Hk. apply in_seq in Hk. unfold prim_value.
  destruct (k <? 3)%nat; [reflexivity|]. destruct (k <? 6)%nat; [reflexivity|]. destruct (Nat.ltb_spec k 9); [reflexivity|].
  destruct (Nat.eqb_spec k 9); [reflexivity|lia].
Qed.
Lemma weight_sym A i j : weight false A A i j = weight false A A j i.
Proof.
  unfold weight, prim_value, a_prefac. cbn [Nat.ltb Nat.leb Nat.eqb andb].
  replace (sh_alpha A j * sh_alpha A i) with (sh_alpha A i * sh_alpha A j) by ring.
  rewrite (ring_sym A j i). ring.
Qed.
Lemma weight_same A B i j : weight true A B i j = (if (i =? j)%nat then c1 else two) * weight false A B i j.
Proof. unfold weight, prim_value, a_prefac. cbn [Nat.ltb Nat.leb Nat.eqb andb negb]. destruct (i =? j)%nat; cbn [negb andb]; ring. Qed.

Definition lower (n : nat) : list (nat * nat) := flat_map (fun i => map (pair i) (seq 0 (S i))) (seq 0 n).
(** Sums over all pairs folded onto the lower triangle. *)
Lemma fold_lower n (f : nat -> nat -> R) :
  rsum (map (fun ij => f (fst ij) (snd ij)) (all_pairs n)) =
  rsum (map (fun ij => if (fst ij =? snd ij)%nat then f (fst ij) (snd ij) else f (fst ij) (snd ij) + f (snd ij) (fst ij)) (lower n)).
Proof.
  unfold all_pairs, lower. rewrite !rsum_flat_map.
  assert (E1 : forall n m, rsum (map (fun a => rsum (map (fun ij => f (fst ij) (snd ij)) (map (pair a) (seq 0 m)))) (seq 0 n)) =
    rsum (map (fun a => rsum (map (fun b => f a b) (seq 0 m))) (seq 0 n))).
  { intros n' m. apply rsum_map_ext. intros a _. rewrite map_map. reflexivity. }
  rewrite E1.
  assert (E2 : rsum (map (fun a => rsum (map (fun ij : nat * nat => if (fst ij =? snd ij)%nat then f (fst ij) (snd ij) else f (fst ij) (snd ij) + f (snd ij) (fst ij)) (map (pair a) (seq 0 (S a))))) (seq 0 n)) =
    rsum (map (fun a => f a a + rsum (map (fun b => f a b + f b a) (seq 0 a))) (seq 0 n))).
  { apply rsum_map_ext. intros a _. rewrite map_map, seq_S, map_app, rsum_app. cbn [map rsum fst snd]. rewrite Nat.eqb_refl.
    replace (rsum (map _ (seq 0 a))) with (rsum (map (fun b => f a b + f b a) (seq 0 a))); [cbn [Nat.add fst snd]; rewrite ?Nat.eqb_refl; ring|].
    apply rsum_map_ext. intros b Hb. apply in_seq in Hb. destruct (Nat.eqb_spec a b); [lia|reflexivity]. }
  rewrite E2. clear E1 E2. induction n as [|n IH]; [reflexivity|].
  rewrite !seq_S, !map_app, !rsum_app. cbn [map rsum Nat.add].
  assert (E3 : rsum (map (fun a => rsum (map (fun b => f a b) (seq 0 n ++ [n]))) (seq 0 n)) =
    rsum (map (fun a => rsum (map (fun b => f a b) (seq 0 n))) (seq 0 n)) + rsum (map (fun a => f a n) (seq 0 n))).
  { rewrite <- rsum_map_add. apply rsum_map_ext. intros a _. rewrite map_app, rsum_app. cbn. ring. }
  rewrite E3, IH. rewrite map_app, rsum_app. cbn [map rsum]. rewrite (rsum_map_add (fun b => f n b) (fun b => f b n)). ring.
Qed.

(** Value of a shell pair as a sum over primitives: weight times any function of the geometry
    (here [H] also stands for everything on the other side). *)
Definition pair_sum (same : bool) (A B : shell) (H : list R -> R) (l : list (nat * nat)) : R :=
  rsum (map (fun ij => weight same A B (fst ij) (snd ij) * H (geometry same A B (fst ij) (snd ij))) l).
Definition pair_sum2 (which : arr) (same : bool) (A B : shell) (H : list R -> R) (l : list (nat * nat)) : R :=
  rsum (map (fun ij => prim_value same A B which (fst ij) (snd ij) * (weight same A B (fst ij) (snd ij) * H (geometry same A B (fst ij) (snd ij)))) l).

Lemma packed_lower n : sp_prims (SP n n true) = lower n.
Proof. reflexivity. Qed.
Theorem packed_value A H : pair_sum true A A H (sp_prims (SP (sh_n A) (sh_n A) true)) = pair_sum false A A H (all_pairs (sh_n A)).
Proof.
  unfold pair_sum. rewrite packed_lower.
  rewrite (fold_lower (sh_n A) (fun i j => weight false A A i j * H (geometry false A A i j))).
  apply rsum_map_ext. intros [i j] _. cbn [fst snd]. rewrite weight_same, geometry_same.
  destruct (Nat.eqb_spec i j) as [->|N]; [ring|].
  rewrite (weight_sym A j i), (geometry_sym A j i). unfold two. ring.
Qed.
Lemma packed_deriv A H which : (which = AAlpha2 \/ which = ABeta2) ->
  pair_sum2 which true A A H (sp_prims (SP (sh_n A) (sh_n A) true)) = pair_sum2 which false A A H (all_pairs (sh_n A)).
Proof.
  intros Hw. unfold pair_sum2. rewrite packed_lower.
  rewrite (fold_lower (sh_n A) (fun i j => prim_value false A A which i j * (weight false A A i j * H (geometry false A A i j)))).
  apply rsum_map_ext. intros [i j] _. cbn [fst snd]. rewrite weight_same, geometry_same.
  destruct Hw as [-> | ->]; cbn [prim_value andb]; destruct (Nat.eqb_spec i j) as [->|N]; cbn [negb]; try ring.
  - rewrite (weight_sym A j i), (geometry_sym A j i). unfold two. ring.
  - rewrite (weight_sym A j i), (geometry_sym A j i). unfold two. ring.
Qed.
(** With twice the exponent of the first (second) function as weight: what a derivative needs. *)
Definition exponent_sum (first : bool) (A : shell) (H : list R -> R) : R :=
  rsum (map (fun ij => two * sh_alpha A (if first then fst ij else snd ij) *
    (weight false A A (fst ij) (snd ij) * H (geometry false A A (fst ij) (snd ij)))) (all_pairs (sh_n A))).
Theorem packed_deriv_value A H :
  pair_sum2 AAlpha2 true A A H (sp_prims (SP (sh_n A) (sh_n A) true)) = exponent_sum true A H /\
  pair_sum2 ABeta2 true A A H (sp_prims (SP (sh_n A) (sh_n A) true)) = exponent_sum false A H.
Proof.
  split; rewrite packed_deriv by tauto; apply rsum_map_ext; intros [i j] _; reflexivity.
Qed.
End Data.

(** ** Screen values of packed primitives *)
Local Open Scope Q_scope.
(** Factor put on the prefactor but not on the screen value, shell.c:497-498, shell_screen.c:164-165. *)
Definition pack_factor (same : bool) (i j : nat) : Q := if same && negb (i =? j)%nat then 2 else 1.
(** [v]: primitive quartet value with plain prefactors; [sp], [sq]: the stored screen values.
    A quartet is dropped if [sp * sq < tol2]; what is dropped carries the stored prefactors. *)
Definition stored_contribution (same1 : bool) (i1 j1 : nat) (same2 : bool) (i2 j2 : nat) (v : Q) : Q :=
  pack_factor same1 i1 j1 * pack_factor same2 i2 j2 * v.

Lemma sq_lt (v s t : Q) (k : Q) : 0 < k -> v * v <= s -> s < t -> (k * v) * (k * v) < k * k * t.
Proof.
  intros Hk H1 H2. setoid_replace (k * v * (k * v)) with (k * k * (v * v)) by ring.
  apply Qmult_lt_l; [setoid_replace 0 with (0 * 0) by ring; apply Qmult_lt_compat_nonneg; (split; [apply Qle_refl|exact Hk])|].
  apply (Qle_lt_trans _ s); assumption.
Qed.
Theorem dropped_bound same1 i1 j1 same2 i2 j2 v sp sq tol :
  v * v <= sp * sq -> sp * sq < tol * tol ->
  let w := stored_contribution same1 i1 j1 same2 i2 j2 v in
  let f := pack_factor same1 i1 j1 * pack_factor same2 i2 j2 in
  w * w < f * f * (tol * tol).
Proof.
  intros H1 H2 w f. apply (@sq_lt v (sp * sq) (tol * tol)); [|exact H1|exact H2].
  unfold f, pack_factor. destruct (same1 && _), (same2 && _); reflexivity.
Qed.
Theorem dropped_bound_plain i1 j1 i2 j2 same1 same2 v sp sq tol :
  (same1 = true -> i1 = j1) -> (same2 = true -> i2 = j2) ->
  v * v <= sp * sq -> sp * sq < tol * tol ->
  let w := stored_contribution same1 i1 j1 same2 i2 j2 v in w * w < tol * tol.
Proof.
  intros E1 E2 H1 H2 w. pose proof (@dropped_bound same1 i1 j1 same2 i2 j2 v sp sq tol H1 H2) as H. cbv zeta in H. fold w in H.
  assert (F1 : pack_factor same1 i1 j1 = 1) by (unfold pack_factor; destruct same1; [rewrite E1, Nat.eqb_refl by reflexivity; reflexivity|reflexivity]).
  assert (F2 : pack_factor same2 i2 j2 = 1) by (unfold pack_factor; destruct same2; [rewrite E2, Nat.eqb_refl by reflexivity; reflexivity|reflexivity]).
  rewrite F1, F2 in H. setoid_replace (1 * 1 * (1 * 1) * (tol * tol)) with (tol * tol) in H by ring. exact H.
Qed.
(** Off-diagonal primitives of a same-shell pair on both sides: dropped though almost four times the tolerance. *)
Lemma dropped_bound_refuted : exists v sp sq tol,
  v * v <= sp * sq /\ sp * sq < tol * tol /\
  let w := stored_contribution true 1 0 true 1 0 v in 15 * (tol * tol) < w * w.
Proof. exists 1, 1, 1, (51 # 50). repeat split; vm_compute; congruence. Qed.

(** ** [screen_max] *)
Definition big : Q := inject_Z (10 ^ 99).
(** shell.c:434, 453-457: [ms] are the results of [simint_primscreen], one per pair (none without screening). *)
Definition fill_max (ms : list Q) : Q := fold_left (fun s m => if qltb s m then m else s) ms big.
(** shell.c:644, 679-680: inputs with their number of updates (number of primitives, or 1). *)
Definition cat_max (ins : list (Q * nat)) : Q :=
  fold_left (fun s p => Nat.iter (snd p) (fun s => if qltb s (fst p) then fst p else s) s) ins 0.
(** ostei.c:16-20: whole-quartet rejection. *)
Definition early_exit (tol pmax qmax : Q) : bool := qltb 0 tol && qltb (pmax * qmax) (tol * tol).

Lemma fold_max_big ms s : s <= fold_left (fun s m => if qltb s m then m else s) ms s.
Proof.
  revert s; induction ms as [|m ms IH]; intros s; cbn [fold_left]; [apply Qle_refl|].
  destruct (qltb s m) eqn:E; [|apply IH]. apply qltb_spec in E. apply (Qle_trans _ m); [apply Qlt_le_weak, E|apply IH].
Qed.
Theorem fill_max_big ms : big <= fill_max ms.
Proof. apply fold_max_big. Qed.
Lemma iter_max k m s : s <= Nat.iter k (fun s => if qltb s m then m else s) s.
Proof.
  induction k as [|k IH]; [apply Qle_refl|]. cbn [Nat.iter nat_rect]. unfold Nat.iter in IH.
  destruct (qltb _ m) eqn:E; [|exact IH]. apply qltb_spec in E. apply (Qle_trans _ _ _ IH), Qlt_le_weak, E.
Qed.
Lemma iter_max_m k m s : (0 < k)%nat -> m <= Nat.iter k (fun s => if qltb s m then m else s) s.
Proof.
  destruct k as [|k]; [lia|]. intros _. cbn [Nat.iter nat_rect]. destruct (qltb _ m) eqn:E; [apply Qle_refl|].
  destruct (Qlt_le_dec (nat_rect (fun _ => Q) s (fun _ s0 => if qltb s0 m then m else s0) k) m) as [L|L]; [|exact L].
  apply qltb_spec in L. congruence.
Qed.
Lemma cat_max_ge ins : forall s, s <= fold_left (fun s p => Nat.iter (snd p) (fun s => if qltb s (fst p) then fst p else s) s) ins s.
Proof.
  induction ins as [|p ins IH]; intros s; cbn [fold_left]; [apply Qle_refl|]. apply (Qle_trans _ _ _ (iter_max (snd p) (fst p) s)), IH.
Qed.
Theorem cat_max_in ins m k : In (m, k) ins -> (0 < k)%nat -> m <= cat_max ins.
Proof.
  unfold cat_max. generalize 0. induction ins as [|p ins IH]; intros s H Hk; [destruct H|]. destruct H as [->|H]; cbn [fold_left].
  - cbn [fst snd]. apply (Qle_trans _ _ _ (iter_max_m m s Hk)), cat_max_ge.
  - apply IH; assumption.
Qed.
Theorem no_early_exit tol pmax qmax : big <= pmax -> big <= qmax -> tol <= big -> early_exit tol pmax qmax = false.
Proof.
  intros Hp Hq Ht. unfold early_exit. destruct (qltb 0 tol) eqn:E0; [|reflexivity]. apply qltb_spec in E0. cbn [andb].
  destruct (qltb (pmax * qmax) (tol * tol)) eqn:E; [|reflexivity]. exfalso. apply qltb_spec in E.
  assert (Hb : 0 < big) by reflexivity.
  assert (L : big * big <= pmax * qmax) by (apply Qmult_le_compat_nonneg; (split; [apply Qlt_le_weak, Hb|assumption])).
  assert (L2 : tol * tol <= big * big) by (apply Qmult_le_compat_nonneg; (split; [apply Qlt_le_weak, E0|assumption])).
  apply (Qlt_irrefl (tol * tol)). apply (Qle_lt_trans _ (pmax * qmax)); [apply (Qle_trans _ (big * big)); assumption|exact E].
Qed.
Lemma no_early_exit_filled ms1 ms2 tol : tol <= big -> early_exit tol (fill_max ms1) (fill_max ms2) = false.
Proof. apply no_early_exit; apply fill_max_big. Qed.
Lemma no_early_exit_cat ins1 ins2 m1 k1 m2 k2 tol : In (fill_max m1, k1) ins1 -> (0 < k1)%nat -> In (fill_max m2, k2) ins2 -> (0 < k2)%nat ->
  tol <= big -> early_exit tol (cat_max ins1) (cat_max ins2) = false.
Proof.
  intros H1 K1 H2 K2. apply no_early_exit.
  - apply (Qle_trans _ (fill_max m1)); [apply fill_max_big|]. exact (@cat_max_in _ _ _ H1 K1).
  - apply (Qle_trans _ (fill_max m2)); [apply fill_max_big|]. exact (@cat_max_in _ _ _ H2 K2).
Qed.
(** Without the large initial value the exit would fire for small screen values. *)
Example exit_possible : early_exit (1 # 10) (1 # 100) (1 # 100) = true.
Proof. reflexivity. Qed.
