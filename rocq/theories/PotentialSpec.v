(** Nuclear attraction integrals: families satisfying the recurrences exist, are unique, and exchange. *)
From Coq Require Import List Arith Lia Bool ZArith Ring.
Import ListNotations.
From Verif Require Import Base Cart Mdir Potential.
Set Implicit Arguments.

Section PotSpec.
Context {R : cring}.
Add Ring RRps : (cth R).
Local Open Scope r_scope.

(** ** One direction, on sequences *)
Section OneDim.
Variables pa pb pc h : R.
Section Start.
Variable g : nat -> R.
Fixpoint ltab (i : nat) : (nat -> R) * (nat -> R) :=
  match i with
  | 0%nat => (g, fun _ => c0)
  | S i => let x := fst (ltab i) in let y := snd (ltab i) in
           (fun N => pa * x N - pc * x (S N) + h * (ofnat i * (y N - y (S N))), x)
  end.
Fixpoint rtab (j : nat) : (nat -> nat -> R) * (nat -> nat -> R) :=
  match j with
  | 0%nat => (fun i => fst (ltab i), fun _ _ => c0)
  | S j => let x := fst (rtab j) in let y := snd (rtab j) in
           (fun i N => pb * x i N - pc * x i (S N)
                       + h * (ofnat i * (x (i - 1)%nat N - x (i - 1)%nat (S N)) + ofnat j * (y i N - y i (S N))), x)
  end.
Definition tab1 (i j N : nat) : R := fst (rtab j) i N.
Lemma tab1_00 N : tab1 0 0 N = g N.
Proof. reflexivity. Qed.
Lemma tab1_right i j N : tab1 i (S j) N = pb * tab1 i j N - pc * tab1 i j (S N)
  + h * (ofnat i * (tab1 (i - 1) j N - tab1 (i - 1) j (S N)) + ofnat j * (tab1 i (j - 1) N - tab1 i (j - 1) (S N))).
Proof.
  unfold tab1. cbn [rtab fst]. destruct j as [|j].
  - cbn [ofnat]. ring.
  - replace (S j - 1)%nat with j by lia. cbn [rtab snd]. reflexivity.
Qed.
Lemma tab1_left0 i N : tab1 (S i) 0 N = pa * tab1 i 0 N - pc * tab1 i 0 (S N)
  + h * (ofnat i * (tab1 (i - 1) 0 N - tab1 (i - 1) 0 (S N))).
Proof.
  unfold tab1. cbn [rtab fst]. cbn [ltab fst]. destruct i as [|i].
  - cbn [ofnat]. ring.
  - replace (S i - 1)%nat with i by lia. cbn [ltab snd]. reflexivity.
Qed.
Definition left_at (j : nat) : Prop := forall i N, tab1 (S i) j N = pa * tab1 i j N - pc * tab1 i j (S N)
  + h * (ofnat i * (tab1 (i - 1) j N - tab1 (i - 1) j (S N)) + ofnat j * (tab1 i (j - 1) N - tab1 i (j - 1) (S N))).
(** The relation below [i], multiplied by [i]. *)
Lemma left_mult j : left_at j -> forall i N, ofnat i * tab1 i j N =
  ofnat i * (pa * tab1 (i - 1) j N - pc * tab1 (i - 1) j (S N)
  + h * (ofnat (i - 1) * (tab1 (i - 1 - 1) j N - tab1 (i - 1 - 1) j (S N))
         + ofnat j * (tab1 (i - 1) (j - 1) N - tab1 (i - 1) (j - 1) (S N)))).
Proof.
  intros H [|i] N; [cbn [ofnat]; ring|]. replace (S i - 1)%nat with i by lia. apply f_equal. apply H.
Qed.
Lemma right_mult i j N : ofnat j * tab1 i j N =
  ofnat j * (pb * tab1 i (j - 1) N - pc * tab1 i (j - 1) (S N)
  + h * (ofnat i * (tab1 (i - 1) (j - 1) N - tab1 (i - 1) (j - 1) (S N))
         + ofnat (j - 1) * (tab1 i (j - 1 - 1) N - tab1 i (j - 1 - 1) (S N)))).
Proof.
  destruct j as [|j]; [cbn [ofnat]; ring|]. replace (S j - 1)%nat with j by lia. apply f_equal. apply tab1_right.
Qed.
Lemma left_mult' j (Hj : forall k, k <= j -> left_at k) i N : ofnat j * tab1 (S i) (j - 1) N =
  ofnat j * (pa * tab1 i (j - 1) N - pc * tab1 i (j - 1) (S N)
  + h * (ofnat i * (tab1 (i - 1) (j - 1) N - tab1 (i - 1) (j - 1) (S N))
         + ofnat (j - 1) * (tab1 i (j - 1 - 1) N - tab1 i (j - 1 - 1) (S N)))).
Proof.
  destruct j as [|j]; [cbn [ofnat]; ring|]. replace (S j - 1)%nat with j by lia. apply f_equal. apply Hj. lia.
Qed.
Lemma right_mult' i j N : ofnat i * tab1 (i - 1) (S j) N =
  ofnat i * (pb * tab1 (i - 1) j N - pc * tab1 (i - 1) j (S N)
  + h * (ofnat (i - 1) * (tab1 (i - 1 - 1) j N - tab1 (i - 1 - 1) j (S N))
         + ofnat j * (tab1 (i - 1) (j - 1) N - tab1 (i - 1) (j - 1) (S N)))).
Proof. apply f_equal. apply tab1_right. Qed.

Lemma tab1_left : forall j k, k <= j -> left_at k.
Proof.
  induction j as [|j IH]; intros k Hk.
  - replace k with 0%nat by lia. intros i N. rewrite tab1_left0. cbn [ofnat]. ring.
  - destruct (Nat.eq_dec k (S j)) as [->|N]; [|apply IH; lia]. clear Hk. intros i N.
    replace (S j - 1)%nat with j by lia.
    rewrite (tab1_right (S i) j N). replace (S i - 1)%nat with i by lia.
    rewrite (IH j (le_n _) i N), (IH j (le_n _) i (S N)).
    rewrite (tab1_right i j N), (tab1_right i j (S N)).
    pose proof (left_mult' IH i N) as A0. pose proof (left_mult' IH i (S N)) as A1.
    pose proof (right_mult' i j N) as B0. pose proof (right_mult' i j (S N)) as B1.
    pose proof (left_mult (IH j (le_n _)) i N) as C0. pose proof (left_mult (IH j (le_n _)) i (S N)) as C1.
    pose proof (right_mult i j N) as D0. pose proof (right_mult i j (S N)) as D1.
    cbn [ofnat].
    set (a := tab1 i j) in *. set (b := tab1 (i - 1) j) in *. set (c := tab1 i (j - 1)) in *.
    set (d := tab1 (i - 1) (j - 1)) in *. set (e := tab1 (i - 1 - 1) j) in *. set (f := tab1 i (j - 1 - 1)) in *.
    set (p := tab1 (S i) (j - 1)) in *. set (q := tab1 (i - 1) (S j)) in *.
    set (u := ofnat i) in *. set (v := ofnat j) in *. set (u1 := ofnat (i - 1)) in *. set (v1 := ofnat (j - 1)) in *.
    replace (v * (p N - p (S N))) with (v * p N - v * p (S N)) by ring.
    replace (u * (q N - q (S N))) with (u * q N - u * q (S N)) by ring.
    rewrite A0, A1, B0, B1.
    match goal with |- ?l = ?r => transitivity (r + h * ((u * a N - u * a (S N)) - (v * a N - v * a (S N)))
      - h * ((u * (pa * b N - pc * b (S N) + h * (u1 * (e N - e (S N)) + v * (d N - d (S N)))))
             - (u * (pa * b (S N) - pc * b (S (S N)) + h * (u1 * (e (S N) - e (S (S N))) + v * (d (S N) - d (S (S N)))))))
      + h * ((v * (pb * c N - pc * c (S N) + h * (u * (d N - d (S N)) + v1 * (f N - f (S N)))))
             - (v * (pb * c (S N) - pc * c (S (S N)) + h * (u * (d (S N) - d (S (S N))) + v1 * (f (S N) - f (S (S N)))))))) end.
    + ring.
    + rewrite <- C0, <- C1, <- D0, <- D1. ring.
Qed.
End Start.

Lemma ltab_comb x y (g g1 g2 : nat -> R) (Hg : forall N, g N = x * g1 N + y * g2 N) i :
  (forall N, fst (ltab g i) N = x * fst (ltab g1 i) N + y * fst (ltab g2 i) N) /\
  (forall N, snd (ltab g i) N = x * snd (ltab g1 i) N + y * snd (ltab g2 i) N).
Proof.
  induction i as [|i [A B]]; split; intros N; cbn [ltab fst snd].
  - apply Hg.
  - ring.
  - rewrite !A, !B. ring.
  - apply A.
Qed.
Lemma rtab_comb x y (g g1 g2 : nat -> R) (Hg : forall N, g N = x * g1 N + y * g2 N) j :
  (forall i N, fst (rtab g j) i N = x * fst (rtab g1 j) i N + y * fst (rtab g2 j) i N) /\
  (forall i N, snd (rtab g j) i N = x * snd (rtab g1 j) i N + y * snd (rtab g2 j) i N).
Proof.
  induction j as [|j [A B]]; split; intros i N; cbn [rtab fst snd].
  - apply (@ltab_comb x y g g1 g2 Hg).
  - ring.
  - rewrite !A, !B. ring.
  - apply A.
Qed.
Lemma tab1_comb x y (g g1 g2 : nat -> R) : (forall N, g N = x * g1 N + y * g2 N) ->
  forall i j N, tab1 g i j N = x * tab1 g1 i j N + y * tab1 g2 i j N.
Proof. intros Hg i j N. apply (@rtab_comb x y g g1 g2 Hg). Qed.
Lemma ltab_shift (g g' : nat -> R) (Hg : forall N, g' N = g (S N)) i :
  (forall N, fst (ltab g' i) N = fst (ltab g i) (S N)) /\ (forall N, snd (ltab g' i) N = snd (ltab g i) (S N)).
Proof.
  induction i as [|i [A B]]; split; intros N; cbn [ltab fst snd].
  - apply Hg.
  - reflexivity.
  - rewrite !A, !B. reflexivity.
  - apply A.
Qed.
Lemma rtab_shift (g g' : nat -> R) (Hg : forall N, g' N = g (S N)) j :
  (forall i N, fst (rtab g' j) i N = fst (rtab g j) i (S N)) /\ (forall i N, snd (rtab g' j) i N = snd (rtab g j) i (S N)).
Proof.
  induction j as [|j [A B]]; split; intros i N; cbn [rtab fst snd].
  - apply (@ltab_shift g g' Hg).
  - reflexivity.
  - rewrite !A, !B. reflexivity.
  - apply A.
Qed.
Lemma tab1_shift (g : nat -> R) i j N : tab1 (fun n => g (S n)) i j N = tab1 g i j (S N).
Proof. apply (@rtab_shift g (fun n => g (S n)) (fun _ => eq_refl)). Qed.

(** The shape of a recurrence in another direction passes through. *)
Definition combined (x y k u v : R) (g1 g2 g3 : nat -> R) (N : nat) : R :=
  x * g1 N - y * g1 (S N) + k * (u * (g2 N - g2 (S N)) + v * (g3 N - g3 (S N))).
Lemma tab1_combined x y k u v (g g1 g2 g3 : nat -> R) :
  (forall N, g N = combined x y k u v g1 g2 g3 N) ->
  forall i j N, tab1 g i j N = combined x y k u v (tab1 g1 i j) (tab1 g2 i j) (tab1 g3 i j) N.
Proof.
  intros Hg i j N. unfold combined in *.
  rewrite (@tab1_comb c1 c1 g (fun N => x * g1 N + (- y) * g1 (S N))
    (fun N => (k * u) * (g2 N + (- c1) * g2 (S N)) + (k * v) * (g3 N + (- c1) * g3 (S N)))
    ltac:(intros M; rewrite Hg; cbv beta; ring)).
  rewrite (@tab1_comb x (- y) (fun N => x * g1 N + (- y) * g1 (S N)) g1 (fun N => g1 (S N)) (fun _ => eq_refl)).
  rewrite (@tab1_comb (k * u) (k * v) (fun N => (k * u) * (g2 N + (- c1) * g2 (S N)) + (k * v) * (g3 N + (- c1) * g3 (S N)))
    (fun N => g2 N + (- c1) * g2 (S N)) (fun N => g3 N + (- c1) * g3 (S N)) (fun _ => eq_refl)).
  rewrite (@tab1_comb c1 (- c1) (fun N => g2 N + (- c1) * g2 (S N)) g2 (fun N => g2 (S N)) ltac:(intros; cbv beta; ring)).
  rewrite (@tab1_comb c1 (- c1) (fun N => g3 N + (- c1) * g3 (S N)) g3 (fun N => g3 (S N)) ltac:(intros; cbv beta; ring)).
  rewrite !tab1_shift. ring.
Qed.
End OneDim.

(** ** Three directions *)
Variables (pa pb pc : dir -> R) (h : R).
Local Notation tb d := (tab1 (pa d) (pb d) (pc d) h).
Definition pot_family (start : nat -> R) (N : nat) (a b : gauss) : R :=
  tb DX (tb DY (tb DZ start (gz a) (gz b)) (gy a) (gy b)) (gx a) (gx b) N.

(** The function lowered in [d] (unchanged when it cannot be). *)
Definition dn (d : dir) (a : gauss) : gauss := match d with
  | DX => G (gx a - 1) (gy a) (gz a) | DY => G (gx a) (gy a - 1) (gz a) | DZ => G (gx a) (gy a) (gz a - 1) end.
Lemma lowered_dn d a (f : gauss -> R) : lowered d a f = ofnat (gexp d a) * f (dn d a).
Proof.
  unfold lowered. destruct a as [x y z]; destruct d; cbn [down dn gexp gx gy gz];
    [destruct x as [|n]|destruct y as [|n]|destruct z as [|n]]; try (cbn [ofnat]; ring);
    replace (S n - 1)%nat with n by lia; reflexivity.
Qed.
Lemma tab1_left' d (g : nat -> R) i j N : tb d g (S i) j N =
  combined (pa d) (pc d) h (ofnat i) (ofnat j) (tb d g i j) (tb d g (i - 1) j) (tb d g i (j - 1)) N.
Proof. apply (@tab1_left (pa d) (pb d) (pc d) h g j j (le_n _)). Qed.
Lemma tab1_right' d (g : nat -> R) i j N : tb d g i (S j) N =
  combined (pb d) (pc d) h (ofnat i) (ofnat j) (tb d g i j) (tb d g (i - 1) j) (tb d g i (j - 1)) N.
Proof. apply tab1_right. Qed.

Lemma pot_family_ok start M : attractions pa pb pc h M start (pot_family start).
Proof.
  split; [|split].
  - intros N d a b. rewrite !lowered_dn. unfold pot_family. destruct d; cbn [up dn gx gy gz gexp].
    + rewrite tab1_left'. unfold combined. ring.
    + rewrite (@tab1_combined _ _ _ _ _ _ _ _ _ _ _ _ _ (tab1_left' DY _ _ _)). unfold combined. ring.
    + rewrite (@tab1_combined _ _ _ _ _ _ _ _ _ _ _ _ _
        (@tab1_combined _ _ _ _ _ _ _ _ _ _ _ _ _ (tab1_left' DZ _ _ _) _ _)). unfold combined. ring.
  - intros N d a b. rewrite !lowered_dn. unfold pot_family. destruct d; cbn [up dn gx gy gz gexp].
    + rewrite tab1_right'. unfold combined. ring.
    + rewrite (@tab1_combined _ _ _ _ _ _ _ _ _ _ _ _ _ (tab1_right' DY _ _ _)). unfold combined. ring.
    + rewrite (@tab1_combined _ _ _ _ _ _ _ _ _ _ _ _ _
        (@tab1_combined _ _ _ _ _ _ _ _ _ _ _ _ _ (tab1_right' DZ _ _ _) _ _)). unfold combined. ring.
  - intros N _. reflexivity.
Qed.

Lemma gauss_up g : gam g <> 0 -> exists d g', g = up d g'.
Proof.
  intros H. destruct (mdir_some g H) as [d Hd]. destruct (@mdir_down g d Hd) as [g' [_ E]]. eauto.
Qed.
Lemma gam0 g : gam g = 0%nat -> g = G 0 0 0.
Proof. destruct g as [x y z]. unfold gam; cbn. intros H. f_equal; lia. Qed.

Lemma lowered_ext d a (f f' : gauss -> R) : (forall a', down d a = Some a' -> f a' = f' a') -> lowered d a f = lowered d a f'.
Proof. intros H. unfold lowered. destruct (down d a) as [a'|]; [rewrite (H a' eq_refl)|]; reflexivity. Qed.

(** Only the starting values up to [M] matter for integrals with [N + am_a + am_b <= M]. *)
Lemma attractions_unique M s s' (T T' : nat -> gauss -> gauss -> R) :
  attractions pa pb pc h M s T -> attractions pa pb pc h M s' T' -> (forall N, N <= M -> s N = s' N) ->
  forall N a b, N + gam a + gam b <= M -> T N a b = T' N a b.
Proof.
  intros [TL [TR T0]] [TL' [TR' T0']] E.
  assert (A : forall k N a b, gam a + gam b <= k -> N + gam a + gam b <= M -> T N a b = T' N a b).
  { induction k as [|k IH]; intros N a b Hk HM.
    - rewrite (@gam0 a), (@gam0 b) by lia. rewrite T0, T0', E by lia. reflexivity.
    - destruct (Nat.eq_dec (gam a) 0) as [Ha|Ha]; [destruct (Nat.eq_dec (gam b) 0) as [Hb|Hb]|].
      + apply IH; lia.
      + destruct (gauss_up b Hb) as [d [b' ->]]. rewrite gam_up in *.
        rewrite TR, TR', (IH N a b'), (IH (S N) a b') by lia.
        rewrite (@lowered_ext d a _ (fun a' => T' N a' b' - T' (S N) a' b')), (@lowered_ext d b' _ (fun b0 => T' N a b0 - T' (S N) a b0)); [reflexivity| |].
        * intros b0 H0. apply gam_down in H0. rewrite !IH by lia. reflexivity.
        * intros a0 H0. apply gam_down in H0. rewrite !IH by lia. reflexivity.
      + destruct (gauss_up a Ha) as [d [a' ->]]. rewrite gam_up in *.
        rewrite TL, TL', (IH N a' b), (IH (S N) a' b) by lia.
        rewrite (@lowered_ext d a' _ (fun a0 => T' N a0 b - T' (S N) a0 b)), (@lowered_ext d b _ (fun b0 => T' N a' b0 - T' (S N) a' b0)); [reflexivity| |].
        * intros b0 H0. apply gam_down in H0. rewrite !IH by lia. reflexivity.
        * intros a0 H0. apply gam_down in H0. rewrite !IH by lia. reflexivity. }
  intros N a b H. apply (A (gam a + gam b)%nat); [apply le_n|exact H].
Qed.
Lemma attractions_swap M s (T : nat -> gauss -> gauss -> R) :
  attractions pa pb pc h M s T -> attractions pb pa pc h M s (fun N a b => T N b a).
Proof.
  intros [TL [TR T0]]. split; [|split].
  - intros N d a b. rewrite TR. ring.
  - intros N d a b. rewrite TL. ring.
  - exact T0.
Qed.
End PotSpec.
