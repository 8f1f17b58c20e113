(** Totally ordered rings without zero divisors: the numbers screening compares. *)
From Coq Require Import List Arith ZArith Lia Bool Ring QArith Qcanon Permutation.
Import ListNotations.
From Verif Require Import Base.
Set Implicit Arguments.
Local Open Scope nat_scope.

Record ordered (R : cring) := Ordered {
  leb : R -> R -> bool;
  o_total : forall x y, leb x y = true \/ leb y x = true;
  o_antisym : forall x y, leb x y = true -> leb y x = true -> x = y;
  o_trans : forall x y z, leb x y = true -> leb y z = true -> leb x z = true;
  o_add : forall x y z, leb x y = true -> leb (cadd x z) (cadd y z) = true;
  o_mul : forall x y, leb x c0 = false -> leb y c0 = false -> leb (cmul x y) c0 = false;
  o_one : leb c1 (@c0 R) = false }.

Section Order.
Context {R : cring}.
Add Ring Rring_ord : (cth R).
Variable O : ordered R.
Local Open Scope r_scope.
Definition le (x y : R) : Prop := leb O x y = true.
Definition lt (x y : R) : Prop := leb O y x = false.
(** [fabs] and [a > b ? a : b]. *)
Definition vabs (x : R) : R := if leb O c0 x then x else - x.
Definition vmax (a b : R) : R := if leb O a b then b else a.

Lemma le_refl x : le x x.
Proof. destruct (o_total O x x); assumption. Qed.
Lemma le_trans x y z : le x y -> le y z -> le x z.
Proof. apply (o_trans O). Qed.
Lemma lt_le x y : lt x y -> le x y.
Proof. unfold lt, le. intros H. destruct (o_total O x y); [assumption|congruence]. Qed.
Lemma le_lt_dec x y : {le x y} + {lt y x}.
Proof. unfold le, lt. destruct (leb O x y); [left|right]; reflexivity. Qed.
Lemma lt_not_le x y : lt x y -> le y x -> False.
Proof. unfold lt, le. congruence. Qed.
Lemma le_lt_eq x y : le x y -> x = y \/ lt x y.
Proof. intros H. destruct (le_lt_dec y x) as [L|L]; [left; apply (o_antisym O); assumption|right; exact L]. Qed.
Lemma le_sub x y : le x y <-> le c0 (y - x).
Proof.
  split; intros H.
  - apply (o_add O x y (- x)) in H. unfold le. replace (x + - x) with (@c0 R) in H by ring. replace (y - x) with (y + - x) by ring. exact H.
  - apply (o_add O c0 (y - x) x) in H. unfold le. replace (c0 + x) with x in H by ring. replace (y - x + x) with y in H by ring. exact H.
Qed.
Lemma le_sub1 x y : le x y -> le c0 (y - x).
Proof. apply (le_sub x y). Qed.
Lemma lt_sub x y : lt x y <-> lt c0 (y - x).
Proof.
  unfold lt. split; intros H.
  - destruct (leb O (y - x) c0) eqn:E; [|reflexivity]. exfalso. apply (lt_not_le H). apply (o_add O _ _ x) in E.
    replace (c0 + x) with x in E by ring. replace (y - x + x) with y in E by ring. exact E.
  - destruct (leb O y x) eqn:E; [|reflexivity]. exfalso. apply (lt_not_le H). apply (o_add O _ _ (- x)) in E.
    replace (x + - x) with (@c0 R) in E by ring. replace (y + - x) with (y - x) in E by ring. exact E.
Qed.
Lemma le_add2 x y u v : le x y -> le u v -> le (x + u) (y + v).
Proof.
  intros H1 H2. apply le_trans with (y + u); [apply (o_add O), H1|]. replace (y + u) with (u + y) by ring. replace (y + v) with (v + y) by ring.
  apply (o_add O), H2.
Qed.
Lemma add_pos x y : le c0 x -> le c0 y -> le c0 (x + y).
Proof. intros H1 H2. replace (@c0 R) with (@c0 R + c0) by ring. apply le_add2; assumption. Qed.
Lemma add_lt x y : le c0 x -> lt c0 y -> lt c0 (x + y).
Proof.
  intros H1 H2. unfold lt. destruct (leb O (x + y) c0) eqn:E; [|reflexivity]. exfalso. apply (lt_not_le H2).
  apply le_trans with (x + y); [|exact E]. apply (proj2 (le_sub y (x + y))). replace (x + y - y) with x by ring. exact H1.
Qed.
Lemma mul_pos x y : le c0 x -> le c0 y -> le c0 (x * y).
Proof.
  intros H1 H2. apply le_lt_eq in H1 as [<-|H1]; [replace (c0 * y) with (@c0 R) by ring; apply le_refl|].
  apply le_lt_eq in H2 as [<-|H2]; [replace (x * c0) with (@c0 R) by ring; apply le_refl|]. apply lt_le. apply (o_mul O); assumption.
Qed.
Lemma mul_le x y u v : le c0 x -> le x y -> le c0 u -> le u v -> le (x * u) (y * v).
Proof.
  intros H0 H1 H2 H3. apply le_sub. replace (y * v - x * u) with ((y - x) * v + x * (v - u)) by ring.
  apply add_pos; apply mul_pos; try assumption; [apply le_sub1, H1|apply le_trans with u; assumption|apply le_sub1, H3].
Qed.
Lemma neg_le x : le c0 x <-> le (- x) c0.
Proof. rewrite (le_sub (- x) c0). replace (c0 - - x) with x by ring. reflexivity. Qed.
Lemma sq_pos x : le c0 (x * x).
Proof.
  destruct (le_lt_dec c0 x) as [H|H]; [apply mul_pos; exact H|]. apply lt_le in H. replace (x * x) with ((- x) * (- x)) by ring.
  assert (le c0 (- x)) by (apply (proj2 (neg_le (- x))); replace (- - x) with x by ring; exact H). apply mul_pos; assumption.
Qed.
Lemma lt_le_trans x y z : lt x y -> le y z -> lt x z.
Proof. intros H1 H2. destruct (le_lt_dec z x) as [L|L]; [|exact L]. exfalso. apply (lt_not_le H1). apply le_trans with z; assumption. Qed.
Lemma one_pos : lt c0 (@c1 R).
Proof. apply (o_one O). Qed.
Lemma ofnat_pos n : le c0 (ofnat n).
Proof. induction n as [|n IH]; [apply le_refl|]. rewrite ofnat_S. apply add_pos; [exact IH|apply lt_le, one_pos]. Qed.

Lemma abs_pos x : le c0 (vabs x).
Proof. unfold vabs. destruct (leb O c0 x) eqn:E; [exact E|]. apply (proj2 (neg_le (- x))). replace (- - x) with x by ring. apply lt_le. exact E. Qed.
Lemma abs_id x : le c0 x -> vabs x = x.
Proof. unfold vabs, le. intros ->. reflexivity. Qed.
Lemma abs_ge x : le x (vabs x).
Proof.
  unfold vabs. destruct (leb O c0 x) eqn:E; [apply le_refl|]. apply le_trans with c0; [apply lt_le; exact E|].
  apply (proj2 (neg_le (- x))). replace (- - x) with x by ring. apply lt_le. exact E.
Qed.
Lemma abs_opp x : vabs (- x) = vabs x.
Proof.
  unfold vabs. destruct (leb O c0 x) eqn:E, (leb O c0 (- x)) eqn:E'.
  - assert (H : le x c0) by (replace x with (- - x) by ring; apply (proj1 (neg_le (- x))); exact E').
    assert (Hx : x = c0) by (apply (o_antisym O); assumption). rewrite Hx. ring.
  - ring.
  - reflexivity.
  - exfalso. assert (H : lt x c0) by exact E. apply lt_le in H. assert (K : le c0 (- x)) by (apply (proj2 (neg_le (- x))); replace (- - x) with x by ring; exact H). unfold le in K. congruence.
Qed.
Lemma abs_sq x : vabs x * vabs x = x * x.
Proof. unfold vabs. destruct (leb O c0 x); ring. Qed.
Lemma abs_mul x y : vabs (x * y) = vabs x * vabs y.
Proof.
  destruct (o_total O c0 x) as [Hx|Hx], (o_total O c0 y) as [Hy|Hy].
  - rewrite !abs_id; auto. apply mul_pos; assumption.
  - rewrite (abs_id Hx), <- (abs_opp y), <- (abs_opp (x * y)). assert (le c0 (- y)) by (apply (proj2 (neg_le (- y))); replace (- - y) with y by ring; exact Hy).
    rewrite (abs_id H), abs_id; [ring|]. replace (- (x * y)) with (x * - y) by ring. apply mul_pos; assumption.
  - rewrite (abs_id Hy), <- (abs_opp x), <- (abs_opp (x * y)). assert (le c0 (- x)) by (apply (proj2 (neg_le (- x))); replace (- - x) with x by ring; exact Hx).
    rewrite (abs_id H), abs_id; [ring|]. replace (- (x * y)) with (- x * y) by ring. apply mul_pos; assumption.
  - rewrite <- (abs_opp x), <- (abs_opp y). assert (Kx : le c0 (- x)) by (apply (proj2 (neg_le (- x))); replace (- - x) with x by ring; exact Hx).
    assert (Ky : le c0 (- y)) by (apply (proj2 (neg_le (- y))); replace (- - y) with y by ring; exact Hy).
    rewrite (abs_id Kx), (abs_id Ky), abs_id; [ring|]. replace (x * y) with (- x * - y) by ring. apply mul_pos; assumption.
Qed.
Lemma abs_add x y : le (vabs (x + y)) (vabs x + vabs y).
Proof.
  destruct (o_total O c0 (x + y)) as [H|H].
  - rewrite (abs_id H). apply le_add2; apply abs_ge.
  - rewrite <- (abs_opp (x + y)). assert (K : le c0 (- (x + y))) by (apply (proj2 (neg_le (- (x + y)))); replace (- - (x + y)) with (x + y) by ring; exact H).
    rewrite (abs_id K), <- (abs_opp x), <- (abs_opp y). replace (- (x + y)) with (- x + - y) by ring. apply le_add2; apply abs_ge.
Qed.
Lemma abs_sum A (l : list A) f h : (forall x, In x l -> le (vabs (f x)) (h x)) -> le (vabs (rsum (map f l))) (rsum (map h l)).
Proof.
  induction l as [|x l IH]; intros H.
  - cbn. rewrite abs_id; apply le_refl.
  - cbn [map]. change (rsum (f x :: map f l)) with (f x + rsum (map f l)). change (rsum (h x :: map h l)) with (h x + rsum (map h l)).
    apply le_trans with (vabs (f x) + vabs (rsum (map f l))); [apply abs_add|].
    apply le_add2; [apply H; left; reflexivity|]. apply IH. intros y Hy. apply H. right. exact Hy.
Qed.
(** Squares compare like the numbers. *)
Lemma abs_le_sq x t : le c0 t -> le (x * x) (t * t) -> le (vabs x) t.
Proof.
  intros Ht H. destruct (le_lt_dec (vabs x) t) as [L|L]; [exact L|]. exfalso.
  rewrite <- abs_sq in H. set (a := vabs x) in *. assert (P : lt c0 (a - t)) by (apply (proj1 (lt_sub t a)), L).
  assert (Q : lt c0 (a + t)).
  { replace (a + t) with ((t + t) + (a - t)) by ring. apply add_lt; [apply add_pos; exact Ht|exact P]. }
  pose proof (o_mul O _ _ P Q) as M. apply (lt_not_le M).
  replace ((a - t) * (a + t)) with (- (t * t - a * a)) by ring. apply (proj1 (neg_le (t * t - a * a))). apply le_sub1. exact H.
Qed.

Lemma max_l a b : le a (vmax a b).
Proof. unfold vmax. destruct (leb O a b) eqn:E; [exact E|apply le_refl]. Qed.
Lemma max_r a b : le b (vmax a b).
Proof. unfold vmax. destruct (leb O a b) eqn:E; [apply le_refl|apply lt_le; exact E]. Qed.
Lemma max_case a b : vmax a b = a \/ vmax a b = b.
Proof. unfold vmax. destruct (leb O a b); auto. Qed.

(** [M] is the largest of the nonnegative [f x], 0 for none. *)
Definition is_max (A : Type) (dom : A -> Prop) (f : A -> R) (M : R) : Prop :=
  (forall x, dom x -> le (f x) M) /\ (M = c0 \/ exists x, dom x /\ f x = M).

(** ** Forms that are nonnegative on squares *)
Lemma schwarz (D E G : R) : le c0 D -> le c0 E -> (forall x y, le c0 (x * x * D + (x * y + x * y) * G + y * y * E)) -> le (G * G) (D * E).
Proof.
  intros HD HE H. apply le_sub. apply le_lt_eq in HE as [HE|HE].
  - subst E. destruct (le_lt_dec c0 (D * c0 - G * G)) as [L|L]; [exact L|]. exfalso.
    assert (P : lt c0 (G * G)).
    { apply (proj1 (lt_sub (D * c0 - G * G) c0)) in L. replace (c0 - (D * c0 - G * G)) with (G * G) in L by ring. exact L. }
    specialize (H G (- (D + c1))). replace (G * G * D + (G * - (D + c1) + G * - (D + c1)) * G + - (D + c1) * - (D + c1) * c0)
      with (- (G * G * (D + c1 + c1))) in H by ring.
    assert (Q : lt c0 (D + c1 + c1)).
    { apply add_lt; [|apply one_pos]. apply add_pos; [exact HD|apply lt_le, one_pos]. }
    apply (lt_not_le (o_mul O _ _ P Q)). apply (proj1 (neg_le _)) in H. replace (- - (G * G * (D + c1 + c1))) with (G * G * (D + c1 + c1)) in H by ring. exact H.
  - destruct (le_lt_dec c0 (D * E - G * G)) as [L|L]; [exact L|]. exfalso.
    assert (P : lt c0 (G * G - D * E)).
    { apply (proj1 (lt_sub _ c0)) in L. replace (c0 - (D * E - G * G)) with (G * G - D * E) in L by ring. exact L. }
    specialize (H E (- G)). replace (E * E * D + (E * - G + E * - G) * G + - G * - G * E) with (- (E * (G * G - D * E))) in H by ring.
    apply (lt_not_le (o_mul O _ _ HE P)). apply (proj1 (neg_le _)) in H. replace (- - (E * (G * G - D * E))) with (E * (G * G - D * E)) in H by ring. exact H.
Qed.
End Order.

(** Instances. *)
Definition Zordered : ordered Zring.
Proof.
  refine (@Ordered Zring Z.leb _ _ _ _ _ _); cbn.
  - intros x y. rewrite !Z.leb_le. lia.
  - intros x y. rewrite !Z.leb_le. lia.
  - intros x y z. rewrite !Z.leb_le. lia.
  - intros x y z. rewrite !Z.leb_le. lia.
  - intros x y. rewrite !Z.leb_gt. nia.
  - reflexivity.
Defined.
