(** Shared definitions: commutative rings (the value domain of all numeric
    models), finite sums, list helpers.  Nothing here models code; it is the
    vocabulary of the specifications. *)
From Coq Require Import List Arith Lia ZArith Ring Ring_theory Permutation Bool.
Import ListNotations.

Set Implicit Arguments.

(** A commutative ring.  Numeric theorems quantify over all of these; the real
    numbers are one instance.  IEEE rounding is not modelled. *)
Record cring := CRing {
  car :> Type;
  c0 : car;
  c1 : car;
  cadd : car -> car -> car;
  cmul : car -> car -> car;
  csub : car -> car -> car;
  copp : car -> car;
  cth : ring_theory c0 c1 cadd cmul csub copp (@eq car)
}.

Arguments c0 {c}.
Arguments c1 {c}.
Arguments cadd {c} _ _.
Arguments cmul {c} _ _.
Arguments csub {c} _ _.
Arguments copp {c} _.

Declare Scope r_scope.
Delimit Scope r_scope with r.
Notation "x + y" := (cadd x y) : r_scope.
Notation "x * y" := (cmul x y) : r_scope.
Notation "x - y" := (csub x y) : r_scope.
Notation "- x" := (copp x) : r_scope.
Bind Scope r_scope with car.

(** The integers, used for concrete instances in examples. *)
Definition Zring : cring :=
  @CRing Z 0%Z 1%Z Z.add Z.mul Z.sub Z.opp Zth.

Section RingFacts.
  Context {R : cring}.
  Add Ring Rring_base : (cth R).
  Local Open Scope r_scope.

  (** n * 1 in the ring. *)
  Fixpoint ofnat (n : nat) : R :=
    match n with 0 => c0 | S k => ofnat k + c1 end.

  Lemma ofnat_0 : ofnat 0 = c0. Proof. reflexivity. Qed.
  Lemma ofnat_S n : ofnat (S n) = ofnat n + c1. Proof. reflexivity. Qed.
  Lemma ofnat_add a b : ofnat (a + b) = ofnat a + ofnat b.
  Proof. induction a as [|a IH]; simpl; [ring|rewrite IH; ring]. Qed.
  Lemma ofnat_mul a b : ofnat (a * b) = ofnat a * ofnat b.
  Proof. induction a as [|a IH]; simpl; [ring|rewrite ofnat_add, IH; ring]. Qed.
  Lemma ofnat_1 : ofnat 1 = c1. Proof. simpl; ring. Qed.

  Lemma cadd_0_l (x : R) : c0 + x = x. Proof. ring. Qed.
  Lemma cadd_0_r (x : R) : x + c0 = x. Proof. ring. Qed.
  Lemma cmul_0_l (x : R) : c0 * x = c0. Proof. ring. Qed.
  Lemma cmul_0_r (x : R) : x * c0 = c0. Proof. ring. Qed.

  (** Finite sums. *)
  Fixpoint rsum (l : list R) : R :=
    match l with [] => c0 | x :: t => x + rsum t end.

  Lemma rsum_app l1 l2 : rsum (l1 ++ l2) = rsum l1 + rsum l2.
  Proof. induction l1 as [|x l IH]; simpl; [ring|rewrite IH; ring]. Qed.

  Lemma rsum_perm l1 l2 : Permutation l1 l2 -> rsum l1 = rsum l2.
  Proof.
    induction 1 as [|x l l' _ IH|x y l|l l' l'' _ IH1 _ IH2]; simpl.
    - reflexivity.
    - rewrite IH; reflexivity.
    - ring.
    - congruence.
  Qed.

  Lemma rsum_map_ext A (f g : A -> R) l :
    (forall x, In x l -> f x = g x) -> rsum (map f l) = rsum (map g l).
  Proof.
    induction l as [|x l IH]; intros H; simpl; [reflexivity|].
    rewrite H by (left; reflexivity). rewrite IH; [reflexivity|].
    intros y Hy; apply H; right; exact Hy.
  Qed.

  Lemma rsum_map_zero A (f : A -> R) l :
    (forall x, In x l -> f x = c0) -> rsum (map f l) = c0.
  Proof.
    induction l as [|x l IH]; intros H; simpl; [reflexivity|].
    rewrite H by (left; reflexivity). rewrite IH; [ring|].
    intros y Hy; apply H; right; exact Hy.
  Qed.

  Lemma rsum_map_add A (f g : A -> R) l :
    rsum (map (fun x => f x + g x) l) = rsum (map f l) + rsum (map g l).
  Proof. induction l as [|x l IH]; simpl; [ring|rewrite IH; ring]. Qed.

  Lemma rsum_map_scale A (c : R) (f : A -> R) l :
    rsum (map (fun x => c * f x) l) = c * rsum (map f l).
  Proof. induction l as [|x l IH]; simpl; [ring|rewrite IH; ring]. Qed.

  Lemma rsum_flat_map A B (f : A -> list B) (g : B -> R) l :
    rsum (map g (flat_map f l)) = rsum (map (fun a => rsum (map g (f a))) l).
  Proof.
    induction l as [|x l IH]; simpl; [reflexivity|].
    rewrite map_app, rsum_app, IH. reflexivity.
  Qed.

  Lemma rsum_swap A B (f : A -> B -> R) la lb :
    rsum (map (fun a => rsum (map (fun b => f a b) lb)) la) =
    rsum (map (fun b => rsum (map (fun a => f a b) la)) lb).
  Proof.
    induction la as [|a la IH]; simpl.
    - symmetry; apply rsum_map_zero; reflexivity.
    - rewrite IH, <- rsum_map_add. reflexivity.
  Qed.
End RingFacts.

(** ** Lists *)

Lemma nth_error_seq s n i : i < n -> nth_error (seq s n) i = Some (s + i).
Proof.
  revert s i; induction n as [|n IH]; intros s i H; [lia|].
  destruct i as [|i]; simpl; [f_equal; lia|].
  rewrite IH by lia. f_equal; lia.
Qed.

Lemma NoDup_app_intro A (l1 l2 : list A) :
  NoDup l1 -> NoDup l2 -> (forall x, In x l1 -> In x l2 -> False) -> NoDup (l1 ++ l2).
Proof.
  induction l1 as [|x l IH]; intros H1 H2 H; simpl; [exact H2|].
  inversion H1 as [|? ? Hx Hl]; subst. constructor.
  - rewrite in_app_iff; intros [Hi|Hi]; [exact (Hx Hi)|].
    apply (H x); [left; reflexivity|exact Hi].
  - apply IH; [exact Hl|exact H2|].
    intros y Hy1 Hy2; apply (H y); [right; exact Hy1|exact Hy2].
Qed.

Lemma NoDup_flat_map A B (f : A -> list B) l :
  NoDup l -> (forall a, In a l -> NoDup (f a)) ->
  (forall a b x, In a l -> In b l -> In x (f a) -> In x (f b) -> a = b) ->
  NoDup (flat_map f l).
Proof.
  induction l as [|a l IH]; intros Hnd Hf Hd; simpl; [constructor|].
  inversion Hnd as [|? ? Ha Hl]; subst.
  apply NoDup_app_intro.
  - apply Hf; left; reflexivity.
  - apply IH; [exact Hl| |].
    + intros b Hb; apply Hf; right; exact Hb.
    + intros b c x Hb Hc; apply Hd; right; assumption.
  - intros x Hx1 Hx2. apply in_flat_map in Hx2 as [b [Hb Hxb]].
    assert (a = b).
    { apply (Hd a b x); [left; reflexivity|right; exact Hb|exact Hx1|exact Hxb]. }
    subst b. exact (Ha Hb).
Qed.

Lemma nth_error_flat_map_const A B (f : A -> list B) l k :
  (forall a, In a l -> length (f a) = k) ->
  forall i j a, j < k -> nth_error l i = Some a ->
  nth_error (flat_map f l) (i * k + j) = nth_error (f a) j.
Proof.
  induction l as [|b l IH]; intros Hk i j a Hj Hi; [destruct i; discriminate|].
  destruct i as [|i]; simpl in *.
  - injection Hi as ->. rewrite nth_error_app1; [reflexivity|].
    rewrite Hk by (left; reflexivity). exact Hj.
  - rewrite nth_error_app2; rewrite Hk by (left; reflexivity); [|lia].
    replace (k + i * k + j - k) with (i * k + j) by lia.
    apply IH; [intros c Hc; apply Hk; right; exact Hc|exact Hj|exact Hi].
Qed.

Lemma length_flat_map_const A B (f : A -> list B) l k :
  (forall a, In a l -> length (f a) = k) -> length (flat_map f l) = length l * k.
Proof.
  induction l as [|b l IH]; intros Hk; simpl; [reflexivity|].
  rewrite app_length, Hk by (left; reflexivity).
  rewrite IH; [reflexivity|]. intros c Hc; apply Hk; right; exact Hc.
Qed.

(** Position of the first element satisfying a test, [std::find]. *)
Fixpoint find_pos A (p : A -> bool) (l : list A) : option nat :=
  match l with
  | [] => None
  | x :: t => if p x then Some 0
              else match find_pos p t with Some i => Some (S i) | None => None end
  end.

Lemma find_pos_some A (p : A -> bool) l i :
  find_pos p l = Some i ->
  exists x, nth_error l i = Some x /\ p x = true /\
            forall j y, j < i -> nth_error l j = Some y -> p y = false.
Proof.
  revert i; induction l as [|x l IH]; intros i H; simpl in H; [discriminate|].
  destruct (p x) eqn:E.
  - injection H as <-. exists x; repeat split; auto. intros; lia.
  - destruct (find_pos p l) as [k|] eqn:E2; [|discriminate].
    injection H as <-. destruct (IH k eq_refl) as [y [H1 [H2 H3]]].
    exists y; repeat split; auto.
    intros j z Hj Hz. destruct j as [|j]; simpl in Hz; [congruence|].
    apply (H3 j z); [lia|exact Hz].
Qed.

Lemma find_pos_first A (p : A -> bool) l i x :
  nth_error l i = Some x -> p x = true ->
  (forall j y, nth_error l j = Some y -> p y = true -> j = i) ->
  find_pos p l = Some i.
Proof.
  revert i; induction l as [|a l IH]; intros i Hi Hp Hu; simpl; [destruct i; discriminate|].
  destruct (p a) eqn:E.
  - f_equal. apply (Hu 0 a); auto.
  - destruct i as [|i]; [simpl in Hi; congruence|].
    simpl in Hi. rewrite (IH i); auto.
    intros j y Hj Hy. assert (S j = S i) by (apply (Hu (S j) y); auto). lia.
Qed.

Lemma find_pos_none A (p : A -> bool) l :
  find_pos p l = None -> forall x, In x l -> p x = false.
Proof.
  induction l as [|a l IH]; intros H x Hx; [destruct Hx|].
  simpl in H. destruct (p a) eqn:E; [discriminate|].
  destruct (find_pos p l); [discriminate|].
  destruct Hx as [->|Hx]; auto.
Qed.

Lemma find_pos_none_iff A (p : A -> bool) l :
  (forall x, In x l -> p x = false) -> find_pos p l = None.
Proof.
  induction l as [|a l IH]; intros H; simpl; [reflexivity|].
  rewrite H by (left; reflexivity). rewrite IH; [reflexivity|].
  intros x Hx; apply H; right; exact Hx.
Qed.

(** Update of a list element (no effect out of range). *)
Fixpoint upd A (l : list A) (i : nat) (v : A) : list A :=
  match l, i with
  | [], _ => []
  | _ :: t, 0 => v :: t
  | x :: t, S k => x :: upd t k v
  end.

Lemma upd_length A (l : list A) i v : length (upd l i v) = length l.
Proof. revert i; induction l as [|x l IH]; intros [|i]; simpl; auto. Qed.

Lemma nth_error_upd_same A (l : list A) i v :
  i < length l -> nth_error (upd l i v) i = Some v.
Proof. revert i; induction l as [|x l IH]; intros [|i] H; simpl in *; try lia; auto.
  apply IH; lia. Qed.

Lemma nth_error_upd_other A (l : list A) i j v :
  i <> j -> nth_error (upd l i v) j = nth_error l j.
Proof. revert i j; induction l as [|x l IH]; intros [|i] [|j] H; simpl; auto; congruence. Qed.

Lemma nth_error_Some_lt A (l : list A) i x : nth_error l i = Some x -> i < length l.
Proof. intros H; apply nth_error_Some; congruence. Qed.

Lemma nth_error_lt_Some A (l : list A) i : i < length l -> exists x, nth_error l i = Some x.
Proof. intros H. destruct (nth_error l i) eqn:E; [eauto|].
  apply nth_error_None in E; lia. Qed.

Lemma nth_error_ext A (l1 l2 : list A) :
  (forall i, nth_error l1 i = nth_error l2 i) -> l1 = l2.
Proof.
  revert l2; induction l1 as [|x l1 IH]; intros [|y l2] H; auto.
  - specialize (H 0); discriminate.
  - specialize (H 0); discriminate.
  - f_equal; [specialize (H 0); simpl in H; congruence|].
    apply IH; intros i; apply (H (S i)).
Qed.

Fixpoint nsum (l : list nat) : nat :=
  match l with [] => 0 | x :: t => x + nsum t end.

Lemma nsum_app l1 l2 : nsum (l1 ++ l2) = nsum l1 + nsum l2.
Proof. induction l1 as [|x l IH]; simpl; [reflexivity|rewrite IH; lia]. Qed.

Lemma forallb_In A (p : A -> bool) l x : forallb p l = true -> In x l -> p x = true.
Proof. intros H; apply (proj1 (forallb_forall p l) H). Qed.
