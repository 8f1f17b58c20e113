(** Overlap and kinetic energy tables: proofs. *)
From Coq Require Import List Arith Lia Bool ZArith Ring.
Import ListNotations.
From Verif Require Import Base Cart Mdir RecurData Recur PairData Deriv OneE.
Set Implicit Arguments.

Section Tables.
Context {R : cring}.
Add Ring RRop : (cth R).
Local Open Scope r_scope.
Local Notation mem := (list (option R)).

(** ** Loops *)
Lemma loopM_ok (A : Type) (P : nat -> A -> Prop) f n : forall s m,
  P s m -> (forall k m, s <= k < s + n -> P k m -> exists m', f k m = Some m' /\ P (S k) m') ->
  exists m', loopM f (seq s n) m = Some m' /\ P (s + n)%nat m'.
Proof.
  induction n as [|n IH]; intros s m H0 Hs; simpl.
  - exists m. rewrite Nat.add_0_r. auto.
  - destruct (Hs s m) as [m1 [-> H1]]; [lia|exact H0|].
    destruct (IH (S s) m1 H1) as [m2 [-> H2]].
    + intros k m' Hk. apply Hs. lia.
    + exists m2. split; [reflexivity|]. replace (s + S n)%nat with (S s + n)%nat by lia. exact H2.
Qed.

(** ** Memory *)
Lemma rdv_len (m : mem) p v : rdv m p = Some v -> p < length m.
Proof.
  unfold rdv. destruct (nth_error m p) eqn:E; [|discriminate]. intros _. eapply nth_error_Some_lt; exact E.
Qed.
(** [m'] is [m] with [v] at [p]. *)
Definition put (m m' : mem) (p : nat) (v : R) : Prop :=
  length m' = length m /\ rdv m' p = Some v /\ forall i, i <> p -> nth_error m' i = nth_error m i.
Lemma wr_put m p v : p < length m -> exists m', wr m p v = Some m' /\ put m m' p v.
Proof.
  intros H. destruct (wr_ok m v H) as [m' [E [L [V O]]]]. exists m'. split; [exact E|].
  split; [exact L|]. split; [unfold rdv; rewrite V; reflexivity|exact O].
Qed.
Lemma put_other m m' p v i : put m m' p v -> i <> p -> rdv m' i = rdv m i.
Proof. intros [_ [_ O]] H. unfold rdv. rewrite O by exact H. reflexivity. Qed.
Lemma put_put m m1 m2 p v w : put m m1 p v -> put m1 m2 p w -> put m m2 p w.
Proof.
  intros [L1 [_ O1]] [L2 [V2 O2]]. split; [congruence|]. split; [exact V2|].
  intros i Hi. rewrite O2, O1 by exact Hi. reflexivity.
Qed.
Lemma acc_put m p w v : rdv m p = Some w -> exists m', acc m p v = Some m' /\ put m m' p (w + v).
Proof. intros H. unfold acc. rewrite H. apply wr_put. eapply rdv_len; exact H. Qed.
Lemma put_eq m m' p v w : put m m' p v -> v = w -> put m m' p w.
Proof. intros H <-. exact H. Qed.

Lemma ij_inj base n i j i' j' : j < n -> j' < n -> ij base n i j = ij base n i' j' -> i = i' /\ j = j'.
Proof. unfold ij. intros H H' E. apply (@mixed_inj n i j i' j' H H'). lia. Qed.

(** ** Tables *)
Section Tab.
Variables (nam1 nam2 : nat).
Hypotheses (H1 : 1 <= nam1) (H2 : 1 <= nam2).
(** The elements of the table at [base] selected by [dom] hold the family [F]. *)
Definition tab (base : nat) (F : nat -> nat -> R) (dom : nat -> nat -> Prop) (m : mem) : Prop :=
  forall i j, i < nam1 -> j < nam2 -> dom i j -> rdv m (ij base nam2 i j) = Some (F i j).
(** Only the block at [base] differs. *)
Definition inblk (base p : nat) : Prop := base <= p < base + nam1 * nam2.
Definition frame (blk : nat -> Prop) (m0 m : mem) : Prop :=
  length m = length m0 /\ forall i, ~ blk i -> nth_error m i = nth_error m0 i.
Lemma frame_refl blk m : frame blk m m.
Proof. split; auto. Qed.
Lemma frame_put (blk : nat -> Prop) m0 m m' p v : frame blk m0 m -> put m m' p v -> blk p -> frame blk m0 m'.
Proof.
  intros [L O] [L' [_ O']] B. split; [congruence|]. intros i Hi. rewrite O'; [apply O; exact Hi|].
  intros ->. exact (Hi B).
Qed.
Lemma ij_blk base i j : i < nam1 -> j < nam2 -> inblk base (ij base nam2 i j).
Proof. unfold inblk, ij. intros Hi Hj. split; [lia|]. nia. Qed.
Lemma tab_put base F (dom : nat -> nat -> Prop) m m' i j : j < nam2 ->
  tab base F dom m -> put m m' (ij base nam2 i j) (F i j) ->
  tab base F (fun a b => dom a b \/ (a = i /\ b = j)) m'.
Proof.
  intros Hj T P a b Ha Hb D. destruct (Nat.eq_dec (ij base nam2 a b) (ij base nam2 i j)) as [E|N].
  - rewrite E. destruct (@ij_inj _ _ _ _ _ _ Hb Hj E) as [-> ->]. apply P.
  - rewrite (@put_other _ _ _ _ _ P N). apply T; [exact Ha|exact Hb|].
    destruct D as [D|[-> ->]]; [exact D|]. exfalso. apply N. reflexivity.
Qed.
Lemma tab_weaken base F (dom dom' : nat -> nat -> Prop) m :
  (forall a b, dom' a b -> dom a b) -> tab base F dom m -> tab base F dom' m.
Proof. intros H T a b Ha Hb D. apply T; auto. Qed.
Lemma tab_frame base F dom m m' p v : ~ inblk base p -> tab base F dom m -> put m m' p v -> tab base F dom m'.
Proof.
  intros N T P a b Ha Hb D. rewrite (@put_other _ _ _ _ _ P); [apply T; assumption|].
  intros E. apply N. rewrite <- E. apply ij_blk; assumption.
Qed.
Lemma put_len m m' p v : put m m' p v -> length m' = length m.
Proof. intros [L _]. exact L. Qed.
Lemma put_val m m' p v : put m m' p v -> rdv m' p = Some v.
Proof. intros [_ [V _]]. exact V. Qed.

(** *** Overlap *)
Section S.
Variables (sb : nat) (pa pb h s00 : R) (F : nat -> nat -> R).
Hypothesis HF : overlaps pa pb h s00 F.

Definition fits (m : mem) (b : nat) : Prop := b + nam1 * nam2 <= length m.
Lemma fits_ij m b i j : fits m b -> i < nam1 -> j < nam2 -> ij b nam2 i j < length m.
Proof. intros Hf Hi Hj. pose proof (ij_blk b Hi Hj) as B. unfold inblk, fits in *. lia. Qed.

(** Domains: the first column up to [k]; the column and the first row up to [k]; the rows below [i] and of row
    [i] the elements up to [k]. *)
Definition dcol (k i j : nat) : Prop := j = 0%nat /\ i < k.
Definition drow (k i j : nat) : Prop := j = 0%nat \/ (i = 0%nat /\ j < k).
Definition dall (i k a b : nat) : Prop := b = 0%nat \/ a < i \/ (a = i /\ b < k).

Lemma s_i0_ok m i : 1 <= i < nam1 -> fits m sb -> tab sb F (dcol i) m ->
  exists m', s_i0 nam2 sb pa h i m = Some m' /\ put m m' (ij sb nam2 i 0) (F i 0%nat).
Proof.
  intros Hi Hf T. unfold s_i0. destruct HF as [HL [HR H0]].
  destruct i as [|i]; [lia|]. cbn [Nat.sub]. rewrite Nat.sub_0_r.
  rewrite (T i 0%nat) by (unfold dcol; lia).
  destruct (@wr_put m (ij sb nam2 (S i) 0) (pa * F i 0%nat)) as [m1 [-> P1]]; [apply fits_ij; [exact Hf|lia|lia]|].
  pose proof (HL i 0%nat) as E. cbn [ofnat] in E.
  destruct i as [|i].
  - exists m1. split; [reflexivity|]. eapply put_eq; [exact P1|]. rewrite E. cbn [ofnat]. ring.
  - change (1 <? S (S i)) with true. cbv iota. cbn [Nat.sub] in *. rewrite Nat.sub_0_r in *.
    rewrite (@put_other _ _ _ _ (ij sb nam2 i 0) P1) by (intros K; apply ij_inj in K; lia).
    rewrite (T i 0%nat) by (unfold dcol; lia).
    destruct (@acc_put m1 _ _ (ofnat (S i) * h * F i 0%nat) (put_val P1)) as [m2 [-> P2]].
    exists m2. split; [reflexivity|]. eapply put_eq; [exact (put_put P1 P2)|]. rewrite E. ring.
Qed.

Lemma s_0j_ok m j : 1 <= j < nam2 -> fits m sb -> tab sb F (drow j) m ->
  exists m', s_0j nam2 sb pb h j m = Some m' /\ put m m' (ij sb nam2 0 j) (F 0%nat j).
Proof.
  intros Hj Hf T. unfold s_0j. destruct HF as [HL [HR H0]].
  destruct j as [|j]; [lia|]. cbn [Nat.sub]. rewrite Nat.sub_0_r.
  rewrite (T 0%nat j) by (unfold drow; lia).
  destruct (@wr_put m (ij sb nam2 0 (S j)) (pb * F 0%nat j)) as [m1 [-> P1]]; [apply fits_ij; [exact Hf|lia|lia]|].
  pose proof (HR 0%nat j) as E. cbn [ofnat] in E.
  destruct j as [|j].
  - exists m1. split; [reflexivity|]. eapply put_eq; [exact P1|]. rewrite E. cbn [ofnat]. ring.
  - change (1 <? S (S j)) with true. cbv iota. cbn [Nat.sub] in *. rewrite Nat.sub_0_r in *.
    rewrite (@put_other _ _ _ _ (ij sb nam2 0 j) P1) by (intros K; apply ij_inj in K; lia).
    rewrite (T 0%nat j) by (unfold drow; lia).
    destruct (@acc_put m1 _ _ (ofnat (S j) * h * F 0%nat j) (put_val P1)) as [m2 [-> P2]].
    exists m2. split; [reflexivity|]. eapply put_eq; [exact (put_put P1 P2)|]. rewrite E. ring.
Qed.

Lemma s_ij_ok m i j : 1 <= i < nam1 -> 1 <= j < nam2 -> fits m sb -> tab sb F (dall i j) m ->
  exists m', s_ij nam2 sb pb h i j m = Some m' /\ put m m' (ij sb nam2 i j) (F i j).
Proof.
  intros Hi Hj Hf T. unfold s_ij. destruct HF as [HL [HR H0]].
  destruct j as [|j]; [lia|]. cbn [Nat.sub]. rewrite Nat.sub_0_r.
  rewrite (T i j) by (unfold dall; lia). rewrite (T (i - 1)%nat j) by (unfold dall; lia).
  destruct (@wr_put m (ij sb nam2 i (S j)) (pb * F i j + h * ofnat i * F (i - 1)%nat j)) as [m1 [-> P1]];
    [apply fits_ij; [exact Hf|lia|lia]|].
  pose proof (HR i j) as E.
  destruct j as [|j].
  - exists m1. split; [reflexivity|]. eapply put_eq; [exact P1|]. rewrite E. cbn [ofnat]. ring.
  - change (1 <? S (S j)) with true. cbv iota. cbn [Nat.sub] in *. rewrite Nat.sub_0_r in *.
    rewrite (@put_other _ _ _ _ (ij sb nam2 i j) P1) by (intros K; apply ij_inj in K; lia).
    rewrite (T i j) by (unfold dall; lia).
    destruct (@acc_put m1 _ _ (h * ofnat (S j) * F i j) (put_val P1)) as [m2 [-> P2]].
    exists m2. split; [reflexivity|]. eapply put_eq; [exact (put_put P1 P2)|]. rewrite E. ring.
Qed.

(** *** Kinetic energy *)
Section T.
Variables (tb : nat) (half al1 al2 oop mu : R).
Hypothesis Hh : half + half = c1.
Hypothesis Hoop : (al1 + al2) * oop = c1.
Hypothesis Hmu : mu = al1 * al2 * oop.
Hypothesis Hoo2p : h = half * oop.
Hypothesis Hpp : al1 * pa + al2 * pb = c0.
Let T := kinetic half al2 F.

Lemma half2 (x : R) : half * x + half * x = x.
Proof. transitivity ((half + half) * x); [ring|]. rewrite Hh. ring. Qed.
Lemma sub_zero (x y : R) : x - y = c0 -> x = y.
Proof. intros E. transitivity (x - y + y); [ring|]. rewrite E. ring. Qed.
Lemma oop_2h : oop = h + h.
Proof. rewrite Hoo2p. symmetry. apply half2. Qed.
Lemma p_2h : (al1 + al2) * (h + h) = c1.
Proof. rewrite <- oop_2h. exact Hoop. Qed.

(** Moving both functions. *)
Lemma translation i j :
  ofnat 2 * al1 * F (S i) j + ofnat 2 * al2 * F i (S j) = ofnat i * F (i - 1)%nat j + ofnat j * F i (j - 1)%nat.
Proof.
  destruct HF as [HL [HR _]]. rewrite HL, HR. cbn [ofnat].
  set (X := ofnat i * F (i - 1)%nat j + ofnat j * F i (j - 1)%nat).
  transitivity (ofnat 2 * (al1 * pa + al2 * pb) * F i j + (al1 + al2) * (h + h) * X); [cbn [ofnat]; ring|].
  rewrite Hpp, p_2h. ring.
Qed.

Lemma kin_left i j : T (S i) j =
  pa * T i j + h * (ofnat i * T (i - 1)%nat j + ofnat j * T i (j - 1)%nat)
  + al2 * oop * (ofnat 2 * al1 * F (S i) j - ofnat i * F (i - 1)%nat j).
Proof.
  assert (E : T (S i) j = pa * T i j + h * (ofnat i * T (i - 1)%nat j + ofnat j * T i (j - 1)%nat)
    + al2 * oop * (ofnat j * F i (j - 1)%nat - ofnat 2 * al2 * F i (S j))).
  { destruct HF as [HL [HR _]]. rewrite oop_2h. unfold T, kinetic. rewrite !HL.
    destruct j as [|[|[|j]]].
    - cbn [Nat.add Nat.sub Nat.mul ofnat]. ring.
    - cbn [Nat.add Nat.sub Nat.mul ofnat]. ring.
    - cbn [Nat.add Nat.sub Nat.mul ofnat]. ring.
    - replace (S (S (S j)) + 2 - 1)%nat with (S (S (S (S j)))) by lia.
      replace (S (S (S j)) - 1 + 2)%nat with (S (S (S (S j)))) by lia.
      replace (S (S (S j)) - 1 - 1)%nat with (S j) by lia.
      replace (S (S (S j)) - 1 - 2)%nat with j by lia.
      replace (S (S (S j)) - 2 - 1)%nat with j by lia.
      replace (S (S (S j)) - 2)%nat with (S j) by lia.
      replace (S (S (S j)) - 1)%nat with (S (S j)) by lia.
      rewrite !ofnat_add, !ofnat_mul. cbn [ofnat]. ring. }
  rewrite E. f_equal. f_equal. pose proof (translation i j) as Tr.
  apply sub_zero. match goal with |- ?x - ?y = _ => transitivity (ofnat i * F (i - 1)%nat j + ofnat j * F i (j - 1)%nat
    - (ofnat 2 * al1 * F (S i) j + ofnat 2 * al2 * F i (S j))) end; [ring|]. rewrite Tr. ring.
Qed.

Lemma half_step j : half * ofnat (S j * j) = half * ofnat (j * (j - 1)) + ofnat j.
Proof.
  transitivity (half * ofnat (j * (j - 1)) + (half * ofnat j + half * ofnat j)); [|rewrite half2; reflexivity].
  destruct j as [|j]; [simpl; ring|]. cbn [Nat.sub]. rewrite Nat.sub_0_r, !ofnat_mul.
  cbn [ofnat]. ring.
Qed.

Lemma kin_right i j : T i (S j) =
  pb * T i j + h * (ofnat i * T (i - 1)%nat j + ofnat j * T i (j - 1)%nat)
  + al1 * oop * (ofnat 2 * al2 * F i (S j) - ofnat j * F i (j - 1)%nat).
Proof.
  pose proof p_2h as Ep. rewrite oop_2h. apply sub_zero.
  transitivity ((c1 - (al1 + al2) * (h + h)) * (ofnat 2 * al2 * F i (S j) - ofnat j * F i (j - 1)%nat));
    [|rewrite Ep; ring].
  destruct HF as [HL [HR _]]. unfold T, kinetic.
  replace (S j - 1)%nat with j by lia. rewrite half_step.
  destruct j as [|[|[|j]]].
  - cbn [Nat.add Nat.sub Nat.mul]. rewrite (HR i 2%nat). cbn [Nat.sub]. rewrite (HR i 0%nat).
    cbn [Nat.add Nat.sub Nat.mul ofnat]. ring.
  - cbn [Nat.add Nat.sub Nat.mul]. rewrite (HR i 3%nat). cbn [Nat.sub]. rewrite (HR i 1%nat).
    cbn [Nat.add Nat.sub Nat.mul ofnat]. ring.
  - cbn [Nat.add Nat.sub Nat.mul]. rewrite (HR i 4%nat). cbn [Nat.sub]. rewrite (HR i 2%nat).
    cbn [Nat.add Nat.sub Nat.mul ofnat]. rewrite (HR i 0%nat). cbn [Nat.sub ofnat]. ring.
  - set (n := j).
    replace (S (S (S (S n))) + 2)%nat with (S (S (S (S (S (S n)))))) by lia.
    replace (S (S (S n)) + 2)%nat with (S (S (S (S (S n))))) by lia.
    replace (S (S (S (S n))) - 2)%nat with (S (S n)) by lia.
    replace (S (S (S n)) - 2)%nat with (S n) by lia.
    replace (S (S (S n)) - 1)%nat with (S (S n)) by lia.
    replace (S (S n) + 2)%nat with (S (S (S (S n)))) by lia.
    replace (S (S n) - 2)%nat with n by lia.
    replace (S (S n) - 1)%nat with (S n) by lia.
    rewrite (HR i (S (S (S (S (S n)))))).
    replace (S (S (S (S (S n)))) - 1)%nat with (S (S (S (S n)))) by lia.
    rewrite !ofnat_add, !ofnat_mul.
    pose proof (HR i (S n)) as B. replace (S n - 1)%nat with n in B by lia.
    pose proof (HR i (S (S (S n)))) as C. replace (S (S (S n)) - 1)%nat with (S (S n)) in C by lia.
    rewrite C, B. cbn [ofnat]. ring.
Qed.

Lemma kin_00 : T 0%nat 0%nat = s00 * (al1 - ofnat 2 * al1 * al1 * (pa * pa + h)).
Proof.
  destruct HF as [HL [HR H0]]. unfold T, kinetic. cbn [Nat.add Nat.sub Nat.mul].
  rewrite (HR 0%nat 1%nat), (HR 0%nat 0%nat). cbn [Nat.sub]. rewrite H0. cbn [Nat.add Nat.sub Nat.mul ofnat].
  pose proof p_2h as Ep. 
  assert (Eb : al2 * pb = - (al1 * pa)).
  { apply sub_zero. transitivity (al1 * pa + al2 * pb); [ring|exact Hpp]. }
  assert (E1 : al2 * al2 * pb * pb = al1 * al1 * pa * pa).
  { transitivity ((al2 * pb) * (al2 * pb)); [ring|]. rewrite Eb. ring. }
  apply sub_zero.
  match goal with |- ?x = _ => transitivity
    ((c1 + c1) * s00 * (al1 * al1 * pa * pa - al2 * al2 * pb * pb) +
     (al2 - al1) * s00 * (c1 - (al1 + al2) * (h + h))) end; [ring|].
  rewrite E1, Ep. ring.
Qed.

Lemma T_i0 i : T (S i) 0%nat = pa * T i 0%nat + h * (ofnat i * T (i - 1)%nat 0%nat)
  + (ofnat 2 * mu * F (S i) 0%nat - al2 * oop * ofnat i * F (i - 1)%nat 0%nat).
Proof. rewrite kin_left, Hmu. cbn [ofnat]. ring. Qed.
Lemma T_Sj i j : T i (S j) = pb * T i j + h * (ofnat i * T (i - 1)%nat j + ofnat j * T i (j - 1)%nat)
  + (ofnat 2 * mu * F i (S j) - al1 * oop * ofnat j * F i (j - 1)%nat).
Proof. rewrite kin_right, Hmu. cbn [ofnat]. ring. Qed.

Hypothesis Hdis : forall p, inblk sb p -> ~ inblk tb p.
Lemma st_neq i j i' j' : i < nam1 -> j < nam2 -> i' < nam1 -> j' < nam2 -> ij sb nam2 i j <> ij tb nam2 i' j'.
Proof.
  intros A B C D E. apply (Hdis (ij_blk sb A B)). rewrite E. apply ij_blk; assumption.
Qed.

Lemma t_i0_ok m i : 1 <= i < nam1 -> fits m tb -> tab sb F (dcol (S i)) m -> tab tb T (dcol i) m ->
  exists m', t_i0 nam2 sb pa h tb al2 oop mu i m = Some m' /\ put m m' (ij tb nam2 i 0) (T i 0%nat).
Proof.
  intros Hi Hf TS TT. unfold t_i0. destruct i as [|i]; [lia|]. cbn [Nat.sub]. rewrite Nat.sub_0_r.
  rewrite (TT i 0%nat) by (unfold dcol; lia). rewrite (TS (S i) 0%nat) by (unfold dcol; lia).
  destruct (@wr_put m (ij tb nam2 (S i) 0) (pa * T i 0%nat + ofnat 2 * mu * F (S i) 0%nat)) as [m1 [-> P1]];
    [apply fits_ij; [exact Hf|lia|lia]|].
  pose proof (T_i0 i) as E.
  destruct i as [|i].
  - exists m1. split; [reflexivity|]. eapply put_eq; [exact P1|]. rewrite E. cbn [ofnat]. ring.
  - change (1 <? S (S i)) with true. cbv iota. cbn [Nat.sub] in *. rewrite Nat.sub_0_r in *.
    rewrite (@put_other _ _ _ _ (ij tb nam2 i 0) P1) by (intros K; apply ij_inj in K; lia).
    rewrite (TT i 0%nat) by (unfold dcol; lia).
    rewrite (@put_other _ _ _ _ (ij sb nam2 i 0) P1) by (apply st_neq; lia).
    rewrite (TS i 0%nat) by (unfold dcol; lia).
    destruct (@acc_put m1 _ _ (ofnat (S i) * h * T i 0%nat - al2 * oop * ofnat (S i) * F i 0%nat) (put_val P1)) as [m2 [-> P2]].
    exists m2. split; [reflexivity|]. eapply put_eq; [exact (put_put P1 P2)|]. rewrite E. ring.
Qed.
Lemma t_0j_ok m j : 1 <= j < nam2 -> fits m tb -> tab sb F (drow (S j)) m -> tab tb T (drow j) m ->
  exists m', t_0j nam2 sb pb h tb al1 oop mu j m = Some m' /\ put m m' (ij tb nam2 0 j) (T 0%nat j).
Proof.
  intros Hj Hf TS TT. unfold t_0j. destruct j as [|j]; [lia|]. cbn [Nat.sub]. rewrite Nat.sub_0_r.
  rewrite (TT 0%nat j) by (unfold drow; lia). rewrite (TS 0%nat (S j)) by (unfold drow; lia).
  destruct (@wr_put m (ij tb nam2 0 (S j)) (pb * T 0%nat j + ofnat 2 * mu * F 0%nat (S j))) as [m1 [-> P1]];
    [apply fits_ij; [exact Hf|lia|lia]|].
  pose proof (T_Sj 0 j) as E.
  destruct j as [|j].
  - exists m1. split; [reflexivity|]. eapply put_eq; [exact P1|]. rewrite E. cbn [ofnat]. ring.
  - change (1 <? S (S j)) with true. cbv iota. cbn [Nat.sub] in *. rewrite Nat.sub_0_r in *.
    rewrite (@put_other _ _ _ _ (ij tb nam2 0 j) P1) by (intros K; apply ij_inj in K; lia).
    rewrite (TT 0%nat j) by (unfold drow; lia).
    rewrite (@put_other _ _ _ _ (ij sb nam2 0 j) P1) by (apply st_neq; lia).
    rewrite (TS 0%nat j) by (unfold drow; lia).
    destruct (@acc_put m1 _ _ (ofnat (S j) * h * T 0%nat j - al1 * oop * ofnat (S j) * F 0%nat j) (put_val P1)) as [m2 [-> P2]].
    exists m2. split; [reflexivity|]. eapply put_eq; [exact (put_put P1 P2)|]. rewrite E. cbn [ofnat]. ring.
Qed.
Lemma t_ij_ok m i j : 1 <= i < nam1 -> 1 <= j < nam2 -> fits m tb ->
  tab sb F (dall i (S j)) m -> tab tb T (dall i j) m ->
  exists m', t_ij nam2 sb pb h tb al1 oop mu i j m = Some m' /\ put m m' (ij tb nam2 i j) (T i j).
Proof.
  intros Hi Hj Hf TS TT. unfold t_ij. destruct j as [|j]; [lia|]. cbn [Nat.sub]. rewrite Nat.sub_0_r.
  rewrite (TT i j) by (unfold dall; lia). rewrite (TT (i - 1)%nat j) by (unfold dall; lia).
  rewrite (TS i (S j)) by (unfold dall; lia).
  destruct (@wr_put m (ij tb nam2 i (S j)) (pb * T i j + h * ofnat i * T (i - 1)%nat j + ofnat 2 * mu * F i (S j)))
    as [m1 [-> P1]]; [apply fits_ij; [exact Hf|lia|lia]|].
  pose proof (T_Sj i j) as E.
  destruct j as [|j].
  - exists m1. split; [reflexivity|]. eapply put_eq; [exact P1|]. rewrite E. cbn [ofnat]. ring.
  - change (1 <? S (S j)) with true. cbv iota. cbn [Nat.sub] in *. rewrite Nat.sub_0_r in *.
    rewrite (@put_other _ _ _ _ (ij tb nam2 i j) P1) by (intros K; apply ij_inj in K; lia).
    rewrite (TT i j) by (unfold dall; lia).
    rewrite (@put_other _ _ _ _ (ij sb nam2 i j) P1) by (apply st_neq; lia).
    rewrite (TS i j) by (unfold dall; lia).
    destruct (@acc_put m1 _ _ (h * ofnat (S j) * T i j - al1 * oop * ofnat (S j) * F i j) (put_val P1)) as [m2 [-> P2]].
    exists m2. split; [reflexivity|]. eapply put_eq; [exact (put_put P1 P2)|]. rewrite E. cbn [ofnat]. ring.
Qed.

(** One direction of [simint_osoei_ke_terms]. *)
Definition kst (ds dt : nat -> nat -> Prop) (m0 m : mem) : Prop :=
  frame (fun p => inblk sb p \/ inblk tb p) m0 m /\ tab sb F ds m /\ tab tb T dt m.
Lemma kst_s ds dt m0 m m' i j : i < nam1 -> j < nam2 ->
  kst ds dt m0 m -> put m m' (ij sb nam2 i j) (F i j) ->
  kst (fun a b => ds a b \/ (a = i /\ b = j)) dt m0 m'.
Proof.
  intros Hi Hj [Fr [TS TT]] P. split; [|split].
  - eapply frame_put; [exact Fr|exact P|]. left. apply ij_blk; assumption.
  - apply tab_put with (m := m); assumption.
  - eapply tab_frame; [|exact TT|exact P]. apply Hdis. apply ij_blk; assumption.
Qed.
Lemma kst_t ds dt m0 m m' i j : i < nam1 -> j < nam2 ->
  kst ds dt m0 m -> put m m' (ij tb nam2 i j) (T i j) ->
  kst ds (fun a b => dt a b \/ (a = i /\ b = j)) m0 m'.
Proof.
  intros Hi Hj [Fr [TS TT]] P. split; [|split].
  - eapply frame_put; [exact Fr|exact P|]. right. apply ij_blk; assumption.
  - eapply tab_frame; [|exact TS|exact P]. intros B. apply (Hdis B). apply ij_blk; assumption.
  - apply tab_put with (m := m); assumption.
Qed.
Lemma kst_weaken (ds dt ds' dt' : nat -> nat -> Prop) m0 m :
  (forall a b, ds' a b -> ds a b) -> (forall a b, dt' a b -> dt a b) -> kst ds dt m0 m -> kst ds' dt' m0 m.
Proof.
  intros A B [Fr [TS TT]]. split; [exact Fr|split; eapply tab_weaken; eauto].
Qed.
Lemma kst_fits ds dt m0 m b : kst ds dt m0 m -> fits m0 b -> fits m b.
Proof. intros [[L _] _]. unfold fits. rewrite L. auto. Qed.

Lemma ke_dir_ok m : fits m sb -> fits m tb ->
  exists m', ke_dir nam1 nam2 sb pa pb h tb al1 al2 oop mu s00 m = Some m' /\
    kst (fun _ _ => True) (fun _ _ => True) m m'.
Proof.
  intros Fs Ft. unfold ke_dir.
  destruct (@wr_put m (ij sb nam2 0 0) s00) as [m0 [-> P0]]; [apply fits_ij; [exact Fs|lia|lia]|].
  rewrite (put_val P0).
  assert (K0 : kst (fun _ _ => False) (fun _ _ => False) m m).
  { split; [apply frame_refl|split; intros a b _ _ []]. }
  assert (E0 : s00 = F 0%nat 0%nat) by (symmetry; apply HF).
  assert (K1 : kst (fun a b => False \/ (a = 0%nat /\ b = 0%nat)) (fun _ _ => False) m m0).
  { eapply kst_s; [lia|lia|exact K0|]. rewrite <- E0. exact P0. }
  destruct (@wr_put m0 (ij tb nam2 0 0) (s00 * (al1 - ofnat 2 * al1 * al1 * (pa * pa + h)))) as [m0' [-> P0']].
  { apply fits_ij; [exact (kst_fits K1 Ft)|lia|lia]. }
  rewrite <- kin_00 in P0'.
  assert (K2 : kst (dcol 1) (dcol 1) m m0').
  { eapply kst_weaken; [| |eapply kst_t; [| |exact K1|exact P0']; lia];
      intros a b [-> D]; right; split; lia. }
  clear K1 K0.
  destruct (@loopM_ok _ (fun k => kst (dcol k) (dcol k) m)
    (fun i m => match s_i0 nam2 sb pa h i m with Some m' => t_i0 nam2 sb pa h tb al2 oop mu i m' | None => None end)
    (nam1 - 1) 1 m0' K2) as [m1 [-> K3]].
  { intros k x Hk K. destruct (@s_i0_ok x k) as [x1 [-> Q1]]; [lia|exact (kst_fits K Fs)|apply K|].
    pose proof (@kst_s _ _ _ _ _ k 0 ltac:(lia) ltac:(lia) K Q1) as Ka.
    assert (Kb : kst (dcol (S k)) (dcol k) m x1).
    { eapply kst_weaken; [| |exact Ka]; [|auto]. intros a b [-> D]. unfold dcol. lia. }
    destruct (@t_i0_ok x1 k) as [x2 [-> Q2]]; [lia|exact (kst_fits Kb Ft)|apply Kb|apply Kb|].
    exists x2. split; [reflexivity|]. eapply kst_weaken; [| |eapply kst_t; [| |exact Kb|exact Q2]; lia]; [auto|].
    intros a b [-> D]. unfold dcol. lia. }
  replace (1 + (nam1 - 1))%nat with nam1 in K3 by lia.
  assert (K4 : kst (drow 1) (drow 1) m m1).
  { destruct K3 as [Fr [TS TT]]. split; [exact Fr|split].
    - intros a b Ha Hb D. apply TS; [exact Ha|exact Hb|]. unfold drow, dcol in *. lia.
    - intros a b Ha Hb D. apply TT; [exact Ha|exact Hb|]. unfold drow, dcol in *. lia. }
  clear K3 K2.
  destruct (@loopM_ok _ (fun k => kst (drow k) (drow k) m)
    (fun j m => match s_0j nam2 sb pb h j m with Some m' => t_0j nam2 sb pb h tb al1 oop mu j m' | None => None end)
    (nam2 - 1) 1 m1 K4) as [m2 [-> K5]].
  { intros k x Hk K. destruct (@s_0j_ok x k) as [x1 [-> Q1]]; [lia|exact (kst_fits K Fs)|apply K|].
    pose proof (@kst_s _ _ _ _ _ 0 k ltac:(lia) ltac:(lia) K Q1) as Ka.
    assert (Kb : kst (drow (S k)) (drow k) m x1).
    { eapply kst_weaken; [| |exact Ka]; [|auto]. intros a b D. unfold drow in *. lia. }
    destruct (@t_0j_ok x1 k) as [x2 [-> Q2]]; [lia|exact (kst_fits Kb Ft)|apply Kb|apply Kb|].
    exists x2. split; [reflexivity|]. eapply kst_weaken; [| |eapply kst_t; [| |exact Kb|exact Q2]; lia]; [auto|].
    intros a b D. unfold drow in *. lia. }
  replace (1 + (nam2 - 1))%nat with nam2 in K5 by lia.
  assert (K6 : kst (dall 1 1) (dall 1 1) m m2).
  { destruct K5 as [Fr [TS TT]]. split; [exact Fr|split].
    - intros a b Ha Hb D. apply TS; [exact Ha|exact Hb|]. unfold drow, dall in *. lia.
    - intros a b Ha Hb D. apply TT; [exact Ha|exact Hb|]. unfold drow, dall in *. lia. }
  clear K5 K4.
  destruct (@loopM_ok _ (fun k => kst (dall k 1) (dall k 1) m)
    (fun i => loopM (fun j m => match s_ij nam2 sb pb h i j m with
       Some m' => t_ij nam2 sb pb h tb al1 oop mu i j m' | None => None end) (seq 1 (nam2 - 1)))
    (nam1 - 1) 1 m2 K6) as [m3 [-> K7]].
  { intros k x Hk K.
    destruct (@loopM_ok _ (fun l => kst (dall k l) (dall k l) m)
      (fun j m => match s_ij nam2 sb pb h k j m with
         Some m' => t_ij nam2 sb pb h tb al1 oop mu k j m' | None => None end) (nam2 - 1) 1 x K) as [y [-> K8]].
    { intros l z Hl Kz. destruct (@s_ij_ok z k l) as [z1 [-> Q1]]; [lia|lia|exact (kst_fits Kz Fs)|apply Kz|].
      pose proof (@kst_s _ _ _ _ _ k l ltac:(lia) ltac:(lia) Kz Q1) as Ka.
      assert (Kb : kst (dall k (S l)) (dall k l) m z1).
      { eapply kst_weaken; [| |exact Ka]; [|auto]. intros a b D. unfold dall in *. lia. }
      destruct (@t_ij_ok z1 k l) as [z2 [-> Q2]]; [lia|lia|exact (kst_fits Kb Ft)|apply Kb|apply Kb|].
      exists z2. split; [reflexivity|]. eapply kst_weaken; [| |eapply kst_t; [| |exact Kb|exact Q2]; lia]; [auto|].
      intros a b D. unfold dall in *. lia. }
    exists y. split; [reflexivity|]. destruct K8 as [Fr [TS TT]]. split; [exact Fr|split].
    - intros a b Ha Hb D. apply TS; [exact Ha|exact Hb|]. unfold dall in *. lia.
    - intros a b Ha Hb D. apply TT; [exact Ha|exact Hb|]. unfold dall in *. lia. }
  exists m3. split; [reflexivity|]. destruct K7 as [Fr [TS TT]]. split; [exact Fr|split].
  - intros a b Ha Hb _. apply TS; [exact Ha|exact Hb|]. unfold dall. lia.
  - intros a b Ha Hb _. apply TT; [exact Ha|exact Hb|]. unfold dall. lia.
Qed.
End T.

(** One direction of [simint_osoei_overlap_terms]. *)
Definition ost (ds : nat -> nat -> Prop) (m0 m : mem) : Prop := frame (inblk sb) m0 m /\ tab sb F ds m.
Lemma ost_s (ds ds' : nat -> nat -> Prop) m0 m m' i j : i < nam1 -> j < nam2 ->
  ost ds m0 m -> put m m' (ij sb nam2 i j) (F i j) ->
  (forall a b, ds' a b -> ds a b \/ (a = i /\ b = j)) -> ost ds' m0 m'.
Proof.
  intros Hi Hj [Fr TS] P W. split.
  - eapply frame_put; [exact Fr|exact P|]. apply ij_blk; assumption.
  - eapply tab_weaken; [exact W|]. apply tab_put with (m := m); assumption.
Qed.
Lemma ost_fits ds m0 m b : ost ds m0 m -> fits m0 b -> fits m b.
Proof. intros [[L _] _]. unfold fits. rewrite L. auto. Qed.
Lemma ost_dom (ds ds' : nat -> nat -> Prop) m0 m :
  (forall a b, a < nam1 -> b < nam2 -> ds' a b -> ds a b) -> ost ds m0 m -> ost ds' m0 m.
Proof. intros A [Fr TS]. split; [exact Fr|]. intros a b Ha Hb D. apply TS; auto. Qed.

Lemma overlap_dir_ok m : fits m sb ->
  exists m', overlap_dir nam1 nam2 sb pa pb h s00 m = Some m' /\ ost (fun _ _ => True) m m'.
Proof.
  intros Fs. unfold overlap_dir.
  destruct (@wr_put m (ij sb nam2 0 0) s00) as [m0 [-> P0]]; [apply fits_ij; [exact Fs|lia|lia]|].
  assert (E0 : s00 = F 0%nat 0%nat) by (symmetry; apply HF).
  assert (K2 : ost (dcol 1) m m0).
  { eapply (@ost_s (fun _ _ => False) _ m m m0 0 0); [lia|lia| |rewrite <- E0; exact P0|].
    - split; [apply frame_refl|intros a b _ _ []].
    - unfold dcol. intros; right; lia. }
  destruct (@loopM_ok _ (fun k => ost (dcol k) m) (s_i0 nam2 sb pa h) (nam1 - 1) 1 m0 K2) as [m1 [-> K3]].
  { intros k x Hk K. destruct (@s_i0_ok x k) as [x1 [-> Q1]]; [lia|exact (ost_fits K Fs)|apply K|].
    exists x1. split; [reflexivity|]. eapply ost_s; [| |exact K|exact Q1|]; [lia|lia|]. unfold dcol. intros; lia. }
  assert (K4 : ost (drow 1) m m1) by (eapply ost_dom; [|exact K3]; unfold dcol, drow; intros; lia).
  destruct (@loopM_ok _ (fun k => ost (drow k) m) (s_0j nam2 sb pb h) (nam2 - 1) 1 m1 K4) as [m2 [-> K5]].
  { intros k x Hk K. destruct (@s_0j_ok x k) as [x1 [-> Q1]]; [lia|exact (ost_fits K Fs)|apply K|].
    exists x1. split; [reflexivity|]. eapply ost_s; [| |exact K|exact Q1|]; [lia|lia|]. unfold drow. intros; lia. }
  assert (K6 : ost (dall 1 1) m m2) by (eapply ost_dom; [|exact K5]; unfold dall, drow; intros; lia).
  destruct (@loopM_ok _ (fun k => ost (dall k 1) m) (fun i => loopM (s_ij nam2 sb pb h i) (seq 1 (nam2 - 1)))
    (nam1 - 1) 1 m2 K6) as [m3 [-> K7]].
  { intros k x Hk K.
    destruct (@loopM_ok _ (fun l => ost (dall k l) m) (s_ij nam2 sb pb h k) (nam2 - 1) 1 x K) as [y [-> K8]].
    { intros l z Hl Kz. destruct (@s_ij_ok z k l) as [z1 [-> Q1]]; [lia|lia|exact (ost_fits Kz Fs)|apply Kz|].
      exists z1. split; [reflexivity|]. eapply ost_s; [| |exact Kz|exact Q1|]; [lia|lia|]. unfold dall. intros; lia. }
    exists y. split; [reflexivity|]. eapply ost_dom; [|exact K8]. unfold dall; intros; lia. }
  exists m3. split; [reflexivity|]. eapply ost_dom; [|exact K7]. unfold dall; intros; lia.
Qed.
End S.
End Tab.
End Tables.
