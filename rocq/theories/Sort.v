(** Sorting the primitives of each shell pair by screen value.
    Source: skel/simint/shell/shell.c:37-74 (simint_shellpair_screenval_quicksort), 76-128
    (simint_sort_multi_shellpair).

    [M]: the list of all arrays of the shell pair (x, y, z, PA_*, PB_*, alpha, prefac, screen,
    alpha2, beta2), [s]: which one is [screen].  The elements are of any type [A]; [kf] gives the screen
    value of an element of [screen].  Only the order of screen values matters, so a screen value is an
    integer; NaN is not modelled.  Indices are [Z] ([j] may become -1).
    Any access outside of an array gives [None]; so does running out of fuel. *)
From Coq Require Import List ZArith Lia Bool.
Import ListNotations.
From Verif Require Import Base Simd Offsets Starts.
Set Implicit Arguments.
Open Scope Z_scope.

Section Sort.
Variables (A : Type) (kf : A -> Z).
Definition zget (a : list A) (k : Z) : option A := if k <? 0 then None else nth_error a (Z.to_nat k).
Definition zset (a : list A) (k : Z) (v : A) : list A := upd a (Z.to_nat k) v.
Definition key (M : list (list A)) (s : nat) (k : Z) : option Z :=
  match nth_error M s with Some a => option_map kf (zget a k) | None => None end.

(** SWAP_DOUBLE(a[i], a[j]) on one array, and on all of them (shell.c:51-67). *)
Definition swap1 (i j : Z) (a : list A) : option (list A) :=
  match zget a i, zget a j with
  | Some x, Some y => Some (zset (zset a i y) j x)
  | _, _ => None
  end.
Fixpoint swap_all (i j : Z) (M : list (list A)) : option (list (list A)) :=
  match M with
  | [] => Some []
  | a :: r => match swap1 i j a, swap_all i j r with Some a', Some r' => Some (a' :: r') | _, _ => None end
  end.
(** [while(screen[i] > mid) i++] and [while(screen[j] < mid) j--], shell.c:47-48. *)
Fixpoint scan_up (fuel : nat) (M : list (list A)) (s : nat) (mid i : Z) : option Z :=
  match fuel with
  | O => None
  | S f => match key M s i with
    | Some x => if mid <? x then scan_up f M s mid (i + 1) else Some i
    | None => None
    end
  end.
Fixpoint scan_down (fuel : nat) (M : list (list A)) (s : nat) (mid j : Z) : option Z :=
  match fuel with
  | O => None
  | S f => match key M s j with
    | Some x => if x <? mid then scan_down f M s mid (j - 1) else Some j
    | None => None
    end
  end.
(** The outer loop, shell.c:45-71. *)
Fixpoint partition (fuel : nat) (M : list (list A)) (s : nat) (mid i j : Z) : option (list (list A) * Z * Z) :=
  match fuel with
  | O => None
  | S f =>
    if i <=? j then
      match scan_up fuel M s mid i, scan_down fuel M s mid j with
      | Some i1, Some j1 =>
        if i1 <=? j1 then
          match swap_all i1 j1 M with
          | Some M' => partition f M' s mid (i1 + 1) (j1 - 1)
          | None => None
          end
        else partition f M s mid i1 j1
      | _, _ => None
      end
    else Some (M, i, j)
  end.
Fixpoint qsort (fuel : nat) (M : list (list A)) (s : nat) (l r : Z) : option (list (list A)) :=
  match fuel with
  | O => None
  | S f =>
    match key M s (Z.quot (l + r) 2) with
    | None => None
    | Some mid =>
      match partition (S (S fuel)) M s mid l r with
      | None => None
      | Some (M1, i, j) =>
        match (if i <? r then qsort f M1 s i r else Some M1) with
        | None => None
        | Some M2 => if l <? j then qsort f M2 s l j else Some M2
        end
      end
    end
  end.

(** ** Specification *)
(** [M'] is [M] with the elements of all arrays moved by one common rearrangement of the positions
    [l..r]. *)
Definition shuffled (l r : Z) (M M' : list (list A)) : Prop :=
  length M' = length M /\
  exists f : Z -> Z,
    (forall k, l <= k <= r -> l <= f k <= r) /\
    (forall k k', f k = f k' -> k = k') /\
    (forall k, ~ (l <= k <= r) -> f k = k) /\
    (forall s a, nth_error M s = Some a -> exists a', nth_error M' s = Some a' /\ length a' = length a /\ forall k, zget a' k = zget a (f k)).
Definition descending (M : list (list A)) (s : nat) (l r : Z) : Prop :=
  forall a b x y, l <= a -> a <= b -> b <= r -> key M s a = Some x -> key M s b = Some y -> y <= x.
Definition long_enough (M : list (list A)) (s : nat) (r : Z) : Prop :=
  (exists a, nth_error M s = Some a) /\ forall a, In a M -> r < Z.of_nat (length a).

(** ** Proofs *)
Lemma zget_some a k : 0 <= k < Z.of_nat (length a) -> exists x, zget a k = Some x.
Proof.
  intros H. unfold zget. destruct (Z.ltb_spec k 0); [lia|]. destruct (nth_error a (Z.to_nat k)) as [x|] eqn:E; [exists x; reflexivity|].
  apply nth_error_None in E. lia.
Qed.
Lemma zget_range a k x : zget a k = Some x -> 0 <= k < Z.of_nat (length a).
Proof.
  unfold zget. destruct (Z.ltb_spec k 0); [discriminate|]. intros E. apply nth_error_Some_lt in E. lia.
Qed.
Lemma zset_length a k v : length (zset a k v) = length a.
Proof. apply upd_length. Qed.
Lemma zget_zset_same a k v : 0 <= k < Z.of_nat (length a) -> zget (zset a k v) k = Some v.
Proof. intros H. unfold zget, zset. destruct (Z.ltb_spec k 0); [lia|]. apply nth_error_upd_same. lia. Qed.
Lemma zget_zset_other a k k' v : 0 <= k -> k <> k' -> zget (zset a k v) k' = zget a k'.
Proof. intros H N. unfold zget, zset. destruct (Z.ltb_spec k' 0); [reflexivity|]. apply nth_error_upd_other. lia. Qed.

Definition tr (i j k : Z) : Z := if k =? i then j else if k =? j then i else k.
Lemma swap1_ok i j a : 0 <= i < Z.of_nat (length a) -> 0 <= j < Z.of_nat (length a) ->
  exists a', swap1 i j a = Some a' /\ length a' = length a /\ forall k, zget a' k = zget a (tr i j k).
Proof.
  intros Hi Hj. destruct (zget_some a Hi) as [x Ex]. destruct (zget_some a Hj) as [y Ey].
  unfold swap1. rewrite Ex, Ey. eexists. split; [reflexivity|]. split; [rewrite !zset_length; reflexivity|].
  intros k. unfold tr. destruct (Z.eqb_spec k j) as [->|Nj].
  - rewrite zget_zset_same by (rewrite zset_length; exact Hj). destruct (Z.eqb_spec j i) as [->|]; congruence.
  - rewrite zget_zset_other by lia. destruct (Z.eqb_spec k i) as [->|Ni].
    + rewrite zget_zset_same by exact Hi. congruence.
    + rewrite zget_zset_other by lia. reflexivity.
Qed.
Lemma swap_all_ok i j : forall M, 0 <= i -> 0 <= j -> (forall a, In a M -> i < Z.of_nat (length a) /\ j < Z.of_nat (length a)) ->
  exists M', swap_all i j M = Some M' /\ length M' = length M /\
  forall s a, nth_error M s = Some a -> exists a', nth_error M' s = Some a' /\ length a' = length a /\ forall k, zget a' k = zget a (tr i j k).
Proof.
  induction M as [|a M IH]; intros Hi Hj HM.
  - exists []. split; [reflexivity|]. split; [reflexivity|]. intros [|s] a E; discriminate E.
  - destruct (HM a (or_introl eq_refl)) as [L1 L2].
    destruct (@swap1_ok i j a ltac:(lia) ltac:(lia)) as (a' & Ea & La & Va).
    destruct (IH Hi Hj (fun b Hb => HM b (or_intror Hb))) as (M' & EM & LM & VM).
    exists (a' :: M'). cbn [swap_all]. rewrite Ea, EM. split; [reflexivity|]. split; [cbn; congruence|].
    intros [|s] b E; cbn [nth_error] in *.
    + injection E as <-. exists a'. repeat split; assumption.
    + apply VM, E.
Qed.

Lemma shuffled_refl l r M : shuffled l r M M.
Proof. split; [reflexivity|]. exists (fun k => k). repeat split; try tauto. intros s a E. exists a. repeat split. exact E. Qed.
Lemma shuffled_trans l r M1 M2 M3 : shuffled l r M1 M2 -> shuffled l r M2 M3 -> shuffled l r M1 M3.
Proof.
  intros [L1 (f & F1 & F2 & F3 & F4)] [L2 (g & G1 & G2 & G3 & G4)]. split; [congruence|]. exists (fun k => f (g k)). split; [|split; [|split]].
  - intros k Hk. apply F1, G1, Hk.
  - intros k k' E. apply G2, F2, E.
  - intros k Hk. rewrite G3 by exact Hk. apply F3, Hk.
  - intros s a E. destruct (F4 s a E) as (a' & E' & L' & V'). destruct (G4 s a' E') as (a2 & E2 & L2' & V2).
    exists a2. repeat split; [exact E2|congruence|]. intros k. rewrite V2, V'. reflexivity.
Qed.
Lemma shuffled_widen l r l' r' M M' : l' <= l -> r <= r' -> shuffled l r M M' -> shuffled l' r' M M'.
Proof.
  intros H1 H2 [L (f & F1 & F2 & F3 & F4)]. split; [exact L|]. exists f. split; [|split; [|split]].
  - intros k Hk. destruct (Z_le_dec l k), (Z_le_dec k r); try (rewrite F3 by lia; exact Hk). specialize (F1 k ltac:(lia)). lia.
  - exact F2.
  - intros k Hk. apply F3. lia.
  - exact F4.
Qed.
Lemma swap_shuffled l r i j M M' : 0 <= l -> l <= i -> i <= r -> l <= j -> j <= r -> (forall a, In a M -> r < Z.of_nat (length a)) ->
  swap_all i j M = Some M' -> shuffled l r M M'.
Proof.
  intros Hl H1 H2 H3 H4 HM E.
  destruct (@swap_all_ok i j M ltac:(lia) ltac:(lia)) as (M2 & E2 & L2 & V2); [intros a Ha; specialize (HM a Ha); lia|].
  rewrite E in E2. injection E2 as <-. split; [exact L2|]. exists (tr i j). unfold tr. split; [|split; [|split]].
  - intros k Hk. destruct (Z.eqb_spec k i), (Z.eqb_spec k j); lia.
  - intros k k' Ek. destruct (Z.eqb_spec k i), (Z.eqb_spec k j), (Z.eqb_spec k' i), (Z.eqb_spec k' j); lia.
  - intros k Hk. destruct (Z.eqb_spec k i), (Z.eqb_spec k j); lia.
  - exact V2.
Qed.
Lemma shuffled_long l r s q M M' : shuffled l r M M' -> long_enough M s q -> long_enough M' s q.
Proof.
  intros [L (f & _ & _ & _ & F)] [(a & Ea) HM]. split.
  - destruct (F s a Ea) as (a' & E' & _). exists a'; exact E'.
  - intros b Hb. apply In_nth_error in Hb as [k Hk].
    destruct (nth_error M k) as [c|] eqn:Ec.
    + destruct (F k c Ec) as (c' & E' & L' & _). assert (b = c') by congruence. subst. rewrite L'. apply HM. apply nth_error_In in Ec. exact Ec.
    + apply nth_error_None in Ec. apply nth_error_Some_lt in Hk. lia.
Qed.
Lemma key_shuffled l r s M M' : shuffled l r M M' -> (exists a, nth_error M s = Some a) ->
  exists f, (forall k, l <= k <= r -> l <= f k <= r) /\ (forall k, ~ (l <= k <= r) -> f k = k) /\ forall k, key M' s k = key M s (f k).
Proof.
  intros [L (f & F1 & F2 & F3 & F4)] (a & Ea). exists f. split; [exact F1|]. split; [exact F3|].
  intros k. destruct (F4 s a Ea) as (a' & E' & _ & V). unfold key. rewrite Ea, E'. f_equal. apply V.
Qed.
Lemma key_some M s r k : long_enough M s r -> 0 <= k <= r -> exists x, key M s k = Some x.
Proof.
  intros [(a & Ea) HM] Hk. unfold key. rewrite Ea. destruct (@zget_some a k) as [x Ex]; [specialize (HM a (nth_error_In _ _ Ea)); lia|]. exists (kf x). rewrite Ex. reflexivity.
Qed.

Lemma scan_up_ok M s r mid stop x : forall fuel i, long_enough M s r -> 0 <= i -> i <= stop -> stop <= r ->
  key M s stop = Some x -> x <= mid -> (Z.to_nat (stop - i) < fuel)%nat ->
  exists i1, scan_up fuel M s mid i = Some i1 /\ i <= i1 <= stop /\
    (forall k y, i <= k < i1 -> key M s k = Some y -> mid <= y) /\ (forall y, key M s i1 = Some y -> y <= mid).
Proof.
  induction fuel as [|f IH]; intros i HM Hi Hs Hr Ek Hx Hf; [lia|]. cbn [scan_up].
  destruct (@key_some M s r i HM ltac:(lia)) as [y Ey]. rewrite Ey. destruct (Z.ltb_spec mid y) as [L|L].
  - assert (i <> stop) by (intros ->; rewrite Ek in Ey; injection Ey as <-; lia).
    destruct (IH (i + 1)) as (i1 & E1 & B1 & A1 & C1); try assumption; try lia.
    exists i1. split; [exact E1|]. split; [lia|]. split; [|exact C1]. intros k z Hk Ez.
    destruct (Z.eq_dec k i) as [->|]; [rewrite Ey in Ez; injection Ez as <-; lia|]. apply (A1 k); [lia|exact Ez].
  - exists i. split; [reflexivity|]. split; [lia|]. split; [intros; lia|]. intros z Ez. rewrite Ey in Ez. injection Ez as <-. exact L.
Qed.
Lemma scan_down_ok M s r mid stop x : forall fuel j, long_enough M s r -> 0 <= stop -> stop <= j -> j <= r ->
  key M s stop = Some x -> mid <= x -> (Z.to_nat (j - stop) < fuel)%nat ->
  exists j1, scan_down fuel M s mid j = Some j1 /\ stop <= j1 <= j /\
    (forall k y, j1 < k <= j -> key M s k = Some y -> y <= mid) /\ (forall y, key M s j1 = Some y -> mid <= y).
Proof.
  induction fuel as [|f IH]; intros j HM Hi Hs Hr Ek Hx Hf; [lia|]. cbn [scan_down].
  destruct (@key_some M s r j HM ltac:(lia)) as [y Ey]. rewrite Ey. destruct (Z.ltb_spec y mid) as [L|L].
  - assert (j <> stop) by (intros ->; rewrite Ek in Ey; injection Ey as <-; lia).
    destruct (IH (j - 1)) as (i1 & E1 & B1 & A1 & C1); try assumption; try lia.
    exists i1. split; [exact E1|]. split; [lia|]. split; [|exact C1]. intros k z Hk Ez.
    destruct (Z.eq_dec k j) as [->|]; [rewrite Ey in Ez; injection Ez as <-; lia|]. apply (A1 k); [lia|exact Ez].
  - exists j. split; [reflexivity|]. split; [lia|]. split; [intros; lia|]. intros z Ez. rewrite Ey in Ez. injection Ez as <-. exact L.
Qed.

Lemma partition_ok s l r mid : 0 <= l -> l <= r -> forall fuel M i j, long_enough M s r ->
  l <= i -> j <= r -> i <= j + 2 -> l - 1 <= j -> i <= r + 1 ->
  (forall k x, l <= k < i -> key M s k = Some x -> mid <= x) ->
  (forall k x, j < k <= r -> key M s k = Some x -> x <= mid) ->
  ((i = l /\ j = r /\ exists k, l <= k <= r /\ key M s k = Some mid) \/ (l < i /\ j < r)) ->
  (Z.to_nat (j - i + 2) < fuel)%nat -> (i = l -> j = r -> (Z.to_nat (r - l + 2) < fuel)%nat) ->
  exists M' i' j', partition fuel M s mid i j = Some (M', i', j') /\ shuffled l r M M' /\
    l < i' /\ i' <= r + 1 /\ j' < r /\ l - 1 <= j' /\ j' < i' /\
    (forall k x, l <= k < i' -> key M' s k = Some x -> mid <= x) /\
    (forall k x, j' < k <= r -> key M' s k = Some x -> x <= mid).
Proof.
  intros Hl Hlr. induction fuel as [|f IH]; intros M i j HM Hi Hj Hij Hjl Hir HA HB HC Hf Hf2; [lia|]. cbn [partition].
  destruct (Z.leb_spec i j) as [L|L].
  - (* positions where the scans stop at the latest *)
    assert (HU : exists stop x, i <= stop /\ stop <= r /\ key M s stop = Some x /\ x <= mid /\ stop <= j + 1).
    { destruct HC as [(-> & -> & k & Hk & Ek)|(H1 & H2)].
      - exists k, mid. repeat split; try lia; assumption.
      - destruct (@key_some M s r (j + 1) HM ltac:(lia)) as [x Ex]. exists (j + 1), x. repeat split; try lia; [exact Ex|apply (HB (j + 1)); [lia|exact Ex]]. }
    assert (HD : exists stop x, l <= stop /\ stop <= j /\ key M s stop = Some x /\ mid <= x /\ i - 1 <= stop).
    { destruct HC as [(-> & -> & k & Hk & Ek)|(H1 & H2)].
      - exists k, mid. repeat split; try lia; assumption.
      - destruct (@key_some M s r (i - 1) HM ltac:(lia)) as [x Ex]. exists (i - 1), x. repeat split; try lia; [exact Ex|apply (HA (i - 1)); [lia|exact Ex]]. }
    destruct HU as (su & xu & U1 & U2 & U3 & U4 & U5). destruct HD as (sd & xd & D1 & D2 & D3 & D4 & D5).
    destruct (@scan_up_ok M s r mid su xu (S f) i HM ltac:(lia) U1 U2 U3 U4 ltac:(lia)) as (i1 & Ei & Bi & Ai & Ci).
    destruct (@scan_down_ok M s r mid sd xd (S f) j HM ltac:(lia) D2 Hj D3 D4 ltac:(lia)) as (j1 & Ej & Bj & Aj & Cj).
    rewrite Ei, Ej.
    assert (HA1 : forall k x, l <= k < i1 -> key M s k = Some x -> mid <= x).
    { intros k x Hk Ek. destruct (Z_lt_dec k i); [apply (HA k); [lia|exact Ek]|apply (Ai k); [lia|exact Ek]]. }
    assert (HB1 : forall k x, j1 < k <= r -> key M s k = Some x -> x <= mid).
    { intros k x Hk Ek. destruct (Z_lt_dec j k); [apply (HB k); [lia|exact Ek]|apply (Aj k); [lia|exact Ek]]. }
    destruct (Z.leb_spec i1 j1) as [L1|L1].
    + destruct (@swap_all_ok i1 j1 M ltac:(lia) ltac:(lia)) as (M' & ES & LS & VS).
      { intros a Ha. destruct HM as [_ HM]. specialize (HM a Ha). lia. }
      rewrite ES. assert (Hsh : shuffled l r M M') by (apply (@swap_shuffled l r i1 j1 M M'); try lia; [apply (proj2 HM)|exact ES]).
      assert (HM' : long_enough M' s r) by (apply (shuffled_long Hsh HM)).
      destruct HM as [(a & Ea) HMl]. destruct (VS s a Ea) as (a' & Ea' & _ & Va).
      assert (HK : forall k, key M' s k = key M s (tr i1 j1 k)) by (intros k; unfold key; rewrite Ea, Ea'; f_equal; apply Va).
      destruct (IH M' (i1 + 1) (j1 - 1)) as (M2 & i2 & j2 & E2 & S2 & R2); try lia.
      * exact HM'.
      * intros k x Hk Ek. rewrite HK in Ek. unfold tr in Ek.
        destruct (Z.eqb_spec k i1) as [->|]; [apply Cj; exact Ek|]. destruct (Z.eqb_spec k j1); [lia|]. apply (HA1 k); [lia|exact Ek].
      * intros k x Hk Ek. rewrite HK in Ek. unfold tr in Ek.
        destruct (Z.eqb_spec k i1) as [->|].
        -- assert (i1 = j1) by lia. subst. apply Ci. exact Ek.
        -- destruct (Z.eqb_spec k j1); [apply Ci; exact Ek|]. apply (HB1 k); [lia|exact Ek].
      * exists M2, i2, j2. split; [exact E2|]. split; [apply (shuffled_trans Hsh S2)|exact R2].
    + assert (HC2 : l < i /\ j < r).
      { destruct HC as [(-> & -> & k & Hk & Ek)|H]; [|exact H]. exfalso.
        assert (i1 <= k). { destruct (Z_le_dec i1 k) as [|G]; [assumption|].
          destruct (@scan_up_ok M s r mid k mid (S f) l HM ltac:(lia) ltac:(lia) ltac:(lia) Ek ltac:(lia) ltac:(lia)) as (i3 & Ei3 & Bi3 & _). rewrite Ei in Ei3. injection Ei3 as <-. lia. }
        destruct (@scan_down_ok M s r mid k mid (S f) r HM ltac:(lia) ltac:(lia) ltac:(lia) Ek ltac:(lia) ltac:(lia)) as (j3 & Ej3 & Bj3 & _). rewrite Ej in Ej3. injection Ej3 as <-. lia. }
      destruct f as [|f]; [lia|]. cbn [partition]. destruct (Z.leb_spec i1 j1); [lia|].
      exists M, i1, j1. split; [reflexivity|]. split; [apply shuffled_refl|]. repeat split; try lia; assumption.
  - exists M, i, j. split; [reflexivity|]. split; [apply shuffled_refl|].
    destruct HC as [(-> & -> & _)|(H1 & H2)]; [lia|]. repeat split; try lia; assumption.
Qed.

Lemma range_pred l r s M M' (P : Z -> Prop) : shuffled l r M M' -> (exists a, nth_error M s = Some a) ->
  (forall k x, l <= k <= r -> key M s k = Some x -> P x) -> (forall k x, l <= k <= r -> key M' s k = Some x -> P x).
Proof.
  intros H Hs HP k x Hk E. destruct (key_shuffled s H Hs) as (f & F1 & _ & F3). rewrite F3 in E. exact (HP (f k) x (F1 k Hk) E).
Qed.
Lemma key_outside l r s M M' k : shuffled l r M M' -> (exists a, nth_error M s = Some a) -> ~ (l <= k <= r) -> key M' s k = key M s k.
Proof. intros H Hs Hk. destruct (key_shuffled s H Hs) as (f & _ & F2 & F3). rewrite F3, F2 by exact Hk. reflexivity. Qed.

Theorem qsort_ok s : forall fuel M l r, 0 <= l -> l <= r -> long_enough M s r -> (Z.to_nat (r - l) < fuel)%nat ->
  exists M', qsort fuel M s l r = Some M' /\ shuffled l r M M' /\ descending M' s l r.
Proof.
  induction fuel as [|f IH]; intros M l r Hl Hlr HM Hf; [lia|]. cbn [qsort].
  assert (Hmid : l <= Z.quot (l + r) 2 <= r).
  { rewrite Z.quot_div_nonneg by lia. split; [apply Z.div_le_lower_bound; lia|apply Z.div_le_upper_bound; lia]. }
  destruct (@key_some M s r (Z.quot (l + r) 2) HM ltac:(lia)) as [mid Emid]. rewrite Emid.
  destruct (@partition_ok s l r mid Hl Hlr (S (S (S f))) M l r HM) as (M1 & i & j & EP & S1 & H1 & H2 & H3 & H4 & H5 & HA & HB); try lia; try (intros; lia).
  { left. split; [reflexivity|]. split; [reflexivity|]. exists (Z.quot (l + r) 2). split; [lia|exact Emid]. }
  rewrite EP. pose proof (shuffled_long S1 HM) as HM1.
  assert (HR : exists M2, (if i <? r then qsort f M1 s i r else Some M1) = Some M2 /\ shuffled i r M1 M2 /\ descending M2 s i r).
  { destruct (Z.ltb_spec i r) as [L|L].
    - apply IH; try lia. exact HM1.
    - exists M1. split; [reflexivity|]. split; [apply shuffled_refl|]. intros a b x y Ha Hab Hb Ea Eb.
      assert (a = b) by lia. subst. rewrite Ea in Eb. injection Eb as <-. lia. }
  destruct HR as (M2 & ER & S2 & D2). rewrite ER. pose proof (shuffled_long S2 HM1) as HM2.
  assert (HL : exists M3, (if l <? j then qsort f M2 s l j else Some M2) = Some M3 /\ shuffled l j M2 M3 /\ descending M3 s l j).
  { destruct (Z.ltb_spec l j) as [L|L].
    - apply IH; try lia. destruct HM2 as [E2 HM2]. split; [exact E2|]. intros a Ha. specialize (HM2 a Ha). lia.
    - exists M2. split; [reflexivity|]. split; [apply shuffled_refl|]. intros a b x y Ha Hab Hb Ea Eb.
      assert (a = b) by lia. subst. rewrite Ea in Eb. injection Eb as <-. lia. }
  destruct HL as (M3 & EL & S3 & D3). rewrite EL. exists M3. split; [reflexivity|]. split.
  - apply (shuffled_trans S1). apply (@shuffled_trans _ _ _ M2).
    + apply (@shuffled_widen i r); [lia|lia|exact S2].
    + apply (@shuffled_widen l j); [lia|lia|exact S3].
  - assert (G1 : forall k x, l <= k <= j -> key M3 s k = Some x -> mid <= x).
    { apply (@range_pred l j s M2 M3 (fun x => mid <= x) S3 (proj1 HM2)). intros k x Hk Ek.
      rewrite (@key_outside i r s M1 M2 k S2 (proj1 HM1)) in Ek by lia. apply (HA k); [lia|exact Ek]. }
    assert (G2 : forall k x, i <= k <= r -> key M3 s k = Some x -> x <= mid).
    { intros k x Hk Ek. rewrite (@key_outside l j s M2 M3 k S3 (proj1 HM2)) in Ek by lia. revert k x Hk Ek.
      apply (@range_pred i r s M1 M2 (fun x => x <= mid) S2 (proj1 HM1)). intros k x Hk Ek. apply (HB k); [lia|exact Ek]. }
    assert (G3 : forall k x, j < k < i -> key M3 s k = Some x -> x = mid).
    { intros k x Hk Ek. rewrite (@key_outside l j s M2 M3 k S3 (proj1 HM2)) in Ek by lia. rewrite (@key_outside i r s M1 M2 k S2 (proj1 HM1)) in Ek by lia.
      specialize (HA k x ltac:(lia) Ek). specialize (HB k x ltac:(lia) Ek). lia. }
    intros a b x y Ha Hab Hb Ea Eb.
    destruct (Z_le_dec b j) as [Bj|Bj].
    + apply (D3 a b); try lia; assumption.
    + destruct (Z_le_dec i a) as [Ai|Ai].
      * rewrite (@key_outside l j s M2 M3 a S3 (proj1 HM2)) in Ea by lia. rewrite (@key_outside l j s M2 M3 b S3 (proj1 HM2)) in Eb by lia.
        apply (D2 a b); try lia; assumption.
      * assert (y <= mid) by (destruct (Z_le_dec i b); [apply (G2 b); [lia|exact Eb]|rewrite (G3 b y ltac:(lia) Eb); lia]).
        assert (mid <= x) by (destruct (Z_le_dec a j); [apply (G1 a); [lia|exact Ea]|rewrite (G3 a x ltac:(lia) Ea); lia]).
        lia.
Qed.

(** ** All shell pairs: shell.c:76-128. *)
Section Multi.
Variables (len nss n : nat) (np : nat -> nat) (s : nat).
Fixpoint sort_loop (m t idx : nat) (M : list (list A)) : option (list (list A)) :=
  match m with
  | O => Some M
  | S m' =>
    match qsort (S (np t)) M s (Z.of_nat idx) (Z.of_nat idx + Z.of_nat (np t) - 1) with
    | None => None
    | Some M' =>
      let e := (idx + np t)%nat in
      sort_loop m' (S t) (if ((S t mod nss =? 0) || (n <=? S t))%nat then rnd len e else e) M'
    end
  end.
Definition sort_multi (nprim : nat) (M : list (list A)) : option (list (list A)) :=
  if (nprim =? 1)%nat then Some M else sort_loop n 0 0 M.

Local Notation st := (start len nss np).
Definition in_pair (t : nat) (k : Z) : Prop := Z.of_nat (st t) <= k < Z.of_nat (st t) + Z.of_nat (np t).
(** All arrays rearranged alike, each shell pair in itself, the rest stays. *)
Definition pairs_shuffled (P : nat -> Prop) (M M' : list (list A)) : Prop :=
  length M' = length M /\
  exists f : Z -> Z,
    (forall t k, P t -> in_pair t k -> in_pair t (f k)) /\
    (forall k k', f k = f k' -> k = k') /\
    (forall k, (forall t, P t -> ~ in_pair t k) -> f k = k) /\
    (forall i a, nth_error M i = Some a -> exists a', nth_error M' i = Some a' /\ length a' = length a /\ forall k, zget a' k = zget a (f k)).

Hypothesis Hlen : (0 < len)%nat.
Hypothesis Hnss : (0 < nss)%nat.
Hypothesis Hnp : forall t, (t < n)%nat -> (0 < np t)%nat.

Lemma stS_le t u : (t <= u)%nat -> (st t <= st u)%nat.
Proof.
  induction 1 as [|u _ IH]; [lia|]. cbn [start]. destruct (S u mod nss =? 0)%nat; [|lia].
  pose proof (rnd_ge Hlen (st u + np u)). lia.
Qed.
Lemma stS_next t u : (t < u)%nat -> (st t + np t <= st u)%nat.
Proof.
  intros H. pose proof (@stS_le (S t) u H) as L. cbn [start] in L. destruct (S t mod nss =? 0)%nat; [|lia].
  pose proof (rnd_ge Hlen (st t + np t)). lia.
Qed.
Lemma in_pair_unique t u k : in_pair t k -> in_pair u k -> t = u.
Proof.
  unfold in_pair. intros H1 H2. destruct (Nat.lt_trichotomy t u) as [L|[L|L]]; [|exact L|].
  - pose proof (stS_next L). lia.
  - pose proof (stS_next L). lia.
Qed.

Lemma sort_loop_ok : forall m t M, (t + m = n)%nat -> (exists a, nth_error M s = Some a) ->
  (forall a u, In a M -> (u < n)%nat -> (st u + np u <= length a)%nat) ->
  exists M', sort_loop m t (st t) M = Some M' /\ pairs_shuffled (fun u => (t <= u < n)%nat) M M' /\
    (forall u, (t <= u < n)%nat -> descending M' s (Z.of_nat (st u)) (Z.of_nat (st u) + Z.of_nat (np u) - 1)).
Proof.
  induction m as [|m IH]; intros t M Ht Hs HM; cbn [sort_loop].
  - exists M. split; [reflexivity|]. split; [|intros; lia]. split; [reflexivity|]. exists (fun k => k). split; [tauto|split; [tauto|split; [tauto|]]]. intros i a E. exists a. repeat split. exact E.
  - pose proof (Hnp (t := t) ltac:(lia)) as H0.
    destruct (@qsort_ok s (S (np t)) M (Z.of_nat (st t)) (Z.of_nat (st t) + Z.of_nat (np t) - 1)) as (M1 & E1 & S1 & D1); try lia.
    { split; [exact Hs|]. intros a Ha. specialize (HM a t Ha ltac:(lia)). lia. }
    rewrite E1. destruct S1 as [L1 (f & F1 & F2 & F3 & F4)].
    assert (Hs1 : exists a, nth_error M1 s = Some a) by (destruct Hs as (a & Ea); destruct (F4 s a Ea) as (a' & Ea' & _); exists a'; exact Ea').
    assert (HM1 : forall a u, In a M1 -> (u < n)%nat -> (st u + np u <= length a)%nat).
    { intros a u Ha Hu. apply In_nth_error in Ha as [i Ei]. destruct (nth_error M i) as [b|] eqn:Eb.
      - destruct (F4 i b Eb) as (b' & Eb' & Lb & _). assert (a = b') by congruence. subst. rewrite Lb. apply HM; [apply nth_error_In in Eb; exact Eb|exact Hu].
      - apply nth_error_None in Eb. apply nth_error_Some_lt in Ei. lia. }
    destruct m as [|m].
    + cbn [sort_loop]. exists M1. split; [reflexivity|]. split.
      * split; [exact L1|]. exists f. split; [|split; [exact F2|split; [|exact F4]]].
        -- intros u k Hu Hk. assert (u = t) by lia. subst. unfold in_pair in *. specialize (F1 k ltac:(lia)). lia.
        -- intros k Hk. apply F3. specialize (Hk t ltac:(lia)). unfold in_pair in Hk. lia.
      * intros u Hu. assert (u = t) by lia. subst. exact D1.
    + set (e := (st t + np t)%nat).
      assert (En : (if (S t mod nss =? 0)%nat || (n <=? S t)%nat then rnd len e else e) = st (S t)).
      { cbn [start]. fold e. replace (n <=? S t)%nat with false by (symmetry; apply Nat.leb_gt; lia). rewrite orb_false_r. reflexivity. }
      rewrite En. destruct (IH (S t) M1 ltac:(lia) Hs1 HM1) as (M2 & E2 & S2 & D2). exists M2. split; [exact E2|].
      destruct S2 as [L2 (g & G1 & G2 & G3 & G4)].
      assert (Gid : forall k, in_pair t k -> g k = k).
      { intros k Hk. apply G3. intros u Hu Hk2. pose proof (in_pair_unique Hk Hk2). lia. }
      split.
      * split; [congruence|]. exists (fun k => f (g k)). split; [|split; [|split]].
        -- intros u k Hu Hk. destruct (Nat.eq_dec u t) as [->|Nu].
           ++ rewrite (Gid k Hk). unfold in_pair in *. specialize (F1 k ltac:(lia)). lia.
           ++ specialize (G1 u k ltac:(lia) Hk). rewrite F3; [exact G1|]. intros Hc. apply Nu. apply (@in_pair_unique u t (g k)); [exact G1|]. unfold in_pair. lia.
        -- intros k k' E. apply G2, F2, E.
        -- intros k Hk. rewrite G3 by (intros u Hu; apply Hk; lia). apply F3. specialize (Hk t ltac:(lia)). unfold in_pair in Hk. lia.
        -- intros i a E. destruct (F4 i a E) as (a' & E' & L' & V'). destruct (G4 i a' E') as (a2 & E2' & L2' & V2).
           exists a2. repeat split; [exact E2'|congruence|]. intros k. rewrite V2, V'. reflexivity.
      * intros u Hu. destruct (Nat.eq_dec u t) as [->|Nu]; [|apply D2; lia].
        intros a b x y Ha Hab Hb Ea Eb. destruct Hs1 as (c & Ec). destruct (G4 s c Ec) as (c' & Ec' & _ & Vc).
        unfold key in Ea, Eb. rewrite Ec', Vc, Gid in Ea by (unfold in_pair; lia). rewrite Ec', Vc, Gid in Eb by (unfold in_pair; lia).
        apply (D1 a b x y Ha Hab Hb); unfold key; rewrite Ec; assumption.
Qed.

Theorem sort_multi_ok nprim M : nprim = nsum (map np (seq 0 n)) -> (exists a, nth_error M s = Some a) ->
  (forall a u, In a M -> (u < n)%nat -> (st u + np u <= length a)%nat) ->
  exists M', sort_multi nprim M = Some M' /\ pairs_shuffled (fun u => (u < n)%nat) M M' /\
    (forall u, (u < n)%nat -> descending M' s (Z.of_nat (st u)) (Z.of_nat (st u) + Z.of_nat (np u) - 1)).
Proof.
  intros Hp Hs HM. unfold sort_multi. destruct (Nat.eqb_spec nprim 1) as [E|E].
  - exists M. split; [reflexivity|]. split.
    + split; [reflexivity|]. exists (fun k => k). split; [tauto|split; [tauto|split; [tauto|]]]. intros i a Ea. exists a. repeat split. exact Ea.
    + intros u Hu a b x y Ha Hab Hb Ea Eb.
      assert (Hu1 : np u = 1%nat).
      { assert (G : forall l, In u l -> (np u <= nsum (map np l))%nat).
        { induction l as [|v l IH]; [intros []|]. intros [->|Hin]; cbn; [lia|]. specialize (IH Hin). lia. }
        specialize (G (seq 0 n) ltac:(apply in_seq; lia)). pose proof (Hnp Hu). lia. }
      rewrite Hu1 in Hb. assert (a = b) by lia. subst a. rewrite Ea in Eb. injection Eb as <-. lia.
  - destruct (@sort_loop_ok n 0 M eq_refl Hs HM) as (M' & E' & (L & f & F1 & F2 & F3 & F4) & D). exists M'. split; [exact E'|]. split.
    + split; [exact L|]. exists f. split; [|split; [exact F2|split; [|exact F4]]].
      * intros t k Ht. apply F1. lia.
      * intros k Hk. apply F3. intros t Ht. apply Hk. lia.
    + intros u Hu. apply D. lia.
Qed.
End Multi.
End Sort.

(** Example: two shell pairs with 5 and 3 primitives, vector length 4, padding at the end. *)
Definition ex_sort_M : list (list Z) := [[10;11;12;13;14;20;21;22]; [3;9;1;9;5;2;7;2]]%Z.
Example ex_sort : sort_multi (fun x => x) 4 8 2 (fun t => match t with O => 5 | _ => 3 end)%nat 1 8 ex_sort_M =
  Some [[13;11;14;10;12;21;22;20]; [9;9;5;3;1;7;2;2]]%Z.
Proof. vm_compute. reflexivity. Qed.
