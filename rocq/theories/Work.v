(** The workspace: how a kernel divides it into scratch arrays and how large it is said to be.
    Source: generator/ostei/OSTEI_Writer.cpp:248-318 (PartitionWorkspace), 349-368 (sizes), 493
    (memset), 753 (WORK SIZE); generator/ostei/OSTEIDeriv1_Writer.cpp:259-330, 565-586, 707, 944 (the
    same text); generator/ostei/OSTEI_HRR_Algorithm_Base.cpp:356-366 (GetIntermediates);
    create.py:13-26 (UniqueQuartet), 183-191 (valid), 208-211, 259-271 (worksize), 435-450 (the table
    of simint_ostei_worksize); skel/ostei_s_s_s_s.c:29-32.

    Positions and sizes are counted in doubles from [work]; [len] is SIMINT_SIMD_LEN, [nss]
    SIMINT_NSHELL_SIMD.  [UseStack] is always false (CommandLine never sets it); only the other
    branch is modelled. *)
From Coq Require Import List Arith Lia Bool.
Import ListNotations.
From Verif Require Import Base Simd Cart Mdir HRRStep HRRAlgo HRROrder VRRStep VRRAlgo VRROrder.
Set Implicit Arguments.

(** What the writers ask the algorithms for: [TopAM], [GetAllAM] with [GetMReq],
    [GetIntermediates]; enumerated sets. *)
Record wplan := WP { w_top : list tqam; w_prim : list (qam * nat); w_inter : list tqam }.

(** Names of the arrays: [ArrVarName], [PrimVarName], [HRRVarName]. *)
Inductive scr := SArr (t : tqam) | SPrim (a : qam) | SHrr (t : tqam).
Definition scr_eq_dec (a b : scr) : {a = b} + {a <> b}.
Proof. decide equality; (apply tqam_eq_dec || apply qam_eq_dec). Defined.

(** A loop over a set with the counter [ptidx]: the array of [x] starts at [base + unit * ptidx];
    its size is [unit * size x]. *)
Fixpoint cut (A : Type) (name : A -> scr) (size : A -> nat) (base unit ptidx : nat) (l : list A)
  : list (scr * (nat * nat)) :=
  match l with
  | [] => []
  | x :: r => (name x, (base + unit * ptidx, unit * size x)) :: cut name size base unit (ptidx + size x) r
  end.

Definition tsize (t : tqam) : nat := qncart (tq_am t).
Definition psize (x : qam * nat) : nat := (snd x + 1) * qncart (fst x).

Section Partition.
Variables (len nss : nat) (fin : tqam) (w : wplan).

(** [IsFinalAM], GeneratorInfoBase.hpp:78-81. *)
Definition is_fin (t : tqam) : bool := if tqam_eq_dec t fin then true else false.
Definition batched : list tqam := filter (fun t => negb (is_fin t)) (w_top w).
Definition p1 : nat := nsum (map tsize batched).
Definition p2 : nat := nsum (map psize (w_prim w)).
Definition p3 : nat := nsum (map tsize (w_inter w)).

(** OSTEI_Writer.cpp:248-318. *)
Definition partition : list (scr * (nat * nat)) :=
  cut SArr tsize 0 nss 0 batched ++
  cut (fun x => SPrim (fst x)) psize (nss * p1) len 0 (w_prim w) ++
  cut SHrr tsize (nss * p1 + len * p2) 1 0 (w_inter w).

Definition need : nat := nss * p1 + len * p2 + p3.

(** OSTEI_Writer.cpp:349-368: [bcont_nelements] counts the final class too. *)
Definition bcont : nat := nsum (map tsize (w_top w)).
(** OSTEI_Writer.cpp:493, when there is a horizontal part. *)
Definition cleared : nat := nss * bcont.

(** ** Scratch elements: component [i] of shell pair [sh] of a batch array; lane [ln] of component
    [i] of order [m] of a primitive array; component [i] of a transfer intermediate. *)
Inductive elem := EArr (t : tqam) (sh i : nat) | EPrim (a : qam) (m i ln : nat) | EHrr (t : tqam) (i : nat).

Fixpoint lookup (n : scr) (l : list (scr * (nat * nat))) : option (nat * nat) :=
  match l with
  | [] => None
  | (k, r) :: l' => if scr_eq_dec n k then Some r else lookup n l'
  end.
Fixpoint order_of (a : qam) (l : list (qam * nat)) : option nat :=
  match l with
  | [] => None
  | (k, m) :: l' => if qam_eq_dec a k then Some m else order_of a l'
  end.
(** Where the generated code finds it (the indexing expressions of the writers:
    [INT + abcd*ncart], [PRIM[m*ncart + i]] a vector, [HRR[i]]). *)
Definition addr (e : elem) : option nat :=
  match e with
  | EArr t sh i =>
    match lookup (SArr t) partition with
    | Some (s, _) => if (sh <? nss) && (i <? tsize t) then Some (s + (sh * tsize t + i)) else None
    | None => None
    end
  | EPrim a m i ln =>
    match lookup (SPrim a) partition, order_of a (w_prim w) with
    | Some (s, _), Some M =>
      if (m <=? M) && (i <? qncart a) && (ln <? len) then Some (s + ((m * qncart a + i) * len + ln)) else None
    | _, _ => None
    end
  | EHrr t i =>
    match lookup (SHrr t) partition with
    | Some (s, _) => if i <? tsize t then Some (s + i) else None
    | None => None
    end
  end.

(** ** Consecutive regions *)
Fixpoint chained (b : nat) (l : list (scr * (nat * nat))) (e : nat) : Prop :=
  match l with
  | [] => b = e
  | (_, (s, n)) :: r => s = b /\ chained (b + n) r e
  end.

Lemma chained_app b l m e f : chained b l m -> chained m e f -> chained b (l ++ e) f.
Proof.
  revert b. induction l as [|[k [s n]] l IH]; simpl; intros b H1 H2; [subst; exact H2|].
  destruct H1 as [-> H1]. split; [reflexivity|]. apply IH; assumption.
Qed.

Lemma cut_chained (A : Type) (name : A -> scr) size base unit : forall l p,
  chained (base + unit * p) (cut name size base unit p l) (base + unit * (p + nsum (map size l))).
Proof.
  induction l as [|x l IH]; intros p; simpl.
  - f_equal. f_equal. lia.
  - split; [reflexivity|]. specialize (IH (p + size x)).
    replace (base + unit * p + unit * size x) with (base + unit * (p + size x)) by lia.
    replace (p + (size x + nsum (map size l))) with (p + size x + nsum (map size l)) by lia. exact IH.
Qed.

Lemma partition_chained : chained 0 partition need.
Proof.
  unfold partition, need.
  apply chained_app with (m := nss * p1).
  { pose proof (@cut_chained _ SArr tsize 0 nss batched 0) as H. rewrite Nat.mul_0_r in H. exact H. }
  apply chained_app with (m := nss * p1 + len * p2).
  { pose proof (@cut_chained _ (fun x => SPrim (fst x)) psize (nss * p1) len (w_prim w) 0) as H.
    rewrite Nat.mul_0_r, Nat.add_0_r in H. exact H. }
  pose proof (@cut_chained _ SHrr tsize (nss * p1 + len * p2) 1 (w_inter w) 0) as H.
  rewrite Nat.mul_0_r, Nat.add_0_r, Nat.mul_1_l in H. exact H.
Qed.

Lemma chained_le b l e : chained b l e -> b <= e.
Proof.
  revert b. induction l as [|[k [s n]] l IH]; simpl; intros b H; [lia|].
  destruct H as [_ H]. apply IH in H. lia.
Qed.
Arguments chained_le [b l e] _.
Lemma chained_in b l e k s n : chained b l e -> In (k, (s, n)) l -> b <= s /\ s + n <= e.
Proof.
  revert b. induction l as [|[k' [s' n']] l IH]; simpl; intros b H Hi; [contradiction|].
  destruct H as [-> H]. pose proof (chained_le H) as Hle. destruct Hi as [E|Hi].
  - injection E as <- <- <-. lia.
  - destruct (IH _ H Hi). lia.
Qed.
Arguments chained_in [b l e k s n] _ _.
Lemma chained_disjoint b l e : chained b l e -> forall i j k s n k' s' n',
  i < j -> nth_error l i = Some (k, (s, n)) -> nth_error l j = Some (k', (s', n')) -> s + n <= s'.
Proof.
  revert b. induction l as [|[k0 [s0 n0]] l IH]; intros b H i j k s n k' s' n' Hij Hi Hj.
  - destruct i; discriminate.
  - destruct j as [|j]; [lia|]. simpl in Hj. destruct H as [-> H]. destruct i as [|i].
    + simpl in Hi. injection Hi as <- <- <-. apply nth_error_In in Hj.
      destruct (chained_in H Hj). lia.
    + simpl in Hi. eapply IH; [exact H| |exact Hi|exact Hj]. lia.
Qed.
Arguments chained_disjoint [b l e] _ [i j k s n k' s' n'] _ _ _.

(** ** Sizes *)
Lemma in_cut (A : Type) (name : A -> scr) size base unit : forall l p k s n,
  In (k, (s, n)) (cut name size base unit p l) ->
  exists x q, In x l /\ k = name x /\ s = base + unit * q /\ n = unit * size x.
Proof.
  induction l as [|x l IH]; simpl; intros p k s n H; [contradiction|].
  destruct H as [E|H].
  - injection E as <- <- <-. exists x, p. auto.
  - destruct (IH _ _ _ _ H) as [y [q [H1 H2]]]. exists y, q. split; [right; exact H1|exact H2].
Qed.
Lemma cut_names (A : Type) (name : A -> scr) size base unit : forall l p,
  map fst (cut name size base unit p l) = map name l.
Proof. induction l as [|x l IH]; simpl; intros; [reflexivity|]. f_equal. apply IH. Qed.

Lemma partition_names : map fst partition =
  map SArr batched ++ map (fun x => SPrim (fst x)) (w_prim w) ++ map SHrr (w_inter w).
Proof. unfold partition. rewrite !map_app, !cut_names. reflexivity. Qed.

Definition wok : Prop := NoDup (w_top w) /\ NoDup (map fst (w_prim w)) /\ NoDup (w_inter w).

Lemma NoDup_map_inj (A B : Type) (f : A -> B) l : (forall x y, f x = f y -> x = y) -> NoDup l -> NoDup (map f l).
Proof. intros Hf. apply FinFun.Injective_map_NoDup. exact Hf. Qed.

Lemma partition_nodup : wok -> NoDup (map fst partition).
Proof.
  intros [H1 [H2 H3]]. rewrite partition_names. apply NoDup_app_intro.
  - apply NoDup_map_inj; [congruence|]. apply NoDup_filter, H1.
  - apply NoDup_app_intro.
    + rewrite <- (map_map fst SPrim). apply NoDup_map_inj; [congruence|exact H2].
    + apply NoDup_map_inj; [congruence|exact H3].
    + intros x Hx Hy. apply in_map_iff in Hx as [? [<- _]]. apply in_map_iff in Hy as [? [? _]]. discriminate.
  - intros x Hx Hy. apply in_map_iff in Hx as [? [<- _]]. apply in_app_or in Hy as [Hy|Hy];
      apply in_map_iff in Hy as [? [? _]]; discriminate.
Qed.

Lemma in_partition k s n : In (k, (s, n)) partition ->
  (exists t q, k = SArr t /\ In t batched /\ s = nss * q /\ n = nss * tsize t) \/
  (exists x q, k = SPrim (fst x) /\ In x (w_prim w) /\ s = nss * p1 + len * q /\ n = len * psize x) \/
  (exists t, k = SHrr t /\ In t (w_inter w) /\ n = tsize t).
Proof.
  unfold partition. intros H. apply in_app_or in H as [H|H]; [|apply in_app_or in H as [H|H]].
  - apply in_cut in H as [t [q [H1 [-> [-> ->]]]]]. left. exists t, q. auto.
  - apply in_cut in H as [t [q [H1 [-> [-> ->]]]]]. right; left. exists t, q. auto.
  - apply in_cut in H as [t [q [H1 [-> [-> ->]]]]]. right; right. exists t. rewrite Nat.mul_1_l. auto.
Qed.

(** Batch arrays and primitive arrays start at multiples of the vector length. *)
Lemma partition_aligned k s n : Nat.divide len nss -> In (k, (s, n)) partition ->
  (forall t, k <> SHrr t) -> Nat.divide len s.
Proof.
  intros Hl H Hk. destruct (in_partition _ _ _ H) as [[t [q [E [_ [-> _]]]]]|[[x [q [E [_ [-> _]]]]]|[t [E _]]]].
  - apply Nat.divide_mul_l, Hl.
  - apply Nat.divide_add_r; [apply Nat.divide_mul_l, Hl|apply Nat.divide_factor_l].
  - exfalso. eapply Hk, E.
Qed.

Lemma lookup_in n l r : lookup n l = Some r -> In (n, r) l.
Proof.
  induction l as [|[k v] l IH]; simpl; [discriminate|]. destruct (scr_eq_dec n k) as [->|E].
  - intros H; injection H as ->. left; reflexivity.
  - intros H. right. apply IH, H.
Qed.
Lemma order_of_in a l M : order_of a l = Some M -> In (a, M) l.
Proof.
  induction l as [|[k v] l IH]; simpl; [discriminate|]. destruct (qam_eq_dec a k) as [->|E].
  - intros H; injection H as ->. left; reflexivity.
  - intros H. right. apply IH, H.
Qed.
Lemma order_of_nodup a M l : NoDup (map fst l) -> In (a, M) l -> order_of a l = Some M.
Proof.
  induction l as [|[k v] l IH]; simpl; [intros _ []|]. intros H Hi. inversion H as [|? ? H1 H2]; subst.
  destruct (qam_eq_dec a k) as [->|E].
  - destruct Hi as [Hi|Hi]; [congruence|]. exfalso. apply H1. change k with (fst (k, M)). apply in_map, Hi.
  - destruct Hi as [Hi|Hi]; [congruence|]. auto.
Qed.
Lemma lookup_nodup n r l : NoDup (map fst l) -> In (n, r) l -> lookup n l = Some r.
Proof.
  induction l as [|[k v] l IH]; simpl; [intros _ []|]. intros H Hi. inversion H as [|? ? H1 H2]; subst.
  destruct (scr_eq_dec n k) as [->|E].
  - destruct Hi as [Hi|Hi]; [congruence|]. exfalso. apply H1. change k with (fst (k, r)). apply in_map, Hi.
  - destruct Hi as [Hi|Hi]; [congruence|]. auto.
Qed.

(** The array an element belongs to. *)
Definition home (e : elem) : scr :=
  match e with EArr t _ _ => SArr t | EPrim a _ _ _ => SPrim a | EHrr t _ => SHrr t end.

Lemma addr_home e x : wok -> addr e = Some x ->
  exists s n, In (home e, (s, n)) partition /\ s <= x < s + n.
Proof.
  intros W. unfold addr. destruct e as [t sh i|a m i ln|t i]; cbn [home].
  - destruct (lookup (SArr t) partition) as [[s n]|] eqn:E; [|discriminate].
    destruct ((sh <? nss) && (i <? tsize t)) eqn:B; [|discriminate]. intros H; injection H as <-.
    apply andb_true_iff in B as [B1 B2]. apply Nat.ltb_lt in B1, B2. apply lookup_in in E.
    exists s, n. split; [exact E|].
    destruct (in_partition _ _ _ E) as [[t' [q [K [_ [_ ->]]]]]|[[? [? [K _]]]|[? [K _]]]]; try discriminate.
    injection K as <-. nia.
  - destruct (lookup (SPrim a) partition) as [[s n]|] eqn:E; [|discriminate].
    destruct (order_of a (w_prim w)) as [M|] eqn:O; [|discriminate].
    destruct ((m <=? M) && (i <? qncart a) && (ln <? len)) eqn:B; [|discriminate]. intros H; injection H as <-.
    apply andb_true_iff in B as [B B3]. apply andb_true_iff in B as [B1 B2].
    apply Nat.leb_le in B1. apply Nat.ltb_lt in B2, B3. apply lookup_in in E.
    exists s, n. split; [exact E|].
    destruct (in_partition _ _ _ E) as [[? [? [K _]]]|[[[a' M'] [q [K [Hx [_ ->]]]]]|[? [K _]]]]; try discriminate.
    injection K as <-. cbn [fst] in *.
    assert (M' = M) by (apply (order_of_nodup a) in Hx; [congruence|apply W]). subst M'.
    unfold psize; cbn [fst snd]. nia.
  - destruct (lookup (SHrr t) partition) as [[s n]|] eqn:E; [|discriminate].
    destruct (i <? tsize t) eqn:B; [|discriminate]. intros H; injection H as <-.
    apply Nat.ltb_lt in B. apply lookup_in in E. exists s, n. split; [exact E|].
    destruct (in_partition _ _ _ E) as [[? [? [K _]]]|[[? [? [K _]]]|[t' [K [_ ->]]]]]; try discriminate.
    injection K as <-. lia.
Qed.

Lemma addr_bound e x : wok -> addr e = Some x -> x < need.
Proof.
  intros W H. destruct (addr_home _ W H) as [s [n [Hi Hx]]].
  destruct (chained_in partition_chained Hi). lia.
Qed.

Lemma home_eq e e' x : wok -> addr e = Some x -> addr e' = Some x -> home e = home e'.
Proof.
  intros W H H'. destruct (addr_home _ W H) as [s [n [Hi Hx]]]. destruct (addr_home _ W H') as [s' [n' [Hi' Hx']]].
  apply In_nth_error in Hi as [i Hi]. apply In_nth_error in Hi' as [j Hj].
  destruct (Nat.lt_trichotomy i j) as [L|[L|L]].
  - pose proof (chained_disjoint partition_chained L Hi Hj). lia.
  - subst j. congruence.
  - pose proof (chained_disjoint partition_chained L Hj Hi). lia.
Qed.

Lemma divmod_eq n a b c d : a < n -> b < n -> c * n + a = d * n + b -> c = d /\ a = b.
Proof. intros. assert (c = d) by nia. subst. lia. Qed.

(** Two different scratch elements never share a place. *)
Lemma addr_inj e e' x : wok -> addr e = Some x -> addr e' = Some x -> e = e'.
Proof.
  intros W H H'. pose proof (@home_eq e e' x W H H') as Hh.
  destruct e as [t sh i|a m i ln|t i], e' as [t' sh' i'|a' m' i' ln'|t' i']; try discriminate Hh;
    injection Hh as <-; unfold addr in H, H'.
  - destruct (lookup (SArr t) partition) as [[s n]|]; [|discriminate].
    destruct ((sh <? nss) && (i <? tsize t)) eqn:B; [|discriminate].
    destruct ((sh' <? nss) && (i' <? tsize t)) eqn:B'; [|discriminate].
    apply andb_true_iff in B as [_ B], B' as [_ B']. apply Nat.ltb_lt in B, B'.
    injection H as H. injection H' as H'.
    destruct (@divmod_eq (tsize t) i i' sh sh') as [-> ->]; auto. lia.
  - destruct (lookup (SPrim a) partition) as [[s n]|]; [|discriminate].
    destruct (order_of a (w_prim w)) as [M|]; [|discriminate].
    destruct ((m <=? M) && (i <? qncart a) && (ln <? len)) eqn:B; [|discriminate].
    destruct ((m' <=? M) && (i' <? qncart a) && (ln' <? len)) eqn:B'; [|discriminate].
    apply andb_true_iff in B as [B L], B' as [B' L']. apply andb_true_iff in B as [_ B], B' as [_ B'].
    apply Nat.ltb_lt in B, B', L, L'. injection H as H. injection H' as H'.
    destruct (@divmod_eq len ln ln' (m * qncart a + i) (m' * qncart a + i')) as [K ->]; auto; [lia|].
    destruct (@divmod_eq (qncart a) i i' m m') as [-> ->]; auto.
  - destruct (lookup (SHrr t) partition) as [[s n]|]; [|discriminate].
    destruct (i <? tsize t); [|discriminate]. destruct (i' <? tsize t); [|discriminate].
    injection H as H. injection H' as H'. f_equal. lia.
Qed.

(** Every element of every array has a place. *)
Lemma addr_arr t sh i : wok -> In t (w_top w) -> t <> fin -> sh < nss -> i < qncart (tq_am t) ->
  exists x, addr (EArr t sh i) = Some x.
Proof.
  intros W Ht Hf Hs Hi. unfold addr.
  assert (In (SArr t) (map fst partition)) as K.
  { rewrite partition_names. apply in_or_app. left. apply in_map. unfold batched. apply filter_In.
    split; [exact Ht|]. unfold is_fin. destruct (tqam_eq_dec t fin); [contradiction|reflexivity]. }
  apply in_map_iff in K as [[k [s n]] [E K]]. simpl in E; subst k.
  rewrite (lookup_nodup _ _ _ (partition_nodup W) K). unfold tsize.
  destruct (Nat.ltb_spec sh nss); [|lia]. destruct (Nat.ltb_spec i (qncart (tq_am t))); [|lia].
  simpl. eexists; reflexivity.
Qed.
Lemma addr_prim a M m i ln : wok -> In (a, M) (w_prim w) -> m <= M -> i < qncart a -> ln < len ->
  exists x, addr (EPrim a m i ln) = Some x.
Proof.
  intros W Ha Hm Hi Hl. unfold addr.
  assert (In (SPrim a) (map fst partition)) as K.
  { rewrite partition_names. apply in_or_app. right. apply in_or_app. left.
    change (SPrim a) with ((fun x : qam * nat => SPrim (fst x)) (a, M)). apply in_map, Ha. }
  apply in_map_iff in K as [[k [s n]] [E K]]. simpl in E; subst k.
  rewrite (lookup_nodup _ _ _ (partition_nodup W) K), (order_of_nodup _ _ _ (proj1 (proj2 W)) Ha).
  destruct (Nat.leb_spec m M); [|lia]. destruct (Nat.ltb_spec i (qncart a)); [|lia].
  destruct (Nat.ltb_spec ln len); [|lia]. simpl. eexists; reflexivity.
Qed.
Lemma addr_hrr t i : wok -> In t (w_inter w) -> i < qncart (tq_am t) -> exists x, addr (EHrr t i) = Some x.
Proof.
  intros W Ht Hi. unfold addr.
  assert (In (SHrr t) (map fst partition)) as K.
  { rewrite partition_names. apply in_or_app. right. apply in_or_app. right. apply in_map, Ht. }
  apply in_map_iff in K as [[k [s n]] [E K]]. simpl in E; subst k.
  rewrite (lookup_nodup _ _ _ (partition_nodup W) K). unfold tsize.
  destruct (Nat.ltb_spec i (qncart (tq_am t))); [|lia]. eexists; reflexivity.
Qed.

(** A vector is aligned. *)
Lemma addr_aligned a m i x : wok -> Nat.divide len nss -> addr (EPrim a m i 0) = Some x -> Nat.divide len x.
Proof.
  intros W Hd. unfold addr. destruct (lookup (SPrim a) partition) as [[s n]|] eqn:E; [|discriminate].
  destruct (order_of a (w_prim w)); [|discriminate].
  destruct (_ && _); [|discriminate]. intros H; injection H as <-. apply lookup_in in E.
  apply Nat.divide_add_r; [eapply partition_aligned; eauto; discriminate|].
  rewrite Nat.add_0_r. apply Nat.divide_factor_r.
Qed.

(** The memset clears exactly the batch arrays. *)
Lemma batched_all : ~ In fin (w_top w) -> batched = w_top w.
Proof.
  unfold batched. induction (w_top w) as [|t l IH]; [reflexivity|]. intros H. simpl.
  unfold is_fin at 1. destruct (tqam_eq_dec t fin) as [->|E]; [exfalso; apply H; left; reflexivity|].
  simpl. f_equal. apply IH. intros K. apply H. right. exact K.
Qed.

Lemma chained_cover b l e x : chained b l e -> b <= x < e -> exists k s n, In (k, (s, n)) l /\ s <= x < s + n.
Proof.
  revert b. induction l as [|[k [s n]] l IH]; simpl; intros b H Hx; [lia|].
  destruct H as [-> H]. destruct (Nat.lt_ge_cases x (b + n)) as [L|L].
  - exists k, b, n. split; [left; reflexivity|lia].
  - destruct (IH _ H) as [k' [s' [n' [H1 H2]]]]; [lia|]. exists k', s', n'. auto.
Qed.
Arguments chained_cover [b l e x] _ _.

Lemma memset_exact x : wok -> ~ In fin (w_top w) ->
  (x < cleared <-> exists t sh i, addr (EArr t sh i) = Some x).
Proof.
  intros W Hf. unfold cleared, bcont.
  pose proof (@cut_chained _ SArr tsize 0 nss batched 0) as HC. rewrite Nat.mul_0_r in HC.
  cbn [Nat.add] in HC. rewrite (batched_all Hf) in HC. split.
  - intros Hx. destruct (chained_cover HC (x := x)) as [k [s [n [Hi Hs]]]]; [lia|].
    pose proof Hi as Hp. apply in_cut in Hp as [t [q [Ht [-> [_ En]]]]].
    assert (K : In (SArr t, (s, n)) partition).
    { unfold partition. apply in_or_app. left. rewrite (batched_all Hf). exact Hi. }
    assert (Z : tsize t <> 0) by (intros Z; rewrite Z in En; lia).
    exists t, ((x - s) / tsize t), ((x - s) mod tsize t). unfold addr.
    rewrite (lookup_nodup _ _ _ (partition_nodup W) K).
    pose proof (Nat.div_mod (x - s) (tsize t) Z) as D. pose proof (Nat.mod_upper_bound (x - s) (tsize t) Z) as U.
    assert ((x - s) / tsize t < nss) by (apply Nat.div_lt_upper_bound; [exact Z|nia]).
    destruct (Nat.ltb_spec ((x - s) / tsize t) nss); [|lia].
    destruct (Nat.ltb_spec ((x - s) mod tsize t) (tsize t)); [|lia]. simpl. f_equal. nia.
  - intros [t [sh [i H]]]. destruct (addr_home _ W H) as [s [n [Hi Hx]]]. cbn [home] in Hi.
    unfold partition in Hi. apply in_app_or in Hi as [Hi|Hi].
    + rewrite (batched_all Hf) in Hi. destruct (chained_in HC Hi). lia.
    + exfalso. apply in_app_or in Hi as [Hi|Hi]; apply in_cut in Hi as [? [? [_ [K _]]]]; discriminate.
Qed.

Lemma batched_le : p1 <= bcont.
Proof.
  unfold p1, bcont, batched. induction (w_top w) as [|t l IH]; simpl; [lia|].
  destruct (negb (is_fin t)); simpl; lia.
Qed.
End Partition.

(** ** The plan of a kernel *)

(** GetAllAM, GetMReq (None: exception); OSTEI_HRR_Algorithm_Base.cpp:356-366. *)
Fixpoint with_mreq (steps : list vstep) (l : list qam) : option (list (qam * nat)) :=
  match l with
  | [] => Some []
  | a :: r => match get_mreq steps a, with_mreq steps r with
              | Some m, Some r' => Some ((a, m) :: r')
              | _, _ => None
              end
  end.
Definition intermediates (deriv : bool) (fin : tqam) (hp : hplan) : list tqam :=
  filter (fun t => negb (tmem t (hp_top hp)) && (deriv || negb (is_fin fin t))) (hp_order hp).
Definition kernel_plan (enumt : list tqam -> list tqam) (enuma : list qam -> list qam)
  (deriv : bool) (fin : tqam) (hp : hplan) (vp : vplan) : option wplan :=
  match with_mreq (vp_steps vp) (enuma (vp_allam vp)) with
  | Some pr => Some (WP (enumt (hp_top hp)) pr (enumt (intermediates deriv fin hp)))
  | None => None
  end.

Lemma with_mreq_fst steps : forall l r, with_mreq steps l = Some r -> map fst r = l.
Proof.
  induction l as [|a l IH]; simpl; intros r H; [injection H as <-; reflexivity|].
  destruct (get_mreq steps a); [|discriminate]. destruct (with_mreq steps l) as [r'|]; [|discriminate].
  injection H as <-. simpl. f_equal. apply IH. reflexivity.
Qed.
Lemma with_mreq_in steps : forall l r a m, with_mreq steps l = Some r -> In (a, m) r -> get_mreq steps a = Some m.
Proof.
  induction l as [|b l IH]; simpl; intros r a m H Hi; [injection H as <-; contradiction|].
  destruct (get_mreq steps b) as [mb|] eqn:E; [|discriminate].
  destruct (with_mreq steps l) as [r'|]; [|discriminate].
  injection H as <-. destruct Hi as [K|Hi]; [injection K as <- <-; exact E|]. eapply IH; [reflexivity|exact Hi].
Qed.
Lemma with_mreq_some steps : forall l, (forall a, In a l -> exists m, get_mreq steps a = Some m) ->
  exists r, with_mreq steps l = Some r.
Proof.
  induction l as [|a l IH]; simpl; intros H; [eexists; reflexivity|].
  destruct (H a (or_introl eq_refl)) as [m ->]. destruct IH as [r ->]; [auto|]. eexists; reflexivity.
Qed.

Lemma kernel_plan_wok enumt enuma deriv fin hp vp w : enum_ok enumt -> enum_ok enuma ->
  kernel_plan enumt enuma deriv fin hp vp = Some w -> wok w.
Proof.
  intros Ht Ha. unfold kernel_plan. destruct (with_mreq _ _) as [pr|] eqn:E; [|discriminate].
  intros H; injection H as <-. unfold wok. cbn. rewrite (with_mreq_fst _ _ E).
  split; [apply Ht|]. split; [apply Ha|apply Ht].
Qed.

(** With a horizontal part the final class is not a top class. *)
Lemma hcreate_none enum o lf fuel c : starts_x o -> mvc lf c = 0 ->
  hcreate enum o lf fuel [c] = Some ([], []).
Proof.
  intros Ho H. unfold hcreate.
  replace (prune lf (flat_map (fun c => dtargets o (fst c) (snd c)) [c])) with (@nil dbl).
  { destruct fuel; reflexivity. }
  symmetry. destruct (prune _ _) as [|d l] eqn:E; [reflexivity|]. exfalso.
  assert (K : In d (d :: l)) by (left; reflexivity). rewrite <- E in K. apply in_prune in K as [K Z].
  simpl in K. rewrite app_nil_r in K. apply in_dtargets in K; [|exact Ho].
  apply Z. rewrite moving_class, K. destruct lf; exact H.
Qed.
Lemma hashrr_final enum enumq o blf klf fuel fin hp :
  enum_ok enum -> enum_ok enumq -> starts_x o -> 0 < fuel -> fuel_ok blf klf [fin] fuel ->
  hrr_create enum enumq o blf klf fuel [fin] = Some hp ->
  hp_bra hp <> [] \/ hp_ket hp <> [] -> ~ In fin (hp_top hp).
Proof.
  intros He Hq Ho Hf0 Hf E H Hin.
  destruct (@hrr_create_ok enum enumq o blf klf fuel [fin] He Hq Ho Hf0 Hf) as [p [E' P]].
  rewrite E in E'. injection E' as <-.
  destruct (pl_top P _ Hin) as [B [K _]].
  unfold hrr_create, classes_ket, classes_bra in E. cbn [map] in E.
  rewrite (@hcreate_none enum o klf fuel _ Ho K), (@hcreate_none enum o blf fuel _ Ho B) in E.
  destruct (amorder _ _ _ _ _ _ _ _); [|discriminate]. injection E as <-. simpl in H. tauto.
Qed.

(** ** The advertised size *)

Definition amax (q : qam) : nat := Nat.max (Nat.max (am0 q) (am1 q)) (Nat.max (am2 q) (am3 q)).
(** create.py:13-26, 188. *)
Definition unique_quartet (q : qam) : bool := (am1 q <=? am0 q) && (am3 q <=? am2 q).
Definition is_valid (p : nat) (q : qam) : bool := unique_quartet q || (amax q <? p).
(** create.py:183-191: the set, in any order. *)
Definition valid_set (maxam p : nat) (vs : list qam) : Prop :=
  forall q, In q vs <-> amax q <= maxam /\ is_valid p q = true.

(** create.py:259-271 for one of the three numbers. *)
Definition ws (f : qam -> nat) (vs : list qam) (mq : nat) : nat :=
  fold_left (fun acc q => if amax q =? mq then Nat.max acc (f q) else acc) vs 0.
(** create.py:441-444. *)
Definition row_max (f : qam -> nat) (vs : list qam) (l : nat) : nat :=
  list_max (map (ws f vs) (seq 0 (l + 1))).

Section Worksize.
Variables (len nss : nat) (plan : qam -> wplan) (vs : list qam).
(** WORK SIZE of the log file of a class. *)
Definition wl_bcont (q : qam) : nat := bcont (plan q).
Definition wl_prim (q : qam) : nat := p2 (plan q).
Definition wl_cont (q : qam) : nat := p3 (plan q).
(** The entry of the table, create.py:445; row of one derivative order. *)
Definition worksize (l : nat) : nat :=
  rnd len (nss * row_max wl_bcont vs l) + rnd len (row_max wl_cont vs l) + len * row_max wl_prim vs l.

Lemma ws_ge f mq : forall l a,
  a <= fold_left (fun acc q => if amax q =? mq then Nat.max acc (f q) else acc) l a /\
  forall q, In q l -> amax q = mq ->
    f q <= fold_left (fun acc q => if amax q =? mq then Nat.max acc (f q) else acc) l a.
Proof.
  induction l as [|x l IH]; simpl; intros a; [split; [lia|intros ? []]|].
  destruct (IH (if amax x =? mq then Nat.max a (f x) else a)) as [H1 H2]. split.
  - destruct (amax x =? mq); lia.
  - intros q [->|Hq] E; [|auto]. rewrite E, Nat.eqb_refl in H1 |- *. lia.
Qed.
Lemma list_max_ge x l : In x l -> x <= list_max l.
Proof.
  induction l as [|y l IH]; simpl; intros H; [contradiction|].
  destruct H as [->|H]; [|apply IH in H]; lia.
Qed.
Lemma row_max_ge f q l : In q vs -> amax q <= l -> f q <= row_max f vs l.
Proof.
  intros Hq Hl. unfold row_max. apply Nat.le_trans with (ws f vs (amax q)).
  - apply (proj2 (@ws_ge f (amax q) vs 0) q Hq). reflexivity.
  - apply list_max_ge. apply in_map, in_seq. lia.
Qed.

Lemma worksize_enough fin q l : 0 < len -> In q vs -> amax q <= l -> need len nss fin (plan q) <= worksize l.
Proof.
  intros H0 Hq Hl. unfold worksize, need.
  pose proof (@row_max_ge wl_bcont q l Hq Hl) as B. pose proof (@row_max_ge wl_cont q l Hq Hl) as C.
  pose proof (@row_max_ge wl_prim q l Hq Hl) as D.
  generalize dependent (row_max wl_bcont vs l). generalize dependent (row_max wl_cont vs l).
  generalize dependent (row_max wl_prim vs l). unfold wl_bcont, wl_cont, wl_prim.
  intros d D c C b B. pose proof (batched_le fin (plan q)) as L.
  pose proof (@rnd_ge len H0 (nss * b)). pose proof (@rnd_ge len H0 c).
  assert (nss * p1 fin (plan q) <= nss * b) by (apply Nat.mul_le_mono_l; lia).
  assert (len * p2 (plan q) <= len * d) by (apply Nat.mul_le_mono_l; lia). lia.
Qed.
Lemma cleared_enough q l : 0 < len -> In q vs -> amax q <= l -> cleared nss (plan q) <= worksize l.
Proof.
  intros H0 Hq Hl. unfold worksize, cleared.
  pose proof (@row_max_ge wl_bcont q l Hq Hl) as B.
  generalize dependent (row_max wl_bcont vs l). unfold wl_bcont. intros b B.
  pose proof (@rnd_ge len H0 (nss * b)).
  assert (nss * bcont (plan q) <= nss * b) by (apply Nat.mul_le_mono_l; lia). lia.
Qed.
End Worksize.

(** The class whose kernel does the work for class [c]: itself, or the one it is a permutation of
    (create.py:188, OSTEI_Writer.cpp:125-245: the permuted function hands on [work]). *)
Definition served (p : nat) (c : qam) : qam :=
  if is_valid p c then c
  else QAM (Nat.max (am0 c) (am1 c)) (Nat.min (am0 c) (am1 c))
           (Nat.max (am2 c) (am3 c)) (Nat.min (am2 c) (am3 c)).

Lemma served_amax p c : amax (served p c) = amax c.
Proof. unfold served. destruct (is_valid p c); [reflexivity|]. unfold amax; cbn. lia. Qed.
Lemma served_valid maxam p vs c : valid_set maxam p vs -> amax c <= maxam -> In (served p c) vs.
Proof.
  intros Hv Hc. apply Hv. rewrite served_amax. split; [exact Hc|]. unfold served.
  destruct (is_valid p c) eqn:E; [exact E|]. unfold is_valid, unique_quartet; cbn.
  rewrite !(proj2 (Nat.leb_le _ _)) by lia. reflexivity.
Qed.

(** Every scratch access of every class within the maximum lies in the workspace. *)
Theorem workspace_enough len nss plan vs maxam p c fin l e x :
  0 < len -> valid_set maxam p vs -> wok (plan (served p c)) ->
  amax c <= l -> l <= maxam ->
  addr len nss fin (plan (served p c)) e = Some x -> x < worksize len nss plan vs l.
Proof.
  intros H0 Hv W Hc Hl H.
  assert (Hs : In (served p c) vs) by (eapply served_valid; [exact Hv|lia]).
  assert (Ha : amax (served p c) <= l) by (rewrite served_amax; exact Hc).
  pose proof (addr_bound len nss fin e W H).
  pose proof (@worksize_enough len nss plan vs fin (served p c) l H0 Hs Ha). lia.
Qed.

(** The (ss|ss) kernel that replaces the generated one uses one vector at the start of the
    workspace (skel/ostei_s_s_s_s.c:29-32). *)
Theorem ssss_workspace len nss plan vs maxam p l m : 0 < len -> valid_set maxam p vs -> l <= maxam ->
  In (ssss, m) (w_prim (plan ssss)) -> len * 1 <= worksize len nss plan vs l.
Proof.
  intros H0 Hv Hl Hi. assert (Z : amax ssss <= l) by (apply Nat.le_0_l).
  assert (Hs : In ssss vs). { apply Hv. split; [apply Nat.le_0_l|reflexivity]. }
  pose proof (@worksize_enough len nss plan vs (TQ 0 ssss) ssss l H0 Hs Z) as H.
  unfold need in H. assert (1 <= p2 (plan ssss)).
  { unfold p2. clear -Hi. induction (w_prim (plan ssss)) as [|x t IH]; [contradiction|]. simpl.
    destruct Hi as [->|Hi]; [|apply IH in Hi; lia].
    assert (1 <= psize (ssss, m)) by (unfold psize; change (qncart (fst (ssss, m))) with 1; lia). lia. }
  nia.
Qed.

(** ** The plans of the generator *)
Definition penumt : list tqam -> list tqam := nodup tqam_eq_dec.
(** Directions: OSTEI_HRR_Algorithm_Base.cpp:147-160. *)
Definition gen_plan (o : ordering) (fuel : nat) (c : qam) : option wplan :=
  match hrr_create (nodup dbl_eq_dec) penumt o (auto_lf (am0 c, am1 c)) (auto_lf (am2 c, am3 c)) fuel [TQ 0 c] with
  | None => None
  | Some hp =>
    let init := flat_map (fun t => qtargets o (tq_am t)) (penumt (hp_top hp)) in
    match vrr_create (nodup qm_eq_dec) (fun l => l) fuel (idx_order init) init with
    | None => None
    | Some vp => kernel_plan penumt (nodup qam_eq_dec) false (TQ 0 c) hp vp
    end
  end.
Definition sizes (o : ordering) (fuel : nat) (c : qam) : option (nat * nat * nat) :=
  option_map (fun w => (bcont w, p3 w, p2 w)) (gen_plan o fuel c).
(** The numbers of the shipped table (skel/simint/ostei/ostei_config.h.in) for maximum 0 and 1. *)
Definition quart4 (m : nat) : list qam :=
  flat_map (fun a => flat_map (fun b => flat_map (fun c => map (QAM a b c) (seq 0 m)) (seq 0 m)) (seq 0 m)) (seq 0 m).
Definition ex_valid (maxam p : nat) : list qam := filter (is_valid p) (quart4 (S maxam)).
Definition ex_plan (c : qam) : wplan := match gen_plan psi4 10 c with Some w => w | None => WP [] [] [] end.
Lemma shipped_sizes :
  forallb (fun c => match gen_plan psi4 10 c with Some _ => true | None => false end) (ex_valid 1 0) = true /\
  map (fun l => (row_max (wl_bcont ex_plan) (ex_valid 1 0) l, row_max (wl_cont ex_plan) (ex_valid 1 0) l,
                 row_max (wl_prim ex_plan) (ex_valid 1 0) l)) [0; 1] = [(1, 0, 1); (81, 81, 149)].
Proof. split; vm_compute; reflexivity. Qed.

Lemma quart4_in m q : In q (quart4 (S m)) <-> amax q <= m.
Proof.
  destruct q as [a b c d]. unfold quart4, amax. cbn [am0 am1 am2 am3]. rewrite in_flat_map. split.
  - intros [a' [Ha H]]. apply in_flat_map in H as [b' [Hb H]]. apply in_flat_map in H as [c' [Hc H]].
    apply in_map_iff in H as [d' [E Hd]]. injection E as <- <- <- <-. rewrite in_seq in *. lia.
  - intros H. exists a. split; [apply in_seq; lia|]. apply in_flat_map. exists b. split; [apply in_seq; lia|].
    apply in_flat_map. exists c. split; [apply in_seq; lia|]. apply in_map, in_seq. lia.
Qed.
Lemma ex_valid_ok maxam p : valid_set maxam p (ex_valid maxam p).
Proof. intros q. unfold ex_valid. rewrite filter_In, quart4_in. tauto. Qed.

Lemma create_allam enum enumq fuel ords init vp : vrr_create enum enumq fuel ords init = Some vp ->
  vp_allam vp = map (fun t : qm => qclass (fst t)) (vp_solved vp) ++ [ssss].
Proof.
  unfold vrr_create. destruct (vouter _ _ _ _ _ _) as [[[st so] lf]|]; [|discriminate].
  destruct (fold_left _ _ _); [|discriminate]. intros H; injection H as <-. reflexivity.
Qed.
Lemma kernel_plan_some enumt enuma deriv fin hp enum enumq fuel ords init :
  enum_ok enum -> enum_ok enumq -> whole_classes init -> (forall q, In q init -> qtotal (qclass q) < fuel) ->
  enum_ok enumt -> enum_ok enuma ->
  exists vp w, vrr_create enum enumq fuel ords init = Some vp /\
    kernel_plan enumt enuma deriv fin hp vp = Some w /\ wok w /\
    (forall a M, In (a, M) (w_prim w) <-> In a (vp_allam vp) /\ get_mreq (vp_steps vp) a = Some M).
Proof.
  intros He Hq Hw Hf Het Hea. destruct (@vrr_create_ok enum enumq fuel ords init He Hq Hw Hf) as [vp [E P]].
  exists vp. destruct (@with_mreq_some (vp_steps vp) (enuma (vp_allam vp))) as [r Er].
  - intros a Ha. apply (proj1 (proj2 (Hea (vp_allam vp)) a)) in Ha. rewrite (create_allam _ _ _ _ _ E) in Ha.
    apply in_app_or in Ha as [Ha|[<-|[]]]; [|exact (vo_ssss P)].
    apply in_map_iff in Ha as [[q m] [K1 K2]].
    destruct (@vo_mreq _ _ _ P a) as [M [? [K _]]]; [exists q, m; auto|]. eauto.
  - exists (WP (enumt (hp_top hp)) r (enumt (intermediates deriv fin hp))).
    assert (K : kernel_plan enumt enuma deriv fin hp vp =
      Some (WP (enumt (hp_top hp)) r (enumt (intermediates deriv fin hp)))) by (unfold kernel_plan; rewrite Er; reflexivity).
    split; [exact E|]. split; [exact K|]. split; [eapply kernel_plan_wok; eauto|]. cbn [w_prim].
    intros a M. split.
    + intros H. split; [|eapply with_mreq_in; eauto].
      apply (proj1 (proj2 (Hea (vp_allam vp)) a)). rewrite <- (with_mreq_fst _ _ Er). change a with (fst (a, M)). apply in_map, H.
    + intros [H1 H2]. apply (proj2 (proj2 (Hea (vp_allam vp)) a)) in H1. rewrite <- (with_mreq_fst _ _ Er) in H1.
      apply in_map_iff in H1 as [[a' M'] [E1 H1]]. simpl in E1; subst a'.
      pose proof (with_mreq_in _ _ _ _ Er H1). assert (M' = M) by congruence. subst. exact H1.
Qed.

Lemma gen_plan_wok o fuel c w : gen_plan o fuel c = Some w -> wok w.
Proof.
  unfold gen_plan. destruct (hrr_create _ _ _ _ _ _ _); [|discriminate].
  destruct (vrr_create _ _ _ _ _); [|discriminate].
  apply kernel_plan_wok; intros l; (split; [apply NoDup_nodup|intros x; apply nodup_In]).
Qed.
Lemma ex_plan_wok c : wok (ex_plan c).
Proof.
  unfold ex_plan. destruct (gen_plan psi4 10 c) as [w|] eqn:E; [exact (gen_plan_wok _ _ _ E)|].
  repeat split; constructor.
Qed.

(** An example: the pieces of the workspace of (pp|pp) with four lanes. *)
Lemma ex_partition : partition 4 8 (TQ 0 (QAM 1 1 1 1)) (ex_plan (QAM 1 1 1 1)) <> [] /\
  wok (ex_plan (QAM 1 1 1 1)) /\ need 4 8 (TQ 0 (QAM 1 1 1 1)) (ex_plan (QAM 1 1 1 1)) = 1325 /\
  worksize 4 8 ex_plan (ex_valid 1 0) 1 = 1328 /\
  addr 4 8 (TQ 0 (QAM 1 1 1 1)) (ex_plan (QAM 1 1 1 1)) (EPrim (QAM 2 0 2 0) 0 35 3) <> None /\
  addr 4 8 (TQ 0 (QAM 1 1 1 1)) (ex_plan (QAM 1 1 1 1)) (EPrim (QAM 2 0 2 0) 1 0 0) = None.
Proof.
  split; [vm_compute; discriminate|]. split; [apply ex_plan_wok|].
  repeat split; vm_compute; congruence.
Qed.
