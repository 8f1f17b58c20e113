(** Accesses of the threads of the test programs to shared data.
    Source: skel/test/test_eri.cpp:95-232, skel/test/test_eri_deriv1.cpp:95-232 (the loop over quartets and the
    parallel loop over the bra), skel/test/test_ke.cpp:67-107, test_overlap.cpp:67-107, test_potential.cpp:79-123
    (the parallel loop over momenta), skel/test/benchmark_eri.cpp:82-225, skel/test/Common.hpp:77 ([ShellMap] is a
    [std::map]).

    A parallel loop gives the iterations to threads in any way.  Two accesses of different threads to the same
    place race when one of them writes and they are not both in the critical section or both atomic.  The order
    that critical sections bring between other accesses is not taken into account (a race is a possible race).

    [shellmap[am]] walks the tree of the map and adds a node if there is none for [am].  Such an access inside a
    parallel loop counts as a write when the key is absent at the start of the loop (the first such access is
    one).  Private data ([P], local variables), the allocator and the tables that are only read are left out. *)
From Coq Require Import List Arith Lia Bool ZArith.
Import ListNotations.
From Verif Require Import Cart MolFile MolFileProof.
Set Implicit Arguments.
Local Open Scope nat_scope.

Inductive loc :=
| LMap                      (* nodes of [shellmap] *)
| LShell (am s : nat)       (* one shell *)
| LQ                        (* the ket pairs *)
| LRes (x : nat)            (* all_res_simint, all_res_ints *)
| LRef (x : nat)            (* all_res_valeev, all_res_ref *)
| LWork (x : nat)           (* all_simint_work *)
| LErr                      (* errors; err, skipped_total *)
| LCount                    (* ncont; nprim1234_am, ... *)
| LTime                     (* time_am *)
| LOut.                     (* standard output *)
Inductive prot := Plain | Critical | Atomic.
Record event := Ev { e_loc : loc; e_wr : bool; e_prot : prot }.

Definition conflict (e f : event) : Prop :=
  e_loc e = e_loc f /\ (e_wr e = true \/ e_wr f = true) /\ (e_prot e = Plain \/ e_prot e <> e_prot f).
(** [body t x]: what iteration [x] does on thread [t]. *)
Definition race_free A (its : list A) (body : nat -> A -> list event) : Prop :=
  forall (sched : A -> nat) x y, In x its -> In y its -> sched x <> sched y ->
  forall e f, In e (body (sched x) x) -> In f (body (sched y) y) -> ~ conflict e f.

Definition rd (l : loc) : event := Ev l false Plain.
Definition wr (l : loc) : event := Ev l true Plain.

Section Program.
(** Shells per momentum; size of an area of results and of a workspace; components of a momentum. *)
Variables (sz : nat -> nat) (ms ws : nat) (ncart : nat -> nat).
(** Keys in the map. *)
Definition find (keys : list nat) (am : nat) : event := Ev LMap (negb (existsb (Nat.eqb am) keys)) Plain.
Definition shells (am : nat) : list event := map (fun s => rd (LShell am s)) (seq 0 (sz am)).
Definition area (f : nat -> loc) (start n : nat) : list event := map (fun x => wr (f (start + x))) (seq 0 n).
Definition area_crit (f : nat -> loc) (start n : nat) : list event := map (fun x => Ev (f (start + x)) false Critical) (seq 0 n).

(** *** test_eri, test_eri_deriv1 ([factor] 1 and 12) *)
Variable factor : nat.
Definition ncont (i j k l : nat) : nat := sz k * sz l * (ncart i * ncart j * ncart k * ncart l) * factor.
(** Lines 126-209: one pair [(a, b)] of the bra on thread [t]. *)
Definition eri_pair (keys : list nat) (i j k l t a b : nat) : list event :=
  [find keys i; find keys j; rd (LShell i a); rd (LShell j b); rd LQ; find keys k; find keys l] ++
  shells k ++ shells l ++
  area LRef (t * ms) (ncont i j k l) ++ area LWork (t * ws) ws ++ area LRes (t * ms) (ncont i j k l) ++
  [Ev LErr false Critical; Ev LErr true Critical] ++
  area_crit LRes (t * ms) (ncont i j k l) ++ area_crit LRef (t * ms) (ncont i j k l) ++
  [Ev LCount true Atomic].
(** Lines 121-125: iteration [a] of the parallel loop. *)
Definition eri_body (keys : list nat) (i j k l t a : nat) : list event :=
  find keys i :: find keys j :: flat_map (fun b => find keys j :: eri_pair keys i j k l t a b) (seq 0 (sz j)).
(** Lines 99-102. *)
Definition quartets (maxam : nat) : list (nat * nat * nat * nat) :=
  let r := seq 0 (S maxam) in
  flat_map (fun i => flat_map (fun j => flat_map (fun k => map (fun l => (i, j, k, l)) r) r) r) r.
(** The parallel loops in turn, each with the keys at its start: 104-105 come before it and look up [k] and [l];
    the loop itself looks up [i], and [j] if it has an iteration. *)
Fixpoint eri_loops (keys : list nat) (qs : list (nat * nat * nat * nat)) : list (list nat * (nat * nat * nat * nat)) :=
  match qs with
  | [] => []
  | (i, j, k, l) :: r =>
    let keys1 := l :: k :: keys in
    (keys1, (i, j, k, l)) :: eri_loops (if sz i =? 0 then i :: keys1 else j :: i :: keys1) r
  end.
Definition eri_loop_free (c : list nat * (nat * nat * nat * nat)) : Prop :=
  let '(keys, (i, j, k, l)) := c in race_free (seq 0 (sz i)) (eri_body keys i j k l).

(** *** One-electron tests: the parallel loop is over the momentum [i]; [ms] is the size of an area *)
Definition one_body (keys : list nat) (maxam t i : nat) : list event :=
  flat_map (fun j => find keys i ::
    flat_map (fun a => find keys i :: find keys j ::
      flat_map (fun b => [find keys j; find keys i; find keys j; rd (LShell i a); rd (LShell j b)] ++
        area LRes (t * ms) (ncart i * ncart j) ++
        area_crit LRes (t * ms) (ncart i * ncart j) ++ [Ev LOut true Critical]) (seq 0 (sz j))) (seq 0 (sz i)))
    (seq 0 (S maxam)).

(** *** benchmark_eri: the look-ups are before the loop; [validate]: BENCHMARK_VALIDATE *)
Definition bench_body (validate : bool) (i j k l t ab : nat) : list event :=
  [rd (LShell i (ab / sz j)); rd (LShell j (ab mod sz j)); wr LTime; rd LQ] ++
  area LWork (t * ws) ws ++ area LRes (t * ms) (ncont i j k l) ++ [wr LTime] ++
  (if validate
   then shells k ++ shells l ++ area LRef (t * ms) (ncont i j k l) ++ [Ev LErr false Critical; Ev LErr true Critical]
   else []) ++ [Ev LCount true Atomic].
(** The same without the times. *)
Definition is_time (e : event) : bool := match e_loc e with LTime => true | _ => false end.
Definition bench_untimed (validate : bool) (i j k l t ab : nat) : list event :=
  filter (fun e => negb (is_time e)) (bench_body validate i j k l t ab).
End Program.

(** With the shells that were read: number of shells per momentum, areas of the programs. *)
Definition shell_count V (m : shellmap V) (am : nat) : nat := Datatypes.length (at_am m am).
Definition eri_area V (m : shellmap V) (factor limit : nat) : nat := Z.to_nat (t_maxsize (Z.of_nat factor) limit (find_max m)).
(** A molecule with s and d shells and no p shell; one with s and p shells. *)
Definition mol_sd : shellmap unit := [(0, [MS 0 (tt, tt, tt) [tt] [tt]; MS 0 (tt, tt, tt) [tt] [tt]]); (2, [MS 2 (tt, tt, tt) [tt] [tt]])].
Definition mol_sp : shellmap unit := [(0, [MS 0 (tt, tt, tt) [tt] [tt]; MS 0 (tt, tt, tt) [tt] [tt]]); (1, [MS 1 (tt, tt, tt) [tt] [tt]])].

(** ** Proofs *)
Section Proofs.
Variables (sz : nat -> nat) (ms ws : nat) (ncart : nat -> nat) (factor : nat).

(** What a thread may do without a race. *)
Definition okev (t : nat) (e : event) : Prop :=
  match e_loc e with
  | LRes x | LRef x => t * ms <= x < t * ms + ms
  | LWork x => t * ws <= x < t * ws + ws
  | LErr | LOut => e_prot e = Critical
  | LCount => e_prot e = Atomic
  | LTime => False
  | _ => e_wr e = false
  end.
Lemma areas_apart n t u x : t <> u -> t * n <= x < t * n + n -> u * n <= x < u * n + n -> False.
Proof. intros H A B. assert (t < u \/ u < t) as [L|L] by lia; nia. Qed.
Lemma okev_apart t u e f : t <> u -> okev t e -> okev u f -> ~ conflict e f.
Proof.
  intros H A B (E & W & P). unfold okev in A, B. rewrite <- E in B.
  destruct (e_loc e); try contradiction; try (apply (@areas_apart _ t u _ H A B));
    try (destruct W as [W|W]; congruence); destruct P as [P|P]; congruence.
Qed.
Lemma race_free_ok A (its : list A) body :
  (forall t x e, In x its -> In e (body t x) -> okev t e) -> race_free its body.
Proof. intros H sched x y Hx Hy Hs e f He Hf. apply (okev_apart Hs (H _ _ _ Hx He) (H _ _ _ Hy Hf)). Qed.

Lemma find_ok keys am t : In am keys -> okev t (find keys am).
Proof.
  intros H. unfold okev, find. cbn. apply negb_false_iff. apply existsb_exists. exists am. split; [exact H|apply Nat.eqb_refl].
Qed.
Lemma shells_ok am t e : In e (shells sz am) -> okev t e.
Proof. unfold shells. intros H. apply in_map_iff in H as (s & <- & _). reflexivity. Qed.
Lemma area_res_ok t n e : n <= ms -> In e (area LRes (t * ms) n ++ area LRef (t * ms) n ++ area_crit LRes (t * ms) n ++ area_crit LRef (t * ms) n) -> okev t e.
Proof.
  intros Hn H. repeat (apply in_app_or in H as [H|H]); apply in_map_iff in H as (x & <- & Hx); apply in_seq in Hx; cbn; lia.
Qed.
Lemma area_work_ok t e : In e (area LWork (t * ws) ws) -> okev t e.
Proof. intros H. apply in_map_iff in H as (x & <- & Hx). apply in_seq in Hx. cbn. lia. Qed.

Local Notation nct := (ncont sz ncart factor).
Lemma eri_pair_ok keys i j k l t a b e : In i keys -> In j keys -> In k keys -> In l keys -> nct i j k l <= ms ->
  In e (eri_pair sz ms ws ncart factor keys i j k l t a b) -> okev t e.
Proof.
  intros Hi Hj Hk Hl Hn H. unfold eri_pair in H.
  repeat (apply in_app_or in H as [H|H]);
    try (eapply shells_ok; exact H); try (apply area_work_ok; exact H);
    try (apply (@area_res_ok t (nct i j k l)); [exact Hn|rewrite !in_app_iff; tauto]).
  - repeat (destruct H as [<-|H]; [first [apply find_ok; assumption|reflexivity]|]). destruct H.
  - repeat (destruct H as [<-|H]; [reflexivity|]). destruct H.
  - repeat (destruct H as [<-|H]; [reflexivity|]). destruct H.
Qed.
Lemma eri_loop_ok keys i j k l : In i keys -> In j keys -> In k keys -> In l keys -> nct i j k l <= ms ->
  race_free (seq 0 (sz i)) (eri_body sz ms ws ncart factor keys i j k l).
Proof.
  intros Hi Hj Hk Hl Hn. apply race_free_ok. intros t a e _ H. unfold eri_body in H.
  destruct H as [<-|[<-|H]]; try (apply find_ok; assumption).
  apply in_flat_map in H as (b & _ & [<-|H]); [apply find_ok; assumption|].
  exact (@eri_pair_ok keys i j k l t a b e Hi Hj Hk Hl Hn H).
Qed.

(** In lexicographic order every momentum has been looked up for the ket before it comes up in the bra. *)
Lemma eri_loops_keys : forall qs keys c, In c (eri_loops sz keys qs) ->
  exists pre i j k l post, qs = pre ++ (i, j, k, l) :: post /\ snd c = (i, j, k, l) /\ In k (fst c) /\ In l (fst c) /\
  (forall x, In x keys -> In x (fst c)) /\
  forall i' j' k' l', In (i', j', k', l') pre -> In k' (fst c) /\ In l' (fst c).
Proof.
  induction qs as [|[[[i j] k] l] qs IH]; intros keys c H; [destruct H|]. cbn [eri_loops] in H. destruct H as [<-|H].
  - exists [], i, j, k, l, qs. cbn [fst snd].
    split; [reflexivity|]. split; [reflexivity|]. split; [cbn; tauto|]. split; [cbn; tauto|]. split; [cbn; tauto|].
    intros i' j' k' l' [].
  - apply IH in H as (pre & i1 & j1 & k1 & l1 & post & -> & E & Hk & Hl & HK & HP).
    assert (HK2 : forall x, In x (l :: k :: keys) -> In x (fst c)).
    { intros x Hx. apply HK. destruct (sz i =? 0); cbn in *; tauto. }
    exists ((i, j, k, l) :: pre), i1, j1, k1, l1, post. split; [reflexivity|]. split; [exact E|]. split; [exact Hk|]. split; [exact Hl|].
    split; [intros x Hx; apply HK2; right; right; exact Hx|]. intros i' j' k' l' H. split.
    + destruct H as [H|H]; [injection H as <- <- <- <-; apply HK2; cbn; tauto|exact (proj1 (HP _ _ _ _ H))].
    + destruct H as [H|H]; [injection H as <- <- <- <-; apply HK2; cbn; tauto|exact (proj2 (HP _ _ _ _ H))].
Qed.

Lemma split_flat A B (f : A -> list B) x : forall l pre post, flat_map f l = pre ++ x :: post ->
  exists l1 y l2 p q, l = l1 ++ y :: l2 /\ f y = p ++ x :: q /\ pre = flat_map f l1 ++ p.
Proof.
  induction l as [|y l IH]; intros pre post H; cbn in H; [destruct pre; discriminate|].
  destruct (Nat.lt_ge_cases (length pre) (length (f y))) as [L|L].
  - exists [], y, l, pre, (skipn (S (length pre)) (f y)). split; [reflexivity|]. split; [|reflexivity].
    assert (E : firstn (length (f y)) (f y ++ flat_map f l) = firstn (length (f y)) (pre ++ x :: post)) by (rewrite H; reflexivity).
    rewrite firstn_app, Nat.sub_diag, firstn_O, app_nil_r, firstn_all in E.
    rewrite firstn_app, firstn_all2 in E by lia. replace (length (f y) - length pre) with (S (length (f y) - length pre - 1)) in E by lia.
    cbn [firstn] in E. rewrite E at 2.
    replace (S (length pre)) with (length (pre ++ [x])) by (rewrite app_length; cbn; lia).
    rewrite E at 1. f_equal.
    change (x :: firstn (length (f y) - length pre - 1) post) with ([x] ++ firstn (length (f y) - length pre - 1) post).
    rewrite app_assoc. rewrite skipn_app, skipn_all2, Nat.sub_diag by lia. reflexivity.
  - assert (E : skipn (length (f y)) (f y ++ flat_map f l) = skipn (length (f y)) (pre ++ x :: post)) by (rewrite H; reflexivity).
    rewrite skipn_app, skipn_all2, Nat.sub_diag in E by lia. cbn [app skipn] in E.
    rewrite skipn_app in E. replace (length (f y) - length pre) with 0 in E by lia. cbn [skipn] in E.
    apply IH in E as (l1 & z & l2 & p & q & -> & Ez & Ep). exists (y :: l1), z, l2, p, q. split; [reflexivity|]. split; [exact Ez|].
    cbn [flat_map]. rewrite <- app_assoc, <- Ep.
    assert (F : firstn (length (f y)) (f y ++ flat_map f (l1 ++ z :: l2)) = firstn (length (f y)) (pre ++ x :: post)) by (rewrite H; reflexivity).
    rewrite firstn_app, Nat.sub_diag, firstn_O, app_nil_r, firstn_all in F.
    rewrite firstn_app in F. replace (length (f y) - length pre) with 0 in F by lia. cbn [firstn] in F. rewrite app_nil_r in F.
    rewrite F at 1. rewrite firstn_skipn. reflexivity.
Qed.
Lemma seq_split n l1 y l2 : seq 0 n = l1 ++ y :: l2 -> l1 = seq 0 y /\ y < n.
Proof.
  intros H. assert (L : length l1 + S (length l2) = n). { rewrite <- (seq_length n 0), H, app_length. reflexivity. }
  assert (E : y = length l1).
  { assert (N : nth (length l1) (seq 0 n) 0 = y) by (rewrite H, app_nth2, Nat.sub_diag by lia; reflexivity).
    rewrite seq_nth in N by lia. lia. }
  split; [|lia]. subst y.
  assert (F : firstn (length l1) (seq 0 n) = l1). { rewrite H, firstn_app, Nat.sub_diag, firstn_all, firstn_O, app_nil_r. reflexivity. }
  rewrite <- F at 1. replace n with (length l1 + (n - length l1)) by lia. rewrite seq_app, firstn_app, seq_length, Nat.sub_diag.
  rewrite firstn_O, app_nil_r. rewrite <- (seq_length (length l1) 0) at 1. apply firstn_all.
Qed.
Lemma before_bra maxam pre i j k l post : quartets maxam = pre ++ (i, j, k, l) :: post ->
  i <= maxam /\ j <= maxam /\ k <= maxam /\ l <= maxam /\
  (forall m, m = i \/ m = j -> m = k \/ exists i' j' l', In (i', j', m, l') pre).
Proof.
  unfold quartets. set (r := seq 0 (S maxam)). intros H.
  apply split_flat in H as (li & i0 & li2 & pi & qi & Er & H & ->).
  apply split_flat in H as (lj & j0 & lj2 & pj & qj & Erj & H & ->).
  apply split_flat in H as (lk & k0 & lk2 & pk & qk & Erk & H & ->).
  assert (Hx : In (i, j, k, l) (map (fun l => (i0, j0, k0, l)) r)) by (rewrite H; apply in_or_app; right; left; reflexivity).
  apply in_map_iff in Hx as (l0 & Ex & Hl). injection Ex as -> -> -> ->.
  apply seq_split in Er as [-> Hi]. apply seq_split in Erj as [-> Hj]. apply seq_split in Erk as [-> Hk].
  apply in_seq in Hl. repeat split; try lia.
  intros m Hm. 
  assert (Z : In 0 r) by (apply in_seq; lia).
  destruct (Nat.eq_dec i 0) as [Ei|Ei]; [destruct (Nat.eq_dec j 0) as [Ej|Ej]|].
  - assert (m = 0) as -> by lia. destruct (Nat.eq_dec k 0) as [Ek|Ek]; [left; lia|]. right. exists i, j, 0.
    apply in_or_app. right. apply in_or_app. right. apply in_or_app. left.
    apply in_flat_map. exists 0. split; [apply in_seq; lia|]. apply in_map_iff. exists 0. auto.
  - right. exists i, 0, 0. apply in_or_app. right. apply in_or_app. left. apply in_flat_map. exists 0. split; [apply in_seq; lia|].
    apply in_flat_map. exists m. split; [apply in_seq; lia|]. apply in_map_iff. exists 0. auto.
  - right. exists 0, 0, 0. apply in_or_app. left. apply in_flat_map. exists 0. split; [apply in_seq; lia|].
    apply in_flat_map. exists 0. split; [exact Z|].
    apply in_flat_map. exists m. split; [apply in_seq; lia|]. apply in_map_iff. exists 0. auto.
Qed.
Theorem eri_free maxam keys :
  (forall i j k l, i <= maxam -> j <= maxam -> k <= maxam -> l <= maxam -> nct i j k l <= ms) ->
  forall c, In c (eri_loops sz keys (quartets maxam)) -> eri_loop_free sz ms ws ncart factor c.
Proof.
  intros Hn [keys1 q] H. apply eri_loops_keys in H as (pre & i & j & k & l & post & E & Eq & Hk & Hl & _ & HP).
  cbn [fst snd] in *. subst q. apply before_bra in E as (Li & Lj & Lk & Ll & HB). unfold eri_loop_free.
  assert (M : forall m, m = i \/ m = j -> In m keys1).
  { intros m Hm. destruct (HB m Hm) as [->|(i' & j' & l' & Hin)]; [exact Hk|exact (proj1 (HP _ _ _ _ Hin))]. }
  apply eri_loop_ok; auto.
Qed.

(** *** One-electron tests *)
Theorem one_free maxam keys : (forall i j, i <= maxam -> j <= maxam -> 0 < sz i -> 0 < sz j -> ncart i * ncart j <= ms) ->
  (forall m, m <= maxam -> In m keys) -> race_free (seq 0 (S maxam)) (one_body sz ms ncart keys maxam).
Proof.
  intros Hn HK. apply race_free_ok. intros t i e Hi H. apply in_seq in Hi. unfold one_body in H.
  apply in_flat_map in H as (j & Hj & H). apply in_seq in Hj.
  assert (Fi : forall t, okev t (find keys i)) by (intros; apply find_ok, HK; lia).
  assert (Fj : forall t, okev t (find keys j)) by (intros; apply find_ok, HK; lia).
  destruct H as [<-|H]; [apply Fi|].
  apply in_flat_map in H as (a & Ha & H). apply in_seq in Ha. destruct H as [<-|[<-|H]]; [apply Fi|apply Fj|].
  apply in_flat_map in H as (b & Hb & H). apply in_seq in Hb.
  apply in_app_or in H as [H|H].
  { repeat (destruct H as [<-|H]; [first [apply Fi|apply Fj|reflexivity]|]). destruct H. }
  assert (N : ncart i * ncart j <= ms) by (apply Hn; lia).
  apply in_app_or in H as [H|H]; [apply (@area_res_ok t _ e N); rewrite !in_app_iff; tauto|].
  apply in_app_or in H as [H|H]; [apply (@area_res_ok t _ e N); rewrite !in_app_iff; tauto|].
  destruct H as [<-|[]]. reflexivity.
Qed.
Lemma one_first keys maxam t i : In (find keys i) (one_body sz ms ncart keys maxam t i).
Proof. unfold one_body. apply in_flat_map. exists 0. split; [apply in_seq; lia|left; reflexivity]. Qed.
Theorem one_race maxam keys : 1 <= maxam -> race_free (seq 0 (S maxam)) (one_body sz ms ncart keys maxam) ->
  forall m, m <= maxam -> In m keys.
Proof.
  intros H1 H m Hm. destruct (in_dec Nat.eq_dec m keys) as [Y|N]; [exact Y|exfalso].
  set (o := if m =? 0 then 1 else 0).
  assert (No : o <> m /\ o <= maxam) by (unfold o; destruct (Nat.eqb_spec m 0); lia).
  apply (H (fun x => x) m o) with (e := find keys m) (f := find keys o); try apply one_first; try (apply in_seq; lia); try lia.
  split; [reflexivity|]. split; [left|left; reflexivity].
  cbn. apply negb_true_iff. apply not_true_iff_false. intros E. apply existsb_exists in E as (x & Hx & Ex).
  apply Nat.eqb_eq in Ex. subst. contradiction.
Qed.

(** *** Benchmark *)
Theorem bench_free validate i j k l : nct i j k l <= ms ->
  race_free (seq 0 (sz i * sz j)) (bench_untimed sz ms ws ncart factor validate i j k l).
Proof.
  intros Hn. apply race_free_ok. intros t ab e _ H. unfold bench_untimed in H. apply filter_In in H as [H T].
  unfold bench_body in H. repeat (apply in_app_or in H as [H|H]).
  - repeat (destruct H as [<-|H]; [first [reflexivity|discriminate T]|]). destruct H.
  - apply area_work_ok; exact H.
  - apply (@area_res_ok t (nct i j k l)); [exact Hn|rewrite !in_app_iff; tauto].
  - destruct H as [<-|[]]. discriminate T.
  - destruct validate; [|destruct H]. repeat (apply in_app_or in H as [H|H]).
    + eapply shells_ok; exact H.
    + eapply shells_ok; exact H.
    + apply (@area_res_ok t (nct i j k l)); [exact Hn|rewrite !in_app_iff; tauto].
    + repeat (destruct H as [<-|H]; [reflexivity|]). destruct H.
  - destruct H as [<-|[]]. reflexivity.
Qed.
Theorem bench_race validate i j k l :
  race_free (seq 0 (sz i * sz j)) (bench_body sz ms ws ncart factor validate i j k l) -> sz i * sz j <= 1.
Proof.
  intros H. destruct (Nat.le_gt_cases (sz i * sz j) 1) as [L|L]; [exact L|exfalso].
  assert (T : forall t ab, In (wr LTime) (bench_body sz ms ws ncart factor validate i j k l t ab)).
  { intros t ab. unfold bench_body. right. right. left. reflexivity. }
  apply (H (fun x => x) 0 1) with (e := wr LTime) (f := wr LTime); try (apply in_seq; lia); try lia; try apply T.
  split; [reflexivity|]. split; left; reflexivity.
Qed.
Lemma one_iteration A (x : A) body : race_free [x] body.
Proof. intros s y z [<-|[]] [<-|[]] H. contradiction. Qed.
Lemma bench_one validate i j k l : sz i * sz j <= 1 ->
  race_free (seq 0 (sz i * sz j)) (bench_body sz ms ws ncart factor validate i j k l).
Proof.
  intros H. destruct (sz i * sz j) as [|[|n]] eqn:E; [intros s x y []| |lia]. apply one_iteration.
Qed.
End Proofs.

(** ** With the areas of the programs *)
Theorem mol_eri_free V (m : shellmap V) factor limit ws c :
  In c (eri_loops (shell_count m) (map fst m) (quartets (t_maxam limit (find_max m)))) ->
  eri_loop_free (shell_count m) (eri_area m factor limit) ws ncart factor c.
Proof.
  apply eri_free. intros i j k l Hi Hj _ _. pose proof (@eri_fits V m (Z.of_nat factor) limit i j k l Hi Hj ltac:(lia)) as F.
  unfold ncont, shell_count, eri_area. apply Nat2Z.inj_le. rewrite Z2Nat.id by lia. rewrite Nat2Z.inj_mul. exact F.
Qed.
Lemma count_in V (m : shellmap V) am : 0 < shell_count m am -> at_am m am <> [].
Proof. unfold shell_count. destruct (at_am m am); [cbn; lia|discriminate]. Qed.
Theorem mol_one_iff V (m : shellmap V) : 1 <= fst (find_max m) ->
  (race_free (seq 0 (S (fst (find_max m)))) (one_body (shell_count m) (o_maxsize (find_max m)) ncart (map fst m) (fst (find_max m))) <->
   forall am, am <= fst (find_max m) -> In am (map fst m)).
Proof.
  intros H1. split.
  - intros H am Hm. exact (one_race H1 H Hm).
  - intros H. apply (fun A => @one_free (shell_count m) (o_maxsize (find_max m)) 0 ncart (fst (find_max m)) (map fst m) A H).
    intros i j _ _ Hi Hj. apply one_fits; apply count_in; assumption.
Qed.
Theorem mol_one_refuted : ~ forall (m : shellmap unit), (forall p, In p m -> snd p <> []) ->
  race_free (seq 0 (S (fst (find_max m)))) (one_body (shell_count m) (o_maxsize (find_max m)) ncart (map fst m) (fst (find_max m))).
Proof.
  intros H. assert (A : forall am, am <= 2 -> In am [0; 2]).
  { apply (proj1 (@mol_one_iff unit mol_sd ltac:(cbn; lia))). apply H. intros p [<-|[<-|[]]]; discriminate. }
  destruct (A 1 ltac:(lia)) as [E|[E|[]]]; discriminate.
Qed.
Theorem mol_bench_free V (m : shellmap V) limit ws validate i j k l :
  i <= t_maxam limit (find_max m) -> j <= t_maxam limit (find_max m) ->
  race_free (seq 0 (shell_count m i * shell_count m j)) (bench_untimed (shell_count m) (eri_area m 1 limit) ws ncart 1 validate i j k l).
Proof.
  intros Hi Hj. apply bench_free. pose proof (@eri_fits V m (Z.of_nat 1) limit i j k l Hi Hj ltac:(lia)) as F.
  unfold ncont, shell_count, eri_area. apply Nat2Z.inj_le. rewrite Z2Nat.id by lia. rewrite Nat2Z.inj_mul. exact F.
Qed.
Theorem mol_bench_iff V (m : shellmap V) limit ws validate i j k l :
  race_free (seq 0 (shell_count m i * shell_count m j)) (bench_body (shell_count m) (eri_area m 1 limit) ws ncart 1 validate i j k l) <->
  shell_count m i * shell_count m j <= 1.
Proof. split; [apply bench_race|apply bench_one]. Qed.

