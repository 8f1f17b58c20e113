(** Permuted kernels.
    Source: generator/ostei/OSTEI_Writer.cpp:12-23 (IsSpecialPermutation_), 125-245 (Write_Permute_),
    757-773 (Write_Permutations_), 776-790 (WriteFile); generator/ostei/OSTEIDeriv1_Writer.cpp:120-257
    (Write_Permute_ of the derivative kernels).

    One text covers both: an integral kernel stores one number per component, a derivative kernel
    twelve (centre 0..3, direction 0..2); [wd] is 1 or 12.  [P_AB] of length [3*nshell12] is not a
    separate array here: the three distances of a pair are fields of its data. *)
From Coq Require Import List Arith Lia Bool Ring ZArith.
Import ListNotations.
From Verif Require Import Base Cart Cat Layout PairData.
Set Implicit Arguments.

(** ** The classes *)
Definition permute (s12 s34 : bool) (a : qam) : qam :=
  QAM (if s12 then am1 a else am0 a) (if s12 then am0 a else am1 a)
      (if s34 then am3 a else am2 a) (if s34 then am2 a else am3 a).
(** Lines 133-139. *)
Definition perm_written (s12 s34 : bool) (a : qam) : bool :=
  let p := permute s12 s34 a in
  if s34 && negb s12 && (am2 p =? am3 p) then false
  else if s12 && negb s34 && (am0 p =? am1 p) then false
  else if s12 && s34 && ((am0 p =? am1 p) || (am2 p =? am3 p)) then false
  else true.
(** Lines 12-23. *)
Definition special (p : qam) : bool :=
  if ((am0 p =? 0) && (0 <? am1 p)) && ((am2 p =? 0) || (am3 p =? 0)) then true
  else if ((am2 p =? 0) && (0 <? am3 p)) && ((am0 p =? 0) || (am1 p =? 0)) then true
  else false.

(** ** The shell pair data handed on, lines 147-186; the derivative writer also exchanges
    [alpha2] and [beta2].  Fields by array, as in [Layout]. *)
Definition swap_arr (deriv : bool) (a : arr) : arr :=
  match a with
  | APrim k => if (k <? 3) then a else if (k <? 6) then APrim (k + 3) else if (k <? 9) then APrim (k - 3) else a
  | AAlpha2 => if deriv then ABeta2 else a
  | ABeta2 => if deriv then AAlpha2 else a
  | _ => a
  end.
Section Data.
Context {R : cring}.
Add Ring Rring_pm : (cth R).
Variables (inv expf : R -> R) (sqrt2pi52 : R).
Local Notation pv := (prim_value inv expf sqrt2pi52).
(** [P_tmp]: field [a] of primitive [(i, j)]. *)
Definition swapped_value (deriv : bool) (f : arr -> R) (a : arr) : R :=
  match a with
  | ADist ax => (- f (ADist ax))%r
  | _ => f (swap_arr deriv a)
  end.
(** The data of the pair [(B, A)], primitive [(j, i)]. *)
Lemma swap_is_exchange deriv A B i j a :
  (deriv = false -> a <> AAlpha2 /\ a <> ABeta2) -> (forall k, a = APrim k -> k < 11) ->
  swapped_value deriv (fun a => pv false A B a i j) a = pv false B A a j i.
Proof.
  intros Hd Hk. destruct a as [k| | | |ax]; cbn [swapped_value swap_arr].
  - specialize (Hk k eq_refl).
    assert (C : forall ax, center inv A B i j ax = center inv B A j i ax).
    { intros ax. unfold center. replace (sh_alpha B j + sh_alpha A i)%r with (sh_alpha A i + sh_alpha B j)%r by ring. ring. }
    do 11 (destruct k as [|k]; [cbn -[Nat.sub]; cbn; rewrite ?C; try reflexivity;
      try (replace (sh_alpha B j + sh_alpha A i)%r with (sh_alpha A i + sh_alpha B j)%r by ring; try reflexivity)|]).
    + replace (xab2 B A) with (xab2 A B) by (unfold xab2; ring).
      replace (sh_alpha B j * sh_alpha A i)%r with (sh_alpha A i * sh_alpha B j)%r by ring. ring.
    + lia.
  - reflexivity.
  - destruct deriv; [|destruct (Hd eq_refl); congruence]. cbn. reflexivity.
  - destruct deriv; [|destruct (Hd eq_refl); congruence]. cbn. reflexivity.
  - cbn. ring.
Qed.
End Data.

(** ** Reordering the output *)
Section Reorder.
Variable T : Type.
Variables (wd : nat) (sub : nat -> nat).
Variables (s12 s34 : bool) (am : qam).
Notation n0 := (ncart (am0 am)). Notation n1 := (ncart (am1 am)).
Notation n2 := (ncart (am2 am)). Notation n3 := (ncart (am3 am)).
Notation m0 := (ncart (am0 (permute s12 s34 am))). Notation m1 := (ncart (am1 (permute s12 s34 am))).
Notation m2 := (ncart (am2 (permute s12 s34 am))). Notation m3 := (ncart (am3 (permute s12 s34 am))).
Notation n := (qncart am).

(** [idx], lines 218-221. *)
Definition src (q a b c d : nat) : nat :=
  let va := if s12 then b else a in let vb := if s12 then a else b in
  let vc := if s34 then d else c in let vd := if s34 then c else d in
  wd * (q * n + va * (n1 * n2 * n3) + vb * (n2 * n3) + vc * n3 + vd).
(** The loops filling [buffer], lines 228-233. *)
Definition srcs (q : nat) : list nat :=
  flat_map (fun a => flat_map (fun b => flat_map (fun c => flat_map (fun d =>
    map (fun k => src q a b c d + sub k) (seq 0 wd)) (seq 0 m3)) (seq 0 m2)) (seq 0 m1)) (seq 0 m0).
Fixpoint reads (out : list T) (l : list nat) : option (list T) :=
  match l with
  | [] => Some []
  | i :: r => match nth_error out i, reads out r with Some v, Some vs => Some (v :: vs) | _, _ => None end
  end.
(** [memcpy] of [cnt] numbers from [buf]; [None] out of bounds. *)
Definition paste (out : list T) (p cnt : nat) (buf : list T) : option (list T) :=
  if (cnt <=? length buf) && (p + cnt <=? length out)
  then Some (firstn p out ++ firstn cnt buf ++ skipn (p + cnt) out) else None.
(** Lines 225-238; [buffer] has [wd * n] places. *)
Fixpoint qloop (m q : nat) (out : list T) : option (list T) :=
  match m with
  | 0 => Some out
  | S m' =>
    match reads out (srcs q) with
    | Some buf =>
      if length buf <=? wd * n then
        match paste out (q * (wd * n)) (wd * n) buf with Some o => qloop m' (S q) o | None => None end
      else None
    | None => None
    end
  end.

Definition pos4 (k1 k2 k3 : nat) (a b c d : nat) : nat := ((a * k1 + b) * k2 + c) * k3 + d.

Lemma m_total : m0 * m1 * m2 * m3 = n.
Proof. clear wd sub. unfold qncart. destruct s12, s34; cbn [permute am0 am1 am2 am3]; ring. Qed.

Lemma srcs_nth q a b c d k : a < m0 -> b < m1 -> c < m2 -> d < m3 -> k < wd ->
  nth_error (srcs q) (pos4 m1 m2 m3 a b c d * wd + k) = Some (src q a b c d + sub k).
Proof.
  intros Ha Hb Hc Hd Hk. unfold srcs, pos4.
  assert (L3 : forall a b c d', In d' (seq 0 m3) -> length (map (fun k => src q a b c d' + sub k) (seq 0 wd)) = wd).
  { intros. rewrite map_length, seq_length. reflexivity. }
  assert (L2 : forall a b c', In c' (seq 0 m2) -> length (flat_map (fun d =>
    map (fun k => src q a b c' d + sub k) (seq 0 wd)) (seq 0 m3)) = m3 * wd).
  { intros. rewrite (length_flat_map_const _ _ (L3 a0 b0 c')), seq_length. reflexivity. }
  assert (L1 : forall a b', In b' (seq 0 m1) -> length (flat_map (fun c => flat_map (fun d =>
    map (fun k => src q a b' c d + sub k) (seq 0 wd)) (seq 0 m3)) (seq 0 m2)) = m2 * (m3 * wd)).
  { intros. rewrite (length_flat_map_const _ _ (L2 a0 b')), seq_length. reflexivity. }
  assert (L0 : forall a', In a' (seq 0 m0) -> length (flat_map (fun b => flat_map (fun c => flat_map (fun d =>
    map (fun k => src q a' b c d + sub k) (seq 0 wd)) (seq 0 m3)) (seq 0 m2)) (seq 0 m1)) = m1 * (m2 * (m3 * wd))).
  { intros. rewrite (length_flat_map_const _ _ (L1 a')), seq_length. reflexivity. }
  replace ((((a * m1 + b) * m2 + c) * m3 + d) * wd + k)
    with (a * (m1 * (m2 * (m3 * wd))) + (b * (m2 * (m3 * wd)) + (c * (m3 * wd) + (d * wd + k)))) by ring.
  assert (K3 : d * wd + k < m3 * wd) by nia.
  assert (K2 : c * (m3 * wd) + (d * wd + k) < m2 * (m3 * wd)) by nia.
  assert (K1 : b * (m2 * (m3 * wd)) + (c * (m3 * wd) + (d * wd + k)) < m1 * (m2 * (m3 * wd))) by nia.
  rewrite (@nth_error_flat_map_const _ _ _ _ _ L0 a _ a K1) by (rewrite nth_error_seq by lia; reflexivity).
  rewrite (@nth_error_flat_map_const _ _ _ _ _ (L1 a) b _ b K2) by (rewrite nth_error_seq by lia; reflexivity).
  rewrite (@nth_error_flat_map_const _ _ _ _ _ (L2 a b) c _ c K3) by (rewrite nth_error_seq by lia; reflexivity).
  rewrite (@nth_error_flat_map_const _ _ _ _ _ (L3 a b c) d _ d Hk) by (rewrite nth_error_seq by lia; reflexivity).
  rewrite nth_error_map, nth_error_seq by lia. reflexivity.
Qed.

Lemma srcs_length q : length (srcs q) = wd * n.
Proof.
  unfold srcs. rewrite (@length_flat_map_const _ _ _ _ (m1 * (m2 * (m3 * wd)))).
  - rewrite seq_length, <- m_total. ring.
  - intros a _. rewrite (@length_flat_map_const _ _ _ _ (m2 * (m3 * wd))); [rewrite seq_length; reflexivity|].
    intros b _. rewrite (@length_flat_map_const _ _ _ _ (m3 * wd)); [rewrite seq_length; reflexivity|].
    intros c _. rewrite (@length_flat_map_const _ _ _ _ wd); [rewrite seq_length; reflexivity|].
    intros d _. rewrite map_length, seq_length. reflexivity.
Qed.

Lemma srcs_in q i : In i (srcs q) -> exists a b c d k, a < m0 /\ b < m1 /\ c < m2 /\ d < m3 /\ k < wd /\
  i = src q a b c d + sub k.
Proof.
  unfold srcs. intros H. apply in_flat_map in H as [a [Ha H]]. apply in_flat_map in H as [b [Hb H]].
  apply in_flat_map in H as [c [Hc H]]. apply in_flat_map in H as [d [Hd H]].
  apply in_map_iff in H as [k [<- Hk]]. rewrite in_seq in *. exists a, b, c, d, k. repeat split; lia.
Qed.

Lemma reads_ok out : forall l, (forall i, In i l -> i < length out) ->
  exists vs, reads out l = Some vs /\ length vs = length l /\
    forall k i, nth_error l k = Some i -> nth_error vs k = nth_error out i.
Proof.
  induction l as [|i l IH]; simpl; intros H.
  - exists []. split; [reflexivity|]. split; [reflexivity|]. intros [|k] i E; discriminate.
  - destruct IH as [vs [-> [L V]]]; [auto|].
    destruct (@nth_error_lt_Some _ out i (H i (or_introl eq_refl))) as [v Ev]. rewrite Ev.
    exists (v :: vs). split; [reflexivity|]. split; [simpl; lia|].
    intros [|k] j E; simpl in *; [injection E as <-; symmetry; exact Ev|apply V, E].
Qed.

Lemma paste_ok out p cnt buf : cnt <= length buf -> p + cnt <= length out ->
  exists o, paste out p cnt buf = Some o /\ length o = length out /\
    (forall i, i < cnt -> nth_error o (p + i) = nth_error buf i) /\
    (forall i, i < p \/ p + cnt <= i -> nth_error o i = nth_error out i).
Proof.
  intros H1 H2. unfold paste. rewrite (proj2 (Nat.leb_le _ _) H1), (proj2 (Nat.leb_le _ _) H2). cbn [andb].
  eexists; split; [reflexivity|]. split; [|split].
  - rewrite !app_length, !firstn_length, skipn_length. lia.
  - intros i Hi. rewrite nth_error_app2 by (rewrite firstn_length; lia).
    rewrite firstn_length, Nat.min_l by lia. replace (p + i - p) with i by lia.
    rewrite nth_error_app1 by (rewrite firstn_length; lia). apply nth_error_firstn_lt, Hi.
  - intros i [Hi|Hi].
    + rewrite nth_error_app1 by (rewrite firstn_length; lia). apply nth_error_firstn_lt, Hi.
    + rewrite nth_error_app2 by (rewrite firstn_length; lia).
      rewrite nth_error_app2 by (rewrite !firstn_length; lia).
      rewrite !firstn_length, Nat.min_l, Nat.min_l by lia.
      assert (S : forall (d : list T) p i, nth_error (skipn p d) i = nth_error d (p + i)).
      { clear. intros d p. revert d. induction p as [|p IH]; intros [|x d] i; simpl; auto; destruct i; reflexivity. }
      rewrite S. f_equal. lia.
Qed.

(** Components of the requested class in terms of the computed one. *)
Definition c0' (a b : nat) := if s12 then b else a.
Definition c1' (a b : nat) := if s12 then a else b.
Definition c2' (c d : nat) := if s34 then d else c.
Definition c3' (c d : nat) := if s34 then c else d.

Lemma src_pos q a b c d : src q a b c d = wd * (q * n + pos4 n1 n2 n3 (c0' a b) (c1' a b) (c2' c d) (c3' c d)).
Proof. unfold src, pos4, c0', c1', c2', c3'. f_equal. ring. Qed.
Lemma c_bounds a b c d : a < m0 -> b < m1 -> c < m2 -> d < m3 ->
  c0' a b < n0 /\ c1' a b < n1 /\ c2' c d < n2 /\ c3' c d < n3.
Proof. unfold c0', c1', c2', c3'. destruct s12, s34; cbn [permute am0 am1 am2 am3]; auto. Qed.
Lemma pos4_lt k0 k1 k2 k3 a b c d : a < k0 -> b < k1 -> c < k2 -> d < k3 -> pos4 k1 k2 k3 a b c d < k0 * k1 * k2 * k3.
Proof.
  intros. unfold pos4. assert (a * k1 + b < k0 * k1) by nia.
  assert ((a * k1 + b) * k2 + c < k0 * k1 * k2) by nia. nia.
Qed.

Hypothesis Hsub : forall k, k < wd -> sub k < wd.

(** Meaning of an output: number [k] of component [(a, b, c, d)] of quartet [q]. *)
Definition holds (p : qam) (ret : nat) (out : list T) (V : nat -> nat -> nat -> nat -> nat -> nat -> T) : Prop :=
  forall q a b c d k, q < ret -> a < ncart (am0 p) -> b < ncart (am1 p) -> c < ncart (am2 p) -> d < ncart (am3 p) ->
    k < wd ->
    nth_error out (wd * (q * qncart p + pos4 (ncart (am1 p)) (ncart (am2 p)) (ncart (am3 p)) a b c d) + k)
      = Some (V q a b c d k).

Lemma qncart_perm : qncart (permute s12 s34 am) = n.
Proof. rewrite <- m_total. reflexivity. Qed.

Lemma src_bound q a b c d k : a < m0 -> b < m1 -> c < m2 -> d < m3 -> k < wd ->
  q * (wd * n) <= src q a b c d + sub k < S q * (wd * n).
Proof.
  intros Ha Hb Hc Hd Hk. rewrite src_pos. destruct (c_bounds Ha Hb Hc Hd) as (K0 & K1 & K2 & K3).
  pose proof (pos4_lt K0 K1 K2 K3) as P. specialize (Hsub Hk).
  change (n0 * n1 * n2 * n3) with n in P. nia.
Qed.

Lemma qloop_ok : forall m q out, (q + m) * (wd * n) <= length out ->
  exists o, qloop m q out = Some o /\ length o = length out /\
    (forall i, i < q * (wd * n) \/ (q + m) * (wd * n) <= i -> nth_error o i = nth_error out i) /\
    (forall q' a b c d k, q <= q' < q + m -> a < m0 -> b < m1 -> c < m2 -> d < m3 -> k < wd ->
       nth_error o (wd * (q' * n + pos4 m1 m2 m3 a b c d) + k) = nth_error out (src q' a b c d + sub k)).
Proof.
  induction m as [|m IH]; intros q out HL.
  - exists out. split; [reflexivity|]. split; [reflexivity|]. split; [reflexivity|]. intros; lia.
  - cbn [qloop].
    destruct (@reads_ok out (srcs q)) as [buf [-> [Lb Vb]]].
    { intros i Hi. apply srcs_in in Hi as (a & b & c & d & k & Ha & Hb & Hc & Hd & Hk & ->).
      pose proof (@src_bound q a b c d k Ha Hb Hc Hd Hk). nia. }
    rewrite srcs_length in Lb. rewrite (proj2 (Nat.leb_le _ _)) by lia.
    destruct (@paste_ok out (q * (wd * n)) (wd * n) buf) as [o1 [-> [L1 [N1 F1]]]]; [lia|nia|].
    destruct (IH (S q) o1) as [o [E [L [F N]]]]; [rewrite L1; replace (S q + m) with (q + S m) by lia; exact HL|].
    exists o. split; [exact E|]. split; [congruence|]. split.
    + intros i Hi. rewrite F by (destruct Hi; [left; nia|right; replace (S q + m) with (q + S m) by lia; lia]).
      apply F1. destruct Hi as [Hi|Hi]; [left; exact Hi|right; nia].
    + intros q' a b c d k Hq Ha Hb Hc Hd Hk.
      pose proof (@pos4_lt m0 m1 m2 m3 a b c d Ha Hb Hc Hd) as P. rewrite m_total in P.
      destruct (Nat.eq_dec q' q) as [->|Hne].
      * rewrite F by (left; nia).
        replace (wd * (q * n + pos4 m1 m2 m3 a b c d) + k)
          with (q * (wd * n) + (pos4 m1 m2 m3 a b c d * wd + k)) by ring.
        rewrite N1 by nia. apply Vb, srcs_nth; assumption.
      * rewrite N by (try assumption; lia). apply F1. right.
        pose proof (@src_bound q' a b c d k Ha Hb Hc Hd Hk). nia.
Qed.

(** The reordered output holds the requested class. *)
Theorem reorder_ok ret raw V : ret * (wd * n) <= length raw -> holds am ret raw V ->
  exists out, qloop ret 0 raw = Some out /\ length out = length raw /\
    (forall i, ret * (wd * n) <= i -> nth_error out i = nth_error raw i) /\
    holds (permute s12 s34 am) ret out
      (fun q a b c d k => V q (c0' a b) (c1' a b) (c2' c d) (c3' c d) (sub k)).
Proof.
  intros HL HV. destruct (@qloop_ok ret 0 raw HL) as [o [E [L [F N]]]].
  exists o. split; [exact E|]. split; [exact L|]. split; [intros i Hi; apply F; right; exact Hi|].
  intros q a b c d k Hq Ha Hb Hc Hd Hk. rewrite qncart_perm.
  rewrite N by (try assumption; lia). rewrite src_pos.
  destruct (c_bounds Ha Hb Hc Hd) as (K0 & K1 & K2 & K3).
  apply HV; auto.
Qed.
End Reorder.

(** ** Leaving the reordering out *)
Lemma special_same s12 s34 am a b c d : special (permute s12 s34 am) = true -> perm_written s12 s34 am = true ->
  let p := permute s12 s34 am in
  a < ncart (am0 p) -> b < ncart (am1 p) -> c < ncart (am2 p) -> d < ncart (am3 p) ->
  pos4 (ncart (am1 p)) (ncart (am2 p)) (ncart (am3 p)) a b c d =
  pos4 (ncart (am1 am)) (ncart (am2 am)) (ncart (am3 am))
       (if s12 then b else a) (if s12 then a else b) (if s34 then d else c) (if s34 then c else d).
Proof.
  intros Hs Hw p Ha Hb Hc Hd. subst p. unfold special in Hs.
  set (p := permute s12 s34 am) in *.
  assert (Z : (am0 p = 0 \/ am1 p = 0) /\ (am2 p = 0 \/ am3 p = 0)).
  { destruct (((am0 p =? 0) && (0 <? am1 p)) && ((am2 p =? 0) || (am3 p =? 0))) eqn:E1.
    - apply andb_true_iff in E1 as [E E']. apply andb_true_iff in E as [E _].
      apply Nat.eqb_eq in E. apply orb_true_iff in E' as [E'|E']; apply Nat.eqb_eq in E'; auto.
    - destruct (((am2 p =? 0) && (0 <? am3 p)) && ((am0 p =? 0) || (am1 p =? 0))) eqn:E2; [|discriminate].
      apply andb_true_iff in E2 as [E E']. apply andb_true_iff in E as [E _].
      apply Nat.eqb_eq in E. apply orb_true_iff in E' as [E'|E']; apply Nat.eqb_eq in E'; auto. }
  destruct Z as [Z1 Z2].
  assert (N0 : ncart 0 = 1) by reflexivity.
  assert (A : (if s12 then b else a) * ncart (am1 am) + (if s12 then a else b) = a * ncart (am1 p) + b).
  { destruct s12; [|reflexivity]. unfold p in *; cbn [permute am0 am1] in *. destruct Z1 as [Z|Z]; rewrite Z, N0 in *; nia. }
  assert (B : forall x, (x * ncart (am2 am) + (if s34 then d else c)) * ncart (am3 am) + (if s34 then c else d)
              = (x * ncart (am2 p) + c) * ncart (am3 p) + d).
  { intros x. destruct s34; [|reflexivity]. unfold p in *; cbn [permute am2 am3] in *. destruct Z2 as [Z|Z]; rewrite Z, N0 in *; nia. }
  unfold pos4. rewrite A, B. reflexivity.
Qed.

(** The permuted function, given what the called kernel left in the output array. *)
Definition permuted_fn (T : Type) (s12 s34 : bool) (am : qam) (ret : nat) (raw : list T) : option (list T) :=
  if special (permute s12 s34 am) then Some raw else qloop 1 (fun k => k) s12 s34 am ret 0 raw.
(** Lines 229-248 of the derivative writer: where number [k] of a component comes from. *)
Definition sub12 (s12 s34 : bool) (k : nat) : nat :=
  if k <? 6 then (if s12 then (if k <? 3 then k + 3 else k - 3) else k)
  else (if s34 then (if k <? 9 then k + 3 else k - 3) else k).
Definition permuted_fn12 (T : Type) (s12 s34 : bool) (am : qam) (ret : nat) (raw : list T) : option (list T) :=
  qloop 12 (sub12 s12 s34) s12 s34 am ret 0 raw.

(** Integrals over four shells: [I A B C D a b c d].  The called kernel gets the exchanged pairs. *)
Section Meaning.
Variables (Sh T : Type).
Definition exch (s : bool) (x y : Sh) : Sh * Sh := if s then (y, x) else (x, y).
Definition sym4 (I : Sh -> Sh -> Sh -> Sh -> nat -> nat -> nat -> nat -> T) : Prop :=
  (forall A B C D a b c d, I A B C D a b c d = I B A C D b a c d) /\
  (forall A B C D a b c d, I A B C D a b c d = I A B D C a b d c).
(** Output for the pairs [(A q, B q)], [(C q, D q)]. *)
Definition output_for (wd : nat) (p : qam) (ret : nat) (out : list T) (A B C D : nat -> Sh)
  (I : Sh -> Sh -> Sh -> Sh -> nat -> nat -> nat -> nat -> nat -> T) : Prop :=
  holds wd p ret out (fun q a b c d k => I (A q) (B q) (C q) (D q) a b c d k).

Theorem permuted_ok (I : Sh -> Sh -> Sh -> Sh -> nat -> nat -> nat -> nat -> T) s12 s34 am ret raw (A B C D : nat -> Sh) :
  sym4 I -> perm_written s12 s34 am = true -> ret * qncart am <= length raw ->
  output_for 1 am ret raw
    (fun q => fst (exch s12 (A q) (B q))) (fun q => snd (exch s12 (A q) (B q)))
    (fun q => fst (exch s34 (C q) (D q))) (fun q => snd (exch s34 (C q) (D q)))
    (fun A B C D a b c d _ => I A B C D a b c d) ->
  exists out, permuted_fn s12 s34 am ret raw = Some out /\ length out = length raw /\
    (forall i, ret * qncart am <= i -> nth_error out i = nth_error raw i) /\
    output_for 1 (permute s12 s34 am) ret out A B C D (fun A B C D a b c d _ => I A B C D a b c d).
Proof.
  intros [S1 S2] Hw HL HV.
  assert (G : forall q a b c d,
    I (fst (exch s12 (A q) (B q))) (snd (exch s12 (A q) (B q))) (fst (exch s34 (C q) (D q))) (snd (exch s34 (C q) (D q)))
      (c0' s12 a b) (c1' s12 a b) (c2' s34 c d) (c3' s34 c d) = I (A q) (B q) (C q) (D q) a b c d).
  { intros. unfold exch, c0', c1', c2', c3'. destruct s12, s34; cbn [fst snd].
    - rewrite S1, S2. reflexivity. - rewrite S1. reflexivity. - rewrite S2. reflexivity. - reflexivity. }
  unfold permuted_fn. destruct (special (permute s12 s34 am)) eqn:Es.
  - exists raw. split; [reflexivity|]. split; [reflexivity|]. split; [reflexivity|].
    intros q a b c d k Hq Ha Hb Hc Hd Hk. rewrite qncart_perm.
    rewrite (@special_same s12 s34 am a b c d Es Hw Ha Hb Hc Hd).
    destruct (@c_bounds s12 s34 am a b c d Ha Hb Hc Hd) as (K0 & K1 & K2 & K3).
    specialize (HV q (c0' s12 a b) (c1' s12 a b) (c2' s34 c d) (c3' s34 c d) k Hq K0 K1 K2 K3 Hk).
    cbv beta in HV. rewrite G in HV. exact HV.
  - destruct (@reorder_ok T 1 (fun k => k) s12 s34 am (fun k Hk => Hk) ret raw _ ltac:(lia) HV) as [out [E [L [F H]]]].
    exists out. split; [exact E|]. split; [exact L|]. split; [intros i Hi; apply F; lia|].
    intros q a b c d k Hq Ha Hb Hc Hd Hk. specialize (H q a b c d k Hq Ha Hb Hc Hd Hk).
    cbv beta in H. rewrite G in H. exact H.
Qed.

(** Derivatives: number [3*x + i] is the derivative along direction [i] of centre [x]. *)
Definition sym12 (I : Sh -> Sh -> Sh -> Sh -> nat -> nat -> nat -> nat -> nat -> T) : Prop :=
  (forall A B C D a b c d i, i < 3 -> I A B C D a b c d i = I B A C D b a c d (3 + i) /\
     I A B C D a b c d (3 + i) = I B A C D b a c d i /\
     I A B C D a b c d (6 + i) = I B A C D b a c d (6 + i) /\ I A B C D a b c d (9 + i) = I B A C D b a c d (9 + i)) /\
  (forall A B C D a b c d i, i < 3 -> I A B C D a b c d i = I A B D C a b d c i /\
     I A B C D a b c d (3 + i) = I A B D C a b d c (3 + i) /\
     I A B C D a b c d (6 + i) = I A B D C a b d c (9 + i) /\ I A B C D a b c d (9 + i) = I A B D C a b d c (6 + i)).

Lemma lt12 (P : nat -> Prop) : (forall i, i < 3 -> P i /\ P (3 + i) /\ P (6 + i) /\ P (9 + i)) -> forall k, k < 12 -> P k.
Proof.
  intros H k Hk. destruct (H 0 ltac:(lia)) as (A0 & A3 & A6 & A9). destruct (H 1 ltac:(lia)) as (A1 & A4 & A7 & A10).
  destruct (H 2 ltac:(lia)) as (A2 & A5 & A8 & A11). do 12 (destruct k as [|k]; [assumption|]). lia.
Qed.

Theorem permuted12_ok I s12 s34 am ret raw (A B C D : nat -> Sh) :
  sym12 I -> ret * (12 * qncart am) <= length raw ->
  output_for 12 am ret raw
    (fun q => fst (exch s12 (A q) (B q))) (fun q => snd (exch s12 (A q) (B q)))
    (fun q => fst (exch s34 (C q) (D q))) (fun q => snd (exch s34 (C q) (D q))) I ->
  exists out, permuted_fn12 s12 s34 am ret raw = Some out /\ length out = length raw /\
    (forall i, ret * (12 * qncart am) <= i -> nth_error out i = nth_error raw i) /\
    output_for 12 (permute s12 s34 am) ret out A B C D I.
Proof.
  intros [S1 S2] HL HV.
  assert (Hs : forall k, k < 12 -> sub12 s12 s34 k < 12).
  { intros k Hk. unfold sub12. destruct (Nat.ltb_spec k 6), (Nat.ltb_spec k 3), (Nat.ltb_spec k 9), s12, s34; lia. }
  assert (G : forall q a b c d k, k < 12 ->
    I (fst (exch s12 (A q) (B q))) (snd (exch s12 (A q) (B q))) (fst (exch s34 (C q) (D q))) (snd (exch s34 (C q) (D q)))
      (c0' s12 a b) (c1' s12 a b) (c2' s34 c d) (c3' s34 c d) (sub12 s12 s34 k) = I (A q) (B q) (C q) (D q) a b c d k).
  { intros q a b c d. apply lt12. intros i Hi. unfold exch, c0', c1', c2', c3', sub12.
    assert (E : i = 0 \/ i = 1 \/ i = 2) by lia.
    destruct s12, s34; cbn [fst snd].
    - destruct (S1 (A q) (B q) (C q) (D q) a b c d i Hi) as (-> & -> & -> & ->).
      destruct (S2 (B q) (A q) (C q) (D q) b a c d i Hi) as (E0 & E1 & E2 & E3). rewrite E0, E1, E2, E3.
      destruct E as [->|[->| ->]]; cbn; auto.
    - destruct (S1 (A q) (B q) (C q) (D q) a b c d i Hi) as (-> & -> & -> & ->). destruct E as [->|[->| ->]]; cbn; auto.
    - destruct (S2 (A q) (B q) (C q) (D q) a b c d i Hi) as (-> & -> & -> & ->). destruct E as [->|[->| ->]]; cbn; auto.
    - destruct E as [->|[->| ->]]; cbn; auto. }
  destruct (@reorder_ok T 12 (sub12 s12 s34) s12 s34 am Hs ret raw _ HL HV) as [out [E [L [F H]]]].
  exists out. split; [exact E|]. split; [exact L|]. split; [exact F|].
  intros q a b c d k Hq Ha Hb Hc Hd Hk. specialize (H q a b c d k Hq Ha Hb Hc Hd Hk).
  cbv beta in H. rewrite G in H by exact Hk. exact H.
Qed.
End Meaning.

(** ** Example: (ps|ds) requested as (ps|sd), (pd|ss) as (dp|ss), with a symmetric function. *)
Definition ex_I (A B C D a b c d : nat) : Z :=
  let z := Z.of_nat in
  ((10 * z A + z a) * (10 * z B + z b) + 1000 * ((10 * z C + z c) * (10 * z D + z d)))%Z.
Lemma ex_I_sym : sym4 ex_I.
Proof. split; intros; unfold ex_I; ring. Qed.
Definition ex_raw (s12 s34 : bool) (am : qam) (ret : nat) : list Z :=
  let e s x y := exch s x y in
  flat_map (fun q => flat_map (fun a => flat_map (fun b => flat_map (fun c => map (fun d =>
    ex_I (fst (e s12 q (q + 7))) (snd (e s12 q (q + 7))) (fst (e s34 3 5)) (snd (e s34 3 5)) a b c d)
    (seq 0 (ncart (am3 am)))) (seq 0 (ncart (am2 am)))) (seq 0 (ncart (am1 am)))) (seq 0 (ncart (am0 am)))) (seq 0 ret).
Lemma ex_perm : let am := QAM 2 1 1 0 in
  perm_written true true am = true /\ special (permute true true am) = false /\
  special (permute true true (QAM 2 0 1 0)) = true /\
  permuted_fn true true am 2 (ex_raw true true am 2) = Some (ex_raw false false (permute true true am) 2) /\
  permuted_fn true true (QAM 2 0 1 0) 2 (ex_raw true true (QAM 2 0 1 0) 2)
    = Some (ex_raw false false (QAM 0 2 0 1) 2) /\
  ex_raw true true am 2 <> ex_raw false false (permute true true am) 2.
Proof. repeat split; vm_compute; congruence. Qed.
