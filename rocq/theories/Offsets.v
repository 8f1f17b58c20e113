(** Attribution of vector lanes to shell pairs.
    Source: generator/ostei/OSTEI_Writer.cpp:26-64 (WriteShellOffsets), 94-95, 515-518;
    the same code is emitted by generator/ostei/OSTEIDeriv1_Writer.cpp. *)
From Coq Require Import List Arith Lia Bool.
Import ListNotations.
From Verif Require Import Base.
Set Implicit Arguments.

(** [iprimcd], [nprim_icd], [icd]; [o_ptr]: by how many shell pairs the primitive pointers have
    been advanced since the start of the batch. *)
Record ostate := OS { o_iprim : nat; o_nprim : nat; o_icd : nat; o_ptr : nat }.

(** Lines 515-518: start of a walk over the batch at [cd]. *)
Definition ostart (np : nat -> nat) (cd : nat) : ostate := OS 0 (np cd) 0 0.

(** The test of lines 39 and 51. *)
Definition new_shell (nb : nat) (st : ostate) : bool := (o_nprim st <=? o_iprim st) && (S (o_icd st) <? nb).

(** Lines 39-47: the first lane; the pointers move. *)
Definition first_lane (np : nat -> nat) (cd nb : nat) (st : ostate) : ostate :=
  if new_shell nb st
  then OS (S (o_iprim st)) (o_nprim st + np (cd + S (o_icd st))) (S (o_icd st)) (S (o_ptr st))
  else OS (S (o_iprim st)) (o_nprim st) (o_icd st) (o_ptr st).

(** Lines 49-60: the other [m] lanes; [off]: [shelloffsets[n-1]], [last]: [lastoffset]. *)
Fixpoint next_lanes (np : nat -> nat) (cd nb m off last : nat) (st : ostate) : list nat * nat * ostate :=
  match m with
  | 0 => ([], last, st)
  | S m' =>
    if new_shell nb st then
      let '(l, x, s) := next_lanes np cd nb m' (S off) (S last)
         (OS (S (o_iprim st)) (o_nprim st + np (cd + S (o_icd st))) (S (o_icd st)) (o_ptr st)) in
      (S off :: l, x, s)
    else
      let '(l, x, s) := next_lanes np cd nb m' off last
         (OS (S (o_iprim st)) (o_nprim st) (o_icd st) (o_ptr st)) in
      (off :: l, x, s)
  end.

(** One vector: [shelloffsets], [lastoffset] and the state after it (before the pointers are
    advanced by [lastoffset]). *)
Definition vec_offsets (len : nat) (np : nat -> nat) (cd nb : nat) (st : ostate) : list nat * nat * ostate :=
  if o_nprim st <=? o_iprim st + len then
    let '(l, x, s) := next_lanes np cd nb (len - 1) 0 0 (first_lane np cd nb st) in (0 :: l, x, s)
  else (repeat 0 len, 0, OS (o_iprim st + len) (o_nprim st) (o_icd st) (o_ptr st)).
(** ... and advanced, lines 94-95. *)
Definition vec_next (len : nat) (np : nat -> nat) (cd nb : nat) (st : ostate) : ostate :=
  let '(_, x, s) := vec_offsets len np cd nb st in OS (o_iprim s) (o_nprim s) (o_icd s) (o_ptr s + x).
(** The state before vector number [v]. *)
Fixpoint vec_state (len : nat) (np : nat -> nat) (cd nb v : nat) : ostate :=
  match v with 0 => ostart np cd | S v' => vec_next len np cd nb (vec_state len np cd nb v') end.

(** The slot lane [n] of vector [v] is added to: pointer plus [shelloffsets[n]]. *)
Definition lane_slot (len : nat) (np : nat -> nat) (cd nb v n : nat) : option nat :=
  let '(l, _, s) := vec_offsets len np cd nb (vec_state len np cd nb v) in
  match nth_error l n with Some x => Some (o_ptr s + x) | None => None end.

(** ** Specification *)
(** Number of primitives of the first [s] shell pairs of the batch at [cd]. *)
Fixpoint psum (np : nat -> nat) (cd s : nat) : nat :=
  match s with 0 => 0 | S s' => psum np cd s' + np (cd + s') end.
(** Primitive number [k] of the batch belongs to shell pair [s] of the batch. *)
Definition belongs (np : nat -> nat) (cd k s : nat) : Prop := psum np cd s <= k < psum np cd (S s).

Lemma psum_le np cd s t : s <= t -> psum np cd s <= psum np cd t.
Proof. induction 1; simpl; lia. Qed.
Lemma belongs_unique np cd k s t : belongs np cd k s -> belongs np cd k t -> s = t.
Proof.
  unfold belongs. intros [A B] [C D]. destruct (Nat.lt_trichotomy s t) as [H|[H|H]]; [|exact H|].
  - pose proof (psum_le np cd H). lia.
  - pose proof (psum_le np cd H). lia.
Qed.

(** ** Correctness *)
Section Ok.
Variables (np : nat -> nat) (cd nb : nat).
Hypothesis Hnb : 0 < nb.
Hypothesis Hnp : forall t, t < nb -> 0 < np (cd + t).
Local Notation ps := (psum np cd).

(** Lane [k - 1], if any, was credited to [s]. *)
Definition credited (k s : nat) : Prop :=
  s < nb /\ (k = 0 /\ s = 0 \/ 0 < k /\ ps s <= k - 1 /\ (k - 1 < ps (S s) \/ S s = nb)).
(** What crediting lane [k] to [s] has to satisfy. *)
Definition good (k s : nat) : Prop := s < nb /\ (k < ps nb -> belongs np cd k s).

Lemma credit_step k s : credited k s ->
  let s' := if (ps (S s) <=? k) && (S s <? nb) then S s else s in good k s' /\ credited (S k) s'.
Proof.
  intros [Hs H] s'. unfold good, credited, belongs, s'.
  replace (S k - 1) with k by lia.
  pose proof (Hnp Hs) as P0.
  assert (HB : s = nb - 1 \/ S s < nb) by lia.
  destruct (Nat.leb_spec (ps (S s)) k) as [L|L]; cbn [andb].
  - destruct (Nat.ltb_spec (S s) nb) as [N|N].
    + pose proof (Hnp N) as P1. cbn [psum] in *. destruct H as [[-> ->]|[H1 [H2 [H3|H3]]]]; cbn [psum] in *; lia.
    + assert (ps nb = ps (S s)) as E by (f_equal; lia). rewrite E. destruct H as [[-> ->]|[H1 [H2 H3]]]; cbn [psum] in *; lia.
  - cbn [psum] in L. destruct H as [[-> ->]|[H1 [H2 H3]]]; cbn [psum] in *; lia.
Qed.

(** State invariant after [k] lanes: the current shell is [s]. *)
Definition oinv (k s : nat) (st : ostate) : Prop :=
  o_iprim st = k /\ o_icd st = s /\ o_nprim st = ps (S s) /\ credited k s.

Lemma new_shell_inv k s st : oinv k s st -> new_shell nb st = (ps (S s) <=? k) && (S s <? nb).
Proof. intros [<- [<- [E _]]]. unfold new_shell. rewrite E. reflexivity. Qed.

Lemma next_lanes_ok : forall m off last k s st, oinv k s st -> off + o_ptr st = s ->
  let '(l, x, st') := next_lanes np cd nb m off last st in
  length l = m /\ o_ptr st' = o_ptr st /\
  (forall n y, nth_error l n = Some y -> good (k + n) (o_ptr st + y)) /\
  exists s', oinv (k + m) s' st' /\ s' + last = o_ptr st + x + off.
Proof.
  induction m as [|m IH]; intros off last k s st HI Ho; cbn [next_lanes].
  - split; [reflexivity|]. split; [reflexivity|]. split; [intros [|n] y E; discriminate|].
    exists s. rewrite Nat.add_0_r. split; [exact HI|lia].
  - rewrite (new_shell_inv HI). pose proof HI as [E1 [E2 [E3 E4]]].
    pose proof (credit_step E4) as C. cbv zeta in C.
    destruct ((ps (S s) <=? k) && (S s <? nb)) eqn:B; destruct C as [G1 G2].
    + set (st1 := OS _ _ _ _).
      assert (I1 : oinv (S k) (S s) st1).
      { unfold oinv, st1; cbn [o_iprim o_icd o_nprim]. rewrite E1, E2, E3. cbn [psum]. auto. }
      specialize (IH (S off) (S last) (S k) (S s) st1 I1 ltac:(unfold st1; cbn [o_ptr]; lia)).
      destruct (next_lanes np cd nb m (S off) (S last) st1) as [[l x] st'].
      destruct IH as [A1 [A2 [A3 [s' [A4 A5]]]]]. unfold st1 in A2, A3, A5; cbn [o_ptr] in A2, A3, A5.
      split; [simpl; congruence|]. split; [exact A2|]. split.
      * intros [|n] y Hy; cbn [nth_error] in Hy.
        -- injection Hy as <-. rewrite Nat.add_0_r. replace (o_ptr st + S off) with (S s) by lia. exact G1.
        -- replace (k + S n) with (S k + n) by lia. apply A3, Hy.
      * exists s'. replace (k + S m) with (S k + m) by lia. split; [exact A4|lia].
    + set (st1 := OS _ _ _ _).
      assert (I1 : oinv (S k) s st1).
      { unfold oinv, st1; cbn [o_iprim o_icd o_nprim]. rewrite E1, E2, E3. auto. }
      specialize (IH off last (S k) s st1 I1 ltac:(unfold st1; cbn [o_ptr]; lia)).
      destruct (next_lanes np cd nb m off last st1) as [[l x] st'].
      destruct IH as [A1 [A2 [A3 [s' [A4 A5]]]]]. unfold st1 in A2, A3, A5; cbn [o_ptr] in A2, A3, A5.
      split; [simpl; congruence|]. split; [exact A2|]. split.
      * intros [|n] y Hy; cbn [nth_error] in Hy.
        -- injection Hy as <-. rewrite Nat.add_0_r. replace (o_ptr st + off) with s by lia. exact G1.
        -- replace (k + S n) with (S k + n) by lia. apply A3, Hy.
      * exists s'. replace (k + S m) with (S k + m) by lia. split; [exact A4|lia].
Qed.

Lemma vec_ok len k s st : 0 < len -> oinv k s st -> o_ptr st = s ->
  let '(l, x, st') := vec_offsets len np cd nb st in
  length l = len /\
  (forall n y, nth_error l n = Some y -> good (k + n) (o_ptr st' + y)) /\
  exists s', oinv (k + len) s' st' /\ s' = o_ptr st' + x.
Proof.
  intros Hl HI Hp. pose proof HI as [E1 [E2 [E3 E4]]]. unfold vec_offsets. rewrite E1, E3.
  destruct (Nat.leb_spec (ps (S s)) (k + len)) as [L|L].
  - pose proof (credit_step E4) as C. cbv zeta in C.
    assert (HF : exists s1, oinv (S k) s1 (first_lane np cd nb st) /\ o_ptr (first_lane np cd nb st) = s1 /\ good k s1).
    { unfold first_lane. rewrite (new_shell_inv HI).
      destruct ((ps (S s) <=? k) && (S s <? nb)); destruct C as [G1 G2].
      - exists (S s). unfold oinv; cbn [o_iprim o_icd o_nprim o_ptr]. rewrite E1, E2, E3, Hp. cbn [psum]. auto 6.
      - exists s. unfold oinv; cbn [o_iprim o_icd o_nprim o_ptr]. rewrite E1, E2, E3, Hp. auto 6. }
    destruct HF as [s1 [F1 [F2 F3]]].
    pose proof (@next_lanes_ok (len - 1) 0 0 (S k) s1 _ F1 ltac:(lia)) as N.
    destruct (next_lanes np cd nb (len - 1) 0 0 (first_lane np cd nb st)) as [[l x] st'].
    destruct N as [A1 [A2 [A3 [s' [A4 A5]]]]]. rewrite A2, F2 in *.
    split; [simpl; lia|]. split.
    + intros [|n] y Hy; cbn [nth_error] in Hy.
      * injection Hy as <-. rewrite !Nat.add_0_r. exact F3.
      * replace (k + S n) with (S k + n) by lia. apply A3, Hy.
    + exists s'. replace (k + len) with (S k + (len - 1)) by lia. split; [exact A4|lia].
  - split; [apply repeat_length|]. cbn [o_ptr].
    destruct E4 as [Hs H].
    assert (Hk : ps s <= k) by (destruct H as [[-> ->]|[H1 [H2 H3]]]; simpl; lia).
    split.
    + intros n y Hy. assert (n < len) by (pose proof (@nth_error_Some _ (repeat 0 len) n) as X; rewrite Hy, repeat_length in X; apply X; discriminate).
      apply nth_error_In, repeat_spec in Hy. subst y. rewrite Nat.add_0_r, Hp. split; [exact Hs|].
      intros _. unfold belongs. lia.
    + exists s. split; [|lia]. unfold oinv; cbn [o_iprim o_icd o_nprim]. rewrite E2.
      split; [reflexivity|]. split; [reflexivity|]. split; [reflexivity|].
      split; [exact Hs|]. right. lia.
Qed.

Lemma vec_state_ok len : 0 < len -> forall v, exists s, oinv (v * len) s (vec_state len np cd nb v) /\ o_ptr (vec_state len np cd nb v) = s.
Proof.
  intros Hl. induction v as [|v [s [IH IP]]].
  - exists 0. split; [|reflexivity]. unfold oinv, ostart; cbn. split; [reflexivity|]. split; [reflexivity|].
    rewrite Nat.add_0_r. split; [reflexivity|]. split; [exact Hnb|]. left; auto.
  - cbn [vec_state]. unfold vec_next. pose proof (vec_ok Hl IH IP) as V.
    destruct (vec_offsets len np cd nb (vec_state len np cd nb v)) as [[l x] st']. destruct V as [_ [_ [s' [V1 V2]]]].
    exists s'. destruct V1 as [A1 [A2 [A3 A4]]]. cbn [o_ptr]. split; [|lia].
    unfold oinv; cbn [o_iprim o_icd o_nprim]. rewrite A1. replace (S v * len) with (v * len + len) in * by lia. auto.
Qed.

Theorem lane_slot_ok len v n : 0 < len -> n < len ->
  exists s, lane_slot len np cd nb v n = Some s /\ s < nb /\ (v * len + n < ps nb -> belongs np cd (v * len + n) s).
Proof.
  intros Hl Hn. destruct (vec_state_ok Hl v) as [s [H1 H2]]. unfold lane_slot.
  pose proof (vec_ok Hl H1 H2) as V.
  destruct (vec_offsets len np cd nb (vec_state len np cd nb v)) as [[l x] st']. destruct V as [L [G _]].
  destruct (nth_error l n) as [y|] eqn:E; [|apply nth_error_None in E; lia].
  eexists; split; [reflexivity|]. apply G, E.
Qed.
End Ok.

(** An empty shell pair in the middle of a batch: primitive number 1 belongs to shell pair 2 and
    is credited to shell pair 1. *)
Definition ex_np (t : nat) : nat := nth t [1; 0; 1] 0.
Lemma empty_pair_wrong : lane_slot 1 ex_np 0 3 1 0 = Some 1 /\ belongs ex_np 0 1 2.
Proof. split; [reflexivity|]. cbv. lia. Qed.
