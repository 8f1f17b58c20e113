(** The loops around the reference of the tests: skel/test/Common.cpp (IterateGaussian) and skel/test/ValeevRef.cpp
    (ValeevRef_Deriv0, ValeevRef_Deriv1): the order in which the components are visited and where the results go.
    What is computed for a component is an argument here; it is in RefBuffer.v. *)
From Coq Require Import List Arith ZArith Lia Bool.
Import ListNotations.
From Verif Require Import Base Cart.
Set Implicit Arguments.
Local Open Scope nat_scope.

(** [ValidGaussian], Common.cpp:14-17. *)
Definition t_valid (g : pyg) : bool := let '(x, y, z) := g in ((0 <=? x) && (0 <=? y) && (0 <=? z))%Z.
(** [IterateGaussian], Common.cpp:20-33: the changed argument and the returned value. *)
Definition t_iterate (g : pyg) : pyg * bool :=
  let '(x, y, z) := g in
  let am := (x + y + z)%Z in
  if (z =? am)%Z then (g, false)
  else let g' := if (z <? am - x)%Z then (x, y - 1, z + 1)%Z else (x - 1, am - x + 1, 0)%Z in (g', t_valid g').
(** The components visited by [do ... while(IterateGaussian(g))]; [None]: more than [n] of them. *)
Fixpoint t_loop (n : nat) (g : pyg) : option (list pyg) :=
  match n with
  | 0 => None
  | S n => if snd (t_iterate g) then match t_loop n (fst (t_iterate g)) with Some l => Some (g :: l) | None => None end else Some [g]
  end.
Definition ofZ (g : pyg) : gauss := let '(x, y, z) := g in G (Z.to_nat x) (Z.to_nat y) (Z.to_nat z).
(** All the components of one shell from [{am, 0, 0}] on (ValeevRef.cpp:466, 469, 472, 475). *)
Definition t_comps (am : nat) : option (list gauss) := option_map (map ofZ) (t_loop (ncart am) (Z.of_nat am, 0, 0)%Z).

Section Fill.
Variable T : Type.
(** A store to element [i] of a buffer, [None] when there is no such element. *)
Fixpoint store (buf : list T) (i : nat) (v : T) : option (list T) :=
  match buf, i with
  | [], _ => None
  | _ :: r, 0 => Some (v :: r)
  | x :: r, S i => option_map (cons x) (store r i v)
  end.
(** Stores with a growing index. *)
Fixpoint stores (buf : list T) (i : nat) (vs : list T) : option (list T) :=
  match vs with [] => Some buf | v :: r => match store buf i v with Some b => stores b (S i) r | None => None end end.

Variables (nA nB nC nD : nat) (c : qam) (vals : nat -> nat -> nat -> nat -> qrt -> list T).
(** [n234], ValeevRef.cpp:450, 519 (the factor [NCART(am1)] included, [12] not). *)
Definition n234 : nat := nB * nC * nD * qncart c.
(** The four nested loops over the components, ValeevRef.cpp:466-500, 535-653. *)
Definition comp_loop (i j k l : nat) (l1 l2 l3 l4 : list gauss) : list T :=
  flat_map (fun g1 => flat_map (fun g2 => flat_map (fun g3 => flat_map (fun g4 => vals i j k l (Q4 g1 g2 g3 g4)) l4) l3) l2) l1.
(** The loops over the second, third and fourth shells, ValeevRef.cpp:457-459, 526-528. *)
Definition shell_loop (i : nat) (l1 l2 l3 l4 : list gauss) : list T :=
  flat_map (fun j => flat_map (fun k => flat_map (fun l => comp_loop i j k l l1 l2 l3 l4) (seq 0 nD)) (seq 0 nC)) (seq 0 nB).
(** The loop over the first shells, ValeevRef.cpp:452-502, 521-655: everything of one first shell goes to consecutive
    elements from [idxstart = i * n234] on. *)
Fixpoint first_loop (is : list nat) (l1 l2 l3 l4 : list gauss) (buf : list T) : option (list T) :=
  match is with
  | [] => Some buf
  | i :: r => match stores buf (i * n234) (shell_loop i l1 l2 l3 l4) with Some b => first_loop r l1 l2 l3 l4 b | None => None end
  end.
Definition ref_fill (buf : list T) : option (list T) :=
  match t_comps (am0 c), t_comps (am1 c), t_comps (am2 c), t_comps (am3 c) with
  | Some l1, Some l2, Some l3, Some l4 => first_loop (seq 0 nA) l1 l2 l3 l4 buf
  | _, _, _, _ => None
  end.
End Fill.

(** ** The components *)
Lemma ofZ_toZ g : ofZ (toZ g) = g.
Proof. destruct g as [x y z]. cbn. rewrite !Nat2Z.id. reflexivity. Qed.
Lemma t_row am t z : t <= am -> z < t -> t_iterate (el am t z) = (el am t (S z), true).
Proof.
  intros Ht Hz. unfold t_iterate, el, toZ; cbn [gx gy gz].
  destruct (Z.eqb_spec (Z.of_nat z) (Z.of_nat (am - t) + Z.of_nat (t - z) + Z.of_nat z)); [lia|].
  destruct (Z.ltb_spec (Z.of_nat z) (Z.of_nat (am - t) + Z.of_nat (t - z) + Z.of_nat z - Z.of_nat (am - t))); [|lia].
  assert (E : (Z.of_nat (am - t), (Z.of_nat (t - z) - 1)%Z, (Z.of_nat z + 1)%Z) = (Z.of_nat (am - t), Z.of_nat (t - S z), Z.of_nat (S z))) by (repeat (f_equal; try lia)).
  rewrite E. apply (f_equal (pair _)). unfold t_valid. rewrite !andb_true_iff, !Z.leb_le. lia.
Qed.
Lemma t_next am t : t < am -> t_iterate (el am t t) = (el am (S t) 0, true).
Proof.
  intros Ht. unfold t_iterate, el, toZ; cbn [gx gy gz].
  destruct (Z.eqb_spec (Z.of_nat t) (Z.of_nat (am - t) + Z.of_nat (t - t) + Z.of_nat t)); [lia|].
  destruct (Z.ltb_spec (Z.of_nat t) (Z.of_nat (am - t) + Z.of_nat (t - t) + Z.of_nat t - Z.of_nat (am - t))); [lia|].
  assert (E : ((Z.of_nat (am - t) - 1)%Z, (Z.of_nat (am - t) + Z.of_nat (t - t) + Z.of_nat t - Z.of_nat (am - t) + 1)%Z, 0%Z) = (Z.of_nat (am - S t), Z.of_nat (S t - 0), Z.of_nat 0)) by (repeat (f_equal; try lia)).
  rewrite E. apply (f_equal (pair _)). unfold t_valid. rewrite !andb_true_iff, !Z.leb_le. lia.
Qed.
Lemma t_end am : snd (t_iterate (el am am am)) = false.
Proof.
  unfold t_iterate, el, toZ; cbn [gx gy gz]. destruct (Z.eqb_spec (Z.of_nat am) (Z.of_nat (am - am) + Z.of_nat (am - am) + Z.of_nat am)); [reflexivity|lia].
Qed.
Lemma t_loop_row am t n : forall z fuel, t < am -> z + n = t ->
  t_loop (S n + fuel) (el am t z) = match t_loop fuel (el am (S t) 0) with Some l => Some (map (el am t) (seq z (S n)) ++ l) | None => None end.
Proof.
  induction n as [|n IH]; intros z fuel Ht Hz.
  - assert (z = t) by lia; subst z. cbn [Nat.add t_loop]. rewrite t_next by exact Ht. cbn [fst snd]. destruct (t_loop fuel _); reflexivity.
  - change (S (S n) + fuel) with (S (S n + fuel)). cbn [t_loop]. rewrite t_row by lia. cbn [fst snd]. rewrite IH by lia. destruct (t_loop fuel _); reflexivity.
Qed.
Lemma t_loop_last am n : forall z fuel, z + n = am -> t_loop (S n + fuel) (el am am z) = Some (map (el am am) (seq z (S n))).
Proof.
  induction n as [|n IH]; intros z fuel Hz.
  - assert (z = am) by lia; subst z. cbn [Nat.add t_loop]. rewrite t_end. reflexivity.
  - change (S (S n) + fuel) with (S (S n + fuel)). cbn [t_loop]. rewrite t_row by lia. cbn [fst snd]. rewrite IH by lia. reflexivity.
Qed.
Lemma t_loop_rows am m : forall t fuel, t + m = am -> tri (S am) - tri t <= fuel ->
  t_loop fuel (el am t 0) = Some (map toZ (flat_map (row am) (seq t (S m)))).
Proof.
  induction m as [|m IH]; intros t fuel Ht Hf; assert (tri (S t) = S t + tri t) by reflexivity.
  - assert (t = am) by lia; subst t. replace fuel with (S am + (fuel - S am)) by lia. rewrite t_loop_last by lia.
    cbn [seq flat_map]. rewrite app_nil_r, map_toZ_row. reflexivity.
  - pose proof (@tri_mono (S t) (S am) ltac:(lia)). replace fuel with (S t + (fuel - S t)) by lia. rewrite t_loop_row by lia. rewrite IH by lia.
    change (seq t (S (S m))) with (t :: seq (S t) (S m)).
    change (flat_map (row am) (t :: seq (S t) (S m))) with (row am t ++ flat_map (row am) (seq (S t) (S m))).
    rewrite map_app, map_toZ_row. reflexivity.
Qed.
Lemma t_comps_ok am : t_comps am = Some (olist psi4 am).
Proof.
  unfold t_comps. replace ((Z.of_nat am, 0, 0)%Z : pyg) with (el am 0 0) by (unfold el, toZ; cbn [gx gy gz]; rewrite Nat.sub_0_r; reflexivity).
  rewrite (@t_loop_rows am am 0) by (rewrite ?ncart_tri; lia). cbn [option_map]. rewrite map_map.
  rewrite (map_ext _ (fun g => g)) by (intros; apply ofZ_toZ). rewrite map_id. reflexivity.
Qed.

(** ** The stores *)
Section Stores.
Variable T : Type.
Lemma store_ok : forall (buf : list T) i v, i < length buf -> exists b, store buf i v = Some b /\ length b = length buf /\
  nth_error b i = Some v /\ forall k, k <> i -> nth_error b k = nth_error buf k.
Proof.
  induction buf as [|x r IH]; intros i v Hi; [cbn in Hi; lia|]. destruct i as [|i].
  - exists (v :: r). repeat split; try reflexivity. intros [|k] Hk; [lia|reflexivity].
  - destruct (IH i v) as (b & E & L & N & O); [cbn in Hi; lia|]. exists (x :: b). cbn [store]. rewrite E. repeat split.
    + cbn. rewrite L. reflexivity.
    + exact N.
    + intros [|k] Hk; [reflexivity|]. cbn. apply O. lia.
Qed.
Lemma stores_ok : forall (vs buf : list T) i, i + length vs <= length buf -> exists b, stores buf i vs = Some b /\ length b = length buf /\
  (forall k, k < length vs -> nth_error b (i + k) = nth_error vs k) /\ forall k, k < i \/ i + length vs <= k -> nth_error b k = nth_error buf k.
Proof.
  induction vs as [|v r IH]; intros buf i Hi; cbn [length] in *.
  - exists buf. repeat split; try reflexivity. intros k Hk. lia.
  - destruct (@store_ok buf i v) as (b & E & L & N & O); [lia|]. destruct (IH b (S i)) as (b' & E' & L' & N' & O'); [lia|].
    exists b'. cbn [stores]. rewrite E. repeat split.
    + exact E'.
    + lia.
    + intros [|k] Hk; [rewrite Nat.add_0_r, O' by lia; exact N|]. replace (i + S k) with (S i + k) by lia. rewrite N' by lia. reflexivity.
    + intros k Hk. rewrite O' by lia. apply O. lia.
Qed.

Variables (nA nB nC nD : nat) (c : qam) (blk : nat) (vals : nat -> nat -> nat -> nat -> qrt -> list T).
Hypothesis Hblk : forall i j k l q, length (vals i j k l q) = blk.
Let L1 := olist psi4 (am0 c). Let L2 := olist psi4 (am1 c). Let L3 := olist psi4 (am2 c). Let L4 := olist psi4 (am3 c).
Lemma len4 i j k l g1 g2 g3 : length (flat_map (fun g4 => vals i j k l (Q4 g1 g2 g3 g4)) L4) = ncart (am3 c) * blk.
Proof. rewrite (@length_flat_map_const _ _ _ L4 blk) by (intros; apply Hblk). unfold L4. rewrite (o_len psi4). reflexivity. Qed.
Lemma len3 i j k l g1 g2 : length (flat_map (fun g3 => flat_map (fun g4 => vals i j k l (Q4 g1 g2 g3 g4)) L4) L3) = ncart (am2 c) * (ncart (am3 c) * blk).
Proof. rewrite (@length_flat_map_const _ _ _ L3 (ncart (am3 c) * blk)) by (intros; apply len4). unfold L3. rewrite (o_len psi4). reflexivity. Qed.
Lemma len2 i j k l g1 : length (flat_map (fun g2 => flat_map (fun g3 => flat_map (fun g4 => vals i j k l (Q4 g1 g2 g3 g4)) L4) L3) L2) = ncart (am1 c) * (ncart (am2 c) * (ncart (am3 c) * blk)).
Proof. rewrite (@length_flat_map_const _ _ _ L2 (ncart (am2 c) * (ncart (am3 c) * blk))) by (intros; apply len3). unfold L2. rewrite (o_len psi4). reflexivity. Qed.
Lemma len1 i j k l : length (comp_loop vals i j k l L1 L2 L3 L4) = qncart c * blk.
Proof.
  unfold comp_loop. rewrite (@length_flat_map_const _ _ _ L1 (ncart (am1 c) * (ncart (am2 c) * (ncart (am3 c) * blk)))) by (intros; apply len2). unfold L1. rewrite (o_len psi4).
  unfold qncart. ring.
Qed.
Lemma at_pos g : nth_error (olist psi4 (gam g)) (opos psi4 g) = Some g.
Proof. apply (o_nth psi4). Qed.
Lemma comp_at i j k l q x : qclass q = c -> x < blk -> nth_error (comp_loop vals i j k l L1 L2 L3 L4) (qindex psi4 q * blk + x) = nth_error (vals i j k l q) x.
Proof.
  intros Hq Hx. destruct q as [g1 g2 g3 g4]. unfold qclass in Hq. cbn [qa qb qc qd] in Hq. rewrite qindex_row_major. cbn [qa qb qc qd].
  pose proof (opos_lt psi4 g1) as P1. pose proof (opos_lt psi4 g2) as P2. pose proof (opos_lt psi4 g3) as P3. pose proof (opos_lt psi4 g4) as P4.
  assert (A1 : am0 c = gam g1) by (rewrite <- Hq; reflexivity). assert (A2 : am1 c = gam g2) by (rewrite <- Hq; reflexivity).
  assert (A3 : am2 c = gam g3) by (rewrite <- Hq; reflexivity). assert (A4 : am3 c = gam g4) by (rewrite <- Hq; reflexivity).
  set (p1 := opos psi4 g1) in *. set (p2 := opos psi4 g2) in *. set (p3 := opos psi4 g3) in *. set (p4 := opos psi4 g4) in *.
  unfold comp_loop.
  set (n2 := ncart (gam g2)) in *. set (n3 := ncart (gam g3)) in *. set (n4 := ncart (gam g4)) in *.
  replace ((((p1 * n2 + p2) * n3 + p3) * n4 + p4) * blk + x) with (p1 * (n2 * (n3 * (n4 * blk))) + (p2 * (n3 * (n4 * blk)) + (p3 * (n4 * blk) + (p4 * blk + x)))) by ring.
  assert (B4 : p4 * blk + x < n4 * blk) by nia. assert (B3 : p3 * (n4 * blk) + (p4 * blk + x) < n3 * (n4 * blk)) by nia.
  assert (B2 : p2 * (n3 * (n4 * blk)) + (p3 * (n4 * blk) + (p4 * blk + x)) < n2 * (n3 * (n4 * blk))) by nia.
  rewrite (nth_error_flat_map_const _ _ (k := n2 * (n3 * (n4 * blk)))) with (a := g1); [|intros; rewrite len2, A2, A3, A4; reflexivity|exact B2|unfold L1; rewrite A1; apply at_pos].
  rewrite (nth_error_flat_map_const _ _ (k := n3 * (n4 * blk))) with (a := g2); [|intros; rewrite len3, A3, A4; reflexivity|exact B3|unfold L2; rewrite A2; apply at_pos].
  rewrite (nth_error_flat_map_const _ _ (k := n4 * blk)) with (a := g3); [|intros; rewrite len4, A4; reflexivity|exact B4|unfold L3; rewrite A3; apply at_pos].
  rewrite (nth_error_flat_map_const _ _ (k := blk)) with (a := g4); [reflexivity|intros; apply Hblk|exact Hx|unfold L4; rewrite A4; apply at_pos].
Qed.
Lemma shell_len i : length (shell_loop nB nC nD vals i L1 L2 L3 L4) = n234 nB nC nD c * blk.
Proof.
  unfold shell_loop. rewrite (@length_flat_map_const _ _ _ (seq 0 nB) (nC * (nD * (qncart c * blk)))).
  - rewrite seq_length. unfold n234. ring.
  - intros j _. rewrite (@length_flat_map_const _ _ _ (seq 0 nC) (nD * (qncart c * blk))); [rewrite seq_length; reflexivity|].
    intros k _. rewrite (@length_flat_map_const _ _ _ (seq 0 nD) (qncart c * blk)); [rewrite seq_length; reflexivity|]. intros l _. apply len1.
Qed.
Lemma shell_at i j k l q x : j < nB -> k < nC -> l < nD -> qclass q = c -> x < blk ->
  nth_error (shell_loop nB nC nD vals i L1 L2 L3 L4) ((((j * nC + k) * nD + l) * qncart c + qindex psi4 q) * blk + x) = nth_error (vals i j k l q) x.
Proof.
  intros Hj Hk Hl Hq Hx. unfold shell_loop. pose proof (qindex_lt psi4 q) as Q. rewrite Hq in Q. set (n := qncart c) in *. set (p := qindex psi4 q) in *.
  replace ((((j * nC + k) * nD + l) * n + p) * blk + x) with (j * (nC * (nD * (n * blk))) + (k * (nD * (n * blk)) + (l * (n * blk) + (p * blk + x)))) by ring.
  assert (B4 : p * blk + x < n * blk) by nia. assert (B3 : l * (n * blk) + (p * blk + x) < nD * (n * blk)) by nia.
  assert (B2 : k * (nD * (n * blk)) + (l * (n * blk) + (p * blk + x)) < nC * (nD * (n * blk))) by nia.
  rewrite (nth_error_flat_map_const _ _ (k := nC * (nD * (n * blk)))) with (a := j); [| |exact B2|rewrite nth_error_seq by lia; reflexivity].
  2:{ intros j' _. rewrite (@length_flat_map_const _ _ _ (seq 0 nC) (nD * (n * blk))); [rewrite seq_length; reflexivity|].
    intros k' _. rewrite (@length_flat_map_const _ _ _ (seq 0 nD) (n * blk)); [rewrite seq_length; reflexivity|]. intros l' _. apply len1. }
  rewrite (nth_error_flat_map_const _ _ (k := nD * (n * blk))) with (a := k); [| |exact B3|rewrite nth_error_seq by lia; reflexivity].
  2:{ intros k' _. rewrite (@length_flat_map_const _ _ _ (seq 0 nD) (n * blk)); [rewrite seq_length; reflexivity|]. intros l' _. apply len1. }
  rewrite (nth_error_flat_map_const _ _ (k := n * blk)) with (a := l); [|intros; apply len1|exact B4|rewrite nth_error_seq by lia; reflexivity].
  unfold p. apply comp_at; assumption.
Qed.
(** Everything of the first shells [s .. s+m-1] when the blocks of the first shells do not overlap. *)
Lemma first_ok m : blk = 1 \/ nA <= 1 -> forall s buf, s + m <= nA -> nA * n234 nB nC nD c * blk <= length buf -> exists b,
  first_loop nB nC nD c vals (seq s m) L1 L2 L3 L4 buf = Some b /\ length b = length buf /\
  (forall i y, s <= i < s + m -> y < n234 nB nC nD c * blk -> nth_error b (i * n234 nB nC nD c * blk + y) = nth_error (shell_loop nB nC nD vals i L1 L2 L3 L4) y) /\
  (forall y, y < s * n234 nB nC nD c * blk \/ (s + m) * n234 nB nC nD c * blk <= y -> nth_error b y = nth_error buf y).
Proof.
  intros Hb. induction m as [|m IH]; intros s buf Hs Hl.
  - exists buf. cbn. repeat split; try reflexivity. intros i y Hi. lia.
  - cbn [seq first_loop]. set (N := n234 nB nC nD c) in *.
    assert (ST : s * N = s * N * blk) by (destruct Hb as [-> |Hb]; [lia|assert (s = 0) by lia; subst s; reflexivity]).
    destruct (@stores_ok (shell_loop nB nC nD vals s L1 L2 L3 L4) buf (s * N)) as (b & E & L & V & O).
    { rewrite shell_len. fold N. rewrite ST. assert (s * N * blk + N * blk = (S s) * N * blk) by ring. assert ((S s) * N * blk <= nA * N * blk) by (apply Nat.mul_le_mono_r, Nat.mul_le_mono_r; lia). lia. }
    rewrite E. rewrite shell_len in V, O. fold N in V, O. rewrite ST in V, O.
    destruct (IH (S s) b) as (b' & E' & L' & V' & O'); [lia|lia|]. exists b'. split; [exact E'|]. split; [lia|]. split.
    + intros i y Hi Hy. destruct (Nat.eq_dec i s) as [->|Ni]; [|apply V'; [lia|exact Hy]]. rewrite O'; [apply V; exact Hy|]. left. cbn [Nat.mul]. fold (s * N). rewrite Nat.mul_add_distr_r. lia.
    + intros y Hy. assert (E1 : S s * N * blk = s * N * blk + N * blk) by ring. assert (E2 : S s * N * blk <= (s + S m) * N * blk) by (apply Nat.mul_le_mono_r, Nat.mul_le_mono_r; lia).
      rewrite O'; [apply O; lia|]. replace (S s + m) with (s + S m) by lia. lia.
Qed.
Theorem fill_ok : blk = 1 \/ nA <= 1 -> forall buf, nA * nB * nC * nD * qncart c * blk <= length buf -> exists b,
  ref_fill nA nB nC nD c vals buf = Some b /\ length b = length buf /\
  (forall i j k l q x, i < nA -> j < nB -> k < nC -> l < nD -> qclass q = c -> x < blk ->
    nth_error b (((((i * nB + j) * nC + k) * nD + l) * qncart c + qindex psi4 q) * blk + x) = nth_error (vals i j k l q) x) /\
  (forall y, nA * nB * nC * nD * qncart c * blk <= y -> nth_error b y = nth_error buf y).
Proof.
  intros Hb buf Hl. unfold ref_fill. rewrite !t_comps_ok. fold L1 L2 L3 L4.
  assert (EN : nA * n234 nB nC nD c * blk = nA * nB * nC * nD * qncart c * blk) by (unfold n234; ring).
  destruct (@first_ok nA Hb 0 buf) as (b & E & L & V & O); [lia|lia|]. exists b. split; [exact E|]. split; [exact L|]. split.
  - intros i j k l q x Hi Hj Hk Hl' Hq Hx. rewrite <- (@shell_at i j k l q x) by assumption.
    pose proof (qindex_lt psi4 q) as Q. rewrite Hq in Q.
    rewrite <- V; [f_equal; unfold n234; ring|lia|]. unfold n234. set (n := qncart c) in *. set (p := qindex psi4 q) in *.
    assert (M : forall a b u v, a < b -> u < v -> a * v + u < b * v) by (intros; nia).
    apply M; [|exact Hx]. apply M; [|exact Q]. apply M; [|exact Hl']. apply M; assumption.
  - intros y Hy. apply O. right. cbn [Nat.add]. lia.
Qed.
End Stores.

(** With twelve values per component and two first shells the block of the second one begins inside that of the first. *)
Lemma fill_overlap : forall (T : Type) (vals : nat -> nat -> nat -> nat -> qrt -> list T) (buf : list T),
  (forall i j k l q, length (vals i j k l q) = 12) -> 24 <= length buf ->
  exists b, ref_fill 2 1 1 1 (QAM 0 0 0 0) vals buf = Some b /\
    nth_error b 1 = nth_error (vals 1 0 0 0 (Q4 (G 0 0 0) (G 0 0 0) (G 0 0 0) (G 0 0 0))) 0.
Proof.
  intros T vals buf Hv Hb. set (q := Q4 (G 0 0 0) (G 0 0 0) (G 0 0 0) (G 0 0 0)).
  unfold ref_fill. rewrite !t_comps_ok. cbn [am0 am1 am2 am3]. change (olist psi4 0) with [G 0 0 0].
  cbn [seq first_loop]. unfold shell_loop, comp_loop. cbn [seq flat_map]. rewrite !app_nil_r. fold q.
  change (n234 1 1 1 (QAM 0 0 0 0)) with 1.
  destruct (@stores_ok T (vals 0 0 0 0 q) buf (0 * 1)) as (b & E & L & _ & _); [rewrite Hv; lia|]. rewrite E.
  destruct (@stores_ok T (vals 1 0 0 0 q) b (1 * 1)) as (b' & E' & _ & V & _); [rewrite Hv; lia|]. rewrite E'.
  exists b'. split; [reflexivity|]. rewrite <- (V 0); [reflexivity|rewrite Hv; lia].
Qed.
