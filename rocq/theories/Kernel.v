(** The loop nest of a generated kernel.
    Source: generator/ostei/OSTEI_Writer.cpp:67-99 (WriteAccumulation), 321-754 (Write_Full_),
    generator/ostei/OSTEI_HRR_Writer.cpp:119-147 (loop around the HRR),
    skel/simint/vectorization/intrinsics_*.h (mask_load, vector_max).

    Simplifications.  The numerical work of one vector (lines 595-706: loads, Boys function, VRR)
    is the parameter [val]: component [c] of lane [j] for bra primitive [i] and ket prefactor
    [pf]; that it is 0 for a zero prefactor is a hypothesis ([vrr_zero] in KernelSpec
    proves it for the VRR part).  The code accumulates one array per top class with one pointer each, all moved alike;
    the model has one array with [nc] components.  The HRR of one shell quartet is the parameter
    [hrr].  Screen values are rational numbers. *)
From Coq Require Import List Arith Lia Bool Ring QArith Qminmax.
Import ListNotations.
From Verif Require Import Base Simd Contract Offsets Starts.
Set Implicit Arguments.
Local Open Scope nat_scope.

(** [a < b] on screen values. *)
Definition qltb (a b : Q) : bool := negb (Qle_bool b a).
(** [vector_max] of the lanes: starts from 0 in the SSE file, else from lane 0. *)
Definition vector_max (zero_first : bool) (len : nat) (f : nat -> Q) : Q :=
  if zero_first then fold_left Qmax (map f (seq 0 len)) 0%Q
  else fold_left Qmax (map f (seq 1 (len - 1))) (f 0).

(** [k] doubles into an array. *)
Definition at_ptr A (k : nat) (f : list A -> option (list A)) (dest : list A) : option (list A) :=
  if k <=? length dest then
    match f (skipn k dest) with Some d => Some (firstn k dest ++ d) | None => None end
  else None.

(** The part of a [simint_multi_shellpair] the loops read: [nprim12], [nshell12_clip], [screen],
    [screen_max]. *)
Record batch := Batch { b_np : nat -> nat; b_clip : nat; b_scr : nat -> Q; b_scrmax : Q }.

Section Kernel.
Context {R : cring}.
Add Ring Rring_kernel : (cth R).
Local Open Scope r_scope.
Local Open Scope nat_scope.
(** Vector length, [SIMINT_NSHELL_SIMD], components, bra, ket, [Q.prefac], one-vector work. *)
Variables (len nss nc : nat) (P K : batch) (qpf : nat -> R) (val : nat -> nat -> R -> nat -> R).
(** Tolerance and kind of [vector_max]. *)
Variables (tol : Q) (zf : bool).
(** The [contract_all] in use. *)
Variable call : (nat -> nat -> R) -> list R -> option (list R).

Local Notation start := (start len nss).

(** Line 413. *)
Definition check_screen : bool := qltb 0 tol.
(** Line 507. *)
Definition bra_skip (i : nat) : bool := check_screen && qltb (b_scr P i * b_scrmax K)%Q tol.
(** Lines 575-577. *)
Definition vec_skip (i j : nat) : bool :=
  check_screen && qltb (vector_max zf len (fun n => (b_scr P i * b_scr K (j + n))%Q)) tol.
(** Line 33 ([nlane]) and line 688 ([mask_load]). *)
Definition nlane (j jend : nat) : nat := if j + len <? jend then len else jend - j.
Definition vec_val (i j jend c n : nat) : R :=
  val i (j + n) (if n <? nlane j jend then qpf (j + n) else c0) c.

(** WriteAccumulation; [base]: slot the pointers were set to ([abcd]). *)
Definition vec_acc (base : nat) (l : list nat) (x : nat) (s : ostate) (src : nat -> nat -> R) (dest : list R) : option (list R) :=
  if x =? 0 then at_ptr ((base + o_ptr s) * nc) (call src) dest
  else at_ptr ((base + o_ptr s) * nc) (contract len nc (fun n => nth n l 0) src) dest.

(** Lines 564-712: [m] more vectors, [v] done. *)
Fixpoint jloop (i cd nb jstart jend base m v : nat) (st : ostate) (dest : list R) : option (list R) :=
  match m with
  | 0 => Some dest
  | S m' =>
    let '(l, x, s) := vec_offsets len (b_np K) cd nb st in
    let j := jstart + v * len in
    let st' := OS (o_iprim s) (o_nprim s) (o_icd s) (o_ptr s + x) in
    if vec_skip i j then jloop i cd nb jstart jend base m' (S v) st' dest
    else match vec_acc base l x s (vec_val i j jend) dest with
         | Some d => jloop i cd nb jstart jend base m' (S v) st' d
         | None => None
         end
  end.
(** Trip count of [for(j = jstart; j < jend; j += len)]. *)
Definition nvec (n : nat) : nat := (n + (len - 1)) / len.

(** Lines 499-713: [m] more bra primitives from [i]. *)
Fixpoint iloop (cd nb jstart jend base m i : nat) (dest : list R) : option (list R) :=
  match m with
  | 0 => Some dest
  | S m' =>
    if bra_skip i then iloop cd nb jstart jend base m' (S i) dest
    else match jloop i cd nb jstart jend base (nvec (jend - jstart)) 0 (ostart (b_np K) cd) dest with
         | Some d => iloop cd nb jstart jend base m' (S i) d
         | None => None
         end
  end.

(** Lines 482 and 484-486. *)
Definition batch_size (cd : nat) : nat := if b_clip K <? cd + nss then b_clip K - cd else nss.
Definition batch_end (cd jstart : nat) : nat := jstart + psum (b_np K) cd (batch_size cd).
(** Trip count of [for(cd = 0; cd < clip; cd += nss)]. *)
Definition nbatch : nat := (b_clip K + (nss - 1)) / nss.

(** *** Without HRR: accumulation in the output *)
(** Lines 480-731; [b]: batches done. *)
Fixpoint cdloop (istart n : nat) (m b jstart abcd : nat) (dest : list R) : option (list R * nat) :=
  match m with
  | 0 => Some (dest, abcd)
  | S m' =>
    let cd := b * nss in
    let nb := batch_size cd in
    let jend := batch_end cd jstart in
    match iloop cd nb jstart jend abcd n istart dest with
    | Some d => cdloop istart n m' (S b) (rnd len jend) (abcd + nb) d
    | None => None
    end
  end.
(** Lines 470-736: [istart = iend]. *)
Fixpoint abloop (m ab istart abcd : nat) (dest : list R) : option (list R) :=
  match m with
  | 0 => Some dest
  | S m' =>
    match cdloop istart (b_np P ab) nbatch 0 0 abcd dest with
    | Some (d, abcd') => abloop m' (S ab) (istart + b_np P ab) abcd' d
    | None => None
    end
  end.
(** The kernel; the array passed in is at least as long as what is cleared (line 396).  The second
    component is the value returned, line 747. *)
Definition kernel (out : list R) : option (list R * nat) :=
  let n := b_clip P * b_clip K * nc in
  if n <=? length out then
    match abloop (b_clip P) 0 0 0 (repeat c0 n ++ skipn n out) with
    | Some d => Some (d, b_clip P * b_clip K)
    | None => None
    end
  else None.

(** *** With HRR: accumulation in the workspace, per batch *)
(** HRR of shell quartet [(ab, cd)] on the [nc] accumulated values: [nf] final components. *)
Variables (nf : nat) (hrr : nat -> nat -> (nat -> R) -> nat -> R).
(** Write [nf] values at position [p]. *)
Definition put (out : list R) (p : nat) (f : nat -> R) : option (list R) :=
  if p + nf <=? length out then Some (firstn p out ++ map f (seq 0 nf) ++ skipn (p + nf) out) else None.
(** OSTEI_HRR_Writer.cpp:132-147; [k]: [abcd]. *)
Fixpoint hrrloop (ab cd m k real : nat) (work out : list R) : option (list R) :=
  match m with
  | 0 => Some out
  | S m' =>
    match put out (real * nf) (hrr ab (cd + k) (fun c => nth (k * nc + c) work c0)) with
    | Some o => hrrloop ab cd m' (S k) (S real) work o
    | None => None
    end
  end.
Fixpoint cdloop_hrr (ab istart : nat) (m b jstart real : nat) (out : list R) : option (list R * nat) :=
  match m with
  | 0 => Some (out, real)
  | S m' =>
    let cd := b * nss in
    let nb := batch_size cd in
    let jend := batch_end cd jstart in
    match iloop cd nb jstart jend 0 (b_np P ab) istart (repeat c0 (nss * nc)) with
    | Some work =>
      match hrrloop ab cd nb 0 real work out with
      | Some o => cdloop_hrr ab istart m' (S b) (rnd len jend) (real + nb) o
      | None => None
      end
    | None => None
    end
  end.
Fixpoint abloop_hrr (m ab istart real : nat) (out : list R) : option (list R) :=
  match m with
  | 0 => Some out
  | S m' =>
    match cdloop_hrr ab istart nbatch 0 0 real out with
    | Some (o, real') => abloop_hrr m' (S ab) (istart + b_np P ab) real' o
    | None => None
    end
  end.
Definition kernel_hrr (out : list R) : option (list R * nat) :=
  match abloop_hrr (b_clip P) 0 0 0 out with
  | Some o => Some (o, b_clip P * b_clip K)
  | None => None
  end.

(** ** Specification *)
(** Sum over the primitives [i0 ...] of the bra pair and [j0 ...] of the ket pair of those not dropped. *)
Definition quartet_sum (drop : nat -> nat -> bool) (i0 n j0 m c : nat) : R :=
  rsum (map (fun a => rsum (map (fun b =>
    if drop (i0 + a) (j0 + b) then c0 else val (i0 + a) (j0 + b) (qpf (j0 + b)) c) (seq 0 m))) (seq 0 n)).

(** What the code drops: whole bra primitives, or whole vectors. *)
Definition dropped (i j : nat) : bool := bra_skip i || vec_skip i (j / len * len).

(** ** Proofs *)
Hypothesis Hlen : 0 < len.
Hypothesis Hnss : 0 < nss.
Hypothesis Hnc : 0 < nc.
Hypothesis Hval : forall i j c, val i j c0 c = c0.
Hypothesis Hcall : forall src dest, nc <= length dest ->
  exists out, call src dest = Some out /\ contracted len nc (fun _ => 0) src dest out.
Hypothesis Hnp : forall t, t < b_clip K -> 0 < b_np K t.

(** [out] is [dest] with [F s c] added at component [c] of slot [s]. *)
Definition added (dest out : list R) (F : nat -> nat -> R) : Prop :=
  length out = length dest /\
  forall s c x, c < nc -> nth_error dest (s * nc + c) = Some x -> nth_error out (s * nc + c) = Some (x + F s c)%r.

Lemma added_refl d F : (forall s c, c < nc -> F s c = c0) -> added d d F.
Proof. intros H. split; [reflexivity|]. intros s c x Hc E. rewrite E, H by exact Hc. f_equal. ring. Qed.
Lemma added_trans d1 d2 d3 F G : added d1 d2 F -> added d2 d3 G -> added d1 d3 (fun s c => F s c + G s c)%r.
Proof.
  intros [L1 H1] [L2 H2]. split; [congruence|]. intros s c x Hc E. rewrite (H2 s c _ Hc (H1 s c x Hc E)). f_equal. ring.
Qed.
Lemma added_ext d1 d2 F G : (forall s c, c < nc -> F s c = G s c) -> added d1 d2 F -> added d1 d2 G.
Proof. intros H [L A]. split; [exact L|]. intros s c x Hc E. rewrite <- H by exact Hc. apply A; assumption. Qed.

Lemma lanesum_ext p q (f g : nat -> nat -> R) c : (forall n, n < len -> p n = q n) -> (forall n, n < len -> f c n = g c n) ->
  lanesum len p f c = lanesum len q g c.
Proof.
  intros H1 H2. unfold lanesum. rewrite <- !rsum_filter. apply rsum_map_ext. intros n Hn. apply in_seq in Hn.
  rewrite H1, H2 by lia. reflexivity.
Qed.
Lemma lanesum_none p (f : nat -> nat -> R) c : (forall n, n < len -> p n = false) -> lanesum len p f c = c0.
Proof.
  intros H. unfold lanesum. rewrite <- rsum_filter. apply rsum_map_zero. intros n Hn. apply in_seq in Hn.
  rewrite H by lia. reflexivity.
Qed.

Lemma at_ptr_ok b f off src dest : b * nc <= length dest ->
  (exists out, f (skipn (b * nc) dest) = Some out /\ contracted len nc off src (skipn (b * nc) dest) out) ->
  exists out, at_ptr (b * nc) f dest = Some out /\
    added dest out (fun s c => lanesum len (fun n => b + off n =? s) src c).
Proof.
  intros Hb [o [E [L [H _]]]]. unfold at_ptr. rewrite (proj2 (Nat.leb_le _ _) Hb), E.
  eexists; split; [reflexivity|]. split.
  - rewrite app_length, L, firstn_length, skipn_length. lia.
  - intros s c x Hc Ex. destruct (Nat.lt_ge_cases s b) as [Hs|Hs].
    + assert (Hlt : s * nc + c < b * nc) by (pose proof (Nat.mul_le_mono_r (S s) b nc Hs); simpl in *; lia).
      rewrite nth_error_app1 by (rewrite firstn_length; lia).
      rewrite lanesum_none by (intros n _; apply Nat.eqb_neq; lia).
      replace (nth_error (firstn (b * nc) dest) (s * nc + c)) with (nth_error dest (s * nc + c)).
      * rewrite Ex. f_equal. ring.
      * rewrite <- (firstn_skipn (b * nc) dest) at 1. apply nth_error_app1. rewrite firstn_length. lia.
    + assert (Hge : b * nc <= s * nc) by (apply Nat.mul_le_mono_r; exact Hs).
      rewrite nth_error_app2 by (rewrite firstn_length; lia).
      rewrite firstn_length, Nat.min_l by exact Hb.
      replace (s * nc + c - b * nc) with ((s - b) * nc + c) by (rewrite Nat.mul_sub_distr_r; lia).
      rewrite (H (s - b) c x Hc).
      * f_equal. f_equal. apply lanesum_ext; [|reflexivity]. intros n _.
        destruct (Nat.eqb_spec (off n) (s - b)), (Nat.eqb_spec (b + off n) s); reflexivity || lia.
      * rewrite <- Ex. rewrite <- (firstn_skipn (b * nc) dest) at 2.
        rewrite nth_error_app2 by (rewrite firstn_length; lia). f_equal. rewrite firstn_length, Nat.mul_sub_distr_r. lia.
Qed.

(** Offsets within a vector are at most [lastoffset]. *)
Lemma next_lanes_bound cd nb : forall m off last st,
  let '(l, x, s) := next_lanes (b_np K) cd nb m off last st in
  last <= x /\ (forall y, In y l -> y + last <= off + x).
Proof.
  induction m as [|m IH]; intros off last st; cbn [next_lanes].
  - split; [lia|]. intros y [].
  - destruct (new_shell nb st).
    + specialize (IH (S off) (S last) (OS (S (o_iprim st)) (o_nprim st + b_np K (cd + S (o_icd st))) (S (o_icd st)) (o_ptr st))).
      destruct (next_lanes _ _ _ _ _ _ _) as [[l x] s]. destruct IH as [A B]. split; [lia|].
      intros y [<-|Hy]; [lia|]. specialize (B y Hy). lia.
    + specialize (IH off last (OS (S (o_iprim st)) (o_nprim st) (o_icd st) (o_ptr st))).
      destruct (next_lanes _ _ _ _ _ _ _) as [[l x] s]. destruct IH as [A B]. split; [lia|].
      intros y [<-|Hy]; [lia|]. specialize (B y Hy). lia.
Qed.
Lemma vec_offsets_bound cd nb st :
  let '(l, x, s) := vec_offsets len (b_np K) cd nb st in forall y, In y l -> y <= x.
Proof.
  unfold vec_offsets. destruct (o_nprim st <=? o_iprim st + len).
  - pose proof (next_lanes_bound cd nb (len - 1) 0 0 (first_lane (b_np K) cd nb st)) as H.
    destruct (next_lanes _ _ _ _ _ _ _) as [[l x] s]. destruct H as [_ B]. intros y [<-|Hy]; [lia|]. specialize (B y Hy). lia.
  - intros y Hy. apply repeat_spec in Hy. lia.
Qed.

(** Slot of lane [n] of vector [v]. *)
Definition sl (cd nb v n : nat) : nat := match lane_slot len (b_np K) cd nb v n with Some s => s | None => 0 end.

Section OneBatch.
Variables (cd nb : nat).
Hypothesis Hnb : 0 < nb.
Hypothesis Hcd : cd + nb <= b_clip K.
Let Hnp' : forall t, t < nb -> 0 < b_np K (cd + t).
Proof. intros t Ht. apply Hnp. lia. Qed.

Lemma sl_ok v n : n < len -> sl cd nb v n < nb /\
  (v * len + n < psum (b_np K) cd nb -> belongs (b_np K) cd (v * len + n) (sl cd nb v n)).
Proof. intros Hn. unfold sl. destruct (@lane_slot_ok (b_np K) cd nb Hnb Hnp' len v n Hlen Hn) as [s [-> H]]. exact H. Qed.

Lemma vec_acc_ok v base src dest : (base + nb) * nc <= length dest ->
  let '(l, x, s) := vec_offsets len (b_np K) cd nb (vec_state len (b_np K) cd nb v) in
  exists out, vec_acc base l x s src dest = Some out /\
    added dest out (fun s c => lanesum len (fun n => base + sl cd nb v n =? s) src c).
Proof.
  intros Hd. pose proof (vec_offsets_bound cd nb (vec_state len (b_np K) cd nb v)) as HB.
  assert (HS : forall n, n < len -> lane_slot len (b_np K) cd nb v n = Some (sl cd nb v n)).
  { intros n Hn. unfold sl. destruct (@lane_slot_ok (b_np K) cd nb Hnb Hnp' len v n Hlen Hn) as [s [-> _]]. reflexivity. }
  unfold lane_slot in HS.
  destruct (vec_offsets len (b_np K) cd nb (vec_state len (b_np K) cd nb v)) as [[l x] s].
  assert (HN : forall n, n < len -> In (nth n l 0) l /\ o_ptr s + nth n l 0 = sl cd nb v n).
  { intros n Hn. specialize (HS n Hn). destruct (nth_error l n) as [y|] eqn:E; [|discriminate].
    injection HS as <-. rewrite (nth_error_nth l n 0 E). split; [exact (nth_error_In _ _ E)|reflexivity]. }
  assert (Hp : o_ptr s < nb). { destruct (HN 0 Hlen) as [_ E]. pose proof (proj1 (sl_ok v Hlen)). lia. }
  assert (Hp' : (base + o_ptr s) * nc + nc <= length dest).
  { pose proof (Nat.mul_le_mono_r (S (base + o_ptr s)) (base + nb) nc ltac:(lia)). simpl in *. lia. }
  unfold vec_acc. destruct (Nat.eqb_spec x 0) as [->|_].
  - destruct (@at_ptr_ok (base + o_ptr s) (call src) (fun _ => 0) src dest) as [out [E A]]; [lia| |].
    { apply Hcall. rewrite skipn_length. lia. }
    exists out. split; [exact E|]. revert A. apply added_ext. intros t c _. apply lanesum_ext; [|reflexivity].
    intros n Hn. destruct (HN n Hn) as [I <-]. apply HB in I. f_equal. lia.
  - destruct (@at_ptr_ok (base + o_ptr s) (contract len nc (fun n => nth n l 0) src) (fun n => nth n l 0) src dest) as [out [E A]]; [lia| |].
    { apply contract_ok. intros n Hn. rewrite skipn_length. destruct (HN n Hn) as [I E].
      pose proof (proj1 (sl_ok v Hn)) as B.
      pose proof (Nat.mul_le_mono_r (S (base + o_ptr s + nth n l 0)) (base + nb) nc ltac:(lia)).
      rewrite Nat.mul_succ_l in *. rewrite (Nat.mul_add_distr_r (base + o_ptr s)) in *. lia. }
    exists out. split; [exact E|]. revert A. apply added_ext. intros t c _. apply lanesum_ext; [|reflexivity].
    intros n Hn. destruct (HN n Hn) as [_ <-]. f_equal. lia.
Qed.

(** What vector [v] adds. *)
Definition vec_add (i jstart jend base v s c : nat) : R :=
  if vec_skip i (jstart + v * len) then c0
  else lanesum len (fun n => base + sl cd nb v n =? s) (vec_val i (jstart + v * len) jend) c.

Lemma jloop_ok i jstart jend base : forall m v dest, (base + nb) * nc <= length dest ->
  exists out, jloop i cd nb jstart jend base m v (vec_state len (b_np K) cd nb v) dest = Some out /\
    added dest out (fun s c => rsum (map (fun v => vec_add i jstart jend base v s c) (seq v m))).
Proof.
  induction m as [|m IH]; intros v dest Hd; cbn [jloop seq map rsum].
  - exists dest. split; [reflexivity|]. apply added_refl. reflexivity.
  - pose proof (@vec_acc_ok v base (vec_val i (jstart + v * len) jend) dest Hd) as V.
    specialize (IH (S v)). cbn [vec_state] in IH. unfold vec_next in IH.
    destruct (vec_offsets len (b_np K) cd nb (vec_state len (b_np K) cd nb v)) as [[l x] s].
    unfold vec_add at 1. destruct (vec_skip i (jstart + v * len)) eqn:ES.
    + destruct (IH dest Hd) as [out [E A]]. exists out. split; [exact E|]. revert A. apply added_ext.
      intros t c Hc. ring.
    + destruct V as [d [E1 A1]]. rewrite E1.
      destruct (IH d) as [out [E2 A2]]; [rewrite (proj1 A1); exact Hd|].
      exists out. split; [exact E2|]. pose proof (added_trans A1 A2) as A. revert A. apply added_ext. reflexivity.
Qed.

Lemma rsum_shift (f : nat -> R) m i : rsum (map f (seq i m)) = rsum (map (fun a => f (i + a)) (seq 0 m)).
Proof.
  assert (G : forall q k, rsum (map f (seq (i + k) q)) = rsum (map (fun a => f (i + a)) (seq k q))).
  { induction q as [|q IH]; intros k; [reflexivity|]. cbn [seq map rsum].
    replace (S (i + k)) with (i + S k) by lia. rewrite IH. reflexivity. }
  rewrite <- (G m 0), Nat.add_0_r. reflexivity.
Qed.
(** Sum over vectors and lanes as a sum over primitives. *)
Lemma sum_lanes (g : nat -> R) : forall m v,
  rsum (map (fun v => rsum (map (fun n => g (v * len + n)) (seq 0 len))) (seq v m)) =
  rsum (map g (seq (v * len) (m * len))).
Proof.
  induction m as [|m IH]; intros v; cbn [seq map rsum]; [reflexivity|].
  rewrite IH. cbn [Nat.mul]. rewrite seq_app, map_app, rsum_app. f_equal.
  - assert (G : forall q k, rsum (map (fun n => g (v * len + n)) (seq k q)) = rsum (map g (seq (v * len + k) q))).
    { induction q as [|q IHq]; intros k; [reflexivity|]. cbn [seq map rsum]. rewrite IHq.
      do 2 f_equal. replace (v * len + S k) with (S (v * len + k)) by lia. reflexivity. }
    rewrite G, Nat.add_0_r. reflexivity.
  - do 3 f_equal. lia.
Qed.
Lemma sum_window (g : nat -> R) a n N : a + n <= N ->
  rsum (map (fun k => if (a <=? k) && (k <? a + n) then g k else c0) (seq 0 N)) =
  rsum (map (fun b => g (a + b)) (seq 0 n)).
Proof.
  intros H. replace N with (a + (n + (N - a - n))) by lia. rewrite !seq_app, !map_app, !rsum_app.
  rewrite (@rsum_map_zero R nat _ (seq 0 a)), (@rsum_map_zero R nat _ (seq (0 + a + n) _)).
  - replace (rsum (map (fun b => g (a + b)) (seq 0 n))) with
      (rsum (map (fun k => if (a <=? k) && (k <? a + n) then g k else c0) (seq (0 + a) n))); [ring|].
    cbn [Nat.add]. clear H. replace (seq a n) with (seq (a + 0) n) by (f_equal; lia).
    assert (G : forall q k, k + q <= n -> rsum (map (fun k => if (a <=? k) && (k <? a + n) then g k else c0) (seq (a + k) q)) =
      rsum (map (fun b => g (a + b)) (seq k q))).
    { induction q as [|q IH]; intros k Hk; [reflexivity|]. cbn [seq map rsum].
      replace (S (a + k)) with (a + S k) by lia. rewrite IH by lia.
      rewrite (proj2 (Nat.leb_le a (a + k))), (proj2 (Nat.ltb_lt (a + k) (a + n))) by lia. reflexivity. }
    apply G. lia.
  - intros k Hk. apply in_seq in Hk. replace (k <? a + n) with false by (symmetry; apply Nat.ltb_ge; lia).
    rewrite andb_false_r. reflexivity.
  - intros k Hk. apply in_seq in Hk. replace (a <=? k) with false by (symmetry; apply Nat.leb_gt; lia). reflexivity.
Qed.

(** One bra primitive, whole batch. *)
Definition pair_add (i jstart base s c : nat) : R :=
  if (base <=? s) && (s <? base + nb) then
    rsum (map (fun b => let j := jstart + psum (b_np K) cd (s - base) + b in
      if vec_skip i (j / len * len) then c0 else val i j (qpf j) c) (seq 0 (b_np K (cd + (s - base)))))
  else c0.

Lemma batch_sum i jstart base s c : Nat.divide len jstart ->
  rsum (map (fun v => vec_add i jstart (jstart + psum (b_np K) cd nb) base v s c) (seq 0 (nvec (psum (b_np K) cd nb)))) =
  pair_add i jstart base s c.
Proof.
  intros Hj. set (N := psum (b_np K) cd nb). set (jend := jstart + N).
  set (f := fun k => if vec_skip i ((jstart + k) / len * len) then c0 else val i (jstart + k) (if k <? N then qpf (jstart + k) else c0) c).
  set (slot := fun k => base + sl cd nb (k / len) (k mod len)).
  assert (HNV : N <= nvec N * len).
  { unfold nvec. pose proof (rnd_ge Hlen N) as G. unfold rnd in G. exact G. }
  assert (E1 : forall v, vec_add i jstart jend base v s c =
     rsum (map (fun n => (fun k => if slot k =? s then f k else c0) (v * len + n)) (seq 0 len))).
  { intros v. unfold vec_add, slot, f.
    assert (D : forall n, n < len -> (v * len + n) / len = v /\ (v * len + n) mod len = n).
    { intros n Hn. replace (v * len + n) with (n + v * len) by lia. rewrite Nat.div_add, Nat.mod_add, Nat.div_small, Nat.mod_small by lia. split; lia. }
    assert (DJ : forall n, n < len -> (jstart + (v * len + n)) / len * len = jstart + v * len).
    { intros n Hn. destruct Hj as [q ->]. replace (q * len + (v * len + n)) with (n + (q + v) * len) by lia.
      rewrite Nat.div_add, Nat.div_small by lia. lia. }
    destruct (vec_skip i (jstart + v * len)) eqn:ES.
    - symmetry. apply rsum_map_zero. intros n Hn. apply in_seq in Hn. rewrite DJ, ES by lia.
      destruct (_ =? s); reflexivity.
    - unfold lanesum. rewrite <- rsum_filter. apply rsum_map_ext. intros n Hn. apply in_seq in Hn.
      destruct (D n ltac:(lia)) as [-> ->]. rewrite DJ, ES by lia.
      destruct (base + sl cd nb v n =? s); [|reflexivity]. unfold vec_val.
      replace (jstart + v * len + n) with (jstart + (v * len + n)) by lia.
      replace (n <? nlane (jstart + v * len) jend) with (v * len + n <? N); [reflexivity|].
      unfold nlane, jend. destruct (Nat.ltb_spec (jstart + v * len + len) (jstart + N)).
      + destruct (Nat.ltb_spec (v * len + n) N), (Nat.ltb_spec n len); reflexivity || lia.
      + destruct (Nat.ltb_spec (v * len + n) N), (Nat.ltb_spec n (jstart + N - (jstart + v * len))); reflexivity || lia. }
  rewrite (rsum_map_ext _ _ _ (fun v _ => E1 v)), (sum_lanes (fun k => if slot k =? s then f k else c0)).
  cbn [Nat.mul].
  assert (Hslot : forall k, k < N -> base <= slot k < base + nb /\ belongs (b_np K) cd k (slot k - base)).
  { intros k Hk. unfold slot. pose proof (Nat.mod_upper_bound k len ltac:(lia)) as M.
    pose proof (Nat.div_mod k len ltac:(lia)) as D. destruct (sl_ok (k / len) M) as [B1 B2].
    replace (k / len * len + k mod len) with k in B2 by lia. specialize (B2 Hk).
    replace (base + sl cd nb (k / len) (k mod len) - base) with (sl cd nb (k / len) (k mod len)) by lia. split; [lia|exact B2]. }
  assert (Hz : forall k, N <= k -> f k = c0).
  { intros k Hk. unfold f. replace (k <? N) with false by (symmetry; apply Nat.ltb_ge; exact Hk).
    rewrite Hval. destruct (vec_skip _ _); reflexivity. }
  unfold pair_add. destruct (Nat.leb_spec base s) as [L1|L1]; [destruct (Nat.ltb_spec s (base + nb)) as [L2|L2]|]; cbn [andb].
  - set (t := s - base). pose proof (@psum_le (b_np K) cd (S t) nb ltac:(unfold t; lia)) as HP. cbn [psum] in HP. fold N in HP.
    transitivity (rsum (map (fun k => if (psum (b_np K) cd t <=? k) && (k <? psum (b_np K) cd t + b_np K (cd + t)) then f k else c0) (seq 0 (nvec N * len)))).
    + apply rsum_map_ext. intros k _. destruct (Nat.lt_ge_cases k N) as [Hk|Hk].
      * destruct (Hslot k Hk) as [B1 B2]. destruct (Nat.eqb_spec (slot k) s) as [E|E].
        -- rewrite E in B2. fold t in B2. unfold belongs in B2. cbn [psum] in B2.
           rewrite (proj2 (Nat.leb_le _ _)), (proj2 (Nat.ltb_lt _ _)) by lia. reflexivity.
        -- destruct (Nat.leb_spec (psum (b_np K) cd t) k); [|reflexivity].
           destruct (Nat.ltb_spec k (psum (b_np K) cd t + b_np K (cd + t))); [|reflexivity].
           exfalso. apply E. assert (slot k - base = t) by (apply (belongs_unique B2); unfold belongs; cbn [psum]; lia). unfold t in *; lia.
      * rewrite (Hz k Hk). destruct (slot k =? s), ((psum (b_np K) cd t <=? k) && (k <? psum (b_np K) cd t + b_np K (cd + t))); reflexivity.
    + rewrite sum_window by lia. apply rsum_map_ext. intros b Hb. apply in_seq in Hb. cbv zeta. unfold f.
      replace (psum (b_np K) cd t + b <? N) with true by (symmetry; apply Nat.ltb_lt; lia).
      rewrite Nat.add_assoc. reflexivity.
  - apply rsum_map_zero. intros k _. destruct (Nat.lt_ge_cases k N) as [Hk|Hk].
    + destruct (Hslot k Hk) as [B1 _]. destruct (Nat.eqb_spec (slot k) s); [lia|reflexivity].
    + rewrite (Hz k Hk). destruct (slot k =? s); reflexivity.
  - apply rsum_map_zero. intros k _. destruct (Nat.lt_ge_cases k N) as [Hk|Hk].
    + destruct (Hslot k Hk) as [B1 _]. destruct (Nat.eqb_spec (slot k) s); [lia|reflexivity].
    + rewrite (Hz k Hk). destruct (slot k =? s); reflexivity.
Qed.

Definition batch_add (jstart base i0 m s c : nat) : R :=
  rsum (map (fun a => if bra_skip a then c0 else pair_add a jstart base s c) (seq i0 m)).

Lemma iloop_ok jstart base : Nat.divide len jstart -> forall m i dest, (base + nb) * nc <= length dest ->
  exists out, iloop cd nb jstart (jstart + psum (b_np K) cd nb) base m i dest = Some out /\
    added dest out (batch_add jstart base i m).
Proof.
  intros Hj. unfold batch_add. induction m as [|m IH]; intros i dest Hd; cbn [iloop seq map rsum].
  - exists dest. split; [reflexivity|]. apply added_refl. reflexivity.
  - destruct (bra_skip i) eqn:EB.
    + destruct (IH (S i) dest Hd) as [out [E A]]. exists out. split; [exact E|]. revert A. apply added_ext. intros s c _. ring.
    + destruct (@jloop_ok i jstart (jstart + psum (b_np K) cd nb) base (nvec (psum (b_np K) cd nb)) 0 dest Hd) as [d [E1 A1]].
      replace (jstart + psum (b_np K) cd nb - jstart) with (psum (b_np K) cd nb) by lia.
      cbn [vec_state] in E1. rewrite E1.
      destruct (IH (S i) d) as [out [E2 A2]]; [rewrite (proj1 A1); exact Hd|].
      exists out. split; [exact E2|]. pose proof (added_trans A1 A2) as A. revert A. apply added_ext.
      intros s c _. rewrite batch_sum by exact Hj. reflexivity.
Qed.

(** In terms of [quartet_sum]. *)
Lemma batch_add_in jstart base i0 m t c : t < nb ->
  batch_add jstart base i0 m (base + t) c = quartet_sum dropped i0 m (jstart + psum (b_np K) cd t) (b_np K (cd + t)) c.
Proof.
  intros Ht. unfold batch_add, quartet_sum, dropped. rewrite rsum_shift. apply rsum_map_ext. intros k _.
  unfold pair_add. replace (base + t - base) with t by lia.
  replace ((base <=? base + t) && (base + t <? base + nb)) with true
    by (symmetry; apply andb_true_intro; split; [apply Nat.leb_le|apply Nat.ltb_lt]; lia).
  destruct (bra_skip (i0 + k)); cbn [orb]; [|reflexivity].
  symmetry. apply rsum_map_zero. reflexivity.
Qed.
Lemma batch_add_out jstart base i0 m s c : s < base \/ base + nb <= s -> batch_add jstart base i0 m s c = c0.
Proof.
  intros Hs. unfold batch_add. apply rsum_map_zero. intros a _. destruct (bra_skip a); [reflexivity|].
  unfold pair_add. replace ((base <=? s) && (s <? base + nb)) with false; [reflexivity|].
  symmetry. apply andb_false_iff. rewrite Nat.leb_gt, Nat.ltb_ge. lia.
Qed.
End OneBatch.

(** *** Batches *)
Lemma nbatch_lt b : b < nbatch -> b * nss < b_clip K.
Proof.
  unfold nbatch. intros H. pose proof (Nat.mul_div_le (b_clip K + (nss - 1)) nss ltac:(lia)) as D.
  pose proof (Nat.mul_le_mono_r (S b) _ nss H) as M. rewrite Nat.mul_succ_l in M.
  rewrite (Nat.mul_comm _ nss) in M. lia.
Qed.
Lemma nbatch_ge : b_clip K <= nbatch * nss.
Proof. pose proof (rnd_ge Hnss (b_clip K)) as H. exact H. Qed.

Lemma batch_size_spec b : b * nss < b_clip K ->
  let nb := batch_size (b * nss) in 0 < nb /\ nb <= nss /\ b * nss + nb <= b_clip K /\ b * nss + nb = Nat.min (S b * nss) (b_clip K).
Proof.
  intros H nb. unfold nb, batch_size. cbn [Nat.mul]. destruct (Nat.ltb_spec (b_clip K) (b * nss + nss)); lia.
Qed.

(** What a quartet of shell pairs should get, with the bra primitives taken from [i0]. *)
Definition want (i0 n cd c : nat) : R := quartet_sum dropped i0 n (start (b_np K) cd) (b_np K cd) c.

Lemma cdloop_ok i0 n abcd0 : forall m b jstart dest, b + m = nbatch ->
  (0 < m -> jstart = start (b_np K) (b * nss)) ->
  (abcd0 + b_clip K) * nc <= length dest ->
  let lo := Nat.min (b * nss) (b_clip K) in
  exists out F, cdloop i0 n m b jstart (abcd0 + lo) dest = Some (out, abcd0 + b_clip K) /\ added dest out F /\
    (forall cd c, lo <= cd -> cd < b_clip K -> c < nc -> F (abcd0 + cd) c = want i0 n cd c) /\
    (forall s c, s < abcd0 + lo \/ abcd0 + b_clip K <= s -> F s c = c0).
Proof.
  induction m as [|m IH]; intros b jstart dest Hb Hj Hd lo; cbn [cdloop].
  - pose proof nbatch_ge as G. replace nbatch with b in G by lia. exists dest, (fun _ _ => c0).
    replace lo with (b_clip K) by (unfold lo; lia). split; [reflexivity|]. split; [apply added_refl; reflexivity|].
    split; [intros; lia|reflexivity].
  - assert (Hlt : b * nss < b_clip K) by (apply nbatch_lt; lia).
    pose proof (@batch_size_spec b Hlt) as HS. cbv zeta in HS.
    replace lo with (b * nss) by (unfold lo; lia).
    rewrite (Hj ltac:(lia)). clear Hj jstart.
    unfold batch_end. set (nb := batch_size (b * nss)) in *. destruct HS as [S1 [S2 [S3 S4]]].
    set (j0 := start (b_np K) (b * nss)).
    destruct (@iloop_ok (b * nss) nb S1 S3 j0 (abcd0 + b * nss) (@start_divide len nss Hlen Hnss _ b) n i0 dest) as [d [E A]].
    { etransitivity; [|exact Hd]. apply Nat.mul_le_mono_r. lia. }
    rewrite E.
    destruct (IH (S b) (rnd len (j0 + psum (b_np K) (b * nss) nb)) d) as [out [F [E2 [A2 [F1 F2]]]]].
    { lia. }
    { intros Hm. pose proof (@nbatch_lt (S b) ltac:(lia)) as Hlt2. rewrite (@start_next len nss Hlen Hnss).
      replace nb with nss; [reflexivity|]. lia. }
    { rewrite (proj1 A). exact Hd. }
    replace (abcd0 + b * nss + nb) with (abcd0 + Nat.min (S b * nss) (b_clip K)) by lia.
    exists out. eexists. split; [exact E2|]. split; [exact (added_trans A A2)|]. cbv beta. split.
    + intros cd c Hcd1 Hcd2 Hc. destruct (Nat.lt_ge_cases cd (b * nss + nb)) as [Hin|Hin].
      * rewrite F2 by lia. replace (abcd0 + cd) with (abcd0 + b * nss + (cd - b * nss)) by lia.
        rewrite batch_add_in by lia. unfold want, j0. rewrite <- (@start_in len nss Hlen Hnss) by lia.
        replace (b * nss + (cd - b * nss)) with cd by lia. ring.
      * rewrite batch_add_out by lia. rewrite F1 by lia. ring.
    + intros s c Hs. rewrite batch_add_out by lia. rewrite F2 by lia. ring.
Qed.

Lemma abloop_ok : forall m ab dest, (ab + m) * b_clip K * nc <= length dest ->
  exists out F, abloop m ab (total (b_np P) ab) (ab * b_clip K) dest = Some out /\ added dest out F /\
    (forall a cd c, ab <= a < ab + m -> cd < b_clip K -> c < nc ->
       F (a * b_clip K + cd) c = want (total (b_np P) a) (b_np P a) cd c) /\
    (forall s c, s < ab * b_clip K \/ (ab + m) * b_clip K <= s -> F s c = c0).
Proof.
  induction m as [|m IH]; intros ab dest Hd; cbn [abloop].
  - exists dest, (fun _ _ => c0). split; [reflexivity|]. split; [apply added_refl; reflexivity|].
    split; [intros; lia|reflexivity].
  - assert (Hm : (ab * b_clip K + b_clip K) <= (ab + S m) * b_clip K)
      by (rewrite !Nat.mul_add_distr_r, Nat.mul_succ_l; lia).
    destruct (@cdloop_ok (total (b_np P) ab) (b_np P ab) (ab * b_clip K) nbatch 0 0 dest) as [d [F [E [A [F1 F2]]]]].
    { reflexivity. } { reflexivity. }
    { etransitivity; [|exact Hd]. apply Nat.mul_le_mono_r. exact Hm. }
    cbn [Nat.mul Nat.min] in E, F1, F2. rewrite Nat.add_0_r in E. rewrite E.
    destruct (IH (S ab) d) as [out [G [E2 [A2 [G1 G2]]]]].
    { rewrite (proj1 A). replace (S ab + m) with (ab + S m) by lia. exact Hd. }
    rewrite total_S in E2. replace (S ab * b_clip K) with (ab * b_clip K + b_clip K) in * by (simpl; lia).
    rewrite E2. exists out. eexists. split; [reflexivity|]. split; [exact (added_trans A A2)|]. cbv beta.
    replace (S ab + m) with (ab + S m) in * by lia. split.
    + intros a cd c Ha Hcd Hc. destruct (Nat.eq_dec a ab) as [->|N].
      * rewrite F1, G2 by lia. ring.
      * rewrite G1 by lia. rewrite F2; [ring|]. right.
        pose proof (Nat.mul_le_mono_r (S ab) a (b_clip K) ltac:(lia)). rewrite Nat.mul_succ_l in *. lia.
    + intros s c Hs. rewrite F2, G2 by lia. ring.
Qed.

Lemma nth_repeat_app A (x : A) n l k : k < n -> nth_error (repeat x n ++ l) k = Some x.
Proof.
  intros H. rewrite nth_error_app1 by (rewrite repeat_length; exact H).
  destruct (nth_error_lt_Some (repeat x n) (i := k)) as [y E]; [rewrite repeat_length; exact H|].
  rewrite E. apply nth_error_In, repeat_spec in E. congruence.
Qed.
Lemma quartet_lt ab cd c : ab < b_clip P -> cd < b_clip K -> c < nc ->
  (ab * b_clip K + cd) * nc + c < b_clip P * b_clip K * nc.
Proof.
  intros H1 H2 H3. pose proof (Nat.mul_le_mono_r (S ab) _ (b_clip K) H1) as M1. rewrite Nat.mul_succ_l in M1.
  pose proof (Nat.mul_le_mono_r (S (ab * b_clip K + cd)) (b_clip P * b_clip K) nc ltac:(lia)) as M2.
  rewrite Nat.mul_succ_l in M2. lia.
Qed.

Theorem kernel_ok out : b_clip P * b_clip K * nc <= length out ->
  exists d, kernel out = Some (d, b_clip P * b_clip K) /\ length d = length out /\
    (forall ab cd c, ab < b_clip P -> cd < b_clip K -> c < nc ->
       nth_error d ((ab * b_clip K + cd) * nc + c) = Some (want (total (b_np P) ab) (b_np P ab) cd c)) /\
    (forall k, b_clip P * b_clip K * nc <= k -> nth_error d k = nth_error out k).
Proof.
  intros Hn. unfold kernel. rewrite (proj2 (Nat.leb_le _ _) Hn).
  set (n := b_clip P * b_clip K * nc) in *.
  assert (HL : length (repeat (c0 : R) n ++ skipn n out) = length out)
    by (rewrite app_length, repeat_length, skipn_length; lia).
  destruct (@abloop_ok (b_clip P) 0 (repeat c0 n ++ skipn n out)) as [d [F [E [A [F1 F2]]]]].
  { rewrite HL. exact Hn. }
  cbn [total Nat.mul] in E. rewrite E. exists d. split; [reflexivity|]. split; [rewrite (proj1 A); exact HL|]. split.
  - intros ab cd c Hab Hcd Hc. pose proof (quartet_lt Hab Hcd Hc) as L.
    rewrite (proj2 A _ c c0 Hc); [|apply nth_repeat_app; exact L].
    f_equal. rewrite F1 by lia. ring.
  - intros k Hk.
    assert (Ek : nth_error (repeat (c0 : R) n ++ skipn n out) k = nth_error out k).
    { rewrite nth_error_app2 by (rewrite repeat_length; exact Hk). rewrite repeat_length.
      rewrite <- (firstn_skipn n out) at 2. rewrite nth_error_app2 by (rewrite firstn_length; lia).
      rewrite firstn_length, Nat.min_l by exact Hn. reflexivity. }
    destruct (nth_error out k) as [x|] eqn:Ex.
    + pose proof (Nat.div_mod k nc ltac:(lia)) as D. pose proof (Nat.mod_upper_bound k nc ltac:(lia)) as M.
      replace k with (k / nc * nc + k mod nc) in Ek |- * by lia.
      rewrite (proj2 A _ _ _ M Ek). f_equal. rewrite F2; [ring|]. right. cbn [Nat.add].
      apply Nat.div_le_lower_bound; [lia|]. rewrite Nat.mul_comm. exact Hk.
    + apply nth_error_None. apply nth_error_None in Ex. rewrite (proj1 A), HL. exact Ex.
Qed.

(** *** With HRR *)
(** The value at component [c] of shell quartet [(ab, cd)]. *)
Definition want_hrr (i0 ab cd c : nat) : R := hrr ab cd (fun c => if c <? nc then want i0 (b_np P ab) cd c else c0) c.
(** The HRR reads only the components of its own shell quartet. *)
Hypothesis Hhrr : forall ab cd f g c, (forall c, c < nc -> f c = g c) -> hrr ab cd f c = hrr ab cd g c.

Lemma put_ok out p f : p + nf <= length out -> exists o, put out p f = Some o /\ length o = length out /\
  (forall c, c < nf -> nth_error o (p + c) = Some (f c)) /\
  (forall k, k < p \/ p + nf <= k -> nth_error o k = nth_error out k).
Proof.
  intros H. unfold put. rewrite (proj2 (Nat.leb_le _ _) H). eexists; split; [reflexivity|].
  assert (Lf : length (firstn p out) = p) by (rewrite firstn_length; lia).
  assert (Lm : length (map f (seq 0 nf)) = nf) by (rewrite map_length, seq_length; reflexivity).
  split; [rewrite !app_length, Lf, Lm, skipn_length; lia|]. split.
  - intros c Hc. rewrite nth_error_app2 by lia. rewrite Lf. replace (p + c - p) with c by lia.
    rewrite nth_error_app1 by lia. rewrite nth_error_map, nth_error_seq by exact Hc. reflexivity.
  - intros k [Hk|Hk].
    + rewrite nth_error_app1 by lia. rewrite <- (firstn_skipn p out) at 2. rewrite nth_error_app1 by lia. reflexivity.
    + rewrite nth_error_app2 by lia. rewrite nth_error_app2 by lia. rewrite Lf, Lm.
      rewrite <- (firstn_skipn (p + nf) out) at 2. rewrite nth_error_app2 by (rewrite firstn_length; lia).
      f_equal. rewrite firstn_length. lia.
Qed.

Lemma hrrloop_ok ab cd work : forall m k real out, (real + m) * nf <= length out ->
  exists o, hrrloop ab cd m k real work out = Some o /\ length o = length out /\
    (forall t c, t < m -> c < nf -> nth_error o ((real + t) * nf + c) =
       Some (hrr ab (cd + (k + t)) (fun c => nth ((k + t) * nc + c) work c0) c)) /\
    (forall q, q < real * nf \/ (real + m) * nf <= q -> nth_error o q = nth_error out q).
Proof.
  induction m as [|m IH]; intros k real out Hd; cbn [hrrloop].
  - exists out. split; [reflexivity|]. split; [reflexivity|]. split; [intros; lia|reflexivity].
  - assert (HM : (real + S m) * nf = real * nf + nf + m * nf) by (rewrite Nat.mul_add_distr_r, Nat.mul_succ_l; lia).
    destruct (@put_ok out (real * nf) (hrr ab (cd + k) (fun c => nth (k * nc + c) work c0))) as [o1 [E1 [L1 [V1 O1]]]]; [lia|].
    rewrite E1. destruct (IH (S k) (S real) o1) as [o [E [L [V O]]]].
    { rewrite L1. replace (S real + m) with (real + S m) by lia. exact Hd. }
    replace ((S real + m) * nf) with ((real + S m) * nf) in O by (f_equal; lia). rewrite Nat.mul_succ_l in O.
    exists o. split; [exact E|]. split; [congruence|]. split.
    + intros [|t] c Ht Hc.
      * rewrite !Nat.add_0_r. rewrite O by lia. apply V1, Hc.
      * replace (real + S t) with (S real + t) by lia. replace (k + S t) with (S k + t) by lia. apply V; lia.
    + intros q Hq. rewrite O by lia. apply O1. lia.
Qed.

Lemma work_slot work t c : t < nss -> c < nc -> forall F, added (repeat c0 (nss * nc)) work F ->
  nth (t * nc + c) work c0 = F t c.
Proof.
  intros Ht Hc F A. pose proof (Nat.mul_le_mono_r (S t) nss nc Ht) as M. rewrite Nat.mul_succ_l in M.
  assert (E : nth_error (repeat (c0 : R) (nss * nc)) (t * nc + c) = Some c0).
  { pose proof (@nth_repeat_app R c0 (nss * nc) [] (t * nc + c) ltac:(lia)) as X. rewrite app_nil_r in X. exact X. }
  rewrite (nth_error_nth work _ c0 (proj2 A t c c0 Hc E)). ring.
Qed.

Lemma cdloop_hrr_ok ab i0 r0 : forall m b jstart out, b + m = nbatch ->
  (0 < m -> jstart = start (b_np K) (b * nss)) ->
  (r0 + b_clip K) * nf <= length out ->
  let lo := Nat.min (b * nss) (b_clip K) in
  exists o, cdloop_hrr ab i0 m b jstart (r0 + lo) out = Some (o, r0 + b_clip K) /\ length o = length out /\
    (forall cd c, lo <= cd -> cd < b_clip K -> c < nf -> nth_error o ((r0 + cd) * nf + c) = Some (want_hrr i0 ab cd c)) /\
    (forall q, q < (r0 + lo) * nf \/ (r0 + b_clip K) * nf <= q -> nth_error o q = nth_error out q).
Proof.
  induction m as [|m IH]; intros b jstart out Hb Hj Hd lo; cbn [cdloop_hrr].
  - pose proof nbatch_ge as G. replace nbatch with b in G by lia. exists out.
    replace lo with (b_clip K) by (unfold lo; lia). split; [reflexivity|]. split; [reflexivity|].
    split; [intros; lia|reflexivity].
  - assert (Hlt : b * nss < b_clip K) by (apply nbatch_lt; lia).
    pose proof (@batch_size_spec b Hlt) as HS. cbv zeta in HS.
    replace lo with (b * nss) by (unfold lo; lia). rewrite (Hj ltac:(lia)). clear Hj jstart.
    unfold batch_end. set (nb := batch_size (b * nss)) in *. destruct HS as [S1 [S2 [S3 S4]]].
    set (j0 := start (b_np K) (b * nss)).
    destruct (@iloop_ok (b * nss) nb S1 S3 j0 0 (@start_divide len nss Hlen Hnss _ b) (b_np P ab) i0 (repeat c0 (nss * nc))) as [work [E A]].
    { rewrite repeat_length. apply Nat.mul_le_mono_r. lia. }
    rewrite E.
    assert (HR : (r0 + b * nss + nb) * nf <= (r0 + b_clip K) * nf) by (apply Nat.mul_le_mono_r; lia).
    destruct (@hrrloop_ok ab (b * nss) work nb 0 (r0 + b * nss) out) as [o1 [E1 [L1 [V1 O1]]]]; [lia|].
    rewrite E1.
    destruct (IH (S b) (rnd len (j0 + psum (b_np K) (b * nss) nb)) o1) as [o [E2 [L2 [V2 O2]]]].
    { lia. }
    { intros Hm. pose proof (@nbatch_lt (S b) ltac:(lia)) as Hlt2. rewrite (@start_next len nss Hlen Hnss).
      replace nb with nss; [reflexivity|]. lia. }
    { rewrite L1. exact Hd. }
    replace (r0 + b * nss + nb) with (r0 + Nat.min (S b * nss) (b_clip K)) in * by lia.
    exists o. split; [exact E2|]. split; [congruence|]. split.
    + intros cd c Hcd1 Hcd2 Hc. destruct (Nat.lt_ge_cases cd (b * nss + nb)) as [Hin|Hin].
      * rewrite O2.
        2: { left. pose proof (Nat.mul_le_mono_r (S (r0 + cd)) (r0 + Nat.min (S b * nss) (b_clip K)) nf ltac:(lia)) as M.
             rewrite Nat.mul_succ_l in M. lia. }
        replace (r0 + cd) with (r0 + b * nss + (cd - b * nss)) by lia. rewrite V1 by lia.
        cbn [Nat.add]. replace (b * nss + (cd - b * nss)) with cd by lia.
        f_equal. unfold want_hrr. apply Hhrr. intros c' Hc'. rewrite (proj2 (Nat.ltb_lt _ _) Hc').
        rewrite (@work_slot work (cd - b * nss) c' ltac:(lia) Hc' _ A).
        pose proof (@batch_add_in (b * nss) nb S1 S3 j0 0 i0 (b_np P ab) (cd - b * nss) c' ltac:(lia)) as X.
        cbn [Nat.add] in X. rewrite X. unfold want. unfold j0. rewrite <- (@start_in len nss Hlen Hnss) by lia.
        replace (b * nss + (cd - b * nss)) with cd by lia. reflexivity.
      * apply V2; lia.
    + intros q Hq. rewrite O2.
      2: { destruct Hq as [Hq|Hq]; [left|right; exact Hq].
           pose proof (Nat.mul_le_mono_r (r0 + b * nss) (r0 + Nat.min (S b * nss) (b_clip K)) nf ltac:(lia)). lia. }
      apply O1. lia.
Qed.

Lemma abloop_hrr_ok : forall m ab out, (ab + m) * b_clip K * nf <= length out ->
  exists o, abloop_hrr m ab (total (b_np P) ab) (ab * b_clip K) out = Some o /\ length o = length out /\
    (forall a cd c, ab <= a < ab + m -> cd < b_clip K -> c < nf ->
       nth_error o ((a * b_clip K + cd) * nf + c) = Some (want_hrr (total (b_np P) a) a cd c)) /\
    (forall q, q < ab * b_clip K * nf \/ (ab + m) * b_clip K * nf <= q -> nth_error o q = nth_error out q).
Proof.
  induction m as [|m IH]; intros ab out Hd; cbn [abloop_hrr].
  - exists out. split; [reflexivity|]. split; [reflexivity|]. split; [intros; lia|reflexivity].
  - assert (Hm : (ab * b_clip K + b_clip K) <= (ab + S m) * b_clip K)
      by (rewrite !Nat.mul_add_distr_r, Nat.mul_succ_l; lia).
    pose proof (Nat.mul_le_mono_r _ _ nf Hm) as Hm'.
    destruct (@cdloop_hrr_ok ab (total (b_np P) ab) (ab * b_clip K) nbatch 0 0 out) as [o1 [E1 [L1 [V1 O1]]]].
    { reflexivity. } { reflexivity. } { lia. }
    cbn [Nat.mul Nat.min] in E1, V1, O1. rewrite Nat.add_0_r in E1, O1. rewrite E1.
    destruct (IH (S ab) o1) as [o [E2 [L2 [V2 O2]]]].
    { rewrite L1. replace (S ab + m) with (ab + S m) by lia. exact Hd. }
    rewrite total_S in E2. replace (S ab * b_clip K) with (ab * b_clip K + b_clip K) in * by (simpl; lia).
    replace (S ab + m) with (ab + S m) in * by lia.
    exists o. split; [exact E2|]. split; [congruence|]. split.
    + intros a cd c Ha Hcd Hc. destruct (Nat.eq_dec a ab) as [->|N].
      * rewrite O2.
        2: { left. pose proof (Nat.mul_le_mono_r (S (ab * b_clip K + cd)) (ab * b_clip K + b_clip K) nf ltac:(lia)) as M.
             rewrite Nat.mul_succ_l in M. lia. }
        apply V1; lia.
      * apply V2; lia.
    + intros q Hq. rewrite O2.
      2: { destruct Hq as [Hq|Hq]; [left|right; exact Hq].
           pose proof (Nat.mul_le_mono_r (ab * b_clip K) (ab * b_clip K + b_clip K) nf ltac:(lia)). lia. }
      apply O1. destruct Hq as [Hq|Hq]; [left; exact Hq|right; lia].
Qed.

Theorem kernel_hrr_ok out : b_clip P * b_clip K * nf <= length out ->
  exists o, kernel_hrr out = Some (o, b_clip P * b_clip K) /\ length o = length out /\
    (forall ab cd c, ab < b_clip P -> cd < b_clip K -> c < nf ->
       nth_error o ((ab * b_clip K + cd) * nf + c) = Some (want_hrr (total (b_np P) ab) ab cd c)) /\
    (forall k, b_clip P * b_clip K * nf <= k -> nth_error o k = nth_error out k).
Proof.
  intros Hn. destruct (@abloop_hrr_ok (b_clip P) 0 out Hn) as [o [E [L [V O]]]].
  cbn [total Nat.mul] in E. unfold kernel_hrr. rewrite E. exists o. split; [reflexivity|]. split; [exact L|].
  split; [intros; apply V; lia|]. intros k Hk. apply O. right. exact Hk.
Qed.

End Kernel.

(** ** Screening *)
Lemma qltb_spec a b : qltb a b = true <-> (a < b)%Q.
Proof.
  unfold qltb. rewrite negb_true_iff. split.
  - intros H. apply Qnot_le_lt. intros L. apply Qle_bool_iff in L. congruence.
  - intros H. destruct (Qle_bool b a) eqn:E; [|reflexivity]. apply Qle_bool_iff in E. exfalso. exact (Qlt_not_le _ _ H E).
Qed.
Lemma fold_max_ge l : forall a, (a <= fold_left Qmax l a)%Q /\ forall x, In x l -> (x <= fold_left Qmax l a)%Q.
Proof.
  induction l as [|y l IH]; intros a; cbn [fold_left].
  - split; [apply Qle_refl|intros x []].
  - destruct (IH (Qmax a y)) as [H1 H2]. split.
    + eapply Qle_trans; [apply Q.le_max_l|exact H1].
    + intros x [<-|Hx]; [eapply Qle_trans; [apply Q.le_max_r|exact H1]|apply H2, Hx].
Qed.
Lemma vector_max_ge z n f k : k < n -> (f k <= vector_max z n f)%Q.
Proof.
  intros H. unfold vector_max. destruct z.
  - apply (proj2 (fold_max_ge _ _)). apply in_map_iff. exists k. split; [reflexivity|]. apply in_seq. lia.
  - destruct k as [|k]; [apply (proj1 (fold_max_ge _ _))|].
    apply (proj2 (fold_max_ge _ _)). apply in_map_iff. exists (S k). split; [reflexivity|]. apply in_seq. lia.
Qed.

(** [screen_max] bounds the screen values of ket primitive [j]; bra values are not negative. *)
Theorem dropped_negligible len P K tol zf i j : 0 < len -> (0 <= b_scr P i)%Q -> (b_scr K j <= b_scrmax K)%Q ->
  dropped len P K tol zf i j = true -> (b_scr P i * b_scr K j < tol)%Q.
Proof.
  intros Hl H0 H1 H. unfold dropped in H. apply orb_true_iff in H as [H|H].
  - unfold bra_skip in H. apply andb_true_iff in H as [_ H]. apply qltb_spec in H.
    eapply Qle_lt_trans; [|exact H]. rewrite (Qmult_comm _ (b_scr K j)), (Qmult_comm _ (b_scrmax K)).
    apply Qmult_le_compat_r; assumption.
  - unfold vec_skip in H. apply andb_true_iff in H as [_ H]. apply qltb_spec in H.
    eapply Qle_lt_trans; [|exact H].
    pose proof (Nat.div_mod j len ltac:(lia)) as D. pose proof (Nat.mod_upper_bound j len ltac:(lia)) as M.
    pose proof (@vector_max_ge zf len (fun n => (b_scr P i * b_scr K (j / len * len + n))%Q) (j mod len) M) as V.
    cbv beta in V. replace (j / len * len + j mod len) with j in V by lia. exact V.
Qed.
Theorem no_screen_no_drop len P K tol zf i j : (tol <= 0)%Q -> dropped len P K tol zf i j = false.
Proof.
  intros H. unfold dropped, bra_skip, vec_skip. replace (check_screen tol) with false; [reflexivity|].
  symmetry. unfold check_screen. destruct (qltb 0 tol) eqn:E; [|reflexivity]. apply qltb_spec in E. exfalso. exact (Qlt_not_le _ _ E H).
Qed.
