(** Overlap and kinetic energy integrals: three directions, contraction, exchange. *)
From Coq Require Import List Arith Lia Bool ZArith Ring.
Import ListNotations.
From Verif Require Import Base Cart Mdir RecurData Recur PairData Deriv OneE OneEProof OneESpec.
Set Implicit Arguments.

Section Ints.
Context {R : cring}.
Add Ring RRoi : (cth R).
Local Open Scope r_scope.
Local Notation mem := (list (option R)).
Variables (invf sqrtf expf : R -> R) (half PI : R).
Local Notation oop := (t_oop invf).
Local Notation oo2p := (t_oo2p invf half).
Local Notation PA := (t_PA invf).
Local Notation PB := (t_PB invf).
Local Notation s00 := (t_s00 invf sqrtf expf PI).

(** The overlaps of a pair of primitives in direction [d]. *)
Definition prim_overlaps (al1 : R) (x1 : nat -> R) (al2 : R) (x2 : nat -> R) (d : nat) (F : nat -> nat -> R) : Prop :=
  overlaps (PA al1 x1 al2 x2 d) (PB al1 x1 al2 x2 d) (oo2p al1 al2) (s00 al1 x1 al2 x2 d) F.

(** ** The tables *)
Lemma frame_tab n1 n2 (blk : nat -> Prop) base (F : nat -> nat -> R) dom m m' :
  frame blk m m' -> (forall p, inblk n1 n2 base p -> ~ blk p) -> tab n1 n2 base F dom m -> tab n1 n2 base F dom m'.
Proof.
  intros [_ O] D T i j Hi Hj H. unfold rdv. rewrite O; [exact (T i j Hi Hj H)|]. apply D. unfold inblk, ij. nia.
Qed.
Lemma frame_sub (b1 b2 : nat -> Prop) (m m' m'' : mem) : (forall p, b2 p -> b1 p) -> frame b1 m m' -> frame b2 m' m'' -> frame b1 m m''.
Proof.
  intros S [L O] [L' O']. split; [congruence|]. intros i Hi. rewrite O'; [apply O; exact Hi|]. intros B. exact (Hi (S i B)).
Qed.

Lemma overlap_terms_ok al1 x1 al2 x2 n1 n2 m F : 1 <= n1 -> 1 <= n2 -> 3 * (n1 * n2) <= length m ->
  (forall d, d < 3 -> prim_overlaps al1 x1 al2 x2 d (F d)) ->
  exists m', overlap_terms invf sqrtf expf half PI al1 x1 al2 x2 n1 n2 m = Some m' /\ length m' = length m /\
    (forall d i j, d < 3 -> i < n1 -> j < n2 -> rdv m' (d * (n1 * n2) + (i * n2 + j)) = Some (F d i j)) /\
    (forall p, 3 * (n1 * n2) <= p -> nth_error m' p = nth_error m p).
Proof.
  intros H1 H2 HL HF. unfold overlap_terms.
  destruct (@loopM_ok _ (fun k x => frame (fun p => p < 3 * (n1 * n2)) m x /\
      forall d, d < k -> tab n1 n2 (d * n1 * n2) (F d) (fun _ _ => True) x)
    (fun d => overlap_dir n1 n2 (d * n1 * n2) (PA al1 x1 al2 x2 d) (PB al1 x1 al2 x2 d)
                    (oo2p al1 al2) (s00 al1 x1 al2 x2 d)) 3 0 m) as [m' [E [Fr T]]].
  - split; [apply frame_refl|lia].
  - intros d x Hd [Fr T].
    destruct (@overlap_dir_ok R n1 n2 H1 H2 (d * n1 * n2) _ _ _ _ (F d) (HF d ltac:(lia)) x) as [x' [E [Fr' T']]].
    { unfold fits. destruct Fr as [-> _]. nia. }
    exists x'. split; [exact E|]. split.
    + eapply frame_sub; [|exact Fr|exact Fr']. unfold inblk. nia.
    + intros e He. destruct (Nat.eq_dec e d) as [->|N]; [exact T'|].
      eapply frame_tab; [exact Fr'| |apply T; lia]. unfold inblk. intros p Hp Hq.
      assert (e < d) by lia. nia.
  - exists m'. split; [exact E|]. split; [apply Fr|]. split.
    + intros d i j Hd Hi Hj. pose proof (T d ltac:(lia) i j Hi Hj I) as V. unfold ij in V.
      rewrite <- Nat.mul_assoc in V. exact V.
    + intros p Hp. apply Fr. lia.
Qed.

Lemma PA_PB al1 x1 al2 x2 d : (al1 + al2) * oop al1 al2 = c1 ->
  al1 * PA al1 x1 al2 x2 d + al2 * PB al1 x1 al2 x2 d = c0.
Proof.
  intros H. unfold t_PA, t_PB, t_P.
  transitivity ((al1 * x1 d + al2 * x2 d) * ((al1 + al2) * oop al1 al2) - (al1 * x1 d + al2 * x2 d)); [ring|].
  rewrite H. ring.
Qed.

Lemma ke_terms_ok al1 x1 al2 x2 n1 n2 m F : 1 <= n1 -> 1 <= n2 -> 6 * (n1 * n2) <= length m ->
  half + half = c1 -> (al1 + al2) * invf (al1 + al2) = c1 ->
  (forall d, d < 3 -> prim_overlaps al1 x1 al2 x2 d (F d)) ->
  exists m', ke_terms invf sqrtf expf half PI al1 x1 al2 x2 n1 n2 m = Some m' /\ length m' = length m /\
    (forall d i j, d < 3 -> i < n1 -> j < n2 -> rdv m' (d * (n1 * n2) + (i * n2 + j)) = Some (F d i j)) /\
    (forall d i j, d < 3 -> i < n1 -> j < n2 ->
       rdv m' ((d + 3) * (n1 * n2) + (i * n2 + j)) = Some (kinetic half al2 (F d) i j)) /\
    (forall p, 6 * (n1 * n2) <= p -> nth_error m' p = nth_error m p).
Proof.
  intros H1 H2 HL Hh Ho HF. unfold ke_terms.
  destruct (@loopM_ok _ (fun k x => frame (fun p => p < 6 * (n1 * n2)) m x /\
      (forall d, d < k -> tab n1 n2 (d * n1 * n2) (F d) (fun _ _ => True) x) /\
      forall d, d < k -> tab n1 n2 ((d + 3) * n1 * n2) (kinetic half al2 (F d)) (fun _ _ => True) x)
    (fun d => ke_dir n1 n2 (d * n1 * n2) (PA al1 x1 al2 x2 d) (PB al1 x1 al2 x2 d)
                    (oo2p al1 al2) ((d + 3) * n1 * n2) al1 al2 (oop al1 al2) (t_mu invf al1 al2)
                    (s00 al1 x1 al2 x2 d)) 3 0 m) as [m' [E [Fr [T U]]]].
  - split; [apply frame_refl|split; lia].
  - intros d x Hd [Fr [T U]].
    destruct (@ke_dir_ok R n1 n2 H1 H2 (d * n1 * n2) _ _ _ _ (F d) (HF d ltac:(lia)) ((d + 3) * n1 * n2)
      half al1 al2 (oop al1 al2) (t_mu invf al1 al2) Hh Ho eq_refl eq_refl (@PA_PB al1 x1 al2 x2 d Ho)
      ltac:(unfold inblk; intros p; nia) x) as [x' [E [Fr' [T' U']]]].
    { unfold fits. destruct Fr as [-> _]. nia. }
    { unfold fits. destruct Fr as [-> _]. nia. }
    exists x'. split; [exact E|]. split; [|split].
    + eapply frame_sub; [|exact Fr|exact Fr']. unfold inblk. nia.
    + intros e He. destruct (Nat.eq_dec e d) as [->|N]; [exact T'|].
      eapply frame_tab; [exact Fr'| |apply T; lia]. unfold inblk. intros p Hp Hq.
      assert (e < d) by lia. destruct Hq; nia.
    + intros e He. destruct (Nat.eq_dec e d) as [->|N]; [exact U'|].
      eapply frame_tab; [exact Fr'| |apply U; lia]. unfold inblk. intros p Hp Hq.
      assert (e < d) by lia. destruct Hq; nia.
  - exists m'. split; [exact E|]. split; [apply Fr|]. split; [|split].
    + intros d i j Hd Hi Hj. pose proof (T d ltac:(lia) i j Hi Hj I) as V. unfold ij in V.
      rewrite <- Nat.mul_assoc in V. exact V.
    + intros d i j Hd Hi Hj. pose proof (U d ltac:(lia) i j Hi Hj I) as V. unfold ij in V.
      rewrite <- Nat.mul_assoc in V. exact V.
    + intros p Hp. apply Fr. lia.
Qed.

(** ** Exchange of the two primitives *)
Lemma oop_comm al1 al2 : oop al2 al1 = oop al1 al2.
Proof. unfold t_oop. f_equal. ring. Qed.
Lemma P_comm al1 x1 al2 x2 d : t_P invf al2 x2 al1 x1 d = t_P invf al1 x1 al2 x2 d.
Proof. unfold t_P. rewrite oop_comm. ring. Qed.
Lemma s00_comm al1 x1 al2 x2 d : s00 al2 x2 al1 x1 d = s00 al1 x1 al2 x2 d.
Proof.
  unfold t_s00, t_mu, t_AB2. rewrite oop_comm. f_equal. f_equal. ring.
Qed.
Lemma prim_overlaps_swap al1 x1 al2 x2 d F :
  prim_overlaps al1 x1 al2 x2 d F -> prim_overlaps al2 x2 al1 x1 d (fun i j => F j i).
Proof.
  intros H. apply overlaps_swap in H. unfold prim_overlaps.
  replace (PA al2 x2 al1 x1 d) with (PB al1 x1 al2 x2 d) by (unfold t_PA, t_PB; rewrite P_comm; reflexivity).
  replace (PB al2 x2 al1 x1 d) with (PA al1 x1 al2 x2 d) by (unfold t_PA, t_PB; rewrite P_comm; reflexivity).
  unfold t_oo2p. rewrite oop_comm, s00_comm. exact H.
Qed.
Definition prim_sint al1 x1 al2 x2 d : nat -> nat -> R :=
  sint (oo2p al1 al2) (s00 al1 x1 al2 x2 d) (PA al1 x1 al2 x2 d) (PB al1 x1 al2 x2 d).
Lemma prim_sint_ok al1 x1 al2 x2 d : prim_overlaps al1 x1 al2 x2 d (prim_sint al1 x1 al2 x2 d).
Proof. apply integral_overlaps. Qed.
Lemma prim_unique al1 x1 al2 x2 d F G :
  prim_overlaps al1 x1 al2 x2 d F -> prim_overlaps al1 x1 al2 x2 d G -> forall i j, F i j = G i j.
Proof. apply overlaps_unique. Qed.

(** ** Contraction *)
Lemma rsum_snoc (f : nat -> R) n : rsum (map f (seq 0 (S n))) = rsum (map f (seq 0 n)) + f n.
Proof. rewrite seq_S, map_app, rsum_app. cbn [map rsum Nat.add]. ring. Qed.

(** The block of the output is [V]; the rest is that of [o0]. *)
Definition block_is (nc1 nc2 : nat) (o0 : mem) (V : nat -> nat -> R) (o : mem) : Prop :=
  length o = length o0 /\ (forall n m, n < nc1 -> m < nc2 -> rdv o (n * nc2 + m) = Some (V n m)) /\
  forall p, nc1 * nc2 <= p -> nth_error o p = nth_error o0 p.

Lemma add_block_ok (val : recur_row -> recur_row -> option R) am1 am2 prefac o0 V W o :
  (forall n m, n < ncart am1 -> m < ncart am2 ->
     exists r1 r2, recur_lookup am1 n = Some r1 /\ recur_lookup am2 m = Some r2 /\ val r1 r2 = Some (W n m)) ->
  block_is (ncart am1) (ncart am2) o0 V o ->
  exists o', add_block val am1 am2 prefac o = Some o' /\
    block_is (ncart am1) (ncart am2) o0 (fun n m => V n m + prefac * W n m) o'.
Proof.
  intros HW HV. unfold add_block. set (nc1 := ncart am1) in *. set (nc2 := ncart am2) in *.
  set (Q := fun (done : nat -> nat -> Prop) (x : mem) => length x = length o0 /\
    (forall n m, n < nc1 -> m < nc2 -> done n m -> rdv x (n * nc2 + m) = Some (V n m + prefac * W n m)) /\
    (forall n m, n < nc1 -> m < nc2 -> ~ done n m -> rdv x (n * nc2 + m) = Some (V n m)) /\
    forall p, nc1 * nc2 <= p -> nth_error x p = nth_error o0 p).
  assert (Qext : forall d1 d2 x, (forall n m, n < nc1 -> m < nc2 -> (d1 n m <-> d2 n m)) -> Q d1 x -> Q d2 x).
  { intros d1 d2 x He [A [B [C D]]]. split; [exact A|]. split; [|split; [|exact D]].
    - intros n m Hn Hm Hd. apply B; auto. apply He; auto.
    - intros n m Hn Hm Hd. apply C; auto. rewrite He; auto. }
  destruct (@loopM_ok _ (fun k (st : nat * mem) => fst st = (k * nc2)%nat /\ Q (fun n _ => n < k) (snd st))
    (fun n => loopM (fun m (st : nat * mem) =>
       match recur_lookup am1 n with Some r1 =>
       match recur_lookup am2 m with Some r2 =>
       match val r1 r2 with Some v =>
       match acc (snd st) (fst st) (prefac * v) with Some o => Some (S (fst st), o) | None => None end
       | None => None end | None => None end | None => None end) (seq 0 nc2)) nc1 0 (0%nat, o)) as [st [-> [Ei Qe]]].
  - split; [reflexivity|]. destruct HV as [A [B C]]. split; [exact A|]. split; [lia|]. split; [|exact C].
    intros n m Hn Hm _. apply B; assumption.
  - intros n st Hn [Ei Qn].
    destruct (@loopM_ok _ (fun k (st : nat * mem) => fst st = (n * nc2 + k)%nat /\
        Q (fun a b => a < n \/ (a = n /\ b < k)) (snd st))
      (fun m (st : nat * mem) =>
       match recur_lookup am1 n with Some r1 =>
       match recur_lookup am2 m with Some r2 =>
       match val r1 r2 with Some v =>
       match acc (snd st) (fst st) (prefac * v) with Some o => Some (S (fst st), o) | None => None end
       | None => None end | None => None end | None => None end) nc2 0 st) as [st' [-> [Ei' Q']]].
    + split; [lia|]. eapply Qext; [|exact Qn]. intros; cbv beta; lia.
    + intros m [i x] Hm [Exi Qx]. cbn [fst snd] in *.
      destruct (HW n m) as [r1 [r2 [-> [-> ->]]]]; [lia|lia|].
      destruct Qx as [A [B [C D]]].
      assert (V0 : rdv x i = Some (V n m)) by (rewrite Exi; apply C; lia).
      destruct (@acc_put R x i _ (prefac * W n m) V0) as [x' [-> P]].
      exists (S i, x'). split; [reflexivity|]. cbn [fst snd]. split; [lia|]. split.
      { rewrite (put_len P). exact A. }
      split; [|split].
      * intros a b Ha Hb Hd. destruct (Nat.eq_dec (a * nc2 + b) i) as [E|N].
        { rewrite E. rewrite Exi in E. apply mixed_inj in E; [|exact Hb|lia]. destruct E as [-> ->]. exact (put_val P). }
        rewrite (@put_other R _ _ _ _ _ P N). apply B; [exact Ha|exact Hb|].
        destruct Hd as [Hd|[-> Hd]]; [left; exact Hd|]. right. split; [reflexivity|].
        destruct (Nat.eq_dec b m) as [->|Nb]; [exfalso; apply N; lia|lia].
      * intros a b Ha Hb Hd. rewrite (@put_other R _ _ _ _ _ P).
        { apply C; [exact Ha|exact Hb|]. lia. }
        intros E. rewrite Exi in E. apply mixed_inj in E; [|exact Hb|lia]. lia.
      * intros p Hp. destruct P as [_ [_ O]]. rewrite O; [apply D; exact Hp|]. intros ->. rewrite Exi in Hp.
        assert (n * nc2 + m < nc1 * nc2) by (apply Nat.lt_le_trans with (S n * nc2)%nat; [clear - Hm; cbn [Nat.mul]; lia|apply Nat.mul_le_mono_r; clear - Hn; lia]). lia.
    + exists st'. split; [reflexivity|]. split; [lia|]. eapply Qext; [|exact Q']. intros; cbv beta; lia.
  - exists (snd st). split; [reflexivity|]. destruct Qe as [A [B [C D]]]. split; [exact A|]. split; [|exact D].
    intros n m Hn Hm. apply B; auto; lia.
Qed.

Lemma zero_out_ok nc1 nc2 o : nc1 * nc2 <= length o ->
  exists o', zero_out (nc1 * nc2) o = Some o' /\ block_is nc1 nc2 o (fun _ _ => c0) o'.
Proof.
  clear invf sqrtf expf half PI. intros H. unfold zero_out.
  destruct (@loopM_ok _ (fun k x => length x = length o /\ (forall p, p < k -> rdv x p = Some c0) /\
     forall p, nc1 * nc2 <= p -> nth_error x p = nth_error o p) (fun i o => wr o i c0) (nc1 * nc2) 0 o)
    as [o' [-> [A [B C]]]].
  - split; [reflexivity|]. split; [lia|auto].
  - intros k x Hk [A [B C]]. destruct (@wr_put R x k c0) as [x' [-> P]]; [lia|].
    exists x'. split; [reflexivity|]. split; [rewrite (put_len P); exact A|]. split.
    + intros p Hp. destruct (Nat.eq_dec p k) as [->|N]; [exact (put_val P)|].
      rewrite (@put_other R _ _ _ _ _ P N). apply B. lia.
    + intros p Hp. destruct P as [_ [_ O]]. rewrite O by lia. apply C. exact Hp.
  - exists o'. split; [reflexivity|]. split; [exact A|]. split; [|exact C].
    intros n m Hn Hm. apply B. nia.
Qed.

(** Sum over all pairs of primitives. *)
Definition prim_sum (n1 n2 : nat) (f : nat -> nat -> R) : R :=
  rsum (map (fun i => rsum (map (f i) (seq 0 n2))) (seq 0 n1)).

Lemma block_ext nc1 nc2 o0 V V' o : (forall n m, n < nc1 -> m < nc2 -> V n m = V' n m) ->
  block_is nc1 nc2 o0 V o -> block_is nc1 nc2 o0 V' o.
Proof.
  intros H [A [B C]]. split; [exact A|]. split; [|exact C]. intros n m Hn Hm. rewrite <- H by assumption. auto.
Qed.

Lemma compute_with_ok words terms val (A B : @oshell R) W out :
  os_am A <= 18 -> os_am B <= 18 -> ncart (os_am A) * ncart (os_am B) <= length out ->
  (forall i j w, i < sh_n (os_sh A) -> j < sh_n (os_sh B) -> length w = (words * (S (os_am A) * S (os_am B)))%nat ->
     exists w', terms (sh_alpha (os_sh A) i) (sh_pos (os_sh A)) (sh_alpha (os_sh B) j) (sh_pos (os_sh B))
                  (S (os_am A)) (S (os_am B)) w = Some w' /\ length w' = length w /\
       forall n m, n < ncart (os_am A) -> m < ncart (os_am B) ->
         exists r1 r2, recur_lookup (os_am A) n = Some r1 /\ recur_lookup (os_am B) m = Some r2 /\
           val (S (os_am A)) (S (os_am B)) w' r1 r2 = Some (W i j n m)) ->
  exists out', compute_with words terms val A B out = Some out' /\
    block_is (ncart (os_am A)) (ncart (os_am B)) out (fun n m =>
      prim_sum (sh_n (os_sh A)) (sh_n (os_sh B)) (fun i j => sh_coef (os_sh A) i * sh_coef (os_sh B) j * W i j n m)) out'.
Proof.
  intros HA HB Hout HT. unfold compute_with.
  change (length am_recur_map) with 19%nat.
  destruct (Nat.ltb_spec (os_am A) 19); [|lia]. destruct (Nat.ltb_spec (os_am B) 19); [|lia]. cbn [andb].
  destruct (zero_out_ok _ _ out Hout) as [o0 [-> Z0]].
  set (nc1 := ncart (os_am A)) in *. set (nc2 := ncart (os_am B)) in *.
  set (n1 := sh_n (os_sh A)) in *. set (n2 := sh_n (os_sh B)) in *.
  set (g := fun n m i j => sh_coef (os_sh A) i * sh_coef (os_sh B) j * W i j n m).
  set (f := fun i j (st : mem * mem) =>
    match terms (sh_alpha (os_sh A) i) (sh_pos (os_sh A)) (sh_alpha (os_sh B) j) (sh_pos (os_sh B))
            (S (os_am A)) (S (os_am B)) (fst st) with Some w =>
    match add_block (val (S (os_am A)) (S (os_am B)) w) (os_am A) (os_am B)
            (sh_coef (os_sh A) i * sh_coef (os_sh B) j) (snd st) with Some o => Some (w, o)
    | None => None end | None => None end).
  destruct (@loopM_ok _ (fun k (st : mem * mem) => length (fst st) = (words * (S (os_am A) * S (os_am B)))%nat /\
      block_is nc1 nc2 out (fun n m => prim_sum k n2 (g n m)) (snd st))
    (fun i => loopM (f i) (seq 0 n2)) n1 0 (repeat None (words * (S (os_am A) * S (os_am B))), o0))
    as [[w o] [E [_ Bo]]].
  - cbn [fst snd]. split; [apply repeat_length|]. exact Z0.
  - intros i st Hi [Lw Bo].
    destruct (@loopM_ok _ (fun k (st : mem * mem) => length (fst st) = (words * (S (os_am A) * S (os_am B)))%nat /\
      block_is nc1 nc2 out (fun n m => prim_sum i n2 (g n m) + rsum (map (g n m i) (seq 0 k))) (snd st))
      (f i) n2 0 st) as [st' [E' [Lw' Bo']]].
    + split; [exact Lw|]. eapply block_ext; [|exact Bo]. intros; cbn [seq map rsum]. ring.
    + intros j [w x] Hj [Lx Bx]. cbn [fst snd] in *. unfold f. cbn [fst snd].
      destruct (HT i j w ltac:(lia) ltac:(lia) Lx) as [w' [-> [Lw' HV]]].
      destruct (@add_block_ok (val (S (os_am A)) (S (os_am B)) w') (os_am A) (os_am B)
        (sh_coef (os_sh A) i * sh_coef (os_sh B) j) out _ (W i j) x HV Bx) as [x' [-> Bx']].
      exists (w', x'). split; [reflexivity|]. cbn [fst snd]. split; [congruence|].
      eapply block_ext; [|exact Bx']. intros n m _ _. cbn beta. rewrite rsum_snoc. change (g n m i j) with (sh_coef (os_sh A) i * sh_coef (os_sh B) j * W i j n m). ring.
    + exists st'. split; [exact E'|]. split; [exact Lw'|]. eapply block_ext; [|exact Bo'].
      intros n m _ _. unfold prim_sum. rewrite rsum_snoc. reflexivity.
  - fold f. unfold f in E. rewrite E. exists o. split; [reflexivity|]. exact Bo.
Qed.

(** ** The integrals *)
(** Products over the three directions. *)
Definition comp3 (F : nat -> nat -> nat -> R) (a b : gauss) : R :=
  F 0%nat (gx a) (gx b) * F 1%nat (gy a) (gy b) * F 2%nat (gz a) (gz b).
Definition kin3 (S T : nat -> nat -> nat -> R) (a b : gauss) : R :=
  T 0%nat (gx a) (gx b) * S 1%nat (gy a) (gy b) * S 2%nat (gz a) (gz b) +
  S 0%nat (gx a) (gx b) * T 1%nat (gy a) (gy b) * S 2%nat (gz a) (gz b) +
  S 0%nat (gx a) (gx b) * S 1%nat (gy a) (gy b) * T 2%nat (gz a) (gz b).

Lemma row_exps g r d : row_ok g r -> row_exp r d = Some (gexp d g).
Proof.
  unfold row_ok, row_exp. destruct r as [[[[ijk dd] tx] ty] tz]. intros [-> _]. destruct g as [x y z].
  unfold toZ; cbn [gx gy gz]. unfold row_ijk. destruct d; cbn [gexp gx gy gz];
    (match goal with |- context [(?v <? 0)%Z] => destruct (Z.ltb_spec v 0); [lia|] end); rewrite Nat2Z.id; reflexivity.
Qed.
Lemma sidx_ok g1 g2 r1 r2 n2 d : row_ok g1 r1 -> row_ok g2 r2 -> sidx n2 r1 r2 d = Some (gexp d g1 * n2 + gexp d g2)%nat.
Proof. intros A B. unfold sidx. rewrite (@row_exps g1 r1 d A), (@row_exps g2 r2 d B). reflexivity. Qed.
Lemma lookup_pos am n : am <= 18 -> n < ncart am ->
  exists g r, gam g = am /\ pos g = n /\ recur_lookup am n = Some r /\ row_ok g r.
Proof.
  intros H Hn. destruct (opos_surj psi4 am Hn) as [g [G P]]. cbn [opos psi4] in P.
  destruct (@recur_lookup_ok g ltac:(lia)) as [r [L K]]. exists g, r. rewrite G, P in L. auto.
Qed.
(** Component with number [n]. *)
Definition comp_at (am n : nat) : gauss := nth n (cart_list am) (G 0 0 0).
Lemma comp_at_pos g : comp_at (gam g) (pos g) = g.
Proof. unfold comp_at. apply nth_error_nth. apply nth_error_cart_list. Qed.
Lemma gexp_am d g : gexp d g < S (gam g).
Proof. pose proof (gexp_le d g). lia. Qed.

Lemma overlap_integrals_ok (A B : @oshell R) out F :
  os_am A <= 18 -> os_am B <= 18 -> ncart (os_am A) * ncart (os_am B) <= length out ->
  (forall i j d, i < sh_n (os_sh A) -> j < sh_n (os_sh B) -> d < 3 ->
     prim_overlaps (sh_alpha (os_sh A) i) (sh_pos (os_sh A)) (sh_alpha (os_sh B) j) (sh_pos (os_sh B)) d (F i j d)) ->
  exists out', compute_overlap invf sqrtf expf half PI A B out = Some out' /\ length out' = length out /\
    (forall a b, gam a = os_am A -> gam b = os_am B -> rdv out' (pos a * ncart (os_am B) + pos b) =
       Some (prim_sum (sh_n (os_sh A)) (sh_n (os_sh B)) (fun i j =>
               sh_coef (os_sh A) i * sh_coef (os_sh B) j * comp3 (F i j) a b))) /\
    (forall p, ncart (os_am A) * ncart (os_am B) <= p -> nth_error out' p = nth_error out p).
Proof.
  intros HA HB Hout HF. unfold compute_overlap.
  destruct (@compute_with_ok 3 (overlap_terms invf sqrtf expf half PI) (@overlap_val R) A B
    (fun i j n m => comp3 (F i j) (comp_at (os_am A) n) (comp_at (os_am B) m)) out HA HB Hout) as [o [E [L [V O]]]].
  - intros i j w Hi Hj Lw.
    destruct (@overlap_terms_ok (sh_alpha (os_sh A) i) (sh_pos (os_sh A)) (sh_alpha (os_sh B) j) (sh_pos (os_sh B))
      (S (os_am A)) (S (os_am B)) w (F i j)) as [w' [E [L [V _]]]]; [lia|lia|lia|intros d Hd; apply HF; assumption|].
    exists w'. split; [exact E|]. split; [exact L|]. intros n m Hn Hm.
    destruct (@lookup_pos (os_am A) n HA Hn) as [a [r1 [Ga [Pa [L1 K1]]]]].
    destruct (@lookup_pos (os_am B) m HB Hm) as [b [r2 [Gb [Pb [L2 K2]]]]].
    exists r1, r2. split; [exact L1|]. split; [exact L2|]. unfold overlap_val.
    rewrite !(@sidx_ok a b r1 r2 _ _ K1 K2). rewrite <- Ga, <- Gb, <- Pa, <- Pb, !comp_at_pos.
    pose proof (gexp_am DX a). pose proof (gexp_am DY a). pose proof (gexp_am DZ a).
    pose proof (gexp_am DX b). pose proof (gexp_am DY b). pose proof (gexp_am DZ b).
    rewrite Ga, Gb in *. rewrite !V by (assumption || lia). reflexivity.
  - exists o. split; [exact E|]. split; [exact L|]. split; [|exact O].
    intros a b Ga Gb. rewrite V; [|rewrite <- Ga; apply pos_lt|rewrite <- Gb; apply pos_lt].
    rewrite <- Ga, <- Gb, !comp_at_pos. reflexivity.
Qed.

Lemma ke_integrals_ok (A B : @oshell R) out F :
  os_am A <= 18 -> os_am B <= 18 -> ncart (os_am A) * ncart (os_am B) <= length out -> half + half = c1 ->
  (forall i j, i < sh_n (os_sh A) -> j < sh_n (os_sh B) ->
     (sh_alpha (os_sh A) i + sh_alpha (os_sh B) j) * invf (sh_alpha (os_sh A) i + sh_alpha (os_sh B) j) = c1) ->
  (forall i j d, i < sh_n (os_sh A) -> j < sh_n (os_sh B) -> d < 3 ->
     prim_overlaps (sh_alpha (os_sh A) i) (sh_pos (os_sh A)) (sh_alpha (os_sh B) j) (sh_pos (os_sh B)) d (F i j d)) ->
  exists out', compute_ke invf sqrtf expf half PI A B out = Some out' /\ length out' = length out /\
    (forall a b, gam a = os_am A -> gam b = os_am B -> rdv out' (pos a * ncart (os_am B) + pos b) =
       Some (prim_sum (sh_n (os_sh A)) (sh_n (os_sh B)) (fun i j =>
               sh_coef (os_sh A) i * sh_coef (os_sh B) j *
               kin3 (F i j) (fun d => kinetic half (sh_alpha (os_sh B) j) (F i j d)) a b))) /\
    (forall p, ncart (os_am A) * ncart (os_am B) <= p -> nth_error out' p = nth_error out p).
Proof.
  intros HA HB Hout Hh Hinv HF. unfold compute_ke.
  destruct (@compute_with_ok 6 (ke_terms invf sqrtf expf half PI) (@ke_val R) A B
    (fun i j n m => kin3 (F i j) (fun d => kinetic half (sh_alpha (os_sh B) j) (F i j d))
       (comp_at (os_am A) n) (comp_at (os_am B) m)) out HA HB Hout) as [o [E [L [V O]]]].
  - intros i j w Hi Hj Lw.
    destruct (@ke_terms_ok (sh_alpha (os_sh A) i) (sh_pos (os_sh A)) (sh_alpha (os_sh B) j) (sh_pos (os_sh B))
      (S (os_am A)) (S (os_am B)) w (F i j)) as [w' [E [L [V [U _]]]]];
      [lia|lia|lia|exact Hh|apply Hinv; assumption|intros d Hd; apply HF; assumption|].
    exists w'. split; [exact E|]. split; [exact L|]. intros n m Hn Hm.
    destruct (@lookup_pos (os_am A) n HA Hn) as [a [r1 [Ga [Pa [L1 K1]]]]].
    destruct (@lookup_pos (os_am B) m HB Hm) as [b [r2 [Gb [Pb [L2 K2]]]]].
    exists r1, r2. split; [exact L1|]. split; [exact L2|]. unfold ke_val.
    rewrite !(@sidx_ok a b r1 r2 _ _ K1 K2). rewrite <- Ga, <- Gb, <- Pa, <- Pb, !comp_at_pos.
    pose proof (gexp_am DX a). pose proof (gexp_am DY a). pose proof (gexp_am DZ a).
    pose proof (gexp_am DX b). pose proof (gexp_am DY b). pose proof (gexp_am DZ b).
    rewrite Ga, Gb in *. rewrite !V by (assumption || lia).
    pose proof (U 0%nat (gexp DX a) (gexp DX b)) as U0. pose proof (U 1%nat (gexp DY a) (gexp DY b)) as U1.
    pose proof (U 2%nat (gexp DZ a) (gexp DZ b)) as U2. cbn [Nat.add] in U0, U1, U2.
    rewrite U0, U1, U2 by (assumption || lia). reflexivity.
  - exists o. split; [exact E|]. split; [exact L|]. split; [|exact O].
    intros a b Ga Gb. rewrite V; [|rewrite <- Ga; apply pos_lt|rewrite <- Gb; apply pos_lt].
    rewrite <- Ga, <- Gb, !comp_at_pos. reflexivity.
Qed.

(** ** Exchange of the two shells *)
Lemma terms_transpose al1 x1 al2 x2 n1 n2 m m' : 1 <= n1 -> 1 <= n2 ->
  3 * (n1 * n2) <= length m -> 3 * (n1 * n2) <= length m' ->
  exists t t', overlap_terms invf sqrtf expf half PI al1 x1 al2 x2 n1 n2 m = Some t /\
    overlap_terms invf sqrtf expf half PI al2 x2 al1 x1 n2 n1 m' = Some t' /\
    forall d i j, d < 3 -> i < n1 -> j < n2 ->
      exists v, rdv t (d * (n1 * n2) + (i * n2 + j)) = Some v /\ rdv t' (d * (n2 * n1) + (j * n1 + i)) = Some v.
Proof.
  intros H1 H2 HL HL'.
  destruct (@overlap_terms_ok al1 x1 al2 x2 n1 n2 m (prim_sint al1 x1 al2 x2) H1 H2 HL) as [t [E [_ [V _]]]].
  { intros d _. apply prim_sint_ok. }
  destruct (@overlap_terms_ok al2 x2 al1 x1 n2 n1 m' (fun d i j => prim_sint al1 x1 al2 x2 d j i) H2 H1 ltac:(lia)) as [t' [E' [_ [V' _]]]].
  { intros d _. apply prim_overlaps_swap. apply prim_sint_ok. }
  exists t, t'. split; [exact E|]. split; [exact E'|]. intros d i j Hd Hi Hj.
  eexists. split; [apply V; assumption|apply V'; assumption].
Qed.

Lemma prim_sum_swap n1 n2 (f : nat -> nat -> R) : prim_sum n1 n2 f = prim_sum n2 n1 (fun j i => f i j).
Proof. unfold prim_sum. apply rsum_swap. Qed.
Lemma prim_sum_ext n1 n2 (f g : nat -> nat -> R) : (forall i j, i < n1 -> j < n2 -> f i j = g i j) ->
  prim_sum n1 n2 f = prim_sum n1 n2 g.
Proof.
  clear invf sqrtf expf half PI. intros H. unfold prim_sum. apply rsum_map_ext. intros i Hi. apply in_seq in Hi. apply rsum_map_ext.
  intros j Hj. apply in_seq in Hj. apply H; lia.
Qed.

Definition pair_sint (A B : @oshell R) (i j : nat) : nat -> nat -> nat -> R :=
  prim_sint (sh_alpha (os_sh A) i) (sh_pos (os_sh A)) (sh_alpha (os_sh B) j) (sh_pos (os_sh B)).

Lemma overlap_exchange (A B : @oshell R) o1 o2 : os_am A <= 18 -> os_am B <= 18 ->
  ncart (os_am A) * ncart (os_am B) <= length o1 -> ncart (os_am A) * ncart (os_am B) <= length o2 ->
  exists r1 r2, compute_overlap invf sqrtf expf half PI A B o1 = Some r1 /\
    compute_overlap invf sqrtf expf half PI B A o2 = Some r2 /\
    forall a b, gam a = os_am A -> gam b = os_am B ->
      exists v, rdv r1 (pos a * ncart (os_am B) + pos b) = Some v /\ rdv r2 (pos b * ncart (os_am A) + pos a) = Some v.
Proof.
  intros HA HB H1 H2.
  destruct (@overlap_integrals_ok A B o1 (pair_sint A B) HA HB H1) as [r1 [E1 [_ [V1 _]]]].
  { intros i j d _ _ _. apply prim_sint_ok. }
  destruct (@overlap_integrals_ok B A o2 (fun j i d a b => pair_sint A B i j d b a) HB HA ltac:(lia)) as [r2 [E2 [_ [V2 _]]]].
  { intros i j d _ _ _. apply prim_overlaps_swap. apply prim_sint_ok. }
  exists r1, r2. split; [exact E1|]. split; [exact E2|]. intros a b Ga Gb.
  eexists. split; [apply V1; assumption|]. rewrite V2 by assumption. f_equal.
  rewrite prim_sum_swap. apply prim_sum_ext. intros i j _ _. unfold comp3. ring.
Qed.

Lemma ke_exchange (A B : @oshell R) o1 o2 : os_am A <= 18 -> os_am B <= 18 ->
  ncart (os_am A) * ncart (os_am B) <= length o1 -> ncart (os_am A) * ncart (os_am B) <= length o2 ->
  half + half = c1 ->
  (forall i j, i < sh_n (os_sh A) -> j < sh_n (os_sh B) ->
     (sh_alpha (os_sh A) i + sh_alpha (os_sh B) j) * invf (sh_alpha (os_sh A) i + sh_alpha (os_sh B) j) = c1) ->
  exists r1 r2, compute_ke invf sqrtf expf half PI A B o1 = Some r1 /\
    compute_ke invf sqrtf expf half PI B A o2 = Some r2 /\
    forall a b, gam a = os_am A -> gam b = os_am B ->
      exists v, rdv r1 (pos a * ncart (os_am B) + pos b) = Some v /\ rdv r2 (pos b * ncart (os_am A) + pos a) = Some v.
Proof.
  intros HA HB H1 H2 Hh Hi.
  destruct (@ke_integrals_ok A B o1 (pair_sint A B) HA HB H1 Hh Hi) as [r1 [E1 [_ [V1 _]]]].
  { intros i j d _ _ _. apply prim_sint_ok. }
  destruct (@ke_integrals_ok B A o2 (fun j i d a b => pair_sint A B i j d b a) HB HA ltac:(lia) Hh) as [r2 [E2 [_ [V2 _]]]].
  { intros i j Hj Hk. pose proof (Hi j i Hk Hj) as E.
    replace (sh_alpha (os_sh B) i + sh_alpha (os_sh A) j) with (sh_alpha (os_sh A) j + sh_alpha (os_sh B) i) by ring.
    exact E. }
  { intros i j d _ _ _. apply prim_overlaps_swap. apply prim_sint_ok. }
  exists r1, r2. split; [exact E1|]. split; [exact E2|]. intros a b Ga Gb.
  eexists. split; [apply V1; assumption|]. rewrite V2 by assumption. f_equal.
  rewrite prim_sum_swap. apply prim_sum_ext. intros i j Hi' Hj'. unfold kin3. cbv beta.
  assert (K : forall d u v, kinetic half (sh_alpha (os_sh A) i) (fun a b => pair_sint A B i j d b a) v u =
                            kinetic half (sh_alpha (os_sh B) j) (pair_sint A B i j d) u v).
  { intros d u v. eapply kinetic_swap; [apply prim_sint_ok|exact Hh|exact (Hi i j Hi' Hj')|reflexivity|].
    apply PA_PB. exact (Hi i j Hi' Hj'). }
  rewrite !K. ring.
Qed.
End Ints.
