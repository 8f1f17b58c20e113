(** Contraction of vectors of primitive integrals.
    Source: skel/simint/vectorization/intrinsics_scalar.h:32-87, intrinsics_sse.h:74-129,
    intrinsics_avx.h:84-193, intrinsics_avx512.h:79-176, intrinsics_asimd.h:65-121,
    intrinsics_sve.h:107-165.

    [src c n]: lane [n] of the vector of component [c].  [dest]: array of doubles; an access
    outside of it gives [None].  Rounding (hence the order of additions) is not modelled. *)
From Coq Require Import List Arith Lia Bool Ring ZArith.
Import ListNotations.
From Verif Require Import Base.
Set Implicit Arguments.

Section Contract.
Context {R : cring}.
Add Ring Rring_contract : (cth R).
Local Open Scope r_scope.

(** [dest[i] += x]. *)
Definition addat (dest : list R) (i : nat) (x : R) : option (list R) :=
  match nth_error dest i with Some y => Some (upd dest i (y + x)) | None => None end.
Fixpoint adds (l : list (nat * R)) (dest : list R) : option (list R) :=
  match l with
  | [] => Some dest
  | (i, x) :: r => match addat dest i x with Some d => adds r d | None => None end
  end.

(** [contract], the same text in all files. *)
Definition contract_ops (len nc : nat) (off : nat -> nat) (src : nat -> nat -> R) : list (nat * R) :=
  flat_map (fun n => map (fun c => ((off n * nc + c)%nat, src c n)) (seq 0 nc)) (seq 0 len).
Definition contract len nc off src := adds (contract_ops len nc off src).

(** [contract_fac]: components outside, lanes inside (SSE, AVX, AVX512, ASIMD, SVE) ... *)
Definition contract_fac_ops (len nc : nat) (fac : nat -> R) (off : nat -> nat) (src : nat -> nat -> R) : list (nat * R) :=
  flat_map (fun c => map (fun n => ((off n * nc + c)%nat, src c n * fac n)) (seq 0 len)) (seq 0 nc).
Definition contract_fac len nc fac off src := adds (contract_fac_ops len nc fac off src).
(** ... and the scalar one, intrinsics_scalar.h:60-78. *)
Definition contract_fac_scalar (nc : nat) (fac : R) (off : nat -> nat) (src : nat -> nat -> R) :=
  adds (flat_map (fun n => map (fun c => ((off n * nc + c)%nat, fac * src c n)) (seq 0 nc)) (seq 0 1)).

(** [contract_all]: scalar, SSE and AVX with gcc call [contract] with zero offsets. *)
Definition contract_all_zero (len nc : nat) (src : nat -> nat -> R) := contract len nc (fun _ => 0%nat) src.
(** ASIMD, SVE: horizontal sum per component. *)
Definition contract_all_reduce (len nc : nat) (src : nat -> nat -> R) :=
  adds (map (fun c => (c, rsum (map (src c) (seq 0 len)))) (seq 0 nc)).
(** AVX with clang or icc, intrinsics_avx.h:104-130. *)
Definition hadd (a b : nat -> R) (k : nat) : R :=
  match k with 0 => a 0%nat + a 1%nat | 1 => b 0%nat + b 1%nat | 2 => a 2%nat + a 3%nat | _ => b 2%nat + b 3%nat end.
(** [t3 = set_m128d(lo(t2) + hi(t2), lo(t1) + hi(t1))] *)
Definition avx_t3 (src : nat -> nat -> R) (n4 k : nat) : R :=
  let t1 := hadd (src n4) (src (n4 + 1)%nat) in
  let t2 := hadd (src (n4 + 2)%nat) (src (n4 + 3)%nat) in
  match k with 0 => t1 0%nat + t1 2%nat | 1 => t1 1%nat + t1 3%nat | 2 => t2 0%nat + t2 2%nat | _ => t2 1%nat + t2 3%nat end.
Definition avx_ops (nc : nat) (src : nat -> nat -> R) : list (nat * R) :=
  flat_map (fun n => map (fun k => ((n * 4 + k)%nat, avx_t3 src (n * 4) k)) (seq 0 4)) (seq 0 (nc / 4)) ++
  map (fun c => (c, src c 0%nat + src c 1%nat + src c 2%nat + src c 3%nat)) (seq (nc - nc mod 4) (nc mod 4)).
Definition contract_all_avx (nc : nat) (src : nat -> nat -> R) := adds (avx_ops nc src).
(** AVX512, intrinsics_avx512.h:99-140: [src_ptr] as a flat array, transposed through [tmp]. *)
Definition avx512_ops (nc : nat) (src : nat -> nat -> R) : list (nat * R) :=
  flat_map (fun it => map (fun j =>
      let src_ptr := fun k => src (it * 8 + k / 8)%nat (k mod 8)%nat in
      let tmp := fun i j => src_ptr (j * 8 + i)%nat in
      ((it * 8 + j)%nat, rsum (map (fun i => tmp i j) (seq 0 8)))) (seq 0 8)) (seq 0 (nc / 8)) ++
  map (fun c => (c, rsum (map (src c) (seq 0 8)))) (seq (nc / 8 * 8) (nc - nc / 8 * 8)).
Definition contract_all_avx512 (nc : nat) (src : nat -> nat -> R) := adds (avx512_ops nc src).
(** [contract_all_fac] scales the vectors first. *)
Definition scaled (fac : nat -> R) (src : nat -> nat -> R) (c n : nat) : R := fac n * src c n.

(** ** Specification *)
(** Component [c] of the lanes selected by [sel], summed. *)
Definition lanesum (len : nat) (sel : nat -> bool) (src : nat -> nat -> R) (c : nat) : R :=
  rsum (map (src c) (filter sel (seq 0 len))).
(** [out] is [dest] with, in each slot of [nc] elements, the lanes of that slot added. *)
Definition contracted (len nc : nat) (off : nat -> nat) (src : nat -> nat -> R) (dest out : list R) : Prop :=
  length out = length dest /\
  (forall s c x, c < nc -> nth_error dest (s * nc + c) = Some x ->
     nth_error out (s * nc + c) = Some (x + lanesum len (fun n => off n =? s) src c)) /\
  (nc = 0%nat -> out = dest).

(** ** Proofs *)
Definition hits (l : list (nat * R)) (i : nat) : R := rsum (map snd (filter (fun p => fst p =? i) l)).

Lemma adds_ok : forall l dest, (forall i x, In (i, x) l -> i < length dest) ->
  exists out, adds l dest = Some out /\ length out = length dest /\
    forall i x, nth_error dest i = Some x -> nth_error out i = Some (x + hits l i).
Proof.
  induction l as [|[i x] l IH]; intros dest H; cbn [adds].
  - exists dest. split; [reflexivity|]. split; [reflexivity|]. intros i x E. rewrite E. f_equal. unfold hits; simpl. ring.
  - assert (Hi : i < length dest) by (apply (H i x); left; reflexivity).
    destruct (nth_error_lt_Some dest Hi) as [y Ey]. unfold addat. rewrite Ey.
    destruct (IH (upd dest i (y + x))) as [out [E [L V]]].
    { intros j z Hj. rewrite upd_length. apply (H j z). right; exact Hj. }
    exists out. split; [exact E|]. split; [rewrite L, upd_length; reflexivity|].
    intros j z Ez. unfold hits; cbn [filter fst]. destruct (Nat.eqb_spec i j) as [->|N].
    + rewrite (V j (y + x)) by (apply nth_error_upd_same, Hi). rewrite Ey in Ez. injection Ez as <-.
      cbn [map snd rsum]. fold (hits l j). f_equal. ring.
    + rewrite (V j z) by (rewrite nth_error_upd_other by exact N; exact Ez). reflexivity.
Qed.

Lemma hits_app a b i : hits (a ++ b) i = hits a i + hits b i.
Proof. unfold hits. rewrite filter_app, map_app, rsum_app. reflexivity. Qed.
Lemma hits_flat A (f : A -> list (nat * R)) l i : hits (flat_map f l) i = rsum (map (fun a => hits (f a) i) l).
Proof. induction l as [|a l IH]; simpl; [reflexivity|]. rewrite hits_app, IH. reflexivity. Qed.
Lemma hits_none l i : (forall j x, In (j, x) l -> j <> i) -> hits l i = c0.
Proof.
  intros H. unfold hits. replace (filter (fun p => fst p =? i) l) with (@nil (nat * R)); [reflexivity|].
  symmetry. induction l as [|[j x] l IH]; [reflexivity|]. simpl.
  destruct (Nat.eqb_spec j i) as [->|]; [exfalso; apply (H i x); [left|]; reflexivity|].
  apply IH. intros k y Hy. apply (H k y). right; exact Hy.
Qed.
(** A range in which each element appears once. *)
Lemma hits_range (f : nat -> R) a b base i :
  hits (map (fun c => ((base + c)%nat, f c)) (seq a b)) i =
  if (base + a <=? i) && (i <? base + a + b) then f (i - base)%nat else c0.
Proof.
  revert a. induction b as [|b IH]; intros a; [simpl|].
  - destruct (Nat.leb_spec (base + a) i), (Nat.ltb_spec i (base + a + 0)); simpl; reflexivity || lia.
  - cbn [seq map]. change (?x :: ?l) with ([x] ++ l). rewrite hits_app, IH.
    unfold hits; cbn [filter fst]. destruct (Nat.eqb_spec (base + a) i) as [E|N]; cbn [map snd rsum].
    + replace ((base + S a <=? i) && (i <? base + S a + b)) with false
        by (symmetry; apply andb_false_iff; left; apply Nat.leb_gt; lia).
      replace ((base + a <=? i) && (i <? base + a + S b)) with true
        by (symmetry; apply andb_true_intro; split; [apply Nat.leb_le|apply Nat.ltb_lt]; lia).
      replace (i - base)%nat with a by lia. ring.
    + replace ((base + a <=? i) && (i <? base + a + S b)) with ((base + S a <=? i) && (i <? base + S a + b)); [ring|].
      destruct (Nat.leb_spec (base + S a) i), (Nat.leb_spec (base + a) i); simpl; try lia;
      destruct (Nat.ltb_spec i (base + S a + b)), (Nat.ltb_spec i (base + a + S b)); simpl; reflexivity || lia.
Qed.

Lemma rsum_filter A (p : A -> bool) (f : A -> R) l :
  rsum (map (fun a => if p a then f a else c0) l) = rsum (map f (filter p l)).
Proof. induction l as [|a l IH]; simpl; [reflexivity|]. destruct (p a); simpl; rewrite IH; ring. Qed.

Lemma split_unique nc s s' c c' : c < nc -> c' < nc -> (s * nc + c = s' * nc + c')%nat -> s = s' /\ c = c'.
Proof.
  intros H H' E. assert (s = s').
  { destruct (Nat.lt_trichotomy s s') as [L|[L|L]]; [|exact L|]; exfalso;
    [pose proof (Nat.mul_le_mono_r (S s) s' nc L)|pose proof (Nat.mul_le_mono_r (S s') s nc L)]; simpl in *; lia. }
  subst. split; [reflexivity|lia].
Qed.
Lemma slot_test nc s s' c : c < nc -> (s' * nc + 0 <=? s * nc + c) && (s * nc + c <? s' * nc + 0 + nc) = (s' =? s).
Proof.
  intros H. destruct (Nat.eqb_spec s' s) as [->|N].
  - apply andb_true_intro. split; [apply Nat.leb_le|apply Nat.ltb_lt]; lia.
  - apply andb_false_iff. rewrite Nat.leb_gt, Nat.ltb_ge. destruct (Nat.lt_trichotomy s' s) as [L|[L|L]]; [right|lia|left]; nia.
Qed.

Lemma ops_contracted len nc off src dest ops :
  (forall i x, In (i, x) ops -> exists n c, n < len /\ c < nc /\ i = (off n * nc + c)%nat) ->
  (forall n, n < len -> off n * nc + nc <= length dest) ->
  (forall s c, c < nc -> hits ops (s * nc + c) = lanesum len (fun n => off n =? s) src c) ->
  exists out, adds ops dest = Some out /\ contracted len nc off src dest out.
Proof.
  intros H1 H2 H3. destruct (@adds_ok ops dest) as [out [E [L V]]].
  { intros i x Hx. destruct (H1 i x Hx) as [n [c [Hn [Hc ->]]]]. specialize (H2 n Hn). lia. }
  exists out. split; [exact E|]. split; [exact L|]. split.
  - intros s c x Hc Ex. rewrite (V _ _ Ex), H3 by exact Hc. reflexivity.
  - intros Hz. apply nth_error_ext. intros i. destruct (nth_error dest i) as [x|] eqn:Ex.
    + rewrite (V _ _ Ex). f_equal. rewrite hits_none; [ring|].
      intros j y Hy _. destruct (H1 j y Hy) as [n [c [_ [Hc _]]]]. lia.
    + apply nth_error_None. rewrite L. apply nth_error_None, Ex.
Qed.

Lemma in_contract_ops len nc off src i x : In (i, x) (contract_ops len nc off src) ->
  exists n c, n < len /\ c < nc /\ i = (off n * nc + c)%nat.
Proof.
  intros H. apply in_flat_map in H as [n [Hn H]]. apply in_map_iff in H as [c [E Hc]].
  apply in_seq in Hn, Hc. injection E as <- _. exists n, c. repeat split; lia.
Qed.
Lemma contract_hits len nc off src s c : c < nc ->
  hits (contract_ops len nc off src) (s * nc + c) = lanesum len (fun n => off n =? s) src c.
Proof.
  intros Hc. unfold contract_ops. rewrite hits_flat. unfold lanesum. rewrite <- rsum_filter.
  apply rsum_map_ext. intros n _. rewrite (hits_range (fun c => src c n)), slot_test by exact Hc.
  destruct (Nat.eqb_spec (off n) s) as [->|]; [|reflexivity]. f_equal. lia.
Qed.

Theorem contract_ok len nc off src dest : (forall n, n < len -> off n * nc + nc <= length dest) ->
  exists out, contract len nc off src dest = Some out /\ contracted len nc off src dest out.
Proof. intros H. apply ops_contracted; [apply in_contract_ops|exact H|]. intros s c Hc. apply contract_hits, Hc. Qed.

Lemma hits_single (f : nat -> R) (g : nat -> nat) l i :
  hits (map (fun n => (g n, f n)) l) i = rsum (map f (filter (fun n => g n =? i) l)).
Proof.
  induction l as [|n l IH]; [reflexivity|]. cbn [map]. change (?x :: ?l) with ([x] ++ l). rewrite hits_app, IH.
  cbn [app]. unfold hits; cbn [filter fst]. destruct (g n =? i); cbn [map snd rsum]; ring.
Qed.

Theorem contract_fac_ok len nc fac off src dest : (forall n, n < len -> off n * nc + nc <= length dest) ->
  exists out, contract_fac len nc fac off src dest = Some out /\
    contracted len nc off (fun c n => src c n * fac n) dest out.
Proof.
  intros H. apply ops_contracted; [|exact H|].
  - intros i x Hx. apply in_flat_map in Hx as [c [Hc Hx]]. apply in_map_iff in Hx as [n [E Hn]].
    apply in_seq in Hn, Hc. injection E as <- _. exists n, c. repeat split; lia.
  - intros s c Hc. unfold contract_fac_ops. rewrite hits_flat.
    assert (E : forall c', In c' (seq 0 nc) -> hits (map (fun n => ((off n * nc + c')%nat, src c' n * fac n)) (seq 0 len)) (s * nc + c) =
      if c' =? c then lanesum len (fun n => off n =? s) (fun c n => src c n * fac n) c else c0).
    { intros c' Hc'. apply in_seq in Hc'. rewrite (hits_single (fun n => src c' n * fac n) (fun n => off n * nc + c')%nat).
      destruct (Nat.eqb_spec c' c) as [->|N].
      - unfold lanesum. f_equal. f_equal. apply filter_ext. intros n.
        destruct (Nat.eqb_spec (off n) s) as [->|M]; [apply Nat.eqb_refl|]. apply Nat.eqb_neq. intros E. apply split_unique in E; [|lia|lia]. tauto.
      - replace (filter (fun n => off n * nc + c' =? s * nc + c) (seq 0 len)) with (@nil nat); [reflexivity|].
        symmetry. induction (seq 0 len) as [|n l IH]; [reflexivity|]. simpl.
        destruct (Nat.eqb_spec (off n * nc + c') (s * nc + c)) as [E|]; [|exact IH]. apply split_unique in E; [|lia|lia]. tauto. }
    rewrite (rsum_map_ext _ _ _ E). rewrite rsum_filter.
    assert (Ef : filter (fun c' => c' =? c) (seq 0 nc) = [c]).
    { clear E. assert (G : forall a b, a <= c < a + b -> filter (fun c' => c' =? c) (seq a b) = [c]).
      { intros a b. revert a. induction b as [|b IH]; intros a Hab; [lia|]. simpl.
        destruct (Nat.eqb_spec a c) as [->|].
        - f_equal. clear IH. assert (G : forall m k, c < k -> filter (fun c' => c' =? c) (seq k m) = []).
          { induction m as [|m IHm]; intros k Hk; [reflexivity|]. simpl.
            destruct (Nat.eqb_spec k c); [lia|]. apply IHm. lia. }
          apply G. lia.
        - apply IH. lia. }
      apply G. lia. }
    rewrite Ef. simpl. ring.
Qed.

Theorem contract_fac_scalar_ok nc fac off src dest : off 0%nat * nc + nc <= length dest ->
  exists out, contract_fac_scalar nc fac off src dest = Some out /\
    contracted 1 nc off (fun c n => src c n * fac) dest out.
Proof.
  intros H. apply ops_contracted.
  - intros i x Hx. apply (@in_contract_ops 1 nc off (fun c n => fac * src c n) i x Hx).
  - intros n Hn. replace n with 0 by lia. exact H.
  - intros s c Hc. etransitivity; [exact (@contract_hits 1 nc off (fun c n => fac * src c n) s c Hc)|].
    unfold lanesum. apply rsum_map_ext. intros n _. ring.
Qed.

(** The all-to-one forms. *)
Lemma all_hits len src c : lanesum len (fun _ => 0 =? 0) src c = rsum (map (src c) (seq 0 len)).
Proof. unfold lanesum. f_equal. f_equal. induction (seq 0 len) as [|n l IH]; simpl; [reflexivity|]. f_equal. exact IH. Qed.

Lemma all_ops len nc src dest ops : 0 < len -> nc <= length dest ->
  (forall i x, In (i, x) ops -> i < nc) ->
  (forall c, c < nc -> hits ops c = rsum (map (src c) (seq 0 len))) ->
  exists out, adds ops dest = Some out /\ contracted len nc (fun _ => 0) src dest out.
Proof.
  intros Hl Hd H1 H2. apply ops_contracted.
  - intros i x Hx. exists 0, i. apply H1 in Hx. repeat split; lia.
  - intros n _. lia.
  - intros [|s] c Hc.
    + rewrite all_hits. cbn [Nat.mul Nat.add]. apply H2, Hc.
    + rewrite hits_none.
      * unfold lanesum. replace (filter (fun _ => 0 =? S s) (seq 0 len)) with (@nil nat); [reflexivity|].
        symmetry. clear Hl H2. induction (seq 0 len) as [|n l IH]; [reflexivity|]. exact IH.
      * intros j x Hj E. apply H1 in Hj. subst j. lia.
Qed.

Theorem contract_all_zero_ok len nc src dest : 0 < len -> nc <= length dest ->
  exists out, contract_all_zero len nc src dest = Some out /\ contracted len nc (fun _ => 0) src dest out.
Proof. intros Hl H. apply contract_ok. intros n _. lia. Qed.

Lemma hits_seq (f : nat -> R) a b c : hits (map (fun c => (c, f c)) (seq a b)) c = if (a <=? c) && (c <? a + b) then f c else c0.
Proof. rewrite (hits_range f a b 0). simpl. rewrite Nat.sub_0_r. reflexivity. Qed.

Theorem contract_all_reduce_ok len nc src dest : 0 < len -> nc <= length dest ->
  exists out, contract_all_reduce len nc src dest = Some out /\ contracted len nc (fun _ => 0) src dest out.
Proof.
  intros Hl H. apply all_ops; auto.
  - intros i x Hx. apply in_map_iff in Hx as [c [E Hc]]. apply in_seq in Hc. injection E as <- _. lia.
  - intros c Hc. rewrite hits_seq. replace (0 <=? c) with true by reflexivity.
    destruct (Nat.ltb_spec c (0 + nc)); [reflexivity|lia].
Qed.

(** Blocks of [k] followed by the rest. *)
Lemma hits_blocks (f : nat -> R) (k nb base c : nat) : 0 < k ->
  hits (flat_map (fun n => map (fun j => ((n * k + j)%nat, f (n * k + j)%nat)) (seq 0 k)) (seq base nb)) c =
  if (base * k <=? c) && (c <? (base + nb) * k) then f c else c0.
Proof.
  intros Hk. revert base. induction nb as [|nb IH]; intros base; cbn [seq flat_map].
  - unfold hits; simpl. destruct (Nat.leb_spec (base * k) c), (Nat.ltb_spec c ((base + 0) * k)); simpl; reflexivity || lia.
  - rewrite hits_app, IH.
    rewrite (hits_range (fun j => f (base * k + j)%nat)).
    replace ((S base + nb) * k)%nat with (base * k + k + nb * k)%nat by ring.
    replace ((base + S nb) * k)%nat with (base * k + k + nb * k)%nat by ring.
    replace (S base * k)%nat with (base * k + k)%nat by ring.
    generalize (nb * k)%nat; intros nbk.
    destruct (Nat.leb_spec (base * k + 0) c); destruct (Nat.ltb_spec c (base * k + 0 + k)); cbn [andb];
    destruct (Nat.leb_spec (base * k + k) c); destruct (Nat.ltb_spec c (base * k + k + nbk)); cbn [andb];
    destruct (Nat.leb_spec (base * k) c); cbn [andb];
    try lia; try ring.
    replace (base * k + (c - base * k))%nat with c by lia. ring.
Qed.

Lemma map_ext_flat A B C (f g : A -> B -> C) (lb : list B) la :
  (forall a b, In b lb -> f a b = g a b) -> flat_map (fun a => map (f a) lb) la = flat_map (fun a => map (g a) lb) la.
Proof. intros H. induction la as [|a la IH]; simpl; [reflexivity|]. rewrite IH. f_equal. apply map_ext_in. intros b Hb. apply H, Hb. Qed.

Theorem contract_all_avx_ok nc src dest : nc <= length dest ->
  exists out, contract_all_avx nc src dest = Some out /\ contracted 4 nc (fun _ => 0) src dest out.
Proof.
  intros H. pose proof (Nat.div_mod nc 4 ltac:(lia)) as D. pose proof (Nat.mod_upper_bound nc 4 ltac:(lia)) as M.
  assert (E : avx_ops nc src =
    flat_map (fun n => map (fun k => ((n * 4 + k)%nat, rsum (map (src (n * 4 + k)%nat) (seq 0 4)))) (seq 0 4)) (seq 0 (nc / 4)) ++
    map (fun c => (c, rsum (map (src c) (seq 0 4)))) (seq (nc - nc mod 4) (nc mod 4))).
  { unfold avx_ops. f_equal.
    - apply map_ext_flat. intros n k Hk. apply in_seq in Hk.
      destruct k as [|[|[|[|k]]]]; try lia; unfold avx_t3, hadd; cbn [seq map rsum]; rewrite ?Nat.add_0_r; f_equal; ring.
    - apply map_ext. intros c. cbn [seq map rsum]. f_equal. ring. }
  unfold contract_all_avx. rewrite E. apply all_ops; [lia|exact H| |].
  - intros i x Hx. apply in_app_iff in Hx as [Hx|Hx].
    + apply in_flat_map in Hx as [n [Hn Hx]]. apply in_map_iff in Hx as [k [Ex Hk]].
      apply in_seq in Hn, Hk. injection Ex as <- _. lia.
    + apply in_map_iff in Hx as [c [Ex Hc]]. apply in_seq in Hc. injection Ex as <- _. lia.
  - intros c Hc. rewrite hits_app, (hits_blocks (fun c => rsum (map (src c) (seq 0 4)))), hits_seq by lia.
    destruct (Nat.leb_spec (0 * 4) c); destruct (Nat.ltb_spec c ((0 + nc / 4) * 4)); cbn [andb];
    destruct (Nat.leb_spec (nc - nc mod 4) c); destruct (Nat.ltb_spec c (nc - nc mod 4 + nc mod 4)); cbn [andb]; try lia; ring.
Qed.

Theorem contract_all_avx512_ok nc src dest : nc <= length dest ->
  exists out, contract_all_avx512 nc src dest = Some out /\ contracted 8 nc (fun _ => 0) src dest out.
Proof.
  intros H. pose proof (Nat.div_mod nc 8 ltac:(lia)) as D. pose proof (Nat.mod_upper_bound nc 8 ltac:(lia)) as M.
  assert (E : avx512_ops nc src =
    flat_map (fun n => map (fun k => ((n * 8 + k)%nat, rsum (map (src (n * 8 + k)%nat) (seq 0 8)))) (seq 0 8)) (seq 0 (nc / 8)) ++
    map (fun c => (c, rsum (map (src c) (seq 0 8)))) (seq (nc / 8 * 8) (nc - nc / 8 * 8))).
  { unfold avx512_ops. f_equal. (* positions in [tmp] are concrete *) }
  unfold contract_all_avx512. rewrite E. apply all_ops; [lia|exact H| |].
  - intros i x Hx. apply in_app_iff in Hx as [Hx|Hx].
    + apply in_flat_map in Hx as [n [Hn Hx]]. apply in_map_iff in Hx as [k [Ex Hk]].
      apply in_seq in Hn, Hk. injection Ex as <- _. lia.
    + apply in_map_iff in Hx as [c [Ex Hc]]. apply in_seq in Hc. injection Ex as <- _. lia.
  - intros c Hc. rewrite hits_app, (hits_blocks (fun c => rsum (map (src c) (seq 0 8)))), hits_seq by lia.
    destruct (Nat.leb_spec (0 * 8) c); destruct (Nat.ltb_spec c ((0 + nc / 8) * 8)); cbn [andb];
    destruct (Nat.leb_spec (nc / 8 * 8) c); destruct (Nat.ltb_spec c (nc / 8 * 8 + (nc - nc / 8 * 8))); cbn [andb]; try lia; ring.
Qed.
End Contract.
