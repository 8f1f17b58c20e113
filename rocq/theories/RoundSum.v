(** Contraction of vectors of primitive integrals with rounding.
    Source: skel/simint/vectorization/intrinsics_scalar.h:32-87, intrinsics_sse.h:74-129,
    intrinsics_avx.h:84-193, intrinsics_avx512.h:79-176, intrinsics_asimd.h:65-121,
    intrinsics_sve.h:107-165.

    The functions of Contract.v again, but every addition and multiplication of the code is followed by [rnd]; the order of
    the additions is that of the text.  [rnd] is any function with a bounded relative error: overflow, and underflow of the
    products of the forms with a factor, are left out.  A compiler that fuses a multiplication with an addition is left out. *)
From Coq Require Import List Arith Reals Lra Lia Permutation.
Import ListNotations.
From Verif Require Import Base Contract KernelSpec Normalize.
Local Open Scope R_scope.

(** ** Model *)
Section Model.
Variable rnd : R -> R.
Definition radd (a b : R) : R := rnd (a + b).
Definition rmul (a b : R) : R := rnd (a * b).
(** [dest[i] += x]. *)
Definition raddat (dest : list R) (i : nat) (x : R) : option (list R) :=
  match nth_error dest i with Some y => Some (upd dest i (radd y x)) | None => None end.
Fixpoint radds (l : list (nat * R)) (dest : list R) : option (list R) :=
  match l with
  | [] => Some dest
  | (i, x) :: r => match raddat dest i x with Some d => radds r d | None => None end
  end.
(** [contract], the same text in all files (intrinsics_avx.h:84-100). *)
Definition lanes_ops {T : Type} (len nc : nat) (off : nat -> nat) (src : nat -> nat -> T) : list (nat * T) :=
  flat_map (fun n => map (fun c => ((off n * nc + c)%nat, src c n)) (seq 0 nc)) (seq 0 len).
Definition rcontract (len nc : nat) (off : nat -> nat) (src : nat -> nat -> R) : list R -> option (list R) := radds (lanes_ops len nc off src).
(** [contract_fac] (intrinsics_avx.h:138-152 and the same in SSE, AVX512, ASIMD, SVE). *)
Definition comps_ops {T : Type} (len nc : nat) (off : nat -> nat) (src : nat -> nat -> T) : list (nat * T) :=
  flat_map (fun c => map (fun n => ((off n * nc + c)%nat, src c n)) (seq 0 len)) (seq 0 nc).
Definition rcontract_fac (len nc : nat) (fac : nat -> R) (off : nat -> nat) (src : nat -> nat -> R) : list R -> option (list R) :=
  radds (comps_ops len nc off (fun c n => rmul (src c n) (fac n))).
(** [contract_all], AVX with clang or icc (intrinsics_avx.h:104-130). *)
Definition rhadd (a b : nat -> R) (k : nat) : R :=
  match k with 0 => radd (a 0%nat) (a 1%nat) | 1 => radd (b 0%nat) (b 1%nat) | 2 => radd (a 2%nat) (a 3%nat) | _ => radd (b 2%nat) (b 3%nat) end.
Definition ravx_t3 (src : nat -> nat -> R) (n4 k : nat) : R :=
  let t1 := rhadd (src n4) (src (n4 + 1)%nat) in
  let t2 := rhadd (src (n4 + 2)%nat) (src (n4 + 3)%nat) in
  match k with 0 => radd (t1 0%nat) (t1 2%nat) | 1 => radd (t1 1%nat) (t1 3%nat) | 2 => radd (t2 0%nat) (t2 2%nat) | _ => radd (t2 1%nat) (t2 3%nat) end.
Definition ravx_ops (nc : nat) (src : nat -> nat -> R) : list (nat * R) :=
  flat_map (fun n => map (fun k => ((n * 4 + k)%nat, ravx_t3 src (n * 4) k)) (seq 0 4)) (seq 0 (nc / 4)) ++
  map (fun c => (c, radd (radd (radd (src c 0%nat) (src c 1%nat)) (src c 2%nat)) (src c 3%nat))) (seq (nc - nc mod 4) (nc mod 4)).
Definition rcontract_all_avx (nc : nat) (src : nat -> nat -> R) : list R -> option (list R) := radds (ravx_ops nc src).
(** The sum over the lanes by one instruction ([_mm512_reduce_add_pd], [vaddvq_f64], [svaddv_f64]): some order of additions. *)
Inductive order := Lane (n : nat) | Plus (a b : order).
Fixpoint leaves (o : order) : list nat := match o with Lane n => [n] | Plus a b => leaves a ++ leaves b end.
Fixpoint rsum_in (o : order) (v : nat -> R) : R := match o with Lane n => v n | Plus a b => radd (rsum_in a v) (rsum_in b v) end.
Variable red : order.
(** [contract_all], ASIMD and SVE (intrinsics_asimd.h:84-91, intrinsics_sve.h:126-133). *)
Definition rcontract_all_reduce (nc : nat) (src : nat -> nat -> R) : list R -> option (list R) :=
  radds (map (fun c => (c, rsum_in red (src c))) (seq 0 nc)).
(** [contract_all], AVX512 (intrinsics_avx512.h:99-140): [res] begins with [dest], lane after lane is added; then the rest. *)
Definition ravx512_ops (nc : nat) (src : nat -> nat -> R) : list (nat * R) :=
  flat_map (fun it => flat_map (fun i => map (fun j => ((it * 8 + j)%nat, src (it * 8 + j)%nat i)) (seq 0 8)) (seq 0 8)) (seq 0 (nc / 8)) ++
  map (fun c => (c, rsum_in red (src c))) (seq (nc / 8 * 8) (nc - nc / 8 * 8)).
Definition rcontract_all_avx512 (nc : nat) (src : nat -> nat -> R) : list R -> option (list R) := radds (ravx512_ops nc src).
(** The form of each header. *)
Definition rcall (k : call_kind) (len nc : nat) : (nat -> nat -> R) -> list R -> option (list R) :=
  match k with
  | CallZero => rcontract len nc (fun _ => 0%nat)
  | CallReduce => rcontract_all_reduce nc
  | CallAvx => rcontract_all_avx nc
  | CallAvx512 => rcontract_all_avx512 nc
  end.
(** [contract_all_fac]: the lanes are multiplied first; without special instructions it is [contract_fac] with zero offsets, and for
    AVX512 one reduction per component (intrinsics_avx.h:155-193, intrinsics_avx512.h:159-176, intrinsics_asimd.h:112-120). *)
Definition rscaled (fac : nat -> R) (src : nat -> nat -> R) (c n : nat) : R := rmul (fac n) (src c n).
Definition rcall_fac (k : call_kind) (len nc : nat) (fac : nat -> R) (src : nat -> nat -> R) : list R -> option (list R) :=
  match k with
  | CallZero => rcontract_fac len nc fac (fun _ => 0%nat) src
  | CallReduce | CallAvx512 => rcontract_all_reduce nc (rscaled fac src)
  | CallAvx => rcontract_all_avx nc (rscaled fac src)
  end.
(** A call of a kernel: all lanes to one place, or each lane to the place of its shell pair. *)
Inductive call := All (k : call_kind) (src : nat -> nat -> R) | Each (off : nat -> nat) (src : nat -> nat -> R).
Definition rone (len nc : nat) (c : call) : list R -> option (list R) :=
  match c with All k src => rcall k len nc src | Each off src => rcontract len nc off src end.
(** The calls of a kernel one after the other. *)
Fixpoint rcalls (len nc : nat) (l : list call) (dest : list R) : option (list R) :=
  match l with [] => Some dest | c :: r => match rone len nc c dest with Some d => rcalls len nc r d | None => None end end.
End Model.

(** ** Specification *)
(** Rounding with relative error at most [u]. *)
Definition rounding (u : R) (rnd : R -> R) : Prop := 0 <= u /\ forall x, Rabs (rnd x - x) <= u * Rabs x.
(** [x] is [v] up to [k] rounding errors relative to [A], a bound for [v]. *)
Definition near (u : R) (k : nat) (x v A : R) : Prop := Rabs v <= A /\ Rabs (x - v) <= ((1 + u) ^ k - 1) * A.
Definition total (l : list R) : R := fold_right Rplus 0 l.
(** What a call adds to component [c] of slot [s]: the lanes [n] with [off n = s]. *)
Definition added (len : nat) (off : nat -> nat) (src : nat -> nat -> R) (s c : nat) : R :=
  total (map (src c) (filter (fun n => (off n =? s)%nat) (seq 0 len))).
(** [out] is [dest] with the lanes added, with [k] more rounding errors; the lanes are given up to [j]. *)
Definition sums_near (u : R) (k j len nc : nat) (off : nat -> nat) (w B : nat -> nat -> R) (dest out : list R) : Prop :=
  length out = length dest /\
  forall s c x v A m, (c < nc)%nat -> nth_error dest (s * nc + c) = Some x -> near u m x v A ->
    exists y, nth_error out (s * nc + c) = Some y /\ near u (max m j + k) y (v + added len off w s c) (A + added len off B s c).
(** An order of additions that has every lane once. *)
Definition full (len : nat) (o : order) : Prop := Permutation (leaves o) (seq 0 len).
Definition call_off (c : call) : nat -> nat := match c with All _ _ => fun _ => 0%nat | Each off _ => off end.
Definition call_src (c : call) : nat -> nat -> R := match c with All _ src => src | Each _ src => src end.
Definition call_fits (len nc size : nat) (c : call) : Prop :=
  match c with All k _ => kind_len k len | Each _ _ => True end /\ forall n, (n < len)%nat -> (call_off c n * nc + nc <= size)%nat.

(** ** Errors *)
Section Error.
Variables (u : R) (rnd : R -> R).
Hypothesis Hr : rounding u rnd.
Let Hu : 0 <= u. Proof. exact (proj1 Hr). Qed.
Lemma pow_ge1 k : 1 <= (1 + u) ^ k. Proof. apply pow_R1_Rle. lra. Qed.
Lemma near_mono k k' x v A : (k <= k')%nat -> near u k x v A -> near u k' x v A.
Proof.
  intros H [HA HE]. split; [exact HA|]. apply Rle_trans with (1 := HE). apply Rmult_le_compat_r; [pose proof (Rabs_pos v); lra|].
  assert ((1 + u) ^ k <= (1 + u) ^ k') by (apply Rle_pow; [lra|exact H]). lra.
Qed.
Lemma near_self x : near u 0 x x (Rabs x).
Proof. split; [lra|]. replace (x - x) with 0 by ring. rewrite Rabs_R0. simpl. lra. Qed.
Lemma near_add k x v A y w B : near u k x v A -> near u k y w B -> near u (S k) (radd rnd x y) (v + w) (A + B).
Proof.
  intros [HA HE] [HB HF]. unfold radd. pose proof (proj2 Hr (x + y)) as Hn. split.
  - apply Rle_trans with (1 := Rabs_triang v w). lra.
  - assert (E1 : Rabs (x + y - (v + w)) <= ((1 + u) ^ k - 1) * (A + B)).
    { replace (x + y - (v + w)) with ((x - v) + (y - w)) by ring. apply Rle_trans with (1 := Rabs_triang _ _). lra. }
    assert (E2 : Rabs (x + y) <= (A + B) + ((1 + u) ^ k - 1) * (A + B)).
    { replace (x + y) with ((v + w) + (x + y - (v + w))) by ring. apply Rle_trans with (1 := Rabs_triang _ _). pose proof (Rabs_triang v w). lra. }
    replace (rnd (x + y) - (v + w)) with ((rnd (x + y) - (x + y)) + (x + y - (v + w))) by ring. apply Rle_trans with (1 := Rabs_triang _ _).
    assert (E3 : u * Rabs (x + y) <= u * ((A + B) + ((1 + u) ^ k - 1) * (A + B))) by (apply Rmult_le_compat_l; assumption).
    replace (((1 + u) ^ S k - 1) * (A + B)) with (u * ((A + B) + ((1 + u) ^ k - 1) * (A + B)) + ((1 + u) ^ k - 1) * (A + B)) by (simpl; ring). lra.
Qed.
Lemma near_mul x y : near u 1 (rmul rnd x y) (x * y) (Rabs (x * y)).
Proof. split; [lra|]. unfold rmul. pose proof (proj2 Hr (x * y)). simpl. lra. Qed.
(** Values added to [x] one after the other. *)
Lemma near_fold j (ys ws Bs : nat -> R) l : (forall n, In n l -> near u j (ys n) (ws n) (Bs n)) -> forall m x v A, near u m x v A ->
  near u (max m j + length l) (fold_left (radd rnd) (map ys l) x) (v + total (map ws l)) (A + total (map Bs l)).
Proof.
  induction l as [|n l IH]; intros H m x v A N; cbn [map fold_left total fold_right length].
  - rewrite !Rplus_0_r. apply (near_mono m); [lia|exact N].
  - assert (N' : near u (S (max m j)) (radd rnd x (ys n)) (v + ws n) (A + Bs n)).
    { apply near_add; [apply (near_mono m); [lia|exact N]|apply (near_mono j); [lia|apply H; now left]]. }
    specialize (IH (fun q Hq => H q (or_intror Hq)) _ _ _ _ N'). fold (total (map ws l)) (total (map Bs l)).
    rewrite <- !Rplus_assoc. apply (near_mono (max (S (max m j)) j + length l)); [lia|exact IH].
Qed.
(** A sum in any order. *)
Lemma leaves_pos o : (1 <= length (leaves o))%nat.
Proof. induction o as [n|a IHa b IHb]; simpl; [lia|]. rewrite app_length. lia. Qed.
Lemma total_app a b : total (a ++ b) = total a + total b.
Proof. induction a as [|x a IH]; simpl; [ring|]. fold (total (a ++ b)) (total a). rewrite IH. ring. Qed.
Lemma total_perm a b : Permutation a b -> total a = total b.
Proof. induction 1 as [|x a b _ IH|x y a|a b c _ IH1 _ IH2]; simpl; [reflexivity| | |congruence]. - fold (total a) (total b). now rewrite IH. - ring. Qed.
Lemma near_order j (ys ws Bs : nat -> R) o : (forall n, In n (leaves o) -> near u j (ys n) (ws n) (Bs n)) ->
  near u (j + (length (leaves o) - 1)) (rsum_in rnd o ys) (total (map ws (leaves o))) (total (map Bs (leaves o))).
Proof.
  induction o as [n|a IHa b IHb]; intros H; cbn [leaves rsum_in map total fold_right length].
  - rewrite !Rplus_0_r. apply (near_mono j); [lia|apply H; now left].
  - rewrite !map_app, !total_app, app_length. pose proof (leaves_pos a). pose proof (leaves_pos b).
    apply (near_mono (S (j + (length (leaves a) + length (leaves b) - 2)))); [lia|].
    apply near_add; [eapply near_mono; [|apply IHa]|eapply near_mono; [|apply IHb]]; try lia; intros; apply H; cbn [leaves]; apply in_app_iff; auto.
Qed.
Lemma near_full j (ys ws Bs : nat -> R) o len : full len o -> (forall n, (n < len)%nat -> near u j (ys n) (ws n) (Bs n)) ->
  near u (j + (len - 1)) (rsum_in rnd o ys) (total (map ws (seq 0 len))) (total (map Bs (seq 0 len))).
Proof.
  intros F H. rewrite <- (total_perm _ _ (Permutation_map ws F)), <- (total_perm _ _ (Permutation_map Bs F)).
  replace len with (length (leaves o)) at 1 by (rewrite (Permutation_length F), seq_length; reflexivity).
  apply near_order. intros n Hn. apply H. apply (Permutation_in _ F), in_seq in Hn. lia.
Qed.

(** ** Which values reach which element *)
End Error.
Definition hitl {T : Type} (l : list (nat * T)) (i : nat) : list T := map snd (filter (fun p => (fst p =? i)%nat) l).
Lemma hitl_app T (a b : list (nat * T)) i : hitl (a ++ b) i = hitl a i ++ hitl b i.
Proof. unfold hitl. now rewrite filter_app, map_app. Qed.
Lemma hitl_flat A T (f : A -> list (nat * T)) l i : hitl (flat_map f l) i = flat_map (fun a => hitl (f a) i) l.
Proof. induction l as [|a l IH]; simpl; [reflexivity|]. now rewrite hitl_app, IH. Qed.
Lemma hitl_map A T (g : A -> nat) (f : A -> T) l i : hitl (map (fun n => (g n, f n)) l) i = map f (filter (fun n => (g n =? i)%nat) l).
Proof. induction l as [|n l IH]; [reflexivity|]. unfold hitl in *. simpl. destruct (g n =? i)%nat; simpl; now rewrite IH. Qed.
Lemma filter_le A (p : A -> bool) l : (length (filter p l) <= length l)%nat.
Proof. induction l as [|a l IH]; simpl; [lia|]. destruct (p a); simpl; lia. Qed.
Lemma in_range a c b : (a <= c < b)%nat -> ((a <=? c) && (c <? b))%nat%bool = true.
Proof. intros H. apply andb_true_intro. split; [apply Nat.leb_le|apply Nat.ltb_lt]; lia. Qed.
Lemma off_range a c b : ~ (a <= c < b)%nat -> ((a <=? c) && (c <? b))%nat%bool = false.
Proof. intros H. apply Bool.andb_false_iff. rewrite Nat.leb_gt, Nat.ltb_ge. lia. Qed.
Lemma filter_at b : forall a c (p : nat -> bool), (forall n, (a <= n < a + b)%nat -> p n = (n =? c)%nat) ->
  filter p (seq a b) = if ((a <=? c) && (c <? a + b))%nat%bool then [c] else [].
Proof.
  induction b as [|b IH]; intros a c p H; simpl.
  - destruct (Nat.leb_spec a c), (Nat.ltb_spec c (a + 0)); simpl; reflexivity || lia.
  - rewrite (H a) by lia. rewrite (IH (S a) c p) by (intros; apply H; lia).
    destruct (Nat.eqb_spec a c) as [E|N].
    + rewrite (off_range (S a)), (in_range a) by lia. now subst.
    + destruct (Nat.lt_ge_cases a c) as [L1|L1], (Nat.lt_ge_cases c (a + S b)) as [L2|L2].
      * rewrite (in_range (S a)), (in_range a) by lia. reflexivity.
      * rewrite (off_range (S a)), (off_range a) by lia. reflexivity.
      * rewrite (off_range (S a)), (off_range a) by lia. reflexivity.
      * rewrite (off_range (S a)), (off_range a) by lia. reflexivity.
Qed.
Lemma flat_at T (L : list T) c : forall b a, flat_map (fun n => if (n =? c)%nat then L else []) (seq a b) = if ((a <=? c) && (c <? a + b))%nat%bool then L else [].
Proof.
  induction b as [|b IH]; intros a; simpl.
  - destruct (Nat.leb_spec a c), (Nat.ltb_spec c (a + 0)); simpl; reflexivity || lia.
  - rewrite (IH (S a)).
    destruct (Nat.eqb_spec a c) as [E|N].
    + rewrite (off_range (S a)), (in_range a) by lia. apply app_nil_r.
    + destruct (Nat.lt_ge_cases a c) as [L1|L1], (Nat.lt_ge_cases c (a + S b)) as [L2|L2].
      * rewrite (in_range (S a)), (in_range a) by lia. reflexivity.
      * rewrite (off_range (S a)), (off_range a) by lia. reflexivity.
      * rewrite (off_range (S a)), (off_range a) by lia. reflexivity.
      * rewrite (off_range (S a)), (off_range a) by lia. reflexivity.
Qed.
Lemma flat_ext A T (f g : A -> list T) l : (forall a, In a l -> f a = g a) -> flat_map f l = flat_map g l.
Proof. intros H. induction l as [|a l IH]; [reflexivity|]. simpl. rewrite (H a (or_introl eq_refl)), IH; [reflexivity|]. intros; apply H; now right. Qed.
Lemma slots nc s s' c c' : (c < nc)%nat -> (c' < nc)%nat -> (s' * nc + c' =? s * nc + c)%nat = ((s' =? s) && (c' =? c))%nat%bool.
Proof.
  intros H H'. destruct (Nat.eqb_spec (s' * nc + c') (s * nc + c)) as [E|N].
  - apply split_unique in E; [|lia|lia]. destruct E as [-> ->]. now rewrite !Nat.eqb_refl.
  - destruct (Nat.eqb_spec s' s) as [->|]; [|reflexivity]. destruct (Nat.eqb_spec c' c) as [->|]; [contradiction|reflexivity].
Qed.
Lemma flat_filter A T (p : A -> bool) (f : A -> T) l : flat_map (fun a => if p a then [f a] else []) l = map f (filter p l).
Proof. induction l as [|a l IH]; simpl; [reflexivity|]. destruct (p a); simpl; now rewrite IH. Qed.
Lemma lanes_hitl T len nc off (src : nat -> nat -> T) s c : (c < nc)%nat ->
  hitl (lanes_ops len nc off src) (s * nc + c) = map (src c) (filter (fun n => (off n =? s)%nat) (seq 0 len)).
Proof.
  intros Hc. unfold lanes_ops. rewrite hitl_flat, <- flat_filter. apply flat_ext. intros n _.
  rewrite (hitl_map _ _ (fun c' => (off n * nc + c')%nat) (fun c' => src c' n)). destruct (Nat.eqb_spec (off n) s) as [E|N].
  - rewrite (filter_at nc 0 c) by (intros q Hq; rewrite slots by lia; now rewrite E, Nat.eqb_refl).
    replace ((0 <=? c) && (c <? 0 + nc))%nat%bool with true; [reflexivity|]. symmetry. apply andb_true_intro. split; [apply Nat.leb_le|apply Nat.ltb_lt]; lia.
  - replace (filter (fun c' => (off n * nc + c' =? s * nc + c)%nat) (seq 0 nc)) with (@nil nat); [reflexivity|].
    rewrite (filter_ext_in _ (fun _ => false)); [induction (seq 0 nc); [reflexivity|assumption]|].
    intros q Hq. apply in_seq in Hq. rewrite slots by lia. apply Nat.eqb_neq in N. now rewrite N.
Qed.
Lemma comps_hitl T len nc off (src : nat -> nat -> T) s c : (c < nc)%nat ->
  hitl (comps_ops len nc off src) (s * nc + c) = map (src c) (filter (fun n => (off n =? s)%nat) (seq 0 len)).
Proof.
  intros Hc. unfold comps_ops. rewrite hitl_flat.
  rewrite (flat_ext _ _ _ (fun c' => if (c' =? c)%nat then map (src c) (filter (fun n => (off n =? s)%nat) (seq 0 len)) else [])).
  - rewrite flat_at. replace ((0 <=? c) && (c <? 0 + nc))%nat%bool with true; [reflexivity|]. symmetry. apply andb_true_intro. split; [apply Nat.leb_le|apply Nat.ltb_lt]; lia.
  - intros c' Hc'. apply in_seq in Hc'. rewrite (hitl_map _ _ (fun n => (off n * nc + c')%nat) (src c')). destruct (Nat.eqb_spec c' c) as [->|N].
    + f_equal. apply filter_ext. intros n. rewrite slots by lia. rewrite Nat.eqb_refl, Bool.andb_true_r. reflexivity.
    + rewrite (filter_ext _ (fun _ => false)); [induction (seq 0 len); [reflexivity|assumption]|].
      intros n. rewrite slots by lia. apply Nat.eqb_neq in N. now rewrite N, Bool.andb_false_r.
Qed.
Lemma block_hitl T (g : nat -> T) k n c : (0 < k)%nat -> hitl (map (fun j => ((n * k + j)%nat, g j)) (seq 0 k)) c = if (n =? c / k)%nat then [g (c mod k)] else [].
Proof.
  intros Hk. rewrite (hitl_map _ _ (fun j => (n * k + j)%nat) g). pose proof (Nat.div_mod c k ltac:(lia)) as D. pose proof (Nat.mod_upper_bound c k ltac:(lia)) as M.
  assert (E : forall q, (0 <= q < 0 + k)%nat -> (n * k + q =? c)%nat = ((n =? c / k) && (q =? c mod k))%nat%bool).
  { intros q Hq. rewrite <- (slots k (c / k) n (c mod k) q M ltac:(lia)). f_equal. lia. }
  destruct (Nat.eqb_spec n (c / k)) as [->|N].
  - rewrite (filter_at k 0 (c mod k)) by (intros q Hq; rewrite E by lia; rewrite ?Nat.eqb_refl; reflexivity).
    replace ((0 <=? c mod k) && (c mod k <? 0 + k))%nat%bool with true; [reflexivity|]. symmetry. apply andb_true_intro. split; [apply Nat.leb_le|apply Nat.ltb_lt]; lia.
  - rewrite (filter_ext_in _ (fun _ => false)); [induction (seq 0 k); [reflexivity|assumption]|]. intros q Hq. apply in_seq in Hq. rewrite E by lia.
    apply Nat.eqb_neq in N. rewrite ?N. reflexivity.
Qed.
Lemma rest_hitl T (f : nat -> T) a b c : hitl (map (fun n => (n, f n)) (seq a b)) c = if ((a <=? c) && (c <? a + b))%nat%bool then [f c] else [].
Proof. rewrite (hitl_map _ _ (fun n => n) f), (filter_at b a c) by reflexivity. now destruct ((a <=? c) && (c <? a + b))%nat%bool. Qed.

(** ** The routines *)
Section Routines.
Variables (u : R) (rnd : R -> R).
Hypothesis Hr : rounding u rnd.
Lemma radds_ok l : forall dest, (forall i x, In (i, x) l -> (i < length dest)%nat) ->
  exists out, radds rnd l dest = Some out /\ length out = length dest /\
    forall i x, nth_error dest i = Some x -> nth_error out i = Some (fold_left (radd rnd) (hitl l i) x).
Proof.
  induction l as [|[i x] l IH]; intros dest H; cbn [radds].
  - exists dest. split; [reflexivity|]. split; [reflexivity|]. intros i x E. exact E.
  - assert (Hi : (i < length dest)%nat) by (apply (H i x); left; reflexivity).
    destruct (nth_error_lt_Some dest Hi) as [y Ey]. unfold raddat. rewrite Ey.
    destruct (IH (upd dest i (radd rnd y x))) as [out [E [L V]]].
    { intros j z Hj. rewrite upd_length. apply (H j z). right; exact Hj. }
    exists out. split; [exact E|]. split; [rewrite L, upd_length; reflexivity|].
    intros j z Ez. unfold hitl; cbn [filter fst]. destruct (Nat.eqb_spec i j) as [->|N].
    + rewrite (V j (radd rnd y x)) by (apply nth_error_upd_same, Hi). rewrite Ey in Ez. injection Ez as <-. reflexivity.
    + rewrite (V j z) by (rewrite nth_error_upd_other by exact N; exact Ez). reflexivity.
Qed.
Section Lanes.
Variables (len nc j : nat) (off : nat -> nat) (src w B : nat -> nat -> R) (dest : list R).
Hypothesis Hs : forall c n, (c < nc)%nat -> (n < len)%nat -> near u j (src c n) (w c n) (B c n).
Hypothesis Hd : forall n, (n < len)%nat -> (off n * nc + nc <= length dest)%nat.
(** Element by element, lane after lane. *)
Lemma lanes_near ops : (forall i x, In (i, x) ops -> (i < length dest)%nat) ->
  (forall s c, (c < nc)%nat -> hitl ops (s * nc + c) = map (src c) (filter (fun n => (off n =? s)%nat) (seq 0 len))) ->
  exists out, radds rnd ops dest = Some out /\ sums_near u len j len nc off w B dest out.
Proof.
  intros HI HH. destruct (radds_ok ops dest HI) as (out & E & L & V). exists out. split; [exact E|]. split; [exact L|].
  intros s c x v A m Hc Ex N. eexists. split; [apply V, Ex|]. rewrite HH by exact Hc.
  eapply (near_mono u rnd Hr); [|apply (near_fold u rnd Hr j (src c) (w c) (B c)); [|exact N]].
  - pose proof (filter_le _ (fun n => (off n =? s)%nat) (seq 0 len)) as F. rewrite seq_length in F. lia.
  - intros n Hn. apply filter_In in Hn. destruct Hn as [Hn _]. apply in_seq in Hn. apply Hs; lia.
Qed.
Theorem rcontract_near : exists out, rcontract rnd len nc off src dest = Some out /\ sums_near u len j len nc off w B dest out.
Proof.
  apply lanes_near; [|intros; apply lanes_hitl; assumption]. intros i x H. apply in_flat_map in H as [n [Hn H]]. apply in_map_iff in H as [c [E Hc]].
  apply in_seq in Hn, Hc. injection E as <- _. specialize (Hd n ltac:(lia)). lia.
Qed.
Theorem rcomps_near : exists out, radds rnd (comps_ops len nc off src) dest = Some out /\ sums_near u len j len nc off w B dest out.
Proof.
  apply lanes_near; [|intros; apply comps_hitl; assumption]. intros i x H. apply in_flat_map in H as [c [Hc H]]. apply in_map_iff in H as [n [E Hn]].
  apply in_seq in Hn, Hc. injection E as <- _. specialize (Hd n ltac:(lia)). lia.
Qed.
End Lanes.
Section AllLanes.
Variables (len nc j : nat) (src w B : nat -> nat -> R) (dest : list R).
Hypothesis Hl : (0 < len)%nat.
Hypothesis Hs : forall c n, (c < nc)%nat -> (n < len)%nat -> near u j (src c n) (w c n) (B c n).
Hypothesis Hd : (nc <= length dest)%nat.
Local Notation out_ok out := (sums_near u len j len nc (fun _ => 0%nat) w B dest out).
Lemma all_lanes (v : nat -> R) : map v (filter (fun _ => (0 =? 0)%nat) (seq 0 len)) = map v (seq 0 len).
Proof. f_equal. induction (seq 0 len) as [|n l IH]; [reflexivity|]. simpl in *. now rewrite IH. Qed.
Lemma no_lanes (v : nat -> R) s : map v (filter (fun _ => (0 =? S s)%nat) (seq 0 len)) = [].
Proof. simpl. induction (seq 0 len) as [|n l IH]; [reflexivity|]. exact IH. Qed.
(** Each element: the lanes one after the other, or one value that is near their sum. *)
Lemma all_near ops : (forall i x, In (i, x) ops -> (i < nc)%nat) ->
  (forall c, (c < nc)%nat -> hitl ops c = map (src c) (seq 0 len) \/
     exists y, hitl ops c = [y] /\ near u (j + (len - 1)) y (total (map (w c) (seq 0 len))) (total (map (B c) (seq 0 len)))) ->
  exists out, radds rnd ops dest = Some out /\ out_ok out.
Proof.
  intros HI HH. destruct (radds_ok ops dest) as (out & E & L & V); [intros i x H; apply HI in H; lia|]. exists out. split; [exact E|]. split; [exact L|].
  intros s c x v A m Hc Ex N. eexists. split; [apply V, Ex|]. unfold added. destruct s as [|s].
  - rewrite !all_lanes. cbn [Nat.mul Nat.add]. destruct (HH c Hc) as [->|(y & -> & Ny)].
    + eapply (near_mono u rnd Hr); [|apply (near_fold u rnd Hr j (src c) (w c) (B c)); [|exact N]]; [rewrite seq_length; lia|].
      intros n Hn. apply in_seq in Hn. apply Hs; lia.
    + cbn [fold_left]. apply (near_mono u rnd Hr (S (max m (j + (len - 1))))); [lia|].
      apply (near_add u rnd Hr); (eapply (near_mono u rnd Hr); [|eassumption]); lia.
  - rewrite !no_lanes. replace (hitl ops (S s * nc + c)) with (@nil R).
    + cbn [fold_left total fold_right]. rewrite !Rplus_0_r. apply (near_mono u rnd Hr m); [lia|exact N].
    + symmetry. unfold hitl. rewrite (filter_ext_in _ (fun _ => false)); [clear; induction ops; [reflexivity|assumption]|].
      intros [i y] Hi. apply HI in Hi. apply Nat.eqb_neq. simpl. lia.
Qed.
Theorem reduce_near red : full len red -> exists out, rcontract_all_reduce rnd red nc src dest = Some out /\ out_ok out.
Proof.
  intros F. apply all_near.
  - intros i x H. apply in_map_iff in H as [c [E Hc]]. apply in_seq in Hc. injection E as <- _. lia.
  - intros c Hc. right. rewrite rest_hitl, in_range by lia. eexists. split; [reflexivity|].
    apply (near_full u rnd Hr); [exact F|]. intros n Hn. apply Hs; assumption.
Qed.
Theorem avx_near : len = 4%nat -> exists out, rcontract_all_avx rnd nc src dest = Some out /\ out_ok out.
Proof.
  intros E4. pose proof (Nat.div_mod nc 4 ltac:(lia)) as D. pose proof (Nat.mod_upper_bound nc 4 ltac:(lia)) as M. apply all_near.
  - intros i x Hx. apply in_app_iff in Hx as [Hx|Hx].
    + apply in_flat_map in Hx as [n [Hn Hx]]. apply in_map_iff in Hx as [k [Ex Hk]]. apply in_seq in Hn, Hk. injection Ex as <- _. lia.
    + apply in_map_iff in Hx as [c [Ex Hc]]. apply in_seq in Hc. injection Ex as <- _. lia.
  - intros c Hc. right. unfold ravx_ops. rewrite hitl_app, rest_hitl, hitl_flat.
    rewrite (flat_ext _ _ _ (fun n => if (n =? c / 4)%nat then [ravx_t3 rnd src (c / 4 * 4) (c mod 4)] else [])).
    2: { intros n _. rewrite (block_hitl _ (fun k => ravx_t3 rnd src (n * 4) k)) by lia. destruct (Nat.eqb_spec n (c / 4)) as [->|]; reflexivity. }
    rewrite flat_at. pose proof (Nat.div_mod c 4 ltac:(lia)) as Dc. pose proof (Nat.mod_upper_bound c 4 ltac:(lia)) as Mc.
    assert (S4 : forall n, (n < 4)%nat -> near u j (src c n) (w c n) (B c n)) by (intros; apply Hs; lia).
    assert (T : forall (v : nat -> R), total (map v (seq 0 len)) = (v 0%nat + v 1%nat) + (v 2%nat + v 3%nat)) by (intros v; rewrite E4; simpl; ring).
    assert (T' : forall (v : nat -> R), total (map v (seq 0 len)) = ((v 0%nat + v 1%nat) + v 2%nat) + v 3%nat) by (intros v; rewrite E4; simpl; ring).
    destruct (Nat.lt_ge_cases (c / 4) (nc / 4)) as [Hb|Hb].
    + rewrite in_range by lia. rewrite off_range by lia. rewrite app_nil_r. eexists. split; [reflexivity|]. rewrite !T.
      assert (ER : ravx_t3 rnd src (c / 4 * 4) (c mod 4) = radd rnd (radd rnd (src c 0%nat) (src c 1%nat)) (radd rnd (src c 2%nat) (src c 3%nat))).
      { unfold ravx_t3, rhadd. destruct (c mod 4) as [|[|[|[|k]]]] eqn:Ek; [| | | |lia].
        - replace (c / 4 * 4)%nat with c by lia. reflexivity.
        - replace (c / 4 * 4 + 1)%nat with c by lia. reflexivity.
        - replace (c / 4 * 4 + 2)%nat with c by lia. reflexivity.
        - replace (c / 4 * 4 + 3)%nat with c by lia. reflexivity. }
      rewrite ER. apply (near_mono u rnd Hr (S (S j))); [lia|]. apply (near_add u rnd Hr); apply (near_add u rnd Hr); apply S4; lia.
    + assert (nc / 4 <= c / 4)%nat by lia. assert (nc - nc mod 4 <= c)%nat by lia.
      rewrite off_range by lia. rewrite in_range by lia. cbn [app]. eexists. split; [reflexivity|]. rewrite !T'.
      apply (near_mono u rnd Hr (S (S (S j)))); [lia|].
      apply (near_add u rnd Hr); [|eapply (near_mono u rnd Hr); [|apply S4; lia]; lia].
      apply (near_add u rnd Hr); [|eapply (near_mono u rnd Hr); [|apply S4; lia]; lia].
      apply (near_add u rnd Hr); apply S4; lia.
Qed.
Theorem avx512_near red : len = 8%nat -> full len red -> exists out, rcontract_all_avx512 rnd red nc src dest = Some out /\ out_ok out.
Proof.
  intros E8 F. pose proof (Nat.div_mod nc 8 ltac:(lia)) as D. pose proof (Nat.mod_upper_bound nc 8 ltac:(lia)) as M. apply all_near.
  - intros i x Hx. apply in_app_iff in Hx as [Hx|Hx].
    + apply in_flat_map in Hx as [n [Hn Hx]]. apply in_flat_map in Hx as [q [Hq Hx]]. apply in_map_iff in Hx as [k [Ex Hk]]. apply in_seq in Hn, Hk. injection Ex as <- _. lia.
    + apply in_map_iff in Hx as [c [Ex Hc]]. apply in_seq in Hc. injection Ex as <- _. lia.
  - intros c Hc. unfold ravx512_ops. rewrite hitl_app, rest_hitl, hitl_flat.
    pose proof (Nat.div_mod c 8 ltac:(lia)) as Dc. pose proof (Nat.mod_upper_bound c 8 ltac:(lia)) as Mc.
    rewrite (flat_ext _ _ _ (fun n => if (n =? c / 8)%nat then map (src c) (seq 0 8) else [])).
    2: { intros n _. rewrite hitl_flat.
         rewrite (flat_ext _ _ _ (fun i => if (n =? c / 8)%nat then [src (n * 8 + c mod 8)%nat i] else [])).
         2: { intros i _. apply (block_hitl _ (fun k => src (n * 8 + k)%nat i)). lia. }
         destruct (Nat.eqb_spec n (c / 8)) as [->|N].
         - replace (c / 8 * 8 + c mod 8)%nat with c by lia. reflexivity.
         - clear. induction (seq 0 8) as [|n l IH]; [reflexivity|exact IH]. }
    rewrite flat_at. destruct (Nat.lt_ge_cases (c / 8) (nc / 8)) as [Hb|Hb].
    + left. rewrite in_range by lia. rewrite off_range by lia. rewrite app_nil_r, E8. reflexivity.
    + right. rewrite off_range by lia. rewrite in_range by lia. cbn [app]. eexists. split; [reflexivity|].
      apply (near_full u rnd Hr); [exact F|]. intros n Hn. apply Hs; assumption.
Qed.
Theorem rcall_near red k : kind_len k len -> full len red -> exists out, rcall rnd red k len nc src dest = Some out /\ out_ok out.
Proof.
  intros Hk F. destruct k; cbn [rcall].
  - apply rcontract_near; [exact Hs|]. intros; lia.
  - apply reduce_near, F.
  - apply avx_near, Hk.
  - apply avx512_near; [exact Hk|exact F].
Qed.
End AllLanes.
End Routines.

(** ** With a factor *)
Theorem rcontract_fac_near u rnd len nc fac off src dest : rounding u rnd -> (forall n, (n < len)%nat -> (off n * nc + nc <= length dest)%nat) ->
  exists out, rcontract_fac rnd len nc fac off src dest = Some out /\
    sums_near u len 1 len nc off (fun c n => src c n * fac n) (fun c n => Rabs (src c n * fac n)) dest out.
Proof. intros Hr Hd. apply (rcomps_near u rnd Hr); [|exact Hd]. intros c n _ _. apply (near_mul u rnd Hr). Qed.
Theorem rcall_fac_near u rnd red k len nc fac src dest : rounding u rnd -> kind_len k len -> full len red -> (nc <= length dest)%nat ->
  exists out, rcall_fac rnd red k len nc fac src dest = Some out /\
    sums_near u len 1 len nc (fun _ => 0%nat) (fun c n => src c n * fac n) (fun c n => Rabs (src c n * fac n)) dest out.
Proof.
  intros Hr Hk F Hd. pose proof (kind_len_pos k len Hk) as Hl.
  assert (S1 : forall c n, (c < nc)%nat -> (n < len)%nat -> near u 1 (rscaled rnd fac src c n) (src c n * fac n) (Rabs (src c n * fac n))).
  { intros c n _ _. rewrite (Rmult_comm (src c n)). apply (near_mul u rnd Hr). }
  destruct k; cbn [rcall_fac].
  - apply rcontract_fac_near; [exact Hr|]. intros; lia.
  - apply (reduce_near u rnd Hr); assumption.
  - apply (avx_near u rnd Hr); assumption.
  - apply (reduce_near u rnd Hr); assumption.
Qed.

(** ** The calls of a kernel *)
Lemma one_near u rnd red len nc c dest : rounding u rnd -> (0 < len)%nat -> full len red -> call_fits len nc (length dest) c ->
  exists out, rone rnd red len nc c dest = Some out /\
    sums_near u len 0 len nc (call_off c) (call_src c) (fun a n => Rabs (call_src c a n)) dest out.
Proof.
  intros Hr Hl F [Hk Hd]. destruct c as [k src|off src]; cbn [rone call_off call_src] in *.
  - apply (rcall_near u rnd Hr); try assumption; [intros; apply near_self|]. specialize (Hd 0%nat Hl). lia.
  - apply (rcontract_near u rnd Hr); [intros; apply near_self|exact Hd].
Qed.
Theorem calls_near u rnd red len nc l : rounding u rnd -> (0 < len)%nat -> full len red -> forall dest, (forall c, In c l -> call_fits len nc (length dest) c) ->
  exists out, rcalls rnd red len nc l dest = Some out /\ length out = length dest /\
    forall s c x v A m, (c < nc)%nat -> nth_error dest (s * nc + c) = Some x -> near u m x v A ->
      exists y, nth_error out (s * nc + c) = Some y /\
        near u (m + length l * len) y (v + total (map (fun q => added len (call_off q) (call_src q) s c) l))
          (A + total (map (fun q => added len (call_off q) (fun a n => Rabs (call_src q a n)) s c) l)).
Proof.
  intros Hr Hl F. induction l as [|q l IH]; intros dest Hf; cbn [rcalls].
  - exists dest. split; [reflexivity|]. split; [reflexivity|]. intros s c x v A m Hc Ex N. exists x. split; [exact Ex|].
    cbn. rewrite !Rplus_0_r, Nat.add_0_r. exact N.
  - destruct (one_near u rnd red len nc q dest Hr Hl F (Hf q (or_introl eq_refl))) as (d & -> & L1 & V1).
    destruct (IH d) as (out & E & L2 & V2); [intros c Hc; rewrite L1; apply Hf; now right|].
    exists out. split; [exact E|]. split; [congruence|]. intros s c x v A m Hc Ex N.
    destruct (V1 s c x v A m Hc Ex N) as (y & Ey & Ny). destruct (V2 s c y _ _ _ Hc Ey Ny) as (z & Ez & Nz). exists z. split; [exact Ez|].
    cbn [map total fold_right length]. fold (total (map (fun q => added len (call_off q) (call_src q) s c) l)).
    fold (total (map (fun q => added len (call_off q) (fun a n => Rabs (call_src q a n)) s c) l)).
    rewrite <- !Rplus_assoc. replace (m + S (length l) * len)%nat with (max m 0 + len + length l * len)%nat by lia. exact Nz.
Qed.
(** The forms of the different headers agree up to rounding. *)
Theorem forms_close u rnd red red' k k' len nc src dest : rounding u rnd -> kind_len k len -> kind_len k' len -> full len red -> full len red' -> (nc <= length dest)%nat ->
  exists o o', rcall rnd red k len nc src dest = Some o /\ rcall rnd red' k' len nc src dest = Some o' /\
    forall c x, (c < nc)%nat -> nth_error dest c = Some x -> exists y y', nth_error o c = Some y /\ nth_error o' c = Some y' /\
      Rabs (y - y') <= 2 * ((1 + u) ^ len - 1) * (Rabs x + total (map (fun n => Rabs (src c n)) (seq 0 len))).
Proof.
  intros Hr Hk Hk' F F' Hd. pose proof (kind_len_pos k len Hk) as Hl.
  destruct (rcall_near u rnd Hr len nc 0 src src (fun c n => Rabs (src c n)) dest Hl (fun c n _ _ => near_self u _) Hd red k Hk F) as (o & E & _ & V).
  destruct (rcall_near u rnd Hr len nc 0 src src (fun c n => Rabs (src c n)) dest Hl (fun c n _ _ => near_self u _) Hd red' k' Hk' F') as (o' & E' & _ & V').
  exists o, o'. split; [exact E|]. split; [exact E'|]. intros c x Hc Ex.
  destruct (V 0%nat c x x (Rabs x) 0%nat Hc Ex (near_self u x)) as (y & Ey & _ & N). destruct (V' 0%nat c x x (Rabs x) 0%nat Hc Ex (near_self u x)) as (y' & Ey' & _ & N').
  exists y, y'. split; [exact Ey|]. split; [exact Ey'|]. unfold added in N, N'. rewrite !all_lanes in N, N'. cbn [max Nat.add] in N, N'.
  set (W := x + total (map (src c) (seq 0 len))) in *. replace (y - y') with ((y - W) - (y' - W)) by ring.
  apply Rle_trans with (Rabs (y - W) + Rabs (y' - W)); [unfold Rminus at 1; eapply Rle_trans; [apply Rabs_triang|]; rewrite Rabs_Ropp; lra|lra].
Qed.
(** Without rounding it is the model of Contract.v. *)
Lemma radds_exact (l : list (nat * R)) : forall dest, radds (fun x => x) l dest = @adds Rcring l dest.
Proof.
  induction l as [|[i x] l IH]; intros dest; [reflexivity|]. cbn [radds adds]. unfold raddat, addat, radd.
  change (@nth_error (car Rcring) dest i) with (nth_error dest i). destruct (nth_error dest i) as [y|]; [apply IH|reflexivity].
Qed.
Theorem exact_model len nc fac off src dest :
  rcontract (fun x => x) len nc off src dest = @contract Rcring len nc off src dest /\
  rcontract_fac (fun x => x) len nc fac off src dest = @contract_fac Rcring len nc fac off src dest /\
  rcontract_all_avx (fun x => x) nc src dest = @contract_all_avx Rcring nc src dest.
Proof. split; [|split]; apply radds_exact. Qed.

(** ** A rounding *)
(** Numbers from 4 on are rounded down to whole numbers. *)
Definition rnd4 (x : R) : R := if Rle_dec 4 x then IZR (up x) - 1 else x.
Lemma rnd4_ok : rounding (/ 4) rnd4.
Proof.
  split; [lra|]. intros x. unfold rnd4. destruct (Rle_dec 4 x) as [H|H].
  - destruct (archimed x) as [A1 A2]. rewrite (Rabs_right x) by lra. apply Rabs_le. lra.
  - replace (x - x) with 0 by ring. rewrite Rabs_R0. pose proof (Rabs_pos x). lra.
Qed.
Lemma rnd4_small x : x < 4 -> rnd4 x = x.
Proof. intros H. unfold rnd4. destruct (Rle_dec 4 x); [lra|reflexivity]. Qed.
Lemma rnd4_big x z : 4 <= x -> IZR z <= x < IZR z + 1 -> rnd4 x = IZR z.
Proof.
  intros H [A B]. unfold rnd4. destruct (Rle_dec 4 x); [|lra]. rewrite <- (tech_up x (z + 1)); rewrite plus_IZR; lra.
Qed.
Definition half_lanes (c n : nat) : R := / 2.
Definition order4 : order := Plus (Plus (Lane 0) (Lane 1)) (Plus (Lane 2) (Lane 3)).
Lemma order4_full : full 4 order4. Proof. apply Permutation_refl. Qed.
Lemma half_zero : rcall rnd4 order4 CallZero 4 1 half_lanes [4] = Some [4].
Proof.
  assert (E : rnd4 (4 + / 2) = 4) by (apply (rnd4_big _ 4); lra).
  cbn. unfold radd, half_lanes. rewrite !E. reflexivity.
Qed.
Lemma half_avx : rcall rnd4 order4 CallAvx 4 1 half_lanes [4] = Some [6].
Proof.
  cbn. unfold radd, half_lanes. rewrite (rnd4_small (/ 2 + / 2)) by lra. rewrite (rnd4_small (/ 2 + / 2 + / 2)) by lra. rewrite (rnd4_small (/ 2 + / 2 + / 2 + / 2)) by lra.
  rewrite (rnd4_big _ 6) by lra. reflexivity.
Qed.
Theorem forms_differ : ~ forall u rnd red k k' len nc src dest, rounding u rnd -> kind_len k len -> kind_len k' len -> full len red -> (nc <= length dest)%nat ->
  rcall rnd red k len nc src dest = rcall rnd red k' len nc src dest.
Proof.
  intros H. specialize (H (/ 4) rnd4 order4 CallZero CallAvx 4%nat 1%nat half_lanes [4] rnd4_ok ltac:(simpl; lia) eq_refl order4_full ltac:(simpl; lia)).
  rewrite half_zero, half_avx in H. injection H. lra.
Qed.
