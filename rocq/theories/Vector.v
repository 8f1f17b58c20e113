(** The operations on vectors that the generated code uses, for every vector header.
    Source: skel/simint/vectorization/intrinsics_scalar.h:16-28, 90-112, intrinsics_sse.h:38-62, 131-163,
    intrinsics_avx.h:48-70, 196-226, intrinsics_avx512.h:48-63, 179-216, intrinsics_asimd.h:40-57, 123-151,
    intrinsics_sve.h:84-103, 167-187.

    A vector is a function from lanes to values; only lanes below the length matter.  The intrinsic
    functions are given by the formulas of their documentation (first section below).  Values are those
    of any commutative ring with any division and square root; rounding is not modelled, so a
    fused operation and the two separate ones are the same.  SIMINT_EXP and SIMINT_POW (not used in the
    generated code) are not modelled. *)
From Coq Require Import List Arith Lia Bool Ring QArith Qminmax.
Import ListNotations.
From Verif Require Import Base Kernel.
Set Implicit Arguments.
Local Open Scope nat_scope.

(** The headers and their switches: SIMINT_FMA for SSE, SIMINT_AVX2 for AVX. *)
Inductive arch := Scalar | SSE (fma : bool) | AVX (avx2 : bool) | AVX512 | ASIMD | SVE.

Section Ops.
Context {R : cring}.
Add Ring Rring_vector : (cth R).
Local Open Scope r_scope.
Variables (rdiv : R -> R -> R) (rsqrt : R -> R).
Definition vec : Type := nat -> R.

(** *** Intrinsic functions *)
(** _mm*_set1_pd, vdupq_n_f64, svdup_f64. *)
Definition i_set1 (x : R) : vec := fun _ => x.
(** _mm*_add_pd, vaddq_f64, svadd_f64; sub, mul, div, sqrt alike. *)
Definition i_add (a b : vec) : vec := fun n => a n + b n.
Definition i_sub (a b : vec) : vec := fun n => a n - b n.
Definition i_mul (a b : vec) : vec := fun n => a n * b n.
Definition i_div (a b : vec) : vec := fun n => rdiv (a n) (b n).
Definition i_sqrt (a : vec) : vec := fun n => rsqrt (a n).
(** The minus sign of GCC vectors, vnegq_f64, svneg_f64. *)
Definition i_neg (a : vec) : vec := fun n => - a n.
(** _mm*_fmadd_pd and _mm*_fmsub_pd. *)
Definition i_fmadd (a b c : vec) : vec := fun n => a n * b n + c n.
Definition i_fmsub (a b c : vec) : vec := fun n => a n * b n - c n.
(** vfmaq_f64(a, b, c) = a + b*c and vfmsq_f64(a, b, c) = a - b*c. *)
Definition neon_fma (a b c : vec) : vec := fun n => a n + b n * c n.
Definition neon_fms (a b c : vec) : vec := fun n => a n - b n * c n.
(** svmad_f64_z(p, a, b, c) = a*b + c and svnmsb_f64_z(p, a, b, c) = a*b - c, with all lanes active. *)
Definition sve_mad (a b c : vec) : vec := fun n => a n * b n + c n.
Definition sve_nmsb (a b c : vec) : vec := fun n => a n * b n - c n.

(** *** The macros *)
Definition NEG (x : arch) (a : vec) : vec :=
  match x with
  | AVX512 => i_mul a (i_set1 (- c1))
  | _ => i_neg a
  end.
Definition ADD (x : arch) (a b : vec) : vec := i_add a b.
Definition SUB (x : arch) (a b : vec) : vec := i_sub a b.
Definition MUL (x : arch) (a b : vec) : vec := i_mul a b.
Definition DIV (x : arch) (a b : vec) : vec := i_div a b.
Definition SQRT (x : arch) (a : vec) : vec := i_sqrt a.
Definition FMADD (x : arch) (a b c : vec) : vec :=
  match x with
  | Scalar | SSE false | AVX false => ADD x (MUL x a b) c
  | SSE true | AVX true | AVX512 => i_fmadd a b c
  | ASIMD => neon_fma c a b
  | SVE => sve_mad a b c
  end.
Definition FMSUB (x : arch) (a b c : vec) : vec :=
  match x with
  | Scalar | SSE false | AVX false => SUB x (MUL x a b) c
  | SSE true | AVX true | AVX512 => i_fmsub a b c
  | ASIMD => i_neg (neon_fms c a b)
  | SVE => sve_nmsb a b c
  end.

Theorem macros x a b c n :
  NEG x a n = - a n /\ ADD x a b n = a n + b n /\ SUB x a b n = a n - b n /\ MUL x a b n = a n * b n /\
  DIV x a b n = rdiv (a n) (b n) /\ SQRT x a n = rsqrt (a n) /\
  FMADD x a b c n = a n * b n + c n /\ FMSUB x a b c n = a n * b n - c n.
Proof.
  assert (N : NEG x a n = - a n).
  { destruct x; try reflexivity. unfold NEG, i_mul, i_set1. ring. }
  assert (A : FMADD x a b c n = a n * b n + c n).
  { destruct x as [|[]|[]| | |]; try reflexivity. unfold FMADD, neon_fma. ring. }
  assert (S : FMSUB x a b c n = a n * b n - c n).
  { destruct x as [|[]|[]| | |]; try reflexivity. unfold FMSUB, neon_fms, i_neg. ring. }
  repeat split; assumption.
Qed.

End Ops.

Section Mask.
Context {R : cring}.
Local Open Scope r_scope.
Local Notation vec := (nat -> R).
(** *** mask_load: memory is a list of values; [None]: a read outside *)
Definition whole (len k : nat) (m : list R) : option vec :=
  if k + len <=? length m then Some (fun n => nth (k + n) m c0) else None.
Definition mask_load (x : arch) (len nlane k : nat) (m : list R) : option vec :=
  match x with
  | Scalar =>
    if nlane =? 1 then match nth_error m k with Some v => Some (fun _ => v) | None => None end
    else Some (fun _ => c0)
  | SVE =>
    (* svwhilelt and a predicated load: lanes that are not active are not read and are 0 *)
    if k + Nat.min nlane len <=? length m then Some (fun n => if n <? nlane then nth (k + n) m c0 else c0) else None
  | _ =>
    match whole len k m with
    | Some v => Some (fun n => if (nlane <=? n) && (n <? len) then c0 else v n)
    | None => None
    end
  end.

(** The whole vector is inside the array: the first lanes are read, the others are 0, in every header. *)
Theorem mask_load_ok x len nlane k m : (x = Scalar -> len = 1%nat) -> (0 < len)%nat -> (nlane <= len)%nat -> (k + len <= length m)%nat ->
  exists v, mask_load x len nlane k m = Some v /\
    forall n, (n < len)%nat -> v n = if (n <? nlane)%nat then nth (k + n) m c0 else c0.
Proof.
  intros Hs Hl Hn Hk.
  assert (G : exists v, match whole len k m with
    | Some v => Some (fun n => if (nlane <=? n)%nat && (n <? len)%nat then c0 else v n)
    | None => None end = Some v /\ forall n, (n < len)%nat -> v n = if (n <? nlane)%nat then nth (k + n) m c0 else c0).
  { unfold whole. rewrite (proj2 (Nat.leb_le _ _) Hk). eexists. split; [reflexivity|]. intros n L. cbv beta.
    rewrite (proj2 (Nat.ltb_lt _ _) L), andb_true_r.
    destruct (Nat.leb_spec nlane n), (Nat.ltb_spec n nlane); try lia; reflexivity. }
  destruct x; cbn [mask_load]; try exact G.
  - specialize (Hs eq_refl). subst len. destruct (Nat.eqb_spec nlane 1) as [->|N].
    + destruct (nth_error m k) as [v|] eqn:E; [|apply nth_error_None in E; lia].
      exists (fun _ => v). split; [reflexivity|]. intros n L. replace n with 0%nat by lia. rewrite Nat.add_0_r.
      symmetry. apply nth_error_nth. exact E.
    + exists (fun _ => c0). split; [reflexivity|]. intros n L. replace (n <? nlane)%nat with false; [reflexivity|].
      symmetry. apply Nat.ltb_ge. lia.
  - rewrite (proj2 (Nat.leb_le _ _)) by lia. eexists. split; [reflexivity|]. intros n L. reflexivity.
Qed.
(** With fewer elements behind the address than lanes only the scalar and the SVE header stay inside. *)
Theorem mask_load_short x len nlane k m : x <> Scalar -> x <> SVE -> (length m < k + len)%nat ->
  mask_load x len nlane k m = None.
Proof.
  intros H1 H2 H. destruct x; try congruence; cbn [mask_load]; unfold whole;
    (replace (k + len <=? length m)%nat with false by (symmetry; apply Nat.leb_gt; lia)); reflexivity.
Qed.
End Mask.

(** *** Smallest and largest lane *)
(** [m = (d[n] < m ? d[n] : m)] and the same with [>], on values without NaN. *)
Definition less (m x : Q) : Q := if qltb x m then x else m.
Definition more (m x : Q) : Q := if qltb m x then x else m.
(** [vector_min]: a loop from lane 1, or the minimum of all lanes (_mm512_reduce_min_pd, svminv_f64). *)
Definition vmin (x : arch) (len : nat) (f : nat -> Q) : Q := fold_left less (map f (seq 1 (len - 1))) (f 0).
(** [vector_max]: from 0.0 in the SSE header, otherwise from lane 0. *)
Definition vmax (x : arch) (len : nat) (f : nat -> Q) : Q :=
  match x with
  | SSE _ => fold_left more (map f (seq 0 len)) 0%Q
  | _ => fold_left more (map f (seq 1 (len - 1))) (f 0)
  end.

Lemma more_spec m x : (m <= more m x)%Q /\ (x <= more m x)%Q /\ (more m x = m \/ more m x = x).
Proof.
  unfold more, qltb. destruct (Qle_bool x m) eqn:E; cbn [negb].
  - apply Qle_bool_iff in E. split; [apply Qle_refl|]. split; [exact E|left; reflexivity].
  - assert (L : (m < x)%Q) by (apply Qnot_le_lt; intros H; apply Qle_bool_iff in H; congruence).
    split; [apply Qlt_le_weak, L|]. split; [apply Qle_refl|right; reflexivity].
Qed.
Lemma less_spec m x : (less m x <= m)%Q /\ (less m x <= x)%Q /\ (less m x = m \/ less m x = x).
Proof.
  unfold less, qltb. destruct (Qle_bool m x) eqn:E; cbn [negb].
  - apply Qle_bool_iff in E. split; [apply Qle_refl|]. split; [exact E|left; reflexivity].
  - assert (L : (x < m)%Q) by (apply Qnot_le_lt; intros H; apply Qle_bool_iff in H; congruence).
    split; [apply Qlt_le_weak, L|]. split; [apply Qle_refl|right; reflexivity].
Qed.
Lemma fold_more l : forall m, (m <= fold_left more l m)%Q /\ (forall x, In x l -> (x <= fold_left more l m)%Q) /\
  (fold_left more l m = m \/ In (fold_left more l m) l).
Proof.
  induction l as [|y l IH]; intros m; cbn [fold_left]; [split; [apply Qle_refl|split; [intros x []|left; reflexivity]]|].
  destruct (more_spec m y) as (A & B & C). destruct (IH (more m y)) as (D & E & F). split; [|split].
  - eapply Qle_trans; eassumption.
  - intros x [<-|H]; [eapply Qle_trans; eassumption|apply E, H].
  - destruct F as [F|F]; [|right; right; exact F]. rewrite F. destruct C as [C|C]; [left; exact C|right; left; symmetry; exact C].
Qed.
Lemma fold_less l : forall m, (fold_left less l m <= m)%Q /\ (forall x, In x l -> (fold_left less l m <= x)%Q) /\
  (fold_left less l m = m \/ In (fold_left less l m) l).
Proof.
  induction l as [|y l IH]; intros m; cbn [fold_left]; [split; [apply Qle_refl|split; [intros x []|left; reflexivity]]|].
  destruct (less_spec m y) as (A & B & C). destruct (IH (less m y)) as (D & E & F). split; [|split].
  - eapply Qle_trans; eassumption.
  - intros x [<-|H]; [eapply Qle_trans; eassumption|apply E, H].
  - destruct F as [F|F]; [|right; right; exact F]. rewrite F. destruct C as [C|C]; [left; exact C|right; left; symmetry; exact C].
Qed.
Theorem vmin_ok x len f : 0 < len ->
  (forall n, n < len -> (vmin x len f <= f n)%Q) /\ exists n, n < len /\ vmin x len f = f n.
Proof.
  intros H. unfold vmin. destruct (fold_less (map f (seq 1 (len - 1))) (f 0)) as (A & B & C). split.
  - intros [|n] L; [exact A|]. apply B, in_map, in_seq. lia.
  - destruct C as [C|C]; [exists 0; split; [exact H|exact C]|].
    apply in_map_iff in C as (n & E & Hn). apply in_seq in Hn. exists n. split; [lia|symmetry; exact E].
Qed.
Theorem vmax_ok x len f : 0 < len ->
  (forall n, n < len -> (f n <= vmax x len f)%Q) /\
  ((forall b, x <> SSE b) \/ (exists n, n < len /\ (0 <= f n)%Q) -> exists n, n < len /\ (vmax x len f == f n)%Q).
Proof.
  intros H.
  assert (G : (forall n, n < len -> (f n <= fold_left more (map f (seq 1 (len - 1))) (f 0%nat))%Q) /\
    exists n, n < len /\ (fold_left more (map f (seq 1 (len - 1))) (f 0%nat) == f n)%Q).
  { destruct (fold_more (map f (seq 1 (len - 1))) (f 0)) as (A & B & C). split.
    - intros [|n] L; [exact A|]. apply B, in_map, in_seq. lia.
    - destruct C as [C|C]; [exists 0; split; [exact H|rewrite C; reflexivity]|].
      apply in_map_iff in C as (n & E & Hn). apply in_seq in Hn. exists n. split; [lia|rewrite E; reflexivity]. }
  destruct x; cbn [vmax]; try (split; [apply G|intros _; apply G]).
  destruct (fold_more (map f (seq 0 len)) 0%Q) as (A & B & C). split.
  - intros n L. apply B, in_map, in_seq. lia.
  - intros [N|(n & L & P)]; [exfalso; apply (N fma); reflexivity|].
    destruct C as [C|C].
    + exists n. split; [exact L|]. apply Qle_antisym; [rewrite C; exact P|]. apply B, in_map, in_seq. lia.
    + apply in_map_iff in C as (k & E & Hk). apply in_seq in Hk. exists k. split; [lia|rewrite E; reflexivity].
Qed.
Theorem vmax_sse b : exists len f, 0 < len /\ forall n, n < len -> ~ (vmax (SSE b) len f == f n)%Q.
Proof.
  exists 2, (fun _ => (- (1))%Q). split; [lia|]. intros n _. vm_compute. discriminate.
Qed.

(** Two lanes for the example. *)
Definition ex_vec (x y : Z) : nat -> Zring := fun n => match n with 0 => x | _ => y end.
