(** Property theorems C26-C38: shell pairs (layout, screening, sorting, concatenation, memory). *)
From Coq Require Import List Arith ZArith QArith.
Import ListNotations.
From Verif Require Import Base Simd Starts Layout Sort PairData Cat Heap.
Local Open Scope nat_scope.

(** C26.  Dropped primitive quartets.  [v]: value with plain prefactors, bounded by the stored screen
    values [sp], [sq] (Schwarz); what is left out of the integrals carries the stored prefactors. *)
Theorem C26_dropped : forall same1 i1 j1 same2 i2 j2 (v sp sq tol : Q),
  (v * v <= sp * sq -> sp * sq < tol * tol ->
  let w := stored_contribution same1 i1 j1 same2 i2 j2 v in
  let f := pack_factor same1 i1 j1 * pack_factor same2 i2 j2 in
  w * w < f * f * (tol * tol))%Q.
Proof. exact dropped_bound. Qed.
Print Assumptions C26_dropped.
Theorem C26_dropped_plain : forall i1 j1 i2 j2 same1 same2 (v sp sq tol : Q),
  (same1 = true -> i1 = j1) -> (same2 = true -> i2 = j2) ->
  (v * v <= sp * sq -> sp * sq < tol * tol ->
  let w := stored_contribution same1 i1 j1 same2 i2 j2 v in w * w < tol * tol)%Q.
Proof. exact dropped_bound_plain. Qed.
Print Assumptions C26_dropped_plain.
(** The factor is the one on the stored prefactor. *)
Theorem C26_factor : forall (R : cring) (inv expf : R -> R) (c : R) (A B : @shell R) i j,
  weight inv expf c true A B i j = ((if (i =? j)%nat then c1 else c1 + c1) * weight inv expf c false A B i j)%r.
Proof. exact @weight_same. Qed.
Print Assumptions C26_factor.
Theorem C26_same_shell_refuted : exists v sp sq tol : Q,
  (v * v <= sp * sq /\ sp * sq < tol * tol /\
  let w := stored_contribution true 1 0 true 1 0 v in 15 * (tol * tol) < w * w)%Q.
Proof. exact dropped_bound_refuted. Qed.
Print Assumptions C26_same_shell_refuted.

(** C27.  [len]: vector length, [nss]: shells per batch, [meth]: screening, [deriv]: derivative arrays,
    [n] pairs [pr].  The allocated length is the rounded end of the last pair; different elements of the
    arrays are different elements of the block; all arrays but [screen] are written inside only. *)
Theorem C27_alloc : forall len nss n pr, 0 < len -> 0 < nss -> (forall t, t < n -> sp_wf (pr t)) ->
  alloc len nss n pr = rnd len (start len nss (fun t => sp_np (pr t)) n).
Proof. exact alloc_ok. Qed.
Print Assumptions C27_alloc.
Theorem C27_disjoint : forall len nss meth deriv n pr, 0 < len -> 0 < nss -> (forall t, t < n -> sp_wf (pr t)) ->
  forall a q a' q', arr_ok meth deriv a = true -> q < size len nss n pr a -> arr_ok meth deriv a' = true -> q' < size len nss n pr a' ->
  off len nss meth deriv n pr a + q = off len nss meth deriv n pr a' + q' -> a = a' /\ q = q'.
Proof. exact addr_inj. Qed.
Print Assumptions C27_disjoint.
Theorem C27_inside : forall len nss meth deriv n pr, 0 < len -> 0 < nss -> Nat.divide len nss -> (forall t, t < n -> sp_wf (pr t)) ->
  forall a q v, a <> AScreen -> In (a, q, v) (fill_ops len nss meth deriv n pr) -> inside len nss meth deriv n pr (a, q, v).
Proof. exact fill_inside_other. Qed.
Print Assumptions C27_inside.
Theorem C27_all_written : forall len nss meth deriv n pr, 0 < len -> 0 < nss -> Nat.divide len nss -> (forall t, t < n -> sp_wf (pr t)) ->
  forall m, screen_fits len nss meth n pr -> fill len nss meth deriv n pr = Some m ->
  forall a q, arr_ok meth deriv a = true -> q < size len nss n pr a ->
  exists v, nth_error m (off len nss meth deriv n pr a + q) = Some (Some v).
Proof. exact fill_total. Qed.
Print Assumptions C27_all_written.

(** C28.  The filled block. *)
Theorem C28_layout : forall len nss meth deriv n pr, 0 < len -> 0 < nss -> Nat.divide len nss -> (forall t, t < n -> sp_wf (pr t)) ->
  screen_fits len nss meth n pr ->
  exists m, fill len nss meth deriv n pr = Some m /\ length m = total_doubles len nss meth deriv n pr /\
  (forall a, arr_ok meth deriv a = true -> (forall ax, a <> ADist ax) ->
    (forall t k i j, t < n -> nth_error (sp_prims (pr t)) k = Some (i, j) ->
       nth_error m (off len nss meth deriv n pr a + (start len nss (fun t => sp_np (pr t)) t + k)) = Some (Some (Of a t i j))) /\
    (forall q, q < alloc len nss n pr ->
       (forall t, t < n -> ~ (start len nss (fun t => sp_np (pr t)) t <= q < start len nss (fun t => sp_np (pr t)) t + sp_np (pr t))) ->
       nth_error m (off len nss meth deriv n pr a + q) =
         Some (Some (match a with APrim 9 => One | AAlpha2 | ABeta2 => One | _ => Zero end)))) /\
  (forall ax t, ax < 3 -> t < n -> nth_error m (off len nss meth deriv n pr (ADist ax) + t) = Some (Some (Dist ax t))).
Proof. exact fill_ok. Qed.
Print Assumptions C28_layout.
Theorem C28_counts : forall len nss n pr, 0 < len -> 0 < nss -> (forall t, t < n -> sp_wf (pr t)) ->
  fill_nprim n pr = nsum (map (fun t => length (sp_prims (pr t))) (seq 0 n)).
Proof. exact fill_nprim_len. Qed.
Print Assumptions C28_counts.
Example C28_example : screen_fits 4 8 Schwarz 2 ex_pairs.
Proof. exact ex_fits. Qed.

(** C29.  The packed primitives of a shell with itself. *)
Theorem C29_value : forall (R : cring) (inv expf : R -> R) (c : R) (A : @shell R) (H : list R -> R),
  pair_sum inv expf c true A A H (sp_prims (SP (sh_n A) (sh_n A) true)) =
  pair_sum inv expf c false A A H (all_pairs (sh_n A)).
Proof. exact @packed_value. Qed.
Print Assumptions C29_value.
Theorem C29_derivative : forall (R : cring) (inv expf : R -> R) (c : R) (A : @shell R) (H : list R -> R),
  pair_sum2 inv expf c AAlpha2 true A A H (sp_prims (SP (sh_n A) (sh_n A) true)) = exponent_sum inv expf c true A H /\
  pair_sum2 inv expf c ABeta2 true A A H (sp_prims (SP (sh_n A) (sh_n A) true)) = exponent_sum inv expf c false A H.
Proof. exact @packed_deriv_value. Qed.
Print Assumptions C29_derivative.
Example C29_example : map (fun f => f (ex_mv 3) ex_g) [fun A H => @pair_sum Zring (fun _ => 1%Z) (fun _ => 1%Z) 1%Z true A A H (sp_prims (SP 2 2 true));
  fun A H => @pair_sum Zring (fun _ => 1%Z) (fun _ => 1%Z) 1%Z false A A H (all_pairs 2)] = [36%Z; 36%Z].
Proof. reflexivity. Qed.

(** C30.  Sorting all shell pairs: one rearrangement of all arrays, inside each pair; [kf] reads an element of the
    screen array. *)
Theorem C30_sort : forall (A : Type) (kf : A -> Z) len nss n np s, 0 < len -> 0 < nss -> (forall t, t < n -> 0 < np t) ->
  forall nprim M, nprim = nsum (map np (seq 0 n)) -> (exists a, nth_error M s = Some a) ->
  (forall a u, In a M -> u < n -> start len nss np u + np u <= length a) ->
  exists M', sort_multi kf len nss n np s nprim M = Some M' /\ pairs_shuffled len nss np (fun u => u < n) M M' /\
    (forall u, u < n -> descending kf M' s (Z.of_nat (start len nss np u)) (Z.of_nat (start len nss np u) + Z.of_nat (np u) - 1)).
Proof. exact @sort_multi_ok. Qed.
Print Assumptions C30_sort.
Example C30_example : sort_multi (fun x => x) 4 8 2 (fun t => match t with O => 5 | _ => 3 end) 1 8 ex_sort_M =
  Some [[13;11;14;10;12;21;22;20]; [9;9;5;3;1;7;2;2]]%Z.
Proof. exact ex_sort. Qed.

(** C31.  The screening routines stay inside the screen array exactly if every pair fits with the
    padding they write. *)
Theorem C31_fits : forall len nss meth deriv n pr, 0 < len -> 0 < nss -> Nat.divide len nss -> (forall t, t < n -> sp_wf (pr t)) ->
  screen_fits len nss meth n pr -> forall o, In o (fill_ops len nss meth deriv n pr) -> inside len nss meth deriv n pr o.
Proof. exact fill_inside. Qed.
Print Assumptions C31_fits.
Theorem C31_outside : forall len nss meth deriv n pr, 0 < len -> 0 < nss -> Nat.divide len nss -> (forall t, t < n -> sp_wf (pr t)) ->
  ~ screen_fits len nss meth n pr -> screens meth = true ->
  exists q v, In (AScreen, q, v) (fill_ops len nss meth deriv n pr) /\ alloc len nss n pr <= q.
Proof. exact fill_outside. Qed.
Print Assumptions C31_outside.
Theorem C31_single : forall len nss meth p, 0 < len -> 0 < nss -> sp_wf p -> screen_fits len nss meth 1 (fun _ => p).
Proof. exact single_fits. Qed.
Print Assumptions C31_single.
(** Two pairs of one primitive, vector length 4: the distance AB_x of the first pair is set to 0. *)
Theorem C31_overrun_refuted : match fill 4 8 Schwarz false 2 (fun _ => SP 1 1 false) with
  | Some m => nth_error m (off 4 8 Schwarz false 2 (fun _ => SP 1 1 false) (ADist 0))
  | None => None
  end = Some (Some Zero).
Proof. exact overrun. Qed.
Print Assumptions C31_overrun_refuted.

(** C32.  Concatenation. *)
Theorem C32_single : forall len nss A (pad : A) ins nm, 0 < len -> 0 < nss ->
  (forall i, i < nm -> m_n (ins i) = 1 /\ m_np (ins i) 0 <= length (m_arr (ins i))) ->
  exists out, cat_multi len nss pad ins nm = Some out /\ cat_shellpairs len nss pad ins nm = Some out /\
    length out = cat_alloc len nss ins nm /\ cs_alloc len nss ins nm = cat_alloc len nss ins nm /\
    let st := start len nss (fun i => m_np (ins i) 0) in
    (forall t k, t < nm -> k < m_np (ins t) 0 -> nth_error out (st t + k) = nth_error (m_arr (ins t)) k) /\
    (forall q, q < length out -> (forall t, t < nm -> ~ (st t <= q < st t + m_np (ins t) 0)) -> nth_error out q = Some pad).
Proof. exact cat_single. Qed.
Print Assumptions C32_single.
Theorem C32_general : forall len nss A (pad : A) ins nm, 0 < len -> 0 < nss ->
  (forall i j, i < nm -> j < m_n (ins i) -> m_np (ins i) j <= length (m_arr (ins i))) ->
  exists out, cat_multi len nss pad ins nm = Some out /\ length out = cat_alloc len nss ins nm /\
    forall t i j k, nth_error (cat_pairs ins nm) t = Some (i, j) -> k < m_np (ins i) j ->
      nth_error out (start len nss (npl ins (cat_pairs ins nm)) t + k) = nth_error (m_arr (ins i)) k.
Proof. exact cat_multi_general. Qed.
Print Assumptions C32_general.
(** Two pairs with primitives 7 and 8 in one input. *)
Theorem C32_two_pairs_refuted : cat_multi 4 8 0 (fun _ => MPair 2 (fun _ => 1) [7; 8; 0; 0] 2) 1 = Some [7; 7; 0; 0].
Proof. exact cat_wrong. Qed.
Print Assumptions C32_two_pairs_refuted.

(** C33.  Total primitive count after concatenation. *)
Theorem C33_nprim : forall len nss A (ins : nat -> mpair A) nm, 0 < len -> 0 < nss -> forall old,
  cat_nprim ins nm old = old + nsum (map (fun i => m_nprim (ins i)) (seq 0 nm)).
Proof. exact cat_nprim_sum. Qed.
Print Assumptions C33_nprim.
Example C33_example : cat_nprim (fun _ => MPair 1 (fun _ => 3) [1; 2; 3; 0] 3) 2 0 = 6 /\
  cat_nprim (fun _ => MPair 1 (fun _ => 3) [1; 2; 3; 0] 3) 2 6 = 12.
Proof. split; reflexivity. Qed.

(** C34.  Copying a shell. *)
Theorem C34_copy : forall V P src dst (s : state V P), owned_ok s -> src <> dst -> made s src -> 0 < s_nprim (vars s src) ->
  copy_size src dst s <= s_mem (vars s src) ->
  exists s', copy_shell src dst s = Some s' /\ owned_ok s' /\ made s' dst /\
    s_nprim (vars s' dst) = s_nprim (vars s src) /\ s_par (vars s' dst) = s_par (vars s src) /\
    (forall k, k < s_nprim (vars s src) -> alpha_of s' dst k = alpha_of s src k /\ coef_of s' dst k = coef_of s src k) /\
    s_mem (vars s' dst) = copy_size src dst s /\
    (forall j, j <> dst -> vars s' j = vars s j) /\
    (forall j b, j <> dst -> s_ptr (vars s j) = Some b -> heap s' b = heap s b) /\
    s_ptr (vars s' dst) <> s_ptr (vars s' src).
Proof. exact copy_ok. Qed.
Print Assumptions C34_copy.
Theorem C34_overread : forall V P src dst (s : state V P), owned_ok s -> src <> dst ->
  s_mem (vars s src) < copy_size src dst s -> copy_shell src dst s = None.
Proof. exact copy_overread. Qed.
Print Assumptions C34_overread.
Theorem C34_overread_refuted :
  hrun [HCreate 2 5 [1; 2] [3; 4] 0; HCreate 1 6 [9] [8] 1; HCopy nat nat 1 0] (fresh nat ex_v) = None.
Proof. exact ex_overread. Qed.
Print Assumptions C34_overread_refuted.

(** C35.  Sequences of operations. *)
Theorem C35_run : forall V P (l : list (hop V P)) s, owned_ok s -> proper_run l s -> exists s', hrun l s = Some s' /\ owned_ok s'.
Proof. exact hrun_ok. Qed.
Print Assumptions C35_run.
Theorem C35_fresh : forall V P (v : nat -> shellv P), owned_ok (fresh V v).
Proof. exact fresh_ok. Qed.
Print Assumptions C35_fresh.
Theorem C35_grow : forall V P (o : hop V P) s, owned_ok s -> proper o s -> exists s', hstep o s = Some s' /\ owned_ok s' /\
  (forall i, (forall k, o = HFree V P k -> k <> i) -> (forall k, o = HInit V P k -> k <> i) -> s_mem (vars s i) <= s_mem (vars s' i)).
Proof. exact hstep_ok. Qed.
Print Assumptions C35_grow.
Theorem C35_free_all : forall V P N (s : state V P), owned_ok s -> (forall i, N <= i -> s_ptr (vars s i) = None) ->
  exists s', hrun (map (@HFree V P) (seq 0 N)) s = Some s' /\ forall b, heap s' b = None.
Proof. exact free_all. Qed.
Print Assumptions C35_free_all.
Example C35_example : match hrun ex_ops (fresh nat ex_v) with
  | Some s => ([alpha_of s 1 1; coef_of s 1 0; alpha_of s 0 0; coef_of s 0 0], s_par (vars s 1), heap s 1)
  | None => ([], 0, None)
  end = ([Some 2; Some 3; Some 5; Some 6], 5, None).
Proof. exact ex_heap. Qed.

(** C36.  compare_shell. *)
Theorem C36_iff : forall P (a b : shellv P), compare_shell a b = true <-> s_nprim a = s_nprim b /\ s_ptr a = s_ptr b.
Proof. exact compare_iff. Qed.
Print Assumptions C36_iff.
Theorem C36_distinct : forall V P (s : state V P) i j, owned_ok s -> i <> j -> s_ptr (vars s i) <> None ->
  compare_shell (vars s i) (vars s j) = false.
Proof. exact compare_distinct. Qed.
Print Assumptions C36_distinct.
Theorem C36_moved_copy_refuted :
  let a := Sh 2 0%Z (Some 0) 4 2 in let b := Sh 2 1%Z (Some 0) 4 2 in
  compare_shell a b = true /\
  @pair_sum Zring (fun _ => 1%Z) (fun _ => 1%Z) 1%Z true (ex_mv 0) (ex_mv 1) ex_g (sp_prims (SP 2 2 true)) = 5%Z /\
  @pair_sum Zring (fun _ => 1%Z) (fun _ => 1%Z) 1%Z false (ex_mv 0) (ex_mv 1) ex_g (sp_prims (SP 2 2 false)) = 6%Z.
Proof. exact moved_copy_packed. Qed.
Print Assumptions C36_moved_copy_refuted.

(** C37.  The whole-quartet exit. *)
Theorem C37_filled : forall (ms1 ms2 : list Q) (tol : Q), (tol <= big)%Q -> early_exit tol (fill_max ms1) (fill_max ms2) = false.
Proof. exact no_early_exit_filled. Qed.
Print Assumptions C37_filled.
Theorem C37_concatenated : forall (ins1 ins2 : list (Q * nat)) m1 k1 m2 k2 (tol : Q),
  In (fill_max m1, k1) ins1 -> 0 < k1 -> In (fill_max m2, k2) ins2 -> 0 < k2 ->
  (tol <= big)%Q -> early_exit tol (cat_max ins1) (cat_max ins2) = false.
Proof. exact no_early_exit_cat. Qed.
Print Assumptions C37_concatenated.
(** The exit itself can fire, for smaller screen maxima. *)
Example C37_example : early_exit (1 # 10) (1 # 100) (1 # 100) = true.
Proof. exact exit_possible. Qed.

(** C38.  Gaussian product identities; division is multiplication by the inverse of the exponent sum. *)
Theorem C38_identities : forall (R : cring) (inv expf : R -> R) (c : R) same (A B : @shell R) i j ax, ax < 3 ->
  (((sh_alpha A i + sh_alpha B j) * inv (sh_alpha A i + sh_alpha B j) = c1)%r ->
  let v a := prim_value inv expf c same A B a i j in
  let p := v (APrim 9) in let P := v (APrim ax) in let PA := v (APrim (3 + ax)%nat) in let PB := v (APrim (6 + ax)%nat) in
  let AB := v (ADist ax) in
  p = sh_alpha A i + sh_alpha B j /\
  p * P = sh_alpha A i * sh_pos A ax + sh_alpha B j * sh_pos B ax /\
  p * PA = sh_alpha B j * (sh_pos B ax - sh_pos A ax) /\
  p * PB = sh_alpha A i * (sh_pos A ax - sh_pos B ax) /\
  sh_pos A ax + PA = P /\ sh_pos B ax + PB = P /\
  PB = PA + AB)%r.
Proof. exact @product_identities. Qed.
Print Assumptions C38_identities.
Example C38_example : let A := @Shell Zring 1 (fun _ => 5%Z) (fun _ => 3%Z) (fun _ => 1%Z) in
  let B := @Shell Zring 1 (fun _ => 9%Z) (fun _ => (-2)%Z) (fun _ => 1%Z) in
  map (fun k => @prim_value Zring (fun x => x) (fun _ => 1%Z) 1%Z false A B (APrim k) 0 0) [0; 3; 6; 9] = [(-3)%Z; (-8)%Z; (-12)%Z; 1%Z].
Proof. reflexivity. Qed.
