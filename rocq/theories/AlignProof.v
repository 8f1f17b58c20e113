(** Proofs about [Align]. *)
From Coq Require Import List Arith Lia Bool QArith.
Import ListNotations.
From Verif Require Import Base Simd Offsets Starts Layout Kernel Cat Work Align.
Set Implicit Arguments.
Local Open Scope nat_scope.

Lemma align_elt scalar len a k : allocated scalar len a -> Nat.divide len k -> Nat.divide (simd_align len) (elt a k).
Proof.
  unfold allocated, simd_align, elt. intros H [q ->]. destruct scalar.
  - destruct H as [-> [p ->]]. exists (p + q). lia.
  - destruct H as [p ->]. exists (p + q). lia.
Qed.
Lemma align_shift len a k : 0 < len -> Nat.divide (simd_align len) a ->
  (Nat.divide (simd_align len) (elt a k) <-> Nat.divide len k).
Proof.
  unfold simd_align, elt. intros H0 H. split.
  - intros H1. pose proof (Nat.divide_add_cancel_r _ _ _ H H1) as [q E]. exists q. lia.
  - intros [q ->]. apply Nat.divide_add_r; [exact H|]. exists q. lia.
Qed.

Section Loads.
Variables (len nss : nat) (P K : batch) (tol : Q) (zf deriv : bool) (ketvrr : option bool).
Hypothesis Hlen : 0 < len.
Hypothesis Hnss : 0 < nss.
Hypothesis Hdiv : Nat.divide len nss.
Local Notation st := (start len nss (b_np K)).
Local Notation okarr a := (In a (ket_arrs deriv ketvrr) \/ a = AScreen /\ qltb 0 tol = true).

Lemma jloads_in i jstart a j : forall m v, In (a, j) (jloads len P K tol zf deriv ketvrr i jstart m v) ->
  okarr a /\ exists w, v <= w < v + m /\ j = jstart + w * len.
Proof.
  induction m as [|m IH]; cbn [jloads]; intros v H; [destruct H|].
  apply in_app_or in H as [H|H]; [|apply in_app_or in H as [H|H]].
  - unfold check_screen in H. destruct (qltb 0 tol) eqn:E; [|destruct H]. destruct H as [[= <- <-]|[]].
    split; [right; auto|]. exists v. split; [lia|reflexivity].
  - destruct (vec_skip _ _ _ _ _ _ _); [destruct H|]. apply in_map_iff in H as [x [[= <- <-] Hx]].
    split; [left; exact Hx|]. exists v. split; [lia|reflexivity].
  - apply IH in H as [H (w & Hw & E)]. split; [exact H|]. exists w. split; [lia|exact E].
Qed.
Lemma iloads_in jstart jend a j : forall m i, In (a, j) (iloads len P K tol zf deriv ketvrr jstart jend m i) ->
  okarr a /\ exists w, w < nvec len (jend - jstart) /\ j = jstart + w * len.
Proof.
  induction m as [|m IH]; cbn [iloads]; intros i H; [destruct H|].
  apply in_app_or in H as [H|H]; [|apply IH in H; exact H].
  destruct (bra_skip _ _ _ _); [destruct H|]. apply jloads_in in H as [H (w & Hw & E)].
  split; [exact H|]. exists w. split; [lia|exact E].
Qed.

Lemma nvec_end d w : w < nvec len d -> w * len + len <= rnd len d.
Proof.
  unfold nvec, rnd. intros H. transitivity (S w * len); [lia|]. apply Nat.mul_le_mono_r. exact H.
Qed.

(** Batch [b] starts where the arrays have its first pair, and ends before the end of pair [clip]. *)
Lemma st_mono t u : t <= u -> st t <= st u.
Proof.
  induction 1 as [|u _ IH]; [lia|]. cbn [start]. destruct (S u mod nss =? 0); [|lia].
  pose proof (rnd_ge Hlen (st u + b_np K u)). lia.
Qed.
Lemma batch_le b : b * nss < b_clip K ->
  rnd len (batch_end nss K (b * nss) (st (b * nss))) <= rnd len (st (b_clip K)).
Proof.
  intros Hb. unfold batch_end, batch_size. destruct (Nat.ltb_spec (b_clip K) (b * nss + nss)) as [L|L].
  - replace (b_clip K) with (b * nss + (b_clip K - b * nss)) at 2 by lia.
    rewrite start_in by lia. lia.
  - pose proof (start_next Hlen Hnss (b_np K) b) as E. 
    transitivity (rnd len (st (S b * nss))).
    + rewrite E, (rnd_rnd Hlen). reflexivity.
    + apply (rnd_mono Hlen), st_mono. cbn. lia.
Qed.
Lemma cdloads_in istart n a j : forall m b, b + m = nbatch nss K ->
  In (a, j) (cdloads len nss P K tol zf deriv ketvrr istart n m b (st (b * nss))) ->
  okarr a /\ Nat.divide len j /\ j + len <= rnd len (st (b_clip K)).
Proof.
  assert (NB : forall b, b < nbatch nss K -> b * nss < b_clip K).
  { intros b Hb. unfold nbatch in Hb. pose proof (Nat.div_mod (b_clip K + (nss - 1)) nss ltac:(lia)) as D.
    pose proof (Nat.mod_upper_bound (b_clip K + (nss - 1)) nss ltac:(lia)) as M.
    set (q := (b_clip K + (nss - 1)) / nss) in *. nia. }
  induction m as [|m IH]; cbn [cdloads]; intros b Hb H; [destruct H|].
  pose proof (NB b ltac:(lia)) as Hc.
  apply in_app_or in H as [H|H].
  - apply iloads_in in H as [Ho (w & Hw & ->)]. split; [exact Ho|].
    pose proof (start_divide Hlen Hnss (b_np K) b) as D.
    split; [apply Nat.divide_add_r; [exact D|exists w; reflexivity]|].
    pose proof (@batch_le b Hc) as L. apply nvec_end in Hw.
    set (s := st (b * nss)) in *. set (e := batch_end nss K (b * nss) s) in *.
    assert (Hse : s <= e) by (unfold e, batch_end; lia).
    assert (E : rnd len e = s + rnd len (e - s)).
    { rewrite <- (rnd_add_l Hlen) by exact D. f_equal. lia. }
    lia.
  - destruct m as [|m]; [destruct H|].
    pose proof (NB (S b) ltac:(lia)) as Hc2.
    apply (IH (S b)); [lia|]. 
    replace (st (S b * nss)) with (rnd len (batch_end nss K (b * nss) (st (b * nss)))); [exact H|].
    rewrite (start_next Hlen Hnss). unfold batch_end, batch_size.
    destruct (Nat.ltb_spec (b_clip K) (b * nss + nss)) as [L|L]; [cbn in Hc2; lia|reflexivity].
Qed.
Lemma abloads_in a j : forall m ab istart,
  In (a, j) (abloads len nss P K tol zf deriv ketvrr m ab istart) ->
  okarr a /\ Nat.divide len j /\ j + len <= rnd len (st (b_clip K)).
Proof.
  induction m as [|m IH]; cbn [abloads]; intros ab istart H; [destruct H|].
  apply in_app_or in H as [H|H]; [|apply IH in H; exact H].
  apply (@cdloads_in istart (b_np P ab) a j (nbatch nss K) 0 eq_refl). exact H.
Qed.
Theorem loads_in a j : In (a, j) (kernel_loads len nss P K tol zf deriv ketvrr) ->
  okarr a /\ Nat.divide len j /\ j + len <= rnd len (st (b_clip K)).
Proof. exact (@abloads_in a j (b_clip P) 0 0). Qed.
End Loads.

Lemma ket_arrs_num deriv ketvrr a : In a (ket_arrs deriv ketvrr) ->
  (exists k, k < 11 /\ a = APrim k) \/ deriv = true /\ (a = AAlpha2 \/ a = ABeta2).
Proof.
  unfold ket_arrs, a_alpha, a_prefac. intros H.
  assert (C : forall k, APrim k = a -> k < 11 -> exists k, k < 11 /\ a = APrim k) by (intros k <- L; exists k; auto).
  destruct deriv; destruct ketvrr as [[|]|]; cbn in H;
    repeat (destruct H as [H|H]; [first [left; apply (C _ H); lia | right; split; [reflexivity|subst; auto]]|]); destruct H.
Qed.

Lemma start_ext len nss f g t : (forall i, i < t -> f i = g i) -> start len nss f t = start len nss g t.
Proof. induction t as [|t IH]; intros H; [reflexivity|]. cbn [start]. rewrite IH, H by auto. reflexivity. Qed.

(** Arrays of a new batch of pairs. *)
Theorem loads_aligned scalar len nss P K tol zf meth deriv ketvrr n pr base a j :
  0 < len -> 0 < nss -> Nat.divide len nss -> allocated scalar len base -> (forall t, t < n -> sp_wf (pr t)) ->
  b_clip K <= n -> (forall t, t < n -> b_np K t = npf pr t) -> ((0 < tol)%Q -> meth <> NoScreen) ->
  In (a, j) (kernel_loads len nss P K tol zf deriv ketvrr) ->
  arr_ok meth deriv a = true /\ j + len <= size len nss n pr a /\
  off len nss meth deriv n pr a + j + len <= total_doubles len nss meth deriv n pr /\
  Nat.divide (simd_align len) (elt base (off len nss meth deriv n pr a + j)).
Proof.
  intros H0 Hn Hd Hb Hwf Hc Hnp Hs Hin. apply loads_in in Hin as [Ha [Dj Hj]]; [|assumption..].
  assert (Hal : rnd len (start len nss (b_np K) (b_clip K)) <= alloc len nss n pr).
  { rewrite alloc_ok by assumption. apply (rnd_mono H0).
    rewrite (@start_ext len nss (b_np K) (npf pr)) by (intros i Hi; apply Hnp; lia).
    clear -H0 Hc. induction Hc as [|u _ IH]; [lia|]. cbn [start]. destruct (S u mod nss =? 0); [|lia].
    pose proof (rnd_ge H0 (start len nss (npf pr) u + npf pr u)). lia. }
  assert (Da : Nat.divide len (alloc len nss n pr)) by (rewrite alloc_ok by assumption; apply rnd_divide).
  assert (Hq : forall k, Nat.divide len (alloc len nss n pr * k)) by (intros k; apply Nat.divide_mul_l; exact Da).
  set (al := alloc len nss n pr) in *.
  assert (Hk : exists k, off len nss meth deriv n pr a = al * k /\ k < nprim_arr meth deriv /\ arr_ok meth deriv a = true /\ size len nss n pr a = al).
  { destruct Ha as [Ha|[-> Ht]].
    - apply ket_arrs_num in Ha as [(k & Lk & ->)|[-> [->| ->]]].
      + exists k. split; [reflexivity|]. split; [unfold nprim_arr; lia|]. split; [apply Nat.ltb_lt; exact Lk|reflexivity].
      + exists (11 + nscr meth). split; [reflexivity|]. split; [unfold nprim_arr, nder; lia|]. split; reflexivity.
      + exists (11 + nscr meth + 1). split; [reflexivity|]. split; [unfold nprim_arr, nder; lia|]. split; reflexivity.
    - assert (Hm : meth <> NoScreen).
      { apply Hs. unfold qltb in Ht. apply negb_true_iff in Ht. apply Qnot_le_lt. intros L.
        apply Qle_bool_iff in L. congruence. }
      exists 11. split; [reflexivity|]. split; [unfold nprim_arr, nscr; destruct meth; [congruence|cbn..]; lia|].
      split; [destruct meth; [congruence|reflexivity..]|reflexivity]. }
  destruct Hk as (k & Eo & Lk & Ok & Es). rewrite Eo, Es. split; [exact Ok|]. split; [lia|]. split.
  - unfold total_doubles. fold al. nia.
  - apply (@align_elt scalar); [exact Hb|]. apply Nat.divide_add_r; [apply Hq|exact Dj].
Qed.

(** Arrays put together from others. *)
Theorem cat_aligned scalar len nss (A : Type) (ins : nat -> mpair A) nm base k j :
  0 < len -> 0 < nss -> allocated scalar len base -> Nat.divide len j ->
  Nat.divide (simd_align len) (cat_addr base (cat_alloc len nss ins nm) k j) /\
  Nat.divide (simd_align len) (cat_addr base (cs_alloc len nss ins nm) k j).
Proof.
  intros H0 Hn Hb Dj.
  assert (D1 : Nat.divide len (cat_alloc len nss ins nm)).
  { unfold cat_alloc. rewrite cat_alloc_ok by assumption. apply rnd_divide. }
  assert (D2 : Nat.divide len (cs_alloc len nss ins nm)).
  { unfold cs_alloc. assert (G : forall f i p, Nat.divide len p -> Nat.divide len (cs_alloc_loop len nss ins nm f i p)).
    { induction f as [|f IH]; intros i p Dp; cbn [cs_alloc_loop]; [exact Dp|].
      destruct (i <? nm); [|exact Dp]. apply IH. apply Nat.divide_add_r; [exact Dp|apply rnd_divide]. }
    apply G. exists 0. reflexivity. }
  split; (apply (@align_elt scalar); [exact Hb|]; apply Nat.divide_add_r; [apply Nat.divide_mul_l; assumption|exact Dj]).
Qed.

(** The workspace: of every thread, and the vectors in it. *)
Theorem work_aligned scalar len nss plan vs l all t :
  allocated scalar len all -> Nat.divide (simd_align len) (thread_area all t (worksize len nss plan vs l)).
Proof.
  intros Hb. apply (@align_elt scalar); [exact Hb|]. apply Nat.divide_mul_r. unfold worksize.
  apply Nat.divide_add_r; [apply Nat.divide_add_r; apply rnd_divide|]. apply Nat.divide_mul_l, Nat.divide_refl.
Qed.
Theorem vectors_aligned len nss fin w a m i x work : 0 < len ->
  wok w -> Nat.divide len nss -> Nat.divide (simd_align len) work -> addr len nss fin w (EPrim a m i 0) = Some x ->
  Nat.divide (simd_align len) (elt work x).
Proof.
  intros H0 W D Hw E. apply align_shift; [exact H0|exact Hw|]. exact (@addr_aligned len nss fin w a m i x W D E).
Qed.

(** contract_all. *)
Theorem tmp_aligned_iff tmp ncart : 8 <= ncart ->
  ((forall x, In x (tmp_loads tmp ncart) -> Nat.divide (simd_align 8) x) <-> Nat.divide (simd_align 8) tmp).
Proof.
  intros Hn. unfold tmp_loads. split.
  - intros H. replace tmp with (elt tmp (0 * 8)) by (unfold elt; lia). apply H.
    apply in_flat_map. exists 0. split; [|apply in_map_iff; exists 0; split; [reflexivity|apply in_seq; lia]].
    apply in_seq. assert (1 <= ncart / 8); [|lia]. change 1 with (8 / 8). apply Nat.div_le_mono; lia.
  - intros H x Hx. apply in_flat_map in Hx as (it & _ & Hx). apply in_map_iff in Hx as (i & <- & _).
    apply (@align_shift 8); [lia|exact H|]. exists i. reflexivity.
Qed.
Theorem tmp_misaligned : exists tmp, local_array tmp /\
  forall ncart, 8 <= ncart -> exists x, In x (tmp_loads tmp ncart) /\ ~ Nat.divide (simd_align 8) x.
Proof.
  exists 16. split; [exists 1; reflexivity|]. intros ncart Hn. exists (elt 16 (0 * 8)). split.
  - unfold tmp_loads. apply in_flat_map. exists 0.
    split; [|apply in_map_iff; exists 0; split; [reflexivity|apply in_seq; lia]].
    apply in_seq. assert (1 <= ncart / 8); [|lia]. change 1 with (8 / 8). apply Nat.div_le_mono; lia.
  - intros [q E]. unfold elt, simd_align in E. lia.
Qed.

(** The result areas. *)
Theorem results_iff scalar len all t maxam el : 0 < len -> allocated scalar len all ->
  (Nat.divide (simd_align len) (thread_area all t (maxsize maxam el)) <-> Nat.divide len (t * maxsize maxam el)).
Proof.
  intros H0 Hb. unfold thread_area. apply align_shift; [exact H0|].
  replace all with (elt all 0) by (unfold elt; lia). apply (@align_elt scalar); [exact Hb|]. exists 0. reflexivity.
Qed.
Theorem results_first scalar len all maxam el : 0 < len -> allocated scalar len all ->
  Nat.divide (simd_align len) (thread_area all 0 (maxsize maxam el)).
Proof. intros H0 Hb. apply (@results_iff scalar len all 0 maxam el H0 Hb). exists 0. reflexivity. Qed.
Theorem results_second : exists maxam el, forall k all, 0 < k -> Nat.divide (simd_align (2 ^ k)) all ->
  ~ Nat.divide (simd_align (2 ^ k)) (thread_area all 1 (maxsize maxam el)).
Proof.
  exists 1, 5. intros k all Hk Hb H. destruct k as [|k]; [lia|].
  apply align_shift in H; [|apply Nat.neq_0_lt_0, Nat.pow_nonzero; lia|exact Hb].
  destruct H as [q E]. change (1 * maxsize 1 5) with 225 in E. rewrite Nat.pow_succ_r' in E. lia.
Qed.

Theorem example1_iff k a : k <= 3 -> Nat.divide (simd_align (2 ^ k)) a ->
  ((forall x, In x (example1_targets a) -> Nat.divide (simd_align (2 ^ k)) x) <-> k < 3).
Proof.
  intros Hk Ha. unfold example1_targets. cbn [map ntotals example1_calls].
  assert (P0 : 0 < 2 ^ k) by (apply Nat.neq_0_lt_0, Nat.pow_nonzero; lia).
  split.
  - intros H. specialize (H (elt a 844)). destruct (Nat.eq_dec k 3) as [->|]; [|lia].
    assert (D : Nat.divide (simd_align (2 ^ 3)) (elt a 844)) by (apply H; cbn; auto 8).
    apply align_shift in D; [|exact P0|exact Ha]. destruct D as [q E]. change (2 ^ 3) with 8 in E. lia.
  - intros L x Hx. assert (D : exists n, x = elt a (4 * n)).
    { cbn in Hx. repeat (destruct Hx as [<-|Hx]); [exists 0|exists 64|exists 112|exists 148|exists 184|exists 211|destruct Hx]; reflexivity. }
    destruct D as [n ->]. apply align_shift; [exact P0|exact Ha|]. apply Nat.divide_mul_l.
    destruct k as [|[|[|k]]]; [exists 4|exists 2|exists 1|lia]; reflexivity.
Qed.
