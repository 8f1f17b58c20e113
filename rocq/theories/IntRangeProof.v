(** Proofs about [IntRange]. *)
From Coq Require Import List Arith Lia Bool ZArith QArith.
Import ListNotations.
From Verif Require Import Base Simd Offsets Starts Layout Kernel IntRange.
Set Implicit Arguments.
Local Open Scope nat_scope.

Lemma fits_le a b : a <= b -> fits b -> fits a.
Proof. unfold fits. lia. Qed.
Lemma in_range_app a b : in_range (a ++ b) <-> in_range a /\ in_range b.
Proof. apply Forall_app. Qed.
Lemma in_range_cons v t : in_range (v :: t) <-> fits v /\ in_range t.
Proof. split; [intros H; inversion H; auto|intros [A B]; constructor; auto]. Qed.
Lemma in_range_nil : in_range []. Proof. constructor. Qed.
Lemma in_range_map A (f : A -> nat) l : (forall x, In x l -> fits (f x)) -> in_range (map f l).
Proof. intros H. apply Forall_forall. intros v Hv. apply in_map_iff in Hv as (x & <- & Hx). auto. Qed.
Lemma in_range_flat A (f : A -> list nat) l : (forall x, In x l -> in_range (f x)) -> in_range (flat_map f l).
Proof.
  intros H. apply Forall_forall. intros v Hv. apply in_flat_map in Hv as (x & Hx & Hv).
  exact (proj1 (Forall_forall _ _) (H x Hx) v Hv).
Qed.
Lemma in_range_in v t : in_range t -> In v t -> fits v.
Proof. intros H. exact (proj1 (Forall_forall _ _) H v). Qed.

Lemma per_ge nf deriv : nf <= per_quartet nf deriv.
Proof. unfold per_quartet. destruct deriv; lia. Qed.

Section KernelProof.
Variables (len nss : nat) (P K : batch) (tops : list nat) (nf : nat) (hashrr deriv : bool).
Hypothesis (Hlen : 0 < len) (Hnss : 0 < nss).
Local Notation p := (b_clip P).
Local Notation q := (b_clip K).
Local Notation st := (start len nss (b_np K)).

Lemma nb_spec b : b < nbatch nss K -> b * nss < q.
Proof.
  intros H. unfold nbatch in H. pose proof (Nat.mul_div_le (q + (nss - 1)) nss ltac:(lia)) as D.
  pose proof (Nat.mul_le_mono_r (S b) _ nss H) as M. rewrite Nat.mul_succ_l in M.
  rewrite (Nat.mul_comm _ nss) in M. lia.
Qed.
Lemma bs_spec b : b * nss < q ->
  let nb := batch_size nss K (b * nss) in nb <= nss /\ b * nss + nb = Nat.min (S b * nss) q.
Proof. intros H nb. unfold nb, batch_size. cbn [Nat.mul]. destruct (Nat.ltb_spec q (b * nss + nss)); lia. Qed.
Lemma st_mono t u : t <= u -> st t <= st u.
Proof.
  induction 1 as [|u _ IH]; [lia|]. cbn [start]. destruct (S u mod nss =? 0); [|lia].
  pose proof (rnd_ge Hlen (st u + b_np K u)). lia.
Qed.
Lemma end_le b : b * nss < q -> rnd len (batch_end nss K (b * nss) (st (b * nss))) <= rnd len (st q).
Proof.
  intros Hb. unfold batch_end, batch_size. destruct (Nat.ltb_spec q (b * nss + nss)) as [L|L].
  - replace q with (b * nss + (q - b * nss)) at 2 by lia. rewrite start_in by lia. lia.
  - pose proof (start_next Hlen Hnss (b_np K) b) as E.
    transitivity (rnd len (st (S b * nss))).
    + rewrite E, (rnd_rnd Hlen). reflexivity.
    + apply (rnd_mono Hlen), st_mono. cbn. lia.
Qed.
Lemma next_start b : S b * nss < q -> rnd len (batch_end nss K (b * nss) (st (b * nss))) = st (S b * nss).
Proof.
  intros H. rewrite (start_next Hlen Hnss). unfold batch_end, batch_size.
  destruct (Nat.ltb_spec q (b * nss + nss)) as [L|L]; [cbn in H; lia|reflexivity].
Qed.

(** *** Enough room *)
Section Fits.
Hypothesis Htops : if hashrr then forall t, In t tops -> fits (nss * t) else tops = [nf] /\ deriv = false.
Hypothesis Hnf : 0 < nf.
Hypothesis Hres : fits (p * q * per_quartet nf deriv).
Hypothesis Hbra : fits (total (b_np P) p).
Hypothesis Hket : fits (rnd len (st q) + (len - 1)).
Hypothesis Hq : fits (q + nss).
Hypothesis Hp : fits p.

Lemma res_le k : k <= p * q -> fits (k * nf) /\ fits (k * per_quartet nf deriv) /\ fits k.
Proof using Hlen Hnss Hres Hnf.
  intros H. pose proof (per_ge nf deriv).
  assert (A : k * per_quartet nf deriv <= p * q * per_quartet nf deriv) by (apply Nat.mul_le_mono_r; exact H).
  assert (B : k * nf <= k * per_quartet nf deriv) by (apply Nat.mul_le_mono_l; assumption).
  repeat split; eapply fits_le; try exact Hres; nia.
Qed.

Lemma jend_ints_ok cd : forall m i j, cd + (i + m) <= q -> i + m <= nss ->
  fits (j + psum (b_np K) (cd + i) m) -> in_range (jend_ints K cd m i j).
Proof.
  induction m as [|m IH]; intros i j H1 H2 H; cbn [jend_ints]; [apply in_range_nil|].
  assert (E : psum (b_np K) (cd + i) (S m) = b_np K (cd + i) + psum (b_np K) (cd + S i) m).
  { clear. induction m as [|m IH]; [cbn [psum]; rewrite Nat.add_0_r; lia|]. rewrite (Nat.add_succ_r cd i) in *. cbn [psum] in *. rewrite IH.
    replace (cd + i + S m) with (S (cd + i) + m) by lia. lia. }
  rewrite E in H.
  apply in_range_app. split.
  - apply in_range_cons; split; [eapply fits_le; [|exact Hq]; lia|].
    apply in_range_cons; split; [eapply fits_le; [|exact H]; lia|].
    apply in_range_cons; split; [eapply fits_le; [|exact Hq]; lia|apply in_range_nil].
  - apply IH; [lia|lia|]. eapply fits_le; [|exact H]. lia.
Qed.

Lemma i_ints_ok abcd b i : (if hashrr then abcd <= nss else abcd <= p * q) -> S i <= total (b_np P) p -> b * nss < q ->
  in_range (i_ints len tops abcd (st (b * nss)) (batch_end nss K (b * nss) (st (b * nss))) i).
Proof.
  intros Ha Hi Hb. unfold i_ints. rewrite !in_range_app. repeat split.
  - apply in_range_map. intros t Ht. destruct hashrr.
    + eapply fits_le; [|apply Htops; exact Ht]. apply Nat.mul_le_mono_r. exact Ha.
    + destruct (Htops) as [Et _]. rewrite Et in Ht. destruct Ht as [<-|[]]. apply (proj1 (@res_le abcd Ha)).
  - unfold j_ints. apply in_range_map. intros v Hv. apply in_seq in Hv.
    pose proof (start_divide Hlen Hnss (b_np K) b) as D. pose proof (@end_le b Hb) as L.
    set (s := st (b * nss)) in *. set (e := batch_end nss K (b * nss) s) in *.
    assert (Hse : s <= e) by (unfold e, batch_end; lia).
    assert (E : rnd len e = s + rnd len (e - s)).
    { rewrite <- (rnd_add_l Hlen) by exact D. f_equal. lia. }
    assert (V : v * len + len <= rnd len (e - s)).
    { destruct Hv as [_ Hv]. cbn in Hv. unfold nvec in Hv. unfold rnd. transitivity (S v * len); [lia|]. apply Nat.mul_le_mono_r. exact Hv. }
    eapply fits_le; [|exact Hket]. lia.
  - constructor; [|apply in_range_nil]. eapply fits_le; [exact Hi|exact Hbra].
Qed.

Lemma hrr_ints_ok : hashrr = true -> forall m abcd real, abcd + m <= nss -> real + m <= p * q -> fits nss ->
  in_range (hrr_ints tops nf deriv m abcd real).
Proof.
  intros Eh. induction m as [|m IH]; intros abcd real H1 H2 Hn; cbn [hrr_ints]; [apply in_range_nil|].
  destruct (@res_le real ltac:(lia)) as (R1 & R2 & R3). destruct (@res_le (S real) ltac:(lia)) as (_ & _ & R4).
  rewrite !in_range_app. repeat split.
  - apply in_range_map. intros t Ht. rewrite Eh in Htops. eapply fits_le; [|apply Htops; exact Ht]. apply Nat.mul_le_mono_r. lia.
  - constructor; [exact R1|apply in_range_nil].
  - unfold per_quartet in R2. clear - R2. destruct deriv; [|apply in_range_nil]. constructor; [|apply in_range_nil].
    rewrite <- Nat.mul_assoc. exact R2.
  - repeat (apply in_range_cons; split); try apply in_range_nil; [eapply fits_le; [|exact Hn]; lia|exact R4].
  - apply IH; [lia|lia|exact Hn].
Qed.

Lemma cd_ints_ok i0 n base : i0 + n <= total (b_np P) p -> base + q <= p * q -> forall m b, b + m = nbatch nss K ->
  in_range (cd_ints len nss K tops nf hashrr deriv i0 n m b (st (b * nss)) (base + b * nss)).
Proof.
  intros Hi Hr. induction m as [|m IH]; intros b Hb; cbn [cd_ints]; [apply in_range_nil|].
  assert (Hc : b * nss < q) by (apply nb_spec; lia).
  pose proof (@bs_spec b Hc) as (B1 & B2). set (nb := batch_size nss K (b * nss)) in *.
  pose proof (@end_le b Hc) as EL. set (s := st (b * nss)) in *. set (e := batch_end nss K (b * nss) s) in *.
  pose proof (rnd_ge Hlen e) as RG.
  rewrite !in_range_app. repeat split.
  - repeat (apply in_range_cons; split); try apply in_range_nil; eapply fits_le; try exact Hq; lia.
  - apply jend_ints_ok; [lia|lia|]. rewrite Nat.add_0_r. change (s + psum (b_np K) (b * nss) nb) with e.
    eapply fits_le; [|exact Hket]. lia.
  - apply in_range_flat. intros i Hin. apply in_seq in Hin. apply i_ints_ok; [|lia|exact Hc].
    assert (hashrr = true \/ hashrr = false) as [Eh|Eh] by (case hashrr; auto); rewrite Eh; lia.
  - repeat (apply in_range_cons; split); try apply in_range_nil; eapply fits_le; try exact Hket; lia.
  - assert (hashrr = true \/ hashrr = false) as [Eh|Eh] by (case hashrr; auto); rewrite Eh.
    + apply hrr_ints_ok; [exact Eh|lia|lia|]. eapply fits_le; [|exact Hq]. lia.
    + constructor; [|apply in_range_nil]. apply (proj2 (proj2 (@res_le (base + b * nss + nb) ltac:(lia)))).
  - destruct m as [|m]; [apply in_range_nil|].
    assert (Hc2 : S b * nss < q) by (apply nb_spec; lia).
    unfold e, s. rewrite next_start by exact Hc2.
    replace (base + b * nss + nb) with (base + S b * nss) by lia. apply IH. lia.
Qed.

Lemma total_mono np t u : t <= u -> total np t <= total np u.
Proof. induction 1; cbn [total]; lia. Qed.

Lemma ab_ints_ok : forall m ab, ab + m = p ->
  in_range (ab_ints len nss P K tops nf hashrr deriv m ab (total (b_np P) ab) (ab * q)).
Proof.
  induction m as [|m IH]; intros ab Ha; cbn [ab_ints]; [apply in_range_nil|].
  change (total (b_np P) ab + b_np P ab) with (total (b_np P) (S ab)).
  pose proof (@total_mono (b_np P) (S ab) p ltac:(lia)) as TM.
  rewrite !in_range_app. repeat split.
  - constructor; [|apply in_range_nil]. eapply fits_le; [exact TM|exact Hbra].
  - replace (ab * q) with (ab * q + 0 * nss) by lia. apply (@cd_ints_ok _ _ (ab * q)).
    + cbn [total] in TM. lia.
    + nia.
    + reflexivity.
  - constructor; [|apply in_range_nil]. eapply fits_le; [|exact Hp]. lia.
  - replace (ab * q + q) with (S ab * q) by (cbn; lia). apply IH. lia.
Qed.

Theorem kernel_ints_ok : in_range (kernel_ints len nss P K tops nf hashrr deriv).
Proof.
  destruct (@res_le (p * q) (le_n _)) as (R1 & R2 & R3).
  unfold kernel_ints. rewrite !in_range_app. repeat split.
  - unfold memset_ints. case hashrr; [apply in_range_nil|].
    repeat (apply in_range_cons; split); try apply in_range_nil; assumption.
  - exact (@ab_ints_ok p 0 eq_refl).
  - constructor; [exact R3|apply in_range_nil].
Qed.
Theorem permute_ints_ok : in_range (permute_ints P K nf deriv).
Proof.
  unfold permute_ints. apply in_range_flat. intros k Hk. apply in_seq in Hk.
  destruct (@res_le (S k) ltac:(lia)) as (R1 & R2 & R3). rewrite !in_range_app. repeat split.
  - apply in_range_map. intros r Hr. apply in_seq in Hr. eapply fits_le; [|exact R1]. cbn [Nat.mul]. lia.
  - unfold per_quartet in R2. clear - R1 R2 Hk Hnf. destruct deriv.
    + apply in_range_app. split.
      * apply in_range_map. intros r Hr. apply in_seq in Hr. eapply fits_le; [|exact R2]. cbn [Nat.mul]. lia.
      * repeat (apply in_range_cons; split); try apply in_range_nil; eapply fits_le; try exact R2; nia.
    + constructor; [|apply in_range_nil]. eapply fits_le; [|exact R1]. cbn [Nat.mul]. lia.
  - constructor; [exact R3|apply in_range_nil].
Qed.
End Fits.

(** *** Needed *)
Lemma hrr_ints_in : forall m abcd real k, k < m ->
  In ((real + k) * per_quartet nf deriv) (hrr_ints tops nf deriv m abcd real).
Proof.
  induction m as [|m IH]; intros abcd real k Hk; [lia|]. cbn [hrr_ints].
  destruct k as [|k].
  - rewrite Nat.add_0_r. apply in_or_app. right. unfold per_quartet. destruct deriv.
    + right. left. rewrite Nat.mul_assoc. reflexivity.
    + left. reflexivity.
  - do 4 (apply in_or_app; right). rewrite Nat.add_succ_r. apply (IH (S abcd) (S real)). lia.
Qed.
Lemma cd_ints_in i0 n : hashrr = true -> forall m b js abcd k, b + m = nbatch nss K -> b * nss + k < q ->
  In ((abcd + k) * per_quartet nf deriv) (cd_ints len nss K tops nf hashrr deriv i0 n m b js abcd).
Proof.
  intros Eh. induction m as [|m IH]; intros b js abcd k Hb Hk.
  - pose proof (rnd_ge Hnss q) as G. unfold rnd in G. unfold nbatch in Hb. rewrite <- Hb, Nat.add_0_r in G. lia.
  - cbn [cd_ints]. assert (Hc : b * nss < q) by lia. pose proof (@bs_spec b Hc) as (B1 & B2).
    set (nb := batch_size nss K (b * nss)) in *.
    destruct (Nat.lt_ge_cases k nb) as [L|L].
    + do 4 (apply in_or_app; right). apply in_or_app. left. rewrite Eh. apply hrr_ints_in. exact L.
    + do 5 (apply in_or_app; right). replace (abcd + k) with (abcd + nb + (k - nb)) by lia.
      apply IH; [lia|]. cbn [Nat.mul] in *. lia.
Qed.
Lemma ab_ints_in : hashrr = true -> forall m ab istart abcd k, k < m * q ->
  In ((abcd + k) * per_quartet nf deriv) (ab_ints len nss P K tops nf hashrr deriv m ab istart abcd).
Proof.
  intros Eh. induction m as [|m IH]; intros ab istart abcd k Hk; [cbn in Hk; lia|]. cbn [ab_ints].
  destruct (Nat.lt_ge_cases k q) as [L|L].
  - apply in_or_app. right. apply in_or_app. left. apply cd_ints_in; [exact Eh|reflexivity|cbn; exact L].
  - do 3 (apply in_or_app; right). replace (abcd + k) with (abcd + q + (k - q)) by lia. apply IH. cbn in Hk. lia.
Qed.
Theorem kernel_ints_needs : in_range (kernel_ints len nss P K tops nf hashrr deriv) ->
  fits (p * q) /\
  (if hashrr then forall k, k < p * q -> fits (k * per_quartet nf deriv) else fits (p * q * nf)).
Proof.
  intros H. split.
  - apply (@in_range_in _ _ H). unfold kernel_ints. do 2 (apply in_or_app; right). left. reflexivity.
  - assert (hashrr = true \/ hashrr = false) as [Eh|Eh] by (case hashrr; auto); rewrite Eh.
    + intros k Hk. apply (@in_range_in _ _ H). unfold kernel_ints. apply in_or_app. right. apply in_or_app. left.
      exact (@ab_ints_in Eh p 0 0 0 k Hk).
    + apply (@in_range_in _ _ H). unfold kernel_ints, memset_ints. rewrite Eh. right. left. reflexivity.
Qed.
End KernelProof.
Theorem memset_exact P K nf : fits (b_clip P * b_clip K * nf) ->
  memset_bytes P K nf = (Z.of_nat (b_clip P) * Z.of_nat (b_clip K) * Z.of_nat nf * 8)%Z.
Proof.
  unfold fits, INT_MAX, memset_bytes, size_t. intros H. rewrite Z.mod_small; [rewrite !Nat2Z.inj_mul; reflexivity|]. 
  change (2 ^ 64)%Z with 18446744073709551616%Z. lia.
Qed.

(** ** Allocation *)
Section AllocProof.
Variables (len nss : nat) (n : nat) (pr : nat -> spair).
Hypothesis (Hlen : 0 < len) (Hnss : 0 < nss).

(** What is counted so far is part of the result. *)
Lemma loop_ge : forall m i nprim bp, i + m = n -> (m = 0 -> bp = 0) ->
  nprim + rnd len bp <= alloc_loop len nss n pr m i nprim bp.
Proof.
  induction m as [|m IH]; intros i nprim bp Hi Hz; cbn [alloc_loop].
  - rewrite (Hz eq_refl), (rnd_0 Hlen). lia.
  - pose proof (rnd_mono Hlen (a := bp) (b := bp + npf pr i) ltac:(lia)) as M. destruct (_ || _) eqn:B.
    + specialize (IH (S i) (nprim + rnd len (bp + npf pr i)) 0 ltac:(lia) (fun _ => eq_refl)). lia.
    + specialize (IH (S i) nprim (bp + npf pr i) ltac:(lia)).
      assert (m <> 0) as Hm. { intros ->. apply orb_false_iff in B as [_ B]. apply Nat.leb_gt in B. lia. }
      specialize (IH ltac:(lia)). lia.
Qed.
Lemma alloc_ints_ok N : fits (2 * n) -> fits (2 * N + len) -> forall m i nprim bp, i + m = n -> (m = 0 -> bp = 0) ->
  alloc_loop len nss n pr m i nprim bp <= N -> in_range (alloc_ints len nss n pr m i nprim bp).
Proof.
  intros Hn HN. induction m as [|m IH]; intros i nprim bp Hi Hz HA; cbn [alloc_ints]; [apply in_range_nil|].
  cbn [alloc_loop] in HA.
  set (b := ((S i) mod nss =? 0) || (n <=? S i)) in *. set (x := bp + npf pr i) in *.
  assert (Hm : b = false -> m <> 0).
  { intros B ->. unfold b in B. apply orb_false_iff in B as [_ B]. apply Nat.leb_gt in B. lia. }
  assert (G : (if b then nprim + rnd len x else nprim + rnd len x) <= N).
  { destruct b.
    - pose proof (@loop_ge m (S i) (nprim + rnd len x) 0 ltac:(lia) (fun _ => eq_refl)) as G. rewrite (rnd_0 Hlen) in G. lia.
    - pose proof (@loop_ge m (S i) nprim x ltac:(lia)) as G. specialize (Hm eq_refl). specialize (G ltac:(lia)). lia. }
  replace (if b then nprim + rnd len x else nprim + rnd len x) with (nprim + rnd len x) in G by (destruct b; reflexivity).
  pose proof (rnd_ge Hlen x) as RG.
  rewrite !in_range_app. repeat split.
  - unfold np_ints. assert (F : npf pr i <= N) by lia. unfold npf, sp_np in F. destruct (sp_same (pr i)).
    + set (a := sp_n1 (pr i)) in *.
      assert (F2 : a * (a + 1) <= 2 * N + 1).
      { pose proof (Nat.div_mod (a * (a + 1)) 2 ltac:(lia)). pose proof (Nat.mod_upper_bound (a * (a + 1)) 2 ltac:(lia)). lia. }
      apply in_range_cons; split; [|apply in_range_cons; split; [|apply in_range_nil]].
      * eapply fits_le; [|exact HN]. nia.
      * eapply fits_le; [|exact HN]. lia.
    + constructor; [|apply in_range_nil]. eapply fits_le; [|exact HN]. lia.
  - apply in_range_cons; split; [eapply fits_le; [|exact HN]; lia|].
    apply in_range_cons; split; [eapply fits_le; [|exact Hn]; lia|apply in_range_nil].
  - destruct b; [|apply in_range_nil].
    repeat (apply in_range_cons; split); try apply in_range_nil; eapply fits_le; try exact HN; lia.
  - constructor; [|apply in_range_nil]. eapply fits_le; [|exact Hn]. lia.
  - destruct b; (apply IH; [lia| |exact HA]); [reflexivity|]. specialize (Hm eq_refl). lia.
Qed.
Theorem allocation_ok : fits (2 * n) -> fits (2 * alloc len nss n pr + len) -> in_range (allocation_ints len nss n pr).
Proof. intros Hn HN. exact (@alloc_ints_ok (alloc len nss n pr) Hn HN n 0 0 0 eq_refl (fun _ => eq_refl) (le_n _)). Qed.

Lemma alloc_ints_last : forall m i nprim bp, i + m = n -> 0 < m ->
  In (alloc_loop len nss n pr m i nprim bp) (alloc_ints len nss n pr m i nprim bp).
Proof.
  induction m as [|m IH]; intros i nprim bp Hi Hm; [lia|]. cbn [alloc_ints alloc_loop].
  set (b := ((S i) mod nss =? 0) || (n <=? S i)). destruct (Nat.eq_dec m 0) as [->|Hm0].
  - assert (E : b = true). { unfold b. apply orb_true_iff. right. apply Nat.leb_le. lia. }
    rewrite E. cbn [alloc_loop]. do 2 (apply in_or_app; right). apply in_or_app. left. right. right. left. reflexivity.
  - do 4 (apply in_or_app; right). destruct b; apply IH; lia.
Qed.
Lemma alloc_ints_pairs : forall m i nprim bp, i + m = n -> forall k, i <= k < n ->
  forall v, In v (2 * S k :: np_ints (pr k)) -> In v (alloc_ints len nss n pr m i nprim bp).
Proof.
  induction m as [|m IH]; intros i nprim bp Hi k Hk v Hv; [lia|]. cbn [alloc_ints].
  destruct (Nat.eq_dec k i) as [->|Hki].
  - destruct Hv as [<-|Hv].
    + do 3 (apply in_or_app; right). apply in_or_app. left. left. reflexivity.
    + apply in_or_app. left. exact Hv.
  - do 4 (apply in_or_app; right). destruct (_ || _); apply (IH (S i) _ _ ltac:(lia) k ltac:(lia) v Hv).
Qed.
Theorem allocation_needs : in_range (allocation_ints len nss n pr) ->
  fits (2 * n) /\ fits (alloc len nss n pr) /\
  (forall k, k < n -> fits (if sp_same (pr k) then sp_n1 (pr k) * (sp_n1 (pr k) + 1) else sp_n1 (pr k) * sp_n2 (pr k))).
Proof.
  intros H. destruct (Nat.eq_dec n 0) as [E|E].
  - unfold alloc. rewrite E. split; [unfold fits, INT_MAX; lia|]. split; [unfold fits, INT_MAX; cbn; lia|]. intros k Hk. lia.
  - repeat split.
    + apply (@in_range_in _ _ H). apply (@alloc_ints_pairs n 0 0 0 eq_refl (n - 1) ltac:(lia)). left. lia.
    + apply (@in_range_in _ _ H). apply alloc_ints_last; lia.
    + intros k Hk. apply (@in_range_in _ _ H). apply (@alloc_ints_pairs n 0 0 0 eq_refl k ltac:(lia)). right.
      unfold np_ints. destruct (sp_same (pr k)); [right; left|left]; reflexivity.
Qed.
End AllocProof.

Theorem memsize_exact meth deriv len nss n pr : fits n -> fits (alloc len nss n pr) ->
  memsize meth deriv (Z.of_nat n) (Z.of_nat (alloc len nss n pr)) =
  (8 * Z.of_nat (total_doubles len nss meth deriv n pr) + 4 * Z.of_nat n)%Z.
Proof.
  unfold fits, INT_MAX, total_doubles. set (a := alloc len nss n pr). intros Hn Ha.
  assert (L : nprim_arr meth deriv <= 14) by (destruct meth, deriv; cbn; lia).
  assert (B : (0 <= Z.of_nat (nprim_arr meth deriv) <= 14)%Z) by lia.
  rewrite Nat2Z.inj_add, !Nat2Z.inj_mul. set (k := Z.of_nat (nprim_arr meth deriv)) in *.
  unfold memsize, size_t. cbv zeta. fold k. change (2 ^ 64)%Z with 18446744073709551616%Z.
  change (Z.of_nat 3) with 3%Z.
  assert (B2 : (0 <= Z.of_nat a * 8 * k <= 2147483647 * 8 * 14)%Z) by nia.
  rewrite (Z.mod_small (Z.of_nat a * 8)), (Z.mod_small (Z.of_nat n * 8)), (Z.mod_small (Z.of_nat n * 4)) by lia.
  rewrite (Z.mod_small (Z.of_nat a * 8 * k)), (Z.mod_small (Z.of_nat n * 8 * 3)) by lia.
  rewrite (Z.mod_small (Z.of_nat a * 8 * k + Z.of_nat n * 8 * 3)) by lia.
  rewrite Z.mod_small by lia. ring.
Qed.

(** ** Test programs *)
Lemma ncart_max_pos maxam : 1 <= ncart_max maxam.
Proof. unfold ncart_max. apply Nat.div_le_lower_bound; [lia|]. nia. Qed.
Lemma ncart_max_half maxam : (maxam + 1) * (maxam + 2) <= 2 * ncart_max maxam + 1.
Proof.
  unfold ncart_max. pose proof (Nat.div_mod ((maxam + 1) * (maxam + 2)) 2 ltac:(lia)).
  pose proof (Nat.mod_upper_bound ((maxam + 1) * (maxam + 2)) 2 ltac:(lia)). lia.
Qed.
Theorem area_iff nthread maxel maxam deriv : 1 <= nthread -> maxam <= 1000 ->
  (in_range (area_ints nthread maxel maxam deriv) <->
   (Z.of_nat nthread * (Z.of_nat maxel * Z.of_nat (ncart_max maxam)) ^ 2 * (if deriv then 12 else 1) <= INT_MAX)%Z).
Proof.
  intros Ht Hm. pose proof (ncart_max_pos maxam) as C. pose proof (ncart_max_half maxam) as Hc.
  assert (E : (Z.of_nat nthread * (Z.of_nat maxel * Z.of_nat (ncart_max maxam)) ^ 2 * (if deriv then 12 else 1))%Z
     = Z.of_nat (nthread * maxsize_val maxel maxam deriv)).
  { unfold maxsize_val. destruct deriv; rewrite !Nat2Z.inj_mul; change (Z.of_nat 12) with 12%Z; ring. }
  rewrite E. change (in_range (area_ints nthread maxel maxam deriv) <-> fits (nthread * maxsize_val maxel maxam deriv)).
  unfold area_ints. rewrite in_range_app. split.
  - intros [_ H]. inversion H. assumption.
  - intros H. split; [|constructor; [exact H|apply in_range_nil]].
    assert (H1 : fits (maxsize_val maxel maxam deriv)) by (eapply fits_le; [|exact H]; nia).
    set (c := ncart_max maxam) in *. set (s := maxel * maxel) in *.
    assert (A1 : s <= s * c) by nia. assert (A2 : s * c <= s * c * c) by nia.
    assert (A3 : s * c * c <= maxsize_val maxel maxam deriv). { unfold maxsize_val. fold c s. destruct deriv; lia. }
    unfold maxsize_ints. fold c s. rewrite in_range_app. split.
    + repeat (apply in_range_cons; split); try apply in_range_nil; try (eapply fits_le; [|exact H1]; lia);
        unfold fits, INT_MAX; try lia.
      nia.
    + destruct deriv; [|apply in_range_nil]. constructor; [|apply in_range_nil].
      exact H1.
Qed.
Theorem area_exact nthread maxel maxam deriv : in_range (area_ints nthread maxel maxam deriv) ->
  area_bytes nthread maxel maxam deriv = (8 * Z.of_nat (nthread * maxsize_val maxel maxam deriv))%Z.
Proof.
  unfold area_ints. rewrite in_range_app. intros [_ H]. inversion H as [|? ? F _]; subst. unfold fits, INT_MAX in F.
  unfold area_bytes, size_t. rewrite Z.mod_small; [lia|]. change (2 ^ 64)%Z with 18446744073709551616%Z. lia.
Qed.

(** ** Where it fails *)
Lemma fits_ltb v : (Z.of_nat v <=? INT_MAX)%Z = true -> fits v.
Proof. intros H. apply Z.leb_le. exact H. Qed.

Theorem results_refuted : ~ (forall len nss P K tops nf deriv, 0 < len -> 0 < nss -> 0 < nf ->
  (forall t, In t tops -> fits (nss * t)) ->
  (Z.of_nat (b_clip P) * Z.of_nat (b_clip K) * Z.of_nat (per_quartet nf deriv) * 8 < 2 ^ 63)%Z ->
  fits (total (b_np P) (b_clip P)) -> fits (rnd len (start len nss (b_np K) (b_clip K)) + (len - 1)) ->
  fits (b_clip K + nss) -> fits (b_clip P) ->
  in_range (kernel_ints len nss P K tops nf true deriv)).
Proof.
  intros H. specialize (H 4 4 big big [225] (Z.to_nat 10000) false ltac:(lia) ltac:(lia) ltac:(lia)).
  assert (A : in_range (kernel_ints 4 4 big big [225] (Z.to_nat 10000) true false)).
  { apply H.
    - intros t [<-|[]]. apply fits_ltb. vm_compute. reflexivity.
    - cbn [per_quartet]. rewrite Z2Nat.id by lia. reflexivity.
    - apply fits_ltb. vm_compute. reflexivity.
    - apply fits_ltb. vm_compute. reflexivity.
    - apply fits_ltb. vm_compute. reflexivity.
    - apply fits_ltb. vm_compute. reflexivity. }
  apply kernel_ints_needs in A as [_ A]; [|lia|lia]. 
  specialize (A (464 * 464 - 1)). cbn [per_quartet] in A. unfold fits, INT_MAX in A.
  change (b_clip big) with 464 in A. specialize (A ltac:(lia)). rewrite Nat2Z.inj_mul, Z2Nat.id in A by lia. lia.
Qed.

(** The count fits, the product before halving does not. *)
Lemma alloc_one a : alloc 1 1 1 (fun _ => SP a a true) = a * (a + 1) / 2.
Proof.
  unfold alloc. cbn [alloc_loop]. change (1 <=? 1) with true. rewrite orb_true_r. unfold rnd, npf, sp_np.
  cbn [sp_same sp_n1 Nat.sub]. rewrite !Nat.add_0_r, !Nat.mul_1_r, Nat.div_1_r. reflexivity.
Qed.
Lemma one_pair a : Z.of_nat a = 46341%Z ->
  fits (alloc 1 1 1 (fun _ => SP a a true) + 1) /\ ~ in_range (allocation_ints 1 1 1 (fun _ => SP a a true)).
Proof.
  intros Ha. split.
  - rewrite alloc_one. unfold fits, INT_MAX. rewrite Nat2Z.inj_add, Nat2Z.inj_div, Nat2Z.inj_mul, Nat2Z.inj_add, Ha.
    vm_compute. discriminate.
  - intros A. apply allocation_needs in A as (_ & _ & A); [|lia|lia]. specialize (A 0 ltac:(lia)). cbn [sp_same sp_n1] in A.
    unfold fits, INT_MAX in A. rewrite Nat2Z.inj_mul, Nat2Z.inj_add, Ha in A. lia.
Qed.
Theorem halving_refuted : ~ (forall len nss n pr, 0 < len -> 0 < nss -> fits (2 * n) -> fits (alloc len nss n pr + len) ->
  in_range (allocation_ints len nss n pr)).
Proof.
  intros H. destruct (@one_pair (Z.to_nat 46341)) as [A B]; [apply Z2Nat.id; lia|].
  apply B. apply H; [lia|lia|apply fits_ltb; reflexivity|exact A].
Qed.

(** 24 threads, 720 functions of the largest momentum class, momentum 4: each area has 0.93 GB. *)
Theorem threads_refuted : ~ (forall nthread maxel maxam deriv, 1 <= nthread -> maxam <= 1000 ->
  in_range (maxsize_ints maxel maxam deriv) -> in_range (area_ints nthread maxel maxam deriv)).
Proof.
  intros H. specialize (H 24 720 4 false ltac:(lia) ltac:(lia)).
  assert (A : in_range (maxsize_ints 720 4 false)).
  { assert (Q : in_range (area_ints 1 720 4 false)).
    { refine (proj2 (@area_iff 1 720 4 false _ _) _); [lia|lia|vm_compute; discriminate]. }
    unfold area_ints in Q. exact (proj1 (proj1 (@in_range_app _ _) Q)). }
  specialize (H A). pose proof (proj1 (@area_iff 24 720 4 false ltac:(lia) ltac:(lia)) H) as B.
  vm_compute in B. apply B. reflexivity.
Qed.

(** Examples. *)
Lemma in_eqb v l : existsb (Nat.eqb v) l = true -> In v l.
Proof. intros H. apply existsb_exists in H as (x & Hx & E). apply Nat.eqb_eq in E. subst. exact Hx. Qed.
Lemma kernel_ex : in_range (kernel_ints 4 2 bra_ex ket_ex [6; 10] 18 true false) /\
  In (9 * 18) (kernel_ints 4 2 bra_ex ket_ex [6; 10] 18 true false).
Proof.
  split.
  - apply kernel_ints_ok; try lia.
    + intros t [<-|[<-|[]]]; apply fits_ltb; reflexivity.
    + apply fits_ltb; vm_compute; reflexivity.
    + apply fits_ltb; vm_compute; reflexivity.
    + apply fits_ltb; vm_compute; reflexivity.
    + apply fits_ltb; vm_compute; reflexivity.
    + apply fits_ltb; vm_compute; reflexivity.
  - apply in_eqb. vm_compute. reflexivity.
Qed.
Lemma alloc_ex : in_range (allocation_ints 4 2 2 ex_pairs) /\ In 12 (allocation_ints 4 2 2 ex_pairs) /\
  memsize Schwarz true 2 12 = (8 * Z.of_nat (total_doubles 4 2 Schwarz true 2 ex_pairs) + 4 * 2)%Z.
Proof.
  split; [|split].
  - apply allocation_ok; try lia; apply fits_ltb; vm_compute; reflexivity.
  - apply in_eqb. vm_compute. reflexivity.
  - vm_compute. reflexivity.
Qed.
Lemma area_ex : in_range (area_ints 16 80 3 true) /\ ~ in_range (area_ints 64 700 3 false).
Proof.
  split.
  - refine (proj2 (@area_iff 16 80 3 true _ _) _); [lia|lia|vm_compute; discriminate].
  - intros A. pose proof (proj1 (@area_iff 64 700 3 false ltac:(lia) ltac:(lia)) A) as B. vm_compute in B. apply B. reflexivity.
Qed.

Theorem kernel_all len nss P K tops nf (hashrr deriv : bool) : 0 < len -> 0 < nss ->
  (if hashrr then forall t, In t tops -> fits (nss * t) else tops = [nf] /\ deriv = false) -> 0 < nf ->
  fits (b_clip P * b_clip K * (if deriv then nf * 12 else nf)) ->
  fits (total (b_np P) (b_clip P)) -> fits (rnd len (start len nss (b_np K) (b_clip K)) + (len - 1)) ->
  fits (b_clip K + nss) -> fits (b_clip P) ->
  in_range (kernel_ints len nss P K tops nf hashrr deriv) /\ in_range (permute_ints P K nf deriv).
Proof.
  intros. change (if deriv then nf * 12 else nf) with (per_quartet nf deriv) in *.
  split; [apply kernel_ints_ok; assumption|eapply permute_ints_ok; try assumption; eassumption].
Qed.
