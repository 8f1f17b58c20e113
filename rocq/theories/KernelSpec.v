(** The loop nest with the actual contraction routines: statements without reference to the code. *)
From Coq Require Import List Arith Lia Bool Ring QArith ZArith.
Import ListNotations.
From Verif Require Import Base Simd Cart Contract Offsets Starts Kernel HRRAlgo HRRExec VRRStep VRRAlgo VRROrder VRRExec VRRExecSpec.
Set Implicit Arguments.
Local Open Scope nat_scope.

(** The forms of [contract_all] and the vector lengths they exist for
    (skel/simint/vectorization/intrinsics_*.h). *)
Inductive call_kind := CallZero | CallReduce | CallAvx | CallAvx512.
Definition kind_len (k : call_kind) (len : nat) : Prop :=
  match k with CallZero | CallReduce => 0 < len | CallAvx => len = 4 | CallAvx512 => len = 8 end.
Definition call_of {R : cring} (k : call_kind) (len nc : nat) : (nat -> nat -> R) -> list R -> option (list R) :=
  match k with
  | CallZero => contract_all_zero len nc
  | CallReduce => contract_all_reduce len nc
  | CallAvx => contract_all_avx nc
  | CallAvx512 => contract_all_avx512 nc
  end.

Lemma kind_len_pos k len : kind_len k len -> 0 < len.
Proof. destruct k; simpl; lia. Qed.
Lemma call_of_ok {R : cring} k len nc : kind_len k len -> forall (src : nat -> nat -> R) dest, nc <= length dest ->
  exists out, call_of k len nc src dest = Some out /\ contracted len nc (fun _ => 0) src dest out.
Proof.
  intros Hk src dest H. destruct k; simpl in *; subst.
  - apply contract_all_zero_ok; assumption.
  - apply contract_all_reduce_ok; assumption.
  - apply contract_all_avx_ok; assumption.
  - apply contract_all_avx512_ok; assumption.
Qed.

(** Sum over all pairs of primitives of bra pair [ab] and ket pair [cd], each at its stored place. *)
Definition full_sum {R : cring} (len nss : nat) (npP npK : nat -> nat) (qpf : nat -> R)
  (val : nat -> nat -> R -> nat -> R) (ab cd c : nat) : R :=
  rsum (map (fun a => rsum (map (fun b =>
    let i := start len nss npP ab + a in let j := start len nss npK cd + b in val i j (qpf j) c)
    (seq 0 (npK cd)))) (seq 0 (npP ab))).
(** All completed groups of [nss] bra pairs before the last pair hold full vectors. *)
Definition bra_aligned (len nss : nat) (P : batch) : Prop :=
  forall g, S g * nss < b_clip P -> Nat.divide len (group_total nss (b_np P) g).

Section Spec.
Context {R : cring}.
Variables (k : call_kind) (len nss nc : nat) (P K : batch) (qpf : nat -> R) (val : nat -> nat -> R -> nat -> R) (zf : bool).
Hypothesis Hk : kind_len k len.
Hypothesis Hnss : 0 < nss.
Hypothesis Hnc : 0 < nc.
Hypothesis Hval : forall i j c, val i j c0 c = c0.
Hypothesis Hnp : forall t, t < b_clip K -> 0 < b_np K t.

Lemma quartet_full tol ab cd c : (tol <= 0)%Q -> total (b_np P) ab = start len nss (b_np P) ab ->
  want len nss P K qpf val tol zf (total (b_np P) ab) (b_np P ab) cd c = full_sum len nss (b_np P) (b_np K) qpf val ab cd c.
Proof.
  intros Ht E. unfold want, quartet_sum, full_sum. rewrite E. apply rsum_map_ext. intros a _. apply rsum_map_ext. intros b _.
  rewrite no_screen_no_drop by exact Ht. reflexivity.
Qed.

Theorem kernel_full tol out : (tol <= 0)%Q -> bra_aligned len nss P -> b_clip P * b_clip K * nc <= length out ->
  exists d, kernel len nss nc P K qpf val tol zf (call_of k len nc) out = Some (d, b_clip P * b_clip K) /\
    length d = length out /\
    (forall ab cd c, ab < b_clip P -> cd < b_clip K -> c < nc ->
       nth_error d ((ab * b_clip K + cd) * nc + c) = Some (full_sum len nss (b_np P) (b_np K) qpf val ab cd c)) /\
    (forall q, b_clip P * b_clip K * nc <= q -> nth_error d q = nth_error out q).
Proof.
  intros Ht Ha Hd. pose proof (@kind_len_pos k len Hk) as Hlen.
  destruct (@kernel_ok R len nss nc P K qpf val tol zf (call_of k len nc) (fun _ _ f => f) Hlen Hnss Hnc Hval (@call_of_ok R k len nc Hk) Hnp out Hd)
    as [d [E [L [V O]]]].
  exists d. split; [exact E|]. split; [exact L|]. split; [|exact O].
  intros ab cd c H1 H2 H3. rewrite V by assumption. f_equal. apply quartet_full; [exact Ht|].
  apply (proj2 (@bra_start_iff len nss Hlen Hnss (b_np P) (b_clip P)) Ha ab H1).
Qed.

Theorem kernel_hrr_full tol nf (hrr : nat -> nat -> (nat -> R) -> nat -> R) out :
  (forall ab cd f g c, (forall c, c < nc -> f c = g c) -> hrr ab cd f c = hrr ab cd g c) ->
  (tol <= 0)%Q -> bra_aligned len nss P -> b_clip P * b_clip K * nf <= length out ->
  exists d, kernel_hrr len nss nc P K qpf val tol zf (call_of k len nc) nf hrr out = Some (d, b_clip P * b_clip K) /\
    length d = length out /\
    (forall ab cd c, ab < b_clip P -> cd < b_clip K -> c < nf ->
       nth_error d ((ab * b_clip K + cd) * nf + c) =
       Some (hrr ab cd (full_sum len nss (b_np P) (b_np K) qpf val ab cd) c)) /\
    (forall q, b_clip P * b_clip K * nf <= q -> nth_error d q = nth_error out q).
Proof.
  intros Hh Ht Ha Hd. pose proof (@kind_len_pos k len Hk) as Hlen.
  destruct (@kernel_hrr_ok R len nss nc P K qpf val tol zf (call_of k len nc) nf hrr Hlen Hnss Hnc Hval (@call_of_ok R k len nc Hk) Hnp Hh out Hd)
    as [d [E [L [V O]]]].
  exists d. split; [exact E|]. split; [exact L|]. split; [|exact O].
  intros ab cd c H1 H2 H3. rewrite V by assumption. f_equal. unfold want_hrr. apply Hh. intros c' Hc'.
  rewrite (proj2 (Nat.ltb_lt _ _) Hc'). apply quartet_full; [exact Ht|].
  apply (proj2 (@bra_start_iff len nss Hlen Hnss (b_np P) (b_clip P)) Ha ab H1).
Qed.

(** With screening: some primitive quartets are left out, all of them negligible. *)
Theorem kernel_screened tol out :
  b_clip P * b_clip K * nc <= length out ->
  exists drop d, kernel len nss nc P K qpf val tol zf (call_of k len nc) out = Some (d, b_clip P * b_clip K) /\
    (forall ab cd c, ab < b_clip P -> cd < b_clip K -> c < nc ->
       nth_error d ((ab * b_clip K + cd) * nc + c) =
       Some (quartet_sum qpf val drop (total (b_np P) ab) (b_np P ab) (start len nss (b_np K) cd) (b_np K cd) c)) /\
    (forall i j, (0 <= b_scr P i)%Q -> (b_scr K j <= b_scrmax K)%Q -> drop i j = true -> (b_scr P i * b_scr K j < tol)%Q).
Proof.
  intros Hd. pose proof (@kind_len_pos k len Hk) as Hlen.
  destruct (@kernel_ok R len nss nc P K qpf val tol zf (call_of k len nc) (fun _ _ f => f) Hlen Hnss Hnc Hval (@call_of_ok R k len nc Hk) Hnp out Hd)
    as [d [E [L [V O]]]].
  exists (dropped len P K tol zf), d. split; [exact E|]. split; [exact V|].
  intros i j H0 H1 Hj. apply (@dropped_negligible len P K tol zf i j Hlen); auto.
Qed.
Theorem kernel_hrr_screened tol nf (hrr : nat -> nat -> (nat -> R) -> nat -> R) out :
  (forall ab cd f g c, (forall c, c < nc -> f c = g c) -> hrr ab cd f c = hrr ab cd g c) ->
  b_clip P * b_clip K * nf <= length out ->
  exists drop d, kernel_hrr len nss nc P K qpf val tol zf (call_of k len nc) nf hrr out = Some (d, b_clip P * b_clip K) /\
    (forall ab cd c, ab < b_clip P -> cd < b_clip K -> c < nf ->
       nth_error d ((ab * b_clip K + cd) * nf + c) =
       Some (hrr ab cd (quartet_sum qpf val drop (total (b_np P) ab) (b_np P ab) (start len nss (b_np K) cd) (b_np K cd)) c)) /\
    (forall i j, (0 <= b_scr P i)%Q -> (b_scr K j <= b_scrmax K)%Q -> drop i j = true -> (b_scr P i * b_scr K j < tol)%Q).
Proof.
  intros Hh Hd. pose proof (@kind_len_pos k len Hk) as Hlen.
  destruct (@kernel_hrr_ok R len nss nc P K qpf val tol zf (call_of k len nc) nf hrr Hlen Hnss Hnc Hval (@call_of_ok R k len nc Hk) Hnp Hh out Hd)
    as [d [E [L [V O]]]].
  exists (dropped len P K tol zf), d. split; [exact E|]. split.
  - intros ab cd c Hab Hcd Hc. rewrite V by assumption. f_equal. unfold want_hrr. apply Hh. intros c' Hc'.
    rewrite (proj2 (Nat.ltb_lt _ _) Hc'). reflexivity.
  - intros i j H0 H1 Hj. apply (@dropped_negligible len P K tol zf i j Hlen); auto.
Qed.
End Spec.

(** ** A zero prefactor: all (ss|ss)^(m) zero, hence all values the vertical code leaves are zero *)
Section Zero.
Context {R : cring}.
Add Ring Rring_zf : (cth R).
Lemma zero_family (K : @vcoef R) : os_family K (fun _ _ => c0).
Proof.
  intros c i m q s. unfold same_side_term, other_side_term. repeat match goal with |- context [match ?x with _ => _ end] => destruct x end; ring.
Qed.
End Zero.
Theorem vrr_zero (R : cring) (P : vpar) ords init :
  par_ok P -> whole_classes init -> covers ords -> (forall q, In q init -> qtotal (qclass q) < p_fuel P) ->
  exists p m, vrr_create (p_enum P) (p_enumq P) (p_fuel P) ords init = Some p /\
    get_mreq (vp_steps p) ssss = Some m /\
    forall (K : @vcoef R) M, (forall a, In a (vp_order p) -> mode_ok P a) -> sizes_ok (vp_steps p) M ->
      (forall n, n <= m -> nth_error (M ssss) n = Some (Some c0)) ->
      exists M', vrun P K (vp_steps p) M (vp_order p) = Some M' /\
        (forall q, In q init -> nth_error (M' (qclass q)) (qindex (p_o P) q) = Some (Some c0)).
Proof.
  intros H1 H2 H3 H4. destruct (vrr_code_correct R H1 H2 H3 H4) as [p [m [E1 [E2 [_ H]]]]].
  exists p, m. split; [exact E1|]. split; [exact E2|]. intros K M A B C.
  destruct (H K (fun _ _ => c0) M (zero_family K) A B C) as [M' [E [V _]]]. exists M'. split; [exact E|exact V].
Qed.

(** ** A bra whose first group does not fill its vectors *)
Definition ex_P : batch := Batch (fun t => nth t [1; 1; 1; 2; 1] 0) 5 (fun _ => 1%Q) 1%Q.
Definition ex_K : batch := Batch (fun _ => 1) 1 (fun _ => 1%Q) 1%Q.
Definition ex_val (i j : nat) (pf : Z) (c : nat) : Z := (pf * (Z.of_nat i + 1))%Z.
Definition ex_run : option (list Z * nat) :=
  @kernel Zring 2 4 1 ex_P ex_K (fun _ => 1%Z) ex_val 0%Q true (@call_of Zring CallZero 2 1) (repeat 7%Z 5).
Lemma bra_start_wrong :
  (exists d, ex_run = Some (d, 5) /\ nth_error d 4 = Some 6%Z) /\
  @full_sum Zring 2 4 (b_np ex_P) (b_np ex_K) (fun _ => 1%Z) ex_val 4 0 0 = 7%Z.
Proof. split; [eexists; vm_compute; split; reflexivity|reflexivity]. Qed.

(** ** A case with two batches, several vectors and a clipped ket *)
Definition ex_P2 : batch := Batch (fun t => nth t [2; 1] 0) 2 (fun i => if i =? 1 then 0%Q else 1%Q) 1%Q.
Definition ex_K2 : batch := Batch (fun t => nth t [3; 1; 2; 1; 4; 5] 0) 5 (fun j => if j =? 0 then 1%Q else (1 # 2)%Q) 1%Q.
Definition ex_val2 (i j : nat) (pf : Z) (c : nat) : Z := (pf * (100 * Z.of_nat i + 10 * Z.of_nat j + Z.of_nat c))%Z.
Definition ex_run2 (tol : Q) : option (list Z * nat) :=
  @kernel Zring 2 4 2 ex_P2 ex_K2 (fun j => Z.of_nat j) ex_val2 tol true (@call_of Zring CallZero 2 2) (repeat 7%Z 21).
Lemma ex2_ok : (forall t, t < b_clip ex_K2 -> 0 < b_np ex_K2 t) /\ bra_aligned 2 4 ex_P2 /\
  ex_run2 0 = Some ([400; 406; 480; 486; 1720; 1738; 1320; 1332; 11120; 11196;
                     650; 653; 690; 693; 2210; 2219; 1560; 1566; 11260; 11298; 7]%Z, 10).
Proof.
  split; [|split; [|vm_compute; reflexivity]].
  - intros t Ht. cbn in *. do 5 (destruct t as [|t]; [cbn; lia|]). lia.
  - intros g Hg. cbn in Hg. lia.
Qed.
Lemma unaligned_wrong : exists (P K : batch) (qpf : nat -> Z) val d v,
  (forall i j c, val i j 0%Z c = 0%Z) /\ (forall t, t < b_clip K -> 0 < b_np K t) /\
  @kernel Zring 2 4 1 P K qpf val 0%Q true (@call_of Zring CallZero 2 1) (repeat 0%Z 5) = Some (d, 5) /\
  nth_error d 4 = Some v /\ v <> @full_sum Zring 2 4 (b_np P) (b_np K) qpf val 4 0 0.
Proof.
  exists ex_P, ex_K, (fun _ => 1%Z), ex_val. eexists. eexists.
  split; [reflexivity|]. split; [intros; cbn; lia|]. split; [vm_compute; reflexivity|]. split; [reflexivity|]. vm_compute. discriminate.
Qed.
