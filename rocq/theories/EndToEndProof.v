From Coq Require Import List Arith ZArith Lia Bool Ring QArith Permutation.
Import ListNotations.
From Verif Require Import Base Simd Cart Mdir Contract Offsets Starts Kernel HRRStep HRRAlgo HRROrder GenHRR HRRExec
  VRRStep VRRAlgo VRROrder VRRExec VRRExecSpec KernelSpec Layout Create PairData Recur Deriv DerivSpec OSFamily Work EndToEnd.
Set Implicit Arguments.
Local Open Scope nat_scope.
Local Lemma some_inj A (x y : A) : Some x = Some y -> x = y.
Proof. congruence. Qed.
(** ** Proofs *)
Definition nn_eq_dec (x y : nat * nat) : {x = y} + {x <> y}.
Proof. decide equality; apply Nat.eq_dec. Defined.
Section Lists.
Context {R : cring}.
Lemma somes_all_ok : forall (l : list (option R)) (f : nat -> R),
  (forall n x, nth_error l n = Some x -> x = Some (f n)) ->
  exists l', somes_all l = Some l' /\ length l' = length l /\ forall n, n < length l -> nth_error l' n = Some (f n).
Proof.
  induction l as [|x l IH]; intros f H.
  - exists []. repeat split. intros n Hn. cbn in Hn. lia.
  - assert (E : x = Some (f 0)) by (apply (H 0); reflexivity). subst x.
    destruct (IH (fun n => f (S n))) as [l' (E & L & V)]; [intros n x Hn; apply (H (S n) x Hn)|].
    exists (f 0 :: l'). cbn [somes_all]. rewrite E. split; [reflexivity|]. split; [cbn; lia|].
    intros [|n] Hn; [reflexivity|]. cbn. apply V. cbn in Hn. lia.
Qed.
Lemma rsum_nth A (l : list A) (f : nat -> R) (h : A -> R) :
  (forall n x, nth_error l n = Some x -> f n = h x) -> rsum (map f (seq 0 (length l))) = rsum (map h l).
Proof.
  assert (G : forall k, (forall n x, nth_error l n = Some x -> f (k + n) = h x) -> map f (seq k (length l)) = map h l).
  { induction l as [|x l IH]; intros k H; [reflexivity|]. cbn [length seq map]. f_equal.
    - rewrite <- (H 0 x eq_refl). f_equal. lia.
    - apply IH. intros n y Hn. rewrite <- (H (S n) y Hn). f_equal. lia. }
  intros H. rewrite (G 0 H). reflexivity.
Qed.
End Lists.

(** Where a primitive is stored. *)
Definition place (l : list (nat * nat)) (p : nat * nat) : nat :=
  match find_pos (fun y => if nn_eq_dec y p then true else false) l with Some n => n | None => 0 end.
Lemma place_in l p : In p l -> nth_error l (place l p) = Some p.
Proof.
  intros H. unfold place. destruct (find_pos _ l) as [n|] eqn:E.
  - apply find_pos_some in E as (y & En & Hy & _). destruct (nn_eq_dec y p) as [->|]; [exact En|discriminate].
  - exfalso. pose proof (find_pos_none _ _ E p H) as F. cbv beta in F. destruct (nn_eq_dec p p); [discriminate|congruence].
Qed.
Lemma place_nth l k p : NoDup l -> nth_error l k = Some p -> place l p = k.
Proof.
  intros N E. pose proof (place_in l p (nth_error_In _ _ E)) as E'. apply (proj1 (NoDup_nth_error l) N); [|congruence].
  apply nth_error_Some. congruence.
Qed.
Lemma prims_nodup p : NoDup (sp_prims p).
Proof.
  unfold sp_prims. assert (G : forall l, NoDup l -> NoDup (flat_map (fun i => map (pair i) (seq 0 (if sp_same p then S i else sp_n2 p))) l)).
  { induction l as [|x l IH]; intros N; [constructor|]. inversion N; subst. cbn [flat_map]. apply NoDup_app_intro.
    - apply FinFun.Injective_map_NoDup; [intros u v E; congruence|apply seq_NoDup].
    - apply IH. assumption.
    - intros [u v] H1' H2'. apply in_map_iff in H1' as [w [E _]]. apply in_flat_map in H2' as [y [Hy H2']]. apply in_map_iff in H2' as [w' [E' _]]. congruence. }
  apply G, seq_NoDup.
Qed.

Lemma comps_in tops t k : In (t, k) (comps tops) <-> In t tops /\ k < qncart (tq_am t).
Proof.
  unfold comps. rewrite in_flat_map. split.
  - intros [u [Hu H]]. apply in_map_iff in H as [k' [E H]]. injection E as <- <-. apply in_seq in H. split; [exact Hu|lia].
  - intros [Ht Hk]. exists t. split; [exact Ht|]. apply in_map. apply in_seq. lia.
Qed.
Lemma qncart_pos a : 0 < qncart a.
Proof.
  unfold qncart. pose proof (ncart_pos (am0 a)). pose proof (ncart_pos (am1 a)). pose proof (ncart_pos (am2 a)). pose proof (ncart_pos (am3 a)).
  repeat apply Nat.mul_pos_pos; assumption.
Qed.

(** What the generator is run with. *)
Record setup_ok {R : cring} (g : @gen R) (c : qam) : Prop := {
  go_enum : enum_ok (e_enum (g_E g)); go_enumq : enum_ok (g_enumq g); go_enumt : enum_ok (g_enumt g);
  go_enumc : set_enum (e_enumc (g_E g)); go_starts : starts_x (e_o (g_E g));
  go_fuel : qtotal c < e_fuel (g_E g); go_table : table_ok_for (g_E g) [TQ 0 c];
  go_par : par_ok (g_P g); go_o : p_o (g_P g) = e_o (g_E g); go_vfuel : qtotal c < p_fuel (g_P g); go_depth : 2 <= p_depth (g_P g);
  go_vtable : qtotal c < p_sg (g_P g) \/ (p_o (g_P g) = psi4 /\ qtotal c <= 18) }.

Section Proof.
Context {R : cring}.
Add Ring Rring_e2ep : (cth R).
Variables (inv expf sqrtf : R -> R) (boys : nat -> R -> R) (half sqrt2pi52 : R).
Variables (g : @gen R) (c : qam).
Hypothesis Hg : setup_ok g c.
Local Notation o := (e_o (g_E g)).
Local Notation blf := (e_blf (g_E g)).
Local Notation klf := (e_klf (g_E g)).
Local Notation topsof hp := (g_enumt g (hp_top hp)).
Local Notation initof hp := (flat_map (fun t => qtargets o (tq_am t)) (g_enumt g (hp_top hp))).

Lemma fuel_c : fuel_ok blf klf [TQ 0 c] (e_fuel (g_E g)).
Proof.
  intros x [<-|[]]. pose proof (go_fuel Hg) as F. unfold qtotal in F. unfold mvc, brac, ketc. cbn. destruct blf, klf; cbn; lia.
Qed.
Lemma in_init hp q : In q (initof hp) <-> exists t, In t (hp_top hp) /\ qclass q = tq_am t.
Proof.
  rewrite in_flat_map. split.
  - intros [t [Ht H]]. apply (go_enumt Hg (hp_top hp)) in Ht. exists t. split; [exact Ht|]. apply in_qtargets in H; [exact H|apply (go_starts Hg)].
  - intros [t [Ht H]]. exists t. split; [apply (go_enumt Hg (hp_top hp)), Ht|]. apply in_qtargets; [apply (go_starts Hg)|exact H].
Qed.
Lemma whole hp : whole_classes (initof hp).
Proof. intros q q' H E. apply in_init in H as [t [Ht H]]. apply in_init. exists t. split; [exact Ht|congruence]. Qed.

(** The two plans, with what is known of them. *)
Record both (hp : hplan) (vp : vplan) : Prop := {
  b_plans : plans g c = Some (hp, vp);
  b_hp : hrr_create (e_enum (g_E g)) (g_enumq g) o blf klf (e_fuel (g_E g)) [TQ 0 c] = Some hp;
  b_hok : plan_ok blf klf [TQ 0 c] hp;
  b_vp : vrr_create (p_enum (g_P g)) (p_enumq (g_P g)) (p_fuel (g_P g)) (idx_order (initof hp)) (initof hp) = Some vp;
  b_vok : vplan_ok (idx_order (initof hp)) (initof hp) vp;
  b_top : get_mreq (vp_steps vp) ssss = Some (qtotal c);
  b_modes : forall a, In a (vp_order vp) -> mode_ok (g_P g) a }.

Lemma plans_ok : exists hp vp, both hp vp.
Proof.
  destruct (@hrr_create_ok (e_enum (g_E g)) (g_enumq g) o blf klf (e_fuel (g_E g)) [TQ 0 c] (go_enum Hg) (go_enumq Hg) (go_starts Hg)
     ltac:(pose proof (go_fuel Hg); lia) fuel_c) as [hp [Ep HP]].
  assert (Hs : forall q, In q (initof hp) -> qtotal (qclass q) <= qtotal c /\ pair_zero (qclass q)).
  { intros q H. apply in_init in H as [t [Ht E]]. rewrite E. apply (@top_small _ _ _ _ _ HP Ht). }
  destruct (@vrr_create_ok (p_enum (g_P g)) (p_enumq (g_P g)) (p_fuel (g_P g)) (idx_order (initof hp)) (initof hp)
     (po_enum (go_par Hg)) (po_enumq (go_par Hg)) (whole hp)) as [vp [Ev HV]].
  { intros q H. pose proof (go_vfuel Hg). apply Hs in H. lia. }
  exists hp, vp. split; auto.
  - unfold plans. cbv zeta. rewrite Ep. cbv zeta. rewrite Ev. reflexivity.
  - destruct (vo_ssss HV) as [m Em]. rewrite Em. f_equal.
    destruct (top_full HP) as [t [Ht Et]]. destruct (@qindex_surj o (tq_am t) 0 (qncart_pos _)) as [q [Eq _]].
    assert (Hq : In q (initof hp)) by (apply in_init; exists t; auto).
    pose proof (@ssss_order _ _ _ _ _ HV (idx_order_covers _) Em (whole hp) Hq) as L1.
    pose proof (@vo_mbound _ _ _ HV ssss m (qtotal c) ltac:(intros q' H; apply Hs in H; lia) Em) as L2.
    change (qtotal ssss) with 0 in L2. rewrite Eq, Et in L1. lia.
  - intros a Ha. apply (vo_order HV) in Ha. destruct (known_below HV Ha) as [q [Hq L]]. apply Hs in Hq as [T Z].
    assert (L' : qtotal a <= qtotal c).
    { pose proof (L CI). pose proof (L CJ). pose proof (L CK). pose proof (L CL). unfold qtotal in *. cbn [aget] in *. lia. }
    unfold mode_ok. destruct (emode_of _ _ _) eqn:Em; [exact I| |].
    + split; [|split; [pose proof (go_vfuel Hg); lia|apply (go_depth Hg)]].
      pose proof (L CI). pose proof (L CJ). pose proof (L CK). pose proof (L CL). cbn [aget] in *. unfold pair_zero in *. lia.
    + destruct (go_vtable Hg) as [H|[H1 H2]].
      * exfalso. unfold emode_of in Em. destruct (_ <? _); [discriminate|]. destruct (Nat.ltb_spec (qtotal a) (p_sg (g_P g))); [discriminate|lia].
      * split; [exact H1|]. intros x. unfold qtotal in *. destruct x; cbn [aget]; lia.
Qed.

Section Planned.
Variables (hp : hplan) (vp : vplan).
Hypothesis HB : both hp vp.
Local Notation tops := (topsof hp).

Lemma tops_in t : In t tops <-> In t (hp_top hp).
Proof. apply (go_enumt Hg (hp_top hp)). Qed.

(** *** One vector *)
Definition kcoef (gP gQ : list R) := kernel_coefs inv half (gdat gP) (gdat gQ).
Definition kval (gP gQ : list R) (ppf qpf : R) (q : qrt) : R :=
  os_value (kcoef gP gQ) (ssss_start inv sqrtf boys (gdat gP) (gdat gQ) ppf qpf) 0 q.

Lemma one_vector_ok gP gQ ppf qpf : exists l, one_vector inv sqrtf boys half (g_P g) vp tops (qtotal c) gP gQ ppf qpf = Some l /\
  length l = length (comps tops) /\
  forall n t q, nth_error (comps tops) n = Some (t, qindex o q) -> qclass q = tq_am t -> nth_error l n = Some (kval gP gQ ppf qpf q).
Proof.
  set (u := ssss_start inv sqrtf boys (gdat gP) (gdat gQ) ppf qpf).
  assert (Hf : forall q, In q (initof hp) -> qtotal (qclass q) < p_fuel (g_P g)).
  { intros q H. apply in_init in H as [t [Ht E]]. destruct (@top_small _ _ _ _ _ (b_hok HB) Ht) as (_ & A & _). rewrite E.
    pose proof (go_vfuel Hg). lia. }
  destruct (@vrr_code_correct R (g_P g) (idx_order (initof hp)) (initof hp) (go_par Hg) (whole hp) (idx_order_covers _) Hf) as (p & m & Ep & Em & _ & HR).
  rewrite (b_vp HB) in Ep. apply some_inj in Ep. subst p. assert (m = qtotal c) by (rewrite (b_top HB) in Em; congruence). subst m.
  unfold one_vector. fold u. unfold prim_arrays. rewrite Em, Nat.leb_refl.
  set (M := fun a => if qam_eq_dec a ssss then _ else _).
  destruct (HR (kcoef gP gQ) (os_value (kcoef gP gQ) u) M) as (M' & E' & V' & _).
  - apply os_value_family.
  - apply (b_modes HB).
  - intros a m' Ea. unfold M. destruct (qam_eq_dec a ssss) as [->|N].
    + rewrite Em in Ea. apply some_inj in Ea. subst m'. rewrite app_length, map_length, seq_length. change (qncart ssss) with 1. lia.
    + rewrite Ea, repeat_length. lia.
  - intros n Hn. unfold M. destruct (qam_eq_dec ssss ssss) as [_|N]; [|congruence].
    rewrite nth_error_app1 by (rewrite map_length, seq_length; lia). rewrite nth_error_map.
    rewrite (nth_error_nth' _ 0) by (rewrite seq_length; lia). rewrite seq_nth by lia. cbn [option_map Nat.add].
    apply f_equal, f_equal. symmetry. apply os_value_start.
  - unfold kcoef in E'. rewrite E'.
    destruct (@somes_all_ok R (map (fun x => match nth_error (M' (tq_am (fst x))) (snd x) with Some v => v | None => None end) (comps tops))
      (fun n => match nth_error (comps tops) n with
                | Some (t, k) => match nth_error (M' (tq_am t)) k with Some (Some v) => v | _ => c0 end | None => c0 end)) as (l & El & Ll & Vl).
    + intros n x Hx. rewrite nth_error_map in Hx. destruct (nth_error (comps tops) n) as [[t k]|] eqn:En; [|discriminate].
      cbn [option_map fst snd] in Hx. apply some_inj in Hx. subst x.
      assert (Hin : In (t, k) (comps tops)) by (apply nth_error_In with n; exact En).
      apply comps_in in Hin as [Ht Hk]. destruct (@qindex_surj o (tq_am t) k Hk) as [q [Eq Ek]].
      assert (Hq : In q (initof hp)) by (apply in_init; exists t; split; [apply tops_in, Ht|exact Eq]).
      pose proof (V' q Hq) as V. rewrite (go_o Hg), Eq, Ek in V. rewrite V. reflexivity.
    + exists l. split; [exact El|]. rewrite map_length in *. split; [exact Ll|]. intros n t q En Eq.
      assert (Hn : n < length (comps tops)) by (apply nth_error_Some; congruence).
      rewrite (Vl n Hn), En. assert (Hin : In (t, qindex o q) (comps tops)) by (apply nth_error_In with n; exact En).
      apply comps_in in Hin as [Ht Hk].
      assert (Hq : In q (initof hp)) by (apply in_init; exists t; split; [apply tops_in, Ht|exact Eq]).
      pose proof (V' q Hq) as V. rewrite (go_o Hg), Eq in V. rewrite V. reflexivity.
Qed.

Lemma comps_pos n t k : nth_error (comps tops) n = Some (t, k) -> In t (hp_top hp) /\ exists q, qclass q = tq_am t /\ qindex o q = k.
Proof.
  intros En. assert (Hin : In (t, k) (comps tops)) by (apply nth_error_In with n; exact En).
  apply comps_in in Hin as [Ht Hk]. split; [apply tops_in, Ht|]. apply qindex_surj, Hk.
Qed.
Lemma kval_zero gP gQ ppf q : kval gP gQ ppf c0 q = c0.
Proof.
  unfold kval. apply (@os_family_unique R (kcoef gP gQ) _ (fun _ _ => c0)).
  - apply os_value_family.
  - apply zero_family.
  - intros N. rewrite os_value_start. unfold ssss_start. ring.
Qed.
Definition vval gP gQ ppf qpf n : R := dflt n (one_vector inv sqrtf boys half (g_P g) vp tops (qtotal c) gP gQ ppf qpf).
Lemma vval_ok gP gQ ppf qpf n t q : nth_error (comps tops) n = Some (t, qindex o q) -> qclass q = tq_am t ->
  vval gP gQ ppf qpf n = kval gP gQ ppf qpf q.
Proof.
  intros En Eq. unfold vval. destruct (one_vector_ok gP gQ ppf qpf) as (l & E & _ & V). rewrite E. cbn [dflt].
  specialize (V n t q En Eq). apply nth_error_nth. exact V.
Qed.
Lemma vval_zero gP gQ ppf n : vval gP gQ ppf c0 n = c0.
Proof.
  destruct (nth_error (comps tops) n) as [[t k]|] eqn:En.
  - destruct (comps_pos _ En) as [_ [q [Eq Ek]]]. subst k. rewrite (vval_ok _ _ _ _ _ En Eq). apply kval_zero.
  - unfold vval. destruct (one_vector_ok gP gQ ppf c0) as (l & E & L & _). rewrite E. cbn [dflt]. apply nth_overflow.
    rewrite L. apply nth_error_None. exact En.
Qed.

(** *** One shell quartet *)
Lemma one_quartet_ok AB CD V l : family (at_dist (g_E g) AB CD) V -> length l = length (comps tops) ->
  (forall n t q, nth_error (comps tops) n = Some (t, qindex o q) -> qclass q = tq_am t -> nth_error l n = Some (V (tq_tag t) q)) ->
  exists l', one_quartet (g_E g) hp tops c AB CD l = Some l' /\ length l' = qncart c /\
    forall q, qclass q = c -> nth_error l' (qindex o q) = Some (V 0 q).
Proof.
  intros HF Ll Hl.
  destruct (@hrr_code_correct R (at_dist (g_E g) AB CD) (g_enumq g) [TQ 0 c] (go_enum Hg) (go_enumq Hg) (go_enumc Hg) (go_starts Hg)
     ltac:(pose proof (go_fuel Hg); cbn; lia) fuel_c (go_table Hg)) as [p [Ep HR]].
  cbn [at_dist e_enum e_o e_blf e_klf e_fuel] in Ep. rewrite (b_hp HB) in Ep. apply some_inj in Ep. subst p.
  destruct (HR V (hrr_arrays tops l) HF) as (M' & E' & Post & _).
  { split.
    - intros u _. unfold hrr_arrays. rewrite map_length, seq_length. reflexivity.
    - intros t q Ht Eq. cbn [at_dist e_o]. unfold hrr_arrays. rewrite nth_error_map.
      pose proof (qindex_lt o q) as Lq. rewrite Eq in Lq.
      rewrite (nth_error_nth' _ 0) by (rewrite seq_length; exact Lq). rewrite seq_nth by exact Lq. cbn [option_map Nat.add]. f_equal.
      destruct (find_pos _ (comps tops)) as [n|] eqn:Ef.
      + apply find_pos_some in Ef as (y & En & Hy & _).
        destruct (tk_eq_dec y (t, qindex o q)) as [->|]; [|discriminate]. apply (Hl n t q En Eq).
      + exfalso. pose proof (find_pos_none _ _ Ef (t, qindex o q)) as Ef'. cbv beta in Ef'.
        destruct (tk_eq_dec (t, qindex o q) (t, qindex o q)); [|congruence].
        assert (true = false) by (apply Ef', comps_in; split; [apply tops_in, Ht|exact Lq]). discriminate. }
  unfold one_quartet. rewrite E'.
  destruct (@somes_all_ok R (map (fun k => match nth_error (M' (TQ 0 c)) k with Some v => v | None => None end) (seq 0 (qncart c)))
     (fun n => match nth_error (M' (TQ 0 c)) n with Some (Some v) => v | _ => c0 end)) as (l' & El & Ll' & Vl).
  - intros n x Hx. rewrite nth_error_map in Hx. destruct (nth_error (seq 0 (qncart c)) n) as [k|] eqn:En; [|discriminate].
    cbn [option_map] in Hx. apply some_inj in Hx. subst x.
    assert (Hn : n < qncart c) by (rewrite <- (seq_length (qncart c) 0); apply nth_error_Some; congruence).
    rewrite (nth_error_nth' _ 0) in En by (rewrite seq_length; exact Hn). rewrite seq_nth in En by exact Hn. apply some_inj in En. cbn in En. subst k.
    destruct (@qindex_surj o c n Hn) as [q [Eq Ek]]. pose proof (Post (TQ 0 c) q (or_introl eq_refl) Eq) as P. cbn [at_dist e_o tq_tag] in P.
    rewrite Ek in P. rewrite P. reflexivity.
  - exists l'. rewrite map_length, seq_length in *. split; [exact El|]. split; [exact Ll'|]. intros q Eq.
    pose proof (qindex_lt o q) as Lq. rewrite Eq in Lq. rewrite (Vl _ Lq).
    pose proof (Post (TQ 0 c) q (or_introl eq_refl) Eq) as P. cbn [at_dist e_o tq_tag] in P. rewrite P. reflexivity.
Qed.
End Planned.

(** *** Values depend on the coefficients only through their entries *)
Lemma os_value_ext (K K' : @vcoef R) (u v : nat -> R) :
  (forall x d, k_PA K x d = k_PA K' x d) -> (forall s d, k_aPQ K s d = k_aPQ K' s d) -> (forall s, k_h K s = k_h K' s) ->
  (forall s, k_a K s = k_a K' s) -> k_hpq K = k_hpq K' -> (forall n, u n = v n) -> forall N q, os_value K u N q = os_value K' v N q.
Proof.
  intros E1 E2 E3 E4 E5 Eu N q. apply (@os_family_unique R K').
  - intros x d m p s. rewrite (@os_value_family R K u x d m p). fold s. unfold same_side_term, other_side_term.
    rewrite E1, E2, E3, E4, E5. reflexivity.
  - apply os_value_family.
  - intros M. rewrite !os_value_start. apply Eu.
Qed.
Lemma os_value_scale (K : @vcoef R) x (u v : nat -> R) : (forall n, v n = cmul x (u n)) -> forall N q,
  os_value K v N q = cmul x (os_value K u N q).
Proof.
  intros H N q. transitivity (os_value K (fun n => cadd (cmul x (u n)) (cmul c0 (u n))) N q).
  - apply os_value_ext; try reflexivity. intros n. rewrite H. ring.
  - rewrite os_linear. ring.
Qed.
Definition kunit (gP gQ : list R) (q : qrt) : R := kval gP gQ c1 c1 q.
Lemma kval_weights gP gQ x y q : kval gP gQ x y q = cmul x (cmul y (kunit gP gQ q)).
Proof.
  unfold kunit, kval. rewrite (@os_value_scale _ (cmul x y) (ssss_start inv sqrtf boys (gdat gP) (gdat gQ) c1 c1)).
  - ring.
  - intros n. unfold ssss_start. ring.
Qed.

(** *** Reading the blocks *)
Section Blocks.
Variables (len nss : nat).
(** A filled or created block: [ord t] is the order of the primitives of pair [t] in it. *)
Record block_ok (S : @pairs R) (m : list (option dval)) (ord : nat -> list (nat * nat)) (clip : nat) : Prop := {
  bo_holds : holds len nss (ps_meth S) (ps_deriv S) (ps_n S) (ps_pr S) m ord;
  bo_clip : clip <= ps_n S;
  bo_same : forall t, t < ps_n S -> ps_same S t = true -> ps_B S t = ps_A S t }.

Local Notation rdb := (rd inv expf sqrt2pi52 len nss).
Local Notation st S := (start len nss (fun t => sp_np (ps_pr S t))).
Lemma ord_len S m ord clip t : block_ok S m ord clip -> t < clip -> length (ord t) = sp_np (ps_pr S t).
Proof.
  intros H Ht. pose proof (bo_clip H). rewrite (Permutation_length (ho_perm (bo_holds H) (t := t) ltac:(lia))). apply (prims_len (ps_pr S)).
Qed.
Lemma rd_prim S m ord clip t k i j a : block_ok S m ord clip -> t < clip -> nth_error (ord t) k = Some (i, j) -> a < 11 ->
  rdb S m (APrim a) (st S t + k) = prim_value inv expf sqrt2pi52 (ps_same S t) (ps_A S t) (ps_B S t) (APrim a) i j.
Proof.
  intros H Ht Hk Ha. pose proof (bo_clip H). unfold rd. change (fun t => sp_np (ps_pr S t)) with (npf (ps_pr S)).
  rewrite (ho_prim (bo_holds H) (a := APrim a) (t := t) k (i := i) (j := j)); [reflexivity|apply Nat.ltb_lt; exact Ha|discriminate|lia|exact Hk].
Qed.
Lemma rd_scr S m ord clip t k i j sv : block_ok S m ord clip -> screens (ps_meth S) = true -> t < clip -> nth_error (ord t) k = Some (i, j) ->
  scr_rd len nss S m sv (st S t + k) = sv t i j.
Proof.
  intros H Hs Ht Hk. pose proof (bo_clip H). unfold scr_rd. change (fun t => sp_np (ps_pr S t)) with (npf (ps_pr S)).
  rewrite (ho_prim (bo_holds H) (a := AScreen) (t := t) k (i := i) (j := j)); [reflexivity|exact Hs|discriminate|lia|exact Hk].
Qed.
Lemma rd_dist S m ord clip t d : block_ok S m ord clip -> t < clip ->
  rdb S m (ADist (idx_of_dir d)) t = csub (sh_pos (ps_A S t) (idx_of_dir d)) (sh_pos (ps_B S t) (idx_of_dir d)).
Proof.
  intros H Ht. pose proof (bo_clip H). unfold rd.
  rewrite (ho_dist (bo_holds H) (ax := idx_of_dir d) (t := t)); [reflexivity|destruct d; cbn; lia|lia].
Qed.
Lemma rd_geo S m ord clip t k i j : block_ok S m ord clip -> t < clip -> nth_error (ord t) k = Some (i, j) ->
  geo (fun a => rdb S m a (st S t + k)) = geometry inv expf sqrt2pi52 (ps_same S t) (ps_A S t) (ps_B S t) i j.
Proof.
  intros H Ht Hk. unfold geo, geometry. apply map_ext_in. intros a Ha. apply in_seq in Ha.
  apply (@rd_prim S m ord clip t k i j a H Ht Hk). lia.
Qed.
Lemma rd_weight S m ord clip t k i j : block_ok S m ord clip -> t < clip -> nth_error (ord t) k = Some (i, j) ->
  rdb S m a_prefac (st S t + k) = weight inv expf sqrt2pi52 (ps_same S t) (ps_A S t) (ps_B S t) i j.
Proof. intros H Ht Hk. apply (@rd_prim S m ord clip t k i j 10 H Ht Hk). lia. Qed.

Lemma grid_sum (f : nat -> nat -> R) n1 n2 :
  rsum (map (fun ij => f (fst ij) (snd ij)) (sp_prims (SP n1 n2 false))) =
  rsum (map (fun i => rsum (map (f i) (seq 0 n2))) (seq 0 n1)).
Proof.
  unfold sp_prims. cbn [sp_same sp_n1 sp_n2]. rewrite rsum_flat_map. apply rsum_map_ext. intros i _. rewrite map_map. reflexivity.
Qed.

Lemma prim_match (A B C D : @shell R) i j k l q :
  cmul (weight inv expf sqrt2pi52 false A B i j) (cmul (weight inv expf sqrt2pi52 false C D k l)
    (kunit (geometry inv expf sqrt2pi52 false A B i j) (geometry inv expf sqrt2pi52 false C D k l) q)) =
  cmul (cmul (cmul (cmul (sh_coef A i) (sh_coef B j)) (sh_coef C k)) (sh_coef D l))
    (prim_eri inv expf sqrtf boys half sqrt2pi52 (prim A i) (prim B j) (prim C k) (prim D l) q).
Proof.
  rewrite <- kval_weights. unfold kval, prim_eri.
  assert (Cen : forall (A B : @shell R) i j d, center inv A B i j (idx_of_dir d) = gcen inv (prim A i) (prim B j) d).
  { intros A' B' i' j' d. unfold center, gcen, gp, prim. cbn [g_exp g_at]. ring. }
  assert (Geo : forall (A B : @shell R) i j, let g := gdat (geometry inv expf sqrt2pi52 false A B i j) in
    pd_alpha g = gp (prim A i) (prim B j) /\ (forall d, pd_xyz g d = gcen inv (prim A i) (prim B j) d) /\
    (forall d, pd_PA g d = csub (gcen inv (prim A i) (prim B j) d) (sh_pos A (idx_of_dir d))) /\
    (forall d, pd_PB g d = csub (gcen inv (prim A i) (prim B j) d) (sh_pos B (idx_of_dir d)))).
  { intros A' B' i' j' g'. split; [reflexivity|]. split; [|split]; intros d; rewrite <- Cen; destruct d; reflexivity. }
  destruct (Geo A B i j) as (P1 & P2 & P3 & P4). destruct (Geo C D k l) as (Q1 & Q2 & Q3 & Q4). clear Geo Cen.
  set (gP := gdat (geometry inv expf sqrt2pi52 false A B i j)) in *.
  set (gQ := gdat (geometry inv expf sqrt2pi52 false C D k l)) in *.
  assert (W : forall (A B : @shell R) i j, weight inv expf sqrt2pi52 false A B i j =
    cmul (cmul (cmul (sh_coef A i) (sh_coef B j)) (overlap_exp inv expf (prim A i) (prim B j))) (cmul sqrt2pi52 (inv (gp (prim A i) (prim B j))))).
  { intros A' B' i' j'. unfold weight, prim_value, a_prefac. cbn [Nat.ltb Nat.leb Nat.eqb andb]. unfold overlap_exp, gp, prim. cbn [g_exp g_at].
    match goal with |- cmul (cmul (cmul (cmul _ _) (expf ?x)) _) _ = cmul (cmul _ (expf ?y)) _ => assert (x = y) as -> end.
    { unfold xab2, dist2. cbn [idx_of_dir]. ring. }
    ring. }
  rewrite !W. clear W.
  transitivity (cmul (cmul (cmul (cmul (sh_coef A i) (sh_coef B j)) (sh_coef C k)) (sh_coef D l))
    (os_value (kcoef (geometry inv expf sqrt2pi52 false A B i j) (geometry inv expf sqrt2pi52 false C D k l))
       (eri_start inv expf sqrtf boys sqrt2pi52 (prim A i) (prim B j) (prim C k) (prim D l)) 0 q)).
  - apply os_value_scale. intros n. unfold ssss_start. fold gP gQ. rewrite P1, Q1, !P2, !Q2.
    unfold eri_start.
    match goal with |- cmul (boys n ?x) _ = cmul _ (cmul _ (boys n ?y)) => assert (x = y) as -> end.
    { unfold rho, dist2. ring. }
    ring.
  - f_equal. apply os_value_ext; unfold kcoef, kernel_coefs, eri_coefs; fold gP gQ; cbn [k_PA k_aPQ k_h k_a k_hpq]; cbv zeta.
    + intros x d. destruct x; rewrite ?P3, ?P4, ?Q3, ?Q4; reflexivity.
    + intros s' d. rewrite P1, Q1, P2, Q2. destruct s'; unfold rho; ring.
    + intros s'. rewrite P1, Q1. reflexivity.
    + intros s'. rewrite P1, Q1. destruct s'; unfold rho; ring.
    + rewrite P1, Q1. reflexivity.
    + reflexivity.
Qed.

(** All stored terms together are the integral. *)
Lemma stored_all sb sk (A B C D : @shell R) q : (sb = true -> B = A) -> (sk = true -> D = C) ->
  stored_terms inv expf sqrtf boys half sqrt2pi52 sb sk A B C D (fun _ _ _ _ => true) q = eri inv expf sqrtf boys half sqrt2pi52 A B C D q.
Proof.
  intros Hb Hk. unfold stored_terms.
    assert (Sm : forall same (A B : @shell R) i j, (same = true -> B = A) ->
       geometry inv expf sqrt2pi52 same A B i j = geometry inv expf sqrt2pi52 false A B i j /\
       weight inv expf sqrt2pi52 same A B i j = cmul (mult same i j) (weight inv expf sqrt2pi52 false A B i j)).
    { intros same A' B' i j H. unfold mult. destruct same; cbn [andb].
      - rewrite (H eq_refl). rewrite geometry_same, weight_same. split; [reflexivity|]. destruct (i =? j); cbn [negb]; unfold two; ring.
      - split; [reflexivity|ring]. }
    assert (Un : forall same (A B : @shell R) (H : list R -> R), (same = true -> B = A) ->
      pair_sum inv expf sqrt2pi52 same A B H (sp_prims (SP (sh_n A) (sh_n B) same)) =
      pair_sum inv expf sqrt2pi52 false A B H (sp_prims (SP (sh_n A) (sh_n B) false))).
    { intros same A' B' H E. destruct same; [|reflexivity]. rewrite (E eq_refl). apply packed_value. }
    transitivity (pair_sum inv expf sqrt2pi52 sb A B (fun g => pair_sum inv expf sqrt2pi52 sk C D (fun g' => kunit g g' q)
      (sp_prims (SP (sh_n C) (sh_n D) sk))) (sp_prims (SP (sh_n A) (sh_n B) sb))).
    { unfold pair_sum. apply rsum_map_ext. intros [i j] _. cbn [fst snd]. rewrite <- rsum_map_scale. apply rsum_map_ext. intros [k l] _. cbn [fst snd].
      destruct (Sm sb A B i j Hb) as [-> ->]. destruct (Sm sk C D k l Hk) as [-> ->]. unfold stored_term. rewrite <- prim_match. ring. }
    rewrite (Un sb A B _ Hb). unfold pair_sum at 1.
    rewrite (grid_sum (fun i j => cmul (weight inv expf sqrt2pi52 false A B i j)
       (pair_sum inv expf sqrt2pi52 sk C D (fun g' => kunit (geometry inv expf sqrt2pi52 false A B i j) g' q) (sp_prims (SP (sh_n C) (sh_n D) sk))))).
    unfold eri, over. apply rsum_map_ext. intros i _. apply rsum_map_ext. intros j _.
    rewrite (Un sk C D _ Hk). unfold pair_sum.
    rewrite (grid_sum (fun k l => cmul (weight inv expf sqrt2pi52 false C D k l)
       (kunit (geometry inv expf sqrt2pi52 false A B i j) (geometry inv expf sqrt2pi52 false C D k l) q))).
    rewrite <- rsum_map_scale. apply rsum_map_ext. intros k _. rewrite <- rsum_map_scale. apply rsum_map_ext. intros l _.
    apply prim_match.
Qed.
End Blocks.

(** *** The kernel *)
Section Whole.
Variables (k : call_kind) (len nss : nat).
Hypothesis Hk : kind_len k len.
Hypothesis Hnss : 0 < nss.
Hypothesis Hdiv : Nat.divide len nss.
Variables (bra ket : @pairs R) (mb mk : list (option dval)) (ob ok : nat -> list (nat * nat)) (nb nk : nat) (scrb scrk : nat -> Q) (mxb mxk : Q).
Hypothesis HP : block_ok len nss bra mb ob nb.
Hypothesis HK : block_ok len nss ket mk ok nk.
Hypothesis Hnp : forall t, t < nk -> 0 < sp_np (ps_pr ket t).
Local Notation rdb := (rd inv expf sqrt2pi52 len nss).
Local Notation st S := (start len nss (fun t => sp_np (ps_pr S t))).
Local Notation BP := (batch_of bra nb scrb mxb).
Local Notation BK := (batch_of ket nk scrk mxk).
Local Notation ERI ab cd q := (eri inv expf sqrtf boys half sqrt2pi52 (ps_A bra ab) (ps_B bra ab) (ps_A ket cd) (ps_B ket cd) q).

Lemma len_pos : 0 < len.
Proof.
  clear scrb scrk mxb mxk Hnp. apply (kind_len_pos k). exact Hk. Qed.

Section Sums.
Variables (hp : hplan) (vp : vplan).
Hypothesis HB : both hp vp.
Local Notation tops := (topsof hp).
Definition kv (i j : nat) (pf : R) (n : nat) : R :=
  vval hp vp (geo (fun a => rdb bra mb a i)) (geo (fun a => rdb ket mk a j)) (rdb bra mb a_prefac i) pf n.
End Sums.

(** Primitives left out: their prefactor replaced by zero. *)
Section Drop.
Variable drop : nat -> nat -> bool.
Variables (ab cd : nat).
Hypothesis Ha : ab < nb.
Hypothesis Hc : cd < nk.
Definition qw (i j : nat) : R := if drop i j then c0 else rdb ket mk a_prefac j.
Definition kept_list : list (@pquart R) :=
  flat_map (fun a => map (fun b =>
       let i := st bra ab + a in let j := st ket cd + b in
       let gP := geo (fun x => rdb bra mb x i) in let gQ := geo (fun x => rdb ket mk x j) in
       PQ (kcoef gP gQ) (os_value (kcoef gP gQ) (ssss_start inv sqrtf boys (gdat gP) (gdat gQ) (rdb bra mb a_prefac i) (qw i j))) (fun _ => c0))
      (seq 0 (sp_np (ps_pr ket cd)))) (seq 0 (sp_np (ps_pr bra ab))).
Definition kept_val (q : qrt) : R :=
  rsum (map (fun a => rsum (map (fun b =>
      let i := st bra ab + a in let j := st ket cd + b in
      if drop i j then c0 else
      kval (geo (fun x => rdb bra mb x i)) (geo (fun x => rdb ket mk x j)) (rdb bra mb a_prefac i) (rdb ket mk a_prefac j) q)
    (seq 0 (sp_np (ps_pr ket cd))))) (seq 0 (sp_np (ps_pr bra ab)))).
Lemma kept_contracted q : contracted_sum kept_list 0 q = kept_val q.
Proof.
  clear scrb scrk mxb mxk Hnp.
  unfold contracted_sum, kept_list, kept_val. rewrite rsum_flat_map. apply rsum_map_ext. intros a _. rewrite map_map. apply rsum_map_ext. intros b _.
  cbv zeta. cbn [tag_factor pq_W]. unfold qw. destruct (drop _ _).
  - fold (kval (geo (fun x => rdb bra mb x (st bra ab + a))) (geo (fun x => rdb ket mk x (st ket cd + b))) (rdb bra mb a_prefac (st bra ab + a)) c0 q).
    rewrite kval_zero. ring.
  - unfold kval. ring.
Qed.
Lemma kept_family :
  family (at_dist (g_E g) (fun d => rdb bra mb (ADist (idx_of_dir d)) ab) (fun d => rdb ket mk (ADist (idx_of_dir d)) cd)) (contracted_sum kept_list).
Proof.
  clear scrb scrk mxb mxk Hnp.
  apply contracted_family. intros p Hp. apply in_flat_map in Hp as [a [Ia Hp]]. apply in_map_iff in Hp as [b [<- Ib]].
  cbv zeta. cbn [pq_K pq_W]. split; [apply os_value_family|].
  apply in_seq in Ia, Ib.
  destruct (nth_error (ob ab) a) as [[i j]|] eqn:Ea; [|apply nth_error_None in Ea; rewrite (ord_len HP Ha) in Ea; lia].
  destruct (nth_error (ok cd) b) as [[i' j']|] eqn:Eb; [|apply nth_error_None in Eb; rewrite (ord_len HK Hc) in Eb; lia].
  rewrite (@rd_geo len nss bra mb ob nb ab a i j HP Ha Ea), (@rd_geo len nss ket mk ok nk cd b i' j' HK Hc Eb).
  intros d. cbn [pq_K at_dist e_AB e_CD]. rewrite (@rd_dist len nss bra mb ob nb ab d HP Ha), (@rd_dist len nss ket mk ok nk cd d HK Hc).
  unfold kcoef, kernel_coefs. cbn [k_PA].
  destruct d; unfold gdat, geometry; cbn [pd_PA pd_PB seq map nth idx_of_dir Nat.add prim_value Nat.ltb Nat.leb Nat.sub]; split; ring.
Qed.

(** The sum over the stored primitives that were not left out, in terms of the shells. *)
Definition keep_at (i j k l : nat) : bool := negb (drop (st bra ab + place (ob ab) (i, j)) (st ket cd + place (ok cd) (k, l))).
Lemma kept_terms q : kept_val q =
  stored_terms inv expf sqrtf boys half sqrt2pi52 (ps_same bra ab) (ps_same ket cd) (ps_A bra ab) (ps_B bra ab) (ps_A ket cd) (ps_B ket cd) keep_at q.
Proof.
  clear scrb scrk mxb mxk Hnp.
  pose proof (bo_clip HP). pose proof (bo_clip HK).
  unfold stored_terms. change (SP (sh_n (ps_A bra ab)) (sh_n (ps_B bra ab)) (ps_same bra ab)) with (ps_pr bra ab).
  change (SP (sh_n (ps_A ket cd)) (sh_n (ps_B ket cd)) (ps_same ket cd)) with (ps_pr ket cd).
  rewrite <- (rsum_perm (Permutation_map _ (ho_perm (bo_holds HP) (t := ab) ltac:(lia)))).
  unfold kept_val. rewrite <- (ord_len HP Ha), <- (ord_len HK Hc). apply (rsum_nth (ob ab)). intros a [i j] Ea.
  rewrite <- (rsum_perm (Permutation_map _ (ho_perm (bo_holds HK) (t := cd) ltac:(lia)))).
  apply (rsum_nth (ok cd)). intros b [k' l] Eb. cbv zeta. cbn [fst snd]. unfold keep_at.
  rewrite (@place_nth (ob ab) a (i, j)), (@place_nth (ok cd) b (k', l)); try assumption.
  2:{ apply (Permutation_NoDup (Permutation_sym (ho_perm (bo_holds HK) (t := cd) ltac:(lia)))). apply prims_nodup. }
  2:{ apply (Permutation_NoDup (Permutation_sym (ho_perm (bo_holds HP) (t := ab) ltac:(lia)))). apply prims_nodup. }
  destruct (drop _ _); [reflexivity|]. cbn [negb].
  rewrite (@rd_geo len nss bra mb ob nb ab a i j HP Ha Ea), (@rd_geo len nss ket mk ok nk cd b k' l HK Hc Eb).
  rewrite (@rd_weight len nss bra mb ob nb ab a i j HP Ha Ea), (@rd_weight len nss ket mk ok nk cd b k' l HK Hc Eb).
  assert (Sm : forall S m ord n t i j, block_ok len nss S m ord n -> t < n ->
     geometry inv expf sqrt2pi52 (ps_same S t) (ps_A S t) (ps_B S t) i j = geometry inv expf sqrt2pi52 false (ps_A S t) (ps_B S t) i j /\
     weight inv expf sqrt2pi52 (ps_same S t) (ps_A S t) (ps_B S t) i j = cmul (mult (ps_same S t) i j) (weight inv expf sqrt2pi52 false (ps_A S t) (ps_B S t) i j)).
  { intros S m ord n t i' j' HS Ht. pose proof (bo_clip HS). unfold mult. destruct (ps_same S t) eqn:E; cbn [andb].
    - rewrite (bo_same HS (t := t) ltac:(lia) E). rewrite geometry_same, weight_same. split; [reflexivity|].
      destruct (i' =? j'); cbn [negb]; unfold two; ring.
    - split; [reflexivity|ring]. }
  destruct (Sm bra mb ob nb ab i j HP Ha) as [-> ->]. destruct (Sm ket mk ok nk cd k' l HK Hc) as [-> ->].
  rewrite kval_weights.
  transitivity (cmul (cmul (mult (ps_same bra ab) i j) (mult (ps_same ket cd) k' l))
    (cmul (weight inv expf sqrt2pi52 false (ps_A bra ab) (ps_B bra ab) i j) (cmul (weight inv expf sqrt2pi52 false (ps_A ket cd) (ps_B ket cd) k' l)
    (kunit (geometry inv expf sqrt2pi52 false (ps_A bra ab) (ps_B bra ab) i j) (geometry inv expf sqrt2pi52 false (ps_A ket cd) (ps_B ket cd) k' l) q)))); [ring|].
  rewrite prim_match. unfold stored_term. ring.
Qed.
End Drop.

Lemma kept_all ab cd q : ab < nb -> cd < nk -> kept_val (fun _ _ => false) ab cd q = ERI ab cd q.
Proof.
  intros Ha Hc. rewrite (@kept_terms (fun _ _ => false) ab cd Ha Hc). pose proof (bo_clip HP). pose proof (bo_clip HK).
  apply stored_all; intros E; [apply (bo_same HP)|apply (bo_same HK)]; (lia || exact E).
Qed.

(** The kernel with a tolerance. *)
Theorem kernel_kept tol zf out : bra_aligned len nss BP -> nb * nk * qncart c <= length out ->
  exists d, whole_kernel inv expf sqrtf boys half sqrt2pi52 g c k len nss bra ket mb mk BP BK tol zf out = Some (d, nb * nk) /\
    length d = length out /\
    (forall ab cd q, ab < nb -> cd < nk -> qclass q = c ->
       nth_error d ((ab * nk + cd) * qncart c + qindex o q) = Some (kept_val (dropped len BP BK tol zf) ab cd q)) /\
    (forall i, nb * nk * qncart c <= i -> nth_error d i = nth_error out i).
Proof.
  intros Hal Hout. destruct plans_ok as (hp & vp & HB).
  unfold whole_kernel. rewrite (b_plans HB). cbv zeta.
  set (tops := g_enumt g (hp_top hp)). set (nc := length (comps tops)). set (drop := dropped len BP BK tol zf).
  assert (Hst : forall ab, ab < nb -> total (b_np BP) ab = st bra ab).
  { intros ab Hab. apply (proj2 (@bra_start_iff len nss len_pos Hnss (b_np BP) (b_clip BP)) Hal ab Hab). }
  assert (Hnc : 0 < nc).
  { destruct (top_full (b_hok HB)) as [t [Hin _]]. unfold nc. destruct (comps tops) as [|x l] eqn:E; [|cbn; lia]. exfalso.
    assert (In (t, 0) (comps tops)) as K by (apply comps_in; split; [apply tops_in, Hin|apply qncart_pos]). rewrite E in K. destruct K. }
  change (fun (i j : nat) (pf : R) (n : nat) => dflt n (one_vector inv sqrtf boys half (g_P g) vp tops (qtotal c)
     (geo (fun y1 => rdb bra mb y1 i)) (geo (fun y2 => rdb ket mk y2 j)) (rdb bra mb a_prefac i) pf)) with (kv hp vp).
  assert (Hz : forall i j n, kv hp vp i j c0 n = c0) by (intros i j n; apply vval_zero; exact HB).
  assert (Hs : forall ab cd n t q, ab < nb -> nth_error (comps tops) n = Some (t, qindex o q) -> qclass q = tq_am t ->
     quartet_sum (rdb ket mk a_prefac) (kv hp vp) drop (total (b_np BP) ab) (b_np BP ab) (start len nss (b_np BK) cd) (b_np BK cd) n = kept_val drop ab cd q).
  { intros ab cd n t q Hab En Eq. rewrite (Hst ab Hab). unfold quartet_sum, kept_val. cbn [batch_of b_np].
    apply rsum_map_ext. intros a _. apply rsum_map_ext. intros b _. cbv zeta. destruct (drop _ _); [reflexivity|].
    apply (vval_ok HB _ _ _ _ _ En Eq). }
  destruct (hashrr hp) eqn:Eh.
  - match goal with |- context [kernel_hrr _ _ _ _ _ _ _ _ _ _ _ ?h _] => set (hrr := h) end.
    assert (Hh : forall ab cd f f' n, (forall c, c < nc -> f c = f' c) -> hrr ab cd f n = hrr ab cd f' n).
    { intros ab cd f f' n Hf. unfold hrr. do 2 f_equal. apply map_ext_in. intros x Hx. apply in_seq in Hx. apply Hf. lia. }
    destruct (@kernel_hrr_ok R len nss nc BP BK (rdb ket mk a_prefac) (kv hp vp) tol zf (call_of k len nc) (qncart c) hrr len_pos Hnss Hnc Hz
       (@call_of_ok R k len nc Hk) Hnp Hh out Hout) as (d & E & L & V & O).
    exists d. split; [exact E|]. split; [exact L|]. split; [|exact O].
    intros ab cd q Ha Hc Eq. pose proof (qindex_lt o q) as Lq. rewrite Eq in Lq.
    change (b_clip BK) with nk in V. rewrite (V ab cd (qindex o q) Ha Hc Lq). f_equal.
    unfold want_hrr.
    set (F := quartet_sum (rdb ket mk a_prefac) (kv hp vp) drop (total (b_np BP) ab) (b_np BP ab) (start len nss (b_np BK) cd) (b_np BK cd)).
    rewrite (Hh ab cd _ F) by (intros c' Hc'; rewrite (proj2 (Nat.ltb_lt _ _) Hc'); reflexivity).
    unfold hrr.
    destruct (@one_quartet_ok hp vp HB _ _ _ (map F (seq 0 nc)) (@kept_family drop ab cd Ha Hc)) as (l' & El & Ll & Vl).
    + rewrite map_length, seq_length. reflexivity.
    + intros n t q' En Eq'.
      assert (Hn : n < nc) by (apply nth_error_Some; unfold tops; congruence).
      rewrite nth_error_map, (nth_error_nth' _ 0) by (rewrite seq_length; exact Hn). rewrite seq_nth by exact Hn. cbn [option_map Nat.add].
      f_equal. unfold F. rewrite (Hs ab cd n t q' Ha En Eq').
      destruct (comps_pos _ _ En) as [Hin _]. destruct (@top_small _ _ _ _ _ (b_hok HB) Hin) as (-> & _).
      symmetry. apply kept_contracted; assumption.
    + unfold tops. rewrite El. cbn [dflt]. apply nth_error_nth. rewrite (Vl q Eq). f_equal. apply kept_contracted; assumption.
  - assert (Et : tops = [TQ 0 c]).
    { unfold tops. rewrite (@no_hrr_top _ _ _ _ _ _ _ _ (go_enumq Hg) (b_hok HB) (b_hp HB)).
      - apply enum_single. apply (go_enumt Hg).
      - unfold hashrr in Eh. destruct (hp_bra hp); [reflexivity|discriminate].
      - unfold hashrr in Eh. destruct (hp_bra hp); [|discriminate]. destruct (hp_ket hp); [reflexivity|discriminate]. }
    assert (En : nc = qncart c).
    { unfold nc. rewrite Et. unfold comps. cbn [flat_map tq_am]. rewrite app_nil_r, map_length, seq_length. reflexivity. }
    destruct (@kernel_ok R len nss nc BP BK (rdb ket mk a_prefac) (kv hp vp) tol zf (call_of k len nc) (fun _ _ f => f) len_pos Hnss Hnc Hz
       (@call_of_ok R k len nc Hk) Hnp out) as (d & E & L & V & O).
    + rewrite En. exact Hout.
    + exists d. split; [exact E|]. split; [exact L|]. rewrite <- En. split; [|exact O].
      intros ab cd q Ha Hc Eq. pose proof (qindex_lt o q) as Lq. rewrite Eq, <- En in Lq.
      change (b_clip BK) with nk in V. rewrite (V ab cd (qindex o q) Ha Hc Lq). f_equal.
      apply (Hs ab cd (qindex o q) (TQ 0 c) q Ha).
      * rewrite Et. unfold comps. cbn [flat_map tq_am]. rewrite app_nil_r, nth_error_map.
        rewrite En in Lq. rewrite (nth_error_nth' _ 0) by (rewrite seq_length; exact Lq). rewrite seq_nth by exact Lq. reflexivity.
      * exact Eq.
Qed.

(** Without screening: the integrals. *)
Theorem kernel_integrals tol zf out : (tol <= 0)%Q -> bra_aligned len nss BP -> nb * nk * qncart c <= length out ->
  exists d, whole_kernel inv expf sqrtf boys half sqrt2pi52 g c k len nss bra ket mb mk BP BK tol zf out = Some (d, nb * nk) /\
    length d = length out /\
    (forall ab cd q, ab < nb -> cd < nk -> qclass q = c ->
       nth_error d ((ab * nk + cd) * qncart c + qindex o q) = Some (ERI ab cd q)) /\
    (forall i, nb * nk * qncart c <= i -> nth_error d i = nth_error out i).
Proof.
  intros Ht Hal Hout. destruct (kernel_kept tol zf out Hal Hout) as (d & E & L & V & O).
  exists d. split; [exact E|]. split; [exact L|]. split; [|exact O].
  intros ab cd q Ha Hc Eq. rewrite (V ab cd q Ha Hc Eq). f_equal. rewrite <- (@kept_all ab cd q Ha Hc).
  unfold kept_val. apply rsum_map_ext. intros a _. apply rsum_map_ext. intros b _. cbv zeta.
  rewrite no_screen_no_drop by exact Ht. reflexivity.
Qed.
(** With screening: some terms are missing, all of them of stored primitives with a small product of screen values. *)
Theorem kernel_integrals_screened svb svk tol zf out : scrb = scr_rd len nss bra mb svb -> scrk = scr_rd len nss ket mk svk ->
  screens (ps_meth bra) = true -> screens (ps_meth ket) = true -> bra_aligned len nss BP -> nb * nk * qncart c <= length out ->
  exists keep d, whole_kernel inv expf sqrtf boys half sqrt2pi52 g c k len nss bra ket mb mk BP BK tol zf out = Some (d, nb * nk) /\
    (forall ab cd q, ab < nb -> cd < nk -> qclass q = c ->
       nth_error d ((ab * nk + cd) * qncart c + qindex o q) =
       Some (stored_terms inv expf sqrtf boys half sqrt2pi52 (ps_same bra ab) (ps_same ket cd)
               (ps_A bra ab) (ps_B bra ab) (ps_A ket cd) (ps_B ket cd) (keep ab cd) q)) /\
    (forall ab cd i j k l, ab < nb -> cd < nk -> In (i, j) (sp_prims (ps_pr bra ab)) -> In (k, l) (sp_prims (ps_pr ket cd)) ->
       (0 <= svb ab i j)%Q -> (svk cd k l <= mxk)%Q -> keep ab cd i j k l = false -> (svb ab i j * svk cd k l < tol)%Q).
Proof.
  intros Eb Ek Sb Sk Hal Hout. destruct (kernel_kept tol zf out Hal Hout) as (d & E & L & V & O).
  exists (keep_at (dropped len BP BK tol zf)), d.
  split; [exact E|]. split.
  - intros ab cd q Ha Hc Eq. rewrite (V ab cd q Ha Hc Eq). f_equal. apply kept_terms; assumption.
  - intros ab cd i j k' l Ha Hc Hij Hkl H0 H1 H. unfold keep_at in H. apply negb_false_iff in H. pose proof (bo_clip HP). pose proof (bo_clip HK).
    apply (Permutation_in _ (Permutation_sym (ho_perm (bo_holds HP) (t := ab) ltac:(lia)))) in Hij.
    apply (Permutation_in _ (Permutation_sym (ho_perm (bo_holds HK) (t := cd) ltac:(lia)))) in Hkl.
    apply place_in in Hij, Hkl.
    assert (Rb : scrb (st bra ab + place (ob ab) (i, j)) = svb ab i j) by (rewrite Eb; apply (@rd_scr len nss bra mb ob nb ab _ i j svb HP Sb Ha Hij)).
    assert (Rk : scrk (st ket cd + place (ok cd) (k', l)) = svk cd k' l) by (rewrite Ek; apply (@rd_scr len nss ket mk ok nk cd _ k' l svk HK Sk Hc Hkl)).
    rewrite <- Rb, <- Rk. rewrite <- Rb in H0. rewrite <- Rk in H1.
    apply (@dropped_negligible len BP BK tol zf _ _ len_pos H0 H1 H).
Qed.
(** The work of a vector and of a shell quartet is always defined: the defaults of the model never matter. *)
Theorem kernel_defined : exists hp vp, plans g c = Some (hp, vp) /\
  (forall gP gQ ppf qpf, exists l, one_vector inv sqrtf boys half (g_P g) vp (g_enumt g (hp_top hp)) (qtotal c) gP gQ ppf qpf = Some l /\
     length l = length (comps (g_enumt g (hp_top hp)))) /\
  (forall drop ab cd, ab < nb -> cd < nk -> exists l,
     one_quartet (g_E g) hp (g_enumt g (hp_top hp)) c (fun d => rdb bra mb (ADist (idx_of_dir d)) ab) (fun d => rdb ket mk (ADist (idx_of_dir d)) cd)
       (map (quartet_sum (rdb ket mk a_prefac) (kv hp vp) drop (st bra ab) (sp_np (ps_pr bra ab)) (st ket cd) (sp_np (ps_pr ket cd)))
          (seq 0 (length (comps (g_enumt g (hp_top hp)))))) = Some l /\ length l = qncart c).
Proof.
  clear scrb scrk mxb mxk Hnp.
  destruct plans_ok as (hp & vp & HB). exists hp, vp. split; [apply (b_plans HB)|]. split.
  - intros gP gQ ppf qpf. destruct (one_vector_ok HB gP gQ ppf qpf) as (l & E & L & _). exists l. auto.
  - intros drop ab cd Ha Hc. set (tops := g_enumt g (hp_top hp)).
    set (F := quartet_sum _ _ _ _ _ _ _).
    destruct (@one_quartet_ok hp vp HB _ _ _ (map F (seq 0 (length (comps tops)))) (@kept_family drop ab cd Ha Hc)) as (l' & El & Ll & _).
    + rewrite map_length, seq_length. reflexivity.
    + intros n t q' En Eq'.
      assert (Hn : n < length (comps tops)) by (apply nth_error_Some; unfold tops; congruence).
      rewrite nth_error_map, (nth_error_nth' _ 0) by (rewrite seq_length; exact Hn). rewrite seq_nth by exact Hn. cbn [option_map Nat.add].
      f_equal. destruct (comps_pos _ _ En) as [Hin _]. destruct (@top_small _ _ _ _ _ (b_hok HB) Hin) as (-> & _).
      rewrite kept_contracted. unfold F, quartet_sum, kept_val.
      apply rsum_map_ext. intros a _. apply rsum_map_ext. intros b _. cbv zeta. destruct (drop _ _); [reflexivity|].
      apply (vval_ok HB _ _ _ _ _ En Eq').
    + exists l'. auto.
Qed.
End Whole.

(** Kept and missing terms together are the integral. *)
Theorem stored_split sb sk (A B C D : @shell R) keep q : (sb = true -> B = A) -> (sk = true -> D = C) ->
  cadd (stored_terms inv expf sqrtf boys half sqrt2pi52 sb sk A B C D keep q)
       (stored_terms inv expf sqrtf boys half sqrt2pi52 sb sk A B C D (fun i j k l => negb (keep i j k l)) q) =
  eri inv expf sqrtf boys half sqrt2pi52 A B C D q.
Proof.
  intros Hb Hk. rewrite <- (@stored_all sb sk A B C D q Hb Hk).
  unfold stored_terms. rewrite <- rsum_map_add. apply rsum_map_ext. intros ij _. rewrite <- rsum_map_add. apply rsum_map_ext. intros kl _.
  destruct (keep _ _ _ _); cbn [negb]; ring.
Qed.

(** *** From creating the batches on *)
Theorem created (len nss : nat) (S : @pairs R) kf clip : 0 < len -> 0 < nss -> Nat.divide len nss ->
  (forall t, t < ps_n S -> ps_same S t = true -> ps_B S t = ps_A S t) -> screen_fits len nss (ps_meth S) (ps_n S) (ps_pr S) ->
  (screens (ps_meth S) = true -> forall t, t < ps_n S -> 0 < sp_np (ps_pr S t)) -> clip <= ps_n S ->
  exists m ord, ps_create len nss S kf = Some m /\ block_ok len nss S m ord clip /\ (screens (ps_meth S) = true -> by_screen (ps_n S) kf ord).
Proof.
  intros Hlen Hnss Hdiv Hsame Hfits Hnp Hclip.
  destruct (@create_ok len nss (ps_meth S) (ps_deriv S) (ps_n S) (ps_pr S) kf Hlen Hnss Hdiv) as (m & ord & E & H & B); try assumption.
  { intros t Ht Es. cbn [ps_pr sp_same sp_n1 sp_n2] in *. rewrite (Hsame t Ht Es). reflexivity. }
  exists m, ord. split; [exact E|]. split; [|exact B]. split; assumption.
Qed.
Theorem kernel_created k len nss : kind_len k len -> 0 < nss -> Nat.divide len nss ->
  forall bra ket : @pairs R, (forall t, t < ps_n bra -> ps_same bra t = true -> ps_B bra t = ps_A bra t) ->
  (forall t, t < ps_n ket -> ps_same ket t = true -> ps_B ket t = ps_A ket t) ->
  screen_fits len nss (ps_meth bra) (ps_n bra) (ps_pr bra) -> screen_fits len nss (ps_meth ket) (ps_n ket) (ps_pr ket) ->
  (forall t, t < ps_n bra -> 0 < sp_np (ps_pr bra t)) -> (forall t, t < ps_n ket -> 0 < sp_np (ps_pr ket t)) ->
  forall kfb kfk nb nk scrb scrk mxb mxk tol zf out, nb <= ps_n bra -> nk <= ps_n ket -> (tol <= 0)%Q ->
  bra_aligned len nss (batch_of bra nb scrb mxb) -> nb * nk * qncart c <= length out ->
  exists mb mk d, ps_create len nss bra kfb = Some mb /\ ps_create len nss ket kfk = Some mk /\
    whole_kernel inv expf sqrtf boys half sqrt2pi52 g c k len nss bra ket mb mk
      (batch_of bra nb scrb mxb) (batch_of ket nk scrk mxk) tol zf out = Some (d, nb * nk) /\
    length d = length out /\
    (forall ab cd q, ab < nb -> cd < nk -> qclass q = c ->
       nth_error d ((ab * nk + cd) * qncart c + qindex o q) =
       Some (eri inv expf sqrtf boys half sqrt2pi52 (ps_A bra ab) (ps_B bra ab) (ps_A ket cd) (ps_B ket cd) q)) /\
    (forall i, nb * nk * qncart c <= i -> nth_error d i = nth_error out i).
Proof.
  intros Hk Hnss Hdiv bra ket Sb Sk Fb Fk Nb Nk kfb kfk nb nk scrb scrk mxb mxk tol zf out Cb Ck Ht Hal Hout.
  assert (Hlen : 0 < len) by (apply (kind_len_pos k); exact Hk).
  destruct (@created len nss bra kfb nb) as (mb & ob & Eb & Hb & _); auto.
  destruct (@created len nss ket kfk nk) as (mk & ok & Ek & Hk' & _); auto.
  destruct (@kernel_integrals k len nss Hk Hnss bra ket mb mk ob ok nb nk scrb scrk mxb mxk Hb Hk') with (tol := tol) (zf := zf) (out := out) as (d & D); auto.
  { intros t Ht'. apply Nk. lia. }
  exists mb, mk, d. auto.
Qed.
End Proof.
