From Coq Require Import List Arith ZArith Lia Bool Ring QArith Permutation.
Import ListNotations.
From Verif Require Import Base Simd Cart Mdir Contract Offsets Starts Kernel HRRStep HRRAlgo HRROrder GenHRR HRRExec
  VRRStep VRRAlgo VRROrder VRRExec VRRExecSpec KernelSpec Layout Create PairData Recur Tables Driver Deriv DerivSpec OSFamily Work EndToEnd EndToEndProof
  DerivKernel.
Set Implicit Arguments.
Local Open Scope nat_scope.
Local Lemma some_inj A (x y : A) : Some x = Some y -> x = y.
Proof. congruence. Qed.

(** ** Plans *)
(** Every requested class has a top class of the same momentum. *)
Lemma top_of_request blf klf am hp x : plan_ok blf klf am hp -> In x am ->
  exists t, In t (hp_top hp) /\ qtotal (tq_am t) = qtotal (tq_am x).
Proof.
  intros HP Hx.
  assert (G : forall n t, mvc blf (brac t) + mvc klf (ketc t) <= n -> In t (hp_order hp) \/ In t (hp_top hp) ->
     exists u, In u (hp_top hp) /\ qtotal (tq_am u) = qtotal (tq_am t)).
  { induction n as [|n IH]; intros t Hn [Ht|Ht]; try (exists t; split; [exact Ht|reflexivity]).
    - destruct (pl_kind HP _ Ht) as [(_ & K & _)|(_ & _ & K & _)]; lia.
    - destruct (in_split _ _ Ht) as (l1 & l2 & El). pose proof (pl_before HP _ _ _ El) as [B1 B2].
      destruct (pl_kind HP _ Ht) as [(K1 & K2 & _)|(K1 & K0 & K2 & _)].
      + specialize (B1 K1). destruct B1 as [B1 _]. destruct (dsum_hreq klf (ketc t) K2) as [D1 D2].
        set (u := with_ket t (fst (hreq klf (ketc t)))) in *.
        assert (Ek : ketc u = fst (hreq klf (ketc t))) by (unfold u; generalize (hreq klf (ketc t)); intros [[? ?] ?]; reflexivity).
        assert (Eb : brac u = brac t) by reflexivity.
        destruct (IH u) as [v [Hv Ev]].
        * rewrite Ek, Eb. lia.
        * destruct B1 as [B1|B1]; [left; rewrite El; apply in_or_app; left; exact B1|right; exact B1].
        * exists v. split; [exact Hv|]. rewrite Ev, !tq_total, Ek, Eb. lia.
      + specialize (B2 K1). destruct B2 as [B2 _]. destruct (dsum_hreq blf (brac t) K2) as [D1 D2].
        set (u := with_bra t (fst (hreq blf (brac t)))) in *.
        assert (Ek : brac u = fst (hreq blf (brac t))) by (unfold u; generalize (hreq blf (brac t)); intros [[? ?] ?]; reflexivity).
        assert (Eb : ketc u = ketc t) by reflexivity.
        destruct (IH u) as [v [Hv Ev]].
        * rewrite Ek, Eb. lia.
        * destruct B2 as [B2|B2]; [left; rewrite El; apply in_or_app; left; exact B2|right; exact B2].
        * exists v. split; [exact Hv|]. rewrite Ev, !tq_total, Ek, Eb. lia. }
  apply (G _ x (le_n _)). apply (pl_requested HP). exact Hx.
Qed.
Lemma needed_total c x : In x (needed_am c) -> qtotal (tq_am x) <= S (qtotal c).
Proof.
  intros H. apply in_needed in H as [y [_ [->|[m [Em ->]]]]].
  - destruct c, y; unfold qtotal; cbn; lia.
  - apply alower_tot in Em. cbn [tq_am]. lia.
Qed.
Lemma needed_full c : exists x, In x (needed_am c) /\ qtotal (tq_am x) = S (qtotal c).
Proof.
  set (x := match missing_center c with CI => CJ | _ => CI end).
  exists (TQ (dtag x) (araise x c)). split.
  - apply needed_raised. unfold x. destruct (missing_center c); discriminate.
  - destruct c. unfold x. destruct (missing_center _); unfold qtotal; cbn; lia.
Qed.
Lemma dtop_small blf klf c hp t : plan_ok blf klf (needed_am c) hp -> In t (hp_top hp) ->
  qtotal (tq_am t) <= S (qtotal c) /\ pair_zero (tq_am t).
Proof.
  intros HP Ht. destruct (pl_bound HP t (or_intror Ht)) as [y (Y1 & Y2 & Y3 & Y4 & _)].
  destruct (pl_top HP t Ht) as (Z1 & Z2 & _). apply needed_total in Y1. split.
  - rewrite tq_total in *. lia.
  - unfold pair_zero, mvc, brac, ketc in *. cbn [fst snd] in *. destruct blf, klf; split; auto.
Qed.

Lemma place12 m : m < 12 -> exists x d, m = 3 * cidx x + idx_of_dir d.
Proof.
  intros H.
  exists (match m / 3 with 0 => CI | 1 => CJ | 2 => CK | _ => CL end), (match m mod 3 with 0 => DX | 1 => DY | _ => DZ end).
  do 12 (destruct m as [|m]; [reflexivity|]). lia.
Qed.

(** What the generator is run with. *)
Record dsetup_ok {R : cring} (g : @gen R) (c : qam) : Prop := {
  dg_enum : enum_ok (e_enum (g_E g)); dg_enumq : enum_ok (g_enumq g); dg_enumt : enum_ok (g_enumt g);
  dg_enumc : set_enum (e_enumc (g_E g)); dg_o : e_o (g_E g) = psi4;
  dg_fuel : S (qtotal c) < e_fuel (g_E g); dg_table : table_ok_for (g_E g) (needed_am c);
  dg_par : par_ok (g_P g); dg_po : p_o (g_P g) = psi4; dg_vfuel : S (qtotal c) < p_fuel (g_P g); dg_depth : 2 <= p_depth (g_P g);
  dg_vtable : S (qtotal c) < p_sg (g_P g) \/ S (qtotal c) <= 18; dg_max : amax c <= 18 }.

Section Proof.
Context {R : cring}.
Add Ring Rring_dkp : (cth R).
Variables (inv expf sqrtf : R -> R) (boys : nat -> R -> R) (half sqrt2pi52 : R).
Variables (g : @gen R) (c : qam).
Hypothesis Hg : dsetup_ok g c.
Local Notation o := (e_o (g_E g)).
Local Notation blf := (e_blf (g_E g)).
Local Notation klf := (e_klf (g_E g)).
Local Notation topsof hp := (g_enumt g (hp_top hp)).
Local Notation initof hp := (flat_map (fun t => qtargets o (tq_am t)) (g_enumt g (hp_top hp))).

Lemma dstarts : starts_x o.
Proof. rewrite (dg_o Hg). apply psi4_starts. Qed.
Lemma dfuel : fuel_ok blf klf (needed_am c) (e_fuel (g_E g)).
Proof.
  intros x Hx. apply needed_total in Hx. pose proof (dg_fuel Hg) as F. destruct x as [t [a b d e]]. unfold qtotal in *. unfold mvc, brac, ketc.
  cbn [tq_am am0 am1 am2 am3 fst snd] in *. destruct blf, klf; lia.
Qed.
Lemma din_init hp q : In q (initof hp) <-> exists t, In t (hp_top hp) /\ qclass q = tq_am t.
Proof.
  rewrite in_flat_map. split.
  - intros [t [Ht H]]. apply (dg_enumt Hg (hp_top hp)) in Ht. exists t. split; [exact Ht|]. apply in_qtargets in H; [exact H|apply dstarts].
  - intros [t [Ht H]]. exists t. split; [apply (dg_enumt Hg (hp_top hp)), Ht|]. apply in_qtargets; [apply dstarts|exact H].
Qed.
Lemma dwhole hp : whole_classes (initof hp).
Proof. intros q q' H E. apply din_init in H as [t [Ht H]]. apply din_init. exists t. split; [exact Ht|congruence]. Qed.

Record dboth (hp : hplan) (vp : vplan) : Prop := {
  db_plans : dplans g c = Some (hp, vp);
  db_hp : hrr_create (e_enum (g_E g)) (g_enumq g) o blf klf (e_fuel (g_E g)) (needed_am c) = Some hp;
  db_hok : plan_ok blf klf (needed_am c) hp;
  db_vp : vrr_create (p_enum (g_P g)) (p_enumq (g_P g)) (p_fuel (g_P g)) (idx_order (initof hp)) (initof hp) = Some vp;
  db_top : get_mreq (vp_steps vp) ssss = Some (S (qtotal c));
  db_modes : forall a, In a (vp_order vp) -> mode_ok (g_P g) a }.

Lemma dplans_ok : exists hp vp, dboth hp vp.
Proof.
  destruct (@hrr_create_ok (e_enum (g_E g)) (g_enumq g) o blf klf (e_fuel (g_E g)) (needed_am c) (dg_enum Hg) (dg_enumq Hg) dstarts
     ltac:(pose proof (dg_fuel Hg); lia) dfuel) as [hp [Ep HP]].
  assert (Hs : forall q, In q (initof hp) -> qtotal (qclass q) <= S (qtotal c) /\ pair_zero (qclass q)).
  { intros q H. apply din_init in H as [t [Ht E]]. rewrite E. apply (@dtop_small _ _ _ _ _ HP Ht). }
  destruct (@vrr_create_ok (p_enum (g_P g)) (p_enumq (g_P g)) (p_fuel (g_P g)) (idx_order (initof hp)) (initof hp)
     (po_enum (dg_par Hg)) (po_enumq (dg_par Hg)) (dwhole hp)) as [vp [Ev HV]].
  { intros q H. pose proof (dg_vfuel Hg). apply Hs in H. lia. }
  exists hp, vp. split; auto.
  - unfold dplans. cbv zeta. rewrite Ep. cbv zeta. rewrite Ev. reflexivity.
  - destruct (vo_ssss HV) as [m Em]. rewrite Em. f_equal.
    destruct (needed_full c) as [y [Hy Ey]].
    destruct (@top_of_request _ _ _ _ _ HP Hy) as [t [Ht Et]]. destruct (@qindex_surj o (tq_am t) 0 (qncart_pos _)) as [q [Eq _]].
    assert (Hq : In q (initof hp)) by (apply din_init; exists t; auto).
    pose proof (@ssss_order _ _ _ _ _ HV (idx_order_covers _) Em (dwhole hp) Hq) as L1.
    pose proof (@vo_mbound _ _ _ HV ssss m (S (qtotal c)) ltac:(intros q' H; apply Hs in H; lia) Em) as L2.
    change (qtotal ssss) with 0 in L2. rewrite Eq, Et, Ey in L1. lia.
  - intros a Ha. apply (vo_order HV) in Ha. destruct (known_below HV Ha) as [q [Hq L]]. apply Hs in Hq as [T Z].
    assert (L' : qtotal a <= S (qtotal c)).
    { pose proof (L CI). pose proof (L CJ). pose proof (L CK). pose proof (L CL). unfold qtotal in *. cbn [aget] in *. lia. }
    unfold mode_ok. destruct (emode_of _ _ _) eqn:Em; [exact I| |].
    + split; [|split; [pose proof (dg_vfuel Hg); lia|apply (dg_depth Hg)]].
      pose proof (L CI). pose proof (L CJ). pose proof (L CK). pose proof (L CL). cbn [aget] in *. unfold pair_zero in *. lia.
    + destruct (dg_vtable Hg) as [H|H].
      * exfalso. unfold emode_of in Em. destruct (_ <? _); [discriminate|]. destruct (Nat.ltb_spec (qtotal a) (p_sg (g_P g))); [discriminate|lia].
      * split; [apply (dg_po Hg)|]. intros x. unfold qtotal in *. destruct x; cbn [aget]; lia.
Qed.

Section Planned.
Variables (hp : hplan) (vp : vplan).
Hypothesis HB : dboth hp vp.
Local Notation tops := (topsof hp).
Local Notation kcoef := (kcoef inv half).
Local Notation kval := (kval inv sqrtf boys half).

Lemma dtops_in t : In t tops <-> In t (hp_top hp).
Proof. apply (dg_enumt Hg (hp_top hp)). Qed.

Lemma dvector_ok gP gQ ppf qpf : exists l, one_vector inv sqrtf boys half (g_P g) vp tops (S (qtotal c)) gP gQ ppf qpf = Some l /\
  length l = length (comps tops) /\
  forall n t q, nth_error (comps tops) n = Some (t, qindex o q) -> qclass q = tq_am t -> nth_error l n = Some (kval gP gQ ppf qpf q).
Proof.
  set (u := ssss_start inv sqrtf boys (gdat gP) (gdat gQ) ppf qpf).
  assert (Hf : forall q, In q (initof hp) -> qtotal (qclass q) < p_fuel (g_P g)).
  { intros q H. apply din_init in H as [t [Ht E]]. destruct (@dtop_small _ _ _ _ _ (db_hok HB) Ht) as (A & _). rewrite E.
    pose proof (dg_vfuel Hg). lia. }
  destruct (@vrr_code_correct R (g_P g) (idx_order (initof hp)) (initof hp) (dg_par Hg) (dwhole hp) (idx_order_covers _) Hf) as (p & m & Ep & Em & _ & HR).
  rewrite (db_vp HB) in Ep. apply some_inj in Ep. subst p. assert (m = S (qtotal c)) by (rewrite (db_top HB) in Em; congruence). subst m.
  unfold one_vector. fold u. unfold prim_arrays. rewrite Em, Nat.leb_refl.
  set (M := fun a => if qam_eq_dec a ssss then _ else _).
  destruct (HR (kcoef gP gQ) (os_value (kcoef gP gQ) u) M) as (M' & E' & V' & _).
  - apply os_value_family.
  - apply (db_modes HB).
  - intros a m' Ea. unfold M. destruct (qam_eq_dec a ssss) as [->|N].
    + rewrite Em in Ea. apply some_inj in Ea. subst m'. rewrite app_length, map_length, seq_length. change (qncart ssss) with 1. lia.
    + rewrite Ea, repeat_length. lia.
  - intros n Hn. unfold M. destruct (qam_eq_dec ssss ssss) as [_|N]; [|congruence].
    rewrite nth_error_app1 by (rewrite map_length, seq_length; lia). rewrite nth_error_map.
    rewrite (nth_error_nth' _ 0) by (rewrite seq_length; lia). rewrite seq_nth by lia. cbn [option_map Nat.add].
    apply f_equal, f_equal. symmetry. apply os_value_start.
  - unfold EndToEndProof.kcoef in E'. rewrite E'.
    assert (EO : p_o (g_P g) = o) by (rewrite (dg_po Hg), (dg_o Hg); reflexivity).
    destruct (@somes_all_ok R (map (fun x => match nth_error (M' (tq_am (fst x))) (snd x) with Some v => v | None => None end) (comps tops))
      (fun n => match nth_error (comps tops) n with
                | Some (t, k) => match nth_error (M' (tq_am t)) k with Some (Some v) => v | _ => c0 end | None => c0 end)) as (l & El & Ll & Vl).
    + intros n x Hx. rewrite nth_error_map in Hx. destruct (nth_error (comps tops) n) as [[t k]|] eqn:En; [|discriminate].
      cbn [option_map fst snd] in Hx. apply some_inj in Hx. subst x.
      assert (Hin : In (t, k) (comps tops)) by (apply nth_error_In with n; exact En).
      apply comps_in in Hin as [Ht Hk]. destruct (@qindex_surj o (tq_am t) k Hk) as [q [Eq Ek]].
      assert (Hq : In q (initof hp)) by (apply din_init; exists t; split; [apply dtops_in, Ht|exact Eq]).
      pose proof (V' q Hq) as V. rewrite EO, Eq, Ek in V. rewrite V. reflexivity.
    + exists l. split; [exact El|]. rewrite map_length in *. split; [exact Ll|]. intros n t q En Eq.
      assert (Hn : n < length (comps tops)) by (apply nth_error_Some; congruence).
      rewrite (Vl n Hn), En. assert (Hin : In (t, qindex o q) (comps tops)) by (apply nth_error_In with n; exact En).
      apply comps_in in Hin as [Ht Hk].
      assert (Hq : In q (initof hp)) by (apply din_init; exists t; split; [apply dtops_in, Ht|exact Eq]).
      pose proof (V' q Hq) as V. rewrite EO, Eq in V. rewrite V. reflexivity.
Qed.
Lemma dcomps_pos n t k : nth_error (comps tops) n = Some (t, k) -> In t (hp_top hp) /\ exists q, qclass q = tq_am t /\ qindex o q = k.
Proof.
  intros En. assert (Hin : In (t, k) (comps tops)) by (apply nth_error_In with n; exact En).
  apply comps_in in Hin as [Ht Hk]. split; [apply dtops_in, Ht|]. apply qindex_surj, Hk.
Qed.
Definition dvval gP gQ ppf qpf n : R := dflt n (one_vector inv sqrtf boys half (g_P g) vp tops (S (qtotal c)) gP gQ ppf qpf).
Lemma dvval_ok gP gQ ppf qpf n t q : nth_error (comps tops) n = Some (t, qindex o q) -> qclass q = tq_am t ->
  dvval gP gQ ppf qpf n = kval gP gQ ppf qpf q.
Proof.
  intros En Eq. unfold dvval. destruct (dvector_ok gP gQ ppf qpf) as (l & E & _ & V). rewrite E. cbn [dflt].
  specialize (V n t q En Eq). apply nth_error_nth. exact V.
Qed.
Lemma dvval_zero gP gQ ppf n : dvval gP gQ ppf c0 n = c0.
Proof.
  destruct (nth_error (comps tops) n) as [[t k]|] eqn:En.
  - destruct (dcomps_pos _ En) as [_ [q [Eq Ek]]]. subst k. rewrite (dvval_ok _ _ _ _ _ En Eq). apply kval_zero.
  - unfold dvval. destruct (dvector_ok gP gQ ppf c0) as (l & E & L & _). rewrite E. cbn [dflt]. apply nth_overflow.
    rewrite L. apply nth_error_None. exact En.
Qed.

(** *** One shell quartet *)
Lemma one_deriv_ok AB CD ps l : (forall p, In p ps -> os_family (pq_K p) (pq_W p) /\ exps_ok (pq_K p) (pq_e p)) ->
  family (at_dist (g_E g) AB CD) (contracted_sum ps) -> length l = length (comps tops) ->
  (forall n t q, nth_error (comps tops) n = Some (t, qindex o q) -> qclass q = tq_am t -> nth_error l n = Some (contracted_sum ps (tq_tag t) q)) ->
  exists l', one_deriv (g_E g) hp tops c AB CD l = Some l' /\ length l' = 12 * qncart c /\
    forall q x d, qclass q = c -> nth_error l' (12 * qindex psi4 q + (3 * cidx x + idx_of_dir d)) = Some (raise_lower (contracted_sum ps) x d q).
Proof.
  intros HI HF Ll Hl. set (V := contracted_sum ps) in *.
  destruct (@hrr_code_correct R (at_dist (g_E g) AB CD) (g_enumq g) (needed_am c) (dg_enum Hg) (dg_enumq Hg) (dg_enumc Hg) dstarts
     ltac:(pose proof (dg_fuel Hg); cbn; lia) dfuel (dg_table Hg)) as [p [Ep HR]].
  cbn [at_dist e_enum e_o e_blf e_klf e_fuel] in Ep. rewrite (db_hp HB) in Ep. apply some_inj in Ep. subst p.
  destruct (HR V (hrr_arrays tops l) HF) as (M' & E' & Post & _).
  { split.
    - intros u _. unfold hrr_arrays. rewrite map_length, seq_length. reflexivity.
    - intros t q Ht Eq. cbn [at_dist e_o]. unfold hrr_arrays. rewrite nth_error_map.
      pose proof (qindex_lt o q) as Lq. rewrite Eq in Lq.
      rewrite (nth_error_nth' _ 0) by (rewrite seq_length; exact Lq). rewrite seq_nth by exact Lq. cbn [option_map Nat.add]. f_equal.
      destruct (find_pos _ (comps tops)) as [n|] eqn:Ef.
      + apply find_pos_some in Ef as (y & En & Hy & _).
        destruct (tk_eq_dec y (t, qindex o q)) as [->|]; [|discriminate]. apply (Hl n t q En Eq).
      + exfalso. pose proof (find_pos_none _ _ Ef (t, qindex o q)) as Ef'. cbv beta in Ef'.
        destruct (tk_eq_dec (t, qindex o q) (t, qindex o q)); [|congruence].
        assert (true = false) by (apply Ef', comps_in; split; [apply dtops_in, Ht|exact Lq]). discriminate. }
  unfold one_deriv. rewrite E'.
  destruct (@form_deriv_ok R V M' c 0 (repeat None (12 * qncart c)) (dg_max Hg)) as (o' & Ef & Lf & Vf & _).
  { rewrite repeat_length. lia. }
  { intros t q Hin Hcl. rewrite <- (dg_o Hg). apply (Post t q Hin Hcl). }
  rewrite Ef. rewrite repeat_length in Lf.
  assert (DV : forall q x d, deriv_value V c q x d = raise_lower V x d q).
  { intros q x d. unfold deriv_value. destruct (ctr_eq_dec (missing_center c) x); [|reflexivity].
    apply free_is_formula, contracted_invariant. exact HI. }
  assert (Vn : forall n, n < 12 * qncart c -> exists q x d, qclass q = c /\ n = 12 * qindex psi4 q + (3 * cidx x + idx_of_dir d)).
  { intros n Hn. pose proof (Nat.div_mod n 12 ltac:(lia)) as D1. pose proof (Nat.mod_upper_bound n 12 ltac:(lia)) as D2.
    destruct (@qindex_surj psi4 c (n / 12)) as [q [Eq Ei]]; [apply Nat.div_lt_upper_bound; lia|].
    set (m := n mod 12) in *.
    destruct (place12 D2) as (x & d & Em).
    exists q, x, d. split; [exact Eq|]. rewrite Ei. lia. }
  destruct (@somes_all_ok R o' (fun n => match nth_error o' n with Some (Some v) => v | _ => c0 end)) as (l' & El & Ll' & Vl).
  - intros n x Hx.
    assert (Hn : n < 12 * qncart c) by (rewrite <- Lf; apply nth_error_Some; congruence).
    destruct (Vn n Hn) as (q & y & d & Eq & En). pose proof (Vf q y d Eq) as Vq. cbn [Nat.add Nat.mul] in Vq.
    rewrite Hx. rewrite En in Hx. cbn [Nat.add Nat.mul] in Hx. rewrite Vq in Hx. apply some_inj in Hx. subst x. reflexivity.
  - exists l'. split; [exact El|]. split; [congruence|]. intros q x d Eq.
    pose proof (Vf q x d Eq) as Vq. replace (12 * (0 * qncart c + qindex psi4 q)) with (12 * qindex psi4 q) in Vq by lia.
    pose proof (qindex_lt psi4 q) as Lq. rewrite Eq in Lq.
    rewrite Vl.
    + rewrite Vq, DV. reflexivity.
    + rewrite Lf. assert (3 * cidx x + idx_of_dir d < 12) by (destruct x, d; cbn; lia). lia.
Qed.
End Planned.

(** *** The kernel *)
Section Whole.
Variables (k : call_kind) (len nss : nat).
Hypothesis Hk : kind_len k len.
Hypothesis Hnss : 0 < nss.
Variables (bra ket : @pairs R) (mb mk : list (option dval)) (ob ok : nat -> list (nat * nat)) (nb nk : nat) (scrb scrk : nat -> Q) (mxb mxk : Q).
Hypothesis HP : block_ok len nss bra mb ob nb.
Hypothesis HK : block_ok len nss ket mk ok nk.
Hypothesis Hdb : ps_deriv bra = true.
Hypothesis Hdk : ps_deriv ket = true.
Hypothesis Hnp : forall t, t < nk -> 0 < sp_np (ps_pr ket t).
Hypothesis Hh : cmul two half = c1.
(** Exponents can be divided by. *)
Definition invertible (x : R) : Prop := cmul x (inv x) = c1.
Definition divisible (A B C D : @shell R) : Prop := forall i j k l, i < sh_n A -> j < sh_n B -> k < sh_n C -> l < sh_n D ->
  invertible (cadd (sh_alpha A i) (sh_alpha B j)) /\ invertible (cadd (sh_alpha C k) (sh_alpha D l)) /\
  invertible (cadd (cadd (sh_alpha A i) (sh_alpha B j)) (cadd (sh_alpha C k) (sh_alpha D l))).
Hypothesis Hinv : forall ab cd, ab < nb -> cd < nk -> divisible (ps_A bra ab) (ps_B bra ab) (ps_A ket cd) (ps_B ket cd).
Local Notation rdb := (rd inv expf sqrt2pi52 len nss).
Local Notation st S := (start len nss (fun t => sp_np (ps_pr S t))).
Local Notation BP := (batch_of bra nb scrb mxb).
Local Notation BK := (batch_of ket nk scrk mxk).
Local Notation kcoef := (kcoef inv half).
Local Notation kval := (kval inv sqrtf boys half).
Local Notation ord_len := (@ord_len R inv expf sqrtf boys sqrt2pi52 len nss).
Local Notation rd_geo := (@rd_geo R inv expf sqrtf boys sqrt2pi52 len nss).
Local Notation rd_weight := (@rd_weight R inv expf sqrtf boys sqrt2pi52 len nss).
Local Notation rd_dist := (@rd_dist R inv expf sqrtf boys sqrt2pi52 len nss).

Lemma dlen_pos : 0 < len.
Proof.
  clear scrb scrk mxb mxk Hnp HP HK Hdb Hdk Hinv Hh Hnss. apply (kind_len_pos k). exact Hk. Qed.
Lemma rd_exp (S : @pairs R) m ord clip t b i j a : block_ok len nss S m ord clip -> ps_deriv S = true -> (a = AAlpha2 \/ a = ABeta2) ->
  t < clip -> nth_error (ord t) b = Some (i, j) ->
  rdb S m a (st S t + b) = prim_value inv expf sqrt2pi52 (ps_same S t) (ps_A S t) (ps_B S t) a i j.
Proof.
  clear scrb scrk mxb mxk Hk Hnss Hnp HP HK Hdb Hdk Hinv Hh.
  intros H Hd Ha Ht Hb. pose proof (bo_clip H). unfold rd. change (fun t => sp_np (ps_pr S t)) with (npf (ps_pr S)).
  rewrite (ho_prim (bo_holds H) (a := a) (t := t) b (i := i) (j := j)); [reflexivity| |destruct Ha; subst a; discriminate|lia|exact Hb].
  destruct Ha; subst a; cbn [arr_ok]; exact Hd.
Qed.
Lemma prims_lt (S : @pairs R) m ord clip t b i j : block_ok len nss S m ord clip -> t < clip -> nth_error (ord t) b = Some (i, j) ->
  i < sh_n (ps_A S t) /\ j < sh_n (ps_B S t).
Proof.
  clear scrb scrk mxb mxk Hk Hnss Hnp HP HK Hdb Hdk Hinv Hh.
  intros H Ht Hb. pose proof (bo_clip H). apply nth_error_In in Hb.
  apply (Permutation_in _ (ho_perm (bo_holds H) (t := t) ltac:(lia))) in Hb. unfold sp_prims in Hb. apply in_flat_map in Hb as [u [Hu Hb]].
  apply in_map_iff in Hb as [w [E Hw]]. injection E as <- <-. apply in_seq in Hu, Hw. cbn [ps_pr sp_same sp_n1 sp_n2] in *.
  destruct (ps_same S t) eqn:Es; [|lia]. rewrite (bo_same H (t := t) ltac:(lia) Es). lia.
Qed.

(** Primitives left out: their prefactor replaced by zero. *)
Section Drop.
Variable drop : nat -> nat -> bool.
Variables (ab cd : nat).
Hypothesis Ha : ab < nb.
Hypothesis Hc : cd < nk.
Definition dqw (i j : nat) : R := if drop i j then c0 else rdb ket mk a_prefac j.
Definition dexp (i j : nat) (x : ctr) : R :=
  match x with CI => rdb bra mb AAlpha2 i | CJ => rdb bra mb ABeta2 i | CK => rdb ket mk AAlpha2 j | CL => rdb ket mk ABeta2 j end.
Definition dlist : list (@pquart R) :=
  flat_map (fun a => map (fun b =>
       let i := st bra ab + a in let j := st ket cd + b in
       let gP := geo (fun x => rdb bra mb x i) in let gQ := geo (fun x => rdb ket mk x j) in
       PQ (kcoef gP gQ) (os_value (kcoef gP gQ) (ssss_start inv sqrtf boys (gdat gP) (gdat gQ) (rdb bra mb a_prefac i) (dqw i j))) (dexp i j))
      (seq 0 (sp_np (ps_pr ket cd)))) (seq 0 (sp_np (ps_pr bra ab))).
Definition dkept (t : nat) (q : qrt) : R :=
  rsum (map (fun a => rsum (map (fun b =>
      let i := st bra ab + a in let j := st ket cd + b in
      if drop i j then c0 else
      cfac (fun a => rdb bra mb a i) (fun a => rdb ket mk a j) t
       (kval (geo (fun x => rdb bra mb x i)) (geo (fun x => rdb ket mk x j)) (rdb bra mb a_prefac i) (rdb ket mk a_prefac j) q))
    (seq 0 (sp_np (ps_pr ket cd))))) (seq 0 (sp_np (ps_pr bra ab)))).
Lemma cfac_factor (i j t : nat) K W v : cfac (fun a => rdb bra mb a i) (fun a => rdb ket mk a j) t v = cmul (tag_factor (PQ K W (dexp i j)) t) v.
Proof. destruct t as [|[|[|[|[|t]]]]]; cbn [cfac tag_factor pq_e dexp]; ring. Qed.
Lemma dkept_contracted t q : contracted_sum dlist t q = dkept t q.
Proof.
  clear scrb scrk mxb mxk Hk Hnss Hnp HP HK Hdb Hdk Hinv Hh.
  unfold contracted_sum, dlist, dkept. rewrite rsum_flat_map. apply rsum_map_ext. intros a _. rewrite map_map. apply rsum_map_ext. intros b _.
  cbv zeta. cbn [pq_W]. unfold dqw. destruct (drop _ _).
  - fold (kval (geo (fun x => rdb bra mb x (st bra ab + a))) (geo (fun x => rdb ket mk x (st ket cd + b))) (rdb bra mb a_prefac (st bra ab + a)) c0 q).
    rewrite kval_zero. ring.
  - erewrite cfac_factor. unfold kval. reflexivity.
Qed.
Lemma dlist_nth p : In p dlist -> exists a b i j i' j', nth_error (ob ab) a = Some (i, j) /\ nth_error (ok cd) b = Some (i', j') /\
  p = let i := st bra ab + a in let j := st ket cd + b in
       let gP := geo (fun x => rdb bra mb x i) in let gQ := geo (fun x => rdb ket mk x j) in
       PQ (kcoef gP gQ) (os_value (kcoef gP gQ) (ssss_start inv sqrtf boys (gdat gP) (gdat gQ) (rdb bra mb a_prefac i) (dqw i j))) (dexp i j).
Proof.
  clear scrb scrk mxb mxk Hk Hnss Hnp.
  intros Hp. apply in_flat_map in Hp as [a [Ia Hp]]. apply in_map_iff in Hp as [b [<- Ib]]. apply in_seq in Ia, Ib.
  destruct (nth_error (ob ab) a) as [[i j]|] eqn:Ea; [|apply nth_error_None in Ea; rewrite (ord_len HP Ha) in Ea; lia].
  destruct (nth_error (ok cd) b) as [[i' j']|] eqn:Eb; [|apply nth_error_None in Eb; rewrite (ord_len HK Hc) in Eb; lia].
  exists a, b, i, j, i', j'. auto.
Qed.
Lemma dlist_family :
  family (at_dist (g_E g) (fun d => rdb bra mb (ADist (idx_of_dir d)) ab) (fun d => rdb ket mk (ADist (idx_of_dir d)) cd)) (contracted_sum dlist).
Proof.
  clear scrb scrk mxb mxk Hk Hnss Hnp.
  apply contracted_family. intros p Hp. apply dlist_nth in Hp as (a & b & i & j & i' & j' & Ea & Eb & ->).
  cbv zeta. cbn [pq_K pq_W]. split; [apply os_value_family|].
  rewrite (@rd_geo bra mb ob nb ab a i j HP Ha Ea), (@rd_geo ket mk ok nk cd b i' j' HK Hc Eb).
  intros d. cbn [pq_K at_dist e_AB e_CD]. rewrite (@rd_dist bra mb ob nb ab d HP Ha), (@rd_dist ket mk ok nk cd d HK Hc).
  unfold EndToEndProof.kcoef, kernel_coefs. cbn [k_PA].
  destruct d; unfold gdat, geometry; cbn [pd_PA pd_PB seq map nth idx_of_dir Nat.add prim_value Nat.ltb Nat.leb Nat.sub]; split; ring.
Qed.
Lemma dlist_ok p : In p dlist -> os_family (pq_K p) (pq_W p) /\ exps_ok (pq_K p) (pq_e p).
Proof.
  clear scrb scrk mxb mxk Hk Hnss Hnp.
  intros Hp. apply dlist_nth in Hp as (a & b & i & j & i' & j' & Ea & Eb & ->).
  cbv zeta. cbn [pq_K pq_W pq_e]. split; [apply os_value_family|].
  pose proof (bo_clip HP). pose proof (bo_clip HK).
  destruct (@prims_lt bra mb ob nb ab a i j HP Ha Ea) as [L1 L2]. destruct (@prims_lt ket mk ok nk cd b i' j' HK Hc Eb) as [L3 L4].
  destruct (Hinv Ha Hc L1 L2 L3 L4) as (I1 & I2 & I3).
  destruct (@stored_meets R inv expf half sqrt2pi52 (ps_same bra ab) (ps_same ket cd) (ps_A bra ab) (ps_B bra ab) (ps_A ket cd) (ps_B ket cd)
     i j i' j' (fun _ _ => c0)) as [(E1 & E2 & E3 & E4 & E5 & E6 & E7) _]; try assumption.
  { intros E. apply (bo_same HP); [lia|exact E]. }
  { intros E. apply (bo_same HK); [lia|exact E]. }
  rewrite (@rd_geo bra mb ob nb ab a i j HP Ha Ea), (@rd_geo ket mk ok nk cd b i' j' HK Hc Eb).
  unfold exps_ok, dexp.
  rewrite (@rd_exp bra mb ob nb ab a i j AAlpha2 HP Hdb (or_introl eq_refl) Ha Ea), (@rd_exp bra mb ob nb ab a i j ABeta2 HP Hdb (or_intror eq_refl) Ha Ea).
  rewrite (@rd_exp ket mk ok nk cd b i' j' AAlpha2 HK Hdk (or_introl eq_refl) Hc Eb), (@rd_exp ket mk ok nk cd b i' j' ABeta2 HK Hdk (or_intror eq_refl) Hc Eb).
  split; [intros d; specialize (E1 d); destruct d; exact E1|].
  split; [intros d; specialize (E2 d); destruct d; exact E2|].
  split; [intros d; specialize (E3 d); destruct d; exact E3|].
  split; [exact E4|]. split; [exact E5|]. split; [exact E6|exact E7].
Qed.

(** The sum over the stored primitives that were not left out, in terms of the shells. *)
Definition dkeep_at (i j k l : nat) : bool := negb (drop (st bra ab + place (ob ab) (i, j)) (st ket cd + place (ok cd) (k, l))).
Lemma dkept_terms x d q : raise_lower (contracted_sum dlist) x d q =
  stored_dterms inv expf sqrtf boys half sqrt2pi52 (ps_same bra ab) (ps_same ket cd) (ps_A bra ab) (ps_B bra ab) (ps_A ket cd) (ps_B ket cd) dkeep_at x d q.
Proof.
  clear scrb scrk mxb mxk Hk Hnss Hnp Hinv Hh.
  pose proof (bo_clip HP). pose proof (bo_clip HK).
  rewrite raise_lower_sum. unfold dlist. rewrite rsum_flat_map.
  unfold stored_dterms. change (SP (sh_n (ps_A bra ab)) (sh_n (ps_B bra ab)) (ps_same bra ab)) with (ps_pr bra ab).
  change (SP (sh_n (ps_A ket cd)) (sh_n (ps_B ket cd)) (ps_same ket cd)) with (ps_pr ket cd).
  rewrite <- (rsum_perm (Permutation_map _ (ho_perm (bo_holds HP) (t := ab) ltac:(lia)))).
  rewrite <- (ord_len HP Ha), <- (ord_len HK Hc). apply (rsum_nth (ob ab)). intros a [i j] Ea. rewrite map_map.
  rewrite <- (rsum_perm (Permutation_map _ (ho_perm (bo_holds HK) (t := cd) ltac:(lia)))).
  apply (rsum_nth (ok cd)). intros b [k' l] Eb. cbv zeta. cbn [fst snd pq_W pq_e]. unfold dkeep_at.
  rewrite (@place_nth (ob ab) a (i, j)), (@place_nth (ok cd) b (k', l)); try assumption.
  2:{ apply (Permutation_NoDup (Permutation_sym (ho_perm (bo_holds HK) (t := cd) ltac:(lia)))). apply prims_nodup. }
  2:{ apply (Permutation_NoDup (Permutation_sym (ho_perm (bo_holds HP) (t := ab) ltac:(lia)))). apply prims_nodup. }
  unfold lowered, dqw.
  set (gP := geo (fun x => rdb bra mb x (st bra ab + a))). set (gQ := geo (fun x => rdb ket mk x (st ket cd + b))).
  destruct (drop _ _); cbn [negb].
  { clearbody gP gQ. assert (Z : forall q, os_value (kcoef gP gQ) (ssss_start inv sqrtf boys (gdat gP) (gdat gQ) (rdb bra mb a_prefac (st bra ab + a)) c0) 0 q = c0)
      by (intros q'; exact (@kval_zero R inv sqrtf boys half gP gQ (rdb bra mb a_prefac (st bra ab + a)) q')).
    rewrite Z. destruct (clower x d q); [rewrite Z|]; ring. }
  assert (W : forall q, os_value (kcoef gP gQ) (ssss_start inv sqrtf boys (gdat gP) (gdat gQ) (rdb bra mb a_prefac (st bra ab + a)) (rdb ket mk a_prefac (st ket cd + b))) 0 q
    = cmul (cmul (mult (ps_same bra ab) i j) (mult (ps_same ket cd) k' l))
       (cmul (cmul (cmul (cmul (sh_coef (ps_A bra ab) i) (sh_coef (ps_B bra ab) j)) (sh_coef (ps_A ket cd) k')) (sh_coef (ps_B ket cd) l))
        (prim_eri inv expf sqrtf boys half sqrt2pi52 (prim (ps_A bra ab) i) (prim (ps_B bra ab) j) (prim (ps_A ket cd) k') (prim (ps_B ket cd) l) q))).
  { intros q'. change (os_value (kcoef gP gQ) (ssss_start inv sqrtf boys (gdat gP) (gdat gQ) (rdb bra mb a_prefac (st bra ab + a)) (rdb ket mk a_prefac (st ket cd + b))) 0 q')
      with (kval gP gQ (rdb bra mb a_prefac (st bra ab + a)) (rdb ket mk a_prefac (st ket cd + b)) q').
    unfold gP, gQ.
    rewrite (@rd_geo bra mb ob nb ab a i j HP Ha Ea), (@rd_geo ket mk ok nk cd b k' l HK Hc Eb).
    rewrite (@rd_weight bra mb ob nb ab a i j HP Ha Ea), (@rd_weight ket mk ok nk cd b k' l HK Hc Eb).
    assert (Sm : forall S m ord n t i j, block_ok len nss S m ord n -> t < n ->
       geometry inv expf sqrt2pi52 (ps_same S t) (ps_A S t) (ps_B S t) i j = geometry inv expf sqrt2pi52 false (ps_A S t) (ps_B S t) i j /\
       weight inv expf sqrt2pi52 (ps_same S t) (ps_A S t) (ps_B S t) i j = cmul (mult (ps_same S t) i j) (weight inv expf sqrt2pi52 false (ps_A S t) (ps_B S t) i j)).
    { intros S m ord n t i' j' HS Ht. pose proof (bo_clip HS). unfold mult. destruct (ps_same S t) eqn:E; cbn [andb].
      - rewrite (bo_same HS (t := t) ltac:(lia) E). rewrite geometry_same, weight_same. split; [reflexivity|].
        destruct (i' =? j'); cbn [negb]; unfold two; ring.
      - split; [reflexivity|ring]. }
    destruct (Sm bra mb ob nb ab i j HP Ha) as [-> ->]. destruct (Sm ket mk ok nk cd k' l HK Hc) as [-> ->].
    rewrite kval_weights.
    transitivity (cmul (cmul (mult (ps_same bra ab) i j) (mult (ps_same ket cd) k' l))
      (cmul (weight inv expf sqrt2pi52 false (ps_A bra ab) (ps_B bra ab) i j) (cmul (weight inv expf sqrt2pi52 false (ps_A ket cd) (ps_B ket cd) k' l)
      (kunit inv sqrtf boys half (geometry inv expf sqrt2pi52 false (ps_A bra ab) (ps_B bra ab) i j) (geometry inv expf sqrt2pi52 false (ps_A ket cd) (ps_B ket cd) k' l) q')))); [ring|].
    rewrite prim_match. reflexivity. }
  rewrite W.
  assert (Ex : dexp (st bra ab + a) (st ket cd + b) x =
     pick (stored_exp (ps_same bra ab) (ps_A bra ab) (ps_B bra ab) i j true) (stored_exp (ps_same bra ab) (ps_A bra ab) (ps_B bra ab) i j false)
          (stored_exp (ps_same ket cd) (ps_A ket cd) (ps_B ket cd) k' l true) (stored_exp (ps_same ket cd) (ps_A ket cd) (ps_B ket cd) k' l false) x).
  { destruct x; cbn [dexp pick].
    - rewrite (@rd_exp bra mb ob nb ab a i j AAlpha2 HP Hdb (or_introl eq_refl) Ha Ea). reflexivity.
    - rewrite (@rd_exp bra mb ob nb ab a i j ABeta2 HP Hdb (or_intror eq_refl) Ha Ea). reflexivity.
    - rewrite (@rd_exp ket mk ok nk cd b k' l AAlpha2 HK Hdk (or_introl eq_refl) Hc Eb). reflexivity.
    - rewrite (@rd_exp ket mk ok nk cd b k' l ABeta2 HK Hdk (or_intror eq_refl) Hc Eb). reflexivity. }
  rewrite Ex. unfold stored_dterm, prim_deriv, minus_lowered. destruct (clower x d q) as [q'|]; [rewrite W|]; ring.
Qed.
End Drop.

(** The kernel with a tolerance. *)
Theorem deriv_kept tol zf out : bra_aligned len nss BP -> nb * nk * (12 * qncart c) <= length out ->
  exists r, whole_deriv inv expf sqrtf boys half sqrt2pi52 g c k len nss bra ket mb mk BP BK tol zf out = Some (r, nb * nk) /\
    length r = length out /\
    (forall ab cd q x d, ab < nb -> cd < nk -> qclass q = c ->
       nth_error r (12 * ((ab * nk + cd) * qncart c + qindex psi4 q) + (3 * cidx x + idx_of_dir d)) =
       Some (raise_lower (contracted_sum (dlist (dropped len BP BK tol zf) ab cd)) x d q)) /\
    (forall i, nb * nk * (12 * qncart c) <= i -> nth_error r i = nth_error out i).
Proof.
  intros Hal Hout. destruct dplans_ok as (hp & vp & HB).
  unfold whole_deriv. rewrite (db_plans HB). cbv zeta.
  set (tops := g_enumt g (hp_top hp)). set (nc := length (comps tops)). set (drop := dropped len BP BK tol zf).
  assert (Hst : forall ab, ab < nb -> total (b_np BP) ab = st bra ab).
  { intros ab Hab. apply (proj2 (@bra_start_iff len nss dlen_pos Hnss (b_np BP) (b_clip BP)) Hal ab Hab). }
  assert (Hnc : 0 < nc).
  { destruct (needed_full c) as [y [Hy _]]. destruct (@top_of_request _ _ _ _ _ (db_hok HB) Hy) as [t [Hin _]]. unfold nc. destruct (comps tops) as [|x l] eqn:E; [|cbn; lia]. exfalso.
    assert (In (t, 0) (comps tops)) as K by (apply comps_in; split; [apply dtops_in, Hin|apply qncart_pos]). rewrite E in K. destruct K. }
  match goal with |- context [kernel_hrr _ _ _ _ _ _ ?v _ _ _ _ ?h _] => set (val := v); set (hrr := h) end.
  assert (Hv : forall i j pf n, val i j pf n = cfac (fun a => rdb bra mb a i) (fun a => rdb ket mk a j) (tag_at tops n)
     (dvval hp vp (geo (fun a => rdb bra mb a i)) (geo (fun a => rdb ket mk a j)) (rdb bra mb a_prefac i) pf n)) by reflexivity.
  assert (Hz : forall i j n, val i j c0 n = c0).
  { intros i j n. rewrite Hv, (@dvval_zero hp vp HB), (@cfac_factor i j _ (kcoef [] []) (fun _ _ => c0)). ring. }
  assert (Hs : forall ab cd n t q, ab < nb -> nth_error (comps tops) n = Some (t, qindex o q) -> qclass q = tq_am t ->
     quartet_sum (rdb ket mk a_prefac) val drop (total (b_np BP) ab) (b_np BP ab) (start len nss (b_np BK) cd) (b_np BK cd) n = dkept drop ab cd (tq_tag t) q).
  { intros ab cd n t q Hab En Eq. rewrite (Hst ab Hab). unfold quartet_sum, dkept. cbn [batch_of b_np].
    apply rsum_map_ext. intros a _. apply rsum_map_ext. intros b _. cbv zeta. destruct (drop _ _); [reflexivity|].
    rewrite Hv. unfold tag_at. rewrite En. f_equal. apply (dvval_ok HB _ _ _ _ _ En Eq). }
  assert (Hhr : forall ab cd f f' n, (forall c, c < nc -> f c = f' c) -> hrr ab cd f n = hrr ab cd f' n).
  { intros ab cd f f' n Hf. unfold hrr. do 2 f_equal. apply map_ext_in. intros x Hx. apply in_seq in Hx. apply Hf. lia. }
  destruct (@kernel_hrr_ok R len nss nc BP BK (rdb ket mk a_prefac) val tol zf (call_of k len nc) (12 * qncart c) hrr dlen_pos Hnss Hnc Hz
     (@call_of_ok R k len nc Hk) Hnp Hhr out Hout) as (r & E & L & V & O).
  exists r. split; [exact E|]. split; [exact L|]. split; [|exact O].
  intros ab cd q x d Ha Hc Eq. pose proof (qindex_lt psi4 q) as Lq. rewrite Eq in Lq.
  assert (Lx : 3 * cidx x + idx_of_dir d < 12) by (destruct x, d; cbn; lia).
  change (b_clip BK) with nk in V.
  replace (12 * ((ab * nk + cd) * qncart c + qindex psi4 q) + (3 * cidx x + idx_of_dir d))
    with ((ab * nk + cd) * (12 * qncart c) + (12 * qindex psi4 q + (3 * cidx x + idx_of_dir d))) by lia.
  rewrite (V ab cd _ Ha Hc) by lia. f_equal.
  unfold want_hrr.
  set (F := quartet_sum (rdb ket mk a_prefac) val drop (total (b_np BP) ab) (b_np BP ab) (start len nss (b_np BK) cd) (b_np BK cd)).
  rewrite (Hhr ab cd _ F) by (intros c' Hc'; rewrite (proj2 (Nat.ltb_lt _ _) Hc'); reflexivity).
  unfold hrr.
  destruct (@one_deriv_ok hp vp HB (fun d => rdb bra mb (ADist (idx_of_dir d)) ab) (fun d => rdb ket mk (ADist (idx_of_dir d)) cd) (dlist drop ab cd) (map F (seq 0 nc)))
    as (l' & El & Ll & Vl).
  - intros p Hp. apply (@dlist_ok drop ab cd Ha Hc p Hp).
  - apply (@dlist_family drop ab cd Ha Hc).
  - rewrite map_length, seq_length. reflexivity.
  - intros n t q' En Eq'.
    assert (Hn : n < nc) by (apply nth_error_Some; unfold tops; congruence).
    rewrite nth_error_map, (nth_error_nth' _ 0) by (rewrite seq_length; exact Hn). rewrite seq_nth by exact Hn. cbn [option_map Nat.add].
    f_equal. unfold F. rewrite (Hs ab cd n t q' Ha En Eq'). symmetry. apply dkept_contracted.
  - unfold tops. rewrite El. cbn [dflt]. apply nth_error_nth. apply (Vl q x d Eq).
Qed.
(** The work of a vector and of a shell quartet is always defined: the defaults of the model never matter. *)
Theorem deriv_defined : exists hp vp, dplans g c = Some (hp, vp) /\
  (forall gP gQ ppf qpf, exists l, one_vector inv sqrtf boys half (g_P g) vp (g_enumt g (hp_top hp)) (S (qtotal c)) gP gQ ppf qpf = Some l /\
     length l = length (comps (g_enumt g (hp_top hp)))) /\
  (forall drop ab cd, ab < nb -> cd < nk -> exists l,
     one_deriv (g_E g) hp (g_enumt g (hp_top hp)) c (fun d => rdb bra mb (ADist (idx_of_dir d)) ab) (fun d => rdb ket mk (ADist (idx_of_dir d)) cd)
       (map (quartet_sum (rdb ket mk a_prefac)
              (fun i j pf n => cfac (fun a => rdb bra mb a i) (fun a => rdb ket mk a j) (tag_at (g_enumt g (hp_top hp)) n)
                 (dvval hp vp (geo (fun a => rdb bra mb a i)) (geo (fun a => rdb ket mk a j)) (rdb bra mb a_prefac i) pf n))
              drop (st bra ab) (sp_np (ps_pr bra ab)) (st ket cd) (sp_np (ps_pr ket cd)))
          (seq 0 (length (comps (g_enumt g (hp_top hp)))))) = Some l /\ length l = 12 * qncart c).
Proof.
  clear scrb scrk mxb mxk Hnp Hk Hnss.
  destruct dplans_ok as (hp & vp & HB). exists hp, vp. split; [apply (db_plans HB)|]. split.
  - intros gP gQ ppf qpf. destruct (dvector_ok HB gP gQ ppf qpf) as (l & E & L & _). exists l. auto.
  - intros drop ab cd Ha Hc. set (tops := g_enumt g (hp_top hp)).
    set (F := quartet_sum _ _ _ _ _ _ _).
    destruct (@one_deriv_ok hp vp HB (fun d => rdb bra mb (ADist (idx_of_dir d)) ab) (fun d => rdb ket mk (ADist (idx_of_dir d)) cd) (dlist drop ab cd)
       (map F (seq 0 (length (comps tops))))) as (l' & El & Ll & _).
    + intros p Hp. apply (@dlist_ok drop ab cd Ha Hc p Hp).
    + apply (@dlist_family drop ab cd Ha Hc).
    + rewrite map_length, seq_length. reflexivity.
    + intros n t q' En Eq'.
      assert (Hn : n < length (comps tops)) by (apply nth_error_Some; unfold tops; congruence).
      rewrite nth_error_map, (nth_error_nth' _ 0) by (rewrite seq_length; exact Hn). rewrite seq_nth by exact Hn. cbn [option_map Nat.add].
      f_equal. rewrite dkept_contracted. unfold F, quartet_sum, dkept.
      apply rsum_map_ext. intros a _. apply rsum_map_ext. intros b _. cbv zeta. destruct (drop _ _); [reflexivity|].
      unfold tag_at. fold tops in En. rewrite En. f_equal. apply (dvval_ok HB _ _ _ _ _ En Eq').
    + exists l'. auto.
Qed.
End Whole.

(** *** Stored primitives and all primitives *)
Lemma unpack (same : bool) n1 n2 (F F' : nat -> nat -> R) : (same = true -> n2 = n1) ->
  (forall i j, same = false \/ i = j -> F' i j = F i j) -> (forall i j, same = true -> i <> j -> F' i j = cadd (F i j) (F j i)) ->
  rsum (map (fun ij => F' (fst ij) (snd ij)) (sp_prims (SP n1 n2 same))) = rsum (map (fun i => rsum (map (F i) (seq 0 n2))) (seq 0 n1)).
Proof.
  intros Hn H1 H2. rewrite <- (@grid_sum R F n1 n2). destruct same.
  - rewrite (Hn eq_refl). rewrite packed_lower.
    transitivity (rsum (map (fun ij => F (fst ij) (snd ij)) (all_pairs n1))).
    + rewrite (fold_lower inv expf sqrt2pi52). apply rsum_map_ext. intros [i j] _. cbn [fst snd]. destruct (Nat.eqb_spec i j) as [E|E]; [apply H1; auto|apply H2; auto].
    + reflexivity.
  - apply rsum_map_ext. intros [i j] _. apply H1. auto.
Qed.
Section Unpack.
Local Notation peri := (prim_eri inv expf sqrtf boys half sqrt2pi52).
Local Notation pder := (prim_deriv inv expf sqrtf boys half sqrt2pi52).
Definition cprim (A B C D : @shell R) i j k l (q : qrt) : R :=
  cmul (cmul (cmul (cmul (sh_coef A i) (sh_coef B j)) (sh_coef C k)) (sh_coef D l)) (peri (prim A i) (prim B j) (prim C k) (prim D l) q).
Lemma cprim_bra A C D i j k l q : cprim A A C D i j k l q = cprim A A C D j i k l q.
Proof. unfold cprim. rewrite <- !prim_match. rewrite (weight_sym inv expf sqrt2pi52 A i j), (geometry_sym inv expf sqrt2pi52 A i j). reflexivity. Qed.
Lemma cprim_ket A B C i j k l q : cprim A B C C i j k l q = cprim A B C C i j l k q.
Proof. unfold cprim. rewrite <- !prim_match. rewrite (weight_sym inv expf sqrt2pi52 C k l), (geometry_sym inv expf sqrt2pi52 C k l). reflexivity. Qed.
Definition cder (e : R) (A B C D : @shell R) i j k l (x : ctr) (d : dir) (q : qrt) : R :=
  csub (cmul e (cprim A B C D i j k l (craise x d q))) (minus_lowered (cprim A B C D i j k l) x d q).
Lemma cder_ok e A B C D i j k l x d q :
  cmul (cmul (cmul (cmul (sh_coef A i) (sh_coef B j)) (sh_coef C k)) (sh_coef D l)) (pder e (prim A i) (prim B j) (prim C k) (prim D l) x d q) =
  cder e A B C D i j k l x d q.
Proof. unfold prim_deriv, cder, minus_lowered, cprim. destruct (clower x d q); ring. Qed.
Lemma cder_bra e e' A C D i j k l x d q : cadd (cder e A A C D i j k l x d q) (cder e' A A C D j i k l x d q) =
  csub (cmul (cadd e e') (cprim A A C D i j k l (craise x d q))) (cmul two (minus_lowered (cprim A A C D i j k l) x d q)).
Proof. unfold cder, minus_lowered, two. destruct (clower x d q); rewrite !(cprim_bra A C D j i); ring. Qed.
Lemma cder_ket e e' A B C i j k l x d q : cadd (cder e A B C C i j k l x d q) (cder e' A B C C i j l k x d q) =
  csub (cmul (cadd e e') (cprim A B C C i j k l (craise x d q))) (cmul two (minus_lowered (cprim A B C C i j k l) x d q)).
Proof. unfold cder, minus_lowered, two. destruct (clower x d q); rewrite !(cprim_ket A B C i j l k); ring. Qed.

Theorem stored_dall sb sk (A B C D : @shell R) x d q : (sb = true -> B = A) -> (sk = true -> D = C) ->
  stored_dterms inv expf sqrtf boys half sqrt2pi52 sb sk A B C D (fun _ _ _ _ => true) x d q =
  eri_deriv inv expf sqrtf boys half sqrt2pi52 A B C D x d q.
Proof.
  intros Hb Hk. unfold stored_dterms.
  set (ex := fun (s s' : bool) i j k l => pick (stored_exp s A B i j true) (stored_exp s A B i j false) (stored_exp s' C D k l true) (stored_exp s' C D k l false) x).
  assert (KK : forall i j, rsum (map (fun kl => stored_dterm inv expf sqrtf boys half sqrt2pi52 sb sk A B C D i j (fst kl) (snd kl) x d q) (sp_prims (SP (sh_n C) (sh_n D) sk))) =
     cmul (mult sb i j) (rsum (map (fun k => rsum (map (fun l => cder (ex sb false i j k l) A B C D i j k l x d q) (seq 0 (sh_n D)))) (seq 0 (sh_n C))))).
  { intros i j. rewrite <- (@unpack sk (sh_n C) (sh_n D) (fun k l => cder (ex sb false i j k l) A B C D i j k l x d q)
       (fun k l => cmul (mult sk k l) (cder (ex sb sk i j k l) A B C D i j k l x d q))).
    - rewrite <- rsum_map_scale. apply rsum_map_ext. intros [k l] _. cbn [fst snd]. unfold stored_dterm. rewrite cder_ok. unfold ex. ring.
    - intros E. rewrite (Hk E). reflexivity.
    - intros k l H. assert (E : sk && negb (k =? l) = false) by (destruct H as [->| ->]; [reflexivity|rewrite Nat.eqb_refl; apply andb_false_r]).
      unfold mult, ex, stored_exp. rewrite E. cbn [andb]. ring.
    - intros k l E N. unfold ex. rewrite (Hk E). rewrite cder_ket. unfold mult. rewrite E. rewrite (proj2 (Nat.eqb_neq k l) N). cbn [negb andb].
      unfold cder, ex, stored_exp. rewrite (proj2 (Nat.eqb_neq k l) N). rewrite ?E. cbn [negb andb]. unfold two. destruct x; cbn [pick]; ring. }
  transitivity (rsum (map (fun ij => cmul (mult sb (fst ij) (snd ij)) (rsum (map (fun k => rsum (map (fun l =>
     cder (ex sb false (fst ij) (snd ij) k l) A B C D (fst ij) (snd ij) k l x d q) (seq 0 (sh_n D)))) (seq 0 (sh_n C))))) (sp_prims (SP (sh_n A) (sh_n B) sb)))).
  { apply rsum_map_ext. intros [i j] _. cbn [fst snd]. apply KK. }
  rewrite (@unpack sb (sh_n A) (sh_n B) (fun i j => rsum (map (fun k => rsum (map (fun l => cder (ex false false i j k l) A B C D i j k l x d q) (seq 0 (sh_n D)))) (seq 0 (sh_n C))))
     (fun i j => cmul (mult sb i j) (rsum (map (fun k => rsum (map (fun l => cder (ex sb false i j k l) A B C D i j k l x d q) (seq 0 (sh_n D)))) (seq 0 (sh_n C)))))).
  - unfold eri_deriv, over. apply rsum_map_ext. intros i _. apply rsum_map_ext. intros j _. apply rsum_map_ext. intros k _. apply rsum_map_ext. intros l _.
    rewrite cder_ok. f_equal. unfold ex, stored_exp, prim. cbn [andb g_exp]. destruct x; reflexivity.
  - intros E. rewrite (Hb E). reflexivity.
  - intros i j H. assert (E : sb && negb (i =? j) = false) by (destruct H as [->| ->]; [reflexivity|rewrite Nat.eqb_refl; apply andb_false_r]).
    unfold mult, ex, stored_exp. rewrite E. cbn [andb]. ring.
  - intros i j E N. rewrite <- rsum_map_add, <- rsum_map_scale. apply rsum_map_ext. intros k _. rewrite <- rsum_map_add, <- rsum_map_scale. apply rsum_map_ext. intros l _.
    unfold ex. rewrite (Hb E). rewrite cder_bra. unfold mult. rewrite E. rewrite (proj2 (Nat.eqb_neq i j) N). cbn [negb andb].
    unfold cder, ex, stored_exp. rewrite (proj2 (Nat.eqb_neq i j) N). rewrite ?E. cbn [negb andb]. unfold two. destruct x; cbn [pick]; ring.
Qed.
(** Kept and missing terms together are the derivative. *)
Theorem stored_dsplit sb sk (A B C D : @shell R) keep x d q : (sb = true -> B = A) -> (sk = true -> D = C) ->
  cadd (stored_dterms inv expf sqrtf boys half sqrt2pi52 sb sk A B C D keep x d q)
       (stored_dterms inv expf sqrtf boys half sqrt2pi52 sb sk A B C D (fun i j k l => negb (keep i j k l)) x d q) =
  eri_deriv inv expf sqrtf boys half sqrt2pi52 A B C D x d q.
Proof.
  intros Hb Hk. rewrite <- (@stored_dall sb sk A B C D x d q Hb Hk).
  unfold stored_dterms. rewrite <- rsum_map_add. apply rsum_map_ext. intros ij _. rewrite <- rsum_map_add. apply rsum_map_ext. intros kl _.
  destruct (keep _ _ _ _); cbn [negb]; ring.
Qed.
End Unpack.

(** *** Results *)
Section Results.
Variables (k : call_kind) (len nss : nat).
Hypothesis Hk : kind_len k len.
Hypothesis Hnss : 0 < nss.
Variables (bra ket : @pairs R) (mb mk : list (option dval)) (ob ok : nat -> list (nat * nat)) (nb nk : nat) (scrb scrk : nat -> Q) (mxb mxk : Q).
Hypothesis HP : block_ok len nss bra mb ob nb.
Hypothesis HK : block_ok len nss ket mk ok nk.
Hypothesis Hdb : ps_deriv bra = true.
Hypothesis Hdk : ps_deriv ket = true.
Hypothesis Hnp : forall t, t < nk -> 0 < sp_np (ps_pr ket t).
Hypothesis Hh : cmul two half = c1.
Hypothesis Hinv : forall ab cd, ab < nb -> cd < nk -> divisible (ps_A bra ab) (ps_B bra ab) (ps_A ket cd) (ps_B ket cd).
Local Notation BP := (batch_of bra nb scrb mxb).
Local Notation BK := (batch_of ket nk scrk mxk).
Local Notation st S := (start len nss (fun t => sp_np (ps_pr S t))).

Theorem deriv_integrals tol zf out : (tol <= 0)%Q -> bra_aligned len nss BP -> nb * nk * (12 * qncart c) <= length out ->
  exists r, whole_deriv inv expf sqrtf boys half sqrt2pi52 g c k len nss bra ket mb mk BP BK tol zf out = Some (r, nb * nk) /\
    length r = length out /\
    (forall ab cd q x d, ab < nb -> cd < nk -> qclass q = c ->
       nth_error r (12 * ((ab * nk + cd) * qncart c + qindex psi4 q) + (3 * cidx x + idx_of_dir d)) =
       Some (eri_deriv inv expf sqrtf boys half sqrt2pi52 (ps_A bra ab) (ps_B bra ab) (ps_A ket cd) (ps_B ket cd) x d q)) /\
    (forall i, nb * nk * (12 * qncart c) <= i -> nth_error r i = nth_error out i).
Proof.
  intros Ht Hal Hout.
  destruct (@deriv_kept k len nss Hk Hnss bra ket mb mk ob ok nb nk scrb scrk mxb mxk HP HK Hdb Hdk Hnp Hh Hinv tol zf out Hal Hout) as (r & E & L & V & O).
  exists r. split; [exact E|]. split; [exact L|]. split; [|exact O].
  intros ab cd q x d Ha Hc Eq. rewrite (V ab cd q x d Ha Hc Eq). f_equal.
  rewrite (@dkept_terms len nss bra ket mb mk ob ok nb nk HP HK Hdb Hdk _ ab cd Ha Hc).
  pose proof (bo_clip HP). pose proof (bo_clip HK).
  rewrite <- (@stored_dall (ps_same bra ab) (ps_same ket cd)).
  - unfold stored_dterms. apply rsum_map_ext. intros ij _. apply rsum_map_ext. intros kl _.
    unfold dkeep_at. rewrite no_screen_no_drop by exact Ht. reflexivity.
  - intros Es. apply (bo_same HP); [lia|exact Es].
  - intros Es. apply (bo_same HK); [lia|exact Es].
Qed.
Theorem deriv_integrals_screened svb svk tol zf out : scrb = scr_rd len nss bra mb svb -> scrk = scr_rd len nss ket mk svk ->
  screens (ps_meth bra) = true -> screens (ps_meth ket) = true -> bra_aligned len nss BP -> nb * nk * (12 * qncart c) <= length out ->
  exists keep r, whole_deriv inv expf sqrtf boys half sqrt2pi52 g c k len nss bra ket mb mk BP BK tol zf out = Some (r, nb * nk) /\
    (forall ab cd q x d, ab < nb -> cd < nk -> qclass q = c ->
       nth_error r (12 * ((ab * nk + cd) * qncart c + qindex psi4 q) + (3 * cidx x + idx_of_dir d)) =
       Some (stored_dterms inv expf sqrtf boys half sqrt2pi52 (ps_same bra ab) (ps_same ket cd)
               (ps_A bra ab) (ps_B bra ab) (ps_A ket cd) (ps_B ket cd) (keep ab cd) x d q)) /\
    (forall ab cd i j k l, ab < nb -> cd < nk -> In (i, j) (sp_prims (ps_pr bra ab)) -> In (k, l) (sp_prims (ps_pr ket cd)) ->
       (0 <= svb ab i j)%Q -> (svk cd k l <= mxk)%Q -> keep ab cd i j k l = false -> (svb ab i j * svk cd k l < tol)%Q).
Proof.
  intros Eb Ek Sb Sk Hal Hout.
  destruct (@deriv_kept k len nss Hk Hnss bra ket mb mk ob ok nb nk scrb scrk mxb mxk HP HK Hdb Hdk Hnp Hh Hinv tol zf out Hal Hout) as (r & E & L & V & O).
  exists (dkeep_at len nss bra ket ob ok (dropped len BP BK tol zf)), r.
  split; [exact E|]. split.
  - intros ab cd q x d Ha Hc Eq. rewrite (V ab cd q x d Ha Hc Eq). f_equal.
    apply (@dkept_terms len nss bra ket mb mk ob ok nb nk HP HK Hdb Hdk _ ab cd Ha Hc).
  - intros ab cd i j k' l Ha Hc Hij Hkl H0 H1 H. unfold dkeep_at in H. apply negb_false_iff in H. pose proof (bo_clip HP). pose proof (bo_clip HK).
    apply (Permutation_in _ (Permutation_sym (ho_perm (bo_holds HP) (t := ab) ltac:(lia)))) in Hij.
    apply (Permutation_in _ (Permutation_sym (ho_perm (bo_holds HK) (t := cd) ltac:(lia)))) in Hkl.
    apply place_in in Hij, Hkl.
    assert (Rb : scrb (st bra ab + place (ob ab) (i, j)) = svb ab i j)
      by (rewrite Eb; apply (@rd_scr R inv expf sqrtf boys sqrt2pi52 len nss bra mb ob nb ab _ i j svb HP Sb Ha Hij)).
    assert (Rk : scrk (st ket cd + place (ok cd) (k', l)) = svk cd k' l)
      by (rewrite Ek; apply (@rd_scr R inv expf sqrtf boys sqrt2pi52 len nss ket mk ok nk cd _ k' l svk HK Sk Hc Hkl)).
    rewrite <- Rb, <- Rk. rewrite <- Rb in H0. rewrite <- Rk in H1.
    apply (@dropped_negligible len BP BK tol zf _ _ (@dlen_pos k len Hk) H0 H1 H).
Qed.
End Results.

(** *** From creating the batches on *)
Theorem deriv_created k len nss : kind_len k len -> 0 < nss -> Nat.divide len nss -> cmul two half = c1 ->
  forall bra ket : @pairs R, ps_deriv bra = true -> ps_deriv ket = true ->
  (forall t, t < ps_n bra -> ps_same bra t = true -> ps_B bra t = ps_A bra t) ->
  (forall t, t < ps_n ket -> ps_same ket t = true -> ps_B ket t = ps_A ket t) ->
  screen_fits len nss (ps_meth bra) (ps_n bra) (ps_pr bra) -> screen_fits len nss (ps_meth ket) (ps_n ket) (ps_pr ket) ->
  (forall t, t < ps_n bra -> 0 < sp_np (ps_pr bra t)) -> (forall t, t < ps_n ket -> 0 < sp_np (ps_pr ket t)) ->
  (forall ab cd, ab < ps_n bra -> cd < ps_n ket -> divisible (ps_A bra ab) (ps_B bra ab) (ps_A ket cd) (ps_B ket cd)) ->
  forall kfb kfk nb nk scrb scrk mxb mxk tol zf out, nb <= ps_n bra -> nk <= ps_n ket -> (tol <= 0)%Q ->
  bra_aligned len nss (batch_of bra nb scrb mxb) -> nb * nk * (12 * qncart c) <= length out ->
  exists mb mk r, ps_create len nss bra kfb = Some mb /\ ps_create len nss ket kfk = Some mk /\
    whole_deriv inv expf sqrtf boys half sqrt2pi52 g c k len nss bra ket mb mk
      (batch_of bra nb scrb mxb) (batch_of ket nk scrk mxk) tol zf out = Some (r, nb * nk) /\
    length r = length out /\
    (forall ab cd q x d, ab < nb -> cd < nk -> qclass q = c ->
       nth_error r (12 * ((ab * nk + cd) * qncart c + qindex psi4 q) + (3 * cidx x + idx_of_dir d)) =
       Some (eri_deriv inv expf sqrtf boys half sqrt2pi52 (ps_A bra ab) (ps_B bra ab) (ps_A ket cd) (ps_B ket cd) x d q)) /\
    (forall i, nb * nk * (12 * qncart c) <= i -> nth_error r i = nth_error out i).
Proof.
  intros Hk Hnss Hdiv Hh bra ket Db Dk Sb Sk Fb Fk Nb Nk Hinv kfb kfk nb nk scrb scrk mxb mxk tol zf out Cb Ck Ht Hal Hout.
  assert (Hlen : 0 < len) by (apply (kind_len_pos k); exact Hk).
  destruct (@created R len nss bra kfb nb) as (mb & ob & Eb & Hb & _); auto.
  destruct (@created R len nss ket kfk nk) as (mk & ok & Ek & Hk' & _); auto.
  destruct (@deriv_integrals k len nss Hk Hnss bra ket mb mk ob ok nb nk scrb scrk mxb mxk Hb Hk') with (tol := tol) (zf := zf) (out := out) as (d & D); auto.
  { intros t Ht'. apply Nk. lia. }
  { intros ab cd H1 H2. apply Hinv; lia. }
  exists mb, mk, d. auto.
Qed.
End Proof.
