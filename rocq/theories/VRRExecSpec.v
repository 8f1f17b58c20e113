(** Correctness of the emitted vertical recurrence code (model in VRRExec.v). *)
From Coq Require Import List Arith Lia Bool ZArith String Permutation.
Import ListNotations.
From Verif Require Import Base Cart Tables Mdir Recur GenHRR HRRAlgo HRRExec VRRStep VRRAlgo VRROrder GenVRR GenVRRSpec VRRExec.
Local Open Scope list_scope.
Local Open Scope nat_scope.
Set Implicit Arguments.

(** ** Declared constants *)
Lemma nmem_In k l : nmem k l = true <-> In k l.
Proof.
  unfold nmem. rewrite existsb_exists. split.
  - intros [x [H E]]. apply Nat.eqb_eq in E. congruence.
  - intros H. exists k. split; [exact H|apply Nat.eqb_refl].
Qed.

Lemma fold_max4 l mx : mx <= fold_left Nat.max l mx /\ forall x, In x l -> x <= fold_left Nat.max l mx.
Proof.
  revert mx. induction l as [|y l IH]; intros mx; simpl; [split; [lia|intros x []]|].
  destruct (IH (Nat.max mx y)) as [A B]. split; [lia|]. intros x [<-|H]; [lia|auto].
Qed.
Lemma maxint_gen l : forall mx, mx <= fold_left (fun mx s => fold_left Nat.max (map (v_ijkl s) [CI; CJ; CK; CL]) mx) l mx /\
  forall s c, In s l -> v_ijkl s c <= fold_left (fun mx s => fold_left Nat.max (map (v_ijkl s) [CI; CJ; CK; CL]) mx) l mx.
Proof.
  induction l as [|s l IH]; intros mx; [split; [simpl; lia|intros ? ? []]|]. cbn [fold_left].
  destruct (IH (fold_left Nat.max (map (v_ijkl s) [CI; CJ; CK; CL]) mx)) as [A B].
  destruct (fold_max4 (map (v_ijkl s) [CI; CJ; CK; CL]) mx) as [C D].
  split; [lia|]. intros s' c [<-|H]; [|auto].
  assert (In (v_ijkl s c) (map (v_ijkl s) [CI; CJ; CK; CL])) as K.
  { apply in_map_iff. exists c. split; [reflexivity|]. destruct c; simpl; tauto. }
  apply D in K. lia.
Qed.
Lemma maxint_le s c l : In s l -> v_ijkl s c <= maxint l.
Proof. intros H. apply (proj2 (maxint_gen l 0)). exact H. Qed.

(** What a step refers to: constants over its own side and over both. *)
Definition used_own (s : vstep) : list nat :=
  (if valid (v_src s) 2 && valid (v_src s) 3 then [v_ijkl s (lefts (cside (v_type s)))] else []) ++
  (if valid (v_src s) 4 && valid (v_src s) 5 then [v_ijkl s (rights (cside (v_type s)))] else []).
Definition used_pq (s : vstep) : list nat :=
  (if valid (v_src s) 6 then [v_ijkl s (lefts (other (cside (v_type s))))] else []) ++
  (if valid (v_src s) 7 then [v_ijkl s (rights (other (cside (v_type s))))] else []).

Lemma used_own_declared s l k : In s l -> In k (used_own s) -> In k (ints_side (cside (v_type s)) l).
Proof.
  intros Hs Hk. unfold ints_side. apply in_flat_map. exists s. split; [exact Hs|].
  unfold used_own in Hk. apply in_app_iff in Hk.
  destruct (cside (v_type s)); cbn [lefts rights] in Hk; apply in_app_iff;
  (destruct Hk as [Hk|Hk]; [left|right];
  [destruct (valid (v_src s) 2); [|destruct Hk]; destruct (valid (v_src s) 3); [|destruct Hk]; exact Hk
  |destruct (valid (v_src s) 4); [|destruct Hk]; destruct (valid (v_src s) 5); [|destruct Hk]; exact Hk]).
Qed.
Lemma used_pq_declared s l k : In s l -> In k (used_pq s) -> In k (ints_pq l).
Proof.
  intros Hs Hk. unfold ints_pq. apply in_flat_map. exists s. split; [exact Hs|].
  unfold used_pq in Hk. destruct (cside (v_type s)); exact Hk.
Qed.
Lemma used_own_val s k : In k (used_own s) -> exists c, k = v_ijkl s c.
Proof.
  unfold used_own. intros H. apply in_app_iff in H as [H|H];
  match type of H with In _ (if ?b then _ else _) => destruct b; [destruct H as [<-|[]]; eauto|destruct H] end.
Qed.
Lemma used_pq_val s k : In k (used_pq s) -> exists c, k = v_ijkl s c.
Proof.
  unfold used_pq. intros H. apply in_app_iff in H as [H|H];
  match type of H with In _ (if ?b then _ else _) => destruct b; [destruct H as [<-|[]]; eauto|destruct H] end.
Qed.
(** A constant is only referred to when it is not zero. *)
Lemma used_pos rr q m s k : vrr_step rr q m = Some s -> In k (used_own s) \/ In k (used_pq s) -> 1 <= k.
Proof.
  intros Hs Hk. apply vrr_step_raise in Hs as [i [q0 [-> [_ ->]]]].
  pose proof (step_values rr i q0 m) as (H0 & H1 & H2 & H3 & H4 & H5 & H6 & H7 & Hv).
  unfold used_own, used_pq in Hk. cbn [v_src v_type v_ijkl] in Hk.
  rewrite H2, H3, H4, H5, H6, H7, !Hv in Hk. rewrite !andb_diag, !in_app_iff in Hk.
  assert (Z : forall f, In k (if is_some (clower f i q0) then [gexp i (cget f q0)] else []) -> 1 <= k).
  { intros f. destruct (clower f i q0) as [q'|] eqn:E; simpl; [|intros []]. intros [<-|[]].
    pose proof (clower_gexp _ _ _ E) as G. apply Nat.eqb_neq in G. lia. }
  destruct Hk as [[Hk|Hk]|[Hk|Hk]]; eapply Z; exact Hk.
Qed.

Lemma in_vmap_steps steps a s : In s (class_vsteps steps a) -> In s (vmap_steps steps).
Proof.
  intros H. unfold vmap_steps. apply in_flat_map. exists a. split; [|exact H]. apply nodup_In.
  destruct (@class_vsteps_gen a steps []) as [_ [B _]]; [constructor|intros ? []|].
  destruct (B s H) as [[]|[s0 [K1 [K2 _]]]]. apply in_map_iff. exists s0. auto.
Qed.

(** ** Variable sets *)
Lemma vstr_inj x y : vstr x = vstr y -> x = y.
Proof.
  destruct x as [c|c|c|c|], y as [d|d|d|d|]; try destruct c; try destruct d; simpl; intros H; try reflexivity; discriminate.
Qed.
Lemma in_vins_set x y l : In y (vins_set x l) <-> y = x \/ In y l.
Proof.
  induction l as [|z l IH]; cbn [vins_set]; [simpl; intuition|].
  destruct (String.compare (vstr x) (vstr z)) eqn:E.
  - apply String.compare_eq_iff in E. apply vstr_inj in E. subst z. simpl. intuition.
  - simpl. intuition.
  - simpl. rewrite IH. intuition.
Qed.
Lemma in_vset x l : In x (vset l) <-> In x l.
Proof.
  unfold vset. assert (H : forall l a, In x (fold_left (fun a x => vins_set x a) l a) <-> In x a \/ In x l).
  { clear l. induction l as [|y l IH]; intros a; cbn [fold_left]; [simpl; intuition|].
    rewrite IH, in_vins_set. simpl. intuition. }
  rewrite H. simpl. intuition.
Qed.

Definition used_vars (s : vstep) : list vvar :=
  let sd := cside (v_type s) in
  [NPA (v_type s); NaPQ sd] ++ (match used_own s with [] => [] | _ => [Nh sd; Na sd] end) ++
  (match used_pq s with [] => [] | _ => [Nhpq] end).

(** Everything a step refers to is in the list of variables of its class. *)
Lemma used_vars_req rr q m s x : vrr_step rr q m = Some s -> In x (used_vars s) -> In x (varreq rr (qclass q)).
Proof.
  intros Hs Hx. unfold varreq. rewrite in_vset.
  apply vrr_step_raise in Hs as [i [q0 [-> [_ ->]]]].
  pose proof (step_values rr i q0 m) as (H0 & H1 & H2 & H3 & H4 & H5 & H6 & H7 & Hv). cbv zeta in *.
  assert (A : amreq_all rr (qclass (craise rr i q0)) =
    [Some (qclass q0); alower (lefts (cside rr)) (qclass q0); alower (rights (cside rr)) (qclass q0);
     alower (lefts (other (cside rr))) (qclass q0); alower (rights (other (cside rr))) (qclass q0)]).
  { unfold amreq_all. destruct rr; cbn [amreq_spec map cside lefts rights other]; rewrite !alowers2;
      cbn [alowers]; rewrite alower_raise; reflexivity. }
  rewrite A. cbn [nth_error].
  assert (Z : forall f, is_some (clower f i q0) = true -> exists r, alower f (qclass q0) = Some r).
  { intros f Hf. destruct (clower f i q0) as [q'|] eqn:E; [|discriminate]. rewrite (clower_class _ _ _ E). eauto. }
  unfold used_vars, used_own, used_pq in Hx. cbn [v_type v_src v_ijkl] in Hx.
  rewrite H2, H3, H4, H5, H6, H7, !andb_diag in Hx.
  cbn [app] in Hx. destruct Hx as [<-|[<-|Hx]]; [apply in_app_iff; left; left; reflexivity|apply in_app_iff; left; right; left; reflexivity|].
  apply in_app_iff; right. apply in_app_iff in Hx. apply in_app_iff.
  destruct Hx as [Hx|Hx]; [left|right].
  - destruct (is_some (clower (lefts (cside rr)) i q0)) eqn:E1.
    + destruct (Z _ E1) as [r ->]. cbn [app orb] in *. simpl in Hx |- *. tauto.
    + destruct (is_some (clower (rights (cside rr)) i q0)) eqn:E2; [|destruct Hx].
      destruct (Z _ E2) as [r ->]. rewrite orb_true_r. simpl in Hx |- *. tauto.
  - destruct (is_some (clower (lefts (other (cside rr))) i q0)) eqn:E1.
    + destruct (Z _ E1) as [r ->]. cbn [app orb] in *. simpl in Hx |- *. tauto.
    + destruct (is_some (clower (rights (other (cside rr))) i q0)) eqn:E2; [|destruct Hx].
      destruct (Z _ E2) as [r ->]. rewrite orb_true_r. simpl in Hx |- *. tauto.
Qed.

Lemma vbind_map A B (dec : forall x y : A, {x = y} + {x <> y}) (f : A -> B) l x :
  In x l -> vbind dec l (map f l) x = Some (f x).
Proof.
  intros H. unfold vbind.
  destruct (find_pos (fun g => if dec g x then true else false) l) as [n|] eqn:E.
  - apply find_pos_some in E as [y [Hy [Hp _]]]. destruct (dec y x) as [->|]; [|discriminate].
    rewrite nth_error_map, Hy. reflexivity.
  - pose proof (find_pos_none _ _ E _ H) as K. simpl in K. destruct (dec x x); congruence.
Qed.

(** ** The plan of an external routine *)
Record par_ok (P : vpar) : Prop := {
  po_enum : enum_ok (p_enum P);
  po_enumq : enum_ok (p_enumq P);
  po_enums : forall l, Permutation (p_enums P l) l;
  po_starts : starts_x (p_o P) }.

Lemma file_plan P rr a : par_ok P -> aget rr a <> 0 -> qtotal a < p_fuel P ->
  exists p, vrr_create (p_enum P) (p_enumq P) (p_fuel P) [rr] (qtargets (p_o P) a) = Some p /\
    rrstep_of (vp_steps p) a = Some rr /\ get_amreq (vp_steps p) a = Some (amreq rr a) /\
    (forall s, In s (class_vsteps (vp_steps p) a) -> vrr_step rr (v_target s) 0 = Some s /\ qclass (v_target s) = a) /\
    (forall q, qclass q = a -> exists s, In s (class_vsteps (vp_steps p) a) /\ v_target s = q).
Proof.
  intros HP Hr Hf.
  assert (Hin : forall q, In q (qtargets (p_o P) a) <-> qclass q = a) by (intros; apply in_qtargets, (po_starts HP)).
  destruct (@vrr_create_ok (p_enum P) (p_enumq P) (p_fuel P) [rr] (qtargets (p_o P) a) (po_enum HP) (po_enumq HP))
    as [p [Ep HV]].
  - intros q q' H E. apply Hin. apply Hin in H. congruence.
  - intros q H. apply Hin in H. rewrite H. exact Hf.
  - assert (Hd : vdir [rr] a = Some rr).
    { simpl. apply Nat.eqb_neq in Hr. rewrite Hr. reflexivity. }
    assert (Hsol : forall q, qclass q = a -> In (q, 0) (vp_solved p)).
    { intros q Hq. apply (so_exact (vo_steps HV)). split; [apply vr_init, Hin, Hq|]. rewrite Hq, Hd. discriminate. }
    assert (Hk : known p a). { exists (pure a), 0. split; [apply Hsol|]; apply pure_class. }
    destruct (vo_dir HV Hk) as [rr' [D [D1 D2]]]. rewrite Hd in D. injection D as <-.
    destruct (@class_vsteps_ok [rr] (qtargets (p_o P) a) (vp_steps p) (vp_solved p) (vp_left p) (vo_steps HV) a) as [_ [B C]].
    exists p. split; [exact Ep|]. split; [exact D1|]. split; [exact D2|]. split.
    + intros s Hs. destruct (B s Hs) as [B1 [B2 [B3 _]]]. rewrite Hd in B2. injection B2 as B2. rewrite <- B2 in B3. auto.
    + intros q Hq. apply (C q 0); auto.
Qed.

(** ** Swapping the functions of a side *)
Definition swc (sb sk : bool) (c : ctr) : ctr :=
  match c with
  | CI => if sb then CJ else CI | CJ => if sb then CI else CJ
  | CK => if sk then CL else CK | CL => if sk then CK else CL
  end.
Definition swq (sb sk : bool) (q : qrt) : qrt :=
  Q4 (cget (swc sb sk CI) q) (cget (swc sb sk CJ) q) (cget (swc sb sk CK) q) (cget (swc sb sk CL) q).
Definition swa (sb sk : bool) (a : qam) : qam :=
  QAM (aget (swc sb sk CI) a) (aget (swc sb sk CJ) a) (aget (swc sb sk CK) a) (aget (swc sb sk CL) a).

Lemma swq_swq sb sk q : swq sb sk (swq sb sk q) = q.
Proof. destruct q, sb, sk; reflexivity. Qed.
Lemma swa_swa sb sk a : swa sb sk (swa sb sk a) = a.
Proof. destruct a, sb, sk; reflexivity. Qed.
Lemma swq_class sb sk q : qclass (swq sb sk q) = swa sb sk (qclass q).
Proof. destruct q, sb, sk; reflexivity. Qed.
Lemma swq_get sb sk c q : cget (swc sb sk c) (swq sb sk q) = cget c q.
Proof. destruct q, sb, sk, c; reflexivity. Qed.
Lemma swq_lower sb sk c e q : clower (swc sb sk c) e (swq sb sk q) = option_map (swq sb sk) (clower c e q).
Proof. unfold clower. rewrite swq_get. destruct (down e (cget c q)); [|reflexivity]. destruct q, sb, sk, c; reflexivity. Qed.
Lemma swapped_swa a : swapped a = swa (am0 a =? 0) (am2 a =? 0) a.
Proof. destruct a as [i j k l]; unfold swapped, swa; cbn [am0 am2]. destruct (i =? 0), (k =? 0); reflexivity. Qed.

(** No side has two functions with momentum. *)
Definition pair_zero (a : qam) : Prop := (am0 a = 0 \/ am1 a = 0) /\ (am2 a = 0 \/ am3 a = 0).

Lemma swapped_am a : pair_zero a -> am1 (swapped a) = 0 /\ am3 (swapped a) = 0.
Proof.
  destruct a as [i j k l]. unfold pair_zero, swapped; cbn [am0 am1 am2 am3]. intros [H1 H2].
  destruct (Nat.eqb_spec i 0), (Nat.eqb_spec k 0); cbn [am0 am1 am2 am3]; lia.
Qed.
Lemma tochar_swc a rr : pair_zero a -> aget rr a <> 0 -> tochar rr = swc (am0 a =? 0) (am2 a =? 0) rr.
Proof.
  destruct a as [i j k l]. unfold pair_zero; cbn [am0 am1 am2 am3]. intros [H1 H2] H.
  destruct rr; cbn [aget am0 am1 am2 am3 tochar swc] in *;
    repeat match goal with |- context [?n =? 0] => destruct (Nat.eqb_spec n 0); try lia end; reflexivity.
Qed.
Lemma swapped_get rr a : pair_zero a -> aget rr a <> 0 -> aget (tochar rr) (swapped a) <> 0.
Proof.
  intros Hz H. rewrite (tochar_swc _ Hz H), swapped_swa. destruct a as [i j k l].
  destruct (am0 _ =? 0), (am2 _ =? 0), rr; exact H.
Qed.
Lemma swapped_total a : qtotal (swapped a) = qtotal a.
Proof. rewrite swapped_swa. destruct a as [i j k l], (am0 _ =? 0), (am2 _ =? 0); unfold qtotal; simpl; lia. Qed.

Ltac split_nat n := destruct n as [|[|n]].
Lemma swapped_amreq rr a : pair_zero a -> aget rr a <> 0 ->
  amreq (tochar rr) (swapped a) = map (swa (am0 a =? 0) (am2 a =? 0)) (amreq rr a).
Proof.
  destruct a as [i j k l]. intros [H1 H2] H. cbn [am0 am1 am2 am3] in *.
  destruct H1 as [->| ->], H2 as [->| ->];
  try split_nat i; try split_nat j; try split_nat k; try split_nat l;
  destruct rr; cbn in H; try congruence; reflexivity.
Qed.
Definition vsw (sb sk : bool) (x : vvar) : vvar := match x with NPA c => NPA (swc sb sk c) | y => y end.
Lemma swapped_varreq rr a : pair_zero a -> aget rr a <> 0 ->
  varreq (tochar rr) (swapped a) = map (vsw (am0 a =? 0) (am2 a =? 0)) (varreq rr a).
Proof.
  destruct a as [i j k l]. intros [H1 H2] H. cbn [am0 am1 am2 am3] in *.
  destruct H1 as [->| ->], H2 as [->| ->];
  try split_nat i; try split_nat j; try split_nat k; try split_nat l;
  destruct rr; cbn in H; try congruence; vm_compute; reflexivity.
Qed.

Lemma opos0 (o : ordering) g : gam g = 0 -> opos o g = 0.
Proof. intros H. pose proof (opos_lt o g) as K. rewrite H in K. change (ncart 0) with 1 in K. lia. Qed.
(** The two layouts are the same. *)
Lemma swq_index (o : ordering) sb sk q : (sb = true -> gam (qa q) = 0) -> (sk = true -> gam (qc q) = 0) ->
  qindex o (swq sb sk q) = qindex o q.
Proof.
  intros H1 H2. rewrite !qindex_row_major. destruct q as [ga gb gc gd].
  destruct sb; [pose proof (H1 eq_refl) as Z1; cbn [qa] in Z1; pose proof (opos0 o ga Z1)|];
  (destruct sk; [pose proof (H2 eq_refl) as Z2; cbn [qc] in Z2; pose proof (opos0 o gc Z2)|]);
  cbn [swq swc cget qa qb qc qd]; rewrite ?Z1, ?Z2, ?H, ?H0; change (ncart 0) with 1; lia.
Qed.
Lemma swa_ncart sb sk a : qncart (swa sb sk a) = qncart a.
Proof. destruct a as [i j k l], sb, sk; unfold qncart, swa; cbn [swc aget am0 am1 am2 am3]; lia. Qed.

Section Spec.
Context {R : cring}.
Add Ring vx_ring : (cth R).
Local Notation val := (@val R).
Local Notation vcoef := (@vcoef R).
Local Notation vmem := (@vmem R).

(** ** Environments *)
Record env_ok (E : venv) (K : vcoef) (s : vstep) : Prop := {
  eo_pa : forall i, vec E (NPA (v_type s)) i = Some (k_PA K (v_type s) i);
  eo_apq : forall i, vec E (NaPQ (cside (v_type s))) i = Some (k_aPQ K (cside (v_type s)) i);
  eo_a : used_own s <> [] -> sca E (Na (cside (v_type s))) = Some (k_a K (cside (v_type s)));
  eo_c : forall k, In k (used_own s) -> ec E (cside (v_type s)) k = Some (ofnat k * k_h K (cside (v_type s)))%r;
  eo_pq : forall k, In k (used_pq s) -> epq E k = Some (ofnat k * k_hpq K)%r }.

Lemma kconst_ok mx ints (h : R) k : In k ints -> 1 <= k <= mx -> kconst mx ints h k = Some (ofnat k * h)%r.
Proof.
  intros H Hk. unfold kconst. rewrite (proj2 (nmem_In _ _) H).
  destruct (Nat.eqb_spec k 1) as [->|N].
  - f_equal. cbn [ofnat]. ring.
  - assert ((1 <=? k) && (k <=? mx) = true) as ->; [|reflexivity].
    apply andb_true_intro. split; apply Nat.leb_le; lia.
Qed.

Lemma kernel_env_ok (K : vcoef) steps s rr q m :
  In s (vmap_steps steps) -> vrr_step rr q m = Some s -> env_ok (kernel_env K steps) K s.
Proof.
  intros Hs Hv. constructor; try reflexivity.
  - intros k Hk. unfold kernel_env; cbn [ec]. apply kconst_ok; [apply (used_own_declared _ _ _ Hs Hk)|].
    split; [apply (@used_pos _ _ _ _ k Hv); auto|].
    destruct (used_own_val _ _ Hk) as [c ->]. apply maxint_le, Hs.
  - intros k Hk. unfold kernel_env; cbn [epq]. apply kconst_ok; [apply (used_pq_declared _ _ _ Hs Hk)|].
    split; [apply (@used_pos _ _ _ _ k Hv); auto|].
    destruct (used_pq_val _ _ Hk) as [c ->]. apply maxint_le, Hs.
Qed.

(** ** The value of one step *)
Lemma used_own_l s : valid (v_src s) 2 = true -> valid (v_src s) 3 = true -> In (v_ijkl s (lefts (cside (v_type s)))) (used_own s).
Proof. intros H H'. unfold used_own. rewrite H, H'. left; reflexivity. Qed.
Lemma used_own_r s : valid (v_src s) 4 = true -> valid (v_src s) 5 = true -> In (v_ijkl s (rights (cside (v_type s)))) (used_own s).
Proof. intros H H'. unfold used_own. rewrite H, H'. apply in_app_iff. right. left; reflexivity. Qed.
Lemma used_pq_l s : valid (v_src s) 6 = true -> In (v_ijkl s (lefts (other (cside (v_type s))))) (used_pq s).
Proof. intros H. unfold used_pq. rewrite H. left; reflexivity. Qed.
Lemma used_pq_r s : valid (v_src s) 7 = true -> In (v_ijkl s (rights (other (cside (v_type s))))) (used_pq s).
Proof. intros H. unfold used_pq. rewrite H. apply in_app_iff. right. left; reflexivity. Qed.

(** Arrays of the requirements: [g r] holds (possibly indeterminate) orders [0..N-1]. *)
Definition arrays_o (o : ordering) (W : nat -> qrt -> val) (arr : qam -> option qam) (M : vmem) (rr : ctr) (a : qam) (N : nat) : Prop :=
  forall r, In r (amreq rr a) -> exists t, arr r = Some t /\
    forall n q, n < N -> qclass q = r -> nth_error (M t) (n * qncart r + qindex o q) = Some (W n q).

Lemma ne_in A (x : A) l : In x l -> l <> [].
Proof. intros H ->. destruct H. Qed.

Lemma step_val_ok (o : ordering) E (K : vcoef) W arr (M : vmem) rr q s n N :
  vrr_step rr q 0 = Some s -> env_ok E K s -> n < N -> arrays_o o W arr M rr (qclass q) (S N) ->
  step_val o E arr M n s = Some (ovrec K W rr n q).
Proof.
  intros Hs HE Hn HA.
  assert (Hrd : forall k x q' m, nth_error (v_src s) k = Some x -> sq x = Some q' -> m <= N ->
    rdsrc o arr M s k m = Some (W m q')).
  { intros k x q' m Hk Hq Hm. unfold rdsrc. rewrite Hk, Hq.
    pose proof (src_class _ _ _ _ Hs (nth_error_In _ _ Hk) Hq) as Hc.
    pose proof (src_in_amreq _ _ _ _ Hs (nth_error_In _ _ Hk) Hc) as Hin.
    destruct (HA _ Hin) as [t [-> Ht]]. cbn [obind]. apply Ht; [lia|reflexivity]. }
  pose proof Hs as Hs'. apply vrr_step_raise in Hs' as [i [q0 [Eq [Hd Es]]]]. subst q.
  rewrite ovrec_raise by exact Hd.
  pose proof (step_values rr i q0 0) as (H0 & H1 & H2 & H3 & H4 & H5 & H6 & H7 & Hk). cbv zeta in *.
  assert (Esrc : v_src s = let sd := cside rr in
  [VSrc (Some q0) (Some (qclass q0)) 0; VSrc (Some q0) (Some (qclass q0)) 1;
     VSrc (clower (lefts sd) i q0) (alower (lefts sd) (qclass q0)) 0;
     VSrc (clower (lefts sd) i q0) (alower (lefts sd) (qclass q0)) 1;
     VSrc (clower (rights sd) i q0) (alower (rights sd) (qclass q0)) 0;
     VSrc (clower (rights sd) i q0) (alower (rights sd) (qclass q0)) 1;
     VSrc (clower (lefts (other sd)) i q0) (alower (lefts (other sd)) (qclass q0)) 1;
     VSrc (clower (rights (other sd)) i q0) (alower (rights (other sd)) (qclass q0)) 1]).
  { rewrite Es. cbn [v_src]. apply step_srcs. }
  assert (Ety : v_type s = rr) by (rewrite Es; reflexivity).
  assert (Exyz : v_xyz s = i) by (rewrite Es; reflexivity).
  assert (Ek : forall f, v_ijkl s f = gexp i (cget f q0)) by (intros f; rewrite Es; cbn [v_ijkl]; apply Hk).
  assert (Ev : valid (v_src s) = valid (map (mk_src (craise rr i q0) i 0) (src_spec rr))) by (rewrite Es; reflexivity).
  pose proof (used_own_l s) as U2. pose proof (used_own_r s) as U4. pose proof (used_pq_l s) as U6. pose proof (used_pq_r s) as U7.
  rewrite Ev, Ety in U2, U4, U6, U7. rewrite H2, H3 in U2. rewrite H4, H5 in U4. rewrite H6 in U6. rewrite H7 in U7.
  destruct HE as [Epa Eapq Ea Ec Epq]. rewrite Ety in Epa, Eapq, Ea, Ec.
  unfold step_val. cbv zeta. rewrite Ety, Exyz, Epa, Eapq, Ev, H1, H2, H3, H4, H5, H6, H7, !andb_diag. cbn [obind].
  cbv zeta in Esrc.
  rewrite (@Hrd 0 _ q0 n ltac:(rewrite Esrc; reflexivity) eq_refl) by lia. cbn [obind].
  rewrite (@Hrd 1 _ q0 (S n) ltac:(rewrite Esrc; reflexivity) eq_refl) by lia. cbn [obind].
  rewrite vfma_swap. unfold orec. cbv zeta.
  set (x := vfma (k_PA K rr i) (W n q0) (vmul (k_aPQ K (cside rr) i) (W (S n) q0))).
  assert (S1 : (if is_some (clower (lefts (cside rr)) i q0) then
     c <- ec E (cside rr) (v_ijkl s (lefts (cside rr))) ;; a <- sca E (Na (cside rr)) ;;
     v3 <- rdsrc o arr M s 3 (S n) ;; v2 <- rdsrc o arr M s 2 n ;; Some (vfma c (vfma a v3 v2) x) else Some x)
     = Some (oown K W (cside rr) n (lefts (cside rr)) i q0 x)).
  { unfold oown. destruct (clower (lefts (cside rr)) i q0) as [q'|] eqn:E1; cbn [is_some]; [|reflexivity]. cbn [is_some] in U2.
    rewrite (Ec _ (U2 eq_refl eq_refl)), (Ea (@ne_in _ _ _ (U2 eq_refl eq_refl))). cbn [obind].
    rewrite (@Hrd 3 _ q' (S n) ltac:(rewrite Esrc; reflexivity) ltac:(first [exact E1|reflexivity])) by lia.
    rewrite (@Hrd 2 _ q' n ltac:(rewrite Esrc; reflexivity) ltac:(first [exact E1|reflexivity])) by lia. cbn [obind]. rewrite Ek. reflexivity. }
  rewrite S1. cbn [obind]. clear S1. set (y := oown K W (cside rr) n (lefts (cside rr)) i q0 x).
  assert (S1 : (if is_some (clower (rights (cside rr)) i q0) then
     c <- ec E (cside rr) (v_ijkl s (rights (cside rr))) ;; a <- sca E (Na (cside rr)) ;;
     v3 <- rdsrc o arr M s 5 (S n) ;; v2 <- rdsrc o arr M s 4 n ;; Some (vfma c (vfma a v3 v2) y) else Some y)
     = Some (oown K W (cside rr) n (rights (cside rr)) i q0 y)).
  { unfold oown. destruct (clower (rights (cside rr)) i q0) as [q'|] eqn:E1; cbn [is_some]; [|reflexivity]. cbn [is_some] in U4.
    rewrite (Ec _ (U4 eq_refl eq_refl)), (Ea (@ne_in _ _ _ (U4 eq_refl eq_refl))). cbn [obind].
    rewrite (@Hrd 5 _ q' (S n) ltac:(rewrite Esrc; reflexivity) ltac:(first [exact E1|reflexivity])) by lia.
    rewrite (@Hrd 4 _ q' n ltac:(rewrite Esrc; reflexivity) ltac:(first [exact E1|reflexivity])) by lia. cbn [obind]. rewrite Ek. reflexivity. }
  rewrite S1. cbn [obind]. clear S1. set (z := oown K W (cside rr) n (rights (cside rr)) i q0 y).
  assert (S1 : (if is_some (clower (lefts (other (cside rr))) i q0) then
     c <- epq E (v_ijkl s (lefts (other (cside rr)))) ;; v <- rdsrc o arr M s 6 (S n) ;; Some (vfma c v z) else Some z)
     = Some (ooth K W n (lefts (other (cside rr))) i q0 z)).
  { unfold ooth. destruct (clower (lefts (other (cside rr))) i q0) as [q'|] eqn:E1; cbn [is_some]; [|reflexivity]. cbn [is_some] in U6.
    rewrite (Epq _ (U6 eq_refl)). cbn [obind].
    rewrite (@Hrd 6 _ q' (S n) ltac:(rewrite Esrc; reflexivity) ltac:(first [exact E1|reflexivity])) by lia. cbn [obind]. rewrite Ek. reflexivity. }
  rewrite S1. cbn [obind]. clear S1. set (z' := ooth K W n (lefts (other (cside rr))) i q0 z).
  unfold ooth. destruct (clower (rights (other (cside rr))) i q0) as [q'|] eqn:E1; cbn [is_some]; [|reflexivity]. cbn [is_some] in U7.
  rewrite (Epq _ (U7 eq_refl)). cbn [obind].
  rewrite (@Hrd 7 _ q' (S n) ltac:(rewrite Esrc; reflexivity) ltac:(first [exact E1|reflexivity])) by lia. cbn [obind]. rewrite Ek. reflexivity.
Qed.

(** ** A batch of stores to one array *)
Lemma aset_same (M : vmem) t l : aset M t l t = l.
Proof. unfold aset. destruct (qam_eq_dec t t); congruence. Qed.
Lemma aset_other (M : vmem) t l u : u <> t -> aset M t l u = M u.
Proof. unfold aset. destruct (qam_eq_dec t u); congruence. Qed.

Definition eidx (o : ordering) (a : qam) (x : nat * vstep) : nat := fst x * qncart a + qindex o (v_target (snd x)).

Lemma vexec_batch (o : ordering) E arr a t (F : nat * vstep -> val) : forall l (M : vmem),
  arr a = Some t ->
  (forall x, In x l -> eidx o a x < List.length (M t)) ->
  (forall x M', In x l -> (forall u, u <> t -> M' u = M u) -> step_val o E arr M' (fst x) (snd x) = Some (F x)) ->
  (forall x y, In x l -> In y l -> eidx o a x = eidx o a y -> F x = F y) ->
  exists M', vexec o E arr a M l = Some M' /\ (forall u, u <> t -> M' u = M u) /\
    List.length (M' t) = List.length (M t) /\
    (forall x, In x l -> nth_error (M' t) (eidx o a x) = Some (F x)) /\
    (forall i, (forall x, In x l -> eidx o a x <> i) -> nth_error (M' t) i = nth_error (M t) i).
Proof.
  induction l as [|x l IH]; intros M Ha Hi Hv Hu.
  - exists M. split; [reflexivity|]. split; [auto|]. split; [auto|]. split; [intros ? []|auto].
  - cbn [vexec]. unfold vexec1. rewrite (Hv x M (or_introl eq_refl)) by auto. rewrite Ha. cbn [obind].
    pose proof (Hi x (or_introl eq_refl)) as Hx. fold (eidx o a x). apply Nat.ltb_lt in Hx. rewrite Hx. cbn [obind].
    apply Nat.ltb_lt in Hx.
    set (M1 := aset M t (upd (M t) (eidx o a x) (F x))).
    assert (L1 : List.length (M1 t) = List.length (M t)) by (unfold M1; rewrite aset_same; apply upd_length).
    assert (O1 : forall u, u <> t -> M1 u = M u) by (intros; apply aset_other; assumption).
    destruct (IH M1) as [M' [E1 [E2 [E3 [E4 E5]]]]]; auto.
    + intros y Hy. rewrite L1. apply Hi. right; exact Hy.
    + intros y M' Hy Hm. apply Hv; [right; exact Hy|]. intros u Hu'. rewrite Hm, O1 by assumption. reflexivity.
    + intros; apply Hu; try right; assumption.
    + exists M'. split; [exact E1|]. split; [intros u Hu'; rewrite E2, O1 by assumption; reflexivity|].
      split; [congruence|]. split.
      * intros y [<-|Hy]; [|auto].
        destruct (in_dec Nat.eq_dec (eidx o a x) (map (eidx o a) l)) as [Y|N].
        -- apply in_map_iff in Y as [y [Ey Hy]]. rewrite <- Ey, (E4 y Hy). f_equal.
           apply Hu; [right; exact Hy|left; reflexivity|exact Ey].
        -- rewrite E5; [unfold M1; rewrite aset_same; apply nth_error_upd_same, Hx|].
           intros y Hy Ey. apply N. apply in_map_iff. exists y; auto.
      * intros i Hn. rewrite E5 by (intros; apply Hn; right; assumption).
        unfold M1. rewrite aset_same. apply nth_error_upd_other. apply Hn. left; reflexivity.
Qed.

Lemma in_nsteps N (steps : list vstep) n s : In (n, s) (nsteps N steps) <-> n < N /\ In s steps.
Proof.
  unfold nsteps. rewrite in_flat_map. split.
  - intros [m [Hm H]]. apply in_seq in Hm. apply in_map_iff in H as [s' [E H]]. injection E as <- <-. split; [lia|exact H].
  - intros [Hn H]. exists n. split; [apply in_seq; lia|]. apply in_map_iff. eauto.
Qed.

(** What forming a class into array [t] achieves, for the components in [P]. *)
Definition formed (o : ordering) (K : vcoef) W rr a (t : qam) (N : nat) (P : qrt -> Prop) (M M' : vmem) : Prop :=
  (forall u, u <> t -> M' u = M u) /\ List.length (M' t) = List.length (M t) /\
  forall n q, n < N -> qclass q = a -> P q ->
    nth_error (M' t) (n * qncart a + qindex o q) = Some (ovrec K W rr n q).

Lemma entry_lt_o (o : ordering) n N a q : n < N -> qclass q = a -> n * qncart a + qindex o q < N * qncart a.
Proof. intros Hn Hq. pose proof (qindex_lt o q). rewrite Hq in H. nia. Qed.

Lemma body_ok (o : ordering) E (K : vcoef) W arr (M : vmem) rr a t N (steps : list vstep) (P : qrt -> Prop) :
  (forall s, In s steps -> vrr_step rr (v_target s) 0 = Some s /\ qclass (v_target s) = a /\ env_ok E K s) ->
  (forall q, qclass q = a -> P q -> exists s, In s steps /\ v_target s = q) ->
  arr a = Some t -> arrays_o o W arr M rr a (S N) ->
  (forall r, In r (amreq rr a) -> arr r <> Some t) ->
  N * qncart a <= List.length (M t) ->
  exists M', vexec o E arr a M (nsteps N steps) = Some M' /\ formed o K W rr a t N P M M'.
Proof.
  intros Hst HP Ha HA Hne HL.
  destruct (@vexec_batch o E arr a t (fun x => ovrec K W rr (fst x) (v_target (snd x))) (nsteps N steps) M Ha)
    as [M' [E1 [E2 [E3 [E4 E5]]]]].
  - intros [n s] Hx. apply in_nsteps in Hx as [Hn Hs]. destruct (Hst s Hs) as [_ [Hc _]].
    unfold eidx; cbn [fst snd]. pose proof (@entry_lt_o o n N a (v_target s) Hn Hc). lia.
  - intros [n s] M' Hx Hm. apply in_nsteps in Hx as [Hn Hs]. destruct (Hst s Hs) as [Hv [Hc HE]].
    cbn [fst snd]. apply step_val_ok with (N := N); auto. rewrite Hc.
    intros r Hr. destruct (HA r Hr) as [u [Hu Hu']]. exists u. split; [exact Hu|].
    assert (u <> t) by (intros ->; apply (Hne r Hr); exact Hu).
    intros m q Hm' Hq. rewrite Hm by assumption. apply Hu'; assumption.
  - intros [n s] [n' s'] Hx Hy He. apply in_nsteps in Hx as [Hn Hs]. apply in_nsteps in Hy as [Hn' Hs'].
    destruct (Hst s Hs) as [_ [Hc _]]. destruct (Hst s' Hs') as [_ [Hc' _]].
    unfold eidx in He; cbn [fst snd] in *.
    pose proof (qindex_lt o (v_target s)) as Q1. pose proof (qindex_lt o (v_target s')) as Q2.
    rewrite Hc in Q1. rewrite Hc' in Q2.
    destruct (@mixed_inj _ _ _ _ _ Q1 Q2 He) as [-> Ei]. apply qindex_inj in Ei; [|congruence]. rewrite Ei. reflexivity.
  - exists M'. split; [exact E1|]. split; [exact E2|]. split; [exact E3|].
    intros n q Hn Hq Hp. destruct (HP q Hq Hp) as [s [Hs <-]].
    apply (E4 (n, s)). apply in_nsteps. auto.
Qed.

(** ** External routines *)
Lemma file_env_ok (vs : vvar -> option vval) (K : vcoef) (cls : list vstep) s rr q :
  In s cls -> vrr_step rr q 0 = Some s ->
  (forall x, In x (varreq rr (qclass q)) -> vs x = kvars K x) -> env_ok (file_env vs cls) K s.
Proof.
  intros Hs Hv Hx.
  assert (Ety : v_type s = rr) by (apply vrr_step_raise in Hv as [i [q0 [_ [_ ->]]]]; reflexivity).
  assert (U : forall x, In x (used_vars s) -> vs x = kvars K x).
  { intros x H. apply Hx. apply (@used_vars_req rr q 0 s x Hv H). }
  constructor.
  - intros i. unfold vec, file_env; cbn [ev]. rewrite U by (left; reflexivity). reflexivity.
  - intros i. unfold vec, file_env; cbn [ev]. rewrite U by (right; left; reflexivity). reflexivity.
  - intros H. unfold sca, file_env; cbn [ev]. rewrite U; [reflexivity|].
    unfold used_vars. destruct (used_own s); [congruence|]. simpl; tauto.
  - intros k Hk. unfold file_env; cbn [ec]. unfold fconst.
    rewrite (proj2 (nmem_In _ _) (used_own_declared _ _ _ Hs Hk)). unfold sca; cbn [ev].
    rewrite U; [reflexivity|]. unfold used_vars. destruct (used_own s); [destruct Hk|]. simpl; tauto.
  - intros k Hk. unfold file_env; cbn [epq]. unfold fconst.
    rewrite (proj2 (nmem_In _ _) (used_pq_declared _ _ _ Hs Hk)). unfold sca; cbn [ev].
    rewrite U; [reflexivity|]. unfold used_vars. destruct (used_pq s); [destruct Hk|].
    apply in_app_iff; right. apply in_app_iff; right. left; reflexivity.
Qed.

Lemma amreq_ne rr a r : In r (amreq rr a) -> r <> a.
Proof. intros H ->. apply amreq_lt in H. lia. Qed.

(** The binding of the arrays of a routine. *)
Lemma arr_bind rr a t (g : qam -> qam) :
  let arr := vbind qam_eq_dec (a :: amreq rr a) (t :: map g (amreq rr a)) in
  arr a = Some t /\ forall r, In r (amreq rr a) -> arr r = Some (g r).
Proof.
  intros arr. set (g' := fun c => if qam_eq_dec c a then t else g c).
  assert (E : t :: map g (amreq rr a) = map g' (a :: amreq rr a)).
  { cbn [map]. unfold g' at 1. destruct (qam_eq_dec a a); [|congruence]. f_equal.
    apply map_ext_in. intros r Hr. unfold g'. destruct (qam_eq_dec r a) as [->|]; [|reflexivity].
    exfalso. exact (@amreq_ne _ _ _ Hr eq_refl). }
  unfold arr. rewrite E. split.
  - rewrite vbind_map by (left; reflexivity). unfold g'. destruct (qam_eq_dec a a); congruence.
  - intros r Hr. rewrite vbind_map by (right; exact Hr). unfold g'.
    destruct (qam_eq_dec r a) as [->|]; [|reflexivity]. exfalso. exact (@amreq_ne _ _ _ Hr eq_refl).
Qed.

(** What the caller has to provide: array [t] for the result, [g r] for requirement [r]. *)
Definition call_ok (o : ordering) W (M : vmem) rr a t (g : qam -> qam) N : Prop :=
  N * qncart a <= List.length (M t) /\
  forall r, In r (amreq rr a) -> g r <> t /\
    forall n q, n < S N -> qclass q = r -> nth_error (M (g r)) (n * qncart r + qindex o q) = Some (W n q).

Lemma vs_bind (K : vcoef) l x : In x l ->
  match vbind vvar_eq_dec l (map (kvars K) l) x with Some v => v | None => None end = kvars K x.
Proof. intros H. rewrite vbind_map by exact H. reflexivity. Qed.

Lemma vroutine_std P (K : vcoef) W rr a t g N (M : vmem) d :
  par_ok P -> aget rr a <> 0 -> qtotal a < p_fuel P -> am1 a = 0 -> am3 a = 0 ->
  call_ok (p_o P) W M rr a t g N ->
  exists M', vroutine P (S d) rr a (t :: map g (amreq rr a)) (map (kvars K) (varreq rr a)) N M = Some M' /\
    formed (p_o P) K W rr a t N (fun _ => True) M M'.
Proof.
  intros HP Hr Hf H1 H3 [HL HC].
  destruct (@file_plan P rr a HP Hr Hf) as [p [E1 [E2 [E3 [HS1 HS2]]]]].
  cbn [vroutine]. rewrite E1. cbn [obind]. rewrite E2. cbn [obind]. rewrite E3. cbn [obind]. cbv zeta.
  rewrite H1, H3. cbn [Nat.eqb andb].
  destruct (@arr_bind rr a t g) as [A1 A2]. cbv zeta in A1, A2.
  apply body_ok.
  - intros s Hs. apply (Permutation_in _ (po_enums HP _)) in Hs. destruct (HS1 s Hs) as [V1 V2].
    split; [exact V1|]. split; [exact V2|]. apply (@file_env_ok _ K _ s rr (v_target s) Hs V1).
    rewrite V2. intros x Hx. apply vs_bind, Hx.
  - intros q Hq _. destruct (HS2 q Hq) as [s [B1 B2]]. exists s. split; [|exact B2].
    apply (Permutation_in _ (Permutation_sym (po_enums HP _))). exact B1.
  - exact A1.
  - intros r Hr'. exists (g r). split; [apply A2, Hr'|]. apply HC, Hr'.
  - intros r Hr'. rewrite (A2 r Hr'). intros E. injection E as E. apply (proj1 (HC r Hr')), E.
  - exact HL.
Qed.

(** *** The recurrence under the swap *)
Definition swK (sb sk : bool) (K : vcoef) : vcoef :=
  VC (fun c => k_PA K (swc sb sk c)) (k_aPQ K) (k_h K) (k_a K) (k_hpq K).
Definition swW (sb sk : bool) (W : nat -> qrt -> val) : nat -> qrt -> val := fun n q => W n (swq sb sk q).

Lemma oown_sw sb sk (K : vcoef) W s n f e q x :
  oown (swK sb sk K) (swW sb sk W) s n (swc sb sk f) e (swq sb sk q) x = oown K W s n f e q x.
Proof.
  unfold oown. rewrite swq_lower, swq_get. destruct (clower f e q) as [q'|]; simpl; [|reflexivity].
  unfold swW. rewrite swq_swq. reflexivity.
Qed.
Lemma ooth_sw sb sk (K : vcoef) W n f e q x :
  ooth (swK sb sk K) (swW sb sk W) n (swc sb sk f) e (swq sb sk q) x = ooth K W n f e q x.
Proof.
  unfold ooth. rewrite swq_lower, swq_get. destruct (clower f e q) as [q'|]; simpl; [|reflexivity].
  unfold swW. rewrite swq_swq. reflexivity.
Qed.
Lemma oown_none (K : vcoef) W s n f e q x : clower f e q = None -> oown K W s n f e q x = x.
Proof. intros H. unfold oown. rewrite H. reflexivity. Qed.
Lemma ooth_none (K : vcoef) W n f e q x : clower f e q = None -> ooth K W n f e q x = x.
Proof. intros H. unfold ooth. rewrite H. reflexivity. Qed.
Lemma swc_swc sb sk c : swc sb sk (swc sb sk c) = c.
Proof. destruct sb, sk, c; reflexivity. Qed.
Lemma swc_side sb sk c : cside (swc sb sk c) = cside c.
Proof. destruct sb, sk, c; reflexivity. Qed.

Lemma gam_lower0 f c e q q0 : clower c e q = Some q0 -> gam (cget f q) = 0 -> clower f e q0 = None.
Proof.
  intros H Hz. apply clower_none. apply clower_some in H. subst q.
  destruct (ctr_eq_dec c f) as [->|N].
  - rewrite cget_raise_same, gam_up in Hz. lia.
  - rewrite cget_raise_other in Hz by exact N. destruct (cget f q0) as [x y z]. unfold gam in Hz. destruct e; simpl in *; lia.
Qed.

Lemma orec_sw sb sk (K : vcoef) W c e n q0 :
  (sb = true -> clower CI e q0 = None) -> (sk = true -> clower CK e q0 = None) ->
  orec (swK sb sk K) (swW sb sk W) (swc sb sk c) e n (swq sb sk q0) = orec K W c e n q0.
Proof.
  intros H1 H2. unfold orec. rewrite swc_side. cbv zeta.
  assert (B : vfma (k_PA (swK sb sk K) (swc sb sk c) e) (swW sb sk W n (swq sb sk q0))
     (vmul (k_aPQ (swK sb sk K) (cside c) e) (swW sb sk W (S n) (swq sb sk q0))) =
     vfma (k_PA K c e) (W n q0) (vmul (k_aPQ K (cside c) e) (W (S n) q0))).
  { unfold swK, swW. cbn [k_PA k_aPQ]. rewrite swq_swq, swc_swc. reflexivity. }
  rewrite B. clear B.
  assert (Ho : forall s f x, oown (swK sb sk K) (swW sb sk W) s n f e (swq sb sk q0) x = oown K W s n (swc sb sk f) e q0 x).
  { intros s f x. rewrite <- (oown_sw sb sk K W s n (swc sb sk f) e q0 x), swc_swc. reflexivity. }
  assert (Ht : forall f x, ooth (swK sb sk K) (swW sb sk W) n f e (swq sb sk q0) x = ooth K W n (swc sb sk f) e q0 x).
  { intros f x. rewrite <- (ooth_sw sb sk K W n (swc sb sk f) e q0 x), swc_swc. reflexivity. }
  rewrite !Ho, !Ht.
  destruct sb, sk, c; cbn [cside lefts rights other swc];
    rewrite ?(fun s x => @oown_none K W s n CI e q0 x (H1 eq_refl)), ?(fun x => @ooth_none K W n CI e q0 x (H1 eq_refl)),
      ?(fun s x => @oown_none K W s n CK e q0 x (H2 eq_refl)), ?(fun x => @ooth_none K W n CK e q0 x (H2 eq_refl)); reflexivity.
Qed.

Lemma ovrec_sw sb sk (K : vcoef) W c n q :
  (sb = true -> gam (qa q) = 0) -> (sk = true -> gam (qc q) = 0) ->
  ovrec (swK sb sk K) (swW sb sk W) (swc sb sk c) n (swq sb sk q) = ovrec K W c n q.
Proof.
  intros H1 H2. unfold ovrec. rewrite swq_get. destruct (mdir (cget c q)) as [e|]; [|reflexivity].
  rewrite swq_lower. destruct (clower c e q) as [q0|] eqn:E; simpl; [|reflexivity].
  apply orec_sw; intros Hs; [apply (@gam_lower0 CI c e q q0 E (H1 Hs))|apply (@gam_lower0 CK c e q q0 E (H2 Hs))].
Qed.

Lemma amreq_le rr a r c : In r (amreq rr a) -> aget c r <= aget c a.
Proof. intros H. apply amreq_src in H as [cs [b [_ [_ H]]]]. exact (@alowers_le cs a r c H). Qed.

Theorem vroutine_ok P (K : vcoef) W rr a t g N (M : vmem) d :
  par_ok P -> aget rr a <> 0 -> qtotal a < p_fuel P -> pair_zero a -> 2 <= d ->
  call_ok (p_o P) W M rr a t g N ->
  exists M', vroutine P d rr a (t :: map g (amreq rr a)) (map (kvars K) (varreq rr a)) N M = Some M' /\
    formed (p_o P) K W rr a t N (fun _ => True) M M'.
Proof.
  intros HP Hr Hf Hz Hd HC. destruct d as [|[|d]]; try lia.
  destruct ((am1 a =? 0) && (am3 a =? 0)) eqn:Es.
  { apply andb_prop in Es as [Y1 Y3]. apply Nat.eqb_eq in Y1, Y3. apply vroutine_std; auto. }
  destruct (@file_plan P rr a HP Hr Hf) as [p [E1 [E2 [E3 [HS1 HS2]]]]].
  cbn [vroutine]. rewrite E1. cbn [obind]. rewrite E2. cbn [obind]. rewrite E3. cbn [obind]. cbv zeta. rewrite Es.
  destruct (@arr_bind rr a t g) as [A1 A2]. cbv zeta in A1, A2. rewrite A1. cbn [obind].
  assert (Em : mapM (vbind qam_eq_dec (a :: amreq rr a) (t :: map g (amreq rr a))) (amreq rr a) = Some (map g (amreq rr a))).
  { apply mapM_spec. intros r Hr'. apply A2, Hr'. }
  rewrite Em. cbn [obind].
  set (sb := am0 a =? 0). set (sk := am2 a =? 0).
  assert (Ev : map (fun x => match vbind vvar_eq_dec (varreq rr a) (map (kvars K) (varreq rr a)) x with Some v => v | None => None end) (varreq rr a)
     = map (kvars (swK sb sk K)) (varreq (tochar rr) (swapped a))).
  { rewrite swapped_varreq by assumption. rewrite map_map. apply map_ext_in. intros x Hx.
    rewrite vs_bind by exact Hx. unfold sb, sk. destruct x as [c|c|c|c|]; try reflexivity. unfold kvars, vsw, swK. cbn [k_PA]. rewrite swc_swc. reflexivity. }
  rewrite Ev.
  assert (Ea : map g (amreq rr a) = map (fun r => g (swa sb sk r)) (amreq (tochar rr) (swapped a))).
  { rewrite swapped_amreq by assumption. rewrite map_map. apply map_ext. intros r. fold sb sk. rewrite swa_swa. reflexivity. }
  rewrite Ea. destruct (swapped_am Hz) as [Z1 Z3].
  destruct (@vroutine_std P (swK sb sk K) (swW sb sk W) (tochar rr) (swapped a) t (fun r => g (swa sb sk r)) N M d HP)
    as [M' [E [F1 [F2 F3]]]]; auto.
  - apply swapped_get; assumption.
  - rewrite swapped_total. exact Hf.
  - destruct HC as [HL HC]. split; [rewrite swapped_swa, swa_ncart; exact HL|].
    intros r' Hr'. rewrite swapped_amreq in Hr' by assumption. fold sb sk in Hr'.
    apply in_map_iff in Hr' as [r [<- Hr0]]. rewrite swa_swa. destruct (HC r Hr0) as [C1 C2]. split; [exact C1|].
    intros n q Hn Hq. rewrite swa_ncart. unfold swW.
    assert (Hc : qclass (swq sb sk q) = r) by (rewrite swq_class, Hq, swa_swa; reflexivity).
    rewrite <- (C2 n (swq sb sk q) Hn Hc). f_equal. f_equal. rewrite <- (swq_swq sb sk q) at 1.
    apply swq_index; intros Hb.
    + change (gam (qa (swq sb sk q))) with (aget CI (qclass (swq sb sk q))). rewrite Hc.
      pose proof (amreq_le rr a r CI Hr0) as L. simpl in L. apply Nat.eqb_eq in Hb. simpl. lia.
    + change (gam (qc (swq sb sk q))) with (aget CK (qclass (swq sb sk q))). rewrite Hc.
      pose proof (amreq_le rr a r CK Hr0) as L. simpl in L. apply Nat.eqb_eq in Hb. simpl. lia.
  - exists M'. split; [exact E|]. split; [exact F1|]. split; [exact F2|].
    intros n q Hn Hq _.
    assert (Hb : sb = true -> gam (qa q) = 0).
    { intros Hb. change (gam (qa q)) with (aget CI (qclass q)). rewrite Hq. apply Nat.eqb_eq, Hb. }
    assert (Hk : sk = true -> gam (qc q) = 0).
    { intros Hb'. change (gam (qc q)) with (aget CK (qclass q)). rewrite Hq. apply Nat.eqb_eq, Hb'. }
    rewrite <- (@ovrec_sw sb sk K W rr n q Hb Hk); replace (swc sb sk rr) with (tochar rr) by (unfold sb, sk; apply tochar_swc; assumption).
    rewrite <- (F3 n (swq sb sk q) Hn); [|rewrite swq_class, Hq, swapped_swa; reflexivity|exact I].
    + rewrite swapped_swa, swa_ncart, swq_index by assumption. reflexivity.
Qed.

(** A class with both functions of a side of positive momentum: the file [WriteVRRFile] writes
    calls itself, so no depth is enough. *)
Lemma swapped_both a : ~ pair_zero a -> ~ pair_zero (swapped a).
Proof. destruct a as [[|i] [|j] [|k] [|l]]; unfold pair_zero, swapped; simpl; lia. Qed.
Lemma swapped_get_all rr a : aget rr a <> 0 -> aget (tochar rr) (swapped a) <> 0.
Proof. destruct rr, a as [[|i] [|j] [|k] [|l]]; unfold swapped; simpl; lia. Qed.

Theorem vroutine_loops P : par_ok P -> forall d rr a arrs (vars : list (option vval)) N (M : vmem),
  aget rr a <> 0 -> qtotal a < p_fuel P -> ~ pair_zero a -> vroutine P d rr a arrs vars N M = None.
Proof.
  intros HP. induction d as [|d IH]; intros rr a arrs vars N M Hr Hf Hz; [reflexivity|].
  destruct (@file_plan P rr a HP Hr Hf) as [p [E1 [E2 [E3 _]]]].
  cbn [vroutine]. rewrite E1. cbn [obind]. rewrite E2. cbn [obind]. rewrite E3. cbn [obind]. cbv zeta.
  assert ((am1 a =? 0) && (am3 a =? 0) = false) as ->.
  { apply andb_false_iff. rewrite !Nat.eqb_neq. unfold pair_zero in Hz. lia. }
  destruct (vbind qam_eq_dec (a :: amreq rr a) arrs a) as [t|]; [|reflexivity]. cbn [obind].
  destruct (mapM (vbind qam_eq_dec (a :: amreq rr a) arrs) (amreq rr a)) as [ts|]; [|reflexivity]. cbn [obind].
  apply IH; [apply swapped_get_all, Hr|rewrite swapped_total; exact Hf|apply swapped_both, Hz].
Qed.

(** ** The table-driven routine *)
Lemma zeros3 rr a : zeros a = 3 -> aget rr a <> 0 -> a = single rr (aget rr a).
Proof.
  destruct a as [i j k l]. unfold zeros. cbn [filter aget am0 am1 am2 am3].
  destruct rr; cbn [aget am0 am1 am2 am3 single]; intros H Hr;
  destruct i, j, k, l; cbn [Nat.eqb] in H; simpl in H; try congruence; reflexivity.
Qed.

Lemma in_amreq n rr a r : nth_error (amreq_all rr a) n = Some (Some r) -> In r (amreq rr a).
Proof.
  intros H. unfold amreq, somes. apply in_flat_map. exists (Some r). split; [|left; reflexivity].
  apply nth_error_In in H. exact H.
Qed.

Lemma single_req1 rr n : nth_error (amreq_all rr (single rr (S n))) 0 = Some (Some (single rr n)).
Proof. destruct rr; simpl; rewrite ?Nat.sub_0_r; reflexivity. Qed.
Definition own_slot (rr : ctr) : nat := match rr with CI | CK => 1 | _ => 2 end.
Lemma single_req2 rr n : nth_error (amreq_all rr (single rr (S (S n)))) (own_slot rr) = Some (Some (single rr n)).
Proof. destruct rr; simpl; rewrite ?Nat.sub_0_r; reflexivity. Qed.

Lemma vgeneral_ok (K : vcoef) W rr a N (M : vmem) :
  aget rr a <> 0 -> (forall c, aget c a <= 18) ->
  call_ok psi4 W M rr a a (fun r => r) N ->
  exists M', vgeneral K rr a N M = Some M' /\ formed psi4 K W rr a a N (fun _ => True) M M'.
Proof.
  intros Hr H18 [HL HC]. unfold vgeneral. cbv beta zeta.
  set (ts := map (option_map M) (amreq_all rr a)).
  assert (HT : thetas_o W rr a (S N) ts).
  { intros n r Hn. exists (M r). unfold ts. rewrite nth_error_map, Hn. split; [reflexivity|].
    intros m q Hm Hq. apply (HC r (@in_amreq _ _ _ _ Hn)); assumption. }
  assert (F : forall out', List.length out' = List.length (M a) -> holds_o (ovrec K W rr) a N out' ->
     formed psi4 K W rr a a N (fun _ => True) M (aset M a out')).
  { intros out' L H. split; [intros u Hu; apply aset_other; exact Hu|]. rewrite aset_same. split; [exact L|].
    intros n q Hn Hq _. apply H; assumption. }
  assert (Elen : List.length ts = 5) by (unfold ts; destruct rr; reflexivity).
  clearbody ts. destruct ts as [|t1 [|t2 [|t3 [|t4 [|t5 [|]]]]]]; try discriminate Elen. cbn [nth_error].
  destruct (zeros a =? 3) eqn:Ez.
  - apply Nat.eqb_eq in Ez. pose proof (@zeros3 rr a Ez Hr) as Ea.
    remember (aget rr a) as n eqn:En. destruct n as [|n]; [congruence|].
    pose proof (single_req1 rr n) as R1. rewrite <- Ea in R1.
    destruct (HT 0 _ R1) as [b1 [B1 B2]]. injection B1 as B1. subst t1.
    set (u2 := match rr with CI | CK => _ | _ => _ end).
    destruct (@vrr1_o R K W rr (S n) N b1 u2 (M a)) as [out' [E [L [H U]]]].
    + specialize (H18 rr). lia.
    + replace (S n - 1) with n by lia. exact B2.
    + intros Hn. destruct n as [|n]; [lia|]. replace (S (S n) - 2) with n by lia.
      pose proof (single_req2 rr n) as R2. rewrite <- Ea in R2. destruct (HT _ _ R2) as [b2 [C1 C2]].
      exists b2. split; [|exact C2]. unfold u2. destruct rr; cbn [own_slot] in C1; injection C1 as C1; exact C1.
    + rewrite <- (single_ncart rr), <- Ea. exact HL.
    + match goal with |- context [obind ?e _] => replace e with (Some out') by (symmetry; exact E) end.
      cbn [obind]. eexists; split; [reflexivity|]. apply F; [exact L|]. rewrite Ea at 1. exact H.
  - destruct a as [i j k l].
    destruct (@gen_vrr_o R K W rr i j k l N t1 t2 t3 t4 t5 (M (QAM i j k l))) as [out' [E [L [H U]]]];
      [exact Hr|apply (H18 CI)|apply (H18 CJ)|apply (H18 CK)|apply (H18 CL)|exact HT|exact HL|].
    unfold args_of in E. match goal with |- context [obind ?e _] => replace e with (Some out') by (symmetry; exact E) end.
    cbn [obind]. eexists; split; [reflexivity|]. apply F; assumption.
Qed.

(** ** A whole kernel *)
(** The value an array holds. *)
Definition rdmem (o : ordering) (M : vmem) (n : nat) (q : qrt) : val :=
  match nth_error (M (qclass q)) (n * qncart (qclass q) + qindex o q) with Some v => v | None => None end.

Definition sizes_ok (steps : list vstep) (M : vmem) : Prop :=
  forall a m, get_mreq steps a = Some m -> S m * qncart a <= List.length (M a).

Lemma call_mem (o : ordering) steps (M : vmem) rr a m :
  sizes_ok steps M -> get_mreq steps a = Some m ->
  (forall r, In r (amreq rr a) -> exists m', get_mreq steps r = Some m' /\ S m <= m') ->
  call_ok o (rdmem o M) M rr a a (fun r => r) (S m).
Proof.
  intros HS Hm Hr. split; [apply HS, Hm|]. intros r Hr'. split; [apply (@amreq_ne rr a r Hr')|].
  intros n q Hn Hq. destruct (Hr r Hr') as [m' [E L]]. unfold rdmem. rewrite Hq.
  pose proof (HS r m' E) as K. pose proof (@entry_lt_o o n (S m') r q ltac:(lia) Hq).
  destruct (nth_error (M r) (n * qncart r + qindex o q)) eqn:X; [reflexivity|]. apply nth_error_None in X. lia.
Qed.

(** The classes for which a mode is usable. *)
Definition mode_ok (P : vpar) (a : qam) : Prop :=
  match emode_of (p_se P) (p_sg P) (qtotal a) with
  | Inline => True
  | External => pair_zero a /\ qtotal a < p_fuel P /\ 2 <= p_depth P
  | General => p_o P = psi4 /\ forall c, aget c a <= 18
  end.

Lemma vform_ok P (K : vcoef) ords init p a rr m (M : vmem) :
  par_ok P -> vplan_ok ords init p -> known p a -> vdir ords a = Some rr -> get_mreq (vp_steps p) a = Some m ->
  sizes_ok (vp_steps p) M -> mode_ok P a ->
  exists M', vform P K (vp_steps p) M a = Some M' /\
    formed (p_o P) K (rdmem (p_o P) M) rr a a (S m) (fun q => exists m, In (q, m) (vp_solved p)) M M'.
Proof.
  intros HP HV Hk Hd Hm HS HM.
  destruct (vo_dir HV Hk) as [rr' [D1 [D2 D3]]]. assert (rr' = rr) by congruence. subst rr'.
  destruct (vo_mreq HV Hk) as [m' [rr' [M1 [M2 [_ M4]]]]]. assert (m' = m) by congruence. assert (rr' = rr) by congruence. subst m' rr'.
  pose proof (@call_mem (p_o P) _ M rr a m HS Hm M4) as HC.
  assert (Hg : aget rr a <> 0) by (apply vdir_some in Hd; apply Hd).
  assert (Ha : a <> ssss) by (intros ->; destruct rr; apply Hg; reflexivity).
  unfold vform. destruct (qam_eq_dec a ssss) as [Z|_]; [contradiction|].
  rewrite Hm. cbn [obind]. rewrite Nat.add_1_r. unfold mode_ok in HM.
  assert (W : forall M', formed (p_o P) K (rdmem (p_o P) M) rr a a (S m) (fun _ => True) M M' ->
     formed (p_o P) K (rdmem (p_o P) M) rr a a (S m) (fun q => exists m, In (q, m) (vp_solved p)) M M').
  { intros M' [F1 [F2 F3]]. split; [exact F1|]. split; [exact F2|]. intros n q Hn Hq _. apply F3; auto. }
  destruct (emode_of (p_se P) (p_sg P) (qtotal a)).
  - destruct (@class_vsteps_ok ords init (vp_steps p) (vp_solved p) (vp_left p) (vo_steps HV) a) as [C1 [C2 C3]].
    destruct HC as [HL HC].
    apply body_ok.
    + intros s Hs. apply (Permutation_in _ (po_enums HP _)) in Hs. destruct (C2 s Hs) as [X1 [X2 [X3 _]]].
      assert (v_type s = rr) as Et by congruence. rewrite Et in X3. split; [exact X3|]. split; [exact X1|].
      apply (@kernel_env_ok K _ s rr (v_target s) 0); [|exact X3]. apply in_vmap_steps with a. exact Hs.
    + intros q Hq [m' Hs]. destruct (C3 q m' Hs Hq) as [s [X1 X2]]. exists s. split; [|exact X2].
      apply (Permutation_in _ (Permutation_sym (po_enums HP _))). exact X1.
    + reflexivity.
    + intros r Hr. exists r. split; [reflexivity|]. apply HC, Hr.
    + intros r Hr E. injection E as E. apply (proj1 (HC r Hr)), E.
    + exact HL.
  - rewrite D2. cbn [obind]. rewrite D3. cbn [obind]. destruct HM as [Z1 [Z2 Z3]].
    replace (a :: amreq rr a) with (a :: map (fun r => r) (amreq rr a)) by (rewrite map_id; reflexivity).
    destruct (@vroutine_ok P K (rdmem (p_o P) M) rr a a (fun r => r) (S m) M (p_depth P)) as [M' [E F]]; auto.
    exists M'. split; [exact E|]. apply W, F.
  - rewrite D2. cbn [obind]. destruct HM as [Z1 Z2]. rewrite Z1 in HC, W |- *.
    destruct (@vgeneral_ok K (rdmem psi4 M) rr a (S m) M) as [M' [E F]]; auto.
    exists M'. split; [exact E|]. apply W, F.
Qed.

(** Class [a] holds the family for the components the plan computes. *)
Definition holds_known (o : ordering) (V : nat -> qrt -> R) (p : vplan) (M : vmem) (a : qam) : Prop :=
  forall n q m m', In (q, m) (vp_solved p) -> qclass q = a -> get_mreq (vp_steps p) a = Some m' -> n <= m' ->
    nth_error (M a) (n * qncart a + qindex o q) = Some (Some (V n q)).
Definition holds_ssss (o : ordering) (V : nat -> qrt -> R) (p : vplan) (M : vmem) : Prop :=
  forall n m', get_mreq (vp_steps p) ssss = Some m' -> n <= m' -> nth_error (M ssss) n = Some (Some (V n z4)).

Lemma class_z4 q : qclass q = ssss -> q = z4.
Proof.
  destruct q as [[? ? ?] [? ? ?] [? ? ?] [? ? ?]]. unfold qclass, ssss, gam; simpl. intros E. injection E as E1 E2 E3 E4.
  unfold z4. f_equal; f_equal; lia.
Qed.

Lemma ovrec_known P (K : vcoef) V ords init p l1 a l2 rr m n q (M : vmem) :
  os_family K V -> vplan_ok ords init p -> covers ords -> vp_order p = l1 ++ a :: l2 -> vdir ords a = Some rr ->
  get_mreq (vp_steps p) a = Some m -> n <= m -> (exists m', In (q, m') (vp_solved p)) -> qclass q = a ->
  (forall b, In b l1 -> holds_known (p_o P) V p M b) -> holds_ssss (p_o P) V p M ->
  ovrec K (rdmem (p_o P) M) rr n q = Some (V n q).
Proof.
  intros HF HV Hcov Ho Hd Hm Hn [m' Hs] Hq H1 H2.
  assert (Hk : known p a) by (exists q, m'; auto).
  destruct (vo_mreq HV Hk) as [m0 [rr' [M1 [M2 [_ M4]]]]]. assert (m0 = m) by congruence. assert (rr' = rr) by congruence. subst m0 rr'.
  assert (Hg : aget rr a <> 0) by (apply vdir_some in Hd; apply Hd).
  destruct (vrr_step_some rr q m') as [s Hv]; [rewrite <- aget_class, Hq; exact Hg|].
  pose proof (so_exact (vo_steps HV)) as SX. destruct (proj1 (SX q m') Hs) as [HR _].
  (* every source is known at [n] and [n+1] *)
  assert (HW : forall x q', In x (v_src s) -> sq x = Some q' -> rdmem (p_o P) M n q' = Some (V n q') /\ rdmem (p_o P) M (S n) q' = Some (V (S n) q')).
  { intros x q' Hx Hxq.
    assert (Hr : In (qclass q') (amreq rr a)).
    { rewrite <- Hq. apply (@src_in_amreq rr q m' s x (qclass q') Hv Hx).
      apply vrr_step_raise in Hv as [i [q0 [_ [_ ->]]]]. cbn [v_src] in Hx. apply in_map_iff in Hx as [cs [<- _]].
      cbn [sq sc mk_src] in *. apply clowers_class in Hxq. exact Hxq. }
    destruct (M4 _ Hr) as [mr [Er Lr]].
    assert (HR' : vreach ords init q' (sm x)) by (apply (@vr_src ords init q m' rr s x q' HR ltac:(congruence) Hv Hx Hxq)).
    destruct (qam_eq_dec (qclass q') ssss) as [Z|Z].
    - pose proof (@class_z4 _ Z) as ->. unfold rdmem.
      assert (Ei : forall k, k * qncart (qclass z4) + qindex (p_o P) z4 = k).
      { intros k. change (qclass z4) with ssss. pose proof (qindex_lt (p_o P) z4) as L.
        change (qncart (qclass z4)) with 1 in L. change (qncart ssss) with 1. lia. }
      rewrite !Ei. change (qclass z4) with ssss in *. rewrite (H2 n mr Er), (H2 (S n) mr Er) by lia. auto.
    - assert (Hdr : vdir ords (qclass q') <> None) by (rewrite covers_dir; assumption).
      assert (Hs' : In (q', sm x) (vp_solved p)) by (apply SX; auto).
      assert (Hl : In (qclass q') l1) by (apply (@vo_before _ _ _ HV l1 a l2 rr _ Ho Hd Hr Hdr)).
      unfold rdmem. rewrite (H1 _ Hl n q' _ mr Hs' eq_refl Er), (H1 _ Hl (S n) q' _ mr Hs' eq_refl Er) by lia. auto. }
  pose proof Hv as Hv'. apply vrr_step_raise in Hv as [i [q0 [Eq [Hmd ->]]]]. cbn [v_src] in HW.
  subst q. rewrite ovrec_raise by exact Hmd. apply orec_known; [exact HF| | |].
  - apply (HW (mk_src (craise rr i q0) i m' ([rr], false)) q0).
    + apply in_map. destruct rr; simpl; tauto.
    + cbn [sq mk_src fst clowers]. rewrite clower_raise. reflexivity.
  - apply (HW (mk_src (craise rr i q0) i m' ([rr], true)) q0).
    + apply in_map. destruct rr; simpl; tauto.
    + cbn [sq mk_src fst clowers]. rewrite clower_raise. reflexivity.
  - intros f q' Hf. apply (HW (mk_src (craise rr i q0) i m' ([f; rr], true)) q').
    + apply in_map. destruct rr, f; simpl; tauto.
    + cbn [sq mk_src fst]. rewrite clowers2. exact Hf.
Qed.

Theorem vrun_ok P (K : vcoef) V ords init p (M : vmem) :
  par_ok P -> os_family K V -> vplan_ok ords init p -> covers ords ->
  (forall a, In a (vp_order p) -> mode_ok P a) ->
  sizes_ok (vp_steps p) M -> holds_ssss (p_o P) V p M ->
  exists M', vrun P K (vp_steps p) M (vp_order p) = Some M' /\
    (forall a, List.length (M' a) = List.length (M a)) /\
    (forall a, ~ In a (vp_order p) -> M' a = M a) /\
    forall a, In a (vp_order p) -> holds_known (p_o P) V p M' a.
Proof.
  intros HP HF HV Hcov HM HS H0.
  assert (Hns : ~ In ssss (vp_order p)).
  { intros H. apply (vo_order HV) in H. destruct (vo_dir HV H) as [rr [D _]].
    assert (vdir ords ssss = None) by (apply covers_dir; auto). congruence. }
  pose proof (vo_once HV) as HN.
  assert (G : forall l2 l1 M1, vp_order p = l1 ++ l2 -> sizes_ok (vp_steps p) M1 -> holds_ssss (p_o P) V p M1 ->
    (forall b, In b l1 -> holds_known (p_o P) V p M1 b) ->
    exists M', vrun P K (vp_steps p) M1 l2 = Some M' /\ (forall a, List.length (M' a) = List.length (M1 a)) /\
      (forall a, ~ In a l2 -> M' a = M1 a) /\ forall a, In a (vp_order p) -> holds_known (p_o P) V p M' a).
  { induction l2 as [|a l2 IH]; intros l1 M1 E HS1 H1 HD.
    - exists M1. split; [reflexivity|]. split; [reflexivity|]. split; [reflexivity|]. rewrite E, app_nil_r. exact HD.
    - assert (Ha : In a (vp_order p)) by (rewrite E; apply in_or_app; right; left; reflexivity).
      pose proof (proj1 (vo_order HV a) Ha) as Hk. destruct (vo_mreq HV Hk) as [m [rr [M1' [M2 _]]]].
      destruct (@vform_ok P K ords init p a rr m M1 HP HV Hk M2 M1' HS1 (HM a Ha)) as [M' [E1 [F1 [F2 F3]]]].
      assert (L' : forall b, List.length (M' b) = List.length (M1 b)).
      { intros b. destruct (qam_eq_dec b a) as [->|N]; [exact F2|rewrite F1 by exact N; reflexivity]. }
      destruct (IH (l1 ++ [a]) M') as [M'' [E2 [L2 [U2 D2]]]].
      + rewrite <- app_assoc. exact E.
      + intros b mb Hb. rewrite L'. apply HS1, Hb.
      + intros n mb Hb Hn. rewrite F1; [apply (H1 n mb Hb Hn)|]. intros Z. apply Hns. rewrite Z. exact Ha.
      + intros b Hb. apply in_app_iff in Hb as [Hb|[<-|[]]].
        * intros n q mm m' A1 A2 A3 A4. rewrite F1; [apply (HD b Hb n q mm m'); assumption|].
          intros ->. rewrite E in HN. apply NoDup_remove_2 in HN. apply HN. apply in_or_app; auto.
        * intros n q mm m' A1 A2 A3 A4. assert (m' = m) by congruence. subst m'.
          rewrite (F3 n q) by (try lia; try exact A2; exists mm; exact A1). f_equal.
          apply (@ovrec_known P K V ords init p l1 a l2 rr m n q M1); auto. exists mm; exact A1.
      + exists M''. cbn [vrun]. rewrite E1. cbn [obind]. split; [exact E2|]. split; [intros b; rewrite L2; apply L'|].
        split; [|exact D2]. intros b Hb. rewrite U2 by (intros X; apply Hb; right; exact X).
        apply F1. intros ->. apply Hb. left; reflexivity. }
  apply (G (vp_order p) []); auto. intros b [].
Qed.
End Spec.

(** ** The statements of the properties *)
Theorem vrr_code_correct (R : cring) (P : vpar) ords init :
  par_ok P -> whole_classes init -> covers ords -> (forall q, In q init -> qtotal (qclass q) < p_fuel P) ->
  exists p m, vrr_create (p_enum P) (p_enumq P) (p_fuel P) ords init = Some p /\
    get_mreq (vp_steps p) ssss = Some m /\
    (forall L, (forall q, In q init -> qtotal (qclass q) <= L) -> m <= L) /\
    forall (K : @vcoef R) V M, os_family K V -> (forall a, In a (vp_order p) -> mode_ok P a) ->
      sizes_ok (vp_steps p) M -> (forall n, n <= m -> nth_error (M ssss) n = Some (Some (V n z4))) ->
      exists M', vrun P K (vp_steps p) M (vp_order p) = Some M' /\
        (forall q, In q init -> nth_error (M' (qclass q)) (qindex (p_o P) q) = Some (Some (V 0 q))) /\
        (forall a, ~ In a (vp_order p) -> M' a = M a) /\
        (forall a, List.length (M' a) = List.length (M a)).
Proof.
  intros HP Hw Hc Hf.
  destruct (@vrr_create_ok (p_enum P) (p_enumq P) (p_fuel P) ords init (po_enum HP) (po_enumq HP) Hw Hf) as [p [E HV]].
  destruct (vo_ssss HV) as [m Hm]. exists p, m. split; [exact E|]. split; [exact Hm|]. split.
  { intros L HL. pose proof (vo_mbound HV _ HL Hm) as B. lia. }
  intros K V M HF HM HS H0.
  assert (HS0 : holds_ssss (p_o P) V p M).
  { intros n m' Em Hn. apply H0. assert (m' = m) by congruence. lia. }
  destruct (@vrun_ok R P K V ords init p M HP HF HV Hc HM HS HS0) as [M' [E' [L' [U' D']]]].
  exists M'. split; [exact E'|]. split; [|split; [exact U'|exact L']].
  intros q Hq. destruct (qam_eq_dec (qclass q) ssss) as [Z|Z].
  - rewrite Z. rewrite U'.
    + rewrite (@class_z4 _ Z). assert (qindex (p_o P) z4 = 0) as ->.
      { pose proof (qindex_lt (p_o P) z4) as X. change (qncart (qclass z4)) with 1 in X. lia. }
      apply H0. lia.
    + intros X. apply (vo_order HV) in X. destruct (vo_dir HV X) as [rr [D _]].
      assert (vdir ords ssss = None) by (apply covers_dir; auto). congruence.
  - assert (In (q, 0) (vp_solved p)) as Hs.
    { apply (so_exact (vo_steps HV)). split; [apply vr_init, Hq|]. rewrite covers_dir by exact Hc. exact Z. }
    assert (known p (qclass q)) as Hk by (exists q, 0; auto).
    destruct (vo_mreq HV Hk) as [m' [rr [Em _]]].
    apply (D' (qclass q) (proj2 (vo_order HV _) Hk) 0 q 0 m' Hs eq_refl Em). lia.
Qed.

(** What a statement of the class body refers to is declared, in a kernel and in an external
    routine. *)
Theorem vrr_constants_declared (R : cring) (P : vpar) ords init (K : @vcoef R) :
  par_ok P -> whole_classes init -> (forall q, In q init -> qtotal (qclass q) < p_fuel P) ->
  exists p, vrr_create (p_enum P) (p_enumq P) (p_fuel P) ords init = Some p /\
    forall a s, In s (class_vsteps (vp_steps p) a) ->
      (forall k, In k (used_own s) -> ec (kernel_env K (vp_steps p)) (cside (v_type s)) k =
         Some (ofnat k * k_h K (cside (v_type s)))%r) /\
      (forall k, In k (used_pq s) -> epq (kernel_env K (vp_steps p)) k = Some (ofnat k * k_hpq K)%r) /\
      (forall x, In x (used_vars s) -> ev (kernel_env K (vp_steps p)) x = kvars K x).
Proof.
  intros HP Hw Hf.
  destruct (@vrr_create_ok (p_enum P) (p_enumq P) (p_fuel P) ords init (po_enum HP) (po_enumq HP) Hw Hf) as [p [E HV]].
  exists p. split; [exact E|]. intros a s Hs.
  destruct (@class_vsteps_ok ords init (vp_steps p) (vp_solved p) (vp_left p) (vo_steps HV) a) as [_ [C2 _]].
  destruct (C2 s Hs) as [X1 [X2 [X3 _]]].
  pose proof (@kernel_env_ok R K _ s _ _ 0 (in_vmap_steps _ _ _ Hs) X3) as H.
  split; [apply (eo_c H)|]. split; [apply (eo_pq H)|reflexivity].
Qed.

Theorem vrr_routine_constants (R : cring) (P : vpar) (K : @vcoef R) rr a :
  par_ok P -> aget rr a <> 0 -> qtotal a < p_fuel P ->
  exists p, vrr_create (p_enum P) (p_enumq P) (p_fuel P) [rr] (qtargets (p_o P) a) = Some p /\
    let cls := class_vsteps (vp_steps p) a in
    let vs x := match vbind vvar_eq_dec (varreq rr a) (map (kvars K) (varreq rr a)) x with Some v => v | None => None end in
    forall s, In s cls ->
      (forall k, In k (used_own s) -> ec (file_env vs cls) (cside (v_type s)) k = Some (ofnat k * k_h K (cside (v_type s)))%r) /\
      (forall k, In k (used_pq s) -> epq (file_env vs cls) k = Some (ofnat k * k_hpq K)%r) /\
      (forall x, In x (used_vars s) -> ev (file_env vs cls) x = kvars K x).
Proof.
  intros HP Hr Hf. destruct (@file_plan P rr a HP Hr Hf) as [p [E1 [E2 [E3 [HS1 HS2]]]]].
  exists p. split; [exact E1|]. intros cls vs s Hs. destruct (HS1 s Hs) as [V1 V2].
  assert (Hx : forall x, In x (varreq rr a) -> vs x = kvars K x) by (intros x Hx; apply vs_bind, Hx).
  assert (H : env_ok (file_env vs cls) K s).
  { apply (@file_env_ok R vs K cls s rr (v_target s) Hs V1). rewrite V2. exact Hx. }
  split; [apply (eo_c H)|]. split; [apply (eo_pq H)|].
  intros x Hu. cbn [ev file_env]. apply Hx. rewrite <- V2. apply (@used_vars_req rr (v_target s) 0 s x V1 Hu).
Qed.
