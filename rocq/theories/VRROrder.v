(** Classes, orders of the auxiliary function and order of calculation of the vertical plan.
    Source: generator/ostei/OSTEI_VRR_Algorithm_Base.cpp:22-59, 213-230, 355-446. *)
From Coq Require Import List Arith Lia Bool Permutation.
Import ListNotations.
From Verif Require Import Base Cart Mdir HRRAlgo VRRStep VRRAlgo.
Set Implicit Arguments.

(** ** Steps of a class *)

Lemma norm_step rr q m s : vrr_step rr q m = Some s -> vrr_step rr q 0 = Some (norm s).
Proof.
  intros H. unfold vrr_step in *. destruct (mdir (cget rr q)) as [i|]; [|discriminate].
  injection H as <-. unfold norm. cbn [v_type v_xyz v_target v_m v_src v_ijkl]. f_equal.
  assert (E : map (norm_src m) (map (mk_src q i m) (src_spec rr)) = map (mk_src q i 0) (src_spec rr)).
  { rewrite map_map. apply map_ext. intros [cs b]. unfold norm_src, mk_src; simpl. f_equal.
    destruct b; lia. }
  rewrite E. destruct rr; reflexivity.
Qed.

Lemma class_vsteps_gen c : forall steps acc,
  NoDup (map v_target acc) -> (forall s, In s acc -> v_m s = 0) ->
  let l := fold_left (fun l s => if qam_eq_dec (qclass (v_target s)) c then vins l (norm s) else l) steps acc in
  NoDup (map v_target l) /\
  (forall s, In s l -> In s acc \/ exists s0, In s0 steps /\ qclass (v_target s0) = c /\ s = norm s0) /\
  (forall s, In s acc -> In s l) /\
  (forall s0, In s0 steps -> qclass (v_target s0) = c -> exists s, In s l /\ v_target s = v_target s0).
Proof.
  induction steps as [|s0 steps IH]; intros acc Hn Hm; cbn [fold_left].
  - split; [exact Hn|]. split; [auto|]. split; [auto|]. intros s [].
  - destruct (qam_eq_dec (qclass (v_target s0)) c) as [E|E].
    + assert (Hn' : NoDup (map v_target (vins acc (norm s0)))).
      { destruct (vins_cases acc (norm s0)) as [[s' [_ [_ [_ K]]]]|[K1 K2]]; [rewrite K; exact Hn|].
        rewrite K1, map_app. apply NoDup_app_intro; [exact Hn|repeat constructor; auto|].
        simpl. intros t Ht [<-|[]]. apply K2. apply in_map_iff in Ht as [s [A B]].
        apply in_map_iff. exists s. split; [|exact B]. rewrite A, (Hm s B). reflexivity. }
      destruct (IH (vins acc (norm s0)) Hn') as [A [B [C D]]].
      { intros s Hs. apply in_vins in Hs as [Hs| ->]; [auto|reflexivity]. }
      split; [exact A|]. split; [|split].
      * intros s Hs. destruct (B s Hs) as [K|[s1 [K1 K2]]].
        -- apply in_vins in K as [K| ->]; [auto|]. right. exists s0. repeat split; auto. left; reflexivity.
        -- right. exists s1. split; [right; exact K1|exact K2].
      * intros s Hs. apply C, vins_incl, Hs.
      * intros s1 [<-|Hs1] Hc; [|auto].
        destruct (vins_cases acc (norm s0)) as [[s' [K1 [K2 [_ K3]]]]|[K1 _]].
        -- exists s'. split; [apply C; rewrite K3; exact K1|exact K2].
        -- exists (norm s0). split; [apply C; rewrite K1; apply in_or_app; right; left; reflexivity|reflexivity].
    + destruct (IH acc Hn Hm) as [A [B [C D]]]. split; [exact A|]. split; [|split; [exact C|]].
      * intros s Hs. destruct (B s Hs) as [K|[s1 [K1 K2]]]; [auto|].
        right; exists s1; split; [right; exact K1|exact K2].
      * intros s1 [<-|Hs1] Hc; [contradiction|auto].
Qed.

Section Plan.
Variables (ords : list ctr) (init : list qrt) (steps : list vstep) (solved lft : list qm).
Hypothesis HS : steps_ok ords init steps solved lft.
(** The requested set is a union of whole classes (OSTEI_HRR_Algorithm_Base.cpp:275-280). *)
Hypothesis Hfull : forall q q', In q init -> qclass q' = qclass q -> In q' init.

Lemma class_vsteps_ok c :
  NoDup (map v_target (class_vsteps steps c)) /\
  (forall s, In s (class_vsteps steps c) -> qclass (v_target s) = c /\
     vdir ords c = Some (v_type s) /\ vrr_step (v_type s) (v_target s) 0 = Some s /\
     exists m, In (v_target s, m) solved) /\
  (forall q m, In (q, m) solved -> qclass q = c -> exists s, In s (class_vsteps steps c) /\ v_target s = q).
Proof.
  destruct (@class_vsteps_gen c steps []) as [A [B [_ D]]]; [constructor|intros s []|].
  fold (class_vsteps steps c) in A, B, D. split; [exact A|]. split.
  - intros s Hs. destruct (B s Hs) as [[]|[s0 [K1 [K2 ->]]]].
    destruct (so_step HS _ K1) as [P1 P2]. cbn [norm v_target v_type].
    split; [exact K2|]. split; [rewrite <- K2; exact P2|]. split; [apply (norm_step _ _ _ P1)|].
    exists (v_m s0). apply (so_solved HS). exists s0; auto.
  - intros q m Hq Hc. apply (so_solved HS) in Hq as [s [H1 [H2 H3]]].
    destruct (D s H1) as [s' [K1 K2]]; [congruence|]. exists s'. split; [exact K1|congruence].
Qed.

Lemma rrstep_ok q m : In (q, m) solved -> rrstep_of steps (qclass q) = vdir ords (qclass q).
Proof.
  intros Hq. destruct (class_vsteps_ok (qclass q)) as [_ [B D]].
  destruct (D q m Hq eq_refl) as [s [H1 H2]]. unfold rrstep_of.
  destruct (class_vsteps steps (qclass q)) as [|s' l] eqn:E; [destruct H1|].
  symmetry. apply (B s'). left; reflexivity.
Qed.

(** ** Requirements and sources agree *)
Lemma amreq_src rr a c : In c (amreq rr a) <->
  exists cs b, In (cs, b) (src_spec rr) /\ b = true /\ alowers cs a = Some c.
Proof.
  unfold amreq, amreq_all, somes. rewrite in_flat_map. split.
  - intros [o [Ho Hc]]. apply in_map_iff in Ho as [cs [<- Hcs]].
    destruct (alowers cs a) as [c'|] eqn:E; [|destruct Hc]. destruct Hc as [<-|[]].
    exists cs, true. split; [|auto].
    destruct rr; simpl in Hcs |- *; repeat destruct Hcs as [<-|Hcs]; try contradiction; tauto.
  - intros [cs [b [Hin [-> Hal]]]]. exists (Some c). split; [|left; reflexivity].
    apply in_map_iff. exists cs. split; [exact Hal|].
    destruct rr; simpl in Hin |- *; repeat destruct Hin as [Hin|Hin]; try contradiction;
      try discriminate; injection Hin as <-; tauto.
Qed.

(** Every source class (with or without m+1) is a required class. *)
Lemma src_in_amreq rr q m s x a : vrr_step rr q m = Some s -> In x (v_src s) -> sc x = Some a ->
  In a (amreq rr (qclass q)).
Proof.
  intros Hs Hx Ha. destruct (step_src_props _ _ _ _ Hs Hx) as [cs [b [Hin [H1 _]]]].
  rewrite H1 in Ha. apply amreq_src. exists cs, true. split; [|auto].
  destruct rr; simpl in Hin |- *; repeat destruct Hin as [Hin|Hin]; try contradiction;
    injection Hin as <- <-; tauto.
Qed.

(** ** Quartets of powers of x only stand for their class *)
Definition pure (a : qam) : qrt := Q4 (G (am0 a) 0 0) (G (am1 a) 0 0) (G (am2 a) 0 0) (G (am3 a) 0 0).

Lemma pure_class a : qclass (pure a) = a.
Proof. destruct a as [x y z w]; unfold qclass, pure, gam; simpl. f_equal; lia. Qed.

Lemma clower_pure c a : clower c DX (pure a) = option_map pure (alower c a).
Proof. destruct a as [x y z w], c; unfold clower, pure, alower; simpl;
  match goal with |- context [match ?n with 0 => _ | _ => _ end] => destruct n; reflexivity end. Qed.
Lemma clowers_pure cs : forall a, clowers cs DX (pure a) = option_map pure (alowers cs a).
Proof.
  induction cs as [|c cs IH]; intros a; simpl; [reflexivity|].
  rewrite clower_pure. destruct (alower c a); simpl; [apply IH|reflexivity].
Qed.

Lemma mdir_pure n : n <> 0 -> mdir (G n 0 0) = Some DX.
Proof.
  intros H. destruct (@mdir_some (G n 0 0)) as [d Hd]; [unfold gam; simpl; lia|].
  rewrite Hd. apply mdir_spec in Hd as [K _]. destruct d; simpl in K; congruence.
Qed.

Lemma step_pure rr a m : aget rr a <> 0 ->
  exists s, vrr_step rr (pure a) m = Some s /\ v_src s = map (mk_src (pure a) DX m) (src_spec rr).
Proof.
  intros H. unfold vrr_step.
  assert (E : mdir (cget rr (pure a)) = Some DX).
  { destruct rr; simpl in *; apply mdir_pure; exact H. }
  rewrite E. eexists; split; reflexivity.
Qed.

Lemma pure_src q m c s x a :
  vreach ords init (pure (qclass q)) m -> vdir ords (qclass q) = Some c ->
  vrr_step c q m = Some s -> In x (v_src s) -> sc x = Some a -> vreach ords init (pure a) (sm x).
Proof.
  intros Hr Hd Hs Hx Ha. destruct (step_src_props _ _ _ _ Hs Hx) as [cs [b [Hin [H1 [_ H3]]]]].
  destruct (@step_pure c (qclass q) m) as [s' [Es' Hs']]; [apply (vdir_some _ _ Hd)|].
  rewrite H3. set (x' := mk_src (pure (qclass q)) DX m (cs, b)).
  change (if b then S m else m) with (sm x').
  apply vr_src with (pure (qclass q)) m c s'; auto.
  - rewrite pure_class. exact Hd.
  - rewrite Hs'. apply in_map. exact Hin.
  - unfold x', mk_src; simpl. rewrite clowers_pure, <- H1, Ha. reflexivity.
Qed.

Lemma pure_reach q m : vreach ords init q m -> vreach ords init (pure (qclass q)) m.
Proof.
  induction 1 as [q Hq|q m c s x q' Hr IH Hd Hs Hx Hq].
  - apply vr_init. apply (@Hfull q); [exact Hq|apply pure_class].
  - apply pure_src with q m c s; auto. apply (src_class _ _ _ _ Hs Hx Hq).
Qed.

(** ** Orders *)
Lemma in_mreq_pairs a m : In (a, m) (mreq_pairs steps) <->
  (a = ssss /\ m = 0) \/
  exists s, In s steps /\ ((qclass (v_target s) = a /\ v_m s = m) \/
                           exists x, In x (v_src s) /\ sc x = Some a /\ sm x = m).
Proof.
  unfold mreq_pairs. simpl. rewrite in_flat_map. split.
  - intros [E|[s [Hs [E|Hx]]]].
    + injection E as <- <-. auto.
    + injection E as <- <-. right. exists s. auto.
    + right. exists s. split; [exact Hs|]. right. apply in_flat_map in Hx as [x [Hx K]].
      destruct (sc x) as [c|] eqn:E; [|destruct K]. destruct K as [K|[]]. injection K as <- <-.
      exists x. auto.
  - intros [[-> ->]|[s [Hs [[<- <-]|[x [Hx [E <-]]]]]]]; [auto| |].
    + right. exists s. split; [exact Hs|left; reflexivity].
    + right. exists s. split; [exact Hs|right]. apply in_flat_map. exists x. split; [exact Hx|].
      rewrite E. left; reflexivity.
Qed.

Lemma fold_max_in l : l <> [] -> In (fold_right Nat.max 0 l) l.
Proof.
  induction l as [|x l IH]; intros H; [congruence|]. simpl. destruct l as [|y l].
  - simpl. left. lia.
  - destruct (Nat.max_spec x (fold_right Nat.max 0 (y :: l))) as [[_ ->]|[_ ->]]; [|left; reflexivity].
    right. apply IH. discriminate.
Qed.
Lemma fold_max_le l x : In x l -> x <= fold_right Nat.max 0 l.
Proof. induction l as [|y l IH]; intros []; simpl; [subst; lia|]. apply IH in H. lia. Qed.

Lemma get_mreq_spec a M : get_mreq steps a = Some M <->
  In (a, M) (mreq_pairs steps) /\ (forall m, In (a, m) (mreq_pairs steps) -> m <= M).
Proof.
  unfold get_mreq.
  assert (Hin : forall m, In m (mreq_of a (mreq_pairs steps)) <-> In (a, m) (mreq_pairs steps)).
  { intros m. unfold mreq_of. rewrite in_map_iff. split.
    - intros [[c n] [<- H]]. apply filter_In in H as [H1 H2]. simpl in *.
      destruct (qam_eq_dec c a); [subst; exact H1|discriminate].
    - intros H. exists (a, m). split; [reflexivity|]. apply filter_In. split; [exact H|]. simpl.
      destruct (qam_eq_dec a a); congruence. }
  destruct (mreq_of a (mreq_pairs steps)) as [|x l] eqn:E.
  - split; [discriminate|]. intros [H _]. apply Hin in H. destruct H.
  - rewrite <- E in *. assert (Hne : mreq_of a (mreq_pairs steps) <> []) by (rewrite E; discriminate).
    split.
    + intros H; injection H as <-. split; [apply Hin, fold_max_in, Hne|].
      intros m Hm. apply fold_max_le, Hin, Hm.
    + intros [H1 H2]. f_equal. apply Nat.le_antisymm.
      * apply H2, Hin, fold_max_in, Hne.
      * apply fold_max_le, Hin, H1.
Qed.

Lemma get_mreq_exists a m : In (a, m) (mreq_pairs steps) -> exists M, get_mreq steps a = Some M /\ m <= M.
Proof.
  intros H.
  destruct (get_mreq steps a) as [M|] eqn:E.
  - exists M. split; [reflexivity|]. apply get_mreq_spec in E as [_ E]. apply E, H.
  - exfalso. unfold get_mreq in E.
    destruct (mreq_of a (mreq_pairs steps)) as [|x l] eqn:E2; [|discriminate].
    assert (K : In m (mreq_of a (mreq_pairs steps))); [|rewrite E2 in K; exact K].
    unfold mreq_of. apply in_map_iff. exists (a, m). split; [reflexivity|]. apply filter_In.
    split; [exact H|]. simpl. destruct (qam_eq_dec a a); congruence.
Qed.

(** Whatever order is recorded for a class is needed by its x-only quartet. *)
Lemma pair_pure a m : In (a, m) (mreq_pairs steps) -> (a = ssss /\ m = 0) \/ vreach ords init (pure a) m.
Proof.
  intros H. apply in_mreq_pairs in H as [H|[s [Hs H]]]; [auto|right].
  destruct (so_step HS _ Hs) as [P1 P2].
  assert (Hr : vreach ords init (v_target s) (v_m s)).
  { apply (so_exact HS). apply (so_solved HS). exists s; auto. }
  destruct H as [[<- <-]|[x [Hx [Ex <-]]]].
  - apply pure_reach, Hr.
  - apply pure_src with (v_target s) (v_m s) (v_type s) s; auto. apply pure_reach, Hr.
Qed.

Lemma pure_solved a m : vreach ords init (pure a) m -> vdir ords a <> None -> In (pure a, m) solved.
Proof. intros H Hd. apply (so_exact HS). rewrite pure_class. auto. Qed.

(** Main statement on orders: one more order of everything a class is built from. *)
Lemma mreq_step q m a rr r : In (q, m) solved -> qclass q = a -> vdir ords a = Some rr -> In r (amreq rr a) ->
  exists M M', get_mreq steps a = Some M /\ get_mreq steps r = Some M' /\ m <= M /\ S M <= M'.
Proof.
  intros Hq Hc Hd Hr.
  assert (Hp : In (a, m) (mreq_pairs steps)).
  { apply in_mreq_pairs. right. apply (so_solved HS) in Hq as [s [A [B C]]]. exists s.
    split; [exact A|]. left. split; congruence. }
  destruct (@get_mreq_exists _ _ Hp) as [M [EM HM]]. exists M.
  pose proof EM as EM'. apply get_mreq_spec in EM' as [K1 K2].
  destruct (@pair_pure _ _ K1) as [[-> _]|Hpure].
  { exfalso. apply vdir_some in Hd as [Hd _]. destruct rr; simpl in Hd; congruence. }
  assert (Hin : In (pure a, M) solved) by (apply pure_solved; [exact Hpure|congruence]).
  apply (so_solved HS) in Hin as [s [A [B C]]]. destruct (so_step HS _ A) as [P1 P2].
  rewrite B, pure_class, Hd in P2. injection P2 as P2.
  destruct (@step_pure rr a M) as [s' [Es Hs]]; [apply (vdir_some _ _ Hd)|].
  rewrite B, C, <- P2, Es in P1. injection P1 as P1. subst s'.
  apply amreq_src in Hr as [cs [b [Hin [-> Hal]]]].
  destruct (@get_mreq_exists r (S M)) as [M' [E' H']].
  { apply in_mreq_pairs. right. exists s. split; [exact A|]. right.
    exists (mk_src (pure a) DX M (cs, true)). split; [rewrite Hs; apply in_map, Hin|].
    unfold mk_src; simpl. rewrite pure_class. auto. }
  exists M'. auto.
Qed.

Lemma mreq_bound L a M : (forall q, In q init -> qtotal (qclass q) <= L) -> get_mreq steps a = Some M ->
  a = ssss /\ M = 0 \/ M + qtotal a <= L.
Proof.
  intros HL H. apply get_mreq_spec in H as [H _]. destruct (@pair_pure _ _ H) as [K|K]; [auto|right].
  pose proof (@reach_bound _ _ _ _ _ HL K) as B. rewrite pure_class in B. exact B.
Qed.

(** A required class is one of the plan unless no preference applies to it. *)
Lemma req_solved a rr r : (exists q m, In (q, m) solved /\ qclass q = a) -> vdir ords a = Some rr ->
  In r (amreq rr a) -> vdir ords r <> None -> exists m, In (pure r, m) solved.
Proof.
  intros [q [m [Hq Hc]]] Hd Hr Hn.
  destruct (@mreq_step _ _ _ _ _ Hq Hc Hd Hr) as [M [M' [_ [E' [_ HM]]]]].
  apply get_mreq_spec in E' as [K _]. destruct (@pair_pure _ _ K) as [[-> ->]|Hp]; [lia|].
  exists M'. apply pure_solved; auto.
Qed.

(** ** Order of calculation *)
Let allam := map (fun t : qm => qclass (fst t)) solved ++ [ssss].

Definition insolved (a : qam) : Prop := exists q m, In (q, m) solved /\ qclass q = a.
Lemma in_allam a : In a allam <-> insolved a \/ a = ssss.
Proof.
  unfold allam, insolved. rewrite in_app_iff, in_map_iff. simpl. split.
  - intros [[[q m] [<- H]]|[<-|[]]]; [left; exists q, m; auto|auto].
  - intros [[q [m [H <-]]]| ->]; [left; exists (q, m); auto|auto].
Qed.
Lemma insolved_dir a : insolved a -> exists rr, vdir ords a = Some rr /\ get_amreq steps a = Some (amreq rr a).
Proof.
  intros [q [m [H <-]]]. pose proof H as H'. apply (so_exact HS) in H' as [_ Hd].
  destruct (vdir ords (qclass q)) as [rr|] eqn:E; [|congruence]. exists rr. split; [reflexivity|].
  unfold get_amreq. rewrite (rrstep_ok _ _ H), E. reflexivity.
Qed.
Lemma insolved_ne a : insolved a -> a <> ssss.
Proof. intros H ->. destruct (insolved_dir H) as [rr [Hd _]]. apply vdir_some in Hd as [Hd _]. destruct rr; simpl in Hd; congruence. Qed.

Lemma amreq_lt rr a r : In r (amreq rr a) -> qtotal r < qtotal a.
Proof.
  intros H. apply amreq_src in H as [cs [b [Hin [_ H]]]]. rewrite (alowers_tot _ _ H).
  pose proof (src_spec_mv _ _ _ Hin) as K. destruct cs; [destruct K|simpl; lia].
Qed.

(** Every class of the list comes after those of its requirements that are in the plan. *)
Definition vordered (order : list qam) : Prop :=
  forall l1 a l2, order = l1 ++ a :: l2 -> forall rr r, vdir ords a = Some rr -> In r (amreq rr a) ->
    insolved r -> In r l1.
Record ord_inv (order : list qam) : Prop := {
  oi_ord : vordered order;
  oi_nodup : NoDup order;
  oi_in : forall a, In a order -> insolved a }.

Lemma vordered_snoc order a : vordered order ->
  (forall rr r, vdir ords a = Some rr -> In r (amreq rr a) -> insolved r -> In r order) -> vordered (order ++ [a]).
Proof.
  intros Ho Ha l1 z l2 E rr r Hd Hr Hs.
  destruct l2 as [|w l2].
  - apply app_inj_tail in E as [<- <-]. apply (Ha rr); auto.
  - destruct (@exists_last _ (w :: l2)) as [l3 [v Ev]]; [discriminate|].
    rewrite Ev in E. rewrite app_comm_cons, app_assoc in E. apply app_inj_tail in E as [E _].
    apply (Ho l1 z l3 E rr); auto.
Qed.

Lemma order_add_ok : forall fuel order a, qtotal a < fuel -> ord_inv order ->
  exists order', order_add steps allam fuel order a = Some order' /\ ord_inv order' /\
    incl order order' /\ (insolved a -> In a order') /\
    (forall b, In b order' -> In b order \/ qtotal b <= qtotal a).
Proof.
  induction fuel as [|f IH]; intros order a Hf HI; [lia|]. cbn [order_add].
  destruct (amem a order) eqn:E1.
  { apply amem_In in E1. exists order. split; [reflexivity|]. split; [exact HI|].
    split; [apply incl_refl|]. auto. }
  apply amem_nIn in E1.
  destruct (negb (amem a allam) || (if qam_eq_dec a ssss then true else false)) eqn:E2.
  { exists order. split; [reflexivity|]. split; [exact HI|]. split; [apply incl_refl|]. split; [|auto].
    intros Hs. exfalso. apply orb_true_iff in E2 as [E2|E2].
    - apply negb_true_iff, amem_nIn in E2. apply E2, in_allam. auto.
    - destruct (qam_eq_dec a ssss) as [->|]; [|discriminate]. apply (insolved_ne Hs). reflexivity. }
  apply orb_false_iff in E2 as [E2 E3]. apply negb_false_iff, amem_In, in_allam in E2.
  assert (Hs : insolved a).
  { destruct E2 as [K| ->]; [exact K|]. destruct (qam_eq_dec ssss ssss); [discriminate|congruence]. }
  destruct (insolved_dir Hs) as [rr [Hd Hreq]]. rewrite Hreq.
  assert (G : forall req order0, (forall r, In r req -> qtotal r < qtotal a) -> ord_inv order0 ->
     exists order', fold_left (fun o c => match o with Some o' => order_add steps allam f o' c | None => None end)
                   req (Some order0) = Some order' /\ ord_inv order' /\ incl order0 order' /\
       (forall r, In r req -> insolved r -> In r order') /\
       (forall b, In b order' -> In b order0 \/ qtotal b < qtotal a)).
  { induction req as [|r req IHr]; intros order0 Hr H0.
    - exists order0. simpl. split; [reflexivity|]. split; [exact H0|]. split; [apply incl_refl|].
      split; [intros r []|auto].
    - cbn [fold_left]. destruct (IH order0 r) as [o1 [Eo [I1 [L1 [S1 T1]]]]];
        [pose proof (Hr r (or_introl eq_refl)); lia|exact H0|]. rewrite Eo.
      destruct (IHr o1) as [o2 [Eo2 [I2 [L2 [S2 T2]]]]]; [intros; apply Hr; right; auto|exact I1|].
      exists o2. split; [exact Eo2|]. split; [exact I2|]. split; [intros b Hb; apply L2, L1, Hb|].
      split; [intros r' [<-|Hr'] Hs'; [apply L2, S1, Hs'|apply S2; auto]|].
      intros b Hb. destruct (T2 b Hb) as [K|K]; [|auto]. destruct (T1 b K) as [K'|K']; [auto|].
      pose proof (Hr r (or_introl eq_refl)). right; lia. }
  destruct (G (amreq rr a) order) as [o' [Eo [I' [L' [S' T']]]]]; [intros; eapply amreq_lt; eauto|exact HI|].
  rewrite Eo. exists (o' ++ [a]). split; [reflexivity|].
  assert (Hna : ~ In a o') by (intros K; destruct (T' a K); [contradiction|lia]).
  split; [constructor|split; [|split]].
  - apply vordered_snoc; [apply I'|]. intros rr' r Hd' Hr Hr'. rewrite Hd in Hd'. injection Hd' as <-.
    apply S'; auto.
  - apply NoDup_app_intro; [apply I'|repeat constructor; auto|]. intros x Hx [<-|[]]. contradiction.
  - intros b Hb. apply in_app_or in Hb as [Hb|[<-|[]]]; [apply I', Hb|exact Hs].
  - intros b Hb. apply in_or_app; left; apply L', Hb.
  - intros _. apply in_or_app; right; left; reflexivity.
  - intros b Hb. apply in_app_or in Hb as [Hb|[<-|[]]]; [|right; lia].
    destruct (T' b Hb); [auto|right; lia].
Qed.

Lemma order_fold_ok fuel : forall l order, (forall q, In q l -> qtotal (qclass q) < fuel) -> ord_inv order ->
  exists order', fold_left (fun o q => match o with
                                | Some o' => order_add steps allam fuel o' (qclass q)
                                | None => None end) l (Some order) = Some order' /\ ord_inv order' /\
    incl order order' /\ (forall q, In q l -> insolved (qclass q) -> In (qclass q) order').
Proof.
  induction l as [|q l IH]; intros order Hf HI.
  - exists order. simpl. split; [reflexivity|]. split; [exact HI|]. split; [apply incl_refl|intros q []].
  - cbn [fold_left]. destruct (@order_add_ok fuel order (qclass q)) as [o1 [E1 [I1 [L1 [S1 _]]]]];
      [apply Hf; left; reflexivity|exact HI|]. rewrite E1.
    destruct (IH o1) as [o2 [E2 [I2 [L2 S2]]]]; [intros; apply Hf; right; assumption|exact I1|].
    exists o2. split; [exact E2|]. split; [exact I2|]. split; [intros b Hb; apply L2, L1, Hb|].
    intros q' [<-|Hq'] Hs; [apply L2, S1, Hs|apply S2; auto].
Qed.

(** The list holds every class of the plan. *)
Lemma order_all order : ord_inv order ->
  (forall q, In q init -> insolved (qclass q) -> In (qclass q) order) ->
  forall q m, vreach ords init q m -> insolved (qclass q) -> In (qclass q) order.
Proof.
  intros HI Hi q m Hr. induction Hr as [q Hq|q m c s x q' Hr IH Hd Hs Hx Hq]; [auto|].
  intros Hins.
  assert (Hsq : insolved (qclass q)).
  { exists q, m. split; [|reflexivity]. apply (so_exact HS). split; [exact Hr|congruence]. }
  apply IH in Hsq. destruct (in_split _ _ Hsq) as [l1 [l2 E]].
  assert (K : In (qclass q') l1).
  { apply (oi_ord HI l1 (qclass q) l2 E Hd); auto. apply src_in_amreq with m s x; auto.
    apply (src_class _ _ _ _ Hs Hx Hq). }
  rewrite E. apply in_or_app; auto.
Qed.
End Plan.

(** ** The result *)
Definition covers (ords : list ctr) : Prop := forall c, In c ords.
Definition whole_classes (init : list qrt) : Prop :=
  forall q q', In q init -> qclass q' = qclass q -> In q' init.

(** [known p a]: the plan computes (part of) class [a]. *)
Definition known (p : vplan) (a : qam) : Prop := exists q m, In (q, m) (vp_solved p) /\ qclass q = a.

Record vplan_ok (ords : list ctr) (init : list qrt) (p : vplan) : Prop := {
  vo_steps : steps_ok ords init (vp_steps p) (vp_solved p) (vp_left p);
  (* one direction per class *)
  vo_dir : forall a, known p a -> exists rr, vdir ords a = Some rr /\ rrstep_of (vp_steps p) a = Some rr /\
     get_amreq (vp_steps p) a = Some (amreq rr a);
  (* the list is exactly the classes of the plan, each once, after its requirements *)
  vo_order : forall a, In a (vp_order p) <-> known p a;
  vo_once : NoDup (vp_order p);
  vo_before : forall l1 a l2 rr r, vp_order p = l1 ++ a :: l2 -> vdir ords a = Some rr ->
     In r (amreq rr a) -> vdir ords r <> None -> In r l1;
  (* orders of the auxiliary function *)
  vo_mreq : forall a, known p a -> exists M rr, get_mreq (vp_steps p) a = Some M /\ vdir ords a = Some rr /\
     (forall q m, In (q, m) (vp_solved p) -> qclass q = a -> m <= M) /\
     forall r, In r (amreq rr a) -> exists M', get_mreq (vp_steps p) r = Some M' /\ S M <= M';
  vo_mbound : forall a M L, (forall q, In q init -> qtotal (qclass q) <= L) ->
     get_mreq (vp_steps p) a = Some M -> M + qtotal a <= L;
  vo_ssss : exists M, get_mreq (vp_steps p) ssss = Some M }.

Lemma qtotal_0 a : qtotal a = 0 <-> a = ssss.
Proof. destruct a as [x y z w]; unfold qtotal, ssss; simpl. split; [intros H; f_equal; lia|]. intros E; injection E; lia. Qed.

Lemma covers_dir ords a : covers ords -> (vdir ords a = None <-> a = ssss).
Proof.
  intros H. rewrite vdir_none, <- qtotal_0. unfold qtotal. split.
  - intros K. pose proof (K CI (H _)). pose proof (K CJ (H _)). pose proof (K CK (H _)). pose proof (K CL (H _)).
    simpl in *. lia.
  - intros K c _. destruct c; simpl; lia.
Qed.

Theorem vrr_create_ok enum enumq fuel ords init :
  enum_ok enum -> enum_ok enumq -> whole_classes init ->
  (forall q, In q init -> qtotal (qclass q) < fuel) ->
  exists p, vrr_create enum enumq fuel ords init = Some p /\ vplan_ok ords init p.
Proof.
  intros He Hq Hw Hf.
  destruct (@vouter_ok enum fuel ords init He) as [steps [solved [lft [E HS]]]].
  { intros q H. apply Hf in H. lia. }
  unfold vrr_create. rewrite E. cbv zeta.
  destruct (Hq init) as [_ Hqi].
  destruct (@order_fold_ok ords init steps solved lft HS fuel (enumq init) []) as [ord [Eo [I [_ S]]]].
  { intros q H. apply Hf, Hqi, H. }
  { constructor; [|constructor|intros a []]. intros l1 a l2 K. destruct l1; discriminate. }
  rewrite Eo. eexists; split; [reflexivity|].
  assert (Hord : forall a, In a ord <-> insolved solved a).
  { intros a. split; [apply I|]. intros Ha. pose proof Ha as [q [m [H <-]]].
    apply (order_all HS I) with m; auto; [|apply (so_exact HS) in H; apply H].
    intros q' Hq' K. apply S; [apply Hqi, Hq'|exact K]. }
  constructor; cbn [vp_steps vp_solved vp_left vp_order vp_allam].
  - exact HS.
  - intros a Ha. destruct (insolved_dir HS Ha) as [rr [H1 H2]]. exists rr. repeat split; auto.
    destruct Ha as [q [m [H <-]]]. rewrite (rrstep_ok HS _ _ H). exact H1.
  - exact Hord.
  - apply I.
  - intros l1 a l2 rr r El Hd Hr Hn.
    apply (oi_ord I l1 a l2 El Hd Hr).
    assert (Ha : insolved solved a) by (apply Hord; rewrite El; apply in_or_app; right; left; reflexivity).
    destruct (@req_solved _ _ _ _ _ HS Hw a rr r Ha Hd Hr Hn) as [m K]. exists (pure r), m. split; [exact K|apply pure_class].
  - intros a [q [m [H1 H2]]].
    assert (Hp : In (a, m) (mreq_pairs steps)).
    { apply in_mreq_pairs. right. apply (so_solved HS) in H1 as [s [A [B C]]]. exists s.
      split; [exact A|]. left. split; congruence. }
    destruct (@get_mreq_exists _ _ _ Hp) as [M [EM HM]].
    pose proof H1 as H1'. apply (so_exact HS) in H1' as [_ Hd]. rewrite H2 in Hd.
    destruct (vdir ords a) as [rr|] eqn:Ed; [|congruence].
    exists M, rr. split; [exact EM|]. split; [reflexivity|]. split.
    + intros q' m' K1 K2. apply get_mreq_spec in EM as [_ EM]. apply EM.
      apply in_mreq_pairs. right. apply (so_solved HS) in K1 as [s [A [B C]]]. exists s.
      split; [exact A|]. left. split; congruence.
    + intros r Hr. destruct (@mreq_step _ _ _ _ _ HS Hw _ _ _ _ r H1 H2 Ed Hr) as [M1 [M' [E1 [E2 [_ E3]]]]].
      exists M'. split; [exact E2|]. congruence.
  - intros a M L HL EM. destruct (@mreq_bound _ _ _ _ _ HS Hw _ _ _ HL EM) as [[-> ->]|K]; [|exact K].
    unfold qtotal; simpl. lia.
  - destruct (@get_mreq_exists steps ssss 0) as [M [EM _]]; [apply in_mreq_pairs; auto|]. exists M; exact EM.
Qed.

(** [Create] uses every centre once, whatever the requests. *)
Lemma sins_in key c l d : In d (sins key c l) <-> d = c \/ In d l.
Proof.
  induction l as [|e l IH]; simpl; [intuition|].
  destruct (key c <? key e); simpl; [intuition|]. rewrite IH. tauto.
Qed.
Lemma idx_order_covers init : covers (idx_order init).
Proof. intros c. unfold idx_order. cbn [fold_left]. rewrite !sins_in. destruct c; tauto. Qed.

(** [Create]: all four centres are used, so the only thing left is (ss|ss). *)
Theorem vrr_plan_ok enum enumq fuel ords init :
  enum_ok enum -> enum_ok enumq -> whole_classes init -> covers ords ->
  (forall q, In q init -> qtotal (qclass q) < fuel) ->
  exists p, vrr_create enum enumq fuel ords init = Some p /\ vplan_ok ords init p /\
    (forall q m, In (q, m) (vp_left p) -> qclass q = ssss) /\
    (forall q m, vreach ords init q m -> qclass q <> ssss -> exists s, In s (vp_steps p) /\ v_target s = q /\ v_m s = m) /\
    (forall l1 a l2 rr r, vp_order p = l1 ++ a :: l2 -> vdir ords a = Some rr ->
       In r (amreq rr a) -> r <> ssss -> In r l1).
Proof.
  intros He Hq Hw Hc Hf. destruct (@vrr_create_ok enum enumq fuel ords init He Hq Hw Hf) as [p [E P]].
  exists p. split; [exact E|]. split; [exact P|]. split; [|split].
  - intros q m H. apply (so_left (vo_steps P)) in H as [_ H]. apply covers_dir in H; auto.
  - intros q m H Hn. apply (so_solved (vo_steps P)). apply (so_exact (vo_steps P)).
    split; [exact H|]. rewrite covers_dir by exact Hc. exact Hn.
  - intros l1 a l2 rr r H1 H2 H3 H4. apply (@vo_before _ _ _ P l1 a l2 rr r H1 H2 H3).
    rewrite covers_dir by exact Hc. exact H4.
Qed.

(** Auxiliary orders, in terms of steps and of the numbers the writers use. *)
Theorem vrr_orders_ok enum enumq fuel ords init :
  enum_ok enum -> enum_ok enumq -> whole_classes init ->
  (forall q, In q init -> qtotal (qclass q) < fuel) ->
  exists p, vrr_create enum enumq fuel ords init = Some p /\
    (* every class of the plan and (ss|ss) has a number; every order needed is below it *)
    (forall q m, vreach ords init q m -> vdir ords (qclass q) <> None ->
       exists M, get_mreq (vp_steps p) (qclass q) = Some M /\ m <= M) /\
    (exists M, get_mreq (vp_steps p) ssss = Some M) /\
    (* a class computed for orders 0..M reads orders 0..M+1 of what it is built from *)
    (forall a M rr r, In a (vp_order p) -> get_mreq (vp_steps p) a = Some M -> vdir ords a = Some rr ->
       In r (amreq rr a) -> exists M', get_mreq (vp_steps p) r = Some M' /\ S M <= M') /\
    (forall a M L, (forall q, In q init -> qtotal (qclass q) <= L) ->
       get_mreq (vp_steps p) a = Some M -> M + qtotal a <= L).
Proof.
  intros He Hq Hw Hf. destruct (@vrr_create_ok enum enumq fuel ords init He Hq Hw Hf) as [p [E P]].
  exists p. split; [exact E|]. split; [|split; [exact (vo_ssss P)|split]].
  - intros q m Hr Hd.
    assert (Hs : In (q, m) (vp_solved p)) by (apply (so_exact (vo_steps P)); auto).
    destruct (@vo_mreq _ _ _ P (qclass q)) as [M [rr [H1 [_ [H2 _]]]]]; [exists q, m; auto|].
    exists M. split; [exact H1|]. apply (H2 q m); auto.
  - intros a M rr r Ha HM Hd Hr. apply (vo_order P) in Ha.
    destruct (@vo_mreq _ _ _ P a Ha) as [M1 [rr1 [H1 [H2 [_ H3]]]]].
    assert (M1 = M) by congruence. assert (rr1 = rr) by congruence. subst. apply H3, Hr.
  - intros a M L HL HM. exact (@vo_mbound _ _ _ P a M L HL HM).
Qed.
