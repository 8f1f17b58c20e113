(** The vertical recurrence plan.
    Source: generator/ostei/OSTEI_VRR_Algorithm_Base.cpp:13-530.

    std::set iteration order is a parameter [enum] ([enum_ok]: same elements, no duplicates).
    Tags are left out: [Create_WithOrder] strips the quartet tags at lines 296-298. *)
From Coq Require Import List Arith Lia Bool Permutation.
Import ListNotations.
From Verif Require Import Base Cart Mdir HRRAlgo VRRStep.
Set Implicit Arguments.

(** A quartet with its order [m]. *)
Definition qm : Type := (qrt * nat)%type.
Definition qm_eq_dec (a b : qm) : {a = b} + {a <> b}.
Proof. decide equality; [apply Nat.eq_dec|apply qrt_eq_dec]. Defined.
Definition qmem (t : qm) (l : list qm) : bool := if in_dec qm_eq_dec t l then true else false.
Lemma qmem_In t l : qmem t l = true <-> In t l.
Proof. unfold qmem. destruct (in_dec qm_eq_dec t l); split; intros; auto; discriminate. Qed.
Lemma qmem_nIn t l : qmem t l = false <-> ~ In t l.
Proof. unfold qmem. destruct (in_dec qm_eq_dec t l); split; intros; auto; try discriminate; contradiction. Qed.
Definition amem (a : qam) (l : list qam) : bool := if in_dec qam_eq_dec a l then true else false.
Lemma amem_In a l : amem a l = true <-> In a l.
Proof. unfold amem. destruct (in_dec qam_eq_dec a l); split; intros; auto; discriminate. Qed.
Lemma amem_nIn a l : amem a l = false <-> ~ In a l.
Proof. unfold amem. destruct (in_dec qam_eq_dec a l); split; intros; auto; try discriminate; contradiction. Qed.

Definition mvam (rr : ctr) (t : qm) : nat := aget rr (qclass (fst t)).
Definition tot (t : qm) : nat := qtotal (qclass (fst t)).

(** [PruneQuartets_(q)], lines 124-135; members are valid by construction. *)
Definition prune0 (l : list qm) : list qm := filter (fun t => negb (tot t =? 0)) l.
(** [PruneQuartets_(q, rrstep)], lines 137-160: kept, and returned. *)
Definition mine (rr : ctr) (l : list qm) : list qm :=
  filter (fun t => negb (mvam rr t =? 0)) (prune0 l).
Definition not_mine (rr : ctr) (l : list qm) : list qm :=
  filter (fun t => mvam rr t =? 0) (prune0 l).

(** Insertion in the set of steps of a class: [VRRStep::operator<] compares targets only
    (OSTEI_Types.hpp:75-78), so a second step for the same target is not inserted. *)
Definition same_target (s s' : vstep) : bool :=
  if qm_eq_dec (v_target s, v_m s) (v_target s', v_m s') then true else false.
Definition vins (l : list vstep) (s : vstep) : list vstep :=
  if existsb (same_target s) l then l else l ++ [s].

Record vstate := VSt { st_steps : list vstep; st_new : list qm; st_solved : list qm }.

(** Valid sources not yet solved, lines 330-337. *)
Definition new_srcs (solved : list qm) (s : vstep) : list qm :=
  flat_map (fun x => match sq x with
                     | Some q => if qmem (q, sm x) solved then [] else [(q, sm x)]
                     | None => []
                     end) (v_src s).

(** Body of the [for], lines 323-341.  [newmap] is kept as one list of steps. *)
Definition vround1 (rr : ctr) (t : qm) (s : vstate) : option vstate :=
  match vrr_step rr (fst t) (snd t) with
  | None => None
  | Some vs => Some (VSt (vins (st_steps s) vs) (st_new s ++ new_srcs (st_solved s) vs) (t :: st_solved s))
  end.
Fixpoint vround (rr : ctr) (ts : list qm) (s : vstate) : option vstate :=
  match ts with
  | [] => Some s
  | t :: r => match vround1 rr t s with Some s' => vround rr r s' | None => None end
  end.

Section Create.
Variable enum : list qm -> list qm.

(** The [while], lines 319-352; [None] when fuel runs out.  Third component: [targets]. *)
Fixpoint vloop (rr : ctr) (fuel : nat) (my : list qm) (steps : list vstep) (solved targets : list qm)
  : option (list vstep * list qm * list qm) :=
  match my with
  | [] => Some (steps, solved, targets)
  | _ :: _ =>
    match fuel with
    | 0 => None
    | S f =>
      match vround rr (enum my) (VSt steps [] solved) with
      | None => None
      | Some s => vloop rr f (mine rr (st_new s)) (st_steps s) (st_solved s)
                        (targets ++ not_mine rr (st_new s))
      end
    end
  end.

(** The outer [for], lines 307-353; [ords] is [idx_order] up to the first negative entry. *)
Fixpoint vouter (fuel : nat) (ords : list ctr) (steps : list vstep) (solved targets : list qm)
  : option (list vstep * list qm * list qm) :=
  match ords with
  | [] => Some (steps, solved, targets)
  | rr :: rest =>
    match vloop rr fuel (mine rr targets) steps solved (not_mine rr targets) with
    | Some (st, so, tg) => vouter fuel rest st so tg
    | None => None
    end
  end.
End Create.

(** [vrrmreq_max_], lines 361-381: every (class, order) that is recorded. *)
Definition mreq_pairs (steps : list vstep) : list (qam * nat) :=
  (ssss, 0) ::
  flat_map (fun s => (qclass (v_target s), v_m s) ::
     flat_map (fun x => match sc x with Some c => [(c, sm x)] | None => [] end) (v_src s)) steps.
(** [GetMReq]; [None] is the exception of [at]. *)
Definition mreq_of (c : qam) (l : list (qam * nat)) : list nat :=
  map snd (filter (fun p => if qam_eq_dec (fst p) c then true else false) l).
Definition get_mreq (steps : list vstep) (c : qam) : option nat :=
  match mreq_of c (mreq_pairs steps) with
  | [] => None
  | l => Some (fold_right Nat.max 0 l)
  end.

(** Steps with [m] taken to zero, [vrrmap_], lines 376-384. *)
Definition norm_src (m : nat) (x : vsrc) : vsrc := VSrc (sq x) (sc x) (sm x - m).
Definition norm (s : vstep) : vstep :=
  VS (v_type s) (v_xyz s) (v_target s) 0 (map (norm_src (v_m s)) (v_src s)) (v_ijkl s).
Definition class_vsteps (steps : list vstep) (c : qam) : list vstep :=
  fold_left (fun l s => if qam_eq_dec (qclass (v_target s)) c then vins l (norm s) else l) steps [].

(** [GetRRStep], lines 22-26: type of one step of the class; [None]: nothing stored. *)
Definition rrstep_of (steps : list vstep) (c : qam) : option ctr :=
  match class_vsteps steps c with [] => None | s :: _ => Some (v_type s) end.

(** [GenerateAMReq(am, rrstep, true)], lines 482-514. *)
Definition amreq_spec (rr : ctr) : list (list ctr) :=
  match rr with
  | CI => [[CI]; [CI; CI]; [CJ; CI]; [CK; CI]; [CL; CI]]
  | CJ => [[CJ]; [CI; CJ]; [CJ; CJ]; [CK; CJ]; [CL; CJ]]
  | CK => [[CK]; [CK; CK]; [CL; CK]; [CI; CK]; [CJ; CK]]
  | CL => [[CL]; [CK; CL]; [CL; CL]; [CI; CL]; [CJ; CL]]
  end.
Definition amreq_all (rr : ctr) (a : qam) : list (option qam) := map (fun cs => alowers cs a) (amreq_spec rr).
(** ... with the invalid ones removed, lines 516-527. *)
Definition somes A (l : list (option A)) : list A :=
  flat_map (fun o => match o with Some a => [a] | None => [] end) l.
Definition amreq (rr : ctr) (a : qam) : list qam := somes (amreq_all rr a).
(** [GetAMReq], lines 44-59. *)
Definition get_amreq (steps : list vstep) (a : qam) : option (list qam) :=
  match rrstep_of steps a with Some rr => Some (amreq rr a) | None => None end.

(** [AMOrder_AddWithDependencies_], lines 213-230. *)
Fixpoint order_add (steps : list vstep) (allam : list qam) (fuel : nat) (order : list qam) (a : qam)
  : option (list qam) :=
  match fuel with
  | 0 => None
  | S f =>
    if amem a order then Some order
    else if negb (amem a allam) || (if qam_eq_dec a ssss then true else false) then Some order
    else match get_amreq steps a with
         | None => None
         | Some req =>
           match fold_left (fun o c => match o with Some o' => order_add steps allam f o' c | None => None end)
                   req (Some order) with
           | Some o => Some (o ++ [a])
           | None => None
           end
         end
  end.

(** ** The plan *)
Record vplan := VP { vp_steps : list vstep; vp_solved : list qm; vp_left : list qm;
                     vp_allam : list qam; vp_order : list qam }.

(** [Create_WithOrder], lines 289-446. *)
Definition vrr_create (enum : list qm -> list qm) (enumq : list qrt -> list qrt) (fuel : nat)
  (ords : list ctr) (init : list qrt) : option vplan :=
  let targets := prune0 (map (fun q => (q, 0)) init) in
  match vouter enum fuel ords [] [] targets with
  | None => None
  | Some (steps, solved, lft) =>
    let allam := map (fun t : qm => qclass (fst t)) solved ++ [ssss] in
    match fold_left (fun o q => match o with
                                | Some o' => order_add steps allam fuel o' (qclass q)
                                | None => None end) (enumq init) (Some []) with
    | None => None
    | Some ord => Some (VP steps solved lft allam ord)
    end
  end.

(** [Create], lines 449-469: stable sort of {3, 2, 1, 0} by the highest momentum. *)
Definition qmax (l : list qrt) (c : ctr) : nat := fold_right Nat.max 0 (map (fun q => gam (cget c q)) l).
Fixpoint sins (key : ctr -> nat) (c : ctr) (l : list ctr) : list ctr :=
  match l with
  | [] => [c]
  | d :: r => if key c <? key d then c :: l else d :: sins key c r
  end.
Definition idx_order (init : list qrt) : list ctr :=
  fold_left (fun l c => sins (qmax init) c l) [CL; CK; CJ; CI] [].

(** ** Integer constants, lines 388-435. *)
Definition maxint (steps : list vstep) : nat :=
  fold_left (fun mx s => fold_left Nat.max (map (v_ijkl s) [CI; CJ; CK; CL]) mx) steps 0.
Definition ints_side (sd : side) (steps : list vstep) : list nat :=
  flat_map (fun s => match cside (v_type s), sd with
     | SB, SB => (if valid (v_src s) 2 || valid (v_src s) 3 then [v_ijkl s CI] else []) ++
                 (if valid (v_src s) 4 || valid (v_src s) 5 then [v_ijkl s CJ] else [])
     | SK, SK => (if valid (v_src s) 2 || valid (v_src s) 3 then [v_ijkl s CK] else []) ++
                 (if valid (v_src s) 4 || valid (v_src s) 5 then [v_ijkl s CL] else [])
     | _, _ => []
     end) steps.
Definition ints_pq (steps : list vstep) : list nat :=
  flat_map (fun s => match cside (v_type s) with
     | SB => (if valid (v_src s) 6 then [v_ijkl s CK] else []) ++
             (if valid (v_src s) 7 then [v_ijkl s CL] else [])
     | SK => (if valid (v_src s) 6 then [v_ijkl s CI] else []) ++
             (if valid (v_src s) 7 then [v_ijkl s CJ] else [])
     end) steps.

(** ** Specification vocabulary *)

(** The centre a class is stepped on: first preference with momentum. *)
Fixpoint vdir (ords : list ctr) (a : qam) : option ctr :=
  match ords with
  | [] => None
  | c :: r => if aget c a =? 0 then vdir r a else Some c
  end.

(** What is needed to compute [init]. *)
Inductive vreach (ords : list ctr) (init : list qrt) : qrt -> nat -> Prop :=
| vr_init : forall q, In q init -> vreach ords init q 0
| vr_src : forall q m c s x q', vreach ords init q m -> vdir ords (qclass q) = Some c ->
    vrr_step c q m = Some s -> In x (v_src s) -> sq x = Some q' -> vreach ords init q' (sm x).

Lemma in_prune0 l t : In t (prune0 l) <-> In t l /\ tot t <> 0.
Proof. unfold prune0. rewrite filter_In, negb_true_iff, Nat.eqb_neq. tauto. Qed.
Lemma in_mine rr l t : In t (mine rr l) <-> In t l /\ tot t <> 0 /\ mvam rr t <> 0.
Proof. unfold mine. rewrite filter_In, in_prune0, negb_true_iff, Nat.eqb_neq. tauto. Qed.
Lemma in_not_mine rr l t : In t (not_mine rr l) <-> In t l /\ tot t <> 0 /\ mvam rr t = 0.
Proof. unfold not_mine. rewrite filter_In, in_prune0, Nat.eqb_eq. tauto. Qed.

Lemma tot_mv rr t : mvam rr t <> 0 -> tot t <> 0.
Proof. unfold tot, mvam, qtotal. destruct rr; simpl; lia. Qed.

Lemma in_new_srcs solved s t : In t (new_srcs solved s) <->
  exists x q, In x (v_src s) /\ sq x = Some q /\ t = (q, sm x) /\ ~ In t solved.
Proof.
  unfold new_srcs. rewrite in_flat_map. split.
  - intros [x [Hx Ht]]. destruct (sq x) as [q|] eqn:E; [|destruct Ht].
    destruct (qmem (q, sm x) solved) eqn:E2; [destruct Ht|]. destruct Ht as [<-|[]].
    exists x, q. repeat split; auto. apply qmem_nIn; exact E2.
  - intros [x [q [Hx [Hq [-> Hn]]]]]. exists x. split; [exact Hx|]. rewrite Hq.
    apply qmem_nIn in Hn. rewrite Hn. left; reflexivity.
Qed.

(** Sources of a step: momenta at most those of the target, the mover's less; order m or m+1
    with the total momentum dropping at least as much. *)
Lemma alower_le c a a' d : alower c a = Some a' -> aget d a' <= aget d a.
Proof. destruct a, c, d; unfold alower; simpl; intros H;
  repeat match type of H with context [match ?n with _ => _ end] => destruct n end;
  try discriminate; injection H as <-; simpl; lia. Qed.
Lemma alower_lt c a a' : alower c a = Some a' -> aget c a = S (aget c a').
Proof. destruct a, c; unfold alower; simpl; intros H;
  repeat match type of H with context [match ?n with _ => _ end] => destruct n end;
  try discriminate; injection H as <-; simpl; lia. Qed.
Lemma alower_tot c a a' : alower c a = Some a' -> qtotal a = S (qtotal a').
Proof. destruct a, c; unfold alower, qtotal; simpl; intros H;
  repeat match type of H with context [match ?n with _ => _ end] => destruct n end;
  try discriminate; injection H as <-; simpl; lia. Qed.
Lemma alower_some c a : aget c a <> 0 -> exists a', alower c a = Some a'.
Proof. destruct a, c; simpl; intros H;
  match goal with H : ?n <> 0 |- _ => destruct n; [congruence|eauto] end. Qed.

Lemma alowers_le cs : forall a a' d, alowers cs a = Some a' -> aget d a' <= aget d a.
Proof.
  induction cs as [|c cs IH]; intros a a' d H; simpl in H; [injection H as <-; lia|].
  destruct (alower c a) as [a1|] eqn:E; [|discriminate].
  pose proof (alower_le _ _ d E). pose proof (IH _ _ d H). lia.
Qed.
Lemma alowers_lt cs : forall a a' c, In c cs -> alowers cs a = Some a' -> aget c a' < aget c a.
Proof.
  induction cs as [|c cs IH]; intros a a' d Hd H; simpl in H; [destruct Hd|].
  destruct (alower c a) as [a1|] eqn:E; [|discriminate].
  destruct Hd as [->|Hd].
  - pose proof (alower_lt _ _ E). pose proof (alowers_le _ _ d H). lia.
  - pose proof (alower_le _ _ d E). pose proof (IH _ _ _ Hd H). lia.
Qed.
Lemma alowers_tot cs : forall a a', alowers cs a = Some a' -> qtotal a = length cs + qtotal a'.
Proof.
  induction cs as [|c cs IH]; intros a a' H; simpl in H; [injection H as <-; reflexivity|].
  destruct (alower c a) as [a1|] eqn:E; [|discriminate].
  rewrite (alower_tot _ _ E), (IH _ _ H). reflexivity.
Qed.

Lemma src_spec_mv rr cs b : In (cs, b) (src_spec rr) -> In rr cs.
Proof. destruct rr; simpl; intros H; repeat destruct H as [H|H]; try (injection H as <- <-; simpl; auto); destruct H. Qed.

Lemma step_src_props rr q m s x : vrr_step rr q m = Some s -> In x (v_src s) ->
  exists cs b, In (cs, b) (src_spec rr) /\ sc x = alowers cs (qclass q) /\
    sq x = clowers cs (v_xyz s) q /\ sm x = (if b then S m else m).
Proof.
  intros Hs Hx. apply vrr_step_raise in Hs as [i [q0 [_ [_ ->]]]]. cbn [v_src v_xyz] in *.
  apply in_map_iff in Hx as [[cs b] [<- H]]. exists cs, b. repeat split; auto.
Qed.

Lemma src_class rr q m s x q' : vrr_step rr q m = Some s -> In x (v_src s) -> sq x = Some q' ->
  sc x = Some (qclass q').
Proof.
  intros Hs Hx Hq. destruct (step_src_props _ _ _ _ Hs Hx) as [cs [b [_ [H1 [H2 _]]]]].
  rewrite H1. rewrite H2 in Hq. apply (clowers_class _ _ _ Hq).
Qed.

Lemma src_class_facts rr q m s x a : vrr_step rr q m = Some s -> In x (v_src s) -> sc x = Some a ->
  (forall d, aget d a <= aget d (qclass q)) /\ aget rr a < aget rr (qclass q) /\
  sm x + qtotal a <= m + qtotal (qclass q) /\ m <= sm x <= S m.
Proof.
  intros Hs Hx Ha. destruct (step_src_props _ _ _ _ Hs Hx) as [cs [b [Hin [H1 [_ H3]]]]].
  rewrite H1 in Ha. pose proof (src_spec_mv _ _ _ Hin) as Hmv.
  split; [intros d; apply (alowers_le _ _ d Ha)|]. split; [apply (alowers_lt _ _ _ Hmv Ha)|].
  rewrite (alowers_tot _ _ Ha), H3. destruct cs; [destruct Hmv|]. simpl. destruct b; lia.
Qed.

Lemma vrr_step_target rr q m s : vrr_step rr q m = Some s ->
  v_type s = rr /\ v_target s = q /\ v_m s = m.
Proof. intros H. apply vrr_step_raise in H as [i [q0 [_ [_ ->]]]]. auto. Qed.

(** ** Invariant of the loops *)
Section Inv.
Variable enum : list qm -> list qm.
Hypothesis Hen : enum_ok enum.
Variable init : list qrt.
Variable ords : list ctr.

Definition reach (t : qm) : Prop := vreach ords init (fst t) (snd t).

(** [pend]: everything still to be looked at. *)
Record vinv (pend : list qm) (steps : list vstep) (solved : list qm) : Prop := {
  vi_step : forall s, In s steps -> vrr_step (v_type s) (v_target s) (v_m s) = Some s /\
              vdir ords (qclass (v_target s)) = Some (v_type s);
  vi_tgt : forall t, In t solved <-> In t (map (fun s => (v_target s, v_m s)) steps);
  vi_nodup : NoDup (map (fun s => (v_target s, v_m s)) steps);
  vi_reach : forall t, In t solved -> reach t;
  vi_src : forall s x q, In s steps -> In x (v_src s) -> sq x = Some q ->
     In (q, sm x) solved \/ In (q, sm x) pend \/ qtotal (qclass q) = 0 }.

Lemma vinv_mono pend pend' steps solved :
  (forall t, In t pend -> In t solved \/ In t pend' \/ tot t = 0) -> vinv pend steps solved -> vinv pend' steps solved.
Proof.
  intros Hi [H1 H2 H3 H4 H5]. constructor; auto. intros s x q Hs Hx Hq.
  destruct (H5 s x q Hs Hx Hq) as [K|[K|K]]; auto. destruct (Hi _ K) as [K'|[K'|K']]; auto.
Qed.

Lemma in_vins l s s' : In s' (vins l s) -> In s' l \/ s' = s.
Proof.
  unfold vins. destruct (existsb (same_target s) l); [auto|].
  intros H; apply in_app_or in H as [H|[H|[]]]; auto.
Qed.
Lemma vins_incl l s s' : In s' l -> In s' (vins l s).
Proof. unfold vins. destruct (existsb (same_target s) l); [auto|]. intros; apply in_or_app; auto. Qed.
Lemma vins_cases l s : (exists s', In s' l /\ v_target s' = v_target s /\ v_m s' = v_m s /\ vins l s = l) \/
  (vins l s = l ++ [s] /\ ~ In (v_target s, v_m s) (map (fun s => (v_target s, v_m s)) l)).
Proof.
  unfold vins. destruct (existsb (same_target s) l) eqn:E.
  - left. apply existsb_exists in E as [s' [H1 H2]]. exists s'. unfold same_target in H2.
    destruct (qm_eq_dec (v_target s, v_m s) (v_target s', v_m s')) as [K|]; [|discriminate].
    injection K as K1 K2. auto.
  - right. split; [reflexivity|]. intros H. apply in_map_iff in H as [s' [H1 H2]].
    assert (K : existsb (same_target s) l = true).
    { apply existsb_exists. exists s'. split; [exact H2|]. unfold same_target.
      destruct (qm_eq_dec (v_target s, v_m s) (v_target s', v_m s')); [reflexivity|congruence]. }
    congruence.
Qed.

Lemma vround1_inv rr t s pend :
  mvam rr t <> 0 -> reach t -> vdir ords (qclass (fst t)) = Some rr ->
  vinv ((t :: pend) ++ st_new s) (st_steps s) (st_solved s) ->
  exists s', vround1 rr t s = Some s' /\ vinv (pend ++ st_new s') (st_steps s') (st_solved s') /\
    In t (st_solved s') /\ incl (st_solved s) (st_solved s') /\
    (forall u, In u (st_new s') -> In u (st_new s) \/
       (reach u /\ (forall d, mvam d u <= mvam d t) /\ mvam rr u < mvam rr t)).
Proof.
  intros Hmv Hr Hd HI. unfold vround1.
  destruct (@vrr_step_some rr (fst t) (snd t)) as [vs Hvs].
  { unfold mvam in Hmv. rewrite aget_class in Hmv. exact Hmv. }
  rewrite Hvs. eexists; split; [reflexivity|]. cbn [st_steps st_new st_solved].
  destruct (vrr_step_target _ _ _ Hvs) as [Ty [Tt Tm]].
  assert (Heta : (v_target vs, v_m vs) = t) by (rewrite Tt, Tm; destruct t; reflexivity).
  destruct HI as [H1 H2 H3 H4 H5].
  assert (Hs0 : forall s', In s' (vins (st_steps s) vs) -> In s' (st_steps s) \/ s' = vs)
    by (intros; apply in_vins; assumption).
  split; [constructor|split; [|split]].
  - intros s' Hs'. destruct (Hs0 _ Hs') as [K| ->]; [auto|]. rewrite Ty, Tt, Tm. auto.
  - intros u. destruct (vins_cases (st_steps s) vs) as [[s' [K1 [K2 [K3 K4]]]]|[K1 K2]].
    + rewrite K4. simpl. rewrite H2. split; [|auto]. intros [<-|K]; [|exact K].
      rewrite <- Heta, <- K2, <- K3. apply in_map_iff. exists s'. auto.
    + rewrite K1, map_app, in_app_iff. simpl. rewrite H2, Heta. tauto.
  - destruct (vins_cases (st_steps s) vs) as [[s' [K1 [K2 [K3 K4]]]]|[K1 K2]]; [congruence|].
    rewrite K1, map_app. apply NoDup_app_intro; [exact H3|repeat constructor; auto|].
    simpl. intros u Hu [<-|[]]. contradiction.
  - intros u [<-|Hu]; auto.
  - intros s' x q Hs' Hx Hq.
    assert (Hn : In s' (st_steps s) \/ (s' = vs)) by auto.
    destruct Hn as [K|K].
    + destruct (H5 s' x q K Hx Hq) as [J|[J|J]]; [left; right; exact J| |auto].
      simpl in J. destruct J as [J|J]; [left; left; exact J|].
      right; left. apply in_app_or in J as [J|J]; apply in_or_app; [auto|right; apply in_or_app; auto].
    + subst s'. destruct (in_dec qm_eq_dec (q, sm x) (st_solved s)) as [Y|N]; [left; right; exact Y|].
      right; left. apply in_or_app; right. apply in_or_app; right.
      apply in_new_srcs. exists x, q. auto.
  - left; reflexivity.
  - intros u Hu; right; exact Hu.
  - intros u Hu. apply in_app_or in Hu as [Hu|Hu]; [auto|right].
    apply in_new_srcs in Hu as [x [q [Hx [Hq [-> _]]]]].
    pose proof (src_class _ _ _ _ Hvs Hx Hq) as Hc.
    destruct (src_class_facts _ _ _ _ Hvs Hx Hc) as [F1 [F2 _]].
    split; [|split; [intros d; apply F1|exact F2]].
    unfold reach; simpl. apply vr_src with (fst t) (snd t) rr vs; auto.
Qed.

Lemma vround_inv rr ts : forall s,
  (forall t, In t ts -> mvam rr t <> 0 /\ reach t /\ vdir ords (qclass (fst t)) = Some rr) ->
  vinv (ts ++ st_new s) (st_steps s) (st_solved s) ->
  exists s', vround rr ts s = Some s' /\ vinv (st_new s') (st_steps s') (st_solved s') /\
    incl ts (st_solved s') /\ incl (st_solved s) (st_solved s') /\
    (forall u, In u (st_new s') -> In u (st_new s) \/
       (reach u /\ exists t, In t ts /\ (forall d, mvam d u <= mvam d t) /\ mvam rr u < mvam rr t)).
Proof.
  induction ts as [|t ts IH]; intros s Hm HI.
  - exists s. split; [reflexivity|]. split; [exact HI|]. split; [intros x []|].
    split; [apply incl_refl|auto].
  - destruct (Hm t (or_introl eq_refl)) as [A [B C]].
    destruct (@vround1_inv rr t s ts A B C HI) as [s1 [E1 [I1 [T1 [L1 N1]]]]].
    destruct (IH s1) as [s2 [E2 [I2 [T2 [L2 N2]]]]]; [intros; apply Hm; right; auto|exact I1|].
    exists s2. cbn [vround]. rewrite E1. split; [exact E2|]. split; [exact I2|].
    split; [intros x [<-|Hx]; [apply L2, T1|apply T2, Hx]|].
    split; [intros x Hx; apply L2, L1, Hx|].
    intros u Hu. destruct (N2 u Hu) as [K|[K0 [t' [K1 K2]]]].
    + destruct (N1 u K) as [K'|[K0 K']]; [auto|right]. split; [exact K0|]. exists t. split; [left; auto|exact K'].
    + right. split; [exact K0|]. exists t'. split; [right; exact K1|exact K2].
Qed.

(** [done ++ rr :: rest = ords]; momenta on the [done] centres are zero for what remains. *)
Definition low (dn : list ctr) (t : qm) : Prop := forall c, In c dn -> mvam c t = 0.

Lemma vdir_low dn rr rest t : ords = dn ++ rr :: rest -> low dn t -> mvam rr t <> 0 ->
  vdir ords (qclass (fst t)) = Some rr.
Proof.
  intros -> Hl Hm. induction dn as [|c dn IH]; simpl.
  - unfold mvam in Hm. apply Nat.eqb_neq in Hm. rewrite Hm. reflexivity.
  - pose proof (Hl c (or_introl eq_refl)) as Hc. unfold mvam in Hc. rewrite Hc. simpl. apply IH.
    intros d Hd. apply Hl. right; exact Hd.
Qed.

Lemma vloop_inv rr dn rest (He : ords = dn ++ rr :: rest) : forall fuel my steps solved targets,
  (forall t, In t my -> mvam rr t <> 0 /\ mvam rr t <= fuel /\ reach t /\ low dn t) ->
  (forall t, In t targets -> tot t <> 0 /\ reach t /\ low (dn ++ [rr]) t) ->
  vinv (my ++ targets) steps solved ->
  exists steps' solved' targets', vloop enum rr fuel my steps solved targets = Some (steps', solved', targets') /\
    vinv targets' steps' solved' /\ incl my solved' /\ incl solved solved' /\ incl targets targets' /\
    (forall t, In t targets' -> tot t <> 0 /\ reach t /\ low (dn ++ [rr]) t).
Proof.
  induction fuel as [|f IH]; intros my steps solved targets Hm Ht HI.
  - destruct my as [|t my].
    + exists steps, solved, targets. cbn [vloop]. split; [reflexivity|]. split; [exact HI|].
      split; [intros x []|]. split; [apply incl_refl|]. split; [apply incl_refl|exact Ht].
    + destruct (Hm t (or_introl eq_refl)); lia.
  - destruct my as [|t my].
    + exists steps, solved, targets. cbn [vloop]. split; [reflexivity|]. split; [exact HI|].
      split; [intros x []|]. split; [apply incl_refl|]. split; [apply incl_refl|exact Ht].
    + cbn [vloop]. destruct (Hen (t :: my)) as [_ Hin].
      destruct (@vround_inv rr (enum (t :: my)) (VSt steps targets solved)) as [s [Es [Is [Ts [Ls Ns]]]]].
      { intros u Hu. apply Hin, Hm in Hu as [A [B [C D]]]. repeat split; auto.
        apply vdir_low with dn rest; auto. }
      { cbn [st_new st_steps st_solved]. apply vinv_mono with ((t :: my) ++ targets); [|exact HI].
        intros u Hu. right; left. apply in_app_or in Hu as [Hu|Hu]; apply in_or_app; [left; apply Hin, Hu|auto]. }
      (* the code starts the round with an empty list of new targets *)
      assert (Hsep : forall ts st n so, vround rr ts (VSt st (targets ++ n) so) =
          option_map (fun s => VSt (st_steps s) (targets ++ st_new s) (st_solved s)) (vround rr ts (VSt st n so))).
      { clear. intros ts. induction ts as [|u us IHu]; intros st n so; [reflexivity|].
        cbn [vround]. unfold vround1; cbn [st_steps st_new st_solved].
        destruct (vrr_step rr (fst u) (snd u)) as [vs|]; [|reflexivity].
        rewrite <- app_assoc. apply IHu. }
      specialize (Hsep (enum (t :: my)) steps [] solved). rewrite app_nil_r in Hsep.
      rewrite Es in Hsep.
      destruct (vround rr (enum (t :: my)) (VSt steps [] solved)) as [s0|] eqn:E0; [|discriminate].
      simpl in Hsep. injection Hsep as ->. cbn [st_steps st_new st_solved] in *.
      assert (Hnew : forall u, In u (st_new s0) -> reach u /\ exists t', In t' (t :: my) /\
                (forall d, mvam d u <= mvam d t') /\ mvam rr u < mvam rr t').
      { assert (G : forall ts st so s1, (forall u, In u ts -> mvam rr u <> 0 /\ reach u /\ vdir ords (qclass (fst u)) = Some rr) ->
            forall n, (forall u, In u n -> reach u /\ exists t', In t' (t :: my) /\
                (forall d, mvam d u <= mvam d t') /\ mvam rr u < mvam rr t') -> incl ts (t :: my) ->
            vround rr ts (VSt st n so) = Some s1 -> forall u, In u (st_new s1) -> reach u /\ exists t', In t' (t :: my) /\
                (forall d, mvam d u <= mvam d t') /\ mvam rr u < mvam rr t').
        { clear. intros ts. induction ts as [|u us IHu]; intros st so s1 Hp n Hn Hi Hv w Hw.
          - injection Hv as <-. apply Hn, Hw.
          - cbn [vround] in Hv. unfold vround1 in Hv; cbn [st_steps st_new st_solved] in Hv.
            destruct (vrr_step rr (fst u) (snd u)) as [vs|] eqn:Evs; [|discriminate].
            refine (IHu _ _ _ (fun x Hx => Hp x (or_intror Hx)) _ _ _ Hv w Hw); [|intros x Hx; apply Hi; right; exact Hx].
            intros x Hx. apply in_app_or in Hx as [Hx|Hx]; [auto|].
            apply in_new_srcs in Hx as [y [q [Hy [Hq [-> _]]]]].
            pose proof (src_class _ _ _ _ Evs Hy Hq) as Hc.
            destruct (src_class_facts _ _ _ _ Evs Hy Hc) as [F1 [F2 _]].
            destruct (Hp u (or_introl eq_refl)) as [P1 [P2 P3]].
            split; [unfold reach; simpl; apply vr_src with (fst u) (snd u) rr vs; auto|].
            exists u. split; [apply Hi; left; reflexivity|]. split; [intros d; apply F1|exact F2]. }
        apply (G (enum (t :: my)) steps solved s0) with (n := []); auto.
        - intros u Hu. apply Hin, Hm in Hu as [A [B [C D]]]. repeat split; auto. apply vdir_low with dn rest; auto.
        - intros u [].
        - intros u Hu. apply Hin, Hu. }
      destruct (IH (mine rr (st_new s0)) (st_steps s0) (st_solved s0) (targets ++ not_mine rr (st_new s0)))
        as [st' [so' [tg' [E' [I' [T' [L' [G' H']]]]]]]].
      { intros u Hu. apply in_mine in Hu as [U1 [U2 U3]]. destruct (Hnew u U1) as [R [t' [K1 [K2 K3]]]].
        apply Hm in K1 as [A [B [C D]]]. split; [exact U3|]. split; [lia|]. split; [exact R|].
        intros c Hc. pose proof (K2 c). pose proof (D c Hc). lia. }
      { intros u Hu. apply in_app_or in Hu as [Hu|Hu]; [auto|].
        apply in_not_mine in Hu as [U1 [U2 U3]]. destruct (Hnew u U1) as [R [t' [K1 [K2 K3]]]].
        apply Hm in K1 as [A [B [C D]]]. split; [exact U2|]. split; [exact R|].
        intros c Hc. apply in_app_or in Hc as [Hc|[<-|[]]]; [|exact U3].
        pose proof (K2 c). pose proof (D c Hc). lia. }
      { apply vinv_mono with (targets ++ st_new s0); [|exact Is].
        intros u Hu. apply in_app_or in Hu as [Hu|Hu].
        - right; left. apply in_or_app; right. apply in_or_app; auto.
        - destruct (Nat.eq_dec (tot u) 0) as [Z|Z]; [auto|]. right; left.
          destruct (Nat.eq_dec (mvam rr u) 0) as [Y|Y].
          + apply in_or_app; right. apply in_or_app; right. apply in_not_mine; auto.
          + apply in_or_app; left. apply in_mine; auto. }
      exists st', so', tg'. split; [exact E'|]. split; [exact I'|].
      split; [intros x Hx; apply L', Ts, Hin, Hx|].
      split; [intros x Hx; apply L', Ls, Hx|].
      split; [intros x Hx; apply G', in_or_app; left; exact Hx|exact H'].
Qed.

Lemma vouter_inv fuel : forall rest dn steps solved targets,
  ords = dn ++ rest ->
  (forall t, reach t -> tot t <= fuel) ->
  (forall t, In t targets -> tot t <> 0 /\ reach t /\ low dn t) ->
  vinv targets steps solved ->
  exists steps' solved' targets', vouter enum fuel rest steps solved targets = Some (steps', solved', targets') /\
    vinv targets' steps' solved' /\ incl solved solved' /\
    (forall t, In t targets -> In t solved' \/ In t targets') /\
    (forall t, In t targets' -> tot t <> 0 /\ reach t /\ low ords t).
Proof.
  induction rest as [|rr rest IH]; intros dn steps solved targets He Hf Ht HI.
  - exists steps, solved, targets. rewrite app_nil_r in He. rewrite He. cbn [vouter].
    split; [reflexivity|]. split; [exact HI|]. split; [apply incl_refl|].
    split; [auto|]. exact Ht.
  - cbn [vouter].
    destruct (@vloop_inv rr dn rest He fuel (mine rr targets) steps solved (not_mine rr targets))
      as [st1 [so1 [tg1 [E1 [I1 [T1 [L1 [G1 H1]]]]]]]].
    { intros t Hin. apply in_mine in Hin as [A [B C]]. destruct (Ht t A) as [K1 [K2 K3]].
      split; [exact C|]. split; [|auto]. pose proof (Hf t K2).
      assert (mvam rr t <= tot t); [|lia]. unfold mvam, tot, qtotal. destruct rr; simpl; lia. }
    { intros t Hin. apply in_not_mine in Hin as [A [B C]]. destruct (Ht t A) as [K1 [K2 K3]].
      repeat split; auto. intros c Hc. apply in_app_or in Hc as [Hc|[<-|[]]]; auto. }
    { apply vinv_mono with targets; [|exact HI]. intros t Hin. right; left.
      destruct (Ht t Hin) as [K1 _]. destruct (Nat.eq_dec (mvam rr t) 0) as [Y|Y]; apply in_or_app.
      - right; apply in_not_mine; auto.
      - left; apply in_mine; auto. }
    rewrite E1.
    destruct (IH (dn ++ [rr]) st1 so1 tg1) as [st2 [so2 [tg2 [E2 [I2 [L2 [T2 H2]]]]]]]; auto.
    { rewrite <- app_assoc. exact He. }
    exists st2, so2, tg2. split; [exact E2|]. split; [exact I2|].
    split; [intros x Hx; apply L2, L1, Hx|]. split; [|exact H2].
    intros t Hin. destruct (Ht t Hin) as [K1 _]. destruct (Nat.eq_dec (mvam rr t) 0) as [Y|Y].
    + apply T2, G1, in_not_mine; auto.
    + left. apply L2, T1, in_mine; auto.
Qed.
End Inv.

Lemma vdir_none ords a : vdir ords a = None <-> (forall c, In c ords -> aget c a = 0).
Proof.
  induction ords as [|c ords IH]; simpl; [split; auto; intros _ c []|].
  destruct (Nat.eqb_spec (aget c a) 0) as [E|E].
  - rewrite IH. split; [intros H d [<-|Hd]; auto|intros H d Hd; apply H; auto].
  - split; [discriminate|]. intros H. exfalso. apply E, H. left; reflexivity.
Qed.
Lemma vdir_some ords a c : vdir ords a = Some c -> aget c a <> 0 /\ In c ords.
Proof.
  induction ords as [|d ords IH]; simpl; [discriminate|].
  destruct (Nat.eqb_spec (aget d a) 0) as [E|E]; [intros H; destruct (IH H); auto|].
  intros H; injection H as <-. auto.
Qed.

Lemma reach_bound ords init q m L : (forall p, In p init -> qtotal (qclass p) <= L) ->
  vreach ords init q m -> m + qtotal (qclass q) <= L.
Proof.
  intros Hb H. induction H as [q H|q m c s x q' H IH Hd Hs Hx Hq].
  - apply Hb in H. simpl. exact H.
  - pose proof (src_class _ _ _ _ Hs Hx Hq) as Hc.
    destruct (src_class_facts _ _ _ _ Hs Hx Hc) as [_ [_ [F _]]]. lia.
Qed.

(** ** What the loops compute, without the loops' own vocabulary. *)
Record steps_ok (ords : list ctr) (init : list qrt) (steps : list vstep) (solved lft : list qm) : Prop := {
  so_step : forall s, In s steps -> vrr_step (v_type s) (v_target s) (v_m s) = Some s /\
              vdir ords (qclass (v_target s)) = Some (v_type s);
  so_once : NoDup (map (fun s => (v_target s, v_m s)) steps);
  so_solved : forall q m, In (q, m) solved <-> exists s, In s steps /\ v_target s = q /\ v_m s = m;
  so_exact : forall q m, In (q, m) solved <-> vreach ords init q m /\ vdir ords (qclass q) <> None;
  so_left : forall q m, In (q, m) lft -> vreach ords init q m /\ vdir ords (qclass q) = None }.

Lemma vouter_ok enum fuel ords init :
  enum_ok enum -> (forall q, In q init -> qtotal (qclass q) <= fuel) ->
  exists steps solved lft,
    vouter enum fuel ords [] [] (prune0 (map (fun q => (q, 0)) init)) = Some (steps, solved, lft) /\
    steps_ok ords init steps solved lft.
Proof.
  intros Hen Hf.
  destruct (@vouter_inv enum Hen init ords fuel ords [] [] [] (prune0 (map (fun q => (q, 0)) init)))
    as [st [so [tg [E [I [_ [T H]]]]]]].
  - reflexivity.
  - intros t Ht. pose proof (@reach_bound _ _ _ _ _ Hf Ht) as K. unfold tot. lia.
  - intros t Ht. apply in_prune0 in Ht as [A B]. split; [exact B|]. split; [|intros c []].
    apply in_map_iff in A as [q [<- Hq]]. apply vr_init, Hq.
  - constructor; simpl; intros; try contradiction; [tauto|constructor].
  - exists st, so, tg. split; [exact E|]. destruct I as [H1 H2 H3 H4 H5].
    assert (Hsol : forall q m, In (q, m) so <-> exists s, In s st /\ v_target s = q /\ v_m s = m).
    { intros q m. rewrite H2, in_map_iff. split; intros [s [A B]]; exists s; [|intuition congruence].
      injection A as <- <-. auto. }
    constructor; auto.
    + intros q m. split.
      * intros Hin. split; [apply (H4 _ Hin)|]. apply Hsol in Hin as [s [A [<- <-]]].
        destruct (H1 s A) as [_ ->]. discriminate.
      * intros [Hr Hd].
        assert (G : tot (q, m) = 0 \/ In (q, m) so \/ In (q, m) tg).
        { clear Hd. induction Hr as [q Hq|q m c s x q' Hr IH Hd Hs Hx Hq].
          - destruct (Nat.eq_dec (tot (q, 0)) 0) as [Z|Z]; [auto|right].
            apply T, in_prune0. split; [|exact Z]. apply in_map_iff. exists q; auto.
          - destruct IH as [Z|[Y|Y]].
            + exfalso. apply vdir_some in Hd as [Hd _].
              apply (@tot_mv c (q, m)); [exact Hd|exact Z].
            + apply Hsol in Y as [s' [A [B C]]]. destruct (H1 s' A) as [P1 P2].
              rewrite B in P2. assert (v_type s' = c) by congruence.
              assert (s' = s) by (subst c; rewrite B, C in P1; congruence). subst s'.
              destruct (H5 s x q' A Hx Hq) as [K|[K|K]]; auto.
            + exfalso. destruct (H _ Y) as [_ [_ K]]. apply vdir_some in Hd as [Hd1 Hd2].
              apply Hd1. apply (K c Hd2). }
        destruct G as [Z|[Y|Y]]; [|exact Y|].
        -- exfalso. apply Hd, vdir_none. intros c _. unfold tot, qtotal in Z. simpl in Z.
           destruct c; simpl; lia.
        -- exfalso. destruct (H _ Y) as [_ [_ K]]. apply Hd, vdir_none. intros c Hc. apply (K c Hc).
    + intros q m Hin. destruct (H _ Hin) as [_ [A B]]. split; [exact A|].
      apply vdir_none. intros c Hc. apply (B c Hc).
Qed.
