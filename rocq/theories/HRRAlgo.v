(** The horizontal recurrence plan.
    Source: generator/ostei/OSTEI_HRR_Algorithm_Base.cpp:19-283.

    std::set is a list; its iteration order is a parameter [enum] of which only this is
    assumed: the same elements, no duplicates.  ([Doublet::operator<], Types.hpp:440-458, and
    [QAM::operator<] give one such order.)  The theorems hold for every such order.
    The [pruned] sets are written and never read; they are left out. *)
From Coq Require Import List Arith Lia Bool.
Import ListNotations.
From Verif Require Import Base Cart Mdir HRRStep.
Set Implicit Arguments.

Definition enum_ok {A : Type} (enum : list A -> list A) : Prop :=
  forall l, NoDup (enum l) /\ (forall x, In x (enum l) <-> In x l).

Definition dmem (d : dbl) (l : list dbl) : bool := if in_dec dbl_eq_dec d l then true else false.
Lemma dmem_In d l : dmem d l = true <-> In d l.
Proof. unfold dmem. destruct (in_dec dbl_eq_dec d l); split; intros; auto; discriminate. Qed.
Lemma dmem_nIn d l : dmem d l = false <-> ~ In d l.
Proof. unfold dmem. destruct (in_dec dbl_eq_dec d l); split; intros; auto; try discriminate; contradiction. Qed.

(** [PruneDoublets_], lines 19-42.  Components are naturals, hence always valid. *)
Definition prune (lf : bool) (l : list dbl) : list dbl :=
  filter (fun d => negb (gam (moving lf d) =? 0)) l.

Lemma in_prune lf l d : In d (prune lf l) <-> In d l /\ gam (moving lf d) <> 0.
Proof.
  unfold prune. rewrite filter_In. split; intros [H1 H2]; split; auto.
  - apply negb_true_iff, Nat.eqb_neq in H2; exact H2.
  - apply negb_true_iff, Nat.eqb_neq; exact H2.
Qed.

Record hstate := HSt { st_steps : list hstep; st_new : list dbl; st_solved : list dbl }.

(** Body of the [for] in [HRRDoubletLoop_], lines 117-132.  [None]: exception or UB. *)
Definition hround1 (lf : bool) (t : dbl) (s : hstate) : option hstate :=
  if dmem t (st_solved s) then Some s
  else match doublet_step lf t with
       | HStep h =>
         let n0 := if dmem (hs_src0 h) (st_solved s) then st_new s else hs_src0 h :: st_new s in
         let n1 := if dmem (hs_src1 h) (st_solved s) then n0 else hs_src1 h :: n0 in
         Some (HSt (st_steps s ++ [h]) n1 (t :: st_solved s))
       | _ => None
       end.

Fixpoint hround (lf : bool) (ts : list dbl) (s : hstate) : option hstate :=
  match ts with
  | [] => Some s
  | t :: r => match hround1 lf t s with Some s' => hround lf r s' | None => None end
  end.

(** [HRRDoubletLoop_], lines 104-145.  Fuel exhaustion is [None]. *)
Fixpoint hloop (enum : list dbl -> list dbl) (lf : bool) (fuel : nat) (ts : list dbl)
  (steps : list hstep) (solved : list dbl) : option (list hstep * list dbl) :=
  match ts with
  | [] => Some (steps, solved)
  | _ :: _ =>
    match fuel with
    | 0 => None
    | S f =>
      match hround lf (enum ts) (HSt steps [] solved) with
      | None => None
      | Some s => hloop enum lf f (prune lf (st_new s)) (st_steps s) (st_solved s)
      end
    end
  end.

(** One side of [Create], lines 168-202 (ket), 220-247 (bra): targets of all requested
    classes, pruned, solved; the step list reversed. *)
Definition hcreate (enum : list dbl -> list dbl) (o : ordering) (lf : bool) (fuel : nat)
  (cls : list (nat * nat)) : option (list hstep * list dbl) :=
  let init := flat_map (fun c => dtargets o (fst c) (snd c)) cls in
  match hloop enum lf fuel (prune lf init) [] [] with
  | Some (st, sol) => Some (rev st, sol)
  | None => None
  end.

(** ** Invariant of the loop *)

Record hinv (lf : bool) (pend : list dbl) (steps : list hstep) (solved : list dbl) : Prop := {
  hi_step : forall h, In h steps -> doublet_step lf (hs_target h) = HStep h;
  hi_tgt : forall d, In d solved <-> In d (map hs_target steps);
  hi_nodup : NoDup (map hs_target steps);
  hi_src : forall h d, In h steps -> (d = hs_src0 h \/ d = hs_src1 h) ->
             In d solved \/ In d pend \/ gam (moving lf d) = 0 }.

Lemma hround1_inv lf t s pend :
  gam (moving lf t) <> 0 ->
  hinv lf ((t :: pend) ++ st_new s) (st_steps s) (st_solved s) ->
  exists s', hround1 lf t s = Some s' /\
    hinv lf (pend ++ st_new s') (st_steps s') (st_solved s') /\
    In t (st_solved s') /\ incl (st_solved s) (st_solved s') /\
    (forall d, In d (st_new s') -> In d (st_new s) \/ S (gam (moving lf d)) = gam (moving lf t)).
Proof.
  intros Ht HI. unfold hround1.
  destruct (dmem t (st_solved s)) eqn:E.
  - apply dmem_In in E. exists s. split; [reflexivity|]. split.
    { destruct HI as [H1 H2 H3 H4]. constructor; auto. intros h d Hh Hd.
      destruct (H4 h d Hh Hd) as [K|[[K|K]|K]]; auto. left. congruence. }
    split; [exact E|]. split; [apply incl_refl|]. auto.
  - apply dmem_nIn in E. destruct (doublet_step_ok lf t Ht) as [h [Hh Hht]].
    rewrite Hh. eexists; split; [reflexivity|]. cbn [st_steps st_new st_solved].
    pose proof (step_classes lf t Hh) as [_ [_ [Hc0 Hc1]]].
    destruct HI as [H1 H2 H3 H4].
    assert (Hnew : forall d, (d = hs_src0 h \/ d = hs_src1 h) ->
              In d (st_solved s) \/
              In d (if dmem (hs_src1 h) (st_solved s)
                    then (if dmem (hs_src0 h) (st_solved s) then st_new s else hs_src0 h :: st_new s)
                    else hs_src1 h :: (if dmem (hs_src0 h) (st_solved s) then st_new s
                                       else hs_src0 h :: st_new s))).
    { intros d [-> | ->].
      - destruct (dmem (hs_src0 h) (st_solved s)) eqn:E0; [left; apply dmem_In; exact E0|].
        right. destruct (dmem (hs_src1 h) (st_solved s)); simpl; auto.
      - destruct (dmem (hs_src1 h) (st_solved s)) eqn:E0; [left; apply dmem_In; exact E0|].
        right; simpl; auto. }
    assert (Hold : forall d, In d (st_new s) ->
              In d (if dmem (hs_src1 h) (st_solved s)
                    then (if dmem (hs_src0 h) (st_solved s) then st_new s else hs_src0 h :: st_new s)
                    else hs_src1 h :: (if dmem (hs_src0 h) (st_solved s) then st_new s
                                       else hs_src0 h :: st_new s))).
    { intros d Hd. destruct (dmem (hs_src1 h) (st_solved s)), (dmem (hs_src0 h) (st_solved s)); simpl; auto. }
    split; [constructor|split; [|split]].
    + intros h' Hh'. apply in_app_or in Hh' as [Hh'|[<-|[]]]; [auto|]. rewrite Hht; exact Hh.
    + intros d. rewrite map_app, in_app_iff. simpl. rewrite H2, Hht. tauto.
    + rewrite map_app. simpl. rewrite Hht. apply NoDup_app_intro; [exact H3|repeat constructor; auto|].
      intros x Hx [<-|[]]. apply E, H2, Hx.
    + intros h' d Hh' Hd. apply in_app_or in Hh' as [Hh'|[<-|[]]].
      * destruct (H4 h' d Hh' Hd) as [K|[K|K]]; [left; right; exact K| |auto].
        simpl in K. destruct K as [K|K]; [left; left; exact K|].
        apply in_app_or in K as [K|K]; right; left; apply in_or_app; auto.
      * destruct (Hnew d Hd) as [K|K]; [left; right; exact K|].
        right; left. apply in_or_app; right; exact K.
    + left; reflexivity.
    + intros d Hd; right; exact Hd.
    + intros d Hd.
      destruct (dmem (hs_src1 h) (st_solved s)), (dmem (hs_src0 h) (st_solved s)); simpl in Hd;
        repeat match goal with K : _ \/ _ |- _ => destruct K end; subst; auto; right; congruence.
Qed.

Lemma hround_inv lf ts : forall s,
  (forall t, In t ts -> gam (moving lf t) <> 0) ->
  hinv lf (ts ++ st_new s) (st_steps s) (st_solved s) ->
  exists s', hround lf ts s = Some s' /\
    hinv lf (st_new s') (st_steps s') (st_solved s') /\
    incl ts (st_solved s') /\ incl (st_solved s) (st_solved s') /\
    (forall d, In d (st_new s') -> In d (st_new s) \/
       exists t, In t ts /\ S (gam (moving lf d)) = gam (moving lf t)).
Proof.
  induction ts as [|t ts IH]; intros s Hm HI.
  - exists s. split; [reflexivity|]. split; [exact HI|]. split; [intros x []|].
    split; [apply incl_refl|auto].
  - destruct (@hround1_inv lf t s ts) as [s1 [E1 [I1 [T1 [L1 N1]]]]]; [apply Hm; left; auto|exact HI|].
    destruct (IH s1) as [s2 [E2 [I2 [T2 [L2 N2]]]]]; [intros; apply Hm; right; auto|exact I1|].
    exists s2. cbn [hround]. rewrite E1. split; [exact E2|]. split; [exact I2|].
    split; [intros x [<-|Hx]; [apply L2, T1|apply T2, Hx]|].
    split; [intros x Hx; apply L2, L1, Hx|].
    intros d Hd. destruct (N2 d Hd) as [K|[t' [K1 K2]]].
    + destruct (N1 d K) as [K'|K']; [left; exact K'|right; exists t; split; [left; auto|exact K']].
    + right. exists t'. split; [right; exact K1|exact K2].
Qed.

Lemma hloop_inv enum lf (He : enum_ok enum) : forall fuel ts steps solved,
  (forall t, In t ts -> gam (moving lf t) <> 0 /\ gam (moving lf t) <= fuel) ->
  hinv lf ts steps solved ->
  exists steps' solved', hloop enum lf fuel ts steps solved = Some (steps', solved') /\
    hinv lf [] steps' solved' /\ incl ts solved' /\ incl solved solved'.
Proof.
  induction fuel as [|f IH]; intros ts steps solved Hm HI.
  - destruct ts as [|t ts].
    + exists steps, solved. repeat split; auto using incl_refl; try apply HI. intros x [].
    + destruct (Hm t (or_introl eq_refl)); lia.
  - destruct ts as [|t ts].
    + exists steps, solved. repeat split; auto using incl_refl; try apply HI. intros x [].
    + cbn [hloop]. destruct (He (t :: ts)) as [_ Hin].
      destruct (@hround_inv lf (enum (t :: ts)) (HSt steps [] solved))
        as [s [Es [Is [Ts [Ls Ns]]]]].
      { intros x Hx. apply Hm, Hin, Hx. }
      { cbn [st_new st_steps st_solved]. rewrite app_nil_r.
        destruct HI as [H1 H2 H3 H4]. constructor; auto. intros h d Hh Hd.
        destruct (H4 h d Hh Hd) as [K|[K|K]]; auto. right; left; apply Hin, K. }
      rewrite Es.
      destruct (IH (prune lf (st_new s)) (st_steps s) (st_solved s)) as [st' [so' [E' [I' [T' L']]]]].
      { intros x Hx. apply in_prune in Hx as [Hx1 Hx2]. split; [exact Hx2|].
        destruct (Ns x Hx1) as [[]|[t' [K1 K2]]]. apply Hin, Hm in K1. lia. }
      { destruct Is as [H1 H2 H3 H4]. constructor; auto. intros h d Hh Hd.
        destruct (H4 h d Hh Hd) as [K|[K|K]]; auto.
        destruct (Nat.eq_dec (gam (moving lf d)) 0) as [Z|Z]; [auto|].
        right; left. apply in_prune; auto. }
      exists st', so'. split; [exact E'|]. split; [exact I'|].
      split; [intros x Hx; apply L', Ts, Hin, Hx|].
      intros x Hx. apply L', Ls, Hx.
Qed.

(** ** Result for one side: stated without the loop's own vocabulary. *)
Record side_plan_ok (lf : bool) (cls : list (nat * nat)) (steps : list hstep) (solved : list dbl)
  : Prop := {
  sp_step : forall h, In h steps -> doublet_step lf (hs_target h) = HStep h;
  sp_tgt : forall d, In d solved <-> exists h, In h steps /\ hs_target h = d;
  sp_once : NoDup (map hs_target steps);
  sp_init : forall d, In (dclass d) cls -> In d solved \/ gam (moving lf d) = 0;
  sp_src : forall h d, In h steps -> d = hs_src0 h \/ d = hs_src1 h ->
             In d solved \/ gam (moving lf d) = 0 }.

Definition cls_bound (lf : bool) (cls : list (nat * nat)) (n : nat) : Prop :=
  forall c, In c cls -> (if lf then fst c else snd c) <= n.

Lemma moving_class lf d : gam (moving lf d) = if lf then fst (dclass d) else snd (dclass d).
Proof. destruct lf; reflexivity. Qed.

Lemma hcreate_ok enum o lf fuel cls :
  enum_ok enum -> starts_x o -> cls_bound lf cls fuel ->
  exists steps solved, hcreate enum o lf fuel cls = Some (steps, solved) /\
    side_plan_ok lf cls steps solved.
Proof.
  intros He Hs Hb. unfold hcreate.
  set (init := flat_map (fun c => dtargets o (fst c) (snd c)) cls).
  assert (Hinit : forall d, In d init <-> In (dclass d) cls).
  { intros d. unfold init. rewrite in_flat_map. split.
    - intros [[a b] [Hc Hd]]. apply in_dtargets in Hd; [|exact Hs]. simpl in Hd. rewrite Hd; exact Hc.
    - intros Hd. exists (dclass d). split; [exact Hd|]. apply in_dtargets; [exact Hs|reflexivity]. }
  destruct (@hloop_inv enum lf He fuel (prune lf init) [] []) as [st [so [E [I [T L]]]]].
  { intros t Ht. apply in_prune in Ht as [H1 H2]. split; [exact H2|].
    apply Hinit in H1. apply Hb in H1. rewrite moving_class. exact H1. }
  { constructor; simpl; intros; try contradiction; [tauto|constructor]. }
  rewrite E. exists (rev st), so. split; [reflexivity|].
  destruct I as [H1 H2 H3 H4]. constructor.
  - intros h Hh. apply H1, in_rev, Hh.
  - intros d. rewrite H2, in_map_iff. split; intros [h [A B]]; exists h.
    + split; [apply in_rev; rewrite rev_involutive; exact B|exact A].
    + split; [exact B|apply in_rev; exact A].
  - rewrite map_rev. apply NoDup_rev. exact H3.
  - intros d Hd. apply Hinit in Hd.
    destruct (Nat.eq_dec (gam (moving lf d)) 0) as [Z|Z]; [auto|].
    left. apply T, in_prune; auto.
  - intros h d Hh Hd. apply in_rev in Hh.
    destruct (H4 h d Hh Hd) as [K|[[]|K]]; auto.
Qed.

(** ** Class-level tables *)

Definition nn_eq_dec (a b : nat * nat) : {a = b} + {a <> b}.
Proof. decide equality; apply Nat.eq_dec. Defined.

Definition inb (c : nat * nat) (l : list (nat * nat)) : bool :=
  if in_dec nn_eq_dec c l then true else false.
Lemma inb_In c l : inb c l = true <-> In c l.
Proof. unfold inb. destruct (in_dec nn_eq_dec c l); split; intros; auto; discriminate. Qed.

(** [brasteps_[c]] / [ketsteps_[c]], lines 195-202, 240-247. *)
Definition class_steps (steps : list hstep) (c : nat * nat) : list hstep :=
  filter (fun h => if nn_eq_dec (dclass (hs_target h)) c then true else false) steps.
(** [brareq_.at(c)] / [ketreq_.at(c)]; [None] is the exception of [at]. *)
Definition class_req (steps : list hstep) (c : nat * nat) : option (list (nat * nat)) :=
  match class_steps steps c with
  | [] => None
  | l => Some (flat_map (fun h => [dclass (hs_src0 h); dclass (hs_src1 h)]) l)
  end.
(** [allbraam_] / [allketam_], lines 262-265. *)
Definition class_all (solved : list dbl) : list (nat * nat) := map dclass solved.

Lemma in_class_steps steps c h : In h (class_steps steps c) <-> In h steps /\ dclass (hs_target h) = c.
Proof.
  unfold class_steps. rewrite filter_In. destruct (nn_eq_dec (dclass (hs_target h)) c); split;
    intros [H1 H2]; split; auto; discriminate || contradiction.
Qed.

(** Requirements of a solved class are the two classes of [GenerateAMReq]. *)
Lemma class_req_ok lf cls steps solved c :
  side_plan_ok lf cls steps solved -> In c (class_all solved) ->
  exists l, class_req steps c = Some l /\
    (forall d, In d l <-> d = fst (hreq lf c) \/ d = snd (hreq lf c)) /\
    (forall d, In d l -> In d (class_all solved) \/ (if lf then fst d else snd d) = 0) /\
    (if lf then fst c else snd c) <> 0 /\
    (forall d, In d l -> S (if lf then fst d else snd d) = (if lf then fst c else snd c)).
Proof.
  intros HP Hc. apply in_map_iff in Hc as [d0 [Hd0 Hin0]].
  apply (sp_tgt HP) in Hin0 as [h0 [Hh0 Ht0]].
  unfold class_req. destruct (class_steps steps c) as [|h l] eqn:E.
  { exfalso. assert (K : In h0 (class_steps steps c)) by (apply in_class_steps; split; congruence).
    rewrite E in K. destruct K. }
  eexists; split; [reflexivity|].
  rewrite <- E.
  assert (Hall : forall h', In h' (class_steps steps c) ->
            dclass (hs_src0 h') = fst (hreq lf c) /\ dclass (hs_src1 h') = snd (hreq lf c) /\
            (if lf then fst c else snd c) = S (gam (moving lf (hs_src0 h'))) /\
            (if lf then fst c else snd c) = S (gam (moving lf (hs_src1 h')))).
  { intros h' Hh'. apply in_class_steps in Hh' as [A B].
    pose proof (step_classes lf _ (sp_step HP _ A)) as K. rewrite B in K.
    destruct K as [K1 [K2 [K3 K4]]]. rewrite moving_class, B in K3, K4. auto. }
  assert (Hh : In h (class_steps steps c)) by (rewrite E; left; reflexivity).
  split; [|split; [|split]].
  - intros d. rewrite in_flat_map. split.
    + intros [h' [A B]]. destruct (Hall h' A) as [K1 [K2 _]]. simpl in B.
      destruct B as [<-|[<-|[]]]; auto.
    + intros Hd. exists h. split; [exact Hh|]. destruct (Hall h Hh) as [K1 [K2 _]].
      simpl. destruct Hd as [-> | ->]; auto.
  - intros d Hd. apply in_flat_map in Hd as [h' [A B]].
    pose proof A as A'. apply in_class_steps in A' as [A1 A2].
    assert (Hx : exists x, (x = hs_src0 h' \/ x = hs_src1 h') /\ d = dclass x).
    { simpl in B. destruct B as [<-|[<-|[]]]; [exists (hs_src0 h')|exists (hs_src1 h')]; auto. }
    destruct Hx as [x [Hx ->]]. destruct (sp_src HP _ A1 Hx) as [K|K].
    + left. apply in_map; exact K.
    + right. rewrite moving_class in K. exact K.
  - destruct (Hall h Hh) as [_ [_ [K _]]]. lia.
  - intros d Hd. apply in_flat_map in Hd as [h' [A B]]. destruct (Hall h' A) as [_ [_ [K3 K4]]].
    simpl in B. destruct B as [<-|[<-|[]]]; rewrite <- moving_class; congruence.
Qed.

(** ** Order of the classes *)

(** [QAM] with its tag (Types.hpp:41-88); the tag is an opaque label. *)
Record tqam := TQ { tq_tag : nat; tq_am : qam }.
Definition tqam_eq_dec (a b : tqam) : {a = b} + {a <> b}.
Proof. decide equality; [apply qam_eq_dec|apply Nat.eq_dec]. Defined.
Definition tmem (a : tqam) (l : list tqam) : bool := if in_dec tqam_eq_dec a l then true else false.
Lemma tmem_In a l : tmem a l = true <-> In a l.
Proof. unfold tmem. destruct (in_dec tqam_eq_dec a l); split; intros; auto; discriminate. Qed.
Lemma tmem_nIn a l : tmem a l = false <-> ~ In a l.
Proof. unfold tmem. destruct (in_dec tqam_eq_dec a l); split; intros; auto; try discriminate; contradiction. Qed.

Definition brac (t : tqam) : nat * nat := (am0 (tq_am t), am1 (tq_am t)).
Definition ketc (t : tqam) : nat * nat := (am2 (tq_am t), am3 (tq_am t)).
Definition with_ket (t : tqam) (c : nat * nat) : tqam :=
  TQ (tq_tag t) (QAM (am0 (tq_am t)) (am1 (tq_am t)) (fst c) (snd c)).
Definition with_bra (t : tqam) (c : nat * nat) : tqam :=
  TQ (tq_tag t) (QAM (fst c) (snd c) (am2 (tq_am t)) (am3 (tq_am t))).

Inductive dtype := BRA | KET.

Section Order.
Variable enumq : list tqam -> list tqam.
Variables bsteps ksteps : list hstep.
Variables ball kall : list (nat * nat).

(** State of [AMOrder_AddWithDependencies_]: order, top classes, step map. *)
Record ost := OSt { os_order : list tqam; os_top : list tqam; os_map : list (tqam * dtype) }.

(** [stepmap_[iam] = t]: the newest entry is found first. *)
Fixpoint smap_at (m : list (tqam * dtype)) (t : tqam) : option dtype :=
  match m with
  | [] => None
  | (k, v) :: r => if tqam_eq_dec k t then Some v else smap_at r t
  end.

(** Body of the first loop, lines 52-88; accumulates [qamnew] and [amdone]. *)
Definition ostep (iam : tqam) (a : ost * list tqam * list tqam) : option (ost * list tqam * list tqam) :=
  let '(s, new, done) := a in
  if tmem iam (os_order s) then Some a
  else if negb (inb (brac iam) ball) && negb (inb (ketc iam) kall)
  then Some (OSt (os_order s) (iam :: os_top s) (os_map s), new, done)
  else if inb (ketc iam) kall
  then match class_req ksteps (ketc iam) with
       | None => None
       | Some l => Some (OSt (os_order s) (os_top s) ((iam, KET) :: os_map s),
                         new ++ map (with_ket iam) l, done ++ [iam])
       end
  else match class_req bsteps (brac iam) with
       | None => None
       | Some l => Some (OSt (os_order s) (os_top s) ((iam, BRA) :: os_map s),
                         new ++ map (with_bra iam) l, done ++ [iam])
       end.

Fixpoint osteps (am : list tqam) (a : ost * list tqam * list tqam) :=
  match am with
  | [] => Some a
  | t :: r => match ostep t a with Some a' => osteps r a' | None => None end
  end.

(** Second loop, lines 94-99. *)
Fixpoint oappend (done : list tqam) (order : list tqam) : list tqam :=
  match done with
  | [] => order
  | t :: r => oappend r (if tmem t order then order else order ++ [t])
  end.

(** [AMOrder_AddWithDependencies_], lines 44-100. *)
Fixpoint amorder (fuel : nat) (s : ost) (am : list tqam) : option ost :=
  match fuel with
  | 0 => None
  | S f =>
    match osteps (enumq am) (s, [], []) with
    | None => None
    | Some (s1, new, done) =>
      let rec := match new with [] => Some s1 | _ => amorder f s1 new end in
      match rec with
      | None => None
      | Some s2 => Some (OSt (oappend (enumq done) (os_order s2)) (os_top s2) (os_map s2))
      end
    end
  end.

End Order.

(** [Create] for a set of classes with given directions, lines 163-283. *)
Definition classes_bra (am : list tqam) := map brac am.
Definition classes_ket (am : list tqam) := map ketc am.

Record hplan := HP { hp_bra : list hstep; hp_ket : list hstep; hp_brasol : list dbl;
                     hp_ketsol : list dbl; hp_order : list tqam; hp_top : list tqam;
                     hp_map : list (tqam * dtype) }.

Definition hrr_create (enum : list dbl -> list dbl) (enumq : list tqam -> list tqam)
  (o : ordering) (blf klf : bool) (fuel : nat) (am : list tqam) : option hplan :=
  match hcreate enum o klf fuel (classes_ket am), hcreate enum o blf fuel (classes_bra am) with
  | Some (ks, ksol), Some (bs, bsol) =>
    match amorder enumq bs ks (class_all bsol) (class_all ksol) fuel (OSt [] [] []) am with
    | Some s => Some (HP bs ks bsol ksol (os_order s) (os_top s) (os_map s))
    | None => None
    end
  | _, _ => None
  end.

(** Direction choice of the other [Create], lines 147-160: right to left (I/K) when the
    left momentum of the highest class is smaller. *)
Definition auto_lf (c : nat * nat) : bool := fst c <? snd c.
