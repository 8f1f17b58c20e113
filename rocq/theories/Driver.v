(** The driver: which classes are generated, which external routines, which sources are listed.
    Source: create.py:13-35, 37-75, 209-300, 304-402, 458-520, 545-640, 655-670;
    generator/ostei/OSTEI_VRR_Writer.cpp:142-227, 318-405; generator/ostei/OSTEI_HRR_Writer.cpp:100-250,
    275-410; generator/ostei/ostei_deriv1_generator.cpp:91-135; generator/ostei/ostei_vrr_generator.cpp;
    generator/ostei/ostei_hrr_generator.cpp; python/gen_fill.py:52-58, 100-114. *)
From Coq Require Import List Arith Lia Bool.
Import ListNotations.
From Verif Require Import Base Cart Mdir HRRStep HRRAlgo HRROrder VRRStep VRRAlgo VRROrder Work Permute.
Set Implicit Arguments.

(** ** One kernel: both plans *)
Section Plans.
Variables (enumd : list dbl -> list dbl) (enumt : list tqam -> list tqam)
          (enumm : list qm -> list qm) (enumq : list qrt -> list qrt).
Variable o : ordering.
(** ostei_generator.cpp:91-104, ostei_deriv1_generator.cpp:127-138: the top classes of the horizontal
    plan are the requests of the vertical one. *)
Definition tops_init (hp : hplan) : list qrt := flat_map (fun t => qtargets o (tq_am t)) (hp_top hp).
Definition kplans (fuel : nat) (blf klf : bool) (am : list tqam) : option (hplan * vplan) :=
  match hrr_create enumd enumt o blf klf fuel am with
  | None => None
  | Some hp =>
    match vrr_create enumm enumq fuel (idx_order (tops_init hp)) (tops_init hp) with
    | Some vp => Some (hp, vp)
    | None => None
    end
  end.

Hypotheses (Hed : enum_ok enumd) (Het : enum_ok enumt) (Hem : enum_ok enumm) (Heq : enum_ok enumq).
Hypothesis Ho : starts_x o.

Lemma in_tops_init hp q : In q (tops_init hp) <-> exists t, In t (hp_top hp) /\ qclass q = tq_am t.
Proof.
  unfold tops_init. rewrite in_flat_map. split; intros [t [H1 H2]]; exists t; split; auto;
    apply (in_qtargets _ _ Ho); exact H2.
Qed.
Lemma tops_whole hp : whole_classes (tops_init hp).
Proof. intros q q' H E. apply in_tops_init in H as [t [H1 H2]]. apply in_tops_init. exists t. split; congruence. Qed.

Definition small (fuel : nat) (am : list tqam) : Prop := forall x, In x am -> qtotal (tq_am x) < fuel.
Lemma kplans_ok fuel blf klf am : 0 < fuel -> small fuel am ->
  exists hp vp, kplans fuel blf klf am = Some (hp, vp) /\ plan_ok blf klf am hp /\
    vplan_ok (idx_order (tops_init hp)) (tops_init hp) vp.
Proof.
  intros H0 Hs. unfold kplans.
  destruct (@hrr_create_ok enumd enumt o blf klf fuel am Hed Het Ho H0) as [hp [-> Hp]].
  { intros x Hx. specialize (Hs x Hx). unfold mvc, brac, ketc, qtotal in *. destruct blf, klf; simpl; lia. }
  destruct (@vrr_create_ok enumm enumq fuel (idx_order (tops_init hp)) (tops_init hp) Hem Heq (@tops_whole hp)) as [vp [-> Hv]].
  { intros q Hq. apply in_tops_init in Hq as [t [Ht E]]. rewrite E.
    destruct (@pl_bound _ _ _ _ Hp t (or_intror Ht)) as [y (Y1 & _ & Y3 & Y4 & _)]. specialize (Hs y Y1).
    unfold dsum, brac, ketc, qtotal in *. simpl in *. lia. }
  exists hp, vp. auto.
Qed.
End Plans.

(** ** Exactly which classes are top classes *)
Lemma with_ket_ket t c c' : with_ket (with_ket t c) c' = with_ket t c'. Proof. reflexivity. Qed.
Lemma with_bra_bra t c c' : with_bra (with_bra t c) c' = with_bra t c'. Proof. reflexivity. Qed.
Lemma with_ket_id t : with_ket t (ketc t) = t. Proof. destruct t as [g [a b c d]]; reflexivity. Qed.
Lemma with_bra_id t : with_bra t (brac t) = t. Proof. destruct t as [g [a b c d]]; reflexivity. Qed.

Definition spans (lf : bool) (y x : nat * nat) : Prop := mvc lf x = 0 /\ fxc lf y <= fxc lf x <= dsum y.

Lemma spans_0 lf y x : mvc lf y = 0 -> spans lf y x -> x = y.
Proof. destruct x, y, lf; unfold spans, mvc, fxc, dsum; simpl; intros; f_equal; lia. Qed.
Lemma spans_req lf y x : mvc lf y <> 0 -> spans lf y x ->
  spans lf (fst (hreq lf y)) x \/ spans lf (snd (hreq lf y)) x.
Proof. destruct x, y, lf; unfold spans, hreq, mvc, fxc, dsum; simpl; intros; lia. Qed.
Lemma hreq_mv lf y : mvc lf y <> 0 -> mvc lf (fst (hreq lf y)) < mvc lf y /\ mvc lf (snd (hreq lf y)) < mvc lf y.
Proof. destruct y, lf; unfold hreq, mvc; simpl; lia. Qed.

Section Tops.
Variables (blf klf : bool) (am : list tqam) (hp : hplan).
Hypothesis HP : plan_ok blf klf am hp.
Let inplan x := In x (hp_order hp) \/ In x (hp_top hp).

Lemma ket_span : forall n x k, mvc klf (ketc x) <= n -> inplan x -> spans klf (ketc x) k -> inplan (with_ket x k).
Proof.
  induction n as [|n IH]; intros x k Hn Hx Hk.
  - apply spans_0 in Hk as ->; [|lia]. rewrite with_ket_id. exact Hx.
  - destruct (Nat.eq_dec (mvc klf (ketc x)) 0) as [Z|NZ].
    { apply spans_0 in Hk as ->; [|exact Z]. rewrite with_ket_id. exact Hx. }
    destruct Hx as [Hx|Hx]; [|exfalso; apply NZ, (pl_top HP x Hx)].
    destruct (pl_kind HP x Hx) as [[K _]|[_ [K _]]]; [|congruence].
    apply in_split in Hx as [l1 [l2 E]]. destruct (pl_before HP l1 _ l2 E) as [B _].
    specialize (B K). cbv zeta in B. destruct B as [B1 B2]. destruct (hreq_mv _ _ NZ) as [M1 M2].
    assert (W : forall y, In y l1 \/ In y (hp_top hp) -> inplan y).
    { intros y [H|H]; [left; rewrite E; apply in_or_app; left; exact H|right; exact H]. }
    destruct (spans_req NZ Hk) as [S|S].
    + specialize (IH (with_ket x (fst (hreq klf (ketc x)))) k ltac:(rewrite with_ket_k; lia) (W _ B1)). rewrite with_ket_k in IH. specialize (IH S).
      rewrite with_ket_ket in IH. exact IH.
    + specialize (IH (with_ket x (snd (hreq klf (ketc x)))) k ltac:(rewrite with_ket_k; lia) (W _ B2)). rewrite with_ket_k in IH. specialize (IH S).
      rewrite with_ket_ket in IH. exact IH.
Qed.
Lemma bra_span : forall n x k, mvc blf (brac x) <= n -> mvc klf (ketc x) = 0 -> inplan x -> spans blf (brac x) k ->
  inplan (with_bra x k).
Proof.
  induction n as [|n IH]; intros x k Hn Hz Hx Hk.
  - apply spans_0 in Hk as ->; [|lia]. rewrite with_bra_id. exact Hx.
  - destruct (Nat.eq_dec (mvc blf (brac x)) 0) as [Z|NZ].
    { apply spans_0 in Hk as ->; [|exact Z]. rewrite with_bra_id. exact Hx. }
    destruct Hx as [Hx|Hx]; [|exfalso; apply NZ, (pl_top HP x Hx)].
    destruct (pl_kind HP x Hx) as [[_ [K _]]|[K _]]; [congruence|].
    apply in_split in Hx as [l1 [l2 E]]. destruct (pl_before HP l1 _ l2 E) as [_ B].
    specialize (B K). cbv zeta in B. destruct B as [B1 B2]. destruct (hreq_mv _ _ NZ) as [M1 M2].
    assert (W : forall y, In y l1 \/ In y (hp_top hp) -> inplan y).
    { intros y [H|H]; [left; rewrite E; apply in_or_app; left; exact H|right; exact H]. }
    destruct (spans_req NZ Hk) as [S|S].
    + specialize (IH (with_bra x (fst (hreq blf (brac x)))) k ltac:(rewrite with_bra_b; lia) ltac:(rewrite with_bra_k; exact Hz) (W _ B1)).
      rewrite with_bra_b in IH. specialize (IH S). rewrite with_bra_bra in IH. exact IH.
    + specialize (IH (with_bra x (snd (hreq blf (brac x)))) k ltac:(rewrite with_bra_b; lia) ltac:(rewrite with_bra_k; exact Hz) (W _ B2)).
      rewrite with_bra_b in IH. specialize (IH S). rewrite with_bra_bra in IH. exact IH.
Qed.

Theorem tops_exact x : In x (hp_top hp) <->
  exists y, In y am /\ tq_tag x = tq_tag y /\ spans blf (brac y) (brac x) /\ spans klf (ketc y) (ketc x).
Proof.
  split.
  - intros Hx. destruct (pl_top HP x Hx) as [T1 [T2 _]].
    destruct (pl_bound HP x (or_intror Hx)) as [y (Y1 & Y2 & Y3 & Y4 & Y5 & Y6 & Y7 & Y8)].
    exists y. split; [exact Y1|]. split; [exact Y2|].
    split; (split; [assumption|]); unfold dsum, mvc, fxc in *; destruct blf, klf; simpl in *; lia.
  - intros [y (Y1 & Y2 & Y3 & Y4)].
    pose proof (@ket_span _ y (ketc x) (le_n _) (pl_requested HP y Y1) Y4) as K.
    pose proof (@bra_span _ (with_ket y (ketc x)) (brac x) (le_n _)) as B.
    rewrite with_ket_k, with_ket_b in B. specialize (B (proj1 Y4) K Y3).
    assert (E : with_bra (with_ket y (ketc x)) (brac x) = x).
    { destruct x as [g [a b c d]], y as [g' [a' b' c' d']]. simpl in *. subst. reflexivity. }
    rewrite E in B. destruct B as [B|B]; [|exact B]. exfalso.
    destruct (pl_kind HP x B) as [[_ [Z _]]|[_ [_ [Z _]]]]; [apply Z, Y4|apply Z, Y3].
Qed.
End Tops.

(** ** Which classes the vertical plan computes, in terms of classes only *)
Inductive areach (ords : list ctr) (top : qam -> Prop) : qam -> Prop :=
| ar_top : forall a, top a -> areach ords top a
| ar_req : forall b rr r, areach ords top b -> vdir ords b = Some rr -> In r (amreq rr b) -> areach ords top r.

Lemma areach_mono ords (top top' : qam -> Prop) : (forall a, top a -> top' a) -> forall a, areach ords top a -> areach ords top' a.
Proof. intros H a K. induction K; [apply ar_top; auto|eapply ar_req; eauto]. Qed.

Section Reach.
Variables (ords : list ctr) (init : list qrt) (vp : vplan).
Hypothesis Hw : whole_classes init.
Hypothesis HV : vplan_ok ords init vp.
Let top (a : qam) : Prop := exists q, In q init /\ qclass q = a.

Lemma vreach_areach q m : vreach ords init q m -> areach ords top (qclass q).
Proof.
  induction 1 as [q Hq|q m c s x q' Hr IH Hd Hs Hx Hq].
  - apply ar_top. exists q. auto.
  - apply ar_req with (qclass q) c; auto. apply (@src_in_amreq c q m s x); auto.
    apply (@src_class c q m s x q' Hs Hx Hq).
Qed.
Lemma areach_vreach a : areach ords top a -> exists m, vreach ords init (pure a) m.
Proof.
  induction 1 as [a [q [Hq E]]|b rr r Hb [m IH] Hd Hr].
  - exists 0. apply vr_init. apply (Hw Hq). rewrite pure_class. congruence.
  - pose proof Hd as Hd'. apply vdir_some in Hd' as [Hnz _].
    destruct (@step_pure rr b m Hnz) as [s [Es Hs]]. apply amreq_src in Hr as [cs [bb [Hin [-> Hal]]]].
    exists (S m). replace (S m) with (sm (mk_src (pure b) DX m (cs, true))) by reflexivity.
    apply vr_src with (pure b) m rr s; auto.
    + rewrite pure_class. exact Hd.
    + rewrite Hs. apply in_map, Hin.
    + unfold mk_src. cbn. rewrite clowers_pure, Hal. reflexivity.
Qed.
Theorem known_areach a : covers ords -> (known vp a <-> areach ords top a /\ a <> ssss).
Proof.
  intros Hc. split.
  - intros [q [m [Hq <-]]]. apply (so_exact (vo_steps HV)) in Hq as [H1 H2].
    split; [apply (vreach_areach H1)|]. intros E. apply H2. apply covers_dir; auto.
  - intros [H Hne]. apply areach_vreach in H as [m H]. exists (pure a), m. split; [|apply pure_class].
    apply (so_exact (vo_steps HV)). split; [exact H|]. rewrite pure_class.
    intros E. apply Hne. apply (covers_dir _ Hc), E.
Qed.
End Reach.

(** ** Exchanging centres *)
Definition swc (s12 s34 : bool) (c : ctr) : ctr :=
  match c with
  | CI => if s12 then CJ else CI | CJ => if s12 then CI else CJ
  | CK => if s34 then CL else CK | CL => if s34 then CK else CL
  end.
Lemma aget_permute s12 s34 c a : aget (swc s12 s34 c) (permute s12 s34 a) = aget c a.
Proof. destruct s12, s34, c, a; reflexivity. Qed.
Lemma permute_invol s12 s34 a : permute s12 s34 (permute s12 s34 a) = a.
Proof. destruct s12, s34, a; reflexivity. Qed.
Lemma qtotal_permute s12 s34 a : qtotal (permute s12 s34 a) = qtotal a.
Proof. destruct s12, s34, a; unfold qtotal; simpl; lia. Qed.
Lemma amax_permute s12 s34 a : amax (permute s12 s34 a) = amax a.
Proof. destruct s12, s34, a; unfold amax; simpl; lia. Qed.
Lemma alower_permute s12 s34 c a :
  alower (swc s12 s34 c) (permute s12 s34 a) = option_map (permute s12 s34) (alower c a).
Proof. destruct s12, s34, c, a as [x y z w]; unfold alower; simpl;
  match goal with |- context [match ?n with 0 => _ | _ => _ end] => destruct n; reflexivity end. Qed.
Lemma alowers_permute s12 s34 cs : forall a,
  alowers (map (swc s12 s34) cs) (permute s12 s34 a) = option_map (permute s12 s34) (alowers cs a).
Proof.
  induction cs as [|c cs IH]; intros a; simpl; [reflexivity|].
  rewrite alower_permute. destruct (alower c a) as [a'|]; simpl; [apply IH|reflexivity].
Qed.
Lemma amreq_permute s12 s34 rr a r : In r (amreq rr a) ->
  In (permute s12 s34 r) (amreq (swc s12 s34 rr) (permute s12 s34 a)).
Proof.
  rewrite !amreq_src. intros [cs [b [Hin [-> Hal]]]]. exists (map (swc s12 s34) cs), true.
  split; [|split; [reflexivity|rewrite alowers_permute, Hal; reflexivity]].
  destruct s12, s34, rr; simpl in Hin |- *;
    repeat (destruct Hin as [Hin|Hin]; [injection Hin as <-; simpl; tauto|]); destruct Hin.
Qed.

(** One centre of each side has no momentum. *)
Definition onesided (blf klf : bool) (a : qam) : Prop :=
  mvc blf (am0 a, am1 a) = 0 /\ mvc klf (am2 a, am3 a) = 0.
Lemma onesided_le blf klf a a' : onesided blf klf a -> (forall d, aget d a' <= aget d a) -> onesided blf klf a'.
Proof.
  intros [H1 H2] H. pose proof (H CI); pose proof (H CJ); pose proof (H CK); pose proof (H CL). simpl in *.
  unfold onesided, mvc in *. destruct blf, klf; simpl in *; lia.
Qed.
Lemma amreq_le rr a r d : In r (amreq rr a) -> aget d r <= aget d a.
Proof. intros H. apply amreq_src in H as [cs [b [_ [_ H]]]]. apply (alowers_le _ _ _ H). Qed.
Lemma areach_onesided ords (top : qam -> Prop) blf klf a : (forall a, top a -> onesided blf klf a) ->
  areach ords top a -> onesided blf klf a.
Proof.
  intros H K. induction K as [a Ha|b rr r Hb IH Hd Hr]; [auto|].
  apply (@onesided_le blf klf b r IH). intros d. apply (@amreq_le rr b r d Hr).
Qed.

(** The order of centres, for classes with one bra and one ket centre. *)
Definition bc (blf : bool) : ctr := if blf then CJ else CI.
Definition kc (klf : bool) : ctr := if klf then CL else CK.
Lemma vdir_onesided init blf klf a : onesided blf klf a ->
  vdir (idx_order init) a =
  if aget (kc klf) a =? 0 then (if aget (bc blf) a =? 0 then None else Some (bc blf))
  else if aget (bc blf) a =? 0 then Some (kc klf)
  else if qmax init (kc klf) <=? qmax init (bc blf) then Some (kc klf) else Some (bc blf).
Proof.
  intros [H1 H2]. unfold idx_order. cbn [fold_left].
  generalize (qmax init). intros key. unfold mvc in *.
  destruct a as [x y z w]. cbn [am0 am1 am2 am3 fst snd] in *.
  cbn [sins].
  destruct blf, klf; cbn [bc kc fst snd] in *; subst;
  repeat (match goal with |- context [?k ?c <? ?k' ?d] => destruct (Nat.ltb_spec (k c) (k' d)); cbn [sins] end);
  cbn [vdir aget am0 am1 am2 am3 Nat.eqb];
  repeat match goal with |- context [?n =? 0] => destruct (Nat.eqb_spec n 0) end;
  repeat match goal with |- context [?n <=? ?m] => destruct (Nat.leb_spec n m) end;
  try reflexivity; try lia; try congruence.
Qed.

(** ** What a kernel is made of *)
Definition araise (x : ctr) (a : qam) : qam :=
  match x with
  | CI => QAM (S (am0 a)) (am1 a) (am2 a) (am3 a) | CJ => QAM (am0 a) (S (am1 a)) (am2 a) (am3 a)
  | CK => QAM (am0 a) (am1 a) (S (am2 a)) (am3 a) | CL => QAM (am0 a) (am1 a) (am2 a) (S (am3 a))
  end.
(** ostei_deriv1_generator.cpp:97-109. *)
Definition missing_center (c : qam) : ctr :=
  if am0 c =? amax c then CI else if am1 c =? amax c then CJ else if am2 c =? amax c then CK else CL.
(** Tags of the raised classes, line 111; 0 is the empty tag. *)
Definition dtag (x : ctr) : nat := match x with CI => 1 | CJ => 2 | CK => 3 | CL => 4 end.
(** Lines 112-125. *)
Definition needed_am (c : qam) : list tqam :=
  flat_map (fun x => if ctr_eq_dec x (missing_center c) then []
                     else TQ (dtag x) (araise x c) :: match alower x c with Some m => [TQ 0 m] | None => [] end)
           [CI; CJ; CK; CL].
(** Derivative order 0 (ostei_generator.cpp:93, the class itself) or 1. *)
Definition request (d : nat) (c : qam) : list tqam := match d with 0 => [TQ 0 c] | _ => needed_am c end.
(** [operator<] on [QAM], Types.hpp:59-67; the tag does not matter below. *)
Definition lexlt (a b : qam) : bool :=
  (am0 a <? am0 b) || ((am0 a =? am0 b) && ((am1 a <? am1 b) || ((am1 a =? am1 b) &&
    ((am2 a <? am2 b) || ((am2 a =? am2 b) && (am3 a <? am3 b)))))).
(** [*am.rbegin()] and the directions, OSTEI_HRR_Algorithm_Base.cpp:160-175. *)
Definition highest (am : list tqam) : qam :=
  fold_left (fun m t => if lexlt m (tq_am t) then tq_am t else m) am ssss.
Definition dir_b (am : list tqam) : bool := auto_lf (am0 (highest am), am1 (highest am)).
Definition dir_k (am : list tqam) : bool := auto_lf (am2 (highest am), am3 (highest am)).

(** Calls of external routines. *)
Inductive source : Type :=
| SKern (d : nat) (c : qam) | SHrr (rr : ctr) (c : nat * nat) | SVrr (rr : ctr) (a : qam).
Section Logs.
Variables ve vg he hg : nat.
(** OSTEI_VRR_Writer.cpp:178-193 and the line written at 224-226. *)
Definition vlog (vp : vplan) : list (ctr * qam) :=
  flat_map (fun a => if qam_eq_dec a ssss then [] else if qtotal a <? ve then [] else if qtotal a <? vg
     then match rrstep_of (vp_steps vp) a with Some rr => [(rr, a)] | None => [] end else []) (vp_order vp).
(** OSTEI_HRR_Writer.cpp:149-179 and 224-226, 244-246.  The direction of a doublet is the one its side
    was made with. *)
Definition bdir (lf : bool) : ctr := if lf then CI else CJ.
Definition kdir (lf : bool) : ctr := if lf then CK else CL.
Definition hlog (blf klf : bool) (hp : hplan) : list (ctr * (nat * nat)) :=
  flat_map (fun t => match smap_at (hp_map hp) t with
     | Some BRA => if dsum (brac t) <? he then [] else if dsum (brac t) <? hg then [(bdir blf, brac t)] else []
     | Some KET => if dsum (ketc t) <? he then [] else if dsum (ketc t) <? hg then [(kdir klf, ketc t)] else []
     | None => [] end) (hp_order hp).

Variables (enumd : list dbl -> list dbl) (enumt : list tqam -> list tqam)
          (enumm : list qm -> list qm) (enumq : list qrt -> list qrt).
Variable o : ordering.
Definition kernel (d : nat) (c : qam) : option (hplan * vplan) :=
  kplans enumd enumt enumm enumq o (3 + qtotal c) (dir_b (request d c)) (dir_k (request d c)) (request d c).
Definition kvlog (d : nat) (c : qam) : list (ctr * qam) :=
  match kernel d c with Some (_, vp) => vlog vp | None => [] end.
Definition khlog (d : nat) (c : qam) : list (ctr * (nat * nat)) :=
  match kernel d c with Some (hp, _) => hlog (dir_b (request d c)) (dir_k (request d c)) hp | None => [] end.

Hypotheses (Hed : enum_ok enumd) (Het : enum_ok enumt) (Hem : enum_ok enumm) (Heq : enum_ok enumq).
Hypothesis Ho : starts_x o.

Lemma in_vlog ords init vp rr a : vplan_ok ords init vp -> covers ords ->
  (In (rr, a) (vlog vp) <-> known vp a /\ vdir ords a = Some rr /\ ve <= qtotal a < vg).
Proof.
  intros HV Hc. unfold vlog. rewrite in_flat_map. split.
  - intros [b [Hb H]]. destruct (qam_eq_dec b ssss); [destruct H|].
    destruct (Nat.ltb_spec (qtotal b) ve); [destruct H|].
    destruct (Nat.ltb_spec (qtotal b) vg); [|destruct H].
    apply (vo_order HV) in Hb. destruct (vo_dir HV Hb) as [r' [D1 [D2 _]]]. rewrite D2 in H.
    destruct H as [H|[]]. injection H as <- <-. auto.
  - intros [Hk [Hd [L1 L2]]]. exists a. split; [apply (vo_order HV); exact Hk|].
    destruct (vo_dir HV Hk) as [r' [D1 [D2 _]]]. rewrite D2.
    destruct (qam_eq_dec a ssss) as [->|_].
    { apply vdir_some in Hd as [Hd _]. destruct rr; simpl in Hd; congruence. }
    destruct (Nat.ltb_spec (qtotal a) ve); [lia|]. destruct (Nat.ltb_spec (qtotal a) vg); [|lia].
    left. congruence.
Qed.

Lemma request_small d c : small (3 + qtotal c) (request d c).
Proof.
  intros x Hx. destruct d as [|d]; cbn [request] in Hx.
  - destruct Hx as [<-|[]]. cbn. lia.
  - unfold needed_am in Hx. apply in_flat_map in Hx as [y [_ Hx]].
    destruct (ctr_eq_dec y (missing_center c)); [destruct Hx|]. destruct Hx as [<-|Hx].
    + destruct c as [i j k l], y; unfold qtotal; simpl; lia.
    + destruct (alower y c) as [m|] eqn:E; [|destruct Hx]. destruct Hx as [<-|[]].
      pose proof (alower_tot _ _ E). cbn [tq_am]. lia.
Qed.

(** Classes at the top of the kernel of [c]. *)
Definition ktop (d : nat) (c a : qam) : Prop :=
  exists y, In y (request d c) /\
    spans (dir_b (request d c)) (brac y) (am0 a, am1 a) /\ spans (dir_k (request d c)) (ketc y) (am2 a, am3 a).

(** Which external vertical routines the kernel of [c] calls. *)
Theorem in_kvlog d c : exists ords, covers ords /\
  (exists init, ords = idx_order init /\ (forall q, In q init <-> ktop d c (qclass q))) /\
  forall rr a, In (rr, a) (kvlog d c) <->
    areach ords (ktop d c) a /\ a <> ssss /\ vdir ords a = Some rr /\ ve <= qtotal a < vg.
Proof.
  destruct (@kplans_ok enumd enumt enumm enumq o Hed Het Hem Heq Ho (3 + qtotal c) (dir_b (request d c))
    (dir_k (request d c)) (request d c) ltac:(lia) (@request_small d c)) as [hp [vp [E [HP HV]]]].
  exists (idx_order (tops_init o hp)). split; [apply idx_order_covers|].
  assert (T : forall q, In q (tops_init o hp) <-> ktop d c (qclass q)).
  { intros q. rewrite (in_tops_init Ho). split.
    - intros [t [Ht E']]. apply (tops_exact HP) in Ht as [y (Y1 & _ & Y3 & Y4)]. exists y.
      rewrite E'. split; [exact Y1|]. split; [exact Y3|exact Y4].
    - intros [y (Y1 & Y3 & Y4)]. exists (TQ (tq_tag y) (qclass q)). split; [|reflexivity].
      apply (tops_exact HP). exists y. split; [exact Y1|]. split; [reflexivity|]. split; [exact Y3|exact Y4]. }
  split; [exists (tops_init o hp); auto|].
  intros rr a. unfold kvlog, kernel. rewrite E.
  rewrite (@in_vlog _ _ _ rr a HV (@idx_order_covers _)).
  rewrite (@known_areach _ _ _ (tops_whole Ho hp) HV a (@idx_order_covers _)).
  assert (M : forall a, (exists q, In q (tops_init o hp) /\ qclass q = a) <-> ktop d c a).
  { intros b. split; [intros [q [Hq <-]]; apply T, Hq|]. intros Hb. exists (pure b). rewrite T, pure_class. auto. }
  assert (A : areach (idx_order (tops_init o hp)) (fun a => exists q, In q (tops_init o hp) /\ qclass q = a) a <->
    areach (idx_order (tops_init o hp)) (ktop d c) a).
  { split; apply areach_mono; intros b; apply M. }
  rewrite A. tauto.
Qed.

Lemma ktop_onesided d c a : ktop d c a -> onesided (dir_b (request d c)) (dir_k (request d c)) a.
Proof. intros [y (_ & Y3 & Y4)]. split; [apply Y3|apply Y4]. Qed.
Lemma kvlog_onesided d c rr a : In (rr, a) (kvlog d c) ->
  onesided (dir_b (request d c)) (dir_k (request d c)) a /\ aget rr a <> 0 /\ ve <= qtotal a < vg.
Proof.
  destruct (in_kvlog d c) as [ords [_ [_ H]]]. intros K. apply H in K as (K1 & _ & K2 & K3).
  split; [apply (@areach_onesided ords (ktop d c)); [apply ktop_onesided|exact K1]|].
  split; [apply vdir_some in K2; apply K2|exact K3].
Qed.

(** ** Order 0: the kernel of the ordered class calls the exchanged routines *)
Lemma highest1 c : highest [TQ 0 c] = c.
Proof.
  unfold highest. cbn [fold_left tq_am]. destruct (lexlt ssss c) eqn:E; [reflexivity|].
  destruct c as [i j k l]. unfold lexlt, ssss in *; cbn [am0 am1 am2 am3] in *.
  destruct i; [|discriminate]. destruct j; [|discriminate]. destruct k; [|discriminate]. destruct l; [reflexivity|discriminate].
Qed.
Definition order_classes (c : qam) : qam := permute (am0 c <? am1 c) (am2 c <? am3 c) c.
Lemma order_classes_sorted c : am1 (order_classes c) <= am0 (order_classes c) /\ am3 (order_classes c) <= am2 (order_classes c).
Proof.
  destruct c as [i j k l]. unfold order_classes, permute. cbn [am0 am1 am2 am3].
  destruct (Nat.ltb_spec i j), (Nat.ltb_spec k l); lia.
Qed.

Lemma qmax_ge l q x : In q l -> aget x (qclass q) <= qmax l x.
Proof.
  intros H. unfold qmax. apply fold_max_le. apply in_map_iff. exists q. split; [|exact H].
  destruct x; reflexivity.
Qed.
Lemma qmax_le l n x : (forall q, In q l -> aget x (qclass q) <= n) -> qmax l x <= n.
Proof.
  intros H. unfold qmax. destruct l as [|q0 l]; [simpl; lia|].
  pose proof (@fold_max_in (map (fun q => gam (cget x q)) (q0 :: l)) ltac:(discriminate)) as K.
  apply in_map_iff in K as [q [E Hq]]. rewrite <- E. specialize (H q Hq). destruct x; exact H.
Qed.

Theorem exchanged_requests c rr a : In (rr, a) (kvlog 0 c) ->
  In (swc (am0 c <? am1 c) (am2 c <? am3 c) rr, permute (am0 c <? am1 c) (am2 c <? am3 c) a)
     (kvlog 0 (order_classes c)).
Proof.
  set (s12 := am0 c <? am1 c). set (s34 := am2 c <? am3 c).
  destruct (in_kvlog 0 c) as [ords [_ [[init [-> T]] H]]].
  destruct (in_kvlog 0 (order_classes c)) as [ords' [_ [[init' [-> T']] H']]].
  rewrite H, H'. intros (K1 & K2 & K3 & K4). rewrite qtotal_permute.
  assert (Db : dir_b (request 0 c) = s12) by (unfold dir_b; cbn [request]; rewrite highest1; reflexivity).
  assert (Dk : dir_k (request 0 c) = s34) by (unfold dir_k; cbn [request]; rewrite highest1; reflexivity).
  assert (Db' : dir_b (request 0 (order_classes c)) = false).
  { unfold dir_b; cbn [request]; rewrite highest1. apply Nat.ltb_ge, order_classes_sorted. }
  assert (Dk' : dir_k (request 0 (order_classes c)) = false).
  { unfold dir_k; cbn [request]; rewrite highest1. apply Nat.ltb_ge, order_classes_sorted. }
  assert (TT : forall b, ktop 0 c b <-> ktop 0 (order_classes c) (permute s12 s34 b)).
  { intros b. unfold ktop. rewrite Db, Dk, Db', Dk'. cbn [request].
    split; intros [y (Y1 & Y3 & Y4)]; destruct Y1 as [<-|[]]; eexists; (split; [left; reflexivity|]);
      unfold order_classes in *; fold s12 s34 in Y3, Y4 |- *;
      destruct b as [bi bj bk bl], c as [i j k l]; destruct s12, s34;
      unfold spans, mvc, fxc, dsum, brac, ketc in *; cbn in *; lia. }
  assert (OS : forall b, areach (idx_order init) (ktop 0 c) b -> onesided s12 s34 b).
  { intros b Hb. rewrite <- Db, <- Dk. apply (@areach_onesided (idx_order init) (ktop 0 c)); [apply ktop_onesided|exact Hb]. }
  assert (QM : forall x, qmax init' (swc s12 s34 x) = qmax init x).
  { intros x. apply Nat.le_antisymm; apply qmax_le; intros q Hq.
    - apply T' in Hq. rewrite <- (permute_invol s12 s34 (qclass q)) in Hq. apply TT in Hq.
      rewrite <- (permute_invol s12 s34 (qclass q)), aget_permute.
      rewrite <- (pure_class (permute s12 s34 (qclass q))). apply qmax_ge, T. rewrite pure_class. exact Hq.
    - apply T, TT in Hq. rewrite <- (aget_permute s12 s34).
      rewrite <- (pure_class (permute s12 s34 (qclass q))). apply qmax_ge, T'. rewrite pure_class. exact Hq. }
  assert (VD : forall b, onesided s12 s34 b ->
    vdir (idx_order init') (permute s12 s34 b) = option_map (swc s12 s34) (vdir (idx_order init) b)).
  { intros b Hb. rewrite (@vdir_onesided init s12 s34 b Hb).
    rewrite (@vdir_onesided init' false false (permute s12 s34 b)).
    2: { destruct b, s12, s34; unfold onesided, mvc in *; cbn in *; lia. }
    replace (kc false) with (swc s12 s34 (kc s34)) by (destruct s12, s34; reflexivity).
    replace (bc false) with (swc s12 s34 (bc s12)) by (destruct s12, s34; reflexivity).
    rewrite !aget_permute, !QM.
    destruct (aget (kc s34) b =? 0), (aget (bc s12) b =? 0), (qmax init (kc s34) <=? qmax init (bc s12)); reflexivity. }
  assert (AR : forall b, areach (idx_order init) (ktop 0 c) b ->
    areach (idx_order init') (ktop 0 (order_classes c)) (permute s12 s34 b)).
  { intros b Hb. induction Hb as [b Hb|b r' r Hb IH Hd Hr].
    - apply ar_top, TT, Hb.
    - apply ar_req with (permute s12 s34 b) (swc s12 s34 r'); [exact IH| |apply amreq_permute, Hr].
      rewrite VD by (apply OS; exact Hb). rewrite Hd. reflexivity. }
  split; [apply AR, K1|]. split; [|split; [rewrite VD by (apply OS; exact K1); rewrite K3; reflexivity|exact K4]].
  intros E. apply K2. rewrite <- (permute_invol s12 s34 a), E. destruct s12, s34; reflexivity.
Qed.
End Logs.
