(** Correctness of the order of classes of the horizontal plan.
    Source: generator/ostei/OSTEI_HRR_Algorithm_Base.cpp:44-100, 163-283. *)
From Coq Require Import List Arith Lia Bool.
Import ListNotations.
From Verif Require Import Base Cart Mdir HRRStep HRRAlgo.
Set Implicit Arguments.

Section Order.
Variable enumq : list tqam -> list tqam.
Hypothesis Henq : enum_ok enumq.
Variables blf klf : bool.
Variables bcls kcls : list (nat * nat).
Variables bsteps ksteps : list hstep.
Variables bsol ksol : list dbl.
Hypothesis HB : side_plan_ok blf bcls bsteps bsol.
Hypothesis HK : side_plan_ok klf kcls ksteps ksol.

Let ball := class_all bsol.
Let kall := class_all ksol.
Definition mvc (lf : bool) (c : nat * nat) : nat := if lf then fst c else snd c.
Definition measure (t : tqam) : nat := mvc blf (brac t) + mvc klf (ketc t).

(** A property kept when going from a class to what it is formed from. *)
Variable P : tqam -> Prop.
Hypothesis Pket : forall t c, P t -> In (ketc t) kall ->
  c = fst (hreq klf (ketc t)) \/ c = snd (hreq klf (ketc t)) -> P (with_ket t c).
Hypothesis Pbra : forall t c, P t -> In (brac t) ball ->
  c = fst (hreq blf (brac t)) \/ c = snd (hreq blf (brac t)) -> P (with_bra t c).

(** What a class needs: through the ket when the ket still has to be moved, else the bra. *)
Definition kind (t : tqam) : dtype := if inb (ketc t) kall then KET else BRA.
Definition dep (t x : tqam) : Prop :=
  match kind t with
  | KET => x = with_ket t (fst (hreq klf (ketc t))) \/ x = with_ket t (snd (hreq klf (ketc t)))
  | BRA => x = with_bra t (fst (hreq blf (brac t))) \/ x = with_bra t (snd (hreq blf (brac t)))
  end.

(** Reachable classes: each side is solved by the plan or has nothing left to move. *)
Definition reach (t : tqam) : Prop :=
  (In (brac t) ball \/ mvc blf (brac t) = 0) /\ (In (ketc t) kall \/ mvc klf (ketc t) = 0) /\ P t.

Definition is_top (t : tqam) : Prop := ~ In (brac t) ball /\ ~ In (ketc t) kall.

Definition ordered (top order : list tqam) : Prop :=
  forall l1 x l2, order = l1 ++ x :: l2 -> forall y, dep x y -> In y l1 \/ In y top.

Record oinv (s : ost) : Prop := {
  oi_ord : ordered (os_top s) (os_order s);
  oi_nodup : NoDup (os_order s);
  oi_kind : forall x, In x (os_order s) -> ~ is_top x /\ reach x;
  oi_top : forall x, In x (os_top s) -> is_top x /\ reach x;
  oi_map : forall k v, In (k, v) (os_map s) -> v = kind k;
  oi_dom : forall x, In x (os_order s) -> exists v, In (x, v) (os_map s) }.

Lemma smap_at_kind m x : (forall k v, In (k, v) m -> v = kind k) ->
  (exists v, In (x, v) m) -> smap_at m x = Some (kind x).
Proof.
  induction m as [|[k v] m IH]; intros Hm [w Hw]; [destruct Hw|].
  simpl. destruct (tqam_eq_dec k x) as [->|N].
  - f_equal. apply Hm. left; reflexivity.
  - apply IH; [intros; apply Hm; right; assumption|].
    destruct Hw as [E|Hw]; [injection E as -> ->; contradiction|exists w; exact Hw].
Qed.

Lemma ordered_mono top top' order : incl top top' -> ordered top order -> ordered top' order.
Proof. intros Hi Ho l1 x l2 E y Hy. destruct (Ho l1 x l2 E y Hy); auto. Qed.

Lemma ordered_snoc top order x :
  ordered top order -> (forall y, dep x y -> In y order \/ In y top) -> ordered top (order ++ [x]).
Proof.
  intros Ho Hx l1 z l2 E y Hy.
  destruct l2 as [|w l2].
  - apply app_inj_tail in E as [<- <-]. apply Hx, Hy.
  - destruct (@exists_last _ (w :: l2)) as [l3 [v Ev]]; [discriminate|].
    rewrite Ev in E. rewrite app_comm_cons, app_assoc in E. apply app_inj_tail in E as [E _].
    destruct (Ho l1 z l3 E y Hy); auto.
Qed.

Lemma with_ket_mv t c : measure (with_ket t c) = mvc blf (brac t) + mvc klf c.
Proof. unfold measure, with_ket, brac, ketc; destruct c; reflexivity. Qed.
Lemma with_bra_mv t c : measure (with_bra t c) = mvc blf c + mvc klf (ketc t).
Proof. unfold measure, with_bra, brac, ketc; destruct c; reflexivity. Qed.
Lemma with_ket_b t c : brac (with_ket t c) = brac t. Proof. reflexivity. Qed.
Lemma with_ket_k t c : ketc (with_ket t c) = c. Proof. destruct c; reflexivity. Qed.
Lemma with_bra_b t c : brac (with_bra t c) = c. Proof. destruct c; reflexivity. Qed.
Lemma with_bra_k t c : ketc (with_bra t c) = ketc t. Proof. reflexivity. Qed.

(** Invariant of the first loop. *)
Definition acc_inv (n : nat) (a : ost * list tqam * list tqam) : Prop :=
  let '(s, new, done) := a in
  oinv s /\
  (forall x, In x done -> ~ is_top x /\ reach x /\ (exists v, In (x, v) (os_map s)) /\
                          (forall y, dep x y -> In y new)) /\
  (forall y, In y new -> reach y /\ measure y < n).

Lemma ostep_inv n iam s new done :
  reach iam -> measure iam <= n -> acc_inv n (s, new, done) ->
  exists s' new' done', ostep bsteps ksteps ball kall iam (s, new, done) = Some (s', new', done') /\
    acc_inv n (s', new', done') /\ os_order s' = os_order s /\
    incl (os_top s) (os_top s') /\ incl (os_map s) (os_map s') /\ incl done done' /\
    (In iam (os_order s') \/ In iam (os_top s') \/ In iam done').
Proof.
  intros Hr Hm (HI & Hd & Hn). unfold ostep.
  destruct (tmem iam (os_order s)) eqn:E1.
  { apply tmem_In in E1. exists s, new, done. split; [reflexivity|]. split; [split; [exact HI|split; assumption]|].
    auto 8 using incl_refl. }
  destruct (negb (inb (brac iam) ball) && negb (inb (ketc iam) kall)) eqn:E2.
  { apply andb_true_iff in E2 as [Ea Eb]. apply negb_true_iff in Ea, Eb.
    assert (Ht : is_top iam).
    { split; intros K; apply inb_In in K; congruence. }
    eexists _, _, _. split; [reflexivity|]. simpl.
    split; [|split; [reflexivity|split; [intros x; right; assumption|split; [apply incl_refl|split; [apply incl_refl|auto]]]]].
    split; [|split; [exact Hd|exact Hn]].
    destruct HI as [A1 A2 A3 A4 A5 A6]. constructor; simpl; auto.
    - apply ordered_mono with (os_top s); [intros x; right; assumption|exact A1].
    - intros x [<-|Hx]; auto. }
  destruct (inb (ketc iam) kall) eqn:E3.
  - pose proof E3 as E3'. apply inb_In in E3.
    destruct (@class_req_ok klf kcls ksteps ksol (ketc iam) HK E3) as [l [El [Hl1 [Hl2 [Hl3 Hl4]]]]].
    rewrite El. eexists _, _, _. split; [reflexivity|]. simpl.
    assert (Ek : kind iam = KET) by (unfold kind; rewrite E3'; reflexivity).
    split; [|split; [reflexivity|split; [apply incl_refl|split; [intros x; right; assumption|split; [intros x Hx; apply in_or_app; auto|]]]]].
    2: { right; right. apply in_or_app; right; left; reflexivity. }
    split; [|split].
    + destruct HI as [A1 A2 A3 A4 A5 A6]. constructor; simpl; auto.
      * intros k v [E|K]; [injection E as <- <-; symmetry; exact Ek|auto].
      * intros x Hx. destruct (A6 x Hx) as [v Hv]. exists v; right; exact Hv.
    + intros x Hx. apply in_app_or in Hx as [Hx|[<-|[]]].
      * destruct (Hd x Hx) as [B1 [B2 [[v B3] B4]]]. repeat split; auto; try apply B2.
        -- exists v; right; exact B3.
        -- intros y Hy. apply in_or_app; left; auto.
      * repeat split; try apply Hr.
        -- intros [_ K]. apply K, E3.
        -- exists KET; left; reflexivity.
        -- intros y Hy. unfold dep in Hy. rewrite Ek in Hy. apply in_or_app; right.
           destruct Hy as [-> | ->]; apply in_map, Hl1; auto.
    + intros y Hy. apply in_app_or in Hy as [Hy|Hy]; [auto|].
      apply in_map_iff in Hy as [c [<- Hc]]. split.
      * split; [rewrite with_ket_b; apply Hr|]. rewrite with_ket_k. split; [apply Hl2, Hc|].
        apply Pket; [apply Hr|exact E3|apply Hl1, Hc].
      * rewrite with_ket_mv. pose proof (Hl4 c Hc) as K. unfold measure, mvc in *. lia.
  - assert (E4 : In (brac iam) ball).
    { apply inb_In. destruct (inb (brac iam) ball); [reflexivity|discriminate]. }
    destruct (@class_req_ok blf bcls bsteps bsol (brac iam) HB E4) as [l [El [Hl1 [Hl2 [Hl3 Hl4]]]]].
    rewrite El. eexists _, _, _. split; [reflexivity|]. simpl.
    assert (Ek : kind iam = BRA) by (unfold kind; rewrite E3; reflexivity).
    split; [|split; [reflexivity|split; [apply incl_refl|split; [intros x; right; assumption|split; [intros x Hx; apply in_or_app; auto|]]]]].
    2: { right; right. apply in_or_app; right; left; reflexivity. }
    split; [|split].
    + destruct HI as [A1 A2 A3 A4 A5 A6]. constructor; simpl; auto.
      * intros k v [E|K]; [injection E as <- <-; symmetry; exact Ek|auto].
      * intros x Hx. destruct (A6 x Hx) as [v Hv]. exists v; right; exact Hv.
    + intros x Hx. apply in_app_or in Hx as [Hx|[<-|[]]].
      * destruct (Hd x Hx) as [B1 [B2 [[v B3] B4]]]. repeat split; auto; try apply B2.
        -- exists v; right; exact B3.
        -- intros y Hy. apply in_or_app; left; auto.
      * repeat split; try apply Hr.
        -- intros [K _]. apply K, E4.
        -- exists BRA; left; reflexivity.
        -- intros y Hy. unfold dep in Hy. rewrite Ek in Hy. apply in_or_app; right.
           destruct Hy as [-> | ->]; apply in_map, Hl1; auto.
    + intros y Hy. apply in_app_or in Hy as [Hy|Hy]; [auto|].
      apply in_map_iff in Hy as [c [<- Hc]]. split.
      * split; [rewrite with_bra_b; apply Hl2, Hc|]. rewrite with_bra_k. split; [apply Hr|].
        apply Pbra; [apply Hr|exact E4|apply Hl1, Hc].
      * rewrite with_bra_mv. pose proof (Hl4 c Hc) as K. unfold measure, mvc in *. lia.
Qed.

Lemma osteps_inv n am : forall s new done,
  (forall x, In x am -> reach x /\ measure x <= n) -> acc_inv n (s, new, done) ->
  exists s' new' done', osteps bsteps ksteps ball kall am (s, new, done) = Some (s', new', done') /\
    acc_inv n (s', new', done') /\ os_order s' = os_order s /\
    incl (os_top s) (os_top s') /\ incl (os_map s) (os_map s') /\ incl done done' /\
    (forall x, In x am -> In x (os_order s') \/ In x (os_top s') \/ In x done').
Proof.
  induction am as [|t am IH]; intros s new done Hr HI.
  - exists s, new, done. simpl. split; [reflexivity|]. split; [exact HI|].
    repeat split; auto using incl_refl; contradiction.
  - destruct (Hr t (or_introl eq_refl)) as [Hr1 Hr2].
    destruct (@ostep_inv n t s new done Hr1 Hr2 HI) as [s1 [n1 [d1 [E1 [I1 [O1 [T1 [M1 [D1 C1]]]]]]]]].
    destruct (IH s1 n1 d1) as [s2 [n2 [d2 [E2 [I2 [O2 [T2 [M2 [D2 C2]]]]]]]]];
      [intros; apply Hr; right; assumption|exact I1|].
    exists s2, n2, d2. cbn [osteps]. rewrite E1. split; [exact E2|]. split; [exact I2|].
    split; [congruence|]. split; [intros x Hx; apply T2, T1, Hx|].
    split; [intros x Hx; apply M2, M1, Hx|].
    split; [intros x Hx; apply D2, D1, Hx|].
    intros x [<-|Hx]; [|auto]. destruct C1 as [K|[K|K]]; auto.
    left. rewrite O2; exact K.
Qed.

Lemma oappend_ok top done : forall order,
  ordered top order -> NoDup order ->
  (forall x, In x done -> forall y, dep x y -> In y order \/ In y top) ->
  ordered top (oappend done order) /\ NoDup (oappend done order) /\
  (forall x, In x (oappend done order) <-> In x order \/ In x done).
Proof.
  induction done as [|t done IH]; intros order Ho Hn Hd; simpl.
  - split; [exact Ho|]. split; [exact Hn|]. tauto.
  - destruct (tmem t order) eqn:E.
    + apply tmem_In in E. destruct (IH order Ho Hn) as [A [B C]]; [intros; eapply Hd; eauto; right; auto|].
      split; [exact A|]. split; [exact B|]. intros x. rewrite C. split; [tauto|].
      intros [K|[<-|K]]; auto.
    + apply tmem_nIn in E.
      destruct (IH (order ++ [t])) as [A [B C]].
      * apply ordered_snoc; [exact Ho|]. apply Hd; left; reflexivity.
      * apply NoDup_app_intro; [exact Hn|repeat constructor; auto|]. intros x Hx [<-|[]]. contradiction.
      * intros x Hx y Hy. destruct (Hd x (or_intror Hx) y Hy); [left; apply in_or_app; auto|auto].
      * split; [exact A|]. split; [exact B|]. intros x. rewrite C, in_app_iff. simpl. tauto.
Qed.

Lemma amorder_ok : forall fuel s am,
  (forall x, In x am -> reach x /\ measure x < fuel) -> 0 < fuel -> oinv s ->
  exists s', amorder enumq bsteps ksteps ball kall fuel s am = Some s' /\
    oinv s' /\ incl (os_order s) (os_order s') /\ incl (os_top s) (os_top s') /\
    incl (os_map s) (os_map s') /\
    (forall x, In x am -> In x (os_order s') \/ In x (os_top s')).
Proof.
  induction fuel as [|f IH]; intros s am Hr Hf HI; [lia|].
  destruct (Henq am) as [_ Ham].
  destruct (@osteps_inv f (enumq am) s [] []) as [s1 [new [done [E1 [I1 [O1 [T1 [M1 [_ C1]]]]]]]]].
  { intros x Hx. apply Ham, Hr in Hx. destruct Hx; split; [assumption|lia]. }
  { split; [exact HI|]. split; intros; contradiction. }
  cbn [amorder]. rewrite E1. destruct I1 as (I1 & Id & In').
  assert (Hrec : exists s2, match new with [] => Some s1
                            | _ => amorder enumq bsteps ksteps ball kall f s1 new end = Some s2 /\
            oinv s2 /\ incl (os_order s1) (os_order s2) /\ incl (os_top s1) (os_top s2) /\
            incl (os_map s1) (os_map s2) /\
            (forall x, In x new -> In x (os_order s2) \/ In x (os_top s2))).
  { destruct new as [|t new].
    - exists s1. split; [reflexivity|]. split; [exact I1|]. repeat split; auto using incl_refl.
      intros x [].
    - apply IH; [exact In'| |exact I1]. destruct (In' t (or_introl eq_refl)). lia. }
  destruct Hrec as [s2 [E2 [I2 [O2 [T2 [M2 C2]]]]]]. rewrite E2.
  eexists; split; [reflexivity|].
  destruct (Henq done) as [_ Hdn].
  destruct (@oappend_ok (os_top s2) (enumq done) (os_order s2)) as [A [B C]].
  { apply I2. } { apply I2. }
  { intros x Hx y Hy. apply Hdn in Hx. destruct (Id x Hx) as [_ [_ [_ K]]]. apply C2, K, Hy. }
  assert (C' : forall x, In x (oappend (enumq done) (os_order s2)) <-> In x (os_order s2) \/ In x done).
  { intros x. rewrite C, Hdn. tauto. }
  split; [|simpl; split; [|split; [|split]]].
  - destruct I2 as [A1 A2 A3 A4 A5 A6]. constructor; simpl; auto.
    + intros x Hx. apply C' in Hx as [Hx|Hx]; [auto|]. destruct (Id x Hx) as [K1 [K2 _]]; auto.
    + intros x Hx. apply C' in Hx as [Hx|Hx]; [auto|]. destruct (Id x Hx) as [_ [_ [[v K] _]]].
      exists v. apply M2, K.
  - intros x Hx. apply C'. left. apply O2. rewrite O1. exact Hx.
  - intros x Hx. apply T2, T1, Hx.
  - intros x Hx. apply M2, M1, Hx.
  - intros x Hx. apply Ham in Hx. destruct (C1 x Hx) as [K|[K|K]].
    + left. apply C'. left. apply O2, K.
    + right. apply T2, K.
    + left. apply C'. right. exact K.
Qed.
End Order.

(** ** The whole plan *)

Definition dsum (c : nat * nat) : nat := fst c + snd c.
(** The momentum of the centre moved to. *)
Definition fxc (lf : bool) (c : nat * nat) : nat := if lf then snd c else fst c.
Definition below (blf klf : bool) (am : list tqam) (x : tqam) : Prop :=
  exists y, In y am /\ tq_tag x = tq_tag y /\
    dsum (brac x) <= dsum (brac y) /\ dsum (ketc x) <= dsum (ketc y) /\
    mvc blf (brac x) <= mvc blf (brac y) /\ mvc klf (ketc x) <= mvc klf (ketc y) /\
    fxc blf (brac y) <= fxc blf (brac x) /\ fxc klf (ketc y) <= fxc klf (ketc x).

Lemma hreq_below lf c c' : mvc lf c <> 0 -> c' = fst (hreq lf c) \/ c' = snd (hreq lf c) ->
  dsum c' <= dsum c /\ mvc lf c' < mvc lf c /\ fxc lf c <= fxc lf c'.
Proof.
  destruct c as [a b], lf; unfold hreq, dsum, mvc, fxc; simpl; intros H [-> | ->]; simpl; lia.
Qed.

(** Specification of a horizontal plan for the classes [am]: *)
Record plan_ok (blf klf : bool) (am : list tqam) (p : hplan) : Prop := {
  pl_bra : side_plan_ok blf (classes_bra am) (hp_bra p) (hp_brasol p);
  pl_ket : side_plan_ok klf (classes_ket am) (hp_ket p) (hp_ketsol p);
  (** every class carries the tag of a request and needs no more momentum than it *)
  pl_bound : forall x, In x (hp_order p) \/ In x (hp_top p) -> below blf klf am x;
  (** each class once *)
  pl_once : NoDup (hp_order p);
  (** every requested class is formed by the plan or is a top class *)
  pl_requested : forall x, In x am -> In x (hp_order p) \/ In x (hp_top p);
  (** nothing is left to move in a top class *)
  pl_top : forall x, In x (hp_top p) -> mvc blf (brac x) = 0 /\ mvc klf (ketc x) = 0 /\
             ~ In x (hp_order p);
  (** the recorded kind: ket while the ket has momentum to move, then bra *)
  pl_kind : forall x, In x (hp_order p) ->
     (smap_at (hp_map p) x = Some KET /\ mvc klf (ketc x) <> 0 /\ In (ketc x) (class_all (hp_ketsol p))) \/
     (smap_at (hp_map p) x = Some BRA /\ mvc klf (ketc x) = 0 /\ mvc blf (brac x) <> 0 /\
        In (brac x) (class_all (hp_brasol p)));
  (** the two classes a class is formed from come earlier or are top classes *)
  pl_before : forall l1 x l2, hp_order p = l1 ++ x :: l2 ->
     (smap_at (hp_map p) x = Some KET ->
        (let q := hreq klf (ketc x) in
         (In (with_ket x (fst q)) l1 \/ In (with_ket x (fst q)) (hp_top p)) /\
         (In (with_ket x (snd q)) l1 \/ In (with_ket x (snd q)) (hp_top p)))) /\
     (smap_at (hp_map p) x = Some BRA ->
        (let q := hreq blf (brac x) in
         (In (with_bra x (fst q)) l1 \/ In (with_bra x (fst q)) (hp_top p)) /\
         (In (with_bra x (snd q)) l1 \/ In (with_bra x (snd q)) (hp_top p)))) }.

Definition fuel_ok (blf klf : bool) (am : list tqam) (fuel : nat) : Prop :=
  forall x, In x am -> mvc blf (brac x) + mvc klf (ketc x) < fuel.

Lemma solved_moving lf cls steps solved c : side_plan_ok lf cls steps solved ->
  In c (class_all solved) -> mvc lf c <> 0.
Proof.
  intros HP Hc. destruct (class_req_ok _ HP Hc) as [l [_ [_ [_ [K _]]]]]. exact K.
Qed.

Lemma class_inhabited a b : exists d, dclass d = (a, b).
Proof.
  exists (D (G a 0 0) (G b 0 0)). unfold dclass, gam; simpl. f_equal; lia.
Qed.

Lemma hrr_create_ok enum enumq o blf klf fuel am :
  enum_ok enum -> enum_ok enumq -> starts_x o -> 0 < fuel -> fuel_ok blf klf am fuel ->
  exists p, hrr_create enum enumq o blf klf fuel am = Some p /\ plan_ok blf klf am p.
Proof.
  intros He Hq Hs Hf0 Hf. unfold hrr_create.
  destruct (@hcreate_ok enum o klf fuel (classes_ket am) He Hs) as [ks [ksol [Ek HK]]].
  { intros c Hc. apply in_map_iff in Hc as [x [<- Hx]]. apply Hf in Hx. unfold mvc in Hx. lia. }
  destruct (@hcreate_ok enum o blf fuel (classes_bra am) He Hs) as [bs [bsol [Eb HB]]].
  { intros c Hc. apply in_map_iff in Hc as [x [<- Hx]]. apply Hf in Hx. unfold mvc in Hx. lia. }
  rewrite Ek, Eb.
  assert (Hreach : forall x, In x am -> reach blf klf bsol ksol (below blf klf am) x).
  { intros x Hx. split; [|split]. 3: { exists x. auto 10. }
    - destruct (class_inhabited (fst (brac x)) (snd (brac x))) as [d Hd].
      replace (fst (brac x), snd (brac x)) with (brac x) in Hd by (destruct (brac x); reflexivity).
      destruct (sp_init HB d) as [K|K].
      + rewrite Hd. unfold classes_bra. apply in_map; exact Hx.
      + left. rewrite <- Hd. apply in_map; exact K.
      + right. rewrite moving_class, Hd in K. exact K.
    - destruct (class_inhabited (fst (ketc x)) (snd (ketc x))) as [d Hd].
      replace (fst (ketc x), snd (ketc x)) with (ketc x) in Hd by (destruct (ketc x); reflexivity).
      destruct (sp_init HK d) as [K|K].
      + rewrite Hd. unfold classes_ket. apply in_map; exact Hx.
      + left. rewrite <- Hd. apply in_map; exact K.
      + right. rewrite moving_class, Hd in K. exact K. }
  assert (HPk : forall t c, below blf klf am t -> In (ketc t) (class_all ksol) ->
    c = fst (hreq klf (ketc t)) \/ c = snd (hreq klf (ketc t)) -> below blf klf am (with_ket t c)).
  { intros t c [y [Y1 [Y2 [Y3 [Y4 [Y5 [Y6 [Y7 Y8]]]]]]]] Hc E.
    apply (solved_moving _ HK) in Hc. destruct (hreq_below _ _ Hc E) as [L1 [L2 L3]].
    exists y. rewrite with_ket_b, with_ket_k. repeat split; auto; lia. }
  assert (HPb : forall t c, below blf klf am t -> In (brac t) (class_all bsol) ->
    c = fst (hreq blf (brac t)) \/ c = snd (hreq blf (brac t)) -> below blf klf am (with_bra t c)).
  { intros t c [y [Y1 [Y2 [Y3 [Y4 [Y5 [Y6 [Y7 Y8]]]]]]]] Hc E.
    apply (solved_moving _ HB) in Hc. destruct (hreq_below _ _ Hc E) as [L1 [L2 L3]].
    exists y. rewrite with_bra_b, with_bra_k. repeat split; auto; lia. }
  destruct (@amorder_ok enumq Hq blf klf _ _ bs ks bsol ksol HB HK (below blf klf am) HPk HPb fuel (OSt [] [] []) am)
    as [s [Es [I [_ [_ [_ C]]]]]].
  { intros x Hx. split; [auto|]. apply Hf, Hx. }
  { exact Hf0. }
  { constructor; simpl; intros; try contradiction; [|constructor].
    intros l1 x l2 E. destruct l1; discriminate. }
  rewrite Es. eexists; split; [reflexivity|].
  destruct I as [A1 A2 A3 A4 A5 A6].
  assert (Hsm : forall x, In x (os_order s) -> smap_at (os_map s) x = Some (kind ksol x)).
  { intros x Hx. apply smap_at_kind; auto. }
  constructor; simpl; auto.
  - intros x [Hx|Hx]; [destruct (A3 x Hx) as [_ [_ [_ K]]]|destruct (A4 x Hx) as [_ [_ [_ K]]]]; exact K.
  - intros x Hx. destruct (A4 x Hx) as [[T1 T2] [R1 [R2 _]]]. split; [tauto|]. split; [tauto|].
    intros K. apply (proj1 (A3 x K)). split; assumption.
  - intros x Hx. rewrite (Hsm x Hx). destruct (A3 x Hx) as [T [R1 [R2 _]]]. unfold kind.
    destruct (inb (ketc x) (class_all ksol)) eqn:E.
    + apply inb_In in E. left. split; [reflexivity|]. split; [|exact E].
      apply (solved_moving _ HK E).
    + assert (E' : ~ In (ketc x) (class_all ksol)) by (intros K; apply inb_In in K; congruence).
      right. split; [reflexivity|]. split; [tauto|].
      assert (B : In (brac x) (class_all bsol)).
      { destruct (in_dec nn_eq_dec (brac x) (class_all bsol)) as [Y|N]; [exact Y|].
        exfalso. apply T. split; assumption. }
      split; [apply (solved_moving _ HB B)|exact B].
  - intros l1 x l2 E.
    assert (Hx : In x (os_order s)) by (rewrite E; apply in_or_app; right; left; reflexivity).
    rewrite (Hsm x Hx). pose proof (A1 l1 x l2 E) as HD. unfold dep in HD.
    destruct (kind ksol x); split; intros K; try discriminate; split; apply HD; auto.
Qed.
