(** The vertical recurrence determines the integrals: for every set of coefficients and every choice of the
    (ss|ss)^(m) there is exactly one family that satisfies [os_family].

    Existence.  On polynomials in twelve variables (one per centre and direction; a polynomial is the function giving
    its coefficients, each a sequence in the order [m]) take for each variable [y] the operator
    [X = y + ann], [ann] a first-order differential operator with constant coefficients.  These operators commute
    because the coefficients [cu], [cw] are symmetric, so the product of their powers applied to a constant has the
    recurrence as constant term. *)
From Coq Require Import List Arith Lia Bool ZArith Ring.
Import ListNotations.
From Verif Require Import Base Cart Mdir VRRStep.
Set Implicit Arguments.

(** ** Raising and lowering in two places *)
Definition var : Type := ctr * dir.
Definition var_eq_dec (a b : var) : {a = b} + {a <> b}.
Proof. decide equality; [decide equality|apply ctr_eq_dec]. Defined.
Definition vup (v : var) (q : qrt) : qrt := craise (fst v) (snd v) q.
Definition vdown (v : var) (q : qrt) : option qrt := clower (fst v) (snd v) q.
Definition vexp (v : var) (q : qrt) : nat := gexp (snd v) (cget (fst v) q).

Lemma up_comm d e g : up d (up e g) = up e (up d g).
Proof. destruct d, e, g; reflexivity. Qed.
Lemma vup_comm v w q : vup v (vup w q) = vup w (vup v q).
Proof.
  destruct v as [c i], w as [d j], q as [qa qb qc qd].
  destruct c, d; unfold vup, craise; cbn [fst snd cget cset Cart.qa Cart.qb Cart.qc Cart.qd]; try rewrite (up_comm i j); reflexivity.
Qed.
Lemma vdown_some v q q' : vdown v q = Some q' <-> q = vup v q'.
Proof. apply clower_some. Qed.
Lemma vdown_up v q : vdown v (vup v q) = Some q.
Proof. apply clower_raise. Qed.
Lemma vexp_up_same v q : vexp v (vup v q) = S (vexp v q).
Proof. unfold vexp, vup. rewrite cget_raise_same. apply gexp_up_same. Qed.
Lemma vexp_up_other v w q : v <> w -> vexp v (vup w q) = vexp v q.
Proof.
  destruct v as [c i], w as [d j]. unfold vexp, vup; cbn [fst snd]. intros N.
  destruct (ctr_eq_dec d c) as [->|H].
  - rewrite cget_raise_same. apply gexp_up_other. congruence.
  - rewrite cget_raise_other by exact H. reflexivity.
Qed.
Lemma vdown_none v q : vdown v q = None <-> vexp v q = 0.
Proof. apply clower_none. Qed.
Lemma vdown_up_other v w q : v <> w -> vdown v (vup w q) = option_map (vup w) (vdown v q).
Proof.
  intros N. destruct (vdown v q) as [q'|] eqn:E; cbn [option_map].
  - apply vdown_some in E. subst q. apply vdown_some. apply vup_comm.
  - apply vdown_none in E. apply vdown_none. rewrite vexp_up_other by exact N. exact E.
Qed.
Lemma qrt_vexp_ext q q' : (forall v, vexp v q = vexp v q') -> q = q'.
Proof.
  intros H. apply qrt_ext. intros c. destruct (cget c q) as [x y z] eqn:E, (cget c q') as [x' y' z'] eqn:E'.
  pose proof (H (c, DX)) as A. pose proof (H (c, DY)) as B. pose proof (H (c, DZ)) as C. unfold vexp in *. cbn [fst snd] in *.
  rewrite E, E' in *. cbn [gexp gx gy gz] in *. congruence.
Qed.

Section Family.
Context {R : cring}.
Add Ring RRos : (cth R).
Local Open Scope r_scope.
Variable K : @vcoef R.

(** Coefficients of the two-function terms: without and with the order raised. *)
Definition same_side (c f : ctr) : bool := match cside c, cside f with SB, SB | SK, SK => true | _, _ => false end.
Definition cu (c f : ctr) : R := if same_side c f then k_h K (cside c) else c0.
Definition cw (c f : ctr) : R := if same_side c f then k_h K (cside c) * k_a K (cside c) else k_hpq K.
Lemma cu_sym c f : cu c f = cu f c.
Proof. destruct c, f; reflexivity. Qed.
Lemma cw_sym c f : cw c f = cw f c.
Proof. destruct c, f; reflexivity. Qed.

(** Sum over the four functions. *)
Definition sum4 (f : ctr -> R) : R := f CI + f CJ + f CK + f CL.
Lemma sum4_ext f g : (forall c, f c = g c) -> sum4 f = sum4 g.
Proof. intros H. unfold sum4. rewrite !H. reflexivity. Qed.
Lemma sum4_swap (f : ctr -> ctr -> R) : sum4 (fun a => sum4 (f a)) = sum4 (fun b => sum4 (fun a => f a b)).
Proof. unfold sum4. ring. Qed.

Definition poly : Type := qrt -> nat -> R.
Definition peq (p p' : poly) : Prop := forall m N, p m N = p' m N.
Definition low (v : var) (p : poly) : poly := fun m N => match vdown v m with Some m' => p m' N | None => c0 end.
Definition der (v : var) (p : poly) : poly := fun m N => ofnat (S (vexp v m)) * p (vup v m) N.
Definition ann (v : var) (p : poly) : poly := fun m N =>
  k_PA K (fst v) (snd v) * p m N + k_aPQ K (cside (fst v)) (snd v) * p m (S N)
  + sum4 (fun f => cu (fst v) f * der (f, snd v) p m N + cw (fst v) f * der (f, snd v) p m (S N)).
Definition X (v : var) (p : poly) : poly := fun m N => low v p m N + ann v p m N.

Lemma low_low v w p m N : low v (low w p) m N = low w (low v p) m N.
Proof.
  unfold low. destruct (var_eq_dec v w) as [->|D]; [reflexivity|].
  destruct (vdown v m) as [a|] eqn:E, (vdown w m) as [b|] eqn:F.
  - apply vdown_some in E. subst m. rewrite vdown_up_other in F by congruence.
    destruct (vdown w a) as [c|] eqn:G; [|discriminate]. cbn [option_map] in F. injection F as <-.
    rewrite vdown_up. reflexivity.
  - apply vdown_some in E. subst m. rewrite vdown_up_other in F by congruence.
    destruct (vdown w a) as [c|] eqn:G; [discriminate|]. reflexivity.
  - apply vdown_some in F. subst m. rewrite vdown_up_other in E by congruence.
    destruct (vdown v b) as [c|] eqn:G; [discriminate|]. reflexivity.
  - reflexivity.
Qed.
Lemma der_der v w p m N : der v (der w p) m N = der w (der v p) m N.
Proof.
  unfold der. destruct (var_eq_dec v w) as [->|D]; [reflexivity|].
  rewrite (vexp_up_other (v := w)) by congruence. rewrite (vexp_up_other (v := v)) by congruence.
  rewrite (vup_comm v w). ring.
Qed.
Lemma der_low v w p m N :
  der v (low w p) m N = low w (der v p) m N + (if var_eq_dec v w then p m N else c0).
Proof.
  unfold der, low. destruct (var_eq_dec v w) as [->|D].
  - rewrite vdown_up. destruct (vdown w m) as [a|] eqn:E.
    + apply vdown_some in E. subst m. rewrite vexp_up_same. cbn [ofnat]. ring.
    + apply vdown_none in E. rewrite E. cbn [ofnat]. ring.
  - rewrite vdown_up_other by congruence. destruct (vdown w m) as [a|] eqn:E; cbn [option_map].
    + apply vdown_some in E. subst m. rewrite vexp_up_other by exact D. ring.
    + ring.
Qed.

(** [ann] on a combination. *)
Lemma der_ann v w p m N : der v (ann w p) m N = ann w (der v p) m N.
Proof.
  destruct w as [d j]. unfold ann, sum4; cbn [fst snd].
  rewrite <- !(der_der v (CI, j)), <- !(der_der v (CJ, j)), <- !(der_der v (CK, j)), <- !(der_der v (CL, j)).
  unfold der. ring.
Qed.
Lemma ann_ann v w p m N : ann v (ann w p) m N = ann w (ann v p) m N.
Proof.
  destruct v as [c i], w as [d j]. unfold ann at 1 3; cbn [fst snd].
  rewrite (sum4_ext _ (fun f => cu c f * ann (d, j) (der (f, i) p) m N + cw c f * ann (d, j) (der (f, i) p) m (S N)))
    by (intros; rewrite !der_ann; reflexivity).
  rewrite (sum4_ext (fun f => cu d f * _ + _) (fun f => cu d f * ann (c, i) (der (f, j) p) m N + cw d f * ann (c, i) (der (f, j) p) m (S N)))
    by (intros; rewrite !der_ann; reflexivity).
  unfold ann, sum4; cbn [fst snd].
  rewrite !(der_der (_, j) (_, i)).
  ring.
Qed.

Lemma low_lin v (p p1 p2 : poly) x y m N : (forall m, p m N = x * p1 m N + y * p2 m N) ->
  low v p m N = x * low v p1 m N + y * low v p2 m N.
Proof. intros H. unfold low. destruct (vdown v m); [apply H|ring]. Qed.

Definition gap (v w : var) (p : poly) : poly := fun m N =>
  if var_eq_dec (fst w, snd v) w then cu (fst v) (fst w) * p m N + cw (fst v) (fst w) * p m (S N) else c0.
Lemma ann_low v w p m N : ann v (low w p) m N = low w (ann v p) m N + gap v w p m N.
Proof.
  destruct v as [c i], w as [d j]. unfold ann, gap; cbn [fst snd].
  rewrite (sum4_ext _ (fun f => cu c f * low (d, j) (der (f, i) p) m N + cw c f * low (d, j) (der (f, i) p) m (S N)
    + (if var_eq_dec (f, i) (d, j) then cu c f * p m N + cw c f * p m (S N) else c0)))
    by (intros f; rewrite !der_low; destruct (var_eq_dec (f, i) (d, j)); ring).
  assert (E : sum4 (fun f => cu c f * low (d, j) (der (f, i) p) m N + cw c f * low (d, j) (der (f, i) p) m (S N)
    + (if var_eq_dec (f, i) (d, j) then cu c f * p m N + cw c f * p m (S N) else c0))
    = sum4 (fun f => cu c f * low (d, j) (der (f, i) p) m N + cw c f * low (d, j) (der (f, i) p) m (S N))
      + (if var_eq_dec (d, i) (d, j) then cu c d * p m N + cw c d * p m (S N) else c0)).
  { unfold sum4. destruct (var_eq_dec (d, i) (d, j)) as [H|H].
    - injection H as <-. destruct d;
        repeat match goal with |- context [var_eq_dec (?a, i) (?b, i)] => destruct (var_eq_dec (a, i) (b, i)); try congruence end; ring.
    - repeat match goal with |- context [var_eq_dec (?a, i) (?b, j)] => destruct (var_eq_dec (a, i) (b, j)); [congruence|] end. ring. }
  rewrite E. clear E. unfold low. destruct (vdown (d, j) m); unfold sum4; ring.
Qed.
Lemma gap_sym v w p m N : gap v w p m N = gap w v p m N.
Proof.
  destruct v as [c i], w as [d j]. unfold gap; cbn [fst snd]. rewrite (cu_sym d c), (cw_sym d c).
  destruct (var_eq_dec (d, i) (d, j)), (var_eq_dec (c, j) (c, i)); congruence.
Qed.

Lemma low_ext v p p' : peq p p' -> peq (low v p) (low v p').
Proof. intros H m N. unfold low. destruct (vdown v m); [apply H|reflexivity]. Qed.
Lemma der_ext v p p' : peq p p' -> peq (der v p) (der v p').
Proof. intros H m N. unfold der. rewrite H. reflexivity. Qed.
Lemma X_ext v p p' : peq p p' -> peq (X v p) (X v p').
Proof.
  intros H m N. unfold X, ann, sum4. rewrite (low_ext v H), !(der_ext _ H), !H. reflexivity.
Qed.

Lemma low_sum v (p1 p2 : poly) m N : low v (fun m N => p1 m N + p2 m N) m N = low v p1 m N + low v p2 m N.
Proof. unfold low. destruct (vdown v m); ring. Qed.
Lemma ann_sum v (p1 p2 : poly) m N : ann v (fun m N => p1 m N + p2 m N) m N = ann v p1 m N + ann v p2 m N.
Proof. unfold ann, sum4, der. ring. Qed.
Lemma X_comm v w p : peq (X v (X w p)) (X w (X v p)).
Proof.
  intros m N. unfold X. rewrite !low_sum, !ann_sum, !ann_low, (low_low v w), (ann_ann v w), (gap_sym v w). ring.
Qed.
Lemma der_X v w p m N : der v (X w p) m N = X w (der v p) m N + (if var_eq_dec v w then p m N else c0).
Proof.
  transitivity (der v (low w p) m N + der v (ann w p) m N); [unfold X, der; ring|].
  rewrite der_low, der_ann. unfold X. destruct (var_eq_dec v w); ring.
Qed.

(** Powers. *)
Lemma iter_ext v n p p' : peq p p' -> peq (Nat.iter n (X v) p) (Nat.iter n (X v) p').
Proof. intros H. induction n as [|n IH]; [exact H|]. cbn [Nat.iter nat_rect]. apply X_ext, IH. Qed.
Lemma iter_comm v w n p : peq (X v (Nat.iter n (X w) p)) (Nat.iter n (X w) (X v p)).
Proof.
  induction n as [|n IH]; intros m N; [reflexivity|]. cbn [Nat.iter nat_rect].
  rewrite X_comm. apply X_ext. exact IH.
Qed.
Lemma X_sum w (p1 p2 : poly) m N : X w (fun m N => p1 m N + p2 m N) m N = X w p1 m N + X w p2 m N.
Proof. unfold X. rewrite low_sum, ann_sum. ring. Qed.
Lemma X_scale w x (p : poly) m N : X w (fun m N => x * p m N) m N = x * X w p m N.
Proof. unfold X, low, ann, sum4, der. destruct (vdown w m); ring. Qed.
Lemma iter_sum w n (p1 p2 : poly) : peq (Nat.iter n (X w) (fun m N => p1 m N + p2 m N))
  (fun m N => Nat.iter n (X w) p1 m N + Nat.iter n (X w) p2 m N).
Proof.
  induction n as [|n IH]; intros m N; [reflexivity|]. cbn [Nat.iter nat_rect]. rewrite <- X_sum. apply X_ext, IH.
Qed.
Lemma iter_scale w n x (p : poly) : peq (Nat.iter n (X w) (fun m N => x * p m N)) (fun m N => x * Nat.iter n (X w) p m N).
Proof.
  induction n as [|n IH]; intros m N; [reflexivity|]. cbn [Nat.iter nat_rect]. rewrite <- X_scale. apply X_ext, IH.
Qed.
Lemma der_iter v w n p m N : der v (Nat.iter n (X w) p) m N =
  Nat.iter n (X w) (der v p) m N + (if var_eq_dec v w then ofnat n * Nat.iter (n - 1) (X w) p m N else c0).
Proof.
  revert m N. induction n as [|n IH]; intros m N.
  - cbn. destruct (var_eq_dec v w); ring.
  - change (Nat.iter (S n) (X w) p) with (X w (Nat.iter n (X w) p)). rewrite der_X.
    change (Nat.iter (S n) (X w) (der v p)) with (X w (Nat.iter n (X w) (der v p))).
    rewrite (@X_ext w _ _ IH m N), X_sum. destruct (var_eq_dec v w) as [->|D].
    + rewrite X_scale. replace (S n - 1)%nat with n by lia. cbn [ofnat]. destruct n as [|n]; [cbn [ofnat]; ring|].
      replace (S n - 1)%nat with n by lia.
      change (Nat.iter (S n) (X w) p m N) with (X w (Nat.iter n (X w) p) m N). ring.
    + transitivity (X w (Nat.iter n (X w) (der v p)) m N + c0 + c0); [|ring]. f_equal. f_equal.
      unfold X, low, ann, sum4, der. destruct (vdown w m); ring.
Qed.

(** The product of powers. *)
Definition vars : list var := list_prod [CI; CJ; CK; CL] [DX; DY; DZ].
Lemma in_vars v : In v vars.
Proof. destruct v as [c d]. apply in_prod; [destruct c|destruct d]; cbn; tauto. Qed.
Lemma nodup_vars : NoDup vars.
Proof. unfold vars; cbn [list_prod map app]. repeat constructor; cbn; intuition congruence. Qed.
Variable u : nat -> R.
Definition q0 : qrt := Q4 (G 0 0 0) (G 0 0 0) (G 0 0 0) (G 0 0 0).
Definition qrt_eq_dec (a b : qrt) : {a = b} + {a <> b}.
Proof. decide equality; apply gauss_eq_dec. Defined.
Definition const : poly := fun m N => if qrt_eq_dec m q0 then u N else c0.
Definition power (l : list var) (e : var -> nat) (p : poly) : poly :=
  fold_right (fun v p => Nat.iter (e v) (X v) p) p l.

Lemma power_ext l e e' p p' : (forall v, In v l -> e v = e' v) -> peq p p' -> peq (power l e p) (power l e' p').
Proof.
  intros He Hp. induction l as [|v l IH]; [exact Hp|]. cbn [power fold_right]. rewrite <- (He v) by (now left).
  apply iter_ext, IH. intros; apply He; now right.
Qed.
Lemma power_comm l e v p : peq (X v (power l e p)) (power l e (X v p)).
Proof.
  induction l as [|w l IH]; intros m N; [reflexivity|]. cbn [power fold_right]. rewrite iter_comm. apply iter_ext. exact IH.
Qed.
Lemma power_raise l e e' v p : NoDup l -> In v l -> e' v = S (e v) -> (forall w, w <> v -> e' w = e w) ->
  peq (power l e' p) (X v (power l e p)).
Proof.
  induction l as [|w l IH]; intros ND I E E'; [destruct I|]. inversion ND as [|w' l' ND1 ND2]; subst.
  cbn [power fold_right]. destruct (var_eq_dec v w) as [->|D].
  - rewrite E. cbn [Nat.iter nat_rect]. apply X_ext, iter_ext. apply power_ext; [|intros ? ?; reflexivity].
    intros x Hx. apply E'. intros ->. contradiction.
  - destruct I as [->|I]; [congruence|]. intros m N. rewrite iter_comm. rewrite (E' w) by congruence.
    apply iter_ext. apply IH; assumption.
Qed.
Lemma power_zero l e p : (forall m N, p m N = c0) -> forall m N, power l e p m N = c0.
Proof.
  intros H. induction l as [|w l IH]; [exact H|]. intros m N.
  change (power (w :: l) e p) with (Nat.iter (e w) (X w) (power l e p)).
  rewrite (@iter_ext w (e w) (power l e p) (fun m N => c0 * const m N)) by (intros m' N'; rewrite IH; ring).
  rewrite iter_scale. ring.
Qed.
Lemma der_power l e v p : NoDup l -> (forall m N, der v p m N = c0) -> forall m N,
  der v (power l e p) m N =
  if in_dec var_eq_dec v l then ofnat (e v) * power l (fun w => if var_eq_dec w v then e v - 1 else e w)%nat p m N else c0.
Proof.
  intros ND Hp. induction l as [|w l IH]; intros m N; [apply Hp|]. inversion ND as [|w' l' ND1 ND2]; subst.
  specialize (IH ND2). change (power (w :: l) e p) with (Nat.iter (e w) (X w) (power l e p)).
  rewrite der_iter, (@iter_ext w (e w) _ _ IH m N).
  destruct (in_dec var_eq_dec v (w :: l)) as [I|I].
  - set (e' := fun w0 => if var_eq_dec w0 v then (e v - 1)%nat else e w0).
    change (power (w :: l) e' p) with (Nat.iter (e' w) (X w) (power l e' p)).
    destruct (var_eq_dec v w) as [E|D].
    + subst v. destruct (in_dec var_eq_dec w l); [contradiction|].
      rewrite (@iter_ext w (e w) (fun _ _ => c0) (fun m N => c0 * const m N)) by (intros ? ?; ring). rewrite iter_scale.
      replace (e' w) with (e w - 1)%nat by (unfold e'; destruct (var_eq_dec w w); congruence).
      rewrite (@iter_ext w (e w - 1) (power l e p) (power l e' p)).
      * ring.
      * apply power_ext; [|intros ? ?; reflexivity]. intros x Hx. unfold e'. destruct (var_eq_dec x w) as [->|]; [contradiction|reflexivity].
    + destruct (in_dec var_eq_dec v l) as [I'|I']; [|destruct I; [congruence|contradiction]].
      replace (e' w) with (e w) by (unfold e'; destruct (var_eq_dec w v); congruence).
      rewrite iter_scale. ring.
  - destruct (in_dec var_eq_dec v l) as [I'|_]; [exfalso; apply I; now right|].
    destruct (var_eq_dec v w) as [->|D]; [exfalso; apply I; now left|].
    rewrite (@iter_ext w (e w) (fun _ _ => c0) (fun m N => c0 * const m N)) by (intros ? ?; ring). rewrite iter_scale. ring.
Qed.

(** The family. *)
Definition os_value (N : nat) (q : qrt) : R := power vars (fun v => vexp v q) const q0 N.

Lemma der_const v m N : der v const m N = c0.
Proof.
  unfold der, const. destruct (qrt_eq_dec (vup v m) q0) as [E|E]; [|ring]. exfalso.
  assert (H : vexp v (vup v m) = 0) by (rewrite E; destruct v as [[] []]; reflexivity). rewrite vexp_up_same in H. discriminate.
Qed.
Lemma power_q0 v p N : X v p q0 N = ann v p q0 N.
Proof. unfold X, low. destruct v as [[] []]; cbn; ring. Qed.
Lemma der_q0 v p N : p (vup v q0) N = der v p q0 N.
Proof. unfold der. destruct v as [[] []]; cbn; ring. Qed.

Lemma lower_value v q N :
  der v (power vars (fun v => vexp v q) const) q0 N =
  match vdown v q with Some q' => ofnat (vexp v q) * os_value N q' | None => c0 end.
Proof.
  rewrite (@der_power vars _ v const nodup_vars (der_const v)).
  destruct (in_dec var_eq_dec v vars) as [_|I]; [|exfalso; apply I, in_vars].
  destruct (vdown v q) as [q'|] eqn:E.
  - apply vdown_some in E. subst q. unfold os_value. f_equal. apply power_ext; [|intros ? ?; reflexivity].
    intros w _. rewrite vexp_up_same. destruct (var_eq_dec w v) as [->|D]; [lia|]. apply vexp_up_other. exact D.
  - apply vdown_none in E. rewrite E. cbn [ofnat]. ring.
Qed.

Theorem os_value_family : os_family K os_value.
Proof.
  intros c i m q s.
  assert (E : os_value m (craise c i q) = X (c, i) (power vars (fun v => vexp v q) const) q0 m).
  { unfold os_value. apply power_raise; [exact nodup_vars|apply in_vars| |].
    - apply (vexp_up_same (c, i)).
    - intros w D. apply (@vexp_up_other w (c, i)). exact D. }
  rewrite E, power_q0. unfold ann; cbn [fst snd].
  assert (L : forall f, sum4 f = f (lefts s) + f (rights s) + f (lefts (other s)) + f (rights (other s))).
  { intros f. unfold sum4. destruct s; cbn [lefts rights other]; ring. }
  rewrite L, !lower_value. unfold same_side_term, other_side_term, cu, cw.
  change (cside c) with s. fold (os_value m q). fold (os_value (S m) q).
  unfold vdown, vexp; cbn [fst snd].
  assert (S1 : same_side c (lefts s) = true) by (destruct c; reflexivity).
  assert (S2 : same_side c (rights s) = true) by (destruct c; reflexivity).
  assert (S3 : same_side c (lefts (other s)) = false) by (destruct c; reflexivity).
  assert (S4 : same_side c (rights (other s)) = false) by (destruct c; reflexivity).
  rewrite S1, S2, S3, S4.
  destruct (clower (lefts s) i q), (clower (rights s) i q), (clower (lefts (other s)) i q), (clower (rights (other s)) i q); ring.
Qed.
Lemma os_value_start N : os_value N q0 = u N.
Proof. unfold os_value. cbn. unfold const. destruct (qrt_eq_dec q0 q0); [reflexivity|congruence]. Qed.
End Family.

(** ** Uniqueness *)
Section Unique.
Context {R : cring}.
Definition qdeg (q : qrt) : nat := gam (qa q) + gam (qb q) + gam (qc q) + gam (qd q).
Lemma qdeg_raise c i q : qdeg (craise c i q) = S (qdeg q).
Proof. destruct c, q; unfold qdeg, craise; cbn; rewrite gam_up; lia. Qed.
Lemma qdeg_zero q : qdeg q = 0 -> q = q0.
Proof. destruct q as [[] [] [] []]. unfold qdeg, gam; cbn. intros H. unfold q0. repeat f_equal; lia. Qed.
Lemma qdeg_pos q : 0 < qdeg q -> exists c i q', q = craise c i q'.
Proof.
  intros H. assert (E : exists c, 0 < gam (cget c q)).
  { unfold qdeg in H. destruct (gam (qa q)) eqn:E1; [|exists CI; cbn; lia]. destruct (gam (qb q)) eqn:E2; [|exists CJ; cbn; lia].
    destruct (gam (qc q)) eqn:E3; [|exists CK; cbn; lia]. exists CL; cbn; lia. }
  destruct E as [c Hc]. destruct (@mdir_some (cget c q)) as [i Hi]; [lia|].
  destruct (@mdir_down _ _ Hi) as [g [E _]]. exists c, i, (cset c g q). apply clower_some. unfold clower. rewrite E. reflexivity.
Qed.
Theorem os_family_unique (K : @vcoef R) V W : os_family K V -> os_family K W ->
  (forall N, V N q0 = W N q0) -> forall q N, V N q = W N q.
Proof.
  intros HV HW H0 q. remember (qdeg q) as n eqn:E. assert (L : qdeg q <= n) by lia. clear E. revert q L.
  induction n as [|n IH]; intros q L N.
  - rewrite (@qdeg_zero q) by lia. apply H0.
  - destruct (Nat.eq_dec (qdeg q) 0) as [Z|Z]; [rewrite (@qdeg_zero q Z); apply H0|].
    destruct (@qdeg_pos q) as (c & i & q' & ->); [lia|]. rewrite qdeg_raise in L.
    rewrite HV, HW. rewrite !(IH q') by lia.
    assert (S : forall s f, same_side_term K V s N f i q' = same_side_term K W s N f i q').
    { intros s f. unfold same_side_term. destruct (clower f i q') as [q''|] eqn:F; [|reflexivity].
      apply clower_some in F. subst q'. rewrite qdeg_raise in L. rewrite !IH by lia. reflexivity. }
    assert (O : forall f, other_side_term K V N f i q' = other_side_term K W N f i q').
    { intros f. unfold other_side_term. destruct (clower f i q') as [q''|] eqn:F; [|reflexivity].
      apply clower_some in F. subst q'. rewrite qdeg_raise in L. rewrite !IH by lia. reflexivity. }
    rewrite !S, !O. reflexivity.
Qed.

Theorem os_family_exists (K : @vcoef R) (u : nat -> R) :
  exists V, os_family K V /\ (forall N, V N q0 = u N) /\
    forall W, os_family K W -> (forall N, W N q0 = u N) -> forall N q, W N q = V N q.
Proof.
  exists (os_value K u). split; [apply os_value_family|]. split; [apply os_value_start|].
  intros W HW H0 N q. apply (@os_family_unique K W (os_value K u) HW (@os_value_family R K u)).
  intros M. rewrite os_value_start. apply H0.
Qed.
End Unique.

(** ** Exchange symmetries *)
Section Exchange.
Context {R : cring}.
Add Ring RRosx : (cth R).
Local Open Scope r_scope.
(** Exchange of the functions of the bra, of the ket, and of bra and ket. *)
Inductive exch := XBra | XKet | XSides.
Definition xctr (x : exch) (c : ctr) : ctr :=
  match x, c with
  | XBra, CI => CJ | XBra, CJ => CI | XBra, c => c
  | XKet, CK => CL | XKet, CL => CK | XKet, c => c
  | XSides, CI => CK | XSides, CJ => CL | XSides, CK => CI | XSides, CL => CJ
  end.
Definition xside (x : exch) (s : side) : side := match x with XSides => other s | _ => s end.
Definition xqrt (x : exch) (q : qrt) : qrt :=
  Q4 (cget (xctr x CI) q) (cget (xctr x CJ) q) (cget (xctr x CK) q) (cget (xctr x CL) q).
Definition xcoef (x : exch) (K : @vcoef R) : vcoef :=
  @VC R (fun c => k_PA K (xctr x c)) (fun s => k_aPQ K (xside x s)) (fun s => k_h K (xside x s)) (fun s => k_a K (xside x s)) (k_hpq K).

Lemma xqrt_raise x c i q : xqrt x (craise c i q) = craise (xctr x c) i (xqrt x q).
Proof. destruct x, c, q; reflexivity. Qed.
Lemma xqrt_lower x c i q : clower (xctr x c) i (xqrt x q) = option_map (xqrt x) (clower c i q).
Proof.
  destruct x, c, q as [a b d e]; unfold clower; cbn [xctr xqrt cget qa qb qc qd];
    match goal with |- context [down i ?g] => destruct (down i g) end; reflexivity.
Qed.
Lemma xget x c q : cget (xctr x c) (xqrt x q) = cget c q.
Proof. destruct x, c, q; reflexivity. Qed.

Lemma xfamily x K V : os_family K V -> os_family (xcoef x K) (fun N q => V N (xqrt x q)).
Proof.
  intros H c i m q s. rewrite xqrt_raise, (H (xctr x c) i m (xqrt x q)). unfold xcoef; cbn [k_PA k_aPQ].
  assert (Es : cside (xctr x c) = xside x s) by (destruct x, c; reflexivity). rewrite Es.
  assert (TS : forall f, cside f = s -> same_side_term K V (xside x s) m (xctr x f) i (xqrt x q) =
                   same_side_term (xcoef x K) (fun N q => V N (xqrt x q)) s m f i q).
  { intros f Hf. unfold same_side_term. rewrite xqrt_lower. destruct (clower f i q); [|reflexivity]. cbn [option_map].
    rewrite xget. reflexivity. }
  assert (TO : forall f, other_side_term K V m (xctr x f) i (xqrt x q) =
                   other_side_term (xcoef x K) (fun N q => V N (xqrt x q)) m f i q).
  { intros f. unfold other_side_term. rewrite xqrt_lower. destruct (clower f i q); [|reflexivity]. cbn [option_map].
    rewrite xget. reflexivity. }
  rewrite <- !TS by (destruct s; reflexivity). rewrite <- !TO. fold s.
  destruct x, s; cbn [xside xctr lefts rights other]; ring.
Qed.
Theorem os_exchange x (K : @vcoef R) u N q : os_value (xcoef x K) u N q = os_value K u N (xqrt x q).
Proof.
  symmetry. apply (@os_family_unique R (xcoef x K) (fun N q => os_value K u N (xqrt x q)) (os_value (xcoef x K) u)).
  - apply xfamily, os_value_family.
  - apply os_value_family.
  - intros M. rewrite os_value_start. replace (xqrt x q0) with q0 by (destruct x; reflexivity). apply os_value_start.
Qed.
(** The horizontal relations, order by order. *)
Theorem os_horizontal (K : @vcoef R) u (AB CD : dir -> R) :
  (forall i, k_PA K CJ i = k_PA K CI i + AB i /\ k_PA K CL i = k_PA K CK i + CD i) -> forall N i q,
  os_value K u N (craise CJ i q) = os_value K u N (craise CI i q) + AB i * os_value K u N q /\
  os_value K u N (craise CL i q) = os_value K u N (craise CK i q) + CD i * os_value K u N q.
Proof.
  intros H N i q. pose proof (@os_value_family R K u) as F. destruct (H i) as [H1 H2].
  rewrite (F CI), (F CJ), (F CK), (F CL). cbn [cside lefts rights other]. rewrite H1, H2. split; ring.
Qed.
(** Linear in the start values. *)
Theorem os_linear (K : @vcoef R) u v x y N q :
  os_value K (fun n => x * u n + y * v n) N q = x * os_value K u N q + y * os_value K v N q.
Proof.
  apply (@os_family_unique R K (os_value K (fun n => x * u n + y * v n)) (fun N q => x * os_value K u N q + y * os_value K v N q)).
  - apply os_value_family.
  - intros c i m p s. rewrite (@os_value_family R K u c i m p), (@os_value_family R K v c i m p). fold s.
    unfold same_side_term, other_side_term.
    repeat match goal with |- context [match clower ?f i p with _ => _ end] => destruct (clower f i p) end; ring.
  - intros M. rewrite !os_value_start. reflexivity.
Qed.
End Exchange.

(** Arbitrary numbers for the example. *)
Definition c57_K : @vcoef Zring := @VC Zring (fun c _ => match c with CI => 2 | CJ => 5 | CK => 3 | CL => 7 end)%Z
  (fun s _ => match s with SB => 11 | SK => 13 end)%Z (fun s => match s with SB => 17 | SK => 19 end)%Z
  (fun s => match s with SB => 23 | SK => 29 end)%Z 31%Z.
