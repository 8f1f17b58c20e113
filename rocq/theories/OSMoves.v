(** The derivative of the solution of the vertical recurrence with respect to the position of one centre: twice the
    exponent times the raised function minus the power times the lowered one satisfies the differentiated recurrence.
    Pure algebra; the real derivative is in [RealDeriv]. *)
From Coq Require Import List Arith Lia Bool ZArith Ring.
Import ListNotations.
From Verif Require Import Base Cart Mdir VRRStep OSFamily EndToEnd Deriv DerivKernel.
Set Implicit Arguments.

Section Moves.
Context {R : cring}.
Add Ring RRmv : (cth R).
Local Open Scope r_scope.

Definition hit (f : ctr) (i : dir) (x : ctr) (d : dir) : R := if var_eq_dec (f, i) (x, d) then c1 else c0.
Lemma hit_sym f i x d : hit f i x d = hit x d f i.
Proof. unfold hit. destruct (var_eq_dec (f, i) (x, d)), (var_eq_dec (x, d) (f, i)); congruence. Qed.
(** Lowering after raising. *)
Lemma lowered_raise (W : qrt -> R) f i x d q :
  minus_lowered W f i (craise x d q) = minus_lowered (fun r => W (craise x d r)) f i q + hit f i x d * W q.
Proof.
  unfold minus_lowered, hit. change (clower f i) with (vdown (f, i)). change (craise x d) with (vup (x, d)).
  change (gexp i (cget f ?q)) with (vexp (f, i) q). destruct (var_eq_dec (f, i) (x, d)) as [E|N].
  - rewrite E, vdown_up, vexp_up_same. destruct (vdown (x, d) q) as [q'|] eqn:D.
    + apply vdown_some in D. subst q. cbn [ofnat]. ring.
    + apply vdown_none in D. rewrite D. cbn [ofnat]. ring.
  - rewrite vdown_up_other by exact N. destruct (vdown (f, i) q) as [q'|]; cbn [option_map]; [|ring].
    rewrite vexp_up_other by exact N. ring.
Qed.
Lemma lowered_comm (W : qrt -> R) f i x d q :
  minus_lowered (minus_lowered W f i) x d q = minus_lowered (minus_lowered W x d) f i q.
Proof.
  unfold minus_lowered. change (clower f i) with (vdown (f, i)). change (clower x d) with (vdown (x, d)).
  change (gexp i (cget f ?q)) with (vexp (f, i) q). change (gexp d (cget x ?q)) with (vexp (x, d) q).
  set (v := (f, i)). set (w := (x, d)). clearbody v w.
  destruct (var_eq_dec v w) as [->|N]; [reflexivity|].
  destruct (vdown w q) as [a|] eqn:E, (vdown v q) as [b|] eqn:F.
  - apply vdown_some in E. subst q. rewrite vdown_up_other in F by exact N.
    destruct (vdown v a) as [c|] eqn:G; [|discriminate]. cbn [option_map] in F. injection F as <-.
    rewrite vdown_up. apply vdown_some in G. subst a.
    rewrite (vup_comm w v c), !(@vexp_up_other w v) by congruence. rewrite !vexp_up_same, (@vexp_up_other v w) by congruence. ring.
  - apply vdown_some in E. subst q. rewrite vdown_up_other in F by exact N. destruct (vdown v a) as [c|] eqn:G; [discriminate|]. ring.
  - apply vdown_some in F. subst q. rewrite vdown_up_other in E by congruence. destruct (vdown w b) as [c|] eqn:G; [discriminate|]. ring.
  - reflexivity.
Qed.
Lemma lowered_ext (V W : qrt -> R) f i q : (forall r, V r = W r) -> minus_lowered V f i q = minus_lowered W f i q.
Proof. intros H. unfold minus_lowered. destruct (clower f i q); [rewrite H|]; reflexivity. Qed.
Lemma lowered_lin (V1 V2 : qrt -> R) x y f i q :
  minus_lowered (fun r => x * V1 r + y * V2 r) f i q = x * minus_lowered V1 f i q + y * minus_lowered V2 f i q.
Proof. unfold minus_lowered. destruct (clower f i q); ring. Qed.

(** The recurrence with the sum over the four functions. *)
Lemma family_sum (K : @vcoef R) V : os_family K V -> forall c i m q,
  V m (craise c i q) = k_PA K c i * V m q + k_aPQ K (cside c) i * V (S m) q
   + sum4 (fun f => cu K c f * minus_lowered (V m) f i q + cw K c f * minus_lowered (V (S m)) f i q).
Proof.
  intros H c i m q. rewrite (H c i m q). unfold sum4, same_side_term, other_side_term, cu, cw, minus_lowered, same_side.
  destruct c; cbn [cside lefts rights other];
    destruct (clower CI i q), (clower CJ i q), (clower CK i q), (clower CL i q); ring.
Qed.

Section One.
Variables (K : @vcoef R) (V : nat -> qrt -> R) (e : R) (x : ctr) (d : dir).
Hypothesis HV : os_family K V.
Definition moves (m : nat) (q : qrt) : R := e * V m (craise x d q) - minus_lowered (V m) x d q.

Lemma moves_start m : moves m q0 = e * (k_PA K x d * V m q0 + k_aPQ K (cside x) d * V (S m) q0).
Proof.
  unfold moves. rewrite (family_sum HV). unfold sum4, minus_lowered.
  assert (N : forall f i, clower f i q0 = None) by (intros [] []; reflexivity). rewrite !N. ring.
Qed.
Lemma hit_sum i (a : ctr -> R) : sum4 (fun f => a f * hit f i x d) = hit x i x d * a x.
Proof.
  unfold sum4, hit. destruct (var_eq_dec (x, i) (x, d)) as [E|N].
  - injection E as ->. destruct x;
      repeat match goal with |- context [var_eq_dec ?a ?b] => destruct (var_eq_dec a b); try congruence end; ring.
  - assert (M : forall f, (f, i) <> (x, d)) by (intros f E; apply N; congruence).
    repeat match goal with |- context [var_eq_dec (?a, i) ?b] => destruct (var_eq_dec (a, i) b) as [E|_]; [destruct (M _ E)|] end. ring.
Qed.
(** The differentiated recurrence. *)
Lemma moves_raise c i m q : moves m (craise c i q) =
  k_PA K c i * moves m q + k_aPQ K (cside c) i * moves (S m) q
   + sum4 (fun f => cu K c f * minus_lowered (moves m) f i q + cw K c f * minus_lowered (moves (S m)) f i q)
   + (hit x i x d * (e * cu K c x) - hit c i x d) * V m q + hit x i x d * (e * cw K c x) * V (S m) q.
Proof.
  unfold moves at 1. change (craise x d (craise c i q)) with (vup (x, d) (vup (c, i) q)). rewrite vup_comm. unfold vup; cbn [fst snd].
  rewrite (family_sum HV c i m (craise x d q)).
  rewrite (sum4_ext _ (fun f => (cu K c f * minus_lowered (fun r => V m (craise x d r)) f i q + cw K c f * minus_lowered (fun r => V (S m) (craise x d r)) f i q)
     + (cu K c f * V m q + cw K c f * V (S m) q) * hit f i x d)) by (intros f; rewrite !lowered_raise; ring).
  rewrite lowered_raise, (hit_sym x d c i).
  rewrite (@lowered_ext (fun r => V m (craise c i r)) (fun r => c1 * (k_PA K c i * V m r + k_aPQ K (cside c) i * V (S m) r)
     + c1 * sum4 (fun f => cu K c f * minus_lowered (V m) f i r + cw K c f * minus_lowered (V (S m)) f i r)))
    by (intros r; rewrite (family_sum HV); ring).
  rewrite lowered_lin, lowered_lin.
  assert (L : minus_lowered (fun r => sum4 (fun f => cu K c f * minus_lowered (V m) f i r + cw K c f * minus_lowered (V (S m)) f i r)) x d q =
    sum4 (fun f => cu K c f * minus_lowered (minus_lowered (V m) x d) f i q + cw K c f * minus_lowered (minus_lowered (V (S m)) x d) f i q)).
  { rewrite (sum4_ext (fun f => cu K c f * minus_lowered (minus_lowered (V m) x d) f i q + _)
      (fun f => cu K c f * minus_lowered (minus_lowered (V m) f i) x d q + cw K c f * minus_lowered (minus_lowered (V (S m)) f i) x d q))
      by (intros f; rewrite !(lowered_comm _ f i x d); reflexivity).
    unfold sum4 at 2. rewrite <- !lowered_lin. unfold minus_lowered, sum4. destruct (clower x d q); ring. }
  rewrite L.
  assert (T : forall m f, minus_lowered (moves m) f i q = e * minus_lowered (fun r => V m (craise x d r)) f i q - minus_lowered (minus_lowered (V m) x d) f i q).
  { intros m' f. unfold moves. unfold minus_lowered at 1 3 4. destruct (clower f i q); ring. }
  rewrite (sum4_ext (fun f => cu K c f * minus_lowered (moves m) f i q + _) (fun f =>
     e * (cu K c f * minus_lowered (fun r => V m (craise x d r)) f i q + cw K c f * minus_lowered (fun r => V (S m) (craise x d r)) f i q)
     - (cu K c f * minus_lowered (minus_lowered (V m) x d) f i q + cw K c f * minus_lowered (minus_lowered (V (S m)) x d) f i q)))
    by (intros f; rewrite !T; ring).
  pose proof (hit_sum i (fun f => cu K c f * V m q + cw K c f * V (S m) q)) as Hs.
  assert (A : forall a b : ctr -> R, sum4 (fun f => a f + b f) = sum4 a + sum4 b) by (intros; unfold sum4; ring).
  assert (B : forall a b : ctr -> R, sum4 (fun f => e * a f - b f) = e * sum4 a - sum4 b) by (intros; unfold sum4; ring).
  rewrite B, A, Hs. unfold moves. ring.
Qed.
End One.
End Moves.
