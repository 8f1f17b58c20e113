(** Start values that are powers of one number: the solution of the vertical recurrence is a product over the three
    directions. *)
From Coq Require Import List Arith Lia Ring.
Import ListNotations.
From Verif Require Import Base Cart QList VRRStep OSFamily.
Set Implicit Arguments.

(** The function with exponent [n] along [d] only. *)
Definition g1 (d : dir) (n : nat) : gauss := match d with DX => G n 0 0 | DY => G 0 n 0 | DZ => G 0 0 n end.
Definition gdn (d : dir) (g : gauss) : gauss :=
  match d with DX => G (pred (gx g)) (gy g) (gz g) | DY => G (gx g) (pred (gy g)) (gz g) | DZ => G (gx g) (gy g) (pred (gz g)) end.

Section Split.
Context {R : cring}.
Add Ring Rring_split : (cth R).
Local Open Scope r_scope.
Variables (K : @vcoef R) (u : R) (pw : nat -> R).
Hypothesis pw0 : pw 0 = c1.
Hypothesis pwS : forall n, pw (S n) = u * pw n.

Lemma lower_total (Z : qrt -> R) f i q (x : R) :
  match clower f i q with Some q' => ofnat (gexp i (cget f q)) * x * Z q' | None => c0 end = ofnat (gexp i (cget f q)) * x * Z (cset f (gdn i (cget f q)) q).
Proof.
  unfold clower. destruct (cget f q) as [x1 y1 z1]. destruct i; cbn [down gexp gx gy gz gdn]; [destruct x1|destruct y1|destruct z1]; cbn [pred]; try reflexivity; cbn [ofnat]; ring.
Qed.
Lemma pow_shift N q : os_value K pw (S N) q = u * os_value K pw N q.
Proof.
  apply (@os_family_unique R K (fun N q => os_value K pw (S N) q) (fun N q => u * os_value K pw N q)).
  - intros c i m p s. exact (@os_value_family R K pw c i (S m) p).
  - intros c i m p s. rewrite (@os_value_family R K pw c i m p). fold s. unfold same_side_term, other_side_term.
    repeat match goal with |- context [match clower ?f i p with _ => _ end] => destruct (clower f i p) end; ring.
  - intros M. rewrite !os_value_start. apply pwS.
Qed.
(** The values along one direction. *)
Definition along (d : dir) (a b c e : nat) : R := os_value K pw 0 (Q4 (g1 d a) (g1 d b) (g1 d c) (g1 d e)).
Lemma along_0 d : along d 0 0 0 0 = c1.
Proof. unfold along. replace (Q4 (g1 d 0) (g1 d 0) (g1 d 0) (g1 d 0)) with q0 by (destruct d; reflexivity). rewrite os_value_start. exact pw0. Qed.
Definition lowb (d : dir) (a b c e : nat) : R := ofnat a * along d (pred a) b c e + ofnat b * along d a (pred b) c e.
Definition lowk (d : dir) (a b c e : nat) : R := ofnat c * along d a b (pred c) e + ofnat e * along d a b c (pred e).
Lemma along_raise d x a b c e (s := cside x) :
  os_value K pw 0 (craise x d (Q4 (g1 d a) (g1 d b) (g1 d c) (g1 d e))) =
  (k_PA K x d + k_aPQ K s d * u) * along d a b c e
  + k_h K s * (c1 + k_a K s * u) * match s with SB => lowb d a b c e | SK => lowk d a b c e end
  + k_hpq K * u * match s with SB => lowk d a b c e | SK => lowb d a b c e end.
Proof.
  rewrite (@os_value_family R K pw x d 0). fold s. unfold same_side_term, other_side_term.
  set (q := Q4 (g1 d a) (g1 d b) (g1 d c) (g1 d e)).
  rewrite (@lower_total (fun q' => os_value K pw 0 q' + k_a K s * os_value K pw 1 q') (lefts s) d q (k_h K s)).
  rewrite (@lower_total (fun q' => os_value K pw 0 q' + k_a K s * os_value K pw 1 q') (rights s) d q (k_h K s)).
  rewrite (@lower_total (fun q' => os_value K pw 1 q') (lefts (other s)) d q (k_hpq K)).
  rewrite (@lower_total (fun q' => os_value K pw 1 q') (rights (other s)) d q (k_hpq K)).
  rewrite !pow_shift.
  assert (E : forall n, gexp d (g1 d n) = n) by (intros n; destruct d; reflexivity).
  assert (L : forall n, gdn d (g1 d n) = g1 d (pred n)) by (intros n; destruct d; reflexivity).
  subst q. unfold lowb, lowk, along. destruct s; cbn [lefts rights other cget cset qa qb qc qd]; rewrite !E, !L; ring.
Qed.
Lemma along_a d a b c e : along d (S a) b c e =
  (k_PA K CI d + k_aPQ K SB d * u) * along d a b c e + k_h K SB * (c1 + k_a K SB * u) * lowb d a b c e + k_hpq K * u * lowk d a b c e.
Proof. refine (eq_trans _ (@along_raise d CI a b c e)). unfold along, craise. cbn [cget cset qa qb qc qd]. f_equal. destruct d; reflexivity. Qed.
Lemma along_b d a b c e : along d a (S b) c e =
  (k_PA K CJ d + k_aPQ K SB d * u) * along d a b c e + k_h K SB * (c1 + k_a K SB * u) * lowb d a b c e + k_hpq K * u * lowk d a b c e.
Proof. refine (eq_trans _ (@along_raise d CJ a b c e)). unfold along, craise. cbn [cget cset qa qb qc qd]. f_equal. destruct d; reflexivity. Qed.
Lemma along_c d a b c e : along d a b (S c) e =
  (k_PA K CK d + k_aPQ K SK d * u) * along d a b c e + k_h K SK * (c1 + k_a K SK * u) * lowk d a b c e + k_hpq K * u * lowb d a b c e.
Proof. refine (eq_trans _ (@along_raise d CK a b c e)). unfold along, craise. cbn [cget cset qa qb qc qd]. f_equal. destruct d; reflexivity. Qed.
Lemma along_d d a b c e : along d a b c (S e) =
  (k_PA K CL d + k_aPQ K SK d * u) * along d a b c e + k_h K SK * (c1 + k_a K SK * u) * lowk d a b c e + k_hpq K * u * lowb d a b c e.
Proof. refine (eq_trans _ (@along_raise d CL a b c e)). unfold along, craise. cbn [cget cset qa qb qc qd]. f_equal. destruct d; reflexivity. Qed.
Definition one_dir (d : dir) (q : qrt) : R := along d (gexp d (qa q)) (gexp d (qb q)) (gexp d (qc q)) (gexp d (qd q)).
Theorem os_split N q : os_value K pw N q = pw N * (one_dir DX q * one_dir DY q * one_dir DZ q).
Proof.
  apply (@os_family_unique R K (os_value K pw) (fun N q => pw N * (one_dir DX q * one_dir DY q * one_dir DZ q))).
  - apply os_value_family.
  - clear N q. intros x i m q s. unfold same_side_term, other_side_term.
    rewrite (@lower_total (fun q' => pw m * (one_dir DX q' * one_dir DY q' * one_dir DZ q') + k_a K s * (pw (S m) * (one_dir DX q' * one_dir DY q' * one_dir DZ q'))) (lefts s) i q (k_h K s)).
    rewrite (@lower_total (fun q' => pw m * (one_dir DX q' * one_dir DY q' * one_dir DZ q') + k_a K s * (pw (S m) * (one_dir DX q' * one_dir DY q' * one_dir DZ q'))) (rights s) i q (k_h K s)).
    rewrite (@lower_total (fun q' => pw (S m) * (one_dir DX q' * one_dir DY q' * one_dir DZ q')) (lefts (other s)) i q (k_hpq K)).
    rewrite (@lower_total (fun q' => pw (S m) * (one_dir DX q' * one_dir DY q' * one_dir DZ q')) (rights (other s)) i q (k_hpq K)).
    rewrite !pwS. destruct q as [[ax ay az] [bx by' bz] [cx cy cz] [dx dy dz]].
    destruct x; subst s; destruct i; unfold one_dir, craise; cbn [cside lefts rights other cget cset qa qb qc qd up gdn gexp gx gy gz];
      rewrite ?along_a, ?along_b, ?along_c, ?along_d; unfold lowb, lowk; ring.
  - intros M. rewrite os_value_start. unfold one_dir. cbn [q0 qa qb qc qd gexp gx gy gz]. rewrite !along_0. ring.
Qed.
End Split.

Section Comb.
Context {R : cring}.
Add Ring Rring_comb : (cth R).
Local Open Scope r_scope.
Fixpoint lcomb (l : list (R * nat)) (v : nat -> R) : R := match l with [] => c0 | p :: r => fst p * v (snd p) + lcomb r v end.
Lemma lcomb_app l m v : lcomb (l ++ m) v = lcomb l v + lcomb m v.
Proof. induction l as [|p l IH]; cbn; [ring|]. rewrite IH. ring. Qed.
Lemma lcomb_scale x l v : lcomb (map (fun p => (x * fst p, snd p)) l) v = x * lcomb l v.
Proof. induction l as [|p l IH]; cbn; [ring|]. rewrite IH. ring. Qed.
(** The solution is a combination of the start values. *)
Lemma os_comb (K : @vcoef R) q : forall N, exists l, forall v, os_value K v N q = lcomb l v.
Proof.
  remember (qdeg q) as n eqn:E. assert (L : qdeg q <= n) by lia. clear E. revert q L. induction n as [|n IH]; intros q L N.
  - rewrite (@qdeg_zero q) by lia. exists [(c1, N)]. intros v. rewrite os_value_start. cbn. ring.
  - destruct (Nat.eq_dec (qdeg q) 0) as [Z|Z]; [rewrite (@qdeg_zero q Z); exists [(c1, N)]; intros v; rewrite os_value_start; cbn; ring|].
    destruct (@qdeg_pos q) as (c & i & q' & ->); [lia|]. rewrite qdeg_raise in L. set (s := cside c).
    destruct (IH q' ltac:(lia) N) as [l1 H1]. destruct (IH q' ltac:(lia) (S N)) as [l2 H2].
    assert (SS : forall s f, exists l, forall v, same_side_term K (os_value K v) s N f i q' = lcomb l v).
    { intros s0 f. unfold same_side_term. destruct (clower f i q') as [q''|] eqn:F; [|exists []; reflexivity].
      assert (D : qdeg q'' <= n) by (apply clower_some in F; subst q'; rewrite qdeg_raise in L; lia).
      destruct (IH q'' D N) as [l3 H3]. destruct (IH q'' D (S N)) as [l4 H4]. set (x := ofnat (gexp i (cget f q')) * k_h K s0).
      exists (map (fun p => (x * fst p, snd p)) l3 ++ map (fun p => (x * k_a K s0 * fst p, snd p)) l4)%list.
      intros v. rewrite lcomb_app, !lcomb_scale, H3, H4. ring. }
    assert (OS : forall f, exists l, forall v, other_side_term K (os_value K v) N f i q' = lcomb l v).
    { intros f. unfold other_side_term. destruct (clower f i q') as [q''|] eqn:F; [|exists []; reflexivity].
      assert (D : qdeg q'' <= n) by (apply clower_some in F; subst q'; rewrite qdeg_raise in L; lia).
      destruct (IH q'' D (S N)) as [l4 H4]. set (x := ofnat (gexp i (cget f q')) * k_hpq K).
      exists (map (fun p => (x * fst p, snd p)) l4). intros v. rewrite lcomb_scale, H4. ring. }
    destruct (SS s (lefts s)) as [l3 H3]. destruct (SS s (rights s)) as [l4 H4]. destruct (OS (lefts (other s))) as [l5 H5]. destruct (OS (rights (other s))) as [l6 H6].
    exists (map (fun p => (k_PA K c i * fst p, snd p)) l1 ++ map (fun p => (k_aPQ K s i * fst p, snd p)) l2 ++ l3 ++ l4 ++ l5 ++ l6)%list.
    intros v. rewrite (@os_value_family R K v c i N q'). fold s. rewrite H1, H2, H3, H4, H5, H6, !lcomb_app, !lcomb_scale. ring.
Qed.
End Comb.
