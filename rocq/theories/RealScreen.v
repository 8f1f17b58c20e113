(** The fast screening values of [Screen] with the real functions: [1/x], [sqrt], [exp], [pow(x, 2.5)] and the exact
    values of the constants (skel/simint/shell/shell_screen.c:47-265, constants.h:9-12). *)
From Coq Require Import List Arith ZArith QArith Reals Qreals Lra Lia.
Import ListNotations.
From Verif Require Import Base Cart QList OSFamily Mdir PairData EndToEnd OrdRing Screen ScreenProof Constants ConstantsProof Normalize.
Local Open Scope R_scope.

Definition Rleb (x y : R) : bool := if Rle_dec x y then true else false.
Lemma Rleb_le x y : Rleb x y = true <-> x <= y.
Proof. unfold Rleb. destruct (Rle_dec x y); split; intros; auto; discriminate. Qed.
Lemma Rleb_lt x y : Rleb x y = false <-> y < x.
Proof. unfold Rleb. destruct (Rle_dec x y); split; intros; auto; try discriminate; lra. Qed.
(** The real numbers are an ordered ring. *)
Definition Rordered : ordered Rcring.
Proof.
  refine (@Ordered Rcring Rleb _ _ _ _ _ _); cbn.
  - intros x y. rewrite !Rleb_le. lra.
  - intros x y. rewrite !Rleb_le. lra.
  - intros x y z. rewrite !Rleb_le. lra.
  - intros x y z. rewrite !Rleb_le. lra.
  - intros x y. rewrite !Rleb_lt. nra.
  - rewrite Rleb_lt. lra.
Defined.
(** pow(x, 2.5) and the constants SQRT_TWO_PI_52, SQRT_TWO_TIMES_PI_52. *)
Definition pow25 (x : R) : R := Rpower x (5 / 2).
Definition rc_sqrt2pi52 : R := sqrt (2 * pi52).
Definition rc_sqrt2times : R := sqrt 2 * pi52.
(** What is asked of the Boys function at 0. *)
Definition boys_at0 (boys : nat -> R -> R) : Prop := boys 0%nat 0 = 1 /\ 0 <= boys 1%nat 0.

Lemma rpower_pos x y : 0 < Rpower x y.
Proof. unfold Rpower. apply exp_pos. Qed.
Lemma real_fast_hyps boys p : 0 < p -> boys 0%nat 0 = 1 -> @fast_hyps Rcring Rinv exp sqrt pow25 boys rc_sqrt2pi52 rc_sqrt2times p.
Proof.
  intros Hp Hb. constructor; [|exact Hb|].
  - cbn [cadd cmul Rcring car]. unfold rc_sqrt2times, rc_sqrt2pi52, pow25. assert (P : 0 < pi52) by apply rpower_pos.
    rewrite sqrt_sqrt by lra. rewrite (sqrt_inv (p + p)). replace (p + p) with (2 * p) by ring. rewrite sqrt_mult by lra.
    replace (Rpower (/ p) (5 / 2)) with (/ p * / p * / sqrt p).
    + pose proof (sqrt_lt_R0 2 ltac:(lra)). pose proof (sqrt_lt_R0 p Hp). pose proof (sqrt_sqrt 2 ltac:(lra)) as E.
      transitivity (sqrt 2 * sqrt 2 * pi52 * / p * / p * (/ sqrt 2 * / sqrt p)); [field; lra|]. rewrite E. field. lra.
    + replace (5 / 2) with (2 + / 2) by lra. rewrite Rpower_plus, Rpower_sqrt by (apply Rinv_0_lt_compat, Hp). rewrite sqrt_inv.
      replace 2 with (INR 2) by reflexivity. rewrite Rpower_pow by (apply Rinv_0_lt_compat, Hp). cbn. ring.
  - intros x. symmetry. apply exp_plus.
Qed.
Lemma real_fast_value boys half (A B : @shell Rcring) i j : 0 < sh_alpha A i + sh_alpha B j -> boys 0%nat 0 = 1 ->
  @fast_gab Rcring Rinv exp pow25 rc_sqrt2times A B i j = @diagonal Rcring Rinv exp sqrt boys half rc_sqrt2pi52 A B i j (g0, g0).
Proof. intros Hp Hb. apply fast_value, real_fast_hyps; assumption. Qed.
Lemma real_fast_pos (A B : @shell Rcring) i j : 0 < sh_alpha A i + sh_alpha B j -> sh_coef A i <> 0 -> sh_coef B j <> 0 ->
  0 < @fast_gab Rcring Rinv exp pow25 rc_sqrt2times A B i j.
Proof.
  intros Hp Ha Hb. unfold fast_gab. cbv zeta. cbn [cadd cmul Rcring car]. apply Rmult_lt_0_compat; [apply Rmult_lt_0_compat; [apply Rmult_lt_0_compat|apply exp_pos]|].
  - apply Rmult_lt_0_compat; [apply sqrt_lt_R0; lra|apply rpower_pos].
  - apply rpower_pos.
  - replace (sh_coef A i * sh_coef A i * sh_coef B j * sh_coef B j) with ((sh_coef A i * sh_coef B j) * (sh_coef A i * sh_coef B j)) by (cbn; ring).
    apply Rsqr_pos_lt. apply Rmult_integral_contrapositive. split; assumption.
Qed.
(** The comment shell_screen.h:51-53 fails for the real functions too: exponents 1 and 1, four units apart. *)
Definition rx_A : @shell Rcring := @Shell Rcring 1 (fun _ => 0) (fun _ => 1) (fun _ => 1).
Definition rx_B : @shell Rcring := @Shell Rcring 1 (fun d => match d with 0%nat => 4 | _ => 0 end) (fun _ => 1) (fun _ => 1).
Lemma real_fast_low boys : boys_at0 boys ->
  @fast_gab Rcring Rinv exp pow25 rc_sqrt2times rx_A rx_B 0 0 <
  @diagonal Rcring Rinv exp sqrt boys (/ 2) rc_sqrt2pi52 rx_A rx_B 0 0 (G 1 0 0, g0).
Proof.
  intros [H0 H1]. apply Rleb_lt. apply (@fast_low Rcring Rordered Rinv exp sqrt pow25 boys (/ 2) rc_sqrt2pi52 rc_sqrt2times).
  - apply real_fast_hyps; [cbn; lra|exact H0].
  - unfold lt. cbn [leb Rordered]. apply Rleb_lt. unfold gcen, gp, prim. cbn. field_simplify. lra.
  - unfold lt. cbn [leb Rordered]. apply Rleb_lt. apply real_fast_pos; cbn; lra.
  - unfold le. cbn [leb Rordered]. apply Rleb_le. cbn. apply Rmult_le_pos; [|exact H1]. lra.
Qed.
Lemma boys_at0_ex : boys_at0 (fun n _ => / (2 * INR n + 1)).
Proof. split; cbn; [field|lra]. Qed.
