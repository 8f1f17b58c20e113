(** Proofs about [BoysGrid]. *)
From Coq Require Import List Bool Arith ZArith QArith Qround Qabs Lia Lqa.
Import ListNotations.
From Verif Require Import Base Boys BoysGrid.

Definition qfrac (r : Q) : Q := (r - inject_Z (Qfloor r))%Q.

(** *** The loop *)
Lemma grid_more T add ltb (inc maxx : T) : forall fuel x pts, grid add ltb inc maxx fuel x = Some pts -> forall more, (fuel <= more)%nat ->
  grid add ltb inc maxx more x = Some pts.
Proof.
  induction fuel as [|f IH]; intros x pts E more Hm; [discriminate|]. destruct more as [|g]; [lia|]. cbn [grid] in *.
  destruct (ltb x maxx); [|exact E]. destruct (grid add ltb inc maxx f (add x inc)) as [r|] eqn:G; [|discriminate].
  rewrite (IH _ _ G g ltac:(lia)). exact E.
Qed.
Lemma qltb_lt a b : qltb a b = true <-> (a < b)%Q.
Proof.
  unfold qltb. rewrite negb_true_iff. split.
  - intros H. apply Qnot_le_lt. intros L. apply Qle_bool_iff in L. congruence.
  - intros H. destruct (Qle_bool b a) eqn:E; [|reflexivity]. apply Qle_bool_iff in E. lra.
Qed.
Lemma ceil_lt (k : Z) r : (k < Qceiling r)%Z <-> (inject_Z k < r)%Q.
Proof.
  pose proof (Qceiling_lt r) as A. pose proof (Qle_ceiling r) as B. split; intros H.
  - assert (inject_Z k <= inject_Z (Qceiling r - 1))%Q by (rewrite <- Zle_Qle; lia). lra.
  - rewrite Zlt_Qlt. lra.
Qed.

Section Grid.
Variables (inc maxx : Q).
Hypothesis inc_pos : (0 < inc)%Q.
Hypothesis max_pos : (0 <= maxx)%Q.
Notation r := (maxx / inc)%Q.
Definition nrows : nat := Z.to_nat (Qceiling (maxx / inc)).
Lemma r_inc : (r * inc == maxx)%Q.
Proof. field. lra. Qed.
Lemma r_pos : (0 <= r)%Q.
Proof. apply Qle_shift_div_l; [exact inc_pos|]. lra. Qed.
Lemma ceil_pos : (0 <= Qceiling r)%Z.
Proof. rewrite <- (Qceiling_Z 0). apply Qceiling_resp_le, r_pos. Qed.
Lemma floor_pos : (0 <= Qfloor r)%Z.
Proof. rewrite <- (Qfloor_Z 0). apply Qfloor_resp_le, r_pos. Qed.
Lemma below k x : (x == inject_Z (Z.of_nat k) * inc)%Q -> (qltb x maxx = true <-> (k < nrows)%nat).
Proof.
  intros Hx. rewrite qltb_lt. unfold nrows. pose proof ceil_pos. pose proof r_inc as E. transitivity (inject_Z (Z.of_nat k) < r)%Q.
  - rewrite Hx, <- E at 1. split; intros L; nra.
  - rewrite <- ceil_lt. lia.
Qed.
Lemma grid_from : forall j k x fuel, (x == inject_Z (Z.of_nat k) * inc)%Q -> (k + j = nrows)%nat -> (j < fuel)%nat ->
  exists pts, grid Qplus qltb inc maxx fuel x = Some pts /\ length pts = j /\
    forall i p, nth_error pts i = Some p -> (p == inject_Z (Z.of_nat (k + i)) * inc)%Q.
Proof.
  induction j as [|j IH]; intros k x fuel Hx E L; (destruct fuel as [|f]; [lia|]); cbn [grid].
  - destruct (qltb x maxx) eqn:B; [apply (below k x Hx) in B; lia|]. exists []. split; [reflexivity|]. split; [reflexivity|]. intros [|i] p H; discriminate.
  - assert (B : qltb x maxx = true) by (apply (below k x Hx); lia). rewrite B.
    destruct (IH (S k) (x + inc)%Q f) as (pts & G & LP & V); [|lia|lia|].
    { rewrite Hx, Nat2Z.inj_succ. unfold Z.succ. rewrite inject_Z_plus. change (inject_Z 1) with 1%Q. ring. }
    exists (x :: pts). rewrite G. split; [reflexivity|]. split; [cbn [length]; lia|]. intros [|i] p H; cbn [nth_error] in H.
    + injection H as <-. rewrite Nat.add_0_r. exact Hx.
    + replace (k + S i)%nat with (S k + i)%nat by lia. apply V, H.
Qed.
Lemma grid_points fuel : (nrows < fuel)%nat -> exists pts, grid_q inc maxx fuel = Some pts /\ length pts = nrows /\
  forall i p, nth_error pts i = Some p -> (p == inject_Z (Z.of_nat i) * inc)%Q.
Proof. intros L. apply (grid_from nrows 0 0%Q fuel); [|lia|exact L]. change (inject_Z (Z.of_nat 0)) with 0%Q. ring. Qed.

Lemma trunc_pos q : (0 <= q)%Q -> trunc q = Qfloor q.
Proof. intros H. unfold trunc. apply Qle_bool_iff in H. rewrite H. reflexivity. Qed.
Lemma npoints_floor : npoints_q inc maxx = Z.to_nat (Qfloor r + 1).
Proof. unfold npoints_q. rewrite trunc_pos by apply r_pos. reflexivity. Qed.
Lemma frac_range : (0 <= qfrac r)%Q /\ (qfrac r < 1)%Q.
Proof.
  unfold qfrac. pose proof (Qfloor_le r) as A. pose proof (Qlt_floor r) as B. rewrite inject_Z_plus in B. change (inject_Z 1) with 1%Q in B. lra.
Qed.
Lemma nrows_some : (0 < qfrac r)%Q -> nrows = npoints_q inc maxx.
Proof.
  intros H. rewrite npoints_floor. unfold nrows. f_equal. unfold qfrac in *.
  assert (A : (Qfloor r < Qceiling r)%Z) by (rewrite ceil_lt; lra).
  assert (B : ~ (Qfloor r + 1 < Qceiling r)%Z) by (rewrite ceil_lt; pose proof (Qlt_floor r); lra). lia.
Qed.
Lemma nrows_none : (qfrac r == 0)%Q -> S nrows = npoints_q inc maxx.
Proof.
  intros H. rewrite npoints_floor. unfold nrows, qfrac in *. pose proof floor_pos.
  assert (A : ~ (Qfloor r < Qceiling r)%Z) by (rewrite ceil_lt; lra).
  assert (B : (Qfloor r - 1 < Qceiling r)%Z) by (rewrite ceil_lt; unfold Z.sub; rewrite inject_Z_plus; change (inject_Z (- (1))) with (- (1))%Q; lra). lia.
Qed.
Lemma lookup_floor x : (0 <= x)%Q -> lookup_q inc x = Qfloor (x / inc + (1 # 2)).
Proof.
  intros H. unfold lookup_q. assert (E : ((1 / inc) * (x + (1 # 2) * inc) == x / inc + (1 # 2))%Q) by (field; lra).
  rewrite trunc_pos; [apply Qfloor_comp, E|]. rewrite E. assert (0 <= x / inc)%Q by (apply Qle_shift_div_l; [exact inc_pos|lra]). lra.
Qed.
Lemma lookup_pos x : (0 <= x)%Q -> (0 <= lookup_q inc x)%Z.
Proof.
  intros H. rewrite lookup_floor by exact H. rewrite <- (Qfloor_Z 0). apply Qfloor_resp_le.
  assert (0 <= x / inc)%Q by (apply Qle_shift_div_l; [exact inc_pos|lra]). change (inject_Z 0) with 0%Q. lra.
Qed.
(** The point looked up is the nearest one. *)
Lemma lookup_near x : (0 <= x)%Q -> (Qabs (inject_Z (lookup_q inc x) * inc - x) <= (1 # 2) * inc)%Q.
Proof.
  intros H. rewrite lookup_floor by exact H. pose proof (Qfloor_le (x / inc + (1 # 2))) as A. pose proof (Qlt_floor (x / inc + (1 # 2))) as B.
  rewrite inject_Z_plus in B. change (inject_Z 1) with 1%Q in B. set (z := inject_Z (Qfloor (x / inc + (1 # 2)))) in *.
  assert (E : (x == x / inc * inc)%Q) by (field; lra). set (y := (x / inc)%Q) in *. clearbody y z. apply Qabs_Qle_condition. split; nra.
Qed.

Section Table.
Variables (V : Type) (zero : V) (F : Q -> list V) (ncol fuel : nat).
Hypothesis enough : (nrows < fuel)%nat.
Notation tab := (table_q zero F ncol inc maxx fuel).
Lemma table_rows : exists pts t, grid_q inc maxx fuel = Some pts /\ tab = Some t /\ length pts = nrows /\ length t = npoints_q inc maxx /\
  t = map F pts ++ repeat (repeat zero ncol) (npoints_q inc maxx - nrows) /\ (nrows <= npoints_q inc maxx)%nat /\
  (forall i p, nth_error pts i = Some p -> (p == inject_Z (Z.of_nat i) * inc)%Q).
Proof.
  destruct (grid_points fuel enough) as (pts & G & L & P). unfold table_q. rewrite G. unfold c_array. rewrite map_length, L.
  assert (LE : (nrows <= npoints_q inc maxx)%nat).
  { destruct frac_range as [A _]. apply Qle_lteq in A as [A|A]; [rewrite (nrows_some A); lia|]. pose proof (nrows_none (Qeq_sym _ _ A)). lia. }
  rewrite (proj2 (Nat.leb_le _ _) LE). eexists pts, _. split; [reflexivity|]. split; [reflexivity|]. split; [exact L|].
  split; [rewrite app_length, map_length, repeat_length; lia|]. split; [reflexivity|]. split; [exact LE|exact P].
Qed.
Theorem table_serves : (0 < qfrac r)%Q -> (qfrac r <= 1 # 2)%Q -> exists t, tab = Some t /\ length t = npoints_q inc maxx /\
  forall x, (0 <= x)%Q -> (x < maxx)%Q -> exists i p, lookup_q inc x = Z.of_nat i /\ nth_error t i = Some (F p) /\
    (p == inject_Z (Z.of_nat i) * inc)%Q /\ (Qabs (p - x) <= (1 # 2) * inc)%Q.
Proof.
  intros H1 H2. destruct table_rows as (pts & t & G & T & LP & LT & ET & LE & P). exists t. split; [exact T|]. split; [exact LT|].
  intros x X0 XM. pose proof (lookup_pos x X0) as IP. exists (Z.to_nat (lookup_q inc x)).
  assert (IL : (lookup_q inc x <= Qfloor r)%Z).
  { rewrite lookup_floor by exact X0. enough (Qfloor (x / inc + (1 # 2)) < Qfloor r + 1)%Z by lia. rewrite Zlt_Qlt.
    apply Qle_lt_trans with (1 := Qfloor_le _). rewrite inject_Z_plus. change (inject_Z 1) with 1%Q. unfold qfrac in *.
    assert (x / inc < r)%Q by (apply Qlt_shift_div_r; [exact inc_pos|]; rewrite r_inc; exact XM). lra. }
  pose proof (nrows_some H1) as EN. rewrite npoints_floor in EN. pose proof floor_pos.
  destruct (nth_error pts (Z.to_nat (lookup_q inc x))) as [p|] eqn:E; [|apply nth_error_None in E; lia]. exists p.
  split; [lia|]. split; [rewrite ET, nth_error_app1 by (rewrite map_length; lia); apply map_nth_error, E|].
  pose proof (P _ _ E) as V0. split; [exact V0|]. rewrite V0, Z2Nat.id by exact IP. apply lookup_near, X0.
Qed.
Theorem table_zero_row : (qfrac r == 0)%Q -> (inc <= maxx)%Q -> exists t x i, tab = Some t /\ (0 <= x)%Q /\ (x < maxx)%Q /\
  lookup_q inc x = Z.of_nat i /\ nth_error t i = Some (repeat zero ncol).
Proof.
  intros H1 H2. destruct table_rows as (pts & t & G & T & LP & LT & ET & LE & P). exists t, (maxx - (1 # 2) * inc)%Q, nrows.
  split; [exact T|]. split; [lra|]. split; [lra|]. pose proof (nrows_none H1) as EN. split.
  - rewrite lookup_floor by lra. assert (E : ((maxx - (1 # 2) * inc) / inc + (1 # 2) == r)%Q) by (field; lra). rewrite E.
    rewrite npoints_floor in EN. pose proof floor_pos. lia.
  - rewrite ET, nth_error_app2 by (rewrite map_length; lia). rewrite map_length, LP, Nat.sub_diag. replace (npoints_q inc maxx - nrows)%nat with 1%nat by lia. reflexivity.
Qed.
Theorem table_past : (1 # 2 < qfrac r)%Q -> exists t x i, tab = Some t /\ (0 <= x)%Q /\ (x < maxx)%Q /\
  lookup_q inc x = Z.of_nat i /\ nth_error t i = None.
Proof.
  intros H1. destruct table_rows as (pts & t & G & T & LP & LT & ET & LE & P). exists t, ((inject_Z (Qfloor r) + (1 # 2)) * inc)%Q, (npoints_q inc maxx).
  pose proof floor_pos as FP. assert (FQ : (0 <= inject_Z (Qfloor r))%Q) by (change 0%Q with (inject_Z 0); rewrite <- Zle_Qle; exact FP).
  assert (XP : (0 <= (inject_Z (Qfloor r) + (1 # 2)) * inc)%Q) by nra.
  split; [exact T|]. split; [exact XP|]. split; [rewrite <- r_inc at 2; unfold qfrac in H1; nra|]. split.
  - rewrite lookup_floor by exact XP. assert (E : ((inject_Z (Qfloor r) + (1 # 2)) * inc / inc + (1 # 2) == inject_Z (Qfloor r + 1))%Q).
    { rewrite inject_Z_plus. change (inject_Z 1) with 1%Q. field. lra. }
    rewrite E, Qfloor_Z, npoints_floor. lia.
  - apply nth_error_None. lia.
Qed.
End Table.
End Grid.

(** *** The numbers of mpmath *)
Definition near_tenth (k : Z) (a : mpf) : bool :=
  let s := (- mp_exp a)%Z in (0 <? s)%Z && (Z.shiftl (Z.abs (10 * mp_man a - Z.shiftl k s)) 800 <=? 10 * Z.shiftl 1 s)%Z.
Fixpoint close_to (k : Z) (l : list mpf) : bool :=
  match l with [] => true | a :: r => near_tenth k a && close_to (k + 1) r end.
Lemma near_tenth_ok k a : near_tenth k a = true -> (Qabs (mp_val a - (k # 10)) <= 1 # 2 ^ 800)%Q.
Proof.
  unfold near_tenth, mp_val. intros H. apply andb_true_iff in H as [S H]. apply Z.ltb_lt in S. apply Z.leb_le in H.
  replace (0 <=? mp_exp a)%Z with false by (symmetry; apply Z.leb_gt; lia). rewrite !Z.shiftl_mul_pow2 in H by lia. set (s := (- mp_exp a)%Z) in *.
  assert (P : (0 < 2 ^ s)%Z) by (apply Z.pow_pos_nonneg; lia). set (d := (2 ^ s)%Z) in *. clearbody d s.
  assert (E8 : Z.pos (2 ^ 800) = (2 ^ 800)%Z) by reflexivity. set (c := (2 ^ 800)%Z) in *. set (cp := (2 ^ 800)%positive) in *. clearbody c cp.
  unfold Qle, Qabs, Qminus, Qplus, Qopp. cbn [Qnum Qden]. rewrite Pos2Z.inj_mul, Z2Pos.id by exact P. rewrite E8.
  replace (mp_man a * 10 + - k * d)%Z with (10 * mp_man a - k * d)%Z by ring. lia.
Qed.
Definition full_check (p : Z) (inc maxx : Z * Z) (n : nat) : bool :=
  match grid_mp p inc maxx (S n) with
  | Some pts => (length pts =? n)%nat && (npoints_mp p inc maxx =? n)%nat && close_to 1 (tl pts) && match pts with a :: _ => Qeq_bool (mp_val a) 0 | [] => false end
  | None => false
  end.
Lemma shipped_checked : full_check prec256 (1, 10)%Z (73, 2)%Z 366 = true.
Proof. vm_compute. reflexivity. Qed.
Lemma close_at : forall l k i a, close_to k l = true -> nth_error l i = Some a -> (Qabs (mp_val a - (k + Z.of_nat i # 10)) <= 1 # 2 ^ 800)%Q.
Proof.
  induction l as [|b l IH]; intros k i a C N; destruct i as [|i]; try discriminate; cbn [close_to nth_error] in *; apply andb_true_iff in C as [C1 C2].
  - injection N as <-. rewrite Z.add_0_r. apply near_tenth_ok, C1.
  - specialize (IH _ _ _ C2 N). replace (k + Z.of_nat (S i))%Z with (k + 1 + Z.of_nat i)%Z by lia. exact IH.
Qed.
Lemma tenth k : (inject_Z k * (1 # 10) == k # 10)%Q.
Proof. unfold Qeq, Qmult, inject_Z. cbn [Qnum Qden]. lia. Qed.
Lemma full_table V (zero : V) F ncol p inc maxx n fuel : full_check p inc maxx n = true -> (S n <= fuel)%nat ->
  exists t, table_mp zero F ncol p inc maxx fuel = Some t /\ length t = n /\
  forall i, (i < n)%nat -> exists q, nth_error t i = Some (F q) /\ (Qabs (q - inject_Z (Z.of_nat i) * (1 # 10)) <= 1 # 2 ^ 800)%Q.
Proof.
  intros C Hf. unfold full_check in C. destruct (grid_mp p inc maxx (S n)) as [pts|] eqn:G; [|discriminate].
  apply andb_true_iff in C as [C C4]. apply andb_true_iff in C as [C C3]. apply andb_true_iff in C as [C1 C2]. apply Nat.eqb_eq in C1, C2.
  unfold table_mp. unfold grid_mp in *. rewrite (grid_more _ _ _ _ _ _ _ _ G fuel Hf). rewrite C2. unfold c_array. rewrite map_length, C1, Nat.leb_refl, Nat.sub_diag.
  cbn [repeat]. rewrite app_nil_r. eexists. split; [reflexivity|]. split; [rewrite map_length; exact C1|].
  intros i Hi. destruct (nth_error pts i) as [a|] eqn:E; [|apply nth_error_None in E; lia].
  exists (mp_val a). split; [apply (map_nth_error (fun a => F (mp_val a))), E|]. rewrite tenth. destruct pts as [|b pts]; [destruct i; discriminate|]. destruct i as [|i].
  - injection E as <-. apply Qeq_bool_iff in C4. rewrite C4. unfold Qle, Qabs, Qminus, Qplus, Qopp. cbn [Qnum Qden Z.of_nat Z.mul Z.opp Z.add Z.abs]. apply Zle_0_pos.
  - pose proof (close_at _ _ _ _ C3 E) as D. replace (Z.of_nat (S i)) with (1 + Z.of_nat i)%Z by lia. exact D.
Qed.
Lemma lookup_below x n : (0 <= x)%Q -> (x < (Z.of_nat n # 10) - (1 # 20))%Q -> exists i, lookup_q (1 # 10) x = Z.of_nat i /\ (i < n)%nat.
Proof.
  intros X0 XM. assert (IP : (0 < 1 # 10)%Q) by reflexivity. pose proof (lookup_pos (1 # 10) IP x X0) as LP.
  assert (LM : (lookup_q (1 # 10) x < Z.of_nat n)%Z).
  { rewrite (lookup_floor (1 # 10) IP x X0). rewrite Zlt_Qlt. apply Qle_lt_trans with (1 := Qfloor_le _).
    assert (E : (x / (1 # 10) == 10 * x)%Q) by field. rewrite E. pose proof (tenth (Z.of_nat n)). lra. }
  exists (Z.to_nat (lookup_q (1 # 10) x)). lia.
Qed.
Theorem shipped_serves V (zero : V) F ncol fuel : (367 <= fuel)%nat -> exists t, table_mp zero F ncol prec256 (1, 10)%Z (73, 2)%Z fuel = Some t /\ length t = 366%nat /\
  forall x, (0 <= x)%Q -> (x < 73 # 2)%Q -> exists i p, lookup_q (1 # 10) x = Z.of_nat i /\ nth_error t i = Some (F p) /\
    (Qabs (p - inject_Z (Z.of_nat i) * (1 # 10)) <= 1 # 2 ^ 800)%Q.
Proof.
  intros Hf. destruct (full_table V zero F ncol _ _ _ _ fuel shipped_checked Hf) as (t & T & L & P). exists t. split; [exact T|]. split; [exact L|].
  intros x X0 XM. destruct (lookup_below x 366 X0) as (i & I & Hi); [change (Z.of_nat 366) with 366%Z; apply Qlt_le_trans with (1 := XM); discriminate|]. destruct (P i Hi) as (q & Q1 & Q2). exists i, q. auto.
Qed.
(** Other arguments: one row is missing. *)
Definition short_check (inc maxx : Z * Z) (n : nat) : bool :=
  match grid_mp prec256 inc maxx (S n) with
  | Some pts => (length pts =? n)%nat && (npoints_mp prec256 inc maxx =? S n)%nat
  | None => false
  end.
Lemma short_zero V (zero : V) F ncol inc maxx n fuel : short_check inc maxx n = true -> (S n <= fuel)%nat ->
  exists t, table_mp zero F ncol prec256 inc maxx fuel = Some t /\ nth_error t n = Some (repeat zero ncol).
Proof.
  intros C Hf. unfold short_check in C. destruct (grid_mp prec256 inc maxx (S n)) as [pts|] eqn:G; [|discriminate].
  apply andb_true_iff in C as [C1 C2]. apply Nat.eqb_eq in C1, C2.
  unfold table_mp. unfold grid_mp in *. rewrite (grid_more _ _ _ _ _ _ _ _ G fuel Hf). rewrite C2. unfold c_array. rewrite map_length, C1.
  replace (n <=? S n)%nat with true by (symmetry; apply Nat.leb_le; lia). replace (S n - n)%nat with 1%nat by lia. eexists. split; [reflexivity|].
  rewrite nth_error_app2 by (rewrite map_length; lia). rewrite map_length, C1, Nat.sub_diag. reflexivity.
Qed.
Lemma short_43 : short_check (1, 10)%Z (43, 1)%Z 430 = true.
Proof. vm_compute. reflexivity. Qed.
Lemma short_8th : short_check (1, 8)%Z (73, 2)%Z 292 = true.
Proof. vm_compute. reflexivity. Qed.
Theorem other_arguments V (zero : V) F ncol fuel : (500 <= fuel)%nat ->
  (exists t i, table_mp zero F ncol prec256 (1, 10)%Z (43, 1)%Z fuel = Some t /\ lookup_q (1 # 10) (4296 # 100) = Z.of_nat i /\ nth_error t i = Some (repeat zero ncol)) /\
  (exists t i, table_mp zero F ncol prec256 (1, 8)%Z (73, 2)%Z fuel = Some t /\ lookup_q (1 # 8) (3645 # 100) = Z.of_nat i /\ nth_error t i = Some (repeat zero ncol)).
Proof.
  intros Hf. split.
  - destruct (short_zero V zero F ncol _ _ _ fuel short_43 ltac:(lia)) as (t & T & N). exists t, 430%nat. split; [exact T|]. split; [vm_compute; reflexivity|exact N].
  - destruct (short_zero V zero F ncol _ _ _ fuel short_8th ltac:(lia)) as (t & T & N). exists t, 292%nat. split; [exact T|]. split; [vm_compute; reflexivity|exact N].
Qed.
(** A largest argument that is no multiple: 0.1 up to 1.24. *)
Lemma between_checked : full_check prec256 (1, 10)%Z (31, 25)%Z 13 = true.
Proof. vm_compute. reflexivity. Qed.
Theorem between_serves V (zero : V) F ncol fuel : (14 <= fuel)%nat -> exists t, table_mp zero F ncol prec256 (1, 10)%Z (31, 25)%Z fuel = Some t /\ length t = 13%nat /\
  forall x, (0 <= x)%Q -> (x < 31 # 25)%Q -> exists i p, lookup_q (1 # 10) x = Z.of_nat i /\ nth_error t i = Some (F p) /\
    (Qabs (p - inject_Z (Z.of_nat i) * (1 # 10)) <= 1 # 2 ^ 800)%Q.
Proof.
  intros Hf. destruct (full_table V zero F ncol _ _ _ _ fuel between_checked Hf) as (t & T & L & S). exists t. split; [exact T|]. split; [exact L|].
  intros x X0 XM. destruct (lookup_below x 13 X0) as (i & I1 & I2).
  { apply Qlt_trans with (1 := XM). reflexivity. }
  destruct (S i I2) as (p & P1 & P2). exists i, p. split; [exact I1|]. split; [exact P1|exact P2].
Qed.
