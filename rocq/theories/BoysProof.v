(** Proofs about the Boys function model (Boys). *)
From Coq Require Import List Arith ZArith QArith Qround Qcanon Lia Lqa Bool Factorial.
Import ListNotations.
From Verif Require Import Base GenHRR GenVRR Boys.
Set Implicit Arguments.
Local Open Scope nat_scope.

Lemma qcltb_lt a b : qcltb a b = true <-> (a < b)%Qc.
Proof.
  unfold qcltb, Qclt. rewrite negb_true_iff. split; intros H.
  - apply Qnot_le_lt. intros C. apply Qle_bool_iff in C. congruence.
  - destruct (Qle_bool (this b) (this a)) eqn:E; [|reflexivity].
    apply Qle_bool_iff in E. exfalso. apply (Qlt_not_le _ _ H E).
Qed.
Lemma qcltb_ge a b : qcltb a b = false <-> (b <= a)%Qc.
Proof.
  unfold qcltb, Qcle. rewrite negb_false_iff. apply Qle_bool_iff.
Qed.

Lemma this_add a b : (this (a + b)%Qc == this a + this b)%Q.
Proof. apply Qred_correct. Qed.
Lemma this_mul a b : (this (a * b)%Qc == this a * this b)%Q.
Proof. apply Qred_correct. Qed.
Lemma this_opp a : (this (- a)%Qc == - this a)%Q.
Proof. apply Qred_correct. Qed.
Lemma this_sub a b : (this (a - b)%Qc == this a - this b)%Q.
Proof. unfold Qcminus. rewrite this_add, this_opp. reflexivity. Qed.
Lemma this_Q2Qc q : (this (Q2Qc q) == q)%Q.
Proof. apply Qred_correct. Qed.

(** ** Table lookup *)
Lemma lookup_arg x : (this (LOOKUPFAC * (x + LOOKUPFAC2))%Qc == 10 * this x + (1#2))%Q.
Proof.
  rewrite this_mul, this_add. unfold LOOKUPFAC, LOOKUPFAC2. rewrite !this_Q2Qc. ring.
Qed.

Lemma lookup_floor x : (0 <= x)%Qc ->
  (inject_Z (lookup x) <= 10 * this x + (1#2))%Q /\ (10 * this x + (1#2) < inject_Z (lookup x) + 1)%Q.
Proof.
  intros H. unfold Qcle in H. change (this 0%Qc) with 0%Q in H.
  pose proof (lookup_arg x) as E. unfold lookup, trunc.
  set (q := this (LOOKUPFAC * (x + LOOKUPFAC2))%Qc) in *.
  assert (Z0 : (0 <= q)%Q) by lra.
  rewrite (proj2 (Qle_bool_iff 0 q) Z0).
  pose proof (Qfloor_le q) as A. pose proof (Qlt_floor q) as B. rewrite inject_Z_plus in B.
  change (inject_Z 1) with 1%Q in B. split; lra.
Qed.

Lemma lookup_range x : (0 <= x)%Qc -> (x < MAXX)%Qc -> (0 <= lookup x <= 365)%Z.
Proof.
  intros H L. destruct (lookup_floor H) as [A B].
  unfold Qcle in H. change (this 0%Qc) with 0%Q in H.
  unfold Qclt, MAXX in L. rewrite this_Q2Qc in L.
  split.
  - assert (Q : (inject_Z (-1) < inject_Z (lookup x))%Q) by (change (inject_Z (-1)) with (-1)%Q; lra).
    rewrite <- Zlt_Qlt in Q. lia.
  - assert (Q : (inject_Z (lookup x) < inject_Z 366)%Q) by (change (inject_Z 366) with 366%Q; lra).
    rewrite <- Zlt_Qlt in Q. lia.
Qed.

Lemma shift_eq x : (this (shift x) == inject_Z (lookup x) * (1#10) - this x)%Q.
Proof. unfold shift, SPACE, qz. rewrite this_sub, this_mul, !this_Q2Qc. reflexivity. Qed.

Lemma shift_range x : (0 <= x)%Qc ->
  (- Q2Qc (1#20) <= shift x)%Qc /\ (shift x <= Q2Qc (1#20))%Qc.
Proof.
  intros H. destruct (lookup_floor H) as [A B].
  unfold Qcle. rewrite this_opp, !this_Q2Qc, shift_eq. split; lra.
Qed.

Lemma shift_spec x i : lookup x = Z.of_nat i -> shift x = (qn i / Q2Qc 10 - x)%Qc.
Proof.
  intros E. apply Qc_is_canon. rewrite shift_eq, this_sub. unfold Qcdiv.
  rewrite this_mul, E. unfold qn, qz. rewrite this_Q2Qc.
  assert (T : (this (/ Q2Qc 10)%Qc == (1#10))%Q) by (vm_compute; reflexivity).
  rewrite T. reflexivity.
Qed.

Section Table.
Variable g : list (list Qc).
Hypothesis TG : table_ok g.

Lemma row_at i : i < NPOINT -> exists row, nth_error g i = Some row /\ length row = NCOL.
Proof.
  intros H. destruct TG as [L W]. destruct (@nth_error_lt_Some _ g i) as [row E]; [lia|].
  exists row. split; [exact E|]. apply W. eapply nth_error_In, E.
Qed.

Lemma rd_grid_row i row j : nth_error g i = Some row -> rd_grid g (Z.of_nat i) j = nth_error row j.
Proof.
  intros E. unfold rd_grid. destruct (Z.leb_spec 0 (Z.of_nat i)); [|lia].
  rewrite Nat2Z.id, E. reflexivity.
Qed.

Lemma horner_sum d (T : nat -> Qc) :
  horner d (T 0) (T 1) (T 2) (T 3) (T 4) (T 5) (T 6) (T 7) =
  fold_right Qcplus 0%Qc (map (fun j => (d ^ j / qn (fact j) * T j)%Qc) (seq 0 8)).
Proof.
  assert (E0 : (/ qn (fact 0) = 1)%Qc) by (apply Qc_is_canon; vm_compute; reflexivity).
  assert (E1 : (/ qn (fact 1) = 1)%Qc) by (apply Qc_is_canon; vm_compute; reflexivity).
  assert (E2 : (/ qn (fact 2) = Q2Qc (1#2))%Qc) by (apply Qc_is_canon; vm_compute; reflexivity).
  assert (E3 : (/ qn (fact 3) = Q2Qc (1#6))%Qc) by (apply Qc_is_canon; vm_compute; reflexivity).
  assert (E4 : (/ qn (fact 4) = Q2Qc (1#24))%Qc) by (apply Qc_is_canon; vm_compute; reflexivity).
  assert (E5 : (/ qn (fact 5) = Q2Qc (1#120))%Qc) by (apply Qc_is_canon; vm_compute; reflexivity).
  assert (E6 : (/ qn (fact 6) = Q2Qc (1#720))%Qc) by (apply Qc_is_canon; vm_compute; reflexivity).
  assert (E7 : (/ qn (fact 7) = Q2Qc (1#5040))%Qc) by (apply Qc_is_canon; vm_compute; reflexivity).
  cbn [seq map fold_right]. unfold Qcdiv. rewrite E0, E1, E2, E3, E4, E5, E6, E7.
  unfold horner. cbn [Qcpower]. ring.
Qed.

Lemma taylor_ok x n : (0 <= x)%Qc -> (x < MAXX)%Qc -> n <= 24 ->
  exists v, taylor g x n = Some v /\ expansion g x n v.
Proof.
  intros H L N. pose proof (lookup_range H L) as RI.
  pose (i := Z.to_nat (lookup x)). assert (EI : lookup x = Z.of_nat i) by (unfold i; lia).
  destruct (@row_at i) as (row & Er & Lr); [unfold NPOINT; lia|].
  unfold NCOL in Lr.
  pose (T := fun j => nth (n + j) row 0%Qc).
  assert (HT : forall j, j < 8 -> nth_error row (n + j) = Some (T j)).
  { intros j Hj. unfold T. apply nth_error_nth'. lia. }
  exists (horner (shift x) (T 0) (T 1) (T 2) (T 3) (T 4) (T 5) (T 6) (T 7)). split.
  - unfold taylor, taylor_with. rewrite EI, !(@rd_grid_row i row _ Er).
    rewrite !HT by lia. reflexivity.
  - exists i, row, T. split; [lia|]. split; [exact Er|]. split; [exact HT|].
    rewrite <- (@shift_spec x i EI). split; [apply shift_range, H|apply horner_sum].
Qed.

Lemma taylor_past x n : (0 <= x)%Qc -> (x < MAXX)%Qc -> 25 <= n -> taylor g x n = None.
Proof.
  intros H L N. pose proof (lookup_range H L) as RI.
  pose (i := Z.to_nat (lookup x)). assert (EI : lookup x = Z.of_nat i) by (unfold i; lia).
  destruct (@row_at i) as (row & Er & Lr); [unfold NPOINT; lia|].
  unfold NCOL in Lr.
  unfold taylor, taylor_with. rewrite EI, !(@rd_grid_row i row _ Er).
  rewrite (proj2 (nth_error_None row (n + 7))) by lia.
  repeat match goal with |- obind ?o _ = None => destruct o; cbn [obind] end; reflexivity.
Qed.

(** In flat memory: the first table value past the row is the first one of the next row. *)
Lemma concat_at (l : list (list Qc)) i j :
  (forall r, In r l -> length r = NCOL) -> j < NCOL ->
  nth_error (concat l) (i * NCOL + j) = (r <- nth_error l i ;; nth_error r j).
Proof.
  revert i. induction l as [|r l IH]; intros i W J.
  - cbn [concat]. rewrite (proj2 (nth_error_None [] (i * NCOL + j))) by (simpl; lia).
    destruct i; reflexivity.
  - cbn [concat]. assert (Lr : length r = NCOL) by (apply W; left; reflexivity).
    destruct i as [|i].
    + rewrite nth_error_app1 by lia. reflexivity.
    + rewrite nth_error_app2 by (rewrite Lr; lia). rewrite Lr.
      replace (S i * NCOL + j - NCOL) with (i * NCOL + j) by lia.
      cbn [nth_error]. apply IH; [|exact J]. intros r' Hr'. apply W. right. exact Hr'.
Qed.

Lemma flat_in_row i j : j < NCOL -> rd_flat g i j = rd_grid g i j.
Proof.
  intros J. unfold rd_flat, rd_grid. destruct (0 <=? i)%Z; [|reflexivity].
  apply concat_at; [apply TG|exact J].
Qed.
Lemma flat_next_row i j : (0 <= i)%Z -> j < NCOL -> rd_flat g i (NCOL + j) = rd_grid g (i + 1) j.
Proof.
  intros Hi J. unfold rd_flat, rd_grid.
  destruct (Z.leb_spec 0 i); [|lia]. destruct (Z.leb_spec 0 (i + 1)); [|lia].
  replace (Z.to_nat (i + 1)) with (S (Z.to_nat i)) by lia.
  replace (Z.to_nat i * NCOL + (NCOL + j)) with (S (Z.to_nat i) * NCOL + j) by lia.
  apply concat_at; [apply TG|exact J].
Qed.

(** For orders 25 to 31 a compiled program reads past the whole table exactly from 36.45 on. *)
Lemma flat_past x n : (0 <= x)%Qc -> (x < MAXX)%Qc -> 25 <= n <= 31 ->
  (taylor_with (rd_flat g) x n = None <-> (Q2Qc (729#20) <= x)%Qc).
Proof.
  intros H L N. pose proof (lookup_range H L) as RI. destruct (lookup_floor H) as [A B].
  assert (E365 : (Q2Qc (729#20) <= x)%Qc <-> lookup x = 365%Z).
  { unfold Qcle. rewrite this_Q2Qc. unfold Qclt, MAXX in L. rewrite this_Q2Qc in L. split; intros K.
    - assert (Q : (inject_Z 364 < inject_Z (lookup x))%Q) by (change (inject_Z 364) with 364%Q; lra).
      rewrite <- Zlt_Qlt in Q. lia.
    - rewrite K in A. change (inject_Z 365) with 365%Q in A. lra. }
  rewrite E365. clear E365.
  assert (LC : length (concat g) = 366 * 32).
  { destruct TG as [L1 W]. clear - L1 W. unfold NPOINT, NCOL in *.
    assert (G : forall l : list (list Qc), (forall r, In r l -> length r = 32) -> length (concat l) = length l * 32).
    { induction l as [|r l IH]; intros V; [reflexivity|]. cbn [concat]. rewrite app_length, IH.
      - rewrite V by (left; reflexivity). simpl. lia.
      - intros r' Hr'. apply V. right. exact Hr'. }
    rewrite G by exact W. rewrite L1. reflexivity. }
  assert (I366 : lookup x <> 365%Z -> Z.to_nat (lookup x) + 2 <= 366) by lia.
  assert (R : forall j, j < 8 -> lookup x <> 365%Z -> exists v, rd_flat g (lookup x) (n + j) = Some v).
  { intros j Hj NE. unfold rd_flat. destruct (Z.leb_spec 0 (lookup x)); [|lia].
    apply nth_error_lt_Some. rewrite LC. unfold NCOL. specialize (I366 NE).
    assert ((Z.to_nat (lookup x) + 2) * 32 <= 366 * 32) by (apply Nat.mul_le_mono_r; exact I366). lia. }
  split.
  - intros K. destruct (Z.eq_dec (lookup x) 365) as [E|NE]; [exact E|exfalso]. revert K.
    unfold taylor_with.
    destruct (R 0) as [v0 ->]; [lia|exact NE|]. destruct (R 1) as [v1 ->]; [lia|exact NE|].
    destruct (R 2) as [v2 ->]; [lia|exact NE|]. destruct (R 3) as [v3 ->]; [lia|exact NE|].
    destruct (R 4) as [v4 ->]; [lia|exact NE|]. destruct (R 5) as [v5 ->]; [lia|exact NE|].
    destruct (R 6) as [v6 ->]; [lia|exact NE|]. destruct (R 7) as [v7 ->]; [lia|exact NE|].
    cbn [obind]. discriminate.
  - intros E. unfold taylor_with. rewrite E.
    assert (Z7 : rd_flat g 365 (n + 7) = None).
    { unfold rd_flat. cbn [Z.leb Z.compare]. apply nth_error_None. rewrite LC.
      change (Z.to_nat 365) with 365. unfold NCOL. lia. }
    rewrite Z7.
    repeat match goal with |- obind ?o _ = None => destruct o; cbn [obind] end; reflexivity.
Qed.
End Table.

(** ** Stores *)
Lemma stores_ok (f : nat -> Qc) l : forall F,
  (forall p v, In (p, v) l -> p < length F /\ v = f p) ->
  exists F', stores F l = Some F' /\ length F' = length F /\
    (forall p, In p (map fst l) -> nth_error F' p = Some (f p)) /\
    (forall p, ~ In p (map fst l) -> nth_error F' p = nth_error F p).
Proof.
  induction l as [|[q w] l IH]; intros F H.
  - exists F. split; [reflexivity|]. split; [reflexivity|]. split; [intros p []|reflexivity].
  - destruct (H q w) as [Q E]; [left; reflexivity|].
    destruct (IH (upd F q w)) as (F' & S1 & L1 & W1 & O1).
    { intros p v I. rewrite upd_length. apply H. right. exact I. }
    exists F'. cbn [stores]. destruct (Nat.ltb_spec q (length F)) as [Q1|Q1]; [|lia].
    split; [exact S1|]. split; [rewrite L1; apply upd_length|]. cbn [map fst]. split.
    + intros p [<-|I]; [|apply W1, I].
      destruct (in_dec Nat.eq_dec q (map fst l)) as [I|I]; [apply W1, I|].
      rewrite O1 by exact I. rewrite nth_error_upd_same by exact Q1. congruence.
    + intros p N. rewrite O1 by (intros C; apply N; right; exact C).
      apply nth_error_upd_other. intros C. apply N. left. exact C.
Qed.

Lemma mapM_none A B (f : A -> option B) l a : In a l -> f a = None -> mapM f l = None.
Proof.
  induction l as [|b l IH]; intros I E; [destruct I|]. cbn [mapM]. destruct I as [->|I].
  - rewrite E. reflexivity.
  - rewrite (IH I E). destruct (f b); reflexivity.
Qed.

(** [vector_min], [vector_max]. *)
Lemma fold_min l : forall m, let r := fold_left (fun m v => if qcltb v m then v else m) l m in
  (r <= m)%Qc /\ forall v, In v l -> (r <= v)%Qc.
Proof.
  induction l as [|a l IH]; intros m; cbn [fold_left]; [split; [apply Qcle_refl|intros v []]|].
  destruct (qcltb a m) eqn:E.
  - apply qcltb_lt in E. destruct (IH a) as [A B]. split.
    + apply (Qcle_trans _ _ _ A), Qclt_le_weak, E.
    + intros v [<-|I]; [exact A|apply B, I].
  - apply qcltb_ge in E. destruct (IH m) as [A B]. split; [exact A|].
    intros v [<-|I]; [apply (Qcle_trans _ _ _ A E)|apply B, I].
Qed.
Lemma fold_max l : forall m, let r := fold_left (fun m v => if qcltb m v then v else m) l m in
  (m <= r)%Qc /\ forall v, In v l -> (v <= r)%Qc.
Proof.
  induction l as [|a l IH]; intros m; cbn [fold_left]; [split; [apply Qcle_refl|intros v []]|].
  destruct (qcltb m a) eqn:E.
  - apply qcltb_lt in E. destruct (IH a) as [A B]. split.
    + apply (Qcle_trans _ a); [apply Qclt_le_weak, E|exact A].
    + intros v [<-|I]; [exact A|apply B, I].
  - apply qcltb_ge in E. destruct (IH m) as [A B]. split; [exact A|].
    intros v [<-|I]; [apply (Qcle_trans _ m _ E A)|apply B, I].
Qed.
Lemma vmin_le len xs v : v < len -> (vmin len xs <= xs v)%Qc.
Proof.
  intros H. unfold vmin. destruct (@fold_min (map xs (seq 1 (len - 1))) (xs 0)) as [A B].
  destruct v as [|v]; [exact A|]. apply B. apply in_map. apply in_seq. lia.
Qed.
Lemma vmax_ge len zf xs v : v < len -> (xs v <= vmax len zf xs)%Qc.
Proof.
  intros H. unfold vmax. destruct zf.
  - destruct (@fold_max (map xs (seq 0 len)) 0%Qc) as [A B]. apply B. apply in_map, in_seq. lia.
  - destruct (@fold_max (map xs (seq 1 (len - 1))) (xs 0)) as [A B].
    destruct v as [|v]; [exact A|]. apply B. apply in_map, in_seq. lia.
Qed.

(** Denominator of the recursion. *)
Definition denom (k : nat) : Qc := (Q2Qc 2 * qn k + 1)%Qc.
Lemma denom_nz k : denom k <> 0%Qc.
Proof.
  intros C. assert (E : (this (denom k) == 2 * inject_Z (Z.of_nat k) + 1)%Q).
  { unfold denom, qn, qz. rewrite this_add, this_mul, !this_Q2Qc. reflexivity. }
  rewrite C in E. change (this 0%Qc) with 0%Q in E.
  assert (P : (0 <= inject_Z (Z.of_nat k))%Q) by (change 0%Q with (inject_Z 0); rewrite <- Zle_Qle; lia).
  lra.
Qed.

Section Split.
Variable len : nat.
Variables zf novec : bool.
Variables (qsqrt qexp : Qc -> Qc) (qpow : Qc -> Qc -> Qc).
Variable g : list (list Qc).
Variable fac : list Qc.
Hypothesis LEN : 0 < len.
Hypothesis TG : table_ok g.
Hypothesis TF : length fac = NFAC.

Lemma pos_div v k : v < len -> (v + k * len) / len = k.
Proof. intros H. rewrite Nat.div_add by lia. rewrite Nat.div_small by exact H. reflexivity. Qed.
Lemma pos_mod v k : v < len -> (v + k * len) mod len = v.
Proof. intros H. rewrite Nat.mod_add by lia. apply Nat.mod_small, H. Qed.

(** Stores of orders [ks] for all lanes. *)
Definition block (val : nat -> nat -> Qc) (ks : list nat) : list (nat * Qc) :=
  flat_map (fun v => map (fun k => (v + k * len, val v k)) ks) (seq 0 len).

Lemma block_in val ks p y : In (p, y) (block val ks) <->
  exists v k, v < len /\ In k ks /\ p = v + k * len /\ y = val v k.
Proof.
  unfold block. rewrite in_flat_map. split.
  - intros (v & Hv & I). apply in_map_iff in I. destruct I as (k & E & Hk). inversion E; subst.
    apply in_seq in Hv. exists v, k. repeat split; [lia|exact Hk].
  - intros (v & k & Hv & Hk & -> & ->). exists v. split; [apply in_seq; lia|].
    apply in_map_iff. exists k. split; [reflexivity|exact Hk].
Qed.
Lemma block_fst val ks p : In p (map fst (block val ks)) <->
  exists v k, v < len /\ In k ks /\ p = v + k * len.
Proof.
  rewrite in_map_iff. split.
  - intros ([p' y] & <- & I). apply block_in in I. destruct I as (v & k & A & B & C & _). eauto.
  - intros (v & k & A & B & ->). exists (v + k * len, val v k). split; [reflexivity|].
    apply block_in. exists v, k. auto.
Qed.

Lemma block_stores val ks n F : (forall k, In k ks -> k <= n) -> (n + 1) * len <= length F ->
  exists F', stores F (block val ks) = Some F' /\ length F' = length F /\
    (forall v k, v < len -> In k ks -> nth_error F' (v + k * len) = Some (val v k)) /\
    (forall v k, v < len -> ~ In k ks -> nth_error F' (v + k * len) = nth_error F (v + k * len)).
Proof.
  intros K L.
  destruct (@stores_ok (fun p => val (p mod len) (p / len)) (block val ks) F) as (F' & S1 & L1 & W & O).
  - intros p y I. apply block_in in I. destruct I as (v & k & Hv & Hk & -> & ->).
    rewrite pos_div, pos_mod by exact Hv. split; [|reflexivity].
    specialize (K k Hk). assert (k * len <= n * len) by (apply Nat.mul_le_mono_r; exact K). lia.
  - exists F'. split; [exact S1|]. split; [exact L1|]. split.
    + intros v k Hv Hk. rewrite W.
      * rewrite pos_div, pos_mod by exact Hv. reflexivity.
      * apply block_fst. eauto.
    + intros v k Hv Hk. apply O. rewrite block_fst. intros (v' & k' & Hv' & Hk' & E).
      apply Hk. assert (k = k') as ->; [|exact Hk'].
      rewrite <- (@pos_div v k Hv), E, pos_div by exact Hv'. reflexivity.
Qed.

(** Value of a lane computed without recursion. *)
Definition facv (k : nat) : Qc := nth k fac 0%Qc.
Definition lval (x : Qc) (k : nat) : Qc := (facv k * (qsqrt (1 / x) * (1 / x) ^ k))%Qc.
Definition tval (x : Qc) (k : nat) : Qc := match taylor g x k with Some v => v | None => 0%Qc end.
Definition dval (x : Qc) (k : nat) : Qc := if qcltb x MAXX then tval x k else lval x k.

Lemma fac_at k : k <= 31 -> nth_error fac k = Some (facv k).
Proof. intros H. apply nth_error_nth'. unfold NFAC in TF. lia. Qed.

Lemma tval_ok x k : (0 <= x)%Qc -> (x < MAXX)%Qc -> k <= 24 -> taylor g x k = Some (tval x k).
Proof. intros H L K. unfold tval. destruct (taylor_ok TG H L K) as (v & E & _). rewrite E. reflexivity. Qed.

Lemma dval_direct x k : (0 <= x)%Qc -> ((x < MAXX)%Qc -> k <= 24) -> k <= 31 ->
  direct qsqrt g fac x k (dval x k).
Proof.
  intros H K N. split; intros L; unfold dval.
  - rewrite (proj2 (qcltb_lt x MAXX) L). specialize (K L).
    destruct (taylor_ok TG H L K) as (v & E & X). unfold tval. rewrite E. exact X.
  - rewrite (proj2 (qcltb_ge x MAXX) L). exists (facv k). split; [apply fac_at, N|reflexivity].
Qed.

Lemma taylor_writes_ok base x n : (0 <= x)%Qc -> (x < MAXX)%Qc -> n <= 24 ->
  taylor_writes len g base x n = Some (map (fun k => (base + k * len, tval x k)) (seq 0 (S n))).
Proof.
  intros H L N. unfold taylor_writes. apply mapM_spec. intros k Hk. apply in_seq in Hk.
  rewrite tval_ok by (auto; lia). reflexivity.
Qed.

Lemma long_loop_ok base x1 s : forall k i, i + k <= 32 ->
  long_loop len fac base i k x1 (s * x1 ^ i)%Qc =
  Some (map (fun j => (base + j * len, (facv j * (s * x1 ^ j))%Qc)) (seq i k)).
Proof.
  induction k as [|k IH]; intros i L; [reflexivity|].
  cbn [long_loop seq map]. rewrite fac_at by lia. cbn [obind].
  replace (s * x1 ^ i * x1)%Qc with (s * x1 ^ S i)%Qc by (cbn [Qcpower]; ring).
  rewrite IH by lia. reflexivity.
Qed.
Lemma long_writes_ok base x n : n <= 31 ->
  long_writes len qsqrt fac base x n = Some (map (fun k => (base + k * len, lval x k)) (seq 0 (S n))).
Proof.
  intros N. unfold long_writes.
  pose proof (@long_loop_ok base (1 / x)%Qc (qsqrt (1 / x)%Qc) (S n) 0 ltac:(lia)) as E.
  cbn [Qcpower] in E. rewrite Qcmult_1_r in E. exact E.
Qed.

(** The three-way dispatch picks the lane-by-lane result. *)
Lemma dispatch (A : Type) xs (lo sh : nat -> option (list A)) mi (f : nat -> list A) :
  (forall v, v < len -> (xs v < MAXX)%Qc -> sh v = Some (f v)) ->
  (forall v, v < len -> (MAXX <= xs v)%Qc -> lo v = Some (f v)) ->
  (forall v, v < len -> mi v = Some (f v)) ->
  (if negb novec && qcltb MAXX (vmin len xs) then concatM lo (seq 0 len)
   else if negb novec && qcltb (vmax len zf xs) MAXX then concatM sh (seq 0 len)
   else concatM mi (seq 0 len)) = Some (flat_map f (seq 0 len)).
Proof.
  intros S L M. destruct (negb novec && qcltb MAXX (vmin len xs)) eqn:E1.
  - apply andb_prop in E1. destruct E1 as [_ E1]. apply qcltb_lt in E1.
    apply concatM_spec. intros v Hv. apply in_seq in Hv. apply L; [lia|].
    apply Qclt_le_weak, (Qclt_le_trans _ _ _ E1), vmin_le. lia.
  - destruct (negb novec && qcltb (vmax len zf xs) MAXX) eqn:E2.
    + apply andb_prop in E2. destruct E2 as [_ E2]. apply qcltb_lt in E2.
      apply concatM_spec. intros v Hv. apply in_seq in Hv. apply S; [lia|].
      apply (Qcle_lt_trans _ (vmax len zf xs)); [apply vmax_ge; lia|exact E2].
    + apply concatM_spec. intros v Hv. apply in_seq in Hv. apply M. lia.
Qed.

Variable xs : nat -> Qc.
Variable n : nat.
Hypothesis POS : forall v, v < len -> (0 <= xs v)%Qc.
Hypothesis SHORT : forall v, v < len -> (xs v < MAXX)%Qc -> n <= 24.
Hypothesis N31 : n <= 31.

Lemma dval_short v k : v < len -> k <= n -> (xs v < MAXX)%Qc -> dval (xs v) k = tval (xs v) k.
Proof. intros _ _ L. unfold dval. rewrite (proj2 (qcltb_lt _ _) L). reflexivity. Qed.
Lemma dval_long v k : (MAXX <= xs v)%Qc -> dval (xs v) k = lval (xs v) k.
Proof. intros L. unfold dval. rewrite (proj2 (qcltb_ge _ _) L). reflexivity. Qed.

Lemma small_n_ok :
  small_n len zf novec qsqrt g fac xs n = Some (block (fun v k => dval (xs v) k) (seq 0 (S n))).
Proof.
  unfold small_n, lanes, block.
  assert (S : forall v, v < len -> (xs v < MAXX)%Qc ->
    taylor_writes len g v (xs v) n = Some (map (fun k => (v + k * len, dval (xs v) k)) (seq 0 (S n)))).
  { intros v Hv L. rewrite taylor_writes_ok by (auto; apply (SHORT Hv L)). f_equal. apply map_ext_in.
    intros k Hk. apply in_seq in Hk. rewrite dval_short by (auto; lia). reflexivity. }
  assert (L : forall v, v < len -> (MAXX <= xs v)%Qc ->
    long_writes len qsqrt fac v (xs v) n = Some (map (fun k => (v + k * len, dval (xs v) k)) (seq 0 (Datatypes.S n)))).
  { intros v Hv L. rewrite long_writes_ok by exact N31. f_equal. apply map_ext. intros k. rewrite dval_long by exact L. reflexivity. }
  apply dispatch; auto.
  intros v Hv. destruct (qcltb (xs v) MAXX) eqn:E.
  - apply qcltb_lt in E. auto.
  - apply qcltb_ge in E. auto.
Qed.

Lemma top_n_ok : (forall v, v < len -> (MAXX <= xs v)%Qc -> pow_sqrt_ok qsqrt qpow (xs v) n) ->
  top_n len zf novec qsqrt qpow g fac xs n = Some (block (fun v k => dval (xs v) k) [n]).
Proof.
  intros PS. unfold top_n, lanes, block. cbn [map].
  assert (S : forall v, v < len -> (xs v < MAXX)%Qc -> taylor g (xs v) n = Some (dval (xs v) n)).
  { intros v Hv L. rewrite tval_ok by (auto; apply (SHORT Hv L)). rewrite dval_short by auto. reflexivity. }
  assert (L : forall v, v < len -> (MAXX <= xs v)%Qc -> long_single qsqrt qpow fac (xs v) n = Some (dval (xs v) n)).
  { intros v Hv L. unfold long_single. rewrite fac_at by exact N31. cbn [obind].
    rewrite (proj1 (PS v Hv L)), dval_long by exact L. reflexivity. }
  assert (LV : forall v, v < len -> (MAXX <= xs v)%Qc -> long_single_vec qpow fac (xs v) n = Some (dval (xs v) n)).
  { intros v Hv L'. unfold long_single_vec. rewrite fac_at by exact N31. cbn [obind].
    rewrite (proj2 (PS v Hv L')), dval_long by exact L'. reflexivity. }
  apply dispatch.
  - intros v Hv H. rewrite S by auto. reflexivity.
  - intros v Hv H. rewrite LV by auto. reflexivity.
  - intros v Hv. destruct (qcltb (xs v) MAXX) eqn:E.
    + apply qcltb_lt in E. rewrite S by auto. reflexivity.
    + apply qcltb_ge in E. rewrite L by auto. reflexivity.
Qed.

(** ** Downward recursion *)
(** The values of one lane from order [m] downwards. *)
Fixpoint down (x : Qc) (m : nat) (top : Qc) (j : nat) : Qc :=
  match m with
  | 0 => top
  | S m' => if j =? m then top else
            down x m' (1 / denom m' * (Q2Qc 2 * x * top + qexp (- x)))%Qc j
  end.
Lemma down_top x m t : down x m t m = t.
Proof. destruct m; cbn [down]; [reflexivity|]. rewrite Nat.eqb_refl. reflexivity. Qed.

Lemma down_recursion x m : forall t, boys_recursion qexp x m (down x m t).
Proof.
  induction m as [|m IH]; intros t k Hk; [lia|]. cbn [down].
  destruct (Nat.eqb_spec k (S m)); [lia|].
  destruct (Nat.eq_dec k m) as [->|NE].
  - rewrite Nat.eqb_refl, down_top. fold (denom m). unfold Qcdiv.
    rewrite Qcmult_1_l, Qcmult_assoc, Qcmult_inv_r by apply denom_nz. ring.
  - destruct (Nat.eqb_spec (S k) (S m)); [lia|]. apply IH. lia.
Qed.

Lemma recur_down_ok : forall m F (t : nat -> Qc), (m + 1) * len <= length F ->
  (forall v, v < len -> nth_error F (v + m * len) = Some (t v)) ->
  exists F', recur_down len qexp xs m F = Some F' /\ length F' = length F /\
    (forall v k, v < len -> k <= m -> nth_error F' (v + k * len) = Some (down (xs v) m (t v) k)) /\
    (forall v k, v < len -> m < k -> nth_error F' (v + k * len) = nth_error F (v + k * len)).
Proof.
  induction m as [|m IH]; intros F t L T.
  - exists F. split; [reflexivity|]. split; [reflexivity|]. split; [|reflexivity].
    intros v k Hv Hk. assert (k = 0) as -> by lia. apply T, Hv.
  - cbn [recur_down].
    pose (t' := fun v => (1 / denom m * (Q2Qc 2 * xs v * t v + qexp (- xs v)))%Qc).
    assert (ST : recur_step len qexp xs m F = stores F (block (fun v _ => t' v) [m])).
    { assert (BE : block (fun v _ => t' v) [m] = map (fun v => (v + m * len, t' v)) (seq 0 len)).
      { unfold block. cbn [map]. generalize (seq 0 len). intros s.
        induction s as [|a s IHs]; [reflexivity|]. cbn [map flat_map app]. rewrite IHs. reflexivity. }
      rewrite BE. unfold recur_step.
      match goal with |- obind ?o _ = _ => assert (ME : o = Some (map (fun v => (v + m * len, t' v)) (seq 0 len))) end.
      { apply mapM_spec. intros v Hv. apply in_seq in Hv. replace (m + 1) with (S m) by lia.
        rewrite T by lia. reflexivity. }
      rewrite ME. reflexivity. }
    rewrite ST.
    destruct (@block_stores (fun v _ => t' v) [m] (S m) F) as (F1 & S1 & L1 & W1 & O1).
    { intros k [<-|[]]. lia. }
    { exact L. }
    rewrite S1. cbn [obind].
    destruct (IH F1 t') as (F2 & S2 & L2 & W2 & O2).
    { rewrite L1. assert ((m + 1) * len <= (S m + 1) * len) by (apply Nat.mul_le_mono_r; lia). lia. }
    { intros v Hv. apply W1; [exact Hv|left; reflexivity]. }
    exists F2. split; [exact S2|]. split; [congruence|]. split.
    + intros v k Hv Hk. cbn [down]. destruct (Nat.eqb_spec k (S m)) as [->|NE].
      * rewrite O2 by (auto; lia). rewrite O1; [apply T, Hv|exact Hv|]. intros [C|[]]. lia.
      * apply W2; [exact Hv|lia].
    + intros v k Hv Hk. rewrite O2 by (auto; lia). apply O1; [exact Hv|]. intros [C|[]]. lia.
Qed.

Theorem split_ok F :
  (n + 1) * len <= length F ->
  (4 <= n -> forall v, v < len -> (MAXX <= xs v)%Qc -> pow_sqrt_ok qsqrt qpow (xs v) n) ->
  exists F', split len zf novec qsqrt qexp qpow g fac xs n F = Some F' /\ length F' = length F /\
    (forall v k, v < len -> n < k -> nth_error F' (v + k * len) = nth_error F (v + k * len)) /\
    forall v, v < len -> exists B,
      (forall k, k <= n -> nth_error F' (v + k * len) = Some (B k)) /\
      direct qsqrt g fac (xs v) n (B n) /\
      (n < 4 -> forall k, k <= n -> direct qsqrt g fac (xs v) k (B k)) /\
      (4 <= n -> boys_recursion qexp (xs v) n B).
Proof.
  intros L PS. unfold split. destruct (Nat.ltb_spec n 4) as [N4|N4].
  - rewrite small_n_ok. cbn [obind].
    destruct (@block_stores (fun v k => dval (xs v) k) (seq 0 (S n)) n F) as (F1 & S1 & L1 & W1 & O1).
    { intros k Hk. apply in_seq in Hk. lia. }
    { exact L. }
    exists F1. split; [exact S1|]. split; [exact L1|]. split.
    + intros v k Hv Hk. apply O1; [exact Hv|]. rewrite in_seq. lia.
    + intros v Hv. exists (fun k => dval (xs v) k). split; [|split; [|split]].
      * intros k Hk. apply W1; [exact Hv|]. apply in_seq. lia.
      * apply dval_direct; [apply POS, Hv|apply SHORT, Hv|exact N31].
      * intros _ k Hk. apply dval_direct; [apply POS, Hv| |lia]. intros C. specialize (SHORT Hv C). lia.
      * lia.
  - unfold large_n. rewrite top_n_ok by auto. cbn [obind].
    destruct (@block_stores (fun v k => dval (xs v) k) [n] n F) as (F1 & S1 & L1 & W1 & O1).
    { intros k [<-|[]]. lia. }
    { exact L. }
    rewrite S1. cbn [obind].
    destruct (@recur_down_ok n F1 (fun v => dval (xs v) n)) as (F2 & S2 & L2 & W2 & O2).
    { rewrite L1. exact L. }
    { intros v Hv. apply W1; [exact Hv|left; reflexivity]. }
    exists F2. split; [exact S2|]. split; [congruence|]. split.
    + intros v k Hv Hk. rewrite O2 by auto. apply O1; [exact Hv|]. intros [C|[]]. lia.
    + intros v Hv. exists (down (xs v) n (dval (xs v) n)). split; [|split; [|split]].
      * intros k Hk. apply W2; auto.
      * rewrite down_top. apply dval_direct; [apply POS, Hv|apply SHORT, Hv|exact N31].
      * lia.
      * intros _. apply down_recursion.
Qed.
End Split.

(** Two families with the same recursion and the same top value agree. *)
Lemma recursion_unique qexp x n B B' : boys_recursion qexp x n B -> boys_recursion qexp x n B' ->
  B n = B' n -> forall k, k <= n -> B k = B' k.
Proof.
  intros H H' T. assert (G : forall d k, n - k = d -> k <= n -> B k = B' k).
  { induction d as [|d IH]; intros k E K.
    - assert (k = n) as -> by lia. exact T.
    - specialize (H k ltac:(lia)). specialize (H' k ltac:(lia)).
      rewrite (IH (S k)) in H by lia. rewrite <- H' in H.
      assert (NZ : (Q2Qc 2 * qn k + 1)%Qc <> 0%Qc) by apply (@denom_nz k).
      assert (C : ((/ (Q2Qc 2 * qn k + 1)) * ((Q2Qc 2 * qn k + 1) * B k) = (/ (Q2Qc 2 * qn k + 1)) * ((Q2Qc 2 * qn k + 1) * B' k))%Qc) by (rewrite H; reflexivity).
      rewrite !Qcmult_assoc, Qcmult_inv_l, !Qcmult_1_l in C by exact NZ. exact C. }
  intros k K. apply (G (n - k)); auto.
Qed.

(** The downward recursion: correct highest order and [exp] give correct values for all orders. *)
Theorem large_n_correct len zf novec qsqrt qexp qpow g fac xs n F F' v B :
  0 < len -> table_ok g -> length fac = NFAC ->
  (forall v, v < len -> (0 <= xs v)%Qc) -> (forall v, v < len -> (xs v < MAXX)%Qc -> n <= 24) -> n <= 31 ->
  4 <= n -> (forall v, v < len -> (MAXX <= xs v)%Qc -> pow_sqrt_ok qsqrt qpow (xs v) n) ->
  (n + 1) * len <= length F ->
  split len zf novec qsqrt qexp qpow g fac xs n F = Some F' ->
  v < len -> boys_recursion qexp (xs v) n B -> nth_error F' (v + n * len) = Some (B n) ->
  forall k, k <= n -> nth_error F' (v + k * len) = Some (B k).
Proof.
  intros LEN TG TF POS SH N N4 PS L S Hv HB T k Hk.
  destruct (@split_ok len zf novec qsqrt qexp qpow g fac LEN TG TF xs n POS SH N F L (fun _ => PS))
    as (F1 & S1 & _ & _ & V).
  rewrite S in S1. injection S1 as <-.
  destruct (V v Hv) as (B' & V1 & _ & _ & V3).
  rewrite V1 by exact Hk. f_equal. rewrite V1 in T by lia. injection T as T.
  apply (@recursion_unique qexp (xs v) n B' B (V3 N4) HB T k Hk).
Qed.

(** From order 25 on with an argument below the switch-over point the result is undefined. *)
Theorem split_past len zf novec qsqrt qexp qpow g fac xs n F v :
  table_ok g -> length fac = NFAC -> v < len -> (0 <= xs v)%Qc -> (xs v < MAXX)%Qc -> 25 <= n ->
  split len zf novec qsqrt qexp qpow g fac xs n F = None.
Proof.
  intros TG TF Hv P L N. unfold split. destruct (Nat.ltb_spec n 4) as [N4|N4]; [lia|].
  unfold large_n, top_n, lanes.
  assert (LEN : 0 < len) by lia.
  assert (E1 : negb novec && qcltb MAXX (vmin len xs) = false).
  { destruct (qcltb MAXX (vmin len xs)) eqn:E; [|apply andb_false_r]. exfalso. apply qcltb_lt in E.
    assert (C := Qclt_le_trans _ _ _ E (@vmin_le len xs v Hv)).
    apply (Qclt_not_le _ _ (Qclt_trans _ _ _ L C)), Qcle_refl. }
  rewrite E1. destruct (negb novec && qcltb (vmax len zf xs) MAXX); unfold concatM.
  - rewrite (@mapM_none _ _ _ _ v); [reflexivity|apply in_seq; lia|].
    rewrite (taylor_past TG P L N). reflexivity.
  - rewrite (@mapM_none _ _ _ _ v); [reflexivity|apply in_seq; lia|].
    rewrite (proj2 (qcltb_lt _ _) L), (taylor_past TG P L N). reflexivity.
Qed.

(** From order 32 on the result is undefined for every argument that is not negative. *)
Theorem split_past_long len zf novec qsqrt qexp qpow g fac xs n F :
  0 < len -> table_ok g -> length fac = NFAC -> (forall v, v < len -> (0 <= xs v)%Qc) -> 32 <= n ->
  split len zf novec qsqrt qexp qpow g fac xs n F = None.
Proof.
  intros LEN TG TF P N. destruct (qcltb (xs 0) MAXX) eqn:E.
  - apply qcltb_lt in E. apply (@split_past len zf novec qsqrt qexp qpow g fac xs n F 0); auto. lia.
  - unfold split. destruct (Nat.ltb_spec n 4) as [N4|N4]; [lia|]. unfold large_n, top_n, lanes.
    assert (FN : nth_error fac n = None) by (apply nth_error_None; rewrite TF; unfold NFAC; lia).
    assert (LS : long_single qsqrt qpow fac (xs 0) n = None) by (unfold long_single; rewrite FN; reflexivity).
    assert (LV : long_single_vec qpow fac (xs 0) n = None) by (unfold long_single_vec; rewrite FN; reflexivity).
    destruct (negb novec && qcltb MAXX (vmin len xs)); unfold concatM.
    { rewrite (@mapM_none _ _ _ _ 0); [reflexivity|apply in_seq; lia|]. rewrite LV. reflexivity. }
    destruct (negb novec && qcltb (vmax len zf xs) MAXX) eqn:E2.
    + exfalso. apply andb_prop in E2. destruct E2 as [_ E2]. apply qcltb_lt in E2. apply qcltb_ge in E.
      pose proof (@vmax_ge len zf xs 0 LEN) as V.
      apply (Qclt_not_le _ _ (Qclt_le_trans _ _ _ E2 E)). exact V.
    + rewrite (@mapM_none _ _ _ _ 0); [reflexivity|apply in_seq; lia|].
      rewrite E, LS. reflexivity.
Qed.

(** Kernel classes: the Boys order is the total angular momentum (OSTEI_Writer.cpp:690), plus one
    for first derivatives (OSTEIDeriv1_Writer.cpp:892). *)
Definition boys_order (deriv : bool) (a b c d : nat) : nat := a + b + c + d + (if deriv then 1 else 0).
Lemma order_safe (deriv : bool) a b c d m : a <= m -> b <= m -> c <= m -> d <= m ->
  4 * m + (if deriv then 1 else 0) <= 24 -> boys_order deriv a b c d <= 24.
Proof. unfold boys_order. lia. Qed.
