(** What the successful check of BoysTable means. *)
From Coq Require Import Arith ZArith QArith Qabs Qfield Lia Lqa List Bool.
Import ListNotations.
From Verif Require Import Base BoysSeries BoysData BoysCheck BoysTable.
Set Implicit Arguments.
Local Open Scope Z_scope.

Lemma rows_ok_at l : forall k i row, rows_ok k l = true -> nth_error l i = Some row -> row_ok (k + i) row = true.
Proof.
  induction l as [|r l IH]; intros k i row H E; [destruct i; discriminate|].
  cbn [rows_ok] in H. apply andb_prop in H. destruct H as [A B]. destruct i as [|i].
  - injection E as <-. rewrite Nat.add_0_r. exact A.
  - replace (k + S i)%nat with (S k + i)%nat by lia. apply (IH _ _ _ B E).
Qed.
Lemma zip_all_at A B (f : A -> B -> bool) l : forall m i a b,
  zip_all f l m = true -> nth_error l i = Some a -> nth_error m i = Some b -> f a b = true.
Proof.
  induction l as [|x l IH]; intros m i a b H E E'; [destruct i; discriminate|].
  destruct m as [|y m]; [destruct i; discriminate|]. cbn [zip_all] in H. apply andb_prop in H.
  destruct H as [H1 H2]. destruct i as [|i].
  - injection E as <-. injection E' as <-. exact H1.
  - apply (IH _ _ _ _ H2 E E').
Qed.
Lemma sorted_adj l : sorted l = true -> forall n a b, nth_error l n = Some a -> nth_error l (S n) = Some b -> b <= a.
Proof.
  induction l as [|x l IH]; intros H n a b E E'; [destruct n; discriminate|].
  destruct l as [|y l]; [destruct n; [discriminate|destruct n; discriminate]|].
  cbn [sorted] in H. apply andb_prop in H. destruct H as [H1 H2]. destruct n as [|n].
  - injection E as <-. injection E' as <-. apply Z.leb_le, H1.
  - apply (IH H2 n a b E E').
Qed.
Lemma nth_error_firstn_lt A (l : list A) k n : (n < k)%nat -> nth_error (firstn k l) n = nth_error l n.
Proof.
  intros H. revert l k H. induction n as [|n IH]; intros [|x l] [|k] H; try lia; try reflexivity.
  cbn [firstn nth_error]. apply IH. lia.
Qed.
Lemma nth_error_skipn_at A (l : list A) k n : nth_error (skipn k l) n = nth_error l (k + n).
Proof.
  revert l. induction k as [|k IH]; intros l; [reflexivity|]. destruct l as [|x l]; [destruct n; reflexivity|].
  cbn [skipn Nat.add nth_error]. apply IH.
Qed.

Local Open Scope Q_scope.
Lemma pow10_pos e : (0 <= e)%Z -> 0 < inject_Z (10 ^ e).
Proof. intros H. apply iz_pos, Z.pow_pos_nonneg; lia. Qed.
Lemma W8_pos : 0 < inject_Z W8. Proof. reflexivity. Qed.
Lemma W32_pos : 0 < inject_Z W32. Proof. reflexivity. Qed.
Lemma RE_pos : 0 < inject_Z RE. Proof. reflexivity. Qed.
Lemma ten_pos : (0 < 10)%nat. Proof. lia. Qed.

Lemma dec_pos d : dec_ok d = true -> 0 < dq d.
Proof.
  destruct d as [m e]. cbn [dec_ok dq]. rewrite !andb_true_iff. intros [[M E] _]. apply Z.ltb_lt in M. apply Z.leb_le in E.
  apply Qlt_shift_div_l; [apply pow10_pos, E|]. rewrite Qmult_0_l. apply iz_pos, M.
Qed.
Lemma sc_split e : (0 <= e <= 40)%Z -> (sc = 10 ^ (40 - e) * 10 ^ e)%Z.
Proof. intros H. rewrite <- Z.pow_add_r by lia. change sc with (10 ^ 40)%Z. f_equal. lia. Qed.
Opaque sc run RE W8 W32 enclosures.
Lemma dec_scale d : dec_ok d = true -> SC * dq d == inject_Z (dz d).
Proof.
  destruct d as [m e]. cbn [dec_ok dq dz]. rewrite !andb_true_iff. intros [[M E] L]. apply Z.leb_le in E, L.
  unfold SC. rewrite (@sc_split e) by lia. rewrite !inject_Z_mult. pose proof (pow10_pos E). field. lra.
Qed.

Lemma entry_sound (c t q y r : Q) : 0 < c -> 0 < r -> Qabs (c * t - y) * r <= c * t -> y == c * q -> Qabs (t - q) <= t / r.
Proof.
  intros C R H Y. rewrite Y in H. setoid_replace (c * t - c * q) with (c * (t - q)) in H by ring.
  rewrite Qabs_Qmult, (Qabs_pos c) in H by lra. rewrite <- Qmult_assoc in H. apply Qmult_le_l in H; [|exact C].
  apply Qle_shift_div_l; assumption.
Qed.
Lemma entry_tri (T y : Q) t v r (re : Z) : T == inject_Z t -> 0 < inject_Z re -> ((Z.abs (t - v) + r) * re <=? t)%Z = true ->
  Qabs (y - inject_Z v) <= inject_Z r -> Qabs (T - y) * inject_Z re <= T.
Proof.
  intros E P H A. apply Z.leb_le in H. apply zq in H. rewrite inject_Z_mult, inject_Z_plus in H.
  rewrite E. assert (B : Qabs (inject_Z t - y) <= inject_Z (Z.abs (t - v)) + inject_Z r).
  { setoid_replace (inject_Z t - y) with ((inject_Z t - inject_Z v) + - (y - inject_Z v)) by ring.
    eapply Qle_trans; [apply Qabs_triangle|]. rewrite Qabs_opp. apply Qplus_le_compat; [|exact A].
    assert (X : inject_Z t - inject_Z v == inject_Z (t - v)) by (unfold Z.sub; rewrite inject_Z_plus, inject_Z_opp; ring).
    rewrite X. apply Qle_refl. }
  eapply Qle_trans; [apply Qmult_le_compat_r; [exact B|lra]|exact H].
Qed.

Section Row.
Variables (i : nat) (row : list dec).
Hypothesis ROW : nth_error shortgrid_data i = Some row.

Definition tv (n : nat) : Q := match nth_error row n with Some d => dq d | None => 0 end.
Definition hv (n : nat) : Z := match nth_error (row_encl i) n with Some p => hi p | None => 0%Z end.
Definition NK : nat := (Kof i + Tof i)%nat.

Lemma row_index : (i < 366)%nat.
Proof.
  pose proof table_checked as T. apply andb_prop in T. destruct T as [T _]. apply Nat.eqb_eq in T.
  rewrite <- T. apply (nth_error_Some_lt _ _ ROW).
Qed.
Lemma row_checked : row_ok i row = true.
Proof.
  pose proof table_checked as T. apply andb_prop in T. destruct T as [_ T].
  apply (rows_ok_at _ _ _ T ROW).
Qed.
Lemma small_i : (i <= 43 * 10)%nat. Proof. pose proof row_index. lia. Qed.
Lemma K_big : (2 * i <= 10 * S (Kof i))%nat.
Proof. unfold Kof. pose proof (Nat.div_mod i 3 ltac:(lia)). pose proof (Nat.mod_upper_bound i 3 ltac:(lia)). pose proof row_index. lia. Qed.

Lemma row_parts : length row = 32%nat /\ length (row_encl i) = 61%nat /\ forallb dec_ok row = true /\
  zip_all entry_ok (map dz row) (row_encl i) = true /\ sorted (map dz row) = true /\
  sorted (map hi (row_encl i)) = true /\ forallb (fun p => snd p <=? fst p)%Z (row_encl i) = true /\
  zip_all rem_ok (firstn 25 (map dz row)) (skipn 8 (map hi (row_encl i))) = true.
Proof.
  pose proof row_checked as H. unfold row_ok, row_check in H.
  rewrite !andb_true_iff in H. destruct H as [[[[[[[A B] C] D] E] F] G] I].
  apply Nat.eqb_eq in A, B. auto 10.
Qed.

Lemma encl_at m : (m <= 60)%nat -> exists p, nth_error (row_encl i) m = Some p.
Proof. intros H. apply nth_error_lt_Some. destruct row_parts as (_ & L & _). lia. Qed.
Lemma row_at_n n : (n <= 31)%nat -> exists d, nth_error row n = Some d.
Proof. intros H. apply nth_error_lt_Some. destruct row_parts as (L & _). lia. Qed.
Lemma row_dec n d : nth_error row n = Some d -> dec_ok d = true.
Proof.
  intros E. destruct row_parts as (_ & _ & F & _). exact (proj1 (forallb_forall _ _) F d (nth_error_In _ _ E)).
Qed.
Lemma row_encl_sound m p : nth_error (row_encl i) m = Some p ->
  forall K, (NK <= K)%nat -> Qabs (SC * boys_sum m (gx 10 i) K - inject_Z (fst p)) <= inject_Z (snd p).
Proof.
  intros E K HK. unfold row_encl in E.
  assert (M : (m < 61)%nat).
  { apply nth_error_Some_lt in E. rewrite firstn_length in E. lia. }
  rewrite nth_error_firstn_lt in E by exact M.
  exact (@enclosures_sound 10 i (Kof i) (Tof i) ten_pos small_i K_big m p E K HK).
Qed.

(** Every table entry is the Boys value up to the relative error 1 / RE. *)
Lemma entry_near n K : (n <= 31)%nat -> (NK <= K)%nat -> Qabs (tv n - boys_sum n (gx 10 i) K) <= tv n / inject_Z RE.
Proof.
  intros N HK. destruct (row_at_n N) as [d E]. unfold tv. rewrite E. pose proof (row_dec n E) as DK.
  destruct (@encl_at n) as [[v r] P]; [lia|]. pose proof (@row_encl_sound n _ P K HK) as A. cbn [fst snd] in A.
  destruct row_parts as (_ & _ & _ & Z & _).
  assert (E' : nth_error (map dz row) n = Some (dz d)) by (rewrite nth_error_map, E; reflexivity).
  pose proof (zip_all_at _ _ _ _ Z E' P) as EO. unfold entry_ok in EO.
  apply (@entry_sound SC (dq d) (boys_sum n (gx 10 i) K) (SC * boys_sum n (gx 10 i) K) (inject_Z RE) SC_pos RE_pos); [|reflexivity].
  exact (@entry_tri (SC * dq d) (SC * boys_sum n (gx 10 i) K) (dz d) v r RE (@dec_scale d DK) RE_pos EO A).
Qed.
Lemma tv_pos n : (n <= 31)%nat -> 0 < tv n.
Proof. intros N. destruct (row_at_n N) as [d E]. unfold tv. rewrite E. apply dec_pos, (row_dec n E). Qed.
Lemma tv_step n : (S n <= 31)%nat -> tv (S n) <= tv n.
Proof.
  intros N. destruct (@row_at_n n) as [d E]; [lia|]. destruct (row_at_n N) as [d' E']. unfold tv. rewrite E, E'.
  pose proof (dec_scale d (row_dec n E)) as D1. pose proof (dec_scale d' (row_dec (S n) E')) as D2.
  destruct row_parts as (_ & _ & _ & _ & S1 & _).
  assert (L : (dz d' <= dz d)%Z).
  { apply (sorted_adj _ S1 n); rewrite nth_error_map; [rewrite E|rewrite E']; reflexivity. }
  apply zq in L. rewrite <- D1, <- D2 in L. apply Qmult_le_l in L; [exact L|exact SC_pos].
Qed.
Lemma tv_le n j : (n + j <= 31)%nat -> tv (n + j) <= tv n.
Proof.
  induction j as [|j IH]; intros H; [rewrite Nat.add_0_r; apply Qle_refl|].
  rewrite Nat.add_succ_r. eapply Qle_trans; [apply tv_step; lia|]. apply IH. lia.
Qed.

Lemma hv_bound m K : (m <= 60)%nat -> (NK <= K)%nat -> SC * Qabs (boys_sum m (gx 10 i) K) <= inject_Z (hv m).
Proof.
  intros M HK. destruct (encl_at M) as [p P]. pose proof (row_encl_sound m P HK) as A. unfold hv. rewrite P. unfold hi.
  destruct row_parts as (_ & _ & _ & _ & _ & _ & F & _).
  pose proof (proj1 (forallb_forall _ _) F p (nth_error_In _ _ P)) as L. cbv beta in L. apply Z.leb_le, zq in L.
  apply Qabs_Qle_condition in A. destruct A as [A1 A2]. rewrite inject_Z_plus.
  pose proof SC_pos as S1. assert (X : SC * Qabs (boys_sum m (gx 10 i) K) == Qabs (SC * boys_sum m (gx 10 i) K)).
  { rewrite Qabs_Qmult, (Qabs_pos SC); [reflexivity|lra]. }
  rewrite X. apply Qabs_Qle_condition. split; lra.
Qed.
Lemma hv_step m : (S m <= 60)%nat -> (hv (S m) <= hv m)%Z.
Proof.
  intros M. destruct (@encl_at m) as [p P]; [lia|]. destruct (encl_at M) as [p' P']. unfold hv. rewrite P, P'.
  destruct row_parts as (_ & _ & _ & _ & _ & S1 & _).
  apply (sorted_adj _ S1 m); rewrite nth_error_map; [rewrite P|rewrite P']; reflexivity.
Qed.
Lemma hv_le n j : (n + j <= 60)%nat -> (hv (n + j) <= hv n)%Z.
Proof.
  induction j as [|j IH]; intros H; [rewrite Nat.add_0_r; lia|].
  rewrite Nat.add_succ_r. pose proof (@hv_step (n + j)%nat ltac:(lia)). specialize (IH ltac:(lia)). lia.
Qed.

Lemma w32_small : (2 * (UMAX * sc) <=? W32)%Z = true. Proof. vm_compute. reflexivity. Qed.
Lemma w8_ratio : Qle_bool (5 / 6 * 20) (85 / inject_Z (10 ^ 17) * 19 * inject_Z W8) = true. Proof. vm_compute. reflexivity. Qed.
Lemma rem_gen (t h w w' u T k : Q) : 0 < w -> 0 < w' -> 2 * u <= w' -> 6 * (h + w) <= 5 * t -> 0 <= h -> 0 <= t ->
  5 / 6 * 20 <= k * 19 * w -> T == t -> h / w * (20 / 19) + 2 * u / w' <= k * T.
Proof.
  intros W W' U H H0 T0 KW E. rewrite E. assert (A : 2 * u / w' <= 1) by (apply Qle_shift_div_r; lra).
  assert (B : h / w * (20 / 19) == (h * 20) / (19 * w)) by (field; lra).
  assert (C : (h * 20) / (19 * w) + 1 <= k * t).
  { assert (D : (h * 20) / (19 * w) + 1 == (h * 20 + 19 * w) / (19 * w)) by (field; lra). rewrite D.
    apply Qle_shift_div_r; [lra|].
    assert (F : 5 / 6 * 20 * t <= k * 19 * w * t) by (apply Qmult_le_compat_r; assumption).
    assert (G : k * t * (19 * w) == k * 19 * w * t) by ring. rewrite G.
    assert (P : 5 / 6 * 20 * t == (5 * t) * (10 # 3)) by field. rewrite P in F. set (y := k * 19 * w * t) in *. clearbody y. lra. }
  rewrite B. lra.
Qed.
Lemma rem_bound n : (n <= 24)%nat ->
  inject_Z (hv (n + 8)) / inject_Z W8 * (20 / 19) + 2 * inject_Z (UMAX * sc) / inject_Z W32 <= SC * (85 / inject_Z (10 ^ 17)) * tv n.
Proof.
  intros N. destruct (@row_at_n n) as [d E]; [lia|]. destruct (@encl_at (n + 8)) as [p P]; [lia|].
  pose proof (row_dec n E) as DK. destruct row_parts as (L & L2 & _ & _ & _ & _ & F & Z).
  assert (E' : nth_error (firstn 25 (map dz row)) n = Some (dz d)).
  { rewrite nth_error_firstn_lt by lia. rewrite nth_error_map, E. reflexivity. }
  assert (P' : nth_error (skipn 8 (map hi (row_encl i))) n = Some (hi p)).
  { rewrite nth_error_skipn_at, Nat.add_comm, nth_error_map, P. reflexivity. }
  pose proof (zip_all_at _ _ _ _ Z E' P') as RM. unfold rem_ok in RM. apply Z.leb_le, zq in RM.
  rewrite !inject_Z_mult, inject_Z_plus in RM. change (inject_Z 6) with 6 in RM. change (inject_Z 5) with 5 in RM.
  pose proof w32_small as W. apply Z.leb_le, zq in W. rewrite (inject_Z_mult 2) in W. change (inject_Z 2) with 2 in W.
  pose proof w8_ratio as R. apply Qle_bool_iff in R.
  pose proof (@hv_bound (n + 8) NK ltac:(lia) (le_n _)) as HB. unfold hv in *. rewrite P in *.
  assert (H0 : 0 <= inject_Z (hi p)).
  { eapply Qle_trans; [|exact HB]. apply Qmult_le_0_compat; [apply Qlt_le_weak, SC_pos|apply Qabs_nonneg]. }
  pose proof (dec_scale d DK) as DS. pose proof (dec_pos d DK) as DP. unfold tv. rewrite E.
  assert (T0 : 0 <= inject_Z (dz d)) by (rewrite <- DS; apply Qmult_le_0_compat; [apply Qlt_le_weak, SC_pos|lra]).
  assert (X : SC * (85 / inject_Z (10 ^ 17)) * dq d == 85 / inject_Z (10 ^ 17) * (SC * dq d)) by ring. rewrite X.
  exact (@rem_gen (inject_Z (dz d)) (inject_Z (hi p)) (inject_Z W8) (inject_Z W32) (inject_Z (UMAX * sc)) (SC * dq d) (85 / inject_Z (10 ^ 17))
    W8_pos W32_pos W RM H0 T0 R DS).
Qed.
Lemma all_bound m K : SC * Qabs (boys_sum m (gx 10 i) K) <= inject_Z (UMAX * sc).
Proof. exact (@total_sound 10 i ten_pos small_i m K). Qed.
End Row.
