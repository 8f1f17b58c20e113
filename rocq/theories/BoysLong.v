(** The long-range branch of the Boys function near the switch-over point, by evaluation at
    x = 36.6025 = 6.05^2 (where the square root is exact) and x = 42.25, with the actual factors. *)
From Coq Require Import Arith ZArith QArith Qabs Qfield Qcanon Lia Lqa List Bool.
Import ListNotations.
From Verif Require Import Base Boys BoysProof BoysSeries BoysData BoysCheck BoysTable BoysFacts BoysAccuracy.
Set Implicit Arguments.
Local Open Scope Q_scope.

(** Comparison with an enclosure: v is too large by more than the fraction 1 / r of itself; right up to it. *)
Definition above (v : Q) (r : Z) (p : Z * Z) : bool :=
  match (inject_Z (fst p + snd p) ?= SC * (v - v / inject_Z r)) with Lt => true | _ => false end.
Definition within (v : Q) (r : Z) (p : Z * Z) : bool :=
  Qle_bool (SC * (v - v / inject_Z r)) (inject_Z (fst p - snd p)) && Qle_bool (inject_Z (fst p + snd p)) (SC * (v + v / inject_Z r)).

Lemma above_sound dn i K T n v r p : (0 < dn)%nat -> (i <= 43 * dn)%nat -> (2 * i <= dn * S K)%nat ->
  nth_error (enclosures (Z.of_nat dn) (Z.of_nat i) K T) n = Some p -> above v r p = true ->
  ~ near_boys n (gx dn i) v (v / inject_Z r).
Proof.
  intros D I B E A [N H]. specialize (H (N + (K + T))%nat ltac:(lia)).
  pose proof (@enclosures_sound dn i K T D I B n p E (N + (K + T))%nat ltac:(lia)) as U. apply abs_le_iff in U. destruct U as [_ U].
  unfold above in A. destruct (inject_Z (fst p + snd p) ?= SC * (v - v / inject_Z r)) eqn:C; try discriminate. clear A.
  apply Qlt_alt in C. apply abs_le_iff in H. destruct H as [_ H]. pose proof SC_pos as S. rewrite inject_Z_plus in C.
  set (b := boys_sum n (gx dn i) (N + (K + T))) in *. set (e := v / inject_Z r) in *.
  assert (Q : SC * (v - e) <= SC * b) by (rewrite !(Qmult_comm SC); apply Qmult_le_compat_r; lra).
  lra.
Qed.
Lemma within_sound dn i K0 T n v r p : (0 < dn)%nat -> (i <= 43 * dn)%nat -> (2 * i <= dn * S K0)%nat ->
  nth_error (enclosures (Z.of_nat dn) (Z.of_nat i) K0 T) n = Some p -> within v r p = true ->
  near_boys n (gx dn i) v (v / inject_Z r).
Proof.
  intros D I BB E A. exists (K0 + T)%nat. intros K HK.
  pose proof (@enclosures_sound dn i K0 T D I BB n p E K HK) as U. apply abs_le_iff in U. destruct U as [L U].
  unfold within in A. apply andb_prop in A. destruct A as [A B]. apply Qle_bool_iff in A, B. pose proof SC_pos as S.
  unfold Z.sub in A. rewrite inject_Z_plus in A, B. rewrite inject_Z_opp in A.
  set (b := boys_sum n (gx dn i) K) in *. set (e := v / inject_Z r) in *. apply Qabs_Qle_condition.
  assert (Q1 : SC * (v - e) <= SC * b) by lra. assert (Q2 : SC * b <= SC * (v + e)) by lra.
  apply Qmult_le_l in Q1; [|exact S]. apply Qmult_le_l in Q2; [|exact S]. split; lra.
Qed.

(** ** x = 36.6025 *)
Definition lx : Qc := Q2Qc (14641 # 400).
Definition l_es : list (Z * Z) := enclosures 400 14641 165 172.
(** [sqrt] and [pow]: exact at the points used (for [pow], odd powers x^(-k) and half-odd powers
    x^(-(2n+1)/2) = 6.05^(-(2n+1))). *)
Definition l_sqrt (q : Qc) : Qc := Q2Qc (inject_Z (Z.sqrt (Qnum (this q))) / inject_Z (Z.sqrt (QDen (this q)))).
Definition l_pow (b e : Qc) : Qc :=
  if (QDen (this e) =? 1)%Z then Qcpower (1 / b) (Z.to_nat (- Qnum (this e)))
  else Qcpower (l_sqrt (1 / b)) (Z.to_nat (- Qnum (this e))).
(** exp(-x), accurate to 20 digits. *)
Definition l_state := run 400 14641 165.
Definition exp_val (s : state) : Qc := Q2Qc (inject_Z (exp_mid s) / inject_Z sc).
Definition l_exp (q : Qc) : Qc := exp_val l_state.
Definition l_split (n : nat) : option (list Qc) :=
  split 1 false false l_sqrt l_exp l_pow shortgrid longfac (fun _ => lx) n (repeat 0%Qc (n + 1)).
(** Result for maximum order [n] at orders [n] and 0: too large by more than the fraction 1 / r. *)
Definition l_bad (n : nat) (r : Z) : bool :=
  match l_split n with
  | Some F => match nth_error F n, nth_error F 0, nth_error l_es n, nth_error l_es 0 with
              | Some v, Some w, Some p, Some p0 => above (this v) r p && above (this w) r p0
              | _, _, _, _ => false
              end
  | None => false
  end.
(** Result of order [k] for maximum order [n]: right up to the fraction 1 / r. *)
Definition l_good (n k : nat) (r : Z) : bool :=
  match l_split n with
  | Some F => match nth_error F k, nth_error l_es k with
              | Some v, Some p => within (this v) r p
              | _, _ => false
              end
  | None => false
  end.

Definition bad_list : list (nat * Z) :=
  [(8%nat, 200000000%Z); (16%nat, 15000%Z); (24%nat, 100%Z)].
Definition good_list : list (nat * Z) :=
  [(0%nat, (10 ^ 15)%Z); (1%nat, (10 ^ 14)%Z); (2%nat, (10 ^ 13)%Z); (3%nat, (10 ^ 12)%Z)].
Lemma bad_checked : forallb (fun e => l_bad (fst e) (snd e)) bad_list = true.
Proof. vm_cast_no_check (@eq_refl bool true). Qed.
Lemma good_checked : forallb (fun e => l_good 3 (fst e) (snd e)) good_list = true.
Proof. vm_cast_no_check (@eq_refl bool true). Qed.

Definition l_i : nat := Z.to_nat 14641.
Lemma l_iZ : Z.of_nat l_i = 14641%Z.
Proof. apply Z2Nat.id. lia. Qed.
Lemma l_i_le : (l_i <= 43 * 400)%nat.
Proof. pose proof l_iZ. lia. Qed.
Lemma l_K : (2 * l_i <= 400 * S 165)%nat.
Proof. pose proof l_iZ. lia. Qed.
Lemma lx_gx : this lx == gx 400 l_i.
Proof. unfold gx. unfold nq. rewrite l_iZ. vm_compute. reflexivity. Qed.

Definition l_ns : list nat := [4; 6; 8; 16; 24]%nat.
Lemma l_pow_ok n : In n l_ns -> pow_sqrt_ok l_sqrt l_pow lx n.
Proof.
  intros H. assert (C : forallb (fun n => Qc_eq_bool (l_sqrt (l_pow lx (qz (- (2 * Z.of_nat n + 1))))) (l_sqrt (1 / lx) * (1 / lx) ^ n)%Qc &&
    Qc_eq_bool (l_pow lx (- (qn n + Q2Qc (1 # 2)))%Qc) (l_sqrt (1 / lx) * (1 / lx) ^ n)%Qc) l_ns = true) by (vm_compute; reflexivity).
  apply (proj1 (forallb_forall _ _)) with (x := n) in C; [|exact H].
  apply andb_prop in C. destruct C as [A B]. apply Qc_eq_bool_correct in A, B. split; assumption.
Qed.

Lemma near_exp_gen x y v w e : x == y -> v == w -> (exists N, forall K, (N <= K)%nat -> Qabs (w - exp_sum y K) <= e * w) -> near_exp x v (e * v).
Proof.
  intros E V [N H]. exists N. intros K HK. rewrite V.
  assert (EX : exp_sum x K == exp_sum y K) by (unfold exp_sum; apply qsum_ext; intros k _; apply term_ext, E).
  rewrite EX. apply H, HK.
Qed.
Definition exp_check (s : state) : bool := ((0 <? exp_mid s) && (10 ^ 15 * exp_rad s <=? exp_mid s))%Z.
Opaque run sc SC.
Lemma exp_gen (m r c : Z) (y cq : Q) : cq == inject_Z c -> 0 < cq -> (0 < m)%Z -> (10 ^ 15 * r <= m)%Z -> Qabs (cq * y - inject_Z m) <= inject_Z r ->
  Qabs (inject_Z m / inject_Z c - y) <= 1 / inject_Z (10 ^ 15) * (inject_Z m / inject_Z c).
Proof.
  intros E C M R H. apply iz_pos in M. apply zq in R. rewrite inject_Z_mult in R. rewrite <- E.
  set (k := inject_Z (10 ^ 15)) in *. assert (K : 0 < k) by reflexivity. clearbody k.
  set (mq := inject_Z m) in *. set (rq := inject_Z r) in *. clearbody mq rq. apply Qabs_Qle_condition in H. destruct H as [H1 H2].
  assert (R' : rq <= mq / k) by (apply Qle_shift_div_l; lra).
  apply Qabs_Qle_condition.
  assert (X : mq / cq - y == (mq - cq * y) / cq) by (field; lra).
  assert (Y : 1 / k * (mq / cq) == (mq / k) / cq) by (field; split; lra).
  assert (Y' : - (1 / k * (mq / cq)) == (- (mq / k)) / cq) by (field; split; lra).
  rewrite X, Y', Y. split; apply Qmult_le_compat_r; try (apply Qinv_le_0_compat; lra); lra.
Qed.
Lemma exp_ok_at dn i K0 (x v : Q) st : (0 < dn)%nat -> (2 * i <= dn * S K0)%nat -> x == gx dn i ->
  st = run (Z.of_nat dn) (Z.of_nat i) K0 -> exp_check st = true -> v == inject_Z (exp_mid st) / inject_Z sc ->
  0 < v /\ near_exp x v (1 / inject_Z (10 ^ 15) * v).
Proof.
  intros D B X E C V. unfold exp_check in C. apply andb_prop in C. destruct C as [C1 C2]. apply Z.ltb_lt in C1. apply Z.leb_le in C2.
  pose proof SC_pos as SP. split.
  - rewrite V. apply Qlt_shift_div_l; [exact SP|]. rewrite Qmult_0_l. apply iz_pos, C1.
  - apply (@near_exp_gen _ _ _ _ (1 / inject_Z (10 ^ 15)) X V). exists K0. intros K HK.
    pose proof (@exp_encl dn i D K0 B K HK) as H. rewrite <- E in H. cbn [fst snd] in H.
    exact (@exp_gen (exp_mid st) (exp_rad st) sc (exp_sum (gx dn i) K) SC (Qeq_refl _) SP C1 C2 H).
Qed.
Lemma l_exp_check : exp_check l_state = true. Proof. vm_cast_no_check (@eq_refl bool true). Qed.
Lemma l_state_eq : l_state = run (Z.of_nat 400) (Z.of_nat l_i) 165.
Proof. rewrite l_iZ. reflexivity. Qed.
Lemma l_exp_this : this (l_exp (- lx)%Qc) == inject_Z (exp_mid l_state) / inject_Z sc.
Proof. apply this_Q2Qc. Qed.
Lemma l_exp_ok : 0 < this (l_exp (- lx)%Qc) /\
  near_exp (this lx) (this (l_exp (- lx)%Qc)) (1 / inject_Z (10 ^ 15) * this (l_exp (- lx)%Qc)).
Proof. exact (@exp_ok_at 400 l_i 165 (this lx) _ l_state ltac:(lia) l_K lx_gx l_state_eq l_exp_check l_exp_this). Qed.

(** ** Two lanes, x = 14.5 and x = 36.6025 *)
Definition m_x : Qc := Q2Qc (29 # 2).
Definition m_state := run 2 29 100.
Definition m_exp (q : Qc) : Qc :=
  if Qc_eq_dec q (- m_x)%Qc then exp_val m_state else l_exp q.
Definition m_xs (v : nat) : Qc := match v with 0%nat => m_x | _ => lx end.
Lemma m_exp_check : exp_check m_state = true. Proof. vm_cast_no_check (@eq_refl bool true). Qed.
Lemma m_state_eq : m_state = run (Z.of_nat 2) (Z.of_nat 29) 100. Proof. reflexivity. Qed.
Lemma m_gx : this m_x == gx 2 29. Proof. reflexivity. Qed.
Lemma m_exp_this : this (m_exp (- m_x)%Qc) == inject_Z (exp_mid m_state) / inject_Z sc.
Proof. unfold m_exp. destruct (Qc_eq_dec (- m_x)%Qc (- m_x)%Qc) as [_|C]; [apply this_Q2Qc|contradiction C; reflexivity]. Qed.
Lemma m_exp_ok : 0 < this (m_exp (- m_x)%Qc) /\
  near_exp (this m_x) (this (m_exp (- m_x)%Qc)) (1 / inject_Z (10 ^ 15) * this (m_exp (- m_x)%Qc)).
Proof. exact (@exp_ok_at 2 29 100 (this m_x) _ m_state ltac:(lia) ltac:(lia) m_gx m_state_eq m_exp_check m_exp_this). Qed.
Lemma m_hyps n : In n l_ns ->
  (forall v, (v < 2)%nat -> (0 <= m_xs v)%Qc) /\
  (forall v, (v < 2)%nat -> (MAXX <= m_xs v)%Qc -> pow_sqrt_ok l_sqrt l_pow (m_xs v) n) /\
  (m_xs 0%nat < MAXX)%Qc /\ (MAXX <= m_xs 1%nat)%Qc /\ 0 < this (m_exp (- m_xs 0%nat)%Qc) /\
  near_exp (this (m_xs 0%nat)) (this (m_exp (- m_xs 0%nat)%Qc)) (1 / inject_Z (10 ^ 15) * this (m_exp (- m_xs 0%nat)%Qc)).
Proof.
  intros N.
  refine (conj _ (conj _ (conj _ (conj _ m_exp_ok)))).
  - intros [|v] _; vm_compute; discriminate.
  - intros [|v] _ H; [exfalso; revert H; vm_compute; intros H; apply H; reflexivity|apply l_pow_ok, N].
  - vm_compute. reflexivity.
  - vm_compute. discriminate.
Qed.

(** ** The factors *)
(** Consecutive factors have the ratio (2n + 1) / 2 up to 10^-17; the first one is sqrt(x) F_0(x)
    at x = 42.25 = 6.5^2 up to 10^-17. *)
Definition fac_ratio (l : list Qc) (n : nat) : bool :=
  match nth_error l n, nth_error l (S n) with
  | Some a, Some b => let r := (inject_Z (2 * Z.of_nat n + 1) / 2 * this a) in
                      Qle_bool (Qabs (this b - r)) (this b / inject_Z (10 ^ 17)) && Qle_bool (1 # 4) (this b)
  | _, _ => false
  end.
Definition fac_first (l : list Qc) (es : list (Z * Z)) : bool :=
  match nth_error l 0, nth_error es 0 with
  | Some f, Some p => within (this f * (2 / 13)) (10 ^ 17) p | _, _ => false end.
Lemma factors_checked : forallb (fac_ratio longfac) (seq 0 31) = true /\
  fac_first longfac (enclosures 4 169 180 190) = true.
Proof. split; vm_cast_no_check (@eq_refl bool true). Qed.

Lemma fac_ratio_sound l n : fac_ratio l n = true -> exists a b, nth_error l n = Some a /\ nth_error l (S n) = Some b /\
  1 # 4 <= this b /\ Qabs (this b - (2 * nq n + 1) / 2 * this a) <= this b / inject_Z (10 ^ 17).
Proof.
  unfold fac_ratio. destruct (nth_error l n) as [a|] eqn:Ea; [|discriminate].
  destruct (nth_error l (S n)) as [b|] eqn:Eb; [|discriminate]. intros A. apply andb_prop in A. destruct A as [A1 A2].
  apply Qle_bool_iff in A1, A2. exists a, b. refine (conj eq_refl (conj eq_refl (conj A2 _))).
  rewrite inject_Z_plus, inject_Z_mult in A1. exact A1.
Qed.
Lemma fac_first_sound l es : fac_first l es = true -> exists f p, nth_error l 0 = Some f /\ nth_error es 0 = Some p /\
  within (this f * (2 / 13)) (10 ^ 17) p = true.
Proof.
  unfold fac_first. destruct (nth_error l 0) as [f|]; [|discriminate]. destruct (nth_error es 0) as [p|]; [|discriminate].
  intros H. exists f, p. auto.
Qed.
Lemma gx_4 : gx 4 169 == 169 # 4.
Proof. reflexivity. Qed.
Lemma near_4 v e : near_boys 0 (gx 4 169) v e -> near_boys 0 (169 # 4) v e.
Proof. apply near_boys_ext; [exact gx_4|reflexivity]. Qed.
Opaque longfac within enclosures.
Theorem factors_ok :
  (forall n, (n < 31)%nat -> exists a b, nth_error longfac n = Some a /\ nth_error longfac (S n) = Some b /\
     1 # 4 <= this b /\ Qabs (this b - (2 * nq n + 1) / 2 * this a) <= this b / inject_Z (10 ^ 17)) /\
  (exists f, nth_error longfac 0 = Some f /\ let v := this f * (2 / 13) in near_boys 0 (169 # 4) v (v / inject_Z (10 ^ 17))).
Proof.
  destruct factors_checked as [A B]. split.
  - intros n Hn. apply (proj1 (forallb_forall _ _)) with (x := n) in A; [|apply in_seq; lia].
    exact (@fac_ratio_sound longfac n A).
  - destruct (@fac_first_sound longfac (enclosures 4 169 180 190) B) as (f & p & E & Ep & W). exists f. split; [exact E|]. cbv zeta.
    apply near_4. apply (@within_sound 4 169 180 190 0 (this f * (2 / 13)) (10 ^ 17) p); [lia|lia|lia|exact Ep|exact W].
Qed.

Opaque l_split above.
Lemma l_bad_sound n r : l_bad n r = true -> exists F v w, l_split n = Some F /\
  nth_error F n = Some v /\ nth_error F 0 = Some w /\
  ~ near_boys n (this lx) (this v) (this v / inject_Z r) /\ ~ near_boys 0 (this lx) (this w) (this w / inject_Z r).
Proof.
  unfold l_bad. destruct (l_split n) as [F|]; [|discriminate].
  destruct (nth_error F n) as [v|] eqn:Ev; [|discriminate]. destruct (nth_error F 0) as [w|] eqn:Ew; [|discriminate].
  unfold l_es. destruct (nth_error (enclosures 400 14641 165 172) n) as [p|] eqn:Ep; [|discriminate].
  destruct (nth_error (enclosures 400 14641 165 172) 0) as [p0|] eqn:Ep0; [|discriminate].
  intros A. apply andb_prop in A. destruct A as [A1 A2]. exists F, v, w.
  rewrite <- l_iZ in Ep, Ep0.
  refine (conj eq_refl (conj Ev (conj Ew (conj _ _)))); intros N.
  - apply (@above_sound 400 l_i 165 172 n (this v) r p ltac:(lia) l_i_le l_K Ep A1).
    exact (@near_boys_ext n (this lx) (gx 400 l_i) _ _ _ lx_gx (Qeq_refl _) N).
  - apply (@above_sound 400 l_i 165 172 0 (this w) r p0 ltac:(lia) l_i_le l_K Ep0 A2).
    exact (@near_boys_ext 0 (this lx) (gx 400 l_i) _ _ _ lx_gx (Qeq_refl _) N).
Qed.
Lemma l_good_sound n k r : l_good n k r = true -> exists F v, l_split n = Some F /\
  nth_error F k = Some v /\ near_boys k (this lx) (this v) (this v / inject_Z r).
Proof.
  unfold l_good. destruct (l_split n) as [F|]; [|discriminate].
  destruct (nth_error F k) as [v|] eqn:Ev; [|discriminate].
  unfold l_es. destruct (nth_error (enclosures 400 14641 165 172) k) as [p|] eqn:Ep; [|discriminate].
  intros A. exists F, v. rewrite <- l_iZ in Ep. refine (conj eq_refl (conj Ev _)).
  apply (@near_boys_ext k (gx 400 l_i) (this lx) _ _ _ (Qeq_sym _ _ lx_gx) (Qeq_refl _)).
  exact (@within_sound 400 l_i 165 172 k (this v) r p ltac:(lia) l_i_le l_K Ep A).
Qed.
Lemma all_of (A B : Type) (f : A -> B -> bool) (l : list (A * B)) : forallb (fun e => f (fst e) (snd e)) l = true ->
  forall n r, In (n, r) l -> f n r = true.
Proof. intros H n r I. exact (proj1 (forallb_forall _ _) H (n, r) I). Qed.
Lemma bad_all n r : In (n, r) bad_list -> l_bad n r = true.
Proof. exact (@all_of nat Z l_bad bad_list bad_checked n r). Qed.
Lemma good_all k r : In (k, r) good_list -> l_good 3 k r = true.
Proof. exact (@all_of nat Z (l_good 3) good_list good_checked k r). Qed.
Opaque l_bad l_good.
(** Classes with total angular momentum 8, 16, 24 at x = 36.6025: the highest order, and F_0 obtained from
    it by the recursion, are off by more than these fractions of the value. *)
Theorem long_range_wrong : forall n r, In (n, r) bad_list ->
  exists F v w, l_split n = Some F /\
    nth_error F n = Some v /\ nth_error F 0 = Some w /\
    ~ near_boys n (this lx) (this v) (this v / inject_Z r) /\ ~ near_boys 0 (this lx) (this w) (this w / inject_Z r).
Proof. intros n r H. exact (@l_bad_sound n r (@bad_all n r H)). Qed.
(** Up to order 3 the orders are evaluated one by one and the error is small. *)
Theorem long_range_low : forall k r, In (k, r) good_list ->
  exists F v, l_split 3 = Some F /\
    nth_error F k = Some v /\ near_boys k (this lx) (this v) (this v / inject_Z r).
Proof. intros k r H. exact (@l_good_sound 3 k r (@good_all k r H)). Qed.
Transparent l_split longfac l_bad l_good.
Lemma l_sqrt_ok : (l_sqrt (1 / lx) * l_sqrt (1 / lx) = 1 / lx)%Qc.
Proof. vm_compute. reflexivity. Qed.
Lemma le_n_24 : In 4%nat l_ns. Proof. left. reflexivity. Qed.
Lemma m_split_6 : exists F', split 2 false false l_sqrt m_exp l_pow shortgrid longfac m_xs 6 (repeat 0%Qc 14) = Some F' /\
  length F' = 14%nat.
Proof.
  destruct (@m_hyps 6 ltac:(cbn; auto)) as (A & B & C & _).
  destruct (@split_ok 2 false false l_sqrt m_exp l_pow shortgrid longfac ltac:(lia) shortgrid_ok longfac_length m_xs 6 A
    ltac:(intros; lia) ltac:(lia) (repeat 0%Qc 14) ltac:(cbn; lia) (fun _ => B)) as (F' & S1 & L1 & _).
  exists F'. split; [exact S1|]. rewrite L1. reflexivity.
Qed.
Lemma entry_there : exists row v, nth_error shortgrid 145 = Some row /\ nth_error row 31 = Some v.
Proof.
  destruct shortgrid_ok as [L R]. destruct (nth_error shortgrid 145) as [row|] eqn:E.
  - exists row. assert (LR : length row = 32%nat) by (apply R, nth_error_In with 145%nat, E).
    destruct (nth_error row 31) as [v|] eqn:E2; [exists v; auto|]. apply nth_error_None in E2. lia.
  - apply nth_error_None in E. rewrite L in E. unfold NPOINT in E. lia.
Qed.
Lemma past_classes : exists a b c d, (a <= 7)%nat /\ (b <= 7)%nat /\ (c <= 7)%nat /\ (d <= 7)%nat /\
  forall len zf novec qsqrt qexp qpow xs F, (0 < len)%nat -> xs 0%nat = 1%Qc ->
  split len zf novec qsqrt qexp qpow shortgrid longfac xs (boys_order false a b c d) F = None /\
  split len zf novec qsqrt qexp qpow shortgrid longfac xs (boys_order true 6 6 6 6) F = None.
Proof.
  exists 7%nat, 7%nat, 7%nat, 4%nat. repeat (split; [lia|]). intros len zf novec qsqrt qexp qpow xs F L X.
  split; (eapply split_past; [exact shortgrid_ok|exact longfac_length|exact L|rewrite X; vm_compute; discriminate|rewrite X; vm_compute; reflexivity|unfold boys_order; lia]).
Qed.
