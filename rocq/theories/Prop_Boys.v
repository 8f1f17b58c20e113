(** Property theorems C44, C45, C53, C54: the Boys function. *)
From Coq Require Import List Arith ZArith QArith Qabs Qcanon.
Import ListNotations.
From Verif Require Import Base Boys BoysProof BoysSeries BoysData BoysTable BoysAccuracy BoysLong.
Local Open Scope nat_scope.

(** C44.  Below the switch-over point and up to order 24 the value is the eight-term expansion around a grid point at
    most half a step away, all reads inside its row. *)
Theorem C44_in_row g x n : table_ok g -> (0 <= x)%Qc -> (x < Q2Qc (73 # 2))%Qc -> n <= 24 ->
  exists v, taylor g x n = Some v /\ expansion g x n v.
Proof. exact (fun T => @taylor_ok g T x n). Qed.
Print Assumptions C44_in_row.

(** boys_F_split, every vector length: no undefined access up to order 24 (31 if all arguments are above the
    switch-over point), nothing beyond the requested orders is written, the highest order (all orders below four)
    evaluated directly. *)
Theorem C44_split len zf novec qsqrt qexp qpow g fac xs n F :
  0 < len -> table_ok g -> length fac = 32 -> (forall v, v < len -> (0 <= xs v)%Qc) ->
  (forall v, v < len -> (xs v < Q2Qc (73 # 2))%Qc -> n <= 24) -> n <= 31 -> (n + 1) * len <= length F ->
  (4 <= n -> forall v, v < len -> (Q2Qc (73 # 2) <= xs v)%Qc -> pow_sqrt_ok qsqrt qpow (xs v) n) ->
  exists F', split len zf novec qsqrt qexp qpow g fac xs n F = Some F' /\ length F' = length F /\
    (forall v k, v < len -> n < k -> nth_error F' (v + k * len) = nth_error F (v + k * len)) /\
    forall v, v < len -> exists B,
      (forall k, k <= n -> nth_error F' (v + k * len) = Some (B k)) /\
      direct qsqrt g fac (xs v) n (B n) /\
      (n < 4 -> forall k, k <= n -> direct qsqrt g fac (xs v) k (B k)) /\
      (4 <= n -> boys_recursion qexp (xs v) n B).
Proof. exact (fun L T N P S M E W => @split_ok len zf novec qsqrt qexp qpow g fac L T N xs n P S M F E W). Qed.
Print Assumptions C44_split.

Example C44_split_met n : In n [4; 6; 8; 16; 24] -> table_ok shortgrid /\ length longfac = 32 /\
  (forall v, v < 2 -> (0 <= m_xs v)%Qc) /\
  (forall v, v < 2 -> (MAXX <= m_xs v)%Qc -> pow_sqrt_ok l_sqrt l_pow (m_xs v) n) /\
  (m_xs 0 < MAXX)%Qc /\ (MAXX <= m_xs 1)%Qc.
Proof. exact (fun N => conj shortgrid_ok (conj longfac_length (let (a, q) := @m_hyps n N in let (b, r) := q in let (c, s) := r in let (d, _) := s in conj a (conj b (conj c d))))). Qed.

(** From order 25 on, one lane below the switch-over point makes the call undefined; from 32 on every call. *)
Theorem C44_past_row len zf novec qsqrt qexp qpow g fac xs n F v :
  table_ok g -> length fac = 32 -> v < len -> (0 <= xs v)%Qc -> (xs v < Q2Qc (73 # 2))%Qc -> 25 <= n ->
  split len zf novec qsqrt qexp qpow g fac xs n F = None.
Proof. exact (@split_past len zf novec qsqrt qexp qpow g fac xs n F v). Qed.
Print Assumptions C44_past_row.

Theorem C44_past_factors len zf novec qsqrt qexp qpow g fac xs n F :
  0 < len -> table_ok g -> length fac = 32 -> (forall v, v < len -> (0 <= xs v)%Qc) -> 32 <= n ->
  split len zf novec qsqrt qexp qpow g fac xs n F = None.
Proof. exact (@split_past_long len zf novec qsqrt qexp qpow g fac xs n F). Qed.
Print Assumptions C44_past_factors.

(** In flat memory those reads land in the next row, except in the last row, from where they leave the table. *)
Theorem C44_past_table g x n : table_ok g -> (0 <= x)%Qc -> (x < Q2Qc (73 # 2))%Qc -> 25 <= n <= 31 ->
  (taylor_with (rd_flat g) x n = None <-> (Q2Qc (729 # 20) <= x)%Qc).
Proof. exact (fun T => @flat_past g T x n). Qed.
Print Assumptions C44_past_table.

(** Angular momenta up to 6, up to 5 for derivatives, are safe; (77|74) and the derivatives of (66|66) are not. *)
Theorem C44_classes (deriv : bool) a b c d m : a <= m -> b <= m -> c <= m -> d <= m ->
  4 * m + (if deriv then 1 else 0) <= 24 -> boys_order deriv a b c d <= 24.
Proof. exact (@order_safe deriv a b c d m). Qed.
Print Assumptions C44_classes.

Theorem C44_every_class_refuted : exists a b c d, a <= 7 /\ b <= 7 /\ c <= 7 /\ d <= 7 /\
  forall len zf novec qsqrt qexp qpow xs F, 0 < len -> xs 0 = 1%Qc ->
  split len zf novec qsqrt qexp qpow shortgrid longfac xs (boys_order false a b c d) F = None /\
  split len zf novec qsqrt qexp qpow shortgrid longfac xs (boys_order true 6 6 6 6) F = None.
Proof. exact past_classes. Qed.
Print Assumptions C44_every_class_refuted.

(** C45.  The lower orders are determined by the recursion: if [B] satisfies it with the exp(-x) used, and the highest
    order stored is [B n], all stored orders are [B]. *)
Theorem C45_recursion len zf novec qsqrt qexp qpow g fac xs n F F' v B :
  0 < len -> table_ok g -> length fac = 32 ->
  (forall v, v < len -> (0 <= xs v)%Qc) -> (forall v, v < len -> (xs v < Q2Qc (73 # 2))%Qc -> n <= 24) -> n <= 31 ->
  4 <= n -> (forall v, v < len -> (Q2Qc (73 # 2) <= xs v)%Qc -> pow_sqrt_ok qsqrt qpow (xs v) n) ->
  (n + 1) * len <= length F ->
  split len zf novec qsqrt qexp qpow g fac xs n F = Some F' ->
  v < len -> boys_recursion qexp (xs v) n B -> nth_error F' (v + n * len) = Some (B n) ->
  forall k, k <= n -> nth_error F' (v + k * len) = Some (B k).
Proof. exact (@large_n_correct len zf novec qsqrt qexp qpow g fac xs n F F' v B). Qed.
Print Assumptions C45_recursion.

(** The Boys function does satisfy it: the partial sums of its power series, exactly. *)
Theorem C45_series n x K :
  ((2 * nq n + 1) * boys_sum n x (S K) == 2 * x * boys_sum (S n) x K + exp_sum x (S K))%Q.
Proof. exact (@boys_sum_recursion n x K). Qed.
Print Assumptions C45_series.

(** So a relative error of the highest order and of exp(-x) is not amplified. *)
Theorem C45_error qexp x n B e : (0 <= e)%Q -> (0 <= x)%Qc -> boys_recursion qexp x n B ->
  (0 < this (B n))%Q -> near_boys n (this x) (this (B n)) (e * this (B n)) ->
  (0 < this (qexp (- x)%Qc))%Q -> near_exp (this x) (this (qexp (- x)%Qc)) (e * this (qexp (- x)%Qc)) ->
  forall k, k <= n -> (0 < this (B k))%Q /\ near_boys k (this x) (this (B k)) (e * this (B k)).
Proof. exact (@recursion_accurate qexp x n B e). Qed.
Print Assumptions C45_error.

Example C45_met : exists F', split 2 false false l_sqrt m_exp l_pow shortgrid longfac m_xs 6 (repeat 0%Qc 14) = Some F' /\
  length F' = 14.
Proof. exact m_split_6. Qed.

(** C53.  All 366 * 32 table entries are right to half a unit in the 18th significant digit ... *)
Theorem C53_entries i row n v : nth_error shortgrid i = Some row -> nth_error row n = Some v ->
  (0 < this v)%Q /\ near_boys n (nq i / nq 10) (this v) (this v / inject_Z (2 * 10 ^ 17)).
Proof. exact (@entry_value i row n v). Qed.
Print Assumptions C53_entries.

Example C53_entries_met : exists row v, nth_error shortgrid 145 = Some row /\ nth_error row 31 = Some v.
Proof. exact entry_there. Qed.

(** ... and every order boys_F_split stores for an argument below the switch-over point has relative error at most
    10^-15 (before rounding), for every argument, vector length and maximum order up to 24, if [exp] has. *)
Theorem C53_split len zf novec qsqrt qexp qpow xs n F v :
  0 < len -> (forall v, v < len -> (0 <= xs v)%Qc) -> n <= 24 -> (n + 1) * len <= length F ->
  (4 <= n -> forall v, v < len -> (Q2Qc (73 # 2) <= xs v)%Qc -> pow_sqrt_ok qsqrt qpow (xs v) n) ->
  v < len -> (xs v < Q2Qc (73 # 2))%Qc ->
  let e := (1 / inject_Z (10 ^ 15))%Q in
  (0 < this (qexp (- xs v)%Qc))%Q -> near_exp (this (xs v)) (this (qexp (- xs v)%Qc)) (e * this (qexp (- xs v)%Qc)) ->
  exists F', split len zf novec qsqrt qexp qpow shortgrid longfac xs n F = Some F' /\ length F' = length F /\
    forall k, k <= n -> exists b, nth_error F' (v + k * len) = Some b /\
      (0 < this b)%Q /\ near_boys k (this (xs v)) (this b) (e * this b).
Proof. exact (@split_accurate len zf novec qsqrt qexp qpow xs n F v). Qed.
Print Assumptions C53_split.

Example C53_split_met : (m_xs 0 < MAXX)%Qc /\ (0 < this (m_exp (- m_xs 0)%Qc))%Q /\
  near_exp (this (m_xs 0)) (this (m_exp (- m_xs 0)%Qc)) (1 / inject_Z (10 ^ 15) * this (m_exp (- m_xs 0)%Qc)).
Proof. exact (conj (proj1 (proj2 (proj2 (@m_hyps 4 le_n_24)))) m_exp_ok). Qed.

(** C54.  The long-range factors have the right ratios, and the first one is right at x = 42.25 ... *)
Theorem C54_factors :
  (forall n, n < 31 -> exists a b, nth_error longfac n = Some a /\ nth_error longfac (S n) = Some b /\
     (1 # 4 <= this b)%Q /\ (Qabs (this b - (2 * nq n + 1) / 2 * this a) <= this b / inject_Z (10 ^ 17))%Q) /\
  (exists f, nth_error longfac 0 = Some f /\
     let v := (this f * (2 / 13))%Q in near_boys 0 (169 # 4) v (v / inject_Z (10 ^ 17))).
Proof. exact factors_ok. Qed.
Print Assumptions C54_factors.

(** ... but the formula is used from x = 36.5 on whatever the order.  At x = 36.6025, with exact square root and
    power and an exp good to 10^-15, the highest order and F_0 of a class with total angular momentum 8, 16, 24
    are off by more than the fraction 1 / r of their value. *)
Theorem C54_accuracy_refuted : forall n r,
  In (n, r) [(8, 200000000%Z); (16, 15000%Z); (24, 100%Z)] ->
  exists F v w, split 1 false false l_sqrt l_exp l_pow shortgrid longfac (fun _ => Q2Qc (14641 # 400)) n (repeat 0%Qc (n + 1)) = Some F /\
    nth_error F n = Some v /\ nth_error F 0 = Some w /\
    ~ near_boys n (14641 # 400) (this v) (this v / inject_Z r) /\ ~ near_boys 0 (14641 # 400) (this w) (this w / inject_Z r).
Proof. exact long_range_wrong. Qed.
Print Assumptions C54_accuracy_refuted.

Example C54_functions_exact : (forall n, In n [4; 6; 8; 16; 24] -> pow_sqrt_ok l_sqrt l_pow lx n) /\ (l_sqrt (1 / lx) * l_sqrt (1 / lx) = 1 / lx)%Qc /\
  near_exp (this lx) (this (l_exp (- lx)%Qc)) (1 / inject_Z (10 ^ 15) * this (l_exp (- lx)%Qc)).
Proof. exact (conj l_pow_ok (conj l_sqrt_ok (proj2 l_exp_ok))). Qed.

(** Up to order three, where every order is evaluated directly, the error at the same point is small. *)
Theorem C54_low_orders : forall k r,
  In (k, r) [(0, (10 ^ 15)%Z); (1, (10 ^ 14)%Z); (2, (10 ^ 13)%Z); (3, (10 ^ 12)%Z)] ->
  exists F v, split 1 false false l_sqrt l_exp l_pow shortgrid longfac (fun _ => Q2Qc (14641 # 400)) 3 (repeat 0%Qc 4) = Some F /\
    nth_error F k = Some v /\ near_boys k (14641 # 400) (this v) (this v / inject_Z r).
Proof. exact long_range_low. Qed.
Print Assumptions C54_low_orders.
