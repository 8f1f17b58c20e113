(** The Boys function.
    Source: skel/simint/boys/boys.h:14-92, boys_taylor.h:11-136, boys_long.h:13-58,
    boys_shortgrid.h, boys_longfac.h.

    Values are exact rational numbers ([Qc]); rounding, infinities and NaN are not modelled.
    [sqrt], [pow] and [exp] are parameters.  The table [g] (366 rows of 32 values) and the factors
    [fac] (32 values) are parameters too; the actual numbers are in BoysTable.  A read outside
    a row of the table, outside the factors, or a write outside [F] gives [None] (undefined
    behaviour). *)
From Coq Require Import List Arith ZArith QArith Qround Qcanon Lia Lqa Bool Factorial.
Import ListNotations.
From Verif Require Import Base GenHRR GenVRR.
Set Implicit Arguments.
Local Open Scope nat_scope.

Definition qz (z : Z) : Qc := Q2Qc (inject_Z z).
Definition qn (n : nat) : Qc := qz (Z.of_nat n).
(** [a < b]. *)
Definition qcltb (a b : Qc) : bool := negb (Qle_bool (this b) (this a)).
(** C conversion of a double to int: towards zero. *)
Definition trunc (q : Q) : Z := if Qle_bool 0 q then Qfloor q else Qceiling q.

(** BOYS_SHORTGRID_MAXX, _SPACE, _LOOKUPFAC, _LOOKUPFAC2, _NPOINT, _MAXN + 1 of
    boys_shortgrid.h; BOYS_LONGFAC_MAXN + 1 of boys_longfac.h. *)
Definition MAXX : Qc := Q2Qc (73 # 2).
Definition SPACE : Qc := Q2Qc (1 # 10).
Definition LOOKUPFAC : Qc := Q2Qc 10.
Definition LOOKUPFAC2 : Qc := Q2Qc (1 # 20).
Definition NPOINT := 366.
Definition NCOL := 32.
Definition NFAC := 32.

(** boys_taylor.h:17-19. *)
Definition lookup (x : Qc) : Z := trunc (this (LOOKUPFAC * (x + LOOKUPFAC2))%Qc).
Definition shift (x : Qc) : Qc := (qz (lookup x) * SPACE - x)%Qc.

(** [boys_shortgrid[i][j]]. *)
Definition rd_grid (g : list (list Qc)) (i : Z) (j : nat) : option Qc :=
  if (0 <=? i)%Z then r <- nth_error g (Z.to_nat i) ;; nth_error r j else None.
(** The same address computed in the flat memory of the table, as a compiled program does it. *)
Definition rd_flat (g : list (list Qc)) (i : Z) (j : nat) : option Qc :=
  if (0 <=? i)%Z then nth_error (concat g) (Z.to_nat i * NCOL + j) else None.

(** boys_taylor.h:30-38 (and 51-59, 88-96, 124-132). *)
Definition horner (dx g0 g1 g2 g3 g4 g5 g6 g7 : Qc) : Qc :=
  (g0 + dx * (g1 + dx * (Q2Qc (1#2) * g2 + dx * (Q2Qc (1#6) * g3 + dx * (Q2Qc (1#24) * g4
   + dx * (Q2Qc (1#120) * g5 + dx * (Q2Qc (1#720) * g6 + dx * (Q2Qc (1#5040) * g7))))))))%Qc.

(** One order of boys_F_taylor, boys_F_taylor_vec (lines 17-38, 78-96), and
    boys_F_taylor_single, boys_F_taylor_single_vec (lines 45-59, 118-132): the row pointer plus
    the order, eight consecutive reads. *)
Definition taylor_with (rd : Z -> nat -> option Qc) (x : Qc) (n : nat) : option Qc :=
  let i := lookup x in
  g0 <- rd i (n + 0) ;; g1 <- rd i (n + 1) ;; g2 <- rd i (n + 2) ;; g3 <- rd i (n + 3) ;;
  g4 <- rd i (n + 4) ;; g5 <- rd i (n + 5) ;; g6 <- rd i (n + 6) ;; g7 <- rd i (n + 7) ;;
  Some (horner (shift x) g0 g1 g2 g3 g4 g5 g6 g7).

Section Boys.
Variable len : nat.                       (* SIMINT_SIMD_LEN *)
Variable zf : bool.                       (* vector_max starts from 0 (SSE) *)
Variable novec : bool.                    (* SIMINT_BOYS_NOVECTOR *)
Variables (qsqrt qexp : Qc -> Qc) (qpow : Qc -> Qc -> Qc).
Variable g : list (list Qc).
Variable fac : list Qc.

Definition taylor : Qc -> nat -> option Qc := taylor_with (rd_grid g).

(** boys_taylor.h:26-39 into [F + base]: order [i] goes to [i * len]. *)
Definition taylor_writes (base : nat) (x : Qc) (n : nat) : option (list (nat * Qc)) :=
  mapM (fun i => v <- taylor x i ;; Some (base + i * len, v)) (seq 0 (S n)).

(** boys_long.h:19-24 (and 43-48): [x2] is multiplied by [x1] after each order. *)
Fixpoint long_loop (base i k : nat) (x1 x2 : Qc) : option (list (nat * Qc)) :=
  match k with
  | 0 => Some []
  | S k' => f <- nth_error fac i ;;
            r <- long_loop base (S i) k' x1 (x2 * x1)%Qc ;;
            Some ((base + i * len, (f * x2)%Qc) :: r)
  end.
(** boys_long.h:14-25. *)
Definition long_writes (base : nat) (x : Qc) (n : nat) : option (list (nat * Qc)) :=
  let x1 := (1 / x)%Qc in long_loop base 0 (S n) x1 (qsqrt x1).
(** boys_long.h:27-33. *)
Definition long_single (x : Qc) (n : nat) : option Qc :=
  f <- nth_error fac n ;; Some (f * qsqrt (qpow x (qz (- (2 * Z.of_nat n + 1)))))%Qc.
(** boys_long.h:51-58. *)
Definition long_single_vec (x : Qc) (n : nat) : option Qc :=
  f <- nth_error fac n ;; Some (f * qpow x (- (qn n + Q2Qc (1 # 2))))%Qc.

(** [vector_min], [vector_max] of skel/simint/vectorization/intrinsics_*.h. *)
Definition vmin (xs : nat -> Qc) : Qc :=
  fold_left (fun m v => if qcltb v m then v else m) (map xs (seq 1 (len - 1))) (xs 0).
Definition vmax (xs : nat -> Qc) : Qc :=
  let up := fun m v => if qcltb m v then v else m in
  if zf then fold_left up (map xs (seq 0 len)) 0%Qc
  else fold_left up (map xs (seq 1 (len - 1))) (xs 0).

Definition lanes (f : nat -> option (list (nat * Qc))) : option (list (nat * Qc)) :=
  concatM f (seq 0 len).

(** boys.h:14-40 as the sequence of stores.  boys_F_long_vec stores all lanes of an order
    together; here the stores are listed lane by lane (all addresses differ). *)
Definition small_n (xs : nat -> Qc) (n : nat) : option (list (nat * Qc)) :=
  if negb novec && qcltb MAXX (vmin xs) then lanes (fun v => long_writes v (xs v) n)
  else if negb novec && qcltb (vmax xs) MAXX then lanes (fun v => taylor_writes v (xs v) n)
  else lanes (fun v => if qcltb (xs v) MAXX then taylor_writes v (xs v) n
                       else long_writes v (xs v) n).

(** boys.h:50-67: the stores of the highest order. *)
Definition top_n (xs : nat -> Qc) (n : nat) : option (list (nat * Qc)) :=
  let one := fun v o => match o with Some y => Some [(v + n * len, y)] | None => None end in
  if negb novec && qcltb MAXX (vmin xs) then lanes (fun v => one v (long_single_vec (xs v) n))
  else if negb novec && qcltb (vmax xs) MAXX then lanes (fun v => one v (taylor (xs v) n))
  else lanes (fun v => one v (if qcltb (xs v) MAXX then taylor (xs v) n
                              else long_single (xs v) n)).

(** Stores into [F]. *)
Fixpoint stores (F : list Qc) (l : list (nat * Qc)) : option (list Qc) :=
  match l with
  | [] => Some F
  | (p, v) :: r => if p <? length F then stores (upd F p v) r else None
  end.

(** boys.h:76-79, one order for all lanes. *)
Definition recur_step (xs : nat -> Qc) (n2 : nat) (F : list Qc) : option (list Qc) :=
  let den := (1 / (Q2Qc 2 * qn n2 + 1))%Qc in
  w <- mapM (fun v =>
         y <- nth_error F (v + (n2 + 1) * len) ;;
         Some (v + n2 * len, (den * ((Q2Qc 2 * xs v) * y + qexp (- xs v)))%Qc)) (seq 0 len) ;;
  stores F w.
(** boys.h:74-80. *)
Fixpoint recur_down (xs : nat -> Qc) (n : nat) (F : list Qc) : option (list Qc) :=
  match n with
  | 0 => Some F
  | S n2 => F' <- recur_step xs n2 F ;; recur_down xs n2 F'
  end.
(** boys.h:43-81. *)
Definition large_n (xs : nat -> Qc) (n : nat) (F : list Qc) : option (list Qc) :=
  w <- top_n xs n ;; F' <- stores F w ;; recur_down xs n F'.
(** boys.h:83-92. *)
Definition split (xs : nat -> Qc) (n : nat) (F : list Qc) : option (list Qc) :=
  if n <? 4 then w <- small_n xs n ;; stores F w else large_n xs n F.

(** * Specification *)
(** The table has the announced shape. *)
Definition table_ok : Prop := length g = NPOINT /\ forall r, In r g -> length r = NCOL.
(** [v] is the eight-term Taylor expansion of order [n] at [x] around a grid point at most half a
    step away: sum of (xi - x)^j / j! times the stored value of order [n + j]. *)
Definition expansion (x : Qc) (n : nat) (v : Qc) : Prop :=
  exists (i : nat) (row : list Qc) (T : nat -> Qc),
    (i < 366)%nat /\ nth_error g i = Some row /\
    (forall j, (j < 8)%nat -> nth_error row (n + j) = Some (T j)) /\
    let d := (qn i / Q2Qc 10 - x)%Qc in
    (- Q2Qc (1#20) <= d <= Q2Qc (1#20))%Qc /\
    v = fold_right Qcplus 0%Qc (map (fun j => (d ^ j / qn (fact j) * T j)%Qc) (seq 0 8)).
(** [v] is the long-range value of order [n] at [x]: factor times x^-(n+1/2). *)
Definition long_range (x : Qc) (n : nat) (v : Qc) : Prop :=
  exists f, nth_error fac n = Some f /\ v = (f * (qsqrt (1 / x) * (1 / x) ^ n))%Qc.
(** What lane value [v] of order [n] evaluated without recursion has to be. *)
Definition direct (x : Qc) (n : nat) (v : Qc) : Prop :=
  ((x < Q2Qc (73#2))%Qc -> expansion x n v) /\ ((Q2Qc (73#2) <= x)%Qc -> long_range x n v).
(** [B] satisfies the downward recursion of the Boys function below [n]. *)
Definition boys_recursion (x : Qc) (n : nat) (B : nat -> Qc) : Prop :=
  forall k, k < n -> ((Q2Qc 2 * qn k + 1) * B k = Q2Qc 2 * x * B (S k) + qexp (- x))%Qc.
(** [sqrt] and [pow] at the points the single-order long-range routines use them. *)
Definition pow_sqrt_ok (x : Qc) (n : nat) : Prop :=
  qsqrt (qpow x (qz (- (2 * Z.of_nat n + 1)))) = (qsqrt (1 / x) * (1 / x) ^ n)%Qc /\
  qpow x (- (qn n + Q2Qc (1#2)))%Qc = (qsqrt (1 / x) * (1 / x) ^ n)%Qc.
End Boys.
