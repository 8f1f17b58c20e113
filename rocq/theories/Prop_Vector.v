(** C80: the operations of the vector headers. *)
From Coq Require Import List Arith QArith.
Import ListNotations.
From Verif Require Import Base Kernel Vector.
Local Open Scope nat_scope.

(** The macros of every header do to each lane what their names say. *)
Theorem C80_macros : forall (R : cring) (rdiv : R -> R -> R) (rsqrt : R -> R) x (a b c : nat -> R) n,
  NEG x a n = copp (a n) /\ ADD x a b n = cadd (a n) (b n) /\ SUB x a b n = csub (a n) (b n) /\
  MUL x a b n = cmul (a n) (b n) /\ DIV rdiv x a b n = rdiv (a n) (b n) /\ SQRT rsqrt x a n = rsqrt (a n) /\
  FMADD x a b c n = cadd (cmul (a n) (b n)) (c n) /\ FMSUB x a b c n = csub (cmul (a n) (b n)) (c n).
Proof. exact @macros. Qed.
Print Assumptions C80_macros.

(** mask_load: the first lanes from memory, zeros behind them ... *)
Theorem C80_mask : forall (R : cring) x len nlane k (m : list R),
  (x = Scalar -> len = 1) -> 0 < len -> nlane <= len -> k + len <= length m ->
  exists v, mask_load x len nlane k m = Some v /\
    forall n, n < len -> v n = if n <? nlane then nth (k + n) m c0 else c0.
Proof. exact @mask_load_ok. Qed.
Print Assumptions C80_mask.
(** ... but, except for two headers, all lanes are read: the padding of the arrays is needed. *)
Theorem C80_mask_reads : forall (R : cring) x len nlane k (m : list R), x <> Scalar -> x <> SVE -> length m < k + len ->
  mask_load x len nlane k m = None.
Proof. exact @mask_load_short. Qed.
Print Assumptions C80_mask_reads.

(** Smallest and largest lane; that of the SSE header is a lane only if one of them is not negative. *)
Theorem C80_min : forall x len f, 0 < len ->
  (forall n, n < len -> (vmin x len f <= f n)%Q) /\ exists n, n < len /\ vmin x len f = f n.
Proof. exact vmin_ok. Qed.
Print Assumptions C80_min.
Theorem C80_max : forall x len f, 0 < len ->
  (forall n, n < len -> (f n <= vmax x len f)%Q) /\
  ((forall b, x <> SSE b) \/ (exists n, n < len /\ (0 <= f n)%Q) -> exists n, n < len /\ (vmax x len f == f n)%Q).
Proof. exact vmax_ok. Qed.
Print Assumptions C80_max.
Theorem C80_max_refuted : forall b, exists len f, 0 < len /\ forall n, n < len -> ~ (vmax (SSE b) len f == f n)%Q.
Proof. exact vmax_sse. Qed.
Print Assumptions C80_max_refuted.

Example C80_example :
  map (FMSUB ASIMD (ex_vec 2 3) (ex_vec 5 7) (ex_vec 11 13)) [0; 1] = [-1; 8]%Z /\
  map (NEG AVX512 (ex_vec 4 (-9))) [0; 1] = [-4; 9]%Z /\
  option_map (fun v => map v [0; 1; 2; 3]) (mask_load (AVX true) 4 3 1 ([1; 2; 3; 4; 5]%Z : list Zring)) = Some [2; 3; 4; 0]%Z /\
  option_map (fun v => map v [0; 1; 2; 3]) (mask_load SVE 4 3 1 ([1; 2; 3; 4]%Z : list Zring)) = Some [2; 3; 4; 0]%Z /\
  mask_load (AVX true) 4 3 1 ([1; 2; 3; 4]%Z : list Zring) = None.
Proof. vm_compute. repeat split. Qed.
