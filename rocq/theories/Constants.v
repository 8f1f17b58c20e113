(** Numerical constants.
    Source: skel/simint/constants.h:3-12, skel/simint/shell/shell_constants.c:14-37 (written by
    python/gen_shellconstants.py:33-42).
    The literals are given exactly as rational numbers; their conversion to double is not modelled.  The true
    values are real numbers of the standard library. *)
From Coq Require Import List ZArith QArith Reals Qreals.
Import ListNotations.
From Verif Require Import Base.
Local Open Scope nat_scope.

(** constants.h:3, 6, 9, 12. *)
Definition lit_PI : Q := 3.141592653589793238462643383279502884197169399375105820974944592.
Definition lit_TWO_PI_52 : Q := 34.98683665524972569252564335974310755751022356348836075523484.
Definition lit_SQRT_TWO_PI_52 : Q := 5.91496717279561287782347843505365022963403204272156069835237.
Definition lit_SQRT_TWO_TIMES_PI_52 : Q := 24.739429451193148050228357586821944304008810699990039583.
(** shell_constants.c:16-36. *)
Definition norm_fac : list Q :=
  [5.56832799683170785; 2.78416399841585392; 4.17624599762378088; 10.4406149940594522; 36.5421524792080827;
   164.439686156436372; 904.418273860400048; 5878.71878009260031; 44090.3908506945023; 374768.32223090327;
   3560299.06119358106; 37383140.1425326012; 429906111.639124913; 5373826395.48906142; 72546656339.1023291;
   1051926516916.98377; 16304861012213.2485; 269030206701518.6; 4708028617276575.5; 87098529419616646.7;
   1.69842132368252461e+18]%Q.

(** The numbers they stand for. *)
Local Open Scope R_scope.
Definition pi52 : R := Rpower PI (5 / 2).
(** (2l-1)!! *)
Fixpoint odd_fact (l : nat) : Z := match l with 0%nat => 1%Z | S k => ((2 * Z.of_nat k + 1) * odd_fact k)%Z end.
(** pi^(3/2) (2l-1)!! / 2^l, the integral of x^(2l) exp(-r^2) over all space. *)
Definition norm_exact (l : nat) : R := Rpower PI (3 / 2) * IZR (odd_fact l) / 2 ^ l.
(** The real number is within [e] of the literal. *)
Definition near (e : Q) (lit : Q) (x : R) : Prop := Rabs (x - Q2R lit) <= Q2R e.
(** Half a unit of the [k]-th decimal (of the [-k]-th digit before the point). *)
Definition half_unit (k : Z) : Q := if (0 <=? k)%Z then 1 # Z.to_pos (2 * 10 ^ k) else inject_Z (10 ^ (- k) / 2).
(** Decimals of the 18th significant digit of the table entries. *)
Definition norm_decimals : list Z := [17; 17; 17; 16; 16; 15; 15; 14; 13; 12; 11; 10; 9; 8; 7; 5; 4; 3; 2; 1; -1]%Z.
Definition long_decimals : list Z := [18; 18; 18; 17; 17; 16; 15; 15; 14; 13; 12; 11; 10; 9; 7; 6; 5; 4; 3; 1; 0; -1; -3; -4; -5; -7; -8; -10; -11; -12; -14; -15]%Z.
(** sqrt(pi) (2n-1)!! / 2^(n+1), boys_longfac.h:5; the table itself is in [BoysData]. *)
Definition long_exact (n : nat) : R := sqrt PI * IZR (odd_fact n) / 2 ^ (n + 1).
(** 10^k. *)
Definition dec_scale (k : Z) : Q := if (0 <=? k)%Z then inject_Z (10 ^ k) else 1 # Z.to_pos (10 ^ (- k)).
