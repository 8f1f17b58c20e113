(** The script that writes the table of the Boys function.
    Source: python/boys/gen_boys_shortgrid.py:26-41 (points), 59-66 (the array), 72-77 (the constants of the header), and
    the lookup of skel/simint/boys/boys_taylor.h:17-21.
    The script works with numbers of the mpmath library (arbitrary precision binary floating point): they are modelled once as
    rational numbers without rounding and once as binary numbers rounded to nearest even after every operation.  How the library
    prints numbers is not modelled: the macros of the header are taken to be the numbers themselves. *)
From Coq Require Import List Bool Arith ZArith QArith Qround Lia.
Import ListNotations.
From Verif Require Import Base Boys.

(** The loop of lines 37-41, for any kind of numbers; [None] if [fuel] is too small. *)
Fixpoint grid {T : Type} (add : T -> T -> T) (ltb : T -> T -> bool) (inc maxx : T) (fuel : nat) (x : T) : option (list T) :=
  match fuel with
  | O => None
  | S f => if ltb x maxx then option_map (cons x) (grid add ltb inc maxx f (add x inc)) else Some []
  end.

(** An array of [n] rows initialised with [rows], lines 59-66: rows that are not given are zero, too many do not compile. *)
Definition c_array {A : Type} (zero : A) (n : nat) (rows : list A) : option (list A) :=
  if (length rows <=? n)%nat then Some (rows ++ repeat zero (n - length rows)) else None.

(** ** Without rounding *)
Definition qltb (a b : Q) : bool := negb (Qle_bool b a).
(** Lines 32-41. *)
Definition grid_q (inc maxx : Q) (fuel : nat) : option (list Q) := grid Qplus qltb inc maxx fuel 0%Q.
(** Line 30. *)
Definition npoints_q (inc maxx : Q) : nat := Z.to_nat (trunc (maxx / inc) + 1).
(** boys_taylor.h:17 with the macros of lines 76-77. *)
Definition lookup_q (inc x : Q) : Z := trunc ((1 / inc) * (x + (1 # 2) * inc)).

(** ** With the numbers of mpmath: mantissa and exponent, not negative *)
Record mpf := MPF { mp_man : Z; mp_exp : Z }.
Definition mp_val (a : mpf) : Q := if (0 <=? mp_exp a)%Z then inject_Z (mp_man a * 2 ^ mp_exp a) else mp_man a # Z.to_pos (2 ^ (- mp_exp a)).
(** [n / d] rounded to an integer, to nearest, ties to even. *)
Definition rne (n d : Z) : Z :=
  let q := (n / d)%Z in let r := (2 * (n mod d))%Z in
  if (r <? d)%Z then q else if (d <? r)%Z then (q + 1)%Z else if Z.even q then q else (q + 1)%Z.
(** [n / d] for positive [n] and [d] rounded to [p] bits (the exponent by which the quotient has [p] bits). *)
Definition round_q (p n d : Z) : mpf :=
  if (n =? 0)%Z then MPF 0 0 else
  let e0 := (Z.log2 n - Z.log2 d - p)%Z in
  let sc e := if (0 <=? e)%Z then (n, d * 2 ^ e)%Z else (n * 2 ^ (- e), d)%Z in
  let e := if (2 ^ p <=? fst (sc e0) / snd (sc e0))%Z then (e0 + 1)%Z else e0 in
  MPF (rne (fst (sc e)) (snd (sc e))) e.
(** Addition, comparison and division.  Rounding an integer times a power of two drops low bits. *)
Definition align (a b : mpf) : Z * Z * Z :=
  let e := Z.min (mp_exp a) (mp_exp b) in (Z.shiftl (mp_man a) (mp_exp a - e), Z.shiftl (mp_man b) (mp_exp b - e), e).
Definition round_int (p m e : Z) : mpf :=
  let s := (Z.log2 m + 1 - p)%Z in if (s <=? 0)%Z then MPF m e else MPF (rne m (2 ^ s)) (e + s).
Definition mp_add (p : Z) (a b : mpf) : mpf := let '(x, y, e) := align a b in round_int p (x + y) e.
Definition mp_ltb (a b : mpf) : bool := let '(x, y, _) := align a b in (x <? y)%Z.
Definition mp_int_div (p : Z) (a b : mpf) : Z :=
  let '(x, y, _) := align a b in let q := round_q p x y in
  if (0 <=? mp_exp q)%Z then (mp_man q * 2 ^ mp_exp q)%Z else (mp_man q / 2 ^ (- mp_exp q))%Z.
(** Precision in bits for [--dps 256] (mpmath: (dps + 1) log2 10, rounded). *)
Definition prec256 : Z := 854.
(** Lines 26-41 for the arguments [inc] and [maxx], given as decimal fractions [n / d]. *)
Definition grid_mp (p : Z) (inc maxx : Z * Z) (fuel : nat) : option (list mpf) :=
  let i := round_q p (fst inc) (snd inc) in let m := round_q p (fst maxx) (snd maxx) in
  grid (mp_add p) mp_ltb i m fuel (MPF 0 0).
Definition npoints_mp (p : Z) (inc maxx : Z * Z) : nat :=
  let i := round_q p (fst inc) (snd inc) in let m := round_q p (fst maxx) (snd maxx) in
  Z.to_nat (mp_int_div p m i + 1).
(** The array of the file written, with rows [F x] of [ncol] entries. *)
Definition table_q {V : Type} (zero : V) (F : Q -> list V) (ncol : nat) (inc maxx : Q) (fuel : nat) : option (list (list V)) :=
  match grid_q inc maxx fuel with Some pts => c_array (repeat zero ncol) (npoints_q inc maxx) (map F pts) | None => None end.
Definition table_mp {V : Type} (zero : V) (F : Q -> list V) (ncol : nat) (p : Z) (inc maxx : Z * Z) (fuel : nat) : option (list (list V)) :=
  match grid_mp p inc maxx fuel with
  | Some pts => c_array (repeat zero ncol) (npoints_mp p inc maxx) (map (fun a => F (mp_val a)) pts)
  | None => None
  end.
