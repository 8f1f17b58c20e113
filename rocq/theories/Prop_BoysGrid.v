(** C76: the script that writes the table of the Boys function, python/boys/gen_boys_shortgrid.py. *)
From Coq Require Import List Arith ZArith QArith Qabs Qround.
Import ListNotations.
From Verif Require Import Boys BoysGrid BoysGridProof.

(** C76.  Let the largest argument divided by the spacing be an integer plus a fraction [qfrac].  Without rounding, the table serves every
    argument the library looks up in it if the fraction is above 0 and not above 1/2: the row read exists and is the one the script
    computed for the nearest point. *)
Theorem C76_serves : forall inc maxx V (zero : V) F ncol fuel, (0 < inc)%Q -> (0 <= maxx)%Q -> (Z.to_nat (Qceiling (maxx / inc)) < fuel)%nat ->
  (0 < maxx / inc - inject_Z (Qfloor (maxx / inc)))%Q -> (maxx / inc - inject_Z (Qfloor (maxx / inc)) <= 1 # 2)%Q ->
  exists t, table_q zero F ncol inc maxx fuel = Some t /\ length t = npoints_q inc maxx /\
  forall x, (0 <= x)%Q -> (x < maxx)%Q -> exists i p, lookup_q inc x = Z.of_nat i /\ nth_error t i = Some (F p) /\
    (p == inject_Z (Z.of_nat i) * inc)%Q /\ (Qabs (p - x) <= (1 # 2) * inc)%Q.
Proof. intros inc maxx V zero F ncol fuel Hi Hm Hf H1 H2. exact (table_serves inc maxx Hi Hm V zero F ncol fuel Hf H1 H2). Qed.
Print Assumptions C76_serves.
(** Not for a largest argument that is a multiple of the spacing: the last row declared is not written, so it is zero, and it is looked up. *)
Theorem C76_multiple_refuted : forall inc maxx V (zero : V) F ncol fuel, (0 < inc)%Q -> (0 <= maxx)%Q -> (Z.to_nat (Qceiling (maxx / inc)) < fuel)%nat ->
  (maxx / inc - inject_Z (Qfloor (maxx / inc)) == 0)%Q -> (inc <= maxx)%Q ->
  exists t x i, table_q zero F ncol inc maxx fuel = Some t /\ (0 <= x)%Q /\ (x < maxx)%Q /\
    lookup_q inc x = Z.of_nat i /\ nth_error t i = Some (repeat zero ncol).
Proof. intros inc maxx V zero F ncol fuel Hi Hm Hf H1 H2. exact (table_zero_row inc maxx Hi Hm V zero F ncol fuel Hf H1 H2). Qed.
Print Assumptions C76_multiple_refuted.
(** Nor for a fraction above 1/2: an argument below the largest one is looked up past the end of the table. *)
Theorem C76_fraction_refuted : forall inc maxx V (zero : V) F ncol fuel, (0 < inc)%Q -> (0 <= maxx)%Q -> (Z.to_nat (Qceiling (maxx / inc)) < fuel)%nat ->
  (1 # 2 < maxx / inc - inject_Z (Qfloor (maxx / inc)))%Q ->
  exists t x i, table_q zero F ncol inc maxx fuel = Some t /\ (0 <= x)%Q /\ (x < maxx)%Q /\
    lookup_q inc x = Z.of_nat i /\ nth_error t i = None.
Proof. intros inc maxx V zero F ncol fuel Hi Hm Hf H1. exact (table_past inc maxx Hi Hm V zero F ncol fuel Hf H1). Qed.
Print Assumptions C76_fraction_refuted.
(** The table of the library was made for such a multiple, 36.5 and 0.1.  It is complete because in binary numbers of 854 bits the sum of
    365 tenths is below 36.5. *)
Theorem C76_shipped : forall V (zero : V) F ncol fuel, (367 <= fuel)%nat ->
  exists t, table_mp zero F ncol prec256 (1, 10)%Z (73, 2)%Z fuel = Some t /\ length t = 366%nat /\
  forall x, (0 <= x)%Q -> (x < 73 # 2)%Q -> exists i p, lookup_q (1 # 10) x = Z.of_nat i /\ nth_error t i = Some (F p) /\
    (Qabs (p - inject_Z (Z.of_nat i) * (1 # 10)) <= 1 # 2 ^ 800)%Q.
Proof. exact shipped_serves. Qed.
Print Assumptions C76_shipped.
(** In the same numbers a largest argument that is no multiple of the spacing, 1.24 and 0.1, gives a complete table of 13 rows. *)
Theorem C76_between : forall V (zero : V) F ncol fuel, (14 <= fuel)%nat ->
  exists t, table_mp zero F ncol prec256 (1, 10)%Z (31, 25)%Z fuel = Some t /\ length t = 13%nat /\
  forall x, (0 <= x)%Q -> (x < 31 # 25)%Q -> exists i p, lookup_q (1 # 10) x = Z.of_nat i /\ nth_error t i = Some (F p) /\
    (Qabs (p - inject_Z (Z.of_nat i) * (1 # 10)) <= 1 # 2 ^ 800)%Q.
Proof. exact between_serves. Qed.
Print Assumptions C76_between.
(** With other arguments the same script leaves the last row zero: spacing 0.1 up to 43, spacing 0.125 up to 36.5. *)
Theorem C76_rounded_refuted : forall V (zero : V) F ncol fuel, (500 <= fuel)%nat ->
  (exists t i, table_mp zero F ncol prec256 (1, 10)%Z (43, 1)%Z fuel = Some t /\ lookup_q (1 # 10) (4296 # 100) = Z.of_nat i /\ nth_error t i = Some (repeat zero ncol)) /\
  (exists t i, table_mp zero F ncol prec256 (1, 8)%Z (73, 2)%Z fuel = Some t /\ lookup_q (1 # 8) (3645 # 100) = Z.of_nat i /\ nth_error t i = Some (repeat zero ncol)).
Proof. exact other_arguments. Qed.
Print Assumptions C76_rounded_refuted.
(** Spacing 1/2: up to 1.25 three rows for three declared, up to 1 two for three, up to 1.4 the argument 1.3 is past the table. *)
Example C76_example : table_q 0%nat (fun x => [1%nat]) 1 (1 # 2) (5 # 4) 9 = Some [[1]; [1]; [1]]%nat /\
  table_q 0%nat (fun x => [1%nat]) 1 (1 # 2) 1 9 = Some [[1]; [1]; [0]]%nat /\ lookup_q (1 # 2) (4 # 5) = 2%Z /\
  table_q 0%nat (fun x => [1%nat]) 1 (1 # 2) (7 # 5) 9 = Some [[1]; [1]; [1]]%nat /\ lookup_q (1 # 2) (13 # 10) = 3%Z.
Proof. vm_compute. repeat split. Qed.
