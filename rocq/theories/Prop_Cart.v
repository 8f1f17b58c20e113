(** Property theorems C01-C06, C51: Cartesian order, tables, hashing, positions,
    vector rounding. *)
From Coq Require Import List ZArith.
Import ListNotations.
From Verif Require Import Base Simd Cart Mdir OrderData RecurData Tables Recur.

(** C01.  For every angular momentum the generated order contains every component once. *)
Theorem C01_order_bijection : forall am fuel, ncart am <= fuel ->
  exists l, py_generate fuel (Z.of_nat am) = Some l /\
    2 * length l = (am + 1) * (am + 2) /\ NoDup l /\
    (forall x y z : Z, In (x, y, z) l <->
       (0 <= x /\ 0 <= y /\ 0 <= z /\ x + y + z = Z.of_nat am)%Z) /\
    (forall i x y z, nth_error l i = Some (x, y, z) ->
       (2 * Z.of_nat i = (y + z) * (y + z + 1) + 2 * z)%Z).
Proof. exact order_bijection. Qed.
Print Assumptions C01_order_bijection.

Example C01_example : py_generate 6 2 =
  Some [(2,0,0); (1,1,0); (1,0,1); (0,2,0); (0,1,1); (0,0,2)]%Z.
Proof. reflexivity. Qed.

(** C02.  Both shipped tables: complete, duplicate free, consistent with the index table. *)
Theorem C02_psi4_table : forall am, am <= 24 ->
  exists l h, tbl_at psi4_tbl_order am = Some l /\ nth_error psi4_tbl_index am = Some h /\
              table_ok am l h /\ nth_error l 0 = Some (G am 0 0) /\ h = map ghash l.
Proof. exact (tables_ok _ _ psi4_checks). Qed.
Print Assumptions C02_psi4_table.

Theorem C02_gamess_table : forall am, am <= 24 ->
  exists l h, tbl_at gamess_tbl_order am = Some l /\ nth_error gamess_tbl_index am = Some h /\
              table_ok am l h /\ nth_error l 0 = Some (G am 0 0) /\ h = map ghash l.
Proof. exact (tables_ok _ _ gamess_checks). Qed.
Print Assumptions C02_gamess_table.

Theorem C02_psi4_table_is_python_output : forall am, am <= 24 ->
  tbl_at psi4_tbl_order am = Some (cart_list am).
Proof. exact psi4_tbl_cart. Qed.
Print Assumptions C02_psi4_table_is_python_output.

Example C02_example :
  gaussian_order (nth 3 gamess_tbl_index []) (G 1 1 1) = Some 9 /\
  gaussian_order (nth 3 psi4_tbl_index []) (G 1 1 1) = Some 4.
Proof. split; reflexivity. Qed.

(** C03.  Every row of the run-time table is right; so is the generator for every L. *)
Theorem C03_runtime_table : forall g, gam g <= 18 ->
  exists r, recur_lookup (gam g) (pos g) = Some r /\ row_ok g r.
Proof. exact recur_lookup_ok. Qed.
Print Assumptions C03_runtime_table.

Theorem C03_table_generator : forall g fuel, ncart (gam g + 1) <= fuel ->
  py_generate fuel (Z.of_nat (gam g)) = Some (gmap (gam g)) /\
  exists r, nth_error (py_rows (gam g)) (pos g) = Some r /\ row_ok g r.
Proof. exact recur_generator_ok. Qed.
Print Assumptions C03_table_generator.

Theorem C03_table_fits_fields : forall r, In r recurinfo_array -> row_fits r = true.
Proof. exact (fun r => forallb_In row_fits recurinfo_array r recurinfo_fits). Qed.
Print Assumptions C03_table_fits_fields.

Example C03_example :
  recur_lookup 3 (pos (G 1 2 0)) = Some ((1,2,0), 0, (3,-1,3), (1,0,6), (-1,-1,7))%Z.
Proof. vm_compute. reflexivity. Qed.

(** C04.  Generator order and run-time tables agree for Psi4, not for GAMESS. *)
Theorem C04_psi4_orders_agree : forall g, gam g <= 18 -> orders_agree psi4_tbl_index g.
Proof. exact psi4_agrees. Qed.
Print Assumptions C04_psi4_orders_agree.

Theorem C04_gamess_orders_refuted : exists g, gam g = 2 /\ orders_disagree gamess_tbl_index g.
Proof. exact gamess_disagrees. Qed.
Print Assumptions C04_gamess_orders_refuted.

Theorem C04_gamess_differs_exactly_for_d_and_f : forall am, am <= 24 ->
  exists l, tbl_at gamess_tbl_order am = Some l /\ (l = cart_list am <-> am <> 2 /\ am <> 3).
Proof. exact gamess_differs_only_df. Qed.
Print Assumptions C04_gamess_differs_exactly_for_d_and_f.

(** C05.  The component hash. *)
Theorem C05_hash_injective : forall x y z x' y' z' : Z,
  (0 <= x < 256)%Z -> (0 <= y < 256)%Z -> (0 <= z < 256)%Z ->
  (0 <= x' < 256)%Z -> (0 <= y' < 256)%Z -> (0 <= z' < 256)%Z ->
  hash_exp x y z = hash_exp x' y' z' -> x = x' /\ y = y' /\ z = z'.
Proof. exact hash_exp_inj. Qed.
Print Assumptions C05_hash_injective.

(** The range 0..256 promised by the comment in the source is one too large. *)
Theorem C05_hash_256_refuted :
  exists x y z x' y' z' : Z,
    (0 <= x <= 256 /\ 0 <= y <= 256 /\ 0 <= z <= 256 /\
     0 <= x' <= 256 /\ 0 <= y' <= 256 /\ 0 <= z' <= 256)%Z /\
    (x, y, z) <> (x', y', z') /\ hash_exp x y z = hash_exp x' y' z'.
Proof. exact hash_collision. Qed.
Print Assumptions C05_hash_256_refuted.

Example C05_example : hash_exp 3 200 255 = 16762883%Z.
Proof. reflexivity. Qed.

(** C06.  Flattened quartet positions, for any ordering (Psi4 and GAMESS are instances). *)
Theorem C06_quartet_positions : forall (o : ordering) (c : qam),
  (forall q, qclass q = c -> qindex o q < qncart c) /\
  (forall p q, qclass p = c -> qclass q = c -> qindex o p = qindex o q -> p = q) /\
  (forall i, i < qncart c -> exists q, qclass q = c /\ qindex o q = i) /\
  (forall q, qclass q = c -> qindex o q =
     ((opos o (qa q) * ncart (am1 c) + opos o (qb q)) * ncart (am2 c)
      + opos o (qc q)) * ncart (am3 c) + opos o (qd q)).
Proof. exact quartet_positions. Qed.
Print Assumptions C06_quartet_positions.

Theorem C06_quartet_targets : forall (o : ordering) (c : qam) (q : qrt),
  starts_x o -> (In q (qtargets o c) <-> qclass q = c).
Proof. exact quartet_targets. Qed.
Print Assumptions C06_quartet_targets.

Example C06_example : starts_x psi4 /\ starts_x gamess /\
  qindex psi4 (Q4 (G 0 1 1) (G 0 1 0) (G 1 0 0) (G 0 0 2)) = 4 * 3 * 18 + 1 * 18 + 0 * 6 + 5.
Proof. split; [exact psi4_starts|]. split; [exact gamess_starts|]. reflexivity. Qed.

(** C51.  Rounding to the vector length. *)
Theorem C51_simd_round : forall k x, (0 <= k)%Z ->
  is_round_up (2 ^ k) x (simd_round_mask (2 ^ k) x).
Proof. exact simd_round_mask_spec. Qed.
Print Assumptions C51_simd_round.

Theorem C51_simd_round_nat : forall k x : nat,
  Z.of_nat (rnd (2 ^ k) x) = simd_round_mask (2 ^ Z.of_nat k) (Z.of_nat x).
Proof. exact rnd_mask. Qed.
Print Assumptions C51_simd_round_nat.

Example C51_example : simd_round_mask 8 13 = 16%Z /\ simd_round_mask 4 8 = 8%Z.
Proof. split; reflexivity. Qed.
