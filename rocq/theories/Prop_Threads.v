From Coq Require Import List Arith ZArith.
Import ListNotations.
From Verif Require Import Cart MolFile Threads.
Set Implicit Arguments.
Local Open Scope nat_scope.

(** C82: the parallel loops of the test programs.  The tests of the repulsion integrals and of their
    derivatives: no two threads race, for every molecule, whichever momenta it has, and every assignment of
    iterations to threads.  Momenta without shells are added to the map before the loops. *)
Theorem C82_eri : forall V (m : shellmap V) factor limit ws c,
  In c (eri_loops (shell_count m) (map fst m) (quartets (t_maxam limit (find_max m)))) ->
  eri_loop_free (shell_count m) (eri_area m factor limit) ws ncart factor c.
Proof. exact mol_eri_free. Qed.
Print Assumptions C82_eri.
Example C82_eri_example :
  nth_error (eri_loops (shell_count mol_sd) (map fst mol_sd) (quartets 2)) 3 =
    Some ([0; 1; 0; 0; 2; 0; 0; 0; 1; 0; 0; 0; 0; 0; 0; 2], (0, 0, 1, 0)) /\
  List.length (eri_body (shell_count mol_sd) (eri_area mol_sd 1 4) 10 ncart 1 [0; 2] 0 0 0 2 1 1) = 146.
Proof. vm_compute. split; reflexivity. Qed.

(** The tests of the one-electron integrals: exactly if no momentum below the highest is without shells. *)
Theorem C82_one : forall V (m : shellmap V), 1 <= fst (find_max m) ->
  (race_free (seq 0 (S (fst (find_max m)))) (one_body (shell_count m) (o_maxsize (find_max m)) ncart (map fst m) (fst (find_max m))) <->
   forall am, am <= fst (find_max m) -> In am (map fst m)).
Proof. exact mol_one_iff. Qed.
Print Assumptions C82_one.
Example C82_one_example : map fst mol_sp = seq 0 (S (fst (find_max mol_sp))) /\
  List.length (one_body (shell_count mol_sp) (o_maxsize (find_max mol_sp)) ncart [0; 1] 1 0 1) = 54.
Proof. vm_compute. split; reflexivity. Qed.

Theorem C82_one_refuted : ~ forall (m : shellmap unit), (forall p, In p m -> snd p <> []) ->
  race_free (seq 0 (S (fst (find_max m)))) (one_body (shell_count m) (o_maxsize (find_max m)) ncart (map fst m) (fst (find_max m))).
Proof. exact mol_one_refuted. Qed.
Print Assumptions C82_one_refuted.

(** The benchmark: no race on anything but the times; the times race as soon as the bra has two pairs. *)
Theorem C82_benchmark : forall V (m : shellmap V) limit ws validate i j k l,
  i <= t_maxam limit (find_max m) -> j <= t_maxam limit (find_max m) ->
  race_free (seq 0 (shell_count m i * shell_count m j)) (bench_untimed (shell_count m) (eri_area m 1 limit) ws ncart 1 validate i j k l).
Proof. exact mol_bench_free. Qed.
Print Assumptions C82_benchmark.
Example C82_benchmark_example :
  List.length (bench_untimed (shell_count mol_sp) (eri_area mol_sp 1 1) 10 ncart 1 true 0 0 1 0 1 1) = 31.
Proof. reflexivity. Qed.

Theorem C82_benchmark_times : forall V (m : shellmap V) limit ws validate i j k l,
  race_free (seq 0 (shell_count m i * shell_count m j)) (bench_body (shell_count m) (eri_area m 1 limit) ws ncart 1 validate i j k l) <->
  shell_count m i * shell_count m j <= 1.
Proof. exact mol_bench_iff. Qed.
Print Assumptions C82_benchmark_times.
Example C82_benchmark_times_example : shell_count mol_sp 0 * shell_count mol_sp 0 = 4.
Proof. reflexivity. Qed.
