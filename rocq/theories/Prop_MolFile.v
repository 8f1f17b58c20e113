(** C73: the molecule files of the tests and the buffers sized from them. *)
From Coq Require Import List Arith ZArith String Sorting.Sorted.
Import ListNotations.
From Verif Require Import Cart Naming MolFile MolFileProof.
Local Open Scope nat_scope.

(** What gen_mol.py writes for a geometry and a basis set file is read by [ReadBasis] as these atoms and, for every angular
    momentum, the shells of that momentum in their order. *)
Theorem C73_round_trip : forall (V : Type) (bohr : V -> V) (b : list (string * list (bshell V * line V))) (ls : list (line V)) (geo : list (atom V)),
  unmarked b -> commented (bas_lines b) ls ->
  (forall sym ss, In (sym, ss) b -> forall s, In s ss -> wf_shell (fst s)) ->
  (forall a, In a geo -> basis_of b (fst a) <> None /\ symbol_at (fst a) <> None) ->
  exists f m mol, gen_mol bohr ls geo = Some f /\ read_basis f = Some (m, mol) /\
    Forall2 (fun a c => symbol_at (fst a) = Some (fst c) /\ snd c = to_bohr bohr (snd a)) geo mol /\
    StronglySorted lt (map fst m) /\ (forall p, In p m -> snd p <> []) /\
    forall am, at_am m am = filter (fun g => ms_am g =? am) (all_shells bohr b geo).
Proof. exact round_trip. Qed.
Print Assumptions C73_round_trip.

Example C73_round_trip_example :
  (unmarked ex_bas /\ commented (bas_lines ex_bas) ex_lines) /\
  match gen_mol (fun x => 2 * x) ex_lines ex_geo with
  | Some f => option_map (fun r => (at_am (fst r) 1, at_am (fst r) 2, snd r)) (read_basis f)
  | None => None
  end = Some ([MS 1 (8, 10, 12) [50; 11] [2; 4]], [MS 2 (8, 10, 12) [7] [9]], [(1, (2, 4, 6)); (8, (8, 10, 12))]).
Proof. split; [exact ex_commented|vm_compute; reflexivity]. Qed.

(** Refuted: that a file is read whatever its last character is.  Without white space at its end it is rejected. *)
Theorem C73_newline_refuted : ~ forall (toks : list (token nat)) r, read_basis (File toks true) = Some r -> read_basis (File toks false) = Some r.
Proof. exact newline_matters. Qed.
Print Assumptions C73_newline_refuted.

(** Refuted: that the fourth number of an atom counts the primitives of all contractions, as the script says. *)
Theorem C73_count_refuted : ~ forall ss : list (bshell nat), (forall s, In s ss -> wf_shell s) ->
  nprim2 ss = Some (list_sum (map (fun s => Datatypes.length (bs_rows s) * columns s) ss)).
Proof. exact count_wrong. Qed.
Print Assumptions C73_count_refuted.

(** The letters of the generator up to 6; from 7 (k) on the tests read the next higher momentum. *)
Theorem C73_letters : forall am c, am <= 24 -> letter (Z.of_nat am) = Some (String c "") ->
  ammap (up_char c) = if am <=? 6 then am else S am.
Proof. exact letters_ok. Qed.
Print Assumptions C73_letters.

Theorem C73_letters_refuted : ~ forall am c, am <= 24 -> letter (Z.of_nat am) = Some (String c "") -> ammap (up_char c) = am.
Proof. exact letters_wrong. Qed.
Print Assumptions C73_letters_refuted.

(** The buffers of the tests of the repulsion integrals hold the block of every pass. *)
Theorem C73_sizes : forall (V : Type) (m : shellmap V) (factor : Z) (limit i j k l : nat),
  i <= t_maxam limit (find_max m) -> j <= t_maxam limit (find_max m) -> (0 <= factor)%Z ->
  (Z.of_nat ((Datatypes.length (at_am m k) * Datatypes.length (at_am m l)) * (ncart i * ncart j * ncart k * ncart l)) * factor
   <= t_maxsize factor limit (find_max m))%Z.
Proof. exact eri_fits. Qed.
Print Assumptions C73_sizes.

(** And those of the tests of the one-electron integrals. *)
Theorem C73_sizes_one : forall (V : Type) (m : shellmap V) (i j : nat), at_am m i <> [] -> at_am m j <> [] ->
  ncart i * ncart j <= o_maxsize (find_max m).
Proof. exact one_fits. Qed.
Print Assumptions C73_sizes_one.

Example C73_sizes_example : (find_max camphor, t_maxsize 1 4 (find_max camphor), o_maxsize (find_max (firstn 2 camphor))) = ((4, 650), 95062500%Z, 1071).
Proof. vm_compute. reflexivity. Qed.

(** The areas of the threads are inside the buffer and apart, if the product of threads and size is an [int]. *)
Theorem C73_threads : forall nthread maxsize total, int_mul nthread maxsize = Some total -> (0 < nthread)%Z -> (0 <= maxsize)%Z ->
  (forall t, 0 <= t < nthread -> exists o, int_mul t maxsize = Some o /\ 0 <= o /\ o + maxsize <= total)%Z /\
  (forall t u o p, 0 <= t -> t < u < nthread -> int_mul t maxsize = Some o -> int_mul u maxsize = Some p -> o + maxsize <= p)%Z.
Proof. exact thread_areas. Qed.
Print Assumptions C73_threads.

Example C73_threads_example : int_mul 22 (t_maxsize 1 4 (find_max camphor)) = Some 2091375000%Z.
Proof. vm_compute. reflexivity. Qed.

(** Refuted: that it always is.  For the derivatives of one of the shipped files it is not with two threads. *)
Theorem C73_threads_refuted : ~ forall nthread (m : shellmap unit) limit, (0 < nthread <= 64)%Z -> (t_maxsize 12 limit (find_max m) < 2 ^ 31)%Z ->
  int_mul nthread (t_maxsize 12 limit (find_max m)) <> None.
Proof. exact threads_wrong. Qed.
Print Assumptions C73_threads_refuted.
