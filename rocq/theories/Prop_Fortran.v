(** C75: the Fortran interface. *)
From Coq Require Import List Arith ZArith String.
Import ListNotations.
From Verif Require Import Fortran FortranProof.
Local Open Scope string_scope.
Local Open Scope list_scope.
Local Open Scope nat_scope.

(** The type of a shell agrees with the structure of the library on every machine. *)
Theorem C75_shell : forall (a : abi) (fpp : bool) (maxder : nat),
  (forall n, offset_of a (f_shell fpp maxder) n = offset_of a (c_shell maxder) n) /\
  struct_size a (f_shell fpp maxder) = struct_size a (c_shell maxder).
Proof. exact shell_agrees. Qed.
Print Assumptions C75_shell.

(** That of a pair does exactly if the file is preprocessed or derivatives are built. *)
Theorem C75_pair : forall (a : abi) (fpp : bool) (maxder : nat),
  (forall n, offset_of a (f_pair fpp maxder) n = offset_of a (c_pair maxder) n) <-> fpp = true \/ 0 < maxder.
Proof. exact agrees_iff. Qed.
Print Assumptions C75_pair.

(** And then every pair of an array that was initialised can be created and freed. *)
Theorem C75_arrays : forall (a : abi) (fpp : bool) (maxder : nat), fpp = true \/ 0 < maxder ->
  struct_size a (f_pair fpp maxder) = struct_size a (c_pair maxder) /\
  forall n i b, i < n -> In b (needed a fpp maxder i) -> In b (initialised a maxder n).
Proof. exact arrays_ok. Qed.
Print Assumptions C75_arrays.

(** Otherwise (GNU compilers, no derivatives) not: whatever the number of pairs, if there are two or more. *)
Theorem C75_arrays_refuted : forall n, 2 <= n -> exists b, In b (needed lp64 false 0 (n - 1)) /\ ~ In b (initialised lp64 0 n).
Proof. exact arrays_wrong. Qed.
Print Assumptions C75_arrays_refuted.

(** And what example_water_spsp.f90 follows as the pointer [prefac] is the floating-point number [screen_max]. *)
Theorem C75_prefac_refuted : forall (a : abi) w, sz a TPtr = w -> al a TPtr = w -> sz a TDouble = w -> al a TDouble = w ->
  exists o, offset_of a (f_pair false 0) "prefac" = Some (o, TPtr) /\ offset_of a (c_pair 0) "screen_max" = Some (o, TDouble).
Proof. exact prefac_is_screen_max. Qed.
Print Assumptions C75_prefac_refuted.

(** Every function named by the interface is called with the types of the library, and all of the list are named. *)
Theorem C75_prototypes : (forall b, In b f_bodies -> exists p, called b = Some p /\ In p c_functions) /\
  (forall p, In p c_functions -> exists b, In b f_bodies /\ b_name b = fst p).
Proof. exact prototypes_agree. Qed.
Print Assumptions C75_prototypes.

(** The sizes of the workspace come through exactly if they are below 2^31. *)
Theorem C75_worksize : forall v, (0 <= v)%Z -> (f_worksize v = Some v <-> (v < 2 ^ 31)%Z) /\ (f_workmem v = Some v <-> (v < 2 ^ 31)%Z).
Proof. exact worksize_exact. Qed.
Print Assumptions C75_worksize.

(** Pairs made from one list of shells: right for a contiguous argument, read outside of the copy for another one. *)
Theorem C75_create2 : forall (A : Type) (n : nat) (sel : list A) (x0 : A), 2 * n <= List.length sel ->
  exists r, f_create2 A true n sel = Some r /\ List.length r = n /\
    forall i, i < n -> nth i r (x0, x0) = (nth (2 * i) sel x0, nth (2 * i + 1) sel x0).
Proof. exact create2_ok. Qed.
Print Assumptions C75_create2.
Theorem C75_create2_refuted : forall (A : Type) (n : nat) (sel : list A), 0 < n -> f_create2 A false n sel = None.
Proof. exact create2_copied. Qed.
Print Assumptions C75_create2_refuted.

(** [simint_copy_shell], and no other, has its destination undefined while the library reads it. *)
Theorem C75_intents : forall n w, In (n, w) wrappers -> (undefined_read w = true <-> n = "simint_copy_shell").
Proof. exact intents. Qed.
Print Assumptions C75_intents.

Example C75_example : offset_of lp64 (c_pair 0) "prefac" = Some (136, TPtr) /\ offset_of lp64 (f_pair false 0) "prefac" = Some (152, TPtr) /\
  offset_of lp64 (c_pair 0) "screen_max" = Some (152, TDouble) /\ struct_size lp64 (f_pair false 0) = 192 /\ struct_size lp64 (c_pair 1) = 192.
Proof. repeat split; vm_compute; reflexivity. Qed.
