(** Property theorems C49: names of arrays, functions and files. *)
From Coq Require Import String List ZArith Lia.
Import ListNotations.
From Verif Require Import Base Cart VRRStep HRRAlgo Work Driver Naming.
Local Open Scope string_scope.

(** C49.  Array names tell the kind of array, the class and its tag, whatever the tag is. *)
Theorem C49_arrays k k' am am' s :
  array_name k am = Some s -> array_name k' am' = Some s -> k = k' /\ am = am'.
Proof. exact (@array_names_distinct k k' am am' s). Qed.
Print Assumptions C49_arrays.

(** A name is formed without reading outside the letters exactly for momenta from 0 to 60, and it is a C
    identifier exactly below 60. *)
Theorem C49_arrays_defined k am :
  ((exists s, array_name k am = Some s) <->
     (0 <= za am <= 60 /\ 0 <= zb am <= 60 /\ 0 <= zc am <= 60 /\ 0 <= zd am <= 60)%Z) /\
  (forall s, array_name k am = Some s -> all_chars word_char (ztag am) = true ->
     (identifier s <-> (0 <= za am < 60 /\ 0 <= zb am < 60 /\ 0 <= zc am < 60 /\ 0 <= zd am < 60)%Z)).
Proof. exact (conj (array_names_defined k am) (array_identifiers k am)). Qed.
Print Assumptions C49_arrays_defined.

Example C49_arrays_example :
  array_name KArr (ZA 2 1 0 0 "") = Some "INT__d_p_s_s" /\
  array_name KHrr (ZA 3 1 0 25 "2a") = Some "HRR_INT__2a_f_p_s_S" /\
  array_name KPtr (ZA 2 0 59 0 "") = Some "PRIM_PTR_INT__d_s_9_s" /\
  array_name KPrim (ZA 2 (-1) 0 0 "") = None /\ array_name KPrim (ZA 2 61 0 0 "") = None.
Proof. repeat split. Qed.

(** The names formed from two halves are those formed from the class; the steps use the names the
    arrays and parameters are declared with. *)
Theorem C49_split a b c d tag prefix :
  (forall ks, pairstr c d = Some ks ->
     arr_name_dket a b tag ks prefix = arr_name (ZA a b c d tag) prefix /\
     arr_name_ket a b ks prefix = arr_name (ZA a b c d "") prefix) /\
  (forall bs, pairstr a b = Some bs ->
     arr_name_dbra bs c d tag prefix = arr_name (ZA a b c d tag) prefix /\
     arr_name_bra bs c d prefix = arr_name (ZA a b c d "") prefix).
Proof. exact (conj (@split_ket a b c d tag prefix) (@split_bra a b c d tag prefix)). Qed.
Print Assumptions C49_split.

Theorem C49_steps a b c d tag :
  (forall ks, pairstr c d = Some ks -> bra_step_name a b tag ks = hrr_name (ZA a b c d tag)) /\
  (forall bs, pairstr a b = Some bs -> ket_step_name bs c d tag = hrr_name (ZA a b c d tag)) /\
  (forall str, bra_step_name a b "" str = hrr_name_ket a b str) /\
  (forall str, ket_step_name str c d "" = hrr_name_bra str c d).
Proof. exact (step_names a b c d tag). Qed.
Print Assumptions C49_steps.

Theorem C49_parameters str :
  (forall a b a' b' s, hrr_name_ket a b str = Some s -> hrr_name_ket a' b' str = Some s -> a = a' /\ b = b') /\
  (forall c d c' d' s, hrr_name_bra str c d = Some s -> hrr_name_bra str c' d' = Some s -> c = c' /\ d = d').
Proof. exact (parameter_names str). Qed.
Print Assumptions C49_parameters.

Example C49_split_example : pairstr 1 0 = Some "p_s" /\
  bra_step_name 2 1 "2b" "p_s" = Some "HRR_INT__2b_d_p_p_s" /\ hrr_name (ZA 2 1 1 0 "2b") = Some "HRR_INT__2b_d_p_p_s" /\
  bra_step_name 2 1 "" "X_X" = Some "HRR_INT__d_p_X_X" /\ hrr_name_bra "X_X" 2 1 = Some "HRR_INT__X_X_d_p".
Proof. repeat split. Qed.

(** Function and file names. *)
Theorem C49_functions f f' s : fn_name f = Some s -> fn_name f' = Some s -> f = f'.
Proof. exact (@fn_names_distinct f f' s). Qed.
Print Assumptions C49_functions.

Theorem C49_functions_defined f :
  ((exists s, fn_name f = Some s) <-> Forall (fun i => 0 <= i <= 60)%Z (fmomenta f)) /\
  (forall s, fn_name f = Some s -> (identifier s <-> Forall (fun i => 0 <= i < 60)%Z (fmomenta f))).
Proof. exact (conj (fn_names_defined f) (fn_identifiers f)). Qed.
Print Assumptions C49_functions_defined.

Theorem C49_files f f' s : file_name f = Some s -> file_name f' = Some s -> f = f'.
Proof. exact (@file_names_distinct f f' s). Qed.
Print Assumptions C49_files.

(** On a file system that ignores case the files are still distinct below momentum 25 ... *)
Theorem C49_files_nocase f f' s s' :
  Forall (fun i => 0 <= i < 25)%Z (fmomenta f) -> Forall (fun i => 0 <= i < 25)%Z (fmomenta f') ->
  file_name f = Some s -> file_name f' = Some s' -> slower s = slower s' -> f = f'.
Proof. exact (@file_names_nocase f f' s s'). Qed.
Print Assumptions C49_files_nocase.

(** ... and not above. *)
Theorem C49_files_nocase_refuted : exists f f' s s', f <> f' /\ file_name f = Some s /\ file_name f' = Some s' /\
  slower s = slower s' /\ Forall (fun i => 0 <= i < 60)%Z (fmomenta f) /\ Forall (fun i => 0 <= i < 60)%Z (fmomenta f').
Proof. exact file_names_nocase_refuted. Qed.
Print Assumptions C49_files_nocase_refuted.

Example C49_functions_example :
  fn_name (FEri 2 1 0 0) = Some "ostei_d_p_s_s" /\ fn_name (FDer 2 1 0 0) = Some "ostei_deriv1_d_p_s_s" /\
  fn_name (FVrr CK 2 0 1 0) = Some "VRR_K_d_s_p_s" /\ fn_name (FHrr CL 2 1) = Some "HRR_L_d_p" /\
  file_name (FVrr CK 2 0 1 0) = Some "vrr_K_d_s_p_s.c" /\ file_name (FEri 2 1 0 0) = Some "ostei_d_p_s_s.c" /\
  slower "hrr_K_S_d.c" = "hrr_k_s_d.c".
Proof. repeat split. Qed.

(** The derivative writer looks up nine names; this stays inside the letters exactly when no momentum is
    zero (or above 59).  So every class with an s function reads [amchar[-1]]. *)
Theorem C49_derivatives q : (exists r, deriv_names q = Some r) <->
  Forall (fun n => 1 <= n <= 59)%nat [am0 q; am1 q; am2 q; am3 q].
Proof. exact (deriv_names_defined q). Qed.
Print Assumptions C49_derivatives.

Theorem C49_derivatives_s_refuted q : In 0%nat [am0 q; am1 q; am2 q; am3 q] -> deriv_names q = None.
Proof. exact (@deriv_names_s_refuted q). Qed.
Print Assumptions C49_derivatives_s_refuted.

(** The names it writes into the kernel are those of the arrays the recurrences were asked for, all defined. *)
Theorem C49_derivatives_used q :
  deriv_used (missing_center q) q = map tname (needed_am q) /\
  ((amax q <= 59)%nat -> forall z, In z (deriv_used (missing_center q) q) -> exists s, hrr_name z = Some s).
Proof. exact (conj (deriv_used_requested q) (fun L z => @deriv_used_named q z L)). Qed.
Print Assumptions C49_derivatives_used.

Example C49_derivatives_example :
  deriv_names (QAM 1 1 1 1) <> None /\ deriv_names (QAM 2 1 1 0) = None /\
  map hrr_name (deriv_used (missing_center (QAM 1 0 0 0)) (QAM 1 0 0 0)) =
    [Some "HRR_INT__2b_p_p_s_s"; Some "HRR_INT__2c_p_s_p_s"; Some "HRR_INT__2d_p_s_s_p"] /\
  map hrr_name (deriv_used (missing_center (QAM 1 1 0 0)) (QAM 1 1 0 0)) =
    [Some "HRR_INT__2b_p_d_s_s"; Some "HRR_INT__p_s_s_s"; Some "HRR_INT__2c_p_p_p_s"; Some "HRR_INT__2d_p_p_s_p"].
Proof. split; [vm_compute; discriminate|vm_compute; repeat split]. Qed.
