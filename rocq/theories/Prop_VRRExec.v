(** Property theorems C14, C17: the emitted vertical recurrence code. *)
From Coq Require Import List Arith ZArith.
Import ListNotations.
From Verif Require Import Base Cart Tables Mdir GenHRR HRRAlgo HRRExec VRRStep VRRAlgo VRROrder GenVRR VRRExec VRRExecSpec VRRExample VRRExecExample.

(** C14.  From correct (ss|ss)^(m), the emitted vertical code leaves the correct value of every
    requested component at order zero, whether a class is emitted in line, as a call of its
    routine or as a call of the table-driven routine; it writes no other array.
    [mode_ok]: a separate routine needs one function of each side to be an s function, the
    table-driven one needs the Psi4 order and momenta up to 18. *)
Theorem C14_vrr_code : forall (R : cring) (P : vpar) ords init,
  par_ok P -> whole_classes init -> covers ords -> (forall q, In q init -> qtotal (qclass q) < p_fuel P) ->
  exists p m, vrr_create (p_enum P) (p_enumq P) (p_fuel P) ords init = Some p /\
    get_mreq (vp_steps p) ssss = Some m /\
    (forall L, (forall q, In q init -> qtotal (qclass q) <= L) -> m <= L) /\
    forall (K : @vcoef R) V M, os_family K V -> (forall a, In a (vp_order p) -> mode_ok P a) ->
      sizes_ok (vp_steps p) M ->
      (forall n, n <= m -> nth_error (M ssss) n = Some (Some (V n (Q4 (G 0 0 0) (G 0 0 0) (G 0 0 0) (G 0 0 0))))) ->
      exists M', vrun P K (vp_steps p) M (vp_order p) = Some M' /\
        (forall q, In q init -> nth_error (M' (qclass q)) (qindex (p_o P) q) = Some (Some (V 0 q))) /\
        (forall a, ~ In a (vp_order p) -> M' a = M a) /\
        (forall a, List.length (M' a) = List.length (M a)).
Proof. exact vrr_code_correct. Qed.
Print Assumptions C14_vrr_code.

Example C14_hypotheses_met : forall se sg,
  par_ok (vx_par psi4 se sg) /\ whole_classes (vx_init psi4) /\ covers vx_ords /\ os_family ex_K ex_W /\
  forall p, sizes_ok (vp_steps p) (vx_mem p).
Proof.
  intros se sg. split; [apply vx_par_ok, psi4_starts|]. split; [apply vx_init_whole, psi4_starts|].
  split; [exact vx_covers|]. split; [exact ex_family|exact vx_sizes].
Qed.

(** All in line; all routines; all table-driven; one class of each. *)
Example C14_example : vx_check psi4 9 9 = true /\ vx_check psi4 0 9 = true /\ vx_check psi4 0 0 = true /\
  vx_check psi4 2 3 = true /\ vx_check gamess 2 9 = true /\
  map (emode_of 2 3) [1; 2; 3] = [Inline; External; General].
Proof. vm_compute. repeat split. Qed.

(** The table-driven routines give wrong integrals with the GAMESS order. *)
Theorem C14_gamess_table_driven_refuted :
  exists (P : vpar) ords init p (M M' : @vmem Zring) (q : qrt) (v : Z),
  p_o P = gamess /\ par_ok P /\ whole_classes init /\ covers ords /\
  vrr_create (p_enum P) (p_enumq P) (p_fuel P) ords init = Some p /\
  os_family ex_K ex_W /\ sizes_ok (vp_steps p) M /\ @holds_ssss Zring (p_o P) ex_W p M /\
  (forall a c, In a (vp_order p) -> aget c a <= 18) /\
  vrun P ex_K (vp_steps p) M (vp_order p) = Some M' /\ In q init /\
  nth_error (M' (qclass q)) (qindex (p_o P) q) = Some (Some v) /\ v <> ex_W 0 q.
Proof. exact vx_gamess_wrong. Qed.
Print Assumptions C14_gamess_table_driven_refuted.

(** The routine written for a class with two non-s functions on one side never returns: it calls
    itself, whatever the depth allowed. *)
Theorem C14_two_sided_routine_refuted : forall (R : cring) (P : vpar), par_ok P ->
  forall d rr a arrs (vars : list (option (@vval R))) N M,
  aget rr a <> 0 -> qtotal a < p_fuel P -> ~ pair_zero a -> vroutine P d rr a arrs vars N M = None.
Proof. exact @vroutine_loops. Qed.
Print Assumptions C14_two_sided_routine_refuted.

Example C14_two_sided_example : par_ok (vx_par psi4 0 9) /\ ~ pair_zero (QAM 1 1 0 0) /\ aget CI (QAM 1 1 0 0) <> 0 /\
  qtotal (QAM 1 1 0 0) < p_fuel (vx_par psi4 0 9).
Proof.
  split; [apply vx_par_ok, psi4_starts|]. split; [intros [[H|H] _]; discriminate H|].
  split; [discriminate|]. cbv. repeat constructor.
Qed.

(** C17.  Constants and variables a statement refers to are declared with the right value, in a
    kernel ... *)
Theorem C17_constants_declared : forall (R : cring) (P : vpar) ords init (K : @vcoef R),
  par_ok P -> whole_classes init -> (forall q, In q init -> qtotal (qclass q) < p_fuel P) ->
  exists p, vrr_create (p_enum P) (p_enumq P) (p_fuel P) ords init = Some p /\
    forall a s, In s (class_vsteps (vp_steps p) a) ->
      (forall k, In k (used_own s) -> ec (kernel_env K (vp_steps p)) (cside (v_type s)) k =
         Some (ofnat k * k_h K (cside (v_type s)))%r) /\
      (forall k, In k (used_pq s) -> epq (kernel_env K (vp_steps p)) k = Some (ofnat k * k_hpq K)%r) /\
      (forall x, In x (used_vars s) -> ev (kernel_env K (vp_steps p)) x = kvars K x).
Proof. exact vrr_constants_declared. Qed.
Print Assumptions C17_constants_declared.

(** ... and in a separate routine called with the variables the caller passes. *)
Theorem C17_routine_constants : forall (R : cring) (P : vpar) (K : @vcoef R) rr a,
  par_ok P -> aget rr a <> 0 -> qtotal a < p_fuel P ->
  exists p, vrr_create (p_enum P) (p_enumq P) (p_fuel P) [rr] (qtargets (p_o P) a) = Some p /\
    let cls := class_vsteps (vp_steps p) a in
    let vs x := match vbind vvar_eq_dec (varreq rr a) (map (kvars K) (varreq rr a)) x with Some v => v | None => None end in
    forall s, In s cls ->
      (forall k, In k (used_own s) -> ec (file_env vs cls) (cside (v_type s)) k = Some (ofnat k * k_h K (cside (v_type s)))%r) /\
      (forall k, In k (used_pq s) -> epq (file_env vs cls) k = Some (ofnat k * k_hpq K)%r) /\
      (forall x, In x (used_vars s) -> ev (file_env vs cls) x = kvars K x).
Proof. exact vrr_routine_constants. Qed.
Print Assumptions C17_routine_constants.

Example C17_example :
  option_map (fun p => (maxint (vmap_steps (vp_steps p)), ints_side SK (vmap_steps (vp_steps p)),
      map (ec (kernel_env ex_K (vp_steps p)) SK) [0; 1; 2], map (epq (kernel_env ex_K (vp_steps p))) [0; 1; 2; 3],
      nodup Nat.eq_dec (flat_map used_pq (class_vsteps (vp_steps p) (QAM 1 0 2 0)))))
    (vx_plan psi4 9 9) =
  Some (2, [1; 1; 1; 1; 1; 1], [None; Some (-1)%Z; None], [None; Some (-1)%Z; Some (-2)%Z; None], [1; 2]).
Proof. vm_compute. reflexivity. Qed.
