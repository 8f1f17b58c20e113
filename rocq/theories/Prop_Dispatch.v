(** Property theorems C56: the table of kernels and the calls through it. *)
From Coq Require Import String List ZArith QArith Lia.
Import ListNotations.
From Verif Require Import Base Cart VRRStep Work PairData Naming Dispatch.
Local Open Scope nat_scope.
Local Open Scope string_scope.

(** C56.  After initialisation with files generated for maximum [l], no store having been out of bounds, the
    table holds the kernel of exactly the classes up to the smaller of [l] and the maximum of the build, for the
    integrals and, when built, their first derivatives; all other entries are null. *)
Theorem C56_fill l MD MA gs0 gs1 : (l < 60)%nat -> gen_fill 0 l = Some gs0 -> gen_fill 1 l = Some gs1 ->
  exists t, init_with gs0 gs1 MD MA = Some t /\
    forall d q, t d q = if ((d <=? Nat.min MD 1) && (amax q <=? Nat.min MA l))%nat then fn_name (kernel_of d q) else None.
Proof. exact (@init_table l MD MA gs0 gs1). Qed.
Print Assumptions C56_fill.

(** The files of the repository are those generated for maximum 7. *)
Theorem C56_shipped : gen_fill 0 7 = Some (shipped 0) /\ gen_fill 1 7 = Some (shipped 1).
Proof. exact shipped_generated. Qed.
Print Assumptions C56_shipped.

(** A call inside the dimensions of the build returns at once when screened; otherwise it calls the function of
    its class with the squared tolerance exactly up to momentum 7 and first derivatives, and is undefined
    (null pointer) above. *)
Theorem C56_dispatch MD MA : exists t, simint_init MD MA = Some t /\
  forall d c pmax qmax tol, (d <= MD)%nat -> (amax c <= MA)%nat ->
    (early_exit tol pmax qmax = true -> compute MD MA t d c pmax qmax tol = Screened) /\
    (early_exit tol pmax qmax = false -> (d <= 1)%nat -> (amax c <= 7)%nat ->
       exists f, fn_name (kernel_of d c) = Some f /\ compute MD MA t d c pmax qmax tol = Called f (tol * tol)%Q) /\
    (early_exit tol pmax qmax = false -> (2 <= d \/ 8 <= amax c)%nat -> compute MD MA t d c pmax qmax tol = Undefined).
Proof. exact (dispatch MD MA). Qed.
Print Assumptions C56_dispatch.

(** So a build with larger maxima has classes it was built for but cannot compute. *)
Theorem C56_build_refuted : exists MD MA t d c, simint_init MD MA = Some t /\ (d <= MD)%nat /\ (amax c <= MA)%nat /\
  compute MD MA t d c 1 1 0 = Undefined.
Proof. exact build_refuted. Qed.
Print Assumptions C56_build_refuted.

Theorem C56_before_init_refuted MD MA d c pmax qmax tol : early_exit tol pmax qmax = false ->
  compute MD MA null_table d c pmax qmax tol = Undefined.
Proof. exact (@before_init MD MA d c pmax qmax tol). Qed.
Print Assumptions C56_before_init_refuted.

Example C56_example :
  (exists t, simint_init 1 2 = Some t /\ t 0 (QAM 2 1 0 0) = Some "ostei_d_p_s_s" /\
    t 1 (QAM 2 1 0 0) = Some "ostei_deriv1_d_p_s_s" /\ t 0 (QAM 3 0 0 0) = None /\
    compute 1 2 t 1 (QAM 0 2 1 1) 1 1 (1 # 2) = Called "ostei_deriv1_s_d_p_p" (1 # 4) /\
    compute 1 2 t 0 (QAM 0 2 1 1) (1 # 8) 1 (1 # 2) = Screened) /\
  fn_name (kernel_of 1 (QAM 0 2 1 1)) = Some "ostei_deriv1_s_d_p_p".
Proof.
  split; [|reflexivity]. destruct shipped_generated as [E0 E1].
  destruct (@init_table 7 1 2 _ _ ltac:(lia) E0 E1) as (t & A & B). exists t. split; [exact A|].
  unfold compute. rewrite !B. repeat split.
Qed.
