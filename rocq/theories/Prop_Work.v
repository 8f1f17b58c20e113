(** Properties C18 and C19: the workspace. *)
From Coq Require Import List Arith.
Import ListNotations.
From Verif Require Import Base Simd Cart HRRAlgo HRROrder VRRStep VRRAlgo VRROrder Work.

(** C18: for the plan of every class the scratch sets can be laid out ... *)
Theorem C18_plan enumt enuma deriv fin hp enum enumq fuel ords init :
  enum_ok enum -> enum_ok enumq -> whole_classes init -> (forall q, In q init -> qtotal (qclass q) < fuel) ->
  enum_ok enumt -> enum_ok enuma ->
  exists vp w, vrr_create enum enumq fuel ords init = Some vp /\
    kernel_plan enumt enuma deriv fin hp vp = Some w /\ wok w /\
    (forall a M, In (a, M) (w_prim w) <-> In a (vp_allam vp) /\ get_mreq (vp_steps vp) a = Some M).
Proof. exact (@kernel_plan_some enumt enuma deriv fin hp enum enumq fuel ords init). Qed.
Print Assumptions C18_plan.

(** ... no two different scratch elements share a place ... *)
Theorem C18_disjoint len nss fin w e e' x :
  wok w -> addr len nss fin w e = Some x -> addr len nss fin w e' = Some x -> e = e'.
Proof. exact (@addr_inj len nss fin w e e' x). Qed.
Print Assumptions C18_disjoint.

(** ... every element of every array has a place, inside the [need] doubles used ... *)
Theorem C18_places len nss fin w : wok w ->
  (forall t sh i, In t (w_top w) -> t <> fin -> sh < nss -> i < qncart (tq_am t) ->
     exists x, addr len nss fin w (EArr t sh i) = Some x) /\
  (forall a M m i ln, In (a, M) (w_prim w) -> m <= M -> i < qncart a -> ln < len ->
     exists x, addr len nss fin w (EPrim a m i ln) = Some x) /\
  (forall t i, In t (w_inter w) -> i < qncart (tq_am t) -> exists x, addr len nss fin w (EHrr t i) = Some x) /\
  (forall e x, addr len nss fin w e = Some x -> x < need len nss fin w).
Proof.
  exact (fun W => conj (fun t sh i => @addr_arr len nss fin w t sh i W)
    (conj (fun a M m i ln => @addr_prim len nss fin w a M m i ln W)
    (conj (fun t i => @addr_hrr len nss fin w t i W) (fun e x => @addr_bound len nss fin w e x W)))).
Qed.
Print Assumptions C18_places.

(** ... and the vectors are aligned. *)
Theorem C18_aligned len nss fin w a m i x : wok w -> Nat.divide len nss ->
  addr len nss fin w (EPrim a m i 0) = Some x -> Nat.divide len x.
Proof. exact (@addr_aligned len nss fin w a m i x). Qed.
Print Assumptions C18_aligned.

(** The memset before a batch clears exactly the arrays contracted into: a kernel that has it has a
    horizontal part, so its final class is not a top class. *)
Theorem C18_cleared len nss fin w x : wok w -> ~ In fin (w_top w) ->
  (x < cleared nss w <-> exists t sh i, addr len nss fin w (EArr t sh i) = Some x).
Proof. exact (@memset_exact len nss fin w x). Qed.
Print Assumptions C18_cleared.
Theorem C18_cleared_applies enum enumq o blf klf fuel fin hp :
  enum_ok enum -> enum_ok enumq -> starts_x o -> 0 < fuel -> fuel_ok blf klf [fin] fuel ->
  hrr_create enum enumq o blf klf fuel [fin] = Some hp ->
  hp_bra hp <> [] \/ hp_ket hp <> [] -> ~ In fin (hp_top hp).
Proof. exact (@hashrr_final enum enumq o blf klf fuel fin hp). Qed.
Print Assumptions C18_cleared_applies.

Example C18_example : let w := ex_plan (QAM 1 1 1 1) in let fin := TQ 0 (QAM 1 1 1 1) in
  partition 4 8 fin w <> [] /\ wok w /\ need 4 8 fin w = 1325 /\
  worksize 4 8 ex_plan (ex_valid 1 0) 1 = 1328 /\
  addr 4 8 fin w (EPrim (QAM 2 0 2 0) 0 35 3) <> None /\
  addr 4 8 fin w (EPrim (QAM 2 0 2 0) 1 0 0) = None.
Proof. exact ex_partition. Qed.

(** C19: the size reported for maximum [l] covers every scratch access of every class within [l],
    [plan q] being the plan of the generated class [q]. *)
Theorem C19_workspace len nss plan vs maxam p c fin l e x :
  0 < len -> valid_set maxam p vs -> wok (plan (served p c)) ->
  amax c <= l -> l <= maxam ->
  addr len nss fin (plan (served p c)) e = Some x -> x < worksize len nss plan vs l.
Proof. exact (@workspace_enough len nss plan vs maxam p c fin l e x). Qed.
Print Assumptions C19_workspace.

(** The kernel serving a class is generated and has the same highest momentum. *)
Theorem C19_served maxam p vs c : valid_set maxam p vs -> amax c <= maxam ->
  In (served p c) vs /\ amax (served p c) = amax c.
Proof. exact (fun Hv Hc => conj (@served_valid maxam p vs c Hv Hc) (@served_amax p c)). Qed.
Print Assumptions C19_served.

(** The memset of a generated kernel and the vector of the replaced (ss|ss) kernel fit too. *)
Theorem C19_memset len nss plan vs q l : 0 < len -> In q vs -> amax q <= l ->
  cleared nss (plan q) <= worksize len nss plan vs l.
Proof. exact (@cleared_enough len nss plan vs q l). Qed.
Print Assumptions C19_memset.
Theorem C19_ssss len nss plan vs maxam p l m : 0 < len -> valid_set maxam p vs -> l <= maxam ->
  In (ssss, m) (w_prim (plan ssss)) -> len * 1 <= worksize len nss plan vs l.
Proof. exact (@ssss_workspace len nss plan vs maxam p l m). Qed.
Print Assumptions C19_ssss.

(** The modelled plans give the numbers of the shipped table for maximum 0 and 1. *)
Example C19_example :
  valid_set 1 0 (ex_valid 1 0) /\
  forallb (fun c => match gen_plan psi4 10 c with Some _ => true | None => false end) (ex_valid 1 0) = true /\
  map (fun l => (row_max (wl_bcont ex_plan) (ex_valid 1 0) l, row_max (wl_cont ex_plan) (ex_valid 1 0) l,
                 row_max (wl_prim ex_plan) (ex_valid 1 0) l)) [0; 1] = [(1, 0, 1); (81, 81, 149)].
Proof. exact (conj (@ex_valid_ok 1 0) shipped_sizes). Qed.
