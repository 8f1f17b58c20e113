(** Property theorems C11-C13: the vertical recurrence plan. *)
From Coq Require Import List Arith ZArith.
Import ListNotations.
From Verif Require Import Base Cart Mdir Tables HRRAlgo HRRExample VRRStep VRRAlgo VRROrder VRRExample.

(** C11.  Every step is an exact rewriting; sources exist exactly when their multiplicity is
    not zero. *)
Theorem C11_vrr_step : forall rr q m, gam (cget rr q) <> 0 ->
  exists s i q0, vrr_step rr q m = Some s /\ q = craise rr i q0 /\
    v_type s = rr /\ v_xyz s = i /\ v_target s = q /\ v_m s = m /\
    (forall f, v_ijkl s f = gexp i (cget f q0)) /\
    valid (v_src s) 0 = true /\ valid (v_src s) 1 = true /\
    (forall n f, In (n, f) [(2, lefts (cside rr)); (3, lefts (cside rr)); (4, rights (cside rr));
         (5, rights (cside rr)); (6, lefts (other (cside rr))); (7, rights (other (cside rr)))] ->
       (valid (v_src s) n = true <-> v_ijkl s f <> 0)) /\
    (forall (R : cring) (K : @vcoef R) V, os_family K V -> V m q = emitted K s (src_val V s)).
Proof. exact vrr_step_total. Qed.
Print Assumptions C11_vrr_step.

Example C11_example :
  option_map (fun s => (v_xyz s, map (fun x => (sq x, sm x)) (v_src s), map (v_ijkl s) [CI; CJ; CK; CL]))
    (vrr_step CK (Q4 (G 1 0 0) (G 0 0 0) (G 2 0 0) (G 0 0 1)) 3) =
  Some (DX, [(Some (Q4 (G 1 0 0) (G 0 0 0) (G 1 0 0) (G 0 0 1)), 3); (Some (Q4 (G 1 0 0) (G 0 0 0) (G 1 0 0) (G 0 0 1)), 4);
             (Some (Q4 (G 1 0 0) (G 0 0 0) (G 0 0 0) (G 0 0 1)), 3); (Some (Q4 (G 1 0 0) (G 0 0 0) (G 0 0 0) (G 0 0 1)), 4);
             (None, 3); (None, 4); (Some (Q4 (G 0 0 0) (G 0 0 0) (G 1 0 0) (G 0 0 1)), 4); (None, 4)],
        [1; 0; 1; 0]) /\
  os_family ex_K ex_W.
Proof. split; [reflexivity|exact ex_family]. Qed.

(** C12.  The plan exists for every set of whole classes and every preference order over the
    four centres; it ends at (ss|ss), has a step for everything needed, one direction per class,
    and lists each class once after what it is built from. *)
Theorem C12_vrr_plan : forall enum enumq fuel ords init,
  enum_ok enum -> enum_ok enumq -> whole_classes init -> covers ords ->
  (forall q, In q init -> qtotal (qclass q) < fuel) ->
  exists p, vrr_create enum enumq fuel ords init = Some p /\ vplan_ok ords init p /\
    (forall q m, In (q, m) (vp_left p) -> qclass q = ssss) /\
    (forall q m, vreach ords init q m -> qclass q <> ssss -> exists s, In s (vp_steps p) /\ v_target s = q /\ v_m s = m) /\
    (forall l1 a l2 rr r, vp_order p = l1 ++ a :: l2 -> vdir ords a = Some rr ->
       In r (amreq rr a) -> r <> ssss -> In r l1).
Proof. exact vrr_plan_ok. Qed.
Print Assumptions C12_vrr_plan.

(** The default preference order covers the four centres. *)
Theorem C12_default_order : forall init, covers (idx_order init).
Proof. exact idx_order_covers. Qed.
Print Assumptions C12_default_order.

Example C12_example :
  enum_ok (nodup qm_eq_dec) /\ enum_ok (nodup qrt_eq_dec) /\ whole_classes ex_init /\
  idx_order ex_init = [CL; CJ; CI; CK] /\
  option_map vp_order (vrr_create (nodup qm_eq_dec) (nodup qrt_eq_dec) 4 (idx_order ex_init) ex_init) =
  Some [QAM 0 0 1 0; QAM 0 0 2 0; QAM 1 0 2 0; QAM 1 0 1 0].
Proof.
  split; [apply nodup_enum|]. split; [apply nodup_enum|]. split; [exact ex_init_whole|].
  split; vm_compute; reflexivity.
Qed.

(** C13.  Orders of the auxiliary function: enough for everything read, and bounded by the
    total momentum. *)
Theorem C13_aux_orders : forall enum enumq fuel ords init,
  enum_ok enum -> enum_ok enumq -> whole_classes init ->
  (forall q, In q init -> qtotal (qclass q) < fuel) ->
  exists p, vrr_create enum enumq fuel ords init = Some p /\
    (forall q m, vreach ords init q m -> vdir ords (qclass q) <> None ->
       exists M, get_mreq (vp_steps p) (qclass q) = Some M /\ m <= M) /\
    (exists M, get_mreq (vp_steps p) ssss = Some M) /\
    (forall a M rr r, In a (vp_order p) -> get_mreq (vp_steps p) a = Some M -> vdir ords a = Some rr ->
       In r (amreq rr a) -> exists M', get_mreq (vp_steps p) r = Some M' /\ S M <= M') /\
    (forall a M L, (forall q, In q init -> qtotal (qclass q) <= L) ->
       get_mreq (vp_steps p) a = Some M -> M + qtotal a <= L).
Proof. exact vrr_orders_ok. Qed.
Print Assumptions C13_aux_orders.

Example C13_example :
  option_map (fun p => map (get_mreq (vp_steps p)) [ssss; QAM 0 0 1 0; QAM 0 0 2 0; QAM 1 0 1 0; QAM 1 0 2 0; QAM 2 2 2 2])
    (vrr_create (nodup qm_eq_dec) (nodup qrt_eq_dec) 4 (idx_order ex_init) ex_init) =
  Some [Some 3; Some 2; Some 1; Some 0; Some 0; None].
Proof. vm_compute. reflexivity. Qed.
