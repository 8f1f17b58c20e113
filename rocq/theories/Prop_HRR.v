(** Property theorems C07-C10: the horizontal recurrence. *)
From Coq Require Import List Arith ZArith.
Import ListNotations.
From Verif Require Import Base Cart Mdir Tables HRRStep HRRAlgo HRROrder RecurData Recur GenHRR
  GenHRRSpec HRRExec HRRExample.

(** C07.  Every step is an exact rewriting for every family obeying the transfer relation. *)
Theorem C07_hrr_step : forall (lf : bool) (t : dbl), gam (moving lf t) <> 0 ->
  exists s, doublet_step lf t = HStep s /\ hs_target s = t /\
    gam (moving lf (hs_src0 s)) < gam (moving lf t) /\
    gam (moving lf (hs_src1 s)) < gam (moving lf t) /\
    forall (R : cring) (X : dir -> R) (V : dbl -> R), transfer X V ->
      V t = if lf then (V (hs_src0 s) - X (hs_dir s) * V (hs_src1 s))%r
            else (V (hs_src0 s) + X (hs_dir s) * V (hs_src1 s))%r.
Proof. exact hrr_step_total. Qed.
Print Assumptions C07_hrr_step.

Example C07_example :
  doublet_step false (D (G 1 0 0) (G 0 2 1)) =
    HStep (HS (D (G 1 0 0) (G 0 2 1)) (D (G 1 0 1) (G 0 2 0)) (D (G 1 0 0) (G 0 2 0)) DZ) /\
  @transfer Zring (fun i => ex_v i - ex_u i)%Z (point_family ex_u ex_v).
Proof. split; [reflexivity|apply point_family_transfer]. Qed.

(** C08.  The plan exists for every request and direction and meets [plan_ok]. *)
Theorem C08_hrr_plan : forall enum enumq o blf klf fuel am,
  enum_ok enum -> enum_ok enumq -> starts_x o -> 0 < fuel -> fuel_ok blf klf am fuel ->
  exists p, hrr_create enum enumq o blf klf fuel am = Some p /\ plan_ok blf klf am p.
Proof. exact hrr_create_ok. Qed.
Print Assumptions C08_hrr_plan.

Example C08_example : option_map (fun p => (hp_order p, hp_top p))
  (hrr_create (nodup dbl_eq_dec) (nodup tqam_eq_dec) psi4 false false 12 [TQ 0 (QAM 1 1 1 1)]) =
  Some ([TQ 0 (QAM 1 1 2 0); TQ 0 (QAM 1 1 1 0); TQ 0 (QAM 1 1 1 1)],
        [TQ 0 (QAM 1 0 1 0); TQ 0 (QAM 2 0 1 0); TQ 0 (QAM 1 0 2 0); TQ 0 (QAM 2 0 2 0)]).
Proof. vm_compute. reflexivity. Qed.

(** C09.  Plan and emitted code together: every requested integral is right, in every
    combination of inline, external and table-driven forms. *)
Theorem C09_hrr_code : forall (R : cring) (E : @henv R) enumq am,
  enum_ok (e_enum E) -> enum_ok enumq -> set_enum (e_enumc E) -> starts_x (e_o E) ->
  0 < e_fuel E -> fuel_ok (e_blf E) (e_klf E) am (e_fuel E) -> table_ok_for E am ->
  exists p, hrr_create (e_enum E) enumq (e_o E) (e_blf E) (e_klf E) (e_fuel E) am = Some p /\
    forall V M, family E V -> hrr_pre E p V M ->
      exists M', run E p M (hp_order p) = Some M' /\ hrr_post E p am V M M'.
Proof. exact @hrr_code_correct. Qed.
Print Assumptions C09_hrr_code.

Example C09_hypotheses_met : forall se sg blf klf, sg = 20 \/ sg = 0 ->
  let E := ex_env psi4 se sg blf klf in
  enum_ok (e_enum E) /\ enum_ok (nodup tqam_eq_dec) /\ set_enum (e_enumc E) /\ starts_x (e_o E) /\
  0 < e_fuel E /\ fuel_ok blf klf ex_am (e_fuel E) /\ table_ok_for E ex_am /\ family E ex_V /\
  (forall p, hrr_pre E p ex_V (ex_mem psi4 p)).
Proof. exact ex_hyps. Qed.

Example C09_example : ex_check psi4 10 20 false false = true /\ ex_check psi4 0 20 true false = true /\
  ex_check psi4 0 0 true true = true /\ ex_check psi4 2 3 false true = true.
Proof. vm_compute. repeat split. Qed.

(** The table-driven routines give wrong integrals with the GAMESS order. *)
Theorem C09_gamess_table_driven_refuted :
  exists (E : @henv Zring) enumq am p V M M' t q v,
    e_o E = gamess /\ enum_ok (e_enum E) /\ enum_ok enumq /\ set_enum (e_enumc E) /\
    fuel_ok (e_blf E) (e_klf E) am (e_fuel E) /\
    hrr_create (e_enum E) enumq (e_o E) (e_blf E) (e_klf E) (e_fuel E) am = Some p /\
    family E V /\ hrr_pre E p V M /\ run E p M (hp_order p) = Some M' /\
    In t am /\ qclass q = tq_am t /\
    nth_error (M' t) (qindex (e_o E) q) = Some (Some v) /\ v <> V (tq_tag t) q.
Proof. exact gamess_general_wrong. Qed.
Print Assumptions C09_gamess_table_driven_refuted.

(** C10.  The four table-driven routines: no access outside the blocks, every entry right. *)
Theorem C10_general_I : forall (R : cring) i j k l (X : dir -> R) V th1 th2,
  1 <= i <= 18 -> j <= 18 -> bra_transfer X V ->
  holds_block V (QAM (i - 1) (j + 1) k l) th1 -> holds_block V (QAM (i - 1) j k l) th2 ->
  exists out, gen_I i j k l X th1 th2 = Some out /\ holds_block V (QAM i j k l) out.
Proof. exact @gen_I_family. Qed.
Print Assumptions C10_general_I.

Theorem C10_general_J : forall (R : cring) i j k l (X : dir -> R) V th1 th2,
  i <= 18 -> 1 <= j <= 18 -> bra_transfer X V ->
  holds_block V (QAM (i + 1) (j - 1) k l) th1 -> holds_block V (QAM i (j - 1) k l) th2 ->
  exists out, gen_J i j k l X th1 th2 = Some out /\ holds_block V (QAM i j k l) out.
Proof. exact @gen_J_family. Qed.
Print Assumptions C10_general_J.

Theorem C10_general_K : forall (R : cring) i j k l (X : dir -> R) V th1 th2,
  1 <= k <= 18 -> l <= 18 -> ket_transfer X V ->
  holds_block V (QAM i j (k - 1) (l + 1)) th1 -> holds_block V (QAM i j (k - 1) l) th2 ->
  exists out, gen_K i j k l X th1 th2 = Some out /\ holds_block V (QAM i j k l) out.
Proof. exact @gen_K_family. Qed.
Print Assumptions C10_general_K.

Theorem C10_general_L : forall (R : cring) i j k l (X : dir -> R) V th1 th2,
  k <= 18 -> 1 <= l <= 18 -> ket_transfer X V ->
  holds_block V (QAM i j (k + 1) (l - 1)) th1 -> holds_block V (QAM i j k (l - 1)) th2 ->
  exists out, gen_L i j k l X th1 th2 = Some out /\ holds_block V (QAM i j k l) out.
Proof. exact @gen_L_family. Qed.
Print Assumptions C10_general_L.

(** A concrete call: blocks of (dp|sp) and (pp|sp) give (pd|sp). *)
Example C10_example :
  @gen_J Zring 1 2 0 1 (fun i => ex_v i - ex_u i)%Z
     (map (fun q => Some (ex_V 0 q)) (qtargets psi4 (QAM 2 1 0 1)))
     (map (fun q => Some (ex_V 0 q)) (qtargets psi4 (QAM 1 1 0 1))) =
  Some (map (fun q => Some (ex_V 0 q)) (qtargets psi4 (QAM 1 2 0 1))).
Proof. vm_compute. reflexivity. Qed.

(** Beyond the table (am 19) the routine reads outside it. *)
Example C10_table_end : exists th1 th2,
  @gen_I Zring 19 0 0 0 (fun i => ex_v i - ex_u i)%Z th1 th2 = None /\
  length th1 = qncart (QAM 18 1 0 0) /\ length th2 = qncart (QAM 18 0 0 0).
Proof.
  exists (repeat (Some 1%Z) 570), (repeat (Some 1%Z) 190). vm_compute. repeat split.
Qed.
