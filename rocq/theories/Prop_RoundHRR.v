(** Property theorem C89: the horizontal recurrence with rounding. *)
From Coq Require Import List Arith Reals.
Import ListNotations.
From Verif Require Import Base Cart HRRStep HRRAlgo HRROrder RecurData HRRExec Tables HRRExample Normalize RoundSum RoundHRR.
Local Open Scope R_scope.

(** C89.  With any rounding of relative error at most [u] after every operation, fused or not, the horizontal code gives every requested
    integral, in every combination of inline, external and table-driven forms, with two more rounding errors for each unit of momentum moved, relative to the bound [T] of the top integrals times
    [1 + H] for each unit, where [H] bounds the distances between the centres. *)
Theorem C89_hrr_rounding : forall u rnd fused (E : @henv Rcring) enumq am, rounding u rnd ->
  enum_ok (e_enum E) -> enum_ok enumq -> set_enum (e_enumc E) -> starts_x (e_o E) ->
  (0 < e_fuel E)%nat -> fuel_ok (e_blf E) (e_klf E) am (e_fuel E) -> table_ok_for E am ->
  exists p, hrr_create (e_enum E) enumq (e_o E) (e_blf E) (e_klf E) (e_fuel E) am = Some p /\
    forall V k H T M, family E V -> (forall d, Rabs (e_AB E d) <= H) -> (forall d, Rabs (e_CD E d) <= H) ->
      rounded_pre u k T E p V M ->
      exists M', rrun rnd fused E p M (hp_order p) = Some M' /\ rounded_post u k H T E am V M'.
Proof. exact hrr_rounded. Qed.
Print Assumptions C89_hrr_rounding.

(** The run with rounding is the run of C09 with another right-hand side. *)
Theorem C89_same_code : run_with (fun _ _ => @GenHRR.olift Rcring) = @run Rcring.
Proof. exact run_same. Qed.
Print Assumptions C89_same_code.

(** The hypotheses are met by (s p|s s) with a distance of 5/2 and top integrals 2 and 1; the integrals are 9/2 ... *)
Example C89_hypotheses_met : forall se sg, In (se, sg) tiny_modes -> exists p, hrr_create (e_enum (tiny_env se sg (5 / 2))) (nodup tqam_eq_dec) psi4 false false 12 tiny_am = Some p /\
  enum_ok (e_enum (tiny_env se sg (5 / 2))) /\ enum_ok (nodup tqam_eq_dec) /\ set_enum (e_enumc (tiny_env se sg (5 / 2))) /\ starts_x psi4 /\
  fuel_ok false false tiny_am 12 /\ table_ok_for (tiny_env se sg (5 / 2)) tiny_am /\ family (tiny_env se sg (5 / 2)) tiny_V /\
  rounded_pre (/ 4) 0 2 (tiny_env se sg (5 / 2)) p tiny_V (tiny_mem 2 1) /\
  (forall q, qclass q = QAM 0 1 0 0 -> tiny_V 0 q = 9 / 2) /\ moves (tiny_env se sg (5 / 2)) (TQ 0 (QAM 0 1 0 0)) = 1%nat.
Proof. exact tiny_hyps. Qed.

(** ... and the rounded code gives 4 in all three forms. *)
Example C89_example : rounding (/ 4) rnd4 /\ forall se sg, In (se, sg) tiny_modes -> tiny_out se sg rnd4 false (5 / 2) 2 1 = Some (repeat (Some 4) 3).
Proof. exact (conj rnd4_ok tiny_rounded). Qed.
