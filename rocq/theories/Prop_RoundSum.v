(** Property theorem C88: contraction with rounding. *)
From Coq Require Import List Arith Reals.
Import ListNotations.
From Verif Require Import Base Contract KernelSpec Normalize RoundSum.
Local Open Scope R_scope.

(** C88.  With any rounding of relative error at most [u] after every addition, contract adds the lanes of each slot with at most as
    many rounding errors as a vector has lanes ... *)
Theorem C88_contract : forall u rnd, rounding u rnd -> forall len nc off src dest, (forall n, (n < len)%nat -> (off n * nc + nc <= length dest)%nat) ->
  exists out, rcontract rnd len nc off src dest = Some out /\ sums_near u len 0 len nc off src (fun c n => Rabs (src c n)) dest out.
Proof. exact (fun u rnd Hr len nc off src dest Hd => rcontract_near u rnd Hr len nc 0 off src src _ dest (fun c n _ _ => near_self u _) Hd). Qed.
Print Assumptions C88_contract.

(** ... and so does contract_all in every form and for every order in which an instruction sums the lanes ... *)
Theorem C88_contract_all : forall u rnd, rounding u rnd -> forall red k len nc src dest, kind_len k len -> full len red -> (nc <= length dest)%nat ->
  exists out, rcall rnd red k len nc src dest = Some out /\ sums_near u len 0 len nc (fun _ => 0%nat) src (fun c n => Rabs (src c n)) dest out.
Proof.
  exact (fun u rnd Hr red k len nc src dest Hk F Hd =>
    rcall_near u rnd Hr len nc 0 src src _ dest (kind_len_pos k len Hk) (fun c n _ _ => near_self u _) Hd red k Hk F).
Qed.
Print Assumptions C88_contract_all.

(** ... with a factor each lane has one more. *)
Theorem C88_factor : forall u rnd, rounding u rnd ->
  (forall len nc fac off src dest, (forall n, (n < len)%nat -> (off n * nc + nc <= length dest)%nat) ->
     exists out, rcontract_fac rnd len nc fac off src dest = Some out /\
       sums_near u len 1 len nc off (fun c n => src c n * fac n) (fun c n => Rabs (src c n * fac n)) dest out) /\
  (forall red k len nc fac src dest, kind_len k len -> full len red -> (nc <= length dest)%nat ->
     exists out, rcall_fac rnd red k len nc fac src dest = Some out /\
       sums_near u len 1 len nc (fun _ => 0%nat) (fun c n => src c n * fac n) (fun c n => Rabs (src c n * fac n)) dest out).
Proof.
  exact (fun u rnd Hr => conj (fun len nc fac off src dest => rcontract_fac_near u rnd len nc fac off src dest Hr)
    (fun red k len nc fac src dest => rcall_fac_near u rnd red k len nc fac src dest Hr)).
Qed.
Print Assumptions C88_factor.

(** All calls of a kernel, one per vector of primitive integrals: the errors add up, relative to the sum of the absolute values. *)
Theorem C88_calls : forall u rnd red len nc l, rounding u rnd -> (0 < len)%nat -> full len red -> forall dest, (forall c, In c l -> call_fits len nc (length dest) c) ->
  exists out, rcalls rnd red len nc l dest = Some out /\ length out = length dest /\
    forall s c x v A m, (c < nc)%nat -> nth_error dest (s * nc + c) = Some x -> near u m x v A ->
      exists y, nth_error out (s * nc + c) = Some y /\
        near u (m + length l * len) y (v + total (map (fun q => added len (call_off q) (call_src q) s c) l))
          (A + total (map (fun q => added len (call_off q) (fun a n => Rabs (call_src q a n)) s c) l)).
Proof. exact calls_near. Qed.
Print Assumptions C88_calls.

(** The forms of two headers with vectors of the same length differ by the errors of both ... *)
Theorem C88_forms : forall u rnd red red' k k' len nc src dest, rounding u rnd -> kind_len k len -> kind_len k' len -> full len red -> full len red' -> (nc <= length dest)%nat ->
  exists o o', rcall rnd red k len nc src dest = Some o /\ rcall rnd red' k' len nc src dest = Some o' /\
    forall c x, (c < nc)%nat -> nth_error dest c = Some x -> exists y y', nth_error o c = Some y /\ nth_error o' c = Some y' /\
      Rabs (y - y') <= 2 * ((1 + u) ^ len - 1) * (Rabs x + total (map (fun n => Rabs (src c n)) (seq 0 len))).
Proof. exact forms_close. Qed.
Print Assumptions C88_forms.

(** ... but are not the same. *)
Theorem C88_forms_refuted : ~ forall u rnd red k k' len nc src dest, rounding u rnd -> kind_len k len -> kind_len k' len -> full len red -> (nc <= length dest)%nat ->
  rcall rnd red k len nc src dest = rcall rnd red k' len nc src dest.
Proof. exact forms_differ. Qed.
Print Assumptions C88_forms_refuted.

(** Without rounding the routines are those of C21. *)
Theorem C88_exact : forall len nc fac off src dest,
  rcontract (fun x => x) len nc off src dest = @contract Rcring len nc off src dest /\
  rcontract_fac (fun x => x) len nc fac off src dest = @contract_fac Rcring len nc fac off src dest /\
  rcontract_all_avx (fun x => x) nc src dest = @contract_all_avx Rcring nc src dest.
Proof. exact exact_model. Qed.
Print Assumptions C88_exact.

(** A rounding, an order, and a case in which 4 + 1/2 + 1/2 + 1/2 + 1/2 is 4 or 6. *)
Example C88_example : rounding (/ 4) rnd4 /\ full 4 order4 /\
  rcall rnd4 order4 CallZero 4 1 half_lanes [4] = Some [4] /\ rcall rnd4 order4 CallAvx 4 1 half_lanes [4] = Some [6].
Proof. exact (conj rnd4_ok (conj order4_full (conj half_zero half_avx))). Qed.
