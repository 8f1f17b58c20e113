(** Property theorems C20-C24: lane attribution, contraction and the loop nest of a kernel. *)
From Coq Require Import List Arith ZArith QArith.
Import ListNotations.
From Verif Require Import Base Contract Offsets Starts Kernel KernelSpec.
Local Open Scope nat_scope.

(** C20.  Lane [n] of vector [v] of the ket batch of [nb] shell pairs at [cd] is added to a slot of
    the batch, and if it holds a primitive of the batch, to the slot of its shell pair. *)
Theorem C20_lane_slot : forall (np : nat -> nat) (cd nb : nat), 0 < nb -> (forall t, t < nb -> 0 < np (cd + t)) ->
  forall len v n, 0 < len -> n < len ->
  exists s, lane_slot len np cd nb v n = Some s /\ s < nb /\
    (v * len + n < psum np cd nb -> psum np cd s <= v * len + n < psum np cd (S s)).
Proof. exact lane_slot_ok. Qed.
Print Assumptions C20_lane_slot.

Example C20_example :
  map (fun k => lane_slot 4 (fun t => nth t [3; 1; 1; 6; 2] 0) 0 5 (k / 4) (k mod 4)) (seq 0 16) =
  map Some [0; 0; 0; 1;  2; 3; 3; 3;  3; 3; 3; 4;  4; 4; 4; 4].
Proof. reflexivity. Qed.

(** With an empty shell pair the attribution is wrong: primitive 1 belongs to shell pair 2. *)
Theorem C20_empty_pair_refuted : exists np len cd nb v n,
  0 < nb /\ n < len /\ lane_slot len np cd nb v n = Some 1 /\ psum np cd 2 <= v * len + n < psum np cd 3.
Proof.
  exists ex_np, 1, 0, 3, 1, 0. split; [apply Nat.lt_0_succ|]. split; [apply Nat.lt_0_succ|]. exact empty_pair_wrong.
Qed.
Print Assumptions C20_empty_pair_refuted.

(** C21.  [contracted len nc off src dest out]: [out] is [dest] where component [c] of slot [s] has
    got the sum of component [c] of the lanes [n] with [off n = s]. *)
Theorem C21_contract : forall (R : cring) len nc off (src : nat -> nat -> R) dest,
  (forall n, n < len -> off n * nc + nc <= length dest) ->
  exists out, contract len nc off src dest = Some out /\ contracted len nc off src dest out.
Proof. exact @contract_ok. Qed.
Print Assumptions C21_contract.
Theorem C21_contract_fac : forall (R : cring) len nc fac off (src : nat -> nat -> R) dest,
  (forall n, n < len -> off n * nc + nc <= length dest) ->
  exists out, contract_fac len nc fac off src dest = Some out /\
    contracted len nc off (fun c n => src c n * fac n)%r dest out.
Proof. exact @contract_fac_ok. Qed.
Print Assumptions C21_contract_fac.
Theorem C21_contract_fac_scalar : forall (R : cring) nc fac off (src : nat -> nat -> R) dest,
  off 0 * nc + nc <= length dest ->
  exists out, contract_fac_scalar nc fac off src dest = Some out /\
    contracted 1 nc off (fun c n => src c n * fac)%r dest out.
Proof. exact @contract_fac_scalar_ok. Qed.
Print Assumptions C21_contract_fac_scalar.
Theorem C21_contract_all : forall (R : cring) k len nc, kind_len k len ->
  forall (src : nat -> nat -> R) dest, nc <= length dest ->
  exists out, call_of k len nc src dest = Some out /\ contracted len nc (fun _ => 0) src dest out.
Proof. exact @call_of_ok. Qed.
Print Assumptions C21_contract_all.

Example C21_example :
  let src c n := (Z.of_nat c + 10 * Z.of_nat n)%Z in
  @contract Zring 4 2 (fun n => nth n [0; 0; 1; 2] 0) src [1; 1; 1; 1; 1; 1; 1]%Z = Some [11; 13; 21; 22; 31; 32; 1]%Z /\
  @contract_all_avx Zring 6 src (repeat 1%Z 7) = Some [61; 65; 69; 73; 77; 81; 1]%Z /\
  @contract_all_avx512 Zring 9 src (repeat 1%Z 9) = Some [281; 289; 297; 305; 313; 321; 329; 337; 345]%Z /\
  @contract Zring 4 2 (fun n => n) src [1; 1; 1; 1; 1; 1; 1]%Z = None.
Proof. vm_compute. repeat split. Qed.

(** C22.  With screening off, every output element is the sum over all primitive pairs of its bra
    and ket shell pairs; nothing else of the output array is touched. *)
Theorem C22_contracted_sum : forall (R : cring) k len nss nc (P K : batch) (qpf : nat -> R) val zf,
  kind_len k len -> 0 < nss -> 0 < nc -> (forall i j c, val i j c0 c = c0) ->
  (forall t, t < b_clip K -> 0 < b_np K t) ->
  forall tol out, (tol <= 0)%Q -> bra_aligned len nss P -> b_clip P * b_clip K * nc <= length out ->
  exists d, kernel len nss nc P K qpf val tol zf (call_of k len nc) out = Some (d, b_clip P * b_clip K) /\
    length d = length out /\
    (forall ab cd c, ab < b_clip P -> cd < b_clip K -> c < nc ->
       nth_error d ((ab * b_clip K + cd) * nc + c) = Some (full_sum len nss (b_np P) (b_np K) qpf val ab cd c)) /\
    (forall q, b_clip P * b_clip K * nc <= q -> nth_error d q = nth_error out q).
Proof. exact @kernel_full. Qed.
Print Assumptions C22_contracted_sum.

(** The same for kernels with a horizontal recurrence: it is applied to these sums. *)
Theorem C22_contracted_sum_hrr : forall (R : cring) k len nss nc (P K : batch) (qpf : nat -> R) val zf,
  kind_len k len -> 0 < nss -> 0 < nc -> (forall i j c, val i j c0 c = c0) ->
  (forall t, t < b_clip K -> 0 < b_np K t) ->
  forall tol nf hrr out,
  (forall ab cd f g c, (forall c, c < nc -> f c = g c) -> hrr ab cd f c = hrr ab cd g c) ->
  (tol <= 0)%Q -> bra_aligned len nss P -> b_clip P * b_clip K * nf <= length out ->
  exists d, kernel_hrr len nss nc P K qpf val tol zf (call_of k len nc) nf hrr out = Some (d, b_clip P * b_clip K) /\
    length d = length out /\
    (forall ab cd c, ab < b_clip P -> cd < b_clip K -> c < nf ->
       nth_error d ((ab * b_clip K + cd) * nf + c) =
       Some (hrr ab cd (full_sum len nss (b_np P) (b_np K) qpf val ab cd) c)) /\
    (forall q, b_clip P * b_clip K * nf <= q -> nth_error d q = nth_error out q).
Proof. exact @kernel_hrr_full. Qed.
Print Assumptions C22_contracted_sum_hrr.

Example C22_example :
  (forall t, t < b_clip ex_K2 -> 0 < b_np ex_K2 t) /\ bra_aligned 2 4 ex_P2 /\
  ex_run2 0 = Some ([400; 406; 480; 486; 1720; 1738; 1320; 1332; 11120; 11196;
                     650; 653; 690; 693; 2210; 2219; 1560; 1566; 11260; 11298; 7]%Z, 10).
Proof. exact ex2_ok. Qed.

(** C23.  The bra primitives are looked for where they are stored if and only if the completed
    groups hold full vectors. *)
Theorem C23_bra_start : forall len nss, 0 < len -> 0 < nss -> forall np n,
  (forall t, t < n -> total np t = start len nss np t) <->
  (forall g, S g * nss < n -> Nat.divide len (group_total nss np g)).
Proof. exact bra_start_iff. Qed.
Print Assumptions C23_bra_start.

Example C23_example : total (fun t => nth t [1; 1; 1; 3; 1] 0) 4 = 6 /\ start 2 4 (fun t => nth t [1; 1; 1; 3; 1] 0) 4 = 6 /\
  group_total 4 (fun t => nth t [1; 1; 1; 3; 1] 0) 0 = 3 * 2.
Proof. repeat split. Qed.

(** Otherwise the result is wrong. *)
Theorem C23_unaligned_bra_refuted : exists (P K : batch) (qpf : nat -> Z) val d v,
  (forall i j c, val i j 0%Z c = 0%Z) /\ (forall t, t < b_clip K -> 0 < b_np K t) /\
  @kernel Zring 2 4 1 P K qpf val 0%Q true (@call_of Zring CallZero 2 1) (repeat 0%Z 5) = Some (d, 5) /\
  nth_error d 4 = Some v /\ v <> @full_sum Zring 2 4 (b_np P) (b_np K) qpf val 4 0 0.
Proof. exact unaligned_wrong. Qed.
Print Assumptions C23_unaligned_bra_refuted.

(** C24.  With screening, what is left out is negligible, the rest is credited as before, and
    the number returned is the same. *)
Theorem C24_screening : forall (R : cring) k len nss nc (P K : batch) (qpf : nat -> R) val zf,
  kind_len k len -> 0 < nss -> 0 < nc -> (forall i j c, val i j c0 c = c0) ->
  (forall t, t < b_clip K -> 0 < b_np K t) ->
  forall tol out, b_clip P * b_clip K * nc <= length out ->
  exists drop d, kernel len nss nc P K qpf val tol zf (call_of k len nc) out = Some (d, b_clip P * b_clip K) /\
    (forall ab cd c, ab < b_clip P -> cd < b_clip K -> c < nc ->
       nth_error d ((ab * b_clip K + cd) * nc + c) =
       Some (quartet_sum qpf val drop (total (b_np P) ab) (b_np P ab) (start len nss (b_np K) cd) (b_np K cd) c)) /\
    (forall i j, (0 <= b_scr P i)%Q -> (b_scr K j <= b_scrmax K)%Q -> drop i j = true -> (b_scr P i * b_scr K j < tol)%Q).
Proof. exact @kernel_screened. Qed.
Print Assumptions C24_screening.
Theorem C24_screening_hrr : forall (R : cring) k len nss nc (P K : batch) (qpf : nat -> R) val zf,
  kind_len k len -> 0 < nss -> 0 < nc -> (forall i j c, val i j c0 c = c0) ->
  (forall t, t < b_clip K -> 0 < b_np K t) ->
  forall tol nf hrr out,
  (forall ab cd f g c, (forall c, c < nc -> f c = g c) -> hrr ab cd f c = hrr ab cd g c) ->
  b_clip P * b_clip K * nf <= length out ->
  exists drop d, kernel_hrr len nss nc P K qpf val tol zf (call_of k len nc) nf hrr out = Some (d, b_clip P * b_clip K) /\
    (forall ab cd c, ab < b_clip P -> cd < b_clip K -> c < nf ->
       nth_error d ((ab * b_clip K + cd) * nf + c) =
       Some (hrr ab cd (quartet_sum qpf val drop (total (b_np P) ab) (b_np P ab) (start len nss (b_np K) cd) (b_np K cd)) c)) /\
    (forall i j, (0 <= b_scr P i)%Q -> (b_scr K j <= b_scrmax K)%Q -> drop i j = true -> (b_scr P i * b_scr K j < tol)%Q).
Proof. exact @kernel_hrr_screened. Qed.
Print Assumptions C24_screening_hrr.

Example C24_example :
  ex_run2 (3 # 4) = Some ([10; 11; 0; 0; 0; 0; 0; 0; 0; 0; 210; 211; 0; 0; 0; 0; 0; 0; 0; 0; 7]%Z, 10).
Proof. vm_compute. reflexivity. Qed.
