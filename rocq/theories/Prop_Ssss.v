(** Property theorems C25: the (ss|ss) kernel and the caller's screen array. *)
From Coq Require Import List Arith ZArith QArith.
Import ListNotations.
From Verif Require Import Base Simd Contract Starts Kernel KernelSpec Ssss.
Local Open Scope nat_scope.

(** [P], [K]: bra and ket; [scr]: the ket's screen array before, [scr'] after the call.  Integrals of
    the counted pairs are sums over all primitive quartets except negligible ones; screen values of
    counted pairs, and all behind the rounded end of the counted part, are as before. *)
Theorem C25_call : forall (R : cring) k len nss P K scr (qpf : nat -> R) val tol zf buffered,
  kind_len k len -> 0 < nss -> (forall i j c, val i j c0 c = c0) -> (forall t, t < b_clip K -> 0 < b_np K t) ->
  ((0 < tol)%Q -> rnd len (start len nss (b_np K) (b_clip K)) <= length scr) ->
  forall out, b_clip P * b_clip K <= length out ->
  let st := start len nss (b_np K) in
  exists scr' d drop, kernel4 len nss P K qpf val tol zf (call_of k len 1) (contract_all_avx512 8) (match k with CallAvx512 => buffered | _ => false end) scr out =
      Some (scr', d, b_clip P * b_clip K) /\
    (forall ab cd, ab < b_clip P -> cd < b_clip K ->
       nth_error d (ab * b_clip K + cd) =
       Some (quartet_sum qpf val drop (total (b_np P) ab) (b_np P ab) (st cd) (b_np K cd) 0)) /\
    (forall i cd b, cd < b_clip K -> b < b_np K cd -> let j := st cd + b in
       (0 <= b_scr P i)%Q -> (nth j scr 0 <= b_scrmax K)%Q -> drop i j = true -> (0 < tol)%Q /\ (b_scr P i * nth j scr 0 < tol)%Q) /\
    length scr' = length scr /\
    (forall t j, t < b_clip K -> st t <= j < st t + b_np K t -> nth_error scr' j = nth_error scr j) /\
    (forall j, rnd len (st (b_clip K)) <= j -> nth_error scr' j = nth_error scr j) /\
    ((tol <= 0)%Q -> scr' = scr).
Proof. exact @ssss_kernel. Qed.
Print Assumptions C25_call.
Theorem C25_unscreened : forall (R : cring) k len nss P K scr (qpf : nat -> R) val tol zf buffered,
  kind_len k len -> 0 < nss -> (forall i j c, val i j c0 c = c0) -> (forall t, t < b_clip K -> 0 < b_np K t) ->
  ((0 < tol)%Q -> rnd len (start len nss (b_np K) (b_clip K)) <= length scr) ->
  forall out, (tol <= 0)%Q -> bra_aligned len nss P -> b_clip P * b_clip K <= length out ->
  exists d, kernel4 len nss P K qpf val tol zf (call_of k len 1) (contract_all_avx512 8) (match k with CallAvx512 => buffered | _ => false end) scr out =
      Some (scr, d, b_clip P * b_clip K) /\
    (forall ab cd, ab < b_clip P -> cd < b_clip K ->
       nth_error d (ab * b_clip K + cd) = Some (full_sum len nss (b_np P) (b_np K) qpf val ab cd 0)).
Proof. exact @ssss_full. Qed.
Print Assumptions C25_unscreened.
(** Two ket pairs; a call for the first only makes a later call for both lose the second. *)
Theorem C25_later_call_refuted :
  ex_call 2 [0; 1; 0; 0]%Q = Some ([0; 1; 0; 0]%Q, [10; 11]%Z, 2) /\
  ex_call 1 [0; 1; 0; 0]%Q = Some ([0; 0; 0; 0]%Q, [0]%Z, 1) /\
  ex_call 2 [0; 0; 0; 0]%Q = Some ([0; 0; 0; 0]%Q, [0; 0]%Z, 2).
Proof. exact screen_destroyed. Qed.
Print Assumptions C25_later_call_refuted.
Example C25_example :
  @kernel4 Zring 8 16 ex_bra (Batch (fun _ => 8) 10 (fun _ => 1%Q) 1%Q) (fun _ => 1%Z) (fun i j pf _ => (pf * Z.of_nat j)%Z) 0%Q false
    (@call_of Zring CallAvx512 8 1) (contract_all_avx512 8) true (repeat 1%Q 80) (repeat 7%Z 10) =
  Some (repeat 1%Q 80, [28; 92; 156; 220; 284; 348; 412; 476; 540; 604]%Z, 10).
Proof. exact ex_buffer. Qed.
