(** Property theorems C15, C16: the table-driven vertical routines. *)
From Coq Require Import List Arith ZArith.
Import ListNotations.
From Verif Require Import Base Cart Mdir Tables Recur GenHRR VRRStep VRRAlgo VRRExample GenVRR GenVRRSpec.

(** C15.  The four routines write orders 0..N-1 of every component of the class, touch nothing
    behind them, and read nothing that does not exist. *)
Theorem C15_general_vrr : forall (R : cring) (K : @vcoef R) V c i j k l N t1 t2 t3 t4 t5 out,
  os_family K V -> aget c (QAM i j k l) <> 0 -> i <= 18 -> j <= 18 -> k <= 18 -> l <= 18 ->
  thetas_hold V c (QAM i j k l) (S N) [t1; t2; t3; t4; t5] -> N * qncart (QAM i j k l) <= length out ->
  exists out', gen_vrr c i j k l N (args_of K c) t1 t2 t3 t4 t5 out = Some out' /\
    length out' = length out /\ holds_m V (QAM i j k l) N out' /\
    forall x, N * qncart (QAM i j k l) <= x -> nth_error out' x = nth_error out x.
Proof. exact @gen_vrr_ok. Qed.
Print Assumptions C15_general_vrr.

(** The routine for classes with one non-zero momentum. *)
Theorem C15_general_vrr1 : forall (R : cring) (K : @vcoef R) V c i N b1 t2 out,
  os_family K V -> 1 <= i <= 18 -> holds_m V (single c (i - 1)) (S N) b1 ->
  (2 <= i -> exists b2, t2 = Some b2 /\ holds_m V (single c (i - 2)) (S N) b2) ->
  N * ncart i <= length out ->
  exists out', vrr1 i N (k_h K (cside c)) (k_a K (cside c)) (k_aPQ K (cside c)) (k_PA K c) (Some b1) t2 out = Some out' /\
    length out' = length out /\ holds_m V (single c i) N out' /\
    forall x, N * ncart i <= x -> nth_error out' x = nth_error out x.
Proof. exact @vrr1_ok. Qed.
Print Assumptions C15_general_vrr1.

(** Non-trivial runs on the family of [ex_family]: (pp|dp) stepped on the fourth function, and
    (sd|ss) by the one-momentum routine. *)
Example C15_example :
  os_family ex_K ex_W /\
  @gen_vrr Zring CL 1 1 2 1 2 (args_of ex_K CL) (Some (ex_blk (QAM 1 1 2 0) 3)) (Some (ex_blk (QAM 1 1 1 0) 3)) None
     (Some (ex_blk (QAM 0 1 2 0) 3)) (Some (ex_blk (QAM 1 0 2 0) 3)) (repeat None 400) =
  Some (ex_blk (QAM 1 1 2 1) 2 ++ repeat None 76) /\
  @vrr1 Zring 2 3 (k_h ex_K SB) (k_a ex_K SB) (k_aPQ ex_K SB) (k_PA ex_K CJ) (Some (ex_blk (QAM 0 1 0 0) 4))
     (Some (ex_blk ssss 4)) (repeat None 20) = Some (ex_blk (QAM 0 2 0 0) 3 ++ repeat None 2).
Proof. split; [exact ex_family|]. split; vm_compute; reflexivity. Qed.

(** C16.  Whenever the dispatch takes the fast path, the general path would give the same
    result: same values, same failures. *)
Theorem C16_fast_path : forall (R : cring) c i j k l N (C : @varg R) t1 t2 t3 t4 t5 out,
  dispatch j l t3 t5 = true -> c = CI \/ c = CK ->
  gen_vrr c i j k l N C t1 t2 t3 t4 t5 out =
  obind (path c i j k l N C t1 t2 t3 t4 t5) (fun ws => perform ws out).
Proof. exact @fast_path_eq. Qed.
Print Assumptions C16_fast_path.

Example C16_example :
  @dispatch Zring 0 0 None None = true /\
  @gen_vrr Zring CK 1 0 2 0 2 (args_of ex_K CK) (Some (ex_blk (QAM 1 0 1 0) 3)) (Some (ex_blk (QAM 1 0 0 0) 3)) None
     (Some (ex_blk (QAM 0 0 1 0) 3)) None (repeat None 36) = Some (ex_blk (QAM 1 0 2 0) 2).
Proof. split; vm_compute; reflexivity. Qed.
