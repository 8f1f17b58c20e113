(** Concrete one-electron integrals. *)
From Coq Require Import List Arith Lia Bool ZArith QArith Qcanon.
Import ListNotations.
From Verif Require Import Base Cart Mdir PairData Deriv DerivExample OneE OneEInt Potential PotentialInt.
Local Open Scope nat_scope.

(** Two shells with two and one primitives; [sqrt], [exp] and the Boys function are arbitrary functions. *)
Definition ox_A (am : nat) : @oshell Qcring := @OS Qcring am qx_A.
Definition ox_B (am : nat) : @oshell Qcring := @OS Qcring am qx_B.
Definition ox_sqrt (x : Qc) : Qc := (x + 1)%Qc.
Definition ox_exp (x : Qc) : Qc := (x * x + 1)%Qc.
Definition ox_half : Qc := Q2Qc (1 # 2).
Definition ox_pi : Qc := Q2Qc (22 # 7).
Definition ox_boys (m : nat) (x : Qc) (n : nat) : Qc := (x + Q2Qc (Z.of_nat (n * n + m) # 5))%Qc.
Definition ox_overlap (A B : @oshell Qcring) := @compute_overlap Qcring Qcinv ox_sqrt ox_exp ox_half ox_pi A B.
Definition ox_ke (A B : @oshell Qcring) := @compute_ke Qcring Qcinv ox_sqrt ox_exp ox_half ox_pi A B.
Definition ox_out : list (option Qc) := repeat (Some (Q2Qc 9)) 20.
Definition opt_eqb (a b : option Qc) : bool :=
  match a, b with Some x, Some y => Qc_eq_bool x y | _, _ => false end.
(** The block of the first result is the transpose of that of the second and is not zero; the rest is kept. *)
Definition ox_check (f : @oshell Qcring -> @oshell Qcring -> list (option Qc) -> option (list (option Qc))) (am1 am2 : nat) : bool :=
  match f (ox_A am1) (ox_B am2) ox_out, f (ox_B am2) (ox_A am1) ox_out with
  | Some r1, Some r2 =>
    (length r1 =? 20) &&
    forallb (fun n => forallb (fun m => opt_eqb (@rdv Qcring r1 (n * ncart am2 + m)) (@rdv Qcring r2 (m * ncart am1 + n))
                                         && negb (opt_eqb (@rdv Qcring r1 (n * ncart am2 + m)) (Some 0%Qc)))
      (seq 0 (ncart am2))) (seq 0 (ncart am1)) &&
    forallb (fun p => opt_eqb (@rdv Qcring r1 p) (Some (Q2Qc 9))) (seq (ncart am1 * ncart am2) (20 - ncart am1 * ncart am2))
  | _, _ => false end.
Lemma ox_hyps : @cadd Qcring ox_half ox_half = c1 /\
  forall am1 am2 i j, i < sh_n (os_sh (ox_A am1)) -> j < sh_n (os_sh (ox_B am2)) ->
    let p := @cadd Qcring (sh_alpha (os_sh (ox_A am1)) i) (sh_alpha (os_sh (ox_B am2)) j) in
    @cmul Qcring p (Qcinv p) = c1.
Proof.
  split; [apply Qc_is_canon; vm_compute; reflexivity|]. intros am1 am2 i j Hi Hj. cbn in Hi, Hj.
  replace j with 0 by lia. assert (E : i = 0 \/ i = 1) by lia.
  destruct E as [-> | ->]; apply Qc_is_canon; vm_compute; reflexivity.
Qed.
Lemma ox_size am1 am2 : am1 <= 2 -> am2 <= 1 -> ncart am1 * ncart am2 <= length ox_out.
Proof.
  intros H1 H2. change (length ox_out) with 20.
  assert (E1 : am1 = 0 \/ am1 = 1 \/ am1 = 2) by lia. assert (E2 : am2 = 0 \/ am2 = 1) by lia.
  destruct E1 as [-> |[-> | ->]], E2 as [-> | ->]; vm_compute; lia.
Qed.
Lemma ox_met am1 am2 : am1 <= 2 -> am2 <= 1 ->
  ncart (os_am (ox_A am1)) * ncart (os_am (ox_B am2)) <= length ox_out /\
  exists F, forall i j d, @prim_overlaps Qcring Qcinv ox_sqrt ox_exp ox_half ox_pi (sh_alpha (os_sh (ox_A am1)) i) (sh_pos (os_sh (ox_A am1)))
     (sh_alpha (os_sh (ox_B am2)) j) (sh_pos (os_sh (ox_B am2))) d (F i j d).
Proof.
  intros H1 H2. split; [apply ox_size; assumption|].
  exists (@pair_sint Qcring Qcinv ox_sqrt ox_exp ox_half ox_pi (ox_A am1) (ox_B am2)). intros i j d. apply prim_sint_ok.
Qed.

(** Scratch arrays: all elements the same. *)
Definition wx (am1 am2 : nat) (v : option Qc) : @wmem Qcring :=
  fun i j => if (i <=? am1) && (j <=? am2) then repeat v (cap am1 am2) else [].
Lemma wx_shaped am1 am2 v : shaped am1 am2 (wx am1 am2 v).
Proof. intros i j. unfold wx. destruct ((i <=? am1) && (j <=? am2)); [apply repeat_length|reflexivity]. Qed.
Definition ox_centres (c d : nat) : Qc := Q2Qc (Z.of_nat (c + 2 * d) # 3).
Definition ox_charge (c : nat) : Qc := Q2Qc (Z.of_nat (c + 1) # 1).
Definition ox_pot (v : option Qc) (A B : @oshell Qcring) :=
  @compute_potential Qcring Qcinv ox_exp ox_half ox_pi ox_boys 2 ox_charge ox_centres A B (wx (os_am A) (os_am B) v).
Definition opts_eqb (a b : list (option Qc)) : bool :=
  (length a =? length b) && forallb (fun p => opt_eqb (fst p) (snd p)) (combine a b).
(** Same output from indeterminate and from zero scratch. *)
Definition ox_same (am1 am2 : nat) : bool :=
  match ox_pot None (ox_A am1) (ox_B am2) ox_out, ox_pot (Some 0%Qc) (ox_A am1) (ox_B am2) ox_out with
  | Some a, Some b => opts_eqb a b | _, _ => false end.

(** A run that computes with what happened to be in the scratch array: (s|p), auxiliary index 1. *)
Definition ox_left (v : option Qc) : option (option Qc) :=
  match @prim_pot Qcring Qcinv ox_exp ox_half ox_pi ox_boys 0 1 (sh_alpha qx_A 0) (sh_pos qx_A) (sh_alpha qx_B 0) (sh_pos qx_B)
          (ox_centres 0) (wx 0 1 v) with Some W => nth_error (W 0 1) 3 | None => None end.
Lemma scratch_used : ox_left None = Some None /\
  exists a b, ox_left (Some 0%Qc) = Some (Some a) /\ ox_left (Some 1%Qc) = Some (Some b) /\ a <> b.
Proof.
  split; [vm_compute; reflexivity|].
  exists (match ox_left (Some 0%Qc) with Some (Some a) => a | _ => 0%Qc end),
         (match ox_left (Some 1%Qc) with Some (Some a) => a | _ => 0%Qc end).
  split; [vm_compute; reflexivity|]. split; [vm_compute; reflexivity|].
  intros E. apply (f_equal (fun x => Qeq_bool (this x) (this (match ox_left (Some 0%Qc) with Some (Some a) => a | _ => 0%Qc end)))) in E.
  vm_compute in E. discriminate.
Qed.
