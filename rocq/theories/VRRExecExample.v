(** A concrete run of the emitted vertical code, used by the examples of [Prop_VRRExec]. *)
From Coq Require Import List Arith Lia Bool ZArith Permutation.
Import ListNotations.
From Verif Require Import Base Cart Tables Mdir GenHRR HRRAlgo HRRExec HRRExample VRRStep VRRAlgo VRROrder GenVRR VRRExec VRRExecSpec VRRExample.
Set Implicit Arguments.

Definition vx_par (o : ordering) (se sg : nat) : vpar :=
  VPar o (nodup qm_eq_dec) (nodup qrt_eq_dec) (@rev vstep) 6 se sg 2.
Lemma vx_par_ok o se sg : starts_x o -> par_ok (vx_par o se sg).
Proof.
  intros H. constructor; simpl.
  - apply nodup_enum.
  - apply nodup_enum.
  - intros l. apply Permutation_sym, Permutation_rev.
  - exact H.
Qed.

(** Requested: (ps|ds), (sp|ss) and (ss|sd). *)
Definition vx_init (o : ordering) : list qrt :=
  qtargets o (QAM 1 0 2 0) ++ qtargets o (QAM 0 1 0 0) ++ qtargets o (QAM 0 0 0 2).
Lemma vx_init_whole o : starts_x o -> whole_classes (vx_init o).
Proof.
  intros Ho q q' H E. unfold vx_init in *. rewrite !in_app_iff in *.
  rewrite !(in_qtargets _ _ Ho) in *. rewrite E. exact H.
Qed.
Definition vx_ords : list ctr := [CL; CJ; CI; CK].
Lemma vx_covers : covers vx_ords.
Proof. intros c. destruct c; simpl; tauto. Qed.

Definition vx_plan (o : ordering) (se sg : nat) : option vplan :=
  let P := vx_par o se sg in vrr_create (p_enum P) (p_enumq P) (p_fuel P) vx_ords (vx_init o).
(** (ss|ss) filled for the orders needed, everything else indeterminate. *)
Definition vx_mem (p : vplan) : @vmem Zring := fun a =>
  match get_mreq (vp_steps p) a with
  | Some m => if qam_eq_dec a ssss then map (fun n => Some (ex_W n (Q4 (G 0 0 0) (G 0 0 0) (G 0 0 0) (G 0 0 0)))) (seq 0 (S m))
              else repeat None (S m * qncart a)
  | None => []
  end.
Definition vx_check (o : ordering) (se sg : nat) : bool :=
  match vx_plan o se sg with
  | None => false
  | Some p =>
    match vrun (vx_par o se sg) ex_K (vp_steps p) (vx_mem p) (vp_order p) with
    | None => false
    | Some M => forallb (fun q => match nth_error (M (qclass q)) (qindex o q) with
         | Some v => opt_eqb v (Some (ex_W 0 q)) | None => false end) (vx_init o)
    end
  end.
Definition vx_modes (se sg : nat) : list emode := map (emode_of se sg) [0; 1; 2; 3].

Lemma vx_sizes p : sizes_ok (vp_steps p) (vx_mem p).
Proof.
  intros a m H. unfold vx_mem. rewrite H. destruct (qam_eq_dec a ssss) as [->|].
  - rewrite map_length, seq_length. change (qncart ssss) with 1. lia.
  - rewrite repeat_length. lia.
Qed.
Definition le18 (a : qam) : bool := forallb (fun c => aget c a <=? 18) [CI; CJ; CK; CL].
Definition pz (a : qam) : bool := ((am0 a =? 0) || (am1 a =? 0)) && ((am2 a =? 0) || (am3 a =? 0)).
Definition vx_mode_ok (se sg : nat) (a : qam) : bool :=
  match emode_of se sg (qtotal a) with Inline => true | External => pz a && (qtotal a <? 6) | General => le18 a end.
Lemma vx_mode se sg a : vx_mode_ok se sg a = true -> mode_ok (vx_par psi4 se sg) a.
Proof.
  unfold vx_mode_ok, mode_ok. simpl. destruct (emode_of se sg (qtotal a)); [tauto| |].
  - rewrite andb_true_iff. intros [H1 H2]. apply Nat.ltb_lt in H2. split; [|split; [exact H2|lia]].
    unfold pz in H1. rewrite andb_true_iff, !orb_true_iff, !Nat.eqb_eq in H1. exact H1.
  - intros H. split; [reflexivity|]. intros c. unfold le18 in H. rewrite forallb_forall in H.
    apply Nat.leb_le, H. destruct c; simpl; tauto.
Qed.

(** With the GAMESS order the table-driven routines give a wrong integral. *)
Definition vx_bad_q : qrt := Q4 (G 1 0 0) (G 0 0 0) (G 0 2 0) (G 0 0 0).
Definition vx_value (o : ordering) (se sg : nat) (q : qrt) : option (option Z) :=
  match vx_plan o se sg with
  | None => None
  | Some p => match vrun (vx_par o se sg) ex_K (vp_steps p) (vx_mem p) (vp_order p) with
              | None => None
              | Some M => nth_error (M (qclass q)) (qindex o q)
              end
  end.
Lemma vx_holds p m : get_mreq (vp_steps p) ssss = Some m ->
  forall n, n <= m -> nth_error (vx_mem p ssss) n = Some (Some (ex_W n (Q4 (G 0 0 0) (G 0 0 0) (G 0 0 0) (G 0 0 0)))).
Proof.
  intros Hm n Hn. unfold vx_mem. rewrite Hm. destruct (qam_eq_dec ssss ssss); [|congruence].
  rewrite nth_error_map, nth_error_seq by lia. reflexivity.
Qed.

Lemma vx_gamess_wrong : exists (P : vpar) ords init p (M M' : @vmem Zring) (q : qrt) (v : Z),
  p_o P = gamess /\ par_ok P /\ whole_classes init /\ covers ords /\
  vrr_create (p_enum P) (p_enumq P) (p_fuel P) ords init = Some p /\
  os_family ex_K ex_W /\ sizes_ok (vp_steps p) M /\ @holds_ssss Zring (p_o P) ex_W p M /\
  (forall a c, In a (vp_order p) -> aget c a <= 18) /\
  vrun P ex_K (vp_steps p) M (vp_order p) = Some M' /\ In q init /\
  nth_error (M' (qclass q)) (qindex (p_o P) q) = Some (Some v) /\ v <> ex_W 0 q.
Proof.
  destruct (vx_plan gamess 0 0) as [p|] eqn:Ep; [|vm_compute in Ep; discriminate].
  assert (Ec : forallb le18 (vp_order p) = true).
  { assert (X : match vx_plan gamess 0 0 with Some p => forallb le18 (vp_order p) | None => false end = true) by (vm_compute; reflexivity).
    rewrite Ep in X. exact X. }
  assert (Ev : vx_value gamess 0 0 vx_bad_q = Some (Some (-15)%Z)) by (vm_compute; reflexivity).
  unfold vx_value in Ev. rewrite Ep in Ev.
  destruct (vrun (vx_par gamess 0 0) ex_K (vp_steps p) (vx_mem p) (vp_order p)) as [M'|] eqn:Er; [|discriminate].
  exists (vx_par gamess 0 0), vx_ords, (vx_init gamess), p, (vx_mem p), M', vx_bad_q, (-15)%Z.
  split; [reflexivity|]. split; [apply vx_par_ok, gamess_starts|]. split; [apply vx_init_whole, gamess_starts|].
  split; [exact vx_covers|]. split; [exact Ep|]. split; [exact ex_family|]. split; [apply vx_sizes|].
  split; [intros n m' Hm Hn; apply (vx_holds p Hm Hn)|].
  split.
  { intros a c Ha. rewrite forallb_forall in Ec. specialize (Ec a Ha). unfold le18 in Ec. rewrite forallb_forall in Ec.
    apply Nat.leb_le, Ec. destruct c; simpl; tauto. }
  split; [exact Er|]. split; [|split; [exact Ev|vm_compute; discriminate]].
  unfold vx_init. apply in_app_iff. left. apply in_qtargets; [exact gamess_starts|reflexivity].
Qed.
