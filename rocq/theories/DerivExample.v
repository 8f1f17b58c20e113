(** Concrete instances for the derivative theorems: an integral family meeting every hypothesis, a run of the
    kernel for one quartet, and the GAMESS order. *)
From Coq Require Import List Arith Lia Bool ZArith Ring.
Import ListNotations.
From Verif Require Import Base Cart Mdir Tables QList HRRStep HRRAlgo HRROrder HRRExec HRRExample VRRStep VRRExample Work Permute Driver Deriv DerivSpec.
Set Implicit Arguments.

(** Moments of two variables with means [u] and [-u], variances 0 and covariance 1. *)
Fixpoint mom (u : Z) (i j : nat) : Z :=
  match i with
  | 0 => Z.pow (- u) (Z.of_nat j)
  | S n => (u * mom u n j + Z.of_nat j * mom u n (j - 1))%Z
  end.
Lemma mom_S u i j : mom u (S i) j = (u * mom u i j + Z.of_nat j * mom u i (j - 1))%Z.
Proof. reflexivity. Qed.
Lemma mom_j u : forall i j, mom u i (S j) = (- u * mom u i j + Z.of_nat i * mom u (i - 1) j)%Z.
Proof.
  induction i as [|n IH]; intros j.
  - cbn [mom]. rewrite Nat2Z.inj_succ, Z.pow_succ_r by lia. cbn [Z.of_nat]. ring.
  - rewrite (mom_S u n (S j)), (mom_S u n j), IH. replace (S j - 1) with j by lia. replace (S n - 1) with n by lia.
    assert (K1 : (Z.of_nat n * mom u n j = u * Z.of_nat n * mom u (n - 1) j + Z.of_nat n * Z.of_nat j * mom u (n - 1) (j - 1))%Z).
    { destruct n as [|n]; [cbn [Z.of_nat]; ring|]. rewrite (mom_S u n j). replace (S n - 1) with n by lia. ring. }
    assert (K2 : (Z.of_nat j * mom u n j = - u * Z.of_nat j * mom u n (j - 1) + Z.of_nat j * Z.of_nat n * mom u (n - 1) (j - 1))%Z).
    { destruct j as [|j]; [cbn [Z.of_nat]; ring|]. rewrite (IH j). replace (S j - 1) with j by lia. ring. }
    rewrite !Nat2Z.inj_succ. clear IH. nia.
Qed.

Definition dx_u (d : dir) : Z := match d with DX => 1 | DY => 2 | DZ => -1 end%Z.
(** Coefficients: no distances, [1/2p] = [1/2q] = 1, [a/p] = [a/q] = -1, [1/2(p+q)] = 1. *)
Definition dx_K : @vcoef Zring :=
  @VC Zring (fun _ _ => 0%Z) (fun s d => match s with SB => dx_u d | SK => (- dx_u d)%Z end) (fun _ => 1%Z) (fun _ => (-1)%Z) 1%Z.
Definition bexp (d : dir) (q : qrt) : nat := gexp d (qa q) + gexp d (qb q).
Definition kexp (d : dir) (q : qrt) : nat := gexp d (qc q) + gexp d (qd q).
Definition dx_m (d : dir) (q : qrt) : Z := mom (dx_u d) (bexp d q) (kexp d q).
Definition dx_W (m : nat) (q : qrt) : Z := (dx_m DX q * dx_m DY q * dx_m DZ q)%Z.
Definition dx_rest (d : dir) (q : qrt) : Z :=
  match d with DX => dx_m DY q * dx_m DZ q | DY => dx_m DX q * dx_m DZ q | DZ => dx_m DX q * dx_m DY q end%Z.
Lemma dx_W_dir d m q : dx_W m q = (dx_m d q * dx_rest d q)%Z.
Proof. unfold dx_W, dx_rest. destruct d; ring. Qed.
Lemma gexp_up d e g : gexp d (up e g) = if dir_eq_dec d e then S (gexp d g) else gexp d g.
Proof. destruct g, d, e; reflexivity. Qed.
Lemma raise_other_dir c d e q : d <> e -> dx_m d (craise c e q) = dx_m d q.
Proof.
  intros N. unfold dx_m, bexp, kexp, craise. destruct q as [g1 g2 g3 g4], c; cbn [cset cget qa qb qc qd]; rewrite gexp_up;
    destruct (dir_eq_dec d e); congruence.
Qed.
Lemma dx_rest_raise c d q : dx_rest d (craise c d q) = dx_rest d q.
Proof. unfold dx_rest. destruct d; rewrite !raise_other_dir by discriminate; reflexivity. Qed.
Lemma exp_raise c d q : bexp d (craise c d q) = (if cside c then S (bexp d q) else bexp d q) /\
  kexp d (craise c d q) = (if cside c then kexp d q else S (kexp d q)).
Proof.
  unfold bexp, kexp, craise. destruct q as [g1 g2 g3 g4], c; cbn [cset cget qa qb qc qd cside]; rewrite gexp_up;
    destruct (dir_eq_dec d d); try congruence; lia.
Qed.

Definition dlow (s : side) (d : dir) (q : qrt) : Z :=
  (match s with SB => mom (dx_u d) (bexp d q - 1) (kexp d q) | SK => mom (dx_u d) (bexp d q) (kexp d q - 1) end * dx_rest d q)%Z.
Lemma dx_low f d q q' m : clower f d q = Some q' -> dx_W m q' = dlow (cside f) d q.
Proof.
  intros E. apply clower_some in E. subst q. rewrite (dx_W_dir d). unfold dlow, dx_m.
  rewrite dx_rest_raise. destruct (exp_raise f d q') as [-> ->].
  destruct (cside f); f_equal; f_equal; lia.
Qed.
Lemma dx_same s m f i q : cside f = s -> same_side_term dx_K dx_W s m f i q = 0%Z.
Proof.
  intros Hs. unfold same_side_term. destruct (clower f i q) as [q'|] eqn:E; [|reflexivity].
  rewrite !(dx_low _ _ _ _ E). unfold dx_K; cbn [k_h k_a]. zr. ring.
Qed.
Lemma dx_other m f i q : other_side_term dx_K dx_W m f i q = (Z.of_nat (gexp i (cget f q)) * dlow (cside f) i q)%Z.
Proof.
  unfold other_side_term. destruct (clower f i q) as [q'|] eqn:E.
  - rewrite !(dx_low _ _ _ _ E). rewrite ofnat_Z. unfold dx_K; cbn [k_hpq]. zr. ring.
  - apply clower_none in E. rewrite E. reflexivity.
Qed.
Lemma dx_family : os_family dx_K dx_W.
Proof.
  intros c i m q s. unfold s. clear s.
  rewrite (@dx_same _ m (lefts (cside c)) i q), (@dx_same _ m (rights (cside c)) i q) by (destruct c; reflexivity).
  rewrite !dx_other. rewrite (dx_W_dir i m (craise c i q)), (dx_W_dir i m q), (dx_W_dir i (S m) q), dx_rest_raise.
  unfold dx_m. destruct (exp_raise c i q) as [-> ->]. unfold dx_K; cbn [k_PA k_aPQ]. zr.
  destruct (cside c) eqn:Ec; cbn [lefts rights other cside].
  - rewrite mom_S. unfold dlow. replace (Z.of_nat (kexp i q)) with (Z.of_nat (gexp i (cget CK q)) + Z.of_nat (gexp i (cget CL q)))%Z
      by (unfold kexp; cbn [cget]; lia). ring.
  - rewrite mom_j. unfold dlow. replace (Z.of_nat (bexp i q)) with (Z.of_nat (gexp i (cget CI q)) + Z.of_nat (gexp i (cget CJ q)))%Z
      by (unfold bexp; cbn [cget]; lia). ring.
Qed.

(** Two primitive quartets with different exponents and weights. *)
Definition dx_e1 (x : ctr) : Z := match x with CI => 3 | CJ => -2 | CK => -4 | CL => 5 end%Z.
Definition dx_e2 (x : ctr) : Z := match x with CI => 7 | CJ => -6 | CK => 2 | CL => -1 end%Z.
Definition dx_prims : list (@pquart Zring) :=
  [@PQ Zring dx_K dx_W dx_e1; @PQ Zring dx_K (fun m q => (-3 * dx_W m q)%Z) dx_e2].
Lemma scaled_family (c : Z) : os_family dx_K (fun m q => (c * dx_W m q)%Z).
Proof.
  intros x i m q s. rewrite (dx_family x i m q). fold s. unfold same_side_term, other_side_term. zr.
  repeat match goal with |- context [match clower ?x ?i ?q with _ => _ end] => destruct (clower x i q) end; zr; ring.
Qed.

Definition dx_env (o : ordering) (se sg : nat) (c : qam) : @henv Zring :=
  @HEnv Zring (nodup dbl_eq_dec) penum o (dir_b (needed_am c)) (dir_k (needed_am c)) (fun _ => 0%Z) (fun _ => 0%Z) se sg (3 + qtotal c).
Definition dx_mem (o : ordering) (V : nat -> qrt -> Z) (p : hplan) : @hmem Zring := fun t =>
  if tmem t (hp_top p) then map (fun q => Some (V (tq_tag t) q)) (qtargets o (tq_am t))
  else repeat None (qncart (tq_am t)).
Lemma dx_pre (E : @henv Zring) (V : nat -> qrt -> Z) p : starts_x (e_o E) -> @hrr_pre Zring E p V (dx_mem (e_o E) V p).
Proof.
  intros Hs. split.
  - intros u _. unfold dx_mem. destruct (tmem u (hp_top p)).
    + rewrite map_length. apply qtargets_len, Hs.
    + apply repeat_length.
  - intros t q Ht Hq. unfold dx_mem. apply tmem_In in Ht. rewrite Ht.
    rewrite nth_error_map, <- Hq, qtargets_nth by exact Hs. reflexivity.
Qed.
Lemma dx_hyps se sg c : sg = 20 \/ sg = 0 -> qtotal c <= 17 ->
  let E := dx_env psi4 se sg c in
  enum_ok (e_enum E) /\ enum_ok (nodup tqam_eq_dec) /\ set_enum (e_enumc E) /\ e_o E = psi4 /\
  e_fuel E = 3 + qtotal c /\ table_ok_for E (needed_am c) /\ amax c <= 18 /\
  (forall p, In p dx_prims -> os_family (pq_K p) (pq_W p) /\ dist_ok E p /\ exps_ok (pq_K p) (pq_e p)) /\
  (forall hp, hrr_pre E hp (contracted_sum dx_prims) (dx_mem psi4 (contracted_sum dx_prims) hp)).
Proof.
  intros Hsg Hc E. split; [apply nodup_enum|]. split; [apply nodup_enum|]. split; [apply penum_set|].
  split; [reflexivity|]. split; [reflexivity|]. split; [|split; [|split]].
  - intros x Hx. pose proof (@request_small 1 c x Hx) as S. destruct x as [g [i j k m]]. unfold brac, ketc, dsum, qtotal in *.
    cbn [tq_am am0 am1 am2 am3 fst snd] in *. unfold E, dx_env; cbn [e_o e_sg].
    destruct Hsg as [-> | ->]; [left; lia|].
    right. split; [reflexivity|].
    apply in_needed in Hx as [x [_ [Ex|[m' [Em Ex]]]]].
    + injection Ex as _ Ex. unfold araise in Ex. destruct x; injection Ex as -> -> -> ->; lia.
    + injection Ex as _ Ex. subst m'. apply VRRAlgo.alower_tot in Em. unfold qtotal in Em. cbn [am0 am1 am2 am3] in Em. lia.
  - unfold amax, qtotal in *. lia.
  - assert (X : forall e, (e CI + e CJ = 1)%Z -> (e CK + e CL = 1)%Z -> @exps_ok Zring dx_K e).
    { intros e H1 H2. unfold exps_ok, dx_K; cbn [k_PA k_aPQ k_h k_a k_hpq].
      change (@cadd Zring) with Z.add. rewrite H1, H2. repeat split; intros; zr; ring. }
    intros p [<-|[<-|[]]]; cbn [pq_K pq_W pq_e].
    + split; [apply dx_family|]. split; [|apply X; reflexivity]. intros d. split; reflexivity.
    + split; [apply scaled_family|]. split; [|apply X; reflexivity]. intros d. split; reflexivity.
  - intros hp. apply (@dx_pre E). apply psi4_starts.
Qed.

(** The kernel for the second of two quartets, compared entry by entry. *)
Definition dx_check (se sg : nat) (c : qam) : bool :=
  let E := dx_env psi4 se sg c in
  let V := contracted_sum dx_prims in
  match hrr_create (e_enum E) (nodup tqam_eq_dec) psi4 (e_blf E) (e_klf E) (e_fuel E) (needed_am c) with
  | None => false
  | Some hp =>
    match run E hp (dx_mem psi4 V hp) (hp_order hp) with
    | None => false
    | Some M =>
      match form_deriv M c 1 (repeat None (24 * qncart c)) with
      | None => false
      | Some out =>
        forallb (fun q => forallb (fun x => forallb (fun d =>
          match nth_error out (12 * (qncart c + qindex psi4 q) + (3 * cidx x + idx_of_dir d)) with
          | Some v => opt_eqb v (Some (raise_lower V x d q)) | None => false end)
          [DX; DY; DZ]) [CI; CJ; CK; CL]) (qtargets psi4 c) &&
        existsb (fun v => match v with Some z => negb (Z.eqb z 0) | None => false end) out &&
        forallb (fun v => match v with None => true | Some _ => false end) (firstn (12 * qncart c) out)
      end
    end
  end.

(** With the GAMESS order the wrong components are combined. *)
Definition supplied_in (o : ordering) (V : nat -> qrt -> Z) (M : @hmem Zring) (am : list tqam) : Prop :=
  forall t q, In t am -> qclass q = tq_am t -> nth_error (M t) (qindex o q) = Some (Some (V (tq_tag t) q)).
Definition gx_V (g : nat) (q : qrt) : Z :=
  (Z.of_nat g * 1000 + Z.of_nat (gx (qa q)) * 100 + Z.of_nat (gy (qa q)) * 10 + Z.of_nat (gz (qa q)) + 5 * Z.of_nat (gx (qb q)))%Z.
Definition gx_M : @hmem Zring := fun t => map (fun q => Some (gx_V (tq_tag t) q)) (qtargets gamess (tq_am t)).
Definition gx_c : qam := QAM 2 3 0 0.
Definition gx_q : qrt := Q4 (G 0 2 0) (G 1 1 1) (G 0 0 0) (G 0 0 0).
Definition gx_out : option (list (option Z)) := @form_deriv Zring gx_M gx_c 0 (repeat None (12 * qncart gx_c)).
Definition gx_val : option Z :=
  match gx_out with
  | Some out => match nth_error out (12 * qindex gamess gx_q + 0) with Some v => v | None => None end
  | None => None
  end.
Lemma gamess_deriv_wrong : exists c (V : nat -> qrt -> Z) (M : @hmem Zring) out out' q x d v,
  amax c <= 18 /\ 12 * qncart c <= length out /\ supplied_in gamess V M (needed_am c) /\
  @form_deriv Zring M c 0 out = Some out' /\ qclass q = c /\ x <> missing_center c /\
  nth_error out' (12 * qindex gamess q + (3 * cidx x + idx_of_dir d)) = Some (Some v) /\
  v <> raise_lower (R := Zring) V x d q.
Proof.
  assert (Hv : gx_val = Some 1020%Z) by (vm_compute; reflexivity). unfold gx_val in Hv.
  destruct gx_out as [out'|] eqn:Eo; [|discriminate].
  destruct (nth_error out' (12 * qindex gamess gx_q + 0)) as [v|] eqn:Ev; [|discriminate]. subst v.
  exists gx_c, gx_V, gx_M, (repeat None (12 * qncart gx_c)), out', gx_q, CI, DX, 1020%Z.
  split; [vm_compute; lia|]. split; [rewrite repeat_length; lia|]. split.
  - intros t q Ht Hq. unfold gx_M. rewrite nth_error_map, <- Hq, qtargets_nth by apply gamess_starts. reflexivity.
  - split; [exact Eo|]. split; [reflexivity|]. split; [vm_compute; discriminate|]. split; [exact Ev|].
    vm_compute. discriminate.
Qed.

(** A function with the symmetries of a derivative block. *)
Definition px_I (A B C D a b c d k : nat) : Z :=
  let z := Z.of_nat in
  let own := match (k / 3)%nat with O => 10 * z A + z a | S O => 10 * z B + z b | S (S O) => 100 * (10 * z C + z c) | _ => 100 * (10 * z D + z d) end%Z in
  ((10 * z A + z a) * (10 * z B + z b) + 1000 * ((10 * z C + z c) * (10 * z D + z d)) + 100000 * (z (k mod 3)%nat + 1) * own)%Z.
Lemma px_I_sym : sym12 px_I.
Proof.
  split; intros A B C D a b c d i Hi; assert (E : i = 0 \/ i = 1 \/ i = 2) by lia;
    destruct E as [->|[->| ->]]; unfold px_I; cbn [Nat.add Nat.div Nat.modulo Nat.divmod fst snd Nat.sub]; repeat split; ring.
Qed.
Definition px_raw (s12 s34 : bool) (am : qam) (ret : nat) : list Z :=
  flat_map (fun q => flat_map (fun a => flat_map (fun b => flat_map (fun c => flat_map (fun d => map (fun k =>
    px_I (fst (exch s12 q (q + 7))) (snd (exch s12 q (q + 7))) (fst (exch s34 3 5)) (snd (exch s34 3 5)) a b c d k) (seq 0 12))
    (seq 0 (ncart (am3 am)))) (seq 0 (ncart (am2 am)))) (seq 0 (ncart (am1 am)))) (seq 0 (ncart (am0 am)))) (seq 0 ret).

(** The rationals, for the hypotheses with inverses. *)
From Coq Require Import QArith Qcanon.
Definition Qcring : cring := @CRing Qc 0%Qc 1%Qc Qcplus Qcmult Qcminus Qcopp Qcrt.
Definition qx_A : @PairData.shell Qcring :=
  @PairData.Shell Qcring 2 (fun ax => Q2Qc (Z.of_nat ax # 3)) (fun i => Q2Qc (Z.of_nat (S i) # 2)) (fun _ => 1%Qc).
Definition qx_B : @PairData.shell Qcring :=
  @PairData.Shell Qcring 1 (fun ax => Q2Qc (5 - Z.of_nat ax # 7)) (fun i => Q2Qc (7 # 5)) (fun _ => 1%Qc).
Lemma qx_hyps : let half := Q2Qc (1 # 2) in
  @cmul Qcring PairData.two half = c1 /\
  forall i, (i < 2)%nat ->
  (let p := @cadd Qcring (PairData.sh_alpha qx_A i) (PairData.sh_alpha qx_B 0) in
   let q := @cadd Qcring (PairData.sh_alpha qx_A i) (PairData.sh_alpha qx_A 1) in
   @cmul Qcring p (Qcinv p) = c1 /\ @cmul Qcring q (Qcinv q) = c1 /\ @cmul Qcring (@cadd Qcring p q) (Qcinv (@cadd Qcring p q)) = c1).
Proof.
  split; [apply Qc_is_canon; vm_compute; reflexivity|]. intros i Hi.
  assert (E : i = 0%nat \/ i = 1%nat) by lia. destruct E as [-> | ->]; repeat split; apply Qc_is_canon; vm_compute; reflexivity.
Qed.
