(** The four derivatives of a contracted quartet add up to zero, and the derivative kernel as a whole:
    horizontal recurrence, formation, permuted entries.
    Source: generator/ostei/OSTEIDeriv1_Writer.cpp:54-95 (contraction with exponents), 334-541, 690-885
    (coefficients of the recurrence), skel/simint/shell/shell.c:493-526. *)
From Coq Require Import List Arith Lia Bool ZArith Ring.
Import ListNotations.
From Verif Require Import Base Cart Tables Mdir RecurData Recur HRRStep HRRAlgo HRROrder GenHRR HRRExec VRRStep VRRAlgo Work
  Layout PairData Permute Driver Deriv.
Set Implicit Arguments.

Section Trans.
Context {R : cring}.
Add Ring RRt : (cth R).
Local Open Scope r_scope.

(** ** Primitive quartets *)
(** Exponents [e] (twice the exponent of each centre) against the coefficients of the recurrence. *)
Definition exps_ok (K : @vcoef R) (e : ctr -> R) : Prop :=
  (forall d, e CI * k_PA K CI d + e CJ * k_PA K CJ d = c0) /\
  (forall d, e CK * k_PA K CK d + e CL * k_PA K CL d = c0) /\
  (forall d, (e CI + e CJ) * k_aPQ K SB d + (e CK + e CL) * k_aPQ K SK d = c0) /\
  (e CI + e CJ) * k_h K SB = c1 /\ (e CK + e CL) * k_h K SK = c1 /\
  (e CI + e CJ) * k_hpq K + k_a K SK = c0 /\ (e CK + e CL) * k_hpq K + k_a K SB = c0.
Definition all4 (f : ctr -> R) : R := f CI + f CJ + f CK + f CL.
Definition lowered (W : qrt -> R) (x : ctr) (d : dir) (q : qrt) : R :=
  match clower x d q with Some q' => ofnat (gexp d (cget x q)) * W q' | None => c0 end.

Theorem prim_invariant (K : @vcoef R) W e d q : os_family K W -> exps_ok K e ->
  all4 (fun x => e x * W 0%nat (craise x d q)) = all4 (fun x => lowered (W 0%nat) x d q).
Proof.
  intros HW (E1 & E2 & E3 & E4 & E5 & E6 & E7). unfold all4, lowered.
  pose proof (HW CI d 0%nat q) as HI. pose proof (HW CJ d 0%nat q) as HJ.
  pose proof (HW CK d 0%nat q) as HK. pose proof (HW CL d 0%nat q) as HL.
  cbn [cside lefts rights other] in *. rewrite HI, HJ, HK, HL. clear HI HJ HK HL.
  unfold same_side_term, other_side_term. specialize (E1 d). specialize (E2 d). specialize (E3 d).
  set (w0 := W 0%nat q). set (w1 := W 1%nat q).
  assert (T : forall x s, cside x = s -> forall t u : R,
    t = match clower x d q with Some q' => ofnat (gexp d (cget x q)) * k_h K s * (W 0%nat q' + k_a K s * W 1%nat q') | None => c0 end ->
    u = match clower x d q with Some q' => ofnat (gexp d (cget x q)) * k_hpq K * W 1%nat q' | None => c0 end ->
    (match s with SB => e CI + e CJ | SK => e CK + e CL end) * t + (match s with SB => e CK + e CL | SK => e CI + e CJ end) * u =
    match clower x d q with Some q' => ofnat (gexp d (cget x q)) * W 0%nat q' | None => c0 end).
  { intros x s Hs t u -> ->. destruct (clower x d q) as [q'|]; [|ring].
    set (n := ofnat (gexp d (cget x q))). set (a := W 0%nat q'). set (b := W 1%nat q').
    destruct s.
    - transitivity (n * a * ((e CI + e CJ) * k_h K SB) + n * b * (((e CI + e CJ) * k_h K SB) * k_a K SB + (e CK + e CL) * k_hpq K)); [ring|].
      rewrite E4. transitivity (n * a + n * b * ((e CK + e CL) * k_hpq K + k_a K SB)); [ring|]. rewrite E7. ring.
    - transitivity (n * a * ((e CK + e CL) * k_h K SK) + n * b * (((e CK + e CL) * k_h K SK) * k_a K SK + (e CI + e CJ) * k_hpq K)); [ring|].
      rewrite E5. transitivity (n * a + n * b * ((e CI + e CJ) * k_hpq K + k_a K SK)); [ring|]. rewrite E6. ring. }
  pose proof (T CI SB eq_refl _ _ eq_refl eq_refl) as TI. pose proof (T CJ SB eq_refl _ _ eq_refl eq_refl) as TJ.
  pose proof (T CK SK eq_refl _ _ eq_refl eq_refl) as TK. pose proof (T CL SK eq_refl _ _ eq_refl eq_refl) as TL. clear T.
  rewrite <- TI, <- TJ, <- TK, <- TL. clear TI TJ TK TL.
  repeat match goal with |- context [match clower ?x d q with Some q' => @?f q' | None => c0 end] =>
    let v := fresh "t" in set (v := match clower x d q with Some q' => f q' | None => c0 end) end.
  match goal with |- ?l = ?r =>
    assert (X : l = r + ((e CI * k_PA K CI d + e CJ * k_PA K CJ d) * w0 + (e CK * k_PA K CK d + e CL * k_PA K CL d) * w0
      + ((e CI + e CJ) * k_aPQ K SB d + (e CK + e CL) * k_aPQ K SK d) * w1)) by ring end.
  rewrite X, E1, E2, E3. ring.
Qed.

(** ** Contracted quartets *)
(** One primitive quartet: coefficients, integrals, twice the four exponents. *)
Record pquart := PQ { pq_K : @vcoef R; pq_W : nat -> qrt -> R; pq_e : ctr -> R }.
(** Sum over the primitive quartets with the factor of the tag, OSTEIDeriv1_Writer.cpp:64-88. *)
Definition tag_factor (p : pquart) (g : nat) : R :=
  match g with 1 => pq_e p CI | 2 => pq_e p CJ | 3 => pq_e p CK | 4 => pq_e p CL | _ => c1 end.
Definition contracted_sum (l : list pquart) (g : nat) (q : qrt) : R :=
  rsum (map (fun p => tag_factor p g * pq_W p 0%nat q) l).

Lemma all4_sum A (f : A -> ctr -> R) l : all4 (fun x => rsum (map (fun a => f a x) l)) = rsum (map (fun a => all4 (f a)) l).
Proof. unfold all4. rewrite !rsum_map_add. reflexivity. Qed.
Lemma rsum_scale A (c : R) (f : A -> R) l : rsum (map (fun a => c * f a) l) = c * rsum (map f l).
Proof. induction l as [|a l IH]; cbn [map rsum]; [ring|rewrite IH; ring]. Qed.
Lemma rsum_sub A (f g : A -> R) l : rsum (map (fun a => f a - g a) l) = rsum (map f l) - rsum (map g l).
Proof. induction l as [|a l IH]; cbn [map rsum]; [ring|rewrite IH; ring]. Qed.

Lemma raise_lower_sum l x d q : raise_lower (contracted_sum l) x d q =
  rsum (map (fun p => pq_e p x * pq_W p 0%nat (craise x d q) - lowered (pq_W p 0%nat) x d q) l).
Proof.
  unfold raise_lower, contracted_sum, lowered. rewrite rsum_sub.
  assert (E : forall p : pquart, tag_factor p (dtag x) = pq_e p x) by (intros p; destruct x; reflexivity).
  f_equal; [apply rsum_map_ext; intros p _; rewrite E; reflexivity|].
  destruct (clower x d q) as [q'|].
  - rewrite <- rsum_scale. apply rsum_map_ext. intros p _. cbn [tag_factor]. ring.
  - clear. induction l as [|p l IH]; cbn [map rsum]; [reflexivity|rewrite <- IH; ring].
Qed.

Theorem contracted_invariant l d q :
  (forall p, In p l -> os_family (pq_K p) (pq_W p) /\ exps_ok (pq_K p) (pq_e p)) ->
  all4 (fun x => raise_lower (contracted_sum l) x d q) = c0.
Proof.
  intros H.
  assert (E : all4 (fun x => raise_lower (contracted_sum l) x d q) =
    all4 (fun x => rsum (map (fun p => pq_e p x * pq_W p 0%nat (craise x d q) - lowered (pq_W p 0%nat) x d q) l)))
    by (unfold all4; rewrite !raise_lower_sum; reflexivity).
  rewrite E, (all4_sum (fun p x => pq_e p x * pq_W p 0%nat (craise x d q) - lowered (pq_W p 0%nat) x d q)). clear E.
  induction l as [|p l IH]; [reflexivity|]. cbn [map rsum]. rewrite IH by (intros p' Hp; apply H; right; exact Hp).
  destruct (H p (or_introl eq_refl)) as [HW He]. pose proof (@prim_invariant _ _ _ d q HW He) as P.
  assert (Z : all4 (fun x => pq_e p x * pq_W p 0%nat (craise x d q) - lowered (pq_W p 0%nat) x d q) =
    all4 (fun x => pq_e p x * pq_W p 0%nat (craise x d q)) - all4 (fun x => lowered (pq_W p 0%nat) x d q))
    by (unfold all4; ring).
  rewrite Z, P. ring.
Qed.

Lemma free_is_formula V x d q : all4 (fun y => raise_lower V y d q) = c0 -> free_value V x d q = raise_lower V x d q.
Proof.
  unfold all4, free_value. intros H. destruct x; cbn [others].
  - transitivity (raise_lower V CI d q - (raise_lower V CI d q + raise_lower V CJ d q + raise_lower V CK d q + raise_lower V CL d q)); [ring|rewrite H; ring].
  - transitivity (raise_lower V CJ d q - (raise_lower V CI d q + raise_lower V CJ d q + raise_lower V CK d q + raise_lower V CL d q)); [ring|rewrite H; ring].
  - transitivity (raise_lower V CK d q - (raise_lower V CI d q + raise_lower V CJ d q + raise_lower V CK d q + raise_lower V CL d q)); [ring|rewrite H; ring].
  - transitivity (raise_lower V CL d q - (raise_lower V CI d q + raise_lower V CJ d q + raise_lower V CK d q + raise_lower V CL d q)); [ring|rewrite H; ring].
Qed.

(** ** The coefficients the kernel computes *)
Variables (inv : R -> R) (half : R).
(** One primitive pair as stored: [alpha], centre, [PA], [PB], [alpha2], [beta2]. *)
Record pdata := PDat { pd_alpha : R; pd_xyz : dir -> R; pd_PA : dir -> R; pd_PB : dir -> R; pd_a2 : R; pd_b2 : R }.
(** OSTEIDeriv1_Writer.cpp:735-747, 794-877. *)
Definition kernel_coefs (P Q : pdata) : @vcoef R :=
  let p := pd_alpha P in let q := pd_alpha Q in
  let one_over_sum := inv (p + q) in
  let alpha := (p * q) * one_over_sum in
  let pq d := pd_xyz P d - pd_xyz Q d in
  let a_over_p := - alpha * inv p in
  let a_over_q := alpha * inv q in
  VC (fun x d => match x with CI => pd_PA P d | CJ => pd_PB P d | CK => pd_PA Q d | CL => pd_PB Q d end)
     (fun s d => match s with SB => a_over_p * pq d | SK => a_over_q * pq d end)
     (fun s => match s with SB => half * inv p | SK => half * inv q end)
     (fun s => match s with SB => a_over_p | SK => - a_over_q end)
     (half * one_over_sum).
(** [cfac_2a] to [cfac_2d], lines 728-731 and 799-801. *)
Definition kernel_exps (P Q : pdata) (x : ctr) : R :=
  match x with CI => pd_a2 P | CJ => pd_b2 P | CK => pd_a2 Q | CL => pd_b2 Q end.
Definition pair_ok (P : pdata) : Prop :=
  pd_a2 P + pd_b2 P = two * pd_alpha P /\ forall d, pd_a2 P * pd_PA P d + pd_b2 P * pd_PB P d = c0.

Theorem kernel_exps_ok P Q : pair_ok P -> pair_ok Q -> two * half = c1 ->
  pd_alpha P * inv (pd_alpha P) = c1 -> pd_alpha Q * inv (pd_alpha Q) = c1 ->
  (pd_alpha P + pd_alpha Q) * inv (pd_alpha P + pd_alpha Q) = c1 ->
  exps_ok (kernel_coefs P Q) (kernel_exps P Q).
Proof.
  intros [SP GP] [SQ GQ] Hh Ip Iq Is. unfold exps_ok, kernel_coefs, kernel_exps.
  cbn [k_PA k_aPQ k_h k_a k_hpq]. rewrite SP, SQ.
  set (p := pd_alpha P) in *. set (q := pd_alpha Q) in *. set (s := inv (p + q)) in *.
  set (ip := inv p) in *. set (iq := inv q) in *.
  split; [exact GP|]. split; [exact GQ|]. split; [|split; [|split; [|split]]].
  - intros d. set (x := pd_xyz P d - pd_xyz Q d).
    transitivity (two * p * q * s * x * (q * iq) - two * p * q * s * x * (p * ip)); [ring|]. rewrite Ip, Iq. ring.
  - transitivity ((two * half) * (p * ip)); [ring|]. rewrite Hh, Ip. ring.
  - transitivity ((two * half) * (q * iq)); [ring|]. rewrite Hh, Iq. ring.
  - transitivity (((two * half) * p * s) - p * s * (q * iq)); [ring|]. rewrite Hh, Iq. ring.
  - transitivity (((two * half) * q * s) - q * s * (p * ip)); [ring|]. rewrite Hh, Ip. ring.
Qed.

(** What simint_fill_multi_shellpair2 stores is of that form. *)
Variables (expf : R -> R) (sqrt2pi52 : R).
Definition stored_pair (same : bool) (A B : @shell R) (i j : nat) : pdata :=
  let v a := prim_value inv expf sqrt2pi52 same A B a i j in
  PDat (v a_alpha) (fun d => v (APrim (idx_of_dir d))) (fun d => v (APrim (3 + idx_of_dir d)))
       (fun d => v (APrim (6 + idx_of_dir d))) (v AAlpha2) (v ABeta2).

Theorem stored_pair_ok same A B i j : (same = true -> B = A) ->
  (sh_alpha A i + sh_alpha B j) * inv (sh_alpha A i + sh_alpha B j) = c1 -> pair_ok (stored_pair same A B i j).
Proof.
  intros Hs Hi. unfold pair_ok, stored_pair. cbn [pd_a2 pd_b2 pd_alpha pd_PA pd_PB].
  assert (G : forall d, let v a := prim_value inv expf sqrt2pi52 same A B a i j in
     v (APrim (3 + idx_of_dir d)) = center inv A B i j (idx_of_dir d) - sh_pos A (idx_of_dir d) /\
     v (APrim (6 + idx_of_dir d)) = center inv A B i j (idx_of_dir d) - sh_pos B (idx_of_dir d)).
  { intros [| |]; split; reflexivity. }
  assert (C : forall ax, (sh_alpha A i + sh_alpha B j) * center inv A B i j ax = sh_alpha A i * sh_pos A ax + sh_alpha B j * sh_pos B ax).
  { intros ax. unfold center. transitivity ((sh_pos A ax * sh_alpha A i + sh_alpha B j * sh_pos B ax) * ((sh_alpha A i + sh_alpha B j) * inv (sh_alpha A i + sh_alpha B j))); [ring|].
    rewrite Hi. ring. }
  unfold prim_value at 1 2 4 6. unfold a_alpha. cbn [Nat.ltb Nat.leb Nat.eqb].
  split.
  - unfold prim_value. cbn [Nat.ltb Nat.leb Nat.eqb]. destruct (same && negb (i =? j)%nat); unfold two; ring.
  - intros d. destruct (G d) as [-> ->]. set (ax := idx_of_dir d). specialize (C ax).
    destruct same; cbn [andb].
    + rewrite (Hs eq_refl) in *. destruct (i =? j)%nat; cbn [negb].
      * transitivity (two * ((sh_alpha A i + sh_alpha A j) * center inv A A i j ax) - two * (sh_alpha A i * sh_pos A ax + sh_alpha A j * sh_pos A ax)); [ring|].
        rewrite C. ring.
      * transitivity (two * ((sh_alpha A i + sh_alpha A j) * center inv A A i j ax) - two * (sh_alpha A i * sh_pos A ax + sh_alpha A j * sh_pos A ax)); [unfold two; ring|].
        rewrite C. ring.
    + transitivity (two * ((sh_alpha A i + sh_alpha B j) * center inv A B i j ax) - two * (sh_alpha A i * sh_pos A ax + sh_alpha B j * sh_pos B ax)); [ring|].
      rewrite C. ring.
Qed.
End Trans.

(** ** Always a horizontal recurrence; the final class is not one of its arrays *)
Lemma in_needed c t : In t (needed_am c) -> exists x, x <> missing_center c /\
  (t = TQ (dtag x) (araise x c) \/ exists m, alower x c = Some m /\ t = TQ 0 m).
Proof.
  unfold needed_am. intros H. apply in_flat_map in H as [x [_ H]]. exists x.
  destruct (ctr_eq_dec x (missing_center c)); [destruct H|]. split; [assumption|].
  destruct H as [<-|H]; [left; reflexivity|]. right. destruct (alower x c) as [m|]; [|destruct H].
  destruct H as [<-|[]]. exists m. auto.
Qed.

Theorem deriv_hashrr c blf klf hp : plan_ok blf klf (needed_am c) hp ->
  (hp_bra hp <> [] \/ hp_ket hp <> []) /\ hp_order hp <> [].
Proof.
  intros HP.
  assert (S : exists t, In t (needed_am c) /\ (mvc blf (brac t) <> 0 \/ mvc klf (ketc t) <> 0)).
  { assert (B : (missing_center c <> CI /\ missing_center c <> CJ) \/ (missing_center c <> CK /\ missing_center c <> CL))
      by (destruct (missing_center c); [right|right|left|left]; split; discriminate).
    destruct B as [[B1 B2]|[B1 B2]].
    - exists (if blf then TQ (dtag CI) (araise CI c) else TQ (dtag CJ) (araise CJ c)). split.
      + destruct blf; apply needed_raised; congruence.
      + left. destruct blf; cbn; discriminate.
    - exists (if klf then TQ (dtag CK) (araise CK c) else TQ (dtag CL) (araise CL c)). split.
      + destruct klf; apply needed_raised; congruence.
      + right. destruct klf; cbn; discriminate. }
  destruct S as [t [Ht Hm]]. split.
  - assert (G : forall lf cls steps solved a b, side_plan_ok lf cls steps solved -> In (a, b) cls -> mvc lf (a, b) <> 0 -> steps <> []).
    { intros lf cls steps solved a b HS Hc Hn E. pose (d := D (G a 0 0) (G b 0 0)).
      assert (Ed : dclass d = (a, b)) by (unfold d, dclass, gam; cbn; f_equal; lia).
      destruct (sp_init HS d) as [Hs|Hs].
      - rewrite Ed. exact Hc.
      - apply (sp_tgt HS) in Hs as [h [Hh _]]. rewrite E in Hh. destruct Hh.
      - apply Hn. unfold moving in Hs. unfold d in Hs. destruct lf; cbn in *; unfold gam in Hs; cbn in Hs; lia. }
    destruct Hm as [Hm|Hm]; [left|right].
    + destruct (brac t) as [a b] eqn:Eb. apply (G _ _ _ _ a b (pl_bra HP)); [|exact Hm].
      unfold classes_bra. apply in_map_iff. exists t. split; [exact Eb|exact Ht].
    + destruct (ketc t) as [a b] eqn:Eb. apply (G _ _ _ _ a b (pl_ket HP)); [|exact Hm].
      unfold classes_ket. apply in_map_iff. exists t. split; [exact Eb|exact Ht].
  - intros E. destruct (pl_requested HP t Ht) as [K|K]; [rewrite E in K; destruct K|].
    destruct (pl_top HP t K) as (K1 & K2 & _). tauto.
Qed.

Theorem final_not_planned c blf klf hp t : plan_ok blf klf (needed_am c) hp ->
  In t (hp_order hp) \/ In t (hp_top hp) -> t <> TQ 0 c.
Proof.
  intros HP Ht E. subst t. destruct (pl_bound HP _ Ht) as [y (Y1 & Y2 & Y3 & Y4 & _)].
  apply in_needed in Y1 as [x [_ [->|[m [Em ->]]]]].
  - cbn [tq_tag] in Y2. destruct x; discriminate.
  - pose proof (@alower_tot x c m Em) as T. unfold qtotal in T. destruct c, m.
    unfold dsum, brac, ketc in Y3, Y4. cbn in Y3, Y4, T. lia.
Qed.

(** ** The whole kernel for one quartet *)
Section Whole.
Context {R : cring}.
Add Ring RRw : (cth R).
Local Open Scope r_scope.

Lemma craise_bra i a b (k : dbl) : craise CI i (qof (D a b) k) = qof (D (up i a) b) k /\
  craise CJ i (qof (D a b) k) = qof (D a (up i b)) k.
Proof. split; reflexivity. Qed.
Lemma craise_ket i (b : dbl) c d : craise CK i (qof b (D c d)) = qof b (D (up i c) d) /\
  craise CL i (qof b (D c d)) = qof b (D c (up i d)).
Proof. split; reflexivity. Qed.

(** Distances of the shells against those of the primitives. *)
Definition dist_ok (E : @henv R) (p : @pquart R) : Prop :=
  forall d, k_PA (pq_K p) CJ d = k_PA (pq_K p) CI d + e_AB E d /\ k_PA (pq_K p) CL d = k_PA (pq_K p) CK d + e_CD E d.
Lemma contracted_family E l : (forall p, In p l -> os_family (pq_K p) (pq_W p) /\ dist_ok E p) ->
  family E (contracted_sum l).
Proof.
  intros H g. unfold contracted_sum.
  assert (P : forall p, In p l -> forall i q,
    pq_W p 0%nat (craise CJ i q) = pq_W p 0%nat (craise CI i q) + e_AB E i * pq_W p 0%nat q /\
    pq_W p 0%nat (craise CL i q) = pq_W p 0%nat (craise CK i q) + e_CD E i * pq_W p 0%nat q).
  { intros p Hp i q. destruct (H p Hp) as [HW HD]. destruct (HD i) as [D1 D2].
    pose proof (HW CI i 0%nat q) as HI. pose proof (HW CJ i 0%nat q) as HJ.
    pose proof (HW CK i 0%nat q) as HK. pose proof (HW CL i 0%nat q) as HL.
    cbn [cside lefts rights other] in *. rewrite HI, HJ, HK, HL, D1, D2. split; ring. }
  split.
  - intros k a b i. rewrite <- rsum_scale, <- rsum_map_add. apply rsum_map_ext. intros p Hp.
    destruct (P p Hp i (qof (D a b) k)) as [E1 _].
    destruct (craise_bra i a b k) as [C1 C2]. rewrite C1, C2 in E1. rewrite E1. ring.
  - intros b c d i. rewrite <- rsum_scale, <- rsum_map_add. apply rsum_map_ext. intros p Hp.
    destruct (P p Hp i (qof b (D c d))) as [_ E1].
    destruct (craise_ket i b c d) as [C1 C2]. rewrite C1, C2 in E1. rewrite E1. ring.
Qed.

Theorem deriv_quartet E enumq c :
  enum_ok (e_enum E) -> enum_ok enumq -> set_enum (e_enumc E) -> e_o E = psi4 ->
  e_fuel E = (3 + qtotal c)%nat -> table_ok_for E (needed_am c) -> (amax c <= 18)%nat ->
  exists hp, hrr_create (e_enum E) enumq (e_o E) (e_blf E) (e_klf E) (e_fuel E) (needed_am c) = Some hp /\
    forall l M abcd out,
      (forall p, In p l -> os_family (pq_K p) (pq_W p) /\ dist_ok E p /\ exps_ok (pq_K p) (pq_e p)) ->
      hrr_pre E hp (contracted_sum l) M -> (12 * (S abcd * qncart c) <= length out)%nat ->
      exists M' out', run E hp M (hp_order hp) = Some M' /\ form_deriv M' c abcd out = Some out' /\
        length out' = length out /\
        (forall q x d, qclass q = c ->
           nth_error out' (12 * (abcd * qncart c + qindex psi4 q) + (3 * cidx x + idx_of_dir d))%nat =
             Some (Some (raise_lower (contracted_sum l) x d q))) /\
        (forall i, (i < 12 * (abcd * qncart c) \/ 12 * (S abcd * qncart c) <= i)%nat -> nth_error out' i = nth_error out i).
Proof.
  intros He Hq Hc Ho Hfu Ht Hm.
  assert (Hf : fuel_ok (e_blf E) (e_klf E) (needed_am c) (e_fuel E)).
  { intros x Hx. pose proof (@request_small 1 c x Hx) as S. rewrite Hfu. destruct x as [g [i j k m]].
    unfold qtotal in *. unfold brac, ketc, mvc. cbn [tq_am am0 am1 am2 am3 fst snd] in *.
    clear - S. destruct (e_blf E), (e_klf E); lia. }
  destruct (@hrr_code_correct R E enumq (needed_am c) He Hq Hc ltac:(rewrite Ho; apply psi4_starts) ltac:(lia) Hf Ht) as [hp [Ep HP]].
  exists hp. split; [exact Ep|]. intros l M abcd out Hl HM HL.
  destruct (HP (contracted_sum l) M) as [M' [Er [Hpost _]]].
  { apply contracted_family. intros p Hp. destruct (Hl p Hp) as (A & B & _). auto. }
  { exact HM. }
  destruct (@form_deriv_ok R (contracted_sum l) M' c abcd out Hm HL) as [out' [Ef [L [Vv O]]]].
  { intros t q Hin Hcl. rewrite <- Ho. apply Hpost; assumption. }
  exists M', out'. split; [exact Er|]. split; [exact Ef|]. split; [exact L|]. split; [|exact O].
  intros q x d Hcl. rewrite Vv by exact Hcl. f_equal. f_equal. unfold deriv_value.
  destruct (ctr_eq_dec (missing_center c) x); [|reflexivity]. apply free_is_formula, contracted_invariant.
  intros p Hp. destruct (Hl p Hp) as (A & _ & B). auto.
Qed.

(** The data stored by the shell pair routines meet the hypotheses on [p]. *)
Variables (inv expf : R -> R) (half sqrt2pi52 : R).
Theorem stored_meets sb sk (A B C D : @shell R) i j k l W :
  (sb = true -> B = A) -> (sk = true -> D = C) -> two * half = c1 ->
  (sh_alpha A i + sh_alpha B j) * inv (sh_alpha A i + sh_alpha B j) = c1 ->
  (sh_alpha C k + sh_alpha D l) * inv (sh_alpha C k + sh_alpha D l) = c1 ->
  (sh_alpha A i + sh_alpha B j + (sh_alpha C k + sh_alpha D l)) * inv (sh_alpha A i + sh_alpha B j + (sh_alpha C k + sh_alpha D l)) = c1 ->
  let P := stored_pair inv expf sqrt2pi52 sb A B i j in
  let Q := stored_pair inv expf sqrt2pi52 sk C D k l in
  let p := PQ (kernel_coefs inv half P Q) W (kernel_exps P Q) in
  exps_ok (pq_K p) (pq_e p) /\
  forall E : @henv R, (forall d, e_AB E d = sh_pos A (idx_of_dir d) - sh_pos B (idx_of_dir d)) ->
    (forall d, e_CD E d = sh_pos C (idx_of_dir d) - sh_pos D (idx_of_dir d)) -> dist_ok E p.
Proof.
  intros Hb Hk Hh I1 I2 I3 P Q p. split.
  - apply kernel_exps_ok; [apply stored_pair_ok; assumption|apply stored_pair_ok; assumption|exact Hh|exact I1|exact I2|exact I3].
  - intros E HA HC d. unfold p. cbn [pq_K kernel_coefs k_PA]. rewrite HA, HC. unfold P, Q, stored_pair. cbn [pd_PA pd_PB].
    destruct d; cbn [idx_of_dir prim_value Nat.add Nat.ltb Nat.leb Nat.sub]; split; ring.
Qed.
End Whole.

(** ** The formula is the derivative of the function *)
(** Pairs (value, derivative) with the product rule. *)
Section Dual.
Context {R : cring}.
Add Ring RRd : (cth R).
Local Open Scope r_scope.
Definition dadd (x y : R * R) : R * R := (fst x + fst y, snd x + snd y).
Definition dmul (x y : R * R) : R * R := (fst x * fst y, snd x * fst y + fst x * snd y).
Definition dsub (x y : R * R) : R * R := (fst x - fst y, snd x - snd y).
Definition dopp (x : R * R) : R * R := (- fst x, - snd x).
Lemma dual_th : ring_theory (c0, c0) (c1, c0) dadd dmul dsub dopp (@eq (R * R)).
Proof.
  constructor; repeat (intros [? ?] || intro); unfold dadd, dmul, dsub, dopp; cbn [fst snd]; f_equal; ring.
Qed.
Definition dual : cring := @CRing (R * R) (c0, c0) (c1, c0) dadd dmul dsub dopp dual_th.
End Dual.
Arguments dual : clear implicits.

(** x^i y^j z^k e^(-alpha r^2) f: [u] = position minus centre, [w] = the exponential, [f] = everything not
    depending on the centre. *)
Fixpoint pw {R : cring} (x : R) (n : nat) : R := match n with 0 => c1 | S m => (x * pw x m)%r end.
Definition gauss_value {R : cring} (u : dir -> R) (w f : R) (g : gauss) : R :=
  (pw (u DX) (gx g) * pw (u DY) (gy g) * pw (u DZ) (gz g) * w * f)%r.

Section Derivation.
Context {R : cring}.
Add Ring RRv : (cth R).
Local Open Scope r_scope.
(** The factors with their derivatives with respect to coordinate [d] of the centre. *)
Definition du (u : dir -> R) (d e : dir) : dual R := (u e, if dir_eq_dec e d then - c1 else c0).
Definition dw (u : dir -> R) (w alpha : R) (d : dir) : dual R := (w, (two * alpha) * u d * w).
Theorem raise_lower_derivative (u : dir -> R) (w f alpha : R) (d : dir) (g : gauss) :
  @gauss_value (dual R) (du u d) (dw u w alpha d) (f, c0) g =
  (gauss_value u w f g,
   (two * alpha) * gauss_value u w f (up d g) -
   match down d g with Some g' => ofnat (gexp d g) * gauss_value u w f g' | None => c0 end).
Proof.
  assert (P : forall e n, @pw (dual R) (du u d e) n =
    (pw (u e) n, (if dir_eq_dec e d then - c1 else c0) * ofnat n * pw (u e) (n - 1))).
  { intros e. induction n as [|n IH]; [cbn; f_equal; ring|].
    cbn [pw]. rewrite IH. unfold du. change (@cmul (dual R)) with (@dmul R). unfold dmul. cbn [fst snd].
    replace (S n - 1)%nat with n by lia. f_equal. cbn [ofnat].
    destruct n as [|n]; [cbn [pw ofnat Nat.sub]; ring|]. replace (S n - 1)%nat with n by lia. cbn [pw ofnat]. ring. }
  unfold gauss_value. rewrite !P. change (@cmul (dual R)) with (@dmul R). unfold dmul, dw. cbn [fst snd].
  f_equal.
  destruct g as [a b c]. destruct d; cbn [gx gy gz up gexp down]; cbn.
  - destruct (dir_eq_dec DX DX), (dir_eq_dec DY DX), (dir_eq_dec DZ DX); try congruence.
    destruct a as [|a]; cbn [pw ofnat gx gy gz Nat.sub]; [ring|]. rewrite ?Nat.sub_0_r. ring.
  - destruct (dir_eq_dec DX DY), (dir_eq_dec DY DY), (dir_eq_dec DZ DY); try congruence.
    destruct b as [|b]; cbn [pw ofnat gx gy gz Nat.sub]; [ring|]. rewrite ?Nat.sub_0_r. ring.
  - destruct (dir_eq_dec DX DZ), (dir_eq_dec DY DZ), (dir_eq_dec DZ DZ); try congruence.
    destruct c as [|c]; cbn [pw ofnat gx gy gz Nat.sub]; [ring|]. rewrite ?Nat.sub_0_r. ring.
Qed.
End Derivation.
