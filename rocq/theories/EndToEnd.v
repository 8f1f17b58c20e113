(** A whole kernel: from the shells to the contracted integrals.
    Source: generator/ostei/ostei_generator.cpp:76-110 (what is created from what),
    generator/ostei/OSTEI_Writer.cpp:321-754 (Write_Full_; here 517-548 and 595-700: the work of one
    vector), generator/ostei/OSTEI_HRR_Writer.cpp:119-200 (HRR of one shell quartet),
    skel/simint/shell/shell.c:425-582 (the block the kernel reads).

    Simplifications: those of [Kernel], [VRRExec], [HRRExec], [Layout] and [PairData], which this file puts
    together.  The square root, exponential, reciprocal and Boys function are arbitrary functions; values
    are elements of a ring.  A read outside the block or of an entry never written gives 0: only lanes
    masked by a zero prefactor do that (the statements name the entry for every other read). *)
From Coq Require Import List Arith ZArith Lia Bool Ring QArith.
Import ListNotations.
From Verif Require Import Base Simd Cart Mdir Contract Offsets Starts Kernel HRRStep HRRAlgo HRROrder GenHRR HRRExec
  VRRStep VRRAlgo VRROrder VRRExec VRRExecSpec KernelSpec Layout Create PairData Recur Deriv DerivSpec OSFamily Work.
Set Implicit Arguments.
Local Open Scope nat_scope.

(** ** Facts about the plans *)
Lemma dsum_hreq lf c : mvc lf c <> 0 -> dsum (fst (hreq lf c)) = dsum c /\ S (mvc lf (fst (hreq lf c))) = mvc lf c.
Proof. destruct c as [a b]. unfold mvc, dsum, hreq. destruct lf; cbn [fst snd]; lia. Qed.
Lemma tq_total t : qtotal (tq_am t) = dsum (brac t) + dsum (ketc t).
Proof. unfold qtotal, dsum, brac, ketc. cbn [fst snd]. lia. Qed.
(** Some top class has all the momentum of the final class. *)
Lemma top_full blf klf c hp : plan_ok blf klf [TQ 0 c] hp -> exists t, In t (hp_top hp) /\ qtotal (tq_am t) = qtotal c.
Proof.
  intros HP.
  assert (G : forall n t, mvc blf (brac t) + mvc klf (ketc t) <= n -> In t (hp_order hp) \/ In t (hp_top hp) ->
     exists u, In u (hp_top hp) /\ qtotal (tq_am u) = qtotal (tq_am t)).
  { induction n as [|n IH]; intros t Hn [Ht|Ht]; try (exists t; split; [exact Ht|reflexivity]).
    - destruct (pl_kind HP _ Ht) as [(_ & K & _)|(_ & _ & K & _)]; lia.
    - destruct (in_split _ _ Ht) as (l1 & l2 & El). pose proof (pl_before HP _ _ _ El) as [B1 B2].
      destruct (pl_kind HP _ Ht) as [(K1 & K2 & _)|(K1 & K0 & K2 & _)].
      + specialize (B1 K1). destruct B1 as [B1 _]. destruct (dsum_hreq klf (ketc t) K2) as [D1 D2].
        set (u := with_ket t (fst (hreq klf (ketc t)))) in *.
        assert (Ek : ketc u = fst (hreq klf (ketc t))) by (unfold u; generalize (hreq klf (ketc t)); intros [[? ?] ?]; reflexivity).
        assert (Eb : brac u = brac t) by reflexivity.
        destruct (IH u) as [v [Hv Ev]].
        * rewrite Ek, Eb. lia.
        * destruct B1 as [B1|B1]; [left; rewrite El; apply in_or_app; left; exact B1|right; exact B1].
        * exists v. split; [exact Hv|]. rewrite Ev, !tq_total, Ek, Eb. lia.
      + specialize (B2 K1). destruct B2 as [B2 _]. destruct (dsum_hreq blf (brac t) K2) as [D1 D2].
        set (u := with_bra t (fst (hreq blf (brac t)))) in *.
        assert (Ek : brac u = fst (hreq blf (brac t))) by (unfold u; generalize (hreq blf (brac t)); intros [[? ?] ?]; reflexivity).
        assert (Eb : ketc u = ketc t) by reflexivity.
        destruct (IH u) as [v [Hv Ev]].
        * rewrite Ek, Eb. lia.
        * destruct B2 as [B2|B2]; [left; rewrite El; apply in_or_app; left; exact B2|right; exact B2].
        * exists v. split; [exact Hv|]. rewrite Ev, !tq_total, Ek, Eb. lia. }
  apply (G _ (TQ 0 c) (le_n _)). apply (pl_requested HP). left; reflexivity.
Qed.
Lemma top_small blf klf c hp t : plan_ok blf klf [TQ 0 c] hp -> In t (hp_top hp) ->
  tq_tag t = 0 /\ qtotal (tq_am t) <= qtotal c /\ pair_zero (tq_am t).
Proof.
  intros HP Ht. destruct (pl_bound HP t (or_intror Ht)) as [y ([<-|[]] & Y2 & Y3 & Y4 & _)].
  destruct (pl_top HP t Ht) as (Z1 & Z2 & _). split; [exact Y2|]. split.
  - rewrite !tq_total. change (qtotal c) with (qtotal (tq_am (TQ 0 c))). rewrite tq_total. lia.
  - unfold pair_zero, mvc, brac, ketc in *. cbn [fst snd] in *. destruct blf, klf; split; auto.
Qed.

(** The highest order of (ss|ss) is the momentum of the largest request. *)
Lemma lower_amreq rr a : aget rr a <> 0 -> exists r, In r (amreq rr a) /\ S (qtotal r) = qtotal a.
Proof.
  intros H. destruct (alower rr a) as [r|] eqn:E.
  - exists r. split; [|apply alower_tot in E; lia]. apply amreq_src. exists [rr], true. split; [destruct rr; cbn; tauto|].
    split; [reflexivity|]. cbn [alowers]. rewrite E. reflexivity.
  - exfalso. destruct a as [x y z w], rr; cbn in *; [destruct x|destruct y|destruct z|destruct w]; congruence.
Qed.

Lemma ssss_order ords init p m q : vplan_ok ords init p -> covers ords -> get_mreq (vp_steps p) ssss = Some m ->
  whole_classes init -> In q init -> qtotal (qclass q) <= m.
Proof.
  intros HV Hc Hm Hw Hq.
  assert (G : forall n a M, qtotal a <= n -> (known p a \/ a = ssss) -> get_mreq (vp_steps p) a = Some M -> M + qtotal a <= m).
  { induction n as [|n IH]; intros a M Hn Ha HM.
    - assert (a = ssss) by (apply qtotal_0; lia). subst a. assert (M = m) by congruence. change (qtotal ssss) with 0. lia.
    - destruct (qam_eq_dec a ssss) as [->|Na]; [assert (M = m) by congruence; change (qtotal ssss) with 0; lia|].
      destruct Ha as [Ha|Ha]; [|contradiction].
      destruct (vo_mreq HV Ha) as (M0 & rr & E0 & Ed & _ & Hr). assert (M0 = M) by congruence. subst M0.
      destruct (@lower_amreq rr a (proj1 (vdir_some _ _ Ed))) as [r [Hin Et]].
      destruct (Hr r Hin) as [M' [EM' HM']].
      assert (M' + qtotal r <= m); [|lia]. apply IH; [lia| |exact EM'].
      destruct (qam_eq_dec r ssss) as [->|Nr]; [right; reflexivity|left].
      assert (Dn : vdir ords r <> None) by (rewrite covers_dir by exact Hc; exact Nr).
      destruct (@req_solved _ _ _ _ _ (vo_steps HV) Hw a rr r Ha Ed Hin Dn) as [m' K].
      exists (pure r), m'. split; [exact K|apply pure_class]. }
  destruct (qam_eq_dec (qclass q) ssss) as [E|N]; [rewrite E; change (qtotal ssss) with 0; lia|].
  assert (Hk : known p (qclass q)).
  { exists q, 0. split; [|reflexivity]. apply (so_exact (vo_steps HV)). split; [apply vr_init, Hq|].
    rewrite covers_dir by exact Hc. exact N. }
  destruct (vo_mreq HV Hk) as (M & _ & EM & _). pose proof (@G _ _ _ (le_n _) (or_introl Hk) EM). lia.
Qed.
(** No class of the vertical plan exceeds a requested one on any centre. *)
Lemma known_below ords init p a : vplan_ok ords init p -> known p a ->
  exists q, In q init /\ forall c, aget c a <= aget c (qclass q).
Proof.
  intros HV [q [m [Hs <-]]]. apply (so_exact (vo_steps HV)) in Hs as [Hr _].
  induction Hr as [q Hq|q m c s x q' Hr [q1 [Hq1 L1]] Hd Hs Hx Hq].
  - exists q. auto.
  - exists q1. split; [exact Hq1|]. intros c'. eapply Nat.le_trans; [|apply L1].
    apply (@amreq_le c (qclass q)). apply (src_in_amreq _ _ _ _ Hs Hx). apply (src_class _ _ _ _ Hs Hx Hq).
Qed.

Lemma enum_single A (enum : list A -> list A) x : enum_ok enum -> enum [x] = [x].
Proof.
  intros H. destruct (H [x]) as [N I]. destruct (enum [x]) as [|a l].
  - exfalso. apply (proj2 (I x)). left; reflexivity.
  - assert (a = x) by (destruct (proj1 (I a) (or_introl eq_refl)) as [E|[]]; auto). subst a.
    destruct l as [|b l]; [reflexivity|]. exfalso. inversion N; subst.
    destruct (proj1 (I b) (or_intror (or_introl eq_refl))) as [E|[]]. subst b. apply H2. left; reflexivity.
Qed.
Lemma enum_nil A (enum : list A -> list A) : enum_ok enum -> enum [] = [].
Proof. intros H. destruct (H []) as [_ I]. destruct (enum []) as [|a l]; [reflexivity|]. exfalso. apply (proj1 (I a)). left; reflexivity. Qed.

(** Without a horizontal part the final class is the only top class. *)
Lemma no_hrr_top enum enumq o blf klf fuel c hp :
  enum_ok enumq -> plan_ok blf klf [TQ 0 c] hp ->
  hrr_create enum enumq o blf klf fuel [TQ 0 c] = Some hp -> hp_bra hp = [] -> hp_ket hp = [] -> hp_top hp = [TQ 0 c].
Proof.
  intros Hq HP E Eb Ek.
  assert (Sb : hp_brasol hp = []).
  { destruct (hp_brasol hp) as [|d l] eqn:Es; [reflexivity|]. exfalso.
    assert (K : In d (hp_brasol hp)) by (rewrite Es; left; reflexivity).
    apply (sp_tgt (pl_bra HP)) in K as [h [Hh _]]. rewrite Eb in Hh. destruct Hh. }
  assert (Sk : hp_ketsol hp = []).
  { destruct (hp_ketsol hp) as [|d l] eqn:Es; [reflexivity|]. exfalso.
    assert (K : In d (hp_ketsol hp)) by (rewrite Es; left; reflexivity).
    apply (sp_tgt (pl_ket HP)) in K as [h [Hh _]]. rewrite Ek in Hh. destruct Hh. }
  unfold hrr_create in E. destruct (hcreate enum o klf fuel _) as [[ks ksol]|]; [|discriminate].
  destruct (hcreate enum o blf fuel _) as [[bs bsol]|]; [|discriminate].
  destruct (amorder _ _ _ _ _ _ _ _) as [s|] eqn:Ea; [|discriminate].
  apply (f_equal (fun x => match x with Some h => h | None => hp end)) in E. subst hp. cbn [hp_brasol hp_ketsol hp_top hp_bra hp_ket] in *. subst.
  destruct fuel as [|fuel]; [discriminate|]. cbn [amorder] in Ea. rewrite (@enum_single _ _ _ Hq) in Ea.
  cbn in Ea. apply (f_equal (fun x => match x with Some h => os_top h | None => [] end)) in Ea. cbn in Ea. symmetry. exact Ea.
Qed.

(** ** The model *)
Section Model.
Context {R : cring}.
Add Ring Rring_e2e : (cth R).
Variables (inv expf sqrtf : R -> R) (boys : nat -> R -> R) (half sqrt2pi52 : R).
Local Open Scope r_scope.
Local Open Scope nat_scope.

(** *** A batch of shell pairs as the kernel sees it *)
(** The shells, what [simint_allocate_multi_shellpair2] and [simint_fill_multi_shellpair2] were called with,
    and the block. *)
Record pairs := Pairs { ps_n : nat; ps_A : nat -> @shell R; ps_B : nat -> @shell R; ps_same : nat -> bool;
                        ps_meth : method; ps_deriv : bool }.
Definition ps_pr (S : pairs) (t : nat) : spair := SP (sh_n (ps_A S t)) (sh_n (ps_B S t)) (ps_same S t).
(** [kf]: screen values as integers, see [Sort]. *)
Definition ps_create (len nss : nat) (S : pairs) (kf : option dval -> Z) : option (list (option dval)) :=
  create len nss (ps_meth S) (ps_deriv S) (ps_n S) (ps_pr S) kf.
(** What a symbolic entry of the block stands for. *)
Definition dv (S : pairs) (x : dval) : R :=
  match x with
  | Of a t i j => prim_value inv expf sqrt2pi52 (ps_same S t) (ps_A S t) (ps_B S t) a i j
  | Dist ax t => csub (sh_pos (ps_A S t) ax) (sh_pos (ps_B S t) ax)
  | Zero => c0
  | One => c1
  end.
Definition rd (len nss : nat) (S : pairs) (m : list (option dval)) (a : arr) (q : nat) : R :=
  match nth_error m (off len nss (ps_meth S) (ps_deriv S) (ps_n S) (ps_pr S) a + q) with
  | Some (Some x) => dv S x
  | _ => c0
  end.

(** The screen array; [sv]: the screen value of a primitive pair. *)
Definition scr_rd (len nss : nat) (S : pairs) (m : list (option dval)) (sv : nat -> nat -> nat -> Q) (q : nat) : Q :=
  match nth_error m (off len nss (ps_meth S) (ps_deriv S) (ps_n S) (ps_pr S) AScreen + q) with
  | Some (Some (Of AScreen t i j)) => sv t i j
  | _ => 0
  end.

(** *** One vector *)
(** [x, y, z, PA, PB, alpha] of one primitive, OSTEI_Writer.cpp:528-559, 595-605, 629-650. *)
Definition geo (f : arr -> R) : list R := map (fun k => f (APrim k)) (seq 0 10).
Definition gdat (g : list R) : @pdata R :=
  PDat (nth 9 g c0) (fun d => nth (idx_of_dir d) g c0) (fun d => nth (3 + idx_of_dir d) g c0)
       (fun d => nth (6 + idx_of_dir d) g c0) c0 c0.
(** Lines 595-700: (ss|ss)^(n) after multiplication with the prefactor. *)
Definition ssss_start (P Q : @pdata R) (ppf qpf : R) (n : nat) : R :=
  let one_over_sum := inv (cadd (pd_alpha P) (pd_alpha Q)) in
  let pq d := csub (pd_xyz P d) (pd_xyz Q d) in
  let R2 := cadd (cadd (cmul (pq DX) (pq DX)) (cmul (pq DY) (pq DY))) (cmul (pq DZ) (pq DZ)) in
  let alpha := cmul (cmul (pd_alpha P) (pd_alpha Q)) one_over_sum in
  let fx := cmul R2 alpha in
  let prefac := cmul (cmul ppf qpf) (sqrtf one_over_sum) in
  cmul (boys n fx) prefac.

(** The arrays before the vertical recurrence: one per class, orders 0 to its maximum (line 374-385 of the
    writer and [PrimSize]); the loop over [n <= L] writes [L + 1] entries of (ss|ss). *)
Definition prim_arrays (vp : vplan) (L : nat) (u : nat -> R) : option (@vmem R) :=
  match get_mreq (vp_steps vp) ssss with
  | Some m =>
    if L <=? m then
      Some (fun a => if qam_eq_dec a ssss
                     then map (fun n => Some (u n)) (seq 0 (S L)) ++ repeat None (m - L)
                     else repeat None (match get_mreq (vp_steps vp) a with Some k => S k * qncart a | None => 0 end))
    else None
  | None => None
  end.
(** All entries determined. *)
Fixpoint somes_all (l : list (option R)) : option (list R) :=
  match l with
  | [] => Some []
  | Some x :: r => match somes_all r with Some l' => Some (x :: l') | None => None end
  | None :: _ => None
  end.
(** Components accumulated: the arrays of the top classes one after another, order zero. *)
Definition comps (tops : list tqam) : list (tqam * nat) :=
  flat_map (fun t => map (pair t) (seq 0 (qncart (tq_am t)))) tops.
Definition one_vector (P : vpar) (vp : vplan) (tops : list tqam) (L : nat) (gP gQ : list R) (ppf qpf : R) : option (list R) :=
  match prim_arrays vp L (ssss_start (gdat gP) (gdat gQ) ppf qpf) with
  | None => None
  | Some M =>
    match vrun P (kernel_coefs inv half (gdat gP) (gdat gQ)) (vp_steps vp) M (vp_order vp) with
    | None => None
    | Some M' => somes_all (map (fun x => match nth_error (M' (tq_am (fst x))) (snd x) with Some v => v | None => None end) (comps tops))
    end
  end.

(** *** HRR of one shell quartet *)
Definition at_dist (E : @henv R) (AB CD : dir -> R) : @henv R :=
  HEnv (e_enum E) (e_enumc E) (e_o E) (e_blf E) (e_klf E) AB CD (e_se E) (e_sg E) (e_fuel E).
Definition tk_eq_dec (x y : tqam * nat) : {x = y} + {x <> y}.
Proof. decide equality; [apply Nat.eq_dec|apply tqam_eq_dec]. Defined.
(** The top arrays hold the accumulated components, the others are indeterminate. *)
Definition hrr_arrays (tops : list tqam) (l : list R) : @hmem R :=
  fun t => map (fun k => match find_pos (fun y => if tk_eq_dec y (t, k) then true else false) (comps tops) with
                         | Some n => nth_error l n | None => None end) (seq 0 (qncart (tq_am t))).
Definition one_quartet (E : @henv R) (hp : hplan) (tops : list tqam) (c : qam) (AB CD : dir -> R) (l : list R) : option (list R) :=
  match run (at_dist E AB CD) hp (hrr_arrays tops l) (hp_order hp) with
  | None => None
  | Some M' => somes_all (map (fun k => match nth_error (M' (TQ 0 c)) k with Some v => v | None => None end) (seq 0 (qncart c)))
  end.

(** *** The kernel of class [c] *)
Record gen := Gen { g_E : @henv R; g_enumq : list tqam -> list tqam; g_enumt : list tqam -> list tqam; g_P : vpar }.
Definition plans (g : gen) (c : qam) : option (hplan * vplan) :=
  let E := g_E g in
  match hrr_create (e_enum E) (g_enumq g) (e_o E) (e_blf E) (e_klf E) (e_fuel E) [TQ 0 c] with
  | None => None
  | Some hp =>
    let init := flat_map (fun t => qtargets (e_o E) (tq_am t)) (g_enumt g (hp_top hp)) in
    match vrr_create (p_enum (g_P g)) (p_enumq (g_P g)) (p_fuel (g_P g)) (idx_order init) init with
    | None => None
    | Some vp => Some (hp, vp)
    end
  end.
(** [HasHRR], OSTEI_HRR_Algorithm_Base.cpp:331-334. *)
Definition hashrr (hp : hplan) : bool := match hp_bra hp, hp_ket hp with [], [] => false | _, _ => true end.
Definition dflt (n : nat) (l : option (list R)) : R := match l with Some l => nth n l c0 | None => c0 end.

(** [nprim12], [nshell12_clip], [screen], [screen_max]. *)
Definition batch_of (S : pairs) (clip : nat) (scr : nat -> Q) (scrmax : Q) : batch :=
  Batch (fun t => sp_np (ps_pr S t)) clip scr scrmax.
Definition whole_kernel (g : gen) (c : qam) (k : call_kind) (len nss : nat)
  (bra ket : pairs) (mb mk : list (option dval)) (BP BK : batch) (tol : Q) (zf : bool) (out : list R) : option (list R * nat) :=
  match plans g c with
  | None => None
  | Some (hp, vp) =>
    let tops := g_enumt g (hp_top hp) in
    let nc := length (comps tops) in
    let rP := rd len nss bra mb in
    let rK := rd len nss ket mk in
    let val i j pf n := dflt n (one_vector (g_P g) vp tops (qtotal c) (geo (fun a => rP a i)) (geo (fun a => rK a j)) (rP a_prefac i) pf) in
    if hashrr hp then
      kernel_hrr len nss nc BP BK (rK a_prefac) val tol zf (call_of k len nc) (qncart c)
        (fun ab cd f n => dflt n (one_quartet (g_E g) hp tops c (fun d => rP (ADist (idx_of_dir d)) ab) (fun d => rK (ADist (idx_of_dir d)) cd) (map f (seq 0 nc)))) out
    else kernel len nss nc BP BK (rK a_prefac) val tol zf (call_of k len nc) out
  end.
End Model.

(** ** Specification *)
Section Spec.
Context {R : cring}.
Add Ring Rring_e2es : (cth R).
Variables (inv expf sqrtf : R -> R) (boys : nat -> R -> R) (half sqrt2pi52 : R).
Local Open Scope r_scope.

(** Primitive integral over unnormalised Gaussians with exponents [a, b, c, d] at [A, B, C, D]: the solution of
    the vertical recurrence with
    p = a + b, P = (aA + bB)/p, rho = pq/(p+q), W = weighted centre, and
    (ss|ss)^(n) = 2 pi^(5/2) / (p q sqrt(p+q)) E_ab E_cd F_n(rho |P-Q|^2)   ([sqrt2pi52]^2 = 2 pi^(5/2)). *)
Record gauss := Gauss { g_exp : R; g_at : dir -> R }.
Definition gp (a b : gauss) : R := g_exp a + g_exp b.
Definition gcen (a b : gauss) (d : dir) : R := (g_exp a * g_at a d + g_exp b * g_at b d) * inv (gp a b).
Definition dist2 (u v : dir -> R) : R :=
  (u DX - v DX) * (u DX - v DX) + (u DY - v DY) * (u DY - v DY) + (u DZ - v DZ) * (u DZ - v DZ).
Definition overlap_exp (a b : gauss) : R := expf (- (g_exp a * g_exp b * inv (gp a b) * dist2 (g_at a) (g_at b))).
Definition rho (a b c d : gauss) : R := gp a b * gp c d * inv (gp a b + gp c d).
Definition eri_coefs (a b c d : gauss) : @vcoef R :=
  let p := gp a b in let q := gp c d in
  let P := gcen a b in let Q := gcen c d in
  VC (fun x i => match x with CI => P i - g_at a i | CJ => P i - g_at b i | CK => Q i - g_at c i | CL => Q i - g_at d i end)
     (fun s i => match s with SB => - (rho a b c d * inv p) * (P i - Q i) | SK => rho a b c d * inv q * (P i - Q i) end)
     (fun s => match s with SB => half * inv p | SK => half * inv q end)
     (fun s => match s with SB => - (rho a b c d * inv p) | SK => - (rho a b c d * inv q) end)
     (half * inv (p + q)).
Definition eri_start (a b c d : gauss) (n : nat) : R :=
  (sqrt2pi52 * sqrt2pi52) * inv (gp a b) * inv (gp c d) * sqrtf (inv (gp a b + gp c d)) *
  (overlap_exp a b * overlap_exp c d) * boys n (rho a b c d * dist2 (gcen a b) (gcen c d)).
Definition prim_eri (a b c d : gauss) (q : qrt) : R := os_value (eri_coefs a b c d) (eri_start a b c d) 0 q.

(** Contracted integral of four shells: all primitives of each. *)
Definition prim (A : @shell R) (i : nat) : gauss := Gauss (sh_alpha A i) (fun d => sh_pos A (idx_of_dir d)).
Definition over (A : @shell R) (f : nat -> R) : R := rsum (map f (seq 0 (sh_n A))).
Definition eri (A B C D : @shell R) (q : qrt) : R :=
  over A (fun i => over B (fun j => over C (fun k => over D (fun l =>
    sh_coef A i * sh_coef B j * sh_coef C k * sh_coef D l * prim_eri (prim A i) (prim B j) (prim C k) (prim D l) q)))).

(** The same sum over the stored primitive pairs: a pair of equal shells stores the pairs [j <= i] with
    the off-diagonal ones counted twice; [keep i j k l] says that the primitives are combined. *)
Definition mult (same : bool) (i j : nat) : R := if same && negb (i =? j)%nat then c1 + c1 else c1.
Definition stored_term (sb sk : bool) (A B C D : @shell R) (i j k l : nat) (q : qrt) : R :=
  mult sb i j * mult sk k l *
  (sh_coef A i * sh_coef B j * sh_coef C k * sh_coef D l * prim_eri (prim A i) (prim B j) (prim C k) (prim D l) q).
Definition stored_terms (sb sk : bool) (A B C D : @shell R) (keep : nat -> nat -> nat -> nat -> bool) (q : qrt) : R :=
  rsum (map (fun ij => rsum (map (fun kl =>
    if keep (fst ij) (snd ij) (fst kl) (snd kl) then stored_term sb sk A B C D (fst ij) (snd ij) (fst kl) (snd kl) q else c0)
    (sp_prims (SP (sh_n C) (sh_n D) sk)))) (sp_prims (SP (sh_n A) (sh_n B) sb))).
End Spec.
