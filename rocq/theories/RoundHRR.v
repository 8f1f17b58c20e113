(** The horizontal recurrence with rounding.
    Source: generator/ostei/OSTEI_HRR_Writer.cpp:22-273, skel/simint/ostei/ostei_general_hrr.c.

    The functions of GenHRR.v and HRRExec.v again, with the right-hand side of an assignment as an argument: the exact one gives
    those functions back ([run_same]); the rounded one has product and sum each followed by [rnd], or only the sum where the
    compiler fuses the two ([fused]: for each class and position, in the table-driven routines for each class).  [rnd] is any
    function with a bounded relative error: overflow and underflow are left out. *)
From Coq Require Import List Arith Reals Lra Lia Bool ZArith.
Import ListNotations.
From Verif Require Import Base Cart Mdir HRRStep HRRAlgo HRROrder RecurData Recur GenHRR HRRExec QList Tables HRRExample Normalize RoundSum.
Local Open Scope R_scope.

(** ** Model *)
(** Right-hand side of an assignment, OSTEI_HRR_Writer.cpp:46-54 (bra), :88-96 (ket), ostei_general_hrr.c:48, :100, :151, :201:
    [src0 + ( h * src1 )] or [src0 - ( h * src1 )]. *)
Definition rprod (rnd : R -> R) (f : bool) (h y : R) : R := if f then h * y else rnd (h * y).
Definition rrhs (rnd : R -> R) (f lf : bool) (h x y : R) : R := if lf then rnd (x - rprod rnd f h y) else rnd (x + rprod rnd f h y).
Definition rlift (rnd : R -> R) (f lf : bool) (h : R) (a b : option R) : option R :=
  match a, b with Some x, Some y => Some (rrhs rnd f lf h x y) | _, _ => None end.

Section General.
Local Open Scope nat_scope.
Variable lift : bool -> Rcring -> option Rcring -> option Rcring -> option Rcring.
(** [ostei_general_hrr_I], skel/simint/ostei/ostei_general_hrr.c:5-53. *)
Definition gen_I_with (i j k l : nat) (AB : dir -> Rcring) (th1 th2 : @block Rcring) : option (@block Rcring) :=
  let nkl := (zncart (Z.of_nat k) * zncart (Z.of_nat l))%Z in
  let njp1 := zncart (Z.of_nat j + 1) in
  let nj := zncart (Z.of_nat j) in
  concatM (fun ii => concatM (fun jj => mapM (fun kl =>
    match recur_lookup i ii, recur_lookup j jj with
    | Some ri, Some rj =>
      let d := r_dir ri in
      match r_idx ri d 0, r_idx rj d 2, @at3 Rcring AB d with
      | Some im1, Some jp1, Some x =>
        let idx1 := (im1 * njp1 * nkl + jp1 * nkl)%Z in
        let idx2 := (im1 * nj * nkl + Z.of_nat jj * nkl)%Z in
        match rdz th1 (idx1 + Z.of_nat kl)%Z, rdz th2 (idx2 + Z.of_nat kl)%Z with
        | Some v0, Some v1 => Some (lift true x v0 v1)
        | _, _ => None
        end
      | _, _, _ => None
      end
    | _, _ => None
    end) (seq 0 (Z.to_nat nkl))) (seq 0 (ncart j))) (seq 0 (ncart i)).
(** [ostei_general_hrr_J], skel/simint/ostei/ostei_general_hrr.c:57-104. *)
Definition gen_J_with (i j k l : nat) (AB : dir -> Rcring) (th1 th2 : @block Rcring) : option (@block Rcring) :=
  let nkl := (zncart (Z.of_nat k) * zncart (Z.of_nat l))%Z in
  let njm1 := zncart (Z.of_nat j - 1) in
  concatM (fun ii => concatM (fun jj => mapM (fun kl =>
    match recur_lookup i ii, recur_lookup j jj with
    | Some ri, Some rj =>
      let d := r_dir rj in
      match r_idx ri d 2, r_idx rj d 0, @at3 Rcring AB d with
      | Some ip1, Some jm1, Some x =>
        let idx1 := (ip1 * njm1 * nkl + jm1 * nkl)%Z in
        let idx2 := (Z.of_nat ii * njm1 * nkl + jm1 * nkl)%Z in
        match rdz th1 (idx1 + Z.of_nat kl)%Z, rdz th2 (idx2 + Z.of_nat kl)%Z with
        | Some v0, Some v1 => Some (lift false x v0 v1)
        | _, _ => None
        end
      | _, _, _ => None
      end
    | _, _ => None
    end) (seq 0 (Z.to_nat nkl))) (seq 0 (ncart j))) (seq 0 (ncart i)).
(** [ostei_general_hrr_K], skel/simint/ostei/ostei_general_hrr.c:107-156. *)
Definition gen_K_with (i j k l : nat) (CD : dir -> Rcring) (th1 th2 : @block Rcring) : option (@block Rcring) :=
  let nij := (zncart (Z.of_nat i) * zncart (Z.of_nat j))%Z in
  let nkm1 := zncart (Z.of_nat k - 1) in
  let nlp1 := zncart (Z.of_nat l + 1) in
  let nl := zncart (Z.of_nat l) in
  concatM (fun ij => concatM (fun kk => mapM (fun ll =>
    match recur_lookup k kk, recur_lookup l ll with
    | Some rk, Some rl =>
      let d := r_dir rk in
      match r_idx rk d 0, r_idx rl d 2, @at3 Rcring CD d with
      | Some km1, Some lp1, Some x =>
        match rdz th1 (Z.of_nat ij * nkm1 * nlp1 + km1 * nlp1 + lp1)%Z,
              rdz th2 (Z.of_nat ij * nkm1 * nl + km1 * nl + Z.of_nat ll)%Z with
        | Some v0, Some v1 => Some (lift true x v0 v1)
        | _, _ => None
        end
      | _, _, _ => None
      end
    | _, _ => None
    end) (seq 0 (ncart l))) (seq 0 (ncart k))) (seq 0 (Z.to_nat nij)).
(** [ostei_general_hrr_L], skel/simint/ostei/ostei_general_hrr.c:158-207. *)
Definition gen_L_with (i j k l : nat) (CD : dir -> Rcring) (th1 th2 : @block Rcring) : option (@block Rcring) :=
  let nij := (zncart (Z.of_nat i) * zncart (Z.of_nat j))%Z in
  let nkp1 := zncart (Z.of_nat k + 1) in
  let nlm1 := zncart (Z.of_nat l - 1) in
  let nk := zncart (Z.of_nat k) in
  concatM (fun ij => concatM (fun kk => mapM (fun ll =>
    match recur_lookup k kk, recur_lookup l ll with
    | Some rk, Some rl =>
      let d := r_dir rl in
      match r_idx rk d 2, r_idx rl d 0, @at3 Rcring CD d with
      | Some kp1, Some lm1, Some x =>
        match rdz th1 (Z.of_nat ij * nkp1 * nlm1 + kp1 * nlm1 + lm1)%Z,
              rdz th2 (Z.of_nat ij * nk * nlm1 + Z.of_nat kk * nlm1 + lm1)%Z with
        | Some v0, Some v1 => Some (lift false x v0 v1)
        | _, _ => None
        end
      | _, _, _ => None
      end
    | _, _ => None
    end) (seq 0 (ncart l))) (seq 0 (ncart k))) (seq 0 (Z.to_nat nij)).
End General.

Section Model.
(** The right-hand side for position [i] of class [t]. *)
Variable op : tqam -> nat -> bool -> Rcring -> option Rcring -> option Rcring -> option Rcring.
Notation mem := (@hmem Rcring).

(** One assignment, OSTEI_HRR_Writer.cpp:46-54, :88-96. *)
Definition exec1_with (M : mem) (s : @stmt Rcring) : option mem :=
  match nth_error (M (s_t0 s)) (s_i0 s), nth_error (M (s_t1 s)) (s_i1 s) with
  | Some v0, Some v1 =>
    if (s_i s <? length (M (s_t s)))%nat
    then Some (mset M (s_t s) (upd (M (s_t s)) (s_i s) (op (s_t s) (s_i s) (s_lf s) (s_h s) v0 v1)))
    else None
  | _, _ => None
  end.
(** The assignments of a class one after the other, :26-57, :66-99. *)
Fixpoint exec_with (M : mem) (l : list (@stmt Rcring)) : option mem :=
  match l with
  | [] => Some M
  | s :: r => match exec1_with M s with Some M' => exec_with M' r | None => None end
  end.
(** The output array of a table-driven routine written to class [t]. *)
Definition store (M : mem) (t : tqam) (out : option (list (option Rcring))) : option mem :=
  match out with
  | Some out => if (length out <=? length (M t))%nat then Some (mset M t (out ++ skipn (length out) (M t))) else None
  | None => None
  end.
(** One class of the bra, :156-163 with the three forms of :183-273. *)
Definition form_bra_with (E : @henv Rcring) (p : hplan) (M : mem) (t : tqam) : option mem :=
  let c := brac t in
  let nket := dncart (ketc t) in
  match emode_of (e_se E) (e_sg E) (fst c + snd c) with
  | Inline => exec_with M (bra_stmts (e_o E) (e_blf E) (e_AB E) (with_bra t) nket (class_steps (hp_bra p) c))
  | External =>
    match external E (e_blf E) c, class_req (hp_bra p) c with
    | Some (formals, steps), Some req =>
      let b := bind c formals t (map (with_bra t) (e_enumc E req)) in
      if all_bound b steps
      then exec_with M (bra_stmts (e_o E) (e_blf E) (e_AB E) (total_arr b t) nket steps) else None
    | _, _ => None
    end
  | General =>
    let q := hreq (e_blf E) c in
    let th1 := M (with_bra t (fst q)) in
    let th2 := M (with_bra t (snd q)) in
    let '(QAM i j k l) := tq_am t in
    store M t (if e_blf E then gen_I_with (op t 0) i j k l (e_AB E) th1 th2 else gen_J_with (op t 0) i j k l (e_AB E) th1 th2)
  end.
(** One class of the ket, :170-177. *)
Definition form_ket_with (E : @henv Rcring) (p : hplan) (M : mem) (t : tqam) : option mem :=
  let c := ketc t in
  let nbra := dncart (brac t) in
  match emode_of (e_se E) (e_sg E) (fst c + snd c) with
  | Inline => exec_with M (ket_stmts (e_o E) (e_klf E) (e_CD E) (with_ket t) nbra (class_steps (hp_ket p) c))
  | External =>
    match external E (e_klf E) c, class_req (hp_ket p) c with
    | Some (formals, steps), Some req =>
      let b := bind c formals t (map (with_ket t) (e_enumc E req)) in
      if all_bound b steps
      then exec_with M (ket_stmts (e_o E) (e_klf E) (e_CD E) (total_arr b t) nbra steps) else None
    | _, _ => None
    end
  | General =>
    let q := hreq (e_klf E) c in
    let th1 := M (with_ket t (fst q)) in
    let th2 := M (with_ket t (snd q)) in
    let '(QAM i j k l) := tq_am t in
    store M t (if e_klf E then gen_K_with (op t 0) i j k l (e_CD E) th1 th2 else gen_L_with (op t 0) i j k l (e_CD E) th1 th2)
  end.
(** One entry of [GetAMOrder], :150-178. *)
Definition form_with (E : @henv Rcring) (p : hplan) (M : mem) (t : tqam) : option mem :=
  match smap_at (hp_map p) t with
  | Some BRA => form_bra_with E p M t
  | Some KET => form_ket_with E p M t
  | None => None
  end.
(** The loop over [GetAMOrder], :148-181. *)
Fixpoint run_with (E : @henv Rcring) (p : hplan) (M : mem) (l : list tqam) : option mem :=
  match l with
  | [] => Some M
  | t :: r => match form_with E p M t with Some M' => run_with E p M' r | None => None end
  end.
End Model.

(** The run with rounding. *)
Definition rrun (rnd : R -> R) (fused : tqam -> nat -> bool) := run_with (fun t i => rlift rnd (fused t i)).
(** With the exact right-hand side the run is that of HRRExec.v. *)
Lemma run_same : run_with (fun _ _ => @olift Rcring) = @run Rcring.
Proof. reflexivity. Qed.

(** ** Specification *)
(** Units of momentum to move for a class: those of the centre that starts with none, in the bra and in the ket. *)
Definition moves (E : @henv Rcring) (t : tqam) : nat :=
  ((if e_blf E then am0 (tq_am t) else am1 (tq_am t)) + (if e_klf E then am2 (tq_am t) else am3 (tq_am t)))%nat.
(** The arrays have their sizes; the top classes hold the integrals up to [k] rounding errors relative to [T]. *)
Definition rounded_pre (u : R) (k : nat) (T : R) (E : @henv Rcring) (p : hplan) (V : nat -> qrt -> R) (M : @hmem Rcring) : Prop :=
  (forall t, In t (hp_order p) \/ In t (hp_top p) -> length (M t) = qncart (tq_am t)) /\
  (forall t q, In t (hp_top p) -> qclass q = tq_am t ->
     exists r, nth_error (M t) (qindex (e_o E) q) = Some (Some r) /\ near u k r (V (tq_tag t) q) T).
(** Every requested integral, with two more rounding errors for each unit moved, relative to [T] times [1 + H] for each unit. *)
Definition rounded_post (u : R) (k : nat) (H T : R) (E : @henv Rcring) (am : list tqam) (V : nat -> qrt -> R) (M : @hmem Rcring) : Prop :=
  forall t q, In t am -> qclass q = tq_am t ->
    exists r, nth_error (M t) (qindex (e_o E) q) = Some (Some r) /\
      near u (k + 2 * moves E t) r (V (tq_tag t) q) ((1 + H) ^ moves E t * T).

(** ** Errors of one assignment *)
Section Step.
Variables (u : R) (rnd : R -> R).
Hypothesis Hr : rounding u rnd.
Let Hu : 0 <= u. Proof. exact (proj1 Hr). Qed.

Lemma near_opp k x v A : near u k x v A -> near u k (- x) (- v) A.
Proof. intros [HA HE]. split; [rewrite Rabs_Ropp; exact HA|]. replace (- x - - v) with (- (x - v)) by ring. rewrite Rabs_Ropp. exact HE. Qed.
Lemma near_scale k h H x v A : Rabs h <= H -> near u k x v A -> near u k (h * x) (h * v) (H * A).
Proof.
  intros Hh [HA HE]. pose proof (Rabs_pos h). pose proof (Rabs_pos v). pose proof (Rabs_pos (x - v)). split.
  - rewrite Rabs_mult. apply Rmult_le_compat; assumption.
  - replace (h * x - h * v) with (h * (x - v)) by ring. rewrite Rabs_mult.
    replace (((1 + u) ^ k - 1) * (H * A)) with (H * (((1 + u) ^ k - 1) * A)) by ring. apply Rmult_le_compat; assumption.
Qed.
Lemma near_zero k : near u k 0 0 0.
Proof. split; rewrite ?Rminus_0_r, Rabs_R0; lra. Qed.
Lemma near_rnd k x v A : near u k x v A -> near u (S k) (rnd x) v A.
Proof.
  intros N. pose proof (near_add u rnd Hr k _ _ _ _ _ _ N (near_zero k)) as K. unfold radd in K. rewrite !Rplus_0_r in K. exact K.
Qed.
Lemma near_rprod f k h H y w A : Rabs h <= H -> near u k y w A -> near u (S k) (rprod rnd f h y) (h * w) (H * A).
Proof.
  intros Hh N. pose proof (near_scale _ _ _ _ _ _ Hh N) as K. destruct f; cbn [rprod].
  - apply (near_mono u rnd Hr k); [lia|exact K].
  - apply near_rnd, K.
Qed.
Lemma near_rrhs f lf k h H x v y w A : Rabs h <= H -> near u k x v A -> near u k y w A ->
  near u (k + 2) (rrhs rnd f lf h x y) (@hrr_rhs Rcring lf h v w) ((1 + H) * A).
Proof.
  intros Hh Nx Ny. pose proof (near_rprod f _ _ _ _ _ _ Hh Ny) as Np.
  assert (Nx' : near u (S k) x v A) by (apply (near_mono u rnd Hr k); [lia|exact Nx]).
  replace (k + 2)%nat with (S (S k)) by lia. replace ((1 + H) * A) with (A + H * A) by ring.
  destruct lf; cbn [rrhs hrr_rhs].
  - apply (near_add u rnd Hr (S k) x v A _ _ (H * A) Nx' (near_opp _ _ _ _ Np)).
  - apply (near_add u rnd Hr (S k) x v A _ _ (H * A) Nx' Np).
Qed.
End Step.

(** ** The run *)
Lemma moves_bra E t c : moves E (with_bra t c) = (mvc (e_blf E) c + mvc (e_klf E) (ketc t))%nat.
Proof. destruct t as [g [a b c' d]], c as [x y]. unfold moves, mvc. cbn. destruct (e_blf E), (e_klf E); reflexivity. Qed.
Lemma moves_ket E t c : moves E (with_ket t c) = (mvc (e_blf E) (brac t) + mvc (e_klf E) c)%nat.
Proof. destruct t as [g [a b c' d]], c as [x y]. unfold moves, mvc. cbn. destruct (e_blf E), (e_klf E); reflexivity. Qed.
Lemma moves_top E t : mvc (e_blf E) (brac t) = 0%nat -> mvc (e_klf E) (ketc t) = 0%nat -> moves E t = 0%nat.
Proof. destruct t as [g [a b c d]]. unfold moves, mvc. cbn. destruct (e_blf E), (e_klf E); cbn; lia. Qed.

Lemma moves_hreq_bra E t : mvc (e_blf E) (brac t) <> 0%nat ->
  moves E t = S (moves E (with_bra t (fst (hreq (e_blf E) (brac t))))) /\ moves E t = S (moves E (with_bra t (snd (hreq (e_blf E) (brac t))))).
Proof.
  intros N. rewrite !moves_bra. pose proof (moves_bra E t (brac t)) as K. rewrite with_bra_id in K. rewrite K. unfold mvc, hreq in *. destruct (e_blf E); cbn [fst snd] in *; lia.
Qed.
Lemma moves_hreq_ket E t : mvc (e_klf E) (ketc t) <> 0%nat ->
  moves E t = S (moves E (with_ket t (fst (hreq (e_klf E) (ketc t))))) /\ moves E t = S (moves E (with_ket t (snd (hreq (e_klf E) (ketc t))))).
Proof.
  intros N. rewrite !moves_ket. pose proof (moves_ket E t (ketc t)) as K. rewrite with_ket_id in K. rewrite K. unfold mvc, hreq in *. destruct (e_klf E); cbn [fst snd] in *; lia.
Qed.
Lemma at3_bound (X : dir -> Rcring) H d x : (forall i, Rabs (X i) <= H) -> @at3 Rcring X d = Some x -> Rabs x <= H.
Proof.
  intros HX. unfold at3. destruct (d =? 0)%Z; [intros E; injection E as <-; apply HX|]. destruct (d =? 1)%Z; [intros E; injection E as <-; apply HX|].
  destruct (d =? 2)%Z; [intros E; injection E as <-; apply HX|discriminate].
Qed.

(** Two loops over the same positions. *)
Lemma mapM_rel A B C (P : B -> C -> Prop) (f : A -> option B) (g : A -> option C) l :
  (forall x a, f x = Some a -> exists b, g x = Some b /\ P a b) ->
  forall o, mapM f l = Some o -> exists o', mapM g l = Some o' /\ Forall2 P o o'.
Proof.
  intros Hf. induction l as [|x l IH]; intros o X; cbn [mapM] in *; [injection X as <-; eauto|].
  destruct (f x) as [a|] eqn:Ef; [|discriminate]. destruct (mapM f l) as [t|] eqn:Et; [|discriminate]. injection X as <-.
  destruct (Hf x a Ef) as [b [-> Pb]]. destruct (IH t eq_refl) as [t' [-> F]]. eauto.
Qed.
Lemma concatM_rel A B C (P : B -> C -> Prop) (f : A -> option (list B)) (g : A -> option (list C)) l :
  (forall x a, f x = Some a -> exists b, g x = Some b /\ Forall2 P a b) ->
  forall o, concatM f l = Some o -> exists o', concatM g l = Some o' /\ Forall2 P o o'.
Proof.
  intros Hf o X. unfold concatM in *. destruct (mapM f l) as [ll|] eqn:E; [|discriminate]. injection X as <-.
  destruct (mapM_rel _ _ _ (Forall2 P) f g l Hf ll E) as [l' [-> F]]. eexists. split; [reflexivity|].
  clear - F. induction F as [|a b la lb Hab F IH]; cbn [concat]; [constructor|apply Forall2_app; assumption].
Qed.
Lemma Forall2_at A B (P : A -> B -> Prop) la lb : Forall2 P la lb -> forall i a, nth_error la i = Some a -> exists b, nth_error lb i = Some b /\ P a b.
Proof.
  induction 1 as [|x y la lb Hxy F IH]; intros [|i] a E; cbn [nth_error] in *; try discriminate; [injection E as <-; eauto|apply IH, E].
Qed.

Lemma Forall2_len A B (P : A -> B -> Prop) la lb : Forall2 P la lb -> length la = length lb.
Proof. induction 1; cbn [length]; congruence. Qed.
Lemma skipn_at A (l : list A) : forall n i, nth_error (skipn n l) i = nth_error l (n + i).
Proof. induction l as [|x l IH]; intros [|n] i; cbn [skipn nth_error Nat.add]; [|now destruct i| |apply IH]; reflexivity. Qed.

Section Run.
Variables (u : R) (rnd : R -> R) (fused : tqam -> nat -> bool) (E : @henv Rcring) (k : nat) (H T : R).
Hypothesis Hr : rounding u rnd.
Let op : tqam -> nat -> bool -> Rcring -> option Rcring -> option Rcring -> option Rcring := fun t i => rlift rnd (fused t i).

Definition close (t : tqam) (a b : option Rcring) : Prop :=
  match a with
  | None => True
  | Some v => exists r, b = Some r /\ near u (k + 2 * moves E t) r v ((1 + H) ^ moves E t * T)
  end.
Definition sim_arr (t : tqam) (l l' : list (option Rcring)) : Prop :=
  length l' = length l /\ forall i a, nth_error l i = Some a -> exists b, nth_error l' i = Some b /\ close t a b.
Definition sim (M Mr : @hmem Rcring) : Prop := forall t, sim_arr t (M t) (Mr t).
Definition down (s : @stmt Rcring) : Prop :=
  moves E (s_t s) = S (moves E (s_t0 s)) /\ moves E (s_t s) = S (moves E (s_t1 s)) /\ Rabs (s_h s) <= H.

Lemma close_step t t0 t1 f lf h a0 b0 a1 b1 : moves E t = S (moves E t0) -> moves E t = S (moves E t1) -> Rabs h <= H ->
  close t0 a0 b0 -> close t1 a1 b1 -> close t (@olift Rcring lf h a0 a1) (rlift rnd f lf h b0 b1).
Proof.
  intros D0 D1 Dh C0 C1. destruct a0 as [v|]; [|exact I]. destruct a1 as [w|]; [|exact I]. cbn [olift close] in *.
  destruct C0 as [x [-> Nx]]. destruct C1 as [y [-> Ny]]. cbn [rlift]. eexists. split; [reflexivity|].
  replace (moves E t1) with (moves E t0) in Ny by lia. rewrite D0.
  replace (k + 2 * S (moves E t0))%nat with (k + 2 * moves E t0 + 2)%nat by lia.
  rewrite <- tech_pow_Rmult, Rmult_assoc. apply (near_rrhs u rnd Hr); assumption.
Qed.

Lemma sim_set M Mr t l l' : sim M Mr -> sim_arr t l l' -> sim (mset M t l) (mset Mr t l').
Proof. intros S0 S1 t'. unfold mset. destruct (tqam_eq_dec t t') as [<-|]; [exact S1|apply S0]. Qed.

Lemma sim_exec1 M Mr s M' : down s -> sim M Mr -> exec1 M s = Some M' -> exists Mr', exec1_with op Mr s = Some Mr' /\ sim M' Mr'.
Proof.
  intros [D0 [D1 Dh]] S0 X. unfold exec1 in X. unfold exec1_with.
  destruct (nth_error (M (s_t0 s)) (s_i0 s)) as [a0|] eqn:E0; [|discriminate].
  destruct (nth_error (M (s_t1 s)) (s_i1 s)) as [a1|] eqn:E1; [|discriminate].
  destruct (proj2 (S0 _) _ _ E0) as [b0 [-> C0]]. destruct (proj2 (S0 _) _ _ E1) as [b1 [-> C1]].
  destruct (S0 (s_t s)) as [SL SV].
  rewrite SL. destruct (s_i s <? length (M (s_t s)))%nat eqn:El; [|discriminate]. injection X as <-.
  eexists. split; [reflexivity|]. apply sim_set; [exact S0|].
  pose proof (close_step (s_t s) _ _ (fused (s_t s) (s_i s)) (s_lf s) _ _ _ _ _ D0 D1 Dh C0 C1) as C. apply Nat.ltb_lt in El. split.
  - rewrite !upd_length. exact SL.
  - intros i a Ha. destruct (Nat.eq_dec (s_i s) i) as [Ei|Ni].
    + rewrite <- Ei in *. rewrite nth_error_upd_same in Ha by exact El. injection Ha as <-.
      rewrite nth_error_upd_same by (rewrite SL; exact El). eexists. split; [reflexivity|exact C].
    + rewrite nth_error_upd_other in Ha by exact Ni. rewrite nth_error_upd_other by exact Ni. apply SV, Ha.
Qed.

Lemma sim_exec l : forall M Mr M', (forall s, In s l -> down s) -> sim M Mr -> exec M l = Some M' ->
  exists Mr', exec_with op Mr l = Some Mr' /\ sim M' Mr'.
Proof.
  induction l as [|s l IH]; intros M Mr M' D S0 X; cbn [exec exec_with] in *; [injection X as <-; eauto|].
  destruct (exec1 M s) as [M1|] eqn:E1; [|discriminate].
  destruct (sim_exec1 M Mr s M1 (D s (or_introl eq_refl)) S0 E1) as [Mr1 [-> S1]].
  apply (IH M1 Mr1 M'); [intros; apply D; now right|exact S1|exact X].
Qed.

Lemma sim_rdz t l l' z a : sim_arr t l l' -> rdz l z = Some a -> exists b, rdz l' z = Some b /\ close t a b.
Proof. intros [_ S0] X. unfold rdz in *. destruct (z <? 0)%Z; [discriminate|apply S0, X]. Qed.

(** The table-driven routines. *)
Lemma sim_gen t t0 t1 f i j kk l (X : dir -> Rcring) th1 th2 r1 r2 (HX : forall d, Rabs (X d) <= H) :
  moves E t = S (moves E t0) -> moves E t = S (moves E t1) -> sim_arr t0 th1 r1 -> sim_arr t1 th2 r2 ->
  (forall o, @gen_I Rcring i j kk l X th1 th2 = Some o -> exists o', gen_I_with (rlift rnd f) i j kk l X r1 r2 = Some o' /\ Forall2 (close t) o o') /\
  (forall o, @gen_J Rcring i j kk l X th1 th2 = Some o -> exists o', gen_J_with (rlift rnd f) i j kk l X r1 r2 = Some o' /\ Forall2 (close t) o o') /\
  (forall o, @gen_K Rcring i j kk l X th1 th2 = Some o -> exists o', gen_K_with (rlift rnd f) i j kk l X r1 r2 = Some o' /\ Forall2 (close t) o o') /\
  (forall o, @gen_L Rcring i j kk l X th1 th2 = Some o -> exists o', gen_L_with (rlift rnd f) i j kk l X r1 r2 = Some o' /\ Forall2 (close t) o o').
Proof.
  intros D0 D1 S1 S2. split; [|split; [|split]]; (apply concatM_rel; intros ii; apply concatM_rel; intros jj; apply mapM_rel; intros n a);
    (destruct (recur_lookup _ _) as [ri|]; [|discriminate]); (destruct (recur_lookup _ _) as [rj|]; [|discriminate]); cbv zeta;
    (destruct (r_idx ri _ _) as [x1|]; [|discriminate]); (destruct (r_idx rj _ _) as [x2|]; [|discriminate]);
    (destruct (@at3 Rcring X _) as [h|] eqn:Eh; [|discriminate]);
    match goal with |- context [@rdz ?A th1 ?z1] => destruct (@rdz A th1 z1) as [a0|] eqn:E0; [|discriminate] end;
    match goal with |- context [@rdz ?A th2 ?z2] => destruct (@rdz A th2 z2) as [a1|] eqn:E1; [|discriminate] end;
    intros Ea; injection Ea as <-;
    destruct (sim_rdz _ _ _ _ _ S1 E0) as [b0 [Eb0 C0]]; destruct (sim_rdz _ _ _ _ _ S2 E1) as [b1 [Eb1 C1]];
    eexists; (split; [setoid_rewrite Eb0; setoid_rewrite Eb1; reflexivity|]);
    apply (close_step t t0 t1); auto; apply (at3_bound _ _ _ _ HX Eh).
Qed.

Lemma sim_store M Mr t o o' M' : sim M Mr -> Forall2 (close t) o o' -> store M t (Some o) = Some M' ->
  exists Mr', store Mr t (Some o') = Some Mr' /\ sim M' Mr'.
Proof.
  intros S0 F X. pose proof (Forall2_len _ _ _ _ _ F) as L. unfold store in *. destruct (S0 t) as [SL SV].
  replace (length o') with (length o) by exact L. rewrite SL.
  destruct (length o <=? length (M t))%nat eqn:El; [|discriminate]. injection X as <-. eexists. split; [reflexivity|].
  apply sim_set; [exact S0|]. split.
  - rewrite !app_length, !skipn_length, SL. f_equal. symmetry. exact L.
  - intros i a Ha. destruct (Nat.lt_ge_cases i (length o)) as [Hi|Hi].
    + rewrite nth_error_app1 in Ha by exact Hi. rewrite nth_error_app1 by (rewrite <- L; exact Hi). apply (Forall2_at _ _ _ _ _ F), Ha.
    + rewrite nth_error_app2 in Ha by exact Hi. rewrite nth_error_app2 by (rewrite <- L; exact Hi).
      rewrite skipn_at in *. rewrite <- L. apply SV, Ha.
Qed.

Variables (am : list tqam) (p : hplan).
Hypothesis He : enum_ok (e_enum E).
Hypothesis Hec : set_enum (e_enumc E).
Hypothesis Hsx : starts_x (e_o E).
Hypothesis HP : plan_ok (e_blf E) (e_klf E) am p.
Hypothesis HAB : forall d, Rabs (e_AB E d) <= H.
Hypothesis HCD : forall d, Rabs (e_CD E d) <= H.

(** The assignments of a class: [arr] names the arrays of the classes in the steps. *)
Lemma bra_down t arr n steps s : (forall h, In h steps -> doublet_step (e_blf E) (hs_target h) = HStep h /\
    forall d, d = hs_target h \/ d = hs_src0 h \/ d = hs_src1 h -> arr (dclass d) = with_bra t (dclass d)) ->
  In s (bra_stmts (e_o E) (e_blf E) (e_AB E) arr n steps) -> down s.
Proof.
  intros Hst Hs. apply in_flat_map in Hs as [m [_ Hs]]. apply in_map_iff in Hs as [h [<- Hh]]. destruct (Hst h Hh) as [St Ha].
  apply step_classes in St as [_ [_ [K0 K1]]]. rewrite !moving_class in *. unfold down. cbn [s_t s_t0 s_t1 s_h].
  rewrite !Ha by auto. rewrite !moves_bra. unfold mvc. split; [|split]; [rewrite K0; reflexivity|rewrite K1; reflexivity|apply HAB].
Qed.
Lemma ket_down t arr n steps s : (forall h, In h steps -> doublet_step (e_klf E) (hs_target h) = HStep h /\
    forall d, d = hs_target h \/ d = hs_src0 h \/ d = hs_src1 h -> arr (dclass d) = with_ket t (dclass d)) ->
  In s (ket_stmts (e_o E) (e_klf E) (e_CD E) arr n steps) -> down s.
Proof.
  intros Hst Hs. apply in_flat_map in Hs as [m [_ Hs]]. apply in_map_iff in Hs as [h [<- Hh]]. destruct (Hst h Hh) as [St Ha].
  apply step_classes in St as [_ [_ [K0 K1]]]. rewrite !moving_class in *. unfold down. cbn [s_t s_t0 s_t1 s_h].
  rewrite !Ha by auto. rewrite !moves_ket. unfold mvc. split; [|split]; [rewrite K0; lia|rewrite K1; lia|apply HCD].
Qed.

(** The arrays bound in the call of an external routine. *)
Lemma external_arr lf c (f : nat * nat -> tqam) t formals steps : f c = t ->
  (forall x, In x formals <-> x = fst (hreq lf c) \/ x = snd (hreq lf c)) ->
  (forall h, In h steps -> doublet_step lf (hs_target h) = HStep h /\ dclass (hs_target h) = c) ->
  forall h, In h steps -> doublet_step lf (hs_target h) = HStep h /\
    forall d, d = hs_target h \/ d = hs_src0 h \/ d = hs_src1 h -> total_arr (bind c formals t (map f formals)) t (dclass d) = f (dclass d).
Proof.
  intros Ht Hf1 Hs1 h Hh. destruct (Hs1 h Hh) as [A B]. split; [exact A|]. destruct (step_classes _ _ A) as [C [D _]]. rewrite B in C, D.
  intros d Hd. unfold total_arr. rewrite (@bind_ok c formals t f (dclass d) Ht); [reflexivity|].
  destruct Hd as [Hd|[Hd|Hd]]; rewrite Hd; [left; exact B|right; apply Hf1; auto|right; apply Hf1; auto].
Qed.

Lemma sim_form_bra M Mr M' t : In (brac t) (class_all (hp_brasol p)) -> (mvc (e_blf E) (brac t) <= e_fuel E)%nat ->
  sim M Mr -> form_bra E p M t = Some M' -> exists Mr', form_bra_with op E p Mr t = Some Mr' /\ sim M' Mr'.
Proof.
  intros Hall Hf S0 X. pose proof (pl_bra HP) as HB. pose proof (solved_moving _ HB Hall) as Hmv.
  unfold form_bra in X. unfold form_bra_with. destruct (emode_of _ _ _).
  - revert X. apply sim_exec; [|exact S0]. intros s. apply (bra_down t). intros h Hh. apply in_class_steps in Hh as [A _].
    split; [apply (sp_step HB _ A)|reflexivity].
  - destruct (external_ok E (e_blf E) (brac t) He Hec Hsx Hmv Hf) as [formals [steps [Ee [Hf1 [Hf2 [Hs1 _]]]]]]. rewrite Ee in *.
    destruct (class_req_ok _ HB Hall) as [req [Er [Hq _]]]. rewrite Er in *. rewrite (Hf2 req Hq) in *.
    destruct (all_bound _ steps); [|discriminate]. revert X. apply sim_exec; [|exact S0]. intros s. apply (bra_down t).
    apply external_arr; [apply with_bra_id|exact Hf1|exact Hs1].
  - destruct (moves_hreq_bra E t Hmv) as [D0 D1]. set (q := hreq (e_blf E) (brac t)) in *.
    destruct t as [g [i j kk l]] eqn:Et. rewrite <- Et in *. cbn [tq_am] in *. cbv zeta in *.
    destruct (sim_gen t _ _ (fused t 0) i j kk l (e_AB E) _ _ _ _ HAB D0 D1 (S0 _) (S0 _)) as [HI [HJ _]].
    replace (tq_am t) with (QAM i j kk l) in * by (rewrite Et; reflexivity). unfold op at 1 2.
    destruct (e_blf E);
      [destruct (gen_I i j kk l _ _ _) as [o|] eqn:Eo; [|discriminate]; destruct (HI o eq_refl) as [o' [-> F]]
      |destruct (gen_J i j kk l _ _ _) as [o|] eqn:Eo; [|discriminate]; destruct (HJ o eq_refl) as [o' [-> F]]];
      apply (sim_store M Mr t o o' M' S0 F X).
Qed.
Lemma sim_form_ket M Mr M' t : In (ketc t) (class_all (hp_ketsol p)) -> (mvc (e_klf E) (ketc t) <= e_fuel E)%nat ->
  sim M Mr -> form_ket E p M t = Some M' -> exists Mr', form_ket_with op E p Mr t = Some Mr' /\ sim M' Mr'.
Proof.
  intros Hall Hf S0 X. pose proof (pl_ket HP) as HB. pose proof (solved_moving _ HB Hall) as Hmv.
  unfold form_ket in X. unfold form_ket_with. destruct (emode_of _ _ _).
  - revert X. apply sim_exec; [|exact S0]. intros s. apply (ket_down t). intros h Hh. apply in_class_steps in Hh as [A _].
    split; [apply (sp_step HB _ A)|reflexivity].
  - destruct (external_ok E (e_klf E) (ketc t) He Hec Hsx Hmv Hf) as [formals [steps [Ee [Hf1 [Hf2 [Hs1 _]]]]]]. rewrite Ee in *.
    destruct (class_req_ok _ HB Hall) as [req [Er [Hq _]]]. rewrite Er in *. rewrite (Hf2 req Hq) in *.
    destruct (all_bound _ steps); [|discriminate]. revert X. apply sim_exec; [|exact S0]. intros s. apply (ket_down t).
    apply external_arr; [apply with_ket_id|exact Hf1|exact Hs1].
  - destruct (moves_hreq_ket E t Hmv) as [D0 D1]. set (q := hreq (e_klf E) (ketc t)) in *.
    destruct t as [g [i j kk l]] eqn:Et. rewrite <- Et in *. cbn [tq_am] in *. cbv zeta in *.
    destruct (sim_gen t _ _ (fused t 0) i j kk l (e_CD E) _ _ _ _ HCD D0 D1 (S0 _) (S0 _)) as [_ [_ [HK HL]]].
    replace (tq_am t) with (QAM i j kk l) in * by (rewrite Et; reflexivity). unfold op at 1 2.
    destruct (e_klf E);
      [destruct (gen_K i j kk l _ _ _) as [o|] eqn:Eo; [|discriminate]; destruct (HK o eq_refl) as [o' [-> F]]
      |destruct (gen_L i j kk l _ _ _) as [o|] eqn:Eo; [|discriminate]; destruct (HL o eq_refl) as [o' [-> F]]];
      apply (sim_store M Mr t o o' M' S0 F X).
Qed.

Lemma sim_run l : forall M Mr M', incl l (hp_order p) -> modes_ok E (hp_order p) ->
  sim M Mr -> run E p M l = Some M' -> exists Mr', rrun rnd fused E p Mr l = Some Mr' /\ sim M' Mr'.
Proof.
  induction l as [|t l IH]; intros M Mr M' D HM S0 X; unfold rrun in *; cbn [run run_with] in *; [injection X as <-; eauto|].
  destruct (form E p M t) as [M1|] eqn:E1; [|discriminate].
  assert (Hin : In t (hp_order p)) by (apply D; now left). destruct (HM t Hin) as [F1 [F2 _]].
  assert (Hone : exists Mr1, form_with op E p Mr t = Some Mr1 /\ sim M1 Mr1).
  { unfold form in E1. unfold form_with. destruct (pl_kind HP t Hin) as [[Ek [_ Hall]]|[Ek [_ [_ Hall]]]]; rewrite Ek in *.
    - apply (sim_form_ket M); assumption.
    - apply (sim_form_bra M); assumption. }
  destruct Hone as [Mr1 [Ef S1]]. fold op. rewrite Ef.
  apply (IH M1 Mr1 M'); [intros x Hx; apply D; now right|exact HM|exact S1|exact X].
Qed.

Lemma start_sim V Mr : rounded_pre u k T E p V Mr ->
  exists M, hrr_pre E p V M /\ sim M Mr.
Proof.
  intros [HL HT]. pose proof Hsx as Hs.
  exists (fun t => if tmem t (hp_top p) then map (fun q => Some (V (tq_tag t) q)) (qtargets (e_o E) (tq_am t))
                   else repeat None (length (Mr t))).
  assert (L : forall t, length (Mr t) = length (if tmem t (hp_top p) then map (fun q => Some (V (tq_tag t) q)) (qtargets (e_o E) (tq_am t))
                   else repeat None (length (Mr t)))).
  { intros t. destruct (tmem t (hp_top p)) eqn:Et; [|now rewrite repeat_length].
    rewrite map_length, qtargets_len by exact Hs. apply HL. right. apply tmem_In, Et. }
  split; [split|intros t; split].
  - intros t Ht. rewrite <- L. apply HL, Ht.
  - intros t q Ht Hq. apply tmem_In in Ht. rewrite Ht, nth_error_map, <- Hq, qtargets_nth by exact Hs. reflexivity.
  - apply L.
  - intros i a Ha. assert (Hi : (i < length (Mr t))%nat) by (rewrite L; apply nth_error_Some; intros Z; pose proof (eq_trans (eq_sym Z) Ha) as K; discriminate K).
    destruct (tmem t (hp_top p)) eqn:Et.
    + apply tmem_In in Et. rewrite (HL t (or_intror Et)) in Hi. destruct (qindex_surj (e_o E) _ Hi) as [q [Hq <-]].
      rewrite nth_error_map, <- Hq, qtargets_nth in Ha by exact Hs. injection Ha as <-.
      destruct (HT t q Et Hq) as [r [Er N]]. exists (Some r). split; [exact Er|]. exists r. split; [reflexivity|].
      destruct (pl_top HP t Et) as [Z1 [Z2 _]]. rewrite (moves_top E t Z1 Z2). cbn [pow]. rewrite Nat.mul_0_r, Nat.add_0_r, Rmult_1_l. exact N.
    + destruct (nth_error (Mr t) i) as [b|] eqn:Eb; [|apply nth_error_None in Eb; lia]. exists b. split; [reflexivity|].
      apply nth_error_In, repeat_spec in Ha. rewrite Ha. exact I.
Qed.
End Run.

Theorem hrr_rounded u rnd fused (E : @henv Rcring) enumq am : rounding u rnd ->
  enum_ok (e_enum E) -> enum_ok enumq -> set_enum (e_enumc E) -> starts_x (e_o E) ->
  (0 < e_fuel E)%nat -> fuel_ok (e_blf E) (e_klf E) am (e_fuel E) -> table_ok_for E am ->
  exists p, hrr_create (e_enum E) enumq (e_o E) (e_blf E) (e_klf E) (e_fuel E) am = Some p /\
    forall V k H T M, family E V -> (forall d, Rabs (e_AB E d) <= H) -> (forall d, Rabs (e_CD E d) <= H) ->
      rounded_pre u k T E p V M ->
      exists M', rrun rnd fused E p M (hp_order p) = Some M' /\ rounded_post u k H T E am V M'.
Proof.
  intros Hr He Hq Hc Hs Hf0 Hf Ht.
  destruct (hrr_create_ok He Hq Hs Hf0 Hf) as [p [Ep HP]].
  destruct (@hrr_code_correct Rcring E enumq am He Hq Hc Hs Hf0 Hf Ht) as [p' [Ep' HR]]. rewrite Ep in Ep'. injection Ep' as <-.
  exists p. split; [exact Ep|]. intros V k H T M HV HAB HCD Hpre.
  destruct (start_sim u rnd fused E k H T am p Hs HP V M Hpre) as [Mx [Hx S0]].
  destruct (HR V Mx HV Hx) as [Mx' [Rx [Px _]]].
  pose proof (@plan_modes Rcring E am p HP Hf Ht) as HM.
  destruct (sim_run u rnd fused E k H T Hr am p He Hc Hs HP HAB HCD (hp_order p) Mx M Mx' (incl_refl _) HM S0 Rx) as [M' [Rm SV]].
  exists M'. split; [exact Rm|]. intros t q Hin Hcl.
  destruct (proj2 (SV t) _ _ (Px t q Hin Hcl)) as [b [Eb [r [-> N]]]]. exists r. split; [exact Eb|exact N].
Qed.

(** ** An example: (s p|s s) from (p s|s s) and (s s|s s) *)
Definition tiny_env (se sg : nat) (h : R) : @henv Rcring := @HEnv Rcring (nodup dbl_eq_dec) penum psi4 false false (fun _ => h) (fun _ => 0) se sg 12.
Definition tiny_am : list tqam := [TQ 0 (QAM 0 1 0 0)].
Definition tiny_V (g : nat) (q : qrt) : R := 2 ^ gam (qa q) * (9 / 2) ^ gam (qb q).
Definition tiny_mem (x y : R) : @hmem Rcring := fun t =>
  if tqam_eq_dec t (TQ 0 (QAM 1 0 0 0)) then repeat (Some x) 3 else if tqam_eq_dec t (TQ 0 (QAM 0 0 0 0)) then [Some y]
  else repeat None (qncart (tq_am t)).
Definition tiny_out (se sg : nat) (rnd : R -> R) (f : bool) (h x y : R) : option (list (option R)) :=
  match hrr_create (nodup dbl_eq_dec) (nodup tqam_eq_dec) psi4 false false 12 tiny_am with
  | Some p => option_map (fun M => M (TQ 0 (QAM 0 1 0 0))) (rrun rnd (fun _ _ => f) (tiny_env se sg h) p (tiny_mem x y) (hp_order p))
  | None => None
  end.
(** Inline, in an external routine, table-driven. *)
Definition tiny_modes : list (nat * nat) := [(4, 20); (0, 20); (0, 0)]%nat.
Lemma tiny_value se sg rnd h x y : In (se, sg) tiny_modes ->
  tiny_out se sg rnd false h x y = Some (repeat (Some (rnd (x + rnd (h * y)))) 3) /\
  tiny_out se sg rnd true h x y = Some (repeat (Some (rnd (x + h * y))) 3).
Proof. intros [Em|[Em|[Em|[]]]]; injection Em as <- <-; split; reflexivity. Qed.
(** The integrals are 9/2 ([tiny_hyps]); the code gives 4. *)
Lemma tiny_rounded se sg : In (se, sg) tiny_modes -> tiny_out se sg rnd4 false (5 / 2) 2 1 = Some (repeat (Some 4) 3).
Proof.
  intros Hm. rewrite (proj1 (tiny_value _ _ _ _ _ _ Hm)). rewrite (rnd4_small (5 / 2 * 1)) by lra. rewrite (rnd4_big (2 + 5 / 2 * 1) 4) by lra. reflexivity.
Qed.
Lemma tiny_family se sg : family (tiny_env se sg (5 / 2)) tiny_V.
Proof.
  intros g. split; intros k a b i; unfold tiny_V; cbn [qof qa qb qc qd dl dr]; rewrite ?gam_up; cbn [tiny_env e_AB e_CD];
    change (@cadd Rcring) with Rplus; change (@cmul Rcring) with Rmult; cbn [pow]; change (@eq (car Rcring)) with (@eq R); field.
Qed.
Lemma tiny_hyps se sg : In (se, sg) tiny_modes -> exists p, hrr_create (e_enum (tiny_env se sg (5 / 2))) (nodup tqam_eq_dec) psi4 false false 12 tiny_am = Some p /\
  enum_ok (e_enum (tiny_env se sg (5 / 2))) /\ enum_ok (nodup tqam_eq_dec) /\ set_enum (e_enumc (tiny_env se sg (5 / 2))) /\ starts_x psi4 /\
  fuel_ok false false tiny_am 12 /\ table_ok_for (tiny_env se sg (5 / 2)) tiny_am /\ family (tiny_env se sg (5 / 2)) tiny_V /\
  rounded_pre (/ 4) 0 2 (tiny_env se sg (5 / 2)) p tiny_V (tiny_mem 2 1) /\
  (forall q, qclass q = QAM 0 1 0 0 -> tiny_V 0 q = 9 / 2) /\ moves (tiny_env se sg (5 / 2)) (TQ 0 (QAM 0 1 0 0)) = 1%nat.
Proof.
  intros Hm. destruct (hrr_create (e_enum (tiny_env se sg (5 / 2))) (nodup tqam_eq_dec) psi4 false false 12 tiny_am) as [p|] eqn:Ep; [|discriminate Ep].
  exists p. split; [reflexivity|]. cbn [tiny_env e_enum] in Ep.
  assert (EO : hp_order p = tiny_am /\ hp_top p = [TQ 0 (QAM 0 0 0 0); TQ 0 (QAM 1 0 0 0)]).
  { vm_compute in Ep. injection Ep as <-. split; reflexivity. }
  destruct EO as [EO ET].
  split; [apply nodup_enum|]. split; [apply nodup_enum|]. split; [apply penum_set|]. split; [exact psi4_starts|].
  split; [intros t [<-|[]]; vm_compute; lia|].
  split; [intros t [<-|[]]; destruct Hm as [Em|[Em|[Em|[]]]]; injection Em as <- <-; [left|left|right]; unfold dsum; simpl; try (split; [reflexivity|]); lia|].
  split; [apply tiny_family|]. split; [|split; [|reflexivity]].
  - split.
    + intros t. rewrite EO, ET. intros [[<-|[]]|[<-|[<-|[]]]]; reflexivity.
    + intros t q. rewrite ET. intros [<-|[<-|[]]] Hq; injection Hq as Ha Hb Hc Hd; unfold tiny_V; rewrite Ha, Hb; cbn [tq_am qncart pow].
      * exists 1. split; [|split; [rewrite Rabs_right; lra|replace (1 - 1 * 1) with 0 by ring; rewrite Rabs_R0; simpl; lra]].
        assert (L : (qindex psi4 q < 1)%nat) by (pose proof (qindex_lt psi4 q) as L; unfold qclass in L; rewrite Ha, Hb, Hc, Hd in L; exact L).
        cbn [tiny_env e_o]. destruct (qindex psi4 q) as [|n]; [reflexivity|lia].
      * exists 2. split; [|split; [rewrite Rabs_right; lra|replace (2 - 2 * 1 * 1) with 0 by ring; rewrite Rabs_R0; simpl; lra]].
        assert (L : (qindex psi4 q < 3)%nat) by (pose proof (qindex_lt psi4 q) as L; unfold qclass in L; rewrite Ha, Hb, Hc, Hd in L; exact L).
        cbn [tiny_env e_o]. destruct (qindex psi4 q) as [|[|[|n]]]; [reflexivity|reflexivity|reflexivity|lia].
  - intros q Hq. injection Hq as Ha Hb _ _. unfold tiny_V. rewrite Ha, Hb. simpl. field.
Qed.
