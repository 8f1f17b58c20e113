(** Table-driven horizontal recurrence.
    Source: skel/simint/ostei/ostei_general_hrr.c (four routines) with the table of
    skel/simint/recur_lookup.c.

    A block is a list; an entry [None] is an indeterminate value (never written).  The
    result [None] of a routine is an access outside an array. *)
From Coq Require Import List Arith Lia Bool ZArith.
Import ListNotations.
From Verif Require Import Base Cart Mdir HRRStep RecurData Recur.
Set Implicit Arguments.

(** [ri->dir], [ri->idx[dir][w]] (w = 0: one less, 1: two less, 2: one more);
    [None]: index outside the 3x3 table. *)
Definition r_dir (r : recur_row) : Z := let '(_, d, _, _, _) := r in d.
Definition r_idx (r : recur_row) (d : Z) (w : nat) : option Z :=
  let '(_, _, tx, ty, tz) := r in
  match (if (d =? 0)%Z then Some tx else if (d =? 1)%Z then Some ty
         else if (d =? 2)%Z then Some tz else None), w with
  | Some (m1, _, _), 0 => Some m1
  | Some (_, m2, _), 1 => Some m2
  | Some (_, _, p1), 2 => Some p1
  | _, _ => None
  end.

Fixpoint mapM A B (f : A -> option B) (l : list A) : option (list B) :=
  match l with
  | [] => Some []
  | x :: r => match f x, mapM f r with Some y, Some t => Some (y :: t) | _, _ => None end
  end.
Definition concatM A B (f : A -> option (list B)) (l : list A) : option (list B) :=
  match mapM f l with Some ll => Some (concat ll) | None => None end.

(** Array read at an [int] index. *)
Definition rdz A (l : list A) (i : Z) : option A :=
  if (i <? 0)%Z then None else nth_error l (Z.to_nat i).

Section Gen.
Context {R : cring}.
Definition block := list (option R).

(** [AB[dir]] *)
Definition at3 (X : dir -> R) (d : Z) : option R :=
  if (d =? 0)%Z then Some (X DX) else if (d =? 1)%Z then Some (X DY)
  else if (d =? 2)%Z then Some (X DZ) else None.

(** [theta1[..] +/- AB[dir]*theta2[..]] with indeterminate operands. *)
Definition olift (lf : bool) (x : R) (v0 v1 : option R) : option R :=
  match v0, v1 with Some a, Some b => Some (hrr_rhs lf x a b) | _, _ => None end.

(** ((n+1)*(n+2))/2 on C ints. *)
Definition zncart (n : Z) : Z := ((n + 1) * (n + 2) / 2)%Z.

(** [ostei_general_hrr_I], lines 5-53; [ostei_general_hrr_J], lines 57-104: the innermost
    statement for given [idx_i], [idx_j], [idx_kl]. *)
Definition gen_I (i j k l : nat) (AB : dir -> R) (th1 th2 : block) : option block :=
  let nkl := (zncart (Z.of_nat k) * zncart (Z.of_nat l))%Z in
  let njp1 := zncart (Z.of_nat j + 1) in
  let nj := zncart (Z.of_nat j) in
  concatM (fun ii => concatM (fun jj => mapM (fun kl =>
    match recur_lookup i ii, recur_lookup j jj with
    | Some ri, Some rj =>
      let d := r_dir ri in
      match r_idx ri d 0, r_idx rj d 2, at3 AB d with
      | Some im1, Some jp1, Some x =>
        let idx1 := (im1 * njp1 * nkl + jp1 * nkl)%Z in
        let idx2 := (im1 * nj * nkl + Z.of_nat jj * nkl)%Z in
        match rdz th1 (idx1 + Z.of_nat kl)%Z, rdz th2 (idx2 + Z.of_nat kl)%Z with
        | Some v0, Some v1 => Some (olift true x v0 v1)
        | _, _ => None
        end
      | _, _, _ => None
      end
    | _, _ => None
    end) (seq 0 (Z.to_nat nkl))) (seq 0 (ncart j))) (seq 0 (ncart i)).

Definition gen_J (i j k l : nat) (AB : dir -> R) (th1 th2 : block) : option block :=
  let nkl := (zncart (Z.of_nat k) * zncart (Z.of_nat l))%Z in
  let njm1 := zncart (Z.of_nat j - 1) in
  concatM (fun ii => concatM (fun jj => mapM (fun kl =>
    match recur_lookup i ii, recur_lookup j jj with
    | Some ri, Some rj =>
      let d := r_dir rj in
      match r_idx ri d 2, r_idx rj d 0, at3 AB d with
      | Some ip1, Some jm1, Some x =>
        let idx1 := (ip1 * njm1 * nkl + jm1 * nkl)%Z in
        let idx2 := (Z.of_nat ii * njm1 * nkl + jm1 * nkl)%Z in
        match rdz th1 (idx1 + Z.of_nat kl)%Z, rdz th2 (idx2 + Z.of_nat kl)%Z with
        | Some v0, Some v1 => Some (olift false x v0 v1)
        | _, _ => None
        end
      | _, _, _ => None
      end
    | _, _ => None
    end) (seq 0 (Z.to_nat nkl))) (seq 0 (ncart j))) (seq 0 (ncart i)).

(** [ostei_general_hrr_K], lines 107-156; [ostei_general_hrr_L], lines 158-207. *)
Definition gen_K (i j k l : nat) (CD : dir -> R) (th1 th2 : block) : option block :=
  let nij := (zncart (Z.of_nat i) * zncart (Z.of_nat j))%Z in
  let nkm1 := zncart (Z.of_nat k - 1) in
  let nlp1 := zncart (Z.of_nat l + 1) in
  let nl := zncart (Z.of_nat l) in
  concatM (fun ij => concatM (fun kk => mapM (fun ll =>
    match recur_lookup k kk, recur_lookup l ll with
    | Some rk, Some rl =>
      let d := r_dir rk in
      match r_idx rk d 0, r_idx rl d 2, at3 CD d with
      | Some km1, Some lp1, Some x =>
        match rdz th1 (Z.of_nat ij * nkm1 * nlp1 + km1 * nlp1 + lp1)%Z,
              rdz th2 (Z.of_nat ij * nkm1 * nl + km1 * nl + Z.of_nat ll)%Z with
        | Some v0, Some v1 => Some (olift true x v0 v1)
        | _, _ => None
        end
      | _, _, _ => None
      end
    | _, _ => None
    end) (seq 0 (ncart l))) (seq 0 (ncart k))) (seq 0 (Z.to_nat nij)).

Definition gen_L (i j k l : nat) (CD : dir -> R) (th1 th2 : block) : option block :=
  let nij := (zncart (Z.of_nat i) * zncart (Z.of_nat j))%Z in
  let nkp1 := zncart (Z.of_nat k + 1) in
  let nlm1 := zncart (Z.of_nat l - 1) in
  let nk := zncart (Z.of_nat k) in
  concatM (fun ij => concatM (fun kk => mapM (fun ll =>
    match recur_lookup k kk, recur_lookup l ll with
    | Some rk, Some rl =>
      let d := r_dir rl in
      match r_idx rk d 2, r_idx rl d 0, at3 CD d with
      | Some kp1, Some lm1, Some x =>
        match rdz th1 (Z.of_nat ij * nkp1 * nlm1 + kp1 * nlm1 + lm1)%Z,
              rdz th2 (Z.of_nat ij * nk * nlm1 + Z.of_nat kk * nlm1 + lm1)%Z with
        | Some v0, Some v1 => Some (olift false x v0 v1)
        | _, _ => None
        end
      | _, _, _ => None
      end
    | _, _ => None
    end) (seq 0 (ncart l))) (seq 0 (ncart k))) (seq 0 (Z.to_nat nij)).

End Gen.

(** ** Loop lemmas *)

Lemma mapM_spec A B (f : A -> option B) (g : A -> B) l :
  (forall x, In x l -> f x = Some (g x)) -> mapM f l = Some (map g l).
Proof.
  induction l as [|x l IH]; intros H; simpl; [reflexivity|].
  rewrite H by (left; reflexivity). rewrite IH; [reflexivity|].
  intros y Hy; apply H; right; exact Hy.
Qed.

Lemma concatM_spec A B (f : A -> option (list B)) (g : A -> list B) l :
  (forall x, In x l -> f x = Some (g x)) -> concatM f l = Some (flat_map g l).
Proof.
  intros H. unfold concatM. rewrite (mapM_spec f g l H). f_equal.
  rewrite flat_map_concat_map. reflexivity.
Qed.

Lemma zncart_nat n : zncart (Z.of_nat n) = Z.of_nat (ncart n).
Proof.
  unfold zncart, ncart. rewrite Nat2Z.inj_div, Nat2Z.inj_mul, !Nat2Z.inj_add.
  f_equal. lia.
Qed.

(** A row lookup through positions: the component is determined by its position. *)
Lemma row_at am i : am <= 18 -> i < ncart am ->
  exists g r, gam g = am /\ pos g = i /\ recur_lookup am i = Some r /\ row_ok g r.
Proof.
  intros Ha Hi. destruct (opos_surj psi4 am Hi) as [g [Hg Hp]]. simpl in Hp.
  destruct (recur_lookup_ok g) as [r [Hr1 Hr2]]; [lia|].
  exists g, r. rewrite <- Hg, <- Hp. auto.
Qed.

Lemma row_dir g r : row_ok g r -> gam g <> 0 -> exists e, is_mdir g e /\ r_dir r = Z.of_nat (idx_of_dir e).
Proof. destruct r as [[[[ijk d] tx] ty] tz]. intros [_ [H _]] Hg. exact (H Hg). Qed.

Lemma row_idx g r e : row_ok g r ->
  r_idx r (Z.of_nat (idx_of_dir e)) 0 = Some (nbr (down e g)) /\
  r_idx r (Z.of_nat (idx_of_dir e)) 1 = Some (nbr (down2 e g)) /\
  r_idx r (Z.of_nat (idx_of_dir e)) 2 = Some (Z.of_nat (pos (up e g))).
Proof.
  destruct r as [[[[ijk d] tx] ty] tz]. intros [_ [_ [_ [Hx [Hy Hz]]]]].
  unfold idx_ok in *. subst. destruct e; simpl; auto.
Qed.

Lemma at3_dir {R : cring} (X : dir -> R) e : at3 X (Z.of_nat (idx_of_dir e)) = Some (X e).
Proof. destruct e; reflexivity. Qed.

Lemma rdz_nat A (l : list A) (n : nat) (z : Z) : z = Z.of_nat n -> rdz l z = nth_error l n.
Proof.
  intros ->. unfold rdz. destruct (Z.ltb_spec (Z.of_nat n) 0); [lia|]. rewrite Nat2Z.id. reflexivity.
Qed.

(** ** The four routines compute the recurrence *)

Definition qof (b k : dbl) : qrt := Q4 (dl b) (dr b) (dl k) (dr k).

Lemma qof_bra b k : bra (qof b k) = b. Proof. destruct b; reflexivity. Qed.
Lemma qof_ket b k : ket (qof b k) = k. Proof. destruct k; reflexivity. Qed.
Lemma qof_eta q : qof (bra q) (ket q) = q. Proof. destruct q; reflexivity. Qed.

(** Read of a quartet's entry in a block of its class. *)
Definition entry {R : cring} (b : @block R) (q : qrt) : option (option R) := nth_error b (qindex psi4 q).

Section Correct.
Context {R : cring}.
Local Notation block := (@block R).

Definition sized (b : block) (c : qam) : Prop := length b = qncart c.

Lemma entry_some b q c : sized b c -> qclass q = c -> exists v, entry b q = Some v.
Proof.
  intros Hs Hc. apply nth_error_lt_Some. rewrite Hs, <- Hc. apply qindex_lt.
Qed.

(** What a bra routine must deliver. *)
Definition bra_block_ok (lf : bool) (i j k l : nat) (X : dir -> R) (th1 th2 out : block) : Prop :=
  sized out (QAM i j k l) /\
  forall q, qclass q = QAM i j k l ->
    exists h v0 v1, doublet_step lf (bra q) = HStep h /\
      entry th1 (qof (hs_src0 h) (ket q)) = Some v0 /\
      entry th2 (qof (hs_src1 h) (ket q)) = Some v1 /\
      entry out q = Some (olift lf (X (hs_dir h)) v0 v1).

Definition ket_block_ok (lf : bool) (i j k l : nat) (X : dir -> R) (th1 th2 out : block) : Prop :=
  sized out (QAM i j k l) /\
  forall q, qclass q = QAM i j k l ->
    exists h v0 v1, doublet_step lf (ket q) = HStep h /\
      entry th1 (qof (bra q) (hs_src0 h)) = Some v0 /\
      entry th2 (qof (bra q) (hs_src1 h)) = Some v1 /\
      entry out q = Some (olift lf (X (hs_dir h)) v0 v1).

(** Three nested loops writing consecutive entries. *)
Lemma loop3 (n1 n2 n3 : nat) (f : nat -> nat -> nat -> option (option R)) :
  (forall a b c, a < n1 -> b < n2 -> c < n3 -> exists v, f a b c = Some v) ->
  exists out, concatM (fun a => concatM (fun b => mapM (f a b) (seq 0 n3)) (seq 0 n2)) (seq 0 n1) = Some out /\
    length out = n1 * n2 * n3 /\
    forall a b c, a < n1 -> b < n2 -> c < n3 -> nth_error out ((a * n2 + b) * n3 + c) = f a b c.
Proof.
  intros Hf.
  set (g := fun a b c => match f a b c with Some v => v | None => None end).
  exists (flat_map (fun a => flat_map (fun b => map (g a b) (seq 0 n3)) (seq 0 n2)) (seq 0 n1)).
  assert (L3 : forall a b, length (map (g a b) (seq 0 n3)) = n3) by (intros; rewrite map_length, seq_length; reflexivity).
  assert (L2 : forall a, length (flat_map (fun b => map (g a b) (seq 0 n3)) (seq 0 n2)) = n2 * n3).
  { intros a. rewrite (length_flat_map_const _ _ (k := n3)) by (intros; apply L3). rewrite seq_length. reflexivity. }
  split; [|split].
  - apply concatM_spec. intros a Ha. apply in_seq in Ha.
    apply concatM_spec. intros b Hb. apply in_seq in Hb.
    apply mapM_spec. intros c Hc. apply in_seq in Hc. unfold g.
    destruct (Hf a b c) as [v Hv]; try lia. rewrite Hv. reflexivity.
  - rewrite (length_flat_map_const _ _ (k := n2 * n3)) by (intros; apply L2). rewrite seq_length. lia.
  - intros a b c Ha Hb Hc.
    replace ((a * n2 + b) * n3 + c) with (a * (n2 * n3) + (b * n3 + c)) by lia.
    rewrite (nth_error_flat_map_const _ _ (k := n2 * n3)) with (a := a);
      [|intros; apply L2|nia|rewrite nth_error_seq by lia; f_equal; lia].
    rewrite (nth_error_flat_map_const _ _ (k := n3)) with (a := b);
      [|intros; apply L3|lia|rewrite nth_error_seq by lia; f_equal; lia].
    rewrite nth_error_map, nth_error_seq by lia. simpl. unfold g.
    destruct (Hf a b c) as [v Hv]; try lia. rewrite Hv. reflexivity.
Qed.

Lemma doublet_step_at lf m s e c : is_mdir m e -> down e m = Some c -> 
  doublet_step lf (mk lf m s) =
  HStep (HS (mk lf m s) (mk lf c (up e s)) (mk lf c s) e).
Proof.
  intros Hm Hd.
  assert (Hne : gam m <> 0). { apply gam_down in Hd. lia. }
  destruct (@doublet_step_ok lf (mk lf m s)) as [h [Hh Ht]]; [rewrite moving_mk; exact Hne|].
  rewrite Hh. destruct (doublet_step_shape _ _ Hh) as [_ [c' [H1 [H2 [H3 H4]]]]].
  rewrite Ht, moving_mk in H1, H2. rewrite Ht, still_mk in H3, H4.
  assert (hs_dir h = e) by (eapply is_mdir_unique; eauto). rewrite H in *.
  assert (c' = c). { apply down_some in H1. congruence. } subst c'.
  destruct h; simpl in *; congruence.
Qed.

Lemma mdir_pick g r : row_ok g r -> gam g <> 0 ->
  exists e c, is_mdir g e /\ r_dir r = Z.of_nat (idx_of_dir e) /\ down e g = Some c /\ S (gam c) = gam g.
Proof.
  intros Hr Hg. destruct (row_dir _ _ Hr Hg) as [e [He Hd]]. 
  destruct (down e g) as [c|] eqn:E; [|apply down_none in E; destruct He; contradiction].
  exists e, c. repeat split; auto; try apply He. apply gam_down in E. lia.
Qed.

Lemma pos_at_class am i : i < ncart am -> exists g, gam g = am /\ pos g = i.
Proof. intros H. exact (opos_surj psi4 am H). Qed.

(** From the innermost statement to the whole block. *)
Lemma bra_assemble lf i j k l X th1 th2 (F : nat -> nat -> nat -> option (option R)) :
  (forall b kk, dclass b = (i, j) -> dclass kk = (k, l) ->
     exists h v0 v1, doublet_step lf b = HStep h /\
       entry th1 (qof (hs_src0 h) kk) = Some v0 /\ entry th2 (qof (hs_src1 h) kk) = Some v1 /\
       F (pos (dl b)) (pos (dr b)) (dindex psi4 kk) = Some (olift lf (X (hs_dir h)) v0 v1)) ->
  exists out, concatM (fun a => concatM (fun b => mapM (F a b) (seq 0 (ncart k * ncart l)))
                (seq 0 (ncart j))) (seq 0 (ncart i)) = Some out /\
    bra_block_ok lf i j k l X th1 th2 out.
Proof.
  intros HF.
  destruct (@loop3 (ncart i) (ncart j) (ncart k * ncart l) F) as [out [E [L N]]].
  { intros a b c Ha Hb Hc.
    destruct (pos_at_class _ Ha) as [ga [Ga Pa]]. destruct (pos_at_class _ Hb) as [gb [Gb Pb]].
    destruct (@dindex_surj psi4 k l c Hc) as [kk [Kk Pk]].
    destruct (HF (D ga gb) kk) as [h [v0 [v1 [_ [_ [_ H]]]]]];
      [unfold dclass; simpl; congruence|exact Kk|].
    simpl in H. rewrite Pa, Pb, Pk in H. eauto. }
  exists out. split; [exact E|]. split.
  { unfold sized, qncart; simpl. rewrite L. lia. }
  intros q Hq. unfold qclass in Hq. injection Hq as H0 H1 H2 H3.
  assert (Hk : dclass (ket q) = (k, l)) by (unfold dclass, ket; simpl; congruence).
  destruct (HF (bra q) (ket q)) as [h [v0 [v1 [A [B [C H]]]]]];
    [unfold dclass, bra; simpl; congruence|exact Hk|].
  exists h, v0, v1. split; [exact A|]. split; [exact B|]. split; [exact C|].
  unfold entry. rewrite <- H.
  replace (qindex psi4 q) with ((pos (qa q) * ncart j + pos (qb q)) * (ncart k * ncart l) + dindex psi4 (ket q)).
  - apply N.
    + rewrite <- H0. apply pos_lt.
    + rewrite <- H1. apply pos_lt.
    + pose proof (dindex_lt psi4 (ket q)) as K. rewrite Hk in K. exact K.
  - unfold qindex, dindex at 2. rewrite Hk. unfold dncart, bra; simpl. rewrite H1. reflexivity.
Qed.

Lemma ket_assemble lf i j k l X th1 th2 (F : nat -> nat -> nat -> option (option R)) :
  (forall b kk, dclass b = (i, j) -> dclass kk = (k, l) ->
     exists h v0 v1, doublet_step lf kk = HStep h /\
       entry th1 (qof b (hs_src0 h)) = Some v0 /\ entry th2 (qof b (hs_src1 h)) = Some v1 /\
       F (dindex psi4 b) (pos (dl kk)) (pos (dr kk)) = Some (olift lf (X (hs_dir h)) v0 v1)) ->
  exists out, concatM (fun a => concatM (fun b => mapM (F a b) (seq 0 (ncart l)))
                (seq 0 (ncart k))) (seq 0 (ncart i * ncart j)) = Some out /\
    ket_block_ok lf i j k l X th1 th2 out.
Proof.
  intros HF.
  destruct (@loop3 (ncart i * ncart j) (ncart k) (ncart l) F) as [out [E [L N]]].
  { intros a b c Ha Hb Hc.
    destruct (pos_at_class _ Hb) as [ga [Ga Pa]]. destruct (pos_at_class _ Hc) as [gb [Gb Pb]].
    destruct (@dindex_surj psi4 i j a Ha) as [kk [Kk Pk]].
    destruct (HF kk (D ga gb)) as [h [v0 [v1 [_ [_ [_ H]]]]]];
      [exact Kk|unfold dclass; simpl; congruence|].
    simpl in H. rewrite Pa, Pb, Pk in H. eauto. }
  exists out. split; [exact E|]. split.
  { unfold sized, qncart; simpl. rewrite L. lia. }
  intros q Hq. unfold qclass in Hq. injection Hq as H0 H1 H2 H3.
  assert (Hb : dclass (bra q) = (i, j)) by (unfold dclass, bra; simpl; congruence).
  assert (Hk : dclass (ket q) = (k, l)) by (unfold dclass, ket; simpl; congruence).
  destruct (HF (bra q) (ket q) Hb Hk) as [h [v0 [v1 [A [B [C H]]]]]].
  exists h, v0, v1. split; [exact A|]. split; [exact B|]. split; [exact C|].
  unfold entry. rewrite <- H.
  replace (qindex psi4 q) with ((dindex psi4 (bra q) * ncart k + pos (qc q)) * ncart l + pos (qd q)).
  - apply N.
    + pose proof (dindex_lt psi4 (bra q)) as K. rewrite Hb in K. exact K.
    + rewrite <- H2. apply pos_lt.
    + rewrite <- H3. apply pos_lt.
  - unfold qindex. rewrite Hk. unfold dindex at 3. unfold dncart, ket; simpl. rewrite H3. lia.
Qed.

Ltac zidx := unfold qindex; rewrite qof_bra, qof_ket; unfold dindex, dncart, dclass;
  cbn [dl dr fst snd opos psi4]; rewrite ?gam_up;
  repeat match goal with H : gam _ = _ |- _ => rewrite H end;
  repeat rewrite ?Nat2Z.inj_add, ?Nat2Z.inj_mul; ring.

Lemma gen_I_ok i j k l X th1 th2 :
  1 <= i <= 18 -> j <= 18 ->
  sized th1 (QAM (i - 1) (j + 1) k l) -> sized th2 (QAM (i - 1) j k l) ->
  exists out, gen_I i j k l X th1 th2 = Some out /\ bra_block_ok true i j k l X th1 th2 out.
Proof.
  intros Hi Hj S1 S2. unfold gen_I.
  rewrite !zncart_nat. replace (Z.of_nat j + 1)%Z with (Z.of_nat (S j)) by lia.
  rewrite zncart_nat, <- Nat2Z.inj_mul, Nat2Z.id.
  apply bra_assemble.
  intros [gi gj] [gk gl] Hb Hkk. unfold dclass in Hb, Hkk; simpl in Hb, Hkk.
  injection Hb as Hgi Hgj. injection Hkk as Hgk Hgl.
  destruct (@recur_lookup_ok gi) as [ri [Hri Hokri]]; [lia|].
  destruct (@recur_lookup_ok gj) as [rj [Hrj Hokrj]]; [lia|].
  destruct (mdir_pick _ _ Hokri) as [e [c [He [Hdir [Hdn Hc]]]]]; [lia|].
  pose proof (doublet_step_at true gj He Hdn) as Hstep. simpl in Hstep.
  destruct (@entry_some th1 (qof (D c (up e gj)) (D gk gl)) _ S1) as [v0 Hv0].
  { unfold qclass, qof; simpl. rewrite gam_up. f_equal; lia. }
  destruct (@entry_some th2 (qof (D c gj) (D gk gl)) _ S2) as [v1 Hv1].
  { unfold qclass, qof; simpl. f_equal; lia. }
  eexists _, v0, v1. split; [exact Hstep|]. cbn [hs_src0 hs_src1 hs_dir].
  split; [exact Hv0|]. split; [exact Hv1|].
  cbn [dl dr]. rewrite Hgi in Hri. rewrite Hgj in Hrj. rewrite Hri, Hrj, Hdir.
  destruct (row_idx _ _ e Hokri) as [R0 _]. destruct (row_idx _ _ e Hokrj) as [_ [_ R2]].
  rewrite R0, R2, at3_dir, Hdn. cbn [nbr].
  rewrite (@rdz_nat _ th1 (qindex psi4 (qof (D c (up e gj)) (D gk gl)))) by zidx.
  rewrite (@rdz_nat _ th2 (qindex psi4 (qof (D c gj) (D gk gl)))) by zidx.
  unfold entry in Hv0, Hv1. rewrite Hv0, Hv1. reflexivity.
Qed.

Lemma gen_J_ok i j k l X th1 th2 :
  i <= 18 -> 1 <= j <= 18 ->
  sized th1 (QAM (i + 1) (j - 1) k l) -> sized th2 (QAM i (j - 1) k l) ->
  exists out, gen_J i j k l X th1 th2 = Some out /\ bra_block_ok false i j k l X th1 th2 out.
Proof.
  intros Hi Hj S1 S2. unfold gen_J.
  rewrite !zncart_nat. replace (Z.of_nat j - 1)%Z with (Z.of_nat (j - 1)) by lia.
  rewrite zncart_nat, <- Nat2Z.inj_mul, Nat2Z.id.
  apply bra_assemble.
  intros [gi gj] [gk gl] Hb Hkk. unfold dclass in Hb, Hkk; simpl in Hb, Hkk.
  injection Hb as Hgi Hgj. injection Hkk as Hgk Hgl.
  destruct (@recur_lookup_ok gi) as [ri [Hri Hokri]]; [lia|].
  destruct (@recur_lookup_ok gj) as [rj [Hrj Hokrj]]; [lia|].
  destruct (mdir_pick _ _ Hokrj) as [e [c [He [Hdir [Hdn Hc]]]]]; [lia|].
  pose proof (doublet_step_at false gi He Hdn) as Hstep. simpl in Hstep.
  destruct (@entry_some th1 (qof (D (up e gi) c) (D gk gl)) _ S1) as [v0 Hv0].
  { unfold qclass, qof; simpl. rewrite gam_up. f_equal; lia. }
  destruct (@entry_some th2 (qof (D gi c) (D gk gl)) _ S2) as [v1 Hv1].
  { unfold qclass, qof; simpl. f_equal; lia. }
  assert (Hc' : gam c = j - 1) by lia.
  eexists _, v0, v1. split; [exact Hstep|]. cbn [hs_src0 hs_src1 hs_dir].
  split; [exact Hv0|]. split; [exact Hv1|].
  cbn [dl dr]. rewrite Hgi in Hri. rewrite Hgj in Hrj. rewrite Hri, Hrj, Hdir.
  destruct (row_idx _ _ e Hokri) as [_ [_ R2]]. destruct (row_idx _ _ e Hokrj) as [R0 _].
  rewrite R0, R2, at3_dir, Hdn. cbn [nbr].
  rewrite (@rdz_nat _ th1 (qindex psi4 (qof (D (up e gi) c) (D gk gl)))) by zidx.
  rewrite (@rdz_nat _ th2 (qindex psi4 (qof (D gi c) (D gk gl)))) by zidx.
  unfold entry in Hv0, Hv1. rewrite Hv0, Hv1. reflexivity.
Qed.

Lemma gen_K_ok i j k l X th1 th2 :
  1 <= k <= 18 -> l <= 18 ->
  sized th1 (QAM i j (k - 1) (l + 1)) -> sized th2 (QAM i j (k - 1) l) ->
  exists out, gen_K i j k l X th1 th2 = Some out /\ ket_block_ok true i j k l X th1 th2 out.
Proof.
  intros Hk Hl S1 S2. unfold gen_K.
  rewrite !zncart_nat. replace (Z.of_nat l + 1)%Z with (Z.of_nat (S l)) by lia.
  replace (Z.of_nat k - 1)%Z with (Z.of_nat (k - 1)) by lia.
  rewrite !zncart_nat, <- Nat2Z.inj_mul, Nat2Z.id.
  apply ket_assemble.
  intros [gi gj] [gk gl] Hb Hkk. unfold dclass in Hb, Hkk; simpl in Hb, Hkk.
  injection Hb as Hgi Hgj. injection Hkk as Hgk Hgl.
  destruct (@recur_lookup_ok gk) as [ri [Hri Hokri]]; [lia|].
  destruct (@recur_lookup_ok gl) as [rj [Hrj Hokrj]]; [lia|].
  destruct (mdir_pick _ _ Hokri) as [e [c [He [Hdir [Hdn Hc]]]]]; [lia|].
  pose proof (doublet_step_at true gl He Hdn) as Hstep. simpl in Hstep.
  destruct (@entry_some th1 (qof (D gi gj) (D c (up e gl))) _ S1) as [v0 Hv0].
  { unfold qclass, qof; simpl. rewrite gam_up. f_equal; lia. }
  destruct (@entry_some th2 (qof (D gi gj) (D c gl)) _ S2) as [v1 Hv1].
  { unfold qclass, qof; simpl. f_equal; lia. }
  assert (Hc' : gam c = k - 1) by lia.
  eexists _, v0, v1. split; [exact Hstep|]. cbn [hs_src0 hs_src1 hs_dir].
  split; [exact Hv0|]. split; [exact Hv1|].
  cbn [dl dr]. rewrite Hgk in Hri. rewrite Hgl in Hrj. rewrite Hri, Hrj, Hdir.
  destruct (row_idx _ _ e Hokri) as [R0 _]. destruct (row_idx _ _ e Hokrj) as [_ [_ R2]].
  rewrite R0, R2, at3_dir, Hdn. cbn [nbr].
  rewrite (@rdz_nat _ th1 (qindex psi4 (qof (D gi gj) (D c (up e gl))))) by zidx.
  rewrite (@rdz_nat _ th2 (qindex psi4 (qof (D gi gj) (D c gl)))) by zidx.
  unfold entry in Hv0, Hv1. rewrite Hv0, Hv1. reflexivity.
Qed.

Lemma gen_L_ok i j k l X th1 th2 :
  k <= 18 -> 1 <= l <= 18 ->
  sized th1 (QAM i j (k + 1) (l - 1)) -> sized th2 (QAM i j k (l - 1)) ->
  exists out, gen_L i j k l X th1 th2 = Some out /\ ket_block_ok false i j k l X th1 th2 out.
Proof.
  intros Hk Hl S1 S2. unfold gen_L.
  rewrite !zncart_nat. replace (Z.of_nat k + 1)%Z with (Z.of_nat (S k)) by lia.
  replace (Z.of_nat l - 1)%Z with (Z.of_nat (l - 1)) by lia.
  rewrite !zncart_nat, <- Nat2Z.inj_mul, Nat2Z.id.
  apply ket_assemble.
  intros [gi gj] [gk gl] Hb Hkk. unfold dclass in Hb, Hkk; simpl in Hb, Hkk.
  injection Hb as Hgi Hgj. injection Hkk as Hgk Hgl.
  destruct (@recur_lookup_ok gk) as [ri [Hri Hokri]]; [lia|].
  destruct (@recur_lookup_ok gl) as [rj [Hrj Hokrj]]; [lia|].
  destruct (mdir_pick _ _ Hokrj) as [e [c [He [Hdir [Hdn Hc]]]]]; [lia|].
  pose proof (doublet_step_at false gk He Hdn) as Hstep. simpl in Hstep.
  destruct (@entry_some th1 (qof (D gi gj) (D (up e gk) c)) _ S1) as [v0 Hv0].
  { unfold qclass, qof; simpl. rewrite gam_up. f_equal; lia. }
  destruct (@entry_some th2 (qof (D gi gj) (D gk c)) _ S2) as [v1 Hv1].
  { unfold qclass, qof; simpl. f_equal; lia. }
  assert (Hc' : gam c = l - 1) by lia.
  eexists _, v0, v1. split; [exact Hstep|]. cbn [hs_src0 hs_src1 hs_dir].
  split; [exact Hv0|]. split; [exact Hv1|].
  cbn [dl dr]. rewrite Hgk in Hri. rewrite Hgl in Hrj. rewrite Hri, Hrj, Hdir.
  destruct (row_idx _ _ e Hokri) as [_ [_ R2]]. destruct (row_idx _ _ e Hokrj) as [R0 _].
  rewrite R0, R2, at3_dir, Hdn. cbn [nbr].
  rewrite (@rdz_nat _ th1 (qindex psi4 (qof (D gi gj) (D (up e gk) c)))) by zidx.
  rewrite (@rdz_nat _ th2 (qindex psi4 (qof (D gi gj) (D gk c)))) by zidx.
  unfold entry in Hv0, Hv1. rewrite Hv0, Hv1. reflexivity.
Qed.
End Correct.
