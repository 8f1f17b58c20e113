(** Memory of basis-function shells.
    Source: skel/simint/shell/shell.c:189-245 (initialize, allocate, free, copy), 280-303 (create),
    skel/simint/shell/shell.h:89-94 (compare_shell).

    Heap: blocks of doubles, [None]: not allocated (or freed); an element [None]: indeterminate.
    Sizes are in doubles.  A step that would be undefined behaviour gives [None]: freeing a block
    that is not live, copying from or to a block that is not live or too short, copying a block
    onto itself.  malloc always succeeds. *)
From Coq Require Import List Arith Lia Bool ZArith.
Import ListNotations.
From Verif Require Import Base Simd Layout PairData.
Set Implicit Arguments.

Section Heap.
Variables (V P : Type).
Definition block : Type := list (option V).
(** [s_par]: am, x, y, z.  [alpha] is at the start of the buffer, [coef] at [s_coef]. *)
Record shellv := Sh { s_nprim : nat; s_par : P; s_ptr : option nat; s_mem : nat; s_coef : nat }.
Record state := St { vars : nat -> shellv; heap : nat -> option block; nxt : nat }.

Definition setv (f : nat -> shellv) (i : nat) (v : shellv) : nat -> shellv := fun j => if j =? i then v else f j.
Definition seth (h : nat -> option block) (b : nat) (c : option block) : nat -> option block := fun k => if k =? b then c else h k.

(** simint_initialize_shell. *)
Definition init_shell (i : nat) (s : state) : state :=
  let g := vars s i in St (setv (vars s) i (Sh (s_nprim g) (s_par g) None 0 (s_coef g))) (heap s) (nxt s).
(** simint_free_shell. *)
Definition free_shell (i : nat) (s : state) : option state :=
  match s_ptr (vars s i) with
  | None => Some (init_shell i s)
  | Some b => match heap s b with
    | None => None
    | Some _ => Some (init_shell i (St (vars s) (seth (heap s) b None) (nxt s)))
    end
  end.
(** simint_allocate_shell. *)
Definition allocate_shell (nprim i : nat) (s : state) : option state :=
  let need := 2 * nprim in
  match (if s_mem (vars s i) <? need then
    match free_shell i s with
    | None => None
    | Some s1 =>
      let g := vars s1 i in
      Some (St (setv (vars s1) i (Sh (s_nprim g) (s_par g) (Some (nxt s1)) need (s_coef g)))
               (seth (heap s1) (nxt s1) (Some (repeat None need))) (S (nxt s1)))
    end else Some s) with
  | None => None
  | Some s2 => let g := vars s2 i in
    Some (St (setv (vars s2) i (Sh (s_nprim g) (s_par g) (s_ptr g) (s_mem g) nprim)) (heap s2) (nxt s2))
  end.
(** Overwriting elements [o .. o + length d - 1] of a buffer. *)
Definition put_at (o : nat) (d c : block) : option block :=
  if o + length d <=? length c then Some (firstn o c ++ d ++ skipn (o + length d) c) else None.
Definition write_ptr (p : option nat) (o : nat) (d : block) (s : state) : option state :=
  if length d =? 0 then Some s else
  match p with
  | None => None
  | Some b => match heap s b with
    | None => None
    | Some c => match put_at o d c with
      | None => None
      | Some c' => Some (St (vars s) (seth (heap s) b (Some c')) (nxt s))
      end
    end
  end.
(** simint_create_shell; [alpha] and [coef] are the contents of the caller's arrays. *)
Definition create_shell (nprim : nat) (par : P) (alpha coef : list V) (i : nat) (s : state) : option state :=
  match allocate_shell nprim i s with
  | None => None
  | Some s1 =>
    let g := vars s1 i in
    let s2 := St (setv (vars s1) i (Sh nprim par (s_ptr g) (s_mem g) (s_coef g))) (heap s1) (nxt s1) in
    match write_ptr (s_ptr g) 0 (map Some alpha) s2 with
    | None => None
    | Some s3 => write_ptr (s_ptr g) (s_coef g) (map Some coef) s3
    end
  end.
(** memcpy(dest->ptr, src->ptr, n). *)
Definition memcpy (dst src : option nat) (n : nat) (s : state) : option state :=
  if n =? 0 then Some s else
  match dst, src with
  | Some d, Some b =>
    if d =? b then None else
    match heap s b with
    | None => None
    | Some c => if n <=? length c then write_ptr (Some d) 0 (firstn n c) s else None
    end
  | _, _ => None
  end.
(** simint_copy_shell: the number of bytes is that of the destination. *)
Definition copy_shell (src dst : nat) (s : state) : option state :=
  match allocate_shell (s_nprim (vars s src)) dst s with
  | None => None
  | Some s1 =>
    let gs := vars s1 src in let gd := vars s1 dst in
    let s2 := St (setv (vars s1) dst (Sh (s_nprim gs) (s_par gs) (s_ptr gd) (s_mem gd) (s_coef gd))) (heap s1) (nxt s1) in
    memcpy (s_ptr gd) (s_ptr (vars s2 src)) (s_mem gd) s2
  end.
(** compare_shell. *)
Definition opt_eqb (a b : option nat) : bool :=
  match a, b with Some x, Some y => x =? y | None, None => true | _, _ => false end.
Definition compare_shell (a b : shellv) : bool := (s_nprim a =? s_nprim b) && opt_eqb (s_ptr a) (s_ptr b).

(** ** Specification *)
(** Who owns what. *)
Definition owned_ok (s : state) : Prop :=
  (forall i b, s_ptr (vars s i) = Some b -> b < nxt s /\ exists c, heap s b = Some c /\ length c = s_mem (vars s i)) /\
  (forall i, s_ptr (vars s i) = None -> s_mem (vars s i) = 0) /\
  (forall i j b, s_ptr (vars s i) = Some b -> s_ptr (vars s j) = Some b -> i = j) /\
  (forall b, heap s b <> None -> b < nxt s /\ exists i, s_ptr (vars s i) = Some b).
(** Primitive [k] of shell [i], as the rest of the library reads it. *)
Definition alpha_of (s : state) (i k : nat) : option V :=
  match s_ptr (vars s i) with
  | None => None
  | Some b => match heap s b with None => None | Some c => match nth_error c k with Some x => x | None => None end end
  end.
Definition coef_of (s : state) (i k : nat) : option V :=
  match s_ptr (vars s i) with
  | None => None
  | Some b => match heap s b with None => None | Some c => match nth_error c (s_coef (vars s i) + k) with Some x => x | None => None end end
  end.
(** A shell made by create or copy: room for its primitives, [coef] behind [alpha]. *)
Definition made (s : state) (i : nat) : Prop :=
  2 * s_nprim (vars s i) <= s_mem (vars s i) /\ s_coef (vars s i) = s_nprim (vars s i).

(** ** Proofs *)
Lemma setv_same f i v : setv f i v i = v.
Proof. unfold setv. rewrite Nat.eqb_refl. reflexivity. Qed.
Lemma setv_other f i v j : j <> i -> setv f i v j = f j.
Proof. intros H. unfold setv. destruct (Nat.eqb_spec j i); [contradiction|reflexivity]. Qed.
Lemma seth_same h b c : seth h b c b = c.
Proof. unfold seth. rewrite Nat.eqb_refl. reflexivity. Qed.
Lemma seth_other h b c k : k <> b -> seth h b c k = h k.
Proof. intros H. unfold seth. destruct (Nat.eqb_spec k b); [contradiction|reflexivity]. Qed.

Lemma free_ok i s : owned_ok s -> exists s', free_shell i s = Some s' /\ owned_ok s' /\ nxt s' = nxt s /\
  s_ptr (vars s' i) = None /\ s_mem (vars s' i) = 0 /\ s_nprim (vars s' i) = s_nprim (vars s i) /\ s_par (vars s' i) = s_par (vars s i) /\
  (forall j, j <> i -> vars s' j = vars s j) /\
  (forall b, s_ptr (vars s i) <> Some b -> heap s' b = heap s b) /\
  (forall b, s_ptr (vars s i) = Some b -> heap s' b = None).
Proof.
  intros (H1 & H2 & H3 & H4). unfold free_shell. destruct (s_ptr (vars s i)) as [b|] eqn:Ep.
  - destruct (H1 i b Ep) as (Hn & c & Ec & Lc). rewrite Ec. eexists. split; [reflexivity|].
    unfold init_shell. cbn [vars heap nxt]. repeat split.
    + cbn [vars heap] in *. destruct (Nat.eq_dec i0 i) as [->|N]; [rewrite setv_same in H; discriminate|]. rewrite setv_other in H by exact N. apply (H1 i0 b0 H).
    + cbn [vars heap] in *. destruct (Nat.eq_dec i0 i) as [->|N]; [rewrite setv_same in H; discriminate|]. rewrite setv_other in H |- * by exact N.
      destruct (H1 i0 b0 H) as (_ & c0 & E0 & L0). exists c0. split; [|exact L0]. rewrite seth_other; [exact E0|]. intros ->. apply N. apply (H3 i0 i b); assumption.
    + cbn [vars]. intros j Hj. destruct (Nat.eq_dec j i) as [->|N]; [rewrite setv_same; reflexivity|]. rewrite setv_other in Hj |- * by exact N. apply H2, Hj.
    + cbn [vars]. intros i0 j b0 Ei Ej. destruct (Nat.eq_dec i0 i) as [->|N]; [rewrite setv_same in Ei; discriminate|].
      destruct (Nat.eq_dec j i) as [->|N']; [rewrite setv_same in Ej; discriminate|]. rewrite setv_other in Ei, Ej by assumption. apply (H3 i0 j b0); assumption.
    + cbn [heap] in H. destruct (Nat.eq_dec b0 b) as [->|N]; [rewrite seth_same in H; congruence|]. rewrite seth_other in H by exact N. apply (H4 b0 H).
    + cbn [heap vars] in *. destruct (Nat.eq_dec b0 b) as [->|N]; [rewrite seth_same in H; congruence|]. rewrite seth_other in H by exact N.
      destruct (H4 b0 H) as (_ & j & Ej). exists j. rewrite setv_other; [exact Ej|]. intros ->. congruence.
    + cbn [vars]. rewrite setv_same. reflexivity.
    + rewrite setv_same. reflexivity.
    + rewrite setv_same. reflexivity.
    + rewrite setv_same. reflexivity.
    + intros j Hj. rewrite setv_other by exact Hj. reflexivity.
    + intros b0 Hb. rewrite seth_other by congruence. reflexivity.
    + intros b0 Hb. injection Hb as <-. rewrite seth_same. reflexivity.
  - eexists. split; [reflexivity|]. unfold init_shell. cbn [vars heap nxt]. repeat split.
    + cbn [vars] in *. destruct (Nat.eq_dec i0 i) as [->|N]; [rewrite setv_same in H; discriminate|]. rewrite setv_other in H by exact N. apply (H1 i0 b H).
    + cbn [vars heap] in *. destruct (Nat.eq_dec i0 i) as [->|N]; [rewrite setv_same in H; discriminate|]. rewrite setv_other in H |- * by exact N. apply (H1 i0 b H).
    + cbn [vars]. intros j Hj. destruct (Nat.eq_dec j i) as [->|N]; [rewrite setv_same; reflexivity|]. rewrite setv_other in Hj |- * by exact N. apply H2, Hj.
    + cbn [vars]. intros i0 j b0 Ei Ej. destruct (Nat.eq_dec i0 i) as [->|N]; [rewrite setv_same in Ei; discriminate|].
      destruct (Nat.eq_dec j i) as [->|N']; [rewrite setv_same in Ej; discriminate|]. rewrite setv_other in Ei, Ej by assumption. apply (H3 i0 j b0); assumption.
    + apply (H4 b H).
    + cbn [vars]. destruct (H4 b H) as (_ & j & Ej). exists j. rewrite setv_other; [exact Ej|]. intros ->. congruence.
    + rewrite setv_same. reflexivity.
    + rewrite setv_same. reflexivity.
    + rewrite setv_same. reflexivity.
    + rewrite setv_same. reflexivity.
    + intros j Hj. rewrite setv_other by exact Hj. reflexivity.
    + intros b Hb. discriminate Hb.
Qed.

Lemma owned_setpar s i n p c : owned_ok s ->
  owned_ok (St (setv (vars s) i (Sh n p (s_ptr (vars s i)) (s_mem (vars s i)) c)) (heap s) (nxt s)).
Proof.
  intros (H1 & H2 & H3 & H4). set (v := setv _ _ _).
  assert (EP : forall j, s_ptr (v j) = s_ptr (vars s j)) by (intros j; unfold v, setv; destruct (Nat.eqb_spec j i); [subst; reflexivity|reflexivity]).
  assert (EM : forall j, s_mem (v j) = s_mem (vars s j)) by (intros j; unfold v, setv; destruct (Nat.eqb_spec j i); [subst; reflexivity|reflexivity]).
  split; [|split; [|split]]; cbn [vars heap nxt].
  - intros j b E. rewrite EP in E. rewrite EM. apply H1, E.
  - intros j E. rewrite EP in E. rewrite EM. apply H2, E.
  - intros j k b E1 E2. rewrite EP in E1, E2. apply (H3 j k b); assumption.
  - intros b E. destruct (H4 b E) as (L & j & Ej). split; [exact L|]. exists j. rewrite EP. exact Ej.
Qed.

Theorem allocate_ok nprim i s : owned_ok s -> exists s', allocate_shell nprim i s = Some s' /\ owned_ok s' /\
  s_mem (vars s' i) = Nat.max (s_mem (vars s i)) (2 * nprim) /\ s_coef (vars s' i) = nprim /\
  s_nprim (vars s' i) = s_nprim (vars s i) /\ s_par (vars s' i) = s_par (vars s i) /\
  (forall j, j <> i -> vars s' j = vars s j) /\
  (forall j b, j <> i -> s_ptr (vars s j) = Some b -> heap s' b = heap s b).
Proof.
  intros HO. unfold allocate_shell. destruct (Nat.ltb_spec (s_mem (vars s i)) (2 * nprim)) as [L|L].
  - destruct (free_ok i HO) as (s1 & E1 & HO1 & N1 & P1 & M1 & K1 & Q1 & V1 & Hh1 & Hh2). rewrite E1.
    set (s2 := St (setv (vars s1) i (Sh (s_nprim (vars s1 i)) (s_par (vars s1 i)) (Some (nxt s1)) (2 * nprim) (s_coef (vars s1 i))))
                  (seth (heap s1) (nxt s1) (Some (repeat None (2 * nprim)))) (S (nxt s1))).
    assert (HO2 : owned_ok s2).
    { destruct HO1 as (A1 & A2 & A3 & A4). unfold s2. repeat split; cbn [vars heap nxt].
      - destruct (Nat.eq_dec i0 i) as [->|Nj]; cbn [vars] in H.
        + rewrite setv_same in H. cbn [s_ptr] in H. injection H as <-. lia.
        + rewrite setv_other in H by exact Nj. destruct (A1 i0 b H) as (X & _). lia.
      - cbn [vars] in H. destruct (Nat.eq_dec i0 i) as [->|Nj].
        + rewrite setv_same in H |- *. cbn [s_ptr s_mem] in *. injection H as <-. rewrite seth_same. eexists. split; [reflexivity|]. rewrite repeat_length. reflexivity.
        + rewrite setv_other in H |- * by exact Nj. destruct (A1 i0 b H) as (X & c & Ec & Lc). exists c. split; [|exact Lc]. rewrite seth_other by lia. exact Ec.
      - intros j Hj. cbn [vars] in Hj. destruct (Nat.eq_dec j i) as [->|Nj]; [rewrite setv_same in Hj; discriminate|]. rewrite setv_other in Hj |- * by exact Nj. apply A2, Hj.
      - intros j k b Ej Ek. cbn [vars] in Ej, Ek. destruct (Nat.eq_dec j i) as [->|Nj], (Nat.eq_dec k i) as [->|Nk]; [reflexivity| | |].
        + rewrite setv_same in Ej. rewrite setv_other in Ek by exact Nk. cbn [s_ptr] in Ej. injection Ej as <-. destruct (A1 k _ Ek) as (X & _). lia.
        + rewrite setv_same in Ek. rewrite setv_other in Ej by exact Nj. cbn [s_ptr] in Ek. injection Ek as <-. destruct (A1 j _ Ej) as (X & _). lia.
        + rewrite setv_other in Ej, Ek by assumption. apply (A3 j k b); assumption.
      - cbn [heap] in H. destruct (Nat.eq_dec b (nxt s1)) as [->|Nb]; [lia|]. rewrite seth_other in H by exact Nb. destruct (A4 b H) as (X & _). lia.
      - cbn [heap] in H. cbn [vars]. destruct (Nat.eq_dec b (nxt s1)) as [->|Nb]; [exists i; rewrite setv_same; reflexivity|]. rewrite seth_other in H by exact Nb.
        destruct (A4 b H) as (_ & j & Ej). exists j. rewrite setv_other; [exact Ej|]. intros ->. congruence. }
    eexists. split; [reflexivity|]. split; [apply owned_setpar, HO2|]. cbn [vars heap]. rewrite setv_same. unfold s2. cbn [vars heap s_mem s_coef s_nprim s_par]. rewrite setv_same. cbn [s_mem s_nprim s_par].
    repeat split; [lia|exact K1|exact Q1| |].
    + intros j Hj. rewrite !setv_other by exact Hj. apply V1, Hj.
    + intros j b Hj Ej. destruct HO as (B1 & B2 & B3 & B4). destruct (B1 j b Ej) as (X & _). rewrite seth_other by lia. apply Hh1.
      intros Ei. apply Hj. apply (B3 j i b); assumption.
  - eexists. split; [reflexivity|]. split; [apply owned_setpar, HO|]. cbn [vars heap]. rewrite setv_same. cbn [s_mem s_coef s_nprim s_par].
    repeat split; [lia|]. intros j Hj. apply setv_other, Hj.
Qed.

Lemma put_at_ok o d c : o + length d <= length c -> exists c', put_at o d c = Some c' /\ length c' = length c /\
  forall k, nth_error c' k = if (o <=? k) && (k <? o + length d) then nth_error d (k - o) else nth_error c k.
Proof.
  intros H. unfold put_at. rewrite (proj2 (Nat.leb_le _ _) H). eexists. split; [reflexivity|]. split.
  - rewrite !app_length, firstn_length, skipn_length. lia.
  - intros k. destruct (Nat.leb_spec o k) as [L|L].
    + rewrite nth_error_app2 by (rewrite firstn_length; lia). rewrite firstn_length, Nat.min_l by lia.
      destruct (Nat.ltb_spec k (o + length d)) as [L2|L2]; cbn [andb].
      * rewrite nth_error_app1 by lia. reflexivity.
      * rewrite nth_error_app2 by lia. assert (G : forall m (l : block) q, nth_error (skipn m l) q = nth_error l (m + q)).
        { induction m as [|m IH]; intros l q; [reflexivity|]. destruct l as [|x l]; [destruct q; reflexivity|]. cbn. apply IH. }
        rewrite G. f_equal. lia.
    + cbn [andb]. rewrite nth_error_app1 by (rewrite firstn_length; lia).
      revert k L. clear H. revert o. induction c as [|x c IH]; intros o k L; [rewrite firstn_nil; destruct k; reflexivity|].
      destruct o as [|o]; [lia|]. destruct k as [|k]; [reflexivity|]. cbn. apply IH. lia.
Qed.
Lemma write_ok s i o d : owned_ok s -> o + length d <= s_mem (vars s i) ->
  exists s', write_ptr (s_ptr (vars s i)) o d s = Some s' /\ owned_ok s' /\ vars s' = vars s /\ nxt s' = nxt s /\
    (forall b, s_ptr (vars s i) <> Some b -> heap s' b = heap s b) /\
    (forall b c, s_ptr (vars s i) = Some b -> heap s b = Some c -> exists c', heap s' b = Some c' /\ length c' = length c /\
       forall k, nth_error c' k = if (o <=? k) && (k <? o + length d) then nth_error d (k - o) else nth_error c k).
Proof.
  intros (H1 & H2 & H3 & H4) Hm. unfold write_ptr. destruct (Nat.eqb_spec (length d) 0) as [E0|E0].
  - exists s. repeat split; try assumption; try (apply H1 with (1 := H)); try (apply H4; exact H).
    intros b c Eb Ec. exists c. repeat split; [exact Ec|]. intros k. destruct (Nat.leb_spec o k), (Nat.ltb_spec k (o + length d)); cbn [andb]; try reflexivity. lia.
  - destruct (s_ptr (vars s i)) as [b|] eqn:Ep; [|rewrite (H2 i Ep) in Hm; lia].
    destruct (H1 i b Ep) as (Hn & c & Ec & Lc). rewrite Ec. destruct (@put_at_ok o d c ltac:(lia)) as (c' & Ec' & Lc' & Vc'). rewrite Ec'.
    eexists. split; [reflexivity|]. cbn [vars heap nxt]. split; [|split; [reflexivity|split; [reflexivity|split]]].
    + split; [|split; [exact H2|split; [exact H3|]]]; cbn [vars heap nxt].
      * intros j b' Ej. destruct (H1 j b' Ej) as (Hn' & c2 & Ec2 & Lc2). split; [exact Hn'|].
        destruct (Nat.eq_dec b' b) as [->|Nb]; [|exists c2; rewrite seth_other by exact Nb; split; assumption].
        exists c'. rewrite seth_same. split; [reflexivity|]. congruence.
      * intros b' Hb'. destruct (Nat.eq_dec b' b) as [->|Nb]; [split; [exact Hn|exists i; exact Ep]|]. rewrite seth_other in Hb' by exact Nb. apply H4, Hb'.
    + intros b' Hb'. rewrite seth_other by congruence. reflexivity.
    + intros b' c2 Eb Ec2. injection Eb as <-. rewrite Ec in Ec2. injection Ec2 as <-. exists c'. rewrite seth_same. repeat split; assumption.
Qed.

(** *** Create *)
Theorem create_ok nprim par alpha coef i s : owned_ok s -> length alpha = nprim -> length coef = nprim ->
  exists s', create_shell nprim par alpha coef i s = Some s' /\ owned_ok s' /\ made s' i /\
    s_nprim (vars s' i) = nprim /\ s_par (vars s' i) = par /\
    s_mem (vars s' i) = Nat.max (s_mem (vars s i)) (2 * nprim) /\
    (forall k, k < nprim -> alpha_of s' i k = nth_error alpha k /\ coef_of s' i k = nth_error coef k) /\
    (forall j, j <> i -> vars s' j = vars s j) /\
    (forall j b, j <> i -> s_ptr (vars s j) = Some b -> heap s' b = heap s b).
Proof.
  intros HO La Lc. unfold create_shell. destruct (allocate_ok nprim i HO) as (s1 & E1 & HO1 & M1 & C1 & _ & _ & V1 & Hh1). rewrite E1.
  set (s2 := St _ _ _). pose proof (owned_setpar i nprim par (s_coef (vars s1 i)) HO1) as HO2. fold s2 in HO2.
  assert (G2 : vars s2 i = Sh nprim par (s_ptr (vars s1 i)) (s_mem (vars s1 i)) (s_coef (vars s1 i))) by (unfold s2; cbn [vars]; apply setv_same).
  assert (EP : s_ptr (vars s1 i) = s_ptr (vars s2 i)) by (rewrite G2; reflexivity).
  assert (EM : s_mem (vars s2 i) = s_mem (vars s1 i)) by (rewrite G2; reflexivity).
  rewrite EP. destruct (@write_ok s2 i 0 (map Some alpha) HO2) as (s3 & E3 & HO3 & V3 & N3 & O3 & W3); [rewrite map_length; lia|].
  rewrite E3, C1. assert (EP3 : s_ptr (vars s2 i) = s_ptr (vars s3 i)) by (rewrite V3; reflexivity). rewrite EP3.
  destruct (@write_ok s3 i nprim (map Some coef) HO3) as (s4 & E4 & HO4 & V4 & N4 & O4 & W4); [rewrite map_length, V3, EM; lia|].
  exists s4. split; [exact E4|]. split; [exact HO4|]. unfold made. rewrite V4, V3, G2. cbn [s_nprim s_par s_mem s_coef].
  split; [split; [lia|exact C1]|]. split; [reflexivity|]. split; [reflexivity|]. split; [exact M1|]. split; [|split].
  - intros k Hk. unfold alpha_of, coef_of. rewrite V4. destruct (s_ptr (vars s3 i)) as [b|] eqn:Eb.
    + rewrite V3 in Eb. destruct HO2 as (A1 & _). destruct (A1 i b Eb) as (_ & c2 & Ec2 & Lc2).
      destruct (W3 b c2 Eb Ec2) as (c3 & Ec3 & Lc3 & Vc3). rewrite <- EP3 in W4. destruct (W4 b c3 Eb Ec3) as (c4 & Ec4 & Lc4 & Vc4).
      rewrite Ec4. rewrite !Vc4, !map_length, Lc. rewrite V3, G2. cbn [s_coef]. rewrite C1. split.
      * destruct (Nat.leb_spec nprim k); [lia|]. cbn [andb]. rewrite Vc3, map_length, La. destruct (Nat.ltb_spec k (0 + nprim)); [|lia]. cbn [Nat.leb andb].
        rewrite Nat.sub_0_r, nth_error_map. destruct (nth_error alpha k) eqn:E; [reflexivity|apply nth_error_None in E; lia].
      * destruct (Nat.leb_spec nprim (nprim + k)); [|lia]. destruct (Nat.ltb_spec (nprim + k) (nprim + nprim)); [|lia]. cbn [andb].
        replace (nprim + k - nprim) with k by lia. rewrite nth_error_map. destruct (nth_error coef k) eqn:E; [reflexivity|apply nth_error_None in E; lia].
    + exfalso. rewrite V3 in Eb. destruct HO2 as (_ & A2 & _). specialize (A2 i Eb). lia.
  - intros j Hj. unfold s2. cbn [vars]. rewrite setv_other by exact Hj. apply V1, Hj.
  - intros j b Hj Ej. assert (EJ : s_ptr (vars s2 j) = Some b) by (unfold s2; cbn [vars]; rewrite setv_other, V1 by exact Hj; exact Ej).
    rewrite O4, O3; [apply (Hh1 j b Hj Ej)| |].
    + intros Ei. apply Hj. destruct HO2 as (_ & _ & A3 & _). apply (A3 j i b); assumption.
    + rewrite <- EP3. intros Ei. apply Hj. destruct HO2 as (_ & _ & A3 & _). apply (A3 j i b); assumption.
Qed.

(** *** Copy *)
(** Size of the destination buffer after the allocation step. *)
Definition copy_size (src dst : nat) (s : state) : nat := Nat.max (s_mem (vars s dst)) (2 * s_nprim (vars s src)).
Lemma copy_alloc src dst s : owned_ok s -> src <> dst ->
  exists s2, copy_shell src dst s = memcpy (s_ptr (vars s2 dst)) (s_ptr (vars s2 src)) (s_mem (vars s2 dst)) s2 /\ owned_ok s2 /\
    s_mem (vars s2 dst) = copy_size src dst s /\ s_coef (vars s2 dst) = s_nprim (vars s src) /\
    s_nprim (vars s2 dst) = s_nprim (vars s src) /\ s_par (vars s2 dst) = s_par (vars s src) /\
    (forall j, j <> dst -> vars s2 j = vars s j) /\
    (forall j b, j <> dst -> s_ptr (vars s j) = Some b -> heap s2 b = heap s b).
Proof.
  intros HO Hne. unfold copy_shell. destruct (allocate_ok (s_nprim (vars s src)) dst HO) as (s1 & E1 & HO1 & M1 & C1 & _ & _ & V1 & Hh1). rewrite E1.
  set (s2 := St _ _ _). pose proof (owned_setpar dst (s_nprim (vars s1 src)) (s_par (vars s1 src)) (s_coef (vars s1 dst)) HO1) as HO2. fold s2 in HO2.
  assert (G2 : vars s2 dst = Sh (s_nprim (vars s1 src)) (s_par (vars s1 src)) (s_ptr (vars s1 dst)) (s_mem (vars s1 dst)) (s_coef (vars s1 dst))) by (unfold s2; cbn [vars]; apply setv_same).
  exists s2. rewrite G2. cbn [s_ptr s_mem s_coef s_nprim s_par]. rewrite (V1 src Hne).
  split; [reflexivity|]. split; [exact HO2|]. split; [exact M1|]. split; [exact C1|]. split; [reflexivity|]. split; [reflexivity|]. split; [|exact Hh1].
  intros j Hj. unfold s2. cbn [vars]. rewrite setv_other by exact Hj. apply V1, Hj.
Qed.

Theorem copy_ok src dst s : owned_ok s -> src <> dst -> made s src -> 0 < s_nprim (vars s src) ->
  copy_size src dst s <= s_mem (vars s src) ->
  exists s', copy_shell src dst s = Some s' /\ owned_ok s' /\ made s' dst /\
    s_nprim (vars s' dst) = s_nprim (vars s src) /\ s_par (vars s' dst) = s_par (vars s src) /\
    (forall k, k < s_nprim (vars s src) -> alpha_of s' dst k = alpha_of s src k /\ coef_of s' dst k = coef_of s src k) /\
    s_mem (vars s' dst) = copy_size src dst s /\
    (forall j, j <> dst -> vars s' j = vars s j) /\
    (forall j b, j <> dst -> s_ptr (vars s j) = Some b -> heap s' b = heap s b) /\
    s_ptr (vars s' dst) <> s_ptr (vars s' src).
Proof.
  intros HO Hne [Hm Hc] Hpos Hsz. destruct (copy_alloc HO Hne) as (s2 & E & HO2 & M2 & C2 & K2 & Q2 & V2 & Hh2). rewrite E.
  assert (Hsz2 : 0 < copy_size src dst s) by (unfold copy_size; lia).
  assert (Hmin : 2 * s_nprim (vars s src) <= copy_size src dst s) by (unfold copy_size; lia).
  unfold memcpy. rewrite M2. destruct (Nat.eqb_spec (copy_size src dst s) 0); [lia|].
  pose proof HO2 as (A1 & A2 & A3 & A4).
  destruct (s_ptr (vars s2 dst)) as [d|] eqn:Ed; [|rewrite (A2 dst Ed) in M2; lia].
  rewrite (V2 src Hne). destruct (s_ptr (vars s src)) as [b|] eqn:Eb; [|rewrite (proj1 (proj2 HO) src Eb) in Hsz; lia].
  assert (Eb2 : s_ptr (vars s2 src) = Some b) by (rewrite (V2 src Hne); exact Eb).
  destruct (Nat.eqb_spec d b) as [->|Ndb]; [exfalso; apply Hne; apply (A3 src dst b); assumption|].
  destruct (A1 src b Eb2) as (_ & c & Ec & Lc). rewrite (V2 src Hne) in Lc. rewrite Ec, Lc. rewrite (proj2 (Nat.leb_le _ _) Hsz).
  assert (Lf : length (firstn (copy_size src dst s) c) = copy_size src dst s) by (rewrite firstn_length; lia).
  rewrite <- Ed. destruct (@write_ok s2 dst 0 (firstn (copy_size src dst s) c) HO2) as (s3 & E3 & HO3 & V3 & N3 & O3 & W3); [rewrite Lf, M2; lia|].
  exists s3. split; [exact E3|]. split; [exact HO3|]. unfold made. rewrite V3, M2, C2, K2, Q2.
  split; [split; [exact Hmin|reflexivity]|]. split; [reflexivity|]. split; [reflexivity|]. split; [|split; [reflexivity|split; [exact V2|split]]].
  - intros k Hk. unfold alpha_of, coef_of. rewrite V3, Ed, C2, Eb, Hc. rewrite (V2 src Hne) in Eb2.
    assert (Ecs : heap s b = Some c) by (rewrite <- (Hh2 src b Hne Eb2); exact Ec). rewrite Ecs.
    destruct (A1 dst d Ed) as (_ & cd & Ecd & Lcd). destruct (W3 d cd Ed Ecd) as (c' & Ec' & _ & Vc'). rewrite Ec', !Vc', Lf.
    assert (GF : forall q, q < copy_size src dst s -> nth_error (firstn (copy_size src dst s) c) q = nth_error c q).
    { clear. intros q. generalize (copy_size src dst s) as m. revert q. induction c as [|x c IH]; intros q m H; [rewrite firstn_nil; destruct q; reflexivity|].
      destruct m as [|m]; [lia|]. destruct q as [|q]; [reflexivity|]. cbn. apply IH. lia. }
    split.
    + destruct (Nat.ltb_spec k (0 + copy_size src dst s)); [|lia]. cbn [Nat.leb andb]. rewrite Nat.sub_0_r, GF by lia. reflexivity.
    + destruct (Nat.ltb_spec (s_nprim (vars s src) + k) (0 + copy_size src dst s)); [|lia]. cbn [Nat.leb andb]. rewrite Nat.sub_0_r, GF by lia. reflexivity.
  - intros j b' Hj Ej. rewrite O3; [apply (Hh2 j b' Hj Ej)|]. rewrite Ed. intros Hd. injection Hd as <-. apply Hj. apply (A3 j dst d); [rewrite (V2 j Hj); exact Ej|exact Ed].
  - rewrite Ed, (V2 src Hne), Eb. congruence.
Qed.
(** A larger destination buffer makes the copy read behind the source. *)
Theorem copy_overread src dst s : owned_ok s -> src <> dst -> s_mem (vars s src) < copy_size src dst s -> copy_shell src dst s = None.
Proof.
  intros HO Hne Hsz. destruct (copy_alloc HO Hne) as (s2 & E & HO2 & M2 & _ & _ & _ & V2 & Hh2). rewrite E. unfold memcpy. rewrite M2.
  destruct (Nat.eqb_spec (copy_size src dst s) 0); [lia|]. destruct (s_ptr (vars s2 dst)) as [d|]; [|reflexivity].
  rewrite (V2 src Hne). destruct (s_ptr (vars s src)) as [b|] eqn:Eb; [|reflexivity]. destruct (d =? b); [reflexivity|].
  destruct (proj1 HO2 src b) as (_ & c & Ec & Lc); [rewrite (V2 src Hne); exact Eb|]. rewrite Ec, Lc, (V2 src Hne).
  destruct (Nat.leb_spec (copy_size src dst s) (s_mem (vars s src))); [lia|reflexivity].
Qed.

(** *** Sequences of operations *)
Inductive hop := HCreate (nprim : nat) (par : P) (alpha coef : list V) (i : nat) | HCopy (src dst : nat) | HFree (i : nat) | HInit (i : nat).
Definition hstep (o : hop) (s : state) : option state :=
  match o with
  | HCreate n p a c i => create_shell n p a c i s
  | HCopy a b => copy_shell a b s
  | HFree i => free_shell i s
  | HInit i => Some (init_shell i s)
  end.
Fixpoint hrun (l : list hop) (s : state) : option state :=
  match l with [] => Some s | o :: r => match hstep o s with Some s' => hrun r s' | None => None end end.
(** Proper use: arrays of the right length, initialisation only of shells that own nothing, no copy
    of a shell onto itself or into a shell with a larger buffer than the source. *)
Definition proper (o : hop) (s : state) : Prop :=
  match o with
  | HCreate n _ a c _ => length a = n /\ length c = n
  | HCopy a b => a <> b /\ made s a /\ 0 < s_nprim (vars s a) /\ copy_size a b s <= s_mem (vars s a)
  | HFree _ => True
  | HInit i => s_ptr (vars s i) = None
  end.
Fixpoint proper_run (l : list hop) (s : state) : Prop :=
  match l with [] => True | o :: r => proper o s /\ forall s', hstep o s = Some s' -> proper_run r s' end.

Lemma init_owned i s : owned_ok s -> s_ptr (vars s i) = None -> owned_ok (init_shell i s).
Proof.
  intros HO Hp. destruct (free_ok i HO) as (s' & E & HO' & _). unfold free_shell in E. rewrite Hp in E. injection E as <-. exact HO'.
Qed.
Lemma hstep_ok o s : owned_ok s -> proper o s -> exists s', hstep o s = Some s' /\ owned_ok s' /\
  (forall i, (forall k, o = HFree k -> k <> i) -> (forall k, o = HInit k -> k <> i) -> s_mem (vars s i) <= s_mem (vars s' i)).
Proof.
  intros HO Hp. destruct o as [n p a c i|a b|i|i]; cbn [hstep proper] in *.
  - destruct Hp as [La Lc]. destruct (create_ok p a c i HO La Lc) as (s' & E & HO' & _ & _ & _ & M & _ & VV & _). exists s'. split; [exact E|]. split; [exact HO'|].
    intros j _ _. destruct (Nat.eq_dec j i) as [->|N]; [lia|rewrite (VV j N); lia].
  - destruct Hp as (Hne & Hm & Hpos & Hsz). destruct (copy_ok HO Hne Hm Hpos Hsz) as (s' & E & HO' & _ & _ & _ & _ & M & VV & _). exists s'. split; [exact E|]. split; [exact HO'|].
    intros j _ _. destruct (Nat.eq_dec j b) as [->|N]; [unfold copy_size in M; lia|rewrite (VV j N); lia].
  - destruct (free_ok i HO) as (s' & E & HO' & _ & _ & _ & _ & _ & VV & _). exists s'. split; [exact E|]. split; [exact HO'|].
    intros j Hf _. specialize (Hf i eq_refl). rewrite (VV j ltac:(congruence)). lia.
  - exists (init_shell i s). split; [reflexivity|]. split; [apply init_owned; assumption|].
    intros j _ Hi. specialize (Hi i eq_refl). unfold init_shell. cbn [vars]. rewrite setv_other by congruence. lia.
Qed.
Theorem hrun_ok : forall l s, owned_ok s -> proper_run l s -> exists s', hrun l s = Some s' /\ owned_ok s'.
Proof.
  induction l as [|o l IH]; intros s HO Hp; cbn [hrun].
  - exists s. split; [reflexivity|exact HO].
  - destruct Hp as [Hp Hr]. destruct (hstep_ok o HO Hp) as (s1 & E & HO1 & _). rewrite E. apply IH; [exact HO1|apply Hr, E].
Qed.
(** After initialisation of all shells. *)
Definition fresh (v : nat -> shellv) : state := St (fun i => Sh (s_nprim (v i)) (s_par (v i)) None 0 (s_coef (v i))) (fun _ => None) 0.
Lemma fresh_ok v : owned_ok (fresh v).
Proof. unfold owned_ok, fresh. cbn. split; [discriminate|]. split; [reflexivity|]. split; [discriminate|]. intros b H. congruence. Qed.
(** Freeing all shells leaves no live block. *)
Theorem free_all N s : owned_ok s -> (forall i, N <= i -> s_ptr (vars s i) = None) ->
  exists s', hrun (map HFree (seq 0 N)) s = Some s' /\ forall b, heap s' b = None.
Proof.
  intros HO Hn.
  assert (G : forall m k s, owned_ok s -> (forall i, k + m <= i -> s_ptr (vars s i) = None) -> (forall i, i < k -> s_ptr (vars s i) = None) ->
    exists s', hrun (map HFree (seq k m)) s = Some s' /\ owned_ok s' /\ forall i, s_ptr (vars s' i) = None).
  { induction m as [|m IH]; intros k s0 H0 H1 H2; cbn [seq map hrun].
    - exists s0. split; [reflexivity|]. split; [exact H0|]. intros i. destruct (Nat.lt_ge_cases i k); [apply H2; assumption|apply H1; lia].
    - cbn [hstep]. destruct (free_ok k H0) as (s1 & E & HO1 & _ & P1 & _ & _ & _ & V1 & _). rewrite E. apply IH; [exact HO1| |].
      + intros i Hi. rewrite (V1 i ltac:(lia)). apply H1. lia.
      + intros i Hi. destruct (Nat.eq_dec i k) as [->|Nk]; [exact P1|]. rewrite (V1 i Nk). apply H2. lia. }
  destruct (G N 0 s HO (fun i Hi => Hn i Hi) (fun i Hi => match Nat.nlt_0_r i Hi with end)) as (s' & E & (_ & _ & _ & A4) & HP).
  exists s'. split; [exact E|]. intros b. destruct (heap s' b) eqn:Eb; [|reflexivity]. exfalso. destruct (A4 b) as (_ & i & Ei); [congruence|]. rewrite HP in Ei. discriminate.
Qed.

(** *** compare_shell *)
Theorem compare_distinct s i j : owned_ok s -> i <> j -> s_ptr (vars s i) <> None -> compare_shell (vars s i) (vars s j) = false.
Proof.
  intros (_ & _ & H3 & _) Hne Hp. unfold compare_shell. destruct (s_nprim _ =? _); [|reflexivity]. cbn [andb].
  destruct (s_ptr (vars s i)) as [b|] eqn:Ei; [|congruence]. cbn [opt_eqb]. destruct (s_ptr (vars s j)) as [b'|] eqn:Ej; [|reflexivity].
  destruct (Nat.eqb_spec b b') as [->|]; [|reflexivity]. exfalso. apply Hne. apply (H3 i j b'); assumption.
Qed.
Theorem compare_iff a b : compare_shell a b = true <-> s_nprim a = s_nprim b /\ s_ptr a = s_ptr b.
Proof.
  unfold compare_shell. rewrite andb_true_iff, Nat.eqb_eq. split; intros [H1 H2]; (split; [exact H1|]).
  - destruct (s_ptr a), (s_ptr b); cbn in H2; try discriminate; [apply Nat.eqb_eq in H2; congruence|reflexivity].
  - rewrite H2. destruct (s_ptr b); cbn; [apply Nat.eqb_refl|reflexivity].
Qed.
End Heap.

(** Two shells, the second reusing a buffer; then everything freed. *)
Definition ex_v : nat -> shellv nat := fun _ => Sh 0 0 None 0 0.
Definition ex_ops : list (hop nat nat) := [HCreate 2 5 [1; 2] [3; 4] 0; HCreate 1 6 [9] [8] 1; HCopy nat nat 0 1; HCreate 1 7 [5] [6] 0].
Example ex_heap : match hrun ex_ops (fresh nat ex_v) with
  | Some s => ([alpha_of s 1 1; coef_of s 1 0; alpha_of s 0 0; coef_of s 0 0], s_par (vars s 1), heap s 1)
  | None => ([], 0, None)
  end = ([Some 2; Some 3; Some 5; Some 6], 5, None).
Proof. vm_compute. reflexivity. Qed.
(** Copying a one-primitive shell into one that held two reads behind the source buffer. *)
Example ex_overread : hrun [HCreate 2 5 [1; 2] [3; 4] 0; HCreate 1 6 [9] [8] 1; HCopy nat nat 1 0] (fresh nat ex_v) = None.
Proof. vm_compute. reflexivity. Qed.
(** A struct copy moved to another centre is taken for the same shell; the packed primitives of
    this pair of different centres do not give the contracted value. *)
Definition ex_mv (x : Z) : @PairData.shell Zring := @PairData.Shell Zring 2 (fun _ => x) (fun i => Z.of_nat (S i)) (fun _ => 1%Z).
Definition ex_g (l : list Zring) : Zring := nth 0 l 0%Z.
Example moved_copy_packed :
  let a := Sh 2 0%Z (Some 0) 4 2 in let b := Sh 2 1%Z (Some 0) 4 2 in
  compare_shell a b = true /\
  @pair_sum Zring (fun _ => 1%Z) (fun _ => 1%Z) 1%Z true (ex_mv 0) (ex_mv 1) ex_g (sp_prims (SP 2 2 true)) = 5%Z /\
  @pair_sum Zring (fun _ => 1%Z) (fun _ => 1%Z) 1%Z false (ex_mv 0) (ex_mv 1) ex_g (sp_prims (SP 2 2 false)) = 6%Z.
Proof. vm_compute. repeat split. Qed.
