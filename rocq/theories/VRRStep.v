(** One vertical recurrence step.
    Sources: generator/ostei/Makowski.hpp:94-241 ([Makowski_VRR::VRRStep_]),
    generator/ostei/OSTEI_VRR_Algorithm_Base.cpp:232-285 ([Create_Single_]) and the
    coefficients of generator/ostei/OSTEI_VRR_Writer.cpp:70-121. *)
From Coq Require Import List Arith Lia Bool ZArith.
Import ListNotations.
From Verif Require Import Base Cart Mdir.
Set Implicit Arguments.

(** The four functions of a quartet; also [RRStepType], Types.hpp:170-176. *)
Inductive ctr := CI | CJ | CK | CL.
Definition ctr_eq_dec (a b : ctr) : {a = b} + {a <> b}.
Proof. decide equality. Defined.

Definition cget (c : ctr) (q : qrt) : gauss :=
  match c with CI => qa q | CJ => qb q | CK => qc q | CL => qd q end.
Definition cset (c : ctr) (g : gauss) (q : qrt) : qrt :=
  match c with
  | CI => Q4 g (qb q) (qc q) (qd q) | CJ => Q4 (qa q) g (qc q) (qd q)
  | CK => Q4 (qa q) (qb q) g (qd q) | CL => Q4 (qa q) (qb q) (qc q) g
  end.
(** [amlist()[i]] *)
Definition aget (c : ctr) (a : qam) : nat :=
  match c with CI => am0 a | CJ => am1 a | CK => am2 a | CL => am3 a end.
Definition qtotal (a : qam) : nat := am0 a + am1 a + am2 a + am3 a.
Definition ssss : qam := QAM 0 0 0 0.

Lemma aget_class c q : aget c (qclass q) = gam (cget c q).
Proof. destruct c, q; reflexivity. Qed.
Lemma cget_cset c g q : cget c (cset c g q) = g.
Proof. destruct c, q; reflexivity. Qed.
Lemma cget_cset_other c d g q : c <> d -> cget d (cset c g q) = cget d q.
Proof. destruct c, d, q; simpl; congruence. Qed.
Lemma cset_cset c g g' q : cset c g (cset c g' q) = cset c g q.
Proof. destruct c, q; reflexivity. Qed.
Lemma cset_cget c q : cset c (cget c q) q = q.
Proof. destruct c, q; reflexivity. Qed.
Lemma cset_comm c d g h q : c <> d -> cset c g (cset d h q) = cset d h (cset c g q).
Proof. destruct c, d, q; simpl; congruence. Qed.
Lemma qrt_ext q q' : (forall c, cget c q = cget c q') -> q = q'.
Proof. intros H. destruct q, q'. pose proof (H CI). pose proof (H CJ). pose proof (H CK).
  pose proof (H CL). simpl in *. congruence. Qed.

Definition craise (c : ctr) (i : dir) (q : qrt) : qrt := cset c (up i (cget c q)) q.
(** [ijk[idx]--] on one function; [None] once an exponent is negative. *)
Definition clower (c : ctr) (i : dir) (q : qrt) : option qrt :=
  match down i (cget c q) with Some g => Some (cset c g q) | None => None end.
(** The effect on [amlist()]; [None] once a component is negative. *)
Definition alower (c : ctr) (a : qam) : option qam :=
  match c with
  | CI => match am0 a with 0 => None | S n => Some (QAM n (am1 a) (am2 a) (am3 a)) end
  | CJ => match am1 a with 0 => None | S n => Some (QAM (am0 a) n (am2 a) (am3 a)) end
  | CK => match am2 a with 0 => None | S n => Some (QAM (am0 a) (am1 a) n (am3 a)) end
  | CL => match am3 a with 0 => None | S n => Some (QAM (am0 a) (am1 a) (am2 a) n) end
  end.
Fixpoint clowers (cs : list ctr) (i : dir) (q : qrt) : option qrt :=
  match cs with
  | [] => Some q
  | c :: r => match clower c i q with Some q' => clowers r i q' | None => None end
  end.
Fixpoint alowers (cs : list ctr) (a : qam) : option qam :=
  match cs with
  | [] => Some a
  | c :: r => match alower c a with Some a' => alowers r a' | None => None end
  end.

(** A source: the quartet when all exponents are non-negative ([operator bool]), its class when
    all momenta are (a source can have a class without being valid), and its order [m].
    Simplification: sources with a negative class are not told apart; nothing looks them up. *)
Record vsrc := VSrc { sq : option qrt; sc : option qam; sm : nat }.

(** [struct VRRStep], OSTEI_Types.hpp:23-45. *)
Record vstep := VS { v_type : ctr; v_xyz : dir; v_target : qrt; v_m : nat;
                     v_src : list vsrc; v_ijkl : ctr -> nat }.

(** The eight sources: functions lowered and whether [m++], Makowski.hpp:122-165, 191-235. *)
Definition src_spec (rr : ctr) : list (list ctr * bool) :=
  match rr with
  | CK => [([CK], false); ([CK], true); ([CK; CK], false); ([CK; CK], true);
           ([CL; CK], false); ([CL; CK], true); ([CI; CK], true); ([CJ; CK], true)]
  | CL => [([CL], false); ([CL], true); ([CK; CL], false); ([CK; CL], true);
           ([CL; CL], false); ([CL; CL], true); ([CI; CL], true); ([CJ; CL], true)]
  | CI => [([CI], false); ([CI], true); ([CI; CI], false); ([CI; CI], true);
           ([CJ; CI], false); ([CJ; CI], true); ([CK; CI], true); ([CL; CI], true)]
  | CJ => [([CJ], false); ([CJ], true); ([CI; CJ], false); ([CI; CJ], true);
           ([CJ; CJ], false); ([CJ; CJ], true); ([CK; CJ], true); ([CL; CJ], true)]
  end.

Definition mk_src (q : qrt) (i : dir) (m : nat) (s : list ctr * bool) : vsrc :=
  VSrc (clowers (fst s) i q) (alowers (fst s) (qclass q)) (if snd s then S m else m).
Definition is_some A (o : option A) : bool := match o with Some _ => true | None => false end.
Definition valid (l : list vsrc) (n : nat) : bool :=
  match nth_error l n with Some s => is_some (sq s) | None => false end.

(** [Create_Single_], OSTEI_VRR_Algorithm_Base.cpp:232-285. *)
Definition mk_ijkl (rr : ctr) (i : dir) (q : qrt) (src : list vsrc) (c : ctr) : nat :=
  let e := gexp i (cget c q) in
  let v23 := valid src 2 || valid src 3 in
  let v45 := valid src 4 || valid src 5 in
  match rr with
  | CI => match c with
          | CI => if v23 then e - 1 else 0 | CJ => if v45 then e else 0
          | CK => if valid src 6 then e else 0 | CL => if valid src 7 then e else 0
          end
  | CJ => match c with
          | CI => if v23 then e else 0 | CJ => if v45 then e - 1 else 0
          | CK => if valid src 6 then e else 0 | CL => if valid src 7 then e else 0
          end
  | CK => match c with
          | CK => if v23 then e - 1 else 0 | CL => if v45 then e else 0
          | CI => if valid src 6 then e else 0 | CJ => if valid src 7 then e else 0
          end
  | CL => match c with
          | CK => if v23 then e else 0 | CL => if v45 then e - 1 else 0
          | CI => if valid src 6 then e else 0 | CJ => if valid src 7 then e else 0
          end
  end.

(** [None]: the code dereferences [end()] (Makowski.hpp:115-116, 184-185), undefined. *)
Definition vrr_step (rr : ctr) (q : qrt) (m : nat) : option vstep :=
  match mdir (cget rr q) with
  | None => None
  | Some i =>
    let src := map (mk_src q i m) (src_spec rr) in
    Some (VS rr i q m src (mk_ijkl rr i q src))
  end.

(** ** Sides *)
Inductive side := SB | SK.
Definition cside (c : ctr) : side := match c with CI | CJ => SB | CK | CL => SK end.
Definition lefts (s : side) : ctr := match s with SB => CI | SK => CK end.
Definition rights (s : side) : ctr := match s with SB => CJ | SK => CL end.
Definition other (s : side) : side := match s with SB => SK | SK => SB end.

Section Spec.
Context {R : cring}.

(** Coefficients: distance of the product centre to the four centres, [aop_PQ]/[aoq_PQ],
    [one_over_2p]/[one_over_2q], [a_over_p]/[a_over_q] (sign included), [one_over_2pq]. *)
Record vcoef := VC { k_PA : ctr -> dir -> R; k_aPQ : side -> dir -> R; k_h : side -> R;
                     k_a : side -> R; k_hpq : R }.

(** ** Specification: the Obara-Saika vertical recurrence for a family [V m q]. *)
Definition same_side_term (K : vcoef) (V : nat -> qrt -> R) (s : side) (m : nat) (f : ctr) (i : dir)
  (q : qrt) : R :=
  match clower f i q with
  | Some q' => (ofnat (gexp i (cget f q)) * k_h K s * (V m q' + k_a K s * V (S m) q'))%r
  | None => c0
  end.
Definition other_side_term (K : vcoef) (V : nat -> qrt -> R) (m : nat) (f : ctr) (i : dir) (q : qrt) : R :=
  match clower f i q with
  | Some q' => (ofnat (gexp i (cget f q)) * k_hpq K * V (S m) q')%r
  | None => c0
  end.

Definition os_family (K : vcoef) (V : nat -> qrt -> R) : Prop :=
  forall c i m q, let s := cside c in
  V m (craise c i q) =
  (k_PA K c i * V m q + k_aPQ K s i * V (S m) q
   + same_side_term K V s m (lefts s) i q + same_side_term K V s m (rights s) i q
   + other_side_term K V m (lefts (other s)) i q + other_side_term K V m (rights (other s)) i q)%r.

(** ** The printed right-hand side, OSTEI_VRR_Writer.cpp:70-121.  [rd n] is the value read for
    source [n]; [None] as a source means nothing is printed.  Order of operations as emitted. *)
Definition fmadd (a b c : R) : R := (a * b + c)%r.
Definition emitted (K : vcoef) (s : vstep) (rd : nat -> R) : R :=
  let sd := cside (v_type s) in
  let i := v_xyz s in
  let vl := valid (v_src s) in
  let c0' := (ofnat (v_ijkl s (lefts sd)) * k_h K sd)%r in
  let c1' := (ofnat (v_ijkl s (rights sd)) * k_h K sd)%r in
  let c2' := (ofnat (v_ijkl s (lefts (other sd))) * k_hpq K)%r in
  let c3' := (ofnat (v_ijkl s (rights (other sd))) * k_hpq K)%r in
  let x0 := (k_PA K (v_type s) i * rd 0)%r in
  let x1 := if vl 1 then fmadd (k_aPQ K sd i) (rd 1) x0 else x0 in
  let x2 := if vl 2 && vl 3 then fmadd c0' (fmadd (k_a K sd) (rd 3) (rd 2)) x1 else x1 in
  let x3 := if vl 4 && vl 5 then fmadd c1' (fmadd (k_a K sd) (rd 5) (rd 4)) x2 else x2 in
  let x4 := if vl 6 then fmadd c2' (rd 6) x3 else x3 in
  if vl 7 then fmadd c3' (rd 7) x4 else x4.

Definition src_val (V : nat -> qrt -> R) (s : vstep) (n : nat) : R :=
  match nth_error (v_src s) n with
  | Some x => match sq x with Some q => V (sm x) q | None => c0 end
  | None => c0
  end.
End Spec.

Lemma clower_some c i q q' : clower c i q = Some q' <-> q = craise c i q'.
Proof.
  unfold clower, craise. destruct (down i (cget c q)) as [g|] eqn:E.
  - apply down_some in E. split.
    + intros H; injection H as <-. rewrite cget_cset, cset_cset, <- E. symmetry; apply cset_cget.
    + intros ->. rewrite cget_cset in E. f_equal. rewrite cset_cset.
      assert (K : down i (up i (cget c q')) = Some g) by (rewrite E; apply down_up).
      rewrite down_up in K. injection K as <-. apply cset_cget.
  - split; [discriminate|]. intros ->. rewrite cget_cset, down_up in E. discriminate.
Qed.
Lemma clower_raise c i q : clower c i (craise c i q) = Some q.
Proof. apply clower_some; reflexivity. Qed.
Lemma clower_none c i q : clower c i q = None <-> gexp i (cget c q) = 0.
Proof.
  unfold clower. rewrite <- (down_none i). destruct (down i (cget c q)); split; congruence.
Qed.

Lemma cget_raise_other c d i q : c <> d -> cget d (craise c i q) = cget d q.
Proof. intros H. unfold craise. apply cget_cset_other; exact H. Qed.
Lemma cget_raise_same c i q : cget c (craise c i q) = up i (cget c q).
Proof. unfold craise. apply cget_cset. Qed.

Lemma clower_raise_other c d i q : c <> d ->
  clower d i (craise c i q) = option_map (craise c i) (clower d i q).
Proof.
  intros H. unfold clower. rewrite cget_raise_other by exact H.
  destruct (down i (cget d q)) as [g|]; [|reflexivity]. simpl. f_equal.
  unfold craise. rewrite cget_cset_other by congruence. apply cset_comm. congruence.
Qed.

(** Two lowerings of a raised quartet. *)
Lemma clowers2 f c i q : clowers [f; c] i (craise c i q) = clower f i q.
Proof.
  simpl. destruct (ctr_eq_dec f c) as [->|N].
  - rewrite clower_raise. destruct (clower c i q); reflexivity.
  - rewrite clower_raise_other by congruence. destruct (clower f i q) as [q'|] eqn:E; simpl; [|reflexivity].
    rewrite clower_raise. reflexivity.
Qed.

Lemma alower_raise c i q : alower c (qclass (craise c i q)) = Some (qclass q).
Proof. destruct q, c; unfold qclass, craise; simpl; rewrite gam_up; reflexivity. Qed.
Lemma alowers2 f c i q : alowers [f; c] (qclass (craise c i q)) = alower f (qclass q).
Proof.
  destruct q, c, f; unfold qclass, craise, alower; simpl; rewrite gam_up; simpl;
    try reflexivity;
    match goal with |- context [gam ?g] => destruct (gam g); reflexivity end.
Qed.

Lemma clower_class c i q q' : clower c i q = Some q' -> alower c (qclass q) = Some (qclass q').
Proof. intros H. apply clower_some in H as ->. apply alower_raise. Qed.
Lemma clowers_class cs i : forall q q', clowers cs i q = Some q' -> alowers cs (qclass q) = Some (qclass q').
Proof.
  induction cs as [|c cs IH]; intros q q' H; simpl in *; [congruence|].
  destruct (clower c i q) as [q1|] eqn:E; [|discriminate]. rewrite (clower_class _ _ _ E). apply IH, H.
Qed.

Lemma vrr_step_some rr q m : gam (cget rr q) <> 0 -> exists s, vrr_step rr q m = Some s.
Proof. intros H. unfold vrr_step. destruct (mdir_some _ H) as [i ->]. eexists; reflexivity. Qed.

Lemma vrr_step_raise rr q m s : vrr_step rr q m = Some s ->
  exists i q0, q = craise rr i q0 /\ mdir (cget rr q) = Some i /\
    s = VS rr i q m (map (mk_src q i m) (src_spec rr)) (mk_ijkl rr i q (map (mk_src q i m) (src_spec rr))).
Proof.
  unfold vrr_step. destruct (mdir (cget rr q)) as [i|] eqn:E; [|discriminate].
  intros H; injection H as <-. destruct (mdir_down _ E) as [g [Hg _]].
  exists i, (cset rr g q). split; [|split; reflexivity].
  apply clower_some. unfold clower. rewrite Hg. reflexivity.
Qed.

Section Exact.
Context {R : cring}.
Add Ring vrr_ring : (cth R).

Definition ofind (o : option qrt) (f : qrt -> R) : R := match o with Some q => f q | None => c0 end.

(** The step, stated through lowered functions of the quartet with the mover already lowered. *)
Lemma step_values rr i q0 m :
  let q := craise rr i q0 in
  let src := map (mk_src q i m) (src_spec rr) in
  let sd := cside rr in
  valid src 0 = true /\ valid src 1 = true /\
  valid src 2 = is_some (clower (lefts sd) i q0) /\ valid src 3 = is_some (clower (lefts sd) i q0) /\
  valid src 4 = is_some (clower (rights sd) i q0) /\ valid src 5 = is_some (clower (rights sd) i q0) /\
  valid src 6 = is_some (clower (lefts (other sd)) i q0) /\
  valid src 7 = is_some (clower (rights (other sd)) i q0) /\
  forall f, mk_ijkl rr i q src f = gexp i (cget f q0).
Proof.
  intros q src sd.
  assert (E : src = [VSrc (Some q0) (Some (qclass q0)) m; VSrc (Some q0) (Some (qclass q0)) (S m);
     VSrc (clower (lefts sd) i q0) (alower (lefts sd) (qclass q0)) m;
     VSrc (clower (lefts sd) i q0) (alower (lefts sd) (qclass q0)) (S m);
     VSrc (clower (rights sd) i q0) (alower (rights sd) (qclass q0)) m;
     VSrc (clower (rights sd) i q0) (alower (rights sd) (qclass q0)) (S m);
     VSrc (clower (lefts (other sd)) i q0) (alower (lefts (other sd)) (qclass q0)) (S m);
     VSrc (clower (rights (other sd)) i q0) (alower (rights (other sd)) (qclass q0)) (S m)]).
  { unfold src, q, sd, mk_src.
    destruct rr; cbn [src_spec map fst snd cside lefts rights other];
      rewrite !clowers2, !alowers2; cbn [clowers alowers]; rewrite !clower_raise, !alower_raise; reflexivity. }
  rewrite E. unfold valid; cbn [nth_error sq is_some].
  repeat (split; [reflexivity|]).
  intros f. unfold mk_ijkl, valid; cbn [nth_error sq].
  assert (Hs : forall f, f <> rr -> gexp i (cget f q) = gexp i (cget f q0)).
  { intros g Hg. unfold q. rewrite cget_raise_other by congruence. reflexivity. }
  assert (Hr : gexp i (cget rr q) = S (gexp i (cget rr q0))).
  { unfold q. rewrite cget_raise_same. apply gexp_up_same. }
  assert (Hz : forall g, is_some (clower g i q0) = false -> gexp i (cget g q0) = 0).
  { intros g Hg. apply (clower_none g i q0). destruct (clower g i q0); [discriminate|reflexivity]. }
  unfold sd; destruct rr, f; cbn [cside lefts rights other]; rewrite ?orb_diag;
    (rewrite Hr || (rewrite Hs by discriminate));
    (match goal with |- context [is_some (clower ?g i q0)] =>
       pose proof (Hz g); destruct (is_some (clower g i q0)) end);
    try lia; (rewrite H by reflexivity; lia).
Qed.

Lemma step_srcs rr i q0 m :
  map (mk_src (craise rr i q0) i m) (src_spec rr) =
  let sd := cside rr in
  [VSrc (Some q0) (Some (qclass q0)) m; VSrc (Some q0) (Some (qclass q0)) (S m);
     VSrc (clower (lefts sd) i q0) (alower (lefts sd) (qclass q0)) m;
     VSrc (clower (lefts sd) i q0) (alower (lefts sd) (qclass q0)) (S m);
     VSrc (clower (rights sd) i q0) (alower (rights sd) (qclass q0)) m;
     VSrc (clower (rights sd) i q0) (alower (rights sd) (qclass q0)) (S m);
     VSrc (clower (lefts (other sd)) i q0) (alower (lefts (other sd)) (qclass q0)) (S m);
     VSrc (clower (rights (other sd)) i q0) (alower (rights (other sd)) (qclass q0)) (S m)].
Proof.
  unfold mk_src.
  destruct rr; cbn [src_spec map fst snd cside lefts rights other];
      rewrite !clowers2, !alowers2; cbn [clowers alowers]; rewrite !clower_raise, !alower_raise; reflexivity.
Qed.

Lemma vrr_step_exact (K : @vcoef R) V rr q m s :
  os_family K V -> vrr_step rr q m = Some s -> V m q = emitted K s (src_val V s).
Proof.
  intros HV Hs. apply vrr_step_raise in Hs as [i [q0 [-> [_ ->]]]].
  pose proof (step_values rr i q0 m) as (H0 & H1 & H2 & H3 & H4 & H5 & H6 & H7 & Hk).
  unfold emitted. cbn [v_type v_xyz v_src v_ijkl]. rewrite H1, H2, H3, H4, H5, H6, H7, !Hk.
  unfold src_val; cbn [v_src]. rewrite step_srcs. cbn [nth_error sq sm].
  rewrite (HV rr i m q0). unfold same_side_term, other_side_term, fmadd.
  rewrite !andb_diag.
  destruct (clower (lefts (cside rr)) i q0), (clower (rights (cside rr)) i q0),
    (clower (lefts (other (cside rr))) i q0), (clower (rights (other (cside rr))) i q0);
    cbn [is_some]; ring.
Qed.
End Exact.

(** Existence, multiplicities and progress, for every function with momentum. *)
Theorem vrr_step_total rr q m : gam (cget rr q) <> 0 ->
  exists s i q0, vrr_step rr q m = Some s /\ q = craise rr i q0 /\
    v_type s = rr /\ v_xyz s = i /\ v_target s = q /\ v_m s = m /\
    (* the multiplicities are the exponents of what is recurred *)
    (forall f, v_ijkl s f = gexp i (cget f q0)) /\
    (* a source exists exactly when its multiplicity is not zero *)
    valid (v_src s) 0 = true /\ valid (v_src s) 1 = true /\
    (forall n f, In (n, f) [(2, lefts (cside rr)); (3, lefts (cside rr)); (4, rights (cside rr));
         (5, rights (cside rr)); (6, lefts (other (cside rr))); (7, rights (other (cside rr)))] ->
       (valid (v_src s) n = true <-> v_ijkl s f <> 0)) /\
    (forall (R : cring) (K : @vcoef R) V, os_family K V -> V m q = emitted K s (src_val V s)).
Proof.
  intros Hg. destruct (vrr_step_some rr q m Hg) as [s Hs].
  pose proof Hs as Hs'. apply vrr_step_raise in Hs as [i [q0 [-> [_ ->]]]].
  pose proof (step_values rr i q0 m) as (H0 & H1 & H2 & H3 & H4 & H5 & H6 & H7 & Hk).
  eexists _, i, q0. split; [exact Hs'|]. cbn [v_type v_xyz v_target v_m v_src v_ijkl].
  do 5 (split; [reflexivity|]). split; [exact Hk|]. split; [exact H0|]. split; [exact H1|]. split.
  - assert (Z : forall f, is_some (clower f i q0) = true <-> gexp i (cget f q0) <> 0).
    { intros f. pose proof (clower_none f i q0) as N. destruct (clower f i q0); simpl; split; intros K; auto; try discriminate.
      - intros C. apply N in C. discriminate.
      - exfalso. apply K, N. reflexivity. }
    intros n f H. simpl in H. repeat destruct H as [H|H]; try (injection H as <- <-); try contradiction;
      rewrite Hk, ?H2, ?H3, ?H4, ?H5, ?H6, ?H7; apply Z.
  - intros R K V HV. apply (@vrr_step_exact R K V _ _ _ _ HV Hs').
Qed.
