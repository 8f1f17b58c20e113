(** Execution of the emitted horizontal recurrence code.
    Source: generator/ostei/OSTEI_HRR_Writer.cpp:22-434.

    Memory: one array per (tag, class); an entry [None] is indeterminate.  Executing a
    statement with an index outside an array gives [None] for the whole run. *)
From Coq Require Import List Arith Lia Bool.
Import ListNotations.
From Verif Require Import Base Cart Mdir HRRStep HRRAlgo HRROrder RecurData Recur GenHRR.
Set Implicit Arguments.

Section Exec.
Context {R : cring}.

Definition hmem := tqam -> list (option R).
Definition mset (M : hmem) (t : tqam) (l : list (option R)) : hmem :=
  fun u => if tqam_eq_dec t u then l else M u.

(** One emitted assignment [target[i] = src0[i0] +/- ( h * src1[i1] );], lines 46-54. *)
Record stmt := Stmt { s_t : tqam; s_i : nat; s_t0 : tqam; s_i0 : nat; s_t1 : tqam; s_i1 : nat;
                      s_lf : bool; s_h : R }.

Definition exec1 (M : hmem) (s : stmt) : option hmem :=
  match nth_error (M (s_t0 s)) (s_i0 s), nth_error (M (s_t1 s)) (s_i1 s) with
  | Some v0, Some v1 =>
    if s_i s <? length (M (s_t s))
    then Some (mset M (s_t s) (upd (M (s_t s)) (s_i s) (olift (s_lf s) (s_h s) v0 v1)))
    else None
  | _, _ => None
  end.

Fixpoint exec (M : hmem) (l : list stmt) : option hmem :=
  match l with
  | [] => Some M
  | s :: r => match exec1 M s with Some M' => exec M' r | None => None end
  end.

(** [WriteBraSteps_], lines 22-59 with [HRRBraStepVar_], 104-109.  [arr] maps a doublet class
    to the array its name denotes; [nket] is [ncart_ket]. *)
Definition bra_stmts (o : ordering) (lf : bool) (h : dir -> R) (arr : nat * nat -> tqam)
  (nket : nat) (steps : list hstep) : list stmt :=
  flat_map (fun iket => map (fun s =>
    Stmt (arr (dclass (hs_target s))) (dindex o (hs_target s) * nket + iket)
         (arr (dclass (hs_src0 s))) (dindex o (hs_src0 s) * nket + iket)
         (arr (dclass (hs_src1 s))) (dindex o (hs_src1 s) * nket + iket)
         lf (h (hs_dir s))) steps) (seq 0 nket).

(** [WriteKetSteps_], lines 62-101 with [HRRKetStepVar_], 112-116. *)
Definition ket_stmts (o : ordering) (lf : bool) (h : dir -> R) (arr : nat * nat -> tqam)
  (nbra : nat) (steps : list hstep) : list stmt :=
  flat_map (fun ibra => map (fun s =>
    Stmt (arr (dclass (hs_target s))) (ibra * dncart (dclass (hs_target s)) + dindex o (hs_target s))
         (arr (dclass (hs_src0 s))) (ibra * dncart (dclass (hs_src0 s)) + dindex o (hs_src0 s))
         (arr (dclass (hs_src1 s))) (ibra * dncart (dclass (hs_src1 s)) + dindex o (hs_src1 s))
         lf (h (hs_dir s))) steps) (seq 0 nbra).

(** Binding of the callee's formal arrays (result, then the classes of its requirement set)
    to the caller's actual arrays, position by position. *)
Definition bind (res : nat * nat) (formals : list (nat * nat)) (ares : tqam) (actuals : list tqam)
  (c : nat * nat) : option tqam :=
  match find_pos (fun f => if nn_eq_dec f c then true else false) (res :: formals) with
  | Some n => nth_error (ares :: actuals) n
  | None => None
  end.

Inductive emode := Inline | External | General.
(** Choice by L against [start_external_], [start_general_], lines 156-180. *)
Definition emode_of (se sg L : nat) : emode :=
  if L <? se then Inline else if L <? sg then External else General.

(** Environment of one emitted kernel: order of sets, component order, directions, AB, CD. *)
Record henv := HEnv { e_enum : list dbl -> list dbl; e_enumc : list (nat * nat) -> list (nat * nat);
                      e_o : ordering; e_blf : bool; e_klf : bool; e_AB : dir -> R; e_CD : dir -> R;
                      e_se : nat; e_sg : nat; e_fuel : nat }.

(** An external routine for class [c] of one side: [ostei_hrr_generator.cpp:94-106] creates a
    plan for that class alone with the given direction; the body is the steps of that class
    (lines 281-283, 398-403). Returns the formal requirement arrays and the steps. *)
Definition external (E : henv) (lf : bool) (c : nat * nat)
  : option (list (nat * nat) * list hstep) :=
  match hcreate (e_enum E) (e_o E) lf (e_fuel E) [c] with
  | None => None
  | Some (steps, _) =>
    match class_req steps c with
    | None => None
    | Some req => Some (e_enumc E req, class_steps steps c)
    end
  end.

Definition total_arr (f : nat * nat -> option tqam) (d : tqam) (c : nat * nat) : tqam :=
  match f c with Some t => t | None => d end.
(** Every class named in the body must be bound (else the C code would not compile). *)
Definition all_bound (f : nat * nat -> option tqam) (steps : list hstep) : bool :=
  forallb (fun s => match f (dclass (hs_target s)), f (dclass (hs_src0 s)), f (dclass (hs_src1 s)) with
                    | Some _, Some _, Some _ => true | _, _, _ => false end) steps.

(** One entry of [GetAMOrder], lines 148-181, with the inline / external / general forms of
    lines 183-273. *)
Definition form_bra (E : henv) (p : hplan) (M : hmem) (t : tqam) : option hmem :=
  let c := brac t in
  let nket := dncart (ketc t) in
  match emode_of (e_se E) (e_sg E) (fst c + snd c) with
  | Inline => exec M (bra_stmts (e_o E) (e_blf E) (e_AB E) (with_bra t) nket (class_steps (hp_bra p) c))
  | External =>
    match external E (e_blf E) c, class_req (hp_bra p) c with
    | Some (formals, steps), Some req =>
      let b := bind c formals t (map (with_bra t) (e_enumc E req)) in
      if all_bound b steps
      then exec M (bra_stmts (e_o E) (e_blf E) (e_AB E) (total_arr b t) nket steps) else None
    | _, _ => None
    end
  | General =>
    let q := hreq (e_blf E) c in
    let th1 := M (with_bra t (fst q)) in
    let th2 := M (with_bra t (snd q)) in
    let '(QAM i j k l) := tq_am t in
    match (if e_blf E then gen_I i j k l (e_AB E) th1 th2 else gen_J i j k l (e_AB E) th1 th2) with
    | Some out => if length out <=? length (M t)
                  then Some (mset M t (out ++ skipn (length out) (M t))) else None
    | None => None
    end
  end.

Definition form_ket (E : henv) (p : hplan) (M : hmem) (t : tqam) : option hmem :=
  let c := ketc t in
  let nbra := dncart (brac t) in
  match emode_of (e_se E) (e_sg E) (fst c + snd c) with
  | Inline => exec M (ket_stmts (e_o E) (e_klf E) (e_CD E) (with_ket t) nbra (class_steps (hp_ket p) c))
  | External =>
    match external E (e_klf E) c, class_req (hp_ket p) c with
    | Some (formals, steps), Some req =>
      let b := bind c formals t (map (with_ket t) (e_enumc E req)) in
      if all_bound b steps
      then exec M (ket_stmts (e_o E) (e_klf E) (e_CD E) (total_arr b t) nbra steps) else None
    | _, _ => None
    end
  | General =>
    let q := hreq (e_klf E) c in
    let th1 := M (with_ket t (fst q)) in
    let th2 := M (with_ket t (snd q)) in
    let '(QAM i j k l) := tq_am t in
    match (if e_klf E then gen_K i j k l (e_CD E) th1 th2 else gen_L i j k l (e_CD E) th1 th2) with
    | Some out => if length out <=? length (M t)
                  then Some (mset M t (out ++ skipn (length out) (M t))) else None
    | None => None
    end
  end.

Definition form (E : henv) (p : hplan) (M : hmem) (t : tqam) : option hmem :=
  match smap_at (hp_map p) t with
  | Some BRA => form_bra E p M t
  | Some KET => form_ket E p M t
  | None => None
  end.

Fixpoint run (E : henv) (p : hplan) (M : hmem) (l : list tqam) : option hmem :=
  match l with
  | [] => Some M
  | t :: r => match form E p M t with Some M' => run E p M' r | None => None end
  end.

(** ** Executing a batch of assignments to one array *)

Definition vals (M : hmem) (s : stmt) (v : option R) : Prop :=
  exists v0 v1, nth_error (M (s_t0 s)) (s_i0 s) = Some v0 /\
                nth_error (M (s_t1 s)) (s_i1 s) = Some v1 /\ v = olift (s_lf s) (s_h s) v0 v1.

Lemma mset_same M t l : mset M t l t = l.
Proof. unfold mset. destruct (tqam_eq_dec t t); congruence. Qed.
Lemma mset_other M t l u : t <> u -> mset M t l u = M u.
Proof. unfold mset. destruct (tqam_eq_dec t u); congruence. Qed.

Lemma exec_batch t : forall l M,
  (forall s, In s l -> s_t s = t /\ s_t0 s <> t /\ s_t1 s <> t /\ s_i s < length (M t) /\
                       s_i0 s < length (M (s_t0 s)) /\ s_i1 s < length (M (s_t1 s))) ->
  (forall s s', In s l -> In s' l -> s_i s = s_i s' -> s = s') ->
  exists M', exec M l = Some M' /\ (forall u, u <> t -> M' u = M u) /\
    length (M' t) = length (M t) /\
    (forall s, In s l -> exists v, vals M s v /\ nth_error (M' t) (s_i s) = Some v) /\
    (forall i, (forall s, In s l -> s_i s <> i) -> nth_error (M' t) i = nth_error (M t) i).
Proof.
  induction l as [|s l IH]; intros M Hb Hu.
  - exists M. simpl. repeat split; auto. contradiction.
  - destruct (Hb s (or_introl eq_refl)) as [Ht [H0 [H1 [Hi [Hi0 Hi1]]]]].
    destruct (nth_error_lt_Some _ Hi0) as [v0 Hv0]. destruct (nth_error_lt_Some _ Hi1) as [v1 Hv1].
    set (M1 := mset M t (upd (M t) (s_i s) (olift (s_lf s) (s_h s) v0 v1))).
    assert (E1 : exec1 M s = Some M1).
    { unfold exec1. rewrite Hv0, Hv1, Ht. apply Nat.ltb_lt in Hi. rewrite Hi. reflexivity. }
    assert (Hlen : length (M1 t) = length (M t)) by (unfold M1; rewrite mset_same, upd_length; reflexivity).
    assert (Hoth : forall u, u <> t -> M1 u = M u) by (intros u Hu'; apply mset_other; congruence).
    destruct (IH M1) as [M' [E2 [F [L [V U]]]]].
    { intros s' Hs'. destruct (Hb s' (or_intror Hs')) as [K1 [K2 [K3 [K4 [K5 K6]]]]].
      rewrite Hlen. rewrite !Hoth by assumption. auto 8. }
    { intros; apply Hu; try right; assumption. }
    exists M'. cbn [exec]. rewrite E1. split; [exact E2|].
    split; [intros u Hu'; rewrite F, Hoth by assumption; reflexivity|].
    split; [congruence|]. split.
    + intros s' [<-|Hs'].
      * exists (olift (s_lf s) (s_h s) v0 v1). split; [exists v0, v1; auto|].
        destruct (in_dec Nat.eq_dec (s_i s) (map s_i l)) as [Y|N].
        -- apply in_map_iff in Y as [s' [Es Hs']].
           assert (s = s') by (apply Hu; [left; auto|right; auto|congruence]). subst s'.
           destruct (V s Hs') as [v [[w0 [w1 [W0 [W1 ->]]]] Hv]].
           rewrite Hoth in W0 by assumption. rewrite Hoth in W1 by assumption. congruence.
        -- rewrite U.
           ++ unfold M1. rewrite mset_same. apply nth_error_upd_same; exact Hi.
           ++ intros s' Hs' E. apply N. rewrite <- E. apply in_map, Hs'.
      * destruct (V s' Hs') as [v [[w0 [w1 [W0 [W1 W2]]]] Hv]].
        destruct (Hb s' (or_intror Hs')) as [_ [K2 [K3 _]]].
        rewrite Hoth in W0 by assumption. rewrite Hoth in W1 by assumption.
        exists v. split; [exists w0, w1; auto|exact Hv].
    + intros i Hi'. rewrite U by (intros; apply Hi'; right; assumption).
      unfold M1. rewrite mset_same. apply nth_error_upd_other. apply Hi'; left; reflexivity.
Qed.

(** ** One class *)

Definition rd (o : ordering) (M : hmem) (t : tqam) (q : qrt) : option (option R) :=
  nth_error (M t) (qindex o q).

(** Effect wanted of forming class [t] for the bra doublets in [need]. *)
Definition bra_formed (o : ordering) (lf : bool) (X : dir -> R) (need : dbl -> Prop)
  (M M' : hmem) (t : tqam) : Prop :=
  (forall u, u <> t -> M' u = M u) /\ length (M' t) = length (M t) /\
  (forall q, qclass q = tq_am t -> need (bra q) ->
    exists h v0 v1, doublet_step lf (bra q) = HStep h /\
      rd o M (with_bra t (dclass (hs_src0 h))) (qof (hs_src0 h) (ket q)) = Some v0 /\
      rd o M (with_bra t (dclass (hs_src1 h))) (qof (hs_src1 h) (ket q)) = Some v1 /\
      rd o M' t q = Some (olift lf (X (hs_dir h)) v0 v1)).

Definition ket_formed (o : ordering) (lf : bool) (X : dir -> R) (need : dbl -> Prop)
  (M M' : hmem) (t : tqam) : Prop :=
  (forall u, u <> t -> M' u = M u) /\ length (M' t) = length (M t) /\
  (forall q, qclass q = tq_am t -> need (ket q) ->
    exists h v0 v1, doublet_step lf (ket q) = HStep h /\
      rd o M (with_ket t (dclass (hs_src0 h))) (qof (bra q) (hs_src0 h)) = Some v0 /\
      rd o M (with_ket t (dclass (hs_src1 h))) (qof (bra q) (hs_src1 h)) = Some v1 /\
      rd o M' t q = Some (olift lf (X (hs_dir h)) v0 v1)).

Lemma with_bra_id (t : tqam) : with_bra t (brac t) = t.
Proof. destruct t as [g [a b c d]]; reflexivity. Qed.
Lemma with_ket_id (t : tqam) : with_ket t (ketc t) = t.
Proof. destruct t as [g [a b c d]]; reflexivity. Qed.

Lemma hreq_ne (lf : bool) (c : nat * nat) : (if lf then fst c else snd c) <> 0 -> fst (hreq lf c) <> c /\ snd (hreq lf c) <> c.
Proof.
  destruct c as [a b]; unfold hreq; destruct lf; simpl; intros H; split; intros E; injection E; lia.
Qed.

Lemma with_bra_inj (t : tqam) (c c' : nat * nat) : with_bra t c = with_bra t c' -> c = c'.
Proof. destruct c, c'; unfold with_bra; simpl. congruence. Qed.
Lemma with_ket_inj (t : tqam) (c c' : nat * nat) : with_ket t c = with_ket t c' -> c = c'.
Proof. destruct c, c'; unfold with_ket; simpl. congruence. Qed.

Lemma qncart_bra (t : tqam) (c : nat * nat) : qncart (tq_am (with_bra t c)) = dncart c * dncart (ketc t).
Proof. destruct t as [g [a b e d]], c; unfold qncart, dncart; simpl. lia. Qed.
Lemma qncart_ket (t : tqam) (c : nat * nat) : qncart (tq_am (with_ket t c)) = dncart (brac t) * dncart c.
Proof. destruct t as [g [a b e d]], c; unfold qncart, dncart; simpl. lia. Qed.

Lemma qncart_split (t : tqam) : qncart (tq_am t) = dncart (brac t) * dncart (ketc t).
Proof. destruct t as [g [a b e d]]; unfold qncart, dncart; simpl. lia. Qed.

Lemma stmts_bra_formed (o : ordering) (lf : bool) (X : dir -> R) (arr : nat * nat -> tqam) (steps : list hstep) (M : hmem) (t : tqam) (need : dbl -> Prop) :
  (forall h, In h steps -> doublet_step lf (hs_target h) = HStep h /\ dclass (hs_target h) = brac t) ->
  (forall h, In h steps -> arr (dclass (hs_target h)) = t /\
       arr (dclass (hs_src0 h)) = with_bra t (dclass (hs_src0 h)) /\
       arr (dclass (hs_src1 h)) = with_bra t (dclass (hs_src1 h))) ->
  mvc lf (brac t) <> 0 ->
  length (M t) = qncart (tq_am t) ->
  (forall c, c = fst (hreq lf (brac t)) \/ c = snd (hreq lf (brac t)) ->
     length (M (with_bra t c)) = qncart (tq_am (with_bra t c))) ->
  (forall d, dclass d = brac t -> need d -> exists h, In h steps /\ hs_target h = d) ->
  exists M', exec M (bra_stmts o lf X arr (dncart (ketc t)) steps) = Some M' /\
    bra_formed o lf X need M M' t.
Proof.
  intros Hst Harr Hmv Hlt Hls Hneed.
  assert (Hsrc : forall h, In h steps ->
    (dclass (hs_src0 h) = fst (hreq lf (brac t)) /\ dclass (hs_src1 h) = snd (hreq lf (brac t)))).
  { intros h Hh. destruct (Hst h Hh) as [A B]. destruct (step_classes _ _ A) as [C [D _]].
    rewrite B in C, D. auto. }
  assert (Hin : forall s, In s (bra_stmts o lf X arr (dncart (ketc t)) steps) <->
     exists iket h, iket < dncart (ketc t) /\ In h steps /\
      s = Stmt t (dindex o (hs_target h) * dncart (ketc t) + iket)
         (with_bra t (dclass (hs_src0 h))) (dindex o (hs_src0 h) * dncart (ketc t) + iket)
         (with_bra t (dclass (hs_src1 h))) (dindex o (hs_src1 h) * dncart (ketc t) + iket)
         lf (X (hs_dir h))).
  { intros s. unfold bra_stmts. rewrite in_flat_map. split.
    - intros [i [Hi Hs]]. apply in_seq in Hi. apply in_map_iff in Hs as [h [<- Hh]].
      exists i, h. destruct (Harr h Hh) as [A [B C]]. rewrite A, B, C. repeat split; auto; lia.
    - intros [i [h [Hi [Hh ->]]]]. exists i. split; [apply in_seq; lia|].
      apply in_map_iff. exists h. split; [|exact Hh].
      destruct (Harr h Hh) as [A [B C]]. rewrite A, B, C. reflexivity. }
  destruct (hreq_ne lf (brac t) Hmv) as [N0 N1].
  destruct (@exec_batch t (bra_stmts o lf X arr (dncart (ketc t)) steps) M) as [M' [E [F [L [V U]]]]].
  { intros s Hs. apply Hin in Hs as [i [h [Hi [Hh ->]]]]. simpl.
    destruct (Hsrc h Hh) as [S0 S1]. destruct (Hst h Hh) as [_ St].
    split; [reflexivity|].
    split; [rewrite S0; intros K; apply (f_equal brac) in K; rewrite with_bra_b in K; auto|].
    split; [rewrite S1; intros K; apply (f_equal brac) in K; rewrite with_bra_b in K; auto|].
    pose proof (dindex_lt o (hs_target h)) as P. pose proof (dindex_lt o (hs_src0 h)) as P0.
    pose proof (dindex_lt o (hs_src1 h)) as P1. rewrite St in P.
    rewrite Hlt, (Hls (dclass (hs_src0 h))), (Hls (dclass (hs_src1 h))) by auto.
    rewrite qncart_split, !qncart_bra. repeat split; nia. }
  { intros s s' Hs Hs' Hi. apply Hin in Hs as [i [h [Hi1 [Hh ->]]]].
    apply Hin in Hs' as [i' [h' [Hi2 [Hh' ->]]]]. simpl in Hi.
    destruct (@mixed_inj _ _ _ _ _ Hi1 Hi2 Hi) as [K1 K2]. subst i'.
    destruct (Hst h Hh) as [A B]. destruct (Hst h' Hh') as [A' B'].
    apply dindex_inj in K1; [|congruence]. rewrite K1 in A. assert (h = h') by congruence.
    subst h'. reflexivity. }
  exists M'. split; [exact E|]. split; [exact F|]. split; [exact L|].
  intros q Hq Hn.
  assert (Hb : dclass (bra q) = brac t) by (rewrite <- (qof_eta q) in Hq; unfold brac; rewrite <- Hq; reflexivity).
  assert (Hk : dclass (ket q) = ketc t) by (rewrite <- (qof_eta q) in Hq; unfold ketc; rewrite <- Hq; reflexivity).
  destruct (Hneed (bra q) Hb Hn) as [h [Hh Ht]].
  set (s := Stmt t (dindex o (hs_target h) * dncart (ketc t) + dindex o (ket q))
         (with_bra t (dclass (hs_src0 h))) (dindex o (hs_src0 h) * dncart (ketc t) + dindex o (ket q))
         (with_bra t (dclass (hs_src1 h))) (dindex o (hs_src1 h) * dncart (ketc t) + dindex o (ket q))
         lf (X (hs_dir h))).
  destruct (V s) as [v [[v0 [v1 [W0 [W1 W2]]]] Wv]].
  { apply Hin. exists (dindex o (ket q)), h. split; [rewrite <- Hk; apply dindex_lt|]. split; auto. }
  exists h, v0, v1. simpl in *.
  split; [rewrite <- Ht; apply Hst, Hh|].
  unfold rd, qindex. rewrite !qof_bra, !qof_ket, !Hk. split; [exact W0|]. split; [exact W1|].
  rewrite <- Ht. rewrite Wv. rewrite W2. reflexivity.
Qed.

Lemma stmts_ket_formed (o : ordering) (lf : bool) (X : dir -> R) (arr : nat * nat -> tqam) (steps : list hstep) (M : hmem) (t : tqam) (need : dbl -> Prop) :
  (forall h, In h steps -> doublet_step lf (hs_target h) = HStep h /\ dclass (hs_target h) = ketc t) ->
  (forall h, In h steps -> arr (dclass (hs_target h)) = t /\
       arr (dclass (hs_src0 h)) = with_ket t (dclass (hs_src0 h)) /\
       arr (dclass (hs_src1 h)) = with_ket t (dclass (hs_src1 h))) ->
  mvc lf (ketc t) <> 0 ->
  length (M t) = qncart (tq_am t) ->
  (forall c, c = fst (hreq lf (ketc t)) \/ c = snd (hreq lf (ketc t)) ->
     length (M (with_ket t c)) = qncart (tq_am (with_ket t c))) ->
  (forall d, dclass d = ketc t -> need d -> exists h, In h steps /\ hs_target h = d) ->
  exists M', exec M (ket_stmts o lf X arr (dncart (brac t)) steps) = Some M' /\
    ket_formed o lf X need M M' t.
Proof.
  intros Hst Harr Hmv Hlt Hls Hneed.
  assert (Hsrc : forall h, In h steps ->
    (dclass (hs_src0 h) = fst (hreq lf (ketc t)) /\ dclass (hs_src1 h) = snd (hreq lf (ketc t)))).
  { intros h Hh. destruct (Hst h Hh) as [A B]. destruct (step_classes _ _ A) as [C [D _]].
    rewrite B in C, D. auto. }
  assert (Hin : forall s, In s (ket_stmts o lf X arr (dncart (brac t)) steps) <->
     exists ibra h, ibra < dncart (brac t) /\ In h steps /\
      s = Stmt t (ibra * dncart (dclass (hs_target h)) + dindex o (hs_target h))
         (with_ket t (dclass (hs_src0 h))) (ibra * dncart (dclass (hs_src0 h)) + dindex o (hs_src0 h))
         (with_ket t (dclass (hs_src1 h))) (ibra * dncart (dclass (hs_src1 h)) + dindex o (hs_src1 h))
         lf (X (hs_dir h))).
  { intros s. unfold ket_stmts. rewrite in_flat_map. split.
    - intros [i [Hi Hs]]. apply in_seq in Hi. apply in_map_iff in Hs as [h [<- Hh]].
      exists i, h. destruct (Harr h Hh) as [A [B C]]. rewrite A, B, C. repeat split; auto; lia.
    - intros [i [h [Hi [Hh ->]]]]. exists i. split; [apply in_seq; lia|].
      apply in_map_iff. exists h. split; [|exact Hh].
      destruct (Harr h Hh) as [A [B C]]. rewrite A, B, C. reflexivity. }
  destruct (hreq_ne lf (ketc t) Hmv) as [N0 N1].
  destruct (@exec_batch t (ket_stmts o lf X arr (dncart (brac t)) steps) M) as [M' [E [F [L [V U]]]]].
  { intros s Hs. apply Hin in Hs as [i [h [Hi [Hh ->]]]]. simpl.
    destruct (Hsrc h Hh) as [S0 S1]. destruct (Hst h Hh) as [_ St].
    split; [reflexivity|].
    split; [rewrite S0; intros K; apply (f_equal ketc) in K; rewrite with_ket_k in K; auto|].
    split; [rewrite S1; intros K; apply (f_equal ketc) in K; rewrite with_ket_k in K; auto|].
    pose proof (dindex_lt o (hs_target h)) as P. pose proof (dindex_lt o (hs_src0 h)) as P0.
    pose proof (dindex_lt o (hs_src1 h)) as P1. rewrite St in *.
    rewrite Hlt, (Hls (dclass (hs_src0 h))), (Hls (dclass (hs_src1 h))) by auto.
    rewrite qncart_split, !qncart_ket. repeat split; nia. }
  { intros s s' Hs Hs' Hi. apply Hin in Hs as [i [h [Hi1 [Hh ->]]]].
    apply Hin in Hs' as [i' [h' [Hi2 [Hh' ->]]]]. simpl in Hi.
    destruct (Hst h Hh) as [A B]. destruct (Hst h' Hh') as [A' B'].
    pose proof (dindex_lt o (hs_target h)) as P. pose proof (dindex_lt o (hs_target h')) as P'.
    rewrite B in P, Hi. rewrite B' in P', Hi.
    destruct (@mixed_inj _ _ _ _ _ P P' Hi) as [K1 K2]. subst i'.
    apply dindex_inj in K2; [|congruence]. rewrite K2 in A. assert (h = h') by congruence.
    subst h'. reflexivity. }
  exists M'. split; [exact E|]. split; [exact F|]. split; [exact L|].
  intros q Hq Hn.
  assert (Hb : dclass (bra q) = brac t) by (rewrite <- (qof_eta q) in Hq; unfold brac; rewrite <- Hq; reflexivity).
  assert (Hk : dclass (ket q) = ketc t) by (rewrite <- (qof_eta q) in Hq; unfold ketc; rewrite <- Hq; reflexivity).
  destruct (Hneed (ket q) Hk Hn) as [h [Hh Ht]].
  set (s := Stmt t (dindex o (bra q) * dncart (dclass (hs_target h)) + dindex o (hs_target h))
         (with_ket t (dclass (hs_src0 h))) (dindex o (bra q) * dncart (dclass (hs_src0 h)) + dindex o (hs_src0 h))
         (with_ket t (dclass (hs_src1 h))) (dindex o (bra q) * dncart (dclass (hs_src1 h)) + dindex o (hs_src1 h))
         lf (X (hs_dir h))).
  destruct (V s) as [v [[v0 [v1 [W0 [W1 W2]]]] Wv]].
  { apply Hin. exists (dindex o (bra q)), h. split; [rewrite <- Hb; apply dindex_lt|]. split; auto. }
  exists h, v0, v1. simpl in *.
  split; [rewrite <- Ht; apply Hst, Hh|].
  unfold rd, qindex. rewrite !qof_bra, !qof_ket. split; [exact W0|]. split; [exact W1|].
  rewrite Ht in Wv. rewrite Wv. rewrite W2. reflexivity.
Qed.


(** ** Forming one class of a plan *)

Definition set_enum (enumc : list (nat * nat) -> list (nat * nat)) : Prop :=
  enum_ok enumc /\ (forall l l', (forall x, In x l <-> In x l') -> enumc l = enumc l').

(** The general routines use the run-time table: they need the Psi4 order and am <= 18. *)
Definition gen_ok (E : henv) (c : nat * nat) : Prop :=
  emode_of (e_se E) (e_sg E) (fst c + snd c) <> General \/
  (e_o E = psi4 /\ fst c <= 18 /\ snd c <= 18).

Lemma bind_ok (res : nat * nat) (l : list (nat * nat)) (t : tqam) (f : nat * nat -> tqam) c :
  f res = t -> (c = res \/ In c l) -> bind res l t (map f l) c = Some (f c).
Proof.
  intros Hr Hc. unfold bind.
  destruct (find_pos (fun g => if nn_eq_dec g c then true else false) (res :: l)) as [n|] eqn:E.
  - apply find_pos_some in E as [x [Hx [Hp _]]].
    destruct (nn_eq_dec x c) as [->|]; [|discriminate].
    destruct n as [|n]; simpl in *; [congruence|]. rewrite nth_error_map, Hx. reflexivity.
  - exfalso. pose proof (find_pos_none _ _ E) as K. 
    assert (Hin : In c (res :: l)) by (destruct Hc; [left; auto|right; auto]).
    specialize (K c Hin). simpl in K. destruct (nn_eq_dec c c); congruence.
Qed.

Lemma external_ok E lf c : enum_ok (e_enum E) -> set_enum (e_enumc E) -> starts_x (e_o E) ->
  mvc lf c <> 0 -> mvc lf c <= e_fuel E ->
  exists formals steps, external E lf c = Some (formals, steps) /\
    (forall x, In x formals <-> x = fst (hreq lf c) \/ x = snd (hreq lf c)) /\
    (forall l, (forall x, In x l <-> x = fst (hreq lf c) \/ x = snd (hreq lf c)) -> e_enumc E l = formals) /\
    (forall h, In h steps -> doublet_step lf (hs_target h) = HStep h /\ dclass (hs_target h) = c) /\
    (forall d, dclass d = c -> exists h, In h steps /\ hs_target h = d).
Proof.
  intros He [Hc1 Hc2] Hs Hmv Hf. unfold external.
  destruct (@hcreate_ok (e_enum E) (e_o E) lf (e_fuel E) [c] He Hs) as [steps [sol [Ec HP]]].
  { intros c' [<-|[]]. exact Hf. }
  rewrite Ec.
  assert (Hall : In c (class_all sol)).
  { destruct (class_inhabited (fst c) (snd c)) as [d Hd]. rewrite <- surjective_pairing in Hd.
    destruct (sp_init HP d) as [K|K]; [left; auto| |].
    - rewrite <- Hd. apply in_map; exact K.
    - exfalso. rewrite moving_class, Hd in K. contradiction. }
  destruct (class_req_ok _ HP Hall) as [l [El [Hl _]]]. rewrite El.
  exists (e_enumc E l), (class_steps steps c). split; [reflexivity|]. split; [|split; [|split]].
  - intros x. destruct (Hc1 l) as [_ K]. rewrite K. apply Hl.
  - intros l' Hl'. apply Hc2. intros x. rewrite Hl', Hl. reflexivity.
  - intros h Hh. apply in_class_steps in Hh as [A B]. split; [apply (sp_step HP _ A)|exact B].
  - intros d Hd. destruct (sp_init HP d) as [K|K]; [left; auto| |].
    + apply (sp_tgt HP) in K as [h [A B]]. exists h. split; [|exact B].
      apply in_class_steps. split; [exact A|congruence].
    + exfalso. rewrite moving_class, Hd in K. contradiction.
Qed.

Definition sized_at (M : hmem) (t : tqam) : Prop := length (M t) = qncart (tq_am t).

Lemma in_brac_dec (t : tqam) q : qclass q = tq_am t -> dclass (bra q) = brac t /\ dclass (ket q) = ketc t.
Proof. intros H. destruct t as [g c]; simpl in *. subst c. split; reflexivity. Qed.

Section OneClass.
Variable E : henv.
Variables (am : list tqam) (p : hplan).
Hypothesis He : enum_ok (e_enum E).
Hypothesis Hec : set_enum (e_enumc E).
Hypothesis Hsx : starts_x (e_o E).
Hypothesis HP : plan_ok (e_blf E) (e_klf E) am p.

Lemma form_bra_ok M t :
  In (brac t) (class_all (hp_brasol p)) -> mvc (e_blf E) (brac t) <= e_fuel E -> gen_ok E (brac t) ->
  sized_at M t ->
  (forall c, c = fst (hreq (e_blf E) (brac t)) \/ c = snd (hreq (e_blf E) (brac t)) -> sized_at M (with_bra t c)) ->
  exists M', form_bra E p M t = Some M' /\
    bra_formed (e_o E) (e_blf E) (e_AB E) (fun d => In d (hp_brasol p)) M M' t.
Proof.
  intros Hall Hf Hg Hst Hss.
  pose proof (pl_bra HP) as HB.
  pose proof (solved_moving _ HB Hall) as Hmv.
  unfold form_bra. destruct (emode_of (e_se E) (e_sg E) (fst (brac t) + snd (brac t))) eqn:Em.
  - apply stmts_bra_formed; auto.
    + intros h Hh. apply in_class_steps in Hh as [A B]. split; [apply (sp_step HB _ A)|exact B].
    + intros h Hh. apply in_class_steps in Hh as [A B]. rewrite B. rewrite with_bra_id. auto.
    + intros d Hd Hn. apply (sp_tgt HB) in Hn as [h [A B]]. exists h. split; [|exact B].
      apply in_class_steps. split; [exact A|congruence].
  - destruct (external_ok E (e_blf E) (brac t) He Hec Hsx Hmv Hf) as [formals [steps [Ee [Hf1 [Hf2 [Hs1 Hs2]]]]]].
    rewrite Ee. destruct (class_req_ok _ HB Hall) as [req [Er [Hr _]]]. rewrite Er.
    rewrite (Hf2 req Hr).
    set (b := bind (brac t) formals t (map (with_bra t) formals)).
    assert (Hb : forall c, c = brac t \/ In c formals -> b c = Some (with_bra t c)).
    { intros c Hc. apply bind_ok; [apply with_bra_id|exact Hc]. }
    assert (Hbs : forall h, In h steps -> b (dclass (hs_target h)) = Some t /\
              b (dclass (hs_src0 h)) = Some (with_bra t (dclass (hs_src0 h))) /\
              b (dclass (hs_src1 h)) = Some (with_bra t (dclass (hs_src1 h)))).
    { intros h Hh. destruct (Hs1 h Hh) as [A B]. destruct (step_classes _ _ A) as [C [D _]].
      rewrite B in C, D. rewrite B. split; [|split].
      - rewrite Hb by auto. rewrite with_bra_id. reflexivity.
      - apply Hb. right. apply Hf1. auto.
      - apply Hb. right. apply Hf1. auto. }
    assert (Hab : all_bound b steps = true).
    { unfold all_bound. apply forallb_forall. intros h Hh. destruct (Hbs h Hh) as [A [B C]].
      rewrite A, B, C. reflexivity. }
    rewrite Hab. apply stmts_bra_formed; auto.
    + intros h Hh. unfold total_arr. destruct (Hbs h Hh) as [A [B C]]. rewrite A, B, C. auto.
  - destruct Hg as [Hg|[Ho [Ha Hb]]]; [contradiction|].
    destruct (hreq_ne _ _ Hmv) as [N0 N1].
    destruct t as [g [i j k l]]. cbn [tq_am]. cbn [brac tq_am am0 am1 fst snd] in Ha, Hb, Hmv.
    assert (Hgen : exists out,
      (if e_blf E
       then gen_I i j k l (e_AB E) (M (with_bra (TQ g (QAM i j k l)) (fst (hreq (e_blf E) (brac (TQ g (QAM i j k l)))))))
              (M (with_bra (TQ g (QAM i j k l)) (snd (hreq (e_blf E) (brac (TQ g (QAM i j k l)))))))
       else gen_J i j k l (e_AB E) (M (with_bra (TQ g (QAM i j k l)) (fst (hreq (e_blf E) (brac (TQ g (QAM i j k l)))))))
              (M (with_bra (TQ g (QAM i j k l)) (snd (hreq (e_blf E) (brac (TQ g (QAM i j k l)))))))) = Some out /\
      bra_block_ok (e_blf E) i j k l (e_AB E)
        (M (with_bra (TQ g (QAM i j k l)) (fst (hreq (e_blf E) (brac (TQ g (QAM i j k l)))))))
        (M (with_bra (TQ g (QAM i j k l)) (snd (hreq (e_blf E) (brac (TQ g (QAM i j k l))))))) out).
    { pose proof (Hss _ (or_introl eq_refl)) as S1. pose proof (Hss _ (or_intror eq_refl)) as S2.
      destruct (e_blf E); [apply gen_I_ok|apply gen_J_ok]; unfold mvc in Hmv; cbn [brac fst snd tq_am am0 am1] in Hmv;
        try lia; assumption. }
    destruct Hgen as [out [Eo [So Hq]]]. rewrite Eo.
    assert (Hlen : length out = length (M (TQ g (QAM i j k l)))) by (rewrite So; symmetry; exact Hst).
    rewrite Hlen, Nat.leb_refl, skipn_all, app_nil_r.
    eexists; split; [reflexivity|]. split; [intros u Hu; apply mset_other; congruence|].
    split; [rewrite mset_same; exact Hlen|].
    intros q Hqc Hn. destruct (Hq q Hqc) as [h [v0 [v1 [A [B [C Dd]]]]]].
    destruct (in_brac_dec _ Hqc) as [Hbc _].
    destruct (step_classes _ _ A) as [K0 [K1 _]]. rewrite Hbc in K0, K1.
    exists h, v0, v1. rewrite Ho, K0, K1. unfold rd. rewrite mset_same. auto.
Qed.

Lemma form_ket_ok M t :
  In (ketc t) (class_all (hp_ketsol p)) -> mvc (e_klf E) (ketc t) <= e_fuel E -> gen_ok E (ketc t) ->
  sized_at M t ->
  (forall c, c = fst (hreq (e_klf E) (ketc t)) \/ c = snd (hreq (e_klf E) (ketc t)) -> sized_at M (with_ket t c)) ->
  exists M', form_ket E p M t = Some M' /\
    ket_formed (e_o E) (e_klf E) (e_CD E) (fun d => In d (hp_ketsol p)) M M' t.
Proof.
  intros Hall Hf Hg Hst Hss.
  pose proof (pl_ket HP) as HB.
  pose proof (solved_moving _ HB Hall) as Hmv.
  unfold form_ket. destruct (emode_of (e_se E) (e_sg E) (fst (ketc t) + snd (ketc t))) eqn:Em.
  - apply stmts_ket_formed; auto.
    + intros h Hh. apply in_class_steps in Hh as [A B]. split; [apply (sp_step HB _ A)|exact B].
    + intros h Hh. apply in_class_steps in Hh as [A B]. rewrite B. rewrite with_ket_id. auto.
    + intros d Hd Hn. apply (sp_tgt HB) in Hn as [h [A B]]. exists h. split; [|exact B].
      apply in_class_steps. split; [exact A|congruence].
  - destruct (external_ok E (e_klf E) (ketc t) He Hec Hsx Hmv Hf) as [formals [steps [Ee [Hf1 [Hf2 [Hs1 Hs2]]]]]].
    rewrite Ee. destruct (class_req_ok _ HB Hall) as [req [Er [Hr _]]]. rewrite Er.
    rewrite (Hf2 req Hr).
    set (b := bind (ketc t) formals t (map (with_ket t) formals)).
    assert (Hb : forall c, c = ketc t \/ In c formals -> b c = Some (with_ket t c)).
    { intros c Hc. apply bind_ok; [apply with_ket_id|exact Hc]. }
    assert (Hbs : forall h, In h steps -> b (dclass (hs_target h)) = Some t /\
              b (dclass (hs_src0 h)) = Some (with_ket t (dclass (hs_src0 h))) /\
              b (dclass (hs_src1 h)) = Some (with_ket t (dclass (hs_src1 h)))).
    { intros h Hh. destruct (Hs1 h Hh) as [A B]. destruct (step_classes _ _ A) as [C [D _]].
      rewrite B in C, D. rewrite B. split; [|split].
      - rewrite Hb by auto. rewrite with_ket_id. reflexivity.
      - apply Hb. right. apply Hf1. auto.
      - apply Hb. right. apply Hf1. auto. }
    assert (Hab : all_bound b steps = true).
    { unfold all_bound. apply forallb_forall. intros h Hh. destruct (Hbs h Hh) as [A [B C]].
      rewrite A, B, C. reflexivity. }
    rewrite Hab. apply stmts_ket_formed; auto.
    + intros h Hh. unfold total_arr. destruct (Hbs h Hh) as [A [B C]]. rewrite A, B, C. auto.
  - destruct Hg as [Hg|[Ho [Ha Hb]]]; [contradiction|].
    destruct (hreq_ne _ _ Hmv) as [N0 N1].
    destruct t as [g [i j k l]]. cbn [tq_am]. cbn [ketc tq_am am2 am3 fst snd] in Ha, Hb, Hmv.
    assert (Hgen : exists out,
      (if e_klf E
       then gen_K i j k l (e_CD E) (M (with_ket (TQ g (QAM i j k l)) (fst (hreq (e_klf E) (ketc (TQ g (QAM i j k l)))))))
              (M (with_ket (TQ g (QAM i j k l)) (snd (hreq (e_klf E) (ketc (TQ g (QAM i j k l)))))))
       else gen_L i j k l (e_CD E) (M (with_ket (TQ g (QAM i j k l)) (fst (hreq (e_klf E) (ketc (TQ g (QAM i j k l)))))))
              (M (with_ket (TQ g (QAM i j k l)) (snd (hreq (e_klf E) (ketc (TQ g (QAM i j k l)))))))) = Some out /\
      ket_block_ok (e_klf E) i j k l (e_CD E)
        (M (with_ket (TQ g (QAM i j k l)) (fst (hreq (e_klf E) (ketc (TQ g (QAM i j k l)))))))
        (M (with_ket (TQ g (QAM i j k l)) (snd (hreq (e_klf E) (ketc (TQ g (QAM i j k l))))))) out).
    { pose proof (Hss _ (or_introl eq_refl)) as S1. pose proof (Hss _ (or_intror eq_refl)) as S2.
      destruct (e_klf E); [apply gen_K_ok|apply gen_L_ok]; unfold mvc in Hmv; cbn [ketc fst snd tq_am am2 am3] in Hmv;
        try lia; assumption. }
    destruct Hgen as [out [Eo [So Hq]]]. rewrite Eo.
    assert (Hlen : length out = length (M (TQ g (QAM i j k l)))) by (rewrite So; symmetry; exact Hst).
    rewrite Hlen, Nat.leb_refl, skipn_all, app_nil_r.
    eexists; split; [reflexivity|]. split; [intros u Hu; apply mset_other; congruence|].
    split; [rewrite mset_same; exact Hlen|].
    intros q Hqc Hn. destruct (Hq q Hqc) as [h [v0 [v1 [A [B [C Dd]]]]]].
    destruct (in_brac_dec _ Hqc) as [_ Hbc].
    destruct (step_classes _ _ A) as [K0 [K1 _]]. rewrite Hbc in K0, K1.
    exists h, v0, v1. rewrite Ho, K0, K1. unfold rd. rewrite mset_same. auto.
Qed.

(** ** The whole run *)

(** Integral families: one per tag, obeying the transfer relation on both sides. *)
Definition family (V : nat -> qrt -> R) : Prop :=
  forall g, (forall k, transfer (e_AB E) (fun b => V g (qof b k))) /\
            (forall b, transfer (e_CD E) (fun k => V g (qof b k))).

Definition covered (q : qrt) : Prop :=
  (In (bra q) (hp_brasol p) \/ gam (moving (e_blf E) (bra q)) = 0) /\
  (In (ket q) (hp_ketsol p) \/ gam (moving (e_klf E) (ket q)) = 0).

Definition holds (V : nat -> qrt -> R) (M : hmem) (t : tqam) : Prop :=
  forall q, qclass q = tq_am t -> covered q -> rd (e_o E) M t q = Some (Some (V (tq_tag t) q)).

Definition modes_ok (l : list tqam) : Prop :=
  forall t, In t l -> mvc (e_blf E) (brac t) <= e_fuel E /\ mvc (e_klf E) (ketc t) <= e_fuel E /\
                      gen_ok E (brac t) /\ gen_ok E (ketc t).

Lemma src_qclass_bra (t : tqam) c q h :
  qclass q = tq_am t -> dclass h = c -> qclass (qof h (ket q)) = tq_am (with_bra t c).
Proof. intros H <-. destruct t as [g cc]; simpl in *. subst cc. reflexivity. Qed.
Lemma src_qclass_ket (t : tqam) c q h :
  qclass q = tq_am t -> dclass h = c -> qclass (qof (bra q) h) = tq_am (with_ket t c).
Proof. intros H <-. destruct t as [g cc]; simpl in *. subst cc. reflexivity. Qed.

Lemma form_holds V M t l1 l2 :
  family V -> hp_order p = l1 ++ t :: l2 -> modes_ok [t] ->
  (forall u, In u (hp_order p) \/ In u (hp_top p) -> sized_at M u) ->
  (forall u, In u l1 \/ In u (hp_top p) -> holds V M u) ->
  exists M', form E p M t = Some M' /\ (forall u, u <> t -> M' u = M u) /\
    length (M' t) = length (M t) /\ holds V M' t.
Proof.
  intros HV Ho Hm Hsz Hh.
  assert (Hin : In t (hp_order p)) by (rewrite Ho; apply in_or_app; right; left; reflexivity).
  destruct (Hm t (or_introl eq_refl)) as [Fb [Fk [Gb Gk]]].
  pose proof (pl_before HP _ _ _ Ho) as [Bk Bb].
  assert (Hl1 : forall u, In u l1 -> In u (hp_order p)) by (intros; rewrite Ho; apply in_or_app; auto).
  unfold form. destruct (pl_kind HP t Hin) as [[Ek [Hmv Hall]]|[Ek [Hz [Hmv Hall]]]]; rewrite Ek.
  - specialize (Bk Ek). cbv zeta in Bk. destruct Bk as [B0 B1].
    destruct (@form_ket_ok M t) as [M' [EM [F [L K]]]]; auto.
    { intros c [-> | ->]; apply Hsz; [destruct B0|destruct B1]; auto. }
    exists M'. split; [exact EM|]. split; [exact F|]. split; [exact L|].
    intros q Hq [Cb Ck].
    destruct (in_brac_dec _ Hq) as [Qb Qk].
    assert (Cks : In (ket q) (hp_ketsol p)).
    { destruct Ck as [Ck|Ck]; [exact Ck|]. exfalso. rewrite moving_class, Qk in Ck. contradiction. }
    destruct (K q Hq Cks) as [h [v0 [v1 [A [R0 [R1 R2]]]]]].
    destruct (step_classes _ _ A) as [K0 [K1 _]]. rewrite Qk in K0, K1.
    apply (sp_tgt (pl_ket HP)) in Cks as [h' [Hh' Eh']].
    assert (h' = h).
    { pose proof (sp_step (pl_ket HP) _ Hh') as X. rewrite Eh' in X. congruence. }
    subst h'.
    assert (V0 : v0 = Some (V (tq_tag t) (qof (bra q) (hs_src0 h)))).
    { assert (Hd : holds V M (with_ket t (dclass (hs_src0 h)))) by (apply Hh; rewrite K0; exact B0).
      rewrite (Hd (qof (bra q) (hs_src0 h))) in R0.
      - injection R0 as <-. reflexivity.
      - apply src_qclass_ket with (t := t); auto.
      - split; [rewrite qof_bra; exact Cb|rewrite qof_ket; apply (sp_src (pl_ket HP) _ Hh'); auto]. }
    assert (V1 : v1 = Some (V (tq_tag t) (qof (bra q) (hs_src1 h)))).
    { assert (Hd : holds V M (with_ket t (dclass (hs_src1 h)))) by (apply Hh; rewrite K1; exact B1).
      rewrite (Hd (qof (bra q) (hs_src1 h))) in R1.
      - injection R1 as <-. reflexivity.
      - apply src_qclass_ket with (t := t); auto.
      - split; [rewrite qof_bra; exact Cb|rewrite qof_ket; apply (sp_src (pl_ket HP) _ Hh'); auto]. }
    rewrite R2, V0, V1. simpl. f_equal. f_equal. symmetry.
    destruct (HV (tq_tag t)) as [_ HVk].
    pose proof (@hrr_step_exact R _ _ _ _ _ (HVk (bra q)) A) as X. cbv beta in X. rewrite qof_eta in X. exact X.
  - specialize (Bb Ek). cbv zeta in Bb. destruct Bb as [B0 B1].
    destruct (@form_bra_ok M t) as [M' [EM [F [L K]]]]; auto.
    { intros c [-> | ->]; apply Hsz; [destruct B0|destruct B1]; auto. }
    exists M'. split; [exact EM|]. split; [exact F|]. split; [exact L|].
    intros q Hq [Cb Ck].
    destruct (in_brac_dec _ Hq) as [Qb Qk].
    assert (Cbs : In (bra q) (hp_brasol p)).
    { destruct Cb as [Cb|Cb]; [exact Cb|]. exfalso. rewrite moving_class, Qb in Cb. contradiction. }
    destruct (K q Hq Cbs) as [h [v0 [v1 [A [R0 [R1 R2]]]]]].
    destruct (step_classes _ _ A) as [K0 [K1 _]]. rewrite Qb in K0, K1.
    apply (sp_tgt (pl_bra HP)) in Cbs as [h' [Hh' Eh']].
    assert (h' = h).
    { pose proof (sp_step (pl_bra HP) _ Hh') as X. rewrite Eh' in X. congruence. }
    subst h'.
    assert (V0 : v0 = Some (V (tq_tag t) (qof (hs_src0 h) (ket q)))).
    { assert (Hd : holds V M (with_bra t (dclass (hs_src0 h)))) by (apply Hh; rewrite K0; exact B0).
      rewrite (Hd (qof (hs_src0 h) (ket q))) in R0.
      - injection R0 as <-. reflexivity.
      - apply src_qclass_bra with (t := t); auto.
      - split; [rewrite qof_bra; apply (sp_src (pl_bra HP) _ Hh'); auto|rewrite qof_ket; exact Ck]. }
    assert (V1 : v1 = Some (V (tq_tag t) (qof (hs_src1 h) (ket q)))).
    { assert (Hd : holds V M (with_bra t (dclass (hs_src1 h)))) by (apply Hh; rewrite K1; exact B1).
      rewrite (Hd (qof (hs_src1 h) (ket q))) in R1.
      - injection R1 as <-. reflexivity.
      - apply src_qclass_bra with (t := t); auto.
      - split; [rewrite qof_bra; apply (sp_src (pl_bra HP) _ Hh'); auto|rewrite qof_ket; exact Ck]. }
    rewrite R2, V0, V1. simpl. f_equal. f_equal. symmetry.
    destruct (HV (tq_tag t)) as [HVb _].
    pose proof (@hrr_step_exact R _ _ _ _ _ (HVb (ket q)) A) as X. cbv beta in X. rewrite qof_eta in X. exact X.
Qed.

Lemma run_holds V : family V -> forall l2 l1 M,
  hp_order p = l1 ++ l2 -> modes_ok l2 ->
  (forall u, In u (hp_order p) \/ In u (hp_top p) -> sized_at M u) ->
  (forall u, In u l1 \/ In u (hp_top p) -> holds V M u) ->
  exists M', run E p M l2 = Some M' /\ (forall u, ~ In u l2 -> M' u = M u) /\
    (forall u, In u (hp_order p) \/ In u (hp_top p) -> holds V M' u).
Proof.
  intros HV. induction l2 as [|t l2 IH]; intros l1 M Ho Hm Hsz Hh.
  - exists M. simpl. split; [reflexivity|]. split; [auto|].
    rewrite app_nil_r in Ho. rewrite Ho. exact Hh.
  - assert (Hm1 : modes_ok [t]) by (intros u [<-|[]]; apply Hm; left; reflexivity).
    destruct (@form_holds V M t l1 l2 HV Ho Hm1 Hsz Hh) as [M1 [E1 [F1 [L1 H1]]]].
    assert (Hnd : ~ In t l1 /\ ~ In t (hp_top p)).
    { pose proof (pl_once HP) as N. rewrite Ho in N. split.
      - intros K. apply NoDup_remove_2 in N. apply N. apply in_or_app; auto.
      - intros K. destruct (pl_top HP t K) as [_ [_ Z]]. apply Z. rewrite Ho. apply in_or_app; right; left; auto. }
    destruct (IH (l1 ++ [t]) M1) as [M2 [E2 [F2 H2]]].
    + rewrite Ho, <- app_assoc. reflexivity.
    + intros u Hu. apply Hm; right; exact Hu.
    + intros u Hu. unfold sized_at. destruct (tqam_eq_dec u t) as [->|N].
      * rewrite L1. apply Hsz, Hu.
      * rewrite F1 by exact N. apply Hsz, Hu.
    + intros u Hu q Hq Hc. destruct (tqam_eq_dec u t) as [->|N]; [apply H1; assumption|].
      unfold rd. rewrite F1 by exact N. apply Hh; auto.
      destruct Hu as [Hu|Hu]; [|auto]. apply in_app_or in Hu as [Hu|[Hu|[]]]; [auto|congruence].
    + exists M2. cbn [run]. rewrite E1. split; [exact E2|]. split; [|exact H2].
      intros u Hu. rewrite F2 by (intros K; apply Hu; right; exact K).
      apply F1. intros ->. apply Hu. left; reflexivity.
Qed.

Lemma run_ok V M : family V -> modes_ok (hp_order p) ->
  (forall u, In u (hp_order p) \/ In u (hp_top p) -> sized_at M u) ->
  (forall t q, In t (hp_top p) -> qclass q = tq_am t ->
     nth_error (M t) (qindex (e_o E) q) = Some (Some (V (tq_tag t) q))) ->
  exists M', run E p M (hp_order p) = Some M' /\
    (forall t q, In t am -> qclass q = tq_am t ->
       nth_error (M' t) (qindex (e_o E) q) = Some (Some (V (tq_tag t) q))) /\
    (forall u, ~ In u (hp_order p) -> M' u = M u).
Proof.
  intros HV Hm Hsz Htop.
  destruct (@run_holds V HV (hp_order p) [] M) as [M' [E1 [F H]]]; auto.
  { intros u [[]|Hu] q Hq _. apply Htop; assumption. }
  exists M'. split; [exact E1|]. split; [|exact F].
  intros t q Ht Hq.
  assert (Hr : In t (hp_order p) \/ In t (hp_top p)) by (apply (pl_requested HP), Ht).
  destruct (in_brac_dec _ Hq) as [Qb Qk].
  apply (H t Hr q Hq). split.
  - apply (sp_init (pl_bra HP)). rewrite Qb. unfold classes_bra. apply in_map, Ht.
  - apply (sp_init (pl_ket HP)). rewrite Qk. unfold classes_ket. apply in_map, Ht.
Qed.
End OneClass.

(** ** Plan and code together *)

(** Where the table-driven routines may be chosen the order must be Psi4's and am <= 18. *)
Definition table_ok_for (E : henv) (am : list tqam) : Prop :=
  forall x, In x am -> (dsum (brac x) < e_sg E /\ dsum (ketc x) < e_sg E) \/
                       (e_o E = psi4 /\ dsum (brac x) <= 18 /\ dsum (ketc x) <= 18).

Lemma gen_ok_low E c : dsum c < e_sg E -> gen_ok E c.
Proof.
  intros H. left. unfold emode_of, dsum in *. destruct (_ <? e_se E); [discriminate|].
  apply Nat.ltb_lt in H. rewrite H. discriminate.
Qed.

Lemma plan_modes E am p : plan_ok (e_blf E) (e_klf E) am p ->
  fuel_ok (e_blf E) (e_klf E) am (e_fuel E) -> table_ok_for E am -> modes_ok E (hp_order p).
Proof.
  intros HP Hf Ht t Hin. destruct (pl_bound HP t (or_introl Hin)) as [y [Y1 [_ [Y3 [Y4 [Y5 [Y6 _]]]]]]].
  pose proof (Hf y Y1) as F. split; [lia|]. split; [lia|].
  destruct (Ht y Y1) as [[A B]|[A [B C]]].
  - split; apply gen_ok_low; lia.
  - unfold dsum in *. split; right; (split; [exact A|lia]).
Qed.

(** [top] classes hold the right values, all arrays of the plan have their full size. *)
Definition hrr_pre (E : henv) (p : hplan) (V : nat -> qrt -> R) (M : hmem) : Prop :=
  (forall u, In u (hp_order p) \/ In u (hp_top p) -> length (M u) = qncart (tq_am u)) /\
  (forall t q, In t (hp_top p) -> qclass q = tq_am t ->
     nth_error (M t) (qindex (e_o E) q) = Some (Some (V (tq_tag t) q))).

Definition hrr_post (E : henv) (p : hplan) (am : list tqam) (V : nat -> qrt -> R) (M M' : hmem) : Prop :=
  (forall t q, In t am -> qclass q = tq_am t ->
     nth_error (M' t) (qindex (e_o E) q) = Some (Some (V (tq_tag t) q))) /\
  (forall u, ~ In u (hp_order p) -> M' u = M u).

Lemma hrr_code_correct E enumq am :
  enum_ok (e_enum E) -> enum_ok enumq -> set_enum (e_enumc E) -> starts_x (e_o E) ->
  0 < e_fuel E -> fuel_ok (e_blf E) (e_klf E) am (e_fuel E) -> table_ok_for E am ->
  exists p, hrr_create (e_enum E) enumq (e_o E) (e_blf E) (e_klf E) (e_fuel E) am = Some p /\
    forall V M, family E V -> hrr_pre E p V M ->
      exists M', run E p M (hp_order p) = Some M' /\ hrr_post E p am V M M'.
Proof.
  intros He Hq Hc Hs Hf0 Hf Ht.
  destruct (hrr_create_ok He Hq Hs Hf0 Hf) as [p [Ep HP]].
  exists p. split; [exact Ep|]. intros V M HV [Hsz Htop].
  apply (@run_ok E am p); auto. apply plan_modes with am; assumption.
Qed.
End Exec.
