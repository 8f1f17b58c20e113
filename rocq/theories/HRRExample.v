(** A concrete instance of the horizontal model, used by the examples of [Prop_HRR]. *)
From Coq Require Import List Arith Lia Bool ZArith.
Import ListNotations.
From Verif Require Import Base Cart Mdir HRRStep HRRAlgo HRROrder RecurData Recur GenHRR HRRExec QList Tables.
Set Implicit Arguments.

(** An order for sets of doublets and quartets. *)
Definition dbl_eq_dec (a b : dbl) : {a = b} + {a <> b}.
Proof. decide equality; apply gauss_eq_dec. Defined.
Lemma nodup_enum A (dec : forall a b : A, {a = b} + {a <> b}) : enum_ok (nodup dec).
Proof. intros l. split; [apply NoDup_nodup|]. intros x. apply nodup_In. Qed.

(** The order of [std::set] of pairs: increasing, without repetition. *)
Definition pmax (l : list (nat * nat)) : nat := list_max (map (fun c => Nat.max (fst c) (snd c)) l).
Definition penum (l : list (nat * nat)) : list (nat * nat) :=
  filter (fun c => inb c l) (list_prod (seq 0 (S (pmax l))) (seq 0 (S (pmax l)))).

Lemma pmax_le l c : In c l -> fst c <= pmax l /\ snd c <= pmax l.
Proof.
  intros H. unfold pmax.
  assert (K : Forall (fun k => k <= pmax l) (map (fun c => Nat.max (fst c) (snd c)) l)).
  { apply list_max_le. unfold pmax. lia. }
  rewrite Forall_forall in K. specialize (K (Nat.max (fst c) (snd c))).
  unfold pmax in K. rewrite in_map_iff in K. assert (Nat.max (fst c) (snd c) <= pmax l).
  { apply K. exists c; auto. } unfold pmax in *. lia.
Qed.

Lemma pmax_incl l l' : incl l l' -> pmax l <= pmax l'.
Proof.
  intros H. unfold pmax at 1. apply list_max_le. apply Forall_forall. intros k Hk.
  apply in_map_iff in Hk as [c [<- Hc]]. destruct (@pmax_le l' c (H c Hc)). lia.
Qed.

Lemma NoDup_prod A B (l : list A) (m : list B) : NoDup l -> NoDup m -> NoDup (list_prod l m).
Proof.
  induction 1 as [|x l Hx Hl IH]; intros Hm; simpl; [constructor|].
  apply NoDup_app_intro.
  - apply FinFun.Injective_map_NoDup; [intros a b E; congruence|exact Hm].
  - apply IH, Hm.
  - intros [a b] H1 H2. apply in_map_iff in H1 as [y [E _]]. injection E as <- <-.
    apply in_prod_iff in H2. tauto.
Qed.

Lemma penum_set : set_enum penum.
Proof.
  split.
  - intros l. split.
    + apply NoDup_filter, NoDup_prod; apply seq_NoDup.
    + intros [a b]. unfold penum. rewrite filter_In, in_prod_iff, !in_seq, inb_In.
      split; [tauto|]. intros H. destruct (@pmax_le l _ H) as [A B]; simpl in *. split; [lia|exact H].
  - intros l l' H. unfold penum.
    assert (E : pmax l = pmax l') by (apply Nat.le_antisymm; apply pmax_incl; intros x; apply H).
    rewrite E. apply filter_ext. intros c.
    destruct (inb c l) eqn:E1, (inb c l') eqn:E2; auto; exfalso.
    + apply inb_In, H, inb_In in E1. congruence.
    + apply inb_In, H, inb_In in E2. congruence.
Qed.

(** Geometry: bra centres at distance u, v from a point, ket centres at s, t. *)
Definition ex_u (d : dir) : Z := match d with DX => 2 | DY => -1 | DZ => 3 end%Z.
Definition ex_v (d : dir) : Z := match d with DX => -1 | DY => 2 | DZ => 5 end%Z.
Definition ex_s (d : dir) : Z := match d with DX => 1 | DY => 4 | DZ => -2 end%Z.
Definition ex_t (d : dir) : Z := match d with DX => 3 | DY => 1 | DZ => 1 end%Z.

Definition ex_env (o : ordering) (se sg : nat) (blf klf : bool) : @henv Zring :=
  @HEnv Zring (nodup dbl_eq_dec) penum o blf klf
        (fun i => ex_v i - ex_u i)%Z (fun i => ex_t i - ex_s i)%Z se sg 12.

(** Two tags carry two different families. *)
Definition ex_V (g : nat) (q : qrt) : Zring :=
  (Z.of_nat (S g) * (point_family ex_u ex_v (bra q) * point_family ex_s ex_t (ket q)))%Z.

Lemma ex_family o se sg blf klf : family (ex_env o se sg blf klf) ex_V.
Proof.
  intros g. split.
  - intros k a b i. unfold ex_V. rewrite !qof_bra, !qof_ket.
    pose proof (@point_family_transfer ex_u ex_v a b i) as H. cbn [car cadd cmul Zring] in H |- *.
    change (@cadd Zring) with Z.add. change (@cmul Zring) with Z.mul. cbn [e_AB e_CD ex_env] in *. rewrite H. ring.
  - intros k a b i. unfold ex_V. rewrite !qof_bra, !qof_ket.
    pose proof (@point_family_transfer ex_s ex_t a b i) as H. cbn [car cadd cmul Zring] in H |- *.
    change (@cadd Zring) with Z.add. change (@cmul Zring) with Z.mul. cbn [e_AB e_CD ex_env] in *. rewrite H. ring.
Qed.

(** Memory holding the top classes, everything else indeterminate. *)
Definition ex_mem (o : ordering) (p : hplan) : @hmem Zring := fun t =>
  if tmem t (hp_top p) then map (fun q => Some (ex_V (tq_tag t) q)) (qtargets o (tq_am t))
  else repeat None (qncart (tq_am t)).

Definition ex_am : list tqam := [TQ 0 (QAM 1 2 1 1); TQ 1 (QAM 1 1 1 0)].

(** Run the model on the example and compare every requested entry. *)
Definition opt_eqb (a b : option Z) : bool :=
  match a, b with Some x, Some y => (x =? y)%Z | None, None => true | _, _ => false end.
Definition ex_check (o : ordering) (se sg : nat) (blf klf : bool) : bool :=
  let E := ex_env o se sg blf klf in
  match hrr_create (e_enum E) (nodup tqam_eq_dec) o blf klf 12 ex_am with
  | None => false
  | Some p =>
    match run E p (ex_mem o p) (hp_order p) with
    | None => false
    | Some M => forallb (fun t => forallb (fun q =>
         match nth_error (M t) (qindex o q) with
         | Some v => opt_eqb v (Some (ex_V (tq_tag t) q)) | None => false end) (qtargets o (tq_am t))) ex_am
    end
  end.

Lemma ex_pre o blf klf se sg p : starts_x o -> hrr_pre (ex_env o se sg blf klf) p ex_V (ex_mem o p).
Proof.
  intros Hs. split.
  - intros u _. unfold ex_mem. destruct (tmem u (hp_top p)).
    + rewrite map_length. apply qtargets_len, Hs.
    + apply repeat_length.
  - intros t q Ht Hq. unfold ex_mem. apply tmem_In in Ht. rewrite Ht.
    rewrite nth_error_map, <- Hq. cbn [e_o ex_env]. rewrite qtargets_nth by exact Hs. reflexivity.
Qed.

(** With the GAMESS order the table-driven routines give a wrong integral. *)
Definition ex_bad_q : qrt := Q4 (G 1 0 0) (G 1 1 0) (G 0 0 0) (G 0 0 0).
Definition ex_bad_am : list tqam := [TQ 0 (QAM 1 2 0 0)].
Definition ex_bad_value : option Z :=
  let E := ex_env gamess 0 0 false false in
  match hrr_create (e_enum E) (nodup tqam_eq_dec) gamess false false 12 ex_bad_am with
  | None => None
  | Some p =>
    match run E p (ex_mem gamess p) (hp_order p) with
    | None => None
    | Some M => match nth_error (M (TQ 0 (QAM 1 2 0 0))) (qindex gamess ex_bad_q) with
                | Some v => v | None => None end
    end
  end.

Lemma gamess_general_wrong :
  exists (E : @henv Zring) enumq am p V M M' t q v,
    e_o E = gamess /\ enum_ok (e_enum E) /\ enum_ok enumq /\ set_enum (e_enumc E) /\
    fuel_ok (e_blf E) (e_klf E) am (e_fuel E) /\
    hrr_create (e_enum E) enumq (e_o E) (e_blf E) (e_klf E) (e_fuel E) am = Some p /\
    family E V /\ hrr_pre E p V M /\ run E p M (hp_order p) = Some M' /\
    In t am /\ qclass q = tq_am t /\
    nth_error (M' t) (qindex (e_o E) q) = Some (Some v) /\ v <> V (tq_tag t) q.
Proof.
  set (E := ex_env gamess 0 0 false false).
  assert (Hb : ex_bad_value = Some 20%Z) by (vm_compute; reflexivity).
  unfold ex_bad_value in Hb. fold E in Hb. cbv zeta in Hb.
  destruct (hrr_create (e_enum E) (nodup tqam_eq_dec) gamess false false 12 ex_bad_am) as [p|] eqn:Ep; [|discriminate].
  destruct (run E p (ex_mem gamess p) (hp_order p)) as [M'|] eqn:Er; [|discriminate].
  destruct (nth_error (M' (TQ 0 (QAM 1 2 0 0))) (qindex gamess ex_bad_q)) as [v|] eqn:Ev; [|discriminate].
  subst v.
  exists E, (nodup tqam_eq_dec), ex_bad_am, p, ex_V, (ex_mem gamess p), M', (TQ 0 (QAM 1 2 0 0)), ex_bad_q, 20%Z.
  split; [reflexivity|]. split; [apply nodup_enum|]. split; [apply nodup_enum|]. split; [apply penum_set|].
  split; [intros x [<-|[]]; vm_compute; lia|].
  split; [exact Ep|]. split; [apply ex_family|]. split; [apply ex_pre, gamess_starts|].
  split; [exact Er|]. split; [left; reflexivity|]. split; [reflexivity|]. split; [exact Ev|].
  vm_compute. discriminate.
Qed.

Lemma ex_hyps se sg blf klf : sg = 20 \/ sg = 0 ->
  let E := ex_env psi4 se sg blf klf in
  enum_ok (e_enum E) /\ enum_ok (nodup tqam_eq_dec) /\ set_enum (e_enumc E) /\ starts_x (e_o E) /\
  0 < e_fuel E /\ fuel_ok blf klf ex_am (e_fuel E) /\ table_ok_for E ex_am /\ family E ex_V /\
  (forall p, hrr_pre E p ex_V (ex_mem psi4 p)).
Proof.
  intros Hsg E. split; [apply nodup_enum|]. split; [apply nodup_enum|]. split; [apply penum_set|].
  split; [exact psi4_starts|]. split; [simpl; lia|].
  split; [intros x Hx; destruct blf, klf, Hx as [<-|[<-|[]]]; vm_compute; lia|].
  split.
  { intros x Hx. destruct Hsg as [-> | ->]; [left|right]; destruct Hx as [<-|[<-|[]]]; simpl; try (split; [reflexivity|]); unfold dsum; simpl; lia. }
  split; [apply ex_family|]. intros p. apply ex_pre, psi4_starts.
Qed.

