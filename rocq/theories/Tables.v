(** The shipped ordering tables as orderings; the GAMESS order.
    Sources: generator/Ordering_Psi4.cpp, generator/Ordering_GAMESS.cpp (data in
    OrderData.v), generator/Types.cpp:77-102. *)
From Coq Require Import List Arith Lia ZArith Bool.
Import ListNotations.
From Verif Require Import Base Cart OrderData.
Set Implicit Arguments.

Definition mkg (t : nat * nat * nat) : gauss := let '(x, y, z) := t in G x y z.

(** [gorder_map.at(am)]; [None] is the [out_of_range] exception. *)
Definition tbl_at (tbl : list (list (nat * nat * nat))) (am : nat) : option (list gauss) :=
  match nth_error tbl am with Some l => Some (map mkg l) | None => None end.

Fixpoint nodupb (l : list gauss) : bool :=
  match l with [] => true | x :: t => negb (existsb (gauss_eqb x) t) && nodupb t end.

Lemma nodupb_NoDup l : nodupb l = true -> NoDup l.
Proof.
  induction l as [|x l IH]; intros H; [constructor|]. simpl in H.
  apply andb_true_iff in H as [H1 H2]. constructor; [|apply IH; exact H2].
  intros Hin. apply negb_true_iff in H1.
  assert (existsb (gauss_eqb x) l = true).
  { apply existsb_exists. exists x. split; [exact Hin|apply gauss_eqb_eq; reflexivity]. }
  congruence.
Qed.

Fixpoint zlist_eqb (a b : list Z) : bool :=
  match a, b with
  | [], [] => true
  | x :: a', y :: b' => (x =? y)%Z && zlist_eqb a' b'
  | _, _ => false
  end.

Lemma zlist_eqb_eq a b : zlist_eqb a b = true -> a = b.
Proof.
  revert b; induction a as [|x a IH]; intros [|y b] H; try discriminate; [reflexivity|].
  simpl in H. apply andb_true_iff in H as [H1 H2]. apply Z.eqb_eq in H1.
  f_equal; auto.
Qed.

Definition check_am (tbl : list (list (nat * nat * nat))) (idx : list (list Z)) (am : nat) : bool :=
  match tbl_at tbl am, nth_error idx am with
  | Some l, Some h =>
      nodupb l && (length l =? ncart am) && forallb (fun g => gam g =? am) l
      && zlist_eqb h (map ghash l)
      && match l with g :: _ => gauss_eqb g (G am 0 0) | [] => false end
  | _, _ => false
  end.

Definition check_tbl tbl idx : bool := forallb (check_am tbl idx) (seq 0 25).

Lemma psi4_checks : check_tbl psi4_tbl_order psi4_tbl_index = true.
Proof. vm_compute. reflexivity. Qed.

Lemma gamess_checks : check_tbl gamess_tbl_order gamess_tbl_index = true.
Proof. vm_compute. reflexivity. Qed.

(** What a correct table entry is. *)
Definition table_ok (am : nat) (l : list gauss) (h : list Z) : Prop :=
  NoDup l /\ length l = ncart am /\ (forall g, In g l <-> gam g = am) /\
  (forall g, gam g = am -> exists i, nth_error l i = Some g /\ gaussian_order h g = Some i).

Lemma full_list am (l : list gauss) :
  NoDup l -> length l = ncart am -> (forall g, In g l -> gam g = am) ->
  forall g, gam g = am -> In g l.
Proof.
  intros Hnd Hl Hin g Hg.
  assert (Hi : incl (cart_list am) l).
  { apply NoDup_length_incl; [exact Hnd|rewrite Hl, cart_list_length; lia|].
    intros x Hx. apply in_cart_list. apply Hin; exact Hx. }
  apply Hi. apply in_cart_list. exact Hg.
Qed.

Lemma check_am_sound tbl idx am :
  am < 256 -> check_am tbl idx am = true ->
  exists l h, tbl_at tbl am = Some l /\ nth_error idx am = Some h /\ table_ok am l h /\
              nth_error l 0 = Some (G am 0 0) /\ h = map ghash l.
Proof.
  unfold check_am. intros Ham H.
  destruct (tbl_at tbl am) as [l|]; [|discriminate].
  destruct (nth_error idx am) as [h|]; [|discriminate].
  rewrite !andb_true_iff in H. destruct H as [[[[H1 H2] H3] H4] H5].
  apply nodupb_NoDup in H1. apply Nat.eqb_eq in H2. apply zlist_eqb_eq in H4. subst h.
  assert (Hin : forall g, In g l -> gam g = am).
  { intros g Hg. apply Nat.eqb_eq. apply (forallb_In _ _ _ H3 Hg). }
  assert (Hall : forall g, gam g = am -> In g l) by (apply full_list; assumption).
  exists l, (map ghash l). repeat split; auto.
  - intros g Hg. destruct (In_nth_error _ _ (Hall g Hg)) as [i Hi].
    exists i. split; [exact Hi|]. apply gaussian_order_ok; auto.
    intros k Hk. rewrite (Hin k Hk). exact Ham.
  - destruct l as [|g l]; [discriminate|]. apply gauss_eqb_eq in H5. subst; reflexivity.
Qed.

Lemma tables_ok tbl idx : check_tbl tbl idx = true ->
  forall am, am <= 24 ->
  exists l h, tbl_at tbl am = Some l /\ nth_error idx am = Some h /\ table_ok am l h /\
              nth_error l 0 = Some (G am 0 0) /\ h = map ghash l.
Proof.
  intros H am Ham. apply check_am_sound; [lia|].
  apply (forallb_In _ _ _ H). apply in_seq. lia.
Qed.

(** The Psi4 table is the python output. *)
Fixpoint glist_eqb (a b : list gauss) : bool :=
  match a, b with
  | [], [] => true
  | x :: a', y :: b' => gauss_eqb x y && glist_eqb a' b'
  | _, _ => false
  end.

Lemma glist_eqb_eq a b : glist_eqb a b = true -> a = b.
Proof.
  revert b; induction a as [|x a IH]; intros [|y b] H; try discriminate; [reflexivity|].
  simpl in H. apply andb_true_iff in H as [H1 H2]. apply gauss_eqb_eq in H1.
  f_equal; auto.
Qed.

Definition psi4_same (am : nat) : bool :=
  match tbl_at psi4_tbl_order am with Some l => glist_eqb l (cart_list am) | None => false end.

Lemma psi4_same_all : forallb psi4_same (seq 0 25) = true.
Proof. vm_compute. reflexivity. Qed.

Lemma psi4_tbl_cart am : am <= 24 -> tbl_at psi4_tbl_order am = Some (cart_list am).
Proof.
  intros H. assert (E : psi4_same am = true).
  { apply (forallb_In _ _ _ psi4_same_all). apply in_seq; lia. }
  unfold psi4_same in E. destruct (tbl_at psi4_tbl_order am); [|discriminate].
  apply glist_eqb_eq in E. congruence.
Qed.

(** ** The GAMESS order as an [ordering]
    Within the table (am <= 24); above it the code throws, the model continues with the
    Psi4 list (irrelevant to every use). *)
Definition gamess_list (am : nat) : list gauss :=
  match tbl_at gamess_tbl_order am with
  | Some l => if am <=? 24 then l else cart_list am
  | None => cart_list am
  end.

Lemma gamess_list_ok am :
  NoDup (gamess_list am) /\ length (gamess_list am) = ncart am /\
  (forall g, In g (gamess_list am) <-> gam g = am) /\
  nth_error (gamess_list am) 0 = Some (G am 0 0).
Proof.
  assert (HC : NoDup (cart_list am) /\ length (cart_list am) = ncart am /\
    (forall g, In g (cart_list am) <-> gam g = am) /\
    nth_error (cart_list am) 0 = Some (G am 0 0)).
  { repeat split; try apply NoDup_cart_list; try apply cart_list_length;
      try apply in_cart_list. apply psi4_first. }
  unfold gamess_list. destruct (tbl_at gamess_tbl_order am) as [l|] eqn:E; [|exact HC].
  destruct (Nat.leb_spec am 24) as [L|L]; [|exact HC].
  destruct (@tables_ok _ _ gamess_checks am L) as [l' [h [H1 [_ [H2 [H3 _]]]]]].
  rewrite E in H1. injection H1 as <-. destruct H2 as [A [B [C _]]]. auto.
Qed.

Definition gamess_pos (g : gauss) : nat :=
  match find_pos (gauss_eqb g) (gamess_list (gam g)) with Some i => i | None => 0 end.

Lemma gamess_nth g : nth_error (gamess_list (gam g)) (gamess_pos g) = Some g.
Proof.
  unfold gamess_pos. destruct (gamess_list_ok (gam g)) as [_ [_ [H _]]].
  assert (Hin : In g (gamess_list (gam g))) by (apply H; reflexivity).
  destruct (find_pos (gauss_eqb g) (gamess_list (gam g))) as [i|] eqn:E.
  - apply find_pos_some in E as [x [H1 [H2 _]]]. apply gauss_eqb_eq in H2. congruence.
  - pose proof (find_pos_none _ _ E _ Hin) as H0.
    assert (gauss_eqb g g = true) by (apply gauss_eqb_eq; reflexivity). congruence.
Qed.

Definition gamess : ordering :=
  {| olist := gamess_list; opos := gamess_pos;
     o_len := fun am => proj1 (proj2 (gamess_list_ok am));
     o_nodup := fun am => proj1 (gamess_list_ok am);
     o_in := fun am => proj1 (proj2 (proj2 (gamess_list_ok am)));
     o_nth := gamess_nth |}.

Lemma gamess_starts : starts_x gamess.
Proof. intros am. apply gamess_list_ok. Qed.
Lemma psi4_starts : starts_x psi4.
Proof. intros am. apply psi4_first. Qed.
