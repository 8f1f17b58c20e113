(** The comparison operators of the generator's types and the sets built with them.
    Source: generator/Types.hpp:59-67, 86-94 (QAM), 113-121 (DAM), 296-312 (Gaussian), 439-470 (Doublet),
    520-558 (Quartet), generator/ostei/OSTEI_Types.hpp:20-38, 60-78 (steps), generator/Types.cpp:16-104.

    An [int] is an integer without bounds; exponents are not negative (quartets with negative ones are never
    put into a set).  A comparison that looks up the place of a component throws if the momentum is not in
    [gindex_map] or the component is not in its list; [None] is the exception.  [std::set] is given by what
    the language says about it: elements in increasing order, a new element goes in unless one is there that
    is neither smaller nor larger; the tree and the order of the comparisons are not modelled. *)
From Coq Require Import List Arith Lia Bool ZArith String Ascii Permutation Sorted.
Import ListNotations.
From Verif Require Import Base Cart Tables OrderData QList HRRAlgo HRRExec VRRAlgo Naming.
Set Implicit Arguments.
Local Open Scope nat_scope.

(** ** The operators *)
(** [std::string::operator<]: the first character that differs decides, else the length. *)
Fixpoint str_lt (s t : string) : bool :=
  match s, t with
  | _, EmptyString => false
  | EmptyString, String _ _ => true
  | String a s', String b t' =>
    if nat_of_ascii a <? nat_of_ascii b then true
    else if nat_of_ascii a =? nat_of_ascii b then str_lt s' t' else false
  end.
(** [std::array<int, N>::operator<], on lists of the same length. *)
Fixpoint arr_lt (a b : list Z) : bool :=
  match a, b with
  | _, [] => false
  | [], _ :: _ => true
  | x :: a', y :: b' => if (x <? y)%Z then true else if (x =? y)%Z then arr_lt a' b' else false
  end.
Definition arr_eqb (a b : list Z) : bool := if list_eq_dec Z.eq_dec a b then true else false.

(** [QAM] and [DAM] (arrays of 4 and 2 numbers) with their operators, Types.hpp:40-69, 86-94, 101-121. *)
Record tam := TA { ta_am : list Z; ta_tag : string }.
Definition tam_less (p q : tam) : bool :=
  if arr_lt (ta_am p) (ta_am q) then true
  else if arr_eqb (ta_am p) (ta_am q) then str_lt (ta_tag p) (ta_tag q)
  else false.
Definition tam_eq (p q : tam) : bool := arr_eqb (ta_am p) (ta_am q) && String.eqb (ta_tag p) (ta_tag q).

(** [struct Doublet] and [struct Quartet] with all members, Types.hpp:406-411, 482-487. *)
Record tdbl := TD { td_type : dtype; td_left : gauss; td_right : gauss; td_tag : string }.
Record tqrt := TQt { tq_bra : tdbl; tq_ket : tdbl; tq_m : Z; tq_text : string }.
Definition type_eqb (a b : dtype) : bool := match a, b with BRA, BRA | KET, KET => true | _, _ => false end.
Definition td_am (d : tdbl) : nat := gam (td_left d) + gam (td_right d).
Definition tq_total (q : tqrt) : nat := td_am (tq_bra q) + td_am (tq_ket q).

(** [index()], Types.hpp:276, Types.cpp:77-89; [tab]: [gindex_map], the hashes per momentum. *)
Definition g_index (tab : nat -> option (list Z)) (g : gauss) : option nat :=
  match tab (gam g) with Some v => gaussian_order v g | None => None end.
Section Less.
Variable idx : gauss -> option nat.
(** Types.hpp:296-304. *)
Definition g_less (a b : gauss) : option bool :=
  if gam a <? gam b then Some true
  else if gam a =? gam b
  then match idx a with
       | Some i => match idx b with Some j => Some (i <? j) | None => None end
       | None => None
       end
  else Some false.
(** Types.hpp:439-460. *)
Definition d_less (a b : tdbl) : option bool :=
  if td_am a <? td_am b then Some true
  else if td_am a =? td_am b
  then match g_less (td_left a) (td_left b) with
       | None => None
       | Some true => Some true
       | Some false =>
         if gauss_eqb (td_left a) (td_left b)
         then match g_less (td_right a) (td_right b) with
              | None => None
              | Some true => Some true
              | Some false =>
                if gauss_eqb (td_right a) (td_right b) then Some (str_lt (td_tag a) (td_tag b)) else Some false
              end
         else Some false
       end
  else Some false.
(** Types.hpp:462-468. *)
Definition d_eq (a b : tdbl) : bool :=
  gauss_eqb (td_left a) (td_left b) && gauss_eqb (td_right a) (td_right b) &&
  type_eqb (td_type a) (td_type b) && String.eqb (td_tag a) (td_tag b).
(** Types.hpp:520-547. *)
Definition q_less (a b : tqrt) : option bool :=
  if tq_total a <? tq_total b then Some true
  else if tq_total a =? tq_total b
  then match d_less (tq_bra a) (tq_bra b) with
       | None => None
       | Some true => Some true
       | Some false =>
         if d_eq (tq_bra a) (tq_bra b)
         then match d_less (tq_ket a) (tq_ket b) with
              | None => None
              | Some true => Some true
              | Some false =>
                if d_eq (tq_ket a) (tq_ket b)
                then if (tq_m a <? tq_m b)%Z then Some true
                     else if (tq_m a =? tq_m b)%Z then Some (str_lt (tq_text a) (tq_text b)) else Some false
                else Some false
              end
         else Some false
       end
  else Some false.
(** Types.hpp:549-552: the tag is not compared. *)
Definition q_eq (a b : tqrt) : bool :=
  d_eq (tq_bra a) (tq_bra b) && d_eq (tq_ket a) (tq_ket b) && (tq_m a =? tq_m b)%Z.
End Less.

(** ** Sets *)
Section Set_.
Variables (A : Type) (less : A -> A -> option bool).
Fixpoint insert (x : A) (l : list A) : option (list A) :=
  match l with
  | [] => Some [x]
  | y :: r =>
    match less x y with
    | None => None
    | Some true => Some (x :: y :: r)
    | Some false =>
      match less y x with
      | None => None
      | Some true => option_map (cons y) (insert x r)
      | Some false => Some (y :: r)
      end
    end
  end.
(** The elements in the order of the iterators after inserting those of [l] one after another. *)
Fixpoint insert_all (l s : list A) : option (list A) :=
  match l with
  | [] => Some s
  | x :: r => match insert x s with Some s' => insert_all r s' | None => None end
  end.
Definition set_of (l : list A) : option (list A) := insert_all l [].
End Set_.

(** ** What an order is *)
Definition orders A (P : A -> Prop) (less : A -> A -> option bool) : Prop :=
  (forall a b, P a -> P b -> less a b <> None) /\
  (forall a, P a -> less a a = Some false) /\
  (forall a b c, P a -> P b -> P c -> less a b = Some true -> less b c = Some true -> less a c = Some true) /\
  (forall a b, P a -> P b -> less a b = Some false -> less b a = Some false -> a = b).
Definition increasing A (less : A -> A -> option bool) (l : list A) : Prop :=
  StronglySorted (fun a b => less a b = Some true) l.

(** [known idx o B]: [idx] gives the places of the order [o] for the momenta [B]. *)
Definition known (idx : gauss -> option nat) (o : ordering) (B : nat -> Prop) : Prop :=
  forall g, B (gam g) -> idx g = Some (opos o g).
Definition d_in (B : nat -> Prop) (d : tdbl) : Prop := B (gam (td_left d)) /\ B (gam (td_right d)).
Definition q_in (B : nat -> Prop) (q : tqrt) : Prop := d_in B (tq_bra q) /\ d_in B (tq_ket q).
(** Doublets of one type; quartets with a bra in the bra and a ket in the ket. *)
Definition d_typed (ty : dtype) (B : nat -> Prop) (d : tdbl) : Prop := td_type d = ty /\ d_in B d.
Definition q_typed (B : nat -> Prop) (q : tqrt) : Prop := td_type (tq_bra q) = BRA /\ td_type (tq_ket q) = KET /\ q_in B q.
(** [gindex_map] as written for the two orders (OrderData.v). *)
Definition psi4_tab (am : nat) : option (list Z) := nth_error psi4_tbl_index am.
Definition gamess_tab (am : nat) : option (list Z) := nth_error gamess_tbl_index am.
(** Places for every momentum. *)
Definition places (o : ordering) (g : gauss) : option nat := Some (opos o g).

(** ** Orders made of parts *)
Section Lex.
Variable A : Type.
(** [R]: what earlier parts of a comparison leave equal. *)
Definition orders_in (R : A -> A -> Prop) (less : A -> A -> option bool) : Prop :=
  (forall a b, R a b -> less a b <> None) /\
  (forall a, R a a -> less a a = Some false) /\
  (forall a b c, R a b -> R b c -> R a c -> less a b = Some true -> less b c = Some true -> less a c = Some true) /\
  (forall a b, R a b -> R b a -> less a b = Some false -> less b a = Some false -> a = b).
Definition lex (X : Type) (f : A -> X) (first : X -> X -> option bool) (eqb : X -> X -> bool) (rest : A -> A -> option bool) (a b : A) : option bool :=
  match first (f a) (f b) with
  | None => None
  | Some true => Some true
  | Some false => if eqb (f a) (f b) then rest a b else Some false
  end.
Lemma lex_orders X (f : A -> X) (PX : X -> Prop) first eqb rest (R : A -> A -> Prop) :
  orders PX first -> (forall x y, PX x -> PX y -> (eqb x y = true <-> x = y)) ->
  (forall a b, R a b -> PX (f a) /\ PX (f b)) ->
  orders_in (fun a b => R a b /\ f a = f b) rest -> orders_in R (lex f first eqb rest).
Proof.
  intros (D & I & T & E) Q H (D' & I' & T' & E'). unfold lex. split; [|split; [|split]].
  - intros a b R1. destruct (H _ _ R1) as [P1 P2]. destruct (first (f a) (f b)) as [[]|] eqn:F.
    + discriminate.
    + destruct (eqb (f a) (f b)) eqn:G; [|discriminate]. apply D'. split; [exact R1|]. apply (Q _ _ P1 P2), G.
    + exfalso. apply (D _ _ P1 P2 F).
  - intros a R1. destruct (H _ _ R1) as [P1 _]. rewrite (I _ P1). rewrite (proj2 (Q _ _ P1 P1) eq_refl).
    apply I'. split; [exact R1|reflexivity].
  - intros a b c R1 R2 R3. destruct (H _ _ R1) as [P1 P2], (H _ _ R2) as [_ P3].
    destruct (first (f a) (f b)) as [[]|] eqn:F; [| |discriminate].
    + intros _. destruct (first (f b) (f c)) as [[]|] eqn:G; [| |discriminate].
      * intros _. rewrite (T _ _ _ P1 P2 P3 F G). reflexivity.
      * destruct (eqb (f b) (f c)) eqn:K; [|discriminate]. apply (Q _ _ P2 P3) in K. intros _. rewrite <- K, F. reflexivity.
    + destruct (eqb (f a) (f b)) eqn:K; [|discriminate]. apply (Q _ _ P1 P2) in K. intros L1.
      rewrite K. destruct (first (f b) (f c)) as [[]|] eqn:G; [intros _; reflexivity| |discriminate].
      destruct (eqb (f b) (f c)) eqn:K2; [|discriminate]. apply (Q _ _ P2 P3) in K2. intros L2.
      apply (T' a b c); try (split; assumption); try assumption. split; [exact R3|congruence].
  - intros a b R1 R2. destruct (H _ _ R1) as [P1 P2].
    destruct (first (f a) (f b)) as [[]|] eqn:F; [discriminate| |discriminate].
    destruct (eqb (f a) (f b)) eqn:K.
    + apply (Q _ _ P1 P2) in K. intros L1. rewrite <- K, (I _ P1), (proj2 (Q _ _ P1 P1) eq_refl). intros L2.
      apply E'; try assumption; split; auto.
    + intros _. destruct (first (f b) (f a)) as [[]|] eqn:G; [discriminate| |discriminate].
      pose proof (E _ _ P1 P2 F G) as Z. apply (Q _ _ P1 P2) in Z. congruence.
Qed.
Lemma key_orders X (f : A -> X) (PX : X -> Prop) less (R : A -> A -> Prop) :
  orders PX less -> (forall a b, R a b -> PX (f a) /\ PX (f b)) -> (forall a b, R a b -> f a = f b -> a = b) ->
  orders_in R (fun a b => less (f a) (f b)).
Proof.
  intros (D & I & T & E) H J. split; [|split; [|split]].
  - intros a b R1. destruct (H _ _ R1). apply D; assumption.
  - intros a R1. destruct (H _ _ R1). apply I; assumption.
  - intros a b c R1 R2 R3. destruct (H _ _ R1), (H _ _ R2). apply T; assumption.
  - intros a b R1 R2 L1 L2. destruct (H _ _ R1). apply (J _ _ R1), E; assumption.
Qed.
Lemma orders_in_P (P : A -> Prop) less : orders_in (fun a b => P a /\ P b) less -> orders P less.
Proof.
  intros (D & I & T & E). split; [|split; [|split]].
  - intros a b Ha Hb. apply D. auto.
  - intros a Ha. apply I. auto.
  - intros a b c Ha Hb Hc. apply T; auto.
  - intros a b Ha Hb. apply E; auto.
Qed.
Lemma orders_in_eq (R : A -> A -> Prop) less less' : (forall a b, R a b -> less a b = less' a b) ->
  orders_in R less -> orders_in R less'.
Proof.
  intros Q (D & I & T & E). split; [|split; [|split]].
  - intros a b H. rewrite <- Q by exact H. apply D, H.
  - intros a H. rewrite <- Q by exact H. apply I, H.
  - intros a b c H1 H2 H3. rewrite <- !Q by assumption. apply T; assumption.
  - intros a b H1 H2. rewrite <- !Q by assumption. apply E; assumption.
Qed.
End Lex.
Lemma orders_nat : orders (fun _ : nat => True) (fun a b => Some (a <? b)).
Proof.
  split; [|split; [|split]]; intros; try discriminate.
  - rewrite Nat.ltb_irrefl. reflexivity.
  - injection H2 as H2. injection H3 as H3. apply Nat.ltb_lt in H2, H3. f_equal. apply Nat.ltb_lt. lia.
  - injection H1 as H1. injection H2 as H2. apply Nat.ltb_ge in H1, H2. lia.
Qed.
Lemma orders_Z : orders (fun _ : Z => True) (fun a b => Some (a <? b)%Z).
Proof.
  split; [|split; [|split]]; intros; try discriminate.
  - rewrite Z.ltb_irrefl. reflexivity.
  - injection H2 as H2. injection H3 as H3. apply Z.ltb_lt in H2, H3. f_equal. apply Z.ltb_lt. lia.
  - injection H1 as H1. injection H2 as H2. apply Z.ltb_ge in H1, H2. lia.
Qed.
Lemma nat_of_ascii_inj a b : nat_of_ascii a = nat_of_ascii b -> a = b.
Proof. intros H. rewrite <- (ascii_nat_embedding a), <- (ascii_nat_embedding b). congruence. Qed.
Lemma str_irr s : str_lt s s = false.
Proof. induction s as [|a s IH]; cbn [str_lt]; [reflexivity|]. rewrite Nat.ltb_irrefl, Nat.eqb_refl. exact IH. Qed.
Lemma str_trans : forall s t u, str_lt s t = true -> str_lt t u = true -> str_lt s u = true.
Proof.
  induction s as [|a s IH]; intros [|b t] [|c u]; cbn [str_lt]; try discriminate; try reflexivity.
  destruct (Nat.ltb_spec (nat_of_ascii a) (nat_of_ascii b)), (Nat.eqb_spec (nat_of_ascii a) (nat_of_ascii b)),
    (Nat.ltb_spec (nat_of_ascii b) (nat_of_ascii c)), (Nat.eqb_spec (nat_of_ascii b) (nat_of_ascii c)),
    (Nat.ltb_spec (nat_of_ascii a) (nat_of_ascii c)), (Nat.eqb_spec (nat_of_ascii a) (nat_of_ascii c));
    try discriminate; try reflexivity; try lia. apply IH.
Qed.
Lemma str_total : forall s t, str_lt s t = false -> str_lt t s = false -> s = t.
Proof.
  induction s as [|a s IH]; intros [|b t]; cbn [str_lt]; try discriminate; try reflexivity.
  destruct (Nat.ltb_spec (nat_of_ascii a) (nat_of_ascii b)), (Nat.eqb_spec (nat_of_ascii a) (nat_of_ascii b)),
    (Nat.ltb_spec (nat_of_ascii b) (nat_of_ascii a)), (Nat.eqb_spec (nat_of_ascii b) (nat_of_ascii a));
    try discriminate; try lia. intros H3 H4. f_equal; [apply nat_of_ascii_inj; assumption|apply IH; assumption].
Qed.
Lemma orders_str : orders (fun _ : string => True) (fun a b => Some (str_lt a b)).
Proof.
  split; [|split; [|split]]; intros; try discriminate.
  - rewrite str_irr. reflexivity.
  - injection H2 as H2. injection H3 as H3. f_equal. apply (str_trans _ _ _ H2 H3).
  - injection H1 as H1. injection H2 as H2. apply (str_total _ _ H1 H2).
Qed.
Lemma orders_arr n : orders (fun l : list Z => List.length l = n) (fun a b => Some (arr_lt a b)).
Proof.
  split; [discriminate|]. split; [|split].
  - intros a _. f_equal. induction a as [|x a IH]; cbn [arr_lt]; [reflexivity|]. rewrite Z.ltb_irrefl, Z.eqb_refl. exact IH.
  - induction n as [|n IH]; intros [|x a] [|y b] [|z c] Ha Hb Hc; try discriminate; cbn [arr_lt].
    destruct (Z.ltb_spec x y), (Z.eqb_spec x y), (Z.ltb_spec y z), (Z.eqb_spec y z), (Z.ltb_spec x z), (Z.eqb_spec x z);
      try discriminate; try reflexivity; try lia.
    apply (IH a b c); [injection Ha as Ha|injection Hb as Hb|injection Hc as Hc]; assumption.
  - induction n as [|n IH]; intros [|x a] [|y b] Ha Hb; try discriminate; [reflexivity|]. cbn [arr_lt].
    destruct (Z.ltb_spec x y), (Z.eqb_spec x y), (Z.ltb_spec y x), (Z.eqb_spec y x); try discriminate; try lia.
    intros H3 H4. f_equal; [assumption|]. apply (IH a b); [injection Ha as Ha|injection Hb as Hb| |]; assumption.
Qed.
Lemma arr_eqb_eq a b : arr_eqb a b = true <-> a = b.
Proof. unfold arr_eqb. destruct (list_eq_dec Z.eq_dec a b); split; auto; discriminate. Qed.

Theorem tam_orders n : orders (fun p => List.length (ta_am p) = n) (fun a b => Some (tam_less a b)).
Proof.
  apply orders_in_P.
  apply orders_in_eq with (less := lex ta_am (fun a b => Some (arr_lt a b)) arr_eqb (fun a b => Some (str_lt (ta_tag a) (ta_tag b)))).
  { intros a b _. unfold lex, tam_less. cbv beta. destruct (arr_lt (ta_am a) (ta_am b)), (arr_eqb (ta_am a) (ta_am b)); reflexivity. }
  apply (@lex_orders tam (list Z) ta_am (fun l => List.length l = n)); [apply orders_arr|intros; apply arr_eqb_eq|auto|].
  apply (@key_orders tam string ta_tag (fun _ => True) (fun a b => Some (str_lt a b))); [apply orders_str|auto|].
  intros [x s] [y t]. cbn. intros [_ ->] ->. reflexivity.
Qed.
Theorem tam_eq_ok p q : tam_eq p q = true <-> p = q.
Proof.
  unfold tam_eq. rewrite andb_true_iff, arr_eqb_eq, String.eqb_eq. destruct p, q; cbn. split; [intros [-> ->]; reflexivity|].
  intros E. injection E as -> ->. auto.
Qed.

Section Tables.
Variables (idx : gauss -> option nat) (o : ordering) (B : nat -> Prop).
Hypothesis HM : known idx o B.
Theorem g_orders : orders (fun g => B (gam g)) (g_less idx).
Proof.
  apply orders_in_P.
  apply orders_in_eq with (less := lex gam (fun a b => Some (a <? b)) Nat.eqb (fun a b => Some (opos o a <? opos o b))).
  { intros a b [Ha Hb]. unfold lex, g_less. rewrite (HM _ Ha), (HM _ Hb). destruct (gam a <? gam b); reflexivity. }
  apply (@lex_orders gauss nat gam (fun _ => True)); [apply orders_nat|intros; apply Nat.eqb_eq|auto|].
  apply (@key_orders gauss nat (opos o) (fun _ => True) (fun a b => Some (a <? b))); [apply orders_nat|auto|].
  intros a b [_ E] F. apply (opos_inj o _ _ E F).
Qed.
Lemma d_less_lex a b : d_less idx a b =
  lex td_am (fun a b => Some (a <? b)) Nat.eqb (lex td_left (g_less idx) gauss_eqb (lex td_right (g_less idx) gauss_eqb
    (fun a b => Some (str_lt (td_tag a) (td_tag b))))) a b.
Proof. unfold lex, d_less. destruct (td_am a <? td_am b); reflexivity. Qed.
Theorem d_orders ty : orders (d_typed ty B) (d_less idx).
Proof.
  apply orders_in_P.
  eapply orders_in_eq; [intros a b _; symmetry; apply d_less_lex|].
  apply (@lex_orders tdbl nat td_am (fun _ => True)); [apply orders_nat|intros; apply Nat.eqb_eq|auto|].
  apply (@lex_orders tdbl gauss td_left (fun g => B (gam g))); [apply g_orders|intros; apply gauss_eqb_eq| |].
  { intros a b (((_ & L & _) & (_ & L' & _)) & _). auto. }
  apply (@lex_orders tdbl gauss td_right (fun g => B (gam g))); [apply g_orders|intros; apply gauss_eqb_eq| |].
  { intros a b ((((_ & _ & L) & (_ & _ & L')) & _) & _). auto. }
  apply (@key_orders tdbl string td_tag (fun _ => True) (fun a b => Some (str_lt a b))); [apply orders_str|auto|].
  intros [t l r s] [t' l' r' s']. cbn. intros (((((H1 & _) & (H2 & _)) & _) & ->) & ->) ->. cbn in *. congruence.
Qed.
Lemma type_eqb_eq a b : type_eqb a b = true <-> a = b.
Proof. destruct a, b; cbn; split; intros; auto; discriminate. Qed.
Lemma d_eq_ok a b : d_eq a b = true <-> a = b.
Proof.
  unfold d_eq. rewrite !andb_true_iff, !gauss_eqb_eq, type_eqb_eq, String.eqb_eq. destruct a, b; cbn. split.
  - intros [[[-> ->] ->] ->]. reflexivity.
  - intros E. injection E as -> -> -> ->. auto.
Qed.
(** [==] of quartets: everything but the tag. *)
Lemma q_eq_ok a b : q_eq a b = true <-> tq_bra a = tq_bra b /\ tq_ket a = tq_ket b /\ tq_m a = tq_m b.
Proof. unfold q_eq. rewrite !andb_true_iff, !d_eq_ok, Z.eqb_eq. tauto. Qed.
Lemma q_less_lex a b : q_less idx a b =
  lex tq_total (fun a b => Some (a <? b)) Nat.eqb (lex tq_bra (d_less idx) d_eq (lex tq_ket (d_less idx) d_eq
    (lex tq_m (fun a b => Some (a <? b)%Z) Z.eqb (fun a b => Some (str_lt (tq_text a) (tq_text b)))))) a b.
Proof.
  unfold lex, q_less. destruct (tq_total a <? tq_total b); reflexivity.
Qed.
Theorem q_orders : orders (q_typed B) (q_less idx).
Proof.
  apply orders_in_P.
  eapply orders_in_eq; [intros a b _; symmetry; apply q_less_lex|].
  apply (@lex_orders tqrt nat tq_total (fun _ => True)); [apply orders_nat|intros; apply Nat.eqb_eq|auto|].
  apply (@lex_orders tqrt tdbl tq_bra (d_typed BRA B)); [apply d_orders|intros; apply d_eq_ok| |].
  { intros a b (((A1 & A2 & A3 & A4) & (B1 & B2 & B3 & B4)) & _). split; split; assumption. }
  apply (@lex_orders tqrt tdbl tq_ket (d_typed KET B)); [apply d_orders|intros; apply d_eq_ok| |].
  { intros a b ((((A1 & A2 & A3 & A4) & (B1 & B2 & B3 & B4)) & _) & _). split; split; assumption. }
  apply (@lex_orders tqrt Z tq_m (fun _ => True)); [apply orders_Z|intros; apply Z.eqb_eq|auto|].
  apply (@key_orders tqrt string tq_text (fun _ => True) (fun a b => Some (str_lt a b))); [apply orders_str|auto|].
  intros [b k m s] [b' k' m' s']. cbn. intros ((((_ & _) & ->) & ->) & ->) ->. reflexivity.
Qed.
End Tables.

(** ** Sets of an order *)
Section SetProof.
Variables (A : Type) (P : A -> Prop) (less : A -> A -> option bool).
Hypothesis O : orders P less.
Lemma insert_ok x : forall l, P x -> Forall P l -> increasing less l ->
  exists s, insert less x l = Some s /\ increasing less s /\ Forall P s /\ forall y, In y s <-> y = x \/ In y l.
Proof.
  destruct O as (D & I & T & E). intros l Hx. induction l as [|y r IH]; intros F S; cbn [insert].
  - exists [x]. split; [reflexivity|]. split; [repeat constructor|]. split; [repeat constructor; exact Hx|].
    intros z. cbn. split; intros [H|H]; auto.
  - inversion F as [|? ? Py Fr]; subst. inversion S as [|? ? Sr Hy]; subst.
    destruct (less x y) as [[]|] eqn:L.
    + exists (x :: y :: r). split; [reflexivity|]. split; [|split; [constructor; assumption|intros z; cbn; split; intros [H|H]; auto]].
      constructor; [exact S|]. constructor; [exact L|]. apply Forall_forall. intros z Hz.
      apply (T x y z); auto; [eapply Forall_forall in Fr; eauto|eapply Forall_forall in Hy; eauto].
    + destruct (less y x) as [[]|] eqn:L2.
      * destruct (IH Fr Sr) as (s & -> & S' & F' & In'). exists (y :: s). split; [reflexivity|]. split; [|split; [constructor; assumption|]].
        { constructor; [exact S'|]. apply Forall_forall. intros z Hz. apply In' in Hz as [->|Hz]; [exact L2|].
          eapply Forall_forall in Hy; eauto. }
        intros z. cbn. rewrite In'. tauto.
      * pose proof (E x y Hx Py L L2) as <-. exists (x :: r). split; [reflexivity|]. split; [exact S|]. split; [exact F|].
        intros z. cbn. split; [auto|]. intros [->|H]; auto.
      * exfalso. apply (D y x Py Hx L2).
    + exfalso. apply (D x y Hx Py L).
Qed.
Lemma insert_all_ok : forall l s, Forall P l -> Forall P s -> increasing less s ->
  exists t, insert_all less l s = Some t /\ increasing less t /\ Forall P t /\ forall y, In y t <-> In y l \/ In y s.
Proof.
  induction l as [|x l IH]; intros s F G S; cbn [insert_all].
  - exists s. split; [reflexivity|]. split; [exact S|]. split; [exact G|]. intros y; cbn; tauto.
  - inversion F as [|? ? Px Fl]; subst. destruct (insert_ok Px G S) as (s' & -> & S' & G' & H').
    destruct (IH s' Fl G' S') as (t & E & St & Gt & Ht). exists t. split; [exact E|]. split; [exact St|]. split; [exact Gt|].
    intros y. rewrite Ht, H'. cbn. split; [intros [?|[->|?]]|intros [[->|?]|?]]; auto.
Qed.
Lemma increasing_nodup l : Forall P l -> increasing less l -> NoDup l.
Proof.
  destruct O as (_ & I & _). intros F S. induction S as [|x l S IH H]; constructor.
  - intros Hx. eapply Forall_forall in H; [|exact Hx]. inversion F; subst. rewrite I in H by assumption. discriminate.
  - apply IH. inversion F; assumption.
Qed.
Lemma increasing_unique : forall l m, Forall P l -> Forall P m -> increasing less l -> increasing less m ->
  (forall x, In x l <-> In x m) -> l = m.
Proof.
  destruct O as (D & I & T & E).
  induction l as [|x l IH]; intros [|y m] F G S R H.
  { reflexivity. }
  { destruct (proj2 (H y) (or_introl eq_refl)). }
  { destruct (proj1 (H x) (or_introl eq_refl)). }
  inversion F as [|? ? Px Fl]; subst. inversion G as [|? ? Py Gm]; subst.
  inversion S as [|? ? Sl Hx]; subst. inversion R as [|? ? Rm Hy]; subst.
  assert (EQ : x = y).
  { destruct (proj1 (H x) (or_introl eq_refl)) as [->|Hin]; [reflexivity|].
    destruct (proj2 (H y) (or_introl eq_refl)) as [->|Hin2]; [reflexivity|].
    eapply Forall_forall in Hy; [|exact Hin]. eapply Forall_forall in Hx; [|exact Hin2].
    pose proof (T x y x Px Py Px Hx Hy) as Z. rewrite I in Z by exact Px. discriminate. }
  subst y. f_equal. apply IH; auto. intros z. split; intros Hz.
  - destruct (proj1 (H z) (or_intror Hz)) as [->|?]; [|assumption]. eapply Forall_forall in Hx; [|exact Hz].
    rewrite I in Hx by exact Px. discriminate.
  - destruct (proj2 (H z) (or_intror Hz)) as [->|?]; [|assumption]. eapply Forall_forall in Hy; [|exact Hz].
    rewrite I in Hy by exact Px. discriminate.
Qed.
Theorem set_of_ok l : Forall P l -> exists s, set_of less l = Some s /\ NoDup s /\ increasing less s /\ forall x, In x s <-> In x l.
Proof.
  intros F. destruct (insert_all_ok F (Forall_nil _) (SSorted_nil _)) as (s & E & S & G & H). exists s.
  split; [exact E|]. split; [apply (increasing_nodup G S)|]. split; [exact S|]. intros x. rewrite H. cbn. tauto.
Qed.
Theorem set_of_unique l m : Forall P l -> Forall P m -> (forall x, In x l <-> In x m) -> set_of less l = set_of less m.
Proof.
  intros F G H. destruct (insert_all_ok F (Forall_nil _) (SSorted_nil _)) as (s & E & S & Fs & Hs).
  destruct (insert_all_ok G (Forall_nil _) (SSorted_nil _)) as (t & E' & S' & Ft & Ht). unfold set_of. rewrite E, E'. f_equal.
  apply increasing_unique; auto. intros x. rewrite Hs, Ht. cbn. rewrite H. tauto.
Qed.
End SetProof.

(** ** The sets of the generator *)
Lemma known_tab tab o M : M < 256 -> (forall am, am <= M -> tab am = Some (map ghash (olist o am))) ->
  known (g_index tab) o (fun am => am <= M).
Proof.
  intros HM T g H. unfold g_index. rewrite (T _ H). apply gaussian_order_ok; [apply (o_nodup o)| |apply (o_nth o)].
  intros h Hh. apply (o_in o) in Hh. lia.
Qed.
Lemma known_psi4 : known (g_index psi4_tab) psi4 (fun am => am <= 24).
Proof.
  apply known_tab; [lia|]. intros am H. destruct (@tables_ok _ _ psi4_checks am H) as (l & h & H1 & H2 & _ & _ & ->).
  rewrite (psi4_tbl_cart H) in H1. injection H1 as <-. exact H2.
Qed.
Lemma known_gamess : known (g_index gamess_tab) gamess (fun am => am <= 24).
Proof.
  apply known_tab; [lia|]. intros am H. destruct (@tables_ok _ _ gamess_checks am H) as (l & h & H1 & H2 & _ & _ & ->).
  cbn [olist gamess]. unfold gamess_list. rewrite H1, (proj2 (Nat.leb_le _ _) H). exact H2.
Qed.
Lemma known_places o : known (places o) o (fun _ => True).
Proof. intros g _. reflexivity. Qed.

(** Elements with a name: the comparison of the names. *)
Definition by_name A K (name : A -> K) (less : K -> K -> option bool) (a b : A) : option bool := less (name a) (name b).
Definition enum_of A (less : A -> A -> option bool) (l : list A) : list A := match set_of less l with Some s => s | None => [] end.
Lemma insert_map A K (name : A -> K) less x : forall l, insert less (name x) (map name l) = option_map (map name) (insert (by_name name less) x l).
Proof.
  induction l as [|y l IH]; cbn [map insert option_map]; [reflexivity|]. unfold by_name at 1 2.
  destruct (less (name x) (name y)) as [[]|]; try reflexivity. destruct (less (name y) (name x)) as [[]|]; try reflexivity.
  rewrite IH. destruct (insert (by_name name less) x l); reflexivity.
Qed.
Lemma set_of_map A K (name : A -> K) less l : set_of less (map name l) = option_map (map name) (set_of (by_name name less) l).
Proof.
  unfold set_of. change (@nil K) with (map name []). generalize (@nil A). induction l as [|x l IH]; intros s; cbn [map insert_all]; [reflexivity|].
  rewrite insert_map. destruct (insert (by_name name less) x s); cbn [option_map]; [apply IH|reflexivity].
Qed.
Lemma by_name_orders A K (name : A -> K) P less : orders P less -> (forall a b, name a = name b -> a = b) ->
  orders (fun a => P (name a)) (by_name name less).
Proof.
  intros (D & I & T & E) J. unfold by_name. split; [|split; [|split]]; intros.
  - apply D; assumption.
  - apply I; assumption.
  - apply (T (name a) (name b) (name c)); assumption.
  - apply J, E; assumption.
Qed.
Lemma enum_of_ok A (P : A -> Prop) less : orders P less -> (forall a, P a) -> enum_ok (enum_of less).
Proof.
  intros O H l. unfold enum_of. destruct (@set_of_ok A P less O l) as (s & -> & N & _ & In'); [apply Forall_forall; auto|].
  split; assumption.
Qed.
Lemma enum_of_unique A (P : A -> Prop) less l m : orders P less -> (forall a, P a) -> (forall x, In x l <-> In x m) ->
  enum_of less l = enum_of less m.
Proof. intros O H E. unfold enum_of. rewrite (@set_of_unique A P less O l m); auto; apply Forall_forall; auto. Qed.

(** The names of the keys of the model: doublets without tag (OSTEI_HRR_Algorithm_Base.cpp:188, 229), quartets
    without tag (OSTEI_VRR_Algorithm_Base.cpp:296-298), classes with and without tag. *)
Definition dbl_name (ty : dtype) (d : dbl) : tdbl := TD ty (dl d) (dr d) "".
Definition qrt_name (m : nat) (tag : string) (q : qrt) : tqrt :=
  TQt (TD BRA (qa q) (qb q) tag) (TD KET (qc q) (qd q) tag) (Z.of_nat m) tag.
Definition qm_name (t : qm) : tqrt := qrt_name (snd t) "" (fst t).
Definition qam_name (tag : string) (c : qam) : tam := TA (map Z.of_nat [am0 c; am1 c; am2 c; am3 c]) tag.
Definition dam_name (c : nat * nat) : tam := TA (map Z.of_nat [fst c; snd c]) "".
Definition tqam_name (t : tqam) : tam := qam_name (tagstr (tq_tag t)) (tq_am t).
(** The tags of the model are numbers; their order is that of the texts (below). *)
Definition tqam_less (a b : tqam) : option bool :=
  if arr_lt (ta_am (tqam_name a)) (ta_am (tqam_name b)) then Some true
  else if arr_eqb (ta_am (tqam_name a)) (ta_am (tqam_name b)) then Some (tq_tag a <? tq_tag b) else Some false.
Definition enum_dbl o ty : list dbl -> list dbl := enum_of (by_name (dbl_name ty) (d_less (places o))).
Definition enum_qm o : list qm -> list qm := enum_of (by_name qm_name (q_less (places o))).
Definition enum_qrt o : list qrt -> list qrt := enum_of (by_name (qrt_name 0 "") (q_less (places o))).
Definition enum_qam : list qam -> list qam := enum_of (by_name (qam_name "") (fun a b => Some (tam_less a b))).
Definition enum_dam : list (nat * nat) -> list (nat * nat) := enum_of (by_name dam_name (fun a b => Some (tam_less a b))).
Definition enum_tqam : list tqam -> list tqam := enum_of tqam_less.

Lemma dbl_name_inj ty a b : dbl_name ty a = dbl_name ty b -> a = b.
Proof. destruct a, b. unfold dbl_name. cbn. intros E. injection E as -> ->. reflexivity. Qed.
Lemma qrt_name_inj m m' tag a b : qrt_name m tag a = qrt_name m' tag b -> a = b /\ m = m'.
Proof. destruct a, b. unfold qrt_name. cbn. intros E. injection E as -> -> -> -> E. apply Nat2Z.inj in E. auto. Qed.
Lemma qm_name_inj a b : qm_name a = qm_name b -> a = b.
Proof. destruct a, b. intros E. apply qrt_name_inj in E as [E1 E2]. cbn in *. congruence. Qed.
Lemma qam_name_inj tag tag' a b : qam_name tag a = qam_name tag' b -> a = b /\ tag = tag'.
Proof.
  destruct a as [x0 x1 x2 x3], b as [y0 y1 y2 y3]. unfold qam_name. cbn [map am0 am1 am2 am3]. intros E. injection E as E0 E1 E2 E3 E4.
  apply Nat2Z.inj in E0, E1, E2, E3. split; congruence.
Qed.
Lemma dam_name_inj a b : dam_name a = dam_name b -> a = b.
Proof.
  destruct a, b. unfold dam_name. cbn [map fst snd]. intros E. injection E as E0 E1. apply Nat2Z.inj in E0, E1. congruence.
Qed.
Lemma places_dbl o ty : orders (fun _ => True) (by_name (dbl_name ty) (d_less (places o))).
Proof.
  destruct (by_name_orders (dbl_name ty) (d_orders (known_places o) ty) (@dbl_name_inj ty)) as (D & I & T & E).
  assert (P : forall a, d_typed ty (fun _ => True) (dbl_name ty a)) by (intros a; repeat split).
  split; [|split; [|split]]; intros; auto. eapply T; eauto.
Qed.
Lemma places_qm o : orders (fun _ => True) (by_name qm_name (q_less (places o))).
Proof.
  destruct (by_name_orders qm_name (q_orders (known_places o)) qm_name_inj) as (D & I & T & E).
  assert (P : forall a, q_typed (fun _ => True) (qm_name a)) by (intros a; repeat split).
  split; [|split; [|split]]; intros; auto. eapply T; eauto.
Qed.
Lemma places_qrt o m tag : orders (fun _ => True) (by_name (qrt_name m tag) (q_less (places o))).
Proof.
  destruct (by_name_orders (qrt_name m tag) (q_orders (known_places o)) (fun a b H => proj1 (qrt_name_inj H))) as (D & I & T & E).
  assert (P : forall a, q_typed (fun _ => True) (qrt_name m tag a)) by (intros a; repeat split).
  split; [|split; [|split]]; intros; auto. eapply T; eauto.
Qed.
Lemma names_qam : orders (fun _ => True) (by_name (qam_name "") (fun a b => Some (tam_less a b))).
Proof.
  destruct (by_name_orders (qam_name "") (tam_orders 4) (fun a b H => proj1 (qam_name_inj H))) as (D & I & T & E).
  split; [|split; [|split]]; intros; auto; try (apply D; reflexivity). eapply T; eauto; reflexivity.
Qed.
Lemma names_dam : orders (fun _ => True) (by_name dam_name (fun a b => Some (tam_less a b))).
Proof.
  destruct (by_name_orders dam_name (tam_orders 2) dam_name_inj) as (D & I & T & E).
  split; [|split; [|split]]; intros; auto; try (apply D; reflexivity). eapply T; eauto; reflexivity.
Qed.
Lemma names_tqam : orders (fun _ => True) tqam_less.
Proof.
  apply orders_in_P.
  apply orders_in_eq with (less := lex (fun t => ta_am (tqam_name t)) (fun a b => Some (arr_lt a b)) arr_eqb (fun a b => Some (tq_tag a <? tq_tag b))).
  { intros a b _. unfold lex, tqam_less. destruct (arr_lt (ta_am (tqam_name a)) (ta_am (tqam_name b))); reflexivity. }
  apply (@lex_orders tqam (list Z) (fun t => ta_am (tqam_name t)) (fun l => List.length l = 4)); [apply orders_arr|intros; apply arr_eqb_eq|auto|].
  apply (@key_orders tqam nat tq_tag (fun _ => True) (fun a b => Some (a <? b))); [apply orders_nat|auto|].
  intros [t c] [t' c']. cbn [tq_tag]. intros (_ & H) ->. f_equal. cbn [tqam_name tq_am ta_am] in H.
  assert (Q : qam_name "" c = qam_name "" c') by (unfold qam_name in *; cbn in *; congruence). apply (qam_name_inj Q).
Qed.
Theorem enums_ok o : (forall ty, enum_ok (enum_dbl o ty)) /\ enum_ok (enum_qm o) /\ enum_ok (enum_qrt o) /\
  enum_ok enum_tqam /\ enum_ok enum_qam /\ set_enum enum_dam.
Proof.
  split; [intros ty; apply (enum_of_ok (places_dbl o ty)); auto|]. split; [apply (enum_of_ok (places_qm o)); auto|].
  split; [apply (enum_of_ok (places_qrt o 0 "")); auto|]. split; [apply (enum_of_ok names_tqam); auto|].
  split; [apply (enum_of_ok names_qam); auto|]. split; [apply (enum_of_ok names_dam); auto|].
  intros l m H. apply (@enum_of_unique _ (fun _ => True) _ l m names_dam); auto.
Qed.
(** The tags in use: the comparison of the numbers is that of the texts. *)
Theorem tags_ok a b : tq_tag a <= 4 -> tq_tag b <= 4 -> Some (tam_less (tqam_name a) (tqam_name b)) = tqam_less a b.
Proof.
  intros Ha Hb. unfold tam_less, tqam_less. destruct (arr_lt _ _); [reflexivity|]. destruct (arr_eqb _ _); [|reflexivity]. f_equal.
  unfold tqam_name. cbn [ta_tag qam_name]. destruct a as [a c], b as [b c']. cbn [tq_tag] in *. clear c c'.
  do 5 (destruct a as [|a]; [do 5 (destruct b as [|b]; [reflexivity|]); lia|]). lia.
Qed.

(** Sets with the same comparisons. *)
Lemma insert_all_in A (P : A -> Prop) less (O : orders P less) : forall l s t, Forall P l -> Forall P s -> increasing less s ->
  insert_all less l s = Some t -> Forall P t.
Proof.
  intros l s t F G S E. destruct (insert_all_ok O F G S) as (t' & E' & _ & Ft & _). congruence.
Qed.
Lemma insert_ext A (P : A -> Prop) less less' x : (forall a b, P a -> P b -> less a b = less' a b) -> P x ->
  forall l, Forall P l -> insert less x l = insert less' x l.
Proof.
  intros H Px. induction l as [|y l IH]; intros F; cbn [insert]; [reflexivity|]. inversion F; subst.
  rewrite !H by assumption. rewrite IH by assumption. reflexivity.
Qed.
Lemma set_of_ext A (P : A -> Prop) less less' l : orders P less -> (forall a b, P a -> P b -> less a b = less' a b) ->
  Forall P l -> set_of less l = set_of less' l.
Proof.
  intros O H F. unfold set_of.
  assert (G : forall l s, Forall P l -> Forall P s -> increasing less s -> insert_all less l s = insert_all less' l s).
  { clear l F. induction l as [|x l IH]; intros s F G S; cbn [insert_all]; [reflexivity|]. inversion F; subst.
    rewrite <- (@insert_ext A P less less' x H) by assumption.
    destruct (@insert_ok A P less O x s) as (s' & -> & S' & G' & _); auto. }
  apply G; auto. constructor.
Qed.
Lemma g_less_known idx o B a b : known idx o B -> B (gam a) -> B (gam b) -> g_less idx a b = g_less (places o) a b.
Proof. intros K Ha Hb. unfold g_less, places. rewrite (K _ Ha), (K _ Hb). reflexivity. Qed.
Lemma d_less_known idx o B a b : known idx o B -> d_in B a -> d_in B b -> d_less idx a b = d_less (places o) a b.
Proof.
  intros K [A1 A2] [B1 B2]. unfold d_less.
  rewrite (g_less_known _ _ K A1 B1), (g_less_known _ _ K A2 B2). reflexivity.
Qed.
Lemma q_less_known idx o B a b : known idx o B -> q_in B a -> q_in B b -> q_less idx a b = q_less (places o) a b.
Proof.
  intros K [A1 A2] [B1 B2]. unfold q_less.
  rewrite (d_less_known K A1 B1), (d_less_known K A2 B2). reflexivity.
Qed.
(** The sets of the code, as long as the momenta are in the tables. *)
Theorem sets_code idx o B : known idx o B ->
  (forall ty l, (forall d, In d l -> B (gam (dl d)) /\ B (gam (dr d))) ->
    set_of (d_less idx) (map (dbl_name ty) l) = Some (map (dbl_name ty) (enum_dbl o ty l))) /\
  (forall l, (forall t, In t l -> let q := fst t in B (gam (qa q)) /\ B (gam (qb q)) /\ B (gam (qc q)) /\ B (gam (qd q))) ->
    set_of (q_less idx) (map qm_name l) = Some (map qm_name (enum_qm o l))).
Proof.
  intros K. split.
  - intros ty l H. assert (F : Forall (d_typed ty B) (map (dbl_name ty) l)).
    { apply Forall_map, Forall_forall. intros d Hd. split; [reflexivity|]. apply (H d Hd). }
    rewrite (@set_of_ext _ (d_typed ty B) (d_less idx) (d_less (places o))); auto.
    + rewrite set_of_map. unfold enum_dbl, enum_of.
      destruct (@set_of_ok _ (fun _ => True) _ (places_dbl o ty) l) as (s & -> & _); [apply Forall_forall; auto|]. reflexivity.
    + apply (d_orders K).
    + intros a b [_ Ha] [_ Hb]. apply (d_less_known K Ha Hb).
  - intros l H. assert (F : Forall (q_typed B) (map qm_name l)).
    { apply Forall_map, Forall_forall. intros d Hd. destruct (H d Hd) as (H1 & H2 & H3 & H4). repeat split; assumption. }
    rewrite (@set_of_ext _ (q_typed B) (q_less idx) (q_less (places o))); auto.
    + rewrite set_of_map. unfold enum_qm, enum_of.
      destruct (@set_of_ok _ (fun _ => True) _ (places_qm o) l) as (s & -> & _); [apply Forall_forall; auto|]. reflexivity.
    + apply (q_orders K).
    + intros a b (_ & _ & Ha) (_ & _ & Hb). apply (q_less_known K Ha Hb).
Qed.

(** ** The targets of a class come in the order of their places *)
Lemma index_less o a b tag m : qclass a = qclass b -> qindex o a < qindex o b ->
  by_name (qrt_name m tag) (q_less (places o)) a b = Some true.
Proof.
  intros C H. destruct (places_qrt o m tag) as (D & I & T & E).
  destruct a as [a1 a2 a3 a4], b as [b1 b2 b3 b4]. unfold qclass in C. cbn [qa qb qc qd] in C. injection C as C1 C2 C3 C4.
  rewrite !qindex_row_major in H. cbn [qa qb qc qd] in H. rewrite C2, C3, C4 in H.
  pose proof (opos_lt o a2) as L2. pose proof (opos_lt o a3) as L3. pose proof (opos_lt o a4) as L4.
  pose proof (opos_lt o b2) as M2. pose proof (opos_lt o b3) as M3. pose proof (opos_lt o b4) as M4.
  rewrite C2 in L2. rewrite C3 in L3. rewrite C4 in L4.
  assert (GL : forall x y, gam x = gam y -> g_less (places o) x y = Some (opos o x <? opos o y)).
  { intros x y Q. unfold g_less, places. rewrite Q, Nat.ltb_irrefl, Nat.eqb_refl. reflexivity. }
  assert (GE : forall x y, gam x = gam y -> gauss_eqb x y = (opos o x =? opos o y)).
  { intros x y Q. destruct (Nat.eqb_spec (opos o x) (opos o y)) as [Z|Z].
    - apply gauss_eqb_eq. apply (opos_inj o _ _ Q Z).
    - destruct (gauss_eqb x y) eqn:W; [|reflexivity]. apply gauss_eqb_eq in W. congruence. }
  unfold by_name, q_less, qrt_name, tq_total, td_am, d_less, d_eq. cbn [tq_bra tq_ket tq_m tq_text td_left td_right td_tag td_type qa qb qc qd].
  unfold td_am. cbn [td_left td_right].
  rewrite C1, C2, C3, C4, !Nat.ltb_irrefl, !Nat.eqb_refl, !GL, !GE by assumption. cbn [type_eqb]. rewrite str_irr, !String.eqb_refl, !andb_true_r.
  set (p1 := opos o a1) in *. set (p2 := opos o a2) in *. set (p3 := opos o a3) in *. set (p4 := opos o a4) in *.
  set (r1 := opos o b1) in *. set (r2 := opos o b2) in *. set (r3 := opos o b3) in *. set (r4 := opos o b4) in *.
  set (n2 := ncart (gam b2)) in *. set (n3 := ncart (gam b3)) in *. set (n4 := ncart (gam b4)) in *.
  assert (X : forall n x u y v, u < n -> v < n -> x * n + u < y * n + v -> x < y \/ (x = y /\ u < v)).
  { intros n x u y v Hu Hv Hl. destruct (Nat.lt_trichotomy x y) as [?|[->|Hx]]; [auto|right; lia|nia]. }
  apply X in H; [|assumption|assumption]. destruct (Nat.ltb_spec p1 r1) as [|K1]; [reflexivity|].
  destruct H as [H|[H H4]].
  - apply X in H; [|assumption|assumption]. destruct H as [H|[H H3]].
    + apply X in H; [|assumption|assumption]. destruct H as [H|[H H2]]; [lia|]. rewrite H, Nat.eqb_refl.
      rewrite (proj2 (Nat.ltb_lt _ _) H2). reflexivity.
    + apply mixed_inj in H as [-> ->]; try assumption. rewrite !Nat.eqb_refl, Nat.ltb_irrefl, (proj2 (Nat.ltb_lt _ _) H3). reflexivity.
  - apply mixed_inj in H as [H ->]; try assumption. apply mixed_inj in H as [-> ->]; try assumption.
    rewrite !Nat.eqb_refl, !Nat.ltb_irrefl, (proj2 (Nat.ltb_lt _ _) H4). reflexivity.
Qed.
Lemma insert_all_sorted A (P : A -> Prop) less (O : orders P less) l : Forall P l -> increasing less l -> set_of less l = Some l.
Proof.
  intros F S. destruct (insert_all_ok O F (Forall_nil _) (SSorted_nil _)) as (t & E & St & Ft & H). unfold set_of. rewrite E. f_equal.
  apply (increasing_unique O); auto. intros x. rewrite H. cbn. tauto.
Qed.
(** GenerateQuartetTargets, Types.cpp:16-52: the loops and the set. *)
Definition generate_quartets idx (o : ordering) (c : qam) (tag : string) : option (list tqrt) :=
  set_of (q_less idx) (map (qrt_name 0 tag) (qtargets o c)).
Lemma seq_sorted A (f : A -> nat) : forall l k, (forall i x, nth_error l i = Some x -> f x = k + i) -> StronglySorted (fun a b => f a < f b) l.
Proof.
  induction l as [|x l IH]; intros k H; constructor.
  - apply (IH (S k)). intros i y E. rewrite (H (S i) y E). lia.
  - apply Forall_forall. intros y Hy. apply In_nth_error in Hy as [i E]. rewrite (H 0 x eq_refl), (H (S i) y E). lia.
Qed.
Theorem targets_sorted idx o B c tag : known idx o B -> starts_x o -> B (am0 c) -> B (am1 c) -> B (am2 c) -> B (am3 c) ->
  exists l, generate_quartets idx o c tag = Some (map (qrt_name 0 tag) l) /\ List.length l = qncart c /\
  forall i, i < qncart c -> exists q, nth_error l i = Some q /\ qclass q = c /\ qindex o q = i.
Proof.
  intros K S B0 B1 B2 B3. exists (qtargets o c).
  assert (N : forall i, i < qncart c -> exists q, nth_error (qtargets o c) i = Some q /\ qclass q = c /\ qindex o q = i).
  { intros i Hi. destruct (qindex_surj o c Hi) as (q & Q1 & Q2). exists q. split; [|auto]. rewrite <- Q1, <- Q2. apply qtargets_nth, S. }
  assert (L : List.length (qtargets o c) = qncart c) by (apply qtargets_len, S).
  assert (F : Forall (q_typed B) (map (qrt_name 0 tag) (qtargets o c))).
  { apply Forall_map, Forall_forall. intros q Hq. apply (in_qtargets _ _ S) in Hq. subst c. repeat split; assumption. }
  split; [|split; [exact L|exact N]].
  unfold generate_quartets. rewrite (@set_of_ext _ (q_typed B) (q_less idx) (q_less (places o))); auto.
  - rewrite set_of_map. rewrite (@insert_all_sorted _ (fun _ => True)); [reflexivity|apply places_qrt|apply Forall_forall; auto|].
    assert (W : StronglySorted (fun a b => qindex o a < qindex o b) (qtargets o c)).
    { apply (@seq_sorted _ (qindex o) _ 0). intros i x E. assert (Hi : i < qncart c) by (rewrite <- L; apply nth_error_Some; congruence).
      destruct (N i Hi) as (q & Q1 & _ & Q3). rewrite Q1 in E. injection E as <-. exact Q3. }
    assert (C : forall q, In q (qtargets o c) -> qclass q = c) by (intros q; apply in_qtargets, S).
    clear F N L. revert W C. generalize (qtargets o c) as l. induction l as [|x l IH]; intros W C; [constructor|].
    inversion W as [|? ? W' H]; subst. constructor; [apply IH; [exact W'|intros; apply C; right; assumption]|].
    apply Forall_forall. intros y Hy. eapply Forall_forall in H; [|exact Hy]. apply index_less; [|exact H].
    rewrite (C x (or_introl eq_refl)), (C y (or_intror Hy)). reflexivity.
  - apply (q_orders K).
  - intros a b (_ & _ & Ha) (_ & _ & Hb). apply (q_less_known K Ha Hb).
Qed.

(** ** Where the operators are not orders *)
Definition px : gauss := G 1 0 0.
Definition s0 : gauss := G 0 0 0.
Definition d_ex (ty : dtype) (g : gauss) : tdbl := TD ty g s0 "".
Definition q_ex (ty : dtype) (g : gauss) (tag : string) : tqrt := TQt (d_ex ty px) (d_ex KET g) 0 tag.
(** A bra and a ket with the same components are the same element of a set. *)
Theorem types_merged idx : (forall g, idx g <> None) -> d_ex BRA px <> d_ex KET px /\ d_eq (d_ex BRA px) (d_ex KET px) = false /\
  set_of (d_less idx) [d_ex BRA px; d_ex KET px] = Some [d_ex BRA px].
Proof.
  intros H. split; [discriminate|]. split; [reflexivity|].
  destruct (idx px) as [i|] eqn:E1; [|destruct (H _ E1)]. destruct (idx s0) as [j|] eqn:E2; [|destruct (H _ E2)].
  unfold set_of. cbn [insert_all insert]. unfold d_less, d_ex, td_am. cbn [td_left td_right td_tag].
  unfold g_less. rewrite !Nat.ltb_irrefl, !Nat.eqb_refl, E1, E2, !Nat.ltb_irrefl. reflexivity.
Qed.
(** With types of both kinds in the bra "neither smaller nor larger" does not carry over. *)
Theorem mixed_types idx : (forall g, idx g <> None) ->
  let a := q_ex BRA s0 "" in let b := q_ex KET s0 "" in let c := q_ex BRA (G 0 0 0) "t" in
  q_less idx a b = Some false /\ q_less idx b a = Some false /\ q_less idx b c = Some false /\ q_less idx c b = Some false /\
  q_less idx a c = Some true.
Proof.
  intros H. cbv zeta. destruct (idx px) as [i|] eqn:E1; [|destruct (H _ E1)]. destruct (idx s0) as [j|] eqn:E2; [|destruct (H _ E2)].
  change (G 0 0 0) with s0. unfold q_less, q_ex, tq_total, td_am, d_less, d_ex, td_am. cbn [tq_bra tq_ket tq_m tq_text td_left td_right td_tag td_type].
  unfold g_less. rewrite !Nat.ltb_irrefl, !Nat.eqb_refl, E1, E2, !Nat.ltb_irrefl. repeat split.
Qed.
(** [==] of quartets leaves out the tag, [<] does not. *)
Theorem equal_and_less idx : (forall g, idx g <> None) ->
  q_eq (q_ex BRA s0 "") (q_ex BRA s0 "2a") = true /\ q_less idx (q_ex BRA s0 "") (q_ex BRA s0 "2a") = Some true.
Proof.
  intros H. split; [reflexivity|].
  destruct (idx px) as [i|] eqn:E1; [|destruct (H _ E1)]. destruct (idx s0) as [j|] eqn:E2; [|destruct (H _ E2)].
  unfold q_less, q_ex, tq_total, td_am, d_less, d_ex, td_am. cbn [tq_bra tq_ket tq_m tq_text td_left td_right td_tag td_type].
  unfold g_less. rewrite !Nat.ltb_irrefl, !Nat.eqb_refl, E1, E2, !Nat.ltb_irrefl. reflexivity.
Qed.
(** Two components of a momentum that is not in the table cannot be compared. *)
Theorem outside_throws tab a b : gam a = gam b -> tab (gam a) = None -> g_less (g_index tab) a b = None.
Proof. intros E T. unfold g_less, g_index. rewrite E, Nat.ltb_irrefl, Nat.eqb_refl. rewrite E in T. rewrite T. reflexivity. Qed.
