(** Creating a batch of shell pairs: allocation, filling and sorting.
    Source: skel/simint/shell/shell.c:425-582 (simint_fill_multi_shellpair2; the sort at 579-581),
    592-602 (simint_create_multi_shellpair2), 76-128 (simint_sort_multi_shellpair).

    The arrays the sort moves are the rows of the block: x, y, z, PA, PB, alpha, prefac, screen and, with
    derivatives, alpha2 and beta2, each [alloc] doubles long (shell.c:131-185).  [kf] gives the screen value of
    an element of the screen array; everything else as in [Layout] and [Sort]. *)
From Coq Require Import List Arith ZArith Lia Bool Permutation.
Import ListNotations.
From Verif Require Import Base Simd Offsets Starts Layout Sort.
Set Implicit Arguments.
Local Open Scope nat_scope.

Section Create.
Variables (len nss : nat) (meth : method) (deriv : bool).
Variables (n : nat) (pr : nat -> spair) (kf : option dval -> Z).
Local Notation al := (alloc len nss n pr).
Local Notation rowsn := (nprim_arr meth deriv).

Definition rows (m : list (option dval)) : list (list (option dval)) :=
  map (fun r => firstn al (skipn (al * r) m)) (seq 0 rowsn).
Definition unrows (M : list (list (option dval))) (m : list (option dval)) : list (option dval) :=
  concat M ++ skipn (al * rowsn) m.
Definition create : option (list (option dval)) :=
  match fill len nss meth deriv n pr with
  | None => None
  | Some m =>
    if screens meth then
      match sort_multi kf len nss n (npf pr) 11 (fill_nprim n pr) (rows m) with
      | Some M => Some (unrows M m)
      | None => None
      end
    else Some m
  end.

(** ** Specification *)
(** Block [m] holds every quantity of every primitive of every pair, the primitives of pair [t] in the order
    [ord t], which has each of them once. *)
Record holds (m : list (option dval)) (ord : nat -> list (nat * nat)) : Prop := {
  ho_len : length m = total_doubles len nss meth deriv n pr;
  ho_perm : forall t, t < n -> Permutation (ord t) (sp_prims (pr t));
  ho_prim : forall a t k i j, arr_ok meth deriv a = true -> (forall ax, a <> ADist ax) -> t < n -> nth_error (ord t) k = Some (i, j) ->
    nth_error m (off len nss meth deriv n pr a + (start len nss (npf pr) t + k)) = Some (Some (Of a t i j));
  ho_pad : forall a q, arr_ok meth deriv a = true -> (forall ax, a <> ADist ax) -> q < al ->
    (forall t, t < n -> ~ (start len nss (npf pr) t <= q < start len nss (npf pr) t + npf pr t)) ->
    nth_error m (off len nss meth deriv n pr a + q) = Some (Some (pad_val a));
  ho_dist : forall ax t, ax < 3 -> t < n -> nth_error m (off len nss meth deriv n pr (ADist ax) + t) = Some (Some (Dist ax t)) }.
(** Largest screen value first. *)
Definition by_screen (ord : nat -> list (nat * nat)) : Prop :=
  forall t k k' i j i' j', t < n -> k <= k' -> nth_error (ord t) k = Some (i, j) -> nth_error (ord t) k' = Some (i', j') ->
    (kf (Some (Of AScreen t i' j')) <= kf (Some (Of AScreen t i j)))%Z.

(** ** Proofs *)
Hypothesis Hlen : 0 < len.
Hypothesis Hnss : 0 < nss.
Hypothesis Hdiv : Nat.divide len nss.
Hypothesis Hwf : forall t, t < n -> sp_wf (pr t).
Hypothesis Hfits : screen_fits len nss meth n pr.
Local Notation st := (start len nss (npf pr)).

Lemma prims_len t : length (sp_prims (pr t)) = npf pr t.
Proof. clear. apply (@prims_length 1 1 0 (fun _ => SP 0 0 false) Nat.lt_0_1 Nat.lt_0_1). intros u Hu. lia. Qed.

Theorem filled m : fill len nss meth deriv n pr = Some m -> holds m (fun t => sp_prims (pr t)).
Proof.
  intros E. destruct (@fill_ok len nss meth deriv n pr Hlen Hnss Hdiv Hwf Hfits) as (m' & E' & L & A & D).
  assert (m' = m) by congruence. subst m'. split.
  - exact L.
  - intros t _. apply Permutation_refl.
  - intros a t k i j Ha Hd. apply (proj1 (A a Ha Hd)).
  - intros a q Ha Hd. apply (proj2 (A a Ha Hd)).
  - exact D.
Qed.

(** Rows of the block. *)
Lemma nth_firstn A (l : list A) : forall k m, k < m -> nth_error (firstn m l) k = nth_error l k.
Proof.
  clear. induction l as [|x l IH]; intros k m H; [rewrite firstn_nil; reflexivity|]. destruct m as [|m]; [lia|]. destruct k as [|k]; [reflexivity|].
  cbn [firstn nth_error]. apply IH. lia.
Qed.
Lemma nth_skipn A p : forall (d : list A) i, nth_error (skipn p d) i = nth_error d (p + i).
Proof. clear. induction p as [|p IH]; intros d i; [reflexivity|]. destruct d as [|x d]; [destruct i; reflexivity|]. apply IH. Qed.
Lemma nth_concat A (M : list (list A)) N : (forall a, In a M -> length a = N) ->
  forall r q a, nth_error M r = Some a -> q < N -> nth_error (concat M) (N * r + q) = nth_error a q.
Proof.
  clear. induction M as [|b M IH]; intros HM r q a E Hq; [destruct r; discriminate E|].
  pose proof (HM b (or_introl eq_refl)) as Lb. destruct r as [|r]; cbn [nth_error concat] in *.
  - apply (f_equal (fun x => match x with Some y => y | None => [] end)) in E. cbn in E. subst b.
    rewrite Nat.mul_0_r. cbn [Nat.add]. apply nth_error_app1. lia.
  - rewrite nth_error_app2 by nia. rewrite <- (IH (fun x Hx => HM x (or_intror Hx)) r q a E Hq). f_equal. nia.
Qed.
Lemma length_concat A (M : list (list A)) N : (forall a, In a M -> length a = N) -> length (concat M) = N * length M.
Proof.
  clear. induction M as [|b M IH]; intros HM; [cbn; lia|]. cbn [concat length]. rewrite app_length, (HM b (or_introl eq_refl)).
  rewrite IH by (intros x Hx; apply HM; right; exact Hx). lia.
Qed.
Definition row_of (a : arr) : nat :=
  match a with APrim k => k | AScreen => 11 | AAlpha2 => 11 + nscr meth | ABeta2 => 11 + nscr meth + 1 | ADist _ => 0 end.
Lemma row_off a : arr_ok meth deriv a = true -> (forall ax, a <> ADist ax) ->
  off len nss meth deriv n pr a = al * row_of a /\ row_of a < rowsn.
Proof.
  intros Ha Hd. unfold nprim_arr. destruct a; cbn [off row_of arr_ok] in *; try (split; [reflexivity|]).
  - apply Nat.ltb_lt in Ha. lia.
  - unfold nscr. rewrite Ha. lia.
  - unfold nder. rewrite Ha. lia.
  - unfold nder. rewrite Ha. lia.
  - exfalso. apply (Hd ax). reflexivity.
Qed.
Lemma rows_nth m r q : length m = total_doubles len nss meth deriv n pr -> r < rowsn -> q < al ->
  exists a, nth_error (rows m) r = Some a /\ length a = al /\ nth_error a q = nth_error m (al * r + q).
Proof.
  intros L Hr Hq. exists (firstn al (skipn (al * r) m)). unfold rows. split; [|split].
  - rewrite nth_error_map, (nth_error_nth' _ 0) by (rewrite seq_length; exact Hr). rewrite seq_nth by exact Hr. reflexivity.
  - rewrite firstn_length, skipn_length, L. unfold total_doubles. nia.
  - rewrite nth_firstn by exact Hq. apply nth_skipn.
Qed.

(** A rearrangement inside [0 .. N-1]. *)
Lemma perm_of_map A (l : list A) (d : A) (g : nat -> nat) : (forall k, k < length l -> g k < length l) ->
  (forall k k', k < length l -> k' < length l -> g k = g k' -> k = k') ->
  Permutation (map (fun k => nth (g k) l d) (seq 0 (length l))) l.
Proof.
  clear. intros H1 H2. transitivity (map (fun k => nth k l d) (seq 0 (length l))).
  - rewrite <- (map_map g (fun k => nth k l d)). apply Permutation_map. apply NoDup_Permutation_bis.
    + assert (G : forall l', (forall x, In x l' -> x < length l) -> NoDup l' -> NoDup (map g l')).
      { induction l' as [|x l' IH]; intros Hb N; cbn [map]; constructor; inversion N; subst.
        - intros Hin. apply in_map_iff in Hin as [y [Ey Hy]]. apply H2 in Ey; [subst y; contradiction|apply Hb; right; exact Hy|apply Hb; left; reflexivity].
        - apply IH; [intros y Hy; apply Hb; right; exact Hy|assumption]. }
      apply G; [|apply seq_NoDup]. intros x Hx. apply in_seq in Hx. lia.
    + rewrite map_length. apply le_n.
    + intros x Hx. apply in_map_iff in Hx as [k [<- Hk]]. apply in_seq in Hk. apply in_seq. specialize (H1 k ltac:(lia)). lia.
  - replace (map (fun k => nth k l d) (seq 0 (length l))) with l; [apply Permutation_refl|].
    apply nth_ext with (d := d) (d' := d); [rewrite map_length, seq_length; reflexivity|]. intros k Hk.
    symmetry. rewrite (nth_indep (map (fun k => nth k l d) (seq 0 (length l))) d (nth 0 l d)) by (rewrite map_length, seq_length; exact Hk).
    rewrite (map_nth (fun k => nth k l d)), seq_nth by exact Hk. reflexivity.
Qed.

Theorem create_ok : (screens meth = true -> forall t, t < n -> 0 < npf pr t) ->
  exists m ord, create = Some m /\ holds m ord /\ (screens meth = true -> by_screen ord).
Proof.
  intros Hnp. destruct (@fill_ok len nss meth deriv n pr Hlen Hnss Hdiv Hwf Hfits) as (m & E & _).
  pose proof (filled E) as Hm. unfold create. rewrite E. destruct (screens meth) eqn:Es.
  2:{ exists m, (fun t => sp_prims (pr t)). split; [reflexivity|]. split; [exact Hm|discriminate]. }
  specialize (Hnp eq_refl). pose proof (ho_len Hm) as L.
  assert (R11 : 11 < rowsn) by (unfold nprim_arr, nscr; rewrite Es; lia).
  assert (Lr : forall a, In a (rows m) -> length a = al).
  { intros a Ha. unfold rows in Ha. apply in_map_iff in Ha as [r [<- Hr]]. apply in_seq in Hr. rewrite firstn_length, skipn_length, L. unfold total_doubles. nia. }
  destruct (@sort_multi_ok (option dval) kf len nss n (npf pr) 11 Hlen Hnss Hnp (fill_nprim n pr) (rows m)) as (M & EM & (LM & f & F1 & F2 & F3 & F4) & Dsc).
  { apply (@fill_nprim_ok len nss n pr Hlen Hnss Hwf). }
  { destruct (nth_error (rows m) 11) as [a|] eqn:Ea; [exists a; reflexivity|]. exfalso. apply nth_error_None in Ea. unfold rows in Ea. rewrite map_length, seq_length in Ea. lia. }
  { intros a u Ha Hu. rewrite (Lr a Ha). apply (st_alloc pr Hlen Hnss Hwf Hu). }
  rewrite EM.
  set (g := fun t k => Z.to_nat (f (Z.of_nat (st t + k))) - st t).
  set (ord := fun t => map (fun k => nth (g t k) (sp_prims (pr t)) (0, 0)) (seq 0 (npf pr t))).
  assert (G1 : forall t k, t < n -> k < npf pr t -> g t k < npf pr t /\ f (Z.of_nat (st t + k)) = Z.of_nat (st t + g t k)).
  { intros t k Ht Hk. specialize (F1 t (Z.of_nat (st t + k)) Ht). unfold in_pair in F1. unfold g. lia. }
  assert (Lrow : forall r, r < rowsn -> exists a a', nth_error (rows m) r = Some a /\ nth_error M r = Some a' /\ length a' = al /\
     (forall q, q < al -> nth_error a q = nth_error m (al * r + q)) /\ (forall k, zget a' k = zget a (f k))).
  { intros r Hr. destruct (nth_error (rows m) r) as [a|] eqn:Ea.
    2:{ exfalso. apply nth_error_None in Ea. unfold rows in Ea. rewrite map_length, seq_length in Ea. lia. }
    destruct (F4 r a Ea) as (a' & Ea' & La' & Va). exists a, a'. split; [reflexivity|]. split; [exact Ea'|].
    split; [rewrite La'; apply Lr, (nth_error_In _ _ Ea)|]. split; [|exact Va].
    intros q Hq. destruct (@rows_nth m r q L Hr Hq) as (b & Eb & _ & Vb). congruence. }
  assert (LMall : forall a, In a M -> length a = al).
  { intros a Ha. apply In_nth_error in Ha as [r Er]. assert (r < rowsn).
    { pose proof (nth_error_Some_lt _ _ Er) as Q. rewrite LM in Q. unfold rows in Q. rewrite map_length, seq_length in Q. exact Q. }
    destruct (Lrow r H) as (b & b' & _ & Eb' & Lb & _). congruence. }
  assert (LMn : length M = rowsn) by (rewrite LM; unfold rows; rewrite map_length, seq_length; reflexivity).
  assert (V : forall r q q', r < rowsn -> q < al -> q' < al -> f (Z.of_nat q) = Z.of_nat q' ->
     nth_error (unrows M m) (al * r + q) = nth_error m (al * r + q')).
  { intros r q q' Hr Hq Hq' Ef. destruct (Lrow r Hr) as (a & a' & Ea & Ea' & La & Va & Vf).
    unfold unrows. rewrite nth_error_app1 by (rewrite (length_concat _ LMall), LMn; nia).
    rewrite (nth_concat M LMall r Ea' Hq). specialize (Vf (Z.of_nat q)). rewrite Ef in Vf. unfold zget in Vf.
    rewrite !(proj2 (Z.ltb_ge _ _)) in Vf by lia. rewrite !Nat2Z.id in Vf. rewrite Vf. apply Va, Hq'. }
  assert (Lo : forall t, t < n -> length (ord t) = npf pr t) by (intros t _; unfold ord; rewrite map_length, seq_length; reflexivity).
  assert (No : forall t k i j, t < n -> nth_error (ord t) k = Some (i, j) -> k < npf pr t /\ nth_error (sp_prims (pr t)) (g t k) = Some (i, j)).
  { intros t k i j Ht Ek. assert (Hk : k < npf pr t) by (rewrite <- (Lo t Ht); apply nth_error_Some; congruence). split; [exact Hk|].
    unfold ord in Ek. rewrite nth_error_map, (nth_error_nth' _ 0) in Ek by (rewrite seq_length; exact Hk). rewrite seq_nth in Ek by exact Hk.
    cbn [option_map Nat.add] in Ek. rewrite (nth_error_nth' _ (0, 0)) by (rewrite prims_len; apply G1; assumption). congruence. }
  assert (Hp : forall a t k i j, arr_ok meth deriv a = true -> (forall ax, a <> ADist ax) -> t < n -> nth_error (ord t) k = Some (i, j) ->
     nth_error (unrows M m) (off len nss meth deriv n pr a + (st t + k)) = Some (Some (Of a t i j))).
  { intros a t k i j Ha Hd Ht Ek. destruct (No t k i j Ht Ek) as [Hk Eg]. destruct (G1 t k Ht Hk) as [Hg Ef].
    pose proof (st_alloc pr Hlen Hnss Hwf Ht) as Ha'. destruct (@row_off a Ha Hd) as [Eo Hr]. rewrite Eo.
    rewrite (V (row_of a) (st t + k) (st t + g t k) Hr ltac:(lia) ltac:(lia) Ef). rewrite <- Eo. apply (ho_prim Hm); assumption. }
  exists (unrows M m), ord. split; [reflexivity|]. split; [split|].
  - unfold unrows. rewrite app_length, (length_concat _ LMall), skipn_length, L, LMn. unfold total_doubles. nia.
  - intros t Ht. unfold ord. rewrite <- prims_len. apply perm_of_map; rewrite prims_len.
    + intros k Hk. apply G1; assumption.
    + intros k k' Hk Hk' Eg. destruct (G1 t k Ht Hk) as [_ E1]. destruct (G1 t k' Ht Hk') as [_ E2]. rewrite Eg, <- E2 in E1. apply F2 in E1. lia.
  - exact Hp.
  - intros a q Ha Hd Hq Hg. destruct (@row_off a Ha Hd) as [Eo Hr]. rewrite Eo.
    rewrite (V (row_of a) q q Hr Hq Hq).
    + rewrite <- Eo. apply (ho_pad Hm); assumption.
    + apply F3. intros t Ht Hk. apply (Hg t Ht). unfold in_pair in Hk. lia.
  - intros ax t Hx Ht. rewrite <- (ho_dist Hm (ax := ax) (t := t)) by assumption. unfold unrows.
    cbn [off]. rewrite nth_error_app2 by (rewrite (length_concat _ LMall), LMn; lia). rewrite nth_skipn, (length_concat _ LMall), LMn. f_equal. lia.
  - intros _ t k k' i j i' j' Ht Hkk E1 E2. destruct (No _ _ _ _ Ht E1) as [Hk1 _]. destruct (No _ _ _ _ Ht E2) as [Hk2 _].
    pose proof (st_alloc pr Hlen Hnss Hwf Ht) as Ha'.
    assert (K : forall k i j, nth_error (ord t) k = Some (i, j) -> k < npf pr t -> key kf M 11 (Z.of_nat (st t + k)) = Some (kf (Some (Of AScreen t i j)))).
    { intros k0 i0 j0 E0 H0. pose proof (Hp AScreen t k0 i0 j0 Es ltac:(discriminate) Ht E0) as P. cbn [off] in P.
      destruct (Lrow 11 R11) as (a & a' & Ea & Ea' & La & _).
      unfold unrows in P. rewrite nth_error_app1 in P by (rewrite (length_concat _ LMall), LMn; nia).
      rewrite (nth_concat M LMall 11 Ea') in P by lia.
      unfold key. rewrite Ea'. unfold zget. rewrite (proj2 (Z.ltb_ge _ _)) by lia. rewrite Nat2Z.id, P. reflexivity. }
    apply (Dsc t Ht (Z.of_nat (st t + k)) (Z.of_nat (st t + k')) _ _ ltac:(lia) ltac:(lia) ltac:(lia) (K _ _ _ E1 Hk1) (K _ _ _ E2 Hk2)).
Qed.
End Create.
