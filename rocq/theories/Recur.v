(** The run-time recursion table.
    Sources: python/gen_recurinfo.py (generator), skel/simint/recur_lookup.c (data in
    RecurData.v), skel/simint/recur_lookup.h. *)
From Coq Require Import List Arith Lia ZArith Bool.
Import ListNotations.
From Verif Require Import Base Cart Mdir RecurData.
Set Implicit Arguments.

Definition pyg_eqb (a b : pyg) : bool :=
  let '(x, y, z) := a in let '(x', y', z') := b in
  ((x =? x') && (y =? y') && (z =? z'))%Z.

Lemma pyg_eqb_eq a b : pyg_eqb a b = true <-> a = b.
Proof.
  destruct a as [[x y] z], b as [[x' y'] z']; simpl.
  rewrite !andb_true_iff, !Z.eqb_eq. split; [intros [[-> ->] ->]; reflexivity|].
  intros H; injection H; auto.
Qed.

(** [FindIndex], gen_recurinfo.py:12-16. *)
Definition find_index (l : list pyg) (ijk : pyg) : Z :=
  match find_pos (fun g => pyg_eqb ijk g) l with
  | Some i => Z.of_nat i
  | None => (-1)%Z
  end.

(** Direction column, gen_recurinfo.py:70-77. *)
Definition py_dir (k : nat) (g : gauss) : Z :=
  if k =? 0 then (-1)%Z
  else match mdir g with
       | Some d => Z.of_nat (idx_of_dir d)
       | None => (-1)%Z
       end.

Definition sh (d : dir) (n : Z) (g : pyg) : pyg :=
  let '(x, y, z) := g in
  match d with DX => (x + n, y, z)%Z | DY => (x, y + n, z)%Z | DZ => (x, y, z + n)%Z end.

(** One triple (minus one, minus two, plus one) of index columns,
    gen_recurinfo.py:81-118.  [gm] is [gmap]. *)
Definition py_idx (gm : nat -> list pyg) (k : nat) (d : dir) (g : pyg) : Z * Z * Z :=
  if k =? 0 then ((-1)%Z, (-1)%Z, Z.of_nat (idx_of_dir d))
  else (find_index (gm (k - 1)) (sh d (-1) g),
        (if 1 <? k then find_index (gm (k - 2)) (sh d (-2) g) else (-1)%Z),
        find_index (gm (k + 1)) (sh d 1 g)).

Definition py_row (gm : nat -> list pyg) (k : nat) (g : gauss) : recur_row :=
  (toZ g, py_dir k g, py_idx gm k DX (toZ g), py_idx gm k DY (toZ g), py_idx gm k DZ (toZ g)).

(** [gmap] as produced by [GenerateMap] (Cart.py_generate_ok shows the python loop
    yields exactly this list). *)
Definition gmap (k : nat) : list pyg := map toZ (cart_list k).

(** All rows for one angular momentum. *)
Definition py_rows (k : nat) : list recur_row := map (py_row gmap k) (cart_list k).

(** ** Specification of a row *)
Definition nbr (o : option gauss) : Z :=
  match o with Some g => Z.of_nat (pos g) | None => (-1)%Z end.

Definition down2 (d : dir) (g : gauss) : option gauss :=
  match down d g with Some g' => down d g' | None => None end.

Definition idx_ok (g : gauss) (d : dir) (t : Z * Z * Z) : Prop :=
  t = (nbr (down d g), nbr (down2 d g), Z.of_nat (pos (up d g))).

Definition row_ok (g : gauss) (r : recur_row) : Prop :=
  let '(ijk, d, tx, ty, tz) := r in
  ijk = toZ g /\
  (gam g <> 0 -> exists e, is_mdir g e /\ d = Z.of_nat (idx_of_dir e)) /\
  (gam g = 0 -> d = (-1)%Z) /\
  idx_ok g DX tx /\ idx_ok g DY ty /\ idx_ok g DZ tz.

Ltac eqpair :=
  repeat match goal with |- (_, _) = (_, _) => apply (f_equal2 (@pair _ _)) end; lia.

Lemma toZ_inj a b : toZ a = toZ b -> a = b.
Proof.
  destruct a as [x y z], b as [x' y' z']; unfold toZ; simpl. intros H; injection H; intros.
  f_equal; lia.
Qed.

Lemma find_index_some k g : gam g = k -> find_index (gmap k) (toZ g) = Z.of_nat (pos g).
Proof.
  intros <-. unfold find_index, gmap.
  rewrite (@find_pos_first _ (fun h => pyg_eqb (toZ g) h) (map toZ (cart_list (gam g))) (pos g) (toZ g)).
  - reflexivity.
  - rewrite nth_error_map, nth_error_cart_list. reflexivity.
  - apply pyg_eqb_eq; reflexivity.
  - intros j y Hj Hy. apply pyg_eqb_eq in Hy. subst y.
    rewrite nth_error_map in Hj. destruct (nth_error (cart_list (gam g)) j) as [h|] eqn:E; [|discriminate].
    assert (Hh : toZ h = toZ g) by (simpl in Hj; congruence). apply toZ_inj in Hh. subst h.
    destruct (opos_nth psi4 _ _ E) as [_ Hp]. symmetry; exact Hp.
Qed.

Lemma find_index_none k (p : pyg) : (forall g, toZ g <> p) -> find_index (gmap k) p = (-1)%Z.
Proof.
  intros H. unfold find_index. rewrite find_pos_none_iff; [reflexivity|].
  intros x Hx. apply in_map_iff in Hx as [g [<- _]].
  destruct (pyg_eqb p (toZ g)) eqn:E; [|reflexivity].
  apply pyg_eqb_eq in E. exfalso; apply (H g); congruence.
Qed.

Lemma sh_down d g : find_index (gmap (gam g - 1)) (sh d (-1) (toZ g)) = nbr (down d g).
Proof.
  destruct (down d g) as [g'|] eqn:E; cbn [nbr].
  - apply down_some in E. subst g. rewrite gam_up.
    replace (sh d (-1) (toZ (up d g'))) with (toZ g').
    + apply find_index_some. lia.
    + destruct d, g'; unfold toZ, up; cbn -[Z.of_nat Z.add]; eqpair.
  - apply down_none in E. apply find_index_none. intros h.
    destruct d, g, h; unfold toZ; cbn -[Z.of_nat Z.add] in *; intros H; injection H; lia.
Qed.

Lemma sh_down2 d g : find_index (gmap (gam g - 2)) (sh d (-2) (toZ g)) = nbr (down2 d g).
Proof.
  unfold down2. destruct (down d g) as [g'|] eqn:E; cbn [nbr].
  - apply down_some in E. subst g. rewrite gam_up.
    replace (S (gam g') - 2) with (gam g' - 1) by lia.
    replace (sh d (-2) (toZ (up d g'))) with (sh d (-1) (toZ g')).
    + apply sh_down.
    + destruct d, g'; unfold toZ, up; cbn -[Z.of_nat Z.add]; eqpair.
  - apply down_none in E. apply find_index_none. intros h.
    destruct d, g, h; unfold toZ; cbn -[Z.of_nat Z.add] in *; intros H; injection H; lia.
Qed.

Lemma sh_up d g : find_index (gmap (gam g + 1)) (sh d 1 (toZ g)) = Z.of_nat (pos (up d g)).
Proof.
  replace (sh d 1 (toZ g)) with (toZ (up d g)).
  - apply find_index_some. rewrite gam_up. lia.
  - destruct d, g; unfold toZ, up; cbn -[Z.of_nat Z.add]; eqpair.
Qed.

Lemma py_idx_ok g d : idx_ok g d (py_idx gmap (gam g) d (toZ g)).
Proof.
  unfold idx_ok, py_idx. destruct (Nat.eqb_spec (gam g) 0) as [E|E].
  - destruct g as [x y z]; unfold gam in E; simpl in E.
    assert (x = 0) by lia; assert (y = 0) by lia; assert (z = 0) by lia; subst.
    destruct d; reflexivity.
  - rewrite sh_down, sh_up. f_equal. f_equal.
    destruct (Nat.ltb_spec 1 (gam g)) as [L|L]; [apply sh_down2|].
    unfold down2. destruct (down d g) as [g'|] eqn:Ed; [|reflexivity].
    apply gam_down in Ed. destruct (down d g') as [g''|] eqn:Ed2; [|reflexivity].
    apply gam_down in Ed2. lia.
Qed.

Lemma py_row_ok g : row_ok g (py_row gmap (gam g) g).
Proof.
  unfold row_ok, py_row. split; [reflexivity|]. split.
  - intros H. destruct (mdir_some _ H) as [d Hd]. exists d.
    split; [apply mdir_spec; exact Hd|]. unfold py_dir. rewrite Hd.
    destruct (Nat.eqb_spec (gam g) 0); [contradiction|reflexivity].
  - split.
    + intros H. unfold py_dir. rewrite H. reflexivity.
    + repeat split; apply py_idx_ok.
Qed.

Lemma py_rows_nth g : nth_error (py_rows (gam g)) (pos g) = Some (py_row gmap (gam g) g).
Proof. unfold py_rows. rewrite nth_error_map, nth_error_cart_list. reflexivity. Qed.

(** ** The shipped table *)
Definition z3_eqb (a b : Z * Z * Z) : bool := pyg_eqb a b.
Definition row_eqb (a b : recur_row) : bool :=
  let '(i, d, x, y, z) := a in let '(i', d', x', y', z') := b in
  z3_eqb i i' && (d =? d')%Z && z3_eqb x x' && z3_eqb y y' && z3_eqb z z'.

Lemma row_eqb_eq a b : row_eqb a b = true -> a = b.
Proof.
  destruct a as [[[[i d] x] y] z], b as [[[[i' d'] x'] y'] z']. unfold row_eqb.
  rewrite !andb_true_iff. intros [[[[H1 H2] H3] H4] H5].
  apply pyg_eqb_eq in H1, H3, H4, H5. apply Z.eqb_eq in H2. congruence.
Qed.

Fixpoint rows_eqb (a b : list recur_row) : bool :=
  match a, b with
  | [], [] => true
  | x :: a', y :: b' => row_eqb x y && rows_eqb a' b'
  | _, _ => false
  end.

Lemma rows_eqb_eq a b : rows_eqb a b = true -> a = b.
Proof.
  revert b; induction a as [|x a IH]; intros [|y b] H; try discriminate; [reflexivity|].
  simpl in H. apply andb_true_iff in H as [H1 H2]. apply row_eqb_eq in H1.
  f_equal; auto.
Qed.

Lemma table_is_generated : recurinfo_array = flat_map py_rows (seq 0 19).
Proof. apply rows_eqb_eq. vm_compute. reflexivity. Qed.

Definition row_start (am : nat) : nat := nsum (map ncart (seq 0 am)).

Lemma am_recur_map_ok : am_recur_map = map (fun k => Z.of_nat (row_start k)) (seq 0 19).
Proof. vm_compute. reflexivity. Qed.

Lemma nth_error_flat_map_py n s k i r :
  nth_error (py_rows (s + k)) i = Some r -> k < n ->
  nth_error (flat_map py_rows (seq s n)) (nsum (map ncart (seq s k)) + i) = Some r.
Proof.
  revert s k; induction n as [|n IH]; intros s k Hr Hk; [lia|].
  assert (Hlen : length (py_rows s) = ncart s).
  { unfold py_rows. rewrite map_length. apply cart_list_length. }
  cbn [seq flat_map]. destruct k as [|k].
  - rewrite Nat.add_0_r in Hr. cbn [seq map nsum Nat.add].
    rewrite nth_error_app1; [exact Hr|]. eapply nth_error_Some_lt; exact Hr.
  - cbn [seq map nsum]. rewrite nth_error_app2 by lia.
    rewrite Hlen. replace (ncart s + nsum (map ncart (seq (S s) k)) + i - ncart s)
      with (nsum (map ncart (seq (S s) k)) + i) by lia.
    apply IH; [|lia]. replace (S s + k) with (s + S k) by lia. exact Hr.
Qed.

(** How run-time code finds a row: [recurinfo_array[am_recur_map[am] + n]]. *)
Definition recur_lookup (am i : nat) : option recur_row :=
  match nth_error am_recur_map am with
  | Some s => nth_error recurinfo_array (Z.to_nat s + i)
  | None => None
  end.

Lemma recur_lookup_ok g : gam g <= 18 ->
  exists r, recur_lookup (gam g) (pos g) = Some r /\ row_ok g r.
Proof.
  intros H. exists (py_row gmap (gam g) g). split; [|apply py_row_ok].
  unfold recur_lookup. rewrite am_recur_map_ok, nth_error_map, nth_error_seq by lia.
  cbn [Nat.add option_map]. rewrite Nat2Z.id, table_is_generated. unfold row_start.
  apply nth_error_flat_map_py; [|lia]. apply py_rows_nth.
Qed.

(** All entries fit the declared field types ([int8_t ijk, dir; int16_t idx]). *)
Definition fits (b : Z) (x : Z) : bool := ((- b <=? x) && (x <? b))%Z.
Definition fits3 b (t : Z * Z * Z) : bool :=
  let '(x, y, z) := t in fits b x && fits b y && fits b z.
Definition row_fits (r : recur_row) : bool :=
  let '(i, d, x, y, z) := r in
  fits3 128 i && fits 128 d && fits3 32768 x && fits3 32768 y && fits3 32768 z.

Lemma recurinfo_fits : forallb row_fits recurinfo_array = true.
Proof. vm_compute. reflexivity. Qed.

(** ** Statements collected for the property file *)
From Verif Require Import OrderData Tables.

Lemma recur_generator_ok g fuel : 
  ncart (gam g + 1) <= fuel ->
  py_generate fuel (Z.of_nat (gam g)) = Some (gmap (gam g)) /\
  exists r, nth_error (py_rows (gam g)) (pos g) = Some r /\ row_ok g r.
Proof.
  intros Hf. split.
  - apply py_generate_ok. pose proof (@ncart_mono (gam g) (gam g + 1) ltac:(lia)). lia.
  - exists (py_row gmap (gam g) g). split; [apply py_rows_nth|apply py_row_ok].
Qed.

(** Position given by the generator's table and the row of the run-time table. *)
Definition orders_agree (idx : list (list Z)) (g : gauss) : Prop :=
  exists h i r, nth_error idx (gam g) = Some h /\ gaussian_order h g = Some i /\
    recur_lookup (gam g) i = Some r /\ row_ok g r.

Definition orders_disagree (idx : list (list Z)) (g : gauss) : Prop :=
  exists h i r, nth_error idx (gam g) = Some h /\ gaussian_order h g = Some i /\
    recur_lookup (gam g) i = Some r /\ ~ row_ok g r.

Lemma psi4_agrees g : gam g <= 18 -> orders_agree psi4_tbl_index g.
Proof.
  intros H. destruct (@tables_ok _ _ psi4_checks (gam g) ltac:(lia)) as
    [l [h [H1 [H2 [[Hnd [_ [Hin Ho]]] _]]]]].
  rewrite psi4_tbl_cart in H1 by lia. injection H1 as <-.
  destruct (Ho g eq_refl) as [i [Hi1 Hi2]].
  destruct (opos_nth psi4 _ _ Hi1) as [_ Hp]. simpl in Hp. subst i.
  destruct (recur_lookup_ok _ H) as [r [Hr1 Hr2]].
  exists h, (pos g), r. auto.
Qed.

Definition gamess_same (am : nat) : bool :=
  match tbl_at gamess_tbl_order am with
  | Some l => Bool.eqb (glist_eqb l (cart_list am)) (negb ((am =? 2) || (am =? 3)))
  | None => false end.

Lemma gamess_same_all : forallb gamess_same (seq 0 25) = true.
Proof. vm_compute. reflexivity. Qed.

Lemma gamess_differs_only_df am : am <= 24 ->
  exists l, tbl_at gamess_tbl_order am = Some l /\ (l = cart_list am <-> am <> 2 /\ am <> 3).
Proof.
  intros H. assert (E : gamess_same am = true).
  { apply (forallb_In _ _ _ gamess_same_all). apply in_seq; lia. }
  unfold gamess_same in E. destruct (tbl_at gamess_tbl_order am) as [l|]; [|discriminate].
  exists l. split; [reflexivity|].
  apply Bool.eqb_prop in E. split.
  - intros ->. assert (glist_eqb (cart_list am) (cart_list am) = true) as E2.
    { generalize (cart_list am) as u. induction u as [|x u IH]; [reflexivity|].
      simpl. rewrite IH. rewrite (proj2 (gauss_eqb_eq x x) eq_refl). reflexivity. }
    rewrite E2 in E. symmetry in E. apply negb_true_iff, orb_false_iff in E.
    destruct E as [E1 E3]. apply Nat.eqb_neq in E1, E3. auto.
  - intros [H2 H3]. apply glist_eqb_eq. rewrite E.
    apply negb_true_iff, orb_false_iff. split; apply Nat.eqb_neq; assumption.
Qed.

Lemma gamess_disagrees : exists g, gam g = 2 /\ orders_disagree gamess_tbl_index g.
Proof.
  exists (G 0 2 0). split; [reflexivity|].
  exists [2; 512; 131072; 257; 65537; 65792]%Z, 1,
    ((1, 1, 0), 1, (1, -1, 1), (0, -1, 3), (-1, -1, 4))%Z.
  split; [reflexivity|]. split; [reflexivity|]. split; [vm_compute; reflexivity|].
  unfold row_ok. intros [E _]. discriminate.
Qed.
