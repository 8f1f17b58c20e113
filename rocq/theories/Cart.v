(** Cartesian Gaussians, their standard order and flattened positions.
    Sources: python/ordering_common/{gaussian,ordering_psi4,generate}.py,
    python/gen_ordering.py, generator/Types.hpp, generator/Types.cpp,
    generator/Ncart.hpp. *)
From Coq Require Import List Arith Lia ZArith Bool ZifyNat Permutation.
Import ListNotations.
From Verif Require Import Base.
Set Implicit Arguments.

(** [struct Gaussian { ExpList ijk; }], Types.hpp:266-269.  Simplification: exponents
    are natural numbers; a Gaussian with a negative exponent (the C++
    "invalid" Gaussian, [operator bool] Types.hpp:318-321) is represented by [None]. *)
Record gauss := G { gx : nat; gy : nat; gz : nat }.

(** [Gaussian::am], Types.hpp:272. *)
Definition gam (g : gauss) : nat := gx g + gy g + gz g.

(** [NCART_], Ncart.hpp:13; [Gaussian::ncart], Types.hpp:280 ([>>1] on a
    non-negative number is division by two). *)
Definition ncart (am : nat) : nat := ((am + 2) * (am + 1)) / 2.

Definition gauss_eqb (a b : gauss) : bool :=
  (gx a =? gx b) && (gy a =? gy b) && (gz a =? gz b).

Lemma gauss_eqb_eq a b : gauss_eqb a b = true <-> a = b.
Proof.
  destruct a as [x y z], b as [x' y' z']; unfold gauss_eqb; simpl.
  rewrite !andb_true_iff, !Nat.eqb_eq. split; [intros [[-> ->] ->]; reflexivity|].
  intros E; injection E; auto.
Qed.

Definition gauss_eq_dec (a b : gauss) : {a = b} + {a <> b}.
Proof. decide equality; apply Nat.eq_dec. Defined.

(** Cartesian directions, [XYZStep], Types.hpp:199-204. *)
Inductive dir := DX | DY | DZ.

Definition dir_eq_dec (a b : dir) : {a = b} + {a <> b}.
Proof. decide equality. Defined.

Definition gexp (d : dir) (g : gauss) : nat :=
  match d with DX => gx g | DY => gy g | DZ => gz g end.

(** [Gaussian::StepUp(idx, 1)], Types.hpp:361-366. *)
Definition up (d : dir) (g : gauss) : gauss :=
  match d with
  | DX => G (S (gx g)) (gy g) (gz g)
  | DY => G (gx g) (S (gy g)) (gz g)
  | DZ => G (gx g) (gy g) (S (gz g))
  end.

(** [Gaussian::StepDown(idx, 1)], Types.hpp:386-391; [None] when the result is
    not a valid Gaussian. *)
Definition down (d : dir) (g : gauss) : option gauss :=
  match d with
  | DX => match gx g with 0 => None | S k => Some (G k (gy g) (gz g)) end
  | DY => match gy g with 0 => None | S k => Some (G (gx g) k (gz g)) end
  | DZ => match gz g with 0 => None | S k => Some (G (gx g) (gy g) k) end
  end.

Lemma down_some d g g' : down d g = Some g' <-> g = up d g'.
Proof.
  destruct g as [x y z], g' as [x' y' z'], d; simpl; unfold up; simpl.
  - destruct x; split; intros H; try discriminate; injection H; intros; subst; auto.
  - destruct y; split; intros H; try discriminate; injection H; intros; subst; auto.
  - destruct z; split; intros H; try discriminate; injection H; intros; subst; auto.
Qed.

Lemma down_none d g : down d g = None <-> gexp d g = 0.
Proof.
  destruct g as [x y z], d; simpl.
  - destruct x; split; intros H; try discriminate; auto.
  - destruct y; split; intros H; try discriminate; auto.
  - destruct z; split; intros H; try discriminate; auto.
Qed.

Lemma down_up d g : down d (up d g) = Some g.
Proof. apply down_some; reflexivity. Qed.

Lemma gam_up d g : gam (up d g) = S (gam g).
Proof. destruct d; unfold gam, up; simpl; lia. Qed.

Lemma gam_down d g g' : down d g = Some g' -> gam g = S (gam g').
Proof. intros H; apply down_some in H; subst; apply gam_up. Qed.

Lemma gexp_up_same d g : gexp d (up d g) = S (gexp d g).
Proof. destruct d; reflexivity. Qed.

Lemma gexp_up_other d e g : d <> e -> gexp e (up d g) = gexp e g.
Proof. destruct d, e; simpl; congruence. Qed.

Lemma gexp_le d g : gexp d g <= gam g.
Proof. destruct d; unfold gam; simpl; lia. Qed.

(** ** Triangular numbers *)
Fixpoint tri (n : nat) : nat := match n with 0 => 0 | S k => n + tri k end.

Lemma tri_double n : 2 * tri n = n * (n + 1).
Proof. induction n as [|n IH]; [reflexivity|]. cbn [tri]. nia. Qed.

Lemma ncart_tri am : ncart am = tri (S am).
Proof.
  unfold ncart. pose proof (tri_double (S am)) as H.
  replace ((am + 2) * (am + 1)) with (tri (S am) * 2) by lia.
  apply Nat.div_mul; lia.
Qed.

Lemma ncart_double am : 2 * ncart am = (am + 1) * (am + 2).
Proof. rewrite ncart_tri, tri_double. lia. Qed.

Lemma ncart_pos am : 0 < ncart am.
Proof. rewrite ncart_tri; simpl; lia. Qed.

Lemma tri_mono a b : a <= b -> tri a <= tri b.
Proof. intros H. pose proof (tri_double a). pose proof (tri_double b). nia. Qed.

Lemma ncart_mono a b : a <= b -> ncart a <= ncart b.
Proof. intros H. rewrite !ncart_tri. apply tri_mono; lia. Qed.

(** ** The python generator of the order *)

(** A python [Gaussian]'s [ijk], gaussian.py:2-5; python integers are unbounded. *)
Definition pyg : Type := (Z * Z * Z)%type.

(** [Gaussian.IsValid], gaussian.py:18-22. *)
Definition py_valid (am : Z) (g : pyg) : bool :=
  let '(x, y, z) := g in
  ((0 <=? x) && (x <=? am) && (0 <=? y) && (y <=? am) &&
   (0 <=? z) && (z <=? am) && (x + y + z =? am))%Z.

(** [IteratePsi4], ordering_psi4.py:3-13. *)
Definition py_iterate (am : Z) (g : pyg) : pyg :=
  let '(x, y, z) := g in
  if (z =? am)%Z then (-1, -1, -1)%Z
  else if (z <? am - x)%Z then (x, y - 1, z + 1)%Z
  else (x - 1, am - x + 1, 0)%Z.

(** The [while g.IsValid()] loop of [GenerateMap], generate.py:11-13.
    [None]: fuel exhausted (the loop would run longer). *)
Fixpoint py_loop (fuel : nat) (am : Z) (g : pyg) : option (list pyg) :=
  match fuel with
  | 0 => None
  | S f => if py_valid am g
           then match py_loop f am (py_iterate am g) with
                | Some l => Some (g :: l) | None => None end
           else Some []
  end.

(** [GenerateMap] for one angular momentum, generate.py:6-13. *)
Definition py_generate (fuel : nat) (am : Z) : option (list pyg) :=
  match py_loop fuel am (py_iterate am (am, 0, 0)%Z) with
  | Some l => Some ((am, 0, 0)%Z :: l)
  | None => None
  end.

(** ** Closed form *)
Definition row (am t : nat) : list gauss :=
  map (fun z => G (am - t) (t - z) z) (seq 0 (S t)).

Definition cart_list (am : nat) : list gauss := flat_map (row am) (seq 0 (S am)).

(** Position in the Psi4 order. *)
Definition pos (g : gauss) : nat := tri (gy g + gz g) + gz g.

Definition toZ (g : gauss) : pyg := (Z.of_nat (gx g), Z.of_nat (gy g), Z.of_nat (gz g)).

Lemma row_length am t : length (row am t) = S t.
Proof. unfold row. rewrite map_length, seq_length. reflexivity. Qed.

Lemma rows_length am m t :
  length (flat_map (row am) (seq t m)) = tri (t + m) - tri t.
Proof.
  revert t; induction m as [|m IH]; intros t; cbn [seq flat_map].
  - rewrite Nat.add_0_r. simpl; lia.
  - rewrite app_length, row_length, IH.
    replace (t + S m) with (S t + m) by lia.
    pose proof (@tri_mono (S t) (S t + m) ltac:(lia)).
    assert (tri (S t) = S t + tri t) by reflexivity. lia.
Qed.

Lemma cart_list_length am : length (cart_list am) = ncart am.
Proof.
  unfold cart_list. rewrite rows_length, ncart_tri. cbn [Nat.add].
  assert (tri 0 = 0) by reflexivity. lia.
Qed.

Lemma in_cart_list am g : In g (cart_list am) <-> gam g = am.
Proof.
  unfold cart_list, row. rewrite in_flat_map. split.
  - intros [t [Ht Hg]]. apply in_map_iff in Hg as [z [<- Hz]].
    apply in_seq in Ht; apply in_seq in Hz. unfold gam; simpl; lia.
  - intros H. destruct g as [x y z]; unfold gam in H; simpl in H.
    exists (y + z). split; [apply in_seq; lia|].
    apply in_map_iff. exists z. split; [f_equal; lia|apply in_seq; lia].
Qed.

Lemma NoDup_cart_list am : NoDup (cart_list am).
Proof.
  apply NoDup_flat_map.
  - apply seq_NoDup.
  - intros t _. unfold row. apply FinFun.Injective_map_NoDup; [|apply seq_NoDup].
    intros a b H; injection H; auto.
  - intros a b g Ha Hb H1 H2. apply in_seq in Ha; apply in_seq in Hb.
    unfold row in *. apply in_map_iff in H1 as [z [<- Hz]].
    apply in_map_iff in H2 as [z' [E Hz']].
    apply in_seq in Hz; apply in_seq in Hz'. injection E; lia.
Qed.

Lemma nth_error_rows am t m :
  forall j z, j < m -> z <= t + j ->
  nth_error (flat_map (row am) (seq t m)) (tri (t + j) - tri t + z)
  = Some (G (am - (t + j)) (t + j - z) z).
Proof.
  revert t; induction m as [|m IH]; intros t j z Hj Hz; [lia|].
  cbn [seq flat_map]. destruct j as [|j].
  - rewrite Nat.add_0_r in *. rewrite Nat.sub_diag. cbn [Nat.add].
    rewrite nth_error_app1 by (rewrite row_length; lia).
    unfold row. rewrite nth_error_map, nth_error_seq by lia. reflexivity.
  - replace (t + S j) with (S t + j) in * by lia.
    pose proof (@tri_mono (S t) (S t + j) ltac:(lia)) as Hm.
    assert (Ht : tri (S t) = S t + tri t) by reflexivity.
    rewrite nth_error_app2 by (rewrite row_length; lia).
    rewrite row_length.
    replace (tri (S t + j) - tri t + z - S t) with (tri (S t + j) - tri (S t) + z) by lia.
    apply IH; lia.
Qed.

Lemma nth_error_cart_list g : nth_error (cart_list (gam g)) (pos g) = Some g.
Proof.
  destruct g as [x y z]. unfold cart_list, pos, gam; simpl gx; simpl gy; simpl gz.
  pose proof (@nth_error_rows (x + y + z) 0 (S (x + y + z)) (y + z) z ltac:(lia) ltac:(lia)) as H.
  change (tri 0) with 0 in H. rewrite Nat.sub_0_r in H.
  change (0 + (y + z)) with (y + z) in H. rewrite H.
  f_equal. f_equal; lia.
Qed.

(** *** The python loop produces the closed form *)
Definition el (am t z : nat) : pyg := toZ (G (am - t) (t - z) z).

Lemma el_valid am t z : t <= am -> z <= t -> py_valid (Z.of_nat am) (el am t z) = true.
Proof.
  intros Ht Hz. unfold py_valid, el, toZ; simpl gx; simpl gy; simpl gz.
  rewrite !andb_true_iff, !Z.leb_le, Z.eqb_eq. repeat split; lia.
Qed.

Lemma el_step_row am t z : t <= am -> z < t ->
  py_iterate (Z.of_nat am) (el am t z) = el am t (S z).
Proof.
  intros Ht Hz. unfold py_iterate, el, toZ; simpl gx; simpl gy; simpl gz.
  destruct (Z.eqb_spec (Z.of_nat z) (Z.of_nat am)); [lia|].
  destruct (Z.ltb_spec (Z.of_nat z) (Z.of_nat am - Z.of_nat (am - t))); [|lia].
  f_equal; try lia; f_equal; lia.
Qed.

Lemma el_step_next am t : t < am ->
  py_iterate (Z.of_nat am) (el am t t) = el am (S t) 0.
Proof.
  intros Ht. unfold py_iterate, el, toZ; simpl gx; simpl gy; simpl gz.
  destruct (Z.eqb_spec (Z.of_nat t) (Z.of_nat am)); [lia|].
  destruct (Z.ltb_spec (Z.of_nat t) (Z.of_nat am - Z.of_nat (am - t))); [lia|].
  f_equal; try lia; f_equal; lia.
Qed.

Lemma el_step_end am : py_iterate (Z.of_nat am) (el am am am) = (-1, -1, -1)%Z.
Proof.
  unfold py_iterate, el, toZ; simpl gx; simpl gy; simpl gz.
  rewrite Z.eqb_refl. reflexivity.
Qed.

Lemma py_loop_row am t n : forall z fuel, t <= am -> z + n = t ->
  py_loop (S n + fuel) (Z.of_nat am) (el am t z) =
  match py_loop fuel (Z.of_nat am) (py_iterate (Z.of_nat am) (el am t t)) with
  | Some l => Some (map (el am t) (seq z (S n)) ++ l)
  | None => None
  end.
Proof.
  induction n as [|n IH]; intros z fuel Ht Hz.
  - assert (z = t) by lia; subst z. cbn [Nat.add py_loop].
    rewrite el_valid by lia. destruct (py_loop fuel _ _); reflexivity.
  - change (S (S n) + fuel) with (S (S n + fuel)). cbn [py_loop].
    rewrite el_valid by lia. rewrite el_step_row by lia.
    rewrite IH by lia. destruct (py_loop fuel _ _); reflexivity.
Qed.

Lemma map_toZ_row am t : map toZ (row am t) = map (el am t) (seq 0 (S t)).
Proof. unfold row. rewrite map_map. reflexivity. Qed.

Lemma py_loop_rows am m : forall t fuel, t + m = am ->
  tri (S am) - tri t < fuel ->
  py_loop fuel (Z.of_nat am) (el am t 0)
  = Some (map toZ (flat_map (row am) (seq t (S m)))).
Proof.
  induction m as [|m IH]; intros t fuel Ht Hf.
  - assert (t = am) by lia; subst t.
    assert (tri (S am) = S am + tri am) by reflexivity.
    replace fuel with (S am + (fuel - S am)) by lia.
    rewrite py_loop_row by lia. rewrite el_step_end.
    destruct (fuel - S am) as [|f] eqn:E; [lia|]. cbn [py_loop].
    replace (py_valid (Z.of_nat am) (-1, -1, -1)%Z) with false by reflexivity.
    cbn [seq flat_map]. rewrite !app_nil_r, map_toZ_row. reflexivity.
  - assert (tri (S t) = S t + tri t) by reflexivity.
    pose proof (@tri_mono (S t) (S am) ltac:(lia)).
    replace fuel with (S t + (fuel - S t)) by lia.
    rewrite py_loop_row by lia. rewrite el_step_next by lia.
    rewrite IH by lia.
    change (seq t (S (S m))) with (t :: seq (S t) (S m)).
    change (flat_map (row am) (t :: seq (S t) (S m)))
      with (row am t ++ flat_map (row am) (seq (S t) (S m))).
    rewrite map_app, map_toZ_row. reflexivity.
Qed.

Lemma py_generate_ok am fuel : ncart am <= fuel ->
  py_generate fuel (Z.of_nat am) = Some (map toZ (cart_list am)).
Proof.
  intros Hf. unfold py_generate.
  pose proof (@py_loop_rows am am 0 (S fuel) ltac:(lia)) as H.
  rewrite ncart_tri in Hf. simpl (tri 0) in H. specialize (H ltac:(lia)).
  cbn [py_loop] in H. rewrite el_valid in H by lia.
  replace (el am 0 0) with ((Z.of_nat am, 0, 0)%Z : pyg) in H
    by (unfold el, toZ; simpl; rewrite Nat.sub_0_r; reflexivity).
  destruct (py_loop fuel _ _); [exact H|discriminate].
Qed.

(** ** Hashing, [HashExpList], Types.hpp:569-576 *)
Definition hash_exp (x y z : Z) : Z :=
  Z.lor (Z.lor (Z.lor 0 (Z.shiftl x 0)) (Z.shiftl y 8)) (Z.shiftl z 16).

Definition ghash (g : gauss) : Z :=
  hash_exp (Z.of_nat (gx g)) (Z.of_nat (gy g)) (Z.of_nat (gz g)).

Lemma lor_shift a b n : (0 <= n)%Z -> (0 <= a < 2 ^ n)%Z ->
  Z.lor a (Z.shiftl b n) = (a + b * 2 ^ n)%Z.
Proof.
  intros Hn Ha.
  assert (E : Z.land a (Z.shiftl b n) = 0%Z).
  { apply Z.bits_inj'. intros i Hi. rewrite Z.land_spec, Z.bits_0.
    destruct (Z.ltb_spec i n) as [L|L].
    - rewrite Z.shiftl_spec_low by exact L. apply andb_false_r.
    - replace (Z.testbit a i) with false; [reflexivity|].
      symmetry. destruct (Z.eqb_spec a 0) as [->|Hne]; [apply Z.bits_0|].
      apply Z.bits_above_log2; [lia|]. apply Z.log2_lt_pow2; [lia|].
      assert (2 ^ n <= 2 ^ i)%Z by (apply Z.pow_le_mono_r; lia). lia. }
  rewrite <- Z.lxor_lor by exact E.
  rewrite <- Z.add_nocarry_lxor by exact E.
  rewrite Z.shiftl_mul_pow2 by exact Hn. reflexivity.
Qed.

Lemma hash_exp_closed x y z :
  (0 <= x < 256)%Z -> (0 <= y < 256)%Z -> (0 <= z)%Z ->
  hash_exp x y z = (x + 256 * y + 65536 * z)%Z.
Proof.
  intros Hx Hy Hz. unfold hash_exp. rewrite Z.lor_0_l, Z.shiftl_0_r.
  assert (E8 : (2 ^ 8 = 256)%Z) by reflexivity.
  assert (E16 : (2 ^ 16 = 65536)%Z) by reflexivity.
  rewrite (@lor_shift x y 8) by (rewrite ?E8; lia). rewrite E8.
  rewrite (@lor_shift (x + y * 256) z 16) by (rewrite ?E16; lia). rewrite E16. lia.
Qed.

Lemma hash_exp_inj x y z x' y' z' :
  (0 <= x < 256)%Z -> (0 <= y < 256)%Z -> (0 <= z < 256)%Z ->
  (0 <= x' < 256)%Z -> (0 <= y' < 256)%Z -> (0 <= z' < 256)%Z ->
  hash_exp x y z = hash_exp x' y' z' -> x = x' /\ y = y' /\ z = z'.
Proof. intros. rewrite !hash_exp_closed in * by lia. lia. Qed.

Lemma ghash_inj a b : gam a < 256 -> gam b < 256 -> ghash a = ghash b -> a = b.
Proof.
  destruct a as [x y z], b as [x' y' z']; unfold gam, ghash; simpl. intros Ha Hb H.
  apply hash_exp_inj in H; [|lia..]. f_equal; lia.
Qed.

(** ** Orderings *)

(** What the two ordering tables ([gorder_map] + [GaussianOrder]) must provide:
    a list of components per angular momentum and the position of each component. *)
Record ordering := Ordering {
  olist : nat -> list gauss;
  opos : gauss -> nat;
  o_len : forall am, length (olist am) = ncart am;
  o_nodup : forall am, NoDup (olist am);
  o_in : forall am g, In g (olist am) <-> gam g = am;
  o_nth : forall g, nth_error (olist (gam g)) (opos g) = Some g
}.

Definition psi4 : ordering :=
  {| olist := cart_list; opos := pos;
     o_len := cart_list_length; o_nodup := NoDup_cart_list;
     o_in := in_cart_list; o_nth := nth_error_cart_list |}.

Lemma opos_lt o g : opos o g < ncart (gam g).
Proof. rewrite <- (o_len o). eapply nth_error_Some_lt. apply o_nth. Qed.

Lemma opos_inj o a b : gam a = gam b -> opos o a = opos o b -> a = b.
Proof.
  intros Hg Hp. pose proof (o_nth o a) as Ha. pose proof (o_nth o b) as Hb.
  rewrite Hg, Hp in Ha. congruence.
Qed.

Lemma opos_nth o am i g : nth_error (olist o am) i = Some g -> gam g = am /\ opos o g = i.
Proof.
  intros H. assert (Hin : gam g = am) by (apply (o_in o), (nth_error_In _ _ H)).
  split; [exact Hin|].
  pose proof (o_nth o g) as Hg. rewrite Hin in Hg.
  apply (proj1 (NoDup_nth_error (olist o am)) (o_nodup o am)).
  - eapply nth_error_Some_lt; exact Hg.
  - congruence.
Qed.

Lemma opos_surj o am i : i < ncart am -> exists g, gam g = am /\ opos o g = i.
Proof.
  intros H. rewrite <- (o_len o) in H. destruct (nth_error_lt_Some _ H) as [g Hg].
  exists g. apply opos_nth in Hg. exact Hg.
Qed.

Lemma pos_lt g : pos g < ncart (gam g).
Proof. apply (opos_lt psi4). Qed.

(** [GaussianOrder], Types.cpp:77-89, over a list of hashes ([gindex_map.at(am)]).
    [None] is the [runtime_error]. *)
Definition gaussian_order (hashes : list Z) (g : gauss) : option nat :=
  find_pos (Z.eqb (ghash g)) hashes.

Lemma gaussian_order_ok (tbl : list gauss) g i :
  NoDup tbl -> (forall h, In h tbl -> gam h < 256) ->
  nth_error tbl i = Some g ->
  gaussian_order (map ghash tbl) g = Some i.
Proof.
  intros Hnd Hb Hi. unfold gaussian_order.
  apply find_pos_first with (x := ghash g).
  - rewrite nth_error_map, Hi. reflexivity.
  - apply Z.eqb_refl.
  - intros j y Hj Hy. apply Z.eqb_eq in Hy. subst y.
    rewrite nth_error_map in Hj. destruct (nth_error tbl j) as [h|] eqn:E; [|discriminate].
    injection Hj as Hj. apply ghash_inj in Hj;
      [|apply Hb, (nth_error_In _ _ E)|apply Hb, (nth_error_In _ _ Hi)].
    subst h. apply (proj1 (NoDup_nth_error tbl) Hnd).
    + eapply nth_error_Some_lt; exact E.
    + congruence.
Qed.

(** Lookup of something that is not in the table throws. *)
Lemma gaussian_order_none (tbl : list gauss) g :
  (forall h, In h tbl -> gam h < 256) -> gam g < 256 -> ~ In g tbl ->
  gaussian_order (map ghash tbl) g = None.
Proof.
  intros Hb Hg Hn. apply find_pos_none_iff. intros h Hh.
  apply in_map_iff in Hh as [k [<- Hk]]. apply Z.eqb_neq. intros E.
  apply ghash_inj in E; [|exact Hg|apply Hb; exact Hk]. congruence.
Qed.

(** ** Iteration and target lists *)

(** [Gaussian::Iterate], Types.hpp:328-340: the next component, or unchanged (and
    [false]) at the end of the list. *)
Definition iterate (o : ordering) (g : gauss) : gauss * bool :=
  match nth_error (olist o (gam g)) (opos o g + 1) with
  | Some g' => (g', true)
  | None => (g, false)
  end.

(** One of the nested loops of [GenerateQuartetTargets]/[GenerateDoubletTargets]:
    start at {am,0,0}, visit [nam] elements, Types.cpp:24-49, 60-70. *)
Fixpoint iter_list (o : ordering) (n : nat) (g : gauss) : list gauss :=
  match n with 0 => [] | S k => g :: iter_list o k (fst (iterate o g)) end.

Definition targets1 (o : ordering) (am : nat) : list gauss :=
  iter_list o (ncart am) (G am 0 0).

Lemma iter_list_skipn o am n i g :
  nth_error (olist o am) i = Some g -> i + n = ncart am ->
  iter_list o n g = skipn i (olist o am).
Proof.
  revert i g; induction n as [|n IH]; intros i g Hi Hn.
  - simpl. rewrite skipn_all2; [reflexivity|]. rewrite (o_len o). lia.
  - cbn [iter_list].
    destruct (opos_nth _ _ _ Hi) as [Ha Hp].
    assert (E : skipn i (olist o am) = g :: skipn (S i) (olist o am)).
    { clear -Hi. revert i Hi. generalize (olist o am) as l.
      induction l as [|x l IH]; intros [|i] H; try discriminate.
      - injection H as ->. reflexivity.
      - simpl in *. apply IH; exact H. }
    rewrite E. f_equal.
    unfold iterate. rewrite Ha, Hp.
    destruct (nth_error (olist o am) (i + 1)) as [g'|] eqn:E2; cbn [fst].
    + apply IH; [replace (S i) with (i + 1) by lia; exact E2|lia].
    + apply nth_error_None in E2. rewrite (o_len o) in E2.
      assert (n = 0) by lia. subst n. cbn [iter_list].
      rewrite skipn_all2; [reflexivity|]. rewrite (o_len o). lia.
Qed.

(** The loops visit the whole component list when it begins with {am,0,0}. *)
Lemma targets1_ok o am :
  nth_error (olist o am) 0 = Some (G am 0 0) -> targets1 o am = olist o am.
Proof. intros H. unfold targets1. rewrite (@iter_list_skipn o am _ 0 _ H); reflexivity. Qed.

Lemma psi4_first am : nth_error (olist psi4 am) 0 = Some (G am 0 0).
Proof.
  pose proof (o_nth psi4 (G am 0 0)) as H. unfold gam in H; simpl in H.
  replace (am + 0 + 0) with am in H by lia. exact H.
Qed.

(** ** Doublets and quartets of components *)

(** [struct Doublet], Types.hpp:406-411, without type and tag. *)
Record dbl := D { dl : gauss; dr : gauss }.
(** [struct Quartet], Types.hpp:482-487, without m and tag. *)
Record qrt := Q4 { qa : gauss; qb : gauss; qc : gauss; qd : gauss }.

Definition dbl_eq_dec (a b : dbl) : {a = b} + {a <> b}.
Proof. decide equality; apply gauss_eq_dec. Defined.
Definition qrt_eq_dec (a b : qrt) : {a = b} + {a <> b}.
Proof. decide equality; apply gauss_eq_dec. Defined.

Definition bra (q : qrt) : dbl := D (qa q) (qb q).
Definition ket (q : qrt) : dbl := D (qc q) (qd q).

(** Class of a doublet / quartet: [amlist] (Types.hpp:416, 492) without the tag. *)
Record qam := QAM { am0 : nat; am1 : nat; am2 : nat; am3 : nat }.
Definition qam_eq_dec (a b : qam) : {a = b} + {a <> b}.
Proof. decide equality; apply Nat.eq_dec. Defined.
Definition qclass (q : qrt) : qam := QAM (gam (qa q)) (gam (qb q)) (gam (qc q)) (gam (qd q)).
Definition dclass (d : dbl) : nat * nat := (gam (dl d), gam (dr d)).

(** [NCART(QAM)], [NCART(DAM)], Ncart.hpp:36-54. *)
Definition qncart (a : qam) : nat := ncart (am0 a) * ncart (am1 a) * ncart (am2 a) * ncart (am3 a).
Definition dncart (a : nat * nat) : nat := ncart (fst a) * ncart (snd a).

(** [Doublet::index], Types.hpp:414. *)
Definition dindex (o : ordering) (d : dbl) : nat :=
  opos o (dl d) * ncart (gam (dr d)) + opos o (dr d).
(** [Quartet::index], Types.hpp:490 ([ket.ncart()], Types.hpp:415). *)
Definition qindex (o : ordering) (q : qrt) : nat :=
  dindex o (bra q) * dncart (dclass (ket q)) + dindex o (ket q).

Lemma dindex_lt o d : dindex o d < dncart (dclass d).
Proof.
  unfold dindex, dncart, dclass; simpl.
  pose proof (opos_lt o (dl d)); pose proof (opos_lt o (dr d)). nia.
Qed.

Lemma mixed_inj n a b a' b' : b < n -> b' < n -> a * n + b = a' * n + b' -> a = a' /\ b = b'.
Proof. intros H H' E. assert (a = a') by nia. subst; lia. Qed.

Lemma dindex_inj o d e : dclass d = dclass e -> dindex o d = dindex o e -> d = e.
Proof.
  destruct d as [l r], e as [l' r']; unfold dclass, dindex; simpl. intros Hc Hi.
  injection Hc as Hl Hr. rewrite Hr in Hi.
  apply mixed_inj in Hi; [|rewrite <- Hr; apply opos_lt|apply opos_lt].
  destruct Hi as [H1 H2].
  apply opos_inj in H1; [|exact Hl]. apply opos_inj in H2; [|exact Hr]. congruence.
Qed.

Lemma qindex_lt o q : qindex o q < qncart (qclass q).
Proof.
  unfold qindex. pose proof (dindex_lt o (bra q)) as H1. pose proof (dindex_lt o (ket q)) as H2.
  unfold qncart, qclass, dncart, dclass in *; simpl in *. nia.
Qed.

Lemma qindex_inj o p q : qclass p = qclass q -> qindex o p = qindex o q -> p = q.
Proof.
  intros Hc Hi. destruct p as [a b c d], q as [a' b' c' d'].
  unfold qclass in Hc; simpl in Hc. injection Hc as H0 H1 H2 H3.
  unfold qindex in Hi.
  assert (E : dclass (ket (Q4 a b c d)) = dclass (ket (Q4 a' b' c' d'))).
  { unfold dclass, ket; simpl; congruence. }
  rewrite E in Hi. apply mixed_inj in Hi; [|rewrite <- E; apply dindex_lt|apply dindex_lt].
  destruct Hi as [I1 I2].
  apply dindex_inj in I1; [|unfold dclass, bra; simpl; congruence].
  apply dindex_inj in I2; [|exact E].
  unfold bra, ket in *; simpl in *; congruence.
Qed.

Lemma dindex_surj o a b i : i < ncart a * ncart b ->
  exists d, dclass d = (a, b) /\ dindex o d = i.
Proof.
  intros H. pose proof (ncart_pos b) as Hb.
  pose proof (Nat.div_mod i (ncart b) ltac:(lia)) as E.
  pose proof (Nat.mod_upper_bound i (ncart b) ltac:(lia)) as Hm.
  destruct (opos_surj o a (i := i / ncart b)) as [l [Hl1 Hl2]].
  { apply Nat.div_lt_upper_bound; nia. }
  destruct (opos_surj o b (i := i mod ncart b) Hm) as [r [Hr1 Hr2]].
  exists (D l r). unfold dclass, dindex; simpl. split; [congruence|].
  rewrite Hl2, Hr1, Hr2. lia.
Qed.

Lemma qindex_surj o c i : i < qncart c -> exists q, qclass q = c /\ qindex o q = i.
Proof.
  destruct c as [a b c d]; unfold qncart; simpl. intros H.
  assert (Hp : 0 < ncart c * ncart d)
    by (pose proof (ncart_pos c); pose proof (ncart_pos d); nia).
  pose proof (Nat.div_mod i (ncart c * ncart d) ltac:(lia)) as E.
  pose proof (Nat.mod_upper_bound i (ncart c * ncart d) ltac:(lia)) as Hm.
  destruct (@dindex_surj o a b (i / (ncart c * ncart d))) as [u [Hu1 Hu2]].
  { apply Nat.div_lt_upper_bound; nia. }
  destruct (@dindex_surj o c d (i mod (ncart c * ncart d)) Hm) as [v [Hv1 Hv2]].
  destruct u as [u1 u2], v as [v1 v2].
  exists (Q4 u1 u2 v1 v2). unfold dclass in Hu1, Hv1; simpl in *.
  injection Hu1 as <- <-. injection Hv1 as <- <-.
  split; [reflexivity|]. unfold qindex, bra, ket, dclass, dncart; simpl. rewrite Hu2, Hv2.
  lia.
Qed.

(** Row-major form over the four component positions. *)
Lemma qindex_row_major o q :
  qindex o q =
  ((opos o (qa q) * ncart (gam (qb q)) + opos o (qb q)) * ncart (gam (qc q))
   + opos o (qc q)) * ncart (gam (qd q)) + opos o (qd q).
Proof. unfold qindex, dindex, dncart, dclass, bra, ket; simpl. nia. Qed.

(** [GenerateDoubletTargets] / [GenerateQuartetTargets] as lists (the std::set's own
    order is not modelled). *)
Definition dtargets (o : ordering) (a b : nat) : list dbl :=
  flat_map (fun l => map (fun r => D l r) (targets1 o b)) (targets1 o a).
Definition qtargets (o : ordering) (c : qam) : list qrt :=
  flat_map (fun a => flat_map (fun b => flat_map (fun c' => map (fun d => Q4 a b c' d)
    (targets1 o (am3 c))) (targets1 o (am2 c))) (targets1 o (am1 c))) (targets1 o (am0 c)).

Definition starts_x (o : ordering) : Prop :=
  forall am, nth_error (olist o am) 0 = Some (G am 0 0).

Lemma in_dtargets o a b d : starts_x o -> (In d (dtargets o a b) <-> dclass d = (a, b)).
Proof.
  intros Hs. unfold dtargets. rewrite !targets1_ok by apply Hs.
  rewrite in_flat_map. split.
  - intros [l [Hl Hd]]. apply in_map_iff in Hd as [r [<- Hr]].
    apply (o_in o) in Hl; apply (o_in o) in Hr. unfold dclass; simpl; congruence.
  - destruct d as [l r]; unfold dclass; simpl. intros H; injection H as H1 H2.
    exists l. split; [apply (o_in o); exact H1|].
    apply in_map_iff; exists r; split; [reflexivity|apply (o_in o); exact H2].
Qed.

Lemma in_qtargets o c q : starts_x o -> (In q (qtargets o c) <-> qclass q = c).
Proof.
  intros Hs. unfold qtargets. rewrite !targets1_ok by apply Hs.
  rewrite in_flat_map. split.
  - intros [a [Ha H]]. apply in_flat_map in H as [b [Hb H]].
    apply in_flat_map in H as [c' [Hc H]]. apply in_map_iff in H as [d [<- Hd]].
    apply (o_in o) in Ha, Hb, Hc, Hd. unfold qclass; simpl. destruct c; simpl in *; congruence.
  - destruct q as [a b c' d]; unfold qclass; simpl. intros <-; simpl.
    exists a; split; [apply (o_in o); reflexivity|].
    apply in_flat_map; exists b; split; [apply (o_in o); reflexivity|].
    apply in_flat_map; exists c'; split; [apply (o_in o); reflexivity|].
    apply in_map_iff; exists d; split; [reflexivity|apply (o_in o); reflexivity].
Qed.

(** ** Statements collected for the property file *)

Lemma order_bijection am fuel : ncart am <= fuel ->
  exists l, py_generate fuel (Z.of_nat am) = Some l /\
    2 * length l = (am + 1) * (am + 2) /\ NoDup l /\
    (forall x y z : Z, In (x, y, z) l <->
       (0 <= x /\ 0 <= y /\ 0 <= z /\ x + y + z = Z.of_nat am)%Z) /\
    (forall i x y z, nth_error l i = Some (x, y, z) ->
       (2 * Z.of_nat i = (y + z) * (y + z + 1) + 2 * z)%Z).
Proof.
  intros Hf. exists (map toZ (cart_list am)). split; [apply py_generate_ok; exact Hf|].
  split; [rewrite map_length, cart_list_length; apply ncart_double|].
  split.
  { apply FinFun.Injective_map_NoDup; [|apply NoDup_cart_list].
    intros [x y z] [x' y' z'] H. unfold toZ in H; simpl in H. injection H; intros. f_equal; lia. }
  split.
  - intros x y z. rewrite in_map_iff. split.
    + intros [[a b c] [E Hg]]. apply in_cart_list in Hg. unfold toZ, gam in *; simpl in *.
      injection E; lia.
    + intros H. exists (G (Z.to_nat x) (Z.to_nat y) (Z.to_nat z)). split.
      * unfold toZ; simpl. rewrite !Z2Nat.id by lia. reflexivity.
      * apply in_cart_list. unfold gam; simpl. lia.
  - intros i x y z H. rewrite nth_error_map in H.
    destruct (nth_error (cart_list am) i) as [[a b c]|] eqn:E; [|discriminate].
    destruct (opos_nth psi4 _ _ E) as [_ Hp]. simpl in Hp. subst i.
    simpl in H. injection H; intros; subst.
    unfold pos; simpl gy; simpl gz. pose proof (tri_double (b + c)) as Ht.
    apply (f_equal Z.of_nat) in Ht. rewrite !Nat2Z.inj_mul, !Nat2Z.inj_add in Ht.
    rewrite Nat2Z.inj_add. lia.
Qed.

Lemma hash_collision :
  exists x y z x' y' z' : Z,
    (0 <= x <= 256 /\ 0 <= y <= 256 /\ 0 <= z <= 256 /\
     0 <= x' <= 256 /\ 0 <= y' <= 256 /\ 0 <= z' <= 256)%Z /\
    (x, y, z) <> (x', y', z') /\ hash_exp x y z = hash_exp x' y' z'.
Proof.
  exists 256%Z, 0%Z, 0%Z, 0%Z, 1%Z, 0%Z.
  split; [lia|]. split; [discriminate|reflexivity].
Qed.

Lemma quartet_positions o c :
  (forall q, qclass q = c -> qindex o q < qncart c) /\
  (forall p q, qclass p = c -> qclass q = c -> qindex o p = qindex o q -> p = q) /\
  (forall i, i < qncart c -> exists q, qclass q = c /\ qindex o q = i) /\
  (forall q, qclass q = c -> qindex o q =
     ((opos o (qa q) * ncart (am1 c) + opos o (qb q)) * ncart (am2 c)
      + opos o (qc q)) * ncart (am3 c) + opos o (qd q)).
Proof.
  split; [intros q <-; apply qindex_lt|]. split.
  - intros p q Hp Hq. apply qindex_inj. congruence.
  - split; [apply qindex_surj|]. intros q <-. apply qindex_row_major.
Qed.

Lemma quartet_targets o c q : starts_x o -> (In q (qtargets o c) <-> qclass q = c).
Proof. apply in_qtargets. Qed.
