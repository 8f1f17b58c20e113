(** Allocation and filling of a batch of shell pairs: what is written where.
    Source: skel/simint/shell/shell.c:131-185 (simint_allocate_multi_shellpair_base),
    356-382 (simint_allocate_multi_shellpair2), 425-582 (simint_fill_multi_shellpair2, without the
    final sort), skel/simint/shell/shell_screen.c:126-223 (simint_primscreen_schwarz), 226-273
    (simint_primscreen_fastschwarz); skel/simint/shell/shell.h:89-94.

    The block is an array of doubles, [None]: not written yet.  Values are symbolic: which
    quantity of which primitive.  [nprim12] (ints, at the end of the block) is kept apart: a write
    behind the last double counts as out of bounds. *)
From Coq Require Import List Arith Lia Bool.
Import ListNotations.
From Verif Require Import Base Simd Offsets Starts.
Set Implicit Arguments.

(** A pair of shells: primitives of each, result of [compare_shell]. *)
Record spair := SP { sp_n1 : nat; sp_n2 : nat; sp_same : bool }.
(** [compare_shell] true implies equal [nprim] (shell.h:93). *)
Definition sp_wf (p : spair) : Prop := sp_same p = true -> sp_n1 p = sp_n2 p.
(** shell.c:532, 366-369. *)
Definition sp_np (p : spair) : nat :=
  if sp_same p then sp_n1 p * (sp_n1 p + 1) / 2 else sp_n1 p * sp_n2 p.
(** The loops over [i] and [j], shell.c:472-483. *)
Definition sp_prims (p : spair) : list (nat * nat) :=
  flat_map (fun i => map (pair i) (seq 0 (if sp_same p then S i else sp_n2 p))) (seq 0 (sp_n1 p)).

(** Arrays in the block: x, y, z, PA_x, .., PB_z, alpha, prefac are number 0 to 10. *)
Inductive arr := APrim (k : nat) | AScreen | AAlpha2 | ABeta2 | ADist (ax : nat).
Definition arr_eq_dec (a b : arr) : {a = b} + {a <> b}.
Proof. decide equality; apply Nat.eq_dec. Defined.
(** What is stored: array [a] of primitive [(i, j)] of pair [t]; distance [ax] of pair [t]; 0; 1. *)
Inductive dval := Of (a : arr) (t i j : nat) | Dist (ax t : nat) | Zero | One.
Definition a_alpha : arr := APrim 9.
Definition a_prefac : arr := APrim 10.

Inductive method := NoScreen | Schwarz | FastSchwarz.
Definition screens (m : method) : bool := match m with NoScreen => false | _ => true end.

Section Layout.
Variables (len nss : nat) (meth : method) (deriv : bool).
Variables (n : nat) (pr : nat -> spair).
Definition npf (t : nat) : nat := sp_np (pr t).

(** shell.c:356-382. *)
Fixpoint alloc_loop (m i nprim batchprim : nat) : nat :=
  match m with
  | 0 => nprim
  | S m' =>
    let bp := batchprim + npf i in
    if ((S i) mod nss =? 0) || (n <=? S i) then alloc_loop m' (S i) (nprim + rnd len bp) 0
    else alloc_loop m' (S i) nprim bp
  end.
Definition alloc : nat := alloc_loop n 0 0 0.

(** shell.c:131-185. *)
Definition nscr : nat := if screens meth then 1 else 0.
Definition nder : nat := if deriv then 2 else 0.
Definition nprim_arr : nat := 11 + nscr + nder.
Definition total_doubles : nat := alloc * nprim_arr + 3 * n.
Definition off (a : arr) : nat :=
  match a with
  | APrim k => alloc * k
  | AScreen => alloc * 11
  | AAlpha2 => alloc * (11 + nscr)
  | ABeta2 => alloc * (11 + nscr + 1)
  | ADist ax => alloc * nprim_arr + ax * n
  end.
Definition arr_ok (a : arr) : bool :=
  match a with
  | APrim k => k <? 11
  | AScreen => screens meth
  | AAlpha2 | ABeta2 => deriv
  | ADist ax => ax <? 3
  end.
Definition size (a : arr) : nat := match a with ADist _ => n | _ => alloc end.

(** Arrays written for each primitive, shell.c:493-526. *)
Definition prim_arrs : list arr := map APrim (seq 0 11) ++ (if deriv then [AAlpha2; ABeta2] else []).
Definition op : Type := arr * nat * dval.

Definition prim_ops (t idx : nat) : list op :=
  flat_map (fun k => match nth_error (sp_prims (pr t)) k with
    | Some (i, j) => map (fun a => (a, idx + k, Of a t i j)) prim_arrs
    | None => []
    end) (seq 0 (length (sp_prims (pr t)))).
(** shell.c:534-536. *)
Definition dist_ops (t : nat) : list op := map (fun ax => (ADist ax, t, Dist ax t)) (seq 0 3).
(** shell.c:540-570; values of padding. *)
Definition pad_val (a : arr) : dval :=
  match a with APrim 9 => One | AAlpha2 | ABeta2 => One | _ => Zero end.
Definition batch_last (t : nat) : bool := ((S t) mod nss =? 0) || (n <=? S t).
Definition pad_ops (t idx : nat) : list op :=
  if batch_last t then
    flat_map (fun q => map (fun a => (a, q, pad_val a)) (prim_arrs ++ (if screens meth then [AScreen] else [])))
      (seq idx (rnd len idx - idx))
  else [].

(** simint_primscreen_schwarz: [idx] and [ij] are local, [base]: [P->screen + idx]. *)
Fixpoint schwarz_ops (t base all : nat) (l : list (nat * nat)) (idx ij : nat) : list op :=
  match l with
  | [] => []
  | (i, j) :: r =>
    (AScreen, base + idx, Of AScreen t i j) ::
    (if ((S ij) mod nss =? 0) || (all <=? S ij)
     then map (fun q => (AScreen, base + q, Zero)) (seq (S idx) (rnd len (S idx) - S idx)) ++
          schwarz_ops t base all r (rnd len (S idx)) (S ij)
     else schwarz_ops t base all r (S idx) (S ij))
  end.
Definition fast_ops (t base : nat) : list op :=
  flat_map (fun k => match nth_error (sp_prims (pr t)) k with
    | Some (i, j) => [(AScreen, base + k, Of AScreen t i j)]
    | None => []
    end) (seq 0 (length (sp_prims (pr t)))).
Definition screen_ops (t idx : nat) : list op :=
  match meth with
  | NoScreen => []
  | Schwarz => schwarz_ops t idx (sp_n1 (pr t) * sp_n2 (pr t)) (sp_prims (pr t)) 0 0
  | FastSchwarz => fast_ops t idx
  end.

(** The loop over shell pairs, shell.c:447-576. *)
Definition pair_ops (t idx : nat) : list op :=
  screen_ops t idx ++ prim_ops t idx ++ dist_ops t ++ pad_ops t (idx + length (sp_prims (pr t))).
Fixpoint fill_loop (m t idx : nat) : list op :=
  match m with
  | 0 => []
  | S m' =>
    let e := idx + length (sp_prims (pr t)) in
    pair_ops t idx ++ fill_loop m' (S t) (if batch_last t then rnd len e else e)
  end.
Definition fill_ops : list op := fill_loop n 0 0.
(** [nprim12[t]] and [nprim], shell.c:532, 572-573. *)
Definition fill_nprim : nat := fold_left (fun s t => s + npf t) (seq 0 n) 0.

(** Execution in the block. *)
Definition addr (o : op) : nat := let '(a, q, _) := o in off a + q.
Fixpoint exec (ops : list op) (m : list (option dval)) : option (list (option dval)) :=
  match ops with
  | [] => Some m
  | o :: r => if addr o <? length m then exec r (upd m (addr o) (Some (snd o))) else None
  end.
Definition fill : option (list (option dval)) := exec fill_ops (repeat None total_doubles).

(** ** Specification *)
(** Pair [t] is at [start len nss npf t] (Starts). *)
Local Notation st := (start len nss npf).
(** How far (from the position of the pair) the screening routine writes. *)
Definition screen_extent (p : spair) : nat :=
  match meth with
  | NoScreen => 0
  | Schwarz => if sp_same p && (2 <=? sp_n1 p) then sp_np p else rnd len (sp_np p)
  | FastSchwarz => sp_np p
  end.
Definition screen_fits : Prop := forall t, t < n -> st t + screen_extent (pr t) <= alloc.

(** ** Proofs *)
Hypothesis Hlen : 0 < len.
Hypothesis Hnss : 0 < nss.
Hypothesis Hdiv : Nat.divide len nss.
Hypothesis Hwf : forall t, t < n -> sp_wf (pr t).

Lemma tri_len k : length (flat_map (fun i => map (pair i) (seq 0 (S i))) (seq 0 k)) * 2 = k * (k + 1).
Proof.
  induction k as [|k IH]; [reflexivity|]. rewrite seq_S, flat_map_app, app_length. cbn [flat_map].
  rewrite app_nil_r, map_length, seq_length. lia.
Qed.
Lemma prims_length p : length (sp_prims p) = sp_np p.
Proof.
  unfold sp_prims, sp_np. destruct (sp_same p).
  - pose proof (tri_len (sp_n1 p)) as T. rewrite <- T, Nat.div_mul by lia. reflexivity.
  - rewrite (@length_flat_map_const _ _ _ _ (sp_n2 p)); [rewrite seq_length; lia|].
    intros i _. rewrite map_length, seq_length. reflexivity.
Qed.

Lemma st_step t : S t < n -> st (S t) = if batch_last t then rnd len (st t + npf t) else st t + npf t.
Proof.
  intros H. cbn [start]. unfold batch_last. replace (n <=? S t) with false by (symmetry; apply Nat.leb_gt; exact H).
  rewrite orb_false_r. reflexivity.
Qed.
Lemma st_le t u : t <= u -> st t <= st u.
Proof.
  induction 1 as [|u _ IH]; [lia|]. cbn [start]. destruct (S u mod nss =? 0); [|lia].
  pose proof (rnd_ge Hlen (st u + npf u)). lia.
Qed.
Lemma st_next t u : t < u -> st t + npf t <= st u.
Proof.
  intros H. pose proof (@st_le (S t) u H) as L. cbn [start] in L. destruct (S t mod nss =? 0); [|lia].
  pose proof (rnd_ge Hlen (st t + npf t)). lia.
Qed.

(** The allocated length. *)
Lemma alloc_loop_ok : forall m i nprim bp, i + m = n -> 
  (0 < m -> nprim + bp = st i) -> Nat.divide len nprim ->
  (m = 0 -> bp = 0 /\ nprim = rnd len (st n)) ->
  alloc_loop m i nprim bp = rnd len (st n).
Proof.
  induction m as [|m IH]; intros i nprim bp Hi Hs Hd He; cbn [alloc_loop].
  - apply He. reflexivity.
  - specialize (Hs ltac:(lia)).
    assert (E : rnd len (nprim + (bp + npf i)) = nprim + rnd len (bp + npf i)) by (apply rnd_add_l; assumption).
    replace (nprim + (bp + npf i)) with (st i + npf i) in E by lia.
    destruct (_ || _) eqn:B.
    + apply IH; [lia| | |].
      * intros Hm. rewrite st_step by lia. unfold batch_last. rewrite B, E. lia.
      * apply Nat.divide_add_r; [exact Hd|apply rnd_divide].
      * intros ->. split; [reflexivity|]. rewrite <- E. replace n with (S i) by lia.
        cbn [start]. destruct (S i mod nss =? 0); [rewrite (rnd_rnd Hlen)|]; reflexivity.
    + apply IH; [lia| | |].
      * intros Hm. rewrite st_step by lia. unfold batch_last. rewrite B. lia.
      * exact Hd.
      * intros ->. exfalso. apply orb_false_iff in B as [_ B]. apply Nat.leb_gt in B. lia.
Qed.
Theorem alloc_ok : alloc = rnd len (st n).
Proof.
  unfold alloc. apply alloc_loop_ok; [reflexivity|reflexivity|exists 0; reflexivity|].
  intros Hn. split; [reflexivity|]. rewrite Hn. cbn [start]. rewrite (rnd_0 Hlen). reflexivity.
Qed.
Lemma st_alloc t : t < n -> st t + npf t <= alloc.
Proof. intros H. rewrite alloc_ok. pose proof (st_next H). pose proof (rnd_ge Hlen (st n)). lia. Qed.
(** End of what pair [t] accounts for, padding included. *)
Lemma next_alloc t : t < n -> (if batch_last t then rnd len (st t + npf t) else st t + npf t) = (if S t <? n then st (S t) else alloc).
Proof.
  intros H. destruct (Nat.ltb_spec (S t) n) as [L|L].
  - symmetry. apply st_step, L.
  - unfold batch_last. replace (n <=? S t) with true by (symmetry; apply Nat.leb_le; exact L). rewrite orb_true_r.
    rewrite alloc_ok. replace n with (S t) by lia. cbn [start].
    destruct (S t mod nss =? 0); [rewrite (rnd_rnd Hlen)|]; reflexivity.
Qed.

Lemma fill_flat : forall m t, t + m = n -> fill_loop m t (st t) = flat_map (fun t => pair_ops t (st t)) (seq t m).
Proof.
  induction m as [|m IH]; intros t H; cbn [fill_loop seq flat_map]; [reflexivity|]. f_equal.
  rewrite prims_length. destruct m as [|m].
  - reflexivity.
  - rewrite <- IH by lia. f_equal. rewrite st_step by lia. reflexivity.
Qed.
Lemma fill_ops_flat : fill_ops = flat_map (fun t => pair_ops t (st t)) (seq 0 n).
Proof. unfold fill_ops. rewrite <- fill_flat by reflexivity. reflexivity. Qed.

(** Last write to an element. *)
Fixpoint swr (ops : list op) (a : arr) (q : nat) : option dval :=
  match ops with
  | [] => None
  | (a', q', v) :: r =>
    match swr r a q with
    | Some w => Some w
    | None => if arr_eq_dec a' a then if q' =? q then Some v else None else None
    end
  end.
Lemma swr_app l1 l2 a q : swr (l1 ++ l2) a q = match swr l2 a q with Some v => Some v | None => swr l1 a q end.
Proof. induction l1 as [|[[a' q'] v] l1 IH]; simpl; [destruct (swr l2 a q); reflexivity|]. rewrite IH. destruct (swr l2 a q); reflexivity. Qed.
Lemma swr_none l a q : (forall v, ~ In (a, q, v) l) -> swr l a q = None.
Proof.
  induction l as [|[[a' q'] v] l IH]; intros H; [reflexivity|]. simpl. rewrite IH by (intros w Hw; apply (H w); right; exact Hw).
  destruct (arr_eq_dec a' a) as [->|]; [|reflexivity]. destruct (Nat.eqb_spec q' q) as [->|]; [|reflexivity].
  exfalso. apply (H v). left; reflexivity.
Qed.
Lemma swr_some l a q v : In (a, q, v) l -> (forall w, In (a, q, w) l -> w = v) -> swr l a q = Some v.
Proof.
  induction l as [|[[a' q'] w] l IH]; intros H U; [destruct H|]. simpl.
  destruct (swr l a q) as [u|] eqn:E.
  - assert (In (a, q, u) l).
    { clear -E. induction l as [|[[a' q'] w] l IH]; [discriminate|]. simpl in E. destruct (swr l a q) eqn:E2.
      - right. apply IH. exact E.
      - destruct (arr_eq_dec a' a) as [->|]; [|discriminate]. destruct (Nat.eqb_spec q' q) as [->|]; [|discriminate].
        left. congruence. }
    f_equal. apply U. right; exact H0.
  - destruct H as [H|H].
    + injection H as -> -> ->. destruct (arr_eq_dec a a); [|congruence]. rewrite Nat.eqb_refl. reflexivity.
    + exfalso. assert (X : None = Some v) by (apply IH; [exact H|intros u Hu; apply U; right; exact Hu]). discriminate X.
Qed.

(** Injectivity of addresses. *)
Lemma mul_sep N r1 r2 q1 q2 : q1 < N -> q2 < N -> N * r1 + q1 = N * r2 + q2 -> r1 = r2 /\ q1 = q2.
Proof.
  intros H1 H2 E. destruct (Nat.lt_trichotomy r1 r2) as [L|[->|L]]; [|lia|].
  - assert (N * S r1 <= N * r2) by (apply Nat.mul_le_mono_l; exact L). rewrite Nat.mul_succ_r in H. lia.
  - assert (N * S r2 <= N * r1) by (apply Nat.mul_le_mono_l; exact L). rewrite Nat.mul_succ_r in H. lia.
Qed.
Lemma mul_below N r M q : q < N -> r < M -> N * r + q < N * M.
Proof. intros H1 H2. assert (N * S r <= N * M) by (apply Nat.mul_le_mono_l; exact H2). rewrite Nat.mul_succ_r in H. lia. Qed.
Definition inside (o : op) : Prop := let '(a, q, _) := o in arr_ok a = true /\ q < size a.
Lemma addr_lt a q v : inside (a, q, v) -> addr (a, q, v) < total_doubles.
Proof.
  unfold inside, addr, total_doubles. intros [H1 H2].
  assert (HN : nprim_arr = 11 + nscr + nder) by reflexivity.
  destruct a as [k| | | |ax]; cbn [off size arr_ok] in *.
  - apply Nat.ltb_lt in H1. assert (alloc * S k <= alloc * nprim_arr) by (apply Nat.mul_le_mono_l; lia). lia.
  - assert (nscr = 1) by (unfold nscr; rewrite H1; reflexivity).
    assert (alloc * 12 <= alloc * nprim_arr) by (apply Nat.mul_le_mono_l; lia). lia.
  - assert (nder = 2) by (unfold nder; rewrite H1; reflexivity).
    assert (alloc * (11 + nscr + 1) <= alloc * nprim_arr) by (apply Nat.mul_le_mono_l; lia). lia.
  - assert (nder = 2) by (unfold nder; rewrite H1; reflexivity).
    assert (alloc * (11 + nscr + 2) <= alloc * nprim_arr) by (apply Nat.mul_le_mono_l; lia). lia.
  - apply Nat.ltb_lt in H1. assert (ax * n + n <= 3 * n) by nia. lia.
Qed.
Lemma addr_inj a q a' q' : arr_ok a = true -> q < size a -> arr_ok a' = true -> q' < size a' ->
  off a + q = off a' + q' -> a = a' /\ q = q'.
Proof.
  intros H1 H2 H3 H4 E.
  (* position of an array in the block, in units of [alloc] or [n] *)
  set (rank := fun a => match a with APrim k => k | AScreen => 11 | AAlpha2 => 11 + nscr | ABeta2 => 11 + nscr + 1 | ADist ax => nprim_arr + ax end).
  assert (HR : forall b, arr_ok b = true -> match b with ADist ax => ax < 3 | _ => rank b < nprim_arr end).
  { intros b Hb. unfold rank, nprim_arr, nscr, nder. destruct b; cbn [arr_ok] in Hb; try (apply Nat.ltb_lt in Hb; lia);
    rewrite Hb; destruct (screens meth), deriv; lia. }
  assert (HO : forall b, off b = match b with ADist ax => alloc * nprim_arr + ax * n | _ => alloc * rank b end).
  { intros b. unfold off, rank. destruct b; reflexivity. }
  assert (Hinj : forall b b', arr_ok b = true -> arr_ok b' = true -> rank b = rank b' -> b = b').
  { intros b b' Hb Hb' Er. unfold rank, nprim_arr, nscr, nder in Er.
    destruct b, b'; cbn [arr_ok] in Hb, Hb'; rewrite ?Hb, ?Hb' in Er; try apply Nat.ltb_lt in Hb; try apply Nat.ltb_lt in Hb'; try (f_equal; lia); try reflexivity;
    exfalso; destruct (screens meth), deriv; try discriminate; lia. }
  pose proof (HR a H1) as R1. pose proof (HR a' H3) as R2.
  assert (Er : rank a = rank a' /\ q = q').
  { rewrite !HO in E. destruct a as [k| | | |ax]; destruct a' as [k'| | | |ax']; cbn [size] in *; cbv beta iota in E, R1, R2;
    try (apply (@mul_sep _ _ _ _ _ H2 H4 E));
    try (pose proof (@mul_below _ _ _ _ H2 R1); lia);
    try (pose proof (@mul_below _ _ _ _ H4 R2); lia).
    assert (E' : n * ax + q = n * ax' + q') by lia. destruct (@mul_sep _ _ _ _ _ H2 H4 E') as [-> ->]. split; reflexivity. }
  destruct Er as [Er Eq]. split; [apply Hinj; assumption|exact Eq].
Qed.

Lemma exec_ok : forall ops m, length m = total_doubles -> (forall o, In o ops -> inside o) ->
  exists m', exec ops m = Some m' /\ length m' = length m /\
    forall a q, arr_ok a = true -> q < size a ->
      nth_error m' (off a + q) = match swr ops a q with Some v => Some (Some v) | None => nth_error m (off a + q) end.
Proof.
  induction ops as [|[[a q] v] ops IH]; intros m Hm H; cbn [exec].
  - exists m. repeat split; reflexivity.
  - assert (Hin : inside (a, q, v)) by (apply H; left; reflexivity).
    pose proof (addr_lt Hin) as L. rewrite <- Hm in L. rewrite (proj2 (Nat.ltb_lt _ _) L).
    destruct (IH (upd m (addr (a, q, v)) (Some (snd (a, q, v))))) as [m' [E [L' V]]].
    { rewrite upd_length. exact Hm. } { intros o Ho. apply H. right; exact Ho. }
    exists m'. split; [exact E|]. split; [rewrite L', upd_length; reflexivity|].
    intros a' q' Ha' Hq'. rewrite V by assumption. cbn [swr]. destruct (swr ops a' q'); [reflexivity|].
    cbn [addr snd] in *. destruct Hin as [I1 I2].
    destruct (Nat.eq_dec (off a + q) (off a' + q')) as [Ea|Na].
    + destruct (addr_inj _ _ I1 I2 Ha' Hq' Ea) as [-> ->]. rewrite nth_error_upd_same by exact L.
      destruct (arr_eq_dec a' a'); [|congruence]. rewrite Nat.eqb_refl. reflexivity.
    + rewrite nth_error_upd_other by exact Na.
      destruct (arr_eq_dec a a') as [->|]; [|reflexivity]. destruct (Nat.eqb_spec q q') as [->|]; [congruence|reflexivity].
Qed.

(** *** The screening routines *)
Lemma rnd_mid k : Nat.divide len k -> rnd len k - k = 0.
Proof. intros H. rewrite (rnd_id Hlen H). lia. Qed.
Lemma mult_div k : k mod nss = 0 -> Nat.divide len k.
Proof. intros H. apply (Nat.divide_trans _ nss); [exact Hdiv|]. apply Nat.mod_divide; [lia|exact H]. Qed.

(** Writes of the Schwarz routine: one per primitive, then padding if the end test fires. *)
Lemma schwarz_ops_flat t base all : forall l k, k + length l <= all ->
  schwarz_ops t base all l k k =
  flat_map (fun c => match nth_error l c with Some (i, j) => [(AScreen, base + (k + c), Of AScreen t i j)] | None => [] end) (seq 0 (length l)) ++
  (if (k + length l =? all) && negb (length l =? 0) then map (fun q => (AScreen, base + q, Zero)) (seq all (rnd len all - all)) else []).
Proof.
  induction l as [|[i j] l IH]; intros k Hk; cbn [length] in *.
  - cbn. rewrite andb_false_r. reflexivity.
  - cbn [schwarz_ops seq flat_map nth_error].
    assert (EF : flat_map (fun c => match nth_error ((i, j) :: l) c with Some (i, j) => [(AScreen, base + (k + c), Of AScreen t i j)] | None => [] end) (seq 1 (length l)) =
      flat_map (fun c => match nth_error l c with Some (i, j) => [(AScreen, base + (S k + c), Of AScreen t i j)] | None => [] end) (seq 0 (length l))).
    { rewrite <- seq_shift, flat_map_concat_map, map_map, <- flat_map_concat_map. apply flat_map_ext. intros c. cbn [nth_error].
      destruct (nth_error l c) as [[i' j']|]; [|reflexivity]. do 4 f_equal. lia. }
    rewrite EF. cbn [app]. rewrite Nat.add_0_r. f_equal.
    replace (k + S (length l) =? all) with (S k + length l =? all) by (f_equal; lia).
    cbn [Nat.eqb negb]. rewrite andb_true_r.
    destruct (Nat.leb_spec all (S k)) as [La|La].
    + assert (l = []) by (destruct l; [reflexivity|cbn [length] in Hk; lia]). subst l. cbn [length] in *.
      assert (S k = all) by lia. subst all. rewrite orb_true_r. cbn. rewrite Nat.add_0_r, Nat.eqb_refl, app_nil_r. reflexivity.
    + rewrite orb_false_r. rewrite IH in * by lia.
      assert (EE : (if (S k + length l =? all) && negb (length l =? 0) then map (fun q => (AScreen, base + q, Zero)) (seq all (rnd len all - all)) else []) =
        (if (S k + length l =? all) then map (fun q => (AScreen, base + q, Zero)) (seq all (rnd len all - all)) else [])).
      { destruct (Nat.eqb_spec (S k + length l) all); [|reflexivity]. destruct (Nat.eqb_spec (length l) 0); [lia|reflexivity]. }
      rewrite EE. destruct (Nat.eqb_spec ((S k) mod nss) 0) as [M|M].
      * pose proof (rnd_mid (mult_div _ M)) as Z. pose proof (rnd_id Hlen (mult_div _ M)) as Z2.
        rewrite Z. cbn [seq map app]. rewrite Z2. rewrite IH by lia. rewrite EE. reflexivity.
      * reflexivity.
Qed.

Lemma tri_le k : k * (k + 1) / 2 <= k * k.
Proof. apply Nat.div_le_upper_bound; [lia|]. nia. Qed.
Lemma tri_eq k : k * (k + 1) / 2 = k * k -> k <= 1.
Proof.
  intros H. destruct k as [|[|k]]; [lia|lia|exfalso].
  assert (S (S k) * (S (S k) + 1) / 2 < S (S k) * S (S k)); [|lia]. apply Nat.div_lt_upper_bound; nia.
Qed.
(** The writes of the screening routine for pair [t], one by one. *)
Lemma screen_ops_flat t idx : t < n -> screen_ops t idx =
  (if screens meth then flat_map (fun c => match nth_error (sp_prims (pr t)) c with Some (i, j) => [(AScreen, idx + c, Of AScreen t i j)] | None => [] end)
     (seq 0 (npf t)) else []) ++
  map (fun q => (AScreen, idx + q, Zero)) (seq (npf t) (screen_extent (pr t) - npf t)).
Proof.
  intros Ht. unfold screen_ops, screen_extent, screens, npf. destruct meth.
  - rewrite Nat.sub_0_l. reflexivity.
  - pose proof (prims_length (pr t)) as L. pose proof (Hwf Ht) as W. unfold sp_wf in W.
    unfold sp_np in L |- *. destruct (sp_same (pr t)) eqn:Es; cbn [andb].
    + rewrite <- W by reflexivity. set (k := sp_n1 (pr t)) in *. pose proof (tri_le k) as T.
      rewrite schwarz_ops_flat by lia. cbn [Nat.add]. rewrite L. f_equal.
      destruct (Nat.leb_spec 2 k) as [H2|H2].
      * rewrite Nat.sub_diag. destruct (Nat.eqb_spec (k * (k + 1) / 2) (k * k)) as [E|E]; [|reflexivity].
        apply tri_eq in E. lia.
      * destruct k as [|[|k]]; [|reflexivity|lia]. change (0 * (0 + 1) / 2) with 0. rewrite (rnd_0 Hlen). reflexivity.
    + rewrite schwarz_ops_flat by lia. cbn [Nat.add]. rewrite L. f_equal. rewrite Nat.eqb_refl. cbn [andb].
      destruct (Nat.eqb_spec (sp_n1 (pr t) * sp_n2 (pr t)) 0) as [Z|Z]; [|reflexivity].
      cbn [negb]. rewrite Z, (rnd_0 Hlen). reflexivity.
  - rewrite Nat.sub_diag. unfold fast_ops. rewrite prims_length, app_nil_r. reflexivity.
Qed.
Lemma extent_ge t : screens meth = true -> npf t <= screen_extent (pr t).
Proof.
  unfold screens, screen_extent, npf. intros H. destruct meth; [discriminate| |lia].
  destruct (_ && _); [lia|apply (rnd_ge Hlen)].
Qed.
Lemma screen_ops_in t idx a q v : t < n -> In (a, q, v) (screen_ops t idx) ->
  a = AScreen /\ screens meth = true /\ idx <= q < idx + screen_extent (pr t) /\
  (forall k, q = idx + k -> k < npf t -> exists i j, nth_error (sp_prims (pr t)) k = Some (i, j) /\ v = Of AScreen t i j).
Proof.
  intros Ht H. rewrite screen_ops_flat in H by exact Ht. apply in_app_iff in H as [H|H].
  - destruct (screens meth) eqn:Em; [|destruct H]. pose proof (extent_ge t Em) as G.
    apply in_flat_map in H as [c [Hc H]]. apply in_seq in Hc.
    destruct (nth_error (sp_prims (pr t)) c) as [[i j]|] eqn:E; [|destruct H]. destruct H as [H|[]]. injection H as <- <- <-.
    repeat split; try lia. intros k Ek Hk. assert (k = c) by lia. subst. exists i, j. split; [exact E|reflexivity].
  - apply in_map_iff in H as [c [H Hc]]. apply in_seq in Hc. injection H as <- <- <-.
    assert (screens meth = true).
    { revert Hc. unfold screen_extent, screens. destruct meth; [lia|reflexivity|reflexivity]. }
    repeat split; try lia; try assumption.
Qed.
Lemma screen_ops_prim t idx k i j : t < n -> screens meth = true -> nth_error (sp_prims (pr t)) k = Some (i, j) ->
  In (AScreen, idx + k, Of AScreen t i j) (screen_ops t idx).
Proof.
  intros Ht Hm E. rewrite screen_ops_flat by exact Ht. rewrite Hm. apply in_app_iff. left. apply in_flat_map.
  exists k. split.
  - apply in_seq. pose proof (nth_error_Some_lt _ _ E) as L. rewrite prims_length in L. fold (npf t) in L. lia.
  - rewrite E. left; reflexivity.
Qed.
(** *** The other writes *)
Lemma prim_arrs_ok a : In a prim_arrs -> arr_ok a = true /\ size a = alloc /\ a <> AScreen.
Proof.
  unfold prim_arrs. intros H. apply in_app_iff in H as [H|H].
  - apply in_map_iff in H as [k [<- Hk]]. apply in_seq in Hk. split; [apply (proj2 (Nat.ltb_lt k 11)); lia|split; [reflexivity|discriminate]].
  - destruct deriv eqn:Ed; [|destruct H]. destruct H as [<-|[<-|[]]]; (split; [exact Ed|split; [reflexivity|discriminate]]).
Qed.
Lemma prim_ops_in t idx a q v : In (a, q, v) (prim_ops t idx) <->
  In a prim_arrs /\ exists k i j, nth_error (sp_prims (pr t)) k = Some (i, j) /\ q = idx + k /\ v = Of a t i j.
Proof.
  unfold prim_ops. rewrite in_flat_map. split.
  - intros [k [Hk H]]. destruct (nth_error _ k) as [[i j]|] eqn:E; [|destruct H]. apply in_map_iff in H as [b [H Hb]].
    injection H as <- <- <-. split; [exact Hb|]. exists k, i, j. repeat split. exact E.
  - intros [Ha (k & i & j & E & -> & ->)]. exists k. split; [apply in_seq; pose proof (nth_error_Some_lt _ _ E); lia|].
    rewrite E. apply in_map_iff. exists a. split; [reflexivity|exact Ha].
Qed.
Lemma dist_ops_in t a q v : In (a, q, v) (dist_ops t) <-> exists ax, ax < 3 /\ a = ADist ax /\ q = t /\ v = Dist ax t.
Proof.
  unfold dist_ops. rewrite in_map_iff. split.
  - intros [ax [H Hx]]. injection H as <- <- <-. apply in_seq in Hx. exists ax. repeat split. lia.
  - intros (ax & H & -> & -> & ->). exists ax. split; [reflexivity|apply in_seq; lia].
Qed.
Definition pad_arrs : list arr := prim_arrs ++ (if screens meth then [AScreen] else []).
Lemma pad_ops_in t idx a q v : In (a, q, v) (pad_ops t idx) <->
  batch_last t = true /\ In a pad_arrs /\ idx <= q < rnd len idx /\ v = pad_val a.
Proof.
  unfold pad_ops. destruct (batch_last t).
  - rewrite in_flat_map. split.
    + intros [c [Hc H]]. apply in_seq in Hc. apply in_map_iff in H as [b [H Hb]]. injection H as <- <- <-.
      repeat split; try assumption; lia.
    + intros (_ & Ha & Hq & ->). exists q. split; [apply in_seq; lia|]. apply in_map_iff. exists a. split; [reflexivity|exact Ha].
  - split; [intros []|intros [H _]; discriminate].
Qed.
Lemma pad_arrs_ok a : In a pad_arrs -> arr_ok a = true /\ size a = alloc.
Proof.
  unfold pad_arrs. intros H. apply in_app_iff in H as [H|H].
  - destruct (prim_arrs_ok H) as (A & B & _). split; assumption.
  - destruct (screens meth) eqn:E; [|destruct H]. destruct H as [<-|[]]. split; [exact E|reflexivity].
Qed.
Lemma pad_arrs_all a : arr_ok a = true -> (forall ax, a <> ADist ax) -> In a pad_arrs.
Proof.
  intros H Hd. unfold pad_arrs, prim_arrs. destruct a as [k| | | |ax]; cbn [arr_ok] in H.
  - apply in_app_iff. left. apply in_app_iff. left. apply in_map_iff. exists k. split; [reflexivity|apply in_seq; apply Nat.ltb_lt in H; lia].
  - apply in_app_iff. right. rewrite H. left; reflexivity.
  - apply in_app_iff. left. apply in_app_iff. right. rewrite H. left; reflexivity.
  - apply in_app_iff. left. apply in_app_iff. right. rewrite H. right; left; reflexivity.
  - exfalso. exact (Hd ax eq_refl).
Qed.

Lemma pair_ops_in t a q v : t < n -> In (a, q, v) (pair_ops t (st t)) ->
  (exists ax, ax < 3 /\ a = ADist ax /\ q = t /\ v = Dist ax t) \/
  ((forall ax, a <> ADist ax) /\ arr_ok a = true /\ st t <= q).
Proof.
  intros Ht H. unfold pair_ops in H. rewrite !in_app_iff in H. destruct H as [H|[H|[H|H]]].
  - right. apply screen_ops_in in H as (-> & Hm & Hq & _); [|exact Ht]. repeat split; [discriminate|exact Hm|lia].
  - right. apply prim_ops_in in H as (Ha & k & i & j & E & -> & _). pose proof (prim_arrs_ok Ha) as (A & B & C).
    repeat split; [|exact A|lia]. intros ax ->. unfold prim_arrs in Ha. apply in_app_iff in Ha as [Ha|Ha].
    + apply in_map_iff in Ha as [? [? _]]. discriminate.
    + destruct deriv; [destruct Ha as [Ha|[Ha|[]]]; discriminate|destruct Ha].
  - left. apply dist_ops_in in H. exact H.
  - right. apply pad_ops_in in H as (_ & Ha & Hq & _). pose proof (pad_arrs_ok Ha) as (A & B).
    repeat split; [|exact A|lia]. intros ax ->. unfold pad_arrs, prim_arrs in Ha. rewrite !in_app_iff in Ha. destruct Ha as [[Ha|Ha]|Ha].
    + apply in_map_iff in Ha as [? [? _]]. discriminate.
    + destruct deriv; [destruct Ha as [Ha|[Ha|[]]]; discriminate|destruct Ha].
    + destruct (screens meth); [destruct Ha as [Ha|[]]; discriminate|destruct Ha].
Qed.

(** If the screening routine stays inside, so does everything. *)
Lemma fill_inside : screen_fits -> forall o, In o fill_ops -> inside o.
Proof.
  intros Hf [[a q] v] H. rewrite fill_ops_flat in H. apply in_flat_map in H as [t [Ht H]]. apply in_seq in Ht. cbn in Ht.
  destruct Ht as [_ Ht]. unfold pair_ops in H. rewrite !in_app_iff in H. unfold inside. destruct H as [H|[H|[H|H]]].
  - apply screen_ops_in in H as (-> & Hm & Hq & _); [|exact Ht]. cbn. split; [exact Hm|]. specialize (Hf t Ht). lia.
  - apply prim_ops_in in H as (Ha & k & i & j & E & -> & _). destruct (prim_arrs_ok Ha) as (A & B & _). split; [exact A|].
    rewrite B. pose proof (nth_error_Some_lt _ _ E) as L. rewrite prims_length in L. fold (npf t) in L. pose proof (st_alloc Ht). lia.
  - apply dist_ops_in in H as (ax & Hx & -> & -> & _). cbn [arr_ok size]. split; [apply Nat.ltb_lt; exact Hx|exact Ht].
  - apply pad_ops_in in H as (Hb & Ha & Hq & _). destruct (pad_arrs_ok Ha) as (A & B). split; [exact A|]. rewrite B.
    pose proof (next_alloc Ht) as N. rewrite Hb in N. rewrite prims_length in Hq. fold (npf t) in Hq.
    destruct (Nat.ltb_spec (S t) n) as [L|L]; [|lia]. pose proof (st_alloc L). lia.
Qed.
(** The arrays other than [screen] are written inside in any case. *)
Lemma fill_inside_other a q v : a <> AScreen -> In (a, q, v) fill_ops -> inside (a, q, v).
Proof.
  intros Hn H. rewrite fill_ops_flat in H. apply in_flat_map in H as [t [Ht H]]. apply in_seq in Ht. cbn in Ht.
  destruct Ht as [_ Ht]. unfold pair_ops in H. rewrite !in_app_iff in H. unfold inside. destruct H as [H|[H|[H|H]]].
  - apply screen_ops_in in H as (-> & _); [congruence|exact Ht].
  - apply prim_ops_in in H as (Ha & k & i & j & E & -> & _). destruct (prim_arrs_ok Ha) as (A & B & _). split; [exact A|].
    rewrite B. pose proof (nth_error_Some_lt _ _ E) as L. rewrite prims_length in L. fold (npf t) in L. pose proof (st_alloc Ht). lia.
  - apply dist_ops_in in H as (ax & Hx & -> & -> & _). cbn [arr_ok size]. split; [apply Nat.ltb_lt; exact Hx|exact Ht].
  - apply pad_ops_in in H as (Hb & Ha & Hq & _). destruct (pad_arrs_ok Ha) as (A & B). split; [exact A|]. rewrite B.
    pose proof (next_alloc Ht) as N. rewrite Hb in N. rewrite prims_length in Hq. fold (npf t) in Hq.
    destruct (Nat.ltb_spec (S t) n) as [L|L]; [|lia]. pose proof (st_alloc L). lia.
Qed.
(** Conversely: with Schwarz screening that does not fit, some write is outside of the array. *)
Lemma fill_outside : ~ screen_fits -> screens meth = true ->
  exists q v, In (AScreen, q, v) fill_ops /\ alloc <= q.
Proof.
  intros Hf Hm.
  assert (HX : exists t, t < n /\ alloc < st t + screen_extent (pr t)).
  { destruct (forallb (fun t => st t + screen_extent (pr t) <=? alloc) (seq 0 n)) eqn:F.
    - exfalso. apply Hf. intros t Ht. rewrite forallb_forall in F. apply Nat.leb_le. apply F, in_seq. lia.
    - assert (G : exists t, In t (seq 0 n) /\ (st t + screen_extent (pr t) <=? alloc) = false).
      { clear -F. induction (seq 0 n) as [|u l IH]; [discriminate|]. cbn in F. apply andb_false_iff in F as [F|F].
        - exists u. split; [left; reflexivity|exact F].
        - destruct (IH F) as (t & Ht & E). exists t. split; [right; exact Ht|exact E]. }
      destruct G as (t & Ht & E). apply in_seq in Ht. apply Nat.leb_gt in E. exists t. split; lia. }
  destruct HX as (t & Ht & L). pose proof (st_alloc Ht) as S.
  exists (st t + (screen_extent (pr t) - 1)), Zero. split; [|lia].
  rewrite fill_ops_flat. apply in_flat_map. exists t. split; [apply in_seq; lia|].
  unfold pair_ops. apply in_app_iff. left. rewrite screen_ops_flat by exact Ht. apply in_app_iff. right.
  apply in_map_iff. exists (screen_extent (pr t) - 1). split; [reflexivity|]. apply in_seq. lia.
Qed.

(** Last write: only pair [t] and the ones behind it matter. *)
Lemma swr_fill t a q v : t < n ->
  swr (pair_ops t (st t)) a q = Some v ->
  (forall u w, t < u < n -> ~ In (a, q, w) (pair_ops u (st u))) ->
  swr fill_ops a q = Some v.
Proof.
  intros Ht H Hu. rewrite fill_ops_flat. replace n with (t + S (n - S t)) by lia. rewrite seq_app, flat_map_app, swr_app.
  cbn [Nat.add seq flat_map]. rewrite swr_app.
  rewrite (@swr_none (flat_map _ (seq (S t) _))).
  - rewrite H. reflexivity.
  - intros w Hw. apply in_flat_map in Hw as [u [Hs Hw]]. apply in_seq in Hs. apply (Hu u w); [lia|exact Hw].
Qed.

Lemma fill_prim t k i j a : t < n -> nth_error (sp_prims (pr t)) k = Some (i, j) -> arr_ok a = true -> (forall ax, a <> ADist ax) ->
  swr fill_ops a (st t + k) = Some (Of a t i j).
Proof.
  intros Ht E Ha Hd. pose proof (nth_error_Some_lt _ _ E) as L. rewrite prims_length in L. fold (npf t) in L.
  apply (@swr_fill t); [exact Ht| |].
  - unfold pair_ops. rewrite !swr_app.
    rewrite (@swr_none (pad_ops _ _)) by (intros w Hw; apply pad_ops_in in Hw as (_ & _ & Hq & _); rewrite prims_length in Hq; fold (npf t) in Hq; lia).
    rewrite (@swr_none (dist_ops _)) by (intros w Hw; apply dist_ops_in in Hw as (ax & _ & -> & _); exact (Hd ax eq_refl)).
    pose proof (pad_arrs_all Ha Hd) as Hp. unfold pad_arrs in Hp. apply in_app_iff in Hp as [Hp|Hp].
    + rewrite (@swr_some (prim_ops _ _) a (st t + k) (Of a t i j)); [reflexivity| |].
      * apply prim_ops_in. split; [exact Hp|]. exists k, i, j. repeat split. exact E.
      * intros w Hw. apply prim_ops_in in Hw as (_ & k' & i' & j' & E' & Eq & ->). assert (k' = k) by lia. subst. congruence.
    + destruct (screens meth) eqn:Em; [|destruct Hp]. destruct Hp as [<-|[]].
      rewrite (@swr_none (prim_ops _ _)) by (intros w Hw; apply prim_ops_in in Hw as (Hp & _); apply prim_arrs_ok in Hp as (_ & _ & Hn); apply Hn; reflexivity).
      apply swr_some.
      * apply screen_ops_prim; assumption.
      * intros w Hw. apply screen_ops_in in Hw as (_ & _ & _ & Hk); [|exact Ht]. destruct (Hk k eq_refl L) as (i' & j' & E' & ->). congruence.
  - intros u w Hu Hw. apply pair_ops_in in Hw; [|lia]. destruct Hw as [(ax & _ & -> & _)|(_ & _ & Hq)].
    + exact (Hd ax eq_refl).
    + pose proof (@st_next t u ltac:(lia)). lia.
Qed.
Lemma fill_dist t ax : t < n -> ax < 3 -> swr fill_ops (ADist ax) t = Some (Dist ax t).
Proof.
  intros Ht Hx. apply (@swr_fill t); [exact Ht| |].
  - unfold pair_ops. rewrite !swr_app.
    assert (N1 : swr (pad_ops t (st t + length (sp_prims (pr t)))) (ADist ax) t = None).
    { apply swr_none. intros w Hw. assert (Hw' : In (ADist ax, t, w) (pair_ops t (st t))) by (unfold pair_ops; rewrite !in_app_iff; tauto).
      apply pad_ops_in in Hw as (_ & Ha & _). unfold pad_arrs, prim_arrs in Ha. rewrite !in_app_iff in Ha. destruct Ha as [[Ha|Ha]|Ha].
      - apply in_map_iff in Ha as [? [? _]]. discriminate.
      - destruct deriv; [destruct Ha as [Ha|[Ha|[]]]; discriminate|destruct Ha].
      - destruct (screens meth); [destruct Ha as [Ha|[]]; discriminate|destruct Ha]. }
    rewrite N1. rewrite (@swr_some (dist_ops t) (ADist ax) t (Dist ax t)); [reflexivity| |].
    + apply dist_ops_in. exists ax. repeat split. exact Hx.
    + intros w Hw. apply dist_ops_in in Hw as (ax' & _ & E & _ & ->). injection E as ->. reflexivity.
  - intros u w Hu Hw. apply pair_ops_in in Hw; [|lia]. destruct Hw as [(ax' & _ & _ & Hq & _)|(Hd & _)]; [lia|exact (Hd ax eq_refl)].
Qed.
Lemma gap_owner q : q < alloc -> (forall t, t < n -> ~ (st t <= q < st t + npf t)) ->
  exists t, t < n /\ batch_last t = true /\ st t + npf t <= q < rnd len (st t + npf t).
Proof.
  intros Hq Hg.
  assert (G : forall m, m <= n -> 0 < m -> (exists t, t < m /\ st t <= q /\ (S t < m -> q < st (S t)))).
  { induction m as [|m IH]; intros Hm H0; [lia|]. destruct (Nat.eq_dec m 0) as [->|Hm0].
    - exists 0. repeat split; cbn; lia.
    - destruct (IH ltac:(lia) ltac:(lia)) as (t & Ht & Hs & Hn). destruct (Nat.eq_dec (S t) m) as [Et|Et].
      + destruct (Nat.le_gt_cases (st m) q) as [L|L].
        * exists m. repeat split; try lia.
        * exists t. repeat split; try lia. intros _. rewrite Et. exact L.
      + exists t. repeat split; try lia. }
  assert (Hn0 : 0 < n).
  { destruct (Nat.eq_dec n 0) as [En|]; [|lia]. exfalso. rewrite alloc_ok in Hq. rewrite En in Hq. cbn [start] in Hq. rewrite (rnd_0 Hlen) in Hq. lia. }
  destruct (G n ltac:(lia) Hn0) as (t & Ht & Hs & Hn). exists t. split; [exact Ht|].
  specialize (Hg t Ht). pose proof (next_alloc Ht) as N.
  assert (Hend : q < (if batch_last t then rnd len (st t + npf t) else st t + npf t)).
  { rewrite N. destruct (Nat.ltb_spec (S t) n); [apply Hn; assumption|exact Hq]. }
  destruct (batch_last t); [split; [reflexivity|lia]|lia].
Qed.
Lemma fill_pad q a : q < alloc -> (forall t, t < n -> ~ (st t <= q < st t + npf t)) -> arr_ok a = true -> (forall ax, a <> ADist ax) ->
  swr fill_ops a q = Some (pad_val a).
Proof.
  intros Hq Hg Ha Hd. destruct (gap_owner Hq Hg) as (t & Ht & Hb & Hr). apply (@swr_fill t); [exact Ht| |].
  - unfold pair_ops. rewrite !swr_app. rewrite (@swr_some (pad_ops _ _) a q (pad_val a)); [reflexivity| |].
    + apply pad_ops_in. rewrite prims_length. fold (npf t). repeat split; try lia; try assumption. apply pad_arrs_all; assumption.
    + intros w Hw. apply pad_ops_in in Hw as (_ & _ & _ & ->). reflexivity.
  - intros u w Hu Hw. apply pair_ops_in in Hw; [|lia]. destruct Hw as [(ax & _ & -> & _)|(_ & _ & Hs)]; [exact (Hd ax eq_refl)|].
    pose proof (next_alloc Ht) as N. rewrite Hb in N.
    destruct (Nat.ltb_spec (S t) n) as [L|L]; [|lia]. pose proof (@st_le (S t) u ltac:(lia)). lia.
Qed.

(** ** The filled block *)
Theorem fill_ok : screen_fits ->
  exists m, fill = Some m /\ length m = total_doubles /\
  (forall a, arr_ok a = true -> (forall ax, a <> ADist ax) ->
    (forall t k i j, t < n -> nth_error (sp_prims (pr t)) k = Some (i, j) ->
       nth_error m (off a + (st t + k)) = Some (Some (Of a t i j))) /\
    (forall q, q < alloc -> (forall t, t < n -> ~ (st t <= q < st t + npf t)) ->
       nth_error m (off a + q) = Some (Some (pad_val a)))) /\
  (forall ax t, ax < 3 -> t < n -> nth_error m (off (ADist ax) + t) = Some (Some (Dist ax t))).
Proof.
  intros Hf. destruct (@exec_ok fill_ops (repeat None total_doubles)) as (m & E & L & V).
  { apply repeat_length. } { apply fill_inside, Hf. }
  exists m. split; [exact E|]. split; [rewrite L; apply repeat_length|]. split.
  - intros a Ha Hd. assert (Hs : size a = alloc) by (destruct a; try reflexivity; exfalso; exact (Hd _ eq_refl)). split.
    + intros t k i j Ht Ek. rewrite V; [|exact Ha|].
      * rewrite (@fill_prim t k i j a Ht Ek Ha Hd). reflexivity.
      * rewrite Hs. pose proof (nth_error_Some_lt _ _ Ek) as Lk. rewrite prims_length in Lk. fold (npf t) in Lk. pose proof (st_alloc Ht). lia.
    + intros q Hq Hg. rewrite V; [|exact Ha|rewrite Hs; exact Hq]. rewrite (fill_pad Hq Hg Ha Hd). reflexivity.
  - intros ax t Hx Ht. rewrite V; [|apply Nat.ltb_lt; exact Hx|exact Ht]. rewrite (fill_dist Ht Hx). reflexivity.
Qed.

(** Every element of the block is written. *)
Theorem fill_total m : screen_fits -> fill = Some m -> forall a q, arr_ok a = true -> q < size a ->
  exists v, nth_error m (off a + q) = Some (Some v).
Proof.
  intros Hf E a q Ha Hq. destruct (fill_ok Hf) as (m' & E' & _ & V & W). rewrite E in E'. injection E' as <-.
  destruct a as [k| | | |ax] eqn:Ea; cbn [size] in Hq.
  all: try (exists (Dist ax q); apply W; [apply Nat.ltb_lt; exact Ha|exact Hq]).
  all: destruct (V a) as [V1 V2]; rewrite Ea in *; try exact Ha; try discriminate.
  all: destruct (forallb (fun t => negb ((st t <=? q) && (q <? st t + npf t))) (seq 0 n)) eqn:F.
  all: try (exists (pad_val a); rewrite Ea; apply V2; [exact Hq|]; intros t Ht [G1 G2]; rewrite forallb_forall in F;
    specialize (F t ltac:(apply in_seq; lia)); rewrite (proj2 (Nat.leb_le _ _) G1), (proj2 (Nat.ltb_lt _ _) G2) in F; discriminate).
  all: assert (G : exists t, t < n /\ st t <= q < st t + npf t) by
    (clear -F; assert (X : exists t, In t (seq 0 n) /\ negb ((st t <=? q) && (q <? st t + npf t)) = false) by
      (induction (seq 0 n) as [|u l IH]; [discriminate|]; cbn in F; apply andb_false_iff in F as [F|F];
       [exists u; split; [left; reflexivity|exact F]|destruct (IH F) as (t & Ht & E); exists t; split; [right; exact Ht|exact E]]);
     destruct X as (t & Ht & X); apply in_seq in Ht; apply negb_false_iff, andb_true_iff in X as [X1 X2];
     apply Nat.leb_le in X1; apply Nat.ltb_lt in X2; exists t; lia).
  all: destruct G as (t & Ht & G); destruct (nth_error (sp_prims (pr t)) (q - st t)) as [[i j]|] eqn:E2;
    [exists (Of a t i j); rewrite Ea; replace q with (st t + (q - st t)) by lia; apply V1; assumption
    |exfalso; apply nth_error_None in E2; rewrite prims_length in E2; fold (npf t) in E2; lia].
Qed.

(** Sum of the primitives, [P.nprim]. *)
Lemma fill_nprim_ok : fill_nprim = nsum (map npf (seq 0 n)).
Proof.
  unfold fill_nprim. assert (G : forall l s, fold_left (fun s t => s + npf t) l s = s + nsum (map npf l)).
  { induction l as [|x l IH]; intros s; cbn; [lia|]. rewrite IH. lia. } rewrite G. lia.
Qed.
Lemma fill_nprim_len : fill_nprim = nsum (map (fun t => length (sp_prims (pr t))) (seq 0 n)).
Proof.
  rewrite fill_nprim_ok. f_equal. apply map_ext. intros t. symmetry. apply prims_length.
Qed.
End Layout.

(** One pair always fits. *)
Lemma single_fits len nss meth p : 0 < len -> 0 < nss -> sp_wf p -> screen_fits len nss meth 1 (fun _ => p).
Proof.
  intros Hlen Hnss Hwf t Ht. assert (t = 0) by lia. subst. cbn [start Nat.add].
  rewrite (@alloc_ok len nss 1 (fun _ => p) Hlen Hnss (fun _ _ => Hwf)). cbn [start]. unfold npf. cbn [Nat.add].
  unfold screen_extent. pose proof (rnd_ge Hlen (sp_np p)) as G.
  destruct (1 mod nss =? 0); rewrite ?(rnd_rnd Hlen); destruct meth; try lia; destruct (_ && _); lia.
Qed.
(** Example: vector length 4, pairs of 4 and of 6 (packed) primitives. *)
Definition ex_pairs (t : nat) : spair := match t with 0 => SP 2 2 false | _ => SP 3 3 true end.
Example ex_fits : screen_fits 4 8 Schwarz 2 ex_pairs.
Proof. intros [|[|t]] Ht; [vm_compute; lia|vm_compute; lia|lia]. Qed.
(** Two pairs of one primitive: the second screening call writes 0 to [AB_x[0]]. *)
Example overrun : match fill 4 8 Schwarz false 2 (fun _ => SP 1 1 false) with
  | Some m => nth_error m (off 4 8 Schwarz false 2 (fun _ => SP 1 1 false) (ADist 0))
  | None => None
  end = Some (Some Zero).
Proof. vm_compute. reflexivity. Qed.
(** The same with derivatives: [alpha2[0]]. *)
Example overrun_deriv : match fill 4 8 Schwarz true 2 (fun _ => SP 1 1 false) with
  | Some m => nth_error m (off 4 8 Schwarz true 2 (fun _ => SP 1 1 false) AAlpha2)
  | None => None
  end = Some (Some Zero).
Proof. vm_compute. reflexivity. Qed.
