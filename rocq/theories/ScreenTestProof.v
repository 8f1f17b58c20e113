(** Proofs about the program that counts how much screening saves. *)
From Coq Require Import List Arith Lia Bool ZArith Ring.
Import ListNotations.
From Verif Require Import Base Simd OrdRing Layout ScreenTest.
Set Implicit Arguments.
Local Open Scope nat_scope.

(** ** Sums *)
Definition sum (f : nat -> nat) (n : nat) : nat := list_sum (map f (seq 0 n)).
Lemma sum_S f n : sum f (S n) = sum f n + f n.
Proof. unfold sum. rewrite seq_S, map_app, list_sum_app. simpl. lia. Qed.
Lemma sum_ext f g n : (forall i, i < n -> f i = g i) -> sum f n = sum g n.
Proof. intros H. induction n as [|n IH]; [reflexivity|]. rewrite !sum_S, IH, H; [reflexivity|lia|]. intros i Hi. apply H. lia. Qed.
Lemma sum_le f g n : (forall i, i < n -> f i <= g i) -> sum f n <= sum g n.
Proof.
  intros H. induction n as [|n IH]; [reflexivity|]. rewrite !sum_S. apply Nat.add_le_mono; [apply IH; intros i Hi; apply H; lia|apply H; lia].
Qed.
Lemma sum_add f g n : sum (fun i => f i + g i) n = sum f n + sum g n.
Proof. induction n as [|n IH]; [reflexivity|]. rewrite !sum_S, IH. lia. Qed.
Lemma sum_mul c f n : sum (fun i => c * f i) n = c * sum f n.
Proof. induction n as [|n IH]; [unfold sum; simpl; lia|]. rewrite !sum_S, IH. lia. Qed.
Lemma sum_const c n : sum (fun _ => c) n = c * n.
Proof. induction n as [|n IH]; [unfold sum; simpl; lia|]. rewrite sum_S, IH. lia. Qed.
Lemma sum_list A (g : A -> nat) (f : nat -> list A) n :
  list_sum (map g (flat_map f (seq 0 n))) = sum (fun i => list_sum (map g (f i))) n.
Proof.
  induction n as [|n IH]; [reflexivity|]. rewrite seq_S, flat_map_app, map_app, list_sum_app, IH, sum_S. simpl. rewrite app_nil_r. reflexivity.
Qed.

Lemma sum_nth l : sum (fun i => nth i l 0) (length l) = list_sum l.
Proof.
  induction l as [|x l IH] using rev_ind; [reflexivity|]. rewrite app_length, Nat.add_1_r, sum_S, list_sum_app.
  rewrite (sum_ext _ (fun i => nth i l 0)) by (intros i Hi; apply app_nth1; exact Hi).
  rewrite IH, app_nth2, Nat.sub_diag by lia. simpl. lia.
Qed.

Lemma sum_swap f n m : sum (fun i => sum (f i) m) n = sum (fun j => sum (fun i => f i j) n) m.
Proof.
  induction n as [|n IH]; [symmetry; apply (sum_const 0 m)|]. rewrite sum_S, IH, <- sum_add. apply sum_ext. intros j _. rewrite sum_S. reflexivity.
Qed.

(** Half of [n (n + 1)]. *)
Definition tr (n : nat) : nat := n * (n + 1) / 2.
Lemma tr2 n : 2 * tr n = n * (n + 1).
Proof.
  induction n as [|n IH]; [reflexivity|]. unfold tr in *. replace (S n * (S n + 1)) with (n * (n + 1) + (S n) * 2) by ring.
  rewrite Nat.div_add by lia. lia.
Qed.
Lemma tr_sum n : sum (fun i => i + 1) n = tr n.
Proof. induction n as [|n IH]; [reflexivity|]. rewrite sum_S, IH. pose proof (tr2 n). pose proof (tr2 (S n)). nia. Qed.
(** Marks that are 0 or 1: pairs of marked elements in order. *)
Lemma tr_marks s n : (forall i, i < n -> s i <= 1) -> sum (fun i => s i * sum s (i + 1)) n = tr (sum s n).
Proof.
  intros H. induction n as [|n IH]; [reflexivity|].
  rewrite sum_S, IH by (intros i Hi; apply H; lia). rewrite Nat.add_1_r, sum_S.
  pose proof (tr2 (sum s n)). pose proof (tr2 (sum s n + s n)). specialize (H n ltac:(lia)).
  destruct (s n) as [|[|?]]; nia.
Qed.
(** The same in two steps: [t ij] is the number of marks of block [ij]. *)
Lemma tr_blocks (s : nat -> nat -> nat) (m : nat -> nat) n : (forall i p, i < n -> p < m i -> s i p <= 1) ->
  sum (fun ij => sum (fun kl => sum (fun p => sum (fun q => s ij p * s kl q) (if ij =? kl then p + 1 else m kl)) (m ij)) (ij + 1)) n
  = tr (sum (fun ij => sum (s ij) (m ij)) n).
Proof.
  intros H. set (t := fun ij => sum (s ij) (m ij)).
  assert (A : forall ij, ij < n -> sum (fun kl => sum (fun p => sum (fun q => s ij p * s kl q) (if ij =? kl then p + 1 else m kl)) (m ij)) (ij + 1)
    = t ij * sum t ij + tr (t ij)).
  { intros ij Hij. rewrite Nat.add_1_r, sum_S. f_equal.
    - rewrite <- sum_mul. apply sum_ext. intros kl Hkl. destruct (Nat.eqb_spec ij kl) as [->|_]; [lia|].
      rewrite (sum_ext _ (fun p => t kl * s ij p)).
      + rewrite sum_mul. unfold t. lia.
      + intros p Hp. rewrite sum_mul. unfold t. lia.
    - rewrite Nat.eqb_refl. unfold t. rewrite <- (@tr_marks (s ij) (m ij)) by (intros p Hp; apply H; assumption).
      apply sum_ext. intros p Hp. apply sum_mul. }
  rewrite (sum_ext _ _ A). clear A H. induction n as [|n IH]; [reflexivity|].
  rewrite !sum_S, IH. fold t. pose proof (tr2 (sum t n)). pose proof (tr2 (t n)). pose proof (tr2 (sum t n + t n)). nia.
Qed.

(** Counting as a sum. *)
Lemma how_many_sum A (P : A -> bool) l : how_many P l = list_sum (map (fun x => if P x then 1 else 0) l).
Proof. unfold how_many. induction l as [|x l IH]; [reflexivity|]. simpl. destruct (P x); simpl; rewrite IH; reflexivity. Qed.

Section Proofs.
Context {R : cring}.
Add Ring Rring_st : (cth R).
Variables (O : ordered R) (tol2 : R) (len : nat).
Variables (nprim : list nat) (shellscr : nat -> R) (primscr : nat -> nat -> R) (primmax : nat -> R).
Local Notation N := (npair_total nprim).
Local Notation nn := (nth_np nprim).
Local Notation sig := (significant O tol2).
Local Notation mark := (fun v => if significant O tol2 v then 1 else 0).

Lemma over_len A (f : nat -> nat -> A) : length (over_pairs nprim f) = N.
Proof.
  unfold over_pairs, npair_total. fold (tr (nshell nprim)). rewrite <- tr_sum. set (n := nshell nprim).
  induction n as [|n IH]; [reflexivity|]. rewrite seq_S, flat_map_app, app_length, IH, sum_S. simpl.
  rewrite app_nil_r, map_length, seq_length. lia.
Qed.
Lemma over_nth A (f g : nat -> nat -> A) : (forall i j, f i j = g i j) -> over_pairs nprim f = over_pairs nprim g.
Proof. intros H. unfold over_pairs. apply flat_map_ext. intros i. apply map_ext. intros j. apply H. Qed.
Lemma same_nprim : stored_nprim nprim = pair_nprim nprim.
Proof.
  apply over_nth. intros i j. unfold sp_np. simpl. destruct (Nat.eqb_spec i j) as [->|_]; [|reflexivity].
  reflexivity.
Qed.

(** Loops with counters. *)
Definition add2 (c d : nat * nat) : nat * nat := (fst c + fst d, snd c + snd d).
Lemma loop_S A (b : nat -> A -> A) n s : loop b (S n) s = b n (loop b n s).
Proof. unfold loop. rewrite seq_S, fold_left_app. reflexivity. Qed.
Lemma loop_ext A (b b' : nat -> A -> A) n s : (forall i x, i < n -> b i x = b' i x) -> loop b n s = loop b' n s.
Proof. intros H. induction n as [|n IH]; [reflexivity|]. rewrite !loop_S, IH, H; [reflexivity|lia|]. intros i x Hi. apply H. lia. Qed.
Lemma loop_count b (f g : nat -> nat) n c : (forall i c, i < n -> b i c = add2 c (f i, g i)) ->
  loop b n c = add2 c (sum f n, sum g n).
Proof.
  intros H. induction n as [|n IH]; [destruct c; unfold loop, add2; simpl; rewrite !Nat.add_0_r; reflexivity|].
  rewrite loop_S, IH, H, !sum_S; [unfold add2; simpl; rewrite !Nat.add_assoc; reflexivity|lia|].
  intros i d Hi. apply H. lia.
Qed.
Lemma tick_add v c : tick O tol2 v c = add2 c (1 - mark v, mark v).
Proof. unfold tick, significant, add2. destruct c as [a b]. destruct (leb O tol2 v); simpl; rewrite ?Nat.add_0_r; reflexivity. Qed.

Lemma pairs_count : count_pairs O tol2 nprim shellscr =
  (sum (fun ij => 1 - mark (cmul (shellscr ij) (shell_max O nprim shellscr))) N, sum (fun ij => mark (cmul (shellscr ij) (shell_max O nprim shellscr))) N).
Proof.
  unfold count_pairs. unfold stored_nprim. rewrite over_len.
  rewrite (loop_count _
    (fun ij => 1 - mark (cmul (shellscr ij) (shell_max O nprim shellscr))) (fun ij => mark (cmul (shellscr ij) (shell_max O nprim shellscr)))); [reflexivity|].
  intros i c _. apply tick_add.
Qed.
Lemma quartets_count : count_quartets O tol2 nprim shellscr =
  (sum (fun ij => sum (fun kl => 1 - mark (cmul (shellscr ij) (shellscr kl))) (ij + 1)) N,
   sum (fun ij => sum (fun kl => mark (cmul (shellscr ij) (shellscr kl))) (ij + 1)) N).
Proof.
  unfold count_quartets. unfold stored_nprim. rewrite over_len.
  rewrite (loop_count _ (fun ij => sum (fun kl => 1 - mark (cmul (shellscr ij) (shellscr kl))) (ij + 1))
    (fun ij => sum (fun kl => mark (cmul (shellscr ij) (shellscr kl))) (ij + 1))); [reflexivity|].
  intros ij c _. apply loop_count. intros kl d _. apply tick_add.
Qed.
Definition qmark (v : R) (b : bool) : nat := if b then mark v else 1 - mark v.
Definition qend (ij kl p : nat) : nat := if ij =? kl then p + 1 else nn kl.
Definition primq_sum (f : nat -> nat -> nat -> nat -> nat) : nat :=
  sum (fun ij => sum (fun kl => sum (fun p => sum (fun q => f ij p kl q) (qend ij kl p)) (nn ij)) (ij + 1)) N.
Lemma primq_count : count_primq O tol2 nprim primscr =
  (primq_sum (fun ij p kl q => qmark (cmul (primscr ij p) (primscr kl q)) false),
   primq_sum (fun ij p kl q => qmark (cmul (primscr ij p) (primscr kl q)) true)).
Proof.
  unfold count_primq. unfold stored_nprim. rewrite over_len. unfold primq_sum.
  rewrite (loop_count _
    (fun ij => sum (fun kl => sum (fun p => sum (fun q => qmark (cmul (primscr ij p) (primscr kl q)) false) (qend ij kl p)) (nn ij)) (ij + 1))
    (fun ij => sum (fun kl => sum (fun p => sum (fun q => qmark (cmul (primscr ij p) (primscr kl q)) true) (qend ij kl p)) (nn ij)) (ij + 1))); [reflexivity|].
  intros ij c _. apply loop_count. intros kl d _. apply loop_count. intros p e _. apply loop_count. intros q g _. apply tick_add.
Qed.
Definition prim_sum (f : nat -> nat -> nat) : nat := sum (fun ij => sum (f ij) (nn ij)) N.
Lemma prims_count : count_prims O tol2 len nprim primscr primmax =
  if forallb (fun n => rnd len n =? n) (pair_nprim nprim)
  then Some (prim_sum (fun ij p => qmark (cmul (primscr ij p) (prim_max O nprim primmax)) false),
             prim_sum (fun ij p => qmark (cmul (primscr ij p) (prim_max O nprim primmax)) true))
  else None.
Proof.
  unfold count_prims. rewrite same_nprim. unfold prim_sum. fold (stored_nprim nprim).
  assert (L : length (pair_nprim nprim) = N) by (unfold pair_nprim; apply over_len). rewrite <- L.
  set (M := prim_max O nprim primmax).
  assert (E : forallb (fun n => rnd len n =? n) (pair_nprim nprim) = forallb (fun ij => rnd len (nn ij) =? nn ij) (seq 0 (length (pair_nprim nprim)))).
  { unfold nth_np. generalize (pair_nprim nprim). intros l. apply eq_true_iff_eq. rewrite !forallb_forall. split.
    - intros H i Hi. apply in_seq in Hi. apply H. apply nth_In. lia.
    - intros H x Hx. destruct (In_nth l x 0 Hx) as [i [Hi <-]]. apply H. apply in_seq. lia. }
  rewrite E. clear E. set (n := length (pair_nprim nprim)). clearbody n. clear L.
  induction n as [|n IH]; [reflexivity|].
  rewrite loop_S, IH. rewrite seq_S, forallb_app. cbn [forallb Nat.add]. rewrite andb_true_r.
  destruct (forallb _ (seq 0 n)); [|reflexivity]. cbn [andb].
  change (nth n (pair_nprim nprim) 0) with (nn n). destruct (rnd len (nn n) =? nn n); [|reflexivity].
  rewrite !sum_S. rewrite (loop_count _ (fun p => qmark (cmul (primscr n p) M) false) (fun p => qmark (cmul (primscr n p) M) true)); [reflexivity|].
  intros p c _. apply tick_add.
Qed.

(** The totals. *)
Lemma mark_total v : (1 - mark v) + mark v = 1.
Proof. cbv beta. destruct (significant O tol2 v); reflexivity. Qed.
Lemma pairs_total : both (count_pairs O tol2 nprim shellscr) = N.
Proof.
  rewrite pairs_count. unfold both. cbn [fst snd]. rewrite <- sum_add.
  rewrite (sum_ext _ (fun _ => 1)) by (intros; apply mark_total). rewrite sum_const. lia.
Qed.
Lemma quartets_total : both (count_quartets O tol2 nprim shellscr) = tr N.
Proof.
  rewrite quartets_count. unfold both. cbn [fst snd]. rewrite <- sum_add, <- tr_sum. apply sum_ext. intros ij _.
  rewrite <- sum_add. rewrite (sum_ext _ (fun _ => 1)) by (intros; apply mark_total). rewrite sum_const. lia.
Qed.
Lemma primq_total : both (count_primq O tol2 nprim primscr) = tr (sum nn N).
Proof.
  rewrite primq_count. unfold both. cbn [fst snd]. unfold primq_sum. rewrite <- sum_add.
  transitivity (sum (fun ij => sum (fun kl => sum (fun p => sum (fun q => 1 * 1) (qend ij kl p)) (nn ij)) (ij + 1)) N).
  - apply sum_ext. intros ij _. rewrite <- sum_add. apply sum_ext. intros kl _. rewrite <- sum_add. apply sum_ext. intros p _.
    rewrite <- sum_add. apply sum_ext. intros q _. apply mark_total.
  - unfold qend. rewrite (tr_blocks (fun _ _ => 1) nn) by lia. f_equal. apply sum_ext. intros ij _. rewrite sum_const. lia.
Qed.
Lemma prims_total : prim_sum (fun ij p => qmark (cmul (primscr ij p) (prim_max O nprim primmax)) false)
  + prim_sum (fun ij p => qmark (cmul (primscr ij p) (prim_max O nprim primmax)) true) = sum nn N.
Proof.
  unfold prim_sum. rewrite <- sum_add. apply sum_ext. intros ij _. rewrite <- sum_add.
  rewrite (sum_ext _ (fun _ => 1)) by (intros; apply mark_total). rewrite sum_const. lia.
Qed.
(** All primitive pairs: those of the uncontracted shells. *)
Lemma all_prims : sum nn N = tr (list_sum nprim).
Proof.
  assert (A : sum nn N = list_sum (pair_nprim nprim)).
  { unfold nth_np. replace N with (length (pair_nprim nprim)) by (unfold pair_nprim; apply over_len).
    apply sum_nth. }
  rewrite A. unfold pair_nprim, over_pairs.
  rewrite <- (map_id (flat_map _ _)), sum_list.
  assert (B : list_sum nprim = sum (np nprim) (nshell nprim)).
  { symmetry. apply sum_nth. }
  rewrite B. generalize (nshell nprim). intros n. induction n as [|n IH]; [reflexivity|].
  rewrite !sum_S, IH. cbv beta. rewrite map_id, (Nat.add_1_r n).
  match goal with |- context [list_sum (map ?f (seq 0 (S n)))] => change (list_sum (map f (seq 0 (S n)))) with (sum f (S n)) end.
  rewrite sum_S, Nat.eqb_refl.
  rewrite (sum_ext (fun j => if n =? j then np nprim n * (np nprim n + 1) / 2 else np nprim n * np nprim j) (fun j => np nprim n * np nprim j)); [|intros j Hj; destruct (Nat.eqb_spec n j); [lia|reflexivity]].
  rewrite sum_mul. fold (tr (np nprim n)). pose proof (tr2 (sum (np nprim) n)). pose proof (tr2 (np nprim n)).
  pose proof (tr2 (sum (np nprim) n + np nprim n)). nia.
Qed.

(** ** The program *)
Lemma run : screentest O tol2 len nprim shellscr primscr primmax =
  match count_prims O tol2 len nprim primscr primmax with
  | Some cm => Some (Counts (count_pairs O tol2 nprim shellscr) cm (count_quartets O tol2 nprim shellscr) (count_primq O tol2 nprim primscr))
  | None => None end.
Proof.
  unfold screentest. rewrite pairs_total, quartets_total, primq_total. unfold stored_nprim, pair_nprim. rewrite !over_len, Nat.eqb_refl. cbn [negb].
  rewrite prims_count. destruct (forallb _ _); [|reflexivity]. unfold both. cbn [fst snd]. rewrite prims_total. unfold tr. rewrite !Nat.eqb_refl. reflexivity.
Qed.
Lemma run_iff : (exists r, screentest O tol2 len nprim shellscr primscr primmax = Some r) <-> forall n, In n (pair_nprim nprim) -> rnd len n = n.
Proof.
  rewrite run, prims_count. split.
  - intros [r H] n Hn. destruct (forallb _ _) eqn:E; [|discriminate]. rewrite forallb_forall in E. apply Nat.eqb_eq, E, Hn.
  - intros H. replace (forallb (fun n => rnd len n =? n) (pair_nprim nprim)) with true; [eexists; reflexivity|].
    symmetry. apply forallb_forall. intros n Hn. apply Nat.eqb_eq, H, Hn.
Qed.

(** ** What is counted *)
Lemma sum_hm (P : nat -> bool) n : sum (fun i => if P i then 1 else 0) n = how_many P (seq 0 n).
Proof. rewrite how_many_sum. reflexivity. Qed.
Lemma sum_0 n : sum (fun _ => 0) n = 0.
Proof. rewrite sum_const. lia. Qed.
Lemma list_prod_sum A B (g : A * B -> nat) (l : list A) (k : list B) :
  list_sum (map g (list_prod l k)) = list_sum (map (fun x => list_sum (map (fun y => g (x, y)) k)) l).
Proof. induction l as [|x l IH]; [reflexivity|]. simpl. rewrite map_app, list_sum_app, IH, map_map. reflexivity. Qed.
Lemma over_prims (g : nat * nat -> nat) : list_sum (map g (prim_pairs nprim)) = prim_sum (fun ij p => g (ij, p)).
Proof. unfold prim_pairs. rewrite sum_list. apply sum_ext. intros ij _. rewrite map_map. reflexivity. Qed.
(** A sum cut off. *)
Lemma sum_cut f n m : m <= n -> (forall i, m <= i -> i < n -> f i = 0) -> sum f n = sum f m.
Proof.
  intros H K. induction n as [|n IH]; [replace m with 0 by lia; reflexivity|].
  destruct (Nat.eq_dec m (S n)) as [->|D]; [reflexivity|]. rewrite sum_S, IH, K by (try lia; intros i H1 H2; apply K; lia). lia.
Qed.

Theorem counted : forall r, screentest O tol2 len nprim shellscr primscr primmax = Some r ->
  let P := prim_pairs nprim in let M := list_sum nprim in
  let smax := shell_max O nprim shellscr in let pmax := prim_max O nprim primmax in
  (snd (c_pair r) = how_many (fun ij => sig (cmul (shellscr ij) smax)) (seq 0 N) /\ fst (c_pair r) + snd (c_pair r) = N) /\
  (snd (c_prim r) = how_many (fun x => sig (cmul (primscr (fst x) (snd x)) pmax)) P /\
   fst (c_prim r) + snd (c_prim r) = length P /\ length P = M * (M + 1) / 2) /\
  (snd (c_quartet r) = how_many (fun xy => (snd xy <=? fst xy) && sig (cmul (shellscr (fst xy)) (shellscr (snd xy)))) (list_prod (seq 0 N) (seq 0 N)) /\
   fst (c_quartet r) + snd (c_quartet r) = N * (N + 1) / 2) /\
  (snd (c_primq r) = how_many (fun xy => before (snd xy) (fst xy) &&
     sig (cmul (primscr (fst (fst xy)) (snd (fst xy))) (primscr (fst (snd xy)) (snd (snd xy))))) (list_prod P P) /\
   fst (c_primq r) + snd (c_primq r) = length P * (length P + 1) / 2).
Proof.
  intros r H. rewrite run in H. rewrite prims_count in H. destruct (forallb _ _); [|discriminate]. injection H as <-. cbn [c_pair c_prim c_quartet c_primq].
  assert (LP : length (prim_pairs nprim) = sum nn N).
  { transitivity (list_sum (map (fun _ => 1) (prim_pairs nprim))); [induction (prim_pairs nprim) as [|x l IH]; [reflexivity|simpl; rewrite IH; reflexivity]|].
    rewrite over_prims. apply sum_ext. intros ij _. rewrite sum_const. lia. }
  cbv zeta. split; [|split; [|split]].
  - split; [|exact pairs_total]. rewrite pairs_count. cbn [snd]. apply sum_hm.
  - cbn [fst snd]. split; [|split; [rewrite LP; apply prims_total|rewrite LP; exact all_prims]].
    rewrite how_many_sum, over_prims. reflexivity.
  - split; [|exact quartets_total]. rewrite quartets_count. cbn [snd]. rewrite how_many_sum, list_prod_sum. cbn [fst snd].
    apply sum_ext. intros ij Hij. symmetry.
    transitivity (sum (fun kl => if (kl <=? ij) && sig (cmul (shellscr ij) (shellscr kl)) then 1 else 0) N); [reflexivity|].
    rewrite (sum_cut _ (m := ij + 1)); [|lia|intros kl H1 H2; destruct (Nat.leb_spec kl ij); [lia|reflexivity]].
    apply sum_ext. intros kl Hkl. destruct (Nat.leb_spec kl ij); [reflexivity|lia].
  - split; [|rewrite LP; exact primq_total]. rewrite primq_count. cbn [snd]. rewrite how_many_sum, list_prod_sum, over_prims.
    unfold primq_sum, prim_sum. apply sum_ext. intros ij Hij.
    set (g := fun p kl q => if before (kl, q) (ij, p) && sig (cmul (primscr ij p) (primscr kl q)) then 1 else 0).
    transitivity (sum (fun p => sum (fun kl => sum (fun q => g p kl q) (nn kl)) N) (nn ij)).
    + transitivity (sum (fun p => sum (fun kl => sum (fun q => g p kl q) (nn kl)) (ij + 1)) (nn ij)).
      * rewrite sum_swap. apply sum_ext. intros p Hp. apply sum_ext. intros kl Hkl. symmetry. unfold g, qend, before. cbn [fst snd].
        destruct (Nat.eqb_spec ij kl) as [<-|D].
        -- rewrite (sum_cut _ (m := p + 1)).
           ++ apply sum_ext. intros q Hq. rewrite Nat.ltb_irrefl, Nat.eqb_refl. destruct (Nat.leb_spec q p); [reflexivity|lia].
           ++ lia.
           ++ intros q Hq1 Hq2. rewrite Nat.ltb_irrefl, Nat.eqb_refl. destruct (Nat.leb_spec q p); [lia|reflexivity].
        -- apply sum_ext. intros q Hq. destruct (Nat.ltb_spec kl ij); [reflexivity|lia].
      * apply sum_ext. intros p Hp. symmetry. apply sum_cut; [lia|]. intros kl H1 H2. rewrite <- (sum_0 (nn kl)).
        apply sum_ext. intros q _. unfold g, before. cbn [fst snd]. destruct (Nat.ltb_spec kl ij); [lia|]. destruct (Nat.eqb_spec kl ij); [lia|]. reflexivity.
    + apply sum_ext. intros p Hp. symmetry. rewrite over_prims. reflexivity.
Qed.

(** ** A pair that is never significant is in no significant quartet *)
Lemma vmax_l (a b : R) : le O a (vmax O a b).
Proof. unfold vmax, le. destruct (leb O a b) eqn:E; [exact E|apply le_refl]. Qed.
Lemma vmax_r (a b : R) : le O b (vmax O a b).
Proof. unfold vmax, le. destruct (leb O a b) eqn:E; [apply le_refl|]. destruct (o_total O a b) as [K|K]; [congruence|exact K]. Qed.
Lemma max_loop (f : nat -> R) n s : le O s (loop (fun i m => vmax O m (f i)) n s) /\ forall i, i < n -> le O (f i) (loop (fun i m => vmax O m (f i)) n s).
Proof.
  induction n as [|n [I1 I2]]; [split; [apply le_refl|lia]|]. rewrite loop_S. split.
  - apply (o_trans O _ _ _ I1), vmax_l.
  - intros i Hi. destruct (Nat.eq_dec i n) as [->|D]; [apply vmax_r|]. apply (o_trans O _ _ _ (I2 i ltac:(lia))), vmax_l.
Qed.
Lemma sig_left (a b m : R) : le O c0 a -> le O c0 b -> le O b m -> sig (cmul a b) = true -> sig (cmul a m) = true.
Proof. unfold significant. intros Ha Hc Hb H. apply (o_trans O _ _ _ H). apply mul_le; try assumption. apply le_refl. Qed.
Lemma mark_le (x y z : bool) : (x = true -> y = true /\ z = true) -> (if x then 1 else 0) <= (if y then 1 else 0) * (if z then 1 else 0).
Proof. destruct x; [|lia]. intros H. destruct (H eq_refl) as [-> ->]. lia. Qed.

Theorem saved : (forall ij, ij < N -> le O c0 (shellscr ij)) ->
  (forall ij p, ij < N -> p < nn ij -> le O c0 (primscr ij p) /\ le O (primscr ij p) (primmax ij)) ->
  forall r, screentest O tol2 len nprim shellscr primscr primmax = Some r ->
  snd (c_quartet r) <= snd (c_pair r) * (snd (c_pair r) + 1) / 2 /\ snd (c_primq r) <= snd (c_prim r) * (snd (c_prim r) + 1) / 2.
Proof.
  intros H1 H2 r H. rewrite run in H. rewrite prims_count in H. destruct (forallb _ _); [|discriminate]. injection H as <-. cbn [c_pair c_prim c_quartet c_primq].
  split.
  - rewrite pairs_count, quartets_count. cbn [snd]. set (s := fun ij => mark (cmul (shellscr ij) (shell_max O nprim shellscr))).
    change (sum _ N * (sum _ N + 1) / 2) with (tr (sum s N)). rewrite <- (@tr_marks s N) by (intros i _; unfold s; destruct (significant O tol2 _); lia).
    apply sum_le. intros ij Hij. rewrite <- sum_mul. apply sum_le. intros kl Hkl. apply mark_le. intros E.
    assert (B : forall i, i < N -> le O (shellscr i) (shell_max O nprim shellscr)).
    { intros i Hi. unfold shell_max, stored_nprim. rewrite over_len. apply max_loop. exact Hi. }
    split; [apply (sig_left (H1 ij Hij) (H1 kl ltac:(lia)) (B kl ltac:(lia)) E)|].
    apply (sig_left (H1 kl ltac:(lia)) (H1 ij Hij) (B ij Hij)). rewrite <- E. f_equal. ring.
  - rewrite primq_count. cbn [snd]. set (s := fun ij p => qmark (cmul (primscr ij p) (prim_max O nprim primmax)) true).
    change (prim_sum _ * (prim_sum _ + 1) / 2) with (tr (sum (fun ij => sum (s ij) (nn ij)) N)).
    rewrite <- (@tr_blocks s nn N) by (intros i p _ _; unfold s, qmark; destruct (significant O tol2 _); lia).
    apply sum_le. intros ij Hij. apply sum_le. intros kl Hkl. apply sum_le. intros p Hp. apply sum_le. intros q Hq. apply mark_le. intros E.
    assert (B : forall i p, i < N -> p < nn i -> le O (primscr i p) (prim_max O nprim primmax)).
    { intros i p' Hi Hp'. apply (o_trans O _ (primmax i)); [apply H2; assumption|].
      unfold prim_max, stored_nprim. rewrite over_len. apply max_loop. exact Hi. }
    assert (Hq' : q < nn kl) by (unfold qend in Hq; destruct (Nat.eqb_spec ij kl); [subst; lia|exact Hq]).
    destruct (H2 ij p Hij Hp) as [P1 _]. destruct (H2 kl q ltac:(lia) Hq') as [Q1 _].
    split; [apply (sig_left P1 Q1 (B kl q ltac:(lia) Hq') E)|].
    apply (sig_left Q1 P1 (B ij p Hij Hp)). rewrite <- E. f_equal. ring.
Qed.
End Proofs.

(** ** Vector length *)
Lemma over_in (nprim : list nat) n : In n (pair_nprim nprim) <->
  exists i j, j <= i /\ i < length nprim /\ n = if i =? j then np nprim i * (np nprim i + 1) / 2 else np nprim i * np nprim j.
Proof.
  unfold pair_nprim, over_pairs, nshell. rewrite in_flat_map. split.
  - intros [i [Hi H]]. apply in_seq in Hi. apply in_map_iff in H. destruct H as [j [<- Hj]]. apply in_seq in Hj. exists i, j. repeat split; lia.
  - intros [i [j [H1 [H2 ->]]]]. exists i. split; [apply in_seq; lia|]. apply in_map_iff. exists j. split; [reflexivity|apply in_seq; lia].
Qed.
Theorem runs {R : cring} (O : ordered R) tol2 len nprim shellscr primscr primmax : 0 < len ->
  (exists r, screentest O tol2 len nprim shellscr primscr primmax = Some r) <->
  forall i j, j <= i -> i < length nprim ->
    Nat.divide len (if i =? j then nth i nprim 0 * (nth i nprim 0 + 1) / 2 else nth i nprim 0 * nth j nprim 0).
Proof.
  intros Hl. rewrite run_iff. split.
  - intros H i j Hj Hi. rewrite <- (H (if i =? j then nth i nprim 0 * (nth i nprim 0 + 1) / 2 else nth i nprim 0 * nth j nprim 0)).
    + apply rnd_divide.
    + apply over_in. exists i, j. repeat split; assumption.
  - intros H n Hn. apply over_in in Hn. destruct Hn as [i [j [H1 [H2 ->]]]]. apply rnd_id; [exact Hl|]. apply H; assumption.
Qed.
Lemma runs_scalar {R : cring} (O : ordered R) tol2 nprim shellscr primscr primmax :
  exists r, screentest O tol2 1 nprim shellscr primscr primmax = Some r.
Proof. apply runs; [lia|]. intros. apply Nat.divide_1_l. Qed.

(** Two shells with 1 and 2 primitives, and values of screening. *)
Definition ex_nprim : list nat := [1; 2].
Definition ex_shell (ij : nat) : Z := nth ij [10; 6; 1]%Z 0%Z.
Definition ex_prim (ij p : nat) : Z := nth p (nth ij [[9]; [5; 1]; [1; 0; 1]]%Z []) 0%Z.
Definition ex_max (ij : nat) : Z := nth ij [9; 5; 1]%Z 0%Z.
Definition ex_run (len : nat) : option counts := @screentest Zring Zordered 20%Z len ex_nprim ex_shell ex_prim ex_max.
Lemma vector_stops : ~ forall len (nprim : list nat) (shellscr : nat -> Z) (primscr : nat -> nat -> Z) (primmax : nat -> Z), 0 < len -> nprim <> [] ->
  (forall n, In n nprim -> 0 < n) -> exists r, @screentest Zring Zordered 20%Z len nprim shellscr primscr primmax = Some r.
Proof.
  intros H. specialize (H 4 ex_nprim ex_shell ex_prim ex_max ltac:(lia) ltac:(discriminate)). destruct H as [r H].
  - intros n [<-|[<-|[]]]; lia.
  - vm_compute in H. discriminate.
Qed.
