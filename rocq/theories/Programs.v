(** Programs that put the results of several calls one after the other into one buffer, and the benchmark with its
    fixed classes.
    Source: skel/examples/example1.c:95-153, example_water_spsp.c:82-121, example_water_ppps_deriv.c:80-121,
    skel/examples/CMakeLists.txt, skel/test/benchmark_eri.cpp:46-172, skel/simint/ostei/ostei.c:10-43,
    generator/ostei/OSTEI_Writer.cpp:747, generator/ostei/OSTEIDeriv1_Writer.cpp:938.

    Only positions and counts are modelled here, not values; [int] is a whole number (its range is C81). *)
From Coq Require Import List Arith ZArith Lia Bool QArith.
Import ListNotations.
From Verif Require Import Base Cart VRRStep Work PairData Naming Dispatch MolFile MolFileProof.
Set Implicit Arguments.
Local Open Scope Z_scope.

(** One call [ncomputed = simint_compute_eri(...); ncomputed *= mult; ntotal += ncomputed;]: order of the derivative,
    class, shell pairs in bra and ket, whether it returns early (ostei.c:19-20), factor. *)
Record call := Call { k_der : nat; k_q : qam; k_bra : nat; k_ket : nat; k_screened : bool; k_mult : Z }.
(** Elements the kernel stores for each pair of pairs: the products of components, 12 times that for first
    derivatives (OSTEIDeriv1_Writer.cpp, [ncart] and the 12 of the [abcd] index). *)
Definition comps (c : call) : Z :=
  Z.of_nat (ncart (am0 (k_q c)) * ncart (am1 (k_q c)) * ncart (am2 (k_q c)) * ncart (am3 (k_q c))) *
  (if (k_der c =? 0)%nat then 1 else 12).
(** The number of shell quartets of the call. *)
Definition quartets (c : call) : Z := Z.of_nat (k_bra c) * Z.of_nat (k_ket c).
(** What it returns: -1 when screened (ostei.c:20, 40), else [P.nshell12_clip * Q.nshell12_clip]
    (OSTEI_Writer.cpp:747). *)
Definition ret (c : call) : Z := if k_screened c then -1 else quartets c.
(** What it stores. *)
Definition stored (c : call) : Z := if k_screened c then 0 else quartets c * comps c.
(** Start and length of what each call stores, from the value of [ntotal]; example1.c:124-153. *)
Fixpoint blocks (ntotal : Z) (l : list call) : list (Z * Z) :=
  match l with
  | [] => []
  | c :: r => (ntotal, stored c) :: blocks (ntotal + ret c * k_mult c) r
  end.
(** [ntotal] at the end. *)
Fixpoint total (ntotal : Z) (l : list call) : Z :=
  match l with [] => ntotal | c :: r => total (ntotal + ret c * k_mult c) r end.

(** *** What is wanted *)
(** Element [x] belongs to block [b]. *)
Definition inside (b : Z * Z) (x : Z) : Prop := fst b <= x < fst b + snd b.
(** Every element is in a buffer of [size] elements. *)
Definition in_buffer (size : Z) (bs : list (Z * Z)) : Prop := forall b x, In b bs -> inside b x -> 0 <= x < size.
(** No element belongs to two blocks. *)
Definition separate (bs : list (Z * Z)) : Prop :=
  forall i j b c x, (i < j)%nat -> nth_error bs i = Some b -> nth_error bs j = Some c -> inside b x -> inside c x -> False.
Definition all_stored (l : list call) : Z := fold_right (fun c s => stored c + s) 0 l.

Lemma comps_pos c : 1 <= comps c.
Proof.
  unfold comps. pose proof (ncart_ge1 (am0 (k_q c))). pose proof (ncart_ge1 (am1 (k_q c))).
  pose proof (ncart_ge1 (am2 (k_q c))). pose proof (ncart_ge1 (am3 (k_q c))).
  assert (1 <= ncart (am0 (k_q c)) * ncart (am1 (k_q c)) * ncart (am2 (k_q c)) * ncart (am3 (k_q c)))%nat.
  { apply (Nat.mul_le_mono 1 _ 1); [|assumption]. apply (Nat.mul_le_mono 1 _ 1); [|assumption]. apply (Nat.mul_le_mono 1 _ 1); assumption. }
  destruct (k_der c =? 0)%nat; lia.
Qed.
Lemma quartets_pos c : 0 <= quartets c.
Proof. unfold quartets. nia. Qed.
Lemma stored_pos c : 0 <= stored c.
Proof. unfold stored. pose proof (comps_pos c). pose proof (quartets_pos c). destruct (k_screened c); nia. Qed.
Lemma all_stored_pos l : 0 <= all_stored l.
Proof. induction l as [|c r IH]; simpl; [lia|]. pose proof (stored_pos c). lia. Qed.
Lemma all_stored_app a b : all_stored (a ++ b) = all_stored a + all_stored b.
Proof. unfold all_stored. induction a as [|c r IH]; simpl; [reflexivity|]. rewrite IH. lia. Qed.
Lemma blocks_app a b n : blocks n (a ++ b) = blocks n a ++ blocks (total n a) b.
Proof. revert n; induction a as [|c r IH]; intros n; simpl; [reflexivity|]. now rewrite IH. Qed.
Lemma blocks_length l n : List.length (blocks n l) = List.length l.
Proof. revert n; induction l as [|c r IH]; intros n; simpl; [reflexivity|]. now rewrite IH. Qed.

(** A call not screened whose factor is the number of elements it stores per quartet. *)
Definition exact_call (c : call) : Prop := k_screened c = false /\ k_mult c = comps c.
Lemma exact_ret c : exact_call c -> ret c * k_mult c = stored c.
Proof. intros [A B]. unfold ret, stored. now rewrite A, B. Qed.
Lemma exact_total l n : Forall exact_call l -> total n l = n + all_stored l.
Proof.
  revert n; induction l as [|c r IH]; intros n H; simpl; [lia|]. inversion H as [|? ? H1 H2]; subst. rewrite IH by exact H2.
  rewrite exact_ret by exact H1. fold (all_stored r). lia.
Qed.
(** Every position from the start to the total belongs to exactly one block. *)
Lemma exact_tiles l n : Forall exact_call l ->
  (forall x, (exists b, In b (blocks n l) /\ inside b x) <-> n <= x < n + all_stored l) /\ separate (blocks n l).
Proof.
  revert n; induction l as [|c r IH]; intros n H; simpl.
  - split; [intros x; split; [intros (b & [] & _)|lia]|]. intros i j b c x _ A. destruct i; discriminate.
  - inversion H as [|? ? H1 H2]; subst. rewrite exact_ret by exact H1. destruct (IH (n + stored c) H2) as [A B].
    pose proof (stored_pos c). pose proof (all_stored_pos r). fold (all_stored r). split.
    + intros x. split.
      * intros (b & [<-|Hb] & Hx); [unfold inside in Hx; simpl in Hx; lia|].
        assert (n + stored c <= x < n + stored c + all_stored r) by (apply A; now exists b). lia.
      * intros Hx. destruct (Z_lt_ge_dec x (n + stored c)) as [Hl|Hg].
        -- exists (n, stored c). split; [now left|]. unfold inside; simpl; lia.
        -- destruct (proj2 (A x)) as (b & Hb & Hi); [lia|]. exists b. split; [now right|exact Hi].
    + intros i j b c' x Hij Hi Hj Hb Hc. destruct j as [|j]; [lia|]. simpl in Hj. destruct i as [|i].
      * simpl in Hi. injection Hi as <-. unfold inside in Hb; simpl in Hb.
        assert (n + stored c <= x < n + stored c + all_stored r).
        { apply A. exists c'. split; [eapply nth_error_In; exact Hj|exact Hc]. }
        lia.
      * simpl in Hi. exact (B i j b c' x ltac:(lia) Hi Hj Hb Hc).
Qed.

Theorem blocks_exact (l : list call) (size : Z) : Forall exact_call l -> all_stored l <= size ->
  in_buffer size (blocks 0 l) /\ separate (blocks 0 l) /\ total 0 l = all_stored l /\
  (forall x, 0 <= x < total 0 l <-> exists b, In b (blocks 0 l) /\ inside b x).
Proof.
  intros H Hs. destruct (@exact_tiles l 0 H) as [A B]. rewrite exact_total by exact H. split; [|split; [exact B|split; [lia|]]].
  - intros b x Hb Hx. assert (0 <= x < 0 + all_stored l) by (apply A; now exists b). lia.
  - intros x. symmetry. apply A.
Qed.

(** The other way round: with factors that are too small the blocks overlap. *)
Theorem blocks_apart (l : list call) : (forall c, In c l -> k_screened c = false /\ 0 < quartets c /\ 0 <= k_mult c) ->
  (separate (blocks 0 l) <-> forall i c, nth_error l i = Some c -> (S i < List.length l)%nat -> comps c <= k_mult c).
Proof.
  intros H. generalize 0 as n. induction l as [|c r IH]; intros n.
  - simpl. split; [intros _ i c A; destruct i; discriminate|]. intros _ i j b c x _ A. destruct i; discriminate.
  - destruct (H c ltac:(now left)) as (Hs & Hq & Hm). specialize (IH ltac:(intros; apply H; now right)).
    specialize (IH (n + ret c * k_mult c)). assert (Er : ret c = quartets c) by (unfold ret; now rewrite Hs).
    assert (Es : stored c = quartets c * comps c) by (unfold stored; now rewrite Hs). pose proof (comps_pos c) as Hc. split.
    + intros S i c' E L. assert (IHs : separate (blocks (n + ret c * k_mult c) r)).
      { intros i' j' b d x Hij Hi Hj. exact (S (Datatypes.S i') (Datatypes.S j') b d x ltac:(lia) Hi Hj). }
      destruct i as [|i]; simpl in E.
      * injection E as <-. destruct (Z_le_gt_dec (comps c) (k_mult c)) as [|G]; [assumption|exfalso].
        destruct r as [|d r']; [simpl in L; lia|]. destruct (H d ltac:(right; now left)) as (Hs' & Hq' & Hm').
        pose proof (comps_pos d) as Hd.
        apply (S 0%nat 1%nat (n, stored c) (n + ret c * k_mult c, stored d) (n + ret c * k_mult c)); [lia|reflexivity|reflexivity| |].
        -- unfold inside; simpl. rewrite Er, Es. nia.
        -- unfold inside; simpl. unfold stored. rewrite Hs'. nia.
      * simpl in L. apply (proj1 IH IHs i c' E). lia.
    + intros A.
      assert (IHs : separate (blocks (n + ret c * k_mult c) r)).
      { apply IH. intros i c' E L. apply (A (Datatypes.S i) c' E). simpl. lia. }
      assert (Low : forall l' m b, (forall c0, In c0 l' -> k_screened c0 = false /\ 0 < quartets c0 /\ 0 <= k_mult c0) ->
                In b (blocks m l') -> m <= fst b).
      { induction l' as [|d l' IHl]; intros m b Hl Hb; [destruct Hb|]. destruct Hb as [<-|Hb]; [simpl; lia|].
        destruct (Hl d ltac:(now left)) as (Hs' & Hq' & Hm').
        assert (m + ret d * k_mult d <= fst b) by (apply IHl; [intros; apply Hl; now right|exact Hb]).
        unfold ret in H0. rewrite Hs' in H0. nia. }
      intros i j b d x Hij Hi Hj Hb Hd. destruct j as [|j]; [lia|]. simpl in Hj. destruct i as [|i].
      * simpl in Hi. injection Hi as <-.
        assert (L : (1 < List.length (c :: r))%nat).
        { assert (j < List.length (blocks (n + ret c * k_mult c) r))%nat by (apply nth_error_Some; congruence).
          rewrite blocks_length in H0. simpl. lia. }
        pose proof (A 0%nat c eq_refl L) as G.
        assert (n + ret c * k_mult c <= fst d) by (apply (Low r); [intros; apply H; now right|eapply nth_error_In; exact Hj]).
        unfold inside in Hb, Hd; simpl in Hb. rewrite Er in H0. rewrite Es in Hb. nia.
      * simpl in Hi. exact (IHs i j b d x ltac:(lia) Hi Hj Hb Hd).
Qed.

(** A screened call moves [ntotal] back: the next call stores before the buffer or over earlier results. *)
Theorem blocks_screened (pre : list call) (s c : call) (post : list call) (size : Z) :
  Forall exact_call pre -> k_screened s = true -> 0 < k_mult s -> k_screened c = false -> 0 < quartets c ->
  ~ (in_buffer size (blocks 0 (pre ++ s :: c :: post)) /\ separate (blocks 0 (pre ++ s :: c :: post))).
Proof.
  intros Hp Hs Hm Hc Hq [I S]. rewrite blocks_app in I, S. rewrite exact_total in I, S by exact Hp.
  destruct (@exact_tiles pre 0 Hp) as [A _]. cbn [blocks] in I, S.
  set (n := 0 + all_stored pre) in *. replace (n + ret s * k_mult s) with (n - k_mult s) in I, S by (unfold ret; rewrite Hs; lia).
  set (b := (n - k_mult s, stored c)) in *.
  assert (Hb : inside b (n - k_mult s)).
  { unfold inside, b; simpl. unfold stored. rewrite Hc. pose proof (comps_pos c). nia. }
  assert (N : nth_error (blocks 0 pre ++ (n, stored s) :: b :: blocks (n - k_mult s + ret c * k_mult c) post) (List.length pre + 1) = Some b).
  { rewrite nth_error_app2; rewrite blocks_length; [|lia]. replace (List.length pre + 1 - List.length pre)%nat with 1%nat by lia. reflexivity. }
  destruct (Z_lt_ge_dec (n - k_mult s) 0) as [L|G].
  - specialize (I b (n - k_mult s) (nth_error_In _ _ N) Hb). lia.
  - destruct (proj2 (A (n - k_mult s))) as (d & Hd & Hi); [unfold n; unfold n in G; lia|].
    destruct (In_nth_error _ _ Hd) as [i Ei].
    assert (Li : (i < List.length pre)%nat).
    { assert (i < List.length (blocks 0 pre))%nat by (apply nth_error_Some; congruence). now rewrite blocks_length in H. }
    apply (S i (List.length pre + 1)%nat d b (n - k_mult s)); [lia| |exact N|exact Hi|exact Hb].
    rewrite nth_error_app1; [exact Ei|]. rewrite blocks_length. exact Li.
Qed.

(** ** The examples *)
(** example1.c:97-99, 124-153: pairs (ss), (ps), (pp) of 16, 4 and 1; lines 125-127, 128-131, ..., 149-152. *)
Definition eri (a b c d : nat) (p q : nat) (mult : Z) : call := Call 0 (QAM a b c d) p q false mult.
Definition example1 : list call :=
  [eri 0 0 0 0 16 16 1; eri 1 0 0 0 4 16 3; eri 1 0 1 0 4 4 9; eri 1 1 0 0 1 16 9; eri 1 1 1 0 1 4 27; eri 1 1 1 1 1 1 81].
(** The buffer, example1.c:120. *)
Definition example1_size : Z := 7 * 7 * 7 * 7.
(** example_water_spsp.c:107-110: one call; then [ntotal = 9] elements are printed. *)
Definition water_spsp : call := eri 0 1 0 1 1 1 1.
Definition spsp_printed : Z := 9.
(** example_water_ppps_deriv.c:95-96, 113-117: the class is (pp|sp); the buffer is 12 times as large, and [ntotal]
    is computed from [2*am+1]. *)
Definition water_deriv : call := Call 1 (QAM 1 1 0 1) 1 1 false 1.
Definition deriv_size : Z := 7 * 7 * 7 * 7 * 12.
Definition spherical (q : qam) : Z :=
  Z.of_nat ((2 * am0 q + 1) * (2 * am1 q + 1) * (2 * am2 q + 1) * (2 * am3 q + 1)).
Definition deriv_printed (q : qam) : Z := spherical q * 12.

Theorem example1_ok : in_buffer example1_size (blocks 0 example1) /\ separate (blocks 0 example1) /\ total 0 example1 = 925 /\
  all_stored example1 = 925.
Proof.
  assert (A : Forall exact_call example1) by (repeat constructor).
  assert (B : all_stored example1 = 925) by reflexivity.
  destruct (@blocks_exact example1 example1_size A) as (C & D & E & _); [rewrite B; unfold example1_size; lia|].
  split; [exact C|]. split; [exact D|]. split; [rewrite E; exact B|exact B].
Qed.
Theorem water_ok : stored water_spsp = spsp_printed /\ stored water_spsp <= example1_size /\
  stored water_deriv = deriv_printed (k_q water_deriv) /\ stored water_deriv <= deriv_size.
Proof. repeat split; discriminate. Qed.

(** [2*am+1] is the number of components exactly for s and p functions; above it is smaller. *)
Lemma ncart_twice a : (2 * ncart a = (a + 2) * (a + 1))%nat.
Proof.
  unfold ncart. assert (E : (((a + 2) * (a + 1)) mod 2 = 0)%nat).
  { destruct (Nat.Even_or_Odd a) as [[k ->]|[k ->]].
    - replace ((2 * k + 2) * (2 * k + 1))%nat with (((k + 1) * (2 * k + 1)) * 2)%nat by ring. apply Nat.mod_mul. lia.
    - replace ((2 * k + 1 + 2) * (2 * k + 1 + 1))%nat with (((2 * k + 3) * (k + 1)) * 2)%nat by ring. apply Nat.mod_mul. lia. }
  pose proof (Nat.div_mod ((a + 2) * (a + 1)) 2 ltac:(lia)) as D. rewrite E in D. lia.
Qed.
Lemma one_printed a : ((2 * a + 1 <= ncart a) /\ (2 * a + 1 = ncart a <-> a <= 1))%nat.
Proof. pose proof (ncart_twice a). split; [nia|]. split; intros H1; [|destruct a as [|[|a]]; [reflexivity|reflexivity|lia]]. destruct (Nat.le_gt_cases a 1); [assumption|nia]. Qed.
Lemma prod_printed (a b x y : nat) : (1 <= a -> 1 <= b -> a <= x -> b <= y -> a * b <= x * y /\ (a * b = x * y -> a = x /\ b = y))%nat.
Proof. intros. split; [nia|]. intros E. split; nia. Qed.
Theorem printed_stored (q : qam) :
  deriv_printed q <= stored (Call 1 q 1 1 false 1) /\ (deriv_printed q = stored (Call 1 q 1 1 false 1) <-> (amax q <= 1)%nat).
Proof.
  destruct q as [a b c d]. unfold deriv_printed, spherical, stored, quartets, comps, amax. cbn [k_screened k_bra k_ket k_q k_der am0 am1 am2 am3 Nat.eqb].
  destruct (one_printed a) as [A A']. destruct (one_printed b) as [B B']. destruct (one_printed c) as [C C']. destruct (one_printed d) as [D D'].
  destruct (@prod_printed (2 * a + 1) (2 * b + 1) (ncart a) (ncart b)) as [P1 Q1]; [lia|lia|lia|lia|].
  destruct (@prod_printed ((2 * a + 1) * (2 * b + 1)) (2 * c + 1) (ncart a * ncart b) (ncart c)) as [P2 Q2]; [|lia|lia|lia|].
  { apply (Nat.mul_le_mono 1 _ 1); lia. }
  destruct (@prod_printed ((2 * a + 1) * (2 * b + 1) * (2 * c + 1)) (2 * d + 1) (ncart a * ncart b * ncart c) (ncart d)) as [P3 Q3]; [|lia|lia|lia|].
  { apply (Nat.mul_le_mono 1 _ 1); [|lia]. apply (Nat.mul_le_mono 1 _ 1); lia. }
  change (Z.of_nat 1) with 1. rewrite !Z.mul_1_l.
  split; [apply Z.mul_le_mono_nonneg_r; [lia|apply Nat2Z.inj_le; exact P3]|]. split; intros E.
  - assert (E3 : ((2 * a + 1) * (2 * b + 1) * (2 * c + 1) * (2 * d + 1) = ncart a * ncart b * ncart c * ncart d)%nat).
    { apply Nat2Z.inj. apply (Z.mul_reg_r _ _ 12); [lia|exact E]. }
    destruct (Q3 E3) as [E2 Ed]. destruct (Q2 E2) as [E1 Ec]. destruct (Q1 E1) as [Ea Eb].
    apply A' in Ea. apply B' in Eb. apply C' in Ec. apply D' in Ed. lia.
  - clear P1 P2 P3 Q1 Q2 Q3 A B C D. assert (a <= 1 /\ b <= 1 /\ c <= 1 /\ d <= 1)%nat as (Ha & Hb & Hc & Hd) by (clear - E; lia).
    apply A' in Ha. apply B' in Hb. apply C' in Hc. apply D' in Hd. now rewrite Ha, Hb, Hc, Hd.
Qed.

(** Every call of the examples finds its function in a library built for p functions (and first derivatives:
    examples/CMakeLists.txt builds example_water_ppps_deriv only then). *)
Theorem examples_called (MD MA : nat) : (1 <= MA)%nat -> exists t, simint_init MD MA = Some t /\
  (forall c, In c (water_spsp :: example1) \/ ((1 <= MD)%nat /\ c = water_deriv) ->
     exists f, fn_name (kernel_of (k_der c) (k_q c)) = Some f /\
       forall pmax qmax, compute MD MA t (k_der c) (k_q c) pmax qmax 0 = Called f (0 * 0)%Q).
Proof.
  intros HA. destruct (dispatch MD MA) as (t & T & H). exists t. split; [exact T|]. intros c Hc.
  assert (G : (k_der c <= MD /\ k_der c <= 1 /\ amax (k_q c) <= 1)%nat).
  { destruct Hc as [Hc|[HD ->]]; [|unfold amax; simpl; lia].
    simpl in Hc. repeat (destruct Hc as [<-|Hc]; [unfold amax; simpl; lia|]). contradiction. }
  destruct (H (k_der c) (k_q c) 1%Q 1%Q 0%Q) as (_ & F & _); [lia|lia|].
  destruct F as (f & Ef & _); [reflexivity|lia|lia|]. exists f. split; [exact Ef|]. intros pmax qmax.
  destruct (H (k_der c) (k_q c) pmax qmax 0%Q) as (_ & F & _); [lia|lia|].
  destruct F as (f' & Ef' & Ec); [reflexivity|lia|lia|]. congruence.
Qed.

(** ** benchmark_eri *)
(** benchmark_eri.cpp:82. *)
Definition bench_classes : list qam := [QAM 0 0 0 0; QAM 2 2 2 2; QAM 3 1 3 0; QAM 2 2 3 0].
Section Bench.
Variables (V : Type) (m : shellmap V) (limit : nat).
(** Lines 103-106 form [shellmap[k][0]] and [shellmap[l][0]], which must exist; lines 123-148: one call for each
    bra pair, and the function is looked up in a table of [limit + 1] momenta. *)
Definition bench_defined : Prop := forall q, In q bench_classes ->
  at_am m (am2 q) <> [] /\ at_am m (am3 q) <> [] /\
  (at_am m (am0 q) <> [] -> at_am m (am1 q) <> [] -> (amax q <= limit)%nat).
(** The area of a thread (51-54) and the workspace (60), which is for [t_maxam]. *)
Definition bench_block (q : qam) : Z :=
  Z.of_nat ((List.length (at_am m (am2 q)) * List.length (at_am m (am3 q))) *
            (ncart (am0 q) * ncart (am1 q) * ncart (am2 q) * ncart (am3 q))) * 1.
Theorem bench_iff : bench_defined <-> at_am m 0 <> [] /\ at_am m 2 <> [] /\ at_am m 3 <> [] /\ (3 <= limit)%nat.
Proof.
  split.
  - intros H. assert (A : at_am m 3 <> [] /\ at_am m 0 <> [] /\ (at_am m 2 <> [] -> at_am m 2 <> [] -> (3 <= limit)%nat)).
    { exact (H (QAM 2 2 3 0) ltac:(simpl; tauto)). }
    assert (B : at_am m 2 <> []) by exact (proj1 (H (QAM 2 2 2 2) ltac:(simpl; tauto))). tauto.
  - intros (A & B & C & D) q Hq. simpl in Hq. unfold amax. destruct Hq as [<-|[<-|[<-|[<-|[]]]]]; simpl; repeat split; try assumption; lia.
Qed.
Theorem bench_fits q : bench_defined -> In q bench_classes -> at_am m (am0 q) <> [] -> at_am m (am1 q) <> [] ->
  bench_block q <= t_maxsize 1 limit (find_max m) /\ (amax q <= t_maxam limit (find_max m))%nat.
Proof.
  intros H Hq H0 H1. destruct (H q Hq) as (H2 & H3 & L). specialize (L H0 H1).
  assert (In_am : forall a, at_am m a <> [] -> (a <= fst (find_max m))%nat).
  { intros a Ha. unfold at_am in Ha. destruct (find (fun p => (fst p =? a)%nat) m) as [[b v]|] eqn:E; [|congruence].
    apply find_some in E. destruct E as [E1 E2]. simpl in E2. apply Nat.eqb_eq in E2. subst b. exact (proj1 (find_max_in m _ E1)). }
  apply In_am in H0. apply In_am in H1. apply In_am in H2. apply In_am in H3.
  assert (M : (amax q <= t_maxam limit (find_max m))%nat).
  { unfold t_maxam, amax in *. destruct (Nat.ltb_spec limit (fst (find_max m))); lia. }
  split; [|exact M]. unfold bench_block. apply eri_fits; [unfold amax in M; lia|unfold amax in M; lia|lia].
Qed.
End Bench.
(** A basis with one shell of each of the momenta in the list. *)
Definition some_basis (l : list nat) : shellmap nat := map (fun a => (a, [MS a (0, 0, 0) [1] [1]]))%nat l.
(** Without f functions, or built for less, the benchmark is undefined. *)
Theorem bench_undefined : (forall V (m : shellmap V) limit, at_am m 3 = [] -> ~ bench_defined m limit) /\
  (forall V (m : shellmap V) limit, (limit < 3)%nat -> ~ bench_defined m limit).
Proof. split; intros V m limit H; rewrite bench_iff; [tauto|lia]. Qed.
Theorem bench_example : bench_defined (some_basis [0; 1; 2; 3]%nat) 3 /\ ~ bench_defined (some_basis [0; 1; 2]%nat) 7 /\
  bench_block (some_basis [0; 1; 2; 3]%nat) (QAM 3 1 3 0) = 300 /\ t_maxsize 1 3 (find_max (some_basis [0; 1; 2; 3]%nat)) = 10000.
Proof.
  split; [apply bench_iff; repeat split; try discriminate; lia|]. split; [apply (proj1 bench_undefined); reflexivity|]. split; reflexivity.
Qed.
(** A screened call in front of another; example1 with one factor wrong. *)
Definition screened_first : list call := [Call 0 (QAM 1 0 0 0) 4 16 true 3; eri 1 0 1 0 4 4 9].
Definition wrong_factor : list call := [eri 1 0 0 0 4 16 1; eri 1 0 1 0 4 4 9].
Theorem positions_example : blocks 0 screened_first = [(0, 0); (-3, 144)] /\ blocks 0 wrong_factor = [(0, 192); (64, 144)] /\
  blocks 0 example1 = [(0, 256); (256, 192); (448, 144); (592, 144); (736, 108); (844, 81)].
Proof. repeat split. Qed.
