(** The hand-written kernel for (ss|ss), skel/ostei_s_s_s_s.c: shell offsets computed once per batch
    (lines 47-122), contraction buffer of the AVX512 build (39-45, 277-297, 320-323), and the writes
    into the caller's screen array (205-211).
    What one primitive quartet contributes ([val], lines 231-269) and [contract_all] ([call]) are
    parameters as in Kernel.v.  [offset_info] is a list; the integral array and [Q.screen] are lists,
    [None] is an access outside.  The statistics of SIMINT_PRIM_SCREEN_STAT are left out. *)
From Coq Require Import List Arith Lia Bool Ring QArith.
Import ListNotations.
From Verif Require Import Base Simd Contract Offsets Starts Kernel KernelSpec.
Set Implicit Arguments.
Local Open Scope nat_scope.

(** Zeros at [m] positions from [k] (lines 209-210). *)
Fixpoint wr_zero (k m : nat) (a : list Q) : option (list Q) :=
  match m with
  | 0 => Some a
  | S m' => if k <? length a then wr_zero (S k) m' (upd a k 0%Q) else None
  end.

Lemma wr_zero_ok m : forall k a, k + m <= length a ->
  exists a', wr_zero k m a = Some a' /\ length a' = length a /\
    (forall q, k <= q < k + m -> nth_error a' q = Some 0%Q) /\ (forall q, q < k \/ k + m <= q -> nth_error a' q = nth_error a q).
Proof.
  induction m as [|m IH]; intros k a H; cbn [wr_zero].
  - exists a. split; [reflexivity|]. split; [reflexivity|]. split; [intros; lia|reflexivity].
  - rewrite (proj2 (Nat.ltb_lt k (length a))) by lia.
    destruct (IH (S k) (upd a k 0%Q)) as [a' [E [L [Z O]]]]; [rewrite upd_length; lia|].
    rewrite upd_length in L. exists a'. split; [exact E|]. split; [exact L|]. split.
    + intros q Hq. destruct (Nat.eq_dec q k) as [->|N]; [|apply Z; lia]. rewrite O by lia. apply nth_error_upd_same. lia.
    + intros q Hq. rewrite O by lia. apply nth_error_upd_other. lia.
Qed.

(** ** Batches and their padding *)
Section Pads.
Variables (len nss : nat) (K : batch).
(** First and past-the-end primitive of batch [b]. *)
Definition bstart (b : nat) : nat := start len nss (b_np K) (b * nss).
Definition bend (b : nat) : nat := batch_end nss K (b * nss) (bstart b).
(** Between the end of a batch and the next vector boundary. *)
Definition pad (k : nat) : bool := existsb (fun b => (bend b <=? k) && (k <? rnd len (bend b))) (seq 0 (nbatch nss K)).
Hypothesis Hlen : 0 < len.
Hypothesis Hnss : 0 < nss.
Lemma pad_iff k : pad k = true <-> exists b, b < nbatch nss K /\ bend b <= k < rnd len (bend b).
Proof.
  unfold pad. rewrite existsb_exists. split.
  - intros [b [Hb H]]. apply in_seq in Hb. apply andb_true_iff in H as [H1 H2]. apply Nat.leb_le in H1. apply Nat.ltb_lt in H2.
    exists b. lia.
  - intros [b [Hb H]]. exists b. split; [apply in_seq; lia|]. apply andb_true_iff. rewrite Nat.leb_le, Nat.ltb_lt. exact H.
Qed.
Lemma nbatch_lt4 b : b < nbatch nss K -> b * nss < b_clip K.
Proof.
  unfold nbatch. intros H. pose proof (Nat.mul_div_le (b_clip K + (nss - 1)) nss ltac:(lia)) as D.
  pose proof (Nat.mul_le_mono_r (S b) _ nss H) as M. rewrite Nat.mul_succ_l in M.
  rewrite (Nat.mul_comm _ nss) in M. lia.
Qed.
(** All batches before the last are full. *)
Lemma bend_full b : S b < nbatch nss K -> rnd len (bend b) = bstart (S b).
Proof.
  intros H. apply nbatch_lt4 in H. unfold bend, bstart, batch_end, batch_size. rewrite (@start_next len nss Hlen Hnss).
  cbn [Nat.mul] in H. destruct (Nat.ltb_spec (b_clip K) (b * nss + nss)); [lia|reflexivity].
Qed.
Lemma bstart_bend b : bstart b <= bend b.
Proof. unfold bend, batch_end. lia. Qed.
Lemma bend_before b : forall b', b < b' -> b' < nbatch nss K -> rnd len (bend b) <= bstart b'.
Proof.
  induction b' as [|b' IH]; intros H1 H2; [lia|]. destruct (Nat.eq_dec b b') as [<-|N].
  - rewrite bend_full by exact H2. lia.
  - etransitivity; [apply IH; lia|]. rewrite <- bend_full by exact H2.
    etransitivity; [apply bstart_bend|]. apply rnd_ge, Hlen.
Qed.
Lemma pad_in b k : b < nbatch nss K -> bstart b <= k < bend b -> pad k = false.
Proof.
  intros Hb Hk. destruct (pad k) eqn:E; [|reflexivity]. exfalso. apply pad_iff in E as [b' [Hb' H]].
  destruct (Nat.lt_trichotomy b b') as [L|[<-|L]].
  - pose proof (@bend_before b b' L Hb') as B. pose proof (@rnd_ge len Hlen (bend b)). pose proof (bstart_bend b'). lia.
  - lia.
  - pose proof (@bend_before b' b L Hb). lia.
Qed.

End Pads.

Section Ssss.
Context {R : cring}.
Add Ring Rring_ssss : (cth R).
(** As in Kernel.v; [buffered]: the AVX512 build; [call8]: its [contract_all(8, ..)].  [b_scr K] is
    not used: the array is part of the state. *)
Variables (len nss : nat) (P K : batch) (qpf : nat -> R) (val : nat -> nat -> R -> nat -> R) (tol : Q) (zf : bool)
  (call call8 : (nat -> nat -> R) -> list R -> option (list R)) (buffered : bool).

(** Lines 87-122: the entries of [offset_info] for [m] vectors: [shelloffsets[0 .. LEN-1]],
    [shelloffsets[LEN]] and [shelloffsets[LEN+1]]. *)
Fixpoint offset_info (cd nb m : nat) (st : ostate) : list (list nat * nat * nat) :=
  match m with
  | 0 => []
  | S m' => let '(l, x, s) := vec_offsets len (b_np K) cd nb (OS (o_iprim st) (o_nprim st) (o_icd st) 0) in
            (l, x, o_ptr s) :: offset_info cd nb m' s
  end.
(** Lines 78-84: the buffer grows to the number of vectors needed. *)
Definition grow (need have : nat) : nat := if have <? need then need else have.

(** [ca_buf] and [ca_res_idx], newest entry first. *)
Definition cabuf := list (nat * (nat -> R)).
(** Lines 288-295; the buffer is full. *)
Definition flush8 (out : list R) (b : cabuf) : option (list R) :=
  match call8 (fun c n => snd (nth c (rev b) (0%nat, fun _ => c0)) n) (repeat c0 8) with
  | Some res => adds (combine (map fst (rev b)) res) out
  | None => None
  end.
(** Lines 275-306 for the pointer at position [p]. *)
Definition acc (p : nat) (l : list nat) (x : nat) (src : nat -> nat -> R) (out : list R) (b : cabuf) : option (list R * cabuf) :=
  if x =? 0 then
    if buffered then
      let push := let b' := (p, src 0%nat) :: b in
        if length b' =? 8 then match flush8 out b' with Some o => Some (o, []) | None => None end else Some (out, b') in
      match b with
      | (k, f) :: r => if p =? k then Some (out, (k, fun n => (f n + src 0%nat n)%r) :: r) else push
      | [] => push
      end
    else match at_ptr p (call src) out with Some o => Some (o, b) | None => None end
  else match at_ptr p (contract len 1 (fun n => nth n l 0) src) out with Some o => Some (o, b) | None => None end.

(** Lines 205-223: the screen array after the writes, and whether the vector is skipped. *)
Definition screen4 (i j jend : nat) (scr : list Q) : option (list Q * bool) :=
  if check_screen tol then
    match (if jend - j <? len then wr_zero jend (j + len - jend) scr else Some scr) with
    | Some s => if j + len <=? length s
                then Some (s, qltb (vector_max zf len (fun n => (b_scr P i * nth (j + n) s 0)%Q)) tol)
                else None
    | None => None
    end
  else Some (scr, false).

(** Lines 161-308; [p]: the pointer, as index into the integrals; [v]: [ivec]. *)
Fixpoint jloop4 (i jstart jend p : nat) (info : list (list nat * nat * nat)) (v : nat) (scr : list Q) (out : list R) (b : cabuf)
  : option (list Q * list R * cabuf) :=
  match info with
  | [] => Some (scr, out, b)
  | (l, x, mv) :: r =>
    let j := jstart + v * len in
    let p1 := if 0 <? mv then S p else p in
    match screen4 i j jend scr with
    | Some (scr', skip) =>
      if skip then jloop4 i jstart jend (p1 + x) r (S v) scr' out b
      else match acc p1 l x (vec_val len qpf val i j jend) out b with
           | Some (o, b') => jloop4 i jstart jend (if x =? 0 then p1 else p1 + x) r (S v) scr' o b'
           | None => None
           end
    | None => None
    end
  end.
(** Lines 125-309. *)
Fixpoint iloop4 (jstart jend abcd : nat) (info : list (list nat * nat * nat)) (m i : nat) (scr : list Q) (out : list R) (b : cabuf)
  : option (list Q * list R * cabuf) :=
  match m with
  | 0 => Some (scr, out, b)
  | S m' =>
    if bra_skip P K tol i then iloop4 jstart jend abcd info m' (S i) scr out b
    else match jloop4 i jstart jend abcd info 0 scr out b with
         | Some (s, o, b') => iloop4 jstart jend abcd info m' (S i) s o b'
         | None => None
         end
  end.
(** Lines 70-315; [ninfo]: [n_info_vector]. *)
Fixpoint cdloop4 (istart n : nat) (m b jstart abcd ninfo : nat) (scr : list Q) (out : list R) (bf : cabuf)
  : option (list Q * list R * cabuf * nat * nat) :=
  match m with
  | 0 => Some (scr, out, bf, abcd, ninfo)
  | S m' =>
    let cd := b * nss in
    let nb := batch_size nss K cd in
    let jend := batch_end nss K cd jstart in
    let need := nvec len (jend - jstart) in
    let ninfo' := grow need ninfo in
    if need <=? ninfo' then
      match iloop4 jstart jend abcd (offset_info cd nb need (ostart (b_np K) cd)) n istart scr out bf with
      | Some (s, o, b') => cdloop4 istart n m' (S b) (rnd len jend) (abcd + nb) ninfo' s o b'
      | None => None
      end
    else None
  end.
(** Lines 63-318. *)
Fixpoint abloop4 (m ab istart abcd ninfo : nat) (scr : list Q) (out : list R) (bf : cabuf) : option (list Q * list R * cabuf) :=
  match m with
  | 0 => Some (scr, out, bf)
  | S m' =>
    match cdloop4 istart (b_np P ab) (nbatch nss K) 0 0 abcd ninfo scr out bf with
    | Some (s, o, b', abcd', ninfo') => abloop4 m' (S ab) (istart + b_np P ab) abcd' ninfo' s o b'
    | None => None
    end
  end.
(** Lines 320-323. *)
Definition entries (b : cabuf) : list (nat * R) := map (fun kf => (fst kf, rsum (map (snd kf) (seq 0 len)))) (rev b).
(** The kernel: the screen array left behind, the integrals, the value returned. *)
Definition kernel4 (scr : list Q) (out : list R) : option (list Q * list R * nat) :=
  let n := (b_clip P * b_clip K)%nat in
  if n <=? length out then
    match abloop4 (b_clip P) 0 0 0 (nss * 4) scr (repeat c0 n ++ skipn n out) [] with
    | Some (s, o, b) => match adds (entries b) o with Some d => Some (s, d, n) | None => None end
    | None => None
    end
  else None.

(** ** [adds] *)
Lemma adds_app l1 : forall l2 (d : list R), adds (l1 ++ l2) d = match adds l1 d with Some d' => adds l2 d' | None => None end.
Proof.
  induction l1 as [|[i x] l1 IH]; intros l2 d; [reflexivity|]. cbn [app adds]. destruct (addat d i x); [apply IH|reflexivity].
Qed.
Lemma adds_range : forall l (d o : list R), adds l d = Some o -> forall i x, In (i, x) l -> i < length d.
Proof.
  induction l as [|[i x] l IH]; intros d o E j y H; [destruct H|]. cbn [adds] in E. unfold addat in E.
  destruct (nth_error d i) as [z|] eqn:Ez; [|discriminate]. destruct H as [H|H].
  - injection H as <- <-. apply (nth_error_Some_lt _ _ Ez).
  - pose proof (IH _ _ E j y H) as L. rewrite upd_length in L. exact L.
Qed.
Lemma adds_iff l (d o : list R) : adds l d = Some o <->
  (forall i x, In (i, x) l -> i < length d) /\ length o = length d /\
  (forall i x, nth_error d i = Some x -> nth_error o i = Some (x + hits l i)%r).
Proof.
  split.
  - intros E. pose proof (@adds_range _ _ _ E) as H. split; [exact H|]. destruct (adds_ok l d H) as [o' [E' HH]].
    rewrite E in E'. injection E' as <-. exact HH.
  - intros [H [L V]]. destruct (adds_ok l d H) as [o' [E' [L' V']]]. rewrite E'. f_equal. apply nth_error_ext.
    intros i. destruct (nth_error d i) as [x|] eqn:Ex.
    + rewrite (V i x Ex), (V' i x Ex). reflexivity.
    + apply nth_error_None in Ex. rewrite !(proj2 (nth_error_None _ _)) by lia. reflexivity.
Qed.
Lemma adds_same l1 l2 (d : list R) : (forall i, hits l1 i = hits l2 i) ->
  ((forall i x, In (i, x) l1 -> i < length d) <-> (forall i x, In (i, x) l2 -> i < length d)) -> adds l1 d = adds l2 d.
Proof.
  intros HH HR. destruct (adds l1 d) as [o|] eqn:E.
  - symmetry. apply adds_iff in E as [A [B C]]. apply adds_iff. split; [exact (proj1 HR A)|]. split; [exact B|].
    intros i x Hx. rewrite <- HH. apply C, Hx.
  - destruct (adds l2 d) as [o|] eqn:E2; [|reflexivity]. exfalso.
    apply adds_iff in E2 as [A [B C]]. pose proof (proj2 HR A) as A1. clear A. rename A1 into A. destruct (adds_ok l1 d A) as [o' [E' _]]. congruence.
Qed.
Lemma adds_comm l1 l2 (d : list R) : adds (l1 ++ l2) d = adds (l2 ++ l1) d.
Proof.
  apply adds_same.
  - intros i. rewrite !hits_app. ring.
  - split; intros H i x Hi; apply (H i x); apply in_app_iff; apply in_app_iff in Hi; tauto.
Qed.

Lemma skipn_upd A p : forall (d : list A) i v, skipn p (upd d (p + i) v) = upd (skipn p d) i v.
Proof. induction p as [|p IH]; intros d i v; [reflexivity|]. destruct d as [|y d]; [destruct i; reflexivity|]. apply IH. Qed.
Lemma firstn_upd A p : forall (d : list A) i v, firstn p (upd d (p + i) v) = firstn p d.
Proof. induction p as [|p IH]; intros d i v; [reflexivity|]. destruct d as [|y d]; [reflexivity|]. cbn. f_equal. apply IH. Qed.
Lemma nth_error_skipn' A p : forall (d : list A) i, nth_error (skipn p d) i = nth_error d (p + i).
Proof. induction p as [|p IH]; intros d i; [reflexivity|]. destruct d as [|y d]; [destruct i; reflexivity|]. apply IH. Qed.

Definition shift (p : nat) (l : list (nat * R)) : list (nat * R) := map (fun ix => ((p + fst ix)%nat, snd ix)) l.
Lemma at_ptr_adds p l : forall d : list R, p <= length d -> at_ptr p (adds l) d = adds (shift p l) d.
Proof.
  unfold at_ptr. induction l as [|[i x] l IH]; intros d Hp.
  - rewrite (proj2 (Nat.leb_le _ _) Hp). cbn. rewrite firstn_skipn. reflexivity.
  - specialize (fun d' H => IH d' H). rewrite (proj2 (Nat.leb_le _ _) Hp). cbn [adds shift map fst snd]. unfold addat. rewrite nth_error_skipn'.
    destruct (nth_error d (p + i)) as [y|] eqn:Ey; [|reflexivity].
    rewrite <- (skipn_upd p d i (y + x)%r). specialize (IH (upd d (p + i) (y + x)%r)). rewrite upd_length in IH. specialize (IH Hp).
    rewrite (proj2 (Nat.leb_le _ _) Hp), firstn_upd in IH. exact IH.
Qed.

(** ** Contraction through the buffer *)
Hypothesis Hlen : 0 < len.
Hypothesis Hcall : forall src dest, 1 <= length dest ->
  exists out, call src dest = Some out /\ contracted len 1 (fun _ => 0) src dest out.
Hypothesis Hcall0 : forall src, call src [] = None.
Hypothesis Hcall8 : buffered = true -> forall src dest, 8 <= length dest ->
  exists out, call8 src dest = Some out /\ contracted len 8 (fun _ => 0) src dest out.

Lemma all_lanes (src : nat -> nat -> R) c : lanesum len (fun _ => 0 =? 0) src c = rsum (map (src c) (seq 0 len)).
Proof. apply all_hits. Qed.
Lemma call_adds p src (d : list R) : at_ptr p (call src) d = if p <? length d then adds [(p, rsum (map (src 0%nat) (seq 0 len)))] d else None.
Proof.
  destruct (Nat.ltb_spec p (length d)) as [L|L].
  - unfold at_ptr. rewrite (proj2 (Nat.leb_le _ _) (Nat.lt_le_incl _ _ L)).
    destruct (@Hcall src (skipn p d)) as [o [E [HL [V _]]]]; [rewrite skipn_length; lia|]. rewrite E. symmetry. apply adds_iff.
    split; [intros i x [H|[]]; injection H as <- _; exact L|]. split; [rewrite app_length, HL, firstn_length, skipn_length; lia|].
    intros i x Hx. destruct (Nat.lt_ge_cases i p) as [Hi|Hi].
    + rewrite nth_error_app1 by (rewrite firstn_length; lia). rewrite hits_none; [|intros j y [H|[]]; injection H as <- _; lia].
      rewrite <- (firstn_skipn p d) in Hx. rewrite nth_error_app1 in Hx by (rewrite firstn_length; lia). rewrite Hx. f_equal. ring.
    + rewrite nth_error_app2 by (rewrite firstn_length; lia). rewrite firstn_length, Nat.min_l by lia.
      specialize (V (i - p) 0 x ltac:(lia)). rewrite Nat.mul_1_r, Nat.add_0_r in V. rewrite V.
      * f_equal. f_equal. destruct (Nat.eq_dec i p) as [->|N].
        -- rewrite Nat.sub_diag, all_lanes. unfold hits. cbn [filter fst]. rewrite Nat.eqb_refl. cbn. ring.
        -- rewrite hits_none; [|intros j y [H|[]]; injection H as <- _; lia]. unfold lanesum.
           replace (filter (fun _ => 0 =? i - p) (seq 0 len)) with (@nil nat); [reflexivity|].
           replace (0 =? i - p) with false by (symmetry; apply Nat.eqb_neq; lia). induction (seq 0 len); [reflexivity|assumption].
      * rewrite nth_error_skipn'. replace (p + (i - p)) with i by lia. exact Hx.
  - unfold at_ptr. destruct (Nat.leb_spec p (length d)) as [L'|L']; [|reflexivity].
    rewrite skipn_all2 by lia. rewrite Hcall0. reflexivity.
Qed.

Lemma entries_cons k f b : entries ((k, f) :: b) = entries b ++ [(k, rsum (map f (seq 0 len)))].
Proof. unfold entries. cbn [rev]. rewrite map_app. reflexivity. Qed.
Lemma entries_in b i x : In (i, x) (entries b) <-> exists f, In (i, f) b /\ x = rsum (map f (seq 0 len)).
Proof.
  unfold entries. rewrite in_map_iff. split.
  - intros [[k f] [E H]]. injection E as <- <-. exists f. split; [apply in_rev; exact H|reflexivity].
  - intros [f [H ->]]. exists (i, f). split; [reflexivity|]. apply in_rev in H. exact H.
Qed.
Lemma flush8_ok out b : buffered = true -> length b = 8 -> flush8 out b = adds (entries b) out.
Proof.
  intros HB Hb. unfold flush8. destruct (@Hcall8 HB (fun c n => snd (nth c (rev b) (0%nat, fun _ => c0)) n) (repeat c0 8)) as [res [E [L [V _]]]];
    [rewrite repeat_length; lia|]. rewrite E. f_equal. rewrite repeat_length in L.
  assert (HR : res = map (fun kf => rsum (map (snd kf) (seq 0 len))) (rev b)).
  { apply nth_error_ext. intros c. destruct (Nat.lt_ge_cases c 8) as [Hc|Hc].
    - specialize (V 0 c c0 Hc). cbn [Nat.mul Nat.add] in V. rewrite V.
      + rewrite (@all_lanes _ c). rewrite nth_error_map.
        destruct (nth_error_lt_Some (rev b) (i := c)) as [[k f] Ek]; [rewrite rev_length; lia|].
        rewrite Ek. cbn [option_map snd]. f_equal. rewrite (nth_error_nth _ _ _ Ek). cbn [snd]. match goal with |- (_ + ?a)%r = ?b => change a with b; ring end.
      + destruct (nth_error_lt_Some (repeat (c0 : R) 8) (i := c)) as [y Ey]; [rewrite repeat_length; exact Hc|].
        rewrite Ey. apply nth_error_In, repeat_spec in Ey. congruence.
    - rewrite !(proj2 (nth_error_None _ _)); [reflexivity|rewrite map_length, rev_length; lia|lia]. }
  rewrite HR. unfold entries. clear. induction (rev b) as [|[k f] l IH]; [reflexivity|]. cbn [map combine]. rewrite IH. reflexivity.
Qed.

Lemma rsum_two (f g : nat -> R) l : rsum (map (fun n => (f n + g n)%r) l) = (rsum (map f l) + rsum (map g l))%r.
Proof. induction l as [|n q IH]; cbn [map rsum]; [|rewrite IH]; ring. Qed.
(** [dest]: the integrals as they would be without the buffer. *)
Definition sim (out : list R) (b : cabuf) (dest : list R) : Prop :=
  adds (entries b) out = Some dest /\ (buffered = false -> b = []).

Lemma sim_len out b dest : sim out b dest -> length dest = length out.
Proof. intros [E _]. apply adds_iff in E. tauto. Qed.

Lemma acc_sim p l x src out b dest d : sim out b dest ->
  (if x =? 0 then at_ptr p (call src) dest else at_ptr p (contract len 1 (fun n => nth n l 0) src) dest) = Some d ->
  exists out' b', acc p l x src out b = Some (out', b') /\ sim out' b' d.
Proof.
  intros HS E. pose proof (sim_len HS) as HL. unfold acc. destruct (x =? 0) eqn:Ex.
  - assert (EB : buffered = true \/ buffered = false) by (clear; destruct buffered; auto).
    destruct EB as [EB|EB]; rewrite EB.
    + rewrite call_adds in E. destruct (Nat.ltb_spec p (length dest)) as [Lp|]; [|discriminate].
      destruct HS as [HS _].
      assert (HP : adds (entries b ++ [(p, rsum (map (src 0%nat) (seq 0 len)))]) out = Some d) by (rewrite adds_app, HS; exact E).
      assert (push : exists out' b', (let b' := (p, src 0%nat) :: b in
        if length b' =? 8 then match flush8 out b' with Some o => Some (o, []) | None => None end else Some (out, b')) = Some (out', b') /\ sim out' b' d).
      { cbv zeta. destruct (Nat.eqb_spec (length ((p, src 0%nat) :: b)) 8) as [L8|L8].
        - rewrite (flush8_ok _ _ EB L8), entries_cons, HP. exists d, []. split; [reflexivity|]. split; [reflexivity|intros; reflexivity].
        - eexists _, _. split; [reflexivity|]. split; [rewrite entries_cons; exact HP|congruence]. }
      destruct b as [|[k f] r]; [exact push|]. destruct (Nat.eqb_spec p k) as [->|N]; [|exact push].
      eexists _, _. split; [reflexivity|]. split; [|congruence]. rewrite <- HP. rewrite !entries_cons. apply adds_same.
      * intros i. rewrite !hits_app. unfold hits at 2 4 5. cbn [filter fst]. destruct (k =? i); cbn [map rsum snd].
        -- assert (HA : rsum (map (fun n => (f n + src 0%nat n)%r) (seq 0 len)) = (rsum (map f (seq 0 len)) + rsum (map (src 0%nat) (seq 0 len)))%r).
           { apply rsum_two. }
           rewrite HA. ring.
        -- ring.
      * split; intros H i y Hi.
        -- rewrite !in_app_iff in Hi. destruct Hi as [[Hi|[Hi|[]]]|[Hi|[]]].
           ++ apply (H i y). apply in_app_iff. left; exact Hi.
           ++ injection Hi as <- _. apply (H k (rsum (map (fun n => (f n + src 0%nat n)%r) (seq 0 len)))). apply in_app_iff. right; left; reflexivity.
           ++ injection Hi as <- _. lia.
        -- apply in_app_iff in Hi. destruct Hi as [Hi|[Hi|[]]].
           ++ apply (H i y). rewrite !in_app_iff. auto.
           ++ injection Hi as <- _. lia.
    + destruct HS as [HS HB]. rewrite (HB EB) in *. cbn in HS. injection HS as <-.
      rewrite E. eexists _, _. split; [reflexivity|]. split; [reflexivity|reflexivity].
  - unfold contract in *.
    assert (Hp : p <= length dest) by (unfold at_ptr in E; destruct (Nat.leb_spec p (length dest)); [assumption|discriminate]).
    rewrite at_ptr_adds in E by exact Hp. rewrite at_ptr_adds by (rewrite <- HL; exact Hp).
    set (ops := shift p _) in *. destruct HS as [HS HB].
    assert (HP : adds (ops ++ entries b) out = Some d) by (rewrite adds_comm, adds_app, HS; exact E).
    rewrite adds_app in HP. destruct (adds ops out) as [o|]; [|discriminate].
    exists o, b. split; [reflexivity|]. split; [exact HP|exact HB].
Qed.

(** ** Offsets *)
Lemma next_lanes_ptr cd nb : forall m off last a n c p q,
  let '(l, x, s) := next_lanes (b_np K) cd nb m off last (OS a n c p) in
  let '(l', x', s') := next_lanes (b_np K) cd nb m off last (OS a n c q) in
  l = l' /\ x = x' /\ o_ptr s = p /\ o_ptr s' = q /\ o_iprim s = o_iprim s' /\ o_nprim s = o_nprim s' /\ o_icd s = o_icd s'.
Proof.
  induction m as [|m IH]; intros off last a n c p q; cbn [next_lanes].
  - repeat split.
  - unfold new_shell. cbn [o_iprim o_nprim o_icd o_ptr]. destruct ((n <=? a) && (S c <? nb)).
    + specialize (IH (S off) (S last) (S a) (n + b_np K (cd + S c))%nat (S c) p q).
      destruct (next_lanes _ _ _ _ _ _ (OS _ _ _ p)) as [[l x] s], (next_lanes _ _ _ _ _ _ (OS _ _ _ q)) as [[l' x'] s'].
      destruct IH as (-> & -> & H). split; [reflexivity|]. split; [reflexivity|]. exact H.
    + specialize (IH off last (S a) n c p q).
      destruct (next_lanes _ _ _ _ _ _ (OS _ _ _ p)) as [[l x] s], (next_lanes _ _ _ _ _ _ (OS _ _ _ q)) as [[l' x'] s'].
      destruct IH as (-> & -> & H). split; [reflexivity|]. split; [reflexivity|]. exact H.
Qed.
Lemma vec_offsets_ptr cd nb a n c p q :
  let '(l, x, s) := vec_offsets len (b_np K) cd nb (OS a n c p) in
  let '(l', x', s') := vec_offsets len (b_np K) cd nb (OS a n c q) in
  l = l' /\ x = x' /\ (o_ptr s = p /\ o_ptr s' = q \/ o_ptr s = S p /\ o_ptr s' = S q) /\
  o_iprim s = o_iprim s' /\ o_nprim s = o_nprim s' /\ o_icd s = o_icd s'.
Proof.
  unfold vec_offsets. cbn [o_iprim o_nprim o_icd o_ptr]. destruct (n <=? a + len).
  - unfold first_lane, new_shell. cbn [o_iprim o_nprim o_icd o_ptr]. destruct ((n <=? a) && (S c <? nb)).
    + pose proof (next_lanes_ptr cd nb (len - 1) 0 0 (S a) (n + b_np K (cd + S c))%nat (S c) (S p) (S q)) as H.
      destruct (next_lanes _ _ _ _ _ _ (OS _ _ _ (S p))) as [[l x] s], (next_lanes _ _ _ _ _ _ (OS _ _ _ (S q))) as [[l' x'] s'].
      destruct H as (-> & -> & H1 & H2 & H3). tauto.
    + pose proof (next_lanes_ptr cd nb (len - 1) 0 0 (S a) n c p q) as H.
      destruct (next_lanes _ _ _ _ _ _ (OS _ _ _ p)) as [[l x] s], (next_lanes _ _ _ _ _ _ (OS _ _ _ q)) as [[l' x'] s'].
      destruct H as (-> & -> & H1 & H2 & H3). tauto.
  - cbn. tauto.
Qed.

(** ** Screen array *)
Hypothesis Hnss : 0 < nss.
Variable scr0 : list Q.
Notation bstart := (bstart len nss K).
Notation bend := (bend len nss K).
Notation pad := (pad len nss K).
(** The ket with these screen values taken as 0. *)
Definition masked : batch := Batch (b_np K) (b_clip K) (fun k => if pad k then 0%Q else nth k scr0 0%Q) (b_scrmax K).
Definition sinv (scr : list Q) : Prop :=
  length scr = length scr0 /\ (forall k, pad k = false -> nth_error scr k = nth_error scr0 k) /\
  (check_screen tol = false -> scr = scr0).
Hypothesis Hscr : check_screen tol = true -> forall b, b < nbatch nss K -> rnd len (bend b) <= length scr0.

Lemma vmax_ext f g : (forall n, n < len -> f n = g n) -> vector_max zf len f = vector_max zf len g.
Proof.
  intros H. unfold vector_max. destruct zf.
  - f_equal. apply map_ext_in. intros n Hn. apply in_seq in Hn. apply H. lia.
  - rewrite (H 0) by exact Hlen. f_equal. apply map_ext_in. intros n Hn. apply in_seq in Hn. apply H. lia.
Qed.

Lemma screen4_ok i b v scr : b < nbatch nss K -> bstart b + v * len < bend b -> sinv scr ->
  exists scr', screen4 i (bstart b + v * len) (bend b) scr = Some (scr', vec_skip len P masked tol zf i (bstart b + v * len)) /\ sinv scr'.
Proof.
  intros Hb Hv [L [S0 S1]]. set (j := bstart b + v * len) in *. unfold screen4, vec_skip.
  assert (EC : check_screen tol = true \/ check_screen tol = false) by (clear; destruct (check_screen tol); auto).
  destruct EC as [EC|EC]; rewrite EC.
  2: { exists scr. split; [reflexivity|]. split; [exact L|]. split; [exact S0|exact S1]. }
  pose proof (Hscr EC Hb) as HL.
  assert (Hj : j + len <= rnd len (bend b)).
  { assert (Dj : Nat.divide len j).
    { unfold j. apply Nat.divide_add_r; [apply start_divide; assumption|apply Nat.divide_factor_r]. }
    destruct Dj as [u Eu]. destruct (@rnd_divide len (bend b)) as [w Ew]. pose proof (@rnd_ge len Hlen (bend b)) as G.
    rewrite Ew in *. assert (u < w). { destruct (Nat.lt_ge_cases u w) as [|G2]; [assumption|]. pose proof (Nat.mul_le_mono_r _ _ len G2). lia. }
    pose proof (Nat.mul_le_mono_r (S u) w len ltac:(lia)) as M. rewrite Nat.mul_succ_l in M. lia. }
  assert (W : exists s, (if bend b - j <? len then wr_zero (bend b) (j + len - bend b) scr else Some scr) = Some s /\ length s = length scr0 /\
     (forall q, bend b <= q < j + len -> nth_error s q = Some 0%Q) /\ (forall q, q < bend b \/ j + len <= q -> nth_error s q = nth_error scr q)).
  { destruct (Nat.ltb_spec (bend b - j) len) as [HS|HS].
    - destruct (@wr_zero_ok (j + len - bend b) (bend b) scr) as [s [E [Ls [Z O]]]]; [lia|]. exists s. split; [exact E|].
      split; [lia|]. split; [intros; apply Z; lia|intros; apply O; lia].
    - exists scr. split; [reflexivity|]. split; [exact L|]. split; [intros; lia|reflexivity]. }
  destruct W as [s [E [Ls [Z O]]]]. rewrite E, Ls. rewrite (proj2 (Nat.leb_le (j + len) (length scr0))) by lia.
  exists s. split.
  - f_equal. f_equal. cbn [andb]. f_equal. apply vmax_ext. intros n Hn. f_equal. cbn [masked b_scr].
    destruct (Nat.lt_ge_cases (j + n) (bend b)) as [In|Out].
    + assert (Pd : pad (j + n) = false) by (apply (@pad_in len nss K Hlen Hnss b _ Hb); split; [unfold j; lia|exact In]). rewrite Pd.
      assert (En : nth_error s (j + n) = nth_error scr0 (j + n)) by (rewrite O by lia; apply S0, Pd).
      rewrite <- !nth_default_eq. unfold nth_default. rewrite En. reflexivity.
    + assert (Pd : pad (j + n) = true) by (apply pad_iff; [exact Hlen|exact Hnss|exists b; lia]). rewrite Pd.
      rewrite <- nth_default_eq. unfold nth_default. rewrite (Z (j + n)) by lia. reflexivity.
  - split; [exact Ls|]. split; [|congruence]. intros q Hq. rewrite O; [apply S0, Hq|].
    destruct (Nat.lt_ge_cases q (bend b)) as [|G1]; [left; assumption|]. right.
    destruct (Nat.lt_ge_cases q (j + len)) as [G2|]; [|assumption]. exfalso.
    assert (pad q = true) by (apply pad_iff; [exact Hlen|exact Hnss|exists b; lia]). congruence.
Qed.

(** ** The loops *)
Notation kjloop := (jloop len 1 P masked qpf val tol zf call).
Notation kiloop := (iloop len 1 P masked qpf val tol zf call).
Notation kcdloop := (cdloop len nss 1 P masked qpf val tol zf call).
Notation kabloop := (abloop len nss 1 P masked qpf val tol zf call).

Lemma jloop_sim i cd nb b base : b < nbatch nss K -> forall m v st a n c q p dest d scr out bf,
  (forall u, u < v + m -> u * len < bend b - bstart b) ->
  st = OS a n c p ->
  kjloop i cd nb (bstart b) (bend b) base m v st dest = Some d -> sim out bf dest -> sinv scr ->
  exists scr' out' bf', jloop4 i (bstart b) (bend b) (base + p) (offset_info cd nb m (OS a n c q)) v scr out bf = Some (scr', out', bf') /\
    sim out' bf' d /\ sinv scr'.
Proof.
  intros Hb. induction m as [|m IH]; intros v st a n c q p dest d scr out bf Hv -> E HS HI; cbn [jloop offset_info jloop4] in *.
  - injection E as <-. exists scr, out, bf. auto.
  - pose proof (vec_offsets_ptr cd nb a n c p 0) as VP. cbn [o_iprim o_nprim o_icd]. cbn [masked b_np] in E.
    destruct (vec_offsets len (b_np K) cd nb (OS a n c p)) as [[l x] s].
    destruct (vec_offsets len (b_np K) cd nb (OS a n c 0)) as [[l' x'] s'].
    destruct VP as (<- & <- & Hp & H1 & H2 & H3).
    cbn [jloop4].
    assert (HP : (if 0 <? o_ptr s' then S (base + p) else base + p) = base + o_ptr s).
    { destruct Hp as [[-> ->]|[-> ->]]; cbn; lia. }
    rewrite HP.
    destruct (@screen4_ok i b v scr Hb) as [scr' [ES HI']]; [specialize (Hv v ltac:(lia)); lia|exact HI|]. rewrite ES.
    destruct (vec_skip len P masked tol zf i (bstart b + v * len)).
    + destruct (IH (S v) (OS (o_iprim s) (o_nprim s) (o_icd s) (o_ptr s + x)) (o_iprim s) (o_nprim s) (o_icd s) (o_ptr s') (o_ptr s + x) dest d scr' out bf)
        as [s2 [o2 [b2 [E2 R2]]]]; [intros u Hu; apply Hv; lia|reflexivity|exact E|exact HS|exact HI'|].
      exists s2, o2, b2. split; [|exact R2]. rewrite <- Nat.add_assoc. rewrite <- E2. f_equal.
      destruct s'; cbn in *; congruence.
    + destruct (vec_acc len 1 call base l x s (vec_val len qpf val i (bstart b + v * len) (bend b)) dest) as [d1|] eqn:EA; [|discriminate].
      unfold vec_acc in EA. rewrite !Nat.mul_1_r in EA.
      destruct (@acc_sim (base + o_ptr s) l x (vec_val len qpf val i (bstart b + v * len) (bend b)) out bf dest d1 HS EA) as [o1 [b1 [E1 HS1]]].
      rewrite E1.
      destruct (IH (S v) (OS (o_iprim s) (o_nprim s) (o_icd s) (o_ptr s + x)) (o_iprim s) (o_nprim s) (o_icd s) (o_ptr s') (o_ptr s + x) d1 d scr' o1 b1)
        as [s2 [o2 [b2 [E2 R2]]]]; [intros u Hu; apply Hv; lia|reflexivity|exact E|exact HS1|exact HI'|].
      exists s2, o2, b2. split; [|exact R2]. rewrite <- E2.
      replace (if x =? 0 then base + o_ptr s else base + o_ptr s + x) with (base + (o_ptr s + x))
        by (destruct (Nat.eqb_spec x 0); lia).
      f_equal. destruct s'; cbn in *; congruence.
Qed.

Lemma iloop_sim cd nb b base : b < nbatch nss K -> forall m i dest d scr out bf,
  kiloop cd nb (bstart b) (bend b) base m i dest = Some d -> sim out bf dest -> sinv scr ->
  exists scr' out' bf', iloop4 (bstart b) (bend b) base (offset_info cd nb (nvec len (bend b - bstart b)) (ostart (b_np K) cd)) m i scr out bf
      = Some (scr', out', bf') /\ sim out' bf' d /\ sinv scr'.
Proof.
  intros Hb. induction m as [|m IH]; intros i dest d scr out bf E HS HI; cbn [iloop iloop4] in *.
  - injection E as <-. exists scr, out, bf. auto.
  - change (bra_skip P masked tol i) with (bra_skip P K tol i) in E. destruct (bra_skip P K tol i); [apply (IH (S i) dest d); assumption|].
    destruct (kjloop i cd nb (bstart b) (bend b) base (nvec len (bend b - bstart b)) 0 (ostart (b_np masked) cd) dest) as [d1|] eqn:EJ; [|discriminate].
    destruct (@jloop_sim i cd nb b base Hb (nvec len (bend b - bstart b)) 0 (ostart (b_np K) cd) 0 (b_np K cd) 0 0 0 dest d1 scr out bf) as [s1 [o1 [b1 [E1 [R1 I1]]]]];
      [|reflexivity|exact EJ|exact HS|exact HI|].
    + intros u Hu. cbn [Nat.add] in Hu. unfold nvec in Hu.
      pose proof (Nat.mul_div_le (bend b - bstart b + (len - 1)) len ltac:(lia)) as D.
      pose proof (Nat.mul_le_mono_r (S u) _ len Hu) as M. rewrite Nat.mul_succ_l in M. rewrite (Nat.mul_comm _ len) in M. lia.
    + rewrite Nat.add_0_r in E1. unfold ostart. rewrite E1. apply (IH (S i) d1 d); assumption.
Qed.

Lemma cdloop_sim i0 n : forall m b jstart abcd ninfo dest d e scr out bf,
  b + m = nbatch nss K -> (0 < m -> jstart = bstart b) ->
  kcdloop i0 n m b jstart abcd dest = Some (d, e) -> sim out bf dest -> sinv scr ->
  exists scr' out' bf' ninfo', cdloop4 i0 n m b jstart abcd ninfo scr out bf = Some (scr', out', bf', e, ninfo') /\ sim out' bf' d /\ sinv scr'.
Proof.
  induction m as [|m IH]; intros b jstart abcd ninfo dest d e scr out bf Hb Hj E HS HI; cbn [cdloop cdloop4] in *.
  - injection E as <- <-. exists scr, out, bf, ninfo. auto.
  - rewrite (Hj ltac:(lia)) in *. clear Hj jstart.
    change (batch_end nss masked (b * nss) (bstart b)) with (bend b) in E. change (batch_size nss masked (b * nss)) with (batch_size nss K (b * nss)) in E.
    change (batch_end nss K (b * nss) (bstart b)) with (bend b).
    destruct (kiloop (b * nss) (batch_size nss K (b * nss)) (bstart b) (bend b) abcd n i0 dest) as [d1|] eqn:EI; [|discriminate].
    replace (nvec len (bend b - bstart b) <=? grow (nvec len (bend b - bstart b)) ninfo) with true.
    2: { symmetry. apply Nat.leb_le. unfold grow. destruct (Nat.ltb_spec ninfo (nvec len (bend b - bstart b))); lia. }
    destruct (@iloop_sim (b * nss) (batch_size nss K (b * nss)) b abcd ltac:(lia) n i0 dest d1 scr out bf EI HS HI) as [s1 [o1 [b1 [E1 [R1 I1]]]]].
    rewrite E1. apply (IH (S b) _ _ _ d1 d e); [lia| |exact E|exact R1|exact I1].
    intros Hm. apply bend_full; [exact Hlen|exact Hnss|lia].
Qed.
Lemma abloop_sim : forall m ab istart abcd ninfo dest d scr out bf,
  kabloop m ab istart abcd dest = Some d -> sim out bf dest -> sinv scr ->
  exists scr' out' bf', abloop4 m ab istart abcd ninfo scr out bf = Some (scr', out', bf') /\ sim out' bf' d /\ sinv scr'.
Proof.
  induction m as [|m IH]; intros ab istart abcd ninfo dest d scr out bf E HS HI; cbn [abloop abloop4] in *.
  - injection E as <-. exists scr, out, bf. auto.
  - change (nbatch nss masked) with (nbatch nss K) in E.
    destruct (kcdloop istart (b_np P ab) (nbatch nss K) 0 0 abcd dest) as [[d1 e]|] eqn:EC; [|discriminate].
    destruct (@cdloop_sim istart (b_np P ab) (nbatch nss K) 0 0 abcd ninfo dest d1 e scr out bf) as [s1 [o1 [b1 [n1 [E1 [R1 I1]]]]]];
      [reflexivity|reflexivity|exact EC|exact HS|exact HI|].
    rewrite E1. apply (IH (S ab) _ _ _ d1 d); assumption.
Qed.
(** The (ss|ss) kernel computes what the generated loop nest computes with the masked screen values. *)
Theorem kernel4_sim out d r : kernel len nss 1 P masked qpf val tol zf call out = Some (d, r) ->
  exists scr', kernel4 scr0 out = Some (scr', d, r) /\ sinv scr'.
Proof.
  unfold kernel, kernel4. cbn [masked b_clip]. rewrite Nat.mul_1_r.
  destruct (b_clip P * b_clip K <=? length out); [|discriminate].
  destruct (kabloop (b_clip P) 0 0 0 _) as [d1|] eqn:E; [|discriminate]. intros H. injection H as <- <-.
  destruct (@abloop_sim (b_clip P) 0 0 0 (nss * 4) _ d1 scr0 (repeat c0 (b_clip P * b_clip K) ++ skipn (b_clip P * b_clip K) out) [] E)
    as [s1 [o1 [b1 [E1 [[R1 _] I1]]]]].
  - split; [reflexivity|intros; reflexivity].
  - split; [reflexivity|]. split; [reflexivity|intros; reflexivity].
  - rewrite E1, R1. exists s1. split; [reflexivity|exact I1].
Qed.
End Ssss.

(** ** Statements with the contraction routines of the library *)
Lemma call_of_nil {R : cring} k len (src : nat -> nat -> R) : kind_len k len -> call_of k len 1 src [] = None.
Proof.
  destruct k; cbn [kind_len call_of]; intros H.
  - unfold contract_all_zero, contract, contract_ops. destruct len as [|m]; [lia|]. reflexivity.
  - reflexivity.
  - reflexivity.
  - reflexivity.
Qed.

Lemma call8_ok {R : cring} k len buffered : kind_len k len -> match k with CallAvx512 => buffered | _ => false end = true ->
  forall (src : nat -> nat -> R) dest, 8 <= length dest ->
  exists out, contract_all_avx512 8 src dest = Some out /\ contracted len 8 (fun _ => 0) src dest out.
Proof. destruct k; cbn [kind_len]; intros Hk Hb; try discriminate. subst len. apply contract_all_avx512_ok. Qed.

Section Spec.
Context {R : cring}.
Variables (k : call_kind) (len nss : nat) (P K : batch) (scr : list Q) (qpf : nat -> R) (val : nat -> nat -> R -> nat -> R) (tol : Q) (zf : bool)
  (buffered : bool).
Hypothesis Hk : kind_len k len.
Hypothesis Hnss : 0 < nss.
Hypothesis Hval : forall i j c, val i j c0 c = c0.
Hypothesis Hnp : forall t, t < b_clip K -> 0 < b_np K t.
Hypothesis Hscr : (0 < tol)%Q -> rnd len (start len nss (b_np K) (b_clip K)) <= length scr.
Notation st := (start len nss (b_np K)).

Let Hlen : 0 < len := @kind_len_pos k len Hk.

Lemma start_le t u : t <= u -> st t <= st u.
Proof.
  induction 1 as [|u H IH]; [lia|]. etransitivity; [exact IH|]. cbn [start]. destruct (S u mod nss =? 0); [|lia].
  etransitivity; [|apply rnd_ge, Hlen]. lia.
Qed.
Lemma start_end t u : t < u -> st t + b_np K t <= st u.
Proof.
  intros H. etransitivity; [|apply (@start_le (S t) u H)]. cbn [start]. destruct (S t mod nss =? 0); [|lia]. apply rnd_ge, Hlen.
Qed.
(** End of batch [b]: rounded, not behind the rounded end of the clipped part. *)
Lemma bend_clip b : b < nbatch nss K -> rnd len (bend len nss K b) <= rnd len (st (b_clip K)).
Proof.
  intros Hb. pose proof (@nbatch_lt4 len nss K Hlen Hnss b Hb) as L. unfold bend, batch_end, batch_size, bstart.
  cbn [Nat.mul]. destruct (Nat.ltb_spec (b_clip K) (b * nss + nss)) as [H|H].
  - rewrite <- (@start_in len nss Hlen Hnss) by lia. replace (b * nss + (b_clip K - b * nss)) with (b_clip K) by lia. lia.
  - rewrite <- (@start_next len nss Hlen Hnss). etransitivity; [apply (@start_le (S b * nss) (b_clip K)); cbn [Nat.mul]; lia|]. apply rnd_ge, Hlen.
Qed.
(** The padding regions hold no counted primitive and end before the rounded end of the clipped part. *)
Lemma pad_not_counted q t : t < b_clip K -> st t <= q < st t + b_np K t -> pad len nss K q = false.
Proof.
  intros Ht Hq. pose proof (Nat.div_mod t nss ltac:(lia)) as D. pose proof (Nat.mod_upper_bound t nss ltac:(lia)) as M.
  set (b := t / nss) in *. set (r := t mod nss) in *. assert (Et : t = b * nss + r) by lia.
  assert (Hb : b < nbatch nss K).
  { unfold nbatch. apply Nat.div_le_lower_bound; [lia|]. rewrite Nat.mul_comm, Nat.mul_succ_l. lia. }
  apply (@pad_in len nss K Hlen Hnss b q Hb). rewrite Et in Hq. rewrite (@start_in len nss Hlen Hnss) in Hq by exact M.
  unfold bend, batch_end, bstart. split; [lia|].
  assert (HB : r < batch_size nss K (b * nss)). { unfold batch_size. destruct (Nat.ltb_spec (b_clip K) (b * nss + nss)); lia. }
  pose proof (@psum_le (b_np K) (b * nss) (S r) _ HB) as HP. cbn [psum] in HP. lia.
Qed.

Theorem ssss_kernel out : b_clip P * b_clip K <= length out ->
  exists scr' d drop, kernel4 len nss P K qpf val tol zf (call_of k len 1) (contract_all_avx512 8) (match k with CallAvx512 => buffered | _ => false end) scr out =
      Some (scr', d, b_clip P * b_clip K) /\
    (forall ab cd, ab < b_clip P -> cd < b_clip K ->
       nth_error d (ab * b_clip K + cd) =
       Some (quartet_sum qpf val drop (total (b_np P) ab) (b_np P ab) (st cd) (b_np K cd) 0)) /\
    (forall i cd b, cd < b_clip K -> b < b_np K cd -> let j := st cd + b in
       (0 <= b_scr P i)%Q -> (nth j scr 0 <= b_scrmax K)%Q -> drop i j = true -> (0 < tol)%Q /\ (b_scr P i * nth j scr 0 < tol)%Q) /\
    length scr' = length scr /\
    (forall t j, t < b_clip K -> st t <= j < st t + b_np K t -> nth_error scr' j = nth_error scr j) /\
    (forall j, rnd len (st (b_clip K)) <= j -> nth_error scr' j = nth_error scr j) /\
    ((tol <= 0)%Q -> scr' = scr).
Proof.
  intros Hout. pose proof (@call_of_ok R k len 1 Hk) as HC.
  set (Km := masked len nss K scr).
  destruct (@kernel_ok R len nss 1 P Km qpf val tol zf (call_of k len 1) (fun _ _ f => f) Hlen Hnss ltac:(lia) Hval HC Hnp out) as [d [E [L [V O]]]].
  { cbn [Km masked b_clip]. lia. }
  cbn [Km masked b_clip] in E, V.
  assert (Hs : check_screen tol = true -> forall b, b < nbatch nss K -> rnd len (bend len nss K b) <= length scr).
  { intros Ec b Hb. apply qltb_spec in Ec. etransitivity; [apply bend_clip, Hb|exact (Hscr Ec)]. }
  assert (X : exists scr', kernel4 len nss P K qpf val tol zf (call_of k len 1) (contract_all_avx512 8) (match k with CallAvx512 => buffered | _ => false end) scr out =
      Some (scr', d, b_clip P * b_clip K) /\ sinv len nss K tol scr scr').
  { apply kernel4_sim; [exact Hlen|exact HC|intros src; apply call_of_nil; exact Hk| |exact Hnss|exact Hs|exact E].
    apply call8_ok, Hk. }
  destruct X as [scr' [E4 [L4 [S4 T4]]]]. exists scr', d, (dropped len P Km tol zf).
  split; [exact E4|]. split; [|split; [|split; [exact L4|split; [|split]]]].
  - intros ab cd Hab Hcd. specialize (V ab cd 0 Hab Hcd ltac:(lia)). rewrite Nat.mul_1_r, Nat.add_0_r in V. exact V.
  - intros i cd b Hcd Hb j H1 H2 Hd.
    assert (Pj : pad len nss K j = false) by (apply (@pad_not_counted j cd Hcd); unfold j; lia).
    assert (Ej : b_scr Km j = nth j scr 0%Q) by (cbn [Km masked b_scr]; rewrite Pj; reflexivity). rewrite <- Ej in *.
    split; [|apply (@dropped_negligible len P Km tol zf i j Hlen); assumption].
    unfold dropped, bra_skip, vec_skip in Hd. apply qltb_spec. change (check_screen tol = true). destruct (check_screen tol); [reflexivity|discriminate].
  - intros t j Ht Hj. apply S4. exact (@pad_not_counted j t Ht Hj).
  - intros j Hj. apply S4. destruct (pad len nss K j) eqn:Ep; [|reflexivity]. exfalso. apply pad_iff in Ep as [b [Hb Hr]]; [|exact Hlen|exact Hnss].
    pose proof (bend_clip Hb). lia.
  - intros Ht. apply T4. destruct (check_screen tol) eqn:Ec; [|reflexivity]. exfalso. apply qltb_spec in Ec. exact (Qlt_not_le _ _ Ec Ht).
Qed.

(** Without screening: the contracted integrals. *)
Theorem ssss_full out : (tol <= 0)%Q -> bra_aligned len nss P -> b_clip P * b_clip K <= length out ->
  exists d, kernel4 len nss P K qpf val tol zf (call_of k len 1) (contract_all_avx512 8) (match k with CallAvx512 => buffered | _ => false end) scr out =
      Some (scr, d, b_clip P * b_clip K) /\
    (forall ab cd, ab < b_clip P -> cd < b_clip K ->
       nth_error d (ab * b_clip K + cd) = Some (full_sum len nss (b_np P) (b_np K) qpf val ab cd 0)).
Proof.
  intros Ht Ha Hout. destruct (@ssss_kernel out Hout) as [scr' [d [drop [E [V [D [_ [_ [_ T]]]]]]]]]. rewrite (T Ht) in E. clear T.
  exists d. split; [exact E|]. intros ab cd Hab Hcd.
  pose proof (@kernel_ok R len nss 1 P (masked len nss K scr) qpf val tol zf (call_of k len 1) (fun _ _ f => f) Hlen Hnss ltac:(lia) Hval (@call_of_ok R k len 1 Hk) Hnp out) as KO.
  cbn [masked b_clip b_np] in KO. destruct KO as [d' [E' [_ [V' _]]]]; [lia|].
  assert (Hs : check_screen tol = true -> forall b, b < nbatch nss K -> rnd len (bend len nss K b) <= length scr).
  { intros Ec. exfalso. apply qltb_spec in Ec. exact (Qlt_not_le _ _ Ec Ht). }
  destruct (@kernel4_sim R len nss P K qpf val tol zf (call_of k len 1) (contract_all_avx512 8) (match k with CallAvx512 => buffered | _ => false end)
    Hlen (@call_of_ok R k len 1 Hk) (fun src => @call_of_nil R k len src Hk) (@call8_ok R k len buffered Hk) Hnss scr Hs out d' _ E') as [s2 [E2 _]].
  rewrite E in E2. injection E2 as _ <-.
  specialize (V' ab cd 0 Hab Hcd ltac:(lia)). rewrite Nat.mul_1_r, Nat.add_0_r in V'. rewrite V'. f_equal.
  apply (@quartet_full R len nss P (masked len nss K scr) qpf val zf tol ab cd 0 Ht).
  apply (proj2 (@bra_start_iff len nss Hlen Hnss (b_np P) (b_clip P)) Ha ab Hab).
Qed.
End Spec.

(** ** Destroyed values: two ket pairs of one primitive in one vector, the first call with clip 1 *)
Definition ex_bra : batch := Batch (fun _ => 1) 1 (fun _ => 1%Q) 1%Q.
Definition ex_ket (clip : nat) : batch := Batch (fun _ => 1) clip (fun _ => 0%Q) 1%Q.
Definition ex_call (clip : nat) (scr : list Q) : option (list Q * list Z * nat) :=
  @kernel4 Zring 4 8 ex_bra (ex_ket clip) (fun _ => 1%Z) (fun i j pf _ => (pf * (10 + Z.of_nat j))%Z) (1 # 100)%Q true
    (@call_of Zring CallZero 4 1) (contract_all_avx512 8) false scr (repeat 0%Z clip).
Lemma screen_destroyed :
  ex_call 2 [0; 1; 0; 0]%Q = Some ([0; 1; 0; 0]%Q, [10; 11]%Z, 2) /\
  ex_call 1 [0; 1; 0; 0]%Q = Some ([0; 0; 0; 0]%Q, [0]%Z, 1) /\
  ex_call 2 [0; 0; 0; 0]%Q = Some ([0; 0; 0; 0]%Q, [0; 0]%Z, 2).
Proof. split; [vm_compute; reflexivity|]. split; [vm_compute; reflexivity|vm_compute; reflexivity]. Qed.
(** The buffer: ten ket pairs of eight primitives, AVX512. *)
Example ex_buffer :
  @kernel4 Zring 8 16 ex_bra (Batch (fun _ => 8) 10 (fun _ => 1%Q) 1%Q) (fun _ => 1%Z) (fun i j pf _ => (pf * Z.of_nat j)%Z) 0%Q false
    (@call_of Zring CallAvx512 8 1) (contract_all_avx512 8) true (repeat 1%Q 80) (repeat 7%Z 10) =
  Some (repeat 1%Q 80, [28; 92; 156; 220; 284; 348; 412; 476; 540; 604]%Z, 10).
Proof. vm_compute. reflexivity. Qed.
