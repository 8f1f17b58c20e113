(** Concatenating shell pairs.
    Source: skel/simint/shell/shell.c:605-729 (simint_cat_multi_shellpair), 733-873
    (simint_cat_shellpairs).

    Arrays that are copied and padded alike are treated as one array of elements of type [A]; [pad] is
    what the padding loop stores.  The screen array is the instance [A := option Q] with [pad := None]:
    the padding loop does not store there.  Output is written at increasing positions without gaps, so
    it is built by appending. *)
From Coq Require Import List Arith Lia Bool.
Import ListNotations.
From Verif Require Import Base Simd Offsets Starts Layout.
Set Implicit Arguments.

Lemma nth_error_firstn_lt B (l : list B) : forall k m, k < m -> nth_error (firstn m l) k = nth_error l k.
Proof.
  induction l as [|x l IH]; intros k m H; [rewrite firstn_nil; destruct k; reflexivity|].
  destruct m as [|m]; [lia|]. destruct k as [|k]; [reflexivity|]. cbn. apply IH. lia.
Qed.
Lemma nth_error_repeat_lt B (x : B) m : forall k, k < m -> nth_error (repeat x m) k = Some x.
Proof. induction m as [|m IH]; intros k H; [lia|]. destruct k as [|k]; [reflexivity|]. cbn. apply IH. lia. Qed.

Section Cat.
Variables (len nss : nat) (A : Type) (pad : A).

Record mpair := MPair { m_n : nat; m_np : nat -> nat; m_arr : list A; m_nprim : nat }.
Variable ins : nat -> mpair.
Variable nm : nat.

(** The double loop over inputs and their shell pairs. *)
Definition cat_pairs : list (nat * nat) := flat_map (fun i => map (pair i) (seq 0 (m_n (ins i)))) (seq 0 nm).
Definition np_of (ij : nat * nat) : nat := m_np (ins (fst ij)) (snd ij).

(** shell.c:622-637. *)
Fixpoint cat_alloc_loop (n : nat) (l : list (nat * nat)) (ipair nprim batchprim : nat) : nat :=
  match l with
  | [] => nprim
  | ij :: r =>
    let bp := batchprim + np_of ij in
    if ((S ipair) mod nss =? 0) || (n <=? S ipair) then cat_alloc_loop n r (S ipair) (nprim + rnd len bp) 0
    else cat_alloc_loop n r (S ipair) nprim bp
  end.
Definition cat_alloc : nat := cat_alloc_loop (length cat_pairs) cat_pairs 0 0 0.

(** Elements [0 .. k-1] of an array; [None] if there are fewer. *)
Definition take (k : nat) (l : list A) : option (list A) := if k <=? length l then Some (firstn k l) else None.
(** shell.c:649-721: [Pin[i]->x[p]] with [p] from 0 for every pair [j]. *)
Fixpoint cat_loop (n : nat) (l : list (nat * nat)) (sasb : nat) (out : list A) : option (list A) :=
  match l with
  | [] => Some out
  | ij :: r =>
    match take (np_of ij) (m_arr (ins (fst ij))) with
    | None => None
    | Some c =>
      let o := out ++ c in
      cat_loop n r (S sasb) (if ((S sasb) mod nss =? 0) || (n <=? S sasb) then o ++ repeat pad (rnd len (length o) - length o) else o)
    end
  end.
Definition cat_multi : option (list A) := cat_loop (length cat_pairs) cat_pairs 0 [].
(** [Pout->nprim += Pin[i]->nprim], shell.c:722. *)
Definition cat_nprim (old : nat) : nat := fold_left (fun s i => s + m_nprim (ins i)) (seq 0 nm) old.

(** simint_cat_shellpairs: sizes by batches (shell.c:745-757); the copy is that of the first pair of
    every input, shell.c:768-868. *)
Fixpoint cs_alloc_loop (fuel istart nprim : nat) : nat :=
  match fuel with
  | 0 => nprim
  | S f =>
    if istart <? nm then
      let iend := if nm <? istart + nss then nm else istart + nss in
      cs_alloc_loop f (istart + nss) (nprim + rnd len (nsum (map (fun i => m_np (ins i) 0) (seq istart (iend - istart)))))
    else nprim
  end.
Definition cs_alloc : nat := cs_alloc_loop nm 0 0.
Definition cat_shellpairs : option (list A) := cat_loop nm (map (fun i => (i, 0)) (seq 0 nm)) 0 [].

(** ** Proofs *)
Hypothesis Hlen : 0 < len.
Hypothesis Hnss : 0 < nss.

Definition npl (l : list (nat * nat)) (t : nat) : nat := np_of (nth t l (0, 0)).
Section Loop.
Variable pl : list (nat * nat).
Local Notation n := (length pl).
Local Notation np := (npl pl).
Local Notation st := (start len nss np).
Definition cat_end : nat := rnd len (st n).

Lemma cst_step t : S t < n -> st (S t) = if ((S t) mod nss =? 0) || (n <=? S t) then rnd len (st t + np t) else st t + np t.
Proof.
  intros H. cbn [start]. replace (n <=? S t) with false by (symmetry; apply Nat.leb_gt; exact H).
  rewrite orb_false_r. reflexivity.
Qed.
Lemma cst_end t : S t = n -> cat_end = rnd len (st t + np t).
Proof.
  intros H. unfold cat_end. rewrite <- H. cbn [start]. destruct (S t mod nss =? 0); [rewrite (rnd_rnd Hlen)|]; reflexivity.
Qed.
Lemma cst_le t u : t <= u -> st t <= st u.
Proof.
  induction 1 as [|u _ IH]; [lia|]. cbn [start]. destruct (S u mod nss =? 0); [|lia].
  pose proof (rnd_ge Hlen (st u + np u)). lia.
Qed.
Lemma cst_next t u : t < u -> st t + np t <= st u.
Proof.
  intros H. pose proof (@cst_le (S t) u H) as L. cbn [start] in L. destruct (S t mod nss =? 0); [|lia].
  pose proof (rnd_ge Hlen (st t + np t)). lia.
Qed.
Lemma cst_last t : t < n -> st t + np t <= cat_end.
Proof. intros H. unfold cat_end. pose proof (cst_next H). pose proof (rnd_ge Hlen (st n)). lia. Qed.

Lemma cat_alloc_loop_ok : forall l t nprim bp, t + length l = n -> (forall u ij, nth_error l u = Some ij -> nth (t + u) pl (0, 0) = ij) ->
  (l <> [] -> nprim + bp = st t) -> Nat.divide len nprim -> (l = [] -> nprim = cat_end) ->
  cat_alloc_loop n l t nprim bp = cat_end.
Proof.
  induction l as [|ij l IH]; intros t nprim bp Ht Hl Hs Hd He; cbn [cat_alloc_loop]; [apply He; reflexivity|].
  specialize (Hs ltac:(discriminate)). cbn [length] in Ht.
  assert (Ep : np_of ij = np t) by (unfold npl; rewrite <- (Hl 0 ij eq_refl), Nat.add_0_r; reflexivity).
  assert (E : rnd len (st t + np t) = nprim + rnd len (bp + np_of ij)).
  { rewrite Ep. rewrite <- (rnd_add_l Hlen) by exact Hd. f_equal. lia. }
  assert (Hl' : forall u ij', nth_error l u = Some ij' -> nth (S t + u) pl (0, 0) = ij').
  { intros u ij' Eu. replace (S t + u) with (t + S u) by lia. apply Hl. exact Eu. }
  destruct l as [|ij2 l].
  - cbn [length] in Ht. replace (n <=? S t) with true by (symmetry; apply Nat.leb_le; lia). rewrite orb_true_r. cbn [cat_alloc_loop].
    rewrite <- E. symmetry. apply cst_end. lia.
  - cbn [length] in Ht. pose proof (@cst_step t ltac:(lia)) as Es. destruct (_ || _).
    + apply IH; [cbn [length]; lia|exact Hl'|intros _; lia|apply Nat.divide_add_r; [exact Hd|apply rnd_divide]|discriminate].
    + apply IH; [cbn [length]; lia|exact Hl'|intros _; lia|exact Hd|discriminate].
Qed.
Lemma nth_pl u ij : nth_error pl u = Some ij -> nth (0 + u) pl (0, 0) = ij.
Proof. intros E. apply (nth_error_nth _ _ _ E). Qed.
Lemma cat_alloc_ok : cat_alloc_loop n pl 0 0 0 = cat_end.
Proof.
  apply cat_alloc_loop_ok; [reflexivity|apply nth_pl|reflexivity|exists 0; reflexivity|].
  intros E. assert (E0 : n = 0) by (rewrite E; reflexivity). unfold cat_end. rewrite E0. cbn [start]. rewrite (rnd_0 Hlen). reflexivity.
Qed.

Hypothesis Hfit : forall ij, In ij pl -> np_of ij <= length (m_arr (ins (fst ij))).

Lemma cat_loop_ok : forall l t out, t + length l = n -> (forall u ij, nth_error l u = Some ij -> nth (t + u) pl (0, 0) = ij) -> incl l pl ->
  (l <> [] -> length out = st t) -> (l = [] -> length out = cat_end) ->
  exists out', cat_loop n l t out = Some out' /\ length out' = cat_end /\ (exists tl, out' = out ++ tl) /\
    (forall u k, t <= u < n -> k < np u -> nth_error out' (st u + k) = nth_error (m_arr (ins (fst (nth u pl (0, 0))))) k) /\
    (forall q, length out <= q < cat_end -> (forall u, t <= u < n -> ~ (st u <= q < st u + np u)) -> nth_error out' q = Some pad).
Proof.
  induction l as [|ij l IH]; intros t out Ht Hl Hin Hs He; cbn [cat_loop].
  - exists out. split; [reflexivity|]. split; [apply He; reflexivity|]. split; [exists []; rewrite app_nil_r; reflexivity|].
    cbn [length] in Ht. specialize (He eq_refl). split; intros; lia.
  - specialize (Hs ltac:(discriminate)). cbn [length] in Ht.
    assert (Eij : nth t pl (0, 0) = ij) by (rewrite <- (Hl 0 ij eq_refl), Nat.add_0_r; reflexivity).
    assert (Ep : np_of ij = np t) by (unfold npl; rewrite Eij; reflexivity).
    pose proof (@Hfit ij (Hin ij (or_introl eq_refl))) as Hf.
    unfold take. rewrite (proj2 (Nat.leb_le _ _) Hf). set (c := firstn (np_of ij) (m_arr (ins (fst ij)))).
    assert (Lc : length c = np t) by (unfold c; rewrite firstn_length; lia).
    set (o := out ++ c). assert (Lo : length o = st t + np t) by (unfold o; rewrite app_length; lia).
    set (o' := if ((S t) mod nss =? 0) || (n <=? S t) then o ++ repeat pad (rnd len (length o) - length o) else o).
    assert (Hl' : forall u ij', nth_error l u = Some ij' -> nth (S t + u) pl (0, 0) = ij').
    { intros u ij' Eu. replace (S t + u) with (t + S u) by lia. apply Hl. exact Eu. }
    assert (Hrge : st t + np t <= rnd len (st t + np t)) by apply (rnd_ge Hlen).
    assert (Hlen' : length o' = if ((S t) mod nss =? 0) || (n <=? S t) then rnd len (st t + np t) else st t + np t).
    { unfold o'. destruct (_ || _); [|exact Lo]. rewrite app_length, repeat_length, Lo. lia. }
    assert (Hpre : exists tl, o' = o ++ tl) by (unfold o'; destruct (_ || _); [eexists; reflexivity|exists []; rewrite app_nil_r; reflexivity]).
    assert (Hpad : forall q, length o <= q < length o' -> nth_error o' q = Some pad).
    { intros q Hq. revert Hq. unfold o'. destruct (_ || _); [|lia]. intros Hq. rewrite app_length, repeat_length in Hq. rewrite nth_error_app2 by lia.
      apply nth_error_repeat_lt. lia. }
    destruct (IH (S t) o' ltac:(lia) Hl' (fun x Hx => Hin x (or_intror Hx))) as (out' & E' & L' & (tl & T) & V & G).
    { intros Hne. rewrite Hlen'. destruct l as [|ij2 l]; [congruence|]. cbn [length] in Ht. symmetry. apply cst_step. lia. }
    { intros ->. cbn [length] in Ht. rewrite Hlen'. replace (n <=? S t) with true by (symmetry; apply Nat.leb_le; lia).
      rewrite orb_true_r. symmetry. apply cst_end. lia. }
    exists out'. split; [exact E'|]. split; [exact L'|]. destruct Hpre as (tl2 & T2). split; [exists (c ++ tl2 ++ tl); rewrite T, T2; unfold o; rewrite <- !app_assoc; reflexivity|]. split.
    + intros u k Hu Hk. destruct (Nat.eq_dec u t) as [->|Nu]; [|apply V; lia].
      rewrite T, T2. unfold o. rewrite <- !app_assoc. rewrite nth_error_app2 by lia. rewrite nth_error_app1 by lia.
      replace (st t + k - length out) with k by lia. rewrite Eij. unfold c. apply nth_error_firstn_lt. lia.
    + intros q Hq Hg. pose proof (Hg t ltac:(lia)) as Hgt.
      destruct (Nat.lt_ge_cases q (length o')) as [L|L].
      * rewrite T, nth_error_app1 by exact L. apply Hpad. lia.
      * apply G; [lia|]. intros u Hu. apply Hg. lia.
Qed.
End Loop.

(** Output of both routines: position and padding. *)
Theorem cat_loop_all pl : (forall ij, In ij pl -> np_of ij <= length (m_arr (ins (fst ij)))) ->
  exists out, cat_loop (length pl) pl 0 [] = Some out /\ length out = rnd len (start len nss (npl pl) (length pl)) /\
    (forall t i j k, nth_error pl t = Some (i, j) -> k < m_np (ins i) j ->
       nth_error out (start len nss (npl pl) t + k) = nth_error (m_arr (ins i)) k) /\
    (forall q, q < length out -> (forall t, t < length pl -> ~ (start len nss (npl pl) t <= q < start len nss (npl pl) t + npl pl t)) ->
       nth_error out q = Some pad).
Proof.
  intros Hfit. destruct (@cat_loop_ok pl Hfit pl 0 [] eq_refl (@nth_pl pl) (fun x Hx => Hx)) as (out & E & L & _ & V & G).
  { reflexivity. } { intros ->. unfold cat_end. cbn [length start]. rewrite (rnd_0 Hlen). reflexivity. }
  exists out. split; [exact E|]. split; [exact L|]. split.
  - intros t i j k Et Hk. pose proof (nth_error_nth _ _ (0, 0) Et) as En. rewrite V.
    + rewrite En. reflexivity.
    + pose proof (nth_error_Some_lt _ _ Et). lia.
    + unfold npl. rewrite En. exact Hk.
  - intros q Hq Hg. apply G; [cbn; rewrite <- L; lia|]. intros u Hu. apply Hg. lia.
Qed.

Lemma nth_map_seq t k : t < k -> nth t (map (fun i => (i, 0)) (seq 0 k)) (0, 0) = (t, 0).
Proof.
  intros H. transitivity ((fun i => (i, 0)) (nth t (seq 0 k) 0)); [exact (map_nth (fun i => (i, 0)) (seq 0 k) 0 t)|].
  rewrite seq_nth by exact H. reflexivity.
Qed.

(** Size computed in batches. *)
Lemma psum_nsum (np : nat -> nat) b k : psum np b k = nsum (map np (seq b k)).
Proof.
  induction k as [|k IH]; [reflexivity|]. rewrite seq_S, map_app, nsum_app. cbn [psum]. rewrite IH. cbn. lia.
Qed.
Lemma cs_alloc_loop_ok (np := fun i => m_np (ins i) 0) : forall fuel b, nm <= b * nss + fuel * nss ->
  cs_alloc_loop fuel (b * nss) (start len nss np (b * nss)) =
  (if b * nss <? nm then rnd len (start len nss np nm) else start len nss np (b * nss)).
Proof.
  induction fuel as [|f IH]; intros b Hb; cbn [cs_alloc_loop].
  - destruct (Nat.ltb_spec (b * nss) nm); [lia|reflexivity].
  - destruct (Nat.ltb_spec (b * nss) nm) as [L|L]; [|reflexivity].
    assert (D : Nat.divide len (start len nss np (b * nss))) by apply (@start_divide len nss Hlen Hnss).
    rewrite <- (rnd_add_l Hlen) by exact D. rewrite <- psum_nsum. replace (b * nss + nss) with (S b * nss) by (simpl; lia).
    destruct (Nat.ltb_spec nm (S b * nss)) as [L2|L2].
    + assert (HN : start len nss np nm = start len nss np (b * nss) + psum np (b * nss) (nm - b * nss)).
      { replace nm with (b * nss + (nm - b * nss)) at 1 by lia. apply (@start_in len nss Hlen Hnss). simpl in L2; lia. }
      destruct f as [|f].
      * cbn [cs_alloc_loop]. rewrite HN. reflexivity.
      * cbn [cs_alloc_loop]. destruct (Nat.ltb_spec (S b * nss) nm); [lia|]. rewrite HN. reflexivity.
    + replace (S b * nss - b * nss) with nss by (simpl; lia).
      rewrite <- (@start_next len nss Hlen Hnss). rewrite IH by (simpl in *; lia).
      destruct (Nat.ltb_spec (S b * nss) nm) as [L3|L3]; [reflexivity|].
      assert (nm = S b * nss) by lia. rewrite H.
      pose proof (@start_divide len nss Hlen Hnss np (S b)) as D2. symmetry. apply (rnd_id Hlen D2).
Qed.
Theorem cs_alloc_ok : cs_alloc = rnd len (start len nss (fun i => m_np (ins i) 0) nm).
Proof.
  unfold cs_alloc. change 0 with (0 * nss) at 1. change 0 with (start len nss (fun i => m_np (ins i) 0) (0 * nss)).
  rewrite cs_alloc_loop_ok by nia. destruct (Nat.ltb_spec (0 * nss) nm); [reflexivity|].
  assert (E : nm = 0) by lia. rewrite E. cbn [length start]. rewrite ?(rnd_0 Hlen). reflexivity.
Qed.

Lemma cat_nprim_sum old : cat_nprim old = old + nsum (map (fun i => m_nprim (ins i)) (seq 0 nm)).
Proof.
  unfold cat_nprim. generalize (seq 0 nm) as l. intros l. revert old. induction l as [|i l IH]; intros old; cbn; [lia|]. rewrite IH. lia.
Qed.

(** One shell pair per input: both routines give what filling gives, the primitives of input [t] at
    the position of shell pair [t]. *)
Definition single : Prop := forall i, i < nm -> m_n (ins i) = 1 /\ m_np (ins i) 0 <= length (m_arr (ins i)).
Lemma cat_pairs_single : single -> cat_pairs = map (fun i => (i, 0)) (seq 0 nm).
Proof.
  intros H. unfold cat_pairs. assert (G : forall l, (forall i, In i l -> m_n (ins i) = 1) ->
    flat_map (fun i => map (pair i) (seq 0 (m_n (ins i)))) l = map (fun i => (i, 0)) l).
  { induction l as [|i l IH]; intros Hl; [reflexivity|]. cbn [flat_map map]. rewrite (Hl i (or_introl eq_refl)).
    rewrite IH by (intros k Hk; apply Hl; right; exact Hk). reflexivity. }
  apply G. intros i Hi. apply in_seq in Hi. apply H. lia.
Qed.
Lemma start_ext (f g : nat -> nat) k : (forall t, t < k -> f t = g t) -> start len nss f k = start len nss g k.
Proof.
  induction k as [|k IH]; intros H; [reflexivity|]. cbn [start]. rewrite IH by (intros t Ht; apply H; lia). rewrite (H k) by lia. reflexivity.
Qed.
Theorem cat_single : single ->
  exists out, cat_multi = Some out /\ cat_shellpairs = Some out /\ length out = cat_alloc /\ cs_alloc = cat_alloc /\
    let st := start len nss (fun i => m_np (ins i) 0) in
    (forall t k, t < nm -> k < m_np (ins t) 0 -> nth_error out (st t + k) = nth_error (m_arr (ins t)) k) /\
    (forall q, q < length out -> (forall t, t < nm -> ~ (st t <= q < st t + m_np (ins t) 0)) -> nth_error out q = Some pad).
Proof.
  intros H. pose proof (cat_pairs_single H) as EP. set (pl := map (fun i => (i, 0)) (seq 0 nm)) in *.
  assert (Ln : length pl = nm) by (unfold pl; rewrite map_length, seq_length; reflexivity).
  assert (Hnp : forall t, t < nm -> npl pl t = m_np (ins t) 0) by (intros t Ht; unfold npl, pl; rewrite nth_map_seq by exact Ht; reflexivity).
  assert (Hst : forall t, t <= nm -> start len nss (npl pl) t = start len nss (fun i => m_np (ins i) 0) t).
  { intros t Ht. apply start_ext. intros u Hu. apply Hnp. lia. }
  destruct (@cat_loop_all pl) as (out & E & L & V & G).
  { intros [i j] Hi. unfold pl in Hi. apply in_map_iff in Hi as [k [Ek Hk]]. injection Ek as <- <-. apply in_seq in Hk. apply (H k). lia. }
  exists out. unfold cat_multi, cat_alloc. rewrite EP. split; [exact E|].
  split; [unfold cat_shellpairs; fold pl; rewrite <- Ln at 1; exact E|].
  split; [rewrite cat_alloc_ok; exact L|]. split.
  - rewrite cs_alloc_ok, cat_alloc_ok. unfold cat_end. rewrite Ln, Hst by lia. reflexivity.
  - cbv zeta. split.
    + intros t k Ht Hk. rewrite <- Hst by lia. apply (V t t 0 k); [|exact Hk].
      unfold pl. rewrite nth_error_map, nth_error_seq by exact Ht. reflexivity.
    + intros q Hq Hg. apply G; [exact Hq|]. rewrite Ln. intros t Ht. rewrite Hst, Hnp by lia. apply Hg, Ht.
Qed.
(** In general: shell pair [j] of input [i] gets the first primitives of input [i]. *)
Theorem cat_multi_general : (forall i j, i < nm -> j < m_n (ins i) -> m_np (ins i) j <= length (m_arr (ins i))) ->
  exists out, cat_multi = Some out /\ length out = cat_alloc /\
    forall t i j k, nth_error cat_pairs t = Some (i, j) -> k < m_np (ins i) j ->
      nth_error out (start len nss (npl cat_pairs) t + k) = nth_error (m_arr (ins i)) k.
Proof.
  intros H. destruct (@cat_loop_all cat_pairs) as (out & E & L & V & _).
  { intros [i j] Hi. apply in_flat_map in Hi as [i' [Hi Hj]]. apply in_seq in Hi. apply in_map_iff in Hj as [j' [Ej Hj]]. injection Ej as <- <-. apply in_seq in Hj.
    apply (H i' j'); lia. }
  exists out. split; [exact E|]. split; [unfold cat_alloc; rewrite cat_alloc_ok; exact L|]. exact V.
Qed.
End Cat.

(** One input with two shell pairs of one primitive each (vector length 4): the second pair is
    a copy of the first. *)
Definition ex_in : mpair nat := MPair 2 (fun _ => 1) [7; 8; 0; 0] 2.
Example cat_wrong : cat_multi 4 8 0 (fun _ => ex_in) 1 = Some [7; 7; 0; 0].
Proof. reflexivity. Qed.
Example cat_right : cat_multi 4 8 0 (fun i => MPair 1 (fun _ => S i) [7 + i; 9; 0; 0] (S i)) 2 = Some [7; 8; 9; 0].
Proof. reflexivity. Qed.
