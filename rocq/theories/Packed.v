(** The packed storage of the integrals of one molecule, as the second example of the library fills it.
    Source: skel/examples/example_packed.c.

    Arrays are lists of optional values as in OneE.v: [None] as a content is an indeterminate element, [None] as a
    result an access outside an array or the use of an indeterminate element.  The example has five fixed shells;
    here the number of shells and of functions in each shell is arbitrary.  The computation of one shell quartet
    (example_packed.c:148, 158, 167) is a function given from outside that fills the intermediate buffer.  The
    number of integrals, which is only printed, is left out. *)
From Coq Require Import List Arith Lia Bool ZArith.
Import ListNotations.
From Verif Require Import Base Cart PairData Deriv OneE OneEProof.
Set Implicit Arguments.
Local Open Scope nat_scope.

(** ** Model *)
(** [(i*(i+1))/2], example_packed.c:145, 154, 188-190. *)
Definition tri (n : nat) : nat := n * (n + 1) / 2.
(** [a < b ? (b*(b+1))/2 + a : (a*(a+1))/2 + b], example_packed.c:188, 189, 190. *)
Definition pair_idx (a b : nat) : nat := if a <? b then tri b + a else tri a + b.
(** [mnop_idx], example_packed.c:188-190. *)
Definition quad_idx (m n o p : nat) : nat := pair_idx (pair_idx m n) (pair_idx o p).

Section Packed.
Context {R : cring}.
Local Notation mem := (list (option R)).
Local Notation "x <- e ;; f" := (match e with Some x => f | None => None end)
  (at level 60, e at next level, right associativity).

(** [shell_start] and [shell_nbf] (:90-91), and the call of [simint_compute_eri] for shells [i j k l] (:167). *)
Variables (start nbf : nat -> nat) (call : nat -> nat -> nat -> nat -> mem -> option mem).

(** The four inner loops, example_packed.c:174-195: [target_idx] and the final storage. *)
Definition scatter (i j k l : nat) (target : mem) (st : nat * mem) : option (nat * mem) :=
  loopM (fun m => loopM (fun n => loopM (fun o => loopM (fun p (s : nat * mem) =>
    let (t, ints) := s in
    v <- rdv target t ;;
    w <- wr ints (quad_idx (start i + m) (start j + n) (start k + o) (start l + p)) v ;;
    Some (t + 1, w))
    (seq 0 (nbf l))) (seq 0 (nbf k))) (seq 0 (nbf j))) (seq 0 (nbf i)) st.

(** The state of the program: the number of shell quartets, the intermediate buffer, the final storage. *)
Record pstate := PS { ps_count : nat; ps_target : mem; ps_ints : mem }.

(** One pass of the loops over [k] and [l], example_packed.c:151-196. *)
Definition one_quartet (i j k l : nat) (s : pstate) : option pstate :=
  if tri i + j <? tri k + l then Some s
  else t <- call i j k l (ps_target s) ;; r <- scatter i j k l t (0, ps_ints s) ;;
       Some (PS (ps_count s + 1) t (snd r)).

(** All four loops, example_packed.c:142-197. *)
Definition packed_main (nshell : nat) (s : pstate) : option pstate :=
  loopM (fun i => loopM (fun j =>
    loopM (fun k => loopM (fun l => one_quartet i j k l) (seq 0 (k + 1))) (seq 0 nshell))
    (seq 0 (i + 1))) (seq 0 nshell) s.
End Packed.

(** ** The index *)
Lemma tri_S n : tri (S n) = tri n + S n.
Proof.
  unfold tri. replace (S n * (S n + 1)) with (n * (n + 1) + S n * 2) by ring.
  rewrite Nat.div_add by lia. lia.
Qed.
Lemma tri_0 : tri 0 = 0. Proof. reflexivity. Qed.
Lemma tri_mono a b : a <= b -> tri a <= tri b.
Proof. induction 1; [lia|]. rewrite tri_S. lia. Qed.
Lemma tri_lt a b : a < b -> tri a + a < tri b.
Proof. intros H. pose proof (@tri_mono (S a) b H) as K. rewrite tri_S in K. lia. Qed.

Lemma pair_idx_sym a b : pair_idx a b = pair_idx b a.
Proof. unfold pair_idx. destruct (Nat.ltb_spec a b), (Nat.ltb_spec b a); try lia. replace a with b by lia. lia. Qed.
Lemma pair_idx_ge a b : b <= a -> pair_idx a b = tri a + b.
Proof. intros H. unfold pair_idx. destruct (Nat.ltb_spec a b); lia. Qed.
Lemma pair_idx_lt a b n : a < n -> b < n -> pair_idx a b < tri n.
Proof.
  intros Ha Hb. unfold pair_idx. destruct (Nat.ltb_spec a b).
  - pose proof (tri_lt Hb). lia.
  - pose proof (tri_lt Ha). lia.
Qed.
Lemma ord_inj a b c d : b <= a -> d <= c -> tri a + b = tri c + d -> a = c /\ b = d.
Proof.
  intros H1 H2 E. destruct (Nat.lt_trichotomy a c) as [L|[->|L]].
  - pose proof (tri_lt L). lia.
  - lia.
  - pose proof (tri_lt L). lia.
Qed.
Lemma pair_idx_inj a b c d : pair_idx a b = pair_idx c d -> (a = c /\ b = d) \/ (a = d /\ b = c).
Proof.
  unfold pair_idx. intros E. destruct (Nat.ltb_spec a b), (Nat.ltb_spec c d).
  - destruct (ord_inj (a := b) (b := a) (c := d) (d := c)); lia.
  - destruct (ord_inj (a := b) (b := a) (c := c) (d := d)); lia.
  - destruct (ord_inj (a := a) (b := b) (c := d) (d := c)); lia.
  - destruct (ord_inj (a := a) (b := b) (c := c) (d := d)); lia.
Qed.
Lemma pair_idx_onto n : forall c, c < tri n -> exists a b, a < n /\ b <= a /\ pair_idx a b = c.
Proof.
  induction n as [|n IH]; intros c Hc; [rewrite tri_0 in Hc; lia|].
  rewrite tri_S in Hc. destruct (Nat.lt_ge_cases c (tri n)) as [L|L].
  - destruct (IH c L) as (a & b & H1 & H2 & H3). exists a, b. repeat split; [lia|exact H2|exact H3].
  - exists n, (c - tri n). repeat split; [lia|lia|]. rewrite pair_idx_ge by lia. lia.
Qed.

(** ** Specification: two quartets are the same if one is the other after a permutation of the integral *)
Inductive same_quartet : nat * nat * nat * nat -> nat * nat * nat * nat -> Prop :=
  | sq_same q : same_quartet q q
  | sq_12 m n o p q : same_quartet (n, m, o, p) q -> same_quartet (m, n, o, p) q
  | sq_34 m n o p q : same_quartet (m, n, p, o) q -> same_quartet (m, n, o, p) q
  | sq_sw m n o p q : same_quartet (o, p, m, n) q -> same_quartet (m, n, o, p) q.

Lemma index_class m n o p m' n' o' p' :
  quad_idx m n o p = quad_idx m' n' o' p' <-> same_quartet (m, n, o, p) (m', n', o', p').
Proof.
  split.
  - unfold quad_idx. intros E.
    destruct (pair_idx_inj _ _ _ _ E) as [[E1 E2]|[E1 E2]];
      destruct (pair_idx_inj _ _ _ _ E1) as [[-> ->]|[-> ->]];
      destruct (pair_idx_inj _ _ _ _ E2) as [[-> ->]|[-> ->]];
      eauto 6 using same_quartet.
  - remember (m, n, o, p) as x. remember (m', n', o', p') as y. intros H. revert m n o p Heqx m' n' o' p' Heqy.
    induction H as [q|m n o p q _ IH|m n o p q _ IH|m n o p q _ IH]; intros a b c d Ex a' b' c' d' Ey.
    + subst q. injection Ey as -> -> -> ->. reflexivity.
    + injection Ex as <- <- <- <-. rewrite <- (IH _ _ _ _ eq_refl _ _ _ _ Ey). unfold quad_idx. f_equal. apply pair_idx_sym.
    + injection Ex as <- <- <- <-. rewrite <- (IH _ _ _ _ eq_refl _ _ _ _ Ey). unfold quad_idx. f_equal. apply pair_idx_sym.
    + injection Ex as <- <- <- <-. rewrite <- (IH _ _ _ _ eq_refl _ _ _ _ Ey). apply pair_idx_sym.
Qed.
Lemma index_range n m o p N : m < N -> n < N -> o < N -> p < N -> 8 * quad_idx m n o p < N * (N + 1) * (N * (N + 1) + 2).
Proof.
  intros. assert (Q : quad_idx m n o p < tri (tri N)) by (apply pair_idx_lt; apply pair_idx_lt; assumption).
  assert (D : forall k, 2 * tri k = k * (k + 1)).
  { induction k as [|k IH]; [reflexivity|]. rewrite tri_S. lia. }
  pose proof (D N). pose proof (D (tri N)). nia.
Qed.
Lemma index_onto N c : 8 * c < N * (N + 1) * (N * (N + 1) + 2) ->
  exists m n o p, m < N /\ n < N /\ o < N /\ p < N /\ quad_idx m n o p = c.
Proof.
  intros Hc. assert (D : forall k, 2 * tri k = k * (k + 1)).
  { induction k as [|k IH]; [reflexivity|]. rewrite tri_S. lia. }
  assert (Q : c < tri (tri N)) by (pose proof (D N); pose proof (D (tri N)); nia).
  destruct (@pair_idx_onto (tri N) c Q) as (a & b & Ha & Hb & <-).
  destruct (@pair_idx_onto N a Ha) as (m & n & Hm & Hn & <-).
  destruct (@pair_idx_onto N b ltac:(lia)) as (o & p & Ho & Hp & <-).
  exists m, n, o, p. repeat split; lia.
Qed.

Lemma index_all N :
  (forall m n o p, m < N -> n < N -> o < N -> p < N -> 8 * quad_idx m n o p < N * (N + 1) * (N * (N + 1) + 2)) /\
  (forall c, 8 * c < N * (N + 1) * (N * (N + 1) + 2) ->
     exists m n o p, m < N /\ n < N /\ o < N /\ p < N /\ quad_idx m n o p = c) /\
  (forall m n o p m' n' o' p',
     quad_idx m n o p = quad_idx m' n' o' p' <-> same_quartet (m, n, o, p) (m', n', o', p')).
Proof.
  split; [intros; apply index_range; assumption|]. split; [intros c; apply index_onto|]. exact index_class.
Qed.

(** ** The loops *)
Section Proof.
Context {R : cring}.
Local Notation mem := (list (option R)).
Variables (start nbf : nat -> nat) (call : nat -> nat -> nat -> nat -> mem -> option mem).
Variables (nshell tlen : nat).
(** The integrals, with the eight permutations of the indices. *)
Variable v : nat -> nat -> nat -> nat -> R.
Hypothesis start_0 : start 0 = 0.
Hypothesis start_S : forall i, i < nshell -> start (S i) = start i + nbf i.
Let N := start nshell.
Hypothesis v_12 : forall m n o p, v m n o p = v n m o p.
Hypothesis v_34 : forall m n o p, v m n o p = v m n p o.
Hypothesis v_sw : forall m n o p, v m n o p = v o p m n.
Hypothesis call_ok : forall i j k l t, i < nshell -> j < nshell -> k < nshell -> l < nshell -> length t = tlen ->
  exists t', call i j k l t = Some t' /\ length t' = tlen /\
  forall m n o p, m < nbf i -> n < nbf j -> o < nbf k -> p < nbf l ->
    rdv t' (((m * nbf j + n) * nbf k + o) * nbf l + p) = Some (v (start i + m) (start j + n) (start k + o) (start l + p)).

Lemma v_class m n o p m' n' o' p' : quad_idx m n o p = quad_idx m' n' o' p' -> v m n o p = v m' n' o' p'.
Proof.
  unfold quad_idx. intros E.
  destruct (pair_idx_inj _ _ _ _ E) as [[E1 E2]|[E1 E2]];
    destruct (pair_idx_inj _ _ _ _ E1) as [[-> ->]|[-> ->]];
    destruct (pair_idx_inj _ _ _ _ E2) as [[-> ->]|[-> ->]]; try reflexivity.
  - apply v_34.
  - apply v_12.
  - rewrite v_12. apply v_34.
  - apply v_sw.
  - rewrite v_sw. apply v_12.
  - rewrite v_sw. apply v_34.
  - rewrite v_sw, v_12. apply v_34.
Qed.

(** What is written is right. *)
Definition good (g : mem) : Prop :=
  forall c x, rdv g c = Some x -> forall m n o p, quad_idx m n o p = c -> x = v m n o p.
Definition written (g : mem) (c : nat) : Prop := rdv g c <> None.

Lemma write_ok (g : mem) c m n o p : length g = tri (tri N) -> good g -> c < tri (tri N) -> quad_idx m n o p = c ->
  exists g', wr g c (v m n o p) = Some g' /\ length g' = tri (tri N) /\ good g' /\ written g' c /\
  (forall d, written g d -> written g' d).
Proof.
  intros HL HG Hc E. destruct (@wr_put R g c (v m n o p)) as [g' [W [L [V O]]]]; [lia|].
  exists g'. split; [exact W|]. split; [lia|]. split; [|split].
  - intros d x Hx m' n' o' p' E'. destruct (Nat.eq_dec d c) as [->|D].
    + rewrite V in Hx. injection Hx as <-. apply v_class. congruence.
    + unfold rdv in Hx. rewrite (O d D) in Hx. exact (HG d x Hx m' n' o' p' E').
  - unfold written. rewrite V. discriminate.
  - intros d Hd. destruct (Nat.eq_dec d c) as [->|D]; [unfold written; rewrite V; discriminate|].
    unfold written, rdv in *. rewrite (O d D). exact Hd.
Qed.

Lemma start_mono i : forall j, i <= j -> j <= nshell -> start i <= start j.
Proof. intros j H. induction H; intros Hj; [lia|]. rewrite start_S by lia. specialize (IHle ltac:(lia)). lia. Qed.
Lemma start_in i m : i < nshell -> m < nbf i -> start i + m < N.
Proof.
  intros Hi Hm. unfold N. pose proof (start_S Hi) as E.
  pose proof (@start_mono (S i) nshell ltac:(lia) ltac:(lia)). lia.
Qed.
(** Every function belongs to a shell. *)
Lemma start_find x : forall k, k <= nshell -> x < start k -> exists i m, i < k /\ m < nbf i /\ x = start i + m.
Proof.
  induction k as [|k IH]; intros Hk Hx; [rewrite start_0 in Hx; lia|].
  destruct (Nat.lt_ge_cases x (start k)) as [L|L].
  - destruct (IH ltac:(lia) L) as (i & m & H1 & H2 & H3). exists i, m. repeat split; [lia|exact H2|exact H3].
  - rewrite start_S in Hx by lia. exists k, (x - start k). repeat split; lia.
Qed.

(** The state of the inner loops: the counter, and the cells written so far. *)
Lemma scatter_ok i j k l t (g : mem) : i < nshell -> j < nshell -> k < nshell -> l < nshell ->
  (forall m n o p, m < nbf i -> n < nbf j -> o < nbf k -> p < nbf l ->
    rdv t (((m * nbf j + n) * nbf k + o) * nbf l + p) = Some (v (start i + m) (start j + n) (start k + o) (start l + p))) ->
  length g = tri (tri N) -> good g ->
  exists r, scatter start nbf i j k l t (0, g) = Some r /\ length (snd r) = tri (tri N) /\ good (snd r) /\
  (forall d, written g d -> written (snd r) d) /\
  forall m n o p, m < nbf i -> n < nbf j -> o < nbf k -> p < nbf l ->
    written (snd r) (quad_idx (start i + m) (start j + n) (start k + o) (start l + p)).
Proof.
  intros Hi Hj Hk Hl HT HL HG. unfold scatter.
  set (qi := fun m n o p => quad_idx (start i + m) (start j + n) (start k + o) (start l + p)).
  set (I := fun (S : nat -> nat -> nat -> nat -> Prop) (c : nat) (r : nat * mem) =>
    fst r = c /\ length (snd r) = tri (tri N) /\ good (snd r) /\ (forall d, written g d -> written (snd r) d) /\
    forall m n o p, m < nbf i -> n < nbf j -> o < nbf k -> p < nbf l -> S m n o p -> written (snd r) (qi m n o p)).
  match goal with |- exists zz, loopM ?f (seq 0 ?cnt) ?x = _ /\ _ =>
    destruct (@loopM_ok (nat * mem) (fun a => I (fun m n o p => m < a) (a * nbf j * nbf k * nbf l)) f cnt 0 x)
      as [r [E (_ & A & B & C & D)]] end.
  - unfold I. simpl. split; [reflexivity|]. split; [exact HL|]. split; [exact HG|]. split; [auto|]. intros; lia.
  - intros m r Hm IH.
    match goal with |- exists zz, loopM ?f (seq 0 ?cnt) ?x = _ /\ _ =>
      destruct (@loopM_ok (nat * mem) (fun a => I (fun m' n o p => m' < m \/ (m' = m /\ n < a)) ((m * nbf j + a) * nbf k * nbf l)) f cnt 0 x)
        as [r' [E (K0 & A & B & C & D)]] end.
    + destruct IH as (K0 & A & B & C & D). unfold I. split; [rewrite K0; ring|]. repeat (split; [assumption|]).
      intros m' n' o' p' ? ? ? ? [?|[_ ?]]; [apply D; assumption|lia].
    + intros n r1 Hn IH1.
      match goal with |- exists zz, loopM ?f (seq 0 ?cnt) ?x = _ /\ _ =>
        destruct (@loopM_ok (nat * mem) (fun a => I (fun m' n' o p => m' < m \/ (m' = m /\ n' < n) \/ (m' = m /\ n' = n /\ o < a))
          (((m * nbf j + n) * nbf k + a) * nbf l)) f cnt 0 x)
          as [r2 [E (K0 & A & B & C & D)]] end.
      * destruct IH1 as (K0 & A & B & C & D). unfold I. split; [rewrite K0; ring|]. repeat (split; [assumption|]).
        intros m' n' o' p' ? ? ? ? [?|[[? ?]|[? [? ?]]]]; [apply D; try assumption; left; assumption
          |apply D; try assumption; right; split; assumption|lia].
      * intros o r2 Ho IH2.
        match goal with |- exists zz, loopM ?f (seq 0 ?cnt) ?x = _ /\ _ =>
          destruct (@loopM_ok (nat * mem) (fun a => I (fun m' n' o' p => m' < m \/ (m' = m /\ n' < n) \/ (m' = m /\ n' = n /\ o' < o)
              \/ (m' = m /\ n' = n /\ o' = o /\ p < a))
            (((m * nbf j + n) * nbf k + o) * nbf l + a)) f cnt 0 x)
            as [r3 [E (K0 & A & B & C & D)]] end.
        { destruct IH2 as (K0 & A & B & C & D). unfold I. split; [rewrite K0; ring|]. repeat (split; [assumption|]).
          intros m' n' o' p' ? ? ? ? Q. apply D; try assumption.
          destruct Q as [?|[?|[?|[? [? [? ?]]]]]]; [left; assumption|right; left; assumption|right; right; assumption|lia]. }
        { intros p [c w] Hp (K0 & A & B & C & D). simpl in K0, A, B, C, D. subst c.
          rewrite (HT m n o p) by lia.
          assert (QL : qi m n o p < tri (tri N)).
          { unfold qi, quad_idx. apply pair_idx_lt; apply pair_idx_lt; apply start_in; lia. }
          destruct (write_ok (start i + m) (start j + n) (start k + o) (start l + p) A B QL eq_refl)
            as (w' & W & L' & G' & W1 & W2).
          unfold qi in W. rewrite W. eexists. split; [reflexivity|].
          split; [simpl; ring|]. simpl. split; [exact L'|]. split; [exact G'|]. split; [intros d Hd; apply W2, C, Hd|].
          intros m' n' o' p' ? ? ? ? Q.
          assert (T : (m' < m \/ (m' = m /\ n' < n) \/ (m' = m /\ n' = n /\ o' < o) \/ (m' = m /\ n' = n /\ o' = o /\ p' < p))
                      \/ (m' = m /\ n' = n /\ o' = o /\ p' = p)) by lia.
          destruct T as [T|(-> & -> & -> & ->)]; [apply W2, D; assumption|exact W1]. }
        { exists r3. split; [exact E|]. unfold I. split; [rewrite K0; ring|]. repeat (split; [assumption|]).
          intros m' n' o' p' ? ? ? ? Q. apply D; try assumption. lia. }
      * exists r2. split; [exact E|]. unfold I. split; [rewrite K0; ring|]. repeat (split; [assumption|]).
        intros m' n' o' p' ? ? ? ? Q. apply D; try assumption. lia.
    + exists r'. split; [exact E|]. unfold I. split; [rewrite K0; ring|]. repeat (split; [assumption|]).
      intros m' n' o' p' ? ? ? ? Q. apply D; try assumption. lia.
  - exists r. split; [exact E|]. split; [exact A|]. split; [exact B|]. split; [exact C|].
    intros. apply D; assumption || lia.
Qed.

(** The outer loops. *)
Definition visited (s : pstate) (i j k l : nat) : Prop :=
  forall m n o p, m < nbf i -> n < nbf j -> o < nbf k -> p < nbf l ->
    written (ps_ints s) (quad_idx (start i + m) (start j + n) (start k + o) (start l + p)).
Definition J (c : nat) (S : nat -> nat -> nat -> nat -> Prop) (s : @pstate R) : Prop :=
  ps_count s = c /\ length (ps_target s) = tlen /\ length (ps_ints s) = tri (tri N) /\ good (ps_ints s) /\
  forall i j k l, i < nshell -> j <= i -> k < nshell -> l <= k -> tri k + l <= tri i + j -> S i j k l -> visited s i j k l.

Lemma J_weak c c' (S S' : nat -> nat -> nat -> nat -> Prop) s : c = c' ->
  (forall i j k l, i < nshell -> j <= i -> k < nshell -> l <= k -> tri k + l <= tri i + j -> S' i j k l -> S i j k l) ->
  J c S s -> J c' S' s.
Proof.
  intros -> HS (A & B & C & D & E). repeat (split; [assumption|]). intros. apply E; try assumption. apply HS; assumption.
Qed.

Lemma quartet_ok i j k l c S s : i < nshell -> j <= i -> k < nshell -> l <= k -> J c S s ->
  exists s', one_quartet start nbf call i j k l s = Some s' /\
    J (if tri i + j <? tri k + l then c else c + 1) (fun a b d e => S a b d e \/ (a = i /\ b = j /\ d = k /\ e = l)) s'.
Proof.
  intros Hi Hj Hk Hl (A & B & C & D & E). unfold one_quartet. destruct (Nat.ltb_spec (tri i + j) (tri k + l)) as [L|L].
  - exists s. split; [reflexivity|]. repeat (split; [assumption|]).
    intros a b d e ? ? ? ? ? [?|(-> & -> & -> & ->)]; [apply E; assumption|lia].
  - destruct (call_ok (i := i) (j := j) (k := k) (l := l) (ps_target s)) as (t & -> & Lt & HT); try lia; [].
    destruct (@scatter_ok i j k l t (ps_ints s)) as (r & -> & L1 & G1 & W1 & W2); try lia; try assumption; [].
    eexists. split; [reflexivity|]. split; [simpl; lia|]. split; [exact Lt|]. split; [exact L1|]. split; [exact G1|].
    intros a b d e ? ? ? ? ? [Q|(-> & -> & -> & ->)].
    + intros m n o p ? ? ? ?. simpl. apply W1. apply E; assumption.
    + intros m n o p ? ? ? ?. simpl. apply W2; assumption.
Qed.

Lemma main_ok s : length (ps_target s) = tlen -> length (ps_ints s) = tri (tri N) -> good (ps_ints s) -> ps_count s = 0 ->
  exists s', packed_main start nbf call nshell s = Some s' /\ J (tri (tri nshell)) (fun _ _ _ _ => True) s'.
Proof.
  intros HT HI HG H0. unfold packed_main.
  match goal with |- exists zz, loopM ?f (seq 0 ?cnt) ?x = _ /\ _ =>
    destruct (@loopM_ok _ (fun a => J (tri (tri a)) (fun i j k l => i < a)) f cnt 0 x) as [r [E K]] end.
  - split; [exact H0|]. repeat (split; [assumption|]). intros; lia.
  - intros i s1 Hi K.
    match goal with |- exists zz, loopM ?f (seq 0 ?cnt) ?x = _ /\ _ =>
      destruct (@loopM_ok _ (fun a => J (tri (tri i + a)) (fun i' j k l => i' < i \/ (i' = i /\ j < a))) f cnt 0 x) as [r [E K']] end.
    + refine (J_weak _ _ _ K); [f_equal; lia|]. intros. lia.
    + intros j s2 Hj K2.
      match goal with |- exists zz, loopM ?f (seq 0 ?cnt) ?x = _ /\ _ =>
        destruct (@loopM_ok _ (fun a => J (tri (tri i + j) + Nat.min (tri a) (tri i + j + 1))
          (fun i' j' k l => i' < i \/ (i' = i /\ j' < j) \/ (i' = i /\ j' = j /\ k < a))) f cnt 0 x) as [r [E K']] end.
      * refine (J_weak _ _ _ K2); [rewrite tri_0; lia|]. intros. lia.
      * intros k s3 Hk K3.
        match goal with |- exists zz, loopM ?f (seq 0 ?cnt) ?x = _ /\ _ =>
          destruct (@loopM_ok _ (fun a => J (tri (tri i + j) + Nat.min (tri k + a) (tri i + j + 1))
            (fun i' j' k' l => i' < i \/ (i' = i /\ j' < j) \/ (i' = i /\ j' = j /\ k' < k) \/ (i' = i /\ j' = j /\ k' = k /\ l < a)))
            f cnt 0 x) as [r [E K']] end.
        { refine (J_weak _ _ _ K3); [f_equal; f_equal; lia|]. intros. lia. }
        { intros l s4 Hl K4.
          destruct (@quartet_ok i j k l _ _ s4 ltac:(lia) ltac:(lia) ltac:(lia) ltac:(lia) K4) as (s' & E & K5).
          exists s'. split; [exact E|]. refine (J_weak _ _ _ K5).
          - destruct (Nat.ltb_spec (tri i + j) (tri k + l)); lia.
          - intros. lia. }
        { exists r. split; [exact E|]. refine (J_weak _ _ _ K').
          - rewrite tri_S. do 2 f_equal. lia.
          - intros. lia. }
      * exists r. split; [exact E|]. refine (J_weak _ _ _ K').
        -- replace (tri i + S j) with (S (tri i + j)) by lia. rewrite tri_S.
           pose proof (@tri_lt i nshell ltac:(lia)). simpl Nat.add. lia.
        -- intros. lia.
    + exists r. split; [exact E|]. refine (J_weak _ _ _ K').
      * rewrite tri_S. do 2 f_equal. lia.
      * intros. lia.
  - exists r. split; [exact E|]. refine (J_weak _ _ _ K); [reflexivity|]. intros. lia.
Qed.

(** Every integral is where its index says, and no cell is left over. *)
Theorem packed_ok s : length (ps_target s) = tlen -> length (ps_ints s) = tri (tri N) ->
  ps_ints s = repeat None (tri (tri N)) -> ps_count s = 0 ->
  exists s', packed_main start nbf call nshell s = Some s' /\ ps_count s' = tri (tri nshell) /\
  length (ps_ints s') = tri (tri N) /\
  (forall m n o p, m < N -> n < N -> o < N -> p < N -> rdv (ps_ints s') (quad_idx m n o p) = Some (v m n o p)) /\
  (forall c, c < tri (tri N) -> rdv (ps_ints s') c <> None).
Proof.
  intros HT HI HR H0.
  assert (HG : good (ps_ints s)).
  { intros c x Hx. exfalso. rewrite HR in Hx. unfold rdv in Hx. destruct (nth_error (repeat None (tri (tri N))) c) eqn:Ee; [|discriminate].
    apply nth_error_In in Ee. apply repeat_spec in Ee. congruence. }
  destruct (@main_ok s HT HI HG H0) as (s' & E & (A & B & C & D & F)).
  exists s'. split; [exact E|]. split; [exact A|]. split; [exact C|].
  assert (W : forall m n o p, m < N -> n < N -> o < N -> p < N -> written (ps_ints s') (quad_idx m n o p)).
  { (* first the ordered quartets of shells *)
    assert (W0 : forall i j k l m n o p, i < nshell -> j <= i -> k < nshell -> l <= k -> m < nbf i -> n < nbf j -> o < nbf k ->
      p < nbf l -> written (ps_ints s') (quad_idx (start i + m) (start j + n) (start k + o) (start l + p))).
    { intros. destruct (Nat.le_gt_cases (tri k + l) (tri i + j)) as [L|L].
      - apply F; try assumption; exact Logic.I.
      - replace (quad_idx (start i + m) (start j + n) (start k + o) (start l + p))
          with (quad_idx (start k + o) (start l + p) (start i + m) (start j + n)) by (apply pair_idx_sym).
        apply F; try assumption; try lia; exact Logic.I. }
    assert (W1 : forall i j k l m n o p, i < nshell -> j < nshell -> k < nshell -> l <= k -> m < nbf i -> n < nbf j -> o < nbf k ->
      p < nbf l -> written (ps_ints s') (quad_idx (start i + m) (start j + n) (start k + o) (start l + p))).
    { intros. destruct (Nat.le_gt_cases j i) as [L|L]; [apply W0; assumption|].
      unfold quad_idx. rewrite (pair_idx_sym (start i + m)). apply W0; try assumption; lia. }
    intros m n o p Hm Hn Ho Hp. unfold N in *.
    destruct (@start_find m nshell (Nat.le_refl _) Hm) as (i & m' & Hi & Hm' & ->).
    destruct (@start_find n nshell (Nat.le_refl _) Hn) as (j & n' & Hj & Hn' & ->).
    destruct (@start_find o nshell (Nat.le_refl _) Ho) as (k & o' & Hk & Ho' & ->).
    destruct (@start_find p nshell (Nat.le_refl _) Hp) as (l & p' & Hl & Hp' & ->).
    destruct (Nat.le_gt_cases l k) as [L|L]; [apply W1; assumption|].
    unfold quad_idx. rewrite (pair_idx_sym (start k + o')). apply W1; try assumption; lia. }
  split.
  - intros m n o p Hm Hn Ho Hp. specialize (W m n o p Hm Hn Ho Hp). unfold written in W.
    destruct (rdv (ps_ints s') (quad_idx m n o p)) as [x|] eqn:Ex; [|congruence].
    rewrite (D _ x Ex m n o p eq_refl). reflexivity.
  - intros c Hc. destruct (@pair_idx_onto (tri N) c Hc) as (a & b & Ha & Hb & <-).
    destruct (@pair_idx_onto N a Ha) as (m & n & Hm & Hn & <-).
    destruct (@pair_idx_onto N b ltac:(lia)) as (o & p & Ho & Hp & <-).
    apply W; lia.
Qed.
End Proof.

(** ** The example *)
(** [shell_start], [shell_nbf], example_packed.c:90-91. *)
Definition ex_start (i : nat) : nat := nth i [0; 1; 2; 5; 6; 7] 0.
Definition ex_nbf (i : nat) : nat := nth i [1; 1; 3; 1; 1] 0.
(** Integers in place of integrals: a symmetric function of the four indices. *)
Definition ex_v (m n o p : nat) : Zring := Z.of_nat ((m + n + 1) * (o + p + 1) + m * n + o * p)%nat.
(** A call that puts them in the order of the kernel. *)
Definition ex_call (i j k l : nat) (t : list (option Zring)) : option (list (option Zring)) :=
  let w := flat_map (fun m => flat_map (fun n => flat_map (fun o => map (fun p =>
     Some (ex_v (ex_start i + m) (ex_start j + n) (ex_start k + o) (ex_start l + p)))
     (seq 0 (ex_nbf l))) (seq 0 (ex_nbf k))) (seq 0 (ex_nbf j))) (seq 0 (ex_nbf i)) in
  if length w <=? length t then Some (w ++ skipn (length w) t) else None.
