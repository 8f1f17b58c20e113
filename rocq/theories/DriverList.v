(** The driver: classes, generated routines, file lists.
    Source: create.py:13-35, 37-75, 209-300, 304-402, 458-520, 545-640, 655-670;
    generator/ostei/OSTEI_Writer.cpp:757-790; python/gen_fill.py:52-58, 100-114;
    skel/simint/CMakeLists.txt:16. *)
From Coq Require Import List Arith Lia Bool.
Import ListNotations.
From Verif Require Import Base Cart Mdir HRRStep HRRAlgo HRROrder HRRExec VRRStep VRRAlgo VRROrder VRRExec VRRExecSpec
  Work Permute Driver.
Set Implicit Arguments.

(** ** Functions defined by the source of class [q], OSTEI_Writer.cpp:757-790; [-p] is given when
    [max(q) >= args.p] (create.py:52-53). *)
Definition defs (p : nat) (q : qam) : list qam :=
  q :: (if p <=? amax q
        then map (fun s : bool * bool => permute (fst s) (snd s) q)
               (filter (fun s => perm_written (fst s) (snd s) q) [(true, false); (false, true); (true, true)])
        else []).

Lemma defs_served maxam p vs c q : valid_set maxam p vs -> In q vs -> In c (defs p q) -> q = served p c.
Proof.
  intros Hv Hq Hc. apply Hv in Hq as [Hm Hq]. unfold defs in Hc. destruct Hc as [<-|Hc].
  { unfold served. rewrite Hq. reflexivity. }
  destruct (Nat.leb_spec p (amax q)) as [Hp|Hp]; [|destruct Hc].
  apply in_map_iff in Hc as [[s12 s34] [<- Hs]]. apply filter_In in Hs as [Hs Hw]. cbn [fst snd] in *.
  assert (U : am1 q <= am0 q /\ am3 q <= am2 q).
  { unfold is_valid, unique_quartet in Hq. apply orb_true_iff in Hq as [Hq|Hq]; [|apply Nat.ltb_lt in Hq; lia].
    apply andb_true_iff in Hq as [H1 H2]. apply Nat.leb_le in H1, H2. auto. }
  assert (W : (s12 = true -> am0 q <> am1 q) /\ (s34 = true -> am2 q <> am3 q)).
  { destruct q as [i j k l]. unfold perm_written in Hw.
    destruct s12, s34; cbn [permute am0 am1 am2 am3 andb negb orb] in Hw |- *.
    - destruct (Nat.eqb_spec j i), (Nat.eqb_spec l k); try discriminate. split; intros _; lia.
    - destruct (Nat.eqb_spec j i); try discriminate. split; intros; [lia|discriminate].
    - destruct (Nat.eqb_spec l k); try discriminate. split; intros; [discriminate|lia].
    - split; intros; discriminate. }
  assert (V : is_valid p (permute s12 s34 q) = false).
  { unfold is_valid. rewrite amax_permute. apply orb_false_iff. split; [|apply Nat.ltb_ge; exact Hp].
    unfold unique_quartet. destruct q as [i j k l].
    destruct s12, s34; cbn [permute am0 am1 am2 am3] in *; apply andb_false_iff; rewrite !Nat.leb_gt.
    - left. specialize (proj1 W eq_refl). lia.
    - left. specialize (proj1 W eq_refl). lia.
    - right. specialize (proj2 W eq_refl). lia.
    - exfalso. repeat destruct Hs as [Hs|Hs]; try discriminate; destruct Hs. }
  unfold served. rewrite V. destruct q as [i j k l], s12, s34; cbn [permute am0 am1 am2 am3] in *; f_equal; lia.
Qed.

Lemma served_defs maxam p vs c : valid_set maxam p vs -> amax c <= maxam -> In c (defs p (served p c)).
Proof.
  intros Hv Hc. unfold served. destruct (is_valid p c) eqn:E; [left; reflexivity|].
  right. destruct c as [i j k l]. unfold is_valid, unique_quartet in E. apply orb_false_iff in E as [E1 E2].
  apply Nat.ltb_ge in E2. cbn [am0 am1 am2 am3] in *.
  assert (M : amax (QAM (Nat.max i j) (Nat.min i j) (Nat.max k l) (Nat.min k l)) = amax (QAM i j k l))
    by (unfold amax; cbn; lia).
  rewrite M. rewrite (proj2 (Nat.leb_le p _) E2).
  apply in_map_iff. exists (i <? j, k <? l). cbn [fst snd].
  apply andb_false_iff in E1. rewrite !Nat.leb_gt in E1.
  split.
  - destruct (Nat.ltb_spec i j), (Nat.ltb_spec k l); unfold permute; cbn [am0 am1 am2 am3]; f_equal; lia.
  - apply filter_In. cbn [fst snd]. split.
    + destruct (Nat.ltb_spec i j), (Nat.ltb_spec k l); cbn; auto. lia.
    + unfold perm_written, permute; destruct (Nat.ltb_spec i j), (Nat.ltb_spec k l); cbn [am0 am1 am2 am3 andb negb];
      repeat match goal with |- context [?a =? ?b] => destruct (Nat.eqb_spec a b) end; cbn; auto; lia.
Qed.

Lemma defs_nodup p q : NoDup (defs p q).
Proof.
  unfold defs. destruct (p <=? amax q); [|constructor; [intros []|constructor]].
  destruct q as [i j k l]. cbn [filter]. unfold perm_written; cbn [fst snd permute am0 am1 am2 am3 andb negb orb].
  destruct (Nat.eqb_spec j i), (Nat.eqb_spec l k); cbn [map fst snd permute am0 am1 am2 am3 orb];
  repeat constructor; simpl; intros H; repeat destruct H as [H|H]; try (injection H; intros; lia); assumption.
Qed.

(** Every class has exactly one function, in the source of the class that serves it. *)
Theorem one_kernel maxam p vs : valid_set maxam p vs -> NoDup vs ->
  NoDup (flat_map (defs p) vs) /\
  (forall c, In c (flat_map (defs p) vs) <-> amax c <= maxam) /\
  (forall c, amax c <= maxam -> exists q, In q vs /\ amax q = amax c /\ In c (defs p q) /\ In q (defs p q) /\
     forall q', In q' vs -> In c (defs p q') -> q' = q).
Proof.
  intros Hv Hn. split; [|split].
  - apply NoDup_flat_map; [exact Hn|intros; apply defs_nodup|].
    intros a b x Ha Hb Hx Hy. rewrite (@defs_served _ _ _ _ _ Hv Ha Hx). symmetry. exact (@defs_served _ _ _ _ _ Hv Hb Hy).
  - intros c. rewrite in_flat_map. split.
    + intros [q [Hq Hc]]. pose proof (@defs_served _ _ _ _ _ Hv Hq Hc) as E. apply Hv in Hq as [Hm _].
      rewrite E, served_amax in Hm. exact Hm.
    + intros Hc. exists (served p c). split; [apply (served_valid _ Hv Hc)|apply (served_defs _ Hv Hc)].
  - intros c Hc. exists (served p c). split; [apply (served_valid _ Hv Hc)|].
    split; [apply served_amax|]. split; [apply (served_defs _ Hv Hc)|]. split; [left; reflexivity|].
    intros q' Hq' H. apply (@defs_served _ _ _ _ _ Hv Hq' H).
Qed.

(** The table is filled for every class up to the maximum (gen_fill.py:52-58). *)
Definition filled (maxam : nat) : list qam := quart4 (S maxam).
Theorem filled_defined maxam p vs l c : valid_set maxam p vs -> l <= maxam -> In c (filled l) ->
  exists q, In q vs /\ amax q <= l /\ In c (defs p q).
Proof.
  intros Hv Hl Hc. apply quart4_in in Hc. exists (served p c).
  split; [apply (served_valid _ Hv); lia|]. split; [rewrite served_amax; exact Hc|].
  apply (served_defs _ Hv). lia.
Qed.

(** ** Generated vertical routines, create.py:555-577 *)
Definition gen_extra (v : ctr * qam) : list (ctr * qam) :=
  let '(rr, a) := v in
  if (am0 a =? 0) && (am2 a =? 0) then
    [(match rr with CJ => CI | _ => CK end, permute true true a)]
  else if am0 a =? 0 then
    [(match rr with CJ => CI | _ => CK end, permute true false a)]
  else if am2 a =? 0 then
    [(match rr with CL => CK | _ => CI end, permute false true a)]
  else [].
Definition generated (reqs : list (ctr * qam)) : list (ctr * qam) := flat_map (fun v => v :: gen_extra v) reqs.

(** Routines called by the source of a vertical routine (OSTEI_VRR_Writer.cpp:351-404). *)
Definition vcalls (v : ctr * qam) : list (ctr * qam) :=
  let '(rr, a) := v in
  if (am1 a =? 0) && (am3 a =? 0) then [] else [(tochar rr, swapped a)].

Lemma pair_zero_onesided blf klf a : onesided blf klf a -> pair_zero a.
Proof. unfold onesided, mvc, pair_zero. destruct blf, klf; simpl; lia. Qed.

Lemma called_generated rr a : pair_zero a -> aget rr a <> 0 ->
  forall v, In v (vcalls (rr, a)) -> In v (gen_extra (rr, a)).
Proof.
  intros [Z1 Z2] Hr v. unfold vcalls. destruct ((am1 a =? 0) && (am3 a =? 0)) eqn:E; [intros []|].
  intros [<-|[]]. destruct a as [i j k l]. unfold gen_extra, swapped, permute. cbn [am0 am1 am2 am3] in *.
  apply andb_false_iff in E. rewrite !Nat.eqb_neq in E.
  destruct (Nat.eqb_spec i 0), (Nat.eqb_spec k 0); cbn [andb]; subst.
  - left. destruct rr; cbn in *; try congruence; try lia; reflexivity.
  - left. destruct rr; cbn in *; try congruence; try lia; reflexivity.
  - left. destruct rr; cbn in *; try congruence; try lia; reflexivity.
  - lia.
Qed.
Lemma extra_standard rr a v : pair_zero a -> In v (gen_extra (rr, a)) -> vcalls v = [].
Proof.
  intros [Z1 Z2] H. destruct a as [i j k l]. unfold gen_extra in H. cbn [am0 am1 am2 am3] in *.
  destruct (Nat.eqb_spec i 0), (Nat.eqb_spec k 0); cbn [andb] in H; subst;
    try (destruct H as [<-|[]]); try (destruct H); unfold vcalls, permute; cbn [am0 am1 am2 am3 andb];
    repeat match goal with |- context [?n =? 0] => destruct (Nat.eqb_spec n 0) end; cbn [andb]; try reflexivity; lia.
Qed.

(** Everything called by a generated routine is generated. *)
Theorem generated_closed reqs : (forall rr a, In (rr, a) reqs -> pair_zero a /\ aget rr a <> 0) ->
  forall v w, In v (generated reqs) -> In w (vcalls v) -> In w (generated reqs).
Proof.
  intros H v w Hv Hw. unfold generated in *. apply in_flat_map in Hv as [[rr a] [Hx Hv]].
  destruct (H rr a Hx) as [Hz Hr]. apply in_flat_map. exists (rr, a). split; [exact Hx|]. right.
  destruct Hv as [<-|Hv]; [apply (@called_generated rr a Hz Hr w Hw)|].
  rewrite (@extra_standard rr a v Hz Hv) in Hw. destruct Hw.
Qed.

Section Driver.
Variables ve vg he hg : nat.
Variables (enumd : list dbl -> list dbl) (enumt : list tqam -> list tqam)
          (enumm : list qm -> list qm) (enumq : list qrt -> list qrt).
Variable o : ordering.
Hypotheses (Hed : enum_ok enumd) (Het : enum_ok enumt) (Hem : enum_ok enumm) (Heq : enum_ok enumq).
Hypothesis Ho : starts_x o.
Notation KV := (kvlog ve vg enumd enumt enumm enumq o).
Notation KH := (khlog he hg enumd enumt enumm enumq o).

(** Orders of derivative that are generated: 0, and 1 when the highest order is positive (create.py:305-306). *)
Definition orders (derorder : nat) : list nat := match derorder with 0 => [0] | _ => [0; 1] end.
Definition all_vreq (derorder : nat) (vs : list qam) : list (ctr * qam) :=
  flat_map (fun d => flat_map (KV d) vs) (orders derorder).
Definition all_hreq (derorder : nat) (vs : list qam) : list (ctr * (nat * nat)) :=
  flat_map (fun d => flat_map (KH d) vs) (orders derorder).

Theorem external_generated derorder vs :
  (forall d q, In d (orders derorder) -> In q vs -> incl (KV d q) (generated (all_vreq derorder vs)) /\
     incl (KH d q) (all_hreq derorder vs)) /\
  (forall v w, In v (generated (all_vreq derorder vs)) -> In w (vcalls v) -> In w (generated (all_vreq derorder vs))).
Proof.
  split.
  - intros d q Hd Hq. split.
    + intros v Hv. apply in_flat_map. exists v. split; [|left; reflexivity].
      apply in_flat_map. exists d. split; [exact Hd|]. apply in_flat_map. exists q. auto.
    + intros v Hv. apply in_flat_map. exists d. split; [exact Hd|]. apply in_flat_map. exists q. auto.
  - apply generated_closed. intros rr a H. apply in_flat_map in H as [d [_ H]].
    apply in_flat_map in H as [q [_ H]].
    apply (kvlog_onesided ve vg Hed Het Hem Heq Ho) in H as (H1 & H2 & _).
    split; [apply (pair_zero_onesided H1)|exact H2].
Qed.

(** Every generated routine has a plan with its direction, and takes the arrays and variables in the order
    of the routine that calls it. *)
Lemma extra_get rr a v : pair_zero a -> aget rr a <> 0 -> In v (gen_extra (rr, a)) ->
  pair_zero (snd v) /\ aget (fst v) (snd v) <> 0.
Proof.
  intros [Z1 Z2] Hr H. destruct a as [i j k l]. unfold gen_extra in H. cbn [am0 am1 am2 am3] in *.
  destruct (Nat.eqb_spec i 0), (Nat.eqb_spec k 0); cbn [andb] in H; subst;
    try (destruct H as [<-|[]]); try (destruct H); unfold pair_zero, permute; cbn [am0 am1 am2 am3 fst snd];
    (split; [lia|]); destruct rr; cbn [aget am0 am1 am2 am3] in *; try lia; try congruence.
Qed.
Lemma generated_good derorder vs rr a : In (rr, a) (generated (all_vreq derorder vs)) ->
  pair_zero a /\ aget rr a <> 0.
Proof.
  intros H. apply in_flat_map in H as [[rr0 a0] [H K]].
  apply in_flat_map in H as [d [_ H]]. apply in_flat_map in H as [q [_ H]].
  apply (kvlog_onesided ve vg Hed Het Hem Heq Ho) in H as (H1 & H2 & _).
  destruct K as [K|K]; [injection K as -> ->; split; [apply (pair_zero_onesided H1)|exact H2]|].
  exact (@extra_get rr0 a0 (rr, a) (pair_zero_onesided H1) H2 K).
Qed.
Theorem external_arguments derorder vs rr a : In (rr, a) (generated (all_vreq derorder vs)) ->
  (forall rr' a', In (rr', a') (vcalls (rr, a)) ->
     am1 a' = 0 /\ am3 a' = 0 /\
     amreq rr' a' = map (swa (am0 a =? 0) (am2 a =? 0)) (amreq rr a) /\
     varreq rr' a' = map (vsw (am0 a =? 0) (am2 a =? 0)) (varreq rr a)) /\
  (forall P, par_ok P -> qtotal a < p_fuel P ->
     exists p, vrr_create (p_enum P) (p_enumq P) (p_fuel P) [rr] (qtargets (p_o P) a) = Some p /\
       rrstep_of (vp_steps p) a = Some rr /\ get_amreq (vp_steps p) a = Some (amreq rr a)) /\
  (forall (R : cring) P (K : @vcoef R) W t g N (M : vmem), par_ok P -> qtotal a < p_fuel P ->
     call_ok (p_o P) W M rr a t g N ->
     exists M', vroutine P 2 rr a (t :: map g (amreq rr a)) (map (kvars K) (varreq rr a)) N M = Some M' /\
       formed (p_o P) K W rr a t N (fun _ => True) M M').
Proof.
  intros H. destruct (@generated_good derorder vs rr a H) as [Hz Hr]. split; [|split].
  - intros rr' a' K. unfold vcalls in K. destruct (_ && _); [destruct K|]. destruct K as [K|[]]. injection K as <- <-.
    destruct (swapped_am Hz) as [X1 X3]. split; [exact X1|]. split; [exact X3|].
    split; [apply swapped_amreq; assumption|apply swapped_varreq; assumption].
  - intros P HP Hf. destruct (@file_plan P rr a HP Hr Hf) as [p (E1 & E2 & E3 & _)]. exists p. auto.
  - intros R P K W t g N M HP Hf HC. exact (@vroutine_ok R P K W rr a t g N M 2 HP Hr Hf Hz (le_n 2) HC).
Qed.

(** Direction flags of an external horizontal routine, create.py:499-508 and
    ostei_hrr_generator.cpp:65-98: bra or ket, and whether the first centre is raised. *)
Definition hrr_flags (rr : ctr) : bool * bool :=
  (match rr with CI | CJ => true | _ => false end, match rr with CI | CK => true | _ => false end).
Theorem external_hrr d q rr c : In (rr, c) (KH d q) ->
  rr = bdir (dir_b (request d q)) /\ hrr_flags rr = (true, dir_b (request d q)) \/
  rr = kdir (dir_k (request d q)) /\ hrr_flags rr = (false, dir_k (request d q)).
Proof.
  unfold khlog. destruct (kernel _ _ _ _ _ _ _) as [[hp vp]|]; [|intros []].
  intros H. apply in_flat_map in H as [t [_ H]]. destruct (smap_at (hp_map hp) t) as [[|]|]; [| |destruct H];
    repeat match type of H with context [if ?b then _ else _] => destruct b end; try (destruct H; fail);
    destruct H as [H|[]]; injection H as <- <-; [left|right] || idtac;
    destruct (dir_b (request d q)), (dir_k (request d q)); cbn; auto.
Qed.

(** The kernel has a plan; what is logged are the calls of separate routines in it. *)
Theorem kernel_calls d c : exists hp vp, kernel enumd enumt enumm enumq o d c = Some (hp, vp) /\
  (forall rr a, In (rr, a) (KV d c) <->
     In a (vp_order vp) /\ a <> ssss /\ emode_of ve vg (qtotal a) = External /\ rrstep_of (vp_steps vp) a = Some rr) /\
  (forall rr x, In (rr, x) (KH d c) <-> exists t, In t (hp_order hp) /\
     (smap_at (hp_map hp) t = Some BRA /\ x = brac t /\ rr = bdir (dir_b (request d c)) \/
      smap_at (hp_map hp) t = Some KET /\ x = ketc t /\ rr = kdir (dir_k (request d c))) /\
     emode_of he hg (dsum x) = External).
Proof.
  destruct (@kplans_ok enumd enumt enumm enumq o Hed Het Hem Heq Ho (3 + qtotal c) (dir_b (request d c))
    (dir_k (request d c)) (request d c) ltac:(lia) (@request_small d c)) as [hp [vp [E _]]].
  exists hp, vp. split; [exact E|]. split.
  - intros rr a. unfold kvlog, kernel. rewrite E. unfold vlog, emode_of. rewrite in_flat_map. split.
    + intros [b [Hb H]]. destruct (qam_eq_dec b ssss); [destruct H|].
      destruct (qtotal b <? ve) eqn:E1; [destruct H|]. destruct (qtotal b <? vg) eqn:E2; [|destruct H].
      destruct (rrstep_of (vp_steps vp) b) eqn:E3; [|destruct H]. destruct H as [H|[]]. injection H as -> ->.
      rewrite E1, E2. auto.
    + intros (H1 & H2 & H3 & H4). exists a. split; [exact H1|]. destruct (qam_eq_dec a ssss); [contradiction|].
      destruct (qtotal a <? ve); [discriminate|]. destruct (qtotal a <? vg); [|discriminate]. rewrite H4. left. reflexivity.
  - intros rr x. unfold khlog, kernel. rewrite E. unfold hlog, emode_of. rewrite in_flat_map. split.
    + intros [t [Ht H]]. exists t. split; [exact Ht|]. destruct (smap_at (hp_map hp) t) as [[|]|]; [| |destruct H].
      * destruct (dsum (brac t) <? he) eqn:E1; [destruct H|]. destruct (dsum (brac t) <? hg) eqn:E2; [|destruct H].
        destruct H as [H|[]]. injection H as <- <-. rewrite E1, E2. split; [left; auto|reflexivity].
      * destruct (dsum (ketc t) <? he) eqn:E1; [destruct H|]. destruct (dsum (ketc t) <? hg) eqn:E2; [|destruct H].
        destruct H as [H|[]]. injection H as <- <-. rewrite E1, E2. split; [right; auto|reflexivity].
    + intros [t [Ht [[(H1 & -> & ->)|(H1 & -> & ->)] H2]]]; exists t; (split; [exact Ht|]); rewrite H1;
      destruct (_ <? he); try discriminate; destruct (_ <? hg); try discriminate; left; reflexivity.
Qed.

(** ** File lists *)
(** [filelists = \[{...}\] * (derorder+1)] (create.py:219): the entries are references to one dictionary. *)
Record flists := FL { f_ref : list nat; f_heap : nat -> nat -> list source }.
Definition new_lists (derorder : nat) : flists := FL (repeat 0 (S derorder)) (fun _ _ => []).
(** [filelists\[d\]\[l\].append(x)]; [None]: no such index or key. *)
Definition append (maxam : nat) (s : flists) (e : nat * nat * source) : option flists :=
  let '(d, l, x) := e in
  match nth_error (f_ref s) d with
  | None => None
  | Some r =>
    if maxam <? l then None
    else Some (FL (f_ref s) (fun r' l' => f_heap s r' l' ++ if (r' =? r) && (l' =? l) then [x] else []))
  end.
Fixpoint appends (maxam : nat) (s : flists) (es : list (nat * nat * source)) : option flists :=
  match es with
  | [] => Some s
  | e :: r => match append maxam s e with Some s' => appends maxam s' r | None => None end
  end.
(** Lines 661-665: the list of order [d], maximum [l]. *)
Definition listing (s : flists) (d l : nat) : option (list source) :=
  match nth_error (f_ref s) d with
  | Some r => Some (flat_map (f_heap s r) (seq 0 (S l)))
  | None => None
  end.
(** Lines 260-290 and 379-403. *)
Definition logged (d : nat) (q : qam) : list source :=
  map (fun v => SHrr (fst v) (snd v)) (KH d q) ++ map (fun v => SVrr (fst v) (snd v)) (KV d q).
Definition events (derorder : nat) (vs : list qam) : list (nat * nat * source) :=
  flat_map (fun d => flat_map (fun q => map (fun x => (d, amax q, x)) (SKern d q :: logged d q)) vs) (orders derorder).

Lemma appends_ok maxam derorder : forall es s,
  f_ref s = repeat 0 (S derorder) -> (forall d l x, In (d, l, x) es -> d <= derorder /\ l <= maxam) ->
  exists s', appends maxam s es = Some s' /\ f_ref s' = f_ref s /\
    forall l x, In x (f_heap s' 0 l) <-> In x (f_heap s 0 l) \/ exists d, In (d, l, x) es.
Proof.
  assert (N : forall A (v : A) n k, k < n -> nth_error (repeat v n) k = Some v).
  { intros A v n. induction n as [|n IH]; intros k Hk; [lia|]. destruct k; [reflexivity|]. simpl. apply IH. lia. }
  induction es as [|[[d l] x] es IH]; intros s Hs He.
  - exists s. split; [reflexivity|]. split; [reflexivity|]. intros l x. split; [auto|]. intros [H|[d []]]; exact H.
  - destruct (He d l x (or_introl eq_refl)) as [Hd Hl].
    cbn [appends append]. rewrite Hs, N by lia. destruct (Nat.ltb_spec maxam l); [lia|].
    match goal with |- context [appends maxam ?s0 es] => destruct (IH s0) as [s' [E [R I]]] end.
    { reflexivity. } { intros d' l' x' H'. apply (He d' l' x'). right; exact H'. }
    exists s'. split; [exact E|]. split; [cbn [f_ref] in R; congruence|]. intros l' x'. rewrite I. cbn [f_heap Nat.eqb andb].
    rewrite in_app_iff. destruct (Nat.eqb_spec l' l) as [->|Ne].
    + split.
      * intros [[H1|[<-|[]]]|[d' H1]]; [left; exact H1|right; exists d; left; reflexivity|right; exists d'; right; exact H1].
      * intros [H1|[d' [H1|H1]]]; [left; left; exact H1|left; right; left; congruence|right; exists d'; exact H1].
    + split.
      * intros [[H1|[]]|[d' H1]]; [left; exact H1|right; exists d'; right; exact H1].
      * intros [H1|[d' [H1|H1]]]; [left; left; exact H1|congruence|right; exists d'; exact H1].
Qed.

Lemma events_in derorder vs d l x : In (d, l, x) (events derorder vs) <->
  In d (orders derorder) /\ exists q, In q vs /\ l = amax q /\ (x = SKern d q \/ In x (logged d q)).
Proof.
  unfold events. rewrite in_flat_map. split.
  - intros [d' [Hd H]]. apply in_flat_map in H as [q [Hq H]]. apply in_map_iff in H as [y [E Hy]].
    injection E as -> <- ->. split; [exact Hd|]. exists q. repeat split; auto. destruct Hy; auto.
  - intros [Hd [q [Hq [-> Hx]]]]. exists d. split; [exact Hd|]. apply in_flat_map. exists q. split; [exact Hq|].
    apply in_map_iff. exists x. split; [reflexivity|]. destruct Hx; [left; congruence|right; assumption].
Qed.

Lemma orders_le derorder d : In d (orders derorder) -> d <= derorder.
Proof. destruct derorder; simpl; intros H; repeat destruct H as [<-|H]; try lia; destruct H. Qed.

(** What ends up in the lists; all orders have the same one. *)
Theorem listing_spec maxam p derorder vs : valid_set maxam p vs ->
  exists s, appends maxam (new_lists derorder) (events derorder vs) = Some s /\
    forall d l, d <= derorder -> exists fl, listing s d l = Some fl /\ listing s 0 l = Some fl /\
      forall x, In x fl <-> exists d' q, In d' (orders derorder) /\ In q vs /\ amax q <= l /\
                              (x = SKern d' q \/ In x (logged d' q)).
Proof.
  intros Hv.
  destruct (@appends_ok maxam derorder (events derorder vs) (new_lists derorder) eq_refl) as [s [E [R I]]].
  { intros d l x H. apply events_in in H as [H1 [q [H2 [-> _]]]]. split; [apply orders_le, H1|apply Hv, H2]. }
  exists s. split; [exact E|]. intros d l Hd.
  assert (N : forall A (v : A) n k, k < n -> nth_error (repeat v n) k = Some v).
  { intros A v n. induction n as [|n IH]; intros k Hk; [lia|]. destruct k; [reflexivity|]. simpl. apply IH. lia. }
  unfold listing. rewrite R. cbn [new_lists f_ref]. rewrite !N by lia.
  eexists. split; [reflexivity|]. split; [reflexivity|].
  intros x. rewrite in_flat_map. split.
  - intros [l2 [Hl2 Hx]]. apply in_seq in Hl2. apply I in Hx as [Hx|[d' Hx]]; [destruct Hx|].
    apply events_in in Hx as [H1 [q [H2 [-> H3]]]]. exists d', q. repeat split; auto. lia.
  - intros [d' [q [H1 [H2 [H3 H4]]]]]. exists (amax q). split; [apply in_seq; lia|]. apply I. right.
    exists d'. apply events_in. split; [exact H1|]. exists q. auto.
Qed.

(** Calls from one source to another. *)
Definition calls (x : source) : list source :=
  match x with
  | SKern d q => logged d q
  | SHrr _ _ => []
  | SVrr rr a => map (fun v => SVrr (fst v) (snd v)) (vcalls (rr, a))
  end.

Lemma in_logged_v d q rr a : In (SVrr rr a) (logged d q) <-> In (rr, a) (KV d q).
Proof.
  unfold logged. rewrite in_app_iff, !in_map_iff. split.
  - intros [[v [H _]]|[[r b] [H K]]]; [discriminate|]. cbn in H. injection H as -> ->. exact K.
  - intros H. right. exists (rr, a). auto.
Qed.

(** Order 0: nothing that is called is missing. *)
Theorem lists_closed maxam p vs : valid_set maxam p vs ->
  exists s, appends maxam (new_lists 0) (events 0 vs) = Some s /\
    forall l, l <= maxam -> exists fl, listing s 0 l = Some fl /\
      (forall c, amax c <= l -> In (SKern 0 (served p c)) fl) /\
      (forall x y, In x fl -> In y (calls x) -> In y fl).
Proof.
  intros Hv. destruct (@listing_spec maxam p 0 vs Hv) as [s [E S]]. exists s. split; [exact E|].
  intros l Hl. destruct (S 0 l (le_n _)) as [fl [L [_ I]]]. exists fl. split; [exact L|]. split.
  - intros c Hc. apply I. exists 0, (served p c). split; [left; reflexivity|].
    split; [apply (served_valid _ Hv); lia|]. split; [rewrite served_amax; exact Hc|left; reflexivity].
  - intros x y Hx Hy. apply I in Hx as [d [q [Hd [Hq [Ha Hx]]]]]. destruct Hd as [<-|[]].
    destruct Hx as [->|Hx].
    + apply I. exists 0, q. split; [left; reflexivity|]. auto.
    + destruct x as [d' c|rr c|rr a].
      * exfalso. unfold logged in Hx. apply in_app_iff in Hx as [H|H]; apply in_map_iff in H as [v [H _]]; discriminate.
      * destruct Hy.
      * apply in_logged_v in Hx. cbn [calls] in Hy. apply in_map_iff in Hy as [w [<- Hw]].
        pose proof Hx as Hx'.
        apply (kvlog_onesided ve vg Hed Het Hem Heq Ho) in Hx' as (O1 & O2 & _).
        pose proof (@exchanged_requests ve vg enumd enumt enumm enumq o Hed Het Hem Heq Ho q rr a Hx) as X.
        assert (Eb : dir_b (request 0 q) = (am0 q <? am1 q)) by (unfold dir_b; cbn [request]; rewrite highest1; reflexivity).
        assert (Ek : dir_k (request 0 q) = (am2 q <? am3 q)) by (unfold dir_k; cbn [request]; rewrite highest1; reflexivity).
        rewrite Eb, Ek in O1.
        unfold vcalls in Hw. destruct ((am1 a =? 0) && (am3 a =? 0)) eqn:Es; [destruct Hw|].
        destruct Hw as [<-|[]]. cbn [fst snd].
        set (s12 := am0 q <? am1 q) in *. set (s34 := am2 q <? am3 q) in *.
        assert (W : tochar rr = Driver.swc s12 s34 rr /\ swapped a = permute s12 s34 a).
        { destruct a as [i j k m]. destruct O1 as [P1 P2]. unfold mvc in P1, P2. cbn [am0 am1 am2 am3 fst snd] in *.
          unfold swapped, permute. cbn [am0 am1 am2 am3].
          destruct s12, s34; subst; split;
            repeat match goal with |- context [?n =? 0] => destruct (Nat.eqb_spec n 0); subst end;
            try reflexivity; destruct rr; cbn in *; try reflexivity; lia. }
        destruct W as [-> ->]. apply I. exists 0, (order_classes q). split; [left; reflexivity|].
        split; [|split].
        -- apply Hv. unfold order_classes. rewrite amax_permute. apply Hv in Hq as [Hq1 Hq2]. split; [exact Hq1|].
           unfold is_valid, unique_quartet. destruct (order_classes_sorted q) as [U1 U2]. unfold order_classes in U1, U2.
           rewrite (proj2 (Nat.leb_le _ _) U1), (proj2 (Nat.leb_le _ _) U2). reflexivity.
        -- unfold order_classes. rewrite amax_permute. exact Ha.
        -- right. apply in_logged_v, X.
Qed.

(** With derivatives: every source and everything the kernels call are there ... *)
Theorem lists_deriv maxam p derorder vs : valid_set maxam p vs ->
  exists s, appends maxam (new_lists derorder) (events derorder vs) = Some s /\
    forall d l, d <= derorder -> l <= maxam -> exists fl, listing s d l = Some fl /\ listing s 0 l = Some fl /\
      (forall d' c, d' <= derorder -> d' <= 1 -> amax c <= l -> In (SKern d' (served p c)) fl) /\
      (forall d' q y, In (SKern d' q) fl -> In y (calls (SKern d' q)) -> In y fl).
Proof.
  intros Hv. destruct (@listing_spec maxam p derorder vs Hv) as [s [E S]]. exists s. split; [exact E|].
  intros d l Hd Hl. destruct (S d l Hd) as [fl [L [L0 I]]]. exists fl. split; [exact L|]. split; [exact L0|]. split.
  - intros d' c H1 H2 Hc. apply I. exists d', (served p c).
    split; [destruct derorder; [replace d' with 0 by lia; left; reflexivity|destruct d' as [|[|d']]; simpl; auto; lia]|].
    split; [apply (served_valid _ Hv); lia|]. split; [rewrite served_amax; exact Hc|left; reflexivity].
  - intros d' q y Hx Hy. apply I in Hx as [d1 [q1 [Hd1 [Hq [Ha Hx]]]]].
    destruct Hx as [Hx|Hx].
    + injection Hx as -> ->. apply I. exists d1, q1. auto.
    + exfalso. unfold logged in Hx. apply in_app_iff in Hx as [H|H]; apply in_map_iff in H as [v [H _]]; discriminate.
Qed.

(** ... but not what the permuted routines call. *)
Lemma areach_bound ords (top : qam -> Prop) a : areach ords top a -> exists b, top b /\ forall x, aget x a <= aget x b.
Proof.
  induction 1 as [a Ha|b rr r Hb [t [Ht IH]] Hd Hr]; [exists a; auto|].
  exists t. split; [exact Ht|]. intros x. pose proof (@Driver.amreq_le rr b r x Hr). specialize (IH x). lia.
Qed.

Lemma missing_LL L k l : k <= L -> l <= L -> missing_center (QAM L L k l) = CI.
Proof. intros H1 H2. unfold missing_center, amax. cbn [am0 am1 am2 am3]. destruct (Nat.eqb_spec L (Nat.max (Nat.max L L) (Nat.max k l))); [reflexivity|lia]. Qed.
Lemma highest_LL L k l : k <= L -> l <= L -> highest (needed_am (QAM L L k l)) = QAM L (S L) k l.
Proof.
  intros H1 H2. unfold needed_am. rewrite (missing_LL H1 H2). cbn [flat_map app].
  destruct (ctr_eq_dec CI CI) as [_|n]; [|congruence].
  destruct (ctr_eq_dec CJ CI) as [e|_]; [discriminate|].
  destruct (ctr_eq_dec CK CI) as [e|_]; [discriminate|].
  destruct (ctr_eq_dec CL CI) as [e|_]; [discriminate|].
  assert (B : lexlt ssss (QAM L (S L) k l) = true).
  { unfold lexlt, ssss; cbn [am0 am1 am2 am3]. destruct L; reflexivity. }
  assert (C : forall i x y, lexlt (QAM L (S L) k l) (QAM L i x y) = true -> S L <= i).
  { intros i x y H. unfold lexlt in H; cbn [am0 am1 am2 am3] in H. rewrite Nat.ltb_irrefl, Nat.eqb_refl in H.
    cbn [orb andb] in H. apply orb_true_iff in H as [H|H]; [apply Nat.ltb_lt in H; lia|].
    apply andb_true_iff in H as [H _]. apply Nat.eqb_eq in H. lia. }
  assert (D : forall i x y, i <= L -> lexlt (QAM L (S L) k l) (QAM L i x y) = false).
  { intros i x y Hi. destruct (lexlt (QAM L (S L) k l) (QAM L i x y)) eqn:E; [|reflexivity]. apply C in E; lia. }
  unfold highest. destruct L as [|L], k as [|k], l as [|l];
    cbn [alower araise aget am0 am1 am2 am3 app fold_left tq_am Nat.eqb]; rewrite B; rewrite ?D by lia; reflexivity.
Qed.

Theorem lists_deriv_missing maxam p derorder vs L : valid_set maxam p vs ->
  1 <= derorder -> 1 <= L <= maxam -> ve <= 2 * L + 1 < vg ->
  exists s fl, appends maxam (new_lists derorder) (events derorder vs) = Some s /\
    (forall d, d <= derorder -> listing s d L = Some fl) /\
    In (SVrr CJ (QAM 0 (2 * L + 1) 0 0)) fl /\
    In (SVrr CI (QAM (2 * L + 1) 0 0 0)) (calls (SVrr CJ (QAM 0 (2 * L + 1) 0 0))) /\
    ~ In (SVrr CI (QAM (2 * L + 1) 0 0 0)) fl.
Proof.
  intros Hv Hd HL HV. destruct (@listing_spec maxam p derorder vs Hv) as [s [E S]].
  destruct (S 0 L (Nat.le_0_l _)) as [fl [F [_ I]]]. exists s, fl. split; [exact E|].
  split. { intros d Hd'. destruct (S d L Hd') as [fl' [F1 [F2 _]]]. congruence. }
  assert (O1 : In 1 (orders derorder)) by (destruct derorder; [lia|right; left; reflexivity]).
  split; [|split].
  - apply I. exists 1, (QAM L L 0 0). split; [exact O1|]. split; [|split; [|right]].
    + apply Hv. unfold is_valid, unique_quartet, amax. cbn [am0 am1 am2 am3]. rewrite Nat.leb_refl. split; [lia|reflexivity].
    + unfold amax; cbn [am0 am1 am2 am3]. lia.
    + apply in_logged_v.
      destruct (in_kvlog ve vg Hed Het Hem Heq Ho 1 (QAM L L 0 0)) as [ords [_ [[init [-> T]] H]]].
      assert (HH : highest (request 1 (QAM L L 0 0)) = QAM L (Datatypes.S L) 0 0) by (apply highest_LL; lia).
      assert (Db : dir_b (request 1 (QAM L L 0 0)) = true).
      { unfold dir_b. rewrite HH. apply Nat.ltb_lt. cbn. lia. }
      assert (Dk : dir_k (request 1 (QAM L L 0 0)) = false) by (unfold dir_k; rewrite HH; reflexivity).
      apply H. split; [|split; [|split]].
      * apply ar_top. exists (TQ 2 (QAM L (Datatypes.S L) 0 0)). split; [|rewrite Db, Dk; unfold spans, mvc, fxc, dsum, brac, ketc; cbn; lia].
        cbn [request]. unfold needed_am. rewrite (@missing_LL L 0 0) by lia. cbn [flat_map ctr_eq_dec app]. left. reflexivity.
      * intros Eq. injection Eq. lia.
      * rewrite (@vdir_onesided init true false) by (split; reflexivity). cbn [kc bc aget am0 am1 am2 am3].
        destruct (Nat.eqb_spec (2 * L + 1) 0); [lia|reflexivity].
      * unfold qtotal. cbn [am0 am1 am2 am3]. lia.
  - cbn [calls vcalls am1 am3]. destruct (Nat.eqb_spec (2 * L + 1) 0); [lia|]. cbn [andb]. left. reflexivity.
  - intros K. apply I in K as [d [q [Hd' [Hq [Ha K]]]]]. destruct K as [K|K]; [discriminate|].
    apply in_logged_v in K.
    assert (Hone : onesided (dir_b (request d q)) (dir_k (request d q)) (QAM (2 * L + 1) 0 0 0)).
    { apply (kvlog_onesided ve vg Hed Het Hem Heq Ho) in K as (K & _). exact K. }
    destruct (in_kvlog ve vg Hed Het Hem Heq Ho d q) as [ords [_ [_ H]]]. apply H in K as (K & _).
    apply areach_bound in K as [b [[y (Y1 & Y2 & _)] B]]. specialize (B CI). cbn [aget am0] in B.
    assert (D : 2 * L + 1 <= dsum (brac y)) by (unfold spans, fxc, dsum in *; destruct (dir_b (request d q)); cbn in *; [unfold mvc in Y2; cbn in Y2|]; lia).
    unfold dsum, brac in D. cbn [fst snd] in D.
    assert (A : am0 q <= L /\ am1 q <= L /\ am2 q <= L /\ am3 q <= L) by (unfold amax in Ha; lia).
    destruct d as [|d].
    + cbn [request] in Y1. destruct Y1 as [<-|[]]. cbn [tq_am] in D. lia.
    + assert (Q : am0 q = L /\ am1 q = L).
      { cbn [request] in Y1. unfold needed_am in Y1. apply in_flat_map in Y1 as [x [_ Y1]].
        destruct (ctr_eq_dec x (missing_center q)); [destruct Y1|]. destruct Y1 as [<-|Y1].
        - destruct q as [i j k l], x; cbn in D, A; cbn; lia.
        - destruct (alower x q) as [m|] eqn:El; [|destruct Y1]. destruct Y1 as [<-|[]].
          pose proof (alower_le _ _ CI El). pose proof (alower_le _ _ CJ El). cbn in *. lia. }
      destruct q as [i j k l]. cbn [am0 am1 am2 am3] in *. destruct Q as [-> ->].
      assert (Db : dir_b (request (Datatypes.S d) (QAM L L k l)) = true).
      { unfold dir_b. cbn [request]. rewrite highest_LL by lia. apply Nat.ltb_lt. cbn. lia. }
      rewrite Db in Hone. destruct Hone as [Hone _]. unfold mvc in Hone. cbn in Hone. lia.
Qed.
End Driver.

(** ** Example: a few of the classes of maximum 1, everything external, first derivatives *)
Definition dx_kv := kvlog 0 9 (nodup dbl_eq_dec) (nodup tqam_eq_dec) (nodup qm_eq_dec) (nodup qrt_eq_dec) psi4.
Definition dx_events der := events 0 9 0 9 (nodup dbl_eq_dec) (nodup tqam_eq_dec) (nodup qm_eq_dec) (nodup qrt_eq_dec) psi4 der
  [ssss; QAM 1 0 0 0; QAM 1 1 0 0].
Lemma ex_valid_nodup m p : NoDup (ex_valid m p).
Proof.
  unfold ex_valid. apply NoDup_filter. unfold quart4.
  repeat first [ apply NoDup_flat_map; [apply seq_NoDup|intros ? ?|] ].
  all: try (apply FinFun.Injective_map_NoDup; [|apply seq_NoDup]; intros x y K; congruence).
  all: intros x y z _ _ K1 K2; repeat (apply in_flat_map in K1 as [? [_ K1]]); repeat (apply in_flat_map in K2 as [? [_ K2]]).
  all: apply in_map_iff in K1 as [? [<- _]]; apply in_map_iff in K2 as [? [K2 _]]; congruence.
Qed.
Definition src_eq_dec (a b : source) : {a = b} + {a <> b}.
Proof. repeat decide equality. Defined.
Definition dx_in (x : source) (l : list source) : bool := if in_dec src_eq_dec x l then true else false.
Definition dx_listing (d l : nat) : list source :=
  match appends 1 (new_lists 1) (dx_events 1) with
  | Some s => match listing s d l with Some fl => fl | None => [] end
  | None => []
  end.
