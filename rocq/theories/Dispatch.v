(** Model of the table of kernels of the runtime and of the functions that call through it.

    Code: python/gen_fill.py:29-116, skel/simint/ostei/ostei_init.c, ostei_deriv1_init.c (see [InitData]),
    skel/simint/ostei/ostei.c:4-43, skel/simint/simint_eri.c, skel/simint/simint_init.c:5-9,
    skel/simint/ostei/ostei_config.h.in:5-7.

    Functions are represented by their names.  Subscripts are natural numbers; one outside the declared
    dimensions, or a call through a null pointer, is undefined behaviour. *)
From Coq Require Import String Ascii List ZArith QArith Lia Bool.
Import ListNotations.
From Verif Require Import Base Cart VRRStep Work PairData Naming InitData.
Local Open Scope nat_scope.
Local Open Scope string_scope.
Set Implicit Arguments.

(** * The filling files *)
(** One assignment: derivative subscript, class subscripts, function. *)
Record asgn := As { as_d : nat; as_q : qam; as_f : string }.
(** The assignments between an [#if] and its [#endif], with the number compared to. *)
Definition group : Type := nat * list asgn.

(** Beginning of the function names, gen_fill.py:107-110. *)
Definition base (d : nat) : string := match d with 0 => "ostei_" | _ => "ostei_deriv1_" end.
Definition joined (s : string) : string :=
  match s with
  | String a (String b (String c (String d ""))) =>
    String a (String "_" (String b (String "_" (String c (String "_" (String d ""))))))
  | _ => ""
  end.
Definition shipped_groups (d : nat) (l : list (nat * list (nat * nat * nat * nat * string))) : list group :=
  map (fun g => (fst g, map (fun e => let '(i, j, k, l, s) := e in As d (QAM i j k l) (base d ++ joined s)) (snd g))) l.
(** ostei_init.c and ostei_deriv1_init.c. *)
Definition shipped (d : nat) : list group := shipped_groups d (match d with 0 => init0_groups | _ => init1_groups end).

(** Python's [amchar[i]] (gen_fill.py:29); past the end is an exception. *)
Definition py_char (i : nat) : option string :=
  match String.get i amchar with Some c => Some (String c "") | None => None end.
(** gen_fill.py:106-112. *)
Definition line (d : nat) (q : qam) : option asgn :=
  sbind (py_char (am0 q)) (fun a => sbind (py_char (am1 q)) (fun b =>
  sbind (py_char (am2 q)) (fun c => sbind (py_char (am3 q)) (fun e =>
  Some (As d q (base d ++ a ++ "_" ++ b ++ "_" ++ c ++ "_" ++ e)))))).
Fixpoint lines (d : nat) (l : list qam) : option (list asgn) :=
  match l with [] => Some [] | q :: r => sbind (line d q) (fun x => sbind (lines d r) (fun y => Some (x :: y))) end.
(** gen_fill.py:47-58 and 100-114: the classes by largest momentum, each set sorted. *)
Fixpoint fill_groups (d maxam : nat) (ls : list nat) : option (list group) :=
  match ls with
  | [] => Some []
  | L :: r => sbind (lines d (filter (fun q => amax q =? L)%nat (quart4 (S maxam)))) (fun g =>
              sbind (fill_groups d maxam r) (fun gs => Some ((L, g) :: gs)))
  end.
Definition gen_fill (d maxam : nat) : option (list group) := fill_groups d maxam (seq 0 (S maxam)).

(** * The table *)
(** [simint_osteifunc_array] (ostei.c:4-7), zero before anything is assigned. *)
Definition table : Type := nat -> qam -> option string.
Definition null_table : table := fun _ _ => None.
(** One assignment in a build with maxima [MD] and [MA]. *)
Definition assign (MD MA : nat) (t : table) (x : asgn) : option table :=
  if ((as_d x <=? MD) && (amax (as_q x) <=? MA))%nat
  then Some (fun d q => if (d =? as_d x)%nat then if qam_eq_dec q (as_q x) then Some (as_f x) else t d q else t d q)
  else None.
Fixpoint assigns (MD MA : nat) (t : table) (l : list asgn) : option table :=
  match l with [] => Some t | x :: r => sbind (assign MD MA t x) (fun t => assigns MD MA t r) end.
(** Groups whose guard holds for the value [m] of the macro. *)
Fixpoint run_groups (MD MA : nat) (m : Z) (t : table) (gs : list group) : option table :=
  match gs with
  | [] => Some t
  | (L, g) :: r => if (Z.of_nat L <=? m)%Z then sbind (assigns MD MA t g) (fun t => run_groups MD MA m t r)
                   else run_groups MD MA m t r
  end.
(** [SIMINT_OSTEI_MAXAM] and [SIMINT_OSTEI_DERIV1_MAXAM] (ostei_config.h.in:5-7). *)
Definition macro (MD MA d : nat) : Z :=
  match d with 0 => Z.of_nat MA | _ => if (0 <? MD)%nat then Z.of_nat MA else (-1)%Z end.
(** [simint_init] (simint_init.c:5-9) with the given filling files. *)
Definition init_with (gs0 gs1 : list group) (MD MA : nat) : option table :=
  sbind (run_groups MD MA (macro MD MA 0) null_table gs0) (fun t => run_groups MD MA (macro MD MA 1) t gs1).
Definition simint_init : nat -> nat -> option table := init_with (shipped 0) (shipped 1).

(** * Calling *)
Inductive outcome := Screened | Called (f : string) (tol2 : Q) | Undefined.
(** [simint_compute_ostei_deriv] (ostei.c:27-43); [simint_compute_ostei] (ostei.c:10-24) is the case 0, and
    simint_eri.c only passes the arguments on. *)
Definition compute (MD MA : nat) (t : table) (d : nat) (c : qam) (pmax qmax tol : Q) : outcome :=
  if early_exit tol pmax qmax then Screened
  else if ((d <=? MD) && (amax c <=? MA))%nat
  then match t d c with Some f => Called f (tol * tol)%Q | None => Undefined end
  else Undefined.

(** * What the table should hold *)
Definition kernel_of (d : nat) (q : qam) : fn :=
  let z := Z.of_nat in
  match d with
  | 0 => FEri (z (am0 q)) (z (am1 q)) (z (am2 q)) (z (am3 q))
  | _ => FDer (z (am0 q)) (z (am1 q)) (z (am2 q)) (z (am3 q))
  end.

(** * Proofs *)
Lemma py_char_letter i : (i < 60)%nat -> py_char i = letter (Z.of_nat i).
Proof.
  intros H. unfold py_char, letter, amchar_at. destruct (Z.ltb_spec (Z.of_nat i) 0); [lia|]. rewrite Nat2Z.id.
  do 60 (destruct i as [|i]; [reflexivity|]). lia.
Qed.
Lemma py_char_some i : (i < 60)%nat -> exists s, py_char i = Some s.
Proof. intros H. rewrite py_char_letter by exact H. apply letter_some. unfold lettered. lia. Qed.

Lemma line_ok d q : (d <= 1)%nat -> (amax q < 60)%nat ->
  exists x, line d q = Some x /\ as_d x = d /\ as_q x = q /\ fn_name (kernel_of d q) = Some (as_f x).
Proof.
  intros Hd Hq. destruct q as [i j k l]. unfold amax in Hq. cbn [am0 am1 am2 am3] in Hq. unfold line, kernel_of.
  cbn [am0 am1 am2 am3].
  destruct (@py_char_some i) as [a Ha]; [lia|]. destruct (@py_char_some j) as [b Hb]; [lia|].
  destruct (@py_char_some k) as [c Hc]; [lia|]. destruct (@py_char_some l) as [e He]; [lia|].
  rewrite Ha, Hb, Hc, He. cbn [sbind]. eexists. split; [reflexivity|]. cbn [as_d as_q as_f].
  split; [reflexivity|]. split; [reflexivity|].
  rewrite py_char_letter in Ha, Hb, Hc, He by lia.
  destruct d as [|[|d]]; [| |lia]; cbn [fn_name base]; unfold four; rewrite Ha, Hb, Hc, He; reflexivity.
Qed.

Definition good (d : nat) (x : asgn) : Prop := as_d x = d /\ fn_name (kernel_of d (as_q x)) = Some (as_f x).
Lemma lines_ok d l : (d <= 1)%nat -> (forall q, In q l -> amax q < 60)%nat ->
  exists g, lines d l = Some g /\ map as_q g = l /\ Forall (good d) g.
Proof.
  intros Hd. induction l as [|q r IH]; intros H; [exists []; repeat constructor|].
  destruct (@line_ok d q Hd) as (x & E & E1 & E2 & E3); [apply H; now left|].
  destruct IH as (g & F & F1 & F2); [intros; apply H; now right|].
  exists (x :: g). cbn [lines]. rewrite E, F. cbn [sbind map]. rewrite E2, F1.
  split; [reflexivity|]. split; [reflexivity|]. constructor; [|exact F2]. split; [exact E1|]. rewrite E2. exact E3.
Qed.

Definition group_ok (d maxam : nat) (g : group) : Prop :=
  Forall (good d) (snd g) /\ forall q, In q (map as_q (snd g)) <-> (amax q = fst g /\ amax q <= maxam)%nat.
Lemma fill_groups_ok d maxam ls : (d <= 1)%nat -> (maxam < 60)%nat ->
  exists gs, fill_groups d maxam ls = Some gs /\ map fst gs = ls /\ Forall (group_ok d maxam) gs.
Proof.
  intros Hd Hm. induction ls as [|L r IH]; [exists []; repeat constructor|].
  destruct IH as (gs & F & F1 & F2).
  destruct (@lines_ok d (filter (fun q => amax q =? L)%nat (quart4 (S maxam))) Hd) as (g & E & E1 & E2).
  { intros q H. apply filter_In in H as [H _]. apply quart4_in in H. lia. }
  exists ((L, g) :: gs). cbn [fill_groups]. rewrite E, F. cbn [sbind map fst]. rewrite F1.
  split; [reflexivity|]. split; [reflexivity|]. constructor; [|exact F2]. split; [exact E2|].
  cbn [fst snd]. rewrite E1. intros q. rewrite filter_In, quart4_in, Nat.eqb_eq. tauto.
Qed.

Lemma assigns_ok d MD MA l : (d <= MD)%nat -> forall t, Forall (good d) l ->
  (forall q, In q (map as_q l) -> amax q <= MA)%nat ->
  exists t', assigns MD MA t l = Some t' /\
    (forall q, In q (map as_q l) -> t' d q = fn_name (kernel_of d q)) /\
    (forall d' q, d' <> d \/ ~ In q (map as_q l) -> t' d' q = t d' q).
Proof.
  intros Hd. induction l as [|x r IH]; intros t Hg Hq; cbn [assigns].
  - exists t. split; [reflexivity|]. split; [intros q []|reflexivity].
  - inversion Hg as [|x' r' G1 G2]; subst. destruct G1 as [E1 E2]. unfold assign.
    rewrite E1. destruct (Nat.leb_spec d MD); [|lia].
    destruct (Nat.leb_spec (amax (as_q x)) MA) as [_|B]; [|specialize (Hq (as_q x) (or_introl eq_refl)); lia].
    cbn [andb sbind].
    match goal with |- exists t', assigns _ _ ?u _ = _ /\ _ => destruct (IH u G2) as (t' & A & B & C) end.
    { intros q H'. apply Hq. now right. }
    exists t'. split; [exact A|]. split.
    + intros q [<-|H']; [|apply B, H']. destruct (in_dec qam_eq_dec (as_q x) (map as_q r)) as [I|I]; [apply B, I|].
      rewrite C by (now right). rewrite Nat.eqb_refl. destruct (qam_eq_dec (as_q x) (as_q x)) as [_|N]; [|congruence].
      symmetry. exact E2.
    + intros d' q H'. cbn [map] in H'. rewrite C.
      * destruct (Nat.eqb_spec d' d) as [->|N]; [|reflexivity]. destruct (qam_eq_dec q (as_q x)) as [->|N]; [|reflexivity].
        destruct H' as [H'|H']; [congruence|]. exfalso. apply H'. now left.
      * destruct H' as [H'|H']; [now left|]. right. intros I. apply H'. now right.
Qed.

Lemma run_groups_ok d MD MA m maxam gs : (d <= MD)%nat \/ m = (-1)%Z -> (m <= Z.of_nat MA)%Z -> forall t, Forall (group_ok d maxam) gs ->
  exists t', run_groups MD MA m t gs = Some t' /\
    (forall q, In (amax q) (map fst gs) -> (amax q <= maxam)%nat -> (Z.of_nat (amax q) <= m)%Z -> t' d q = fn_name (kernel_of d q)) /\
    (forall d' q, d' <> d \/ ~ In (amax q) (map fst gs) \/ ~ (amax q <= maxam)%nat \/ ~ (Z.of_nat (amax q) <= m)%Z -> t' d' q = t d' q).
Proof.
  intros Hd Hm. induction gs as [|[L g] r IH]; intros t Hg; cbn [run_groups].
  - exists t. split; [reflexivity|]. split; [intros q []|reflexivity].
  - inversion Hg as [|x' r' [G1 G2] G3]; subst. cbn [fst snd] in *.
    destruct (Z.leb_spec (Z.of_nat L) m) as [Hl|Hl].
    + destruct Hd as [Hd|Hd]; [|lia].
      destruct (@assigns_ok d MD MA g Hd t G1) as (t1 & A & B & C).
      { intros q H. apply G2 in H. lia. }
      rewrite A. cbn [sbind]. destruct (IH t1 G3) as (t' & A' & B' & C'). exists t'. split; [exact A'|]. split.
      * intros q H1 H2 H3. destruct (in_dec Nat.eq_dec (amax q) (map fst r)) as [I|I]; [apply B'; assumption|].
        cbn [map fst] in H1. destruct H1 as [H1|H1]; [|contradiction].
        rewrite C' by (right; left; exact I). apply B, G2. split; [symmetry; exact H1|exact H2].
      * intros d' q H'. cbn [map fst] in H'. rewrite C'.
        -- apply C. destruct H' as [H'|[H'|[H'|H']]]; [now left| | |]; right; intros I; apply G2 in I; destruct I as [I1 I2].
           ++ apply H'. left. symmetry. exact I1.
           ++ contradiction.
           ++ apply H'. rewrite I1. exact Hl.
        -- destruct H' as [H'|[H'|[H'|H']]]; [now left| | |]; right; [left|right; left|right; right]; [|exact H'..].
           intros I. apply H'. now right.
    + destruct (IH t G3) as (t' & A' & B' & C'). exists t'. split; [exact A'|]. split.
      * intros q H1 H2 H3. cbn [map fst] in H1. destruct H1 as [H1|H1]; [subst L; lia|]. apply B'; assumption.
      * intros d' q H'. apply C'. destruct H' as [H'|[H'|H']]; [now left| |right; right; exact H'].
        right; left. intros I. apply H'. now right.
Qed.

(** The table after initialisation with files generated for maximum [l]. *)
Theorem init_table l MD MA gs0 gs1 : (l < 60)%nat -> gen_fill 0 l = Some gs0 -> gen_fill 1 l = Some gs1 ->
  exists t, init_with gs0 gs1 MD MA = Some t /\
    forall d q, t d q = if ((d <=? Nat.min MD 1) && (amax q <=? Nat.min MA l))%nat then fn_name (kernel_of d q) else None.
Proof.
  intros Hl E0 E1. unfold gen_fill in *.
  destruct (@fill_groups_ok 0 l (seq 0 (S l)) (le_S _ _ (le_n 0)) Hl) as (gs & F & F1 & F2). rewrite E0 in F.
  apply some_inj in F; subst gs.
  destruct (@fill_groups_ok 1 l (seq 0 (S l)) (le_n 1) Hl) as (gs & F & F3 & F4). rewrite E1 in F.
  apply some_inj in F; subst gs.
  unfold init_with.
  destruct (@run_groups_ok 0 MD MA (macro MD MA 0) l gs0 (or_introl (Nat.le_0_l _)) (Z.le_refl _) null_table F2) as (t0 & A0 & B0 & C0).
  rewrite A0. cbn [sbind].
  destruct (@run_groups_ok 1 MD MA (macro MD MA 1) l gs1) with (t := t0) as (t & A & B & C); [| |exact F4|].
  { cbn [macro]. destruct (Nat.ltb_spec 0 MD); [left; lia|now right]. }
  { cbn [macro]. destruct (0 <? MD)%nat; lia. }
  exists t. split; [exact A|]. rewrite F1 in *. rewrite F3 in *. cbn [macro] in *. intros d q.
  assert (S0 : (amax q <= l)%nat -> In (amax q) (seq 0 (S l))) by (intros; apply in_seq; lia).
  assert (S1 : ~ (amax q <= l)%nat -> ~ In (amax q) (seq 0 (S l))) by (intros ? I; apply in_seq in I; lia).
  destruct (Nat.leb_spec (amax q) (Nat.min MA l)) as [Hq|Hq].
  - destruct d as [|[|d]].
    + cbn [Nat.leb andb]. rewrite C by (left; discriminate). apply B0; [apply S0; lia|lia|lia].
    + destruct (Nat.leb_spec 1 (Nat.min MD 1)) as [Hd|Hd]; cbn [andb].
      * destruct (Nat.ltb_spec 0 MD); [|lia]. apply B; [apply S0; lia|lia|lia].
      * destruct (Nat.ltb_spec 0 MD); [lia|]. rewrite C by (right; right; right; lia).
        rewrite C0 by (left; discriminate). reflexivity.
    + destruct (Nat.leb_spec (S (S d)) (Nat.min MD 1)); [lia|]. cbn [andb].
      rewrite C by (left; lia). rewrite C0 by (left; lia). reflexivity.
  - rewrite andb_false_r. rewrite C.
    + rewrite C0; [reflexivity|]. destruct (le_dec (amax q) l); [|right; left; apply S1; assumption].
      right; right; right. lia.
    + destruct (le_dec (amax q) l); [|right; left; apply S1; assumption].
      right; right; right. destruct (0 <? MD)%nat; lia.
Qed.

(** The files of the repository are those of maximum 7. *)
Theorem shipped_generated : gen_fill 0 7 = Some (shipped 0) /\ gen_fill 1 7 = Some (shipped 1).
Proof. split; vm_compute; reflexivity. Qed.

Theorem dispatch MD MA : exists t, simint_init MD MA = Some t /\
  forall d c pmax qmax tol, (d <= MD)%nat -> (amax c <= MA)%nat ->
    (early_exit tol pmax qmax = true -> compute MD MA t d c pmax qmax tol = Screened) /\
    (early_exit tol pmax qmax = false -> (d <= 1)%nat -> (amax c <= 7)%nat ->
       exists f, fn_name (kernel_of d c) = Some f /\ compute MD MA t d c pmax qmax tol = Called f (tol * tol)%Q) /\
    (early_exit tol pmax qmax = false -> (2 <= d \/ 8 <= amax c)%nat -> compute MD MA t d c pmax qmax tol = Undefined).
Proof.
  destruct shipped_generated as [E0 E1].
  destruct (@init_table 7 MD MA _ _ ltac:(lia) E0 E1) as (t & A & B). exists t. split; [exact A|].
  intros d c pmax qmax tol Hd Hc. unfold compute. split; [intros ->; reflexivity|].
  split; intros -> H.
  - intros H7. destruct (Nat.leb_spec d MD); [|lia]. destruct (Nat.leb_spec (amax c) MA); [|lia]. cbn [andb].
    rewrite B. destruct (Nat.leb_spec d (Nat.min MD 1)); [|lia]. destruct (Nat.leb_spec (amax c) (Nat.min MA 7)); [|lia].
    cbn [andb]. destruct (@line_ok d c H) as (x & _ & _ & _ & E); [lia|]. rewrite E. exists (as_f x). split; reflexivity.
  - destruct ((d <=? MD)%nat && (amax c <=? MA)%nat); [|reflexivity]. rewrite B.
    destruct (Nat.leb_spec d (Nat.min MD 1)), (Nat.leb_spec (amax c) (Nat.min MA 7)); cbn [andb]; try reflexivity. lia.
Qed.

(** Before [simint_init] every call that is not screened is undefined. *)
Lemma before_init MD MA d c pmax qmax tol : early_exit tol pmax qmax = false ->
  compute MD MA null_table d c pmax qmax tol = Undefined.
Proof. unfold compute. intros ->. destruct (_ && _); reflexivity. Qed.

Theorem build_refuted : exists MD MA t d c, simint_init MD MA = Some t /\ (d <= MD)%nat /\ (amax c <= MA)%nat /\
  compute MD MA t d c 1 1 0 = Undefined.
Proof.
  destruct (dispatch 0 8) as (t & A & B). exists 0, 8, t, 0, (QAM 8 0 0 0). split; [exact A|]. split; [lia|].
  split; [vm_compute; lia|]. apply B; [lia|vm_compute; lia|reflexivity|right; vm_compute; lia].
Qed.
