(** Proofs about the command lines (CmdLine.v). *)
From Coq Require Import String Ascii ZArith List Lia Bool DecimalString DecimalZ DecimalPos DecimalN.
Import ListNotations.
From Verif Require Import Base Cart VRRStep Naming CmdLine.
Local Open Scope string_scope.
Set Implicit Arguments.

(** * Numbers *)
Lemma digits_fold ds tail : forallb digit ds = true -> (forall c r, tail = String c r -> digit c = false) ->
  forall acc, digits (string_of_list_ascii ds ++ tail) acc = fold_left (fun acc c => 10 * acc + dval c)%Z ds acc.
Proof.
  intros D T. induction ds as [|c ds IH]; intros acc.
  - simpl. destruct tail as [|c r]; [reflexivity|]. simpl. now rewrite (T c r eq_refl).
  - simpl in D. apply andb_true_iff in D as [Dc D]. simpl. rewrite Dc. apply IH, D.
Qed.
Lemma digits_split s : exists ds tail, s = string_of_list_ascii ds ++ tail /\ forallb digit ds = true /\
  (forall c r, tail = String c r -> digit c = false) /\ (forall c r, s = String c r -> digit c = true -> ds <> []).
Proof.
  induction s as [|c s (ds & tail & -> & D & T & _)].
  - exists [], "". repeat split; intros; discriminate.
  - destruct (digit c) eqn:E.
    + exists (c :: ds), tail. simpl. rewrite E. repeat split; auto; intros; discriminate.
    + exists [], (String c (string_of_list_ascii ds ++ tail)). repeat split; simpl.
      * intros c' r' H. injection H as <- _. exact E.
      * intros c' r' H. injection H as <- _. congruence.
Qed.
Lemma space_split s : exists ws, s = string_of_list_ascii ws ++ skip_space s /\ forallb space ws = true /\
  (forall c r, skip_space s = String c r -> space c = false).
Proof.
  induction s as [|c s (ws & E & F & N)].
  - exists []. repeat split; intros; discriminate.
  - simpl. destruct (space c) eqn:S.
    + exists (c :: ws). simpl. rewrite S. repeat split; auto. now rewrite <- E.
    + exists []. repeat split. intros c' r' H. injection H as <- _. exact S.
Qed.
Lemma skip_space_app ws s : forallb space ws = true -> (forall c r, s = String c r -> space c = false) ->
  skip_space (string_of_list_ascii ws ++ s) = s.
Proof.
  intros W N. induction ws as [|c ws IH]; simpl.
  - destruct s as [|c r]; [reflexivity|]. simpl. now rewrite (N c r eq_refl).
  - simpl in W. apply andb_true_iff in W as [Wc W]. rewrite Wc. apply IH, W.
Qed.
Lemma digit_not_space c : digit c = true -> space c = false.
Proof.
  unfold digit, space. intros H. apply andb_true_iff in H as [A B]. apply Nat.leb_le in A, B.
  apply orb_false_iff. split; [apply andb_false_iff; right; apply Nat.leb_gt; lia|apply Nat.eqb_neq; lia].
Qed.
Lemma digit_not_sign c : digit c = true -> Ascii.eqb c "-" = false /\ Ascii.eqb c "+" = false.
Proof.
  intros H. split; apply Ascii.eqb_neq; intros ->; discriminate H.
Qed.
Lemma in_int_iff n : in_int n = true <-> (-2147483648 <= n <= 2147483647)%Z.
Proof. unfold in_int. rewrite andb_true_iff, !Z.leb_le. tauto. Qed.

Definition sgn_split (s : string) : Z * string :=
  match s with
  | String c r => if Ascii.eqb c "-" then ((-1)%Z, r) else if Ascii.eqb c "+" then (1%Z, r) else (1%Z, s)
  | "" => (1%Z, s) end.
Definition unsigned (sg : Z) (s : string) : option Z :=
  match s with
  | String c _ => if digit c then let n := (sg * digits s 0)%Z in if in_int n then Some n else None else None
  | "" => None
  end.
Lemma stoi_eq s : stoi s = let '(sg, r) := sgn_split (skip_space s) in unsigned sg r. Proof. reflexivity. Qed.

Theorem stoi_denotes s n : stoi s = Some n <-> denotes s n.
Proof.
  split.
  - intros H. rewrite stoi_eq in H. destruct (space_split s) as (ws & E & W & NS).
    set (t := skip_space s) in *. destruct (sgn_split t) as [sg r] eqn:SG.
    assert (exists st, t = st ++ r /\ sign_of st = Some sg) as (st & Et & St).
    { unfold sgn_split in SG. destruct t as [|c u].
      - injection SG as <- <-. exists "". auto.
      - destruct (Ascii.eqb c "-") eqn:E1; [apply Ascii.eqb_eq in E1; subst c; injection SG as <- <-; exists "-"; auto|].
        destruct (Ascii.eqb c "+") eqn:E2; [apply Ascii.eqb_eq in E2; subst c; injection SG as <- <-; exists "+"; auto|].
        injection SG as <- <-. exists "". auto. }
    unfold unsigned in H. destruct r as [|c u] eqn:R; [discriminate|]. destruct (digit c) eqn:D; [|discriminate].
    cbv zeta in H. destruct (in_int (sg * digits (String c u) 0)) eqn:I; [|discriminate]. apply some_inj in H. subst n.
    destruct (digits_split (String c u)) as (ds & tail & Eq & Dd & T & Ne). rewrite Eq in *.
    rewrite (@digits_fold ds tail Dd T) in *.
    exists ws, st, sg, ds, tail. repeat split; auto.
    + rewrite E at 1. now rewrite Et.
    + now apply (Ne c u).
    + apply in_int_iff, I.
    + apply in_int_iff, I.
  - intros (ws & sg & k & ds & tail & -> & W & Sg & Ne & D & T & -> & R).
    rewrite stoi_eq. destruct ds as [|c ds]; [congruence|].
    assert (Dc : digit c = true) by (simpl in D; now apply andb_true_iff in D as [? _]).
    set (body := string_of_list_ascii (c :: ds) ++ tail).
    assert (B : unsigned k body = Some (k * value (c :: ds))%Z).
    { unfold unsigned, body. change (string_of_list_ascii (c :: ds) ++ tail) with (String c (string_of_list_ascii ds ++ tail)).
      cbv iota beta. rewrite Dc. cbv zeta. change (String c (string_of_list_ascii ds ++ tail)) with (string_of_list_ascii (c :: ds) ++ tail).
      rewrite (@digits_fold (c :: ds) tail D T). fold (value (c :: ds)).
      now rewrite (proj2 (in_int_iff _) R). }
    rewrite skip_space_app; [|exact W|].
    + assert (S : sgn_split (sg ++ body) = (k, body)).
      { unfold sign_of in Sg. destruct (digit_not_sign _ Dc) as [M P].
        destruct (String.eqb_spec sg "") as [->|]; [injection Sg as <-; simpl; now rewrite M, P|].
        destruct (String.eqb_spec sg "+") as [->|]; [injection Sg as <-; reflexivity|].
        destruct (String.eqb_spec sg "-") as [->|]; [injection Sg as <-; reflexivity|discriminate]. }
      rewrite S. exact B.
    + intros c' r' H. unfold sign_of in Sg.
      destruct (String.eqb_spec sg "") as [->|]; [injection H as <- _; now apply digit_not_space|].
      destruct (String.eqb_spec sg "+") as [->|]; [injection H as <- _; reflexivity|].
      destruct (String.eqb_spec sg "-") as [->|]; [injection H as <- _; reflexivity|discriminate].
Qed.
Lemma denotes_fun s n m : denotes s n -> denotes s m -> n = m.
Proof. rewrite <- !stoi_denotes. congruence. Qed.
Lemma denotes_not_option s n : denotes s n -> forall c r, s = String "-" (String c r) -> digit c = true.
Proof.
  intros H c r ->. apply stoi_denotes in H. rewrite stoi_eq in H. simpl in H. unfold unsigned in H.
  destruct (digit c); [reflexivity|discriminate].
Qed.

(** * The decimal text of a number *)
Lemma str_digits u acc : digits (NilEmpty.string_of_uint u) (Z.of_N acc) =
  Z.of_N (match acc with N0 => Pos.of_uint u | Npos p => Npos (Pos.of_uint_acc u p) end).
Proof.
  revert acc. induction u as [|u IH|u IH|u IH|u IH|u IH|u IH|u IH|u IH|u IH|u IH]; intros acc.
  - destruct acc; reflexivity.
  - cbn [NilEmpty.string_of_uint digits]. change (digit "0") with true. cbv iota. change (dval "0") with 0%Z.
    replace (10 * Z.of_N acc + 0)%Z with (Z.of_N (10 * acc)) by lia. rewrite IH. destruct acc; reflexivity.
  - cbn [NilEmpty.string_of_uint digits]. change (digit "1") with true. cbv iota. change (dval "1") with 1%Z.
    replace (10 * Z.of_N acc + 1)%Z with (Z.of_N (10 * acc + 1)) by lia. rewrite IH. destruct acc as [|p]; [reflexivity|].
    cbn [N.mul N.add Pos.of_uint_acc]. do 3 f_equal; lia.
  - cbn [NilEmpty.string_of_uint digits]. change (digit "2") with true. cbv iota. change (dval "2") with 2%Z.
    replace (10 * Z.of_N acc + 2)%Z with (Z.of_N (10 * acc + 2)) by lia. rewrite IH. destruct acc as [|p]; [reflexivity|].
    cbn [N.mul N.add Pos.of_uint_acc]. do 3 f_equal; lia.
  - cbn [NilEmpty.string_of_uint digits]. change (digit "3") with true. cbv iota. change (dval "3") with 3%Z.
    replace (10 * Z.of_N acc + 3)%Z with (Z.of_N (10 * acc + 3)) by lia. rewrite IH. destruct acc as [|p]; [reflexivity|].
    cbn [N.mul N.add Pos.of_uint_acc]. do 3 f_equal; lia.
  - cbn [NilEmpty.string_of_uint digits]. change (digit "4") with true. cbv iota. change (dval "4") with 4%Z.
    replace (10 * Z.of_N acc + 4)%Z with (Z.of_N (10 * acc + 4)) by lia. rewrite IH. destruct acc as [|p]; [reflexivity|].
    cbn [N.mul N.add Pos.of_uint_acc]. do 3 f_equal; lia.
  - cbn [NilEmpty.string_of_uint digits]. change (digit "5") with true. cbv iota. change (dval "5") with 5%Z.
    replace (10 * Z.of_N acc + 5)%Z with (Z.of_N (10 * acc + 5)) by lia. rewrite IH. destruct acc as [|p]; [reflexivity|].
    cbn [N.mul N.add Pos.of_uint_acc]. do 3 f_equal; lia.
  - cbn [NilEmpty.string_of_uint digits]. change (digit "6") with true. cbv iota. change (dval "6") with 6%Z.
    replace (10 * Z.of_N acc + 6)%Z with (Z.of_N (10 * acc + 6)) by lia. rewrite IH. destruct acc as [|p]; [reflexivity|].
    cbn [N.mul N.add Pos.of_uint_acc]. do 3 f_equal; lia.
  - cbn [NilEmpty.string_of_uint digits]. change (digit "7") with true. cbv iota. change (dval "7") with 7%Z.
    replace (10 * Z.of_N acc + 7)%Z with (Z.of_N (10 * acc + 7)) by lia. rewrite IH. destruct acc as [|p]; [reflexivity|].
    cbn [N.mul N.add Pos.of_uint_acc]. do 3 f_equal; lia.
  - cbn [NilEmpty.string_of_uint digits]. change (digit "8") with true. cbv iota. change (dval "8") with 8%Z.
    replace (10 * Z.of_N acc + 8)%Z with (Z.of_N (10 * acc + 8)) by lia. rewrite IH. destruct acc as [|p]; [reflexivity|].
    cbn [N.mul N.add Pos.of_uint_acc]. do 3 f_equal; lia.
  - cbn [NilEmpty.string_of_uint digits]. change (digit "9") with true. cbv iota. change (dval "9") with 9%Z.
    replace (10 * Z.of_N acc + 9)%Z with (Z.of_N (10 * acc + 9)) by lia. rewrite IH. destruct acc as [|p]; [reflexivity|].
    cbn [N.mul N.add Pos.of_uint_acc]. do 3 f_equal; lia.
Qed.
Lemma ustr_value u : digits (NilZero.string_of_uint u) 0 = Z.of_N (Pos.of_uint u).
Proof.
  change 0%Z with (Z.of_N 0). unfold NilZero.string_of_uint. destruct u; try (exact (str_digits _ 0)). reflexivity.
Qed.
Lemma ustr_first u : exists c r, NilZero.string_of_uint u = String c r /\ digit c = true.
Proof. destruct u; simpl; do 2 eexists; (split; [reflexivity|reflexivity]). Qed.

Theorem stoi_pystr n : (-2147483648 <= n <= 2147483647)%Z -> stoi (pystr n) = Some n.
Proof.
  intros R. unfold pystr. rewrite stoi_eq.
  assert (V : Z.of_int (Z.to_int n) = n) by apply DecimalZ.of_to.
  destruct (Z.to_int n) as [u|u]; unfold NilZero.string_of_int.
  - destruct (ustr_first u) as (c & r & E & D). pose proof (ustr_value u) as Hv. rewrite E in *.
    assert (SK : skip_space (String c r) = String c r) by (simpl; now rewrite (digit_not_space _ D)).
    rewrite SK. assert (SG : sgn_split (String c r) = (1%Z, String c r)).
    { unfold sgn_split. destruct (digit_not_sign _ D) as [-> ->]. reflexivity. }
    rewrite SG. unfold unsigned. rewrite D. cbv zeta. rewrite Hv.
    assert (N1 : (1 * Z.of_N (Pos.of_uint u))%Z = n) by (rewrite Z.mul_1_l; exact V).
    rewrite N1, (proj2 (in_int_iff n) R). reflexivity.
  - destruct (ustr_first u) as (c & r & E & D). pose proof (ustr_value u) as Hv. rewrite E in *.
    change (skip_space (String "-" (String c r))) with (String "-" (String c r)).
    change (sgn_split (String "-" (String c r))) with ((-1)%Z, String c r).
    cbv iota beta. unfold unsigned. rewrite D. cbv zeta. rewrite Hv.
    assert (N1 : (-1 * Z.of_N (Pos.of_uint u))%Z = n).
    { cbn [Z.of_int] in V. unfold Z.of_uint in V. lia. }
    rewrite N1, (proj2 (in_int_iff n) R). reflexivity.
Qed.
Lemma denotes_pystr n : (-2147483648 <= n <= 2147483647)%Z -> denotes (pystr n) n.
Proof. intros. now apply stoi_denotes, stoi_pystr. Qed.

(** * The common options *)
Lemma skip_cons (A : Type) i (args : list A) a l : skipn i args = a :: l ->
  nth_error args i = Some a /\ skipn (S i) args = l /\ i < List.length args.
Proof.
  revert args. induction i as [|i IH]; intros [|x args] H; simpl in *; try discriminate.
  - injection H as -> ->. repeat split. lia.
  - destruct (IH args H) as (A1 & A2 & A3). repeat split; auto. lia.
Qed.
Lemma skip_nil (A : Type) i (args : list A) : skipn i args = [] -> List.length args <= i.
Proof. intros H. apply (f_equal (@List.length A)) in H. rewrite skipn_length in H. simpl in H. lia. Qed.

Lemma kname_inj k k' : kname k = kname k' -> k = k'.
Proof. destruct k, k'; intros H; auto; discriminate H. Qed.
Lemma kname_p k : kname k <> "-p". Proof. destruct k; discriminate. Qed.

Definition app_item (o : opts) (i : item) : opts := match i with ISet k n => oset k n o | IPerm => operm o | IOther _ => o end.

Lemma common_step f i args o ret a l : skipn i args = a :: l ->
  common_loop (S f) i args o ret =
    if a =? "-ve" then obnd (int_arg (S i) args) (fun '(n, i) => common_loop f i args (oset VE n o) ret)
    else if a =? "-vg" then obnd (int_arg (S i) args) (fun '(n, i) => common_loop f i args (oset VG n o) ret)
    else if a =? "-he" then obnd (int_arg (S i) args) (fun '(n, i) => common_loop f i args (oset HE n o) ret)
    else if a =? "-hg" then obnd (int_arg (S i) args) (fun '(n, i) => common_loop f i args (oset HG n o) ret)
    else if a =? "-p" then common_loop f (S i) args (operm o) ret
    else common_loop f (S i) args o (ret ++ [a])%list.
Proof.
  intros H. destruct (@skip_cons _ _ _ _ _ H) as (N & _ & L). cbn [common_loop].
  rewrite (proj2 (Nat.ltb_lt _ _) L). unfold next_arg. rewrite N. reflexivity.
Qed.
Lemma common_step_key k f i args o ret l : skipn i args = kname k :: l ->
  common_loop (S f) i args o ret = obnd (int_arg (S i) args) (fun '(n, i) => common_loop f i args (oset k n o) ret).
Proof. intros H. rewrite (@common_step _ _ _ _ _ _ _ H). destruct k; reflexivity. Qed.
Lemma common_step_other f i args o ret a l : skipn i args = a :: l -> ~ is_common a ->
  common_loop (S f) i args o ret = common_loop f (S i) args o (ret ++ [a])%list.
Proof.
  intros H N. rewrite (@common_step _ _ _ _ _ _ _ H).
  destruct (String.eqb_spec a "-ve"); [destruct N; left; now exists VE|].
  destruct (String.eqb_spec a "-vg"); [destruct N; left; now exists VG|].
  destruct (String.eqb_spec a "-he"); [destruct N; left; now exists HE|].
  destruct (String.eqb_spec a "-hg"); [destruct N; left; now exists HG|].
  destruct (String.eqb_spec a "-p"); [destruct N; now right|]. reflexivity.
Qed.
Lemma common_cases a : (exists k, a = kname k) \/ a = "-p" \/ ~ is_common a.
Proof.
  destruct (string_dec a "-ve"); [left; now exists VE|]. destruct (string_dec a "-vg"); [left; now exists VG|].
  destruct (string_dec a "-he"); [left; now exists HE|]. destruct (string_dec a "-hg"); [left; now exists HG|].
  destruct (string_dec a "-p"); [auto|]. right; right. intros [[k ->]| ->]; [destruct k; auto|auto].
Qed.
Lemma common_end f i args o ret : skipn i args = [] -> common_loop (S f) i args o ret = Val (o, ret).
Proof. intros H. apply skip_nil in H. cbn [common_loop]. now rewrite (proj2 (Nat.ltb_ge _ _) H). Qed.
Lemma int_arg_cons i args v l : skipn i args = v :: l ->
  int_arg i args = match stoi v with Some n => Val (n, S i) | None => Fail end.
Proof. intros H. destruct (@skip_cons _ _ _ _ _ H) as (N & _ & _). unfold int_arg, next_arg. rewrite N. reflexivity. Qed.
Lemma int_arg_nil i args : skipn i args = [] -> int_arg i args = Fail.
Proof. intros H. apply skip_nil in H. apply nth_error_None in H. unfold int_arg, next_arg. now rewrite H. Qed.

Lemma common_reads l is : reads l is -> forall fuel i args o ret, skipn i args = l -> List.length l < fuel ->
  common_loop fuel i args o ret = Val (fold_left app_item is o, ret ++ others is)%list.
Proof.
  induction 1 as [|k v n l is D R IH|l is R IH|a l is N R IH]; intros [|f] i args o ret H L; simpl in L; try lia.
  - rewrite common_end; auto. simpl. now rewrite app_nil_r.
  - rewrite (@common_step_key _ _ _ _ _ _ _ H). destruct (@skip_cons _ _ _ _ _ H) as (_ & H1 & _).
    rewrite (@int_arg_cons _ _ _ _ H1). rewrite (proj2 (stoi_denotes v n) D). cbn [obnd].
    destruct (@skip_cons _ _ _ _ _ H1) as (_ & H2 & _). rewrite (@IH f _ _ _ _ H2); [reflexivity|lia].
  - rewrite (@common_step _ _ _ _ _ _ _ H). cbn [String.eqb Ascii.eqb Bool.eqb]. destruct (@skip_cons _ _ _ _ _ H) as (_ & H1 & _).
    change ("-p" =? "-ve") with false. change ("-p" =? "-vg") with false. change ("-p" =? "-he") with false.
    change ("-p" =? "-hg") with false. change ("-p" =? "-p") with true. cbv iota.
    rewrite (@IH f _ _ _ _ H1); [reflexivity|lia].
  - rewrite (@common_step_other _ _ _ _ _ _ _ H N). destruct (@skip_cons _ _ _ _ _ H) as (_ & H1 & _).
    rewrite (@IH f _ _ _ _ H1); [|lia]. simpl. now rewrite <- app_assoc.
Qed.

(** An option that wants a value and has none that is a number. *)
Definition bad_value (l : list string) : Prop :=
  exists pre is k rest, l = (pre ++ kname k :: rest)%list /\ reads pre is /\
    (rest = [] \/ exists v rest', rest = v :: rest' /\ forall n, ~ denotes v n).

Lemma reads_app l is l' is' : reads l is -> reads l' is' -> reads (l ++ l')%list (is ++ is')%list.
Proof. induction 1; intros; simpl; [assumption| | |]; constructor; auto. Qed.

Lemma read_or_bad : forall m l, List.length l <= m -> (exists is, reads l is) \/ bad_value l.
Proof.
  assert (X : forall l0 is0 l, reads l0 is0 -> (exists is, reads l is) \/ bad_value l ->
    (exists is, reads (l0 ++ l) is) \/ bad_value (l0 ++ l)).
  { intros l0 is0 l R [(is & H)|(pre & is & k & rest & -> & Rp & B)].
    - left. exists (is0 ++ is)%list. now apply reads_app.
    - right. exists (l0 ++ pre)%list, (is0 ++ is)%list, k, rest. rewrite app_assoc. repeat split; auto. now apply reads_app. }
  induction m as [|m IH]; intros [|a l] L; simpl in L; try lia; try (left; exists []; constructor).
  destruct (common_cases a) as [[k ->]|[-> |N]].
  - destruct l as [|v l].
    + right. exists [], [], k, []. split; [reflexivity|]. split; [constructor|now left].
    + destruct (stoi v) as [n|] eqn:E.
      * apply stoi_denotes in E. apply (@X [kname k; v] [ISet k n]); [repeat constructor; auto|]. apply IH. simpl in L. lia.
      * right. exists [], [], k, (v :: l). split; [reflexivity|]. split; [constructor|]. right. exists v, l. split; auto.
        intros n D. apply stoi_denotes in D. congruence.
  - apply (@X ["-p"] [IPerm]); [repeat constructor|]. apply IH. lia.
  - apply (@X [a] [IOther a]); [repeat constructor; auto|]. apply IH. lia.
Qed.

Lemma reads_cons_inv a l is : reads (a :: l) is ->
  (exists k v n l' is', a = kname k /\ l = v :: l' /\ denotes v n /\ reads l' is' /\ is = ISet k n :: is') \/
  (a = "-p" /\ exists is', reads l is' /\ is = IPerm :: is') \/
  (~ is_common a /\ exists is', reads l is' /\ is = IOther a :: is').
Proof.
  intros H. inversion H; subst.
  - left. do 5 eexists. split; [reflexivity|]. split; [reflexivity|]. eauto.
  - right; left. eauto.
  - right; right. eauto.
Qed.
Lemma reads_suffix pre is0 : reads pre is0 -> forall l is, reads (pre ++ l)%list is ->
  exists is', reads l is' /\ is = (is0 ++ is')%list.
Proof.
  induction 1 as [|k v n p is0 D R IH|p is0 R IH|a p is0 N R IH]; intros l is H; simpl in H.
  - exists is. auto.
  - apply reads_cons_inv in H as [(k' & v' & n' & l' & is' & E & E' & D' & R' & ->)|[[E _]|[N _]]].
    + injection E' as <- <-. apply kname_inj in E as <-. rewrite (denotes_fun D' D).
      destruct (IH _ _ R') as (is2 & R2 & ->). exists is2. auto.
    + destruct (kname_p _ E).
    + destruct N. left. now exists k.
  - apply reads_cons_inv in H as [(k' & v' & n' & l' & is' & E & _)|[[_ (is' & R' & ->)]|[N _]]].
    + destruct (kname_p _ (eq_sym E)).
    + destruct (IH _ _ R') as (is2 & R2 & ->). exists is2. auto.
    + destruct N. now right.
  - apply reads_cons_inv in H as [(k' & v' & n' & l' & is' & E & _)|[[E _]|[_ (is' & R' & ->)]]].
    + destruct N. left. now exists k'.
    + destruct N. now right.
    + destruct (IH _ _ R') as (is2 & R2 & ->). exists is2. auto.
Qed.
Lemma reads_fun l is is' : reads l is -> reads l is' -> is = is'.
Proof.
  intros H H'. rewrite <- (app_nil_r l) in H'. destruct (reads_suffix H _ H') as (is2 & R & ->).
  inversion R. now rewrite app_nil_r.
Qed.
Lemma read_not_bad l is : reads l is -> ~ bad_value l.
Proof.
  intros H (pre & is0 & k & rest & -> & R & B). destruct (reads_suffix R _ H) as (is2 & R2 & _).
  apply reads_cons_inv in R2 as [(k' & v' & n' & l' & is' & E & E' & D' & _)|[[E _]|[N _]]].
  - subst rest. destruct B as [B|(v & rest' & B & Nd)]; [discriminate|]. injection B as -> ->. exact (Nd _ D').
  - destruct (kname_p _ E).
  - apply N. left. now exists k.
Qed.

Lemma common_bad pre is0 : reads pre is0 -> forall k rest, (rest = [] \/ exists v rest', rest = v :: rest' /\ forall n, ~ denotes v n) ->
  forall fuel i args o ret, skipn i args = (pre ++ kname k :: rest)%list -> List.length pre + S (List.length rest) < fuel ->
  common_loop fuel i args o ret = Fail.
Proof.
  induction 1 as [|k' v n p is0 D R IH|p is0 R IH|a p is0 N R IH]; intros k rest B [|f] i args o ret H L; simpl in L; try lia.
  - simpl in H. rewrite (@common_step_key _ _ _ _ _ _ _ H). destruct (@skip_cons _ _ _ _ _ H) as (_ & H1 & _).
    destruct B as [->|(v & rest' & -> & Nd)].
    + now rewrite (@int_arg_nil _ _ H1).
    + rewrite (@int_arg_cons _ _ _ _ H1). destruct (stoi v) as [n|] eqn:E; [|reflexivity]. apply stoi_denotes in E. destruct (Nd _ E).
  - simpl in H. rewrite (@common_step_key _ _ _ _ _ _ _ H). destruct (@skip_cons _ _ _ _ _ H) as (_ & H1 & _).
    rewrite (@int_arg_cons _ _ _ _ H1), (proj2 (stoi_denotes v n) D). cbn [obnd]. destruct (@skip_cons _ _ _ _ _ H1) as (_ & H2 & _).
    eapply IH; eauto. simpl in L. lia.
  - simpl in H. rewrite (@common_step _ _ _ _ _ _ _ H). destruct (@skip_cons _ _ _ _ _ H) as (_ & H1 & _).
    change ("-p" =? "-ve") with false. change ("-p" =? "-vg") with false. change ("-p" =? "-he") with false.
    change ("-p" =? "-hg") with false. change ("-p" =? "-p") with true. cbv iota. eapply IH; eauto. lia.
  - simpl in H. rewrite (@common_step_other _ _ _ _ _ _ _ H N). destruct (@skip_cons _ _ _ _ _ H) as (_ & H1 & _). eapply IH; eauto. lia.
Qed.

(** The values. *)
Lemma oget_set k k' n o : oget k (oset k' n o) = match k, k' with VE, VE | VG, VG | HE, HE | HG, HG => n | _, _ => oget k o end.
Proof. destruct k, k'; reflexivity. Qed.
Lemma assigned_fold k is : assigned k is (oget k (fold_left app_item is default)).
Proof.
  induction is as [|i is IH] using rev_ind.
  - right. split; [intros n []|destruct k; reflexivity].
  - rewrite fold_left_app. cbn [fold_left].
    assert (Keep : (forall n, i <> ISet k n) -> oget k (app_item (fold_left app_item is default) i) = oget k (fold_left app_item is default) ->
      assigned k (is ++ [i]) (oget k (app_item (fold_left app_item is default) i))).
    { intros N ->. destruct IH as [(pre & post & E & P)|[P V]].
      - left. exists pre, (post ++ [i])%list. split; [now rewrite E at 1; rewrite <- app_assoc|].
        intros n H. apply in_app_iff in H as [H|[H|[]]]; [eapply P; eauto|now apply (N n)].
      - right. split; [|exact V]. intros n H. apply in_app_iff in H as [H|[H|[]]]; [eapply P; eauto|now apply (N n)]. }
    destruct i as [k' n| |a].
    + assert (Ek : {k = k'} + {k <> k'}) by (decide equality). destruct Ek as [<-|Nk].
      * left. exists is, []. split; [|intros m []]. cbn [app_item]. rewrite oget_set. now destruct k.
      * apply Keep; [congruence|]. cbn [app_item]. rewrite oget_set. destruct k, k'; congruence.
    + apply Keep; [congruence|]. destruct k; reflexivity.
    + apply Keep; [congruence|]. reflexivity.
Qed.
Lemma permuting_fold is : permuting is (o_perm (fold_left app_item is default)).
Proof.
  induction is as [|i is IH] using rev_ind; [right; split; [intros []|reflexivity]|].
  rewrite fold_left_app. cbn [fold_left]. unfold permuting in *. destruct i as [k n| |a].
  - replace (o_perm (app_item _ (ISet k n))) with (o_perm (fold_left app_item is default)) by (destruct k; reflexivity).
    destruct IH as [[H V]|[H V]]; [left|right]; (split; [|exact V]); rewrite in_app_iff; [tauto|].
    intros [?|[?|[]]]; [tauto|discriminate].
  - left. split; [apply in_app_iff; right; now left|reflexivity].
  - cbn [app_item]. destruct IH as [[H V]|[H V]]; [left|right]; (split; [|exact V]); rewrite in_app_iff; [tauto|].
    intros [?|[?|[]]]; [tauto|discriminate].
Qed.

Lemma tl_skip (A : Type) (l : list A) : skipn 1 l = tl l. Proof. destruct l; reflexivity. Qed.
Lemma tl_len (A : Type) (l : list A) : List.length (tl l) <= List.length l. Proof. destruct l; simpl; lia. Qed.

Lemma parse_common_reads argv is : reads (tl argv) is ->
  parse_common argv = Val (fold_left app_item is default, others is).
Proof.
  intros R. unfold parse_common. rewrite (common_reads R); [reflexivity|apply tl_skip|].
  pose proof (tl_len argv). lia.
Qed.
Theorem parse_common_spec argv :
  (forall is, reads (tl argv) is -> exists o, parse_common argv = Val (o, others is) /\
     (forall k, assigned k is (oget k o)) /\ permuting is (o_perm o)) /\
  (bad_value (tl argv) -> parse_common argv = Fail) /\
  ((exists! is, reads (tl argv) is) \/ bad_value (tl argv)) /\
  ~ ((exists is, reads (tl argv) is) /\ bad_value (tl argv)).
Proof.
  repeat split.
  - intros is R. exists (fold_left app_item is default). split; [now apply parse_common_reads|].
    split; [intros k; apply assigned_fold|apply permuting_fold].
  - intros (pre & is & k & rest & E & R & B). unfold parse_common. eapply (@common_bad _ _ R k rest B).
    + rewrite tl_skip. exact E.
    + pose proof (tl_len argv) as T. rewrite E, app_length in T. simpl in T. lia.
  - destruct (@read_or_bad _ (tl argv) (le_n _)) as [(is & R)|B]; [|now right].
    left. exists is. split; [exact R|]. intros is' R'. eapply reads_fun; eauto.
  - intros ((is & R) & B). exact (read_not_bad R B).
Qed.

(** * The options of one program *)
Definition app_own (p : prog) (s : sopts) (j : oitem) : sopts :=
  match j with
  | JOut x => set_f x s | JHdr x => set_h x s | JAm l => set_am l s
  | JFlag a => match flag p a with Some g => g s | None => s end
  end.
Lemma flag_iff p a : (exists g, flag p a = Some g) <-> In a (flags_of p).
Proof.
  destruct p; cbn [flag flags_of].
  - split; [intros (g & H); discriminate|intros []].
  - destruct (String.eqb_spec a "-center_j") as [->|N1]; [split; [now left|eauto]|].
    destruct (String.eqb_spec a "-center_k") as [->|N2]; [split; [right; now left|eauto]|].
    destruct (String.eqb_spec a "-center_l") as [->|N3]; [split; [right; right; now left|eauto]|].
    split; [intros (g & H); discriminate|intros [E|[E|[E|[]]]]; congruence].
  - destruct (String.eqb_spec a "-bra_i") as [->|N1]; [split; [now left|eauto]|].
    destruct (String.eqb_spec a "-ket_k") as [->|N2]; [split; [right; now left|eauto]|].
    destruct (String.eqb_spec a "-bra") as [->|N3]; [split; [right; right; now left|eauto]|].
    split; [intros (g & H); discriminate|intros [E|[E|[E|[]]]]; congruence].
Qed.
Lemma flag_other p a : In a (flags_of p) -> a <> "-o" /\ a <> "-oh" /\ a <> "-q" /\ ~ is_common a.
Proof.
  intros H. assert (E : In a ["-center_j"; "-center_k"; "-center_l"; "-bra_i"; "-ket_k"; "-bra"]).
  { destruct p; simpl in *; tauto. }
  simpl in E. repeat split; try (intros ->; clear H; intuition discriminate).
  intros [[k ->]| ->]; [destruct k|]; clear H; intuition discriminate.
Qed.

Lemma own_step p f i args s a l : skipn i args = a :: l ->
  own_loop p (S f) i args s =
    if a =? "-o" then obnd (next_arg (S i) args) (fun '(x, i) => own_loop p f i args (set_f x s))
    else if a =? "-oh" then obnd (next_arg (S i) args) (fun '(x, i) => own_loop p f i args (set_h x s))
    else if a =? "-q" then obnd (int_args (nq p) (S i) args) (fun '(l, i) => own_loop p f i args (set_am l s))
    else match flag p a with Some g => own_loop p f (S i) args (g s) | None => Fail end.
Proof.
  intros H. destruct (@skip_cons _ _ _ _ _ H) as (N & _ & L). cbn [own_loop].
  rewrite (proj2 (Nat.ltb_lt _ _) L). unfold next_arg at 1. rewrite N. reflexivity.
Qed.
Lemma own_end p f i args s : skipn i args = [] -> own_loop p (S f) i args s = Val s.
Proof. intros H. apply skip_nil in H. cbn [own_loop]. now rewrite (proj2 (Nat.ltb_ge _ _) H). Qed.
Lemma next_arg_cons i args v l : skipn i args = v :: l -> next_arg i args = Val (v, S i).
Proof. intros H. destruct (@skip_cons _ _ _ _ _ H) as (N & _ & _). unfold next_arg. now rewrite N. Qed.
Lemma next_arg_nil i args : skipn i args = [] -> next_arg i args = Fail.
Proof. intros H. apply skip_nil in H. apply nth_error_None in H. unfold next_arg. now rewrite H. Qed.

Lemma int_args_ok vs ns : Forall2 denotes vs ns -> forall i args l, skipn i args = (vs ++ l)%list ->
  int_args (List.length vs) i args = Val (ns, List.length vs + i) /\ skipn (List.length vs + i) args = l.
Proof.
  induction 1 as [|v n vs ns D F IH]; intros i args l H; simpl in *; [auto|].
  rewrite (@int_arg_cons _ _ _ _ H), (proj2 (stoi_denotes v n) D). cbn [obnd].
  destruct (@skip_cons _ _ _ _ _ H) as (_ & H1 & _). destruct (IH _ _ _ H1) as [E S].
  rewrite E. cbn [obnd]. rewrite <- plus_n_Sm in *. auto.
Qed.
Lemma int_args_inv k : forall i args r, int_args k i args = Val r -> exists vs ns l, skipn i args = (vs ++ l)%list /\
  Forall2 denotes vs ns /\ List.length vs = k /\ r = (ns, k + i).
Proof.
  induction k as [|k IH]; intros i args r H; simpl in H.
  - injection H as <-. exists [], [], (skipn i args). auto.
  - destruct (skipn i args) as [|v l] eqn:E; [now rewrite (@int_arg_nil _ _ E) in H|].
    rewrite (@int_arg_cons _ _ _ _ E) in H. destruct (stoi v) as [n|] eqn:D; [|discriminate]. cbn [obnd] in H.
    destruct (int_args k (S i) args) as [[ns j]| |] eqn:I; try discriminate. injection H as <-.
    destruct (IH _ _ _ I) as (vs & ns' & l' & E' & F & L & Er). injection Er as -> ->.
    destruct (@skip_cons _ _ _ _ _ E) as (_ & H1 & _). rewrite E' in H1. subst l.
    exists (v :: vs), (n :: ns'), l'. rewrite <- plus_n_Sm. repeat split; simpl; auto. constructor; auto. now apply stoi_denotes.
Qed.
Lemma int_args_stuck k : forall i args, int_args k i args <> Stuck.
Proof.
  induction k as [|k IH]; intros i args; simpl; [discriminate|].
  destruct (skipn i args) as [|v l] eqn:E; [rewrite (@int_arg_nil _ _ E); discriminate|].
  rewrite (@int_arg_cons _ _ _ _ E). destruct (stoi v); cbn [obnd]; [|discriminate].
  specialize (IH (S i) args). destruct (int_args k (S i) args) as [[ns j]| |]; cbn [obnd]; [discriminate|discriminate|congruence].
Qed.

Lemma own_reads p l is : oreads p l is -> forall fuel i args s, skipn i args = l -> List.length l < fuel ->
  own_loop p fuel i args s = Val (fold_left (app_own p) is s).
Proof.
  induction 1 as [|x l is R IH|x l is R IH|vs ns l is F L0 R IH|a l is I R IH]; intros [|f] i args s H L; simpl in L; try lia.
  - now rewrite own_end.
  - rewrite (@own_step _ _ _ _ _ _ _ H). change ("-o" =? "-o") with true. cbv iota.
    destruct (@skip_cons _ _ _ _ _ H) as (_ & H1 & _). rewrite (@next_arg_cons _ _ _ _ H1). cbn [obnd].
    destruct (@skip_cons _ _ _ _ _ H1) as (_ & H2 & _). rewrite (@IH f _ _ _ H2); [reflexivity|lia].
  - rewrite (@own_step _ _ _ _ _ _ _ H). change ("-oh" =? "-o") with false. change ("-oh" =? "-oh") with true. cbv iota.
    destruct (@skip_cons _ _ _ _ _ H) as (_ & H1 & _). rewrite (@next_arg_cons _ _ _ _ H1). cbn [obnd].
    destruct (@skip_cons _ _ _ _ _ H1) as (_ & H2 & _). rewrite (@IH f _ _ _ H2); [reflexivity|lia].
  - rewrite (@own_step _ _ _ _ _ _ _ H). change ("-q" =? "-o") with false. change ("-q" =? "-oh") with false.
    change ("-q" =? "-q") with true. cbv iota. destruct (@skip_cons _ _ _ _ _ H) as (_ & H1 & _).
    destruct (int_args_ok F _ _ _ H1) as [E S]. rewrite <- L0, E. cbn [obnd].
    rewrite (@IH f _ _ _ S); [reflexivity|]. rewrite app_length in L. lia.
  - rewrite (@own_step _ _ _ _ _ _ _ H). destruct (flag_other _ _ I) as (N1 & N2 & N3 & _).
    apply String.eqb_neq in N1, N2, N3. rewrite N1, N2, N3. cbn [fold_left app_own].
    apply flag_iff in I as (g & ->). destruct (@skip_cons _ _ _ _ _ H) as (_ & H1 & _).
    rewrite (@IH f _ _ _ H1); [reflexivity|lia].
Qed.
Lemma own_inv p : forall fuel i args s r, own_loop p fuel i args s = Val r -> exists is, oreads p (skipn i args) is.
Proof.
  induction fuel as [|f IH]; intros i args s r H; [discriminate|].
  destruct (skipn i args) as [|a l] eqn:E; [exists []; constructor|].
  rewrite (@own_step _ _ _ _ _ _ _ E) in H. destruct (@skip_cons _ _ _ _ _ E) as (_ & H1 & _).
  destruct (String.eqb_spec a "-o") as [Ea|].
  { subst a. destruct l as [|x l]; [now rewrite (@next_arg_nil _ _ H1) in H|]. rewrite (@next_arg_cons _ _ _ _ H1) in H. cbn [obnd] in H.
    apply IH in H as (is & R). destruct (@skip_cons _ _ _ _ _ H1) as (_ & H2 & _). rewrite H2 in R. eexists. constructor; eauto. }
  destruct (String.eqb_spec a "-oh") as [Ea|].
  { subst a. destruct l as [|x l]; [now rewrite (@next_arg_nil _ _ H1) in H|]. rewrite (@next_arg_cons _ _ _ _ H1) in H. cbn [obnd] in H.
    apply IH in H as (is & R). destruct (@skip_cons _ _ _ _ _ H1) as (_ & H2 & _). rewrite H2 in R. eexists. eapply OR_hdr; eauto. }
  destruct (String.eqb_spec a "-q") as [Ea|].
  { subst a. destruct (int_args (nq p) (S i) args) as [[ns j]| |] eqn:I; try discriminate. cbn [obnd] in H.
    apply IH in H as (is & R). destruct (int_args_inv _ _ _ I) as (vs & ns' & l' & E' & F & L & Er). injection Er as -> ->.
    rewrite E' in H1. subst l. rewrite <- L in R. destruct (int_args_ok F _ _ _ E') as [_ S]. rewrite S in R.
    eexists. eapply OR_am; eauto. }
  destruct (flag p a) as [g|] eqn:G; [|discriminate]. apply IH in H as (is & R). rewrite H1 in R.
  eexists. eapply OR_flag; [|eauto]. apply flag_iff. eauto.
Qed.
Lemma own_stuck p : forall fuel i args s, List.length (skipn i args) < fuel -> own_loop p fuel i args s <> Stuck.
Proof.
  induction fuel as [|f IH]; intros i args s L; [lia|].
  destruct (skipn i args) as [|a l] eqn:E; [rewrite (@own_end _ _ _ _ _ E); discriminate|]. simpl in L.
  rewrite (@own_step _ _ _ _ _ _ _ E). destruct (@skip_cons _ _ _ _ _ E) as (_ & H1 & _).
  assert (Nx : forall g, obnd (next_arg (S i) args) (fun '(x, i) => own_loop p f i args (g x)) <> Stuck).
  { intros g. destruct l as [|x l]; [rewrite (@next_arg_nil _ _ H1); discriminate|]. rewrite (@next_arg_cons _ _ _ _ H1). cbn [obnd].
    apply IH. destruct (@skip_cons _ _ _ _ _ H1) as (_ & -> & _). simpl in L. lia. }
  destruct (a =? "-o"); [apply Nx|]. destruct (a =? "-oh"); [apply Nx|].
  destruct (a =? "-q").
  { pose proof (@int_args_stuck (nq p) (S i) args) as NS. destruct (int_args (nq p) (S i) args) as [[ns j]| |] eqn:I; cbn [obnd]; try congruence.
    destruct (int_args_inv _ _ _ I) as (vs & ns' & l' & E' & F & L' & Er). injection Er as -> ->.
    apply IH. destruct (int_args_ok F _ _ _ E') as [_ S]. rewrite L' in S. rewrite S.
    rewrite E' in H1. subst l. rewrite app_length in L. lia. }
  destruct (flag p a); [|discriminate]. apply IH. rewrite H1. lia.
Qed.

(** The reading is unique. *)
Lemma oreads_cons_inv p a l is : oreads p (a :: l) is ->
  (a = "-o" /\ exists x l' is', l = x :: l' /\ oreads p l' is' /\ is = JOut x :: is') \/
  (a = "-oh" /\ exists x l' is', l = x :: l' /\ oreads p l' is' /\ is = JHdr x :: is') \/
  (a = "-q" /\ exists vs ns l' is', l = (vs ++ l')%list /\ Forall2 denotes vs ns /\ List.length vs = nq p /\
     oreads p l' is' /\ is = JAm ns :: is') \/
  (In a (flags_of p) /\ exists is', oreads p l is' /\ is = JFlag a :: is').
Proof.
  intros H. inversion H; subst.
  - left. split; [reflexivity|]. eauto 6.
  - right; left. split; [reflexivity|]. eauto 6.
  - right; right; left. split; [reflexivity|]. eauto 10.
  - right; right; right. eauto.
Qed.
Lemma denotes_all_fun vs ns ms : Forall2 denotes vs ns -> Forall2 denotes vs ms -> ns = ms.
Proof.
  intros H. revert ms. induction H as [|v n vs ns D F IH]; intros ms H'; inversion H'; subst; [reflexivity|].
  f_equal; [eapply denotes_fun; eauto|auto].
Qed.
Lemma oreads_fun p l is : oreads p l is -> forall is', oreads p l is' -> is = is'.
Proof.
  induction 1 as [|x l is R IH|x l is R IH|vs ns l is F L0 R IH|a l is I R IH]; intros is' H'.
  - now inversion H'.
  - apply oreads_cons_inv in H' as [[_ (x' & l' & i' & E & R' & ->)]|[[E _]|[[E _]|[I _]]]]; try discriminate.
    + injection E as -> ->. f_equal. auto.
    + now destruct (flag_other _ _ I).
  - apply oreads_cons_inv in H' as [[E _]|[[_ (x' & l' & i' & E & R' & ->)]|[[E _]|[I _]]]]; try discriminate.
    + injection E as -> ->. f_equal. auto.
    + now destruct (flag_other _ _ I).
  - apply oreads_cons_inv in H' as [[E _]|[[E _]|[[_ (vs' & ns' & l' & i' & E & F' & L' & R' & ->)]|[I _]]]]; try discriminate.
    + assert (vs = vs' /\ l = l') as [<- <-].
      { rewrite <- L' in L0. clear -E L0. revert vs' L0 E. induction vs as [|v vs IH]; intros [|v' vs'] L E; simpl in *; try discriminate; auto.
        injection E as -> E. injection L as L. destruct (IH _ L E) as [-> ->]. auto. }
      rewrite (denotes_all_fun F F'). f_equal. auto.
    + now destruct (flag_other _ _ I).
  - destruct (flag_other _ _ I) as (N1 & N2 & N3 & _).
    apply oreads_cons_inv in H' as [[E _]|[[E _]|[[E _]|[_ (i' & R' & ->)]]]]; try contradiction. f_equal. auto.
Qed.

(** What the loop leaves in the variables. *)
Lemma last_or_app (A B : Type) (f : A -> option B) is i d b : last_or f is d b ->
  last_or f (is ++ [i]) d (match f i with Some x => x | None => b end).
Proof.
  intros H. destruct (f i) as [x|] eqn:E.
  - left. exists is, i, []. repeat split; auto. intros j [].
  - destruct H as [(pre & j & post & -> & F & P)|[P ->]].
    + left. exists pre, j, (post ++ [i])%list. rewrite <- app_assoc. repeat split; auto.
      intros k K. apply in_app_iff in K as [K|[<-|[]]]; auto.
    + right. split; [|reflexivity]. intros k K. apply in_app_iff in K as [K|[<-|[]]]; auto.
Qed.
Lemma in_snoc (A : Type) (x : A) l i : In x (l ++ [i]) <-> In x l \/ i = x.
Proof. rewrite in_app_iff. simpl. tauto. Qed.

Lemma own_meaning p is : (forall a, In (JFlag a) is -> In a (flags_of p)) -> meaning p is (fold_left (app_own p) is (sdefault p)).
Proof.
  induction is as [|i is IH] using rev_ind; intros HF.
  - assert (L : forall B (f : oitem -> option B) d, last_or f [] d d) by (intros; right; split; [intros j []|reflexivity]).
    constructor; simpl; auto; split; try discriminate; try (intros (l & [])); intros [].
  - assert (HF' : forall a, In (JFlag a) is -> In a (flags_of p)) by (intros a Ha; apply HF, in_snoc; auto).
    specialize (IH HF'). rewrite fold_left_app. cbn [fold_left].
    set (s := fold_left (app_own p) is (sdefault p)) in *. destruct IH as [M1 M2 M3 M4 M5 M6 M7 M8].
    apply (@last_or_app _ _ as_out _ i) in M1. apply (@last_or_app _ _ as_hdr _ i) in M2.
    apply (@last_or_app _ _ as_am _ i) in M3. apply (@last_or_app _ _ as_centre _ i) in M5.
    destruct i as [x|x|l|a].
    + constructor; cbn [app_own set_f s_fpath s_hpath s_am s_amset s_order s_brai s_ketk s_bra]; auto.
      * rewrite M4. split; intros (l & H); exists l; rewrite in_snoc in *; [tauto|destruct H; [auto|discriminate]].
      * rewrite M6, in_snoc. intuition discriminate.
      * rewrite M7, in_snoc. intuition discriminate.
      * rewrite M8, in_snoc. intuition discriminate.
    + constructor; cbn [app_own set_h s_fpath s_hpath s_am s_amset s_order s_brai s_ketk s_bra]; auto.
      * rewrite M4. split; intros (l & H); exists l; rewrite in_snoc in *; [tauto|destruct H; [auto|discriminate]].
      * rewrite M6, in_snoc. intuition discriminate.
      * rewrite M7, in_snoc. intuition discriminate.
      * rewrite M8, in_snoc. intuition discriminate.
    + constructor; cbn [app_own set_am s_fpath s_hpath s_am s_amset s_order s_brai s_ketk s_bra]; auto.
      * split; [|auto]. intros _. exists l. apply in_snoc. auto.
      * rewrite M6, in_snoc. intuition discriminate.
      * rewrite M7, in_snoc. intuition discriminate.
      * rewrite M8, in_snoc. intuition discriminate.
    + assert (I : In a (flags_of p)) by (apply HF, in_snoc; auto). clear HF HF'.
      assert (M4' : s_amset s = true <-> exists l, In (JAm l) (is ++ [JFlag a])).
      { rewrite M4. split; intros (l & H); exists l; rewrite in_snoc in *; [tauto|destruct H; [auto|discriminate]]. }
      assert (K : forall b, b <> a -> (In (JFlag b) is <-> In (JFlag b) (is ++ [JFlag a]))).
      { intros b N. rewrite in_snoc. split; [auto|]. intros [H|H]; [auto|]. injection H as ->. congruence. }
      assert (Y : In (JFlag a) (is ++ [JFlag a])) by (apply in_snoc; auto).
      destruct p; simpl in I; [destruct I| |]; destruct I as [<-|[<-|[<-|[]]]];
        (constructor; [exact M1|exact M2|exact M3|exact M4'|exact M5| | |]); cbn in *; rewrite ?M6, ?M7, ?M8;
        try (apply K; discriminate); split; auto.
Qed.

Lemma oreads_flags p l is : oreads p l is -> forall a, In (JFlag a) is -> In a (flags_of p).
Proof.
  induction 1; intros b Hb; [destruct Hb|..]; destruct Hb as [E|Hb]; try discriminate; auto.
  injection E as <-. assumption.
Qed.

(** * The whole *)
Definition accepted (s : sopts) : Prop := s_fpath s <> "" /\ s_hpath s <> "" /\ s_amset s = true.
Lemma accepted_iff s : negb (s_fpath s =? "") && negb (s_hpath s =? "") && s_amset s = true <-> accepted s.
Proof.
  unfold accepted. rewrite !andb_true_iff, !negb_true_iff.
  destruct (String.eqb_spec (s_fpath s) ""), (String.eqb_spec (s_hpath s) ""); intuition congruence.
Qed.
Theorem main_parse_spec p argv o s : main_parse p argv = Val (o, s) <->
  exists is js, reads (tl argv) is /\ oreads p (others is) js /\ accepted s /\
    o = fold_left app_item is default /\ s = fold_left (app_own p) js (sdefault p).
Proof.
  unfold main_parse. split.
  - intros H. destruct (parse_common_spec argv) as (_ & B & [(is & R & _)|Bad] & _);
      [|rewrite (B Bad) in H; discriminate].
    rewrite (parse_common_reads _ R) in H. cbn [obnd] in H.
    destruct (own_loop p (S (List.length (others is))) 0 (others is) (sdefault p)) as [s'| |] eqn:E; try discriminate.
    cbn [obnd] in H. destruct (own_inv _ _ _ _ _ E) as (js & J). simpl in J.
    rewrite (own_reads J) in E; [|reflexivity|lia]. injection E as <-.
    destruct (negb _ && negb _ && _) eqn:A in H; [|discriminate]. injection H as <- <-. apply accepted_iff in A.
    exists is, js. auto.
  - intros (is & js & R & J & A & -> & ->). rewrite (parse_common_reads _ R). cbn [obnd].
    rewrite (own_reads J); [|reflexivity|lia]. cbn [obnd]. apply accepted_iff in A. rewrite A. reflexivity.
Qed.
Theorem main_parse_total p argv : main_parse p argv <> Stuck.
Proof.
  unfold main_parse. destruct (parse_common_spec argv) as (_ & B & [(is & R & _)|Bad] & _); [|rewrite (B Bad); discriminate].
  rewrite (parse_common_reads _ R). cbn [obnd].
  pose proof (@own_stuck p (S (List.length (others is))) 0 (others is) (sdefault p)) as NS.
  change (skipn 0 (others is)) with (others is) in NS.
  destruct (own_loop p _ 0 _ _) as [s'| |]; cbn [obnd]; [destruct (_ && _ && _); discriminate|discriminate|].
  intros _. apply NS; [lia|reflexivity].
Qed.
Theorem main_parse_meaning p argv o s : main_parse p argv = Val (o, s) ->
  exists is js, reads (tl argv) is /\ oreads p (others is) js /\ accepted s /\
    (forall k, assigned k is (oget k o)) /\ permuting is (o_perm o) /\ meaning p js s.
Proof.
  intros H. apply main_parse_spec in H as (is & js & R & J & A & -> & ->). exists is, js.
  split; [exact R|]. split; [exact J|]. split; [exact A|]. split; [intros k; apply assigned_fold|].
  split; [apply permuting_fold|]. apply own_meaning. apply (oreads_flags J).
Qed.

(** * Reading once is reading twice *)
Lemma denotes_not_common v n : denotes v n -> ~ is_common v.
Proof.
  intros D [[k ->]| ->]; [destruct k|]; apply stoi_denotes in D; discriminate D.
Qed.
Lemma reads_others vs l is : Forall (fun v => ~ is_common v) vs -> reads l is -> reads (vs ++ l)%list (map IOther vs ++ is)%list.
Proof. induction 1; intros R; simpl; [exact R|]. constructor; auto. Qed.
Lemma others_app a b : others (a ++ b)%list = (others a ++ others b)%list.
Proof. unfold others. rewrite !flat_map_concat_map, map_app, concat_app. reflexivity. Qed.
Lemma others_map vs : others (map IOther vs) = vs.
Proof. induction vs; simpl; congruence. Qed.
Definition is_other (i : item) : bool := match i with IOther _ => true | _ => false end.
Lemma fold_other is o : fold_left app_item (filter (fun i => negb (is_other i)) is) o = fold_left app_item is o.
Proof. revert o. induction is as [|i is IH]; intros o; [reflexivity|]. destruct i; simpl; auto. Qed.

Lemma once_twice p l is js : areads p l is js -> (forall x, In (JOut x) js \/ In (JHdr x) js -> ~ is_common x) ->
  exists is', reads l is' /\ filter (fun i => negb (is_other i)) is' = is /\ oreads p (others is') js.
Proof.
  induction 1 as [|k v n l is js D R IH|l is js R IH|x l is js R IH|x l is js R IH|vs ns l is js F L R IH|a l is js I R IH]; intros N.
  - exists []. repeat split; constructor.
  - destruct (IH N) as (is' & R' & <- & J). exists (ISet k n :: is'). repeat split; auto. constructor; auto.
  - destruct (IH N) as (is' & R' & <- & J). exists (IPerm :: is'). repeat split; auto. constructor; auto.
  - destruct IH as (is' & R' & <- & J); [intros y [Hy|Hy]; apply N; simpl; auto|].
    exists (IOther "-o" :: IOther x :: is'). repeat split.
    + constructor; [intros [[k E]|E]; [destruct k|]; discriminate|]. constructor; [apply N; simpl; auto|exact R'].
    + cbn. constructor. exact J.
  - destruct IH as (is' & R' & <- & J); [intros y [Hy|Hy]; apply N; simpl; auto|].
    exists (IOther "-oh" :: IOther x :: is'). repeat split.
    + constructor; [intros [[k E]|E]; [destruct k|]; discriminate|]. constructor; [apply N; simpl; auto|exact R'].
    + cbn. eapply OR_hdr. exact J.
  - destruct IH as (is' & R' & <- & J); [intros y [Hy|Hy]; apply N; simpl; auto|].
    exists (IOther "-q" :: map IOther vs ++ is')%list. repeat split.
    + constructor; [intros [[k E]|E]; [destruct k|]; discriminate|]. apply reads_others; [|exact R'].
      clear -F. induction F; constructor; auto. eapply denotes_not_common; eauto.
    + cbn. rewrite filter_app. replace (filter _ (map IOther vs)) with (@nil item); [reflexivity|].
      clear. induction vs; simpl; auto.
    + change (oreads p ("-q" :: others (map IOther vs ++ is')) (JAm ns :: js)). rewrite others_app, others_map.
      eapply OR_am; eauto.
  - destruct IH as (is' & R' & <- & J); [intros y [Hy|Hy]; apply N; simpl; auto|].
    exists (IOther a :: is'). repeat split.
    + constructor; [apply (flag_other _ _ I)|exact R'].
    + cbn. eapply OR_flag; auto.
Qed.
Theorem main_once p argv is js : areads p (tl argv) is js -> (forall x, In (JOut x) js \/ In (JHdr x) js -> ~ is_common x) ->
  (exists o s, meaning p js s /\ (forall k, assigned k is (oget k o)) /\ permuting is (o_perm o) /\
    (accepted s -> main_parse p argv = Val (o, s)) /\ (~ accepted s -> main_parse p argv = Fail)).
Proof.
  intros A N. destruct (once_twice A N) as (is' & R & <- & J).
  exists (fold_left app_item is' default), (fold_left (app_own p) js (sdefault p)).
  split; [apply own_meaning, (oreads_flags J)|]. rewrite <- fold_other.
  split; [intros k; apply assigned_fold|]. split; [apply permuting_fold|].
  split; intros Acc.
  - apply main_parse_spec. exists is', js. rewrite fold_other. auto.
  - destruct (main_parse p argv) as [[o s]| |] eqn:E; [|reflexivity|destruct (main_parse_total _ _ E)].
    apply main_parse_spec in E as (is2 & js2 & R2 & J2 & A2 & _ & ->). rewrite (reads_fun R R2) in J.
    rewrite (oreads_fun J J2) in Acc. contradiction.
Qed.

(** A value that is itself the name of a common option is taken by the first pass. *)
Definition bad_argv : list string := ["gen"; "-q"; "1"; "0"; "0"; "0"; "-oh"; "h"; "-o"; "-p"].
Definition bad_argv2 : list string := ["gen"; "-q"; "1"; "0"; "0"; "0"; "-oh"; "h"; "-o"; "-p"; "a.c"].
Lemma denotes_0 : denotes "0" 0. Proof. now apply stoi_denotes. Qed.
Lemma denotes_1 : denotes "1" 1. Proof. now apply stoi_denotes. Qed.
Theorem value_following_refuted :
  areads PEri (tl bad_argv) [] [JAm [1; 0; 0; 0]%Z; JHdr "h"; JOut "-p"] /\ main_parse PEri bad_argv = Fail /\
  main_parse PEri bad_argv2 = Val (O 0 0 0 0 1, SO "a.c" "h" [1; 0; 0; 0]%Z true CI false false false).
Proof.
  split; [|split; vm_compute; reflexivity].
  apply (@A_am PEri ["1"; "0"; "0"; "0"] [1; 0; 0; 0]%Z); [|reflexivity|].
  - repeat constructor; auto using denotes_0, denotes_1.
  - apply A_hdr, A_out, A_nil.
Qed.

(** * The driver *)
Definition int32 (n : Z) : Prop := (-2147483648 <= n <= 2147483647)%Z.
Lemma path_not_common pre c : ~ is_common (pre ++ "." ++ String c "").
Proof.
  intros H. assert (E : exists l, pre ++ "." ++ String c "" = l /\ In l ["-ve"; "-vg"; "-he"; "-hg"; "-p"]).
  { eexists. split; [reflexivity|]. destruct H as [[k ->]| ->]; [destruct k|]; simpl; auto 8. }
  destruct E as (l & E & I). clear H.
  destruct pre as [|a [|b [|d pre]]]; simpl in E, I; subst l; intuition try discriminate.
  - destruct pre; discriminate.
  - destruct pre; discriminate.
  - destruct pre; discriminate.
  - destruct pre; discriminate.
Qed.
Lemma path_nonempty pre c : pre ++ "." ++ String c "" <> "".
Proof. destruct pre; discriminate. Qed.

Lemma qam_values q : (Z.of_nat (am0 q) < 2147483648)%Z -> (Z.of_nat (am1 q) < 2147483648)%Z ->
  (Z.of_nat (am2 q) < 2147483648)%Z -> (Z.of_nat (am3 q) < 2147483648)%Z ->
  Forall2 denotes [pystr (Z.of_nat (am0 q)); pystr (Z.of_nat (am1 q)); pystr (Z.of_nat (am2 q)); pystr (Z.of_nat (am3 q))]
    [Z.of_nat (am0 q); Z.of_nat (am1 q); Z.of_nat (am2 q); Z.of_nat (am3 q)].
Proof. intros. repeat constructor; apply denotes_pystr; lia. Qed.

Definition small_am (q : qam) : Prop :=
  (Z.of_nat (am0 q) < 2147483648 /\ Z.of_nat (am1 q) < 2147483648 /\ Z.of_nat (am2 q) < 2147483648 /\ Z.of_nat (am3 q) < 2147483648)%Z.
Definition zlist (q : qam) : list Z := [Z.of_nat (am0 q); Z.of_nat (am1 q); Z.of_nat (am2 q); Z.of_nat (am3 q)].

Lemma accept_reads p argv is' js o s : reads (tl argv) is' -> oreads p (others is') js ->
  o = fold_left app_item is' default -> s = fold_left (app_own p) js (sdefault p) -> accepted s ->
  main_parse p argv = Val (o, s).
Proof. intros. apply main_parse_spec. eauto 8. Qed.

Theorem eri_cmd_ok gen q f h ve vg he hg perm : small_am q -> int32 ve -> int32 vg -> int32 he -> int32 hg ->
  main_parse PEri (eri_cmd gen q (f ++ ".c") (h ++ ".h") ve vg he hg perm) =
    Val (O ve vg he hg (if perm then 1 else 0), SO (f ++ ".c") (h ++ ".h") (zlist q) true CI false false false).
Proof.
  intros (B0 & B1 & B2 & B3) Hve Hvg Hhe Hhg.
  assert (A : areads PEri (tl (eri_cmd gen q (f ++ ".c") (h ++ ".h") ve vg he hg perm))
    ([ISet VE ve; ISet VG vg; ISet HE he; ISet HG hg] ++ if perm then [IPerm] else [])%list
    [JAm (zlist q); JOut (f ++ ".c"); JHdr (h ++ ".h")]).
  { unfold eri_cmd. cbn [tl app].
    apply (@A_am PEri _ _ _ _ _ (qam_values q B0 B1 B2 B3)); [reflexivity|]. apply A_out, A_hdr.
    apply (@A_set PEri VE), (@A_set PEri VG), (@A_set PEri HE), (@A_set PEri HG); try (apply denotes_pystr; assumption).
    destruct perm; repeat constructor. }
  destruct (once_twice A) as (is' & R & F & J).
  { intros x [[E|[E|[E|[]]]]|[E|[E|[E|[]]]]]; try discriminate; injection E as <-; [apply (path_not_common f "c")|apply (path_not_common h "h")]. }
  eapply accept_reads; eauto.
  - rewrite <- fold_other, F. destruct perm; reflexivity.
  - repeat split; try apply (path_nonempty f "c"); try apply (path_nonempty h "h").
Qed.
Theorem vrr_cmd_ok gen t q f h : small_am q ->
  main_parse PVrr (vrr_cmd gen t q (f ++ ".c") (h ++ ".h")) =
    Val (default, SO (f ++ ".c") (h ++ ".h") (zlist q) true t false false false).
Proof.
  intros (B0 & B1 & B2 & B3).
  assert (A : areads PVrr (tl (vrr_cmd gen t q (f ++ ".c") (h ++ ".h"))) []
    ([JAm (zlist q); JOut (f ++ ".c"); JHdr (h ++ ".h")] ++
     match t with CI => [] | CJ => [JFlag "-center_j"] | CK => [JFlag "-center_k"] | CL => [JFlag "-center_l"] end)%list).
  { unfold vrr_cmd. cbn [tl app].
    apply (@A_am PVrr _ _ _ _ _ (qam_values q B0 B1 B2 B3)); [reflexivity|]. apply A_out, A_hdr.
    destruct t; repeat first [apply A_nil | apply A_flag; [simpl; tauto|]]. }
  destruct (once_twice A) as (is' & R & F & J).
  { intros x. rewrite !in_app_iff. intros [[[E|[E|[E|[]]]]|E]|[[E|[E|[E|[]]]]|E]]; try discriminate;
      try (injection E as <-; first [apply (path_not_common f "c")|apply (path_not_common h "h")]);
      destruct t; simpl in E; intuition discriminate. }
  eapply accept_reads; eauto.
  - rewrite <- fold_other, F. reflexivity.
  - destruct t; reflexivity.
  - repeat split; try apply (path_nonempty f "c"); try apply (path_nonempty h "h").
Qed.
Theorem hrr_cmd_ok gen t a b f h : (Z.of_nat a < 2147483648)%Z -> (Z.of_nat b < 2147483648)%Z ->
  main_parse PHrr (hrr_cmd gen t a b (f ++ ".c") (h ++ ".h")) =
    Val (default, SO (f ++ ".c") (h ++ ".h") [Z.of_nat a; Z.of_nat b] true CI
      (match t with CI => true | _ => false end) (match t with CK => true | _ => false end)
      (match t with CI | CJ => true | _ => false end)).
Proof.
  intros B0 B1.
  assert (A : areads PHrr (tl (hrr_cmd gen t a b (f ++ ".c") (h ++ ".h"))) []
    ([JAm [Z.of_nat a; Z.of_nat b]; JOut (f ++ ".c"); JHdr (h ++ ".h")] ++
     match t with CI => [JFlag "-bra"; JFlag "-bra_i"] | CJ => [JFlag "-bra"] | CK => [JFlag "-ket_k"] | CL => [] end)%list).
  { unfold hrr_cmd. cbn [tl app].
    apply (@A_am PHrr [pystr (Z.of_nat a); pystr (Z.of_nat b)] [Z.of_nat a; Z.of_nat b]);
      [repeat constructor; apply denotes_pystr; lia|reflexivity|]. apply A_out, A_hdr.
    destruct t; repeat first [apply A_nil | apply A_flag; [simpl; tauto|]]. }
  destruct (once_twice A) as (is' & R & F & J).
  { intros x. rewrite !in_app_iff. intros [[[E|[E|[E|[]]]]|E]|[[E|[E|[E|[]]]]|E]]; try discriminate;
      try (injection E as <-; first [apply (path_not_common f "c")|apply (path_not_common h "h")]);
      destruct t; simpl in E; intuition discriminate. }
  eapply accept_reads; eauto.
  - rewrite <- fold_other, F. reflexivity.
  - destruct t; reflexivity.
  - repeat split; try apply (path_nonempty f "c"); try apply (path_nonempty h "h").
Qed.
