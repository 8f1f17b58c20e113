(** Proofs about the molecule files of the tests. *)
From Coq Require Import List Arith Lia Bool String Ascii ZArith Sorting.Sorted.
Import ListNotations.
From Verif Require Import Cart Naming MolFile.
Set Implicit Arguments.
Local Open Scope nat_scope.

Section Proof.
Variable V : Type.
Variable bohr : V -> V.
Local Notation token := (token V).
Local Notation bshell := (bshell V).
Local Notation mshell := (mshell V).
Local Notation len := Datatypes.length.

(** ** The script *)
Definition up_shell (s : bshell) : bshell := BS (upper (bs_type s)) (bs_rows s).

Lemma nums_map (l : list V) : nums (map (@TNum V) l) = Some l.
Proof. induction l as [|x l IH]; simpl; [reflexivity|]. rewrite IH. reflexivity. Qed.
Lemma rows_of_map (rs : list (V * list V)) :
  rows_of (map (fun r => TNum (fst r) :: map (@TNum V) (snd r)) rs) = Some rs.
Proof.
  induction rs as [|[a c] rs IH]; simpl; [reflexivity|]. rewrite nums_map, IH. reflexivity.
Qed.

Lemma parse_shells_ok (ss : list (bshell * line V)) : forall f rest, len ss < f ->
  parse_shells f (flat_map (@shell_lines V) ss ++ [TWord V "****"%string] :: rest)
  = Some (map (fun s => up_shell (fst s)) ss, rest).
Proof.
  induction ss as [|[b e] ss IH]; intros f rest Hf; (destruct f as [|f]; [simpl in Hf; lia|]); [reflexivity|].
  simpl in Hf. cbn [flat_map shell_lines app parse_shells stars].
  set (R := map (fun r => TNum (fst r) :: map (@TNum V) (snd r)) (bs_rows b)).
  rewrite <- app_assoc. set (T := flat_map (@shell_lines V) ss ++ [TWord V "****"%string] :: rest).
  assert (LR : len R = len (bs_rows b)) by (unfold R; apply map_length).
  match goal with |- (if ?c then _ else _) = _ => replace c with false end.
  2: { symmetry. apply Nat.ltb_ge. rewrite app_length. unfold line in *. rewrite LR. lia. }
  rewrite <- LR, firstn_app, skipn_app, Nat.sub_diag, firstn_all, skipn_all. simpl firstn. simpl skipn. simpl app.
  rewrite app_nil_r. pose proof (rows_of_map (bs_rows b)) as RM. fold R in RM. rewrite RM. unfold T. rewrite IH by lia. reflexivity.
Qed.
Lemma flat_len (ss : list (bshell * line V)) : len ss <= len (flat_map (@shell_lines V) ss).
Proof.
  induction ss as [|[b e] ss IH]; simpl; [lia|]. rewrite app_length. lia.
Qed.
Lemma parse_atoms_ok (b : list (string * list (bshell * line V))) : forall f d, len b <= f ->
  parse_atoms f (flat_map (@atom_lines V) b) d = Some (rev (map (fun a => (fst a, map (fun s => up_shell (fst s)) (snd a))) b) ++ d).
Proof.
  induction b as [|[sym ss] b IH]; intros f d Hf; [destruct f; reflexivity|].
  destruct f as [|f]; [simpl in Hf; lia|]. simpl in Hf.
  cbn [flat_map atom_lines app parse_atoms fst snd].
  rewrite <- app_assoc. cbn [app].
  rewrite parse_shells_ok.
  - rewrite IH by lia. cbn [map rev fst snd]. rewrite <- app_assoc. reflexivity.
  - rewrite app_length. pose proof (flat_len ss). lia.
Qed.
Lemma atoms_len (b : list (string * list (bshell * line V))) : len b <= len (flat_map (@atom_lines V) b).
Proof. induction b as [|a b IH]; simpl; [lia|]. rewrite !app_length. lia. Qed.
Lemma keep_word s r : (forall q, s <> String "!" q) -> keep (TWord V s :: r) = true.
Proof.
  intros H. destruct s as [|c q]; [reflexivity|]. simpl. destruct (Ascii.eqb c "!") eqn:E; [|reflexivity].
  apply Ascii.eqb_eq in E. subst c. now destruct (H q).
Qed.
Lemma bas_kept (b : list (string * list (bshell * line V))) : unmarked b -> forall l, In l (bas_lines b) -> keep l = true.
Proof.
  intros U l [<-|H]; [reflexivity|]. apply in_flat_map in H. destruct H as ([sym ss] & Hb & H). destruct (U _ _ Hb) as [Us Ut].
  destruct H as [<-|H]; [apply keep_word, Us|]. apply in_app_iff in H. destruct H as [H|[<-|[]]]; [|reflexivity].
  apply in_flat_map in H. destruct H as ([s e] & Hs & H). destruct H as [<-|H]; [apply keep_word, (Ut _ Hs)|].
  apply in_map_iff in H. destruct H as (r & <- & _). reflexivity.
Qed.
Lemma commented_kept (a c : list (line V)) : commented a c -> (forall l, In l a -> keep l = true) -> filter (@keep V) c = a.
Proof.
  induction 1 as [|l a c _ IH|a c _ IH|s r a c _ IH]; intros K; [reflexivity| |exact (IH K)|exact (IH K)].
  simpl. rewrite (K l (or_introl eq_refl)), IH; [reflexivity|]. intros; apply K; now right.
Qed.
Lemma parse_bas_ok ls b : filter (@keep V) ls = bas_lines b ->
  parse_bas ls = Some (rev (map (fun a => (fst a, map (fun s => up_shell (fst s)) (snd a))) b)).
Proof.
  intros E. unfold parse_bas. rewrite E. unfold bas_lines. cbn [skipn Datatypes.length].
  rewrite parse_atoms_ok; [rewrite app_nil_r; reflexivity|]. pose proof (atoms_len b). lia.
Qed.
Lemma find_dict b sym :
  find (fun p => String.eqb (fst p) sym) (rev (map (fun a => (fst a, map (fun s => up_shell (fst s)) (snd a))) b))
  = option_map (fun p => (fst p, map (fun s => up_shell (fst s)) (snd p))) (find (fun p => String.eqb (fst p) sym) (rev (b : list (string * list (bshell * line V))))).
Proof.
  rewrite <- map_rev. induction (rev b) as [|[s x] r IH]; simpl; [reflexivity|].
  destruct (String.eqb s sym); [reflexivity|exact IH].
Qed.

(** ** What is written *)
Definition row_toks (r : V * list V) : list token := TNum (fst r) :: map (@TNum V) (snd r).
Definition shell_toks (s : bshell) : list token :=
  TWord V (bs_type s) :: TInt V (len (bs_rows s)) :: TInt V (columns s) :: flat_map row_toks (bs_rows s).
Lemma wf_columns (s : bshell) r : wf_shell s -> In r (bs_rows s) -> len (snd r) = columns s.
Proof.
  intros (_ & _ & H) Hr. unfold columns. destruct (bs_rows s) as [|r0 q] eqn:E; [destruct Hr|].
  apply H; [exact Hr|left; reflexivity].
Qed.
Lemma write_rows_ok g (rs : list (V * list V)) : (forall r, In r rs -> len (snd r) = g) -> write_rows g rs = Some (flat_map row_toks rs).
Proof.
  induction rs as [|r rs IH]; intros H; simpl; [reflexivity|]. unfold write_row.
  rewrite (H r (or_introl eq_refl)), Nat.ltb_irrefl.
  rewrite <- (H r (or_introl eq_refl)), firstn_all. rewrite (H r (or_introl eq_refl)).
  rewrite IH; [reflexivity|]. intros q Hq. apply H. right. exact Hq.
Qed.
Lemma wf_up (s : bshell) : wf_shell s -> wf_shell (up_shell s).
Proof. intros (A & B & C). split; [|split; assumption]. simpl. destruct (bs_type s); [congruence|discriminate]. Qed.
Lemma ngen_ok (s : bshell) : wf_shell s -> ngen s = Some (columns s).
Proof. intros (_ & B & _). unfold ngen, columns. destruct (bs_rows s); [congruence|reflexivity]. Qed.
Lemma write_shell_ok (s : bshell) : wf_shell s -> write_shell s = Some (shell_toks s).
Proof.
  intros H. unfold write_shell. rewrite (ngen_ok H), write_rows_ok; [reflexivity|]. intros r Hr. apply wf_columns; assumption.
Qed.
Lemma write_shells_ok (ss : list bshell) : (forall s, In s ss -> wf_shell s) -> write_shells ss = Some (flat_map shell_toks ss).
Proof.
  induction ss as [|s ss IH]; intros H; simpl; [reflexivity|].
  rewrite write_shell_ok by (apply H; left; reflexivity). rewrite IH; [reflexivity|]. intros q Hq. apply H. right. exact Hq.
Qed.
Lemma nprim2_ok (ss : list bshell) : (forall s, In s ss -> wf_shell s) -> nprim2 ss = Some (list_sum (map (fun s => 3 * columns s) ss)).
Proof.
  induction ss as [|s ss IH]; intros H; [reflexivity|]. simpl nprim2.
  rewrite ngen_ok by (apply H; left; reflexivity). rewrite IH; [reflexivity|]. intros q Hq. apply H. right. exact Hq.
Qed.

(** ** Reading it back *)
Local Notation F r := (File r true).
Lemma next_true (t : token) r : next (F (t :: r)) = Some (t, F r).
Proof. unfold next. simpl. destruct r; reflexivity. Qed.
Lemma rd_word_ok s (r : list token) : rd_word (F (TWord V s :: r)) = Some (s, F r).
Proof. unfold rd_word. rewrite next_true. reflexivity. Qed.
Lemma rd_int_ok n (r : list token) : rd_int (F (TInt V n :: r)) = Some (n, F r).
Proof. unfold rd_int. rewrite next_true. reflexivity. Qed.
Lemma rd_num_ok x (r : list token) : rd_num (F (TNum x :: r)) = Some (x, F r).
Proof. unfold rd_num. rewrite next_true. reflexivity. Qed.
Lemma rd_coefs_ok (cs : list V) : forall r, rd_coefs (len cs) (F (map (@TNum V) cs ++ r)) = Some (cs, F r).
Proof.
  induction cs as [|c cs IH]; intros r; simpl; [reflexivity|]. rewrite rd_num_ok, IH. reflexivity.
Qed.
Definition step_row (gv : list mshell) (row : V * list V) : list mshell := map (add_prim (fst row)) (combine gv (snd row)).
Lemma rd_rows_ok g (rs : list (V * list V)) : (forall r, In r rs -> len (snd r) = g) -> forall gv rest,
  rd_rows (len rs) g gv (F (flat_map row_toks rs ++ rest)) = Some (fold_left step_row rs gv, F rest).
Proof.
  induction rs as [|[a cs] rs IH]; intros H gv rest; [reflexivity|].
  cbn [flat_map row_toks fst snd app Datatypes.length rd_rows fold_left].
  rewrite rd_num_ok. pose proof (H (a, cs) (or_introl eq_refl)) as L. simpl in L. subst g.
  rewrite <- app_assoc, rd_coefs_ok. rewrite IH; [reflexivity|]. intros r Hr. apply H. right. exact Hr.
Qed.
(** The coefficients of column [l]. *)
Definition column (rs : list (V * list V)) (l : nat) : list V :=
  flat_map (fun r => match nth_error (snd r) l with Some c => [c] | None => [] end) rs.
Lemma combine_seq (A B : Type) (f : nat -> A) (h : A -> B -> A) : forall (cs : list B) s,
  map (fun p => h (fst p) (snd p)) (combine (map f (seq s (len cs))) cs)
  = flat_map (fun l => match nth_error cs (l - s) with Some c => [h (f l) c] | None => [] end) (seq s (len cs)).
Proof.
  induction cs as [|c cs IH]; intros s; simpl; [reflexivity|]. rewrite Nat.sub_diag. simpl. f_equal.
  rewrite IH. rewrite !flat_map_concat_map. f_equal. apply map_ext_in. intros l Hl. apply in_seq in Hl.
  replace (l - s) with (S (l - S s)) by lia. reflexivity.
Qed.
Lemma step_row_ok g (am : nat -> nat) pos al co a (cs : list V) : len cs = g ->
  step_row (map (fun l => MS (am l) pos al (co l)) (seq 0 g)) (a, cs)
  = map (fun l => MS (am l) pos (al ++ [a]) (co l ++ match nth_error cs l with Some c => [c] | None => [] end)) (seq 0 g).
Proof.
  intros <-. unfold step_row. cbn [fst snd].
  rewrite (map_ext (add_prim a) (fun p => (fun m c => add_prim a (m, c)) (fst p) (snd p))) by (intros [? ?]; reflexivity).
  rewrite (combine_seq (fun l => MS (am l) pos al (co l)) (fun m c => add_prim a (m, c)) cs 0). rewrite flat_map_concat_map.
  assert (E : forall k, k <= len cs -> List.concat (map (fun l => match nth_error cs (l - 0) with
     Some c => [add_prim a (MS (am l) pos al (co l), c)] | None => [] end) (seq 0 k))
     = map (fun l => MS (am l) pos (al ++ [a]) (co l ++ match nth_error cs l with Some c => [c] | None => [] end)) (seq 0 k)).
  { induction k as [|k IH]; intros Hk; [reflexivity|]. rewrite seq_S, !map_app, concat_app, IH by lia. f_equal.
    simpl. rewrite Nat.sub_0_r. destruct (nth_error cs k) eqn:E; [reflexivity|]. apply nth_error_None in E. lia. }
  apply E. lia.
Qed.
Lemma rows_fold g (am : nat -> nat) pos (rs : list (V * list V)) : (forall r, In r rs -> len (snd r) = g) -> forall al co,
  fold_left step_row rs (map (fun l => MS (am l) pos al (co l)) (seq 0 g))
  = map (fun l => MS (am l) pos (al ++ map fst rs) (co l ++ column rs l)) (seq 0 g).
Proof.
  induction rs as [|[a cs] rs IH]; intros H al co.
  - simpl. apply map_ext. intros l. rewrite !app_nil_r. reflexivity.
  - simpl fold_left. rewrite step_row_ok by (apply (H (a, cs)); left; reflexivity).
    rewrite (IH (fun r Hr => H r (or_intror Hr)) (al ++ [a]) (fun l => co l ++ match nth_error cs l with Some c => [c] | None => [] end)).
    apply map_ext. intros l. simpl. unfold column at 2. simpl. rewrite <- !app_assoc. reflexivity.
Qed.

Fixpoint sdrop (n : nat) (s : string) : string :=
  match n, s with 0, _ => s | S k, String _ r => sdrop k r | S _, EmptyString => EmptyString end.
Lemma sdrop_at : forall m s, m < String.length s -> exists c, String.get m s = Some c /\ sdrop m s = String c (sdrop (S m) s).
Proof.
  induction m as [|m IH]; intros [|c s] H; cbn [String.length] in H; try lia; [exists c; split; reflexivity|].
  destruct (IH s ltac:(lia)) as (d & G & E). exists d. split; [exact G|exact E].
Qed.
Lemma sdrop_length : forall m s, String.length (sdrop m s) = String.length s - m.
Proof. induction m as [|m IH]; intros [|c s]; cbn [sdrop String.length]; try reflexivity. rewrite IH. reflexivity. Qed.
Lemma type_loop_from ty : ty <> EmptyString -> forall n i, type_loop n (sdrop (i mod String.length ty) ty) ty = Some (map (type_am ty) (seq i n)).
Proof.
  intros H. assert (L : 0 < String.length ty) by (destruct ty; [congruence|cbn; lia]). induction n as [|n IH]; intros i; [reflexivity|].
  set (t := String.length ty) in *. pose proof (Nat.mod_upper_bound i t ltac:(lia)) as B. destruct (sdrop_at ty B) as (c & G & E). rewrite E. cbn [type_loop seq map].
  assert (N : match sdrop (S (i mod t)) ty with EmptyString => ty | String _ _ => sdrop (S (i mod t)) ty end = sdrop (S i mod t) ty).
  { pose proof (sdrop_length (S (i mod t)) ty) as SL. fold t in SL. pose proof (Nat.div_mod i t ltac:(lia)) as D. destruct (Nat.eq_dec (S (i mod t)) t) as [Q|Q].
    - replace (S i mod t) with 0. 2:{ apply (Nat.mod_unique (S i) t (S (i / t)) 0); nia. }
      destruct (sdrop (S (i mod t)) ty) eqn:Z; [reflexivity|cbn [String.length] in SL; lia].
    - replace (S i mod t) with (S (i mod t)). 2:{ apply (Nat.mod_unique (S i) t (i / t) (S (i mod t))); nia. }
      destruct (sdrop (S (i mod t)) ty) eqn:Z; [cbn [String.length] in SL; lia|reflexivity]. }
  rewrite N, IH. unfold type_am at 2. fold t. rewrite G. reflexivity.
Qed.
Lemma type_loop_ok ty n : ty <> EmptyString -> type_loop n ty ty = Some (map (type_am ty) (seq 0 n)).
Proof. intros H. rewrite <- (type_loop_from H). rewrite Nat.mod_0_l; [reflexivity|destruct ty; [congruence|cbn; lia]]. Qed.
Lemma upper_some s : s <> EmptyString -> upper s <> EmptyString.
Proof. destruct s; [congruence|discriminate]. Qed.
Lemma rd_shell_ok pos m (s : bshell) rest : wf_shell s ->
  rd_shell pos m (F (shell_toks (up_shell s) ++ rest)) = Some (fold_left (@push V) (map (contraction pos s) (seq 0 (columns s))) m, F rest).
Proof.
  intros H. unfold rd_shell, shell_toks. cbn [app].
  rewrite rd_word_ok, rd_int_ok, rd_int_ok.
  change (columns (up_shell s)) with (columns s). change (bs_rows (up_shell s)) with (bs_rows s).
  rewrite type_loop_ok by (apply upper_some, H). rewrite map_map.
  rewrite rd_rows_ok by (intros r Hr; apply wf_columns; assumption).
  rewrite (rows_fold (g := columns s) (fun l => type_am (bs_type (up_shell s)) l) pos (bs_rows s)
    (fun r Hr => wf_columns r H Hr) [] (fun _ => [])).
  reflexivity.
Qed.
Lemma rd_shells_ok pos (ss : list bshell) : (forall s, In s ss -> wf_shell s) -> forall m rest,
  rd_shells (len ss) pos m (F (flat_map shell_toks (map up_shell ss) ++ rest)) = Some (fold_left (@push V) (shells_at pos ss) m, F rest).
Proof.
  induction ss as [|s ss IH]; intros H m rest; [reflexivity|].
  cbn [map flat_map Datatypes.length rd_shells]. rewrite <- app_assoc, rd_shell_ok by (apply H; left; reflexivity).
  rewrite IH by (intros q Hq; apply H; right; exact Hq). unfold shells_at. simpl. rewrite fold_left_app. reflexivity.
Qed.

(** ** The map *)
Definition keys (m : shellmap V) : list nat := map fst m.
Lemma push_keys m (g : mshell) : forall a, In a (keys (push m g)) -> a = ms_am g \/ In a (keys m).
Proof.
  induction m as [|[b v] r IH]; intros a; simpl.
  - intuition.
  - destruct (Nat.ltb_spec (ms_am g) b); [simpl; intuition|]. destruct (Nat.eqb_spec (ms_am g) b); simpl; [intuition|].
    intros [->|H1]; [right; left; reflexivity|]. destruct (IH a H1); intuition.
Qed.
Lemma push_sorted m (g : mshell) : StronglySorted lt (keys m) -> StronglySorted lt (keys (push m g)).
Proof.
  induction m as [|[b v] r IH]; intros H; simpl.
  - repeat constructor.
  - inversion H as [|? ? H1 H2]; subst. destruct (Nat.ltb_spec (ms_am g) b) as [L|L].
    + simpl. constructor; [exact H|]. constructor; [exact L|]. eapply Forall_impl; [|exact H2]. intros; simpl in *; lia.
    + destruct (Nat.eqb_spec (ms_am g) b) as [E|E]; [exact H|]. simpl. constructor; [apply IH; exact H1|].
      apply Forall_forall. intros x Hx. destruct (push_keys _ _ _ Hx) as [->|Hx']; [lia|].
      rewrite Forall_forall in H2. apply H2. exact Hx'.
Qed.
Lemma at_am_none (m : shellmap V) a : ~ In a (keys m) -> at_am m a = [].
Proof.
  unfold at_am. induction m as [|[b v] r IH]; intros H; simpl; [reflexivity|].
  destruct (Nat.eqb_spec b a) as [E|E]; [exfalso; apply H; left; exact E|]. apply IH. intros K. apply H. right. exact K.
Qed.
Lemma at_am_push m (g : mshell) a : StronglySorted lt (keys m) ->
  at_am (push m g) a = at_am m a ++ (if ms_am g =? a then [g] else []).
Proof.
  induction m as [|[b v] r IH]; intros H; simpl.
  - unfold at_am. simpl. destruct (ms_am g =? a); reflexivity.
  - inversion H as [|? ? H1 H2]; subst. destruct (Nat.ltb_spec (ms_am g) b) as [L|L].
    + destruct (Nat.eqb_spec (ms_am g) a) as [E|E].
      * rewrite (@at_am_none ((b, v) :: r) a).
        -- unfold at_am. simpl. rewrite E, Nat.eqb_refl. reflexivity.
        -- simpl. intros [K|K]; [lia|]. rewrite Forall_forall in H2. specialize (H2 a K). lia.
      * unfold at_am. simpl. destruct (Nat.eqb_spec (ms_am g) a); [lia|]. rewrite app_nil_r. reflexivity.
    + destruct (Nat.eqb_spec (ms_am g) b) as [E|E].
      * unfold at_am. simpl. rewrite E. destruct (Nat.eqb_spec b a); [reflexivity|]. rewrite app_nil_r. reflexivity.
      * unfold at_am in *. simpl. destruct (Nat.eqb_spec b a) as [E1|E1].
        -- destruct (Nat.eqb_spec (ms_am g) a); [lia|]. rewrite app_nil_r. reflexivity.
        -- apply IH. exact H1.
Qed.
Lemma fold_push (gs : list mshell) : forall m, StronglySorted lt (keys m) ->
  StronglySorted lt (keys (fold_left (@push V) gs m)) /\
  forall a, at_am (fold_left (@push V) gs m) a = at_am m a ++ filter (fun g => ms_am g =? a) gs.
Proof.
  induction gs as [|g gs IH]; intros m H; simpl; [split; [exact H|]; intros; rewrite app_nil_r; reflexivity|].
  destruct (IH (push m g) (push_sorted m g H)) as [A B]. split; [exact A|]. intros a. rewrite B, at_am_push by exact H.
  rewrite <- app_assoc. f_equal. destruct (ms_am g =? a); reflexivity.
Qed.
Lemma push_pos m (g : mshell) : (forall p, In p m -> snd p <> []) -> forall p, In p (push m g) -> snd p <> [].
Proof.
  induction m as [|[b v] r IH]; intros H p; simpl.
  - intros [<-|[]]. discriminate.
  - destruct (ms_am g <? b); [intros [<-|Hp]; [discriminate|apply H; exact Hp]|].
    destruct (ms_am g =? b).
    + intros [<-|Hp]; [simpl; destruct v; discriminate|]. apply H. right. exact Hp.
    + intros [<-|Hp]; [apply H; left; reflexivity|]. apply IH; [|exact Hp]. intros q Hq. apply H. right. exact Hq.
Qed.

(** ** The whole molecule *)
Lemma basis_wf (b : list (string * list (bshell * line V))) : (forall sym ss, In (sym, ss) b -> forall s, In s ss -> wf_shell (fst s)) ->
  forall sym ss, basis_of b sym = Some ss -> forall s, In s ss -> wf_shell s.
Proof.
  intros H sym ss. unfold basis_of. destruct (find _ (rev b)) as [[sy l]|] eqn:E; [|discriminate]. simpl.
  intros [= <-] s Hs. apply find_some in E. destruct E as [Ei _]. rewrite <- in_rev in Ei.
  apply in_map_iff in Hs. destruct Hs as [p [<- Hp]]. exact (H _ _ Ei p Hp).
Qed.

Lemma write_atom_ok (b : list (string * list (bshell * line V))) sym pos ss : (forall sym ss, In (sym, ss) b -> forall s, In s ss -> wf_shell (fst s)) ->
  basis_of b sym = Some ss ->
  exists n1 n2, write_atom bohr (rev (map (fun a => (fst a, map (fun s => up_shell (fst s)) (snd a))) b)) (sym, pos) =
    Some (TWord V sym :: TInt V (len ss) :: TInt V n1 :: TInt V n2 :: TNum (fst (fst (to_bohr bohr pos))) :: TNum (snd (fst (to_bohr bohr pos)))
          :: TNum (snd (to_bohr bohr pos)) :: flat_map shell_toks (map up_shell ss)).
Proof.
  intros HW HB. pose proof (basis_wf b HW sym HB) as HS. unfold basis_of in HB.
  destruct (find (fun p => String.eqb (fst p) sym) (rev b)) as [[sy l]|] eqn:E; [|discriminate]. simpl in HB. injection HB as <-.
  destruct pos as [[x y] z]. unfold write_atom. rewrite find_dict, E. cbn [option_map fst snd].
  assert (M : map (fun s : bshell * line V => up_shell (fst s)) l = map up_shell (map fst l)) by (rewrite map_map; reflexivity).
  rewrite M.
  assert (HU : forall s, In s (map up_shell (map fst l)) -> wf_shell s).
  { intros s Hs. apply in_map_iff in Hs. destruct Hs as [q [<- Hq]]. apply wf_up. apply HS. exact Hq. }
  rewrite (nprim2_ok _ HU), (write_shells_ok _ HU). rewrite map_length.
  eexists. eexists. reflexivity.
Qed.

Lemma round_trip_kept (b : list (string * list (bshell * line V))) ls geo : filter (@keep V) ls = bas_lines b ->
  (forall sym ss, In (sym, ss) b -> forall s, In s ss -> wf_shell (fst s)) ->
  (forall a, In a geo -> basis_of b (fst a) <> None /\ symbol_at (fst a) <> None) ->
  exists f m mol, gen_mol bohr ls geo = Some f /\ read_basis f = Some (m, mol) /\
    Forall2 (fun a c => symbol_at (fst a) = Some (fst c) /\ snd c = to_bohr bohr (snd a)) geo mol /\
    StronglySorted lt (map fst m) /\ (forall p, In p m -> snd p <> []) /\
    forall am, at_am m am = filter (fun g => ms_am g =? am) (all_shells bohr b geo).
Proof.
  intros HL HW HG.
  (* the atoms, written and read *)
  assert (K : exists toks, write_atoms bohr (rev (map (fun a => (fst a, map (fun s => up_shell (fst s)) (snd a))) b)) geo = Some toks /\
    forall m0 mol0, StronglySorted lt (keys m0) -> (forall p, In p m0 -> snd p <> []) ->
    exists m mol1, rd_atoms (len geo) m0 mol0 (F toks) = Some (m, mol0 ++ mol1) /\
      Forall2 (fun a c => symbol_at (fst a) = Some (fst c) /\ snd c = to_bohr bohr (snd a)) geo mol1 /\
      StronglySorted lt (keys m) /\ (forall p, In p m -> snd p <> []) /\
      forall am, at_am m am = at_am m0 am ++ filter (fun g => ms_am g =? am) (all_shells bohr b geo)).
  { induction geo as [|[sym pos] geo IH].
    - exists []. split; [reflexivity|]. intros m0 mol0 H0 H1. exists m0, []. simpl. rewrite app_nil_r.
      repeat (split; [first [reflexivity|constructor|assumption]|]). intros. rewrite app_nil_r. reflexivity.
    - destruct IH as [toks [W R]]; [intros a Ha; apply HG; right; exact Ha|].
      destruct (HG (sym, pos) (or_introl eq_refl)) as [HB HS]. simpl in HB, HS.
      destruct (basis_of b sym) as [ss|] eqn:EB; [|congruence]. destruct (symbol_at sym) as [Z|] eqn:EZ; [|congruence].
      destruct (write_atom_ok b sym pos HW EB) as [n1 [n2 WA]].
      cbn [write_atoms]. rewrite WA, W. eexists. split; [reflexivity|].
      intros m0 mol0 H0 H1.
      destruct (fold_push (shells_at (to_bohr bohr pos) ss) m0 H0) as [H0' A1].
      destruct (R (fold_left (@push V) (shells_at (to_bohr bohr pos) ss) m0) (mol0 ++ [(Z, to_bohr bohr pos)]) H0') as (m & mol1 & E1 & E2 & E3 & E4 & E5).
      { clear - H1. revert m0 H1. induction (shells_at (to_bohr bohr pos) ss) as [|g gs IH]; intros m0 H1; [exact H1|].
        simpl. apply IH. apply push_pos. exact H1. }
      exists m, ((Z, to_bohr bohr pos) :: mol1).
      cbn [Datatypes.length rd_atoms app].
      rewrite rd_word_ok, rd_int_ok, rd_int_ok, rd_int_ok, !rd_num_ok, EZ.
      replace (fst (fst (to_bohr bohr pos)), snd (fst (to_bohr bohr pos)), snd (to_bohr bohr pos)) with (to_bohr bohr pos)
        by (destruct (to_bohr bohr pos) as [[? ?] ?]; reflexivity).
      rewrite rd_shells_ok by (exact (basis_wf b HW sym EB)). rewrite E1.
      split; [rewrite <- app_assoc; reflexivity|].
      split; [constructor; [split; [exact EZ|reflexivity]|exact E2]|]. split; [exact E3|]. split; [exact E4|].
      intros am. rewrite E5, A1. unfold all_shells. cbn [flat_map]. rewrite filter_app, <- app_assoc.
      unfold the_basis at 2. simpl. rewrite EB. reflexivity. }
  destruct K as [toks [W R]].
  destruct (R [] []) as (m & mol & E1 & E2 & E3 & E4 & E5); [constructor|intros p []|].
  exists (F (TInt V (len geo) :: toks)), m, mol. unfold gen_mol. rewrite (parse_bas_ok ls HL), W.
  split; [reflexivity|]. unfold read_basis. rewrite rd_int_ok. simpl in E1. split; [exact E1|].
  split; [exact E2|]. split; [exact E3|]. split; [exact E4|]. exact E5.
Qed.
Lemma round_trip (b : list (string * list (bshell * line V))) ls geo : unmarked b -> commented (bas_lines b) ls ->
  (forall sym ss, In (sym, ss) b -> forall s, In s ss -> wf_shell (fst s)) ->
  (forall a, In a geo -> basis_of b (fst a) <> None /\ symbol_at (fst a) <> None) ->
  exists f m mol, gen_mol bohr ls geo = Some f /\ read_basis f = Some (m, mol) /\
    Forall2 (fun a c => symbol_at (fst a) = Some (fst c) /\ snd c = to_bohr bohr (snd a)) geo mol /\
    StronglySorted lt (map fst m) /\ (forall p, In p m -> snd p <> []) /\
    forall am, at_am m am = filter (fun g => ms_am g =? am) (all_shells bohr b geo).
Proof. intros U C. apply round_trip_kept. apply commented_kept; [exact C|]. apply bas_kept, U. Qed.

(** ** Sizes *)
Definition fm_step (r : nat * nat) (p : nat * list mshell) : nat * nat :=
  (if fst r <? fst p then fst p else fst r, let n := ncart (fst p) * len (snd p) in if snd r <? n then n else snd r).
Lemma find_max_ge (m : shellmap V) : forall r,
  fst r <= fst (fold_left fm_step m r) /\ snd r <= snd (fold_left fm_step m r) /\
  forall p, In p m -> fst p <= fst (fold_left fm_step m r) /\ ncart (fst p) * len (snd p) <= snd (fold_left fm_step m r).
Proof.
  induction m as [|q m IH]; intros r.
  - simpl. split; [lia|]. split; [lia|]. intros p [].
  - cbn [fold_left]. destruct (IH (fm_step r q)) as (A & B & C).
    assert (A' : fst r <= fst (fm_step r q) /\ fst q <= fst (fm_step r q)) by (unfold fm_step; simpl; destruct (Nat.ltb_spec (fst r) (fst q)); lia).
    assert (B' : snd r <= snd (fm_step r q) /\ ncart (fst q) * len (snd q) <= snd (fm_step r q))
      by (unfold fm_step; simpl; destruct (Nat.ltb_spec (snd r) (ncart (fst q) * len (snd q))); lia).
    split; [lia|]. split; [lia|]. intros p [<-|Hp]; [lia|]. apply C. exact Hp.
Qed.
Lemma find_max_in (m : shellmap V) p : In p m -> fst p <= fst (find_max m) /\ ncart (fst p) * len (snd p) <= snd (find_max m).
Proof. intros H. apply (find_max_ge m (0, 0)). exact H. Qed.
Lemma at_am_bound (m : shellmap V) a : ncart a * len (at_am m a) <= snd (find_max m).
Proof.
  unfold at_am. destruct (find (fun p => fst p =? a) m) as [[b v]|] eqn:E; [|simpl; lia].
  apply find_some in E. destruct E as [E1 E2]. simpl in E2. apply Nat.eqb_eq in E2. subst b.
  exact (proj2 (find_max_in m _ E1)).
Qed.
Lemma ncart_mono a b : a <= b -> ncart a <= ncart b.
Proof. intros H. unfold ncart. apply Nat.div_le_mono; [lia|]. nia. Qed.
Lemma ncart_ge1 a : 1 <= ncart a.
Proof. unfold ncart. apply (Nat.div_le_lower_bound _ 2 1); nia. Qed.

(** The block of one pass (one bra shell pair, all ket shell pairs) fits. *)
Lemma eri_fits (m : shellmap V) factor limit i j k l : i <= t_maxam limit (find_max m) -> j <= t_maxam limit (find_max m) -> (0 <= factor)%Z ->
  (Z.of_nat ((len (at_am m k) * len (at_am m l)) * (ncart i * ncart j * ncart k * ncart l)) * factor <= t_maxsize factor limit (find_max m))%Z.
Proof.
  intros Hi Hj Hf. unfold t_maxsize. apply Z.mul_le_mono_nonneg_r; [exact Hf|].
  pose proof (ncart_mono Hi). pose proof (ncart_mono Hj).
  pose proof (at_am_bound m k). pose proof (at_am_bound m l).
  set (M := snd (find_max m)) in *. set (c := ncart (t_maxam limit (find_max m))) in *.
  rewrite <- !Nat2Z.inj_mul. apply Nat2Z.inj_le.
  transitivity ((ncart k * len (at_am m k)) * (ncart l * len (at_am m l)) * (ncart i * ncart j)); [apply Nat.eq_le_incl; ring|].
  transitivity (M * M * (c * c)); [|apply Nat.eq_le_incl; ring].
  apply Nat.mul_le_mono; apply Nat.mul_le_mono; assumption.
Qed.
Lemma one_fits (m : shellmap V) i j : at_am m i <> [] -> at_am m j <> [] -> ncart i * ncart j <= o_maxsize (find_max m).
Proof.
  intros Hi Hj. unfold o_maxsize. apply Nat.mul_le_mono.
  - pose proof (at_am_bound m i). destruct (at_am m i); [congruence|]. simpl len in H. nia.
  - apply ncart_mono. unfold at_am in Hj. destruct (find (fun p => fst p =? j) m) as [[b v]|] eqn:E; [|congruence].
    apply find_some in E. destruct E as [E1 E2]. simpl in E2. apply Nat.eqb_eq in E2. subst b.
    exact (proj1 (find_max_in m _ E1)).
Qed.

End Proof.

(** The areas of the threads in the buffers. *)
Lemma thread_areas nthread maxsize total : int_mul nthread maxsize = Some total -> (0 < nthread)%Z -> (0 <= maxsize)%Z ->
  (forall t, 0 <= t < nthread -> exists o, int_mul t maxsize = Some o /\ 0 <= o /\ o + maxsize <= total)%Z /\
  (forall t u o p, 0 <= t -> t < u < nthread -> int_mul t maxsize = Some o -> int_mul u maxsize = Some p -> o + maxsize <= p)%Z.
Proof.
  unfold int_mul. intros H Hn Hm. destruct (Z.ltb_spec (nthread * maxsize) (2 ^ 31)); [|discriminate]. injection H as <-. split.
  - intros t Ht. destruct (Z.ltb_spec (t * maxsize) (2 ^ 31)).
    + eexists. split; [reflexivity|]. nia.
    + exfalso. nia.
  - intros t u o p H1 Ht. destruct (t * maxsize <? 2 ^ 31)%Z; [|discriminate]. destruct (u * maxsize <? 2 ^ 31)%Z; [|discriminate].
    intros [= <-] [= <-]. nia.
Qed.

(** The letters: the generator leaves out j, [ammap] does not. *)
Lemma letters_ok am c : am <= 24 -> letter (Z.of_nat am) = Some (String c "") -> ammap (up_char c) = if am <=? 6 then am else S am.
Proof.
  intros H. assert (K : forallb (fun a => match letter (Z.of_nat a) with
      Some (String c _) => ammap (up_char c) =? (if a <=? 6 then a else S a) | _ => true end) (seq 0 25) = true) by (vm_compute; reflexivity).
  rewrite forallb_forall in K. specialize (K am). rewrite in_seq in K. specialize (K ltac:(lia)).
  intros E. rewrite E in K. apply Nat.eqb_eq in K. exact K.
Qed.

(** ** Examples *)
(** Two atoms; an sp shell with two columns, a d shell in small letters. *)
Definition ex_bas : list (string * list (bshell nat * line nat)) :=
  [("O"%string, [(BS "SP" [(50, [1; 2]); (11, [3; 4])], [TNum 1]); (BS "d" [(7, [9])], [])]);
   ("H"%string, [(BS "S" [(34, [5])], [])])].
Definition ex_lines : list (line nat) := [TWord nat "!"; TWord nat "comment"] :: bas_lines ex_bas.
Lemma ex_commented : unmarked ex_bas /\ commented (bas_lines ex_bas) ex_lines.
Proof.
  split.
  - intros sym ss [[= <- <-]|[[= <- <-]|[]]]; (split; [discriminate|]); intros s Hs r; simpl in Hs.
    + destruct Hs as [<-|[<-|[]]]; discriminate.
    + destruct Hs as [<-|[]]; discriminate.
  - unfold ex_lines. apply cm_comment. generalize (bas_lines ex_bas). induction l as [|l r IH]; constructor. exact IH.
Qed.
Definition ex_geo : list (atom nat) := [("H"%string, (1, 2, 3)); ("O"%string, (4, 5, 6))].
(** The numbers of shells of R-camphor.aug-cc-pvqz.mol for s, p, d, f, g. *)
Definition camphor : shellmap unit :=
  map (fun p => (fst p, repeat (MS (fst p) (tt, tt, tt) [tt] [tt]) (snd p))) [(0, 146); (1, 119); (2, 92); (3, 65); (4, 22)].
(** A shell with one primitive. *)
Definition ex_one : list (bshell nat) := [BS "S" [(1, [1])]].

Lemma newline_matters : ~ forall (toks : list (token nat)) r, read_basis (File toks true) = Some r -> read_basis (File toks false) = Some r.
Proof.
  intros H.
  specialize (H [TInt nat 1; TWord nat "H"; TInt nat 1; TInt nat 1; TInt nat 3; TNum 0; TNum 0; TNum 0; TWord nat "S"; TInt nat 1; TInt nat 1; TNum 1; TNum 2]
    _ eq_refl). vm_compute in H. discriminate.
Qed.
Lemma count_wrong : ~ forall ss : list (bshell nat), (forall s, In s ss -> wf_shell s) ->
  nprim2 ss = Some (list_sum (map (fun s => Datatypes.length (bs_rows s) * columns s) ss)).
Proof.
  intros H. specialize (H ex_one). assert (W : forall s, In s ex_one -> wf_shell s).
  { intros s [<-|[]]. split; [discriminate|]. split; [discriminate|]. intros r r' [<-|[]] [<-|[]]. reflexivity. }
  specialize (H W). vm_compute in H. discriminate.
Qed.
Lemma letters_wrong : ~ forall am c, am <= 24 -> letter (Z.of_nat am) = Some (String c "") -> ammap (up_char c) = am.
Proof. intros H. specialize (H 7 "k"%char ltac:(lia) eq_refl). vm_compute in H. discriminate. Qed.
Lemma threads_wrong : ~ forall nthread (m : shellmap unit) limit, (0 < nthread <= 64)%Z -> (t_maxsize 12 limit (find_max m) < 2 ^ 31)%Z ->
  int_mul nthread (t_maxsize 12 limit (find_max m)) <> None.
Proof.
  intros H. specialize (H 2%Z camphor 4 ltac:(lia)). apply H; vm_compute; reflexivity.
Qed.
