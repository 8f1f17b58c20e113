(** Proofs about the Fortran interface. *)
From Coq Require Import List Arith Lia Bool ZArith String.
Import ListNotations.
From Verif Require Import Simd Fortran.
Local Open Scope string_scope.
Local Open Scope list_scope.
Local Open Scope nat_scope.

Lemma f_shell_eq fpp d : f_shell fpp d = c_shell d.
Proof. destruct fpp; reflexivity. Qed.
Lemma f_pair_eq fpp d : fpp = true \/ 0 < d -> f_pair fpp d = c_pair d.
Proof. intros [->|H]; [reflexivity|]. destruct d; [lia|]. destruct fpp; reflexivity. Qed.

Theorem shell_agrees a fpp d : (forall n, offset_of a (f_shell fpp d) n = offset_of a (c_shell d) n) /\
  struct_size a (f_shell fpp d) = struct_size a (c_shell d).
Proof. rewrite f_shell_eq. split; reflexivity. Qed.
Theorem pair_agrees a fpp d : fpp = true \/ 0 < d ->
  (forall n, offset_of a (f_pair fpp d) n = offset_of a (c_pair d) n) /\ struct_size a (f_pair fpp d) = struct_size a (c_pair d).
Proof. intros H. rewrite (f_pair_eq _ _ H). split; reflexivity. Qed.

(** The members up to [alpha], and those after [beta2]. *)
Definition first_members : list member :=
  [("am1", TInt); ("am2", TInt); ("nprim", TInt); ("nshell12", TInt); ("nshell12_clip", TInt); ("nprim12", TPtr);
           ("AB_x", TPtr); ("AB_y", TPtr); ("AB_z", TPtr); ("x", TPtr); ("y", TPtr); ("z", TPtr);
           ("PA_x", TPtr); ("PA_y", TPtr); ("PA_z", TPtr); ("PB_x", TPtr); ("PB_y", TPtr); ("PB_z", TPtr); ("alpha", TPtr)].
Definition last_members : list member := [("prefac", TPtr); ("screen", TPtr); ("screen_max", TDouble); ("memsize", TSize); ("ptr", TPtr)].
Lemma find_app a ms r o n : existsb (fun m => String.eqb (fst m) n) ms = false ->
  find_member a o (ms ++ r) n = find_member a (members_end a o ms) r n.
Proof.
  revert o. induction ms as [|[m t] ms IH]; intros o H; [reflexivity|]. cbn [existsb fst] in H. apply orb_false_iff in H. destruct H as [H1 H2].
  cbn [app find_member members_end]. rewrite H1. apply IH, H2.
Qed.
Lemma c_pair0 : c_pair 0 = first_members ++ last_members. Proof. reflexivity. Qed.
Lemma f_pair0 : f_pair false 0 = first_members ++ [("alpha2", TPtr); ("beta2", TPtr)] ++ last_members. Proof. reflexivity. Qed.

Lemma c_at a n : existsb (fun m => String.eqb (fst m) n) first_members = false ->
  offset_of a (c_pair 0) n = find_member a (members_end a 0 first_members) last_members n.
Proof. intros H. unfold offset_of. rewrite c_pair0. apply find_app, H. Qed.
Lemma f_at a n : existsb (fun m => String.eqb (fst m) n) first_members = false -> existsb (fun m => String.eqb (fst m) n) [("alpha2", TPtr); ("beta2", TPtr)] = false ->
  offset_of a (f_pair false 0) n = find_member a (members_end a (members_end a 0 first_members) [("alpha2", TPtr); ("beta2", TPtr)]) last_members n.
Proof. intros H H2. unfold offset_of. rewrite f_pair0. rewrite find_app by exact H. apply find_app, H2. Qed.

Theorem pair_moved a n : n = "prefac" \/ n = "screen" ->
  exists oc of, offset_of a (c_pair 0) n = Some (oc, TPtr) /\ offset_of a (f_pair false 0) n = Some (of, TPtr) /\ oc + sz a TPtr <= of.
Proof.
  intros Hn. rewrite c_at, f_at by (destruct Hn; subst; reflexivity).
  remember (members_end a 0 first_members) as e eqn:He. clear He.
  pose proof (al_pos a TPtr) as Hw.
  assert (G: forall x, x <= rnd (al a TPtr) x) by (intros x; apply rnd_ge, Hw).
  destruct Hn; subst n; cbn [find_member last_members members_end String.eqb Ascii.eqb Bool.eqb];
    set (w := al a TPtr) in *; set (s := sz a TPtr).
  - do 2 eexists. split; [reflexivity|]. split; [reflexivity|].
    pose proof (G (rnd w (rnd w e + s) + s)). pose proof (G (rnd w e + s)). lia.
  - do 2 eexists. split; [reflexivity|]. split; [reflexivity|].
    pose proof (G (rnd w (rnd w (rnd w e + s) + s) + s)). pose proof (G (rnd w (rnd w e + s) + s)). lia.
Qed.

Theorem agrees_iff a fpp d : (forall n, offset_of a (f_pair fpp d) n = offset_of a (c_pair d) n) <-> fpp = true \/ 0 < d.
Proof.
  split; [|intros H; apply pair_agrees, H]. intros H.
  destruct fpp; [left; reflexivity|]. destruct d; [|right; lia]. exfalso.
  destruct (pair_moved a "prefac" (or_introl eq_refl)) as (oc & of & E1 & E2 & L). rewrite (H "prefac"), E1 in E2. injection E2 as E.
  pose proof (sz_pos a TPtr). lia.
Qed.

(** Pointers and doubles of the same size and alignment. *)
Theorem prefac_is_screen_max a w : sz a TPtr = w -> al a TPtr = w -> sz a TDouble = w -> al a TDouble = w ->
  exists o, offset_of a (f_pair false 0) "prefac" = Some (o, TPtr) /\ offset_of a (c_pair 0) "screen_max" = Some (o, TDouble).
Proof.
  intros S1 A1 S2 A2. rewrite c_at, f_at by reflexivity. remember (members_end a 0 first_members) as e eqn:He. clear He.
  cbn [find_member last_members members_end String.eqb Ascii.eqb Bool.eqb]. rewrite S1, A1, A2.
  pose proof (al_pos a TPtr) as Hw. rewrite A1 in Hw.
  assert (K: forall x, rnd w (rnd w x + w) = rnd w x + w).
  { intros x. apply rnd_id; [exact Hw|]. apply Nat.divide_add_r; [apply rnd_divide|exists 1; lia]. }
  rewrite !K. eexists. split; reflexivity.
Qed.

Theorem arrays_agree a fpp d : fpp = true \/ 0 < d -> forall n i b, i < n -> In b (needed a fpp d i) -> In b (initialised a d n).
Proof.
  intros H n i b Hi Hb. unfold needed in Hb. rewrite (f_pair_eq _ _ H) in Hb. unfold initialised. apply in_flat_map. exists i.
  split; [apply in_seq; lia|]. apply in_app_iff. apply in_app_iff in Hb. tauto.
Qed.

Theorem arrays_ok a fpp d : fpp = true \/ 0 < d -> struct_size a (f_pair fpp d) = struct_size a (c_pair d) /\
  forall n i b, i < n -> In b (needed a fpp d i) -> In b (initialised a d n).
Proof. intros H. split; [exact (proj2 (pair_agrees a fpp d H))|exact (arrays_agree a fpp d H)]. Qed.

Theorem arrays_wrong n : 2 <= n -> exists b, In b (needed lp64 false 0 (n - 1)) /\ ~ In b (initialised lp64 0 n).
Proof.
  intros Hn. exists ((n - 1) * 192 + 160). split.
  - unfold needed. apply in_app_iff. left. unfold c_bytes.
    change (offset_of lp64 (c_pair 0) "memsize") with (Some (160, TSize)). apply in_map_iff. exists 0. split; [|apply in_seq; cbn; lia].
    change (struct_size lp64 (f_pair false 0)) with 192. lia.
  - intros H. unfold initialised in H. apply in_flat_map in H. destruct H as (i & Hi & H). apply in_seq in Hi.
    change (struct_size lp64 (c_pair 0)) with 176 in H. unfold c_bytes in H.
    change (offset_of lp64 (c_pair 0) "memsize") with (Some (160, TSize)) in H.
    change (offset_of lp64 (c_pair 0) "ptr") with (Some (168, TPtr)) in H.
    apply in_app_iff in H. destruct H as [H|H]; apply in_map_iff in H; destruct H as (k & E & Hk); apply in_seq in Hk; cbn [sz lp64 lp64_size] in Hk; lia.
Qed.

Theorem prototypes_agree : (forall b, In b f_bodies -> exists p, called b = Some p /\ In p c_functions) /\
  (forall p, In p c_functions -> exists b, In b f_bodies /\ b_name b = fst p).
Proof.
  split.
  - intros b H. unfold f_bodies in H.
    repeat (destruct H as [<-|H]; [eexists; split; [cbn; reflexivity|]; unfold c_functions; repeat (first [left; reflexivity|right])|]). destruct H.
  - intros p H. unfold c_functions in H.
    assert (B: forallb (fun p : proto => existsb (fun b => String.eqb (b_name b) (fst p)) f_bodies) c_functions = true) by (vm_compute; reflexivity).
    rewrite forallb_forall in B. specialize (B p H). apply existsb_exists in B. destruct B as (b & I & E). apply String.eqb_eq in E. exists b. auto.
Qed.

Theorem worksize_exact v : (0 <= v)%Z -> (f_worksize v = Some v <-> (v < 2 ^ 31)%Z) /\ (f_workmem v = Some v <-> (v < 2 ^ 31)%Z).
Proof.
  intros Hv. assert (K: to_c_int v = Some v <-> (v < 2 ^ 31)%Z).
  { unfold to_c_int. destruct (Z.leb_spec (- 2 ^ 31) v); [|lia]. destruct (Z.ltb_spec v (2 ^ 31)); cbn [andb]; split; intros; try reflexivity; try lia; discriminate. }
  split; exact K.
Qed.

Lemma read_pairs_len A n (m : list A) : (exists r, read_pairs A n m = Some r) <-> 2 * n <= List.length m.
Proof.
  revert m. induction n as [|n IH]; intros m; cbn [read_pairs]; [split; [lia|intros; eexists; reflexivity]|].
  destruct m as [|x [|y m]]; cbn [List.length]; try (split; [intros [r H]; discriminate|lia]).
  specialize (IH m). destruct (read_pairs A n m) as [r|] eqn:E; cbn [option_map].
  - split; [|intros; eexists; reflexivity]. intros _. assert (2 * n <= List.length m) by (apply IH; eexists; reflexivity). lia.
  - split; [intros [r H]; discriminate|]. intros H. assert (exists r, (None : option (list (A * A))) = Some r) as [r K] by (apply IH; lia). discriminate.
Qed.
Lemma read_pairs_nth A n (m : list A) r x0 : read_pairs A n m = Some r ->
  List.length r = n /\ forall i, i < n -> nth i r (x0, x0) = (nth (2 * i) m x0, nth (2 * i + 1) m x0).
Proof.
  revert m r. induction n as [|n IH]; intros m r; cbn [read_pairs].
  - intros [= <-]. split; [reflexivity|lia].
  - destruct m as [|x [|y m]]; try discriminate. destruct (read_pairs A n m) as [r'|] eqn:E; [|discriminate]. intros [= <-].
    destruct (IH _ _ E) as [L H]. split; [cbn; lia|]. intros [|i] Hi; [reflexivity|].
    cbn [nth]. rewrite (H i) by lia. replace (2 * S i) with (S (S (2 * i))) by lia. replace (S (S (2 * i)) + 1) with (S (S (2 * i + 1))) by lia. reflexivity.
Qed.
Theorem create2_ok A n (sel : list A) (x0 : A) : 2 * n <= List.length sel ->
  exists r, f_create2 A true n sel = Some r /\ List.length r = n /\
    forall i, i < n -> nth i r (x0, x0) = (nth (2 * i) sel x0, nth (2 * i + 1) sel x0).
Proof.
  intros H. unfold f_create2, handed_on. destruct (proj2 (read_pairs_len A n sel) H) as [r E]. exists r. split; [exact E|]. apply read_pairs_nth, E.
Qed.
Theorem create2_copied A n (sel : list A) : 0 < n -> f_create2 A false n sel = None.
Proof.
  intros H. unfold f_create2, handed_on. destruct (read_pairs A n (firstn n sel)) as [r|] eqn:E; [|reflexivity]. exfalso.
  assert (2 * n <= List.length (firstn n sel)) by (apply read_pairs_len; eexists; exact E). rewrite firstn_length in *. lia.
Qed.

Theorem intents : forall n w, In (n, w) wrappers -> (undefined_read w = true <-> n = "simint_copy_shell").
Proof.
  intros n w H. unfold wrappers in H.
  repeat (destruct H as [[= <- <-]|H]; [cbn; split; intros; first [reflexivity|discriminate]|]). destruct H.
Qed.
