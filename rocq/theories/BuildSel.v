(** Which vector header a build uses.
    Source: skel/cmake/DefaultFlags.cmake:80-127 (the names accepted, the definition made and the files
    included), the files skel/cmake/DefaultFlags_*.cmake that exist, skel/CMakeLists.txt:58-66
    (vector_config.h gets the definition), skel/simint/vectorization/vectorization.h:5-22 (the header),
    intrinsics_*.h (SIMINT_SIMD_LEN; which of them define count_prim_screen_survival),
    skel/ostei_s_s_s_s.c:39, 277, 320 (the buffered sums).

    Compilers and their flags are not modelled.  [MATCHES "scalar-"] is a search for that text. *)
From Coq Require Import String Ascii List Arith Bool.
Import ListNotations.
Local Open Scope list_scope.
Local Open Scope string_scope.
Set Implicit Arguments.

(** [string(TOLOWER ..)] and [string(TOUPPER ..)], DefaultFlags.cmake:103-104. *)
Definition low (c : ascii) : ascii := let n := nat_of_ascii c in if ((65 <=? n) && (n <=? 90))%nat then ascii_of_nat (n + 32)%nat else c.
Definition upp (c : ascii) : ascii := let n := nat_of_ascii c in if ((97 <=? n) && (n <=? 122))%nat then ascii_of_nat (n - 32)%nat else c.
Fixpoint smap (f : ascii -> ascii) (s : string) : string :=
  match s with "" => "" | String c r => String (f c) (smap f r) end.
Definition tolower : string -> string := smap low.
Definition toupper : string -> string := smap upp.
(** [list(FIND ..)], line 106. *)
Definition mem (s : string) (l : list string) : bool := existsb (String.eqb s) l.
(** [MATCHES], line 117. *)
Fixpoint occurs (p s : string) : bool :=
  String.prefix p s || match s with "" => false | String _ r => occurs p r end.
(** [string(SUBSTRING s k -1)], line 120. *)
Fixpoint from (k : nat) (s : string) : string :=
  match k, s with 0, _ => s | S k', String _ r => from k' r | _, "" => "" end.

(** Lines 81-96. *)
Definition valid_vector : list string :=
  ["scalar"; "scalar-sse"; "scalar-avx"; "scalar-avx2"; "scalar-avx512"; "scalar-micavx512";
   "sse"; "avx"; "avx2"; "avx512"; "micavx512"; "commonavx512"; "asimd"; "sve"].
(** The [X] of the files [cmake/DefaultFlags_X.cmake]. *)
Definition flag_files : list string :=
  ["asimd"; "avx"; "avx2"; "commonavx512"; "micavx512"; "scalar"; "sse"; "sve"].

(** Lines 112-127: the definition and the included files. *)
Definition choose (v : string) : string * list string :=
  let lo := tolower v in
  if String.eqb lo "scalar" then ("SIMINT_SCALAR", ["scalar"])
  else if occurs "scalar-" lo then ("SIMINT_SCALAR", [from 7 lo; "scalar"])
  else ("SIMINT_" ++ toupper v, [lo]).

(** The headers of vectorization.h:8-22 and their vector length; [Hsve]: the length is that of the
    compiler flag, 8 with the flags of DefaultFlags_sve.cmake. *)
Inductive header := Hscalar | Hsse | Havx | Havx512 | Hasimd | Hsve.
Definition simd_len (h : header) : nat :=
  match h with Hscalar => 1 | Hsse | Hasimd => 2 | Havx => 4 | Havx512 | Hsve => 8 end.
Definition pick (d : string) : option header :=
  if mem d ["SIMINT_COMMONAVX512"; "SIMINT_MICAVX512"] then Some Havx512
  else if mem d ["SIMINT_AVX"; "SIMINT_AVX2"] then Some Havx
  else if mem d ["SIMINT_SSE"] then Some Hsse
  else if mem d ["SIMINT_SCALAR"] then Some Hscalar
  else if mem d ["SIMINT_ASIMD"] then Some Hasimd
  else if mem d ["SIMINT_SVE"] then Some Hsve
  else None.

(** What happens with [-DSIMINT_VECTOR=v]: refused by the script, an included file is not there, the
    compilation ends with [#error], or a header is used (with the definition made). *)
Inductive built := Refused | NoFile (f : string) | NoHeader | Built (d : string) (h : header).
Definition build (v : string) : built :=
  if String.eqb v "" then Refused
  else if negb (mem (tolower v) valid_vector) then Refused
  else
    let '(d, inc) := choose v in
    match find (fun f => negb (mem f flag_files)) inc with
    | Some f => NoFile f
    | None => match pick d with Some h => Built d h | None => NoHeader end
    end.

(** ostei_s_s_s_s.c:39. *)
Definition buffered (d : string) : bool := mem d ["SIMINT_AVX512"; "SIMINT_MICAVX512"].
(** The headers with count_prim_screen_survival, called by the kernels if SIMINT_PRIM_SCREEN_STAT is
    defined (OSTEI_Writer.cpp:590). *)
Definition has_count (h : header) : bool := match h with Hscalar | Hsse => false | _ => true end.

(** ** What the names mean: the instruction set named and its vector length *)
Definition meaning : list (string * nat) :=
  [("scalar", 1); ("scalar-sse", 1); ("scalar-avx", 1); ("scalar-avx2", 1); ("scalar-micavx512", 1);
   ("sse", 2); ("avx", 4); ("avx2", 4); ("micavx512", 8); ("commonavx512", 8); ("asimd", 2); ("sve", 8)].

(** ** Proofs *)
Lemma mem_In s l : mem s l = true <-> In s l.
Proof.
  unfold mem. rewrite existsb_exists. split.
  - intros (x & Hx & E). apply String.eqb_eq in E. subst. exact Hx.
  - intros H. exists s. split; [exact H|apply String.eqb_refl].
Qed.
Lemma low_cases c : upp (low c) = upp c.
Proof. destruct c as [[] [] [] [] [] [] [] []]; reflexivity. Qed.
Lemma upper_lower s : toupper (tolower s) = toupper s.
Proof. unfold toupper, tolower. induction s as [|c s IH]; [reflexivity|]. cbn [smap]. rewrite IH, low_cases. reflexivity. Qed.
Lemma low_low c : low (low c) = low c.
Proof. destruct c as [[] [] [] [] [] [] [] []]; reflexivity. Qed.
Lemma lower_lower s : tolower (tolower s) = tolower s.
Proof. unfold tolower. induction s as [|c s IH]; [reflexivity|]. cbn [smap]. rewrite IH, low_low. reflexivity. Qed.
Lemma choose_lower v : choose v = choose (tolower v).
Proof. unfold choose. rewrite lower_lower, upper_lower. reflexivity. Qed.
(** Only the name in small letters matters. *)
Lemma build_lower v : build v = build (tolower v).
Proof.
  unfold build. rewrite lower_lower, <- choose_lower. destruct v as [|c v]; reflexivity.
Qed.

Theorem build_refused v : build v = Refused <-> ~ In (tolower v) valid_vector.
Proof.
  rewrite build_lower. rewrite <- (lower_lower v) at 2. generalize (tolower v) as w. intros w. rewrite <- mem_In. unfold build.
  destruct (String.eqb_spec w "") as [->|_]; [vm_compute; split; [intros _; discriminate|reflexivity]|].
  destruct (mem (tolower w) valid_vector); cbn [negb].
  - split; [|intros H; exfalso; apply H; reflexivity]. destruct (choose w) as [d inc].
    destruct (find _ inc); [discriminate|]. destruct (pick d); discriminate.
  - split; [discriminate|reflexivity].
Qed.
Theorem build_meaning v n : In (tolower v, n) meaning ->
  exists d h, build v = Built d h /\ simd_len h = n /\
    (buffered d = true <-> tolower v = "micavx512").
Proof.
  rewrite build_lower. generalize (tolower v) as w. intros w H.
  repeat (destruct H as [[= <- <-]|H]; [eexists; eexists; split; [vm_compute; reflexivity|]; split; [reflexivity|]; vm_compute; split; (discriminate || reflexivity)|]).
  destruct H.
Qed.
Theorem build_broken v : In (tolower v) ["avx512"; "scalar-avx512"] -> build v = NoFile "avx512".
Proof.
  rewrite build_lower. generalize (tolower v) as w. intros w [<-|[<-|[]]]; reflexivity.
Qed.
Theorem valid_split w : In w valid_vector <-> In w (map fst meaning) \/ In w ["avx512"; "scalar-avx512"].
Proof.
  split.
  - intros H. repeat (destruct H as [<-|H]; [cbn; auto 20|]). destruct H.
  - intros [H|H]; repeat (destruct H as [<-|H]; [cbn; auto 20|]); destruct H.
Qed.
Theorem build_exactly v : (exists d h, build v = Built d h) <-> In (tolower v) (map fst meaning).
Proof.
  split.
  - intros (d & h & E). destruct (in_dec string_dec (tolower v) valid_vector) as [I|N].
    + apply valid_split in I as [I|I]; [exact I|]. rewrite (build_broken v I) in E. discriminate.
    + apply build_refused in N. rewrite N in E. discriminate.
  - intros H. apply in_map_iff in H as ([w n] & E & H). cbn in E. subst w.
    destruct (@build_meaning v n H) as (d & h & E & _). exists d, h. exact E.
Qed.
