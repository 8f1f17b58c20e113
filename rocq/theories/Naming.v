(** Model of the names the generator gives to arrays, functions and files.

    Code: generator/Naming.hpp:21-174, generator/Types.hpp:21 and 180-195,
    generator/ostei/OSTEI_Writer.cpp:101-108, OSTEIDeriv1_Writer.cpp:96-103 and 349-357,
    OSTEI_VRR_Writer.cpp:210-212, 332-334 and 394-396, OSTEI_HRR_Writer.cpp:104-116, 189, 202, 212-213,
    232-233, 299-300 and 404-405; create.py:37-39, 83, 275-285, 380, 498-500 and 605-606.

    Momenta are [int] in the code, so [Z] here: the derivative writer forms names of classes with a
    momentum of -1.  Reading [amchar] outside its 60 letters and the terminating NUL is undefined and is
    [None]. *)
From Coq Require Import String Ascii ZArith List Lia Bool.
Import ListNotations.
From Verif Require Import Base Cart VRRStep HRRAlgo VRRAlgo Work Driver.
Local Open Scope string_scope.
Set Implicit Arguments.

(** * Letters *)
(** [amchar], generator/Types.hpp:21 and create.py:83. *)
Definition amchar : string := "spdfghiklmnoqrtuvwxyzabceSPDFGHIKLMNOQRTUVWXYZABCE0123456789".

(** [amchar[i]] in C++: a string literal with its NUL (Types.hpp:21). *)
Definition amchar_at (i : Z) : option ascii :=
  if (i <? 0)%Z then None else String.get (Z.to_nat i) (amchar ++ String zero "").

(** The character as [StringBuilder] appends it (StringBuilder.hpp:19-38). *)
Definition letter (i : Z) : option string :=
  match amchar_at i with Some c => Some (String c "") | None => None end.

Definition sbind {A B} (x : option A) (f : A -> option B) : option B :=
  match x with Some a => f a | None => None end.

(** * Names of arrays *)
(** [QAM] with its tag, Types.hpp:40-90. *)
Record zam := ZA { za : Z; zb : Z; zc : Z; zd : Z; ztag : string }.
Definition zam_of (q : qam) (tag : string) : zam :=
  ZA (Z.of_nat (am0 q)) (Z.of_nat (am1 q)) (Z.of_nat (am2 q)) (Z.of_nat (am3 q)) tag.

(** [tag.size() ? tag + "_" : ""], Naming.hpp:25, 65 and 105. *)
Definition tagpart (tag : string) : string := match tag with "" => "" | _ => tag ++ "_" end.
(** [if(prefix.size()) prefix_str else str], Naming.hpp:30-33, 49-52, 69-72, 88-91 and 109-112. *)
Definition prefixed (prefix str : string) : string := match prefix with "" => str | _ => prefix ++ "_" ++ str end.

(** Two letters joined by an underscore: OSTEI_HRR_Writer.cpp:189 and 202. *)
Definition pairstr (a b : Z) : option string :=
  sbind (letter a) (fun x => sbind (letter b) (fun y => Some (x ++ "_" ++ y))).

(** [ArrVarName(QAM, prefix)], Naming.hpp:21-34. *)
Definition arr_name (am : zam) (prefix : string) : option string :=
  sbind (letter (za am)) (fun a => sbind (letter (zb am)) (fun b =>
  sbind (letter (zc am)) (fun c => sbind (letter (zd am)) (fun d =>
  Some (prefixed prefix ("INT__" ++ tagpart (ztag am) ++ a ++ "_" ++ b ++ "_" ++ c ++ "_" ++ d)))))).

(** [ArrVarName(int, int, ketstr, prefix)], Naming.hpp:45-53. *)
Definition arr_name_ket (a b : Z) (ketstr prefix : string) : option string :=
  sbind (letter a) (fun x => sbind (letter b) (fun y =>
  Some (prefixed prefix ("INT__" ++ x ++ "_" ++ y ++ "_" ++ ketstr)))).
(** [ArrVarName(Doublet, ketstr, prefix)], Naming.hpp:63-73; of the doublet the two momenta and the tag. *)
Definition arr_name_dket (a b : Z) (tag ketstr prefix : string) : option string :=
  sbind (letter a) (fun x => sbind (letter b) (fun y =>
  Some (prefixed prefix ("INT__" ++ tagpart tag ++ x ++ "_" ++ y ++ "_" ++ ketstr)))).
(** [ArrVarName(brastr, int, int, prefix)], Naming.hpp:84-92. *)
Definition arr_name_bra (brastr : string) (c d : Z) (prefix : string) : option string :=
  sbind (letter c) (fun x => sbind (letter d) (fun y =>
  Some (prefixed prefix ("INT__" ++ brastr ++ "_" ++ x ++ "_" ++ y)))).
(** [ArrVarName(brastr, Doublet, prefix)], Naming.hpp:103-113. *)
Definition arr_name_dbra (brastr : string) (c d : Z) (tag prefix : string) : option string :=
  sbind (letter c) (fun x => sbind (letter d) (fun y =>
  Some (prefixed prefix ("INT__" ++ tagpart tag ++ brastr ++ "_" ++ x ++ "_" ++ y)))).

(** [HRRVarName], [PrimVarName], [PrimPtrName], Naming.hpp:122-174. *)
Definition hrr_name (am : zam) : option string := arr_name am "HRR".
Definition hrr_name_ket (a b : Z) (ketstr : string) : option string := arr_name_ket a b ketstr "HRR".
Definition hrr_name_bra (brastr : string) (c d : Z) : option string := arr_name_bra brastr c d "HRR".
Definition prim_name (am : zam) : option string := arr_name am "PRIM".
Definition prim_ptr_name (am : zam) : option string := arr_name am "PRIM_PTR".

(** The four kinds of array names appearing in a kernel. *)
Inductive akind := KArr | KHrr | KPrim | KPtr.
Definition array_name (k : akind) (am : zam) : option string :=
  match k with
  | KArr => arr_name am "" | KHrr => hrr_name am | KPrim => prim_name am | KPtr => prim_ptr_name am
  end.

(** The array name in one HRR step of the bra, "HRR_" followed by [ArrVarName(d, ketstr)]:
    OSTEI_HRR_Writer.cpp:104-109 (the index is modelled in HRRExec.v), and of the ket: 112-116. *)
Definition bra_step_name (a b : Z) (tag ketstr : string) : option string :=
  sbind (arr_name_dket a b tag ketstr "") (fun s => Some ("HRR_" ++ s)).
Definition ket_step_name (brastr : string) (c d : Z) (tag : string) : option string :=
  sbind (arr_name_dbra brastr c d tag "") (fun s => Some ("HRR_" ++ s)).

(** * Names of functions *)
(** [RRStepTypeToStr], Types.hpp:180-195. *)
Definition stepstr (c : ctr) : string := match c with CI => "I" | CJ => "J" | CK => "K" | CL => "L" end.
(** The functions a library has: kernels (OSTEI_Writer.cpp:101-108, OSTEIDeriv1_Writer.cpp:96-103),
    VRR routines (OSTEI_VRR_Writer.cpp:332-334; the same text in the calls, 210-212 and 394-396) and HRR
    routines (OSTEI_HRR_Writer.cpp:299-300 and 404-405; calls 212-213 and 232-233). *)
Inductive fn := FEri (a b c d : Z) | FDer (a b c d : Z) | FVrr (s : ctr) (a b c d : Z) | FHrr (s : ctr) (a b : Z).
Definition four (a b c d : Z) : option string :=
  sbind (letter a) (fun x => sbind (letter b) (fun y => sbind (letter c) (fun z => sbind (letter d) (fun w =>
  Some (x ++ "_" ++ y ++ "_" ++ z ++ "_" ++ w))))).
Definition fn_name (f : fn) : option string :=
  match f with
  | FEri a b c d => sbind (four a b c d) (fun s => Some ("ostei_" ++ s))
  | FDer a b c d => sbind (four a b c d) (fun s => Some ("ostei_deriv1_" ++ s))
  | FVrr t a b c d => sbind (four a b c d) (fun s => Some ("VRR_" ++ stepstr t ++ "_" ++ s))
  | FHrr t a b => sbind (pairstr a b) (fun s => Some ("HRR_" ++ stepstr t ++ "_" ++ s))
  end.
(** The source file of a function without its directory: create.py:37-38 (base "ostei", 248, or
    "ostei_deriv1", 367), 498-500 and 605-606. *)
Definition file_name (f : fn) : option string :=
  match f with
  | FEri a b c d => sbind (four a b c d) (fun s => Some ("ostei_" ++ s ++ ".c"))
  | FDer a b c d => sbind (four a b c d) (fun s => Some ("ostei_deriv1_" ++ s ++ ".c"))
  | FVrr t a b c d => sbind (four a b c d) (fun s => Some ("vrr_" ++ stepstr t ++ "_" ++ s ++ ".c"))
  | FHrr t a b => sbind (pairstr a b) (fun s => Some ("hrr_" ++ stepstr t ++ "_" ++ s ++ ".c"))
  end.

(** * The names the derivative writer looks up *)
(** OSTEIDeriv1_Writer.cpp:349-357: all nine are built, whatever the class. *)
Definition deriv_lookups (q : qam) : list zam :=
  let a := Z.of_nat (am0 q) in let b := Z.of_nat (am1 q) in
  let c := Z.of_nat (am2 q) in let d := Z.of_nat (am3 q) in
  [ZA a b c d "";
   ZA (a + 1) b c d "2a"; ZA a (b + 1) c d "2b"; ZA a b (c + 1) d "2c"; ZA a b c (d + 1) "2d";
   ZA (a - 1) b c d ""; ZA a (b - 1) c d ""; ZA a b (c - 1) d ""; ZA a b c (d - 1) ""].
Fixpoint lookups (l : list zam) : option (list string) :=
  match l with
  | [] => Some []
  | am :: l => sbind (hrr_name am) (fun s => sbind (lookups l) (fun r => Some (s :: r)))
  end.
Definition deriv_names (q : qam) : option (list string) := lookups (deriv_lookups q).

(** * Facts about strings *)
Lemma sapp_nil_r s : s ++ "" = s.
Proof. induction s; simpl; [reflexivity|now rewrite IHs]. Qed.
Lemma sapp_assoc a b c : (a ++ b) ++ c = a ++ b ++ c.
Proof. induction a; simpl; [reflexivity|now rewrite IHa]. Qed.
Lemma slen_app a b : String.length (a ++ b) = String.length a + String.length b.
Proof. induction a; simpl; [reflexivity|now rewrite IHa]. Qed.
Lemma sapp_inj_l a b c : a ++ b = a ++ c -> b = c.
Proof. induction a; simpl; [tauto|]. intros H. injection H. exact IHa. Qed.
Lemma sapp_inj a b c d : String.length b = String.length d -> a ++ b = c ++ d -> a = c /\ b = d.
Proof.
  revert c. induction a as [|x a IH]; intros [|y c] L H; simpl in *.
  - auto.
  - exfalso. subst b. simpl in L. rewrite slen_app in L. lia.
  - exfalso. subst d. simpl in L. rewrite slen_app in L. lia.
  - injection H as -> H. destruct (IH c L H) as [-> ->]. auto.
Qed.
Lemma sapp_inj_front a b c d : String.length a = String.length c -> a ++ b = c ++ d -> a = c /\ b = d.
Proof.
  intros L H. apply sapp_inj; [|exact H]. apply (f_equal String.length) in H. rewrite !slen_app in H. lia.
Qed.

(** * Letters are distinct *)
Definition lettered (i : Z) : Prop := (0 <= i <= 60)%Z.
Definition named (i : Z) : Prop := (0 <= i < 60)%Z.
Lemma letter_len i s : letter i = Some s -> String.length s = 1.
Proof. unfold letter. destruct (amchar_at i); intros H; inversion H; reflexivity. Qed.

Definition amtab : list ascii := list_ascii_of_string (amchar ++ String zero "").
Lemma get_nth n s : String.get n s = nth_error (list_ascii_of_string s) n.
Proof. revert n. induction s; intros [|n]; simpl; auto. Qed.
Lemma amtab_nodup : NoDup amtab.
Proof.
  assert (H : forall l : list ascii, (if list_eq_dec ascii_dec (nodup ascii_dec l) l then true else false) = true -> NoDup l).
  { intros l. destruct (list_eq_dec ascii_dec (nodup ascii_dec l) l) as [<-|]; [|discriminate]. intros _. apply NoDup_nodup. }
  apply H. vm_compute. reflexivity.
Qed.
Lemma amtab_len : List.length amtab = 61. Proof. reflexivity. Qed.

Lemma letter_some i : (exists s, letter i = Some s) <-> lettered i.
Proof.
  unfold letter, amchar_at, lettered. rewrite get_nth. fold amtab. destruct (Z.ltb_spec i 0).
  - split; [intros [s H']; discriminate|lia].
  - split.
    + intros [s H']. destruct (nth_error amtab (Z.to_nat i)) eqn:E; [|discriminate].
      assert (nth_error amtab (Z.to_nat i) <> None) by (rewrite E; discriminate).
      apply nth_error_Some in H0. rewrite amtab_len in H0. lia.
    + intros L. destruct (nth_error amtab (Z.to_nat i)) eqn:E; [eauto|].
      apply nth_error_None in E. rewrite amtab_len in E. lia.
Qed.
Lemma letter_inj i j s : letter i = Some s -> letter j = Some s -> i = j.
Proof.
  intros Hi Hj.
  assert (Li : lettered i) by (apply letter_some; eauto). assert (Lj : lettered j) by (apply letter_some; eauto).
  unfold letter, amchar_at in *. rewrite get_nth in *. fold amtab in *.
  unfold lettered in *. destruct (Z.ltb_spec i 0); [lia|]. destruct (Z.ltb_spec j 0); [lia|].
  destruct (nth_error amtab (Z.to_nat i)) eqn:Ei; [|discriminate].
  destruct (nth_error amtab (Z.to_nat j)) eqn:Ej; [|discriminate].
  rewrite <- Hi in Hj. injection Hj as ->.
  assert (Z.to_nat i = Z.to_nat j); [|lia].
  apply (proj1 (NoDup_nth_error amtab) amtab_nodup); [rewrite amtab_len; lia|congruence].
Qed.

(** * Pairs and quartets of letters *)
Lemma sbind_some {A B} (x : option A) (f : A -> option B) b : sbind x f = Some b <-> exists a, x = Some a /\ f a = Some b.
Proof. destruct x; simpl; split; [eauto|intros (a' & H & ?); congruence|discriminate|intros (a' & H & ?); discriminate]. Qed.

Lemma four_inv a b c d s : four a b c d = Some s <->
  exists x y z w, letter a = Some x /\ letter b = Some y /\ letter c = Some z /\ letter d = Some w /\
    s = x ++ "_" ++ y ++ "_" ++ z ++ "_" ++ w.
Proof.
  unfold four. split.
  - intros H. apply sbind_some in H as (x & Hx & H). apply sbind_some in H as (y & Hy & H).
    apply sbind_some in H as (z & Hz & H). apply sbind_some in H as (w & Hw & H). injection H as <-.
    exists x, y, z, w. auto.
  - intros (x & y & z & w & -> & -> & -> & -> & ->). reflexivity.
Qed.
Lemma four_len a b c d s : four a b c d = Some s -> String.length s = 7.
Proof.
  intros H. apply four_inv in H as (x & y & z & w & Hx & Hy & Hz & Hw & ->).
  rewrite !slen_app. rewrite (letter_len _ Hx), (letter_len _ Hy), (letter_len _ Hz), (letter_len _ Hw). reflexivity.
Qed.
Lemma pairstr_inv a b s : pairstr a b = Some s <->
  exists x y, letter a = Some x /\ letter b = Some y /\ s = x ++ "_" ++ y.
Proof.
  unfold pairstr. split.
  - intros H. apply sbind_some in H as (x & Hx & H). apply sbind_some in H as (y & Hy & H). injection H as <-.
    exists x, y. auto.
  - intros (x & y & -> & -> & ->). reflexivity.
Qed.
Lemma pairstr_len a b s : pairstr a b = Some s -> String.length s = 3.
Proof.
  intros H. apply pairstr_inv in H as (x & y & Hx & Hy & ->).
  rewrite !slen_app. rewrite (letter_len _ Hx), (letter_len _ Hy). reflexivity.
Qed.
Lemma four_pairs a b c d s : four a b c d = Some s <->
  exists p q, pairstr a b = Some p /\ pairstr c d = Some q /\ s = p ++ "_" ++ q.
Proof.
  rewrite four_inv. split.
  - intros (x & y & z & w & Hx & Hy & Hz & Hw & ->). exists (x ++ "_" ++ y), (z ++ "_" ++ w).
    unfold pairstr. rewrite Hx, Hy, Hz, Hw. cbn [sbind]. rewrite !sapp_assoc. auto.
  - intros (p & q & Hp & Hq & ->). apply pairstr_inv in Hp as (x & y & Hx & Hy & ->).
    apply pairstr_inv in Hq as (z & w & Hz & Hw & ->). exists x, y, z, w. rewrite !sapp_assoc. auto 6.
Qed.
Lemma pairstr_inj a b a' b' s : pairstr a b = Some s -> pairstr a' b' = Some s -> a = a' /\ b = b'.
Proof.
  intros H H'. apply pairstr_inv in H as (x & y & Hx & Hy & ->). apply pairstr_inv in H' as (x' & y' & Hx' & Hy' & E).
  apply sapp_inj_front in E as [-> E]; [|now rewrite (letter_len _ Hx), (letter_len _ Hx')].
  apply sapp_inj_l in E. subst y'. split; eapply letter_inj; eauto.
Qed.
Lemma four_inj a b c d a' b' c' d' s : four a b c d = Some s -> four a' b' c' d' = Some s ->
  a = a' /\ b = b' /\ c = c' /\ d = d'.
Proof.
  intros H H'. apply four_pairs in H as (p & q & Hp & Hq & ->). apply four_pairs in H' as (p' & q' & Hp' & Hq' & E).
  apply sapp_inj_front in E as [-> E]; [|now rewrite (pairstr_len _ _ Hp), (pairstr_len _ _ Hp')].
  apply sapp_inj_l in E. subst q'.
  destruct (pairstr_inj _ _ _ _ Hp Hp'). destruct (pairstr_inj _ _ _ _ Hq Hq'). auto.
Qed.
Lemma pairstr_some a b : (exists s, pairstr a b = Some s) <-> lettered a /\ lettered b.
Proof.
  rewrite <- !letter_some. split.
  - intros (s & H). apply pairstr_inv in H as (x & y & Hx & Hy & _). eauto.
  - intros ((x & Hx) & (y & Hy)). exists (x ++ "_" ++ y). apply pairstr_inv. eauto 6.
Qed.
Lemma four_some a b c d : (exists s, four a b c d = Some s) <-> lettered a /\ lettered b /\ lettered c /\ lettered d.
Proof.
  transitivity ((exists s, pairstr a b = Some s) /\ (exists s, pairstr c d = Some s)).
  - split.
    + intros (s & H). apply four_pairs in H as (p & q & Hp & Hq & _). eauto.
    + intros ((p & Hp) & (q & Hq)). exists (p ++ "_" ++ q). apply four_pairs. eauto 6.
  - rewrite !pairstr_some. tauto.
Qed.

(** * Array names *)
Definition kprefix (k : akind) : string := match k with KArr => "" | KHrr => "HRR" | KPrim => "PRIM" | KPtr => "PRIM_PTR" end.
Lemma array_name_eq k am : array_name k am = arr_name am (kprefix k). Proof. destruct k; reflexivity. Qed.

Lemma arr_name_four am prefix : arr_name am prefix =
  sbind (four (za am) (zb am) (zc am) (zd am)) (fun s => Some (prefixed prefix ("INT__" ++ tagpart (ztag am) ++ s))).
Proof.
  unfold arr_name, four. destruct (letter (za am)); [|reflexivity]. destruct (letter (zb am)); [|reflexivity].
  destruct (letter (zc am)); [|reflexivity]. destruct (letter (zd am)); reflexivity.
Qed.

Lemma tagpart_inj t t' : tagpart t = tagpart t' -> t = t'.
Proof.
  assert (E : forall u, u <> "" -> tagpart u = u ++ "_") by (intros [|]; [congruence|reflexivity]).
  destruct (string_dec t "") as [->|N]; destruct (string_dec t' "") as [->|N'].
  - auto.
  - rewrite (E t' N'). destruct t'; [congruence|discriminate].
  - rewrite (E t N). destruct t; [congruence|discriminate].
  - rewrite (E t N), (E t' N'). intros H. apply sapp_inj in H; tauto.
Qed.

Theorem array_names_distinct k k' am am' s :
  array_name k am = Some s -> array_name k' am' = Some s -> k = k' /\ am = am'.
Proof.
  rewrite !array_name_eq, !arr_name_four. intros H H'.
  apply sbind_some in H as (x & Hx & H). apply sbind_some in H' as (x' & Hx' & H').
  injection H as <-. injection H' as E.
  assert (K : k = k') by (destruct k, k'; auto; discriminate E).
  subst k'. split; [reflexivity|].
  assert (E' : "INT__" ++ tagpart (ztag am') ++ x' = "INT__" ++ tagpart (ztag am) ++ x).
  { destruct k; cbn [kprefix prefixed] in E; [exact E| | |]; do 2 apply sapp_inj_l in E; exact E. }
  apply sapp_inj_l in E'. apply sapp_inj in E' as [T ->]; [|now rewrite (four_len _ _ _ _ Hx), (four_len _ _ _ _ Hx')].
  apply tagpart_inj in T. destruct (four_inj _ _ _ _ _ _ _ _ Hx Hx') as (A & B & C & D).
  destruct am, am'; simpl in *; congruence.
Qed.
Theorem array_names_defined k am :
  (exists s, array_name k am = Some s) <-> lettered (za am) /\ lettered (zb am) /\ lettered (zc am) /\ lettered (zd am).
Proof.
  rewrite <- four_some, array_name_eq, arr_name_four. split.
  - intros (s & H). apply sbind_some in H as (x & Hx & _). eauto.
  - intros (x & ->). simpl. eauto.
Qed.

(** * The split forms give the same names *)
Theorem split_ket a b c d tag prefix ks : pairstr c d = Some ks ->
  arr_name_dket a b tag ks prefix = arr_name (ZA a b c d tag) prefix /\
  arr_name_ket a b ks prefix = arr_name (ZA a b c d "") prefix.
Proof.
  intros H. rewrite !arr_name_four. cbn [za zb zc zd ztag]. unfold four, arr_name_dket, arr_name_ket.
  apply pairstr_inv in H as (z & w & -> & -> & ->).
  destruct (letter a) as [x|]; [|split; reflexivity]. destruct (letter b) as [y|]; [|split; reflexivity].
  cbn [sbind]. split; repeat f_equal.
Qed.
Theorem split_bra a b c d tag prefix bs : pairstr a b = Some bs ->
  arr_name_dbra bs c d tag prefix = arr_name (ZA a b c d tag) prefix /\
  arr_name_bra bs c d prefix = arr_name (ZA a b c d "") prefix.
Proof.
  intros H. rewrite !arr_name_four. cbn [za zb zc zd ztag]. unfold four, arr_name_dbra, arr_name_bra.
  apply pairstr_inv in H as (x & y & -> & -> & ->).
  destruct (letter c) as [z|]; [|split; reflexivity]. destruct (letter d) as [w|]; [|split; reflexivity].
  cbn [sbind]. rewrite !sapp_assoc. split; reflexivity.
Qed.

(** The names in the steps of a kernel are those its arrays are declared with; the names in the steps of
    a routine are those of its parameters. *)
Theorem step_names a b c d tag :
  (forall ks, pairstr c d = Some ks -> bra_step_name a b tag ks = hrr_name (ZA a b c d tag)) /\
  (forall bs, pairstr a b = Some bs -> ket_step_name bs c d tag = hrr_name (ZA a b c d tag)) /\
  (forall str, bra_step_name a b "" str = hrr_name_ket a b str) /\
  (forall str, ket_step_name str c d "" = hrr_name_bra str c d).
Proof.
  assert (P : forall x s, x = Some s -> sbind x (fun s => Some ("HRR_" ++ s)) = Some ("HRR_" ++ s)) by (intros x s ->; reflexivity).
  repeat split.
  - intros ks H. unfold bra_step_name. rewrite (proj1 (split_ket a b c d tag "" H)). unfold hrr_name.
    rewrite !arr_name_four. destruct (four (za (ZA a b c d tag)) _ _ _); reflexivity.
  - intros bs H. unfold ket_step_name. rewrite (proj1 (split_bra a b c d tag "" H)). unfold hrr_name.
    rewrite !arr_name_four. destruct (four (za (ZA a b c d tag)) _ _ _); reflexivity.
  - intros str. unfold bra_step_name, arr_name_dket, hrr_name_ket, arr_name_ket.
    destruct (letter a); [|reflexivity]. destruct (letter b); reflexivity.
  - intros str. unfold ket_step_name, arr_name_dbra, hrr_name_bra, arr_name_bra.
    destruct (letter c); [|reflexivity]. destruct (letter d); reflexivity.
Qed.

(** Parameters of one routine: distinct momenta, distinct names. *)
Theorem parameter_names str :
  (forall a b a' b' s, hrr_name_ket a b str = Some s -> hrr_name_ket a' b' str = Some s -> a = a' /\ b = b') /\
  (forall c d c' d' s, hrr_name_bra str c d = Some s -> hrr_name_bra str c' d' = Some s -> c = c' /\ d = d').
Proof.
  split.
  - intros a b a' b' s H H'. unfold hrr_name_ket, arr_name_ket in *. cbn [prefixed] in *.
    apply sbind_some in H as (x & Hx & H). apply sbind_some in H as (y & Hy & H). injection H as <-.
    apply sbind_some in H' as (x' & Hx' & H'). apply sbind_some in H' as (y' & Hy' & E). injection E as E.
    apply sapp_inj_front in E as [-> E]; [|now rewrite (letter_len _ Hx), (letter_len _ Hx')].
    simpl in E. injection E as E.
    apply sapp_inj_front in E as [-> E]; [|now rewrite (letter_len _ Hy), (letter_len _ Hy')].
    split; eapply letter_inj; eauto.
  - intros c d c' d' s H H'. unfold hrr_name_bra, arr_name_bra in *. cbn [prefixed] in *.
    apply sbind_some in H as (x & Hx & H). apply sbind_some in H as (y & Hy & H). injection H as <-.
    apply sbind_some in H' as (x' & Hx' & H'). apply sbind_some in H' as (y' & Hy' & E). injection E as E.
    apply sapp_inj_l in E. simpl in E. injection E as E.
    apply sapp_inj_front in E as [-> E]; [|now rewrite (letter_len _ Hx), (letter_len _ Hx')].
    simpl in E. injection E as ->. split; eapply letter_inj; eauto.
Qed.

(** * Functions and files *)
Theorem fn_names_distinct f f' s : fn_name f = Some s -> fn_name f' = Some s -> f = f'.
Proof.
  assert (C : forall (x y : string), String.length x = String.length y -> forall u v, u ++ x = v ++ y -> u = v /\ x = y).
  { intros. apply sapp_inj; auto. }
  destruct f as [a b c d|a b c d|t a b c d|t a b], f' as [a' b' c' d'|a' b' c' d'|t' a' b' c' d'|t' a' b'];
    cbn [fn_name]; intros H H'; apply sbind_some in H as (x & Hx & H); apply sbind_some in H' as (y & Hy & E);
    injection H as <-; injection E as E; try discriminate E.
  - subst y. destruct (four_inj _ _ _ _ _ _ _ _ Hx Hy) as (-> & -> & -> & ->). reflexivity.
  - exfalso. apply (f_equal String.length) in E. simpl in E. rewrite (four_len _ _ _ _ Hx), (four_len _ _ _ _ Hy) in E. discriminate.
  - exfalso. apply (f_equal String.length) in E. simpl in E. rewrite (four_len _ _ _ _ Hx), (four_len _ _ _ _ Hy) in E. discriminate.
  - subst y. destruct (four_inj _ _ _ _ _ _ _ _ Hx Hy) as (-> & -> & -> & ->). reflexivity.
  - assert (T : t = t') by (destruct t, t'; auto; discriminate E). subst t'. apply sapp_inj_l in E. simpl in E. injection E as ->.
    destruct (four_inj _ _ _ _ _ _ _ _ Hx Hy) as (-> & -> & -> & ->). reflexivity.
  - assert (T : t = t') by (destruct t, t'; auto; discriminate E). subst t'. apply sapp_inj_l in E. simpl in E. injection E as ->.
    destruct (pairstr_inj _ _ _ _ Hx Hy) as (-> & ->). reflexivity.
Qed.

Definition fmomenta (f : fn) : list Z :=
  match f with
  | FEri a b c d | FDer a b c d | FVrr _ a b c d => [a; b; c; d]
  | FHrr _ a b => [a; b]
  end.
Lemma fn_names_defined f : (exists s, fn_name f = Some s) <-> Forall lettered (fmomenta f).
Proof.
  assert (G : forall (x : option string) g, (exists s, sbind x (fun s => Some (g s : string)) = Some s) <-> exists s, x = Some s).
  { intros [x|] g; simpl; split; intros (s & H); eauto; discriminate. }
  destruct f; cbn [fn_name fmomenta]; rewrite G; rewrite ?four_some, ?pairstr_some;
    rewrite ?Forall_cons_iff; intuition.
Qed.

(** The file of a function has its own name with the first letters of the recurrence routines in lower case. *)
Lemma file_of_fn f s : fn_name f = Some s -> file_name f = Some
  (match f with FVrr _ _ _ _ _ => "vrr" ++ substring 3 (String.length s - 3) s
              | FHrr _ _ _ => "hrr" ++ substring 3 (String.length s - 3) s | _ => s end ++ ".c").
Proof.
  assert (SS : forall u, substring 0 (String.length u) u = u) by (induction u; simpl; congruence).
  destruct f; cbn [fn_name file_name]; intros H; apply sbind_some in H as (x & Hx & H); rewrite Hx; cbn [sbind];
    injection H as <-; rewrite ?sapp_assoc; try reflexivity.
  - destruct s0; cbn; rewrite SS; reflexivity.
  - destruct s0; cbn; rewrite SS; reflexivity.
Qed.

Theorem file_names_distinct f f' s : file_name f = Some s -> file_name f' = Some s -> f = f'.
Proof.
  destruct f as [a b c d|a b c d|t a b c d|t a b], f' as [a' b' c' d'|a' b' c' d'|t' a' b' c' d'|t' a' b'];
    cbn [file_name]; intros H H'; apply sbind_some in H as (x & Hx & H); apply sbind_some in H' as (y & Hy & E);
    injection H as <-; injection E as E; try discriminate E.
  - apply sapp_inj in E as [-> _]; [|reflexivity]. destruct (four_inj _ _ _ _ _ _ _ _ Hx Hy) as (-> & -> & -> & ->). reflexivity.
  - exfalso. apply (f_equal String.length) in E. simpl in E. rewrite !slen_app, (four_len _ _ _ _ Hx), (four_len _ _ _ _ Hy) in E. discriminate.
  - exfalso. apply (f_equal String.length) in E. simpl in E. rewrite !slen_app, (four_len _ _ _ _ Hx), (four_len _ _ _ _ Hy) in E. discriminate.
  - apply sapp_inj in E as [-> _]; [|reflexivity]. destruct (four_inj _ _ _ _ _ _ _ _ Hx Hy) as (-> & -> & -> & ->). reflexivity.
  - assert (T : t = t') by (destruct t, t'; auto; discriminate E). subst t'. apply sapp_inj_l in E. simpl in E. injection E as E.
    apply sapp_inj in E as [-> _]; [|reflexivity].
    destruct (four_inj _ _ _ _ _ _ _ _ Hx Hy) as (-> & -> & -> & ->). reflexivity.
  - assert (T : t = t') by (destruct t, t'; auto; discriminate E). subst t'. apply sapp_inj_l in E. simpl in E. injection E as E.
    apply sapp_inj in E as [-> _]; [|reflexivity].
    destruct (pairstr_inj _ _ _ _ Hx Hy) as (-> & ->). reflexivity.
Qed.

(** * Names are C identifiers *)
(** C11 6.4.2.1: a letter or underscore, then letters, digits and underscores. *)
Definition word_char (c : ascii) : bool :=
  let n := nat_of_ascii c in
  ((48 <=? n) && (n <=? 57) || (65 <=? n) && (n <=? 90) || (97 <=? n) && (n <=? 122) || (n =? 95))%nat.
Fixpoint all_chars (p : ascii -> bool) (s : string) : bool :=
  match s with "" => true | String c s => p c && all_chars p s end.
Definition identifier (s : string) : Prop :=
  all_chars word_char s = true /\
  exists c r, s = String c r /\ ~ (48 <= nat_of_ascii c <= 57).

Lemma all_chars_app p a b : all_chars p (a ++ b) = all_chars p a && all_chars p b.
Proof. induction a; simpl; [reflexivity|]. rewrite IHa. now rewrite andb_assoc. Qed.

Lemma letter_word i s : letter i = Some s -> (all_chars word_char s = true <-> named i).
Proof.
  intros H. assert (L : lettered i) by (apply letter_some; eauto).
  unfold lettered, named in *. unfold letter, amchar_at in H. rewrite get_nth in H. fold amtab in H.
  destruct (Z.ltb_spec i 0); [lia|]. destruct (nth_error amtab (Z.to_nat i)) eqn:E; [|discriminate].
  injection H as <-. cbn [all_chars]. rewrite andb_true_r.
  assert (T : forall n c, nth_error amtab n = Some c -> word_char c = (n <? 60)%nat).
  { assert (F : forallb (fun n => match nth_error amtab n with Some c => Bool.eqb (word_char c) (n <? 60)%nat | None => true end) (seq 0 61) = true)
      by (vm_compute; reflexivity).
    intros n c Hn. rewrite forallb_forall in F. specialize (F n). rewrite Hn in F.
    apply eqb_prop. apply F. apply in_seq. assert (nth_error amtab n <> None) by congruence.
    apply nth_error_Some in H. rewrite amtab_len in H. lia. }
  rewrite (T _ _ E). rewrite Nat.ltb_lt. lia.
Qed.
Lemma four_word a b c d s : four a b c d = Some s ->
  (all_chars word_char s = true <-> named a /\ named b /\ named c /\ named d).
Proof.
  intros H. apply four_inv in H as (x & y & z & w & Hx & Hy & Hz & Hw & ->).
  rewrite !all_chars_app, !andb_true_iff. cbn [all_chars]. change (word_char "_") with true.
  rewrite (letter_word _ Hx), (letter_word _ Hy), (letter_word _ Hz), (letter_word _ Hw). simpl. tauto.
Qed.
Lemma pairstr_word a b s : pairstr a b = Some s -> (all_chars word_char s = true <-> named a /\ named b).
Proof.
  intros H. apply pairstr_inv in H as (x & y & Hx & Hy & ->).
  rewrite !all_chars_app, !andb_true_iff. cbn [all_chars]. change (word_char "_") with true.
  rewrite (letter_word _ Hx), (letter_word _ Hy). simpl. tauto.
Qed.

Theorem array_identifiers k am s : array_name k am = Some s -> all_chars word_char (ztag am) = true ->
  (identifier s <-> named (za am) /\ named (zb am) /\ named (zc am) /\ named (zd am)).
Proof.
  rewrite array_name_eq, arr_name_four. intros H T. apply sbind_some in H as (x & Hx & H). injection H as <-.
  rewrite <- (four_word _ _ _ _ Hx).
  assert (TP : all_chars word_char (tagpart (ztag am)) = true).
  { destruct (ztag am) as [|c t]; [reflexivity|]. unfold tagpart. rewrite all_chars_app, T. reflexivity. }
  unfold identifier. split.
  - intros [A _]. destruct k; cbn [kprefix prefixed append all_chars] in A;
      rewrite !all_chars_app, !andb_true_iff in A; tauto.
  - intros A. split.
    + destruct k; cbn [kprefix prefixed append all_chars]; rewrite !all_chars_app, TP, A; reflexivity.
    + destruct k; cbn [kprefix prefixed append]; do 2 eexists; (split; [reflexivity|]); vm_compute; lia.
Qed.
Theorem fn_identifiers f s : fn_name f = Some s -> (identifier s <-> Forall named (fmomenta f)).
Proof.
  destruct f as [a b c d|a b c d|t a b c d|t a b]; cbn [fn_name fmomenta]; intros H; apply sbind_some in H as (x & Hx & H);
    injection H as <-; rewrite ?Forall_cons_iff.
  1-3: transitivity (all_chars word_char x = true);
      [|rewrite (four_word _ _ _ _ Hx); intuition].
  4: transitivity (all_chars word_char x = true); [|rewrite (pairstr_word _ _ Hx); intuition].
  all: unfold identifier; split;
    [intros [A _]; try (destruct t); cbn [append all_chars stepstr] in A; rewrite ?andb_true_iff in A; tauto
    |intros A; split;
      [try destruct t; cbn [append all_chars stepstr]; rewrite A; reflexivity
      |try destruct t; cbn [append stepstr]; do 2 eexists; (split; [reflexivity|]); vm_compute; lia]].
Qed.

(** * File systems that ignore case *)
Definition lower (c : ascii) : ascii :=
  let n := nat_of_ascii c in if ((65 <=? n) && (n <=? 90))%nat then ascii_of_nat (n + 32) else c.
Fixpoint slower (s : string) : string := match s with "" => "" | String c s => String (lower c) (slower s) end.
Lemma slower_app a b : slower (a ++ b) = slower a ++ slower b.
Proof. induction a; simpl; congruence. Qed.
Lemma slower_len a : String.length (slower a) = String.length a.
Proof. induction a; simpl; congruence. Qed.

Definition small (i : Z) : Prop := (0 <= i < 25)%Z.
Lemma letter_lower i s : letter i = Some s -> small i -> slower s = s.
Proof.
  unfold letter, amchar_at, small. rewrite get_nth. fold amtab. destruct (Z.ltb_spec i 0); [lia|].
  intros H' L. destruct (nth_error amtab (Z.to_nat i)) eqn:E; [|discriminate]. injection H' as <-.
  assert (F : forallb (fun n => match nth_error amtab n with Some c => Ascii.eqb (lower c) c | None => true end) (seq 0 25) = true)
      by (vm_compute; reflexivity).
  rewrite forallb_forall in F. specialize (F (Z.to_nat i)). rewrite E in F. cbn [slower].
  f_equal. apply Ascii.eqb_eq. apply F. apply in_seq. lia.
Qed.
Lemma four_lower a b c d s : four a b c d = Some s -> small a -> small b -> small c -> small d -> slower s = s.
Proof.
  intros H A B C D. apply four_inv in H as (x & y & z & w & Hx & Hy & Hz & Hw & ->).
  rewrite !slower_app. rewrite (@letter_lower _ _ Hx A), (@letter_lower _ _ Hy B), (@letter_lower _ _ Hz C), (@letter_lower _ _ Hw D). reflexivity.
Qed.
Lemma pairstr_lower a b s : pairstr a b = Some s -> small a -> small b -> slower s = s.
Proof.
  intros H A B. apply pairstr_inv in H as (x & y & Hx & Hy & ->).
  rewrite !slower_app. rewrite (@letter_lower _ _ Hx A), (@letter_lower _ _ Hy B). reflexivity.
Qed.

Definition lstep (t : ctr) : string := match t with CI => "i" | CJ => "j" | CK => "k" | CL => "l" end.
Lemma some_inj (A : Type) (x y : A) : Some x = Some y -> x = y. Proof. congruence. Qed.
Lemma file_lower f s : file_name f = Some s -> Forall small (fmomenta f) ->
  exists x, slower s = x ++ ".c" /\
  match f with
  | FEri a b c d => sbind (four a b c d) (fun s => Some ("ostei_" ++ s))
  | FDer a b c d => sbind (four a b c d) (fun s => Some ("ostei_deriv1_" ++ s))
  | FVrr t a b c d => sbind (four a b c d) (fun s => Some ("vrr_" ++ lstep t ++ "_" ++ s))
  | FHrr t a b => sbind (pairstr a b) (fun s => Some ("hrr_" ++ lstep t ++ "_" ++ s))
  end = Some x.
Proof.
  destruct f as [a b c d|a b c d|t a b c d|t a b]; cbn [file_name fmomenta]; intros H F; apply sbind_some in H as (x & Hx & H);
    apply some_inj in H; subst s; rewrite Hx; cbn [sbind]; rewrite !Forall_cons_iff in F; eexists; (split; [|reflexivity]);
    rewrite !slower_app, ?(@four_lower _ _ _ _ _ Hx), ?(@pairstr_lower _ _ _ Hx); try tauto; rewrite ?sapp_assoc; try reflexivity; destruct t; reflexivity.
Qed.
Theorem file_names_nocase f f' s s' : Forall small (fmomenta f) -> Forall small (fmomenta f') ->
  file_name f = Some s -> file_name f' = Some s' -> slower s = slower s' -> f = f'.
Proof.
  intros F F' H H' E. destruct (file_lower _ H F) as (x & Ex & Hx). destruct (file_lower _ H' F') as (y & Ey & Hy).
  rewrite Ex, Ey in E. apply sapp_inj in E as [<- _]; [|reflexivity].
  clear Ex Ey H H' F F' s s'.
  destruct f as [a b c d|a b c d|t a b c d|t a b], f' as [a' b' c' d'|a' b' c' d'|t' a' b' c' d'|t' a' b'];
    apply sbind_some in Hx as (u & Hu & H); apply sbind_some in Hy as (v & Hv & E);
    injection H as <-; injection E as E; try discriminate E.
  - subst v. destruct (four_inj _ _ _ _ _ _ _ _ Hu Hv) as (-> & -> & -> & ->). reflexivity.
  - exfalso. apply (f_equal String.length) in E. simpl in E. rewrite (four_len _ _ _ _ Hu), (four_len _ _ _ _ Hv) in E. discriminate.
  - exfalso. apply (f_equal String.length) in E. simpl in E. rewrite (four_len _ _ _ _ Hu), (four_len _ _ _ _ Hv) in E. discriminate.
  - subst v. destruct (four_inj _ _ _ _ _ _ _ _ Hu Hv) as (-> & -> & -> & ->). reflexivity.
  - assert (T : t = t') by (destruct t, t'; auto; discriminate E). subst t'. apply sapp_inj_l in E. simpl in E. injection E as ->.
    destruct (four_inj _ _ _ _ _ _ _ _ Hu Hv) as (-> & -> & -> & ->). reflexivity.
  - assert (T : t = t') by (destruct t, t'; auto; discriminate E). subst t'. apply sapp_inj_l in E. simpl in E. injection E as ->.
    destruct (pairstr_inj _ _ _ _ Hu Hv) as (-> & ->). reflexivity.
Qed.
Theorem file_names_nocase_refuted : exists f f' s s', f <> f' /\ file_name f = Some s /\ file_name f' = Some s' /\
  slower s = slower s' /\ Forall named (fmomenta f) /\ Forall named (fmomenta f').
Proof.
  exists (FEri 0 0 0 0), (FEri 25 0 0 0), "ostei_s_s_s_s.c", "ostei_S_s_s_s.c".
  split; [discriminate|]. repeat split; repeat constructor; unfold named; lia.
Qed.

(** * The derivative writer *)
Lemma lookups_some l : (exists r, lookups l = Some r) <-> Forall (fun am => exists s, hrr_name am = Some s) l.
Proof.
  induction l as [|am l IH]; simpl.
  - split; [constructor|eauto].
  - rewrite Forall_cons_iff, <- IH. split.
    + intros (r & H). apply sbind_some in H as (s & Hs & H). apply sbind_some in H as (r' & Hr & H). eauto.
    + intros ((s & ->) & (r & ->)). simpl. eauto.
Qed.
Theorem deriv_names_defined q : (exists r, deriv_names q = Some r) <->
  Forall (fun n => 1 <= n <= 59) [am0 q; am1 q; am2 q; am3 q].
Proof.
  unfold deriv_names. rewrite lookups_some. unfold deriv_lookups.
  assert (N : forall am, (exists s, hrr_name am = Some s) <->
    lettered (za am) /\ lettered (zb am) /\ lettered (zc am) /\ lettered (zd am)) by (intros am; exact (array_names_defined KHrr am)).
  rewrite !Forall_cons_iff, !N. cbn [za zb zc zd]. unfold lettered. split.
  - intros H. repeat match goal with |- _ /\ _ => split | |- Forall _ [] => apply Forall_nil end; lia.
  - intros H. repeat match goal with |- _ /\ _ => split | |- Forall _ [] => apply Forall_nil end; lia.
Qed.
Theorem deriv_names_s_refuted q : In 0 [am0 q; am1 q; am2 q; am3 q] -> deriv_names q = None.
Proof.
  intros H. destruct (deriv_names q) eqn:E; [|reflexivity]. exfalso.
  assert (F : Forall (fun n => 1 <= n <= 59) [am0 q; am1 q; am2 q; am3 q]) by (apply deriv_names_defined; eauto).
  rewrite Forall_forall in F. apply F in H. lia.
Qed.

(** The names that reach the text, lines 376-525: the raised array of each centre that is not left out and
    the lowered one when the momentum is positive. *)
Definition zraise (x : ctr) (q : qam) (k : Z) (tag : string) : zam :=
  let z := zam_of q tag in
  match x with
  | CI => ZA (za z + k) (zb z) (zc z) (zd z) tag | CJ => ZA (za z) (zb z + k) (zc z) (zd z) tag
  | CK => ZA (za z) (zb z) (zc z + k) (zd z) tag | CL => ZA (za z) (zb z) (zc z) (zd z + k) tag
  end.
(** The tags of lines 350-353. *)
Definition ptag (x : ctr) : string := match x with CI => "2a" | CJ => "2b" | CK => "2c" | CL => "2d" end.
Definition deriv_used (missing : ctr) (q : qam) : list zam :=
  flat_map (fun x => if ctr_eq_dec x missing then [] else
    zraise x q 1 (ptag x) :: (if 0 <? aget x q then [zraise x q (-1) ""] else [])%nat) [CI; CJ; CK; CL].

(** The tags as text, ostei_deriv1_generator.cpp:111-120 (numbers in Driver.v). *)
Definition tagstr (t : nat) : string := match t with 0 => "" | 1 => "2a" | 2 => "2b" | 3 => "2c" | _ => "2d" end.
Definition tname (t : tqam) : zam := zam_of (tq_am t) (tagstr (tq_tag t)).

Lemma used_lookups missing q z : In z (deriv_used missing q) -> In z (deriv_lookups q).
Proof.
  unfold deriv_used. intros H. apply in_flat_map in H as (y & _ & H).
  destruct (ctr_eq_dec y missing); [destruct H|]. destruct H as [<-|H].
  - destruct y; cbn; auto 10.
  - destruct (0 <? aget y q)%nat; [|destruct H]. destruct H as [<-|[]]. destruct y; cbn; auto 12.
Qed.
Theorem deriv_used_requested q : deriv_used (missing_center q) q = map tname (needed_am q).
Proof.
  unfold deriv_used, needed_am. generalize (missing_center q). intros m.
  rewrite flat_map_concat_map, (flat_map_concat_map _ [CI; CJ; CK; CL]), concat_map, map_map. f_equal. apply map_ext.
  intros x. destruct (ctr_eq_dec x m); [reflexivity|].
  destruct q as [a b c d]. destruct x; cbn [aget zraise zam_of am0 am1 am2 am3 za zb zc zd map araise alower dtag].
  all: match goal with |- context [(0 <? ?n)%nat] => destruct n; cbn [Nat.ltb Nat.leb] end.
  all: unfold tname, zam_of; cbn [map tq_am tq_tag am0 am1 am2 am3 tagstr ptag]; repeat f_equal; lia.
Qed.
Theorem deriv_used_named q z : (amax q <= 59)%nat -> In z (deriv_used (missing_center q) q) ->
  exists s, hrr_name z = Some s.
Proof.
  intros L H. rewrite deriv_used_requested in H. apply in_map_iff in H as (t & <- & H).
  apply (array_names_defined KHrr). unfold tname, zam_of. cbn [za zb zc zd].
  assert (B : (amax (tq_am t) <= 60)%nat).
  { unfold needed_am in H. apply in_flat_map in H as (x & _ & H). destruct (ctr_eq_dec x (missing_center q)); [destruct H|].
    destruct q as [a b c d]. unfold amax in *. cbn [am0 am1 am2 am3] in *.
    destruct x; cbn [araise alower] in H; destruct H as [<-|H]; cbn [tq_am am0 am1 am2 am3]; try lia.
    - destruct a; [destruct H|]. destruct H as [<-|[]]. cbn. lia.
    - destruct b; [destruct H|]. destruct H as [<-|[]]. cbn. lia.
    - destruct c; [destruct H|]. destruct H as [<-|[]]. cbn. lia.
    - destruct d; [destruct H|]. destruct H as [<-|[]]. cbn. lia. }
  unfold amax in B. unfold lettered. lia.
Qed.
