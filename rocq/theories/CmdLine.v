(** Model of the command lines of the generator programs.

    Code: generator/CommandLine.cpp:13-85, CommandLine.hpp:82, Options.hpp:15-41,
    generator/ostei/ostei_generator.cpp:17-61, ostei_deriv1_generator.cpp:19-61,
    ostei_vrr_generator.cpp:16-66, ostei_hrr_generator.cpp:16-80, create.py:43-53, 505-518 and 614-624.

    An exception and [return 1] are both [Fail]: the program stops with status 1 (the catch blocks, e.g.
    ostei_vrr_generator.cpp:94-100).  [Stuck] is the model's own bound on the number of rounds of a loop
    and is shown never to happen. *)
From Coq Require Import String Ascii ZArith List Lia Bool DecimalString DecimalZ.
Import ListNotations.
From Verif Require Import Base Cart VRRStep.
Local Open Scope string_scope.
Set Implicit Arguments.

Inductive out (A : Type) := Val (a : A) | Fail | Stuck.
Arguments Val {A}. Arguments Fail {A}. Arguments Stuck {A}.
Definition obnd {A B} (x : out A) (f : A -> out B) : out B :=
  match x with Val a => f a | Fail => Fail | Stuck => Stuck end.

(** * Numbers: [std::stoi] *)
(** [isspace] of the C locale. *)
Definition space (c : ascii) : bool :=
  let n := nat_of_ascii c in ((9 <=? n) && (n <=? 13) || (n =? 32))%nat.
Definition digit (c : ascii) : bool := let n := nat_of_ascii c in ((48 <=? n) && (n <=? 57))%nat.
Definition dval (c : ascii) : Z := Z.of_nat (nat_of_ascii c) - 48.
Fixpoint skip_space (s : string) : string :=
  match s with String c r => if space c then skip_space r else s | "" => "" end.
Fixpoint digits (s : string) (acc : Z) : Z :=
  match s with String c r => if digit c then digits r (10 * acc + dval c) else acc | "" => acc end.
Definition in_int (n : Z) : bool := ((-2147483648 <=? n) && (n <=? 2147483647))%Z.
(** [stoi(str)] as used at CommandLine.cpp:27 and 51: white space, a sign, digits; the rest is ignored;
    no digits or a value outside [int] throw (C++11 21.5, C11 7.22.1.4). *)
Definition stoi (s : string) : option Z :=
  let s := skip_space s in
  let '(sg, s) := match s with
                  | String c r => if Ascii.eqb c "-" then ((-1)%Z, r) else if Ascii.eqb c "+" then (1%Z, r) else (1%Z, s)
                  | "" => (1%Z, s) end in
  match s with
  | String c _ => if digit c then let n := (sg * digits s 0)%Z in if in_int n then Some n else None else None
  | "" => None
  end.

(** * Arguments *)
(** [GetNextArg], CommandLine.cpp:13-19 and 38-44. *)
Definition next_arg (i : nat) (args : list string) : out (string * nat) :=
  match nth_error args i with Some s => Val (s, S i) | None => Fail end.
(** [GetIArg], CommandLine.cpp:22-35 and 47-59. *)
Definition int_arg (i : nat) (args : list string) : out (Z * nat) :=
  obnd (next_arg i args) (fun '(s, i) => match stoi s with Some n => Val (n, i) | None => Fail end).

(** [OptionMap], Options.hpp:15-41. *)
Record opts := O { o_ve : Z; o_vg : Z; o_he : Z; o_hg : Z; o_perm : Z }.
Definition default : opts := O 0 0 0 0 0.
Inductive okey := VE | VG | HE | HG.
Definition oget (k : okey) (o : opts) : Z := match k with VE => o_ve o | VG => o_vg o | HE => o_he o | HG => o_hg o end.
Definition oset (k : okey) (n : Z) (o : opts) : opts :=
  match k with
  | VE => O n (o_vg o) (o_he o) (o_hg o) (o_perm o) | VG => O (o_ve o) n (o_he o) (o_hg o) (o_perm o)
  | HE => O (o_ve o) (o_vg o) n (o_hg o) (o_perm o) | HG => O (o_ve o) (o_vg o) (o_he o) n (o_perm o)
  end.
Definition operm (o : opts) : opts := O (o_ve o) (o_vg o) (o_he o) (o_hg o) 1.

(** [ParseCommonOptions], CommandLine.cpp:62-85. *)
Fixpoint common_loop (fuel i : nat) (args : list string) (o : opts) (ret : list string) : out (opts * list string) :=
  match fuel with
  | 0 => Stuck
  | S f =>
    if (i <? List.length args)%nat then
      obnd (next_arg i args) (fun '(a, i) =>
        if a =? "-ve" then obnd (int_arg i args) (fun '(n, i) => common_loop f i args (oset VE n o) ret)
        else if a =? "-vg" then obnd (int_arg i args) (fun '(n, i) => common_loop f i args (oset VG n o) ret)
        else if a =? "-he" then obnd (int_arg i args) (fun '(n, i) => common_loop f i args (oset HE n o) ret)
        else if a =? "-hg" then obnd (int_arg i args) (fun '(n, i) => common_loop f i args (oset HG n o) ret)
        else if a =? "-p" then common_loop f i args (operm o) ret
        else common_loop f i args o (ret ++ [a])%list)
    else Val (o, ret)
  end.
Definition parse_common (argv : list string) : out (opts * list string) :=
  common_loop (S (List.length argv)) 1 argv default [].

(** The four programs; ostei_generator and ostei_deriv1_generator have the same command line. *)
Inductive prog := PEri | PVrr | PHrr.
(** The local variables of the main functions. *)
Record sopts := SO { s_fpath : string; s_hpath : string; s_am : list Z; s_amset : bool;
                     s_order : ctr; s_brai : bool; s_ketk : bool; s_bra : bool }.
(** ostei_vrr_generator.cpp:17-29, ostei_hrr_generator.cpp:17-27. *)
Definition nq (p : prog) : nat := match p with PHrr => 2 | _ => 4 end.
Definition sdefault (p : prog) : sopts := SO "" "" (repeat 0%Z (nq p)) false CI false false false.
Definition set_f (x : string) (s : sopts) := SO x (s_hpath s) (s_am s) (s_amset s) (s_order s) (s_brai s) (s_ketk s) (s_bra s).
Definition set_h (x : string) (s : sopts) := SO (s_fpath s) x (s_am s) (s_amset s) (s_order s) (s_brai s) (s_ketk s) (s_bra s).
Definition set_am (x : list Z) (s : sopts) := SO (s_fpath s) (s_hpath s) x true (s_order s) (s_brai s) (s_ketk s) (s_bra s).
Definition set_ord (x : ctr) (s : sopts) := SO (s_fpath s) (s_hpath s) (s_am s) (s_amset s) x (s_brai s) (s_ketk s) (s_bra s).
Definition set_brai (s : sopts) := SO (s_fpath s) (s_hpath s) (s_am s) (s_amset s) (s_order s) true (s_ketk s) (s_bra s).
Definition set_ketk (s : sopts) := SO (s_fpath s) (s_hpath s) (s_am s) (s_amset s) (s_order s) (s_brai s) true (s_bra s).
Definition set_bra (s : sopts) := SO (s_fpath s) (s_hpath s) (s_am s) (s_amset s) (s_order s) (s_brai s) (s_ketk s) true.
(** The options without a value: ostei_vrr_generator.cpp:48-53, ostei_hrr_generator.cpp:48-53. *)
Definition flag (p : prog) (a : string) : option (sopts -> sopts) :=
  match p with
  | PEri => None
  | PVrr => if a =? "-center_j" then Some (set_ord CJ) else if a =? "-center_k" then Some (set_ord CK)
            else if a =? "-center_l" then Some (set_ord CL) else None
  | PHrr => if a =? "-bra_i" then Some set_brai else if a =? "-ket_k" then Some set_ketk
            else if a =? "-bra" then Some set_bra else None
  end.
(** The values of -q: ostei_vrr_generator.cpp:42-45, ostei_hrr_generator.cpp:44-45. *)
Fixpoint int_args (k i : nat) (args : list string) : out (list Z * nat) :=
  match k with
  | 0 => Val ([], i)
  | S k => obnd (int_arg i args) (fun '(n, i) => obnd (int_args k i args) (fun '(l, i) => Val (n :: l, i)))
  end.
(** The loop of the main functions, e.g. ostei_vrr_generator.cpp:32-62. *)
Fixpoint own_loop (p : prog) (fuel i : nat) (args : list string) (s : sopts) : out sopts :=
  match fuel with
  | 0 => Stuck
  | S f =>
    if (i <? List.length args)%nat then
      obnd (next_arg i args) (fun '(a, i) =>
        if a =? "-o" then obnd (next_arg i args) (fun '(x, i) => own_loop p f i args (set_f x s))
        else if a =? "-oh" then obnd (next_arg i args) (fun '(x, i) => own_loop p f i args (set_h x s))
        else if a =? "-q" then obnd (int_args (nq p) i args) (fun '(l, i) => own_loop p f i args (set_am l s))
        else match flag p a with Some g => own_loop p f i args (g s) | None => Fail end)
    else Val s
  end.
(** The whole of the parsing with the three checks [CMDLINE_ASSERT] (ostei_vrr_generator.cpp:64-66). *)
Definition main_parse (p : prog) (argv : list string) : out (opts * sopts) :=
  obnd (parse_common argv) (fun '(o, rest) =>
  obnd (own_loop p (S (List.length rest)) 0 rest (sdefault p)) (fun s =>
  if (negb (s_fpath s =? "") && negb (s_hpath s =? "") && s_amset s) then Val (o, s) else Fail)).

(** * The command lines of the driver, create.py *)
(** Python's [str] of an integer. *)
Definition pystr (n : Z) : string := NilZero.string_of_int (Z.to_int n).
(** Lines 43-53. *)
Definition eri_cmd (gen : string) (q : qam) (outfile header : string) (ve vg he hg : Z) (perm : bool) : list string :=
  ([gen; "-q"; pystr (Z.of_nat (am0 q)); pystr (Z.of_nat (am1 q)); pystr (Z.of_nat (am2 q)); pystr (Z.of_nat (am3 q));
    "-o"; outfile; "-oh"; header; "-ve"; pystr ve; "-vg"; pystr vg; "-he"; pystr he; "-hg"; pystr hg]
   ++ if perm then ["-p"] else [])%list.
(** Lines 614-624. *)
Definition vrr_cmd (gen : string) (t : ctr) (q : qam) (outfile header : string) : list string :=
  ([gen; "-q"; pystr (Z.of_nat (am0 q)); pystr (Z.of_nat (am1 q)); pystr (Z.of_nat (am2 q)); pystr (Z.of_nat (am3 q));
    "-o"; outfile; "-oh"; header]
   ++ match t with CI => [] | CJ => ["-center_j"] | CK => ["-center_k"] | CL => ["-center_l"] end)%list.
(** Lines 505-518. *)
Definition hrr_cmd (gen : string) (t : ctr) (a b : nat) (outfile header : string) : list string :=
  ([gen; "-q"; pystr (Z.of_nat a); pystr (Z.of_nat b); "-o"; outfile; "-oh"; header]
   ++ (match t with CI | CJ => ["-bra"] | _ => [] end)
   ++ (match t with CI => ["-bra_i"] | _ => [] end)
   ++ match t with CK => ["-ket_k"] | _ => [] end)%list.

(** * What a command line means *)
(** The integer a string starts with. *)
Definition value (ds : list ascii) : Z := fold_left (fun acc c => 10 * acc + dval c)%Z ds 0%Z.
Definition sign_of (sg : string) : option Z :=
  if sg =? "" then Some 1%Z else if sg =? "+" then Some 1%Z else if sg =? "-" then Some (-1)%Z else None.
Definition denotes (s : string) (n : Z) : Prop :=
  exists ws sg k ds tail,
    s = string_of_list_ascii ws ++ sg ++ string_of_list_ascii ds ++ tail /\
    forallb space ws = true /\ sign_of sg = Some k /\ ds <> [] /\ forallb digit ds = true /\
    (forall c r, tail = String c r -> digit c = false) /\
    n = (k * value ds)%Z /\ (-2147483648 <= n <= 2147483647)%Z.

Definition kname (k : okey) : string := match k with VE => "-ve" | VG => "-vg" | HE => "-he" | HG => "-hg" end.
Definition is_common (a : string) : Prop := (exists k, a = kname k) \/ a = "-p".
(** A list of arguments read from the left as options with their values and other arguments. *)
Inductive item := ISet (k : okey) (n : Z) | IPerm | IOther (a : string).
Inductive reads : list string -> list item -> Prop :=
| R_nil : reads [] []
| R_set k v n l is : denotes v n -> reads l is -> reads (kname k :: v :: l) (ISet k n :: is)
| R_perm l is : reads l is -> reads ("-p" :: l) (IPerm :: is)
| R_other a l is : ~ is_common a -> reads l is -> reads (a :: l) (IOther a :: is).
(** The last assignment counts. *)
Definition assigned (k : okey) (is : list item) (v : Z) : Prop :=
  (exists pre post, is = (pre ++ ISet k v :: post)%list /\ forall n, ~ In (ISet k n) post) \/
  ((forall n, ~ In (ISet k n) is) /\ v = 0%Z).
Definition permuting (is : list item) (v : Z) : Prop := (In IPerm is /\ v = 1%Z) \/ (~ In IPerm is /\ v = 0%Z).
Definition others (is : list item) : list string :=
  flat_map (fun i => match i with IOther a => [a] | _ => [] end) is.

(** The arguments of one program.  *)
Inductive oitem := JOut (x : string) | JHdr (x : string) | JAm (l : list Z) | JFlag (a : string).
Definition flags_of (p : prog) : list string :=
  match p with PEri => [] | PVrr => ["-center_j"; "-center_k"; "-center_l"] | PHrr => ["-bra_i"; "-ket_k"; "-bra"] end.
Inductive oreads (p : prog) : list string -> list oitem -> Prop :=
| OR_nil : oreads p [] []
| OR_out x l is : oreads p l is -> oreads p ("-o" :: x :: l) (JOut x :: is)
| OR_hdr x l is : oreads p l is -> oreads p ("-oh" :: x :: l) (JHdr x :: is)
| OR_am vs ns l is : Forall2 denotes vs ns -> List.length vs = nq p -> oreads p l is ->
    oreads p ("-q" :: vs ++ l)%list (JAm ns :: is)
| OR_flag a l is : In a (flags_of p) -> oreads p l is -> oreads p (a :: l) (JFlag a :: is).

Definition last_of {A B} (f : A -> option B) (is : list A) (b : B) : Prop :=
  exists pre i post, is = (pre ++ i :: post)%list /\ f i = Some b /\ forall j, In j post -> f j = None.
Definition last_or {A B} (f : A -> option B) (is : list A) (d b : B) : Prop :=
  last_of f is b \/ ((forall j, In j is -> f j = None) /\ b = d).
Definition as_out i := match i with JOut x => Some x | _ => None end.
Definition as_hdr i := match i with JHdr x => Some x | _ => None end.
Definition as_am i := match i with JAm x => Some x | _ => None end.
Definition as_centre i :=
  match i with JFlag a => if a =? "-center_j" then Some CJ else if a =? "-center_k" then Some CK
                          else if a =? "-center_l" then Some CL else None | _ => None end.
(** What the program then works with. *)
Record meaning (p : prog) (is : list oitem) (s : sopts) : Prop := {
  m_out : last_or as_out is "" (s_fpath s);
  m_hdr : last_or as_hdr is "" (s_hpath s);
  m_am : last_or as_am is (repeat 0%Z (nq p)) (s_am s);
  m_set : s_amset s = true <-> exists l, In (JAm l) is;
  m_order : last_or as_centre is CI (s_order s);
  m_brai : s_brai s = true <-> In (JFlag "-bra_i") is;
  m_ketk : s_ketk s = true <-> In (JFlag "-ket_k") is;
  m_bra : s_bra s = true <-> In (JFlag "-bra") is }.

(** Both kinds of options together, read once from the left. *)
Inductive areads (p : prog) : list string -> list item -> list oitem -> Prop :=
| A_nil : areads p [] [] []
| A_set k v n l is js : denotes v n -> areads p l is js -> areads p (kname k :: v :: l) (ISet k n :: is) js
| A_perm l is js : areads p l is js -> areads p ("-p" :: l) (IPerm :: is) js
| A_out x l is js : areads p l is js -> areads p ("-o" :: x :: l) is (JOut x :: js)
| A_hdr x l is js : areads p l is js -> areads p ("-oh" :: x :: l) is (JHdr x :: js)
| A_am vs ns l is js : Forall2 denotes vs ns -> List.length vs = nq p -> areads p l is js ->
    areads p ("-q" :: vs ++ l)%list is (JAm ns :: js)
| A_flag a l is js : In a (flags_of p) -> areads p l is js -> areads p (a :: l) is (JFlag a :: js).
