(** The Fortran interface: derived types, prototypes, wrappers.
    Source: skel/simint/simint.f90, skel/simint/shell/shell.h:17-85, skel/simint/shell/shell.c:189-322,
    skel/simint/CMakeLists.txt:52-55, skel/cmake/DefaultFlags.cmake:16, 35, 48-60, skel/examples/example_water_spsp.f90.

    A structure is laid out as the C implementations do: every member at the next multiple of its alignment, the size
    a multiple of the largest alignment; a Fortran compiler lays out a [bind(C)] type in the same way.  Sizes and alignments
    of the basic types are parameters.  A Fortran compiler that does not preprocess skips the lines of the
    preprocessor (gfortran: "Illegal preprocessor directive", a warning).  Only the bytes of structures handed over
    are modelled; pointers are one type. *)
From Coq Require Import List Arith Lia Bool ZArith String.
Import ListNotations.
From Verif Require Import Simd.
Local Open Scope string_scope.
Local Open Scope list_scope.
Local Open Scope nat_scope.

(** ** Layout of structures *)
Inductive ctype := TInt | TDouble | TPtr | TSize.
Record abi := Abi { sz : ctype -> nat; al : ctype -> nat; al_pos : forall t, 0 < al t; sz_pos : forall t, 0 < sz t }.
Definition member : Type := string * ctype.

(** The member [n]: its offset and type; [o] is the first byte that is free. *)
Fixpoint find_member (a : abi) (o : nat) (ms : list member) (n : string) : option (nat * ctype) :=
  match ms with
  | [] => None
  | (m, t) :: r => let p := rnd (al a t) o in if String.eqb m n then Some (p, t) else find_member a (p + sz a t) r n
  end.
Definition offset_of (a : abi) (ms : list member) (n : string) : option (nat * ctype) := find_member a 0 ms n.
(** End of the last member, and the size: a multiple of the largest alignment. *)
Fixpoint members_end (a : abi) (o : nat) (ms : list member) : nat :=
  match ms with [] => o | (_, t) :: r => members_end a (rnd (al a t) o + sz a t) r end.
Fixpoint struct_align (a : abi) (ms : list member) : nat :=
  match ms with [] => 1 | (_, t) :: r => Nat.max (al a t) (struct_align a r) end.
Definition struct_size (a : abi) (ms : list member) : nat := rnd (struct_align a ms) (members_end a 0 ms).

(** ** The text of the two declarations *)
Inductive line := Mem (m : member) | IfMaxder | EndIf.
(** The preprocessor, with [SIMINT_OSTEI_MAXDER] defined as [maxder]; nothing is nested. *)
Fixpoint preprocess (maxder : nat) (skip : bool) (ls : list line) : list member :=
  match ls with
  | [] => []
  | IfMaxder :: r => preprocess maxder (negb (0 <? maxder)) r
  | EndIf :: r => preprocess maxder false r
  | Mem m :: r => if skip then preprocess maxder skip r else m :: preprocess maxder skip r
  end.
(** Without it the lines are skipped. *)
Definition ignore_directives (ls : list line) : list member :=
  flat_map (fun l => match l with Mem m => [m] | _ => [] end) ls.

(** shell.h:18-32. *)
Definition c_shell_text : list line :=
  map Mem [("am", TInt); ("nprim", TInt); ("x", TDouble); ("y", TDouble); ("z", TDouble); ("alpha", TPtr); ("coef", TPtr);
           ("memsize", TSize); ("ptr", TPtr)].
(** simint.f90:6-16. *)
Definition f_shell_text : list line :=
  map Mem [("am", TInt); ("nprim", TInt); ("x", TDouble); ("y", TDouble); ("z", TDouble); ("alpha", TPtr); ("coef", TPtr);
           ("memsize", TSize); ("ptr", TPtr)].
(** shell.h:47-85. *)
Definition c_pair_text : list line :=
  map Mem [("am1", TInt); ("am2", TInt); ("nprim", TInt); ("nshell12", TInt); ("nshell12_clip", TInt); ("nprim12", TPtr);
           ("AB_x", TPtr); ("AB_y", TPtr); ("AB_z", TPtr); ("x", TPtr); ("y", TPtr); ("z", TPtr);
           ("PA_x", TPtr); ("PA_y", TPtr); ("PA_z", TPtr); ("PB_x", TPtr); ("PB_y", TPtr); ("PB_z", TPtr); ("alpha", TPtr)] ++
  [IfMaxder; Mem ("alpha2", TPtr); Mem ("beta2", TPtr); EndIf] ++
  map Mem [("prefac", TPtr); ("screen", TPtr); ("screen_max", TDouble); ("memsize", TSize); ("ptr", TPtr)].
(** simint.f90:18-49. *)
Definition f_pair_text : list line :=
  map Mem [("am1", TInt); ("am2", TInt); ("nprim", TInt); ("nshell12", TInt); ("nshell12_clip", TInt); ("nprim12", TPtr);
           ("AB_x", TPtr); ("AB_y", TPtr); ("AB_z", TPtr); ("x", TPtr); ("y", TPtr); ("z", TPtr);
           ("PA_x", TPtr); ("PA_y", TPtr); ("PA_z", TPtr); ("PB_x", TPtr); ("PB_y", TPtr); ("PB_z", TPtr); ("alpha", TPtr)] ++
  [IfMaxder; Mem ("alpha2", TPtr); Mem ("beta2", TPtr); EndIf] ++
  map Mem [("prefac", TPtr); ("screen", TPtr); ("screen_max", TDouble); ("memsize", TSize); ("ptr", TPtr)].

Definition c_shell (maxder : nat) : list member := preprocess maxder false c_shell_text.
Definition c_pair (maxder : nat) : list member := preprocess maxder false c_pair_text.
(** [fpp]: the compiler of the interface preprocesses (DefaultFlags.cmake:16 and 35: Intel and PGI; not GNU and Clang, 48-70). *)
Definition f_read (fpp : bool) (maxder : nat) (ls : list line) : list member :=
  if fpp then preprocess maxder false ls else ignore_directives ls.
Definition f_shell (fpp : bool) (maxder : nat) : list member := f_read fpp maxder f_shell_text.
Definition f_pair (fpp : bool) (maxder : nat) : list member := f_read fpp maxder f_pair_text.

(** ** Arrays of pairs *)
(** The bytes of member [n] of the structure at [base], as the library sees it. *)
Definition c_bytes (a : abi) (maxder base : nat) (n : string) : list nat :=
  match offset_of a (c_pair maxder) n with Some (o, t) => map (fun k => base + o + k) (seq 0 (sz a t)) | None => [] end.
(** Bytes written by [simint_initialize_multi_shellpairs(n, P)], shell.c:305-316; [P] is at 0. *)
Definition initialised (a : abi) (maxder n : nat) : list nat :=
  flat_map (fun i => let b := i * struct_size a (c_pair maxder) in c_bytes a maxder b "ptr" ++ c_bytes a maxder b "memsize") (seq 0 n).
(** Bytes read by [simint_create_multi_shellpair] and by [simint_free_multi_shellpair] of Fortran's [P(i+1)], simint.f90:328-333,
    343-358; shell.c:151-153. *)
Definition needed (a : abi) (fpp : bool) (maxder i : nat) : list nat :=
  let b := i * struct_size a (f_pair fpp maxder) in c_bytes a maxder b "memsize" ++ c_bytes a maxder b "ptr".

(** ** Prototypes *)
(** Result ([None]: void) and parameters. *)
Definition proto : Type := string * (option ctype * list ctype).
(** shell.h:104-345, simint_init.h:21-37, simint_eri.h:22-62, simint_oneelectron.h:12-28: the functions of the library
    that the interface names. *)
Definition c_functions : list proto :=
  [("simint_init", (None, [])); ("simint_finalize", (None, []));
   ("simint_initialize_shell", (None, [TPtr])); ("simint_initialize_shells", (None, [TInt; TPtr]));
   ("simint_allocate_shell", (None, [TInt; TPtr])); ("simint_free_shell", (None, [TPtr])); ("simint_free_shells", (None, [TInt; TPtr]));
   ("simint_copy_shell", (None, [TPtr; TPtr])); ("simint_normalize_shells", (None, [TInt; TPtr]));
   ("simint_create_shell", (None, [TInt; TInt; TDouble; TDouble; TDouble; TPtr; TPtr; TPtr]));
   ("simint_create_zero_shell", (None, [TPtr]));
   ("simint_initialize_multi_shellpair", (None, [TPtr])); ("simint_initialize_multi_shellpairs", (None, [TInt; TPtr]));
   ("simint_free_multi_shellpair", (None, [TPtr])); ("simint_free_multi_shellpairs", (None, [TInt; TPtr]));
   ("simint_create_multi_shellpair", (None, [TInt; TPtr; TInt; TPtr; TPtr; TInt]));
   ("simint_create_multi_shellpair2", (None, [TInt; TPtr; TPtr; TInt]));
   ("simint_compute_eri", (Some TInt, [TPtr; TPtr; TDouble; TPtr; TPtr]));
   ("simint_compute_eri_deriv", (Some TInt, [TInt; TPtr; TPtr; TDouble; TPtr; TPtr]));
   ("simint_eri_worksize", (Some TSize, [TInt; TInt])); ("simint_eri_workmem", (Some TSize, [TInt; TInt]));
   ("simint_compute_overlap", (Some TInt, [TPtr; TPtr; TPtr])); ("simint_compute_ke", (Some TInt, [TPtr; TPtr; TPtr]));
   ("simint_compute_potential", (Some TInt, [TInt; TPtr; TPtr; TPtr; TPtr; TPtr; TPtr; TPtr]))].
(** An interface body: the dummy arguments in order, their declared types in the order of the declarations, the result. *)
Record body := Body { b_name : string; b_dummies : list string; b_types : list (ctype * list string); b_res : option ctype }.
(** simint.f90:51-229. *)
Definition f_bodies : list body :=
  [Body "simint_init" [] [] None; Body "simint_finalize" [] [] None;
   Body "simint_initialize_shell" ["G"] [(TPtr, ["G"])] None;
   Body "simint_initialize_shells" ["n"; "G"] [(TPtr, ["G"]); (TInt, ["n"])] None;
   Body "simint_allocate_shell" ["nprim"; "G"] [(TInt, ["nprim"]); (TPtr, ["G"])] None;
   Body "simint_free_shell" ["G"] [(TPtr, ["G"])] None;
   Body "simint_free_shells" ["n"; "G"] [(TPtr, ["G"]); (TInt, ["n"])] None;
   Body "simint_normalize_shells" ["n"; "G"] [(TPtr, ["G"]); (TInt, ["n"])] None;
   Body "simint_copy_shell" ["src"; "dest"] [(TPtr, ["src"; "dest"])] None;
   Body "simint_create_shell" ["nprim"; "am"; "x"; "y"; "z"; "alpha"; "coef"; "G"]
     [(TInt, ["nprim"; "am"]); (TDouble, ["x"; "y"; "z"]); (TPtr, ["alpha"; "coef"; "G"])] None;
   Body "simint_create_zero_shell" ["G"] [(TPtr, ["G"])] None;
   Body "simint_initialize_multi_shellpair" ["P"] [(TPtr, ["P"])] None;
   Body "simint_initialize_multi_shellpairs" ["n"; "P"] [(TPtr, ["P"]); (TInt, ["n"])] None;
   Body "simint_free_multi_shellpair" ["P"] [(TPtr, ["P"])] None;
   Body "simint_free_multi_shellpairs" ["n"; "P"] [(TPtr, ["P"]); (TInt, ["n"])] None;
   Body "simint_create_multi_shellpair" ["na"; "A"; "nb"; "B"; "P"; "screen_method"]
     [(TPtr, ["A"; "B"]); (TPtr, ["P"]); (TInt, ["na"; "nb"; "screen_method"])] None;
   Body "simint_create_multi_shellpair2" ["npair"; "AB"; "P"; "screen_method"]
     [(TPtr, ["AB"; "P"]); (TInt, ["npair"; "screen_method"])] None;
   Body "simint_compute_eri" ["P"; "Q"; "screen_tol"; "work"; "integrals"]
     [(TPtr, ["P"; "Q"; "work"; "integrals"]); (TDouble, ["screen_tol"])] (Some TInt);
   Body "simint_compute_eri_deriv" ["deriv"; "P"; "Q"; "screen_tol"; "work"; "integrals"]
     [(TInt, ["deriv"]); (TPtr, ["P"; "Q"; "work"; "integrals"]); (TDouble, ["screen_tol"])] (Some TInt);
   Body "simint_eri_worksize" ["derorder"; "maxam"] [(TInt, ["derorder"; "maxam"])] (Some TSize);
   Body "simint_eri_workmem" ["derorder"; "maxam"] [(TInt, ["derorder"; "maxam"])] (Some TSize);
   Body "simint_compute_overlap" ["P"; "Q"; "integrals"] [(TPtr, ["P"; "Q"; "integrals"])] (Some TInt);
   Body "simint_compute_ke" ["P"; "Q"; "integrals"] [(TPtr, ["P"; "Q"; "integrals"])] (Some TInt);
   Body "simint_compute_potential" ["n"; "nuc_charge"; "X"; "Y"; "Z"; "P"; "Q"; "integrals"]
     [(TInt, ["n"]); (TPtr, ["nuc_charge"; "X"; "Y"; "Z"; "P"; "Q"; "integrals"])] (Some TInt)].
Definition declared (b : body) (d : string) : option ctype :=
  option_map fst (find (fun tl => existsb (String.eqb d) (snd tl)) (b_types b)).
Fixpoint all_some A (l : list (option A)) : option (list A) :=
  match l with
  | [] => Some []
  | Some x :: r => option_map (cons x) (all_some A r)
  | None :: _ => None
  end.
(** What the compiled interface calls. *)
Definition called (b : body) : option proto :=
  option_map (fun ts => (b_name b, (b_res b, ts))) (all_some _ (map (declared b) (b_dummies b))).

(** ** The wrappers *)
(** [res2] is a [C_INT], simint.f90:405-423: the value assigned if a 32-bit signed integer can hold it, nothing said otherwise. *)
Definition to_c_int (v : Z) : option Z := if ((- 2 ^ 31 <=? v) && (v <? 2 ^ 31))%Z then Some v else None.
(** [v] is what the library gives (never negative). *)
Definition f_worksize (v : Z) : option Z := to_c_int v.
Definition f_workmem (v : Z) : option Z := to_c_int v.

(** simint.f90:360-370: [AB] has [npair] elements; when the actual argument is not contiguous the compiler hands on a copy of
    as many as the dummy argument has.  [sel] is the actual argument. *)
Definition handed_on A (contiguous : bool) (npair : nat) (sel : list A) : list A := if contiguous then sel else firstn npair sel.
(** simint_fill_multi_shellpair2 reads [AB[2*i]] and [AB[2*i+1]] for every [i < npair] (shell.c:446-460); [None]: outside. *)
Fixpoint read_pairs A (npair : nat) (mem : list A) : option (list (A * A)) :=
  match npair with
  | 0 => Some []
  | S k => match mem with x :: y :: r => option_map (cons (x, y)) (read_pairs A k r) | _ => None end
  end.
Definition f_create2 A (contiguous : bool) (npair : nat) (sel : list A) : option (list (A * A)) :=
  read_pairs A npair (handed_on A contiguous npair sel).

(** Intents of the structures of a wrapper (simint.f90:233-469) and whether the library reads a member of the structure before
    writing it (shell.c:189-322, 151; everything else reads).  [intent(out)]: undefined on entry. *)
Inductive intent := IIn | IInOut | IOut.
Definition wrappers : list (string * list (intent * bool)) :=
  [("simint_initialize_shell", [(IInOut, false)]); ("simint_initialize_shells", [(IInOut, false)]);
   ("simint_allocate_shell", [(IInOut, true)]); ("simint_free_shell", [(IInOut, true)]); ("simint_free_shells", [(IInOut, true)]);
   ("simint_normalize_shells", [(IInOut, true)]); ("simint_copy_shell", [(IIn, true); (IOut, true)]);
   ("simint_create_shell", [(IInOut, true)]); ("simint_create_zero_shell", [(IInOut, true)]);
   ("simint_initialize_multi_shellpair", [(IInOut, false)]); ("simint_initialize_multi_shellpairs", [(IInOut, false)]);
   ("simint_free_multi_shellpair", [(IInOut, true)]); ("simint_free_multi_shellpairs", [(IInOut, true)]);
   ("simint_create_multi_shellpair", [(IIn, true); (IIn, true); (IInOut, true)]);
   ("simint_create_multi_shellpair2", [(IIn, true); (IInOut, true)]);
   ("simint_compute_eri", [(IIn, true); (IIn, true)]); ("simint_compute_eri_deriv", [(IIn, true); (IIn, true)]);
   ("simint_compute_overlap", [(IIn, true); (IIn, true)]); ("simint_compute_ke", [(IIn, true); (IIn, true)]);
   ("simint_compute_potential", [(IIn, true); (IIn, true)])].
(** A call with all structures defined: what the library finds undefined though it reads it. *)
Definition undefined_read (w : list (intent * bool)) : bool :=
  existsb (fun ib => match fst ib with IOut => snd ib | _ => false end) w.

(** ** Usual machines: 4 bytes for [int], 8 for the others. *)
Definition lp64_size (t : ctype) : nat := match t with TInt => 4 | _ => 8 end.
Lemma lp64_pos t : 0 < lp64_size t.
Proof. destruct t; cbn; lia. Qed.
Definition lp64 : abi := Abi lp64_size lp64_size lp64_pos lp64_pos.
