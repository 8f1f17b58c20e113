(** The molecule files of the tests: the script that writes them, the function that reads them, and the sizes of the
    buffers taken from what was read.
    Source: skel/test/dat/gen/gen_mol.py, skel/test/Common.cpp, skel/test/test_*.cpp, skel/test/benchmark_eri.cpp.

    Files are sequences of tokens; a token is a word, a whole number, or a number (an element of any type: how a
    number is spelled and converted is left out).  Reading a word as a number, a number with a fraction as a whole
    number, or a number as a word is an error here. *)
From Coq Require Import List Arith Lia Bool String Ascii ZArith.
Import ListNotations.
From Verif Require Import Cart Naming.
Set Implicit Arguments.
Local Open Scope nat_scope.
Local Notation "x <- e ;; f" := (match e with Some x => f | None => None end)
  (at level 60, e at next level, right associativity).
Local Notation "' p <- e ;; f" := (match e with Some p => f | None => None end)
  (at level 60, p pattern, e at next level, right associativity).

(** [ammap], Common.cpp:85-95, 142; [ammap[c]] of another letter is a new entry 0. *)
Definition am_table : list (ascii * nat) :=
  [("S", 0); ("P", 1); ("D", 2); ("F", 3); ("G", 4); ("H", 5); ("I", 6); ("J", 7); ("K", 8); ("L", 9); ("M", 10);
   ("N", 11); ("O", 12); ("Q", 13); ("R", 14); ("T", 15); ("U", 16); ("V", 17); ("W", 18); ("X", 19); ("Y", 20);
   ("Z", 21); ("A", 22); ("B", 23); ("C", 24); ("E", 25)]%char.
Definition ammap (c : ascii) : nat :=
  match find (fun p => Ascii.eqb (fst p) c) am_table with Some p => snd p | None => 0 end.
(** [symbol_map.at], Common.cpp:98-102, 124. *)
Definition symbol_at (s : string) : option nat :=
  option_map snd (find (fun p => String.eqb (fst p) s)
    [("H", 1); ("He", 2); ("C", 6); ("N", 7); ("O", 8); ("F", 9); ("Al", 13); ("Cl", 17)])%string.

Section MolFile.
Variable V : Type.
Inductive token := TWord (s : string) | TInt (n : nat) | TNum (x : V).

(** ** The script *)
(** A line of a file, split into words. *)
Definition line := list token.
(** A shell of the basis set: [Type], and [Alpha] with [Coef] row by row (gen_mol.py:55-69). *)
Record bshell := BS { bs_type : string; bs_rows : list (V * list V) }.

Definition num (t : token) : option V := match t with TNum x => Some x | _ => None end.
Fixpoint nums (l : list token) : option (list V) :=
  match l with [] => Some [] | t :: r => x <- num t ;; y <- nums r ;; Some (x :: y) end.
(** gen_mol.py:63-65 (the script keeps the text of the numbers). *)
Definition row_of (l : line) : option (V * list V) := match l with [] => None | t :: r => a <- num t ;; c <- nums r ;; Some (a, c) end.
Fixpoint rows_of (l : list line) : option (list (V * list V)) :=
  match l with [] => Some [] | t :: r => x <- row_of t ;; y <- rows_of r ;; Some (x :: y) end.
(** [str.upper] for letters of ASCII. *)
Definition up_char (c : ascii) : ascii :=
  let n := nat_of_ascii c in if (97 <=? n) && (n <=? 122) then ascii_of_nat (n - 32) else c.
Fixpoint upper (s : string) : string := match s with EmptyString => EmptyString | String c r => String (up_char c) (upper r) end.
(** [flines[i] == '****'], gen_mol.py:50. *)
Definition stars (l : line) : bool := match l with [TWord s] => String.eqb s "****" | _ => false end.
(** The lines that are kept, gen_mol.py:34-35. *)
Definition keep (l : line) : bool :=
  match l with [] => false | TWord (String c _) :: _ => negb (Ascii.eqb c "!"%char) | _ => true end.

(** The shells of one atom, gen_mol.py:49-75; every pass uses at least one line, so [length lines] passes are enough. *)
Fixpoint parse_shells (fuel : nat) (ls : list line) : option (list bshell * list line) :=
  match fuel with
  | 0 => None
  | S f => match ls with
    | [] => None
    | l :: r => if stars l then Some ([], r) else
      match l with
      | TWord ty :: TInt n :: _ =>
          if Datatypes.length r <? n then None else
          rows <- rows_of (firstn n r) ;;
          ' (ss, rest) <- parse_shells f (skipn n r) ;; Some (BS (upper ty) rows :: ss, rest)
      | _ => None
      end
    end
  end.
(** The dictionary [atombas], gen_mol.py:37-83; the newest entry of a key is the one that is found. *)
Fixpoint parse_atoms (fuel : nat) (ls : list line) (d : list (string * list bshell)) : option (list (string * list bshell)) :=
  match ls with
  | [] => Some d
  | l :: r => match fuel with
    | 0 => None
    | S f => match l with
      | TWord sym :: _ => ' (ss, rest) <- parse_shells (S (Datatypes.length r)) r ;; parse_atoms f rest ((sym, ss) :: d)
      | _ => None
      end
    end
  end.
Definition parse_bas (ls : list line) : option (list (string * list bshell)) :=
  let fl := filter keep ls in parse_atoms (Datatypes.length fl) (skipn 1 fl) [].

(** [ang_to_bohr], gen_mol.py:18, 92. *)
Variable bohr : V -> V.
(** [NPRIM1] and [NPRIM2], gen_mol.py:74-75: [len(shell)] is the number of keys of the dictionary, 3. *)
Definition nprim1 (ss : list bshell) : nat := list_sum (map (fun s => Datatypes.length (bs_rows s)) ss).
Definition ngen (s : bshell) : option nat := match bs_rows s with [] => None | r :: _ => Some (Datatypes.length (snd r)) end.
Fixpoint nprim2 (ss : list bshell) : option nat :=
  match ss with [] => Some 0 | s :: r => g <- ngen s ;; n <- nprim2 r ;; Some (3 * g + n) end.
(** One row, gen_mol.py:111-117: [Coef[i][j]] past the end is an error. *)
Definition write_row (g : nat) (r : V * list V) : option (list token) :=
  if Datatypes.length (snd r) <? g then None else Some (TNum (fst r) :: map TNum (firstn g (snd r))).
Fixpoint write_rows (g : nat) (rs : list (V * list V)) : option (list token) :=
  match rs with [] => Some [] | r :: q => a <- write_row g r ;; b <- write_rows g q ;; Some (a ++ b) end.
(** gen_mol.py:106-117. *)
Definition write_shell (s : bshell) : option (list token) :=
  g <- ngen s ;; b <- write_rows g (bs_rows s) ;;
  Some (TWord (bs_type s) :: TInt (Datatypes.length (bs_rows s)) :: TInt g :: b).
Fixpoint write_shells (ss : list bshell) : option (list token) :=
  match ss with [] => Some [] | s :: r => a <- write_shell s ;; b <- write_shells r ;; Some (a ++ b) end.
(** An atom of the geometry: symbol and coordinates, gen_mol.py:30-31, 89-94; and what is written for it, 103-104. *)
Definition atom := (string * (V * V * V))%type.
Definition write_atom (d : list (string * list bshell)) (a : atom) : option (list token) :=
  let '(sym, (x, y, z)) := a in
  e <- find (fun p => String.eqb (fst p) sym) d ;;
  n2 <- nprim2 (snd e) ;; b <- write_shells (snd e) ;;
  Some (TWord sym :: TInt (Datatypes.length (snd e)) :: TInt (nprim1 (snd e)) :: TInt n2 :: TNum (bohr x) :: TNum (bohr y) :: TNum (bohr z) :: b).
Fixpoint write_atoms (d : list (string * list bshell)) (l : list atom) : option (list token) :=
  match l with [] => Some [] | a :: r => x <- write_atom d a ;; y <- write_atoms d r ;; Some (x ++ y) end.

(** A file: its tokens, and whether there is white space (the end of a line) after the last one. *)
Record file := File { f_toks : list token; f_space : bool }.
(** gen_mol.py as a whole; every line ends with a newline. *)
Definition gen_mol (bas : list line) (geo : list atom) : option file :=
  d <- parse_bas bas ;; b <- write_atoms d geo ;; Some (File (TInt (Datatypes.length geo) :: b) true).

(** ** Reading *)
(** [f >> x] with [f.exceptions(badbit | failbit | eofbit)], Common.cpp:108: the end of the file right after a token sets
    [eofbit], which is an exception as well. *)
Definition next (f : file) : option (token * file) :=
  match f_toks f with
  | [] => None
  | t :: r => match r with [] => if f_space f then Some (t, File r true) else None | _ => Some (t, File r (f_space f)) end
  end.
Definition rd_int (f : file) : option (nat * file) := ' (t, g) <- next f ;; match t with TInt n => Some (n, g) | _ => None end.
Definition rd_word (f : file) : option (string * file) := ' (t, g) <- next f ;; match t with TWord s => Some (s, g) | _ => None end.
Definition rd_num (f : file) : option (V * file) := ' (t, g) <- next f ;; match t with TNum x => Some (x, g) | _ => None end.

(** A shell that was read ([simint_shell]). *)
Record mshell := MS { ms_am : nat; ms_pos : V * V * V; ms_alpha : list V; ms_coef : list V }.
(** [std::map<int, GaussianVec>] with its keys in order; [shellmap[am].push_back(g)], Common.cpp:168-169. *)
Definition shellmap := list (nat * list mshell).
Fixpoint push (m : shellmap) (g : mshell) : shellmap :=
  match m with
  | [] => [(ms_am g, [g])]
  | (a, v) :: r => if ms_am g <? a then (ms_am g, [g]) :: m else if ms_am g =? a then (a, v ++ [g]) :: r else (a, v) :: push r g
  end.
Definition at_am (m : shellmap) (am : nat) : list mshell :=
  match find (fun p => fst p =? am) m with Some p => snd p | None => [] end.

(** The momenta of the contractions: [itg] goes round the type, Common.cpp:136-151.  [None]: an empty type has no first letter. *)
Fixpoint type_loop (ngen : nat) (itg ty : string) : option (list nat) :=
  match ngen with
  | 0 => Some []
  | S k => match itg with
           | EmptyString => None
           | String c r => ams <- type_loop k (match r with EmptyString => ty | String _ _ => r end) ty ;; Some (ammap c :: ams)
           end
  end.
(** One row for all contractions, Common.cpp:154-165. *)
Fixpoint rd_coefs (n : nat) (f : file) : option (list V * file) :=
  match n with 0 => Some ([], f) | S k => ' (x, g) <- rd_num f ;; ' (r, h) <- rd_coefs k g ;; Some (x :: r, h) end.
Definition add_prim (al : V) (gc : mshell * V) : mshell :=
  let (g, c) := gc in MS (ms_am g) (ms_pos g) (ms_alpha g ++ [al]) (ms_coef g ++ [c]).
Fixpoint rd_rows (n ngen : nat) (gv : list mshell) (f : file) : option (list mshell * file) :=
  match n with
  | 0 => Some (gv, f)
  | S k => ' (al, g) <- rd_num f ;; ' (cs, h) <- rd_coefs ngen g ;; rd_rows k ngen (map (add_prim al) (combine gv cs)) h
  end.
(** Common.cpp:128-169. *)
Definition rd_shell (pos : V * V * V) (m : shellmap) (f : file) : option (shellmap * file) :=
  ' (ty, f1) <- rd_word f ;; ' (np, f2) <- rd_int f1 ;; ' (ng, f3) <- rd_int f2 ;;
  ams <- type_loop ng ty ty ;;
  ' (gv, f4) <- rd_rows np ng (map (fun am => MS am pos [] []) ams) f3 ;;
  Some (fold_left push gv m, f4).
Fixpoint rd_shells (n : nat) (pos : V * V * V) (m : shellmap) (f : file) : option (shellmap * file) :=
  match n with 0 => Some (m, f) | S k => ' (m', g) <- rd_shell pos m f ;; rd_shells k pos m' g end.
(** [AtomicCenter]. *)
Definition center := (nat * (V * V * V))%type.
(** Common.cpp:117-171. *)
Fixpoint rd_atoms (n : nat) (m : shellmap) (mol : list center) (f : file) : option (shellmap * list center) :=
  match n with
  | 0 => Some (m, mol)
  | S k =>
      ' (sym, f1) <- rd_word f ;; ' (ns, f2) <- rd_int f1 ;; ' (_, f3) <- rd_int f2 ;; ' (_, f4) <- rd_int f3 ;;
      ' (x, f5) <- rd_num f4 ;; ' (y, f6) <- rd_num f5 ;; ' (z, f7) <- rd_num f6 ;;
      Z <- symbol_at sym ;;
      ' (m', f8) <- rd_shells ns (x, y, z) m f7 ;; rd_atoms k m' (mol ++ [(Z, (x, y, z))]) f8
  end.
(** [ReadBasis], Common.cpp:83-174. *)
Definition read_basis (f : file) : option (shellmap * list center) := ' (n, g) <- rd_int f ;; rd_atoms n [] [] g.

(** ** Specification *)
(** The basis set as data: symbols with their shells, and the text of its file (Gaussian format). *)
Definition basis := list (string * list bshell).
Definition shell_lines (s : bshell * line) : list line :=
  let (b, extra) := s in
  (TWord (bs_type b) :: TInt (Datatypes.length (bs_rows b)) :: extra) :: map (fun r => TNum (fst r) :: map TNum (snd r)) (bs_rows b).
Definition atom_lines (a : string * list (bshell * line)) : list line :=
  [TWord (fst a); TInt 0] :: flat_map shell_lines (snd a) ++ [[TWord "****"%string]].
Definition bas_lines (b : list (string * list (bshell * line))) : list line := [TWord "****"%string] :: flat_map atom_lines b.
(** The same file with empty lines and lines of comment (they begin with an exclamation mark) put in anywhere. *)
Inductive commented : list line -> list line -> Prop :=
| cm_nil : commented [] []
| cm_line l a b : commented a b -> commented (l :: a) (l :: b)
| cm_empty a b : commented a b -> commented a ([] :: b)
| cm_comment s r a b : commented a b -> commented a ((TWord (String "!" s) :: r) :: b).
(** No symbol and no type of shell begins with an exclamation mark. *)
Definition unmarked (b : list (string * list (bshell * line))) : Prop := forall sym ss, In (sym, ss) b ->
  (forall r, sym <> String "!" r) /\ forall s, In s ss -> forall r, bs_type (fst s) <> String "!" r.
(** A shell of the basis set is a list of contractions over the same exponents, all of the same number of columns. *)
Definition wf_shell (s : bshell) : Prop :=
  bs_type s <> EmptyString /\ bs_rows s <> [] /\ forall r r', In r (bs_rows s) -> In r' (bs_rows s) -> Datatypes.length (snd r) = Datatypes.length (snd r').
(** The last basis for a symbol counts. *)
Definition basis_of (b : list (string * list (bshell * line))) (sym : string) : option (list bshell) :=
  option_map (fun p => map fst (snd p)) (find (fun p => String.eqb (fst p) sym) (rev b)).
(** The contractions of a shell at a centre.  The letters of the type are for the contractions in turn. *)
Definition type_am (ty : string) (l : nat) : nat :=
  match String.get (l mod String.length ty) ty with Some c => ammap c | None => 0 end.
Definition columns (s : bshell) : nat := match bs_rows s with [] => 0 | r :: _ => Datatypes.length (snd r) end.
Definition contraction (pos : V * V * V) (s : bshell) (l : nat) : mshell :=
  MS (type_am (upper (bs_type s)) l) pos (map fst (bs_rows s)) (flat_map (fun r => match nth_error (snd r) l with Some c => [c] | None => [] end) (bs_rows s)).
Definition shells_at (pos : V * V * V) (ss : list bshell) : list mshell :=
  flat_map (fun s => map (contraction pos s) (seq 0 (columns s))) ss.
Definition to_bohr (p : V * V * V) : V * V * V := let '(x, y, z) := p in (bohr x, bohr y, bohr z).
(** All shells of a molecule in order. *)
Definition the_basis (b : list (string * list (bshell * line))) (sym : string) : list bshell :=
  match basis_of b sym with Some ss => ss | None => [] end.
Definition all_shells (b : list (string * list (bshell * line))) (geo : list atom) : list mshell :=
  flat_map (fun a => shells_at (to_bohr (snd a)) (the_basis b (fst a))) geo.

End MolFile.

(** ** What the tests do with the shells *)
Section Sizes.
Variable V : Type.
(** [FindMaxParams], Common.cpp:178-199. *)
Definition find_max (m : shellmap V) : nat * nat :=
  fold_left (fun r p => (if fst r <? fst p then fst p else fst r,
                         let n := ncart (fst p) * Datatypes.length (snd p) in if snd r <? n then n else snd r)) m (0, 0).
End Sizes.
(** [maxam], [max_ncart], [maxsize]: test_eri.cpp:58-61, benchmark_eri.cpp:51-54 ([factor] 1), test_eri_deriv1.cpp:58-61
    ([factor] 12); [limit] is [SIMINT_OSTEI_MAXAM] or [SIMINT_OSTEI_DERIV1_MAXAM]. *)
Definition t_maxam (limit : nat) (p : nat * nat) : nat := if limit <? fst p then limit else fst p.
Definition t_maxsize (factor : Z) (limit : nat) (p : nat * nat) : Z :=
  let c := Z.of_nat (ncart (t_maxam limit p)) in (Z.of_nat (snd p) * Z.of_nat (snd p) * c * c * factor)%Z.
(** test_overlap.cpp:51-54, test_ke.cpp:51-54, test_potential.cpp:53-56. *)
Definition o_maxsize (p : nat * nat) : nat := snd p * ncart (fst p).
(** [nthread * maxsize] in [int] (test_eri.cpp:74-75, 132-134 and the same place in the others): [None] is overflow. *)
Definition int_mul (a b : Z) : option Z := let c := (a * b)%Z in if (c <? 2 ^ 31)%Z then Some c else None.
