(** Nuclear attraction integrals.
    Source: skel/simint/osoei/osoei_potential.c ([simint_compute_potential], simint_oneelectron.c:20-27).

    The scratch array [amwork] is not initialised.  An element is [Some v] or [None], indeterminate; arithmetic on
    an indeterminate operand gives an indeterminate result, storing one is allowed.  [None] as the result of a
    function is undefined behaviour: an access outside an array or through a null pointer.  The Boys function
    (lane 0 of what [boys_F_split] returns) and [1.0/x], [exp] are given from outside. *)
From Coq Require Import List Arith Lia Bool ZArith Ring.
Import ListNotations.
From Verif Require Import Base Cart Mdir RecurData Recur PairData Deriv OneE.
Set Implicit Arguments.

Section Pot.
Context {R : cring}.
Local Open Scope r_scope.
Local Notation val := (option R).
Local Notation "x <- e ;; f" := (match e with Some x => f | None => None end)
  (at level 60, e at next level, right associativity).

(** ** Model *)
Definition lift2 (f : R -> R -> R) (a b : val) : val := match a, b with Some x, Some y => Some (f x y) | _, _ => None end.
Definition vadd := lift2 (@cadd R).
Definition vsub := lift2 (@csub R).
Definition vscale (a : R) (v : val) : val := match v with Some x => Some (a * x) | None => None end.

(** [amwork]: row [i][j]; rows outside the declared dimensions are empty. *)
Definition wmem := nat -> nat -> list val.
Definition geti (l : list val) (z : Z) : option val := if (z <? 0)%Z then None else nth_error l (Z.to_nat z).
Definition wset (W : wmem) (i j p : nat) (v : val) : option wmem :=
  if (p <? length (W i j))%nat
  then Some (fun a b => if (a =? i)%nat && (b =? j)%nat then upd (W i j) p v else W a b)
  else None.
(** [x += v]. *)
Definition wacc (W : wmem) (i j p : nat) (v : val) : option wmem :=
  w <- nth_error (W i j) p ;; wset W i j p (vadd w v).
(** A pointer formed only when [c] holds, NULL otherwise. *)
Definition ptr (c : bool) (l : list val) : option (list val) := if c then Some l else None.

(** Columns of a row: [dir]; [idx[d][1]]. *)
Definition row_dir (r : recur_row) : option dir :=
  let '(_, d, _, _, _) := r in
  if (d =? 0)%Z then Some DX else if (d =? 1)%Z then Some DY else if (d =? 2)%Z then Some DZ else None.
Definition row_dn2 (r : recur_row) (d : dir) : Z := let '(_, b, _) := row_idx r d in b.

Section Recur.
Variables (am1 am2 : nat) (pa pb pc : dir -> R) (h : R).
Let am12 := (am1 + am2)%nat.

(** osoei_potential.c:120-136 (the offsets: 115-118); the body of the loop over [n], element [idx]. *)
Definition step_i0 (i m n : nat) (st : nat * wmem) : option (nat * wmem) :=
  let '(idx, W) := st in
  let incart_1 := ncart (i - 1) in let incart_2 := if (1 <? i)%nat then ncart (i - 2) else 0%nat in
  r <- recur_lookup i n ;; d <- row_dir r ;;
  a <- geti (W (i - 1)%nat 0%nat) (Z.of_nat (m * incart_1) + row_dn r d) ;;
  b <- geti (W (i - 1)%nat 0%nat) (Z.of_nat ((m + 1) * incart_1) + row_dn r d) ;;
  W1 <- wset W i 0 idx (vsub (vscale (pa d) a) (vscale (pc d) b)) ;;
  W2 <- (if (1 <? row_ijk r d)%Z
         then l <- ptr (1 <? i)%nat (W1 (i - 2)%nat 0%nat) ;;
              c <- geti l (Z.of_nat (m * incart_2) + row_dn2 r d) ;;
              e <- geti l (Z.of_nat ((m + 1) * incart_2) + row_dn2 r d) ;;
              wacc W1 i 0 idx (vscale (h * ofnat (Z.to_nat (row_ijk r d - 1))) (vsub c e))
         else Some W1) ;;
  Some (S idx, W2).
(** osoei_potential.c:100-138. *)
Definition form_i0 (i : nat) (W : wmem) : option wmem :=
  r <- loopM (fun m => loopM (step_i0 i m) (seq 0 (ncart i))) (seq 0 (S (am12 - i))) (0%nat, W) ;; Some (snd r).

(** osoei_potential.c:179-201 (the offsets: 168-177); the body of the loop over [o], element [cartidx]. *)
Definition step_ij (i j m n o : nat) (st : nat * wmem) : option (nat * wmem) :=
  let '(idx, W) := st in
  let incart := ncart i in let incart_1 := if (0 <? i)%nat then ncart (i - 1) else 0%nat in
  let jncart_1 := ncart (j - 1) in let jncart_2 := if (1 <? j)%nat then ncart (j - 2) else 0%nat in
  r1 <- recur_lookup i n ;; r2 <- recur_lookup j o ;; d <- row_dir r2 ;;
  let offset1 := Z.of_nat (jncart_1 * (m * incart + n)) in
  let offset4 := Z.of_nat (jncart_1 * ((m + 1) * incart + n)) in
  let offset3 := Z.of_nat (jncart_2 * (m * incart + n)) in
  let offset6 := Z.of_nat (jncart_2 * ((m + 1) * incart + n)) in
  let offset2 := (Z.of_nat jncart_1 * (Z.of_nat (m * incart_1) + row_dn r1 d))%Z in
  let offset5 := (Z.of_nat jncart_1 * (Z.of_nat ((m + 1) * incart_1) + row_dn r1 d))%Z in
  a <- geti (W i (j - 1)%nat) (offset1 + row_dn r2 d) ;;
  b <- geti (W i (j - 1)%nat) (offset4 + row_dn r2 d) ;;
  W1 <- wset W i j idx (vsub (vscale (pb d) a) (vscale (pc d) b)) ;;
  W2 <- (if (0 <? row_ijk r1 d)%Z
         then l <- ptr (0 <? i)%nat (W1 (i - 1)%nat (j - 1)%nat) ;;
              c <- geti l (offset2 + row_dn r2 d) ;; e <- geti l (offset5 + row_dn r2 d) ;;
              wacc W1 i j idx (vsub (vscale (h * ofnat (Z.to_nat (row_ijk r1 d))) c)
                                    (vscale (h * ofnat (Z.to_nat (row_ijk r1 d))) e))
         else Some W1) ;;
  W3 <- (if (1 <? row_ijk r2 d)%Z
         then l <- ptr (1 <? j)%nat (W2 i (j - 2)%nat) ;;
              c <- geti l (offset3 + row_dn2 r2 d) ;; e <- geti l (offset6 + row_dn2 r2 d) ;;
              wacc W2 i j idx (vscale (h * ofnat (Z.to_nat (row_ijk r2 d - 1))) (vsub c e))
         else Some W2) ;;
  Some (S idx, W3).
(** osoei_potential.c:141-206; [max_m2 = am2 - j + 1], line 157. *)
Definition form_ij (i j : nat) (W : wmem) : option wmem :=
  r <- loopM (fun m => loopM (fun n => loopM (step_ij i j m n) (seq 0 (ncart j))) (seq 0 (ncart i)))
         (seq 0 (S (am2 - j + 1))) (0%nat, W) ;; Some (snd r).
(** osoei_potential.c:87-207. *)
Definition recurrence (W : wmem) : option wmem :=
  loopM (fun i W => W1 <- (if (0 <? i)%nat then form_i0 i W else Some W) ;;
                    loopM (form_ij i) (seq 1 am2) W1) (seq 0 (S am1)) W.
(** osoei_potential.c:80-85; [start] is [Fval[0] * 2*PI*oop*exp(-mu*AB2)]. *)
Definition set_start (start : nat -> R) (W : wmem) : option wmem :=
  loopM (fun i W => wset W 0 0 i (Some (start i))) (seq 0 (S am12)) W.
End Recur.

(** The length of a row, osoei_potential.c:39. *)
Definition cap (am1 am2 : nat) : nat := (ncart (am1 + 1) * ncart (am2 + 1) * (S am1 + S am2 + 1))%nat.
Definition shaped (am1 am2 : nat) (W : wmem) : Prop :=
  forall i j, length (W i j) = if (i <=? am1)%nat && (j <=? am2)%nat then cap am1 am2 else 0%nat.

Section Compute.
Variables (invf expf : R -> R) (half PI : R) (boys : nat -> R -> nat -> R).
(** osoei_potential.c:31-32. *)
Definition p_AB2 (x1 x2 : nat -> R) : R := t_AB2 x1 x2 0 + t_AB2 x1 x2 1 + t_AB2 x1 x2 2.
(** osoei_potential.c:69-70. *)
Definition p_PC (P : nat -> R) (C : nat -> R) (d : nat) : R := P d - C d.
Definition p_PC2 (P C : nat -> R) : R :=
  p_PC P C 0 * p_PC P C 0 + p_PC P C 1 * p_PC P C 1 + p_PC P C 2 * p_PC P C 2.
(** osoei_potential.c:57-58, 73-84. *)
Definition p_start (am12 : nat) (al1 : R) (x1 : nat -> R) (al2 : R) (x2 C : nat -> R) (n : nat) : R :=
  boys am12 (p_PC2 (t_P invf al1 x1 al2 x2) C * (al1 + al2)) n * ofnat 2 * PI * t_oop invf al1 al2
  * expf (- (t_mu invf al1 al2) * p_AB2 x1 x2).
Definition by_dir (f : nat -> R) (d : dir) : R := f (idx_of_dir d).

(** One pair of primitives, osoei_potential.c:50-207. *)
Definition prim_pot (am1 am2 : nat) (al1 : R) (x1 : nat -> R) (al2 : R) (x2 C : nat -> R) (W : wmem) : option wmem :=
  W1 <- set_start am1 am2 (p_start (am1 + am2) al1 x1 al2 x2 C) W ;;
  recurrence am1 am2 (by_dir (t_PA invf al1 x1 al2 x2)) (by_dir (t_PB invf al1 x1 al2 x2))
    (by_dir (p_PC (t_P invf al1 x1 al2 x2) C)) (t_oo2p invf half al1 al2) W1.
(** osoei_potential.c:209-212. *)
Definition sub_out (n : nat) (row : list val) (z c1 c2 : R) (out : list val) : option (list val) :=
  loopM (fun i out => v <- nth_error row i ;; w <- nth_error out i ;;
           if (i <? length out)%nat then Some (upd out i (vsub w (vscale c2 (vscale c1 (vscale z v))))) else None)
    (seq 0 n) out.
(** [simint_compute_osoei_potential], osoei_potential.c:11-219.  [W0]: what is in [amwork]. *)
Definition compute_potential (ncenter : nat) (Zc : nat -> R) (X : nat -> nat -> R) (A B : @oshell R) (W0 : wmem)
  (out : list val) : option (list val) :=
  let nc12 := (ncart (os_am A) * ncart (os_am B))%nat in
  out0 <- zero_out nc12 out ;;
  r <- loopM (fun c => loopM (fun i => loopM (fun j (st : wmem * list val) =>
         W <- prim_pot (os_am A) (os_am B) (sh_alpha (os_sh A) i) (sh_pos (os_sh A))
                (sh_alpha (os_sh B) j) (sh_pos (os_sh B)) (X c) (fst st) ;;
         o <- sub_out nc12 (W (os_am A) (os_am B)) (Zc c) (sh_coef (os_sh A) i) (sh_coef (os_sh B) j) (snd st) ;;
         Some (W, o))
       (seq 0 (sh_n (os_sh B)))) (seq 0 (sh_n (os_sh A)))) (seq 0 ncenter) (W0, out0) ;;
  Some (snd r).
End Compute.

(** ** Specification *)
(** Nuclear attraction integrals with auxiliary index; [lowered d a f]: the term of the function lowered in [d],
    with its exponent, absent when there is none. *)
Definition lowered (d : dir) (a : gauss) (f : gauss -> R) : R :=
  match down d a with Some a' => ofnat (gexp d a) * f a' | None => c0 end.
Section Spec.
Variables (pa pb pc : dir -> R) (h : R).
Definition pot_left (T : nat -> gauss -> gauss -> R) : Prop := forall N d a b,
  T N (up d a) b = pa d * T N a b - pc d * T (S N) a b
    + h * (lowered d a (fun a' => T N a' b - T (S N) a' b) + lowered d b (fun b' => T N a b' - T (S N) a b')).
Definition pot_right (T : nat -> gauss -> gauss -> R) : Prop := forall N d a b,
  T N a (up d b) = pb d * T N a b - pc d * T (S N) a b
    + h * (lowered d a (fun a' => T N a' b - T (S N) a' b) + lowered d b (fun b' => T N a b' - T (S N) a b')).
Definition attractions (M : nat) (start : nat -> R) (T : nat -> gauss -> gauss -> R) : Prop :=
  pot_left T /\ pot_right T /\ forall N, N <= M -> T N (G 0 0 0) (G 0 0 0) = start N.
End Spec.
End Pot.
