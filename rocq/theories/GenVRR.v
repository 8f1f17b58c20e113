(** Table-driven vertical recurrence.
    Source: skel/simint/ostei/ostei_general_vrr.c with the table of skel/simint/recur_lookup.c.

    An array is a list of possibly indeterminate values ([None] inside); a pointer argument is
    [None] for NULL.  Result [None]: access through NULL or outside an array.
    The rows and the entries of the rows are read before the loop over [n] (the source reads
    some of them in the loop body; they are constants).  All reads are from the [theta]
    arguments and all writes to [output], which do not overlap ([restrict]), so a routine is
    given as the list of its writes in order, then performed on [output]. *)
From Coq Require Import List Arith Lia Bool ZArith.
Import ListNotations.
From Verif Require Import Base Cart Mdir RecurData Recur GenHRR VRRStep VRRAlgo.
Set Implicit Arguments.

Definition obind A B (o : option A) (f : A -> option B) : option B :=
  match o with Some x => f x | None => None end.
Notation "x <- e ;; f" := (obind e (fun x => f)) (at level 61, e at next level, right associativity).

(** [ri->ijk[dir]] *)
Definition r_ijk (r : recur_row) (d : Z) : option Z :=
  let '((x, y, z), _, _, _, _) := r in
  if (d =? 0)%Z then Some x else if (d =? 1)%Z then Some y else if (d =? 2)%Z then Some z else None.

(** [((i)*(i+1))/2] and [((i-1)*(i))/2] on ints. *)
Definition zncart1 (n : Z) : Z := (n * (n + 1) / 2)%Z.
Definition zncart2 (n : Z) : Z := ((n - 1) * n / 2)%Z.

(** The loop nest over the four components, in order; [curidx] is the position in this list. *)
Definition quads (ni nj nk nl : nat) : list (nat * nat * nat * nat) :=
  flat_map (fun a => flat_map (fun b => flat_map (fun c => map (fun d => (a, b, c, d)) (seq 0 nl))
    (seq 0 nk)) (seq 0 nj)) (seq 0 ni).
Definition enumerate A (l : list A) : list (nat * A) := combine (seq 0 (length l)) l.

Section Gen.
Context {R : cring}.
Local Notation block := (@block R).
Definition val := option R.

Definition vmul (a : R) (x : val) : val := match x with Some u => Some (a * u)%r | None => None end.
Definition vfma (a : R) (x y : val) : val :=
  match x, y with Some u, Some v => Some (a * u + v)%r | _, _ => None end.
(** [SIMINT_DBLSET1] of an int. *)
Definition dset (z : Z) : R := ofnat (Z.to_nat z).
Definition rdp (th : option block) (z : Z) : option val :=
  match th with Some b => rdz b z | None => None end.

(** Scalars and vectors passed to the routines. *)
Record varg := VA { va_h : R; va_a : R; va_hpq : R; va_aPQ : dir -> R; va_PA : dir -> R }.

(** [if(..) { tmp1 = FMADD(a_over_p, theta[ib], theta[ia]); tmp2 = val*one_over_2p;
    out = FMADD(tmp1, tmp2, out) }] *)
Definition own_add (g : bool) (th : option block) (ia ib : Z) (mult h a : R) (out : val) : option val :=
  if g then t4 <- rdp th ib ;; t3 <- rdp th ia ;; Some (vfma (mult * h)%r (vfma a t4 t3) out)
  else Some out.
(** [if(..) { out = FMADD(one_over_2pq*val, theta[ia], out) }] *)
Definition oth_add (g : bool) (th : option block) (ia : Z) (mult hpq : R) (out : val) : option val :=
  if g then t <- rdp th ia ;; Some (vfma (hpq * mult)%r t out) else Some out.

(** What is read from the four rows for mover [c]. *)
Record rws := RW { w_pa : R; w_apq : R; w_x : ctr -> Z; w_m1 : ctr -> Z; w_m2 : Z }.
Definition pick A (c : ctr) (a b d e : A) : A := match c with CI => a | CJ => b | CK => d | CL => e end.
Definition read_rows (mv : ctr) (C : varg) (i j k l ii jj kk ll : nat) : option rws :=
  ri <- recur_lookup i ii ;; rj <- recur_lookup j jj ;;
  rk <- recur_lookup k kk ;; rl <- recur_lookup l ll ;;
  let rm := pick mv ri rj rk rl in
  let d := r_dir rm in
  pa <- at3 (va_PA C) d ;; apq <- at3 (va_aPQ C) d ;;
  xi <- r_ijk ri d ;; xj <- r_ijk rj d ;; xk <- r_ijk rk d ;; xl <- r_ijk rl d ;;
  mi <- r_idx ri d 0 ;; mj <- r_idx rj d 0 ;; mk <- r_idx rk d 0 ;; ml <- r_idx rl d 0 ;;
  m2 <- r_idx rm d 1 ;;
  Some (RW pa apq (fun c => pick c xi xj xk xl) (fun c => pick c mi mj mk ml) m2).

(** Value stored for one order [n]: [ostei_general_vrr_I], lines 293-372. *)
Definition at_I (i j k l : nat) (C : varg) (t1 t2 t3 t4 t5 : option block) (w : rws) (ii jj kk ll : nat)
  (n : nat) : option val :=
  let zi := Z.of_nat i in let zj := Z.of_nat j in let zk := Z.of_nat k in let zl := Z.of_nat l in
  let nj := zncart zj in let nk := zncart zk in let nl := zncart zl in
  let ni1 := zncart1 zi in let nj1 := zncart1 zj in let nk1 := zncart1 zk in let nl1 := zncart1 zl in
  let ni2 := zncart2 zi in
  let n1 := (ni1 * nj * nk * nl)%Z in
  let n2 := (ni2 * nj * nk * nl)%Z in
  let n3 := (ni1 * nj1 * nk * nl)%Z in
  let n4 := (ni1 * nj * nk1 * nl)%Z in
  let n5 := (ni1 * nj * nk * nl1)%Z in
  let z := Z.of_nat n in
  let J := Z.of_nat jj in let K := Z.of_nat kk in let L := Z.of_nat ll in
  let im1 := w_m1 w CI in
  let idx1 := (z * n1 + im1 * nj * nk * nl + J * nk * nl + K * nl + L)%Z in
  v1 <- rdp t1 idx1 ;; v2 <- rdp t1 (idx1 + n1)%Z ;;
  let o := vfma (w_pa w) v1 (vmul (w_apq w) v2) in
  let idx3 := (z * n2 + w_m2 w * nj * nk * nl + J * nk * nl + K * nl + L)%Z in
  o <- own_add (1 <? w_x w CI)%Z t2 idx3 (idx3 + n2)%Z (dset (w_x w CI - 1)) (va_h C) (va_a C) o ;;
  let idx5 := (z * n3 + im1 * nj1 * nk * nl + w_m1 w CJ * nk * nl + K * nl + L)%Z in
  o <- own_add (negb (w_x w CJ =? 0))%Z t3 idx5 (idx5 + n3)%Z (dset (w_x w CJ)) (va_h C) (va_a C) o ;;
  let idx7 := ((z + 1) * n4 + im1 * nj * nk1 * nl + J * nk1 * nl + w_m1 w CK * nl + L)%Z in
  o <- oth_add (negb (w_x w CK =? 0))%Z t4 idx7 (dset (w_x w CK)) (va_hpq C) o ;;
  let idx8 := ((z + 1) * n5 + im1 * nj * nk * nl1 + J * nk * nl1 + K * nl1 + w_m1 w CL)%Z in
  oth_add (negb (w_x w CL =? 0))%Z t5 idx8 (dset (w_x w CL)) (va_hpq C) o.

(** [ostei_general_vrr_J], lines 440-516. *)
Definition at_J (i j k l : nat) (C : varg) (t1 t2 t3 t4 t5 : option block) (w : rws) (ii jj kk ll : nat)
  (n : nat) : option val :=
  let zi := Z.of_nat i in let zj := Z.of_nat j in let zk := Z.of_nat k in let zl := Z.of_nat l in
  let ni := zncart zi in let nk := zncart zk in let nl := zncart zl in
  let ni1 := zncart1 zi in let nj1 := zncart1 zj in let nk1 := zncart1 zk in let nl1 := zncart1 zl in
  let nj2 := zncart2 zj in
  let n1 := (ni * nj1 * nk * nl)%Z in
  let n2 := (ni1 * nj1 * nk * nl)%Z in
  let n3 := (ni * nj2 * nk * nl)%Z in
  let n4 := (ni * nj1 * nk1 * nl)%Z in
  let n5 := (ni * nj1 * nk * nl1)%Z in
  let z := Z.of_nat n in
  let I := Z.of_nat ii in let K := Z.of_nat kk in let L := Z.of_nat ll in
  let jm1 := w_m1 w CJ in
  let idx1 := (z * n1 + I * nj1 * nk * nl + jm1 * nk * nl + K * nl + L)%Z in
  v1 <- rdp t1 idx1 ;; v2 <- rdp t1 (idx1 + n1)%Z ;;
  let o := vfma (w_pa w) v1 (vmul (w_apq w) v2) in
  let idx3 := (z * n2 + w_m1 w CI * nj1 * nk * nl + jm1 * nk * nl + K * nl + L)%Z in
  o <- own_add (negb (w_x w CI =? 0))%Z t2 idx3 (idx3 + n2)%Z (dset (w_x w CI)) (va_h C) (va_a C) o ;;
  let idx5 := (z * n3 + I * nj2 * nk * nl + w_m2 w * nk * nl + K * nl + L)%Z in
  o <- own_add (1 <? w_x w CJ)%Z t3 idx5 (idx5 + n3)%Z (dset (w_x w CJ - 1)) (va_h C) (va_a C) o ;;
  let idx7 := ((z + 1) * n4 + I * nj1 * nk1 * nl + jm1 * nk1 * nl + w_m1 w CK * nl + L)%Z in
  o <- oth_add (negb (w_x w CK =? 0))%Z t4 idx7 (dset (w_x w CK)) (va_hpq C) o ;;
  let idx8 := ((z + 1) * n5 + I * nj1 * nk * nl1 + jm1 * nk * nl1 + K * nl1 + w_m1 w CL)%Z in
  oth_add (negb (w_x w CL =? 0))%Z t5 idx8 (dset (w_x w CL)) (va_hpq C) o.

(** [ostei_general_vrr_K], lines 783-851. *)
Definition at_K (i j k l : nat) (C : varg) (t1 t2 t3 t4 t5 : option block) (w : rws) (ii jj kk ll : nat)
  (n : nat) : option val :=
  let zi := Z.of_nat i in let zj := Z.of_nat j in let zk := Z.of_nat k in let zl := Z.of_nat l in
  let ni := zncart zi in let nj := zncart zj in let nl := zncart zl in
  let ni1 := zncart1 zi in let nj1 := zncart1 zj in let nk1 := zncart1 zk in let nl1 := zncart1 zl in
  let nk2 := zncart2 zk in
  let n1 := (ni * nj * nk1 * nl)%Z in
  let n2 := (ni * nj * nk2 * nl)%Z in
  let n3 := (ni * nj * nk1 * nl1)%Z in
  let n4 := (ni1 * nj * nk1 * nl)%Z in
  let n5 := (ni * nj1 * nk1 * nl)%Z in
  let z := Z.of_nat n in
  let I := Z.of_nat ii in let J := Z.of_nat jj in let L := Z.of_nat ll in
  let km1 := w_m1 w CK in
  let idx1 := (z * n1 + I * nj * nk1 * nl + J * nk1 * nl + km1 * nl + L)%Z in
  v1 <- rdp t1 idx1 ;; v2 <- rdp t1 (idx1 + n1)%Z ;;
  let o := vfma (w_pa w) v1 (vmul (w_apq w) v2) in
  let idx3 := (z * n2 + I * nj * nk2 * nl + J * nk2 * nl + w_m2 w * nl + L)%Z in
  o <- own_add (1 <? w_x w CK)%Z t2 idx3 (idx3 + n2)%Z (dset (w_x w CK - 1)) (va_h C) (va_a C) o ;;
  let idx5 := (z * n3 + I * nj * nk1 * nl1 + J * nk1 * nl1 + km1 * nl1 + w_m1 w CL)%Z in
  o <- own_add (negb (w_x w CL =? 0))%Z t3 idx5 (idx5 + n3)%Z (dset (w_x w CL)) (va_h C) (va_a C) o ;;
  let idx7 := ((z + 1) * n4 + w_m1 w CI * nj * nk1 * nl + J * nk1 * nl + km1 * nl + L)%Z in
  o <- oth_add (negb (w_x w CI =? 0))%Z t4 idx7 (dset (w_x w CI)) (va_hpq C) o ;;
  let idx8 := ((z + 1) * n5 + I * nj1 * nk1 * nl + w_m1 w CJ * nk1 * nl + km1 * nl + L)%Z in
  oth_add (negb (w_x w CJ =? 0))%Z t5 idx8 (dset (w_x w CJ)) (va_hpq C) o.

(** [ostei_general_vrr_L], lines 925-995. *)
Definition at_L (i j k l : nat) (C : varg) (t1 t2 t3 t4 t5 : option block) (w : rws) (ii jj kk ll : nat)
  (n : nat) : option val :=
  let zi := Z.of_nat i in let zj := Z.of_nat j in let zk := Z.of_nat k in let zl := Z.of_nat l in
  let ni := zncart zi in let nj := zncart zj in let nk := zncart zk in
  let ni1 := zncart1 zi in let nj1 := zncart1 zj in let nk1 := zncart1 zk in let nl1 := zncart1 zl in
  let nl2 := zncart2 zl in
  let n1 := (ni * nj * nk * nl1)%Z in
  let n2 := (ni * nj * nk1 * nl1)%Z in
  let n3 := (ni * nj * nk * nl2)%Z in
  let n4 := (ni1 * nj * nk * nl1)%Z in
  let n5 := (ni * nj1 * nk * nl1)%Z in
  let z := Z.of_nat n in
  let I := Z.of_nat ii in let J := Z.of_nat jj in let K := Z.of_nat kk in
  let lm1 := w_m1 w CL in
  let idx1 := (z * n1 + I * nj * nk * nl1 + J * nk * nl1 + K * nl1 + lm1)%Z in
  v1 <- rdp t1 idx1 ;; v2 <- rdp t1 (idx1 + n1)%Z ;;
  let o := vfma (w_pa w) v1 (vmul (w_apq w) v2) in
  let idx3 := (z * n2 + I * nj * nk1 * nl1 + J * nk1 * nl1 + w_m1 w CK * nl1 + lm1)%Z in
  o <- own_add (negb (w_x w CK =? 0))%Z t2 idx3 (idx3 + n2)%Z (dset (w_x w CK)) (va_h C) (va_a C) o ;;
  let idx5 := (z * n3 + I * nj * nk * nl2 + J * nk * nl2 + K * nl2 + w_m2 w)%Z in
  o <- own_add (1 <? w_x w CL)%Z t3 idx5 (idx5 + n3)%Z (dset (w_x w CL - 1)) (va_h C) (va_a C) o ;;
  let idx7 := ((z + 1) * n4 + w_m1 w CI * nj * nk * nl1 + J * nk * nl1 + K * nl1 + lm1)%Z in
  o <- oth_add (negb (w_x w CI =? 0))%Z t4 idx7 (dset (w_x w CI)) (va_hpq C) o ;;
  let idx8 := ((z + 1) * n5 + I * nj1 * nk * nl1 + w_m1 w CJ * nk * nl1 + K * nl1 + lm1)%Z in
  oth_add (negb (w_x w CJ =? 0))%Z t5 idx8 (dset (w_x w CJ)) (va_hpq C) o.

Definition at_c (c : ctr) := match c with CI => at_I | CJ => at_J | CK => at_K | CL => at_L end.

(** Performing the writes, in order. *)
Definition wrz (out : block) (z : Z) (v : val) : option block :=
  if ((0 <=? z) && (z <? Z.of_nat (length out)))%Z then Some (upd out (Z.to_nat z) v) else None.
Fixpoint perform (ws : list (Z * val)) (out : block) : option block :=
  match ws with
  | [] => Some out
  | (z, v) :: r => o <- wrz out z v ;; perform r o
  end.

(** The general path of the four routines (lines 246-375, 393-525, 738-865, 880-1005). *)
Definition path (c : ctr) (i j k l num_n : nat) (C : varg) (t1 t2 t3 t4 t5 : option block)
  : option (list (Z * val)) :=
  let nc := (zncart (Z.of_nat i) * zncart (Z.of_nat j) * zncart (Z.of_nat k) * zncart (Z.of_nat l))%Z in
  concatM (fun x => let '(cur, (ii, jj, kk, ll)) := x in
    w <- read_rows c C i j k l ii jj kk ll ;;
    mapM (fun n => v <- at_c c i j k l C t1 t2 t3 t4 t5 w ii jj kk ll n ;;
                   Some ((Z.of_nat n * nc + Z.of_nat cur)%Z, v)) (seq 0 num_n))
    (enumerate (quads (ncart i) (ncart j) (ncart k) (ncart l))).

(** ** Fast paths *)

(** The loops over [n] of the four branches: [own]/[oth] tell which of the two terms the branch
    has, with its constant [tmp2]/[tmp1]; running indices as in the source. *)
Fixpoint fast_loop (C : varg) (t1 t2 t4 : option block) (pa apq : R) (own oth : option R)
  (nc n1 n2 n4 : Z) (num_n : nat) (outidx idx1 idx3 idx4 idx7 : Z) : option (list (Z * val)) :=
  match num_n with
  | 0 => Some []
  | S n =>
    v1 <- rdp t1 idx1 ;;
    let o := vmul pa v1 in
    let idx1 := (idx1 + n1)%Z in
    v2 <- rdp t1 idx1 ;;
    let o := vfma apq v2 o in
    o <- (match own with
          | Some tmp2 => u4 <- rdp t2 idx4 ;; u3 <- rdp t2 idx3 ;; Some (vfma tmp2 (vfma (va_a C) u4 u3) o)
          | None => Some o
          end) ;;
    o <- (match oth with
          | Some tmp1 => u <- rdp t4 idx7 ;; Some (vfma tmp1 u o)
          | None => Some o
          end) ;;
    r <- fast_loop C t1 t2 t4 pa apq own oth nc n1 n2 n4 n (outidx + nc)%Z idx1 (idx3 + n2)%Z (idx4 + n2)%Z (idx7 + n4)%Z ;;
    Some ((outidx, o) :: r)
  end.

(** [ostei_general_vrr_I_j0_l0], lines 55-228. *)
Definition fast_I (i j k l num_n : nat) (C : varg) (t1 t2 t4 : option block) : option (list (Z * val)) :=
  let zi := Z.of_nat i in let zk := Z.of_nat k in
  let ni := zncart zi in let nk := zncart zk in
  let ni1 := zncart1 zi in let nk1 := zncart1 zk in let ni2 := zncart2 zi in
  let nc := (ni * 1 * nk * 1)%Z in
  let n1 := (ni1 * 1 * nk * 1)%Z in
  let n2 := (ni2 * 1 * nk * 1)%Z in
  let n4 := (ni1 * 1 * nk1 * 1)%Z in
  concatM (fun x => let '(cur, (ii, kk)) := x in
    w <- read_rows CI C i j k l ii 0 kk 0 ;;
    let K := Z.of_nat kk in
    let idx1 := (0 * n1 + w_m1 w CI * 1 * nk * 1 + 0 * nk * 1 + K * 1 + 0)%Z in
    let idx3 := (0 * n2 + w_m2 w * 1 * nk * 1 + 0 * nk * 1 + K * 1 + 0)%Z in
    let idx7 := (1 * n4 + w_m1 w CI * 1 * nk1 * 1 + 0 * nk1 * 1 + w_m1 w CK * 1 + 0)%Z in
    let own := if (w_x w CI <=? 1)%Z then None else Some (dset (w_x w CI - 1) * va_h C)%r in
    let oth := if (w_x w CK =? 0)%Z then None else Some (va_hpq C * dset (w_x w CK))%r in
    fast_loop C t1 t2 t4 (w_pa w) (w_apq w) own oth nc n1 n2 n4 num_n (Z.of_nat cur) idx1 idx3 (idx3 + n2)%Z idx7)
    (enumerate (flat_map (fun a => map (fun c => (a, c)) (seq 0 (ncart k))) (seq 0 (ncart i)))).

(** [ostei_general_vrr_K_j0_l0], lines 527-712. *)
Definition fast_K (i j k l num_n : nat) (C : varg) (t1 t2 t4 : option block) : option (list (Z * val)) :=
  let zi := Z.of_nat i in let zk := Z.of_nat k in
  let ni := zncart zi in let nk := zncart zk in
  let ni1 := zncart1 zi in let nk1 := zncart1 zk in let nk2 := zncart2 zk in
  let nc := (ni * 1 * nk * 1)%Z in
  let n1 := (ni * 1 * nk1 * 1)%Z in
  let n2 := (ni * 1 * nk2 * 1)%Z in
  let n4 := (ni1 * 1 * nk1 * 1)%Z in
  concatM (fun x => let '(cur, (ii, kk)) := x in
    w <- read_rows CK C i j k l ii 0 kk 0 ;;
    let I := Z.of_nat ii in
    let idx1 := (0 * n1 + I * 1 * nk1 * 1 + 0 * nk1 * 1 + w_m1 w CK * 1 + 0)%Z in
    let idx3 := (0 * n2 + I * 1 * nk2 * 1 + 0 * nk2 * 1 + w_m2 w * 1 + 0)%Z in
    let idx7 := (1 * n4 + w_m1 w CI * 1 * nk1 * 1 + 0 * nk1 * 1 + w_m1 w CK * 1 + 0)%Z in
    let own := if (w_x w CK <=? 1)%Z then None else Some (va_h C * dset (w_x w CK - 1))%r in
    let oth := if (w_x w CI =? 0)%Z then None else Some (va_hpq C * dset (w_x w CI))%r in
    fast_loop C t1 t2 t4 (w_pa w) (w_apq w) own oth nc n1 n2 n4 num_n (Z.of_nat cur) idx1 idx3 (idx3 + n2)%Z idx7)
    (enumerate (flat_map (fun a => map (fun c => (a, c)) (seq 0 (ncart k))) (seq 0 (ncart i)))).

Definition is_null A (o : option A) : bool := match o with None => true | Some _ => false end.
Definition dispatch (j l : nat) (t3 t5 : option block) : bool :=
  (j =? 0) && (l =? 0) && is_null t3 && is_null t5.

(** The exported routines. *)
Definition gen_vrr (c : ctr) (i j k l num_n : nat) (C : varg) (t1 t2 t3 t4 t5 : option block) (out : block)
  : option block :=
  ws <- (match c with
         | CI => if dispatch j l t3 t5 then fast_I i j k l num_n C t1 t2 t4 else path CI i j k l num_n C t1 t2 t3 t4 t5
         | CK => if dispatch j l t3 t5 then fast_K i j k l num_n C t1 t2 t4 else path CK i j k l num_n C t1 t2 t3 t4 t5
         | _ => path c i j k l num_n C t1 t2 t3 t4 t5
         end) ;;
  perform ws out.

(** [ostei_general_vrr1], lines 9-53; the wrappers of ostei_general.h:36-100 only rename. *)
Definition vrr1 (i num_n : nat) (h a : R) (apqv pav : dir -> R) (t1 t2 : option block) (out : block) : option block :=
  let zi := Z.of_nat i in
  let nc := zncart zi in let n1 := zncart1 zi in let n2 := zncart2 zi in
  ws <- concatM (fun ii =>
    ri <- recur_lookup i ii ;;
    let d := r_dir ri in
    pa <- at3 pav d ;; apq <- at3 apqv d ;; x <- r_ijk ri d ;; m1 <- r_idx ri d 0 ;; m2 <- r_idx ri d 1 ;;
    mapM (fun n => let z := Z.of_nat n in
      let idx1 := (z * n1 + m1)%Z in
      v1 <- rdp t1 idx1 ;; v2 <- rdp t1 (idx1 + n1)%Z ;;
      let o := vfma pa v1 (vmul apq v2) in
      o <- own_add (1 <? x)%Z t2 (z * n2 + m2)%Z ((z + 1) * n2 + m2)%Z (dset (x - 1)) h a o ;;
      Some ((z * nc + Z.of_nat ii)%Z, o)) (seq 0 num_n)) (seq 0 (ncart i)) ;;
  perform ws out.
End Gen.
