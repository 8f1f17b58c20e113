(** Execution of the emitted vertical recurrence code.
    Source: generator/ostei/OSTEI_VRR_Writer.cpp:33-416,
    generator/ostei/OSTEI_VRR_Algorithm_Base.cpp:44-122, 388-435, 575-623,
    generator/ostei/ostei_vrr_generator.cpp:86-91.

    Memory: one array per class; an entry [None] is indeterminate.  [None] as a result: an access
    outside an array, a name that is not declared, or a call that never returns.
    Simplification: the lines printed for one step all assign the same array element; they are
    given as one value and one store. *)
From Coq Require Import List Arith Lia Bool ZArith String Permutation.
Import ListNotations.
From Verif Require Import Base Cart Mdir Recur GenHRR HRRAlgo HRRExec VRRStep VRRAlgo VRROrder GenVRR.
Local Open Scope list_scope.
Local Open Scope nat_scope.
Set Implicit Arguments.

(** ** Variables *)
Inductive vvar := NPA (c : ctr) | NaPQ (s : side) | Na (s : side) | Nh (s : side) | Nhpq.
Definition vvar_eq_dec (a b : vvar) : {a = b} + {a <> b}.
Proof. repeat decide equality. Defined.
(** Their names. *)
Definition vstr (x : vvar) : string :=
  match x with
  | NPA CI => "P_PA" | NPA CJ => "P_PB" | NPA CK => "Q_PA" | NPA CL => "Q_PB"
  | NaPQ SB => "aop_PQ" | NaPQ SK => "aoq_PQ"
  | Na SB => "a_over_p" | Na SK => "a_over_q"
  | Nh SB => "one_over_2p" | Nh SK => "one_over_2q"
  | Nhpq => "one_over_2pq"
  end%string.
(** Insertion in a [std::set<std::string>]. *)
Fixpoint vins_set (x : vvar) (l : list vvar) : list vvar :=
  match l with
  | [] => [x]
  | y :: r => match String.compare (vstr x) (vstr y) with
              | Lt => x :: l
              | Eq => l
              | Gt => y :: vins_set x r
              end
  end.
Definition vset (l : list vvar) : list vvar := fold_left (fun a x => vins_set x a) l [].

(** [GenerateVarReq], lines 575-623. *)
Definition varreq (rr : ctr) (a : qam) : list vvar :=
  let ok n := match nth_error (amreq_all rr a) n with Some (Some _) => true | _ => false end in
  let s := cside rr in
  vset ((if ok 0 then [NPA rr; NaPQ s] else []) ++ (if ok 1 || ok 2 then [Nh s; Na s] else []) ++
        (if ok 3 || ok 4 then [Nhpq] else [])).

(** ** Integer constants by class *)
(** [vrrmap_] as a list of steps. *)
Definition vmap_steps (steps : list vstep) : list vstep :=
  flat_map (class_vsteps steps) (nodup qam_eq_dec (map (fun s => qclass (v_target s)) steps)).
Definition nmem (k : nat) (l : list nat) : bool := existsb (Nat.eqb k) l.

Section Exec.
Context {R : cring}.
Local Notation val := (@val R).
Local Notation vcoef := (@vcoef R).

Definition vmem := qam -> list val.
Definition aset (M : vmem) (t : qam) (l : list val) : vmem :=
  fun u => if qam_eq_dec t u then l else M u.

(** ** Environments *)
Inductive vval := Sc (r : R) | Vec (v : dir -> R).
(** [ec s k]: [vrr_const_k_over_2p], [.._2q]; [epq k]: [vrr_const_k_over_2pq]. *)
Record venv := VE { ev : vvar -> option vval; ec : side -> nat -> option R; epq : nat -> option R }.
Definition sca (E : venv) (x : vvar) : option R :=
  match ev E x with Some (Sc r) => Some r | _ => None end.
Definition vec (E : venv) (x : vvar) (i : dir) : option R :=
  match ev E x with Some (Vec v) => Some (v i) | _ => None end.

(** The variables of a kernel. *)
Definition kvars (K : vcoef) (x : vvar) : option vval :=
  Some match x with
  | NPA c => Vec (k_PA K c) | NaPQ s => Vec (k_aPQ K s) | Na s => Sc (k_a K s)
  | Nh s => Sc (k_h K s) | Nhpq => Sc (k_hpq K)
  end.
(** Constants of a kernel, [WriteVRR], lines 150-173; [const_k] is declared for
    [1 <= k <= GetMaxInt()], lines 133-139. *)
Definition kconst (mx : nat) (ints : list nat) (h : R) (k : nat) : option R :=
  if nmem k ints then
    if k =? 1 then Some h
    else if (1 <=? k) && (k <=? mx) then Some (ofnat k * h)%r else None
  else None.
Definition kernel_env (K : vcoef) (steps : list vstep) : venv :=
  let vm := vmap_steps steps in
  VE (kvars K) (fun s => kconst (maxint vm) (ints_side s vm) (k_h K s))
     (kconst (maxint vm) (ints_pq vm) (k_hpq K)).
(** Constants of an external routine, [WriteVRRFile], lines 360-367. *)
Definition fconst (ints : list nat) (h : option R) (k : nat) : option R :=
  if nmem k ints then match h with Some h => Some (ofnat k * h)%r | None => None end else None.
Definition file_env (vars : vvar -> option vval) (cls : list vstep) : venv :=
  let E := VE vars (fun _ _ => None) (fun _ => None) in
  VE vars (fun s => fconst (ints_side s cls) (sca E (Nh s))) (fconst (ints_pq cls) (sca E Nhpq)).

(** ** One step, [WriteVRRSteps_], lines 33-130 *)
(** [srcname[k]] with [n] or [n+1]; [arr] tells which array a name denotes. *)
Definition rdsrc (o : ordering) (arr : qam -> option qam) (M : vmem) (s : vstep) (k n : nat) : option val :=
  match nth_error (v_src s) k with
  | Some x =>
    match sq x with
    | Some q => t <- arr (qclass q) ;; nth_error (M t) (n * qncart (qclass q) + qindex o q)
    | None => None
    end
  | None => None
  end.
Definition step_val (o : ordering) (E : venv) (arr : qam -> option qam) (M : vmem) (n : nat) (s : vstep)
  : option val :=
  let sd := cside (v_type s) in
  let i := v_xyz s in
  let vl := valid (v_src s) in
  let rd := rdsrc o arr M s in
  pa <- vec E (NPA (v_type s)) i ;; v0 <- rd 0 n ;;
  let x := vmul pa v0 in
  x <- (if vl 1 then apq <- vec E (NaPQ sd) i ;; v <- rd 1 (S n) ;; Some (vfma apq v x) else Some x) ;;
  x <- (if vl 2 && vl 3 then
          c <- ec E sd (v_ijkl s (lefts sd)) ;; a <- sca E (Na sd) ;; v3 <- rd 3 (S n) ;; v2 <- rd 2 n ;;
          Some (vfma c (vfma a v3 v2) x) else Some x) ;;
  x <- (if vl 4 && vl 5 then
          c <- ec E sd (v_ijkl s (rights sd)) ;; a <- sca E (Na sd) ;; v5 <- rd 5 (S n) ;; v4 <- rd 4 n ;;
          Some (vfma c (vfma a v5 v4) x) else Some x) ;;
  x <- (if vl 6 then c <- epq E (v_ijkl s (lefts (other sd))) ;; v <- rd 6 (S n) ;; Some (vfma c v x) else Some x) ;;
  if vl 7 then c <- epq E (v_ijkl s (rights (other sd))) ;; v <- rd 7 (S n) ;; Some (vfma c v x) else Some x.

(** [PrimVarName(am)[n * NCART(am) + target.index()] = ...] *)
Definition vexec1 (o : ordering) (E : venv) (arr : qam -> option qam) (a : qam) (M : vmem) (ns : nat * vstep)
  : option vmem :=
  v <- step_val o E arr M (fst ns) (snd ns) ;; t <- arr a ;;
  let i := fst ns * qncart a + qindex o (v_target (snd ns)) in
  if i <? List.length (M t) then Some (aset M t (upd (M t) i v)) else None.
Fixpoint vexec (o : ordering) (E : venv) (arr : qam -> option qam) (a : qam) (M : vmem) (l : list (nat * vstep))
  : option vmem :=
  match l with
  | [] => Some M
  | x :: r => M' <- vexec1 o E arr a M x ;; vexec o E arr a M' r
  end.
(** The loop over [n] around the steps of a class. *)
Definition nsteps (num_n : nat) (steps : list vstep) : list (nat * vstep) :=
  flat_map (fun n => map (pair n) steps) (seq 0 num_n).

(** ** External routines *)
(** Parameters of the emission. *)
Record vpar := VPar { p_o : ordering; p_enum : list qm -> list qm; p_enumq : list qrt -> list qrt;
                      p_enums : list vstep -> list vstep; p_fuel : nat; p_se : nat; p_sg : nat;
                      p_depth : nat }.

(** Formal parameters bound to actual ones by position. *)
Definition vbind A B (dec : forall x y : A, {x = y} + {x <> y}) (formals : list A) (actuals : list B) (c : A) : option B :=
  match find_pos (fun f => if dec f c then true else false) formals with
  | Some n => nth_error actuals n
  | None => None
  end.

(** Lines 385-391. *)
Definition swapped (a : qam) : qam :=
  let '(QAM i j k l) := a in
  let '(i', j') := if i =? 0 then (j, i) else (i, j) in
  let '(k', l') := if k =? 0 then (l, k) else (k, l) in
  QAM i' j' k' l'.
(** Lines 393-396. *)
Definition tochar (rr : ctr) : ctr := match rr with CJ => CI | CL => CK | c => c end.

(** Running [VRR_<rr>_<a>( target, arrays, variables, num_n )] as [WriteVRRFile] defines it,
    lines 318-416; the plan is created by ostei_vrr_generator.cpp:86-89 for the one class and one
    direction.  [depth] bounds the depth of the calls. *)
Fixpoint vroutine (P : vpar) (depth : nat) (rr : ctr) (a : qam) (arrs : list qam) (vars : list (option vval))
  (num_n : nat) (M : vmem) : option vmem :=
  match depth with
  | 0 => None
  | S d =>
    p <- vrr_create (p_enum P) (p_enumq P) (p_fuel P) [rr] (qtargets (p_o P) a) ;;
    rr' <- rrstep_of (vp_steps p) a ;;
    req <- get_amreq (vp_steps p) a ;;
    let vreq := varreq rr' a in
    let arr := vbind qam_eq_dec (a :: req) arrs in
    let vs x := match vbind vvar_eq_dec vreq vars x with Some v => v | None => None end in
    if (am1 a =? 0) && (am3 a =? 0) then
      let cls := class_vsteps (vp_steps p) a in
      vexec (p_o P) (file_env vs cls) arr a M (nsteps num_n (p_enums P cls))
    else
      t <- arr a ;; ts <- mapM arr req ;;
      vroutine P d (tochar rr') (swapped a) (t :: ts) (map vs vreq) num_n M
  end.

(** ** One class of a kernel, [WriteVRR], lines 178-192 *)
Definition zeros (a : qam) : nat := List.length (filter (fun c => aget c a =? 0) [CI; CJ; CK; CL]).
(** [WriteVRR_General_], lines 229-315. *)
Definition vgeneral (K : vcoef) (rr : ctr) (a : qam) (num_n : nat) (M : vmem) : option vmem :=
  let ts := map (option_map M) (amreq_all rr a) in
  let th n := match nth_error ts n with Some t => t | None => None end in
  let s := cside rr in
  out <- (if zeros a =? 3 then
            vrr1 (aget rr a) num_n (k_h K s) (k_a K s) (k_aPQ K s) (k_PA K rr) (th 0)
              (match rr with CI | CK => th 1 | _ => th 2 end) (M a)
          else
            let '(QAM i j k l) := a in
            gen_vrr rr i j k l num_n (VA (k_h K s) (k_a K s) (k_hpq K) (k_aPQ K s) (k_PA K rr))
              (th 0) (th 1) (th 2) (th 3) (th 4) (M a)) ;;
  Some (aset M a out).

Definition vform (P : vpar) (K : vcoef) (steps : list vstep) (M : vmem) (a : qam) : option vmem :=
  if qam_eq_dec a ssss then Some M else
  mr <- get_mreq steps a ;;
  match emode_of (p_se P) (p_sg P) (qtotal a) with
  | Inline =>
    vexec (p_o P) (kernel_env K steps) Some a M (nsteps (mr + 1) (p_enums P (class_vsteps steps a)))
  | External =>
    rr <- rrstep_of steps a ;; req <- get_amreq steps a ;;
    vroutine P (p_depth P) rr a (a :: req) (map (kvars K) (varreq rr a)) (mr + 1) M
  | General => rr <- rrstep_of steps a ;; vgeneral K rr a (mr + 1) M
  end.
Fixpoint vrun (P : vpar) (K : vcoef) (steps : list vstep) (M : vmem) (l : list qam) : option vmem :=
  match l with
  | [] => Some M
  | a :: r => M' <- vform P K steps M a ;; vrun P K steps M' r
  end.
End Exec.
