(** Property theorems C40, C41, C52: the driver. *)
From Coq Require Import List Arith.
Import ListNotations.
From Verif Require Import Base Cart Tables Mdir HRRStep HRRAlgo HRROrder HRRExec HRRExample VRRStep VRRAlgo VRROrder VRRExec VRRExecSpec
  Work Permute Driver DriverList.

(** C40.  The functions defined by the sources of the generated classes are those of all classes up to
    the maximum, each once; a permuted function is in the source that has the function it calls. *)
Theorem C40_one_kernel maxam p vs : valid_set maxam p vs -> NoDup vs ->
  NoDup (flat_map (defs p) vs) /\
  (forall c, In c (flat_map (defs p) vs) <-> amax c <= maxam) /\
  (forall c, amax c <= maxam -> exists q, In q vs /\ amax q = amax c /\ In c (defs p q) /\ In q (defs p q) /\
     forall q', In q' vs -> In c (defs p q') -> q' = q).
Proof. exact (@one_kernel maxam p vs). Qed.
Print Assumptions C40_one_kernel.

(** Every entry of the table of a build of maximum [l] is defined by a source of that build. *)
Theorem C40_filled maxam p vs l c : valid_set maxam p vs -> l <= maxam -> In c (filled l) ->
  exists q, In q vs /\ amax q <= l /\ In c (defs p q).
Proof. exact (@filled_defined maxam p vs l c). Qed.
Print Assumptions C40_filled.

Example C40_example : valid_set 2 0 (ex_valid 2 0) /\ NoDup (ex_valid 2 0) /\
  List.length (ex_valid 2 0) = 36 /\ List.length (flat_map (defs 0) (ex_valid 2 0)) = 81 /\
  List.length (ex_valid 2 2) = 43 /\ List.length (flat_map (defs 2) (ex_valid 2 2)) = 81 /\
  defs 0 (QAM 2 1 1 0) = [QAM 2 1 1 0; QAM 1 2 1 0; QAM 2 1 0 1; QAM 1 2 0 1] /\
  defs 2 (QAM 1 0 1 1) = [QAM 1 0 1 1].
Proof.
  split; [apply ex_valid_ok|]. split; [apply ex_valid_nodup|vm_compute; repeat split].
Qed.

(** C41.  The lists of all orders are the same list; that of maximum [l] has exactly the kernels up to [l]
    and the routines these call. *)
Theorem C41_lists : forall ve vg he hg enumd enumt enumm enumq o maxam p derorder vs,
  valid_set maxam p vs ->
  exists s, appends maxam (new_lists derorder) (events ve vg he hg enumd enumt enumm enumq o derorder vs) = Some s /\
    forall d l, d <= derorder -> exists fl, listing s d l = Some fl /\ listing s 0 l = Some fl /\
      forall x, In x fl <-> exists d' q, In d' (orders derorder) /\ In q vs /\ amax q <= l /\
        (x = SKern d' q \/ In x (logged ve vg he hg enumd enumt enumm enumq o d' q)).
Proof. exact listing_spec. Qed.
Print Assumptions C41_lists.

(** Without derivatives nothing that is called is missing. *)
Theorem C41_closed : forall ve vg he hg enumd enumt enumm enumq o,
  enum_ok enumd -> enum_ok enumt -> enum_ok enumm -> enum_ok enumq -> starts_x o ->
  forall maxam p vs, valid_set maxam p vs ->
  exists s, appends maxam (new_lists 0) (events ve vg he hg enumd enumt enumm enumq o 0 vs) = Some s /\
    forall l, l <= maxam -> exists fl, listing s 0 l = Some fl /\
      (forall c, amax c <= l -> In (SKern 0 (served p c)) fl) /\
      (forall x y, In x fl -> In y (calls ve vg he hg enumd enumt enumm enumq o x) -> In y fl).
Proof. exact lists_closed. Qed.
Print Assumptions C41_closed.

(** With derivatives all kernels of both orders and what they call themselves are there ... *)
Theorem C41_derivatives : forall ve vg he hg enumd enumt enumm enumq o maxam p derorder vs, valid_set maxam p vs ->
  exists s, appends maxam (new_lists derorder) (events ve vg he hg enumd enumt enumm enumq o derorder vs) = Some s /\
    forall d l, d <= derorder -> l <= maxam -> exists fl, listing s d l = Some fl /\ listing s 0 l = Some fl /\
      (forall d' c, d' <= derorder -> d' <= 1 -> amax c <= l -> In (SKern d' (served p c)) fl) /\
      (forall d' q y, In (SKern d' q) fl -> In y (calls ve vg he hg enumd enumt enumm enumq o (SKern d' q)) -> In y fl).
Proof. exact lists_deriv. Qed.
Print Assumptions C41_derivatives.

(** ... but never all that the permuted routines call, if routines of total momentum [2L+1] are separate:
    the list of maximum [L] has [VRR_J_s_X_s_s] and not [VRR_I_X_s_s_s] which it calls. *)
Theorem C41_derivatives_refuted : forall ve vg he hg enumd enumt enumm enumq o,
  enum_ok enumd -> enum_ok enumt -> enum_ok enumm -> enum_ok enumq -> starts_x o ->
  forall maxam p derorder vs L, valid_set maxam p vs ->
  1 <= derorder -> 1 <= L <= maxam -> ve <= 2 * L + 1 < vg ->
  exists s fl, appends maxam (new_lists derorder) (events ve vg he hg enumd enumt enumm enumq o derorder vs) = Some s /\
    (forall d, d <= derorder -> listing s d L = Some fl) /\
    In (SVrr CJ (QAM 0 (2 * L + 1) 0 0)) fl /\
    In (SVrr CI (QAM (2 * L + 1) 0 0 0))
       (calls ve vg he hg enumd enumt enumm enumq o (SVrr CJ (QAM 0 (2 * L + 1) 0 0))) /\
    ~ In (SVrr CI (QAM (2 * L + 1) 0 0 0)) fl.
Proof. exact lists_deriv_missing. Qed.
Print Assumptions C41_derivatives_refuted.

Example C41_example : starts_x psi4 /\ enum_ok (nodup qm_eq_dec) /\ valid_set 1 0 (ex_valid 1 0) /\
  orders 2 = [0; 1] /\
  map (fun x => dx_in x (dx_listing 1 1))
    [SKern 0 (QAM 1 1 0 0); SKern 1 (QAM 1 1 0 0); SVrr CJ (QAM 0 3 0 0); SVrr CI (QAM 3 0 0 0)] =
    [true; true; true; false] /\
  map (fun x => dx_in x (dx_listing 0 0)) [SKern 0 ssss; SKern 1 ssss; SKern 0 (QAM 1 0 0 0)] = [true; true; false].
Proof.
  split; [apply psi4_starts|]. split; [apply nodup_enum|]. split; [apply ex_valid_ok|]. split; [reflexivity|].
  split; vm_compute; reflexivity.
Qed.

(** C52.  What is logged for the driver are exactly the calls of separate routines in the kernel. *)
Theorem C52_kernel_calls : forall ve vg he hg enumd enumt enumm enumq o,
  enum_ok enumd -> enum_ok enumt -> enum_ok enumm -> enum_ok enumq -> starts_x o ->
  forall d c, exists hp vp, kernel enumd enumt enumm enumq o d c = Some (hp, vp) /\
  (forall rr a, In (rr, a) (kvlog ve vg enumd enumt enumm enumq o d c) <->
     In a (vp_order vp) /\ a <> ssss /\ emode_of ve vg (qtotal a) = External /\ rrstep_of (vp_steps vp) a = Some rr) /\
  (forall rr x, In (rr, x) (khlog he hg enumd enumt enumm enumq o d c) <-> exists t, In t (hp_order hp) /\
     (smap_at (hp_map hp) t = Some BRA /\ x = brac t /\ rr = bdir (dir_b (request d c)) \/
      smap_at (hp_map hp) t = Some KET /\ x = ketc t /\ rr = kdir (dir_k (request d c))) /\
     emode_of he hg (dsum x) = External).
Proof. exact kernel_calls. Qed.
Print Assumptions C52_kernel_calls.

(** The generated routines have everything the kernels call and everything generated routines call. *)
Theorem C52_generated : forall ve vg he hg enumd enumt enumm enumq o,
  enum_ok enumd -> enum_ok enumt -> enum_ok enumm -> enum_ok enumq -> starts_x o ->
  forall derorder vs,
  let vgen := generated (all_vreq ve vg enumd enumt enumm enumq o derorder vs) in
  (forall d q, In d (orders derorder) -> In q vs ->
     incl (kvlog ve vg enumd enumt enumm enumq o d q) vgen /\
     incl (khlog he hg enumd enumt enumm enumq o d q) (all_hreq he hg enumd enumt enumm enumq o derorder vs)) /\
  (forall v w, In v vgen -> In w (vcalls v) -> In w vgen).
Proof. exact external_generated. Qed.
Print Assumptions C52_generated.

(** Caller and callee agree on the order of arrays and variables; a call does what the recurrence says. *)
Theorem C52_arguments : forall ve vg enumd enumt enumm enumq o,
  enum_ok enumd -> enum_ok enumt -> enum_ok enumm -> enum_ok enumq -> starts_x o ->
  forall derorder vs rr a, In (rr, a) (generated (all_vreq ve vg enumd enumt enumm enumq o derorder vs)) ->
  (forall rr' a', In (rr', a') (vcalls (rr, a)) ->
     am1 a' = 0 /\ am3 a' = 0 /\
     amreq rr' a' = map (swa (am0 a =? 0) (am2 a =? 0)) (amreq rr a) /\
     varreq rr' a' = map (vsw (am0 a =? 0) (am2 a =? 0)) (varreq rr a)) /\
  (forall P, par_ok P -> qtotal a < p_fuel P ->
     exists p, vrr_create (p_enum P) (p_enumq P) (p_fuel P) [rr] (qtargets (p_o P) a) = Some p /\
       rrstep_of (vp_steps p) a = Some rr /\ get_amreq (vp_steps p) a = Some (amreq rr a)) /\
  (forall (R : cring) P (K : @vcoef R) W t g N (M : vmem), par_ok P -> qtotal a < p_fuel P ->
     call_ok (p_o P) W M rr a t g N ->
     exists M', vroutine P 2 rr a (t :: map g (amreq rr a)) (map (kvars K) (varreq rr a)) N M = Some M' /\
       formed (p_o P) K W rr a t N (fun _ => True) M M').
Proof. exact external_arguments. Qed.
Print Assumptions C52_arguments.

(** Horizontal routines are generated for the side and direction they are called with; their arguments are
    in the order of the class set on both sides. *)
Theorem C52_hrr : forall he hg enumd enumt enumm enumq o d q rr c,
  In (rr, c) (khlog he hg enumd enumt enumm enumq o d q) ->
  rr = bdir (dir_b (request d q)) /\ hrr_flags rr = (true, dir_b (request d q)) \/
  rr = kdir (dir_k (request d q)) /\ hrr_flags rr = (false, dir_k (request d q)).
Proof. exact external_hrr. Qed.
Print Assumptions C52_hrr.
Theorem C52_hrr_arguments : forall (R : cring) (E : @henv R) lf c,
  enum_ok (e_enum E) -> set_enum (e_enumc E) -> starts_x (e_o E) -> mvc lf c <> 0 -> mvc lf c <= e_fuel E ->
  exists formals steps, external E lf c = Some (formals, steps) /\
    (forall x, In x formals <-> x = fst (hreq lf c) \/ x = snd (hreq lf c)) /\
    (forall l, (forall x, In x l <-> x = fst (hreq lf c) \/ x = snd (hreq lf c)) -> e_enumc E l = formals) /\
    (forall h, In h steps -> doublet_step lf (hs_target h) = HStep h /\ dclass (hs_target h) = c) /\
    (forall d, dclass d = c -> exists h, In h steps /\ hs_target h = d).
Proof. exact @external_ok. Qed.
Print Assumptions C52_hrr_arguments.

(** The kernel of (s p | s s) calls a permuted routine; its callee is generated. *)
Example C52_example :
  dx_kv 0 (QAM 0 1 0 0) = [(CJ, QAM 0 1 0 0)] /\ vcalls (CJ, QAM 0 1 0 0) = [(CI, QAM 1 0 0 0)] /\
  generated [(CJ, QAM 0 1 0 0)] = [(CJ, QAM 0 1 0 0); (CI, QAM 1 0 0 0)] /\
  vcalls (CJ, QAM 0 2 1 0) = [(CI, QAM 2 0 1 0)] /\ amreq CJ (QAM 0 2 1 0) <> [] /\
  hrr_flags CK = (false, true) /\ hrr_flags CJ = (true, false).
Proof. vm_compute. repeat split; try discriminate. Qed.
