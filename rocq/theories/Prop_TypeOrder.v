(** C83: the comparison operators of the generator and the sets built with them, generator/Types.hpp, OSTEI_Types.hpp. *)
From Coq Require Import List Arith ZArith String.
Import ListNotations.
From Verif Require Import Base Cart Tables HRRAlgo HRRExec VRRAlgo Naming TypeOrder.

(** C83.  For the momenta whose places are known the operators order the components, the doublets of one type and the quartets with a
    bra left and a ket right: a comparison does not throw, nothing is below itself, "below" carries over, and two things of which none is
    below the other are the same in all members.  The same for classes (arrays of [n] numbers with a tag), for which [==] is equality. *)
Theorem C83_orders : forall idx o B, known idx o B ->
  orders (fun g => B (gam g)) (g_less idx) /\ (forall ty, orders (d_typed ty B) (d_less idx)) /\ orders (q_typed B) (q_less idx).
Proof. intros idx o B K. exact (conj (g_orders K) (conj (d_orders K) (q_orders K))). Qed.
Print Assumptions C83_orders.
Theorem C83_classes : (forall n, orders (fun p => List.length (ta_am p) = n) (fun a b => Some (tam_less a b))) /\
  forall p q, tam_eq p q = true <-> p = q.
Proof. exact (conj tam_orders tam_eq_ok). Qed.
Print Assumptions C83_classes.
(** [==] of doublets is equality; [==] of quartets is equality of everything but the tag. *)
Theorem C83_equal : (forall a b, d_eq a b = true <-> a = b) /\
  forall a b, q_eq a b = true <-> tq_bra a = tq_bra b /\ tq_ket a = tq_ket b /\ tq_m a = tq_m b.
Proof. exact (conj d_eq_ok q_eq_ok). Qed.
Print Assumptions C83_equal.
(** The two tables that are written know the momenta up to 24. *)
Theorem C83_tables : known (g_index psi4_tab) psi4 (fun am => am <= 24) /\ known (g_index gamess_tab) gamess (fun am => am <= 24).
Proof. exact (conj known_psi4 known_gamess). Qed.
Print Assumptions C83_tables.
(** For an order the iterators of a set give every element inserted, once, increasing, and the order of insertion does not matter. *)
Theorem C83_sets : forall A (P : A -> Prop) less, orders P less ->
  (forall l, Forall P l -> exists s, set_of less l = Some s /\ NoDup s /\ increasing less s /\ forall x, In x s <-> In x l) /\
  (forall l m, Forall P l -> Forall P m -> (forall x, In x l <-> In x m) -> set_of less l = set_of less m).
Proof. intros A P less O. exact (conj (@set_of_ok A P less O) (@set_of_unique A P less O)). Qed.
Print Assumptions C83_sets.
(** So the sets of the generator are enumerations as C08, C09, C12 to C14, C18, C41 and C58 take them: they hold for the sets the code
    uses.  Tags are numbers in the model; up to 4 (all tags in use) they compare like their texts. *)
Theorem C83_enumerations : forall o, (forall ty, enum_ok (enum_dbl o ty)) /\ enum_ok (enum_qm o) /\ enum_ok (enum_qrt o) /\
  enum_ok enum_tqam /\ enum_ok enum_qam /\ set_enum enum_dam.
Proof. exact enums_ok. Qed.
Print Assumptions C83_enumerations.
Theorem C83_tags : forall a b, tq_tag a <= 4 -> tq_tag b <= 4 -> Some (tam_less (tqam_name a) (tqam_name b)) = tqam_less a b.
Proof. exact tags_ok. Qed.
Print Assumptions C83_tags.
(** With the operators of the code and momenta whose places are known these enumerations are what the iterators of the sets give. *)
Theorem C83_code : forall idx o B, known idx o B ->
  (forall ty l, (forall d, In d l -> B (gam (dl d)) /\ B (gam (dr d))) ->
    set_of (d_less idx) (map (dbl_name ty) l) = Some (map (dbl_name ty) (enum_dbl o ty l))) /\
  (forall l, (forall t, In t l -> let q := fst t in B (gam (qa q)) /\ B (gam (qb q)) /\ B (gam (qc q)) /\ B (gam (qd q))) ->
    set_of (q_less idx) (map qm_name l) = Some (map qm_name (enum_qm o l))).
Proof. exact sets_code. Qed.
Print Assumptions C83_code.
(** The set of the targets of a class is in the order of the results: element [i] has index [i]. *)
Theorem C83_targets : forall idx o B c tag, known idx o B -> starts_x o -> B (am0 c) -> B (am1 c) -> B (am2 c) -> B (am3 c) ->
  exists l, generate_quartets idx o c tag = Some (map (qrt_name 0 tag) l) /\ List.length l = qncart c /\
  forall i, i < qncart c -> exists q, nth_error l i = Some q /\ qclass q = c /\ qindex o q = i.
Proof. exact targets_sorted. Qed.
Print Assumptions C83_targets.
(** A bra and a ket with the same components are different under [==], but a set keeps only the first. *)
Theorem C83_types_refuted : forall idx, (forall g, idx g <> None) -> d_ex BRA px <> d_ex KET px /\ d_eq (d_ex BRA px) (d_ex KET px) = false /\
  set_of (d_less idx) [d_ex BRA px; d_ex KET px] = Some [d_ex BRA px].
Proof. exact types_merged. Qed.
Print Assumptions C83_types_refuted.
(** If the bras of quartets have different types, being neither below nor above does not carry over: not a valid order for a set. *)
Theorem C83_mixed_refuted : forall idx, (forall g, idx g <> None) ->
  let a := q_ex BRA s0 "" in let b := q_ex KET s0 "" in let c := q_ex BRA (G 0 0 0) "t" in
  q_less idx a b = Some false /\ q_less idx b a = Some false /\ q_less idx b c = Some false /\ q_less idx c b = Some false /\
  q_less idx a c = Some true.
Proof. exact mixed_types. Qed.
Print Assumptions C83_mixed_refuted.
(** [==] of quartets leaves out the tag: two quartets are equal and yet one is below the other. *)
Theorem C83_equal_refuted : forall idx, (forall g, idx g <> None) ->
  q_eq (q_ex BRA s0 "") (q_ex BRA s0 "2a") = true /\ q_less idx (q_ex BRA s0 "") (q_ex BRA s0 "2a") = Some true.
Proof. exact equal_and_less. Qed.
Print Assumptions C83_equal_refuted.
(** Two components of a momentum without a table: the comparison throws. *)
Theorem C83_outside : forall tab a b, gam a = gam b -> tab (gam a) = None -> g_less (g_index tab) a b = None.
Proof. exact outside_throws. Qed.
Print Assumptions C83_outside.
(** z, x, y, x inserted: x, y, z with the Psi4 table; xy before zz there, after it with the GAMESS table; momentum 25 throws. *)
Example C83_example :
  set_of (g_less (g_index psi4_tab)) [G 0 0 1; G 1 0 0; G 0 1 0; G 1 0 0] = Some [G 1 0 0; G 0 1 0; G 0 0 1] /\
  g_less (g_index psi4_tab) (G 1 1 0) (G 0 0 2) = Some true /\ g_less (g_index gamess_tab) (G 1 1 0) (G 0 0 2) = Some false /\
  set_of (d_less (g_index psi4_tab)) [TD BRA (G 0 1 0) s0 ""; TD BRA s0 (G 1 0 0) "a"; TD BRA s0 (G 1 0 0) ""] =
    Some [TD BRA s0 (G 1 0 0) ""; TD BRA s0 (G 1 0 0) "a"; TD BRA (G 0 1 0) s0 ""] /\
  g_less (g_index psi4_tab) (G 25 0 0) (G 24 1 0) = None.
Proof. vm_compute. repeat split. Qed.
