(** Property theorem C87: overlap and kinetic energy are integrals over space; their matrices are symmetric and positive semidefinite. *)
From Coq Require Import List Arith ZArith Reals.
Import ListNotations.
From Verif Require Import Base Cart Mdir PairData Recur Deriv OneE OneESpec OneEInt EndToEnd Normalize RealDeriv RealUnique PointCharge RealOneE RealGram.
Local Open Scope R_scope.

(** C87.  What osoei_overlap.c stores is the integral over space of the product of the two contracted Gaussians ... *)
Theorem C87_overlap : forall (A B : @oshell Rcring) a b, usable A a -> usable B b -> exists v, stores_overlap A B a b v /\
  space (fun x y z => orbital (os_sh A) a x y z * orbital (os_sh B) b x y z) v.
Proof. exact overlap_space. Qed.
Print Assumptions C87_overlap.

(** ... what osoei_ke.c stores is half the integral of the product of their gradients ... *)
Theorem C87_kinetic : forall (A B : @oshell Rcring) a b (DA DB : dir -> R -> R -> R -> R), usable A a -> usable B b ->
  (forall d, partial d (orbital (os_sh A) a) (DA d)) -> (forall d, partial d (orbital (os_sh B) b) (DB d)) -> exists v, stores_kinetic A B a b v /\
  space (fun x y z => / 2 * (DA DX x y z * DB DX x y z + DA DY x y z * DB DY x y z + DA DZ x y z * DB DZ x y z)) v.
Proof. exact kinetic_space. Qed.
Print Assumptions C87_kinetic.

(** ... there are such gradients, and an integral has one value ... *)
Theorem C87_gradient : forall d S u, exists D, partial d (orbital S u) D.
Proof. exact (fun d S u => ex_intro _ _ (orbital_partial d S u)). Qed.
Print Assumptions C87_gradient.
Theorem C87_unique : forall f L M, space f L -> space f M -> L = M.
Proof. exact space_unique. Qed.
Print Assumptions C87_unique.

(** ... swapping the shells transposes the block ... *)
Theorem C87_symmetric : forall (A B : @oshell Rcring) a b v w, usable A a -> usable B b ->
  (stores_overlap A B a b v -> stores_overlap B A b a w -> v = w) /\ (stores_kinetic A B a b v -> stores_kinetic B A b a w -> v = w).
Proof. exact (fun A B a b v w UA UB => conj (overlap_sym A B a b v w UA UB) (kinetic_sym A B a b v w UA UB)). Qed.
Print Assumptions C87_symmetric.

(** ... and both matrices over any list of functions, of any shells, are positive semidefinite. *)
Theorem C87_positive : forall M l, (forall p, In p l -> usable (fst (snd p)) (snd (snd p))) ->
  (forall p q, In p l -> In q l -> stores_overlap (fst (snd p)) (fst (snd q)) (snd (snd p)) (snd (snd q)) (M (snd p) (snd q))) \/
  (forall p q, In p l -> In q l -> stores_kinetic (fst (snd p)) (fst (snd q)) (snd (snd p)) (snd (snd q)) (M (snd p) (snd q))) ->
  0 <= quadratic M l.
Proof. exact (fun M l U H => match H with or_introl K => overlap_psd M l U K | or_intror K => kinetic_psd M l U K end). Qed.
Print Assumptions C87_positive.

Example C87_example : (forall w, usable (pc_shell 2 w) (G 1 1 0)) /\
  forall a : @EndToEnd.gauss Rcring, g_exp a = PI / 2 -> space (fun x y z => gto a (G 0 0 0) x y z * gto a (G 0 0 0) x y z) 1.
Proof. exact (conj gram_usable gram_norm). Qed.
