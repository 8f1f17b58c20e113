(** Property C39: permuted kernels. *)
From Coq Require Import List Arith ZArith.
Import ListNotations.
From Verif Require Import Base Cart Layout PairData Permute.

(** The pair data handed to the called kernel are those of the exchanged shells ... *)
Theorem C39_pair_data (R : cring) (inv expf : R -> R) (c : R) deriv A B i j a :
  (deriv = false -> a <> AAlpha2 /\ a <> ABeta2) -> (forall k, a = APrim k -> k < 11) ->
  swapped_value deriv (fun a => prim_value inv expf c false A B a i j) a = prim_value inv expf c false B A a j i.
Proof. exact (@swap_is_exchange R inv expf c deriv A B i j a). Qed.
Print Assumptions C39_pair_data.

(** ... so the permuted function, which reorders what the called kernel returned (or, for the
    special classes, does not), leaves the integrals of the requested class in its order. *)
Theorem C39_requested_order (Sh T : Type) (I : Sh -> Sh -> Sh -> Sh -> nat -> nat -> nat -> nat -> T)
  s12 s34 am ret raw (A B C D : nat -> Sh) :
  sym4 I -> perm_written s12 s34 am = true -> ret * qncart am <= length raw ->
  output_for 1 am ret raw
    (fun q => fst (exch s12 (A q) (B q))) (fun q => snd (exch s12 (A q) (B q)))
    (fun q => fst (exch s34 (C q) (D q))) (fun q => snd (exch s34 (C q) (D q)))
    (fun A B C D a b c d _ => I A B C D a b c d) ->
  exists out, permuted_fn s12 s34 am ret raw = Some out /\ length out = length raw /\
    (forall i, ret * qncart am <= i -> nth_error out i = nth_error raw i) /\
    output_for 1 (permute s12 s34 am) ret out A B C D (fun A B C D a b c d _ => I A B C D a b c d).
Proof. exact (@permuted_ok Sh T I s12 s34 am ret raw A B C D). Qed.
Print Assumptions C39_requested_order.

(** Why the shortcut is harmless: positions agree. *)
Theorem C39_special s12 s34 am a b c d :
  special (permute s12 s34 am) = true -> perm_written s12 s34 am = true ->
  let p := permute s12 s34 am in
  a < ncart (am0 p) -> b < ncart (am1 p) -> c < ncart (am2 p) -> d < ncart (am3 p) ->
  pos4 (ncart (am1 p)) (ncart (am2 p)) (ncart (am3 p)) a b c d =
  pos4 (ncart (am1 am)) (ncart (am2 am)) (ncart (am3 am))
       (if s12 then b else a) (if s12 then a else b) (if s34 then d else c) (if s34 then c else d).
Proof. exact (@special_same s12 s34 am a b c d). Qed.
Print Assumptions C39_special.

Example C39_example : let am := QAM 2 1 1 0 in sym4 ex_I /\
  perm_written true true am = true /\ special (permute true true am) = false /\
  special (permute true true (QAM 2 0 1 0)) = true /\
  permuted_fn true true am 2 (ex_raw true true am 2) = Some (ex_raw false false (permute true true am) 2) /\
  permuted_fn true true (QAM 2 0 1 0) 2 (ex_raw true true (QAM 2 0 1 0) 2)
    = Some (ex_raw false false (QAM 0 2 0 1) 2) /\
  ex_raw true true am 2 <> ex_raw false false (permute true true am) 2.
Proof. exact (conj ex_I_sym ex_perm). Qed.
