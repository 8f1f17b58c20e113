(** C72: packed storage of the integrals, as example_packed.c fills it. *)
From Coq Require Import List Arith ZArith.
Import ListNotations.
From Verif Require Import Base Deriv OneE Packed.
Local Open Scope nat_scope.

(** The index of the storage: below the length, the same exactly for the eight permutations, and every cell has a quartet. *)
Theorem C72_index : forall N,
  (forall m n o p, m < N -> n < N -> o < N -> p < N -> 8 * quad_idx m n o p < N * (N + 1) * (N * (N + 1) + 2)) /\
  (forall c, 8 * c < N * (N + 1) * (N * (N + 1) + 2) ->
     exists m n o p, m < N /\ n < N /\ o < N /\ p < N /\ quad_idx m n o p = c) /\
  (forall m n o p m' n' o' p',
     quad_idx m n o p = quad_idx m' n' o' p' <-> same_quartet (m, n, o, p) (m', n', o', p')).
Proof. exact index_all. Qed.
Print Assumptions C72_index.

(** The loops over the distinct shell quartets put every integral, in any order of its indices, into its cell. *)
Theorem C72_packed : forall (R : cring) (start nbf : nat -> nat) (call : nat -> nat -> nat -> nat -> list (option R) -> option (list (option R)))
    (nshell tlen : nat) (v : nat -> nat -> nat -> nat -> R),
  start 0 = 0 -> (forall i, i < nshell -> start (S i) = start i + nbf i) ->
  (forall m n o p, v m n o p = v n m o p) -> (forall m n o p, v m n o p = v m n p o) -> (forall m n o p, v m n o p = v o p m n) ->
  (forall i j k l t, i < nshell -> j < nshell -> k < nshell -> l < nshell -> length t = tlen ->
     exists t', call i j k l t = Some t' /\ length t' = tlen /\
     forall m n o p, m < nbf i -> n < nbf j -> o < nbf k -> p < nbf l ->
       rdv t' (((m * nbf j + n) * nbf k + o) * nbf l + p) = Some (v (start i + m) (start j + n) (start k + o) (start l + p))) ->
  forall s, length (ps_target s) = tlen -> length (ps_ints s) = tri (tri (start nshell)) ->
    ps_ints s = repeat None (tri (tri (start nshell))) -> ps_count s = 0 ->
  exists s', packed_main start nbf call nshell s = Some s' /\ ps_count s' = tri (tri nshell) /\
    length (ps_ints s') = tri (tri (start nshell)) /\
    (forall m n o p, m < start nshell -> n < start nshell -> o < start nshell -> p < start nshell ->
       rdv (ps_ints s') (quad_idx m n o p) = Some (v m n o p)) /\
    (forall c, c < tri (tri (start nshell)) -> rdv (ps_ints s') c <> None).
Proof. exact @packed_ok. Qed.
Print Assumptions C72_packed.

(** The first three shells (s, s, p) of the water molecule of the example: 5 functions, 120 integrals, an intermediate buffer
    of 81 values as in the example.  The whole molecule has 7 functions and 406 integrals. *)
Example C72_example :
  option_map (fun s => (ps_count s, length (ps_ints s), rdv (ps_ints s) (quad_idx 2 4 1 3), forallb (fun x => match x with Some _ => true | None => false end) (ps_ints s)))
    (packed_main ex_start ex_nbf ex_call 3 (PS 0 (repeat None 81) (repeat None 120)))
  = Some (21, 120, Some (ex_v 3 1 4 2), true).
Proof. vm_compute. reflexivity. Qed.
Example C72_example_size : (ex_start 5, tri (tri (ex_start 5))) = (7, 406).
Proof. vm_compute. reflexivity. Qed.
(** The call of the example meets the hypothesis for a quartet with two p shells. *)
Example C72_example_call : option_map (fun t => (length t, rdv t (((2 * 1 + 0) * 3 + 1) * 1 + 0))) (ex_call 2 0 2 4 (repeat None 81))
  = Some (81, Some (ex_v 4 0 3 6)).
Proof. vm_compute. reflexivity. Qed.
