(** Property theorems C59: creating a batch of shell pairs, with the sort by screen value. *)
From Coq Require Import List Arith ZArith.
Import ListNotations.
From Verif Require Import Base Layout Sort Create EndToEnd EndToEndExample.
Local Open Scope nat_scope.

(** C59.  The created block holds every quantity of every primitive pair exactly once, in one order per shell pair that
    all arrays share; with screening the screen values descend. *)
Theorem C59_create : forall len nss meth deriv n pr kf, 0 < len -> 0 < nss -> Nat.divide len nss -> (forall t, t < n -> sp_wf (pr t)) ->
  screen_fits len nss meth n pr -> (screens meth = true -> forall t, t < n -> 0 < npf pr t) ->
  exists m ord, create len nss meth deriv n pr kf = Some m /\ holds len nss meth deriv n pr m ord /\
    (screens meth = true -> by_screen n kf ord).
Proof. exact create_ok. Qed.
Print Assumptions C59_create.
(** Three pairs; the primitives (0,0), (1,0), (1,1) of the first have the screen values 1, 4, 3. *)
Example C59_example : ee_side ee_bra /\ ps_create 2 2 ee_bra ee_kf = Some (ee_block ee_bra) /\
  map (fun p => ee_kf (Some (Of AScreen 0 (fst p) (snd p)))) [(0, 0); (1, 0); (1, 1)] = [1; 4; 3]%Z /\
  ee_order = [Some (Some (Of (APrim 9) 0 1 0)); Some (Some (Of (APrim 9) 0 1 1)); Some (Some (Of (APrim 9) 0 0 0))].
Proof. split; [exact ee_bra_side|]. vm_compute. repeat split. Qed.
