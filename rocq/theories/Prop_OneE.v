(** Property theorems C46, C47, C48: one-electron integrals. *)
From Coq Require Import List Arith.
Import ListNotations.
From Verif Require Import Base Cart Recur PairData Deriv OneE OneESpec OneEInt Potential PotentialSpec PotentialInt DerivExample OneEExample.

(** C46.  The table built for one pair of primitives holds, for any family satisfying both Obara-Saika relations
    with the starting value of the code, that family ... *)
Theorem C46_table (R : cring) invf sqrtf expf half PI al1 x1 al2 x2 n1 n2 m (F : nat -> nat -> nat -> R) :
  1 <= n1 -> 1 <= n2 -> 3 * (n1 * n2) <= length m ->
  (forall d, d < 3 -> prim_overlaps invf sqrtf expf half PI al1 x1 al2 x2 d (F d)) ->
  exists m', overlap_terms invf sqrtf expf half PI al1 x1 al2 x2 n1 n2 m = Some m' /\ length m' = length m /\
    (forall d i j, d < 3 -> i < n1 -> j < n2 -> rdv m' (d * (n1 * n2) + (i * n2 + j)) = Some (F d i j)) /\
    (forall p, 3 * (n1 * n2) <= p -> nth_error m' p = nth_error m p).
Proof. exact (@overlap_terms_ok R invf sqrtf expf half PI al1 x1 al2 x2 n1 n2 m F). Qed.
Print Assumptions C46_table.

(** ... there is such a family, the integrals of (t + pa)^i (t + pb)^j against a Gaussian, and only one ... *)
Theorem C46_family (R : cring) (pa pb h s00 : R) :
  overlaps pa pb h s00 (fun i j => integral h s00 (pij pa pb i j)) /\
  forall F G, overlaps pa pb h s00 F -> overlaps pa pb h s00 G -> forall i j, F i j = G i j.
Proof. exact (conj (@integral_overlaps R h s00 pa pb) (@overlaps_unique R pa pb h s00)). Qed.
Print Assumptions C46_family.

(** ... exchanging the two functions transposes the table ... *)
Theorem C46_transpose (R : cring) invf sqrtf expf half PI al1 x1 al2 x2 n1 n2 (m m' : list (option R)) :
  1 <= n1 -> 1 <= n2 -> 3 * (n1 * n2) <= length m -> 3 * (n1 * n2) <= length m' ->
  exists t t', overlap_terms invf sqrtf expf half PI al1 x1 al2 x2 n1 n2 m = Some t /\
    overlap_terms invf sqrtf expf half PI al2 x2 al1 x1 n2 n1 m' = Some t' /\
    forall d i j, d < 3 -> i < n1 -> j < n2 ->
      exists v, rdv t (d * (n1 * n2) + (i * n2 + j)) = Some v /\ rdv t' (d * (n2 * n1) + (j * n1 + i)) = Some v.
Proof. exact (@terms_transpose R invf sqrtf expf half PI al1 x1 al2 x2 n1 n2 m m'). Qed.
Print Assumptions C46_transpose.

(** ... and the contracted integrals are the sums of the products of the three directions. *)
Theorem C46_integrals (R : cring) invf sqrtf expf half PI (A B : @oshell R) out F :
  os_am A <= 18 -> os_am B <= 18 -> ncart (os_am A) * ncart (os_am B) <= length out ->
  (forall i j d, i < sh_n (os_sh A) -> j < sh_n (os_sh B) -> d < 3 ->
     prim_overlaps invf sqrtf expf half PI (sh_alpha (os_sh A) i) (sh_pos (os_sh A)) (sh_alpha (os_sh B) j) (sh_pos (os_sh B)) d (F i j d)) ->
  exists out', compute_overlap invf sqrtf expf half PI A B out = Some out' /\ length out' = length out /\
    (forall a b, gam a = os_am A -> gam b = os_am B -> rdv out' (pos a * ncart (os_am B) + pos b) =
       Some (prim_sum (sh_n (os_sh A)) (sh_n (os_sh B)) (fun i j =>
               sh_coef (os_sh A) i * sh_coef (os_sh B) j *
               (F i j 0 (gx a) (gx b) * F i j 1 (gy a) (gy b) * F i j 2 (gz a) (gz b))))%r) /\
    (forall p, ncart (os_am A) * ncart (os_am B) <= p -> nth_error out' p = nth_error out p).
Proof. exact (@overlap_integrals_ok R invf sqrtf expf half PI A B out F). Qed.
Print Assumptions C46_integrals.

Example C46_met am1 am2 : am1 <= 2 -> am2 <= 1 ->
  ncart (os_am (ox_A am1)) * ncart (os_am (ox_B am2)) <= length ox_out /\
  exists F, forall i j d, @prim_overlaps Qcring Qcanon.Qcinv ox_sqrt ox_exp ox_half ox_pi (sh_alpha (os_sh (ox_A am1)) i) (sh_pos (os_sh (ox_A am1)))
     (sh_alpha (os_sh (ox_B am2)) j) (sh_pos (os_sh (ox_B am2))) d (F i j d).
Proof. exact (ox_met am1 am2). Qed.
Example C46_example : ox_check ox_overlap 2 1 = true.
Proof. vm_compute. reflexivity. Qed.

(** C47.  Every kinetic energy entry is minus half the second derivative of the second function, expressed through
    overlaps ... *)
Theorem C47_table (R : cring) invf sqrtf expf half PI al1 x1 al2 x2 n1 n2 m (F : nat -> nat -> nat -> R) :
  1 <= n1 -> 1 <= n2 -> 6 * (n1 * n2) <= length m ->
  (half + half = c1)%r -> ((al1 + al2) * invf (al1 + al2) = c1)%r ->
  (forall d, d < 3 -> prim_overlaps invf sqrtf expf half PI al1 x1 al2 x2 d (F d)) ->
  exists m', ke_terms invf sqrtf expf half PI al1 x1 al2 x2 n1 n2 m = Some m' /\ length m' = length m /\
    (forall d i j, d < 3 -> i < n1 -> j < n2 -> rdv m' (d * (n1 * n2) + (i * n2 + j)) = Some (F d i j)) /\
    (forall d i j, d < 3 -> i < n1 -> j < n2 ->
       rdv m' ((d + 3) * (n1 * n2) + (i * n2 + j)) =
         Some (- (ofnat 2 * al2 * al2 * F d i (j + 2)%nat) + al2 * ofnat (2 * j + 1) * F d i j
               - half * ofnat (j * (j - 1)) * F d i (j - 2)%nat)%r) /\
    (forall p, 6 * (n1 * n2) <= p -> nth_error m' p = nth_error m p).
Proof. exact (@ke_terms_ok R invf sqrtf expf half PI al1 x1 al2 x2 n1 n2 m F). Qed.
Print Assumptions C47_table.

(** ... the contracted integrals are built from them ... *)
Theorem C47_integrals (R : cring) invf sqrtf expf half PI (A B : @oshell R) out F :
  os_am A <= 18 -> os_am B <= 18 -> ncart (os_am A) * ncart (os_am B) <= length out -> (half + half = c1)%r ->
  (forall i j, i < sh_n (os_sh A) -> j < sh_n (os_sh B) ->
     (sh_alpha (os_sh A) i + sh_alpha (os_sh B) j) * invf (sh_alpha (os_sh A) i + sh_alpha (os_sh B) j) = c1)%r ->
  (forall i j d, i < sh_n (os_sh A) -> j < sh_n (os_sh B) -> d < 3 ->
     prim_overlaps invf sqrtf expf half PI (sh_alpha (os_sh A) i) (sh_pos (os_sh A)) (sh_alpha (os_sh B) j) (sh_pos (os_sh B)) d (F i j d)) ->
  exists out', compute_ke invf sqrtf expf half PI A B out = Some out' /\ length out' = length out /\
    (forall a b, gam a = os_am A -> gam b = os_am B -> rdv out' (pos a * ncart (os_am B) + pos b) =
       Some (prim_sum (sh_n (os_sh A)) (sh_n (os_sh B)) (fun i j =>
               let S := F i j in let T d := kinetic half (sh_alpha (os_sh B) j) (F i j d) in
               sh_coef (os_sh A) i * sh_coef (os_sh B) j *
               (T 0 (gx a) (gx b) * S 1 (gy a) (gy b) * S 2 (gz a) (gz b) +
                S 0 (gx a) (gx b) * T 1 (gy a) (gy b) * S 2 (gz a) (gz b) +
                S 0 (gx a) (gx b) * S 1 (gy a) (gy b) * T 2 (gz a) (gz b))))%r) /\
    (forall p, ncart (os_am A) * ncart (os_am B) <= p -> nth_error out' p = nth_error out p).
Proof. exact (@ke_integrals_ok R invf sqrtf expf half PI A B out F). Qed.
Print Assumptions C47_integrals.

(** ... and the block of the exchanged shells is the transposed block, although the formula is not symmetric. *)
Theorem C47_exchange (R : cring) invf sqrtf expf half PI (A B : @oshell R) o1 o2 : os_am A <= 18 -> os_am B <= 18 ->
  ncart (os_am A) * ncart (os_am B) <= length o1 -> ncart (os_am A) * ncart (os_am B) <= length o2 ->
  (half + half = c1)%r ->
  (forall i j, i < sh_n (os_sh A) -> j < sh_n (os_sh B) ->
     (sh_alpha (os_sh A) i + sh_alpha (os_sh B) j) * invf (sh_alpha (os_sh A) i + sh_alpha (os_sh B) j) = c1)%r ->
  exists r1 r2, compute_ke invf sqrtf expf half PI A B o1 = Some r1 /\
    compute_ke invf sqrtf expf half PI B A o2 = Some r2 /\
    forall a b, gam a = os_am A -> gam b = os_am B ->
      exists v, rdv r1 (pos a * ncart (os_am B) + pos b) = Some v /\ rdv r2 (pos b * ncart (os_am A) + pos a) = Some v.
Proof. exact (@ke_exchange R invf sqrtf expf half PI A B o1 o2). Qed.
Print Assumptions C47_exchange.

Example C47_met : @cadd Qcring ox_half ox_half = c1 /\
  forall am1 am2 i j, i < sh_n (os_sh (ox_A am1)) -> j < sh_n (os_sh (ox_B am2)) ->
    let p := @cadd Qcring (sh_alpha (os_sh (ox_A am1)) i) (sh_alpha (os_sh (ox_B am2)) j) in
    @cmul Qcring p (Qcanon.Qcinv p) = c1.
Proof. exact ox_hyps. Qed.
Example C47_example : ox_check ox_ke 1 1 = true.
Proof. vm_compute. reflexivity. Qed.

(** C48.  The output does not depend on what is in the scratch array, every element of the block is determined ... *)
Theorem C48_scratch (R : cring) invf expf half PI boys nc Zc X (A B : @oshell R) W0 W1 out :
  os_am A <= 18 -> os_am B <= 18 -> ncart (os_am A) * ncart (os_am B) <= length out ->
  shaped (os_am A) (os_am B) W0 -> shaped (os_am A) (os_am B) W1 ->
  exists out', compute_potential invf expf half PI boys nc Zc X A B W0 out = Some out' /\
    compute_potential invf expf half PI boys nc Zc X A B W1 out = Some out' /\
    forall p, p < ncart (os_am A) * ncart (os_am B) -> exists v, nth_error out' p = Some (Some v).
Proof. exact (@potential_scratch R invf expf half PI boys nc Zc X A B W0 W1 out). Qed.
Print Assumptions C48_scratch.

(** ... although elements computed on the way are: starting from indeterminate contents one of them is
    indeterminate, and its value differs for different contents. *)
Theorem C48_scratch_determined_refuted : ox_left None = Some None /\
  exists a b, ox_left (Some (@c0 Qcring)) = Some (Some a) /\
              ox_left (Some (@c1 Qcring)) = Some (Some b) /\ a <> b.
Proof. exact scratch_used. Qed.
Print Assumptions C48_scratch_determined_refuted.

(** The block is minus the charge-weighted sum of any integrals satisfying both recurrences with the starting
    values of the code ... *)
Theorem C48_integrals (R : cring) invf expf half PI boys nc Zc X (A B : @oshell R) W0 out T :
  os_am A <= 18 -> os_am B <= 18 -> ncart (os_am A) * ncart (os_am B) <= length out -> shaped (os_am A) (os_am B) W0 ->
  (forall c i j, c < nc -> i < sh_n (os_sh A) -> j < sh_n (os_sh B) ->
     prim_attractions invf expf half PI boys (os_am A + os_am B) (sh_alpha (os_sh A) i) (sh_pos (os_sh A))
       (sh_alpha (os_sh B) j) (sh_pos (os_sh B)) (X c) (T c i j)) ->
  exists out', compute_potential invf expf half PI boys nc Zc X A B W0 out = Some out' /\ length out' = length out /\
    (forall a b, gam a = os_am A -> gam b = os_am B -> rdv out' (pos a * ncart (os_am B) + pos b) =
       Some (- centre_sum nc (sh_n (os_sh A)) (sh_n (os_sh B)) (fun c i j =>
               T c i j 0%nat a b * Zc c * sh_coef (os_sh A) i * sh_coef (os_sh B) j))%r) /\
    (forall p, ncart (os_am A) * ncart (os_am B) <= p -> nth_error out' p = nth_error out p).
Proof. exact (@potential_ok R invf expf half PI boys nc Zc X A B W0 out T). Qed.
Print Assumptions C48_integrals.

(** ... which exist, and are unique as far as the starting values are given ... *)
Theorem C48_family (R : cring) (pa pb pc : dir -> R) h M s :
  (exists T, attractions pa pb pc h M s T) /\
  forall T T', attractions pa pb pc h M s T -> attractions pa pb pc h M s T' ->
    forall N a b, N + gam a + gam b <= M -> T N a b = T' N a b.
Proof.
  exact (conj (ex_intro _ _ (pot_family_ok pa pb pc h s M))
    (fun T T' H H' => @attractions_unique R pa pb pc h M s s T T' H H' (fun _ _ => eq_refl))).
Qed.
Print Assumptions C48_family.

(** ... and exchanging the shells transposes the block. *)
Theorem C48_exchange (R : cring) invf expf half PI boys nc Zc X (A B : @oshell R) W1 W2 o1 o2 :
  os_am A <= 18 -> os_am B <= 18 ->
  ncart (os_am A) * ncart (os_am B) <= length o1 -> ncart (os_am A) * ncart (os_am B) <= length o2 ->
  shaped (os_am A) (os_am B) W1 -> shaped (os_am B) (os_am A) W2 ->
  exists r1 r2, compute_potential invf expf half PI boys nc Zc X A B W1 o1 = Some r1 /\
    compute_potential invf expf half PI boys nc Zc X B A W2 o2 = Some r2 /\
    forall a b, gam a = os_am A -> gam b = os_am B ->
      exists v, rdv r1 (pos a * ncart (os_am B) + pos b) = Some v /\ rdv r2 (pos b * ncart (os_am A) + pos a) = Some v.
Proof. exact (@potential_exchange R invf expf half PI boys nc Zc X A B W1 W2 o1 o2). Qed.
Print Assumptions C48_exchange.

Example C48_met am1 am2 v : shaped am1 am2 (wx am1 am2 v).
Proof. exact (wx_shaped am1 am2 v). Qed.
Example C48_example : ox_same 1 1 = true /\ ox_check (ox_pot None) 1 1 = true.
Proof. vm_compute. split; reflexivity. Qed.
