(** Property theorems C50 and C55: command lines. *)
From Coq Require Import String List ZArith Lia.
Import ListNotations.
From Verif Require Import Base Cart VRRStep CmdLine CmdLineProof.
Local Open Scope string_scope.

(** C50.  A number is what the argument starts with after white space. *)
Theorem C50_numbers s n : stoi s = Some n <-> denotes s n.
Proof. exact (stoi_denotes s n). Qed.
Print Assumptions C50_numbers.

Example C50_numbers_example : stoi "12" = Some 12%Z /\ stoi " -3x" = Some (-3)%Z /\ stoi "x3" = None /\ stoi "-" = None /\
  stoi "" = None /\ stoi "2147483647" = Some 2147483647%Z /\ stoi "2147483648" = None.
Proof. repeat split. Qed.

(** The common options: every argument list either has one reading, each option being followed by its
    number and the other arguments returned in order, or has an option without a number and is rejected. *)
Theorem C50_common argv :
  (forall is, reads (tl argv) is -> exists o, parse_common argv = Val (o, others is) /\
     (forall k, assigned k is (oget k o)) /\ permuting is (o_perm o)) /\
  (bad_value (tl argv) -> parse_common argv = Fail) /\
  ((exists! is, reads (tl argv) is) \/ bad_value (tl argv)) /\
  ~ ((exists is, reads (tl argv) is) /\ bad_value (tl argv)).
Proof. exact (parse_common_spec argv). Qed.
Print Assumptions C50_common.

Example C50_common_example :
  parse_common ["gen"; "-ve"; "3"; "x"; "-hg"; "-1"; "-p"; "y"; "-ve"; "4"] = Val (O 4 0 0 (-1) 1, ["x"; "y"]) /\
  parse_common ["gen"; "x"; "-ve"] = Fail /\ parse_common ["gen"; "-he"; "-ve"; "3"] = Fail /\
  bad_value ["x"; "-ve"].
Proof.
  repeat split. exists ["x"], [IOther "x"], VE, []. repeat split; [|now left].
  apply R_other; [|apply R_nil]. intros [[k E]|E]; [destruct k|]; discriminate.
Qed.

(** A whole program: what is accepted is what two readings give, and nothing else. *)
Theorem C50_programs p argv : main_parse p argv <> Stuck /\
  (forall o s, main_parse p argv = Val (o, s) -> exists is js,
     reads (tl argv) is /\ oreads p (others is) js /\ accepted s /\
     (forall k, assigned k is (oget k o)) /\ permuting is (o_perm o) /\ meaning p js s) /\
  (forall is js, areads p (tl argv) is js -> (forall x, In (JOut x) js \/ In (JHdr x) js -> ~ is_common x) ->
     exists o s, meaning p js s /\ (forall k, assigned k is (oget k o)) /\ permuting is (o_perm o) /\
       (accepted s -> main_parse p argv = Val (o, s)) /\ (~ accepted s -> main_parse p argv = Fail)).
Proof. exact (conj (main_parse_total p argv) (conj (@main_parse_meaning p argv) (@main_once p argv))). Qed.
Print Assumptions C50_programs.

(** Options are not always followed by their value: a file name that is the name of a common option is
    taken out before the program looks at it. *)
Theorem C50_following_refuted :
  areads PEri (tl bad_argv) [] [JAm [1; 0; 0; 0]%Z; JHdr "h"; JOut "-p"] /\ main_parse PEri bad_argv = Fail /\
  main_parse PEri bad_argv2 = Val (O 0 0 0 0 1, SO "a.c" "h" [1; 0; 0; 0]%Z true CI false false false).
Proof. exact value_following_refuted. Qed.
Print Assumptions C50_following_refuted.

Example C50_programs_example :
  main_parse PVrr ["gen"; "-q"; "1"; "0"; "2"; "0"; "-center_k"; "-o"; "a.c"; "-oh"; "a.h"] =
    Val (default, SO "a.c" "a.h" [1; 0; 2; 0]%Z true CK false false false) /\
  main_parse PVrr ["gen"; "-q"; "1"; "0"; "2"; "-o"; "a.c"; "-oh"; "a.h"] = Fail /\
  main_parse PVrr ["gen"; "-q"; "1"; "0"; "2"; "0"; "-bra"; "-o"; "a.c"; "-oh"; "a.h"] = Fail /\
  main_parse PHrr ["gen"; "-q"; "1"; "2"; "-bra"; "-o"; "a.c"] = Fail.
Proof. repeat split. Qed.

(** C55.  The command lines the driver composes are understood as it means them, for every class, every
    directory and every threshold that fits an int. *)
Theorem C55_kernels gen q f h ve vg he hg perm : small_am q -> int32 ve -> int32 vg -> int32 he -> int32 hg ->
  main_parse PEri (eri_cmd gen q (f ++ ".c") (h ++ ".h") ve vg he hg perm) =
    Val (O ve vg he hg (if perm then 1 else 0), SO (f ++ ".c") (h ++ ".h") (zlist q) true CI false false false).
Proof. exact (@eri_cmd_ok gen q f h ve vg he hg perm). Qed.
Print Assumptions C55_kernels.

Theorem C55_vrr gen t q f h : small_am q ->
  main_parse PVrr (vrr_cmd gen t q (f ++ ".c") (h ++ ".h")) =
    Val (default, SO (f ++ ".c") (h ++ ".h") (zlist q) true t false false false).
Proof. exact (@vrr_cmd_ok gen t q f h). Qed.
Print Assumptions C55_vrr.

Theorem C55_hrr gen t a b f h : (Z.of_nat a < 2147483648)%Z -> (Z.of_nat b < 2147483648)%Z ->
  main_parse PHrr (hrr_cmd gen t a b (f ++ ".c") (h ++ ".h")) =
    Val (default, SO (f ++ ".c") (h ++ ".h") [Z.of_nat a; Z.of_nat b] true CI
      (match t with CI => true | _ => false end) (match t with CK => true | _ => false end)
      (match t with CI | CJ => true | _ => false end)).
Proof. exact (@hrr_cmd_ok gen t a b f h). Qed.
Print Assumptions C55_hrr.

Example C55_example : small_am (QAM 2 1 12 0) /\ int32 (-5) /\
  hrr_cmd "gen" CI 2 1 ("d/hrr_I_d_p" ++ ".c") ("d/hrr_generated" ++ ".h") =
    ["gen"; "-q"; "2"; "1"; "-o"; "d/hrr_I_d_p.c"; "-oh"; "d/hrr_generated.h"; "-bra"; "-bra_i"] /\
  eri_cmd "gen" (QAM 2 1 12 0) "x.c" "y.h" (-5) 0 30 7 true =
    ["gen"; "-q"; "2"; "1"; "12"; "0"; "-o"; "x.c"; "-oh"; "y.h"; "-ve"; "-5"; "-vg"; "0"; "-he"; "30"; "-hg"; "7"; "-p"].
Proof. split; [unfold small_am; simpl; lia|]. split; [unfold int32; lia|]. repeat split. Qed.
