(** C79: the vector type given to a build. *)
From Coq Require Import String List.
Import ListNotations.
From Verif Require Import BuildSel.
Local Open Scope list_scope.
Local Open Scope string_scope.

(** Names outside of the list are refused; the list is that of the names with a meaning and two others. *)
Theorem C79_refused : forall v, build v = Refused <-> ~ In (tolower v) valid_vector.
Proof. exact build_refused. Qed.
Print Assumptions C79_refused.
Theorem C79_names : forall w, In w valid_vector <-> In w (map fst meaning) \/ In w ["avx512"; "scalar-avx512"].
Proof. exact valid_split. Qed.
Print Assumptions C79_names.

(** A name with a meaning, in any mixture of small and capital letters, gets the header with its vector length; the buffered
    sums of the (ss|ss) kernel are compiled for one name only. *)
Theorem C79_meaning : forall v n, In (tolower v, n) meaning ->
  exists d h, build v = Built d h /\ simd_len h = n /\ (buffered d = true <-> tolower v = "micavx512").
Proof. exact build_meaning. Qed.
Print Assumptions C79_meaning.
Theorem C79_exactly : forall v, (exists d h, build v = Built d h) <-> In (tolower v) (map fst meaning).
Proof. exact build_exactly. Qed.
Print Assumptions C79_exactly.

(** The two others are accepted, but the file of flags for them is not there (nor would there be a header). *)
Theorem C79_accepted_refuted : (forall v, In (tolower v) ["avx512"; "scalar-avx512"] -> build v = NoFile "avx512") /\
  pick (fst (choose "avx512")) = None.
Proof. exact (conj build_broken eq_refl). Qed.
Print Assumptions C79_accepted_refuted.

(** The count of surviving primitives is not there for every header. *)
Theorem C79_count_refuted : exists v d h, build v = Built d h /\ has_count h = false.
Proof. exact (ex_intro _ "sse" (ex_intro _ "SIMINT_SSE" (ex_intro _ Hsse (conj eq_refl eq_refl)))). Qed.
Print Assumptions C79_count_refuted.

Example C79_example :
  build "CommonAVX512" = Built "SIMINT_COMMONAVX512" Havx512 /\ build "Scalar-AVX" = Built "SIMINT_SCALAR" Hscalar /\
  build "avx 2" = Refused /\ build "" = Refused /\ build "AVX512" = NoFile "avx512".
Proof. vm_compute. repeat split. Qed.
