(** The table of BoysData against the enclosures of BoysCheck: every entry is the Boys value
    to 18 significant digits; plus the integer conditions for the Taylor remainder. *)
From Coq Require Import Arith ZArith QArith Qabs Qfield Lia Lqa List Bool.
Import ListNotations.
From Verif Require Import Base BoysSeries BoysData BoysCheck.
Set Implicit Arguments.
Local Open Scope Z_scope.

(** Value of a literal; the same scaled by 10^40. *)
Definition dq (d : dec) : Q := let 'D m e := d in (inject_Z m / inject_Z (10 ^ e))%Q.
Definition dz (d : dec) : Z := let 'D m e := d in m * 10 ^ (40 - e).
Definition dec_ok (d : dec) : bool := let 'D m e := d in (0 <? m) && (0 <=? e) && (e <=? 40).
(** 2 * 10^17: the relative error allowed is its inverse, half a unit in the 18th digit. *)
Definition RE : Z := 2 * 10 ^ 17.

(** Literal in the enclosure up to the relative error. *)
Definition entry_ok (t : Z) (p : Z * Z) : bool := let '(v, r) := p in (Z.abs (t - v) + r) * RE <=? t.
(** Values not increasing. *)
Fixpoint sorted (l : list Z) : bool :=
  match l with a :: ((b :: _) as r) => (b <=? a) && sorted r | _ => true end.
(** 20^8 8! and 20^32 32!. *)
Definition W8 : Z := 20 ^ 8 * 40320.
Definition W32 : Z := 20 ^ 32 * 263130836933693530167218012160000000.
(** Bound of the remainder: implies hi_{n+8} / W8 * 20/19 + 2 U / W32 <= 85 * 10^-17 t_n. *)
Definition rem_ok (t h8 : Z) : bool := 6 * (h8 + W8) <=? 5 * t.
Fixpoint zip_all A B (f : A -> B -> bool) (l : list A) (m : list B) : bool :=
  match l, m with a :: l', b :: m' => f a b && zip_all f l' m' | _, _ => true end.
(** Number of terms of exp and starting order of the recursion for row [i]. *)
Definition Kof (i : nat) : nat := (40 + i / 3)%nat.
Definition Tof (i : nat) : nat := (80 + i / 4)%nat.
Definition row_encl (i : nat) : list (Z * Z) := firstn 61 (enclosures 10 (Z.of_nat i) (Kof i) (Tof i)).
Definition hi (p : Z * Z) : Z := fst p + snd p.
Definition row_check (row : list dec) (es : list (Z * Z)) : bool :=
  let ts := map dz row in let hs := map hi es in
  (length row =? 32)%nat && (length es =? 61)%nat && forallb dec_ok row &&
  zip_all entry_ok ts es && sorted ts && sorted hs && forallb (fun p => snd p <=? fst p) es &&
  zip_all rem_ok (firstn 25 ts) (skipn 8 hs).
Definition row_ok (i : nat) (row : list dec) : bool := row_check row (row_encl i).
Fixpoint rows_ok (i : nat) (l : list (list dec)) : bool :=
  match l with [] => true | r :: l' => row_ok i r && rows_ok (S i) l' end.

(** The whole table (366 rows of 32 entries) passes. *)
Lemma table_checked : (length shortgrid_data =? 366)%nat && rows_ok 0 shortgrid_data = true.
Proof. vm_cast_no_check (@eq_refl bool true). Qed.
