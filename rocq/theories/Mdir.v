(** Choice of the Cartesian direction of a recurrence step (Makowski).
    Sources: generator/ostei/Makowski.hpp:48-53, 111-117, 180-186 and
    python/gen_recurinfo.py:70-77 (the same rule in python). *)
From Coq Require Import List Arith Lia Bool.
Import ListNotations.
From Verif Require Import Base Cart.
Set Implicit Arguments.

(** [std::sort] of three values (insertion). *)
Fixpoint insert_n (x : nat) (l : list nat) : list nat :=
  match l with
  | [] => [x]
  | y :: t => if x <=? y then x :: l else y :: insert_n x t
  end.
Definition sort_n (l : list nat) : list nat := fold_right insert_n [] l.

(** [std::find_if(..., i != 0)]; [None] is [end()], whose dereference is undefined. *)
Definition first_nonzero (l : list nat) : option nat :=
  match find (fun i => negb (i =? 0)) l with Some v => Some v | None => None end.

(** [2 - distance(rbegin, find(rbegin, rend, v))]. *)
Definition rev_index (l : list nat) (v : nat) : option nat :=
  match find_pos (Nat.eqb v) (rev l) with
  | Some k => Some (2 - k)
  | None => None
  end.

(** [IdxToXYZStep], Types.hpp:234-242. *)
Definition dir_of_idx (i : nat) : dir :=
  match i with 0 => DX | 1 => DY | _ => DZ end.
Definition idx_of_dir (d : dir) : nat :=
  match d with DX => 0 | DY => 1 | DZ => 2 end.

(** Makowski.hpp:49-53.  [None]: the code dereferences [end()] (undefined behaviour). *)
Definition mdir (g : gauss) : option dir :=
  let ijk := [gx g; gy g; gz g] in
  match first_nonzero (sort_n ijk) with
  | None => None
  | Some v => match rev_index ijk v with
              | None => None
              | Some i => Some (dir_of_idx i)
              end
  end.

(** Specification: direction with the smallest non-zero exponent; among equal
    ones the last of x, y, z. *)
Definition is_mdir (g : gauss) (d : dir) : Prop :=
  gexp d g <> 0 /\
  (forall e, gexp e g <> 0 -> gexp d g <= gexp e g) /\
  (forall e, gexp e g = gexp d g -> idx_of_dir e <= idx_of_dir d).

Lemma mdir_spec g d : mdir g = Some d -> is_mdir g d.
Proof.
  destruct g as [x y z]. unfold mdir, first_nonzero, rev_index, is_mdir, gexp; simpl.
  intros H.
  repeat match type of H with
  | context [insert_n] => progress simpl in H
  | context [?a <=? ?b] => destruct (Nat.leb_spec a b); simpl in H
  | context [?a =? ?b] => destruct (Nat.eqb_spec a b); simpl in H
  end; try discriminate; injection H as <-; simpl;
  (split; [lia|split; intros dd Hdd; destruct dd; simpl in *; lia]).
Qed.

Lemma mdir_some g : gam g <> 0 -> exists d, mdir g = Some d.
Proof.
  destruct g as [x y z]. unfold mdir, first_nonzero, rev_index, gam; simpl. intros H.
  repeat match goal with
  | |- context [insert_n] => progress simpl
  | |- context [?a <=? ?b] => destruct (Nat.leb_spec a b); simpl
  | |- context [?a =? ?b] => destruct (Nat.eqb_spec a b); simpl
  end; try lia; eauto.
Qed.

Lemma mdir_none g : mdir g = None <-> gam g = 0.
Proof.
  split.
  - intros H. destruct (Nat.eq_dec (gam g) 0) as [E|E]; [exact E|].
    destruct (mdir_some _ E) as [d Hd]. congruence.
  - destruct g as [x y z]; unfold gam; simpl. intros H.
    assert (x = 0) by lia; assert (y = 0) by lia; assert (z = 0) by lia. subst.
    reflexivity.
Qed.

Lemma mdir_nz g d : mdir g = Some d -> gexp d g <> 0.
Proof. intros H; apply mdir_spec in H; apply H. Qed.

Lemma mdir_down g d : mdir g = Some d -> exists g', down d g = Some g' /\ g = up d g'.
Proof.
  intros H. apply mdir_nz in H. destruct (down d g) as [g'|] eqn:E.
  - exists g'; split; [reflexivity|]. apply down_some; exact E.
  - apply down_none in E; contradiction.
Qed.

Lemma is_mdir_unique g d e : is_mdir g d -> is_mdir g e -> d = e.
Proof.
  intros [H1 [H2 H3]] [K1 [K2 K3]].
  assert (E : gexp d g = gexp e g) by (apply Nat.le_antisymm; auto).
  assert (idx_of_dir d = idx_of_dir e) by (apply Nat.le_antisymm; auto).
  destruct d, e; simpl in *; congruence.
Qed.

Lemma is_mdir_mdir g d : is_mdir g d -> mdir g = Some d.
Proof.
  intros H. destruct (@mdir_some g) as [e He].
  - destruct H as [H _]. destruct g as [x y z], d; unfold gam, gexp in *; simpl in *; lia.
  - rewrite He. f_equal. apply (is_mdir_unique (g := g)); [apply mdir_spec, He|exact H].
Qed.
