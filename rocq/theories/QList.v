(** The list of quartets of a class is in position order. *)
From Coq Require Import List Arith Lia Bool.
Import ListNotations.
From Verif Require Import Base Cart.
Set Implicit Arguments.

Lemma flat_map_length_const A B (f : A -> list B) n l :
  (forall x, In x l -> length (f x) = n) -> length (flat_map f l) = length l * n.
Proof.
  induction l as [|a l IH]; intros H; simpl; [reflexivity|].
  rewrite app_length, H by (left; reflexivity). rewrite IH; [lia|]. intros; apply H; right; assumption.
Qed.

Lemma nth_error_flat_map A B (f : A -> list B) n : forall l i x j,
  (forall y, In y l -> length (f y) = n) -> nth_error l i = Some x -> j < n ->
  nth_error (flat_map f l) (i * n + j) = nth_error (f x) j.
Proof.
  induction l as [|a l IH]; intros i x j H Hx Hj; [destruct i; discriminate|].
  simpl. destruct i as [|i]; simpl in Hx.
  - injection Hx as ->. simpl. apply nth_error_app1. rewrite H; [exact Hj|left; reflexivity].
  - rewrite nth_error_app2; rewrite (H a (or_introl eq_refl)); [|nia].
    replace (S i * n + j - n) with (i * n + j) by (simpl; lia).
    apply IH; auto. intros; apply H; right; assumption.
Qed.

Lemma mixed_lt i j n m : i < n -> j < m -> i * m + j < n * m.
Proof. intros. nia. Qed.

Section Q.
Variable o : ordering.
Hypothesis Hs : starts_x o.

Lemma targets1_len am : length (targets1 o am) = ncart am.
Proof. rewrite targets1_ok by apply Hs. apply o_len. Qed.
Lemma targets1_nth g : nth_error (targets1 o (gam g)) (opos o g) = Some g.
Proof. rewrite targets1_ok by apply Hs. apply o_nth. Qed.

Lemma qtargets_nth q : nth_error (qtargets o (qclass q)) (qindex o q) = Some q.
Proof.
  rewrite qindex_row_major. destruct q as [a b c d]. unfold qtargets, qclass; cbn [am0 am1 am2 am3 qa qb qc qd].
  set (n3 := ncart (gam d)). set (n2 := ncart (gam c)). set (n1 := ncart (gam b)).
  assert (P3 : opos o d < n3) by apply opos_lt.
  assert (P2 : opos o c < n2) by apply opos_lt.
  assert (P1 : opos o b < n1) by apply opos_lt.
  replace (((opos o a * n1 + opos o b) * n2 + opos o c) * n3 + opos o d)
    with (opos o a * (n1 * (n2 * n3)) + (opos o b * (n2 * n3) + (opos o c * n3 + opos o d))) by nia.
  assert (L3 : forall w x y, length (map (fun z => Q4 w x y z) (targets1 o (gam d))) = n3).
  { intros. rewrite map_length. apply targets1_len. }
  assert (L2 : forall w x, length (flat_map (fun y => map (fun z => Q4 w x y z) (targets1 o (gam d))) (targets1 o (gam c))) = n2 * n3).
  { intros. rewrite flat_map_length_const with (n := n3) by (intros; apply L3). rewrite targets1_len. reflexivity. }
  assert (L1 : forall w, length (flat_map (fun x => flat_map (fun y => map (fun z => Q4 w x y z) (targets1 o (gam d))) (targets1 o (gam c))) (targets1 o (gam b))) = n1 * (n2 * n3)).
  { intros. rewrite flat_map_length_const with (n := n2 * n3) by (intros; apply L2). rewrite targets1_len. reflexivity. }
  assert (B2 : opos o c * n3 + opos o d < n2 * n3) by (apply mixed_lt; assumption).
  assert (B1 : opos o b * (n2 * n3) + (opos o c * n3 + opos o d) < n1 * (n2 * n3)) by (apply mixed_lt; assumption).
  rewrite nth_error_flat_map with (x := a); [|intros; apply L1|apply targets1_nth|assumption].
  rewrite nth_error_flat_map with (x := b); [|intros; apply L2|apply targets1_nth|assumption].
  rewrite nth_error_flat_map with (x := c); [|intros; apply L3|apply targets1_nth|assumption].
  rewrite nth_error_map, targets1_nth. reflexivity.
Qed.

Lemma qtargets_len c : length (qtargets o c) = qncart c.
Proof.
  destruct c as [a b c d]. unfold qtargets, qncart; cbn [am0 am1 am2 am3].
  rewrite flat_map_length_const with (n := ncart b * (ncart c * ncart d)).
  - rewrite targets1_len. nia.
  - intros. rewrite flat_map_length_const with (n := ncart c * ncart d).
    + rewrite targets1_len. reflexivity.
    + intros. rewrite flat_map_length_const with (n := ncart d).
      * rewrite targets1_len. reflexivity.
      * intros. rewrite map_length. apply targets1_len.
Qed.
End Q.
