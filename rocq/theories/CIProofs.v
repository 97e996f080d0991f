(** Case-insensitive comparison: proofs (C28). *)
From Verif Require Import Bytes ByteHelpers.
Open Scope Z_scope.

Lemma ci_good_spec f s : ci_good f s = Ascii.eqb (to_lower f) (to_lower s).
Proof.
  assert (H : forallb (fun f => forallb (fun s => Bool.eqb (ci_good f s) (Ascii.eqb (to_lower f) (to_lower s)))
    all_bytes) all_bytes = true) by (vm_compute; reflexivity).
  pose proof (forall_bytes _ H f) as H1. cbv beta in H1. pose proof (forall_bytes _ H1 s) as H2.
  cbv beta in H2. now apply eqb_prop in H2.
Qed.

Lemma ci_good_lower_spec f s : to_lower s = s -> ci_good_lower f s = Ascii.eqb (to_lower f) s.
Proof.
  assert (H : forallb (fun f => forallb (fun s => negb (Ascii.eqb (to_lower s) s) ||
     Bool.eqb (ci_good_lower f s) (Ascii.eqb (to_lower f) s))
    all_bytes) all_bytes = true) by (vm_compute; reflexivity).
  pose proof (forall_bytes _ H f) as H1. cbv beta in H1. pose proof (forall_bytes _ H1 s) as H2.
  cbv beta in H2. intros E. rewrite E, Ascii.eqb_refl in H2. now apply eqb_prop in H2.
Qed.

Lemma lower_length a : length (lower a) = length a.
Proof. apply map_length. Qed.

Lemma asciiEqualsCI_iff a b : asciiEqualsCI a b = true <-> lower a = lower b.
Proof.
  unfold asciiEqualsCI. destruct (Nat.eqb_spec (length a) (length b)) as [L|L]; cbn [negb].
  - revert b L; induction a as [|x a IH]; intros [|y b]; cbn; try discriminate; [tauto|].
    intros [= L]. rewrite ci_good_spec. destruct (Ascii.eqb_spec (to_lower x) (to_lower y)) as [E|E].
    + rewrite (IH b L). unfold lower. split; [congruence|intros [=]; auto].
    + split; [discriminate|]. intros [=]; contradiction.
  - split; [discriminate|]. intros E. apply (f_equal (@length ascii)) in E. rewrite !lower_length in E. contradiction.
Qed.

Lemma asciiEqualsCI_lower_iff a t : lower t = t -> asciiEqualsCI_lower a t = true <-> lower a = t.
Proof.
  unfold asciiEqualsCI_lower. intros Ht.
  destruct (Nat.eqb_spec (length a) (length t)) as [L|L]; cbn [negb].
  - revert t L Ht; induction a as [|x a IH]; intros [|y t]; cbn; try discriminate; [tauto|].
    intros [= L] [= Ey Et]. rewrite ci_good_lower_spec by auto.
    destruct (Ascii.eqb_spec (to_lower x) y) as [E|E].
    + rewrite (IH t L Et). unfold lower. split; [congruence|intros [=]; auto].
    + split; [discriminate|]. intros [=]; contradiction.
  - split; [discriminate|]. intros E. apply (f_equal (@length ascii)) in E. rewrite !lower_length in E. contradiction.
Qed.

Lemma asciiEqualsCI_lower_agrees a t : lower t = t -> asciiEqualsCI_lower a t = asciiEqualsCI a t.
Proof.
  intros H. apply eq_iff_eq_true. rewrite asciiEqualsCI_lower_iff, asciiEqualsCI_iff by auto. now rewrite H.
Qed.

