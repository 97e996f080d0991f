(** Byte strings.  Generic vocabulary used by the model and by the specifications:
    it models the plain C/C++ notions (char, char arrays, QByteArray contents), no
    particular line of /repo. *)
From Coq Require Export String Ascii List ZArith Lia Bool Arith.
Export ListNotations.
Open Scope list_scope.

Definition bytes := list ascii.

(** A C string literal as bytes. *)
Definition lit (s : string) : bytes := list_ascii_of_string s.
Arguments lit s%string.

(** Numeric value 0..255 of a byte. *)
Definition byte_val (c : ascii) : Z := Z.of_nat (nat_of_ascii c).

(** Value of a C [char] on the platforms pillow targets (x86/ARM-gcc with signed char):
    -128..127.  parser.c compares [*p], a [const char], with int literals. *)
Definition schar (c : ascii) : Z :=
  let v := byte_val c in if (v <? 128)%Z then v else (v - 256)%Z.

Definition CR : ascii := "013"%char.
Definition LF : ascii := "010"%char.
Definition NUL : ascii := "000"%char.
Definition SP : ascii := " "%char.
Definition CRLF : bytes := [CR; LF].

Definition beqb (a b : bytes) : bool := if list_eq_dec ascii_dec a b then true else false.

Lemma beqb_true a b : beqb a b = true <-> a = b.
Proof. unfold beqb; destruct (list_eq_dec ascii_dec a b); split; congruence. Qed.
Lemma beqb_false a b : beqb a b = false <-> a <> b.
Proof. unfold beqb; destruct (list_eq_dec ascii_dec a b); split; congruence. Qed.
Lemma beqb_refl a : beqb a a = true.
Proof. apply beqb_true; reflexivity. Qed.

Definition blen (b : bytes) : Z := Z.of_nat (length b).

Lemma blen_nonneg b : (0 <= blen b)%Z.
Proof. unfold blen; lia. Qed.
Lemma blen_app a b : blen (a ++ b) = (blen a + blen b)%Z.
Proof. unfold blen; rewrite app_length; lia. Qed.
Lemma blen_cons c b : blen (c :: b) = (1 + blen b)%Z.
Proof. unfold blen; cbn [length]; lia. Qed.
Lemma blen_nil : blen [] = 0%Z.
Proof. reflexivity. Qed.

(** The bytes [pos, pos+len) of a buffer. *)
Definition slice (b : bytes) (pos len : Z) : bytes :=
  firstn (Z.to_nat len) (skipn (Z.to_nat pos) b).

Lemma slice_mid a m b : slice (a ++ m ++ b) (blen a) (blen m) = m.
Proof.
  unfold slice, blen. rewrite !Nat2Z.id, skipn_app, skipn_all, Nat.sub_diag.
  cbn [skipn app]. rewrite firstn_app, firstn_all, Nat.sub_diag. cbn. apply app_nil_r.
Qed.

Lemma slice_0 b p : slice b p 0 = [].
Proof. reflexivity. Qed.

Lemma slice_app_l a b p n :
  (0 <= p)%Z -> (0 <= n)%Z -> (p + n <= blen a)%Z -> slice (a ++ b) p n = slice a p n.
Proof.
  unfold slice, blen; intros Hp Hn H.
  rewrite skipn_app, firstn_app.
  replace (Z.to_nat n - length (skipn (Z.to_nat p) a))%nat with 0%nat
    by (rewrite skipn_length; lia).
  cbn. apply app_nil_r.
Qed.

(** Store a byte at index [i] (C: data[i] = c).  Out-of-range stores leave the list alone;
    every use in the model is shown in range or is at the terminating NUL. *)
Fixpoint set_nth (i : nat) (c : ascii) (b : bytes) : bytes :=
  match b, i with
  | [], _ => []
  | _ :: t, O => c :: t
  | x :: t, S j => x :: set_nth j c t
  end.
Definition store (b : bytes) (i : Z) (c : ascii) : bytes := set_nth (Z.to_nat i) c b.

Lemma set_nth_length i c b : length (set_nth i c b) = length b.
Proof. revert i; induction b as [|x b IH]; intros [|i]; cbn; auto. Qed.
Lemma store_length b i c : length (store b i c) = length b.
Proof. apply set_nth_length. Qed.
Lemma store_blen b i c : blen (store b i c) = blen b.
Proof. unfold blen; now rewrite store_length. Qed.

(** Case analysis on all 256 bytes. *)
Definition all_bytes : list ascii := map ascii_of_nat (seq 0 256).

Lemma all_bytes_complete c : In c all_bytes.
Proof.
  unfold all_bytes. apply in_map_iff. exists (nat_of_ascii c). split.
  - apply ascii_nat_embedding.
  - apply in_seq. destruct c as [[] [] [] [] [] [] [] []]; vm_compute; lia.
Qed.

Lemma forall_bytes (P : ascii -> bool) :
  forallb P all_bytes = true -> forall c, P c = true.
Proof. intros H c. rewrite forallb_forall in H. apply H, all_bytes_complete. Qed.

(** ASCII classes, by byte value. *)
Definition in_range (lo hi : Z) (c : ascii) : bool :=
  ((lo <=? byte_val c) && (byte_val c <=? hi))%Z.
Definition is_digit := in_range 48 57.
Definition is_upper := in_range 65 90.
Definition is_lower := in_range 97 122.
Definition is_alpha c := is_upper c || is_lower c.
Definition is_xdigit c := is_digit c || in_range 65 70 c || in_range 97 102 c.
Definition is_ctl c := in_range 0 31 c || in_range 127 127 c.
Definition mem (c : ascii) (l : bytes) : bool := existsb (Ascii.eqb c) l.

Definition to_lower (c : ascii) : ascii :=
  if is_upper c then ascii_of_nat (nat_of_ascii c + 32) else c.
Definition lower (b : bytes) : bytes := map to_lower b.

Lemma mem_In c l : mem c l = true <-> In c l.
Proof.
  unfold mem. rewrite existsb_exists. split.
  - intros (x & Hx & E). apply Ascii.eqb_eq in E. now subst.
  - intros H. exists c. split; auto. apply Ascii.eqb_refl.
Qed.

Lemma byte_val_range c : (0 <= byte_val c < 256)%Z.
Proof. unfold byte_val. pose proof (nat_ascii_bounded c). lia. Qed.

Lemma byte_val_inj c d : byte_val c = byte_val d -> c = d.
Proof.
  unfold byte_val. intros H. apply Nat2Z.inj in H.
  rewrite <- (ascii_nat_embedding c), <- (ascii_nat_embedding d). now rewrite H.
Qed.
