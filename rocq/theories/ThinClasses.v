(** The transition table of the request head parser described by character classes (sweeps over 256 bytes). *)
From Verif Require Import Bytes ByteHelpers Thin ReqGrammar.
Open Scope Z_scope.

(** * 1. The transition table, by character class *)

Definition tra (s : Z) (c : ascii) : tr := trans s (schar c).
Definition act_eqb (a b : act) : bool :=
  match a, b with
  | A_mark, A_mark | A_start_field, A_start_field | A_write_field, A_write_field
  | A_write_value, A_write_value | A_request_method, A_request_method | A_request_uri, A_request_uri
  | A_fragment, A_fragment | A_start_query, A_start_query | A_query_string, A_query_string
  | A_http_version, A_http_version | A_request_path, A_request_path => true
  | _, _ => false
  end.
Fixpoint acts_eqb (a b : list act) : bool :=
  match a, b with
  | [], [] => true
  | x :: a', y :: b' => act_eqb x y && acts_eqb a' b'
  | _, _ => false
  end.
Definition tr_eqb (a b : tr) : bool :=
  match a, b with
  | TErr, TErr | TDone, TDone => true
  | TGo x n, TGo y m => acts_eqb x y && (n =? m)
  | _, _ => false
  end.
Lemma tr_eqb_eq a b : tr_eqb a b = true -> a = b.
Proof.
  assert (A : forall x y, acts_eqb x y = true -> x = y).
  { induction x as [|p x IH]; intros [|q y]; cbn; try discriminate; auto.
    intros H. apply andb_true_iff in H. destruct H as [H1 H2].
    f_equal; [destruct p, q; cbn in H1; congruence | auto]. }
  destruct a, b; cbn; try discriminate; auto.
  intros H. apply andb_true_iff in H. destruct H as [H1 H2]. apply Z.eqb_eq in H2.
  f_equal; auto.
Qed.

(** sweep over the 256 bytes *)
Ltac sweep :=
  match goal with |- forall c, @?L c = @?R c =>
    exact (fun c => tr_eqb_eq _ _ (forall_bytes (fun c => tr_eqb (L c) (R c)) ltac:(vm_compute; reflexivity) c)) end.

Local Notation "c =a d" := (Ascii.eqb c d) (at level 70).

Lemma tr_1 : forall c, tra 1 c = if method_char c then TGo [A_mark] 2 else TErr. Proof. sweep. Qed.

(* the 20 method states in order *)
Definition mstates : list Z :=
  [2; 39; 40; 41; 42; 43; 44; 45; 46; 47; 48; 49; 50; 51; 52; 53; 54; 55; 56; 57].
Definition mstate (k : nat) : Z := nth k mstates 0.

Lemma tr_m k : (k < 19)%nat -> forall c, tra (mstate k) c =
  if method_char c then TGo [] (mstate (S k)) else if c =a SP then TGo [A_request_method] 3 else TErr.
Proof. do 19 (destruct k as [|k]; [intros _; sweep|]). lia. Qed.
Lemma tr_m19 : forall c, tra (mstate 19) c = if c =a SP then TGo [A_request_method] 3 else TErr.
Proof. sweep. Qed.

Lemma tr_3 : forall c, tra 3 c =
  if c =a "*" then TGo [A_mark] 4 else if c =a "/" then TGo [A_mark] 30 else
  if c =a ":" then TGo [A_mark] 26 else if scheme_char c then TGo [A_mark] 25 else TErr.
Proof. sweep. Qed.
Lemma tr_4 : forall c, tra 4 c =
  if c =a SP then TGo [A_request_uri] 5 else if c =a "#" then TGo [A_request_uri] 20 else TErr.
Proof. sweep. Qed.
Lemma tr_25 : forall c, tra 25 c =
  if c =a ":" then TGo [] 26 else if scheme_char c then TGo [] 25 else TErr.
Proof. sweep. Qed.
Lemma tr_26 : forall c, tra 26 c =
  if c =a SP then TGo [A_request_uri] 5 else if c =a "#" then TGo [A_request_uri] 20 else
  if c =a "%" then TGo [] 27 else if uri_char c then TGo [] 26 else TErr.
Proof. sweep. Qed.
Lemma tr_30 : forall c, tra 30 c =
  if c =a SP then TGo [A_request_path; A_request_uri] 5 else
  if c =a "#" then TGo [A_request_path; A_request_uri] 20 else
  if c =a "?" then TGo [A_request_path] 34 else
  if c =a "%" then TGo [] 31 else if path_char c then TGo [] 30 else TErr.
Proof. sweep. Qed.
Lemma tr_34 : forall c, tra 34 c =
  if c =a SP then TGo [A_start_query; A_query_string; A_request_uri] 5 else
  if c =a "#" then TGo [A_start_query; A_query_string; A_request_uri] 20 else
  if c =a "%" then TGo [A_start_query] 36 else if uri_char c then TGo [A_start_query] 35 else TErr.
Proof. sweep. Qed.
Lemma tr_35 : forall c, tra 35 c =
  if c =a SP then TGo [A_query_string; A_request_uri] 5 else
  if c =a "#" then TGo [A_query_string; A_request_uri] 20 else
  if c =a "%" then TGo [] 36 else if uri_char c then TGo [] 35 else TErr.
Proof. sweep. Qed.
Lemma tr_20 : forall c, tra 20 c =
  if c =a SP then TGo [A_mark; A_fragment] 5 else
  if c =a "%" then TGo [A_mark] 22 else if uri_char c then TGo [A_mark] 21 else TErr.
Proof. sweep. Qed.
Lemma tr_21 : forall c, tra 21 c =
  if c =a SP then TGo [A_fragment] 5 else
  if c =a "%" then TGo [] 22 else if uri_char c then TGo [] 21 else TErr.
Proof. sweep. Qed.

(* escapes: four copies of the same three states *)
Definition esc_states (n n1 n2 n3 : Z) : Prop :=
  (forall c, tra n1 c = if c =a "u" then TGo [] n3 else if is_xdigit c then TGo [] n2 else TErr) /\
  (forall c, tra n2 c = if is_xdigit c then TGo [] n else TErr) /\
  (forall c, tra n3 c = if is_xdigit c then TGo [] n2 else TErr).
Lemma esc_26 : esc_states 26 27 28 29. Proof. repeat split; sweep. Qed.
Lemma esc_30 : esc_states 30 31 32 33. Proof. repeat split; sweep. Qed.
Lemma esc_35 : esc_states 35 36 37 38. Proof. repeat split; sweep. Qed.
Lemma esc_21 : esc_states 21 22 23 24. Proof. repeat split; sweep. Qed.

Lemma tr_5 : forall c, tra 5 c = if c =a "H" then TGo [A_mark] 6 else TErr. Proof. sweep. Qed.
Lemma tr_6 : forall c, tra 6 c = if c =a "T" then TGo [] 7 else TErr. Proof. sweep. Qed.
Lemma tr_7 : forall c, tra 7 c = if c =a "T" then TGo [] 8 else TErr. Proof. sweep. Qed.
Lemma tr_8 : forall c, tra 8 c = if c =a "P" then TGo [] 9 else TErr. Proof. sweep. Qed.
Lemma tr_9 : forall c, tra 9 c = if c =a "/" then TGo [] 10 else TErr. Proof. sweep. Qed.
Lemma tr_10 : forall c, tra 10 c = if is_digit c then TGo [] 11 else TErr. Proof. sweep. Qed.
Lemma tr_11 : forall c, tra 11 c =
  if c =a "." then TGo [] 12 else if is_digit c then TGo [] 11 else TErr. Proof. sweep. Qed.
Lemma tr_12 : forall c, tra 12 c = if is_digit c then TGo [] 13 else TErr. Proof. sweep. Qed.
Lemma tr_13 : forall c, tra 13 c =
  if c =a CR then TGo [A_http_version] 14 else if is_digit c then TGo [] 13 else TErr.
Proof. sweep. Qed.
Lemma tr_14 : forall c, tra 14 c = if c =a LF then TGo [] 15 else TErr. Proof. sweep. Qed.
Lemma tr_15 : forall c, tra 15 c =
  if c =a CR then TGo [] 16 else if token_char c then TGo [A_start_field] 17 else TErr.
Proof. sweep. Qed.
Lemma tr_16 : forall c, tra 16 c = if c =a LF then TDone else TErr. Proof. sweep. Qed.
Lemma tr_17 : forall c, tra 17 c =
  if c =a ":" then TGo [A_write_field] 18 else if token_char c then TGo [] 17 else TErr.
Proof. sweep. Qed.
Lemma tr_18 : forall c, tra 18 c =
  if c =a CR then TGo [A_mark; A_write_value] 14 else
  if c =a SP then TGo [A_mark] 18 else TGo [A_mark] 19.
Proof. sweep. Qed.
Lemma tr_19 : forall c, tra 19 c = if c =a CR then TGo [A_write_value] 14 else TGo [] 19.
Proof. sweep. Qed.

