(** For the progress of C83: a client with an unlimited read buffer leaves nothing unread. *)
From Verif Require Import Bytes TextSpec ByteHelpers Helpers Joyent RespParser RespSpec Client ClientSpec ClientInv.
Open Scope Z_scope.
Section Dry.
  Variables (zlib : bool) (gunzip : list bytes -> bytes -> bytes) (parse_url : bytes -> url).
  Notation cstep := (cstep zlib gunzip parse_url).
  Notation cresume := (cresume zlib gunzip).
  Variable dry : Prop.
  Definition D (c : client) : Prop := c_rbuf c <= 0 /\ (dry -> c_in c = []).
  Definition OKd (g : ccfg) : Prop := match g with CRun c _ => D c | CUB _ => True end.
  Section K.
    Variables (stk : list cframe) (k : client -> ccfg).
    Hypothesis Hk : forall c, D c -> OKd (k c).
    Lemma d_finished t c : D c -> OKd (emit_finished c t). Proof. intros H. exact H. Qed.
    Lemma d_send c : D c -> OKd (sendRequest c k).
    Proof.
      intros H. unfold sendRequest. destruct (negb _); [now apply Hk|]. destruct (match c_host c with [] => _ | _ => _ end); [|exact Logic.I]. cbv zeta.
      destruct (writeRequest _ _ _ _); [|exact Logic.I]. apply Hk. exact H.
    Qed.
    Lemma d_error e c : D c -> OKd (device_error e c stk k).
    Proof. intros H. unfold device_error. destruct (negb _); [now apply Hk|]. apply d_finished. split; [apply H|reflexivity]. Qed.
    Lemma d_request r c : D c -> OKd (request r c stk k).
    Proof.
      intros H. unfold request. destruct (c_pending c); [apply Hk; exact H|]. destruct (r_parsing _); [apply Hk; exact H|]. cbv zeta.
      destruct (_ && _); [apply d_send; exact H|]. unfold connectToHost.
      destruct (negb _); [apply Hk; destruct (unconnected _); exact H|]. cbv zeta.
      match goal with |- OKd (match ?p with PlLater => _ | PlFails => _ | PlConnects => _ end) => destruct p end.
      - apply Hk. split; [destruct (unconnected _); apply H|reflexivity].
      - apply d_error. split; [destruct (unconnected _); apply H|reflexivity].
      - apply d_send. split; [destruct (unconnected _); apply H|reflexivity].
    Qed.
    Lemma d_read_tail c : D c -> OKd (read_tail c stk k).
    Proof. intros H. unfold read_tail. destruct (c_pending c); [now apply Hk|]. destruct (c_next c); [apply d_request; exact H|now apply Hk]. Qed.
    Lemma d_check c : D c -> OKd (check_error c stk k).
    Proof. intros H. unfold check_error. destruct (hasError _); [|now apply d_read_tail]. apply d_finished. split; [apply H|reflexivity]. Qed.
    Lemma d_after2 er c : D c -> OKd (after2 stk k er c).
    Proof. intros H. unfold after2. apply d_check. exact H. Qed.
    Lemma d_parse l ph c t fin : (forall er c, D c -> OKd (fin er c)) -> D c -> OKd (parse gunzip l ph c t fin).
    Proof.
      intros Hf H. unfold parse. destruct (prun _ _ _) as [r er|cb r l' er|]; [apply Hf; exact H| |exact Logic.I].
      destruct cb as [|b|b| |b|]; try exact Logic.I.
      - exact H.
      - destruct (match c_dec c with None => _ | Some _ => _ end) as [b' d]. exact H.
      - cbv zeta. destruct (_ =? 100); [apply Hf; exact H|]. apply d_finished. unfold complete. clsimp. destruct (_ =? 0); [split; [apply H|reflexivity]|].
        destruct (should_keep_alive _); [exact H|split; [apply H|reflexivity]].
    Qed.
    Lemma d_after1 er c : D c -> OKd (after1 gunzip stk k er c).
    Proof.
      intros H. unfold after1. cbv zeta. destruct (negb _); [apply d_read_tail; exact H|]. destruct (_ && _); [|apply d_check; exact H].
      unfold inject2. cbv zeta. destruct (is_ok _); [|apply d_after2; exact H]. apply d_parse; [|exact H]. intros. now apply d_after2.
    Qed.
    Lemma d_fin ph er c : D c -> OKd (finish gunzip ph stk k er c).
    Proof. destruct ph; [apply d_after1|apply d_after2]. Qed.
  End K.
  Lemma d_resume t : forall c, D c -> OKd (cresume t c).
  Proof.
    induction t as [|f t IH]; intros c H; [exact H|]. destruct f as [s|l er ph|l er ph|er ph|]; cbn [Client.cresume].
    - exact H.
    - unfold headers_tail. destruct (asciiEqualsCI_lower _ _).
      + apply d_finished. unfold complete. clsimp. destruct (_ =? 0); [split; [apply H|reflexivity]|]. destruct (should_keep_alive _); [exact H|split; [apply H|reflexivity]].
      + cbv zeta. assert (X : forall b : bool, D (if b then cset_dec (Some []) c else c)) by (intros []; exact H).
        destruct (is_ok _); [apply d_parse; [intros; now apply d_fin|apply X]|apply d_fin; [exact IH|apply X]].
    - destruct (is_ok _); [apply d_parse; [intros; now apply d_fin|exact H]|now apply d_fin].
    - apply d_fin; [exact IH|exact H].
    - now apply d_read_tail.
  Qed.
  Lemma d_return c stk : D c -> OKd (cstep (CRun c stk) CaReturn).
  Proof. intros H. cbn [Client.cstep]. destruct stk as [|[] t]; try exact H. now apply d_resume. Qed.
End Dry.
Lemma d_read zlib gunzip parse_url c : c_rbuf c <= 0 -> OKd True (cstep zlib gunzip parse_url (CRun c []) CaReadyRead).
Proof.
  intros H. cbn [cstep]. unfold device_readyRead. destruct (negb _); [split; [exact H|reflexivity]|].
  destruct (c_in c) as [|x i] eqn:Ei; [split; auto|].
  assert (Z0 : 0 <? c_rbuf c = false) by (apply Z.ltb_ge; lia). rewrite Z0. destruct (_ <=? 0) eqn:B; [apply Z.leb_le in B; rewrite blen_cons in B; pose proof (blen_nonneg i); lia|].
  destruct (r_parsing _); [exact Logic.I|]. cbv zeta.
  assert (X : skipn (Z.to_nat (Z.min (blen (x :: i)) (blen (x :: i)))) (x :: i) = []) by (rewrite Z.min_id; unfold blen; rewrite Nat2Z.id; apply skipn_all).
  rewrite X. assert (P : D True (cset_p (rset_parsing true (c_p c)) (cset_dev (c_dev c) (c_unsent c) [] c))) by (split; [exact H|reflexivity]).
  assert (K : forall c, D True c -> OKd True (cresume zlib gunzip [] c)) by (intros c0 H0; exact H0).
  destruct (is_ok _); [apply d_parse; auto; intros; now apply d_after1|now apply d_after1].
Qed.
