(** The response parser does not make content: the bytes of the content it reports are bytes it was given. *)
From Verif Require Import Bytes Joyent RespParser RespInv RespSplit RespFeed Client ClientInv.
Open Scope Z_scope.

(* the bytes that can still become content *)
Definition held (l : locals) : Z := blen (l_data l) + match l_body l with Some b => blen b | None => 0 end.
Definition size (h : hparser) (l : locals) : Z := held l - (match h_state h with s_message_done => 1 | _ => 0 end).
Definition Sized (n : Z) (res : jres) : Prop :=
  match res with
  | Next h' l' => size h' l' <= n
  | Call (CbBody b) h' l' er => blen b + size h' l' <= n /\ blen b <= n
  | Call CbComplete h' l' er => size h' l' <= n /\ blen er <= n
  | Call _ h' l' er => size h' l' <= n
  | _ => True
  end.
Lemma size_le h l : size h l <= held l.
Proof. unfold size. destruct (h_state h); lia. Qed.
Lemma size_not h l : h_state h <> s_message_done -> size h l = held l.
Proof. unfold size. destruct (h_state h); intros; try lia. congruence. Qed.
Lemma blen_cons (c : ascii) b : blen (c :: b) = 1 + blen b.
Proof. unfold blen. cbn [length]. lia. Qed.
Lemma blen_app (a b : bytes) : blen (a ++ b) = blen a + blen b.
Proof. unfold blen. rewrite app_length. lia. Qed.
Lemma blen_pos (b : bytes) : 0 <= blen b.
Proof. unfold blen. lia. Qed.
Lemma blen_firstn n (b : bytes) : 0 <= n <= blen b -> blen (firstn (Z.to_nat n) b) = n.
Proof. unfold blen. intros H. rewrite firstn_length. lia. Qed.
Lemma blen_skipn n (b : bytes) : 0 <= n <= blen b -> blen (skipn (Z.to_nat n) b) = blen b - n.
Proof. unfold blen. intros H. rewrite skipn_length. lia. Qed.

Definition SPre (h : hparser) (l : locals) : Prop :=
  (isSome (l_body l) = true -> body_state (h_state h) = true) /\ (h_state h = s_body_identity \/ h_state h = s_chunk_data -> 0 < h_cl h).
Lemma jok_pre h l : JOk h l -> SPre h l.
Proof. intros [[_ Hh] He Hf Hv Hb Hr]. split; [exact Hb|]. intros [S|S]; rewrite S in Hh; lia. Qed.
Lemma jbyte_size ch rest h l : SPre h l -> l_data l = ch :: rest -> Sized (size h l) (jbyte ch h l).
Proof.
  intros [Hb Hh] D. destruct l as [d f v b re]; cbn [l_data l_field l_value l_body l_re] in *. subst d. pose proof (eq_refl : blen [] = 0) as BN. pose proof (blen_pos rest) as B0.
  assert (GO : h_state h <> s_message_done -> forall h' l', (l_data l' = rest \/ l_data l' = ch :: rest \/ l_data l' = []) /\ l_body l' = None -> size h' l' <= size h (mkL (ch :: rest) f v b re)).
  { intros N h' l' (E1 & E2). rewrite (size_not h) by exact N. eapply Z.le_trans; [apply size_le|]. unfold held. rewrite E2. cbn [l_data l_body].
    destruct E1 as [-> | [-> | ->]]; rewrite blen_cons; destruct b as [b|]; try pose proof (blen_pos b); lia. }
  unfold jbyte. destruct (h_state h) eqn:S; unfold data_field, data_value, data_body, notify, brk, reexec, err, advance, again, mark_field, mark_value, no_field, no_value, no_body; cbn [l_data l_field l_value l_body l_re] in *;
   try (destruct b as [b|]; [specialize (Hb eq_refl); discriminate|]).
  all: try (repeat match goal with |- context [match ?x with _ => _ end] => first [is_var x; destruct x | destruct x eqn:?] end;
    cbn [Sized tl moved option_map]; try exact Logic.I; try (split; [|rewrite (size_not h) by congruence; unfold held; cbn [l_data l_body]; rewrite blen_cons; lia]); (apply GO; [congruence|cbn [l_data l_body]; auto]); fail).
  - destruct (negb (f_chunked h) || (h_cl h =? 0) || (h_cl h =? ULLONG_MAX)); [exact Logic.I|]. cbn [Sized]. rewrite (size_not h) by congruence.
    eapply Z.le_trans; [apply size_le|]. unfold held. cbn [l_data l_body]. set (n := Z.min (h_cl h) (blen (ch :: rest))).
    assert (Hn : 0 <= n <= blen (ch :: rest)) by (specialize (Hh (or_intror eq_refl)); pose proof (blen_pos (ch :: rest)); unfold n; lia).
    destruct b as [b|]; rewrite ?blen_app, blen_firstn, blen_skipn by exact Hn; lia.
  - destruct (negb (f_chunked h) || negb (h_cl h =? 0)); [exact Logic.I|]. destruct (ceq ch CR); [|exact Logic.I]. rewrite (size_not h) by congruence.
    destruct b as [b|]; cbn [Sized tl].
    + rewrite size_not by (cbn; discriminate). unfold held. cbn [l_data l_body moved option_map]. rewrite blen_cons. split; lia.
    + rewrite size_not by (cbn; discriminate). unfold held. cbn [l_data l_body moved option_map]. rewrite blen_cons. lia.
  - destruct ((h_cl h =? 0) || (h_cl h =? ULLONG_MAX)); [exact Logic.I|]. rewrite (size_not h) by congruence. set (n := Z.min (h_cl h) (blen (ch :: rest))).
    assert (Hn : 1 <= n <= blen (ch :: rest)) by (specialize (Hh (or_introl eq_refl)); unfold n; rewrite blen_cons; lia).
    destruct (h_cl _ =? 0); cbn [Sized].
    + unfold size, held. hsimp. cbn [l_data l_body]. rewrite blen_skipn by lia. destruct b as [b|]; rewrite ?blen_app, blen_firstn by lia; split; lia.
    + eapply Z.le_trans; [apply size_le|]. unfold held. cbn [l_data l_body]. rewrite blen_skipn by lia. destruct b as [b|]; rewrite ?blen_app, blen_firstn by lia; lia.
  - cbn [Sized]. rewrite !(size_not h) by congruence. unfold held. cbn [l_data l_body]. destruct b as [b|]; rewrite ?blen_app; unfold blen; cbn [length]; lia.
  - assert (E : size h (mkL (ch :: rest) f v None re) = blen rest) by (unfold size, held; rewrite S; cbn [l_data l_body]; rewrite blen_cons; lia).
    rewrite E. cbn [Sized tl]. split; [|lia].
    eapply Z.le_trans; [apply size_le|]. unfold held. cbn [l_data l_body moved option_map]. lia.
Qed.
Definition SOk (h : hparser) (l : locals) : Prop := JOk h l \/ (SPre h l /\ l_data l = []).
Lemma sok_pre h l : SOk h l -> SPre h l.
Proof. intros [H|[H _]]; [now apply jok_pre|exact H]. Qed.
Lemma jstep_ok h l : SOk h l -> match jstep h l with Next h' l' | Call _ h' l' _ => SOk h' l' | _ => True end.
Proof.
  intros H. destruct (list_eq_dec ascii_dec (l_data l) []) as [D|D].
  - apply sok_pre in H. unfold jstep. rewrite D. destruct (1 <? marks l)%nat; [exact Logic.I|]. destruct H as [A B].
    destruct (l_field l); [|destruct (l_value l); [|destruct (l_body l); [|exact Logic.I]]]; right; (split; [|exact D]); split; cbn [no_field no_value no_body l_body isSome]; auto; discriminate.
  - destruct H as [H|[_ H]]; [|congruence]. pose proof (jstep_inv _ _ H D) as G. destruct (jstep h l); cbn [Good] in G; try exact Logic.I; left; apply G.
Qed.
Lemma jstep_size h l : SOk h l -> Sized (size h l) (jstep h l).
Proof.
  intros J. apply sok_pre in J. unfold jstep. destruct (l_data l) as [|ch rest] eqn:D.
  - destruct (1 <? marks l)%nat; [exact Logic.I|].
    assert (G : forall l', l_data l' = l_data l -> l_body l' = l_body l -> size h l' = size h l) by (intros l' E1 E2; unfold size, held; rewrite E1, E2; reflexivity).
    destruct (l_field l); [cbn [Sized]; rewrite G by reflexivity; lia|]. destruct (l_value l); [cbn [Sized]; rewrite G by reflexivity; lia|].
    destruct (l_body l) as [b|] eqn:B; [|exact Logic.I]. cbn [Sized]. assert (N : h_state h <> s_message_done) by (intros S; destruct J as [J _]; rewrite B, S in J; discriminate (J eq_refl)).
    rewrite !size_not by exact N. unfold held, no_body. cbn [l_data l_body]. rewrite B, D. change (blen []) with 0. split; lia.
  - destruct (l_re l); [now apply jbyte_size with rest|]. destruct (parsing_header (h_state h)) eqn:P; [|now apply jbyte_size with rest].
    cbn zeta. destruct (HTTP_MAX_HEADER_SIZE <? _); [exact Logic.I|].
    change (size h l) with (size (hset_nread (h_nread h + 1) h) l).
    now apply jbyte_size with rest.
Qed.
Definition PSized (k n : Z) (res : pres) : Prop :=
  match res with
  | PEnd r' _ => blen (r_content r') <= k
  | PCall (CbBody b) r' l' _ => blen (r_content r') <= k /\ blen b + size (r_h r') l' <= n /\ blen b <= n
  | PCall CbComplete r' _ er => blen (r_content r') <= k /\ blen er <= n
  | PCall _ r' l' _ => blen (r_content r') <= k /\ size (r_h r') l' <= n
  | PFault => True
  end.
Lemma psized_le k n k' n' res : PSized k n res -> k <= k' -> n <= n' -> PSized k' n' res.
Proof. destruct res as [r er|[]|]; cbn [PSized]; intros; try exact Logic.I; try lia. Qed.
Lemma on_cb_content c r : match c with CbBody _ | CbComplete => False | _ => True end -> blen (r_content (on_cb c r)) <= blen (r_content r).
Proof. pose proof (blen_pos (r_content r)). destruct c; intros []; cbn [on_cb]; unfold pushHeader; try destruct (r_lwv r); rsimp; unfold blen in *; cbn [length]; lia. Qed.
Lemma prun_size : forall f r l, SOk (r_h r) l -> PSized (blen (r_content r)) (size (r_h r) l) (prun f r l).
Proof.
  induction f as [|f IH]; intros r l H; [exact Logic.I|]. cbn [prun].
  pose proof (jstep_ok _ _ H) as J. pose proof (jstep_size _ _ H) as Z. destruct (jstep (r_h r) l) as [h l'|c h l' er|h er|]; cbn [Sized] in Z.
  - specialize (IH (rset_h h r) l' J). rsimp in *. eapply psized_le; [exact IH|lia|exact Z].
  - assert (Q : forall c0, match c0 with CbBody _ | CbComplete => False | _ => True end -> size h l' <= size (r_h r) l -> 
      PSized (blen (r_content r)) (size (r_h r) l) (if is_ok (h_errno (r_h (on_cb c0 (rset_h h r)))) then prun f (on_cb c0 (rset_h h r)) l' else PEnd (on_cb c0 (rset_h h r)) er)).
    { intros c0 Hc Zc. assert (Nc : c0 <> CbComplete) by (intros ->; exact Hc). pose proof (on_cb_content c0 (rset_h h r) Hc) as C. rsimp in *.
      destruct (is_ok _); [|exact C]. specialize (IH (on_cb c0 (rset_h h r)) l'). rewrite on_cb_h in IH by exact Nc. rsimp in *. eapply psized_le; [exact (IH J)|exact C|exact Zc]. }
    destruct c as [|b|b| |b|]; try (apply Q; [exact Logic.I|exact Z]).
    + destruct (h_status (r_h (rset_h h r)) =? 100); [apply Q; [exact Logic.I|exact Z]|]. cbn [PSized]. rsimp. split; [lia|exact Z].
    + cbn [PSized]. rsimp. split; [lia|exact Z].
    + cbn [PSized]. rsimp. split; [lia|apply Z].
  - cbn [PSized]. rsimp. lia.
  - exact Logic.I.
Qed.
Lemma jstart_size data h : size h (jstart data h) <= blen data.
Proof. eapply Z.le_trans; [apply size_le|]. unfold held, jstart. cbn [l_data l_body]. lia. Qed.
