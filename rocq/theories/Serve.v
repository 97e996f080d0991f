(** SPECIFICATION and invariant for C82: a connection whose requests are answered by a handler through writeResponse().
    The first part is the specification; it uses ConnSpec.v. *)
From Verif Require Import Bytes ByteHelpers Thin Helpers ReqGrammar TextSpec
  Conn ConnSpec ConnText ConnHead ConnInv ConnStep ConnEnd ConnLog PropsConn ConnSend ConnFree ConnPhase PropsConn2.
Open Scope Z_scope.

(** ** Specification *)

(** an answer: the arguments of writeResponse() *)
Record given := mkGiven { g_code : Z; g_headers : list (bytes * bytes); g_content : bytes }.
(** a handler: what it answers to the last of the requests announced since the connection was initialized (so it may
    remember the others; as every history has its own function, it may depend on anything else too) *)
Definition handler := list request -> given.
Definition ans_of (g : given) : answer := mkAns (g_code g) (g_headers g) (blen (g_content g)).

(** the events of a request and its answer; [keep]: the connection stays open *)
Inductive Answered (g : given) (r : request) (keep : bool) : list obs -> Prop :=
| Answered_intro hd : RespHead r (ans_of g) (blen (g_content g)) hd -> keep = keeps r (ans_of g) (blen (g_content g)) ->
    Answered g r keep (interim r ++ OReady r :: OWrite hd ::
      (if beqb (g_content g) [] || head_req r then [] else [OWrite (g_content g)]) ++ [OCompleted]).
(** requests answered one after the other by h, all keeping the connection open *)
Inductive Dialogue (h : handler) : list request -> list obs -> Prop :=
| Dialogue_nil : Dialogue h [] []
| Dialogue_snoc rs l r e : Dialogue h rs l -> Answered (h (rs ++ [r])) r true e -> Dialogue h (rs ++ [r]) (l ++ e).
(** what was done about the bytes [rest] that follow them *)
Inductive Remains (h : handler) (rs : list request) (rest : bytes) : list obs -> Prop :=
| Rm_idle : Remains h rs rest []
| Rm_continue hd n : starts_head rest hd -> AnnouncedLength hd n -> 0 < n <= max_content ->
    says (first_named "expect" (spec_headers hd)) "100-continue" = true -> Remains h rs rest [OWrite continue_text]
| Rm_waiting m x : wf_msg m -> rest = wire m ++ x ->
    Remains h rs rest (interim (delivered m) ++ [OReady (delivered m)])
| Rm_last m x e : wf_msg m -> rest = wire m ++ x -> Answered (h (rs ++ [delivered m])) (delivered m) false e -> Remains h rs rest e
| Rm_refused s : Refusable rest s -> Remains h rs rest [OWrite (refusal s)].
(** the whole account of a connection that received [stream] *)
Inductive Account (h : handler) (stream : bytes) : list obs -> Prop :=
| Account_intro ms rest l t e : stream = concat (map wire ms) ++ rest -> Forall wf_msg ms -> Dialogue h (map delivered ms) l ->
    Remains h (map delivered ms) rest t -> Ending e -> Account h stream (l ++ t ++ e).

(** the actions of a history in which requests are answered by h and by nothing else.  The answer may be given at any time. *)
Definition obeys (h : handler) (c : conn) (a : action) : Prop :=
  match a with
  | ACall (OpWriteResponse code hs content) => st c = SendingHeaders ->
      mkGiven code hs content = h (announced (log c)) /\ last_named "content-length" hs = None /\ blen content <= INT_MAX
  | ACall (OpWriteHeaders _ _) => st c <> SendingHeaders
  | ACall (OpInit _) => False
  | _ => True
  end.
Fixpoint obeys_run (h : handler) (g : cfg) (l : list action) {struct l} : Prop :=
  match l with
  | [] => True
  | a :: t => (match g with Run c stk => obeys h c a | UB _ _ => True end) /\ obeys_run h (step g a) t
  end.

(** ** Cutting a log after its last requestCompleted *)
Definition nodone (t : list obs) : Prop := ~ In OCompleted t.
Definition done_end (l : list obs) : Prop := l = [] \/ exists q, l = q ++ [OCompleted].
Lemma nodone_app a b : nodone a -> nodone b -> nodone (a ++ b).
Proof. intros A B H. apply in_app_or in H. now destruct H. Qed.
Lemma done_cut l t l' t' : done_end l -> done_end l' -> nodone t -> nodone t' -> l ++ t = l' ++ t' -> l = l' /\ t = t'.
Proof.
  revert l'. induction l as [|o l IH]; intros l' H H' N N' E.
  - destruct H' as [-> |(q & ->)]; [auto|]. cbn [app] in E. exfalso. apply N. rewrite E. apply in_or_app. left. apply in_or_app. right. now left.
  - destruct l' as [|o' l'].
    + exfalso. cbn [app] in E. apply N'. rewrite <- E. destruct H as [H|(q & H)]; [discriminate|]. rewrite app_comm_cons, H. apply in_or_app. left. apply in_or_app. right. now left.
    + cbn [app] in E. injection E as -> E.
      assert (D : forall x (y : list obs), done_end (x :: y) -> y = [] \/ done_end y).
      { intros x y [D|(q & D)]; [discriminate|]. destruct q as [|z q]; cbn [app] in D; injection D as -> ->; [now left|right; right; eauto]. }
      assert (D' : forall x (y : list obs), done_end (x :: y) -> done_end y) by (intros x y Hd; destruct (D _ _ Hd) as [-> |?]; [now left|auto]).
      destruct (IH l' (D' _ _ H) (D' _ _ H') N N' E) as [-> ->]. auto.
Qed.
Lemma nodone_interim r : nodone (interim r).
Proof. unfold nodone, interim. destruct (expects r); [intros [H|[]]; discriminate|intros []]. Qed.
Lemma Answered_end g r k e : Answered g r k e -> exists q, e = q ++ [OCompleted].
Proof. intros [hd _ _]. eexists. rewrite !app_comm_cons. rewrite app_assoc. reflexivity. Qed.
Lemma Dialogue_end h rs l : Dialogue h rs l -> done_end l.
Proof. intros [|rs0 l0 r e _ H]; [now left|]. right. destruct (Answered_end _ _ _ _ H) as (q & ->). exists (l0 ++ q). now rewrite app_assoc. Qed.
Lemma Exchange_end r k e : Exchange r k e -> exists q, e = q ++ [OCompleted].
Proof. intros [a len ps evs _ _ _]. eexists. rewrite !app_comm_cons, !app_assoc. reflexivity. Qed.
Lemma Exchanges_end rs l : Exchanges rs l -> done_end l.
Proof. intros [|rs0 l0 r e _ H]; [now left|]. right. destruct (Exchange_end _ _ _ H) as (q & ->). exists (l0 ++ q). now rewrite app_assoc. Qed.

(** ** The invariant *)
Section Serve.
Variable h : handler.
Definition writes_only (t : list obs) : Prop := Forall (fun o => exists b, o = OWrite b) t.
Definition Kl (c : conn) : Prop := exists rs l t, log c = l ++ t /\ Dialogue h rs l /\ writes_only t.
Definition Kh (c : conn) : Prop := exists rs l t r, log c = l ++ t ++ [OReady r] /\ Dialogue h rs l /\ writes_only t.
Definition Ko (e : list obs) (c : conn) : Prop := exists rs l t, log c = l ++ t ++ e /\ Dialogue h rs l /\
  (writes_only t \/ (exists t' r, t = t' ++ [OReady r] /\ writes_only t') \/ exists r, Answered (h (rs ++ [r])) r false t).
Definition Kd (c : conn) : Prop := exists rs l r e, log c = l ++ e /\ Dialogue h rs l /\ Answered (h (rs ++ [r])) r (keepalive c) e.
Definition K (c : conn) (stk : list frame) : Prop :=
  match st c with
  | SendingContent | Uninitialized => False
  | SendingHeaders => Kh c
  | Completed => Kd c /\ (In KFlushC stk -> keepalive c = true)
  | Flushing => Ko [] c
  | Closed => exists e, Ending e /\ Ko e c
  | _ => Kl c
  end.
Definition Kc (c : conn) : Prop := K c [] /\ st c <> Completed.
Lemma Kl_Ko c : Kl c -> Ko [] c.
Proof. intros (rs & l & t & E & D & N). exists rs, l, t. rewrite app_nil_r. repeat split; auto. Qed.
Lemma Kh_Ko c : Kh c -> Ko [] c.
Proof. intros (rs & l & t & r & E & D & N). exists rs, l, (t ++ [OReady r]). rewrite app_nil_r. split; auto. split; auto. right. left. eauto. Qed.
Lemma Kc_Ko c : Kc c -> st c <> Closed -> Ko [] c.
Proof. unfold Kc, K. intros [H H1] H2. destruct (st c); auto using Kl_Ko, Kh_Ko; congruence || tauto. Qed.
Lemma Kc_K c stk : Kc c -> K c stk.
Proof. unfold Kc, K. intros [H H1]. destruct (st c); auto; congruence. Qed.
Lemma K_Kc c stk : K c stk -> st c <> Completed -> Kc c.
Proof. unfold Kc, K. intros H H1. destruct (st c); auto; congruence. Qed.
Lemma Kl_same c c' : Kl c -> log c' = log c -> Kl c'.
Proof. intros (rs & l & t & E & D & N) Q. exists rs, l, t. now rewrite Q. Qed.
Lemma Kh_same c c' : Kh c -> log c' = log c -> Kh c'.
Proof. intros (rs & l & t & r & E & D & N) Q. exists rs, l, t, r. now rewrite Q. Qed.
Lemma Ko_same e c c' : Ko e c -> log c' = log c -> Ko e c'.
Proof. intros (rs & l & t & E & D & N) Q. exists rs, l, t. now rewrite Q. Qed.
Lemma Kc_same c c' : Kc c -> log c' = log c -> st c' = st c -> Kc c'.
Proof.
  unfold Kc, K. intros (H & N) Q ->. split; auto. destruct (st c); eauto using Kl_same, Ko_same, Kh_same.
  - destruct H as (H1 & H2). now destruct N.
  - destruct H as (e & E1 & E2). eauto using Ko_same.
Qed.
Lemma Kl_more c c' b : Kl c -> log c' = log c ++ [OWrite b] -> Kl c'.
Proof.
  intros (rs & l & t & E & D & N) Q. exists rs, l, (t ++ [OWrite b]). rewrite Q, E, app_assoc. repeat split; auto.
  apply Forall_app. split; auto. constructor; eauto.
Qed.
Lemma Ko_more c c' e : Ko [] c -> log c' = log c ++ e -> Ko e c'.
Proof. intros (rs & l & t & E & D & N) Q. exists rs, l, t. rewrite Q, E, app_nil_r, <- !app_assoc. auto. Qed.
Lemma writes_nodone t : writes_only t -> nodone t.
Proof. intros W X. unfold writes_only in W. rewrite Forall_forall in W. apply W in X as (b & X). discriminate. Qed.

Definition OKs (g : cfg) : Prop := match g with Run c stk => K c stk | UB _ _ => True end.
Lemma s_write b c k : (forall c', log c' = log c ++ [OWrite b] -> st c' = st c -> OKs (k c')) -> OKs (dev_write b c k).
Proof. intros H. unfold dev_write. destruct (out_ok c); [|exact Logic.I]. now apply H. Qed.
Lemma nodone_write b : nodone [OWrite b]. Proof. intros [H|[]]; discriminate. Qed.
Section Ks.
Variables (stk : list frame) (k : conn -> cfg).
Hypothesis Hk : forall c, Kc c -> OKs (k c).
Lemma s_flush c : Kc c -> OKs (flush c stk k).
Proof. intros H. unfold flush. destruct (_ && _); auto. apply Kc_K. eapply Kc_same; eauto. Qed.
Lemma s_toClosed c : Ko [] c \/ Kc c -> OKs (toClosed c stk k).
Proof.
  intros H. unfold toClosed. destruct (cst_eqb (st c) Closed) eqn:E.
  - apply cst_eqb_eq in E. destruct H as [H|H]; auto. apply Hk. split; [|congruence]. unfold K. rewrite E. exists []. split; [constructor|auto].
  - cbv zeta. assert (H0 : Ko [] c) by (destruct H as [H|H]; auto; apply Kc_Ko; auto; intros X; rewrite X in E; discriminate).
    unfold OKs, K. destruct (_ || _).
    + exists [OShut (pending c); OClosed]. split; [constructor|]. apply (Ko_more c); auto. unfold emit_log; csimp. now rewrite <- app_assoc.
    + exists [OClosed]. split; [constructor|]. apply (Ko_more c); auto.
Qed.
Lemma s_drain_tail c : Kc c -> OKs (drain_tail c stk k).
Proof. intros H. unfold drain_tail. destruct (_ && _); auto. apply s_toClosed. now right. Qed.
End Ks.
Lemma s_drain stk k c : (forall c, Kc c -> OKs (k c)) -> Kc c -> OKs (drain c stk k).
Proof. intros Hk H. unfold drain. destruct (negb _); auto. apply s_flush; auto. intros. now apply s_drain_tail. Qed.
Lemma s_flushing c : Kc c -> Kc (flushing_tail c).
Proof. intros H. unfold flushing_tail. destruct (_ && _); auto. Qed.
Lemma s_sending c : Kc c -> Kc (sending_tail c).
Proof. intros H. unfold sending_tail. destruct (_ && _); auto. apply (Kc_same c); auto. Qed.
Lemma s_toFlushing stk k c : (forall c, Kc c -> OKs (k c)) -> Ko [] c -> OKs (toFlushing c stk k).
Proof.
  intros Hk H. unfold toFlushing. destruct (cst_eqb (st c) Flushing) eqn:E.
  - apply cst_eqb_eq in E. apply Hk. split; [|congruence]. unfold K. now rewrite E.
  - apply s_drain; [intros; now apply Hk, s_flushing|]. split; [|discriminate]. unfold K. csimp. eapply Ko_same; eauto.
Qed.
Section Ks2.
Variables (stk : list frame) (k : conn -> cfg).
Hypothesis Hk : forall c, Kc c -> OKs (k c).
Lemma s_error code c : Kl c -> st c <> Closed -> OKs (writeRequestErrorResponse code c stk k).
Proof.
  intros H N. unfold writeRequestErrorResponse. destruct (cst_eqb _ _) eqn:E; [now apply cst_eqb_eq in E|]. apply s_write. intros c' E1 E2.
  apply s_toFlushing; auto. apply Kl_Ko. eapply Kl_more; eauto.
Qed.
Lemma s_toSendingHeaders c : Kl c -> st c <> SendingHeaders -> OKs (toSendingHeaders c stk k).
Proof.
  intros H N. unfold toSendingHeaders. destruct (cst_eqb _ _) eqn:E; [now apply cst_eqb_eq in E|]. cbv zeta.
  assert (G : forall ob c2 s2, st c2 = SendingHeaders -> log c2 = log c ++ [OReady ob] -> OKs (Run c2 s2)).
  { intros ob c2 s2 S2 L2. unfold OKs, K. rewrite S2. destruct H as (rs & l & t & E1 & D & W). exists rs, l, t, ob. rewrite L2, E1, <- app_assoc. auto. }
  match goal with |- OKs (Run (emit_log (OReady ?o) ?x) _) => apply (G o) end; reflexivity.
Qed.
Lemma s_check c : Kl c -> st c = ReceivingContent -> OKs (check_content c stk k).
Proof.
  intros H E. unfold check_content. destruct (_ <=? _); [apply s_toSendingHeaders; auto; congruence|]. apply Hk. split; [|congruence]. unfold K. now rewrite E.
Qed.
Lemma read_same c : log (read_input c) = log c /\ st (read_input c) = st c.
Proof. unfold read_input. destruct (avail c); auto. cbv zeta. unfold reserve. destruct (_ <? _); auto. Qed.
Lemma s_toReceivingContent c : Kl c -> OKs (toReceivingContent c stk k).
Proof.
  intros H. unfold toReceivingContent. cbv zeta.
  match goal with |- context [let '(c0, ok) := ?x in _] => assert (E : log (fst x) = log c /\ st (fst x) = ReceivingContent); [|destruct x as (c1 & ok)] end.
  { destruct (0 <=? _); [destruct (toInt _)|]; now split. }
  cbn [fst] in E. destruct E as (E1 & E2). assert (H1 : Kl c1) by (eapply Kl_same; eauto).
  destruct (_ <? _); [apply s_error; auto; congruence|]. destruct (_ || _); [apply s_error; auto; congruence|].
  destruct (0 <? cl c1); [|apply s_toSendingHeaders; auto; congruence].
  assert (X : forall c2, Kl c2 -> st c2 = ReceivingContent -> OKs (if in_ok (reserve (body_start (tp (ps c2)) + cl c2 + 1) c2)
     then check_content (read_input (reserve (body_start (tp (ps c2)) + cl c2 + 1) c2)) stk k else UB NullInput (reserve (body_start (tp (ps c2)) + cl c2 + 1) c2))).
  { intros c2 K2 S2. destruct (in_ok _); [|exact Logic.I].
    assert (R : log (reserve (body_start (tp (ps c2)) + cl c2 + 1) c2) = log c2 /\ st (reserve (body_start (tp (ps c2)) + cl c2 + 1) c2) = st c2)
      by (unfold reserve; destruct (_ <? _); auto). destruct R as (R1 & R2).
    destruct (read_same (reserve (body_start (tp (ps c2)) + cl c2 + 1) c2)) as (Q1 & Q2).
    apply s_check; [eapply Kl_same; eauto; congruence|congruence]. }
  destruct (asciiEqualsCI_lower _ _); [|now apply X].
  apply s_write. intros c' F1 F2. apply X; [eapply Kl_more; eauto|congruence].
Qed.
Lemma s_processInput c : Kc c -> OKs (processInput c stk k).
Proof.
  intros H. unfold processInput. destruct (read_same c) as (R1 & R2). destruct (cst_eqb (st c) ReceivingHeaders) eqn:E1.
  - apply cst_eqb_eq in E1. destruct (negb _); [exact Logic.I|]. cbv zeta.
    destruct H as [H _]. unfold K in H. rewrite E1 in H.
    match goal with |- context [set_ps ?x ?y] => assert (N : Kl (set_ps x y)) by (eapply Kl_same; [exact H|exact R1]);
      assert (N2 : st (set_ps x y) = ReceivingHeaders) by (rewrite <- E1; exact R2); set (c1 := set_ps x y) in * end.
    destruct (_ || _); [apply s_error; auto; congruence|]. destruct (is_finished _); [now apply s_toReceivingContent|].
    apply Hk. split; [|congruence]. unfold K. now rewrite N2.
  - destruct (cst_eqb (st c) ReceivingContent) eqn:E2; auto. apply cst_eqb_eq in E2.
    destruct H as [H _]. unfold K in H. rewrite E2 in H.
    destruct (negb _); [exact Logic.I|]. apply s_check; [eapply Kl_same; eauto|congruence].
Qed.
Lemma s_flushc c : Kl c -> OKs (flushc_tail c stk k).
Proof.
  intros H. unfold flushc_tail. apply s_processInput. unfold toReceivingHeaders. destruct (cst_eqb (st c) ReceivingHeaders) eqn:E.
  - apply cst_eqb_eq in E. split; [|congruence]. unfold K. now rewrite E.
  - split; [|discriminate]. unfold K. csimp. apply (Kl_same c); auto.
Qed.
Lemma release_same c : log (release_request c) = log c /\ st (release_request c) = st c /\ keepalive (release_request c) = keepalive c.
Proof. unfold release_request. cbv zeta. destruct (_ <? _); [|destruct (_ <=? _)]; auto. Qed.
Lemma Kd_kept c : Kd c -> keepalive c = true -> Kl c.
Proof.
  intros (rs & l & r & e & E & D & A) Q. rewrite Q in A. exists (rs ++ [r]), (l ++ e), []. rewrite app_nil_r. repeat split; auto; [now constructor|constructor].
Qed.
Lemma s_completed_tail c : Kd c -> st c = Completed -> OKs (completed_tail c stk k).
Proof.
  intros H E. unfold completed_tail. cbv zeta. destruct (release_same c) as (R1 & R2 & R3).
  assert (H' : Kd (release_request c)) by (destruct H as (rs & l & r & e & Q); exists rs, l, r, e; rewrite R1, R3; exact Q).
  destruct (keepalive (release_request c)) eqn:EK.
  - unfold flush. destruct (_ && _).
    + unfold OKs, K. csimp. rewrite R2, E. split; [exact H'|]. intros _. exact EK.
    + apply s_flushc. now apply Kd_kept.
  - apply s_toFlushing; auto. destruct H' as (rs & l & r & e & E1 & D & A). rewrite EK in A.
    exists rs, l, e. rewrite app_nil_r. repeat split; eauto.
Qed.
End Ks2.
Lemma s_resp_tail content stk k c : (forall c, Kc c -> OKs (k c)) -> Kc c -> OKs (resp_tail content c stk k).
Proof.
  intros Hk H. unfold resp_tail. destruct content; auto.
  destruct (_ && _); [exact Logic.I|]. destruct (is_head _); auto. unfold writeContent.
  destruct (cst_eqb (st c) SendingContent) eqn:E; cbn [negb]; auto. apply cst_eqb_eq in E. exfalso.
  destruct H as [H _]. unfold K in H. now rewrite E in H.
Qed.
Lemma s_resume t : Clo t -> forall c, Kc c -> OKs (resume t c).
Proof.
  induction t as [|f t IH]; intros Ht c H; cbn [resume]; [now apply Kc_K|].
  inversion_clear Ht as [|? ? Hf Ht']. specialize (IH Ht'). destruct f as [s| | | | | |content|]; try contradiction.
  - now apply Kc_K.
  - apply s_drain_tail; auto.
  - apply IH, s_flushing, H.
  - apply IH, s_sending, H.
  - apply s_resp_tail; auto.
  - apply IH. apply (Kc_same c); auto.
Qed.

(** ** One step *)
Lemma K_same c stk c' : K c stk -> log c' = log c -> st c' = st c -> keepalive c' = keepalive c -> K c' stk.
Proof.
  unfold K. intros H E1 E2 E3. rewrite E2. destruct (st c); eauto using Kl_same, Kh_same, Ko_same.
  - rewrite E3. destruct H as (H & H2). split; auto. destruct H as (rs & l & r & e & Q). exists rs, l, r, e. now rewrite E1, E3.
  - destruct H as (e & Q1 & Q2). eauto using Ko_same.
Qed.
Lemma K_pushed c stk f : K c stk -> f <> KFlushC -> K c (f :: stk).
Proof. unfold K. intros H N. destruct (st c); auto. destruct H as (H1 & H2). split; auto. intros [X|X]; auto. Qed.

Lemma Dialogue_announced rs l : Dialogue h rs l -> announced l = rs.
Proof.
  induction 1 as [|rs l r e D IH A]; auto. rewrite announced_app, IH. f_equal. destruct A as [hd _ _].
  rewrite announced_interim. cbn [announced]. rewrite announced_app. destruct (_ || _); reflexivity.
Qed.
Lemma reached_base_stack c stk : reached c stk -> st c = SendingHeaders -> Base stk.
Proof.
  intros H Hs. apply reached_inv in H.
  destruct H as [? ? ? ? ? ? ?|H Hb|ms m more l s t H ? ? ?|ms s t H ? ? ? ?|[(H & _)|(H & _)] Hf|(H & _) Hc]; try congruence.
  all: destruct H; congruence.
Qed.
Lemma writeResponse_full c stk r code hs content : reached c stk -> st c = SendingHeaders -> current c r ->
  last_named "content-length" hs = None -> blen content <= INT_MAX ->
  let a := mkAns code hs (blen content) in
  exists hd c' stk', RespHead r a (blen content) hd /\ step (Run c stk) (ACall (OpWriteResponse code hs content)) = Run c' stk' /\
    st c' = Completed /\ keepalive c' = keeps r a (blen content) /\
    log c' = log c ++ OWrite hd :: (if beqb content [] || head_req r then [] else [OWrite content]) ++ [OCompleted] /\
    ~ In KFlushC stk'.
Proof.
  intros H Hs Hcur HN HL a. assert (HF : freed c = false) by (eapply reached_NF; eauto).
  assert (BS : ~ In KFlushC stk).
  { assert (B := reached_base_stack _ _ H Hs). intros I0. unfold Base in B. rewrite Forall_forall in B. now apply B in I0. }
  destruct (reached_SH _ _ H Hs) as (ms & m & more & l & S). pose proof (SH_current _ _ _ _ _ _ S Hcur) as ->.
  destruct S as [_ [[] ? ? ? Hreq ? ?] H11 Hch Hr Hsent ?]. rewrite <- Hreq.
  assert (ST : settled stk) by (eapply reached_settled'; eauto).
  assert (RL0 : RespLength a (blen content)) by (apply (RL_size a); exact HN).
  assert (HI : int_length code hs (blen content)).
  { intros len RL. apply RespLength_fun in RL, RL0. pose proof (blen_nonneg content). unfold a in RL0. rewrite <- RL0 in RL. cbn [a_size] in RL. unfold INT_MIN. lia. }
  destruct (head_exact code hs (set_rlen (blen content) c) (KResponse content :: stk) (fun c => resp_tail content c stk (resume stk))
    Hs cm_hbuf H11 Hch cm_out HI) as (len & hd & HL1 & HH & E). csimp in *. fold a in HL1, HH, E.
  assert (len = blen content) as -> by (apply RespLength_fun in HL1, RL0; congruence).
  exists hd. cbn [step do_op]. unfold writeResponse. rewrite Hs. cbn [cst_eqb negb]. rewrite E.
  destruct ((blen content =? 0) || head_req (req c)) eqn:NC.
  - eexists _, _. split; [eassumption|]. split; [reflexivity|]. split; [reflexivity|]. split; [reflexivity|].
    split; [|intros [X|[X|[X|[X|X]]]]; try discriminate; auto].
    replace (beqb content [] || head_req (req c)) with true.
    + unfold after_head, wrote, head_conn, emit_log. csimp. now rewrite <- !app_assoc.
    + symmetry. apply orb_true_iff in NC as [X|X]; [|rewrite X; apply orb_true_r]. destruct content; [reflexivity|]. apply Z.eqb_eq in X. exfalso. cbn in X. lia.
  - apply orb_false_iff in NC as (NC1 & NC2). apply Z.eqb_neq in NC1.
    set (c1 := sending_tail (after_head code a (blen content) hd (set_rlen (blen content) c))).
    assert (P0 : (blen content <? 0) = false) by (apply Z.ltb_ge, blen_nonneg).
    assert (F : st c1 = SendingContent /\ rlen c1 = blen content /\ log c1 = log c ++ [OWrite hd] /\ req c1 = req c /\ out_ok c1 = true /\ rsent c1 = 0 /\
      chunked c1 = chunked_resp (req c) a (blen content) /\ freed c1 = false /\ keepalive c1 = keeps (req c) a (blen content)).
    { unfold c1, sending_tail, after_head, wrote, head_conn, emit_log. csimp. rewrite P0. cbn [andb]. csimp. auto 12. }
    destruct F as (F1 & F2 & F3 & F4 & F5 & F6 & F7 & F8 & F9). clearbody c1.
    unfold resp_tail. rewrite F8, is_head_ok, F4, NC2. cbn [andb].
    destruct content as [|x content']; [now destruct NC1|].
    pose proof (content_exact (x :: content') c1 stk (resume stk) F1 F5) as E1. rewrite F4, F2, F6, Z.add_0_r in E1. specialize (E1 NC2 NC1).
    set (ct := x :: content') in *.
    replace ((0 <? blen ct) && (blen ct <? blen ct) || (blen ct =? 0)) with false in E1
      by (rewrite Z.ltb_irrefl, andb_false_r; symmetry; now apply Z.eqb_neq).
    destruct E1 as (ev & c2 & P & Ec & ->). rewrite F7 in P.
    replace (chunked_resp (req c) a (blen ct)) with false in P.
    2: { symmetry. unfold chunked_resp. replace (blen ct =? -1) with false by (symmetry; apply Z.eqb_neq; pose proof (blen_nonneg ct); lia). apply andb_false_r. }
    cbn [ConnSend.piece] in P. subst ev.
    assert (F' : rsent c2 = blen ct /\ rlen c2 = blen ct /\ st c2 = SendingContent /\ log c2 = log c ++ [OWrite hd; OWrite ct] /\ keepalive c2 = keeps (req c) a (blen ct)).
    { rewrite Ec. csimp. rewrite F3, F2, F1, <- app_assoc. repeat split; auto; lia. }
    destruct F' as (G1 & G2 & G3 & G4 & G5). rewrite G1, G2, Z.eqb_refl. clear Ec.
    unfold toCompleted. rewrite G3. cbn [cst_eqb]. eexists _, _. split; [eassumption|]. split; [reflexivity|]. split; [reflexivity|]. split; [exact G5|].
    split; [|intros [X|[X|X]]; try discriminate; auto].
    rewrite orb_false_r. unfold emit_log; csimp. rewrite G4, <- app_assoc. reflexivity.
Qed.
Lemma serve_write c stk code hs content c' stk' : reached c stk -> st c = SendingHeaders -> K c stk ->
  obeys h c (ACall (OpWriteResponse code hs content)) -> step (Run c stk) (ACall (OpWriteResponse code hs content)) = Run c' stk' -> K c' stk'.
Proof.
  intros R Hs HK HO E. destruct (HO Hs) as (Hg & HN & HL).
  destruct (reached_SH _ _ R Hs) as (ms & m & more & l & S).
  assert (Hc : current c (delivered m)).
  { exists (map delivered ms). rewrite (sh_log _ _ _ _ _ S), announced_app, announced_interim. cbn [announced].
    now rewrite (announced_exchanges _ _ (sv_ex _ _ _ _ _ (sh_sv _ _ _ _ _ S))). }
  destruct (writeResponse_full c stk (delivered m) code hs content R Hs Hc HN HL) as (hd & c1 & stk1 & RH & E1 & S1 & KA & LG & NF).
  rewrite E1 in E. injection E as <- <-.
  unfold K in HK. rewrite Hs in HK. destruct HK as (rs & l2 & t & r & E2 & D & Nt).
  assert (Q : l2 = l /\ t ++ [OReady r] = interim (delivered m) ++ [OReady (delivered m)]).
  { apply done_cut.
    - eapply Dialogue_end; eauto.
    - eapply Exchanges_end. exact (sv_ex _ _ _ _ _ (sh_sv _ _ _ _ _ S)).
    - apply nodone_app; [now apply writes_nodone|]. intros [X|[]]; discriminate.
    - apply nodone_app; [apply nodone_interim|]. intros [X|[]]; discriminate.
    - rewrite <- E2. exact (sh_log _ _ _ _ _ S). }
  destruct Q as [-> Q]. rewrite Q in E2.
  assert (An : announced (log c) = rs ++ [delivered m]).
  { rewrite E2, announced_app, announced_interim, (Dialogue_announced _ _ D). reflexivity. }
  unfold K. rewrite S1. split.
  - exists rs, l, (delivered m). eexists. rewrite LG, E2. split; [rewrite <- !app_assoc; cbn [app]; reflexivity|]. split; auto.
    rewrite <- An, <- Hg. apply (Answered_intro (mkGiven code hs content)); [exact RH|exact KA].
  - intros X. now apply NF in X.
Qed.

Lemma serve_call c stk o c' stk' : reached c stk -> K c stk -> polite c stk (ACall o) -> obeys h c (ACall o) ->
  step (Run c stk) (ACall o) = Run c' stk' -> K c' stk'.
Proof.
  intros R HK HP HO E. pose proof (reached_settled' _ _ R) as ST.
  assert (KR : forall c0, Kc c0 -> OKs (resume stk c0)) by (intros; rewrite settled_resume by auto; now apply Kc_K).
  assert (NC : OKs (do_op o c stk) -> K c' stk') by (intros X; cbn [step] in E; rewrite E in X; exact X).
  assert (SAME : do_op o c stk = resume stk c -> K c' stk').
  { intros X. cbn [step] in E. rewrite X, settled_resume in E by auto. injection E as <- <-. exact HK. }
  assert (CC : st c = Completed \/ st c <> Completed) by (destruct (st c); auto; right; discriminate).
  assert (NS : st c <> SendingContent) by (intros X; unfold K in HK; now rewrite X in HK).
  destruct o as [d| |code hs content|code hs|content| | | |].
  - destruct HO.
  - destruct CC as [C|C]; [apply SAME; cbn [do_op]; unfold processInput; now rewrite C|].
    apply NC. cbn [do_op]. apply s_processInput; auto. now apply (K_Kc c stk).
  - destruct (cst_eqb (st c) SendingHeaders) eqn:Hs.
    + apply cst_eqb_eq in Hs. eapply serve_write; eauto.
    + apply SAME. cbn [do_op]. unfold writeResponse. now rewrite Hs.
  - apply SAME. cbn [do_op]. unfold writeHeaders. destruct (cst_eqb (st c) SendingHeaders) eqn:Hs; auto. apply cst_eqb_eq in Hs. now destruct (HO Hs).
  - apply SAME. cbn [do_op]. unfold writeContent. destruct (cst_eqb (st c) SendingContent) eqn:Hs; auto. apply cst_eqb_eq in Hs. now destruct (NS Hs).
  - apply SAME. cbn [do_op]. unfold endContent. destruct (cst_eqb (st c) SendingContent) eqn:Hs; auto. apply cst_eqb_eq in Hs. now destruct (NS Hs).
  - destruct CC as [C|C]; [now destruct (HP C)|]. apply NC. cbn [do_op]. apply s_toClosed; auto. right. now apply (K_Kc c stk).
  - destruct CC as [C|C].
    + apply NC. cbn [do_op]. unfold flush. destruct (_ && _).
      * apply K_pushed; [|discriminate]. eapply K_same; eauto.
      * rewrite settled_resume by auto. exact HK.
    + apply NC. cbn [do_op]. apply s_flush; auto. now apply (K_Kc c stk).
  - destruct CC as [C|C]; [apply SAME; cbn [do_op]; unfold drain; now rewrite C|].
    apply NC. cbn [do_op]. apply s_drain; auto. now apply (K_Kc c stk).
Qed.
Lemma writes_head s f t : writes s -> s <> [] -> exists s', s ++ f :: t = KSig SWritten :: s' ++ f :: t /\ writes s'.
Proof. intros W N. destruct W as [|x s' -> W]; [congruence|]. exists s'. split; auto. Qed.
Lemma serve_return c stk c' stk' : reached c stk -> K c stk -> step (Run c stk) AReturn = Run c' stk' -> K c' stk'.
Proof.
  intros R HK E. pose proof (reached_settled' _ _ R) as ST.
  assert (KR : forall t c0, Clo t -> Kc c0 -> OKs (resume t c0)) by (intros; now apply s_resume).
  assert (LIVE : st c <> Completed -> Clo stk -> K c' stk').
  { intros C B. cbn [step] in E. destruct stk as [|[s| | | | | | |] t]; try (injection E as <- <-; exact HK).
    assert (X : OKs (resume t c)) by (apply KR; [now inversion B|now apply (K_Kc c (KSig s :: t))]). rewrite E in X. exact X. }
  assert (BC : forall t, Base t -> Clo t) by (intros; now apply Fin_Clo, Base_Fin).
  pose proof (reached_inv _ _ R) as HI.
  destruct HI as [Hs -> _ _ _ _ _|H Hb|ms m more l s t H -> Hw Hb|ms s t H -> Hn Hw Hb|H Hf|H Hc].
  - cbn [step] in E. injection E as <- <-. exact HK.
  - apply LIVE; auto. destruct H as [(ms & H & _)|[(ms & h0 & l & hb & rest & H & _)|[(ms & m & more & l & H)|(ms & m & more & l & a & len & pcs & evs & H)]]];
      destruct H; congruence.
  - destruct H as [C1 _ _]. destruct Hw as [|x s' -> Hw].
    + cbn [app step] in E. cbn [resume] in E. unfold K in HK. rewrite C1 in HK.
      assert (X : OKs (completed_tail c t (resume t))) by (apply s_completed_tail; auto; tauto). rewrite E in X. exact X.
    + cbn [app step] in E. rewrite settled_resume in E by (destruct Hw as [|y s'' -> Hw]; exact Logic.I). injection E as <- <-.
      unfold K in HK |- *. rewrite C1 in HK |- *. destruct HK as (K1 & K2). split; auto. intros X. apply K2. right. exact X.
  - destruct H as [C2 _ _ _ _]. destruct Hw as [|x s' -> Hw]; [congruence|]. unfold K in HK. rewrite C2 in HK. destruct HK as (K1 & K2).
    assert (KA : keepalive c = true) by (apply K2; apply in_or_app; right; now left).
    cbn [app step] in E. destruct Hw as [|y s'' -> Hw].
    + cbn [app resume] in E.
      assert (X : OKs (flushc_tail c t (resume t))) by (apply s_flushc; auto; now apply Kd_kept). rewrite E in X. exact X.
    + cbn [app resume] in E. injection E as <- <-. unfold K. rewrite C2. split; auto.
  - apply LIVE; [destruct H as [(X & _)|(X & _)]; congruence|now apply Fin_Clo].
  - apply LIVE; auto. destruct H as (X & _). congruence.
Qed.
Lemma serve_written c stk n c' stk' : reached c stk -> K c stk -> step (Run c stk) (AWritten n) = Run c' stk' -> K c' stk'.
Proof.
  intros R HK E. pose proof (reached_settled' _ _ R) as ST. cbn [step] in E. cbv zeta in E.
  set (c1 := set_pending (pending c - Z.max 0 (Z.min n (pending c))) c) in E.
  assert (K1 : K c1 stk) by (eapply K_same; eauto).
  destruct (drain_conn c1); [|injection E as <- <-; exact K1].
  destruct (cst_eqb (st c1) Completed) eqn:C.
  - apply cst_eqb_eq in C. unfold drain in E. rewrite C in E. cbn [cst_eqb negb] in E. rewrite settled_resume in E by auto. injection E as <- <-. exact K1.
  - assert (X : OKs (drain c1 stk (resume stk))).
    { apply s_drain; [intros c0 H0; rewrite settled_resume by auto; now apply Kc_K|]. apply (K_Kc c1 stk); auto. intros Y. rewrite Y in C. discriminate. }
    rewrite E in X. exact X.
Qed.
Theorem serve_step c stk a c' stk' : reached c stk -> K c stk -> polite c stk a -> obeys h c a -> step (Run c stk) a = Run c' stk' -> K c' stk'.
Proof.
  intros R HK HP HO E. destruct a as [o| |b|n|n].
  - eapply serve_call; eauto.
  - eapply serve_return; eauto.
  - cbn [step] in E. destruct (_ && _); injection E as <- <-; exact HK.
  - cbn [step] in E. injection E as <- <-. exact HK.
  - eapply serve_written; eauto.
Qed.
Lemma serve_run l : forall c stk c' stk', reached c stk -> K c stk -> polite_run (Run c stk) l -> obeys_run h (Run c stk) l ->
  run (Run c stk) l = Run c' stk' -> K c' stk' /\ reached c' stk'.
Proof.
  induction l as [|a l IH]; intros c stk c' stk' R HK PP OO E.
  - injection E as <- <-. auto.
  - destruct PP as (P1 & P2), OO as (O1 & O2). cbn [run fold_left] in E. destruct (step (Run c stk) a) as [c1 s1|r c1] eqn:Q.
    + eapply (IH c1 s1); eauto; [eapply reached_step; eauto|exact (serve_step c stk a c1 s1 R HK P1 O1 Q)].
    + exfalso. clear - E. induction l; cbn in E; [discriminate|auto].
Qed.
Lemma serve_start c stk : st c = ReceivingHeaders -> log c = [] -> K c stk.
Proof. intros S E. unfold K. rewrite S. exists [], [], []. repeat split; auto; constructor. Qed.
End Serve.
