(** What the request getters read.  requestMethod(), requestPath(), requestHeaders(), requestContent()... return
    byte arrays made with setFromRawData (HttpConnection.cpp 263-289): they are not copies but positions in the
    request buffer, so what a slot reads through them is what the buffer holds at that moment, and nothing at
    all once the buffer's block has been released. *)
From Verif Require Import Bytes ByteHelpers Thin Helpers ReqGrammar TextSpec
  Conn ConnSpec ConnText ConnHead ConnInv ConnStep ConnEnd ConnLog PropsConn ConnSend ConnFree.
Open Scope Z_scope.

(** ** The getters, read now (HttpConnection.cpp 263-289, ByteArrayHelpers.h setFromRawData; getters 730-800) *)
(* The positions are the ones the parser recorded for the request being answered; only the URI of a request
   with a query string is a copy (272-273).  Not modelled: the bytes a getter of an older request would show
   once the parser works on the next one. *)
Definition live (c : conn) : request :=
  let p := tp (ps c) in
  let b := buf c in
  mkReq (slice b (rm_start p) (rm_len p))
        (if qs_len p =? 0 then slice b (uri_start p) (uri_len p) else q_uri (req c))
        (slice b (path_start p) (path_len p))
        (slice b (qs_start p) (qs_len p))
        (slice b (frag_start p) (frag_len p))
        (slice b (ver_start p) (ver_len p))
        (view_headers b (refs (ps c)))
        (slice b (body_start p) (cl c)).
Definition getters (c : conn) : option request := if freed c then None else Some (live c).

(** ** The invariant *)
Definition L (c : conn) : Prop := getters c = Some (req c).
Definition G (c : conn) (stk : list frame) : Prop :=
  (st c = SendingHeaders \/ st c = SendingContent -> L c) /\ (In KCompleted stk -> L c).
Definition OKl (g : cfg) : Prop := match g with Run c stk => G c stk | UB _ _ => True end.
Definition quietf (f : frame) : Prop := f <> KCompleted.

Lemma G_push f c stk : quietf f -> G c stk -> G c (f :: stk).
Proof. intros Hf (H1 & H2). split; auto. intros [E|E]; auto. now destruct Hf. Qed.
Lemma G_other c stk : st c <> SendingHeaders -> st c <> SendingContent -> (In KCompleted stk -> L c) -> G c stk.
Proof. intros H1 H2 H3. split; auto. intros [H|H]; congruence. Qed.
Lemma G_none c stk : st c <> SendingHeaders -> st c <> SendingContent -> ~ In KCompleted stk -> G c stk.
Proof. intros H1 H2 H3. apply G_other; auto. intros H. now apply H3 in H. Qed.

Ltac qf := unfold quietf; discriminate.

Lemma l_write b c k : (forall c', st c' = st c -> (L c -> L c') -> OKl (k c')) -> OKl (dev_write b c k).
Proof. intros H. unfold dev_write. destruct (out_ok c); [|exact Logic.I]. apply H; auto. Qed.
Lemma G_same c c' stk : G c stk -> st c' = st c -> (L c -> L c') -> G c' stk.
Proof. intros (H1 & H2) E HL. split; [rewrite E|]; auto. Qed.

Section K.
Variables (stk : list frame) (k : conn -> cfg).
Hypothesis Hk : forall c, G c stk -> OKl (k c).

Lemma l_flush c : G c stk -> OKl (flush c stk k).
Proof. intros H. unfold flush. destruct (_ && _); auto. apply G_push; [qf|]. exact H. Qed.
Lemma l_toClosed c : G c stk -> OKl (toClosed c stk k).
Proof.
  intros H. unfold toClosed. destruct (cst_eqb _ _); auto. apply G_push; [qf|]. apply G_push; [qf|].
  apply G_other; [destruct (_ || _); unfold emit_log; csimp; discriminate|destruct (_ || _); unfold emit_log; csimp; discriminate|].
  intros I. apply H in I. destruct (_ || _); exact I.
Qed.
Lemma l_drain_tail c : G c stk -> OKl (drain_tail c stk k).
Proof. intros H. unfold drain_tail. destruct (_ && _); auto. now apply l_toClosed. Qed.
End K.
Lemma G_pop f c stk : quietf f -> G c (f :: stk) -> G c stk.
Proof. intros Hf (H1 & H2). split; auto. intros I. apply H2. now right. Qed.
Lemma l_drain stk k c : (forall c, G c stk -> OKl (k c)) -> G c stk -> OKl (drain c stk k).
Proof.
  intros Hk H. unfold drain. destruct (negb _); auto. apply l_flush; [|apply G_push; [qf|auto]].
  intros c' H'. apply l_drain_tail; auto. apply G_pop in H'; [auto|qf].
Qed.
Lemma l_flushing c stk : G c stk -> G (flushing_tail c) stk.
Proof. intros H. unfold flushing_tail. destruct (_ && _); auto. Qed.
Lemma l_sending c stk : G c stk -> G (sending_tail c) stk.
Proof. intros H. unfold sending_tail. destruct (_ && _); auto. Qed.
Lemma l_toFlushing stk k c : (forall c, G c stk -> OKl (k c)) -> (In KCompleted stk -> L c) -> OKl (toFlushing c stk k).
Proof.
  intros Hk H. unfold toFlushing. destruct (cst_eqb (st c) Flushing) eqn:E.
  - apply cst_eqb_eq in E. apply Hk. apply G_other; auto; rewrite E; discriminate.
  - apply l_drain.
    + intros c' H'. apply Hk, l_flushing. apply G_pop in H'; [auto|qf].
    + apply G_push; [qf|]. apply G_other; csimp; try discriminate. exact H.
Qed.
Lemma view_live c : let before := setup_buf (buf c) (refs (ps c)) in let b := field_buf before (tp (ps c)) in
  let r := view_request before b (ps c) (cl c) in forall c', buf c' = b -> ps c' = ps c -> cl c' = cl c -> req c' = r -> freed c' = false -> L c'.
Proof.
  cbv zeta. intros c' E1 E2 E3 E4 E5. unfold L, getters. rewrite E5. f_equal. unfold live. cbv zeta. rewrite E1, E2, E3, E4.
  unfold view_request. cbv zeta. cbn [q_uri]. f_equal. destruct (_ =? _); reflexivity.
Qed.
Section K2.
Variables (stk : list frame) (k : conn -> cfg).
Hypothesis Hc : ~ In KCompleted stk.
Hypothesis Hk : forall c, G c stk -> OKl (k c).
Lemma l_error code c : G c stk -> OKl (writeRequestErrorResponse code c stk k).
Proof.
  intros H. unfold writeRequestErrorResponse. destruct (cst_eqb _ _); auto. apply l_write. intros c' E HL.
  apply l_toFlushing; auto. intros I. now apply Hc in I.
Qed.
Lemma l_toSendingHeaders c : G c stk -> OKl (toSendingHeaders c stk k).
Proof.
  intros H. unfold toSendingHeaders. destruct (cst_eqb _ _); auto. cbv zeta.
  match goal with |- OKl (Run ?x _) => assert (X : L x) by (apply (view_live c); reflexivity) end.
  split; auto.
Qed.
Lemma st_read c : st (read_input c) = st c.
Proof. unfold read_input. destruct (avail c); auto. cbv zeta. unfold reserve. destruct (_ <? _); reflexivity. Qed.
Lemma l_check c : st c = ReceivingContent -> OKl (check_content c stk k).
Proof.
  intros E. assert (H : G c stk) by (apply G_none; auto; rewrite E; discriminate).
  unfold check_content. destruct (_ <=? _); auto. now apply l_toSendingHeaders.
Qed.
Lemma l_toReceivingContent c : OKl (toReceivingContent c stk k).
Proof.
  unfold toReceivingContent. cbv zeta.
  match goal with |- context [let '(c0, ok) := ?x in _] => assert (E : st (fst x) = ReceivingContent); [|destruct x as (c1 & ok)] end.
  { destruct (0 <=? _); [destruct (toInt _)|]; reflexivity. }
  cbn [fst] in E. assert (N : G c1 stk) by (apply G_none; auto; rewrite E; discriminate).
  destruct (_ <? _); [now apply l_error|]. destruct (_ || _); [now apply l_error|].
  destruct (0 <? cl c1); [|now apply l_toSendingHeaders].
  assert (X : forall c2, st c2 = ReceivingContent -> OKl (if in_ok (reserve (body_start (tp (ps c2)) + cl c2 + 1) c2)
     then check_content (read_input (reserve (body_start (tp (ps c2)) + cl c2 + 1) c2)) stk k else UB NullInput (reserve (body_start (tp (ps c2)) + cl c2 + 1) c2))).
  { intros c2 E2. destruct (in_ok _); [|exact Logic.I]. apply l_check. rewrite st_read. unfold reserve. destruct (_ <? _); exact E2. }
  destruct (asciiEqualsCI_lower _ _); [|now apply X].
  apply l_write. intros c' E' _. apply X. congruence.
Qed.
Lemma l_processInput c : G c stk -> OKl (processInput c stk k).
Proof.
  intros H. unfold processInput. destruct (cst_eqb (st c) ReceivingHeaders) eqn:E1.
  - apply cst_eqb_eq in E1. destruct (negb _); [exact Logic.I|]. cbv zeta.
    assert (E : st (set_ps (match buf (read_input c) with [] => ps (read_input c) | _ => texecute (buf (read_input c)) (nread (tp (ps (read_input c)))) (ps (read_input c)) end) (read_input c)) = ReceivingHeaders).
    { csimp. now rewrite st_read. }
    match type of E with st ?x = _ => set (c1 := x) in * end.
    assert (N : G c1 stk) by (apply G_none; auto; rewrite E; discriminate).
    destruct (_ || _); [now apply l_error|]. destruct (is_finished _); auto. apply l_toReceivingContent.
  - destruct (cst_eqb (st c) ReceivingContent) eqn:E2; auto. apply cst_eqb_eq in E2.
    destruct (negb _); [exact Logic.I|]. apply l_check. now rewrite st_read.
Qed.
Lemma l_flushc c : OKl (flushc_tail c stk k).
Proof.
  unfold flushc_tail. apply l_processInput.
  apply G_none; auto; unfold toReceivingHeaders; destruct (cst_eqb (st c) ReceivingHeaders) eqn:E; csimp; try discriminate;
  apply cst_eqb_eq in E; congruence.
Qed.
Lemma l_completed_tail c : st c = Completed -> OKl (completed_tail c stk k).
Proof.
  intros E. unfold completed_tail. cbv zeta.
  assert (E' : st (release_request c) = Completed) by (unfold release_request; cbv zeta; destruct (_ <? _); csimp; [|destruct (_ <=? _); csimp]; auto).
  destruct (keepalive _); [|apply l_toFlushing; auto; intros I; now apply Hc in I].
  apply l_flush; [|apply G_push; [qf|apply G_none; auto; rewrite E'; discriminate]]. intros. apply l_flushc.
Qed.
End K2.

Section K3.
Variables (stk : list frame) (k : conn -> cfg).
Hypothesis Hk : forall c, G c stk -> OKl (k c).
Lemma l_toCompleted c : L c -> G c stk -> OKl (toCompleted c stk k).
Proof.
  intros HL H. unfold toCompleted. destruct (cst_eqb _ _); auto. apply G_push; [qf|].
  apply G_other; csimp; try discriminate. intros _. exact HL.
Qed.
Lemma l_writeContent content c : G c stk -> OKl (writeContent content c stk k).
Proof.
  intros H. unfold writeContent. destruct (cst_eqb (st c) SendingContent) eqn:E; cbn [negb]; auto. apply cst_eqb_eq in E.
  assert (HL : L c) by (apply (proj1 H); auto).
  destruct (_ =? _); auto. destruct (_ && _); auto. destruct (_ && _); auto.
  cbv zeta. csimp.
  assert (X : forall c', st c' = st c -> (L c -> L c') -> OKl (if rsent c' =? rlen c' then toCompleted c' stk k else k c')).
  { intros c' E' H'. assert (G c' stk) by (eapply G_same; eauto). destruct (_ =? _); auto. apply l_toCompleted; auto. }
  destruct (chunked c).
  - destruct (appendNumber _ _); [|exact Logic.I].
    apply l_write. intros c1 E1 H1. apply l_write. intros c2 E2 H2. apply l_write. intros c3 E3 H3. apply X.
    + rewrite E3, E2, E1. reflexivity.
    + intros H0. apply H3, H2, H1. exact H0.
  - apply l_write. intros c1 E1 H1. apply X; [rewrite E1; reflexivity|]. intros H0. apply H1. exact H0.
Qed.
Lemma l_resp_tail content c : G c stk -> OKl (resp_tail content c stk k).
Proof.
  intros H. unfold resp_tail. destruct content; auto.
  destruct (_ && _); [exact Logic.I|]. destruct (is_head _); auto. now apply l_writeContent.
Qed.
Lemma l_endContent c : G c stk -> OKl (endContent c stk k).
Proof.
  intros H. unfold endContent. destruct (cst_eqb (st c) SendingContent) eqn:E; cbn [negb]; auto. apply cst_eqb_eq in E.
  assert (HL : L c) by (apply (proj1 H); auto).
  destruct (_ <=? _); auto. destruct (chunked c); [|now apply l_toCompleted].
  apply l_write. intros c' E' H'. apply l_toCompleted; auto. eapply G_same; eauto.
Qed.
End K3.
Lemma l_toSendingContent stk k c : (forall c, G c stk -> OKl (k c)) -> L c -> G c stk -> OKl (toSendingContent c stk k).
Proof.
  intros Hk HL H. unfold toSendingContent. destruct (cst_eqb _ _); auto. cbv zeta.
  match goal with |- context [sending_tail ?x] => set (c1 := x) end.
  assert (H1 : G c1 stk). { split; intros _; exact HL. }
  destruct (_ || _).
  - apply l_toCompleted; [|exact HL|apply G_push; [qf|exact H1]]. intros c' H'. apply Hk, l_sending. apply G_pop in H'; [auto|qf].
  - apply Hk, l_sending, H1.
Qed.
Lemma l_writeHeaders code hs stk k c : (forall c, G c stk -> OKl (k c)) -> G c stk -> OKl (writeHeaders code hs c stk k).
Proof.
  intros Hk H. unfold writeHeaders. destruct (cst_eqb (st c) SendingHeaders) eqn:E; cbn [negb]; auto. apply cst_eqb_eq in E.
  assert (HL : L c) by (apply (proj1 H); auto). cbv zeta.
  match goal with |- context [let '(chunk, te) := ?x in _] => destruct x as (chunk & te) end.
  match goal with |- context [match (if ?a then _ else _) with Some _ => _ | None => _ end] => destruct (if a then Some [] else _) end; [|exact Logic.I].
  unfold dev_write. destruct (out_ok _); [|exact Logic.I]. apply l_toSendingContent; [exact Hk|exact HL|].
  split; intros _; exact HL.
Qed.

(* resuming a stack that waits for no requestCompleted slot *)
Lemma l_resume stk : ~ In KCompleted stk -> forall c, G c stk -> OKl (resume stk c).
Proof.
  induction stk as [|f t IH]; intros Hc c H; cbn [resume]; [exact H|].
  assert (Hc' : ~ In KCompleted t) by (intros I; apply Hc; now right).
  specialize (IH Hc').
  destruct f as [s| | | | | |content|].
  - exact H.
  - exfalso. apply Hc. now left.
  - now apply l_flushc.
  - apply l_drain_tail; auto. apply G_pop in H; [auto|qf].
  - apply IH, l_flushing. apply G_pop in H; [auto|qf].
  - apply IH, l_sending. apply G_pop in H; [auto|qf].
  - apply l_resp_tail; auto. apply G_pop in H; [auto|qf].
  - apply IH. apply G_pop in H; [exact H|qf].
Qed.

(* returning from a slot *)
Lemma l_return c s t : Inv c (KSig s :: t) -> G c (KSig s :: t) -> OKl (resume t c).
Proof.
  intros HI HG. assert (HG' : G c t) by (apply G_pop in HG; [auto|qf]).
  destruct HI as [? E ? ? ? ? ?|H Hb|ms m more l s' t' H E Hw Hb|ms s' t' H E Hne Hw Hb|H Hf|H Hc]; try discriminate.
  - apply l_resume; auto. intros I. apply (no_completed_base _ Hb). now right.
  - destruct s' as [|f s'].
    + cbn in E. injection E as -> ->. cbn [resume]. apply l_completed_tail.
      * now apply no_completed_base.
      * intros. apply l_resume; auto. now apply no_completed_base.
      * apply H.
    + injection E as _ ->. inversion_clear Hw as [|? ? _ Hw']. destruct s' as [|f' s'].
      * exact HG'.
      * inversion_clear Hw'. subst f'. exact HG'.
  - destruct s' as [|f s']; [now destruct Hne|]. injection E as _ ->. inversion_clear Hw as [|? ? _ Hw'].
    apply l_resume; auto. intros I. apply in_app_iff in I as [I|[I|I]]; try discriminate.
    + unfold writes in Hw'. rewrite Forall_forall in Hw'. now apply Hw' in I.
    + now apply (no_completed_base _ Hb).
  - apply l_resume; auto. intros I. apply (no_completed_fin _ Hf). now right.
  - apply l_resume; auto. intros I. apply (no_completed_clo _ Hc). now right.
Qed.

(* while a requestCompleted slot runs the state is Completed *)
Lemma inv_completed c stk : Inv c stk -> In KCompleted stk -> st c = Completed.
Proof.
  intros HI I.
  destruct HI as [? ? ? ? ? ? ?|H Hb|ms m more l s' t' H E Hw Hb|ms s' t' H E Hne Hw Hb|H Hf|H Hc].
  - subst. destruct I.
  - now apply (no_completed_base _ Hb) in I.
  - apply H.
  - subst. apply in_app_iff in I as [I|[I|I]]; try discriminate.
    + unfold writes in Hw. rewrite Forall_forall in Hw. now apply Hw in I.
    + now apply (no_completed_base _ Hb) in I.
  - now apply (no_completed_fin _ Hf) in I.
  - now apply (no_completed_clo _ Hc) in I.
Qed.

Lemma completed_dec stk : In KCompleted stk \/ ~ In KCompleted stk.
Proof.
  induction stk as [|f t [I|I]]; [right; intros []|left; now right|].
  destruct f; try (left; now left); right; intros [E|E]; try discriminate; now apply I in E.
Qed.
Lemma l_step c stk a : Inv c stk -> settled stk -> G c stk -> polite c stk a -> OKl (step (Run c stk) a).
Proof.
  intros HI HS HG HP.
  assert (K : forall c, G c stk -> OKl (resume stk c)).
  { intros c' H'. rewrite settled_resume by auto. exact H'. }
  destruct a as [o| |b|n|n]; cbn [step].
  - destruct o; cbn [do_op].
    + cbn in HP. destruct HP as (-> & Hst & _). destruct (initialize d c) as [c' s'|r c'] eqn:E; [|exact Logic.I].
      apply K. pose proof (NF_init _ _ _ _ E) as N. 
      unfold initialize in E. destruct (_ && _); [discriminate|]. cbv zeta in E.
      match type of E with context [toReceivingHeaders ?x] => set (c1 := x) in * end.
      destruct (in_ok _); [|discriminate]. injection E as <- _.
      apply G_none; [| |intros []]; unfold toReceivingHeaders; destruct (cst_eqb (st c1) ReceivingHeaders) eqn:E; csimp; try discriminate;
        apply cst_eqb_eq in E; congruence.
    + destruct (completed_dec stk) as [I|I].
      * unfold processInput. rewrite (inv_completed _ _ HI I). cbn [cst_eqb]. now apply K.
      * now apply l_processInput.
    + unfold writeResponse. destruct (negb _); auto. apply l_writeHeaders; [|apply G_push; [qf|exact HG]].
      intros c' H'. apply l_resp_tail; auto. apply G_pop in H'; [exact H'|qf].
    + now apply l_writeHeaders.
    + now apply l_writeContent.
    + now apply l_endContent.
    + now apply l_toClosed.
    + now apply l_flush.
    + now apply l_drain.
  - destruct stk as [|[s| | | | | | | ] t]; try exact HG. now apply (l_return c s).
  - destruct (_ && _); exact HG.
  - exact HG.
  - cbv zeta. csimp. destruct (drain_conn c); [|exact HG]. now apply l_drain.
Qed.

Theorem reached_G c stk : reached c stk -> G c stk.
Proof.
  intros (l & P & E).
  enough (X : forall l g, (match g with Run c stk => Inv c stk /\ settled stk /\ G c stk | UB _ _ => True end) -> polite_run g l -> OKl (run g l)).
  { specialize (X l start). rewrite E in X. apply X; auto. split; [apply start_ok|]. split; [exact Logic.I|]. apply G_none; try discriminate. intros []. }
  clear. induction l as [|a l IH]; intros g H HP.
  - destruct g; cbn; auto. apply H.
  - cbn [run fold_left]. cbn [polite_run] in HP. destruct HP as (HP & HP'). apply IH; auto. destruct g as [c stk|r c]; [|exact Logic.I].
    destruct H as (H1 & H2 & H3).
    pose proof (step_ok (Run c stk) a H1 HP) as S1. pose proof (step_settled (Run c stk) a H2) as S2.
    pose proof (l_step c stk a H1 H2 H3 HP) as S3.
    destruct (step (Run c stk) a); auto.
Qed.

(** ** A closed connection keeps the request until initialize() *)
Definition same_request (c c' : conn) : Prop :=
  buf c' = buf c /\ ps c' = ps c /\ cl c' = cl c /\ req c' = req c /\ freed c' = freed c.
Lemma same_getters c c' : same_request c c' -> getters c' = getters c.
Proof. intros (E1 & E2 & E3 & E4 & E5). unfold getters, live. cbv zeta. now rewrite E1, E2, E3, E4, E5. Qed.
Definition Shut (c0 : conn) (g : cfg) : Prop :=
  match g with Run c stk => st c = Closed /\ Clo stk /\ same_request c0 c | UB _ _ => True end.
Definition shut (c0 c : conn) : Prop := st c = Closed /\ same_request c0 c.
Lemma shut_resume c0 t : Clo t -> forall c, shut c0 c -> Shut c0 (resume t c).
Proof.
  induction t as [|f t IH]; intros Ht c (Hs & H); cbn [resume]; [repeat split; auto; apply H|].
  pose proof Ht as Ht0. inversion_clear Ht as [|? ? Hf Ht']. specialize (IH Ht'). destruct f as [s| | | | | |content|]; try contradiction.
  - split; auto.
  - unfold drain_tail. destruct (_ && _); [|now apply IH]. unfold toClosed. rewrite Hs. cbn [cst_eqb]. now apply IH.
  - apply IH. unfold flushing_tail. rewrite Hs. now cbn [cst_eqb andb].
  - apply IH. unfold sending_tail. destruct (_ && _); now split.
  - unfold resp_tail. destruct content; [now apply IH|]. destruct (_ && _); [exact Logic.I|]. destruct (is_head _); [now apply IH|].
    unfold writeContent. rewrite Hs. cbn [cst_eqb negb]. now apply IH.
  - apply IH. now split.
Qed.
Definition no_init (a : action) : Prop := match a with ACall (OpInit _) => False | _ => True end.
Lemma shut_step c0 c stk a : st c = Closed -> Clo stk -> same_request c0 c -> no_init a -> Shut c0 (step (Run c stk) a).
Proof.
  intros Hst Hs H Ha. pose proof (shut_resume c0 stk Hs c (conj Hst H)) as HR. destruct a as [o| |b|n|n]; cbn [step].
  - destruct o; cbn [do_op].
    + destruct Ha.
    + unfold processInput. rewrite Hst. exact HR.
    + unfold writeResponse. rewrite Hst. exact HR.
    + unfold writeHeaders. rewrite Hst. exact HR.
    + unfold writeContent. rewrite Hst. exact HR.
    + unfold endContent. rewrite Hst. exact HR.
    + unfold toClosed. rewrite Hst. exact HR.
    + unfold flush. destruct (_ && _); [|exact HR]. split; [exact Hst|]. split; [now constructor|exact H].
    + unfold drain. rewrite Hst. exact HR.
  - destruct stk as [|[s| | | | | | |] t]; try (split; [|split]; auto; fail). apply shut_resume; [now inversion Hs|now split].
  - rewrite Hst. cbn [cst_eqb negb]. rewrite Bool.andb_false_r. split; auto.
  - split; auto.
  - cbv zeta. csimp. destruct (drain_conn c); [|now split]. unfold drain. csimp. rewrite Hst. cbn [cst_eqb negb].
    apply shut_resume; auto. now split.
Qed.
Lemma shut_run c0 l : forall g, Shut c0 g -> Forall no_init l -> Shut c0 (run g l).
Proof.
  induction l as [|a l IH]; intros g H Hl; [exact H|]. inversion_clear Hl as [|? ? Ha Hl']. cbn [run fold_left]. apply IH; auto.
  destruct g as [c stk|r c]; [|exact Logic.I]. destruct H as (H1 & H2 & H3). now apply shut_step.
Qed.
