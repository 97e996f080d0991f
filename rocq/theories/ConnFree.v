(** The storage behind the request getters stays alive while the request is being answered, and suspended
    writeResponse calls. *)
From Verif Require Import Bytes ByteHelpers Thin Helpers ReqGrammar TextSpec
  Conn ConnSpec ConnText ConnHead ConnInv ConnStep ConnEnd ConnLog PropsConn ConnSend.
Open Scope Z_scope.

Definition NF (c : conn) : Prop := st c = SendingHeaders \/ st c = SendingContent -> freed c = false.
Lemma NF_other c : st c <> SendingHeaders -> st c <> SendingContent -> NF c.
Proof. intros H1 H2 [H|H]; congruence. Qed.

Section Free.
Variables (F : frame -> Prop) (U : ubreason -> Prop).
Hypothesis HF : forall f, (forall x, f <> KResponse x) -> F f.
Hypothesis HU : forall r, r <> UseAfterFree -> U r.
Definition OKg (g : cfg) : Prop := match g with Run c stk => NF c /\ Forall F stk | UB r _ => U r end.

Lemma F_frame f t : (forall x, f <> KResponse x) -> Forall F t -> Forall F (f :: t).
Proof. intros H Ht. constructor; auto. Qed.

Section K.
Variables (stk : list frame) (k : conn -> cfg).
Hypothesis Hs : Forall F stk.
Hypothesis Hk : forall c, NF c -> OKg (k c).

Lemma ok_write b c k' : NF c -> (forall c, NF c -> OKg (k' c)) -> OKg (dev_write b c k').
Proof. intros H H'. unfold dev_write. destruct (out_ok c); [|now apply HU]. now apply H'. Qed.
Lemma ok_flush c : NF c -> OKg (flush c stk k).
Proof. intros H. unfold flush. destruct (_ && _); auto. split; auto. now apply F_frame. Qed.
Lemma ok_toClosed c : NF c -> OKg (toClosed c stk k).
Proof.
  intros H. unfold toClosed. destruct (cst_eqb _ _); auto. split; [|repeat apply F_frame; auto; discriminate].
  apply NF_other; destruct (_ || _); unfold emit_log; csimp; discriminate.
Qed.
Lemma ok_drain_tail c : NF c -> OKg (drain_tail c stk k).
Proof. intros H. unfold drain_tail. destruct (_ && _); auto. now apply ok_toClosed. Qed.
End K.
Lemma ok_drain stk k c : Forall F stk -> (forall c, NF c -> OKg (k c)) -> NF c -> OKg (drain c stk k).
Proof.
  intros Hs Hk H. unfold drain. destruct (negb _); auto. apply ok_flush; auto; [now apply F_frame|]. intros. now apply ok_drain_tail.
Qed.
Lemma ok_flushing c : NF c -> NF (flushing_tail c).
Proof. intros H. unfold flushing_tail. destruct (_ && _); auto. Qed.
Lemma ok_sending c : NF c -> NF (sending_tail c).
Proof. intros H. unfold sending_tail. destruct (_ && _); auto. Qed.
Lemma ok_toFlushing stk k c : Forall F stk -> (forall c, NF c -> OKg (k c)) -> OKg (toFlushing c stk k).
Proof.
  intros Hs Hk. unfold toFlushing. destruct (cst_eqb (st c) Flushing) eqn:E.
  - apply Hk. apply NF_other; destruct (st c); discriminate.
  - apply ok_drain; [now apply F_frame| |apply NF_other; csimp; discriminate]. intros. apply Hk, ok_flushing, H.
Qed.
Section K2.
Variables (stk : list frame) (k : conn -> cfg).
Hypothesis Hs : Forall F stk.
Hypothesis Hk : forall c, NF c -> OKg (k c).
Lemma ok_error code c : NF c -> OKg (writeRequestErrorResponse code c stk k).
Proof. intros H. unfold writeRequestErrorResponse. destruct (cst_eqb _ _); auto. apply ok_write; auto. intros. now apply ok_toFlushing. Qed.
Lemma ok_toSendingHeaders c : NF c -> OKg (toSendingHeaders c stk k).
Proof. intros H. unfold toSendingHeaders. destruct (cst_eqb _ _); auto. split; [|now apply F_frame]. intros _. reflexivity. Qed.
Lemma ok_reserve n c : st c <> SendingHeaders -> st c <> SendingContent -> NF (reserve n c) /\ st (reserve n c) = st c.
Proof. intros. unfold reserve. destruct (_ <? _); split; auto; now apply NF_other. Qed.
Lemma ok_read c : st c <> SendingHeaders -> st c <> SendingContent -> NF (read_input c) /\ st (read_input c) = st c.
Proof.
  intros H1 H2. unfold read_input. destruct (avail c); [split; auto; now apply NF_other|].
  unfold reserve. destruct (_ <? _); split; auto; now apply NF_other.
Qed.
Lemma ok_check c : NF c -> OKg (check_content c stk k).
Proof. intros H. unfold check_content. destruct (_ <=? _); auto. now apply ok_toSendingHeaders. Qed.
Lemma ok_toReceivingContent c : OKg (toReceivingContent c stk k).
Proof.
  unfold toReceivingContent. cbv zeta.
  match goal with |- context [let '(c0, ok) := ?x in _] => assert (E : st (fst x) = ReceivingContent); [|destruct x as (c1 & ok)] end.
  { destruct (0 <=? _); [destruct (toInt _)|]; reflexivity. }
  cbn [fst] in E. assert (N : NF c1) by (apply NF_other; rewrite E; discriminate).
  destruct (_ <? _); [now apply ok_error|]. destruct (_ || _); [now apply ok_error|].
  destruct (0 <? cl c1); [|now apply ok_toSendingHeaders].
  assert (X : forall c2, st c2 = ReceivingContent -> OKg (if in_ok (reserve (body_start (tp (ps c2)) + cl c2 + 1) c2)
     then check_content (read_input (reserve (body_start (tp (ps c2)) + cl c2 + 1) c2)) stk k else UB NullInput (reserve (body_start (tp (ps c2)) + cl c2 + 1) c2))).
  { intros c2 E2. destruct (ok_reserve (body_start (tp (ps c2)) + cl c2 + 1) c2) as (N2 & S2); [rewrite E2; discriminate|rewrite E2; discriminate|].
    destruct (in_ok _); [|now apply HU]. apply ok_check. apply ok_read; rewrite S2, E2; discriminate. }
  destruct (asciiEqualsCI_lower _ _); [|now apply X].
  unfold dev_write. destruct (out_ok c1); [|now apply HU]. apply X. exact E.
Qed.
Lemma ok_processInput c : NF c -> OKg (processInput c stk k).
Proof.
  intros H. unfold processInput. destruct (cst_eqb (st c) ReceivingHeaders) eqn:E1.
  - apply cst_eqb_eq in E1. destruct (negb _); [now apply HU|]. cbv zeta.
    assert (E : st (set_ps (match buf (read_input c) with [] => ps (read_input c) | _ => texecute (buf (read_input c)) (nread (tp (ps (read_input c)))) (ps (read_input c)) end) (read_input c)) = ReceivingHeaders).
    { csimp. unfold read_input. destruct (avail c); auto. unfold reserve. destruct (_ <? _); auto. }
    match type of E with st ?x = _ => set (c1 := x) in * end.
    assert (N : NF c1) by (apply NF_other; rewrite E; discriminate).
    destruct (_ || _); [now apply ok_error|]. destruct (is_finished _); auto. apply ok_toReceivingContent.
  - destruct (cst_eqb (st c) ReceivingContent) eqn:E2; auto. apply cst_eqb_eq in E2.
    destruct (negb _); [now apply HU|]. apply ok_check. apply ok_read; rewrite E2; discriminate.
Qed.
Lemma ok_flushc c : OKg (flushc_tail c stk k).
Proof.
  unfold flushc_tail. apply ok_processInput. apply NF_other; unfold toReceivingHeaders; destruct (cst_eqb (st c) ReceivingHeaders) eqn:E; csimp; try discriminate;
  apply cst_eqb_eq in E; congruence.
Qed.
Lemma ok_completed_tail c : st c = Completed -> OKg (completed_tail c stk k).
Proof.
  intros E. unfold completed_tail. cbv zeta.
  assert (E' : st (release_request c) = Completed) by (unfold release_request; cbv zeta; destruct (_ <? _); csimp; [|destruct (_ <=? _); csimp]; auto).
  destruct (keepalive _); [|now apply ok_toFlushing].
  apply ok_flush; [now apply F_frame| |apply NF_other; rewrite E'; discriminate]. intros. apply ok_flushc.
Qed.
Lemma ok_toCompleted c : NF c -> OKg (toCompleted c stk k).
Proof.
  intros H. unfold toCompleted. destruct (cst_eqb _ _); auto. split; [apply NF_other; unfold emit_log; csimp; discriminate|].
  repeat apply F_frame; auto; discriminate.
Qed.
Lemma ok_writeContent content c : NF c -> OKg (writeContent content c stk k).
Proof.
  intros H. unfold writeContent. destruct (negb _); auto. destruct (_ =? _); auto. destruct (_ && _); auto. destruct (_ && _); auto.
  cbv zeta. csimp.
  assert (X : forall c, NF c -> OKg (if rsent c =? rlen c then toCompleted c stk k else k c)).
  { intros c' H'. destruct (_ =? _); auto. now apply ok_toCompleted. }
  destruct (chunked c); [|now apply ok_write]. destruct (appendNumber _ _); [|apply HU; discriminate].
  apply ok_write; auto. intros. apply ok_write; auto. intros. apply ok_write; auto.
Qed.
Lemma ok_resp_tail content c : NF c -> U UseAfterFree \/ content = [] -> OKg (resp_tail content c stk k).
Proof.
  intros H HC. unfold resp_tail. destruct content; auto. destruct HC as [HC|]; [|discriminate].
  destruct (_ && _); auto. destruct (is_head _); auto. now apply ok_writeContent.
Qed.
Lemma ok_endContent c : NF c -> OKg (endContent c stk k).
Proof.
  intros H. unfold endContent. destruct (negb _); auto. destruct (_ <=? _); auto. destruct (chunked c).
  - apply ok_write; auto. intros. now apply ok_toCompleted.
  - now apply ok_toCompleted.
Qed.
End K2.
Lemma ok_toSendingContent stk k c : Forall F stk -> (forall c, NF c -> OKg (k c)) -> freed c = false -> OKg (toSendingContent c stk k).
Proof.
  intros Hs Hk H. unfold toSendingContent. destruct (cst_eqb _ _); [apply Hk; intros _; auto|]. cbv zeta.
  destruct (_ || _).
  - apply ok_toCompleted; [now apply F_frame| |intros _; exact H]. intros. apply Hk, ok_sending, H0.
  - apply Hk, ok_sending. intros _. exact H.
Qed.
Lemma ok_writeHeaders code hs stk k c : Forall F stk -> (forall c, NF c -> OKg (k c)) -> NF c -> OKg (writeHeaders code hs c stk k).
Proof.
  intros Hs Hk H. unfold writeHeaders. destruct (cst_eqb (st c) SendingHeaders) eqn:E; cbn [negb]; auto. apply cst_eqb_eq in E.
  assert (Hf : freed c = false) by (apply H; auto). cbv zeta.
  match goal with |- context [let '(chunk, te) := ?x in _] => destruct x as (chunk & te) end.
  match goal with |- context [match (if ?a then _ else _) with Some _ => _ | None => _ end] => destruct (if a then Some [] else _) end; [|apply HU; discriminate].
  unfold dev_write. destruct (out_ok _); [|now apply HU]. apply ok_toSendingContent; auto.
Qed.

(* frames that may be resumed with a state that is not Completed *)
Lemma ok_resume stk : Forall F stk -> (U UseAfterFree \/ Forall no_content stk) -> ~ In KCompleted stk -> forall c, NF c -> OKg (resume stk c).
Proof.
  induction stk as [|f t IH]; intros Hs Hn Hc c H; cbn [resume]; [split; auto|].
  pose proof Hs as Hs0. inversion_clear Hs as [|? ? Hf Ht].
  assert (IH' : forall c, NF c -> OKg (resume t c)).
  { apply IH; auto; [|intros I; apply Hc; now right]. destruct Hn as [Hn|Hn]; auto. inversion Hn; auto. }
  destruct f as [s| | | | | |content|].
  - split; auto.
  - exfalso. apply Hc. now left.
  - now apply ok_flushc.
  - now apply ok_drain_tail.
  - apply IH', ok_flushing, H.
  - apply IH', ok_sending, H.
  - apply ok_resp_tail; auto. destruct Hn as [Hn|Hn]; auto. inversion_clear Hn as [|? ? Hh]. destruct content; [auto|destruct Hh].
  - apply IH'. exact H.
Qed.
End Free.

(** ** Steps *)
Lemma NF_init d c c' s : initialize d c = Run c' s -> st c <> SendingHeaders -> st c <> SendingContent -> NF c'.
Proof.
  unfold initialize. destruct (_ && _); [discriminate|]. cbv zeta.
  match goal with |- context [toReceivingHeaders ?x] => set (c1 := x) end.
  destruct (in_ok _); [|discriminate]. intros [= <- _] H1 H2. apply NF_other; unfold toReceivingHeaders; destruct (cst_eqb (st c1) ReceivingHeaders) eqn:E; csimp; try discriminate;
  apply cst_eqb_eq in E; congruence.
Qed.
Lemma no_completed_base t : Base t -> ~ In KCompleted t.
Proof. intros H I. unfold Base in H. rewrite Forall_forall in H. now apply H in I. Qed.
Lemma no_completed_fin t : Fin t -> ~ In KCompleted t.
Proof. intros H I. unfold Fin in H. rewrite Forall_forall in H. now apply H in I. Qed.
Lemma no_completed_clo t : Clo t -> ~ In KCompleted t.
Proof. intros H I. unfold Clo in H. rewrite Forall_forall in H. now apply H in I. Qed.

(* returning from a slot *)
Lemma return_ok (F : frame -> Prop) (U : ubreason -> Prop) c s t : (forall f, (forall x, f <> KResponse x) -> F f) -> (forall r, r <> UseAfterFree -> U r) ->
  Inv c (KSig s :: t) -> NF c -> Forall F t -> (U UseAfterFree \/ Forall no_content t) -> OKg F U (resume t c).
Proof.
  intros HF HU HI HN Ht Hn.
  destruct HI as [? E ? ? ? ? ?|H Hb|ms m more l s' t' H E Hw Hb|ms s' t' H E Hne Hw Hb|H Hf|H Hc]; try discriminate.
  - apply ok_resume; auto. intros I. apply (no_completed_base _ Hb). now right.
  - destruct s' as [|f s'].
    + cbn in E. injection E as -> ->. cbn [resume]. inversion_clear Ht. apply ok_completed_tail; auto.
      * intros. apply ok_resume; auto. { destruct Hn as [Hn|Hn]; auto. inversion Hn; auto. } now apply no_completed_base.
      * apply H.
    + injection E as _ ->. inversion_clear Hw as [|? ? _ Hw']. destruct s' as [|f' s'].
      * cbn. split; auto.
      * inversion_clear Hw'. subst f'. cbn. split; auto.
  - destruct s' as [|f s']; [now destruct Hne|]. injection E as _ ->. inversion_clear Hw as [|? ? _ Hw'].
    apply ok_resume; auto. intros I. apply in_app_iff in I as [I|[I|I]]; try discriminate.
    + unfold writes in Hw'. rewrite Forall_forall in Hw'. now apply Hw' in I.
    + now apply (no_completed_base _ Hb).
  - apply ok_resume; auto. intros I. apply (no_completed_fin _ Hf). now right.
  - apply ok_resume; auto. intros I. apply (no_completed_clo _ Hc). now right.
Qed.

Section Step.
Variables (F : frame -> Prop) (U : ubreason -> Prop).
Hypothesis HF : forall f, (forall x, f <> KResponse x) -> F f.
Hypothesis HU : forall r, r <> UseAfterFree -> U r.
Lemma step_free c stk a : Inv c stk -> settled stk -> NF c -> Forall F stk -> (U UseAfterFree \/ Forall no_content stk) -> polite c stk a ->
  (match a with ACall (OpWriteResponse code hs content) => st c = SendingHeaders -> F (KResponse content) /\ (U UseAfterFree \/ content = []) | _ => True end) ->
  OKg F U (step (Run c stk) a).
Proof.
  intros HI HS HN Hs Hn HP HR.
  assert (K : forall c, NF c -> OKg F U (resume stk c)).
  { intros c' H'. rewrite settled_resume by auto. split; auto. }
  destruct a as [o| |b|n|n]; cbn [step].
  - destruct o; cbn [do_op].
    + cbn in HP. destruct HP as (-> & Hst & _). destruct (initialize d c) as [c' s'|r c'] eqn:E.
      * apply K. eapply NF_init; eauto; destruct Hst; congruence.
      * apply HU. unfold initialize in E. destruct (_ && _); [congruence|]. cbv zeta in E. destruct (in_ok _); congruence.
    + now apply ok_processInput.
    + unfold writeResponse. destruct (cst_eqb (st c) SendingHeaders) eqn:E; cbn [negb]; auto. apply cst_eqb_eq in E.
      destruct (HR E) as (R1 & R2). apply ok_writeHeaders; auto. intros. now apply ok_resp_tail.
    + now apply ok_writeHeaders.
    + now apply ok_writeContent.
    + now apply ok_endContent.
    + now apply ok_toClosed.
    + now apply ok_flush.
    + now apply ok_drain.
  - destruct stk as [|[s| | | | | | | ] t]; try (split; auto; fail). inversion_clear Hs. eapply return_ok; eauto.
    destruct Hn as [Hn|Hn]; auto. inversion Hn; auto.
  - destruct (_ && _); split; auto.
  - split; auto.
  - cbv zeta. csimp. destruct (drain_conn c); [|split; auto]. now apply ok_drain.
Qed.
End Step.

(** while a request is being answered its storage is alive *)
Theorem reached_NF c stk : reached c stk -> NF c.
Proof.
  intros (l & P & E).
  enough (X : forall l g, (match g with Run c stk => Inv c stk /\ settled stk /\ NF c | UB _ _ => True end) -> polite_run g l ->
    match run g l with Run c stk => NF c | UB _ _ => True end).
  { specialize (X l start). rewrite E in X. apply X; auto. split; [apply start_ok|]. split; [exact I|]. apply NF_other; discriminate. }
  clear. induction l as [|a l IH]; intros g H HP.
  - destruct g; cbn; auto. apply H.
  - cbn [run fold_left]. cbn [polite_run] in HP. destruct HP as (HP & HP'). apply IH; auto. destruct g as [c stk|r c]; [|exact I].
    destruct H as (H1 & H2 & H3).
    pose proof (step_ok (Run c stk) a H1 HP) as S1. pose proof (step_settled (Run c stk) a H2) as S2.
    pose proof (step_free (fun _ => True) (fun _ => True) (fun _ _ => I) (fun _ _ => I) c stk a H1 H2 H3) as S3.
    assert (S4 : OKg (fun _ => True) (fun _ => True) (step (Run c stk) a)).
    { apply S3; auto. { apply Forall_forall; auto. } destruct a as [[]| | | |]; auto. }
    destruct (step (Run c stk) a); auto. split; auto. split; auto. apply S4.
Qed.
