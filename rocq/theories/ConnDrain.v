(** While a connection is being flushed, bytesWritten is connected to drain(). *)
From Verif Require Import Bytes ByteHelpers Thin Helpers ReqGrammar TextSpec
  Conn ConnSpec ConnText ConnHead ConnInv ConnStep ConnEnd ConnLog PropsConn ConnSend ConnFree.
Open Scope Z_scope.

Definition D (c : conn) (stk : list frame) : Prop :=
  0 <= pending c /\ (st c = Flushing -> out_ok c = true /\ (drain_conn c = true \/ In KFlushing stk)).
Definition Dg (g : cfg) : Prop := match g with Run c stk => D c stk | UB _ _ => True end.
Lemma D_other c stk : 0 <= pending c -> st c <> Flushing -> D c stk. Proof. intros Hp H. split; [auto|intros E; contradiction]. Qed.
Lemma D_push c f stk : D c stk -> D c (f :: stk).
Proof. intros (Hp & H). split; [auto|]. intros E. destruct (H E) as (H1 & [H2|H2]); (split; [auto|]); [now left|right; now right]. Qed.
Lemma D_pop c f stk : f <> KFlushing -> D c (f :: stk) -> D c stk.
Proof. intros N (Hp & H). split; [auto|]. intros E. destruct (H E) as (H1 & [H2|[H2|H2]]); auto; contradiction. Qed.

Section K.
Variables (stk : list frame) (k : conn -> cfg).
Hypothesis Hk : forall c, D c stk -> Dg (k c).
Lemma d_write b c k' : D c stk -> (forall c, D c stk -> Dg (k' c)) -> Dg (dev_write b c k').
Proof. intros H H'. unfold dev_write. destruct (out_ok c); [|exact I]. apply H'. destruct H as (H1 & H2). split; auto.
  unfold emit_log; csimp. pose proof (blen_nonneg b). destruct (sock c); lia. Qed.
Lemma d_flush c : D c stk -> Dg (flush c stk k).
Proof.
  intros H. unfold flush. destruct (_ && (0 <? Z.min (pending c) (kcap c))) eqn:E; auto. apply D_push. apply andb_true_iff in E as (_ & E). apply Z.ltb_lt in E.
  destruct H as (H1 & H2). split; auto. csimp. lia.
Qed.
Lemma d_toClosed c : D c stk -> Dg (toClosed c stk k).
Proof. intros H. unfold toClosed. destruct (cst_eqb _ _); auto. destruct H as (H & _). apply D_other; destruct (_ || _); unfold emit_log; csimp; auto; discriminate. Qed.
Lemma d_drain_tail c : D c stk -> Dg (drain_tail c stk k).
Proof. intros H. unfold drain_tail. destruct (_ && _); auto. now apply d_toClosed. Qed.
End K.
Lemma d_drain stk k c : (forall c, D c stk -> Dg (k c)) -> D c stk -> Dg (drain c stk k).
Proof.
  intros Hk H. unfold drain. destruct (negb _); auto. apply d_flush; [|now apply D_push]. intros c' H'. apply d_drain_tail; auto.
  eapply D_pop; [|exact H']. discriminate.
Qed.
Lemma d_flushing c stk : D c (KFlushing :: stk) -> D (flushing_tail c) stk.
Proof.
  intros H. unfold flushing_tail. destruct (cst_eqb (st c) Flushing) eqn:E; cbn [andb].
  - apply cst_eqb_eq in E. destruct H as (Hp & H). destruct (H E) as (H1 & _). rewrite H1. split; auto.
  - apply D_other; [apply H|]. intros E'. rewrite E' in E. discriminate.
Qed.
Lemma d_sending c stk : D c stk -> D (sending_tail c) stk.
Proof. intros H. unfold sending_tail. destruct (_ && _); auto. Qed.
Lemma d_toFlushing stk k c : (forall c, D c stk -> Dg (k c)) -> D c stk -> out_ok c = true -> Dg (toFlushing c stk k).
Proof.
  intros Hk H Ho. unfold toFlushing. destruct (cst_eqb (st c) Flushing) eqn:E; auto.
  apply d_drain; [|split; [apply H|]; intros _; csimp; split; auto; right; now left]. intros c' H'. now apply Hk, d_flushing.
Qed.
Section K2.
Variables (stk : list frame) (k : conn -> cfg).
Hypothesis Hk : forall c, D c stk -> Dg (k c).
Lemma d_error code c : D c stk -> Dg (writeRequestErrorResponse code c stk k).
Proof.
  intros H. unfold writeRequestErrorResponse. destruct (cst_eqb _ _); auto. unfold dev_write. destruct (out_ok c) eqn:E; [|exact I].
  apply d_toFlushing; auto. destruct H as (H1 & H2). split; auto.
  match goal with |- context [emit_log (OWrite ?b) _] => pose proof (blen_nonneg b) end. unfold emit_log; csimp. destruct (sock c); lia.
Qed.
Lemma d_toSendingHeaders c : D c stk -> Dg (toSendingHeaders c stk k).
Proof. intros H. unfold toSendingHeaders. destruct (cst_eqb _ _); auto. destruct H as (H & _). apply D_other; unfold emit_log; csimp; auto. discriminate. Qed.
Lemma st_reserve n c : st (reserve n c) = st c.
Proof. unfold reserve. now destruct (_ <? _). Qed.
Lemma st_read c : st (read_input c) = st c.
Proof. unfold read_input. destruct (avail c); auto. csimp. apply st_reserve. Qed.
Lemma pend_reserve n c : pending (reserve n c) = pending c.
Proof. unfold reserve. now destruct (_ <? _). Qed.
Lemma pend_read c : pending (read_input c) = pending c.
Proof. unfold read_input. destruct (avail c); auto. csimp. apply pend_reserve. Qed.
Lemma d_check c : D c stk -> Dg (check_content c stk k).
Proof. intros H. unfold check_content. destruct (_ <=? _); auto. now apply d_toSendingHeaders. Qed.
Lemma d_toReceivingContent c : 0 <= pending c -> Dg (toReceivingContent c stk k).
Proof.
  intros Hp. unfold toReceivingContent. cbv zeta.
  match goal with |- context [let '(c0, ok) := ?x in _] => assert (E : st (fst x) = ReceivingContent /\ pending (fst x) = pending c); [|destruct x as (c1 & ok)] end.
  { destruct (0 <=? _); [destruct (toInt _)|]; split; reflexivity. }
  cbn [fst] in E. destruct E as (E & Ep). rewrite <- Ep in Hp. assert (N : D c1 stk) by (apply D_other; auto; rewrite E; discriminate).
  destruct (_ <? _); [now apply d_error|]. destruct (_ || _); [now apply d_error|].
  destruct (0 <? cl c1); [|now apply d_toSendingHeaders].
  assert (X : forall c2, 0 <= pending c2 -> st c2 = ReceivingContent -> Dg (if in_ok (reserve (body_start (tp (ps c2)) + cl c2 + 1) c2)
     then check_content (read_input (reserve (body_start (tp (ps c2)) + cl c2 + 1) c2)) stk k else UB NullInput (reserve (body_start (tp (ps c2)) + cl c2 + 1) c2))).
  { intros c2 Hp2 E2. destruct (in_ok _); [|exact I]. apply d_check, D_other; [now rewrite pend_read, pend_reserve|]. rewrite st_read, st_reserve, E2. discriminate. }
  destruct (asciiEqualsCI_lower _ _); [|now apply X].
  unfold dev_write. destruct (out_ok c1); [|exact I]. apply X; [|exact E].
  match goal with |- context [emit_log (OWrite ?b) _] => pose proof (blen_nonneg b) end. unfold emit_log; csimp. destruct (sock c1); lia.
Qed.
Lemma d_processInput c : D c stk -> Dg (processInput c stk k).
Proof.
  intros H. unfold processInput. destruct (cst_eqb (st c) ReceivingHeaders) eqn:E1.
  - apply cst_eqb_eq in E1. destruct (negb _); [exact I|]. cbv zeta.
    match goal with |- context [has_error (tp ?s)] => set (s1 := s) end.
    assert (N : D (set_ps s1 (read_input c)) stk) by (apply D_other; csimp; [rewrite pend_read; apply H|rewrite st_read, E1; discriminate]).
    destruct (_ || _); [now apply d_error|]. destruct (is_finished _); auto. apply d_toReceivingContent, N.
  - destruct (cst_eqb (st c) ReceivingContent) eqn:E2; auto. apply cst_eqb_eq in E2.
    destruct (negb _); [exact I|]. apply d_check, D_other; [rewrite pend_read; apply H|rewrite st_read, E2; discriminate].
Qed.
Lemma d_flushc c : D c stk -> Dg (flushc_tail c stk k).
Proof. intros H. unfold flushc_tail. apply d_processInput. unfold toReceivingHeaders. destruct (cst_eqb _ _); auto. destruct H as (H & _). apply D_other; csimp; auto. discriminate. Qed.
Lemma release_dev c : st (release_request c) = st c /\ out_ok (release_request c) = out_ok c /\ pending (release_request c) = pending c.
Proof. unfold release_request; cbv zeta; destruct (_ <? _); csimp; auto. destruct (_ <=? _); csimp; auto. Qed.
Lemma d_completed_tail c : 0 <= pending c -> st c = Completed -> out_ok c = true -> Dg (completed_tail c stk k).
Proof.
  intros Hp E Ho. unfold completed_tail. cbv zeta. destruct (release_dev c) as (R1 & R2 & R3).
  assert (N : forall t, D (release_request c) t) by (intros t; apply D_other; [now rewrite R3|rewrite R1, E; discriminate]).
  destruct (keepalive _); [|apply d_toFlushing; auto; congruence].
  apply d_flush; auto. intros c' H'. apply d_flushc. eapply D_pop; [|exact H']. discriminate.
Qed.
Lemma d_toCompleted c : D c stk -> Dg (toCompleted c stk k).
Proof. intros H. unfold toCompleted. destruct (cst_eqb _ _); auto. destruct H as (H & _). apply D_other; unfold emit_log; csimp; auto. discriminate. Qed.
Lemma d_writeContent content c : D c stk -> Dg (writeContent content c stk k).
Proof.
  intros H. unfold writeContent. destruct (negb _); auto. destruct (_ =? _); auto. destruct (_ && _); auto. destruct (_ && _); auto.
  cbv zeta. csimp.
  assert (X : forall c, D c stk -> Dg (if rsent c =? rlen c then toCompleted c stk k else k c)).
  { intros c' H'. destruct (_ =? _); auto. now apply d_toCompleted. }
  destruct (chunked c); [|now apply (d_write stk)]. destruct (appendNumber _ _); [|exact I].
  apply (d_write stk); auto. intros. apply (d_write stk); auto. intros. apply (d_write stk); auto.
Qed.
Lemma d_resp_tail content c : D c stk -> Dg (resp_tail content c stk k).
Proof. intros H. unfold resp_tail. destruct content; auto. destruct (_ && _); [exact I|]. destruct (is_head _); auto. now apply d_writeContent. Qed.
Lemma d_endContent c : D c stk -> Dg (endContent c stk k).
Proof.
  intros H. unfold endContent. destruct (negb _); auto. destruct (_ <=? _); auto. destruct (chunked c).
  - apply (d_write stk); auto. intros. now apply d_toCompleted.
  - now apply d_toCompleted.
Qed.
End K2.
Lemma d_toSendingContent stk k c : (forall c, D c stk -> Dg (k c)) -> D c stk -> Dg (toSendingContent c stk k).
Proof.
  intros Hk H. unfold toSendingContent. destruct (cst_eqb _ _); auto. cbv zeta.
  assert (N : forall t, D (set_hbuf [] (set_st SendingContent c)) t) by (intros; destruct H; apply D_other; csimp; auto; discriminate).
  destruct (_ || _).
  - apply d_toCompleted; auto. intros c' H'. apply Hk, d_sending. eapply D_pop; [|exact H']. discriminate.
  - now apply Hk, d_sending.
Qed.
Lemma d_writeHeaders code hs stk k c : (forall c, D c stk -> Dg (k c)) -> D c stk -> Dg (writeHeaders code hs c stk k).
Proof.
  intros Hk H. unfold writeHeaders. destruct (cst_eqb (st c) SendingHeaders) eqn:E; cbn [negb]; auto. cbv zeta.
  match goal with |- context [let '(chunk, te) := ?x in _] => destruct x as (chunk & te) end.
  match goal with |- context [match (if ?a then _ else _) with Some _ => _ | None => _ end] => destruct (if a then Some [] else _) end; [|exact I].
  apply (d_write stk); [|intros; now apply d_toSendingContent]. exact H.
Qed.
Lemma d_resume stk : ~ In KCompleted stk -> ~ In KClosed stk -> forall c, D c stk -> Dg (resume stk c).
Proof.
  induction stk as [|f t IH]; intros Hc Hd c H; cbn [resume]; [exact H|].
  assert (IH' : forall c, D c t -> Dg (resume t c)) by (apply IH; intros J; [apply Hc|apply Hd]; now right).
  destruct f as [s| | | | | |content|].
  - exact H.
  - exfalso. apply Hc. now left.
  - apply d_flushc; auto. eapply D_pop; [|exact H]. discriminate.
  - apply d_drain_tail; auto. eapply D_pop; [|exact H]. discriminate.
  - now apply IH', d_flushing.
  - apply IH', d_sending. eapply D_pop; [|exact H]. discriminate.
  - apply d_resp_tail; auto. eapply D_pop; [|exact H]. discriminate.
  - exfalso. apply Hd. now left.
Qed.
Lemma d_resume_closed stk : Clo stk -> forall c, 0 <= pending c -> st c = Closed -> Dg (resume stk c).
Proof.
  induction stk as [|f t IH]; intros Ht c Hp H; cbn [resume]; [apply D_other; auto; rewrite H; discriminate|].
  inversion_clear Ht as [|? ? Hf Ht']. specialize (IH Ht'). destruct f as [s| | | | | |content|]; try contradiction.
  - apply D_other; auto; rewrite H; discriminate.
  - unfold drain_tail. destruct (_ && _); auto. unfold toClosed. rewrite H. cbn [cst_eqb]. auto.
  - unfold flushing_tail. rewrite H. now apply IH.
  - apply IH; unfold sending_tail; destruct (_ && _); auto.
  - unfold resp_tail. destruct content; auto. destruct (_ && _); [exact I|]. destruct (is_head _); auto.
    unfold writeContent. rewrite H. cbn [cst_eqb negb]. auto.
  - now apply IH.
Qed.
Lemma no_closed_base t : Base t -> ~ In KClosed t.
Proof. intros H I. unfold Base in H. rewrite Forall_forall in H. now apply H in I. Qed.
Lemma no_closed_fin t : Fin t -> ~ In KClosed t.
Proof. intros H I. unfold Fin in H. rewrite Forall_forall in H. now apply H in I. Qed.
Lemma not_in_app (f : frame) a b : ~ In f a -> ~ In f b -> ~ In f (a ++ b).
Proof. intros H1 H2 I. apply in_app_iff in I as []; auto. Qed.
Lemma writes_not s f : writes s -> f <> KSig SWritten -> ~ In f s.
Proof. intros W N I. unfold writes in W. rewrite Forall_forall in W. now apply W in I. Qed.
Lemma d_return c s t : Inv c (KSig s :: t) -> D c (KSig s :: t) -> Dg (resume t c).
Proof.
  intros HI HD. apply D_pop in HD; [|discriminate].
  destruct HI as [? E ? ? ? ? ?|H Hb|ms m more l s' t' H E Hw Hb|ms s' t' H E Hne Hw Hb|H Hf|H Hc]; try discriminate.
  - inversion_clear Hb. apply d_resume; auto using no_completed_base, no_closed_base.
  - destruct s' as [|f s'].
    + cbn in E. injection E as -> ->. cbn [resume]. destruct H as [H [[] ? ? ? ? ? ?] ?]. apply d_completed_tail; auto; [|apply HD].
      intros. apply d_resume; auto using no_completed_base, no_closed_base.
    + injection E as _ ->. inversion_clear Hw as [|? ? _ Hw']. destruct s' as [|f' s'].
      * cbn. exact HD.
      * inversion_clear Hw'. subst f'. cbn. exact HD.
  - destruct s' as [|f s']; [now destruct Hne|]. injection E as _ ->. inversion_clear Hw as [|? ? _ Hw'].
    apply d_resume; auto; apply not_in_app; try (apply (writes_not s'); auto; discriminate).
    + intros [J|J]; [discriminate|]. now apply (no_completed_base _ Hb).
    + intros [J|J]; [discriminate|]. now apply (no_closed_base _ Hb).
  - inversion_clear Hf. apply d_resume; auto using no_completed_fin, no_closed_fin.
  - inversion_clear Hc. apply d_resume_closed; auto; [apply HD|apply H].
Qed.
Lemma d_step c stk a : Inv c stk -> settled stk -> D c stk -> polite c stk a -> Dg (step (Run c stk) a).
Proof.
  intros HI HS HD HP.
  assert (K : forall c, D c stk -> Dg (resume stk c)) by (intros c' H'; rewrite settled_resume by auto; exact H').
  destruct a as [o| |b|n|n]; cbn [step].
  - destruct o; cbn [do_op].
    + destruct (initialize d c) as [c' s'|r c'] eqn:E; [|exact I]. apply K.
      unfold initialize in E. destruct (_ && _); [discriminate|]. cbv zeta in E.
      match type of E with context [toReceivingHeaders ?x] => set (c1 := x) in * end.
      assert (Hp : 0 <= pending c1).
      { unfold c1. destruct HD as (HD & _). destruct (_ <=? _); destruct d; csimp; auto; lia. }
      destruct (in_ok _); [|discriminate]. injection E as <- _. apply D_other; unfold toReceivingHeaders; [destruct (cst_eqb _ _); auto|]. destruct (cst_eqb (st c1) ReceivingHeaders) eqn:E; csimp; try discriminate.
      apply cst_eqb_eq in E. congruence.
    + now apply d_processInput.
    + unfold writeResponse. destruct (negb _); auto. apply d_writeHeaders.
      * intros c' H'. apply d_resp_tail; auto. eapply D_pop; [|exact H']. discriminate.
      * apply D_push. exact HD.
    + now apply d_writeHeaders.
    + now apply d_writeContent.
    + now apply d_endContent.
    + now apply d_toClosed.
    + now apply d_flush.
    + now apply d_drain.
  - destruct stk as [|[s| | | | | | | ] t]; try exact HD. eapply d_return; eauto.
  - destruct (_ && _); exact HD.
  - exact HD.
  - cbv zeta. csimp. destruct (drain_conn c); [|destruct HD; split; csimp; auto; lia]. apply d_drain; auto. destruct HD. split; csimp; auto; lia.
Qed.
Theorem reached_D c stk : reached c stk -> D c stk.
Proof.
  intros (l & P & E).
  enough (X : forall l g, (match g with Run c stk => Inv c stk /\ settled stk /\ D c stk | UB _ _ => True end) -> polite_run g l ->
    match run g l with Run c stk => D c stk | UB _ _ => True end).
  { specialize (X l start). rewrite E in X. apply X; auto. split; [apply start_ok|]. split; [exact I|]. apply D_other; [cbn; lia|discriminate]. }
  clear. induction l as [|a l IH]; intros g H HP.
  - destruct g; cbn; auto. apply H.
  - cbn [run fold_left]. cbn [polite_run] in HP. destruct HP as (HP & HP'). apply IH; auto. destruct g as [c stk|r c]; [|exact I].
    destruct H as (H1 & H2 & H3).
    pose proof (step_ok (Run c stk) a H1 HP) as S1. pose proof (step_settled (Run c stk) a H2) as S2.
    pose proof (d_step c stk a H1 H2 H3 HP) as S3. destruct (step (Run c stk) a); auto.
Qed.
