(** The phases of a connection: receiving (or idle), answering a request, over (draining or closed); how each
    action moves between them and when a request is announced.  Used for the caches of the derived getters. *)
From Verif Require Import Bytes ByteHelpers Thin Helpers ReqGrammar TextSpec
  Conn ConnSpec ConnText ConnHead ConnInv ConnStep ConnEnd ConnLog PropsConn ConnSend ConnFree.
Open Scope Z_scope.

(** A request is being answered from requestReady until the slots of requestCompleted have returned. *)
Definition answering (c : conn) (stk : list frame) : Prop :=
  st c = SendingHeaders \/ st c = SendingContent \/ In (KSig SCompleted) stk.
Definition over (c : conn) : Prop := st c = Flushing \/ st c = Closed.

Definition calm_frame (f : frame) : Prop := f <> KSig SCompleted.
Definition NoC (stk : list frame) : Prop := ~ In (KSig SCompleted) stk.
Lemma NoC_push f t : calm_frame f -> NoC t -> NoC (f :: t).
Proof. intros H H' [E|E]; auto. Qed.
Lemma NoC_pop f t : NoC (f :: t) -> NoC t.
Proof. intros H I. apply H. now right. Qed.
Ltac cf := unfold calm_frame; discriminate.

(** ** From a state in which nothing is being answered *)
Section Idle.
Variables (A : list request) (S : cst -> Prop) (Gr : Prop).
Hypothesis S_fl : S Flushing.
Hypothesis S_cl : S Closed.
Definition OKi (g : cfg) : Prop :=
  match g with
  | Run c stk => announced (log c) = A /\ S (st c) /\ NoC stk \/ Gr /\ exists r, announced (log c) = A ++ [r] /\ st c = SendingHeaders
  | UB _ _ => True
  end.
Definition Pi (c : conn) : Prop := announced (log c) = A /\ S (st c).

Lemma i_run c stk : Pi c -> NoC stk -> OKi (Run c stk).
Proof. intros (H1 & H2) H3. now left. Qed.
Lemma ann_plain l o : (forall r, o <> OReady r) -> announced (l ++ [o]) = announced l.
Proof. intros H. rewrite announced_app. destruct o; cbn; rewrite ?app_nil_r; auto. now destruct (H r). Qed.
Lemma i_write b c k : (forall c', announced (log c') = announced (log c) -> st c' = st c -> OKi (k c')) -> OKi (dev_write b c k).
Proof. intros H. unfold dev_write. destruct (out_ok c); [|exact Logic.I]. apply H; auto. unfold emit_log; csimp. apply ann_plain. discriminate. Qed.
Section K.
Variables (stk : list frame) (k : conn -> cfg).
Hypothesis Hs : NoC stk.
Hypothesis Hk : forall c, Pi c -> OKi (k c).
Lemma i_flush c : Pi c -> OKi (flush c stk k).
Proof. intros H. unfold flush. destruct (_ && _); auto. apply i_run; [exact H|apply NoC_push; [cf|auto]]. Qed.
Lemma i_toClosed c : announced (log c) = A -> OKi (toClosed c stk k).
Proof.
  intros H. unfold toClosed. destruct (cst_eqb (st c) Closed) eqn:E.
  - apply cst_eqb_eq in E. apply Hk. split; auto. now rewrite E.
  - cbv zeta. apply i_run; [|apply NoC_push; [cf|apply NoC_push; [cf|auto]]].
    split; destruct (_ || _); unfold emit_log; csimp; auto; rewrite !ann_plain; auto; discriminate.
Qed.
Lemma i_drain_tail c : Pi c -> OKi (drain_tail c stk k).
Proof. intros H. unfold drain_tail. destruct (_ && _); auto. apply i_toClosed, H. Qed.
End K.
Lemma i_drain stk k c : NoC stk -> (forall c, Pi c -> OKi (k c)) -> Pi c -> OKi (drain c stk k).
Proof.
  intros Hs Hk H. unfold drain. destruct (negb _); auto. apply i_flush; auto; [apply NoC_push; [cf|auto]|]. intros. now apply i_drain_tail.
Qed.
Lemma i_flushing c : Pi c -> Pi (flushing_tail c).
Proof. intros H. unfold flushing_tail. destruct (_ && _); auto. Qed.
Lemma i_sending c : Pi c -> Pi (sending_tail c).
Proof. intros H. unfold sending_tail. destruct (_ && _); auto. Qed.
Lemma i_toFlushing stk k c : NoC stk -> (forall c, Pi c -> OKi (k c)) -> announced (log c) = A -> OKi (toFlushing c stk k).
Proof.
  intros Hs Hk H. unfold toFlushing. destruct (cst_eqb (st c) Flushing) eqn:E.
  - apply cst_eqb_eq in E. apply Hk. split; auto. now rewrite E.
  - apply i_drain; [apply NoC_push; [cf|auto]| |split; csimp; auto]. intros. now apply Hk, i_flushing.
Qed.
Section K2.
Hypothesis HGr : Gr.
Hypothesis S_rh : S ReceivingHeaders.
Hypothesis S_rc : S ReceivingContent.
Hypothesis S_co : S Completed.
Variables (stk : list frame) (k : conn -> cfg).
Hypothesis Hs : NoC stk.
Hypothesis Hk : forall c, Pi c -> OKi (k c).
Lemma i_error code c : Pi c -> OKi (writeRequestErrorResponse code c stk k).
Proof.
  intros H. unfold writeRequestErrorResponse. destruct (cst_eqb _ _); auto. apply i_write. intros c' E1 E2.
  apply i_toFlushing; auto. rewrite E1. apply H.
Qed.
Lemma i_toSendingHeaders c : Pi c -> OKi (toSendingHeaders c stk k).
Proof.
  intros H. unfold toSendingHeaders. destruct (cst_eqb _ _); auto. cbv zeta. right. split; auto. unfold emit_log; csimp.
  eexists. rewrite announced_app. cbn [announced]. rewrite (proj1 H). auto.
Qed.
Lemma i_read c : Pi c -> Pi (read_input c).
Proof. intros H. unfold read_input. destruct (avail c); auto. cbv zeta. unfold reserve. destruct (_ <? _); exact H. Qed.
Lemma i_check c : Pi c -> OKi (check_content c stk k).
Proof. intros H. unfold check_content. destruct (_ <=? _); auto. now apply i_toSendingHeaders. Qed.
Lemma i_toReceivingContent c : announced (log c) = A -> OKi (toReceivingContent c stk k).
Proof.
  intros H. unfold toReceivingContent. cbv zeta.
  match goal with |- context [let '(c0, ok) := ?x in _] => assert (E : Pi (fst x)); [|destruct x as (c1 & ok)] end.
  { destruct (0 <=? _); [destruct (toInt _)|]; now split. }
  cbn [fst] in E.
  destruct (_ <? _); [now apply i_error|]. destruct (_ || _); [now apply i_error|].
  destruct (0 <? cl c1); [|now apply i_toSendingHeaders].
  assert (X : forall c2, Pi c2 -> OKi (if in_ok (reserve (body_start (tp (ps c2)) + cl c2 + 1) c2)
     then check_content (read_input (reserve (body_start (tp (ps c2)) + cl c2 + 1) c2)) stk k else UB NullInput (reserve (body_start (tp (ps c2)) + cl c2 + 1) c2))).
  { intros c2 E2. destruct (in_ok _); [|exact Logic.I]. apply i_check, i_read. unfold reserve. destruct (_ <? _); exact E2. }
  destruct (asciiEqualsCI_lower _ _); [|now apply X].
  apply i_write. intros c' E1 E2. apply X. destruct E as (E3 & E4). split; congruence.
Qed.
Lemma i_processInput c : Pi c -> OKi (processInput c stk k).
Proof.
  intros H. unfold processInput. destruct (cst_eqb (st c) ReceivingHeaders) eqn:E1.
  - destruct (negb _); [exact Logic.I|]. cbv zeta. apply i_read in H.
    match goal with |- context [set_ps ?x ?y] => assert (N : Pi (set_ps x y)) by exact H; set (c1 := set_ps x y) in * end.
    destruct (_ || _); [now apply i_error|]. destruct (is_finished _); auto. apply i_toReceivingContent, N.
  - destruct (cst_eqb (st c) ReceivingContent) eqn:E2; auto.
    destruct (negb _); [exact Logic.I|]. now apply i_check, i_read.
Qed.
Lemma i_flushc c : announced (log c) = A -> OKi (flushc_tail c stk k).
Proof.
  intros H. unfold flushc_tail. apply i_processInput. unfold toReceivingHeaders. destruct (cst_eqb (st c) ReceivingHeaders) eqn:E.
  - apply cst_eqb_eq in E. split; auto. now rewrite E.
  - now split.
Qed.
Lemma i_completed_tail c : announced (log c) = A -> st c = Completed -> OKi (completed_tail c stk k).
Proof.
  intros HA E. unfold completed_tail. cbv zeta.
  assert (E' : st (release_request c) = Completed /\ log (release_request c) = log c)
    by (unfold release_request; cbv zeta; destruct (_ <? _); csimp; [|destruct (_ <=? _); csimp]; auto).
  destruct E' as (E1 & E2).
  destruct (keepalive _); [|apply i_toFlushing; auto; now rewrite E2].
  apply i_flush; [apply NoC_push; [cf|auto]| |split; rewrite ?E1, ?E2; auto]. intros c' (H1 & H2). now apply i_flushc.
Qed.
End K2.

(* resuming: frames below which nothing is pending from requestCompleted *)
Lemma i_resp_tail content stk k c : S (st c) -> ~ S SendingContent -> (forall c, Pi c -> OKi (k c)) -> Pi c -> OKi (resp_tail content c stk k).
Proof.
  intros HS HN Hk H. unfold resp_tail. destruct content; auto.
  destruct (_ && _); [exact Logic.I|]. destruct (is_head _); auto. unfold writeContent.
  destruct (cst_eqb (st c) SendingContent) eqn:E; cbn [negb]; auto. apply cst_eqb_eq in E. rewrite E in HS. contradiction.
Qed.
Lemma i_resume t : ~ S SendingContent -> Clo t -> forall c, Pi c -> OKi (resume t c).
Proof.
  intros HN. induction t as [|f t IH]; intros Ht c H; cbn [resume]; [apply i_run; auto; intros []|].
  assert (N : forall t, Clo t -> NoC t) by (intros t' Hc I; unfold Clo in Hc; rewrite Forall_forall in Hc; now apply Hc in I).
  pose proof Ht as Ht0. inversion_clear Ht as [|? ? Hf Ht']. specialize (IH Ht'). destruct f as [s| | | | | |content|]; try contradiction.
  - apply i_run; auto.
  - apply i_drain_tail; auto.
  - apply IH, i_flushing, H.
  - apply IH, i_sending, H.
  - apply i_resp_tail; auto. apply H.
  - apply IH. exact H.
Qed.
End Idle.

(** ** While a request is being answered *)
Section Busy.
Variable A : list request.
Definition OKb (g : cfg) : Prop :=
  match g with Run c stk => announced (log c) = A /\ (answering c stk \/ over c) | UB _ _ => True end.
Definition Pb (c : conn) : Prop := announced (log c) = A /\ (st c = SendingHeaders \/ st c = SendingContent \/ over c).
Lemma b_run c stk : Pb c -> OKb (Run c stk).
Proof. intros (H1 & H2). split; auto. unfold answering. tauto. Qed.
Lemma b_write b c k : (forall c', announced (log c') = announced (log c) -> st c' = st c -> OKb (k c')) -> OKb (dev_write b c k).
Proof. intros H. unfold dev_write. destruct (out_ok c); [|exact Logic.I]. apply H; auto. unfold emit_log; csimp. apply ann_plain. discriminate. Qed.
Section K.
Variables (stk : list frame) (k : conn -> cfg).
Hypothesis Hk : forall c, Pb c -> OKb (k c).
Lemma b_toClosed c : announced (log c) = A -> OKb (toClosed c stk k).
Proof.
  intros H. unfold toClosed. destruct (cst_eqb (st c) Closed) eqn:E.
  - apply cst_eqb_eq in E. apply Hk. split; auto. unfold over. auto.
  - cbv zeta. apply b_run. split; [|right; right; right]; destruct (_ || _); unfold emit_log; csimp; auto; rewrite !ann_plain; auto; discriminate.
Qed.
Lemma b_flush c : Pb c -> OKb (flush c stk k).
Proof. intros H. unfold flush. destruct (_ && _); auto. now apply b_run. Qed.
Lemma b_toCompleted c : st c <> Completed -> announced (log c) = A -> OKb (toCompleted c stk k).
Proof.
  intros Hs H. unfold toCompleted. replace (cst_eqb (st c) Completed) with false by (destruct (st c); auto; congruence).
  split; [unfold emit_log; csimp; rewrite ann_plain; auto; discriminate|]. left. right. right. now left.
Qed.
Lemma b_writeContent content c : Pb c -> OKb (writeContent content c stk k).
Proof.
  intros H. unfold writeContent. destruct (cst_eqb (st c) SendingContent) eqn:E; cbn [negb]; auto. apply cst_eqb_eq in E.
  destruct (_ =? _); auto. destruct (_ && _); auto. destruct (_ && _); auto.
  cbv zeta. csimp.
  assert (X : forall c', announced (log c') = A -> st c' = SendingContent -> OKb (if rsent c' =? rlen c' then toCompleted c' stk k else k c')).
  { intros c' E' H'. destruct (_ =? _); [apply b_toCompleted; auto; congruence|]. apply Hk. split; auto. }
  destruct H as (H & _).
  destruct (chunked c).
  - destruct (appendNumber _ _); [|exact Logic.I].
    apply b_write. intros c1 E1 F1. apply b_write. intros c2 E2 F2. apply b_write. intros c3 E3 F3. apply X.
    + rewrite E3, E2, E1. exact H.
    + rewrite F3, F2, F1. exact E.
  - apply b_write. intros c1 E1 F1. apply X; [rewrite E1; exact H|rewrite F1; exact E].
Qed.
Lemma b_resp_tail content c : Pb c -> OKb (resp_tail content c stk k).
Proof.
  intros H. unfold resp_tail. destruct content; auto.
  destruct (_ && _); [exact Logic.I|]. destruct (is_head _); auto. now apply b_writeContent.
Qed.
Lemma b_endContent c : Pb c -> OKb (endContent c stk k).
Proof.
  intros H. unfold endContent. destruct (cst_eqb (st c) SendingContent) eqn:E; cbn [negb]; auto. apply cst_eqb_eq in E.
  destruct (_ <=? _); auto. destruct H as (H & _). destruct (chunked c); [|apply b_toCompleted; csimp; auto; congruence].
  apply b_write. intros c' E1 E2. apply b_toCompleted; congruence.
Qed.
End K.
Lemma b_sending c : Pb c -> Pb (sending_tail c).
Proof. intros H. unfold sending_tail. destruct (_ && _); auto. Qed.
Lemma b_toSendingContent stk k c : (forall c, Pb c -> OKb (k c)) -> announced (log c) = A -> OKb (toSendingContent c stk k).
Proof.
  intros Hk H. unfold toSendingContent. destruct (cst_eqb (st c) SendingContent) eqn:E.
  - apply cst_eqb_eq in E. apply Hk. split; auto.
  - cbv zeta. destruct (_ || _); [apply b_toCompleted; auto; csimp; discriminate|]. apply Hk, b_sending. split; auto.
Qed.
Lemma b_writeHeaders code hs stk k c : (forall c, Pb c -> OKb (k c)) -> Pb c -> OKb (writeHeaders code hs c stk k).
Proof.
  intros Hk H. unfold writeHeaders. destruct (cst_eqb (st c) SendingHeaders) eqn:E; cbn [negb]; auto. apply cst_eqb_eq in E.
  destruct H as (H & _). cbv zeta.
  match goal with |- context [let '(chunk, te) := ?x in _] => destruct x as (chunk & te) end.
  match goal with |- context [match (if ?a then _ else _) with Some _ => _ | None => _ end] => destruct (if a then Some [] else _) end; [|exact Logic.I].
  apply b_write. csimp. intros c' E1 E2. apply b_toSendingContent; auto. rewrite E1. exact H.
Qed.
Lemma b_resume t : Base t -> forall c, Pb c -> OKb (resume t c).
Proof.
  induction t as [|f t IH]; intros Ht c H; cbn [resume]; [now apply b_run|].
  inversion_clear Ht as [|? ? Hf Ht']. specialize (IH Ht'). destruct f as [[]| | | | | |content|]; try contradiction.
  - now apply b_run.
  - now apply b_run.
  - apply IH, b_sending, H.
  - apply b_resp_tail; auto.
Qed.
End Busy.

(** ** One action *)
Definition is_init (a : action) : bool := match a with ACall (OpInit _) => true | _ => false end.
(* the actions in which the state of the finished request is released (331-341) *)
Definition releases (stk : list frame) (a : action) : bool :=
  match a, stk with
  | AReturn, KSig _ :: KCompleted :: _ => true
  | _, _ => false
  end.

Definition Sidle (s : cst) : Prop := s <> SendingHeaders /\ s <> SendingContent.
Definition Sover (s : cst) : Prop := s = Flushing \/ s = Closed.

Lemma clo_noc t : Clo t -> NoC t.
Proof. intros Hc I. unfold Clo in Hc; rewrite Forall_forall in Hc. now apply Hc in I. Qed.
Lemma base_noc t : Base t -> NoC t.
Proof. intros Hc. now apply clo_noc, Fin_Clo, Base_Fin. Qed.

Lemma idle_op A c stk o : settled stk -> NoC stk -> is_init (ACall o) = false -> Pi A Sidle c -> OKi A Sidle True (do_op o c stk).
Proof.
  intros HS HN Hi H.
  assert (K : forall c, Pi A Sidle c -> OKi A Sidle True (resume stk c)).
  { intros c' H'. rewrite settled_resume by auto. now apply i_run. }
  assert (Hst : cst_eqb (st c) SendingHeaders = false /\ cst_eqb (st c) SendingContent = false).
  { destruct H as (_ & H1 & H2). destruct (st c); split; auto; congruence. }
  destruct Hst as (E1 & E2).
  destruct o; cbn [do_op]; try discriminate.
  - apply i_processInput; auto; split; discriminate.
  - unfold writeResponse. rewrite E1. now apply K.
  - unfold writeHeaders. rewrite E1. now apply K.
  - unfold writeContent. rewrite E2. now apply K.
  - unfold endContent. rewrite E2. now apply K.
  - apply i_toClosed; auto; [split; discriminate|apply H].
  - apply i_flush; auto.
  - apply i_drain; auto; split; discriminate.
Qed.
Lemma over_op A c stk o : settled stk -> NoC stk -> is_init (ACall o) = false -> Pi A Sover c -> OKi A Sover False (do_op o c stk).
Proof.
  intros HS HN Hi H.
  assert (K : forall c, Pi A Sover c -> OKi A Sover False (resume stk c)).
  { intros c' H'. rewrite settled_resume by auto. now apply i_run. }
  pose proof H as (_ & Hs).
  destruct o; cbn [do_op]; try discriminate.
  - unfold processInput. destruct Hs as [-> | ->]; now apply K.
  - unfold writeResponse. destruct Hs as [-> | ->]; now apply K.
  - unfold writeHeaders. destruct Hs as [-> | ->]; now apply K.
  - unfold writeContent. destruct Hs as [-> | ->]; now apply K.
  - unfold endContent. destruct Hs as [-> | ->]; now apply K.
  - apply i_toClosed; auto; [now right|apply H].
  - apply i_flush; auto.
  - apply i_drain; auto; [now right].
Qed.
Lemma busy_op A c stk o : settled stk -> is_init (ACall o) = false -> st c = SendingHeaders \/ st c = SendingContent -> announced (log c) = A ->
  OKb A (do_op o c stk).
Proof.
  intros HS Hi Hst HA.
  assert (K : forall c, Pb A c -> OKb A (resume stk c)).
  { intros c' H'. rewrite settled_resume by auto. now apply b_run. }
  assert (H : Pb A c) by (split; tauto).
  destruct o; cbn [do_op]; try discriminate.
  - unfold processInput. destruct Hst as [-> | ->]; now apply K.
  - unfold writeResponse. destruct (negb _); [now apply K|]. apply b_writeHeaders; auto. intros. now apply b_resp_tail.
  - now apply b_writeHeaders.
  - now apply b_writeContent.
  - now apply b_endContent.
  - now apply b_toClosed.
  - now apply b_flush.
  - unfold drain. destruct Hst as [-> | ->]; now apply K.
Qed.

Inductive Phase (c : conn) (stk : list frame) (a : action) (c' : conn) (stk' : list frame) : Prop :=
| Ph_init : is_init a = true -> announced (log c') = [] -> ~ answering c' stk' -> ~ over c' -> Phase c stk a c' stk'
| Ph_over : is_init a = false -> over c -> over c' -> announced (log c') = announced (log c) -> Phase c stk a c' stk'
| Ph_busy : is_init a = false -> answering c stk -> releases stk a = false -> announced (log c') = announced (log c) ->
    answering c' stk' \/ over c' -> Phase c stk a c' stk'
| Ph_quiet : is_init a = false -> releases stk a = true \/ (~ answering c stk /\ ~ over c) ->
    announced (log c') = announced (log c) -> ~ answering c' stk' -> Phase c stk a c' stk'
| Ph_ready r : is_init a = false -> releases stk a = true \/ (~ answering c stk /\ ~ over c) ->
    announced (log c') = announced (log c) ++ [r] -> st c' = SendingHeaders -> Phase c stk a c' stk'.

Lemma quiet_phase c stk a c' stk' : is_init a = false -> releases stk a = true \/ (~ answering c stk /\ ~ over c) ->
  OKi (announced (log c)) Sidle True (Run c' stk') -> Phase c stk a c' stk'.
Proof.
  intros Hi Hr [(H1 & (H2 & H3) & H4)|(_ & r & H1 & H2)].
  - apply Ph_quiet; auto. intros [H|[H|H]]; auto.
  - eapply Ph_ready; eauto.
Qed.
Lemma over_phase c stk a c' stk' : is_init a = false -> over c ->
  OKi (announced (log c)) Sover False (Run c' stk') -> Phase c stk a c' stk'.
Proof. intros Hi Hr [(H1 & H2 & H3)|([] & _)]. now apply Ph_over. Qed.
Lemma busy_phase c stk a c' stk' : is_init a = false -> answering c stk -> releases stk a = false ->
  OKb (announced (log c)) (Run c' stk') -> Phase c stk a c' stk'.
Proof. intros Hi Ha Hr (H1 & H2). now apply Ph_busy. Qed.

Lemma other_phase c stk a c' stk' : is_init a = false -> releases stk a = false -> announced (log c') = announced (log c) -> st c' = st c -> stk' = stk ->
  Inv c stk -> Phase c stk a c' stk'.
Proof.
  intros Hi Hr HA Hst -> HI.
  assert (HX : answering c stk \/ over c \/ ~ answering c stk /\ ~ over c).
  { destruct HI as [Hu -> ? ? ? ? ?|H Hb|ms m more l s' t' H E Hw Hb|ms s' t' H E Hne Hw Hb|H Hf|H Hc].
    - right. right. split; [intros [X|[X|[]]]; congruence|intros [X|X]; congruence].
    - apply base_noc in Hb. destruct (st c) eqn:Es; auto; unfold answering, over; rewrite Es; auto; right; right; split; intros X; repeat (destruct X as [X|X]; try discriminate); auto.
    - left. right. right. rewrite E. apply in_app_iff. right. now left.
    - right. right. destruct H as [Hs]. split; [|intros [X|X]; congruence]. intros [X|[X|X]]; try congruence. rewrite E in X.
      apply in_app_iff in X as [X|[X|X]]; try discriminate.
      + unfold writes in Hw. rewrite Forall_forall in Hw. now apply Hw in X.
      + now apply base_noc in X.
    - right. left. destruct H as [(H & _)|(H & _)]; unfold over; auto.
    - right. left. destruct H as (H & _). now right. }
  destruct HX as [HX|[HX|HX]].
  - apply Ph_busy; auto. left. unfold answering in *. now rewrite Hst.
  - apply Ph_over; auto. unfold over in *. now rewrite Hst.
  - apply Ph_quiet; auto. unfold answering in *. rewrite Hst. apply HX.
Qed.

(* the step of a settled, invariant state *)
Lemma inv_idle c stk : Inv c stk -> ~ answering c stk -> ~ over c -> NoC stk /\ Sidle (st c).
Proof. intros HI Ha Ho. unfold answering in Ha. split; [intros I; tauto|]. split; intros E; tauto. Qed.

Lemma trh_state c : st (toReceivingHeaders c) = ReceivingHeaders /\ log (toReceivingHeaders c) = log c.
Proof. unfold toReceivingHeaders. destruct (cst_eqb (st c) ReceivingHeaders) eqn:E; [apply cst_eqb_eq in E; auto|split; reflexivity]. Qed.
Lemma init_state d c c1 s : initialize d c = Run c1 s -> (exists so data, d = NewDevice true true so data) -> st c1 = ReceivingHeaders /\ log c1 = [].
Proof.
  intros E Hd. unfold initialize in E.
  remember (match d with NewDevice hi ho so data => set_arrived data (set_log [] (set_drain_conn false (set_kcap 0 (set_pending 0 (set_sock so
                 (set_avail data (set_out_ok ho (set_in_ok hi c)))))))) | SameDevice => c end) as c0 eqn:E0.
  assert (El : log c0 = []) by (destruct Hd as (so & data & ->); rewrite E0; reflexivity). clear E0.
  destruct (_ && _); [discriminate|].
  match type of E with context [toReceivingHeaders ?x] => assert (El' : log x = log c0) by (destruct (_ <=? _); reflexivity); generalize dependent x end.
  intros x E El'. destruct (in_ok _); [|discriminate]. injection E as <- _. destruct (trh_state x). split; congruence.
Qed.
Lemma written_step c stk n : step (Run c stk) (AWritten n) =
  let c1 := set_pending (pending c - Z.max 0 (Z.min n (pending c))) c in if drain_conn c1 then drain c1 stk (resume stk) else Run c1 stk.
Proof. reflexivity. Qed.
Lemma written_phase c stk n c' stk' : Inv c stk -> settled stk -> step (Run c stk) (AWritten n) = Run c' stk' -> Phase c stk (AWritten n) c' stk'.
Proof.
  intros HI HS E. rewrite written_step in E. cbv zeta in E.
  generalize dependent (pending c - Z.max 0 (Z.min n (pending c))). intros p E.
  assert (E1 : st (set_pending p c) = st c) by reflexivity. assert (E2 : log (set_pending p c) = log c) by reflexivity.
  remember (set_pending p c) as c1 eqn:Ec. clear Ec.
  destruct (drain_conn c1); [|injection E as <- <-; apply other_phase; auto; now rewrite E2].
  destruct (cst_eqb (st c1) Flushing) eqn:Ef.
  - apply cst_eqb_eq in Ef. rewrite E1 in Ef. assert (Ho : over c) by (left; exact Ef). apply over_phase; auto.
    rewrite <- E.
    assert (HN : NoC stk).
    { destruct HI as [Hu Hk ? ? ? ? ?|H Hb|ms m more l s' t' H Es Hw Hb|ms s' t' H Es Hne Hw Hb|H Hf|H Hc].
      - subst. intros [].
      - now apply base_noc.
      - destruct H as [Hs]. congruence.
      - destruct H as [Hs]. congruence.
      - now apply clo_noc, Fin_Clo.
      - now apply clo_noc. }
    apply i_drain; auto; try (now right).
    + intros c0 H0. rewrite settled_resume by auto. now apply i_run.
    + split; [now rewrite E2|left; congruence].
  - unfold drain in E. rewrite Ef in E. cbn [negb] in E. rewrite settled_resume in E by auto. injection E as <- <-. apply other_phase; auto. now rewrite E2.
Qed.

Lemma init_phase d c stk c' stk' : polite c stk (ACall (OpInit d)) -> do_op (OpInit d) c stk = Run c' stk' -> Phase c stk (ACall (OpInit d)) c' stk'.
Proof.
  intros HP E. destruct HP as (-> & Hst & Hd). cbn [do_op] in E.
  destruct (initialize d c) as [c1 s1|] eqn:Ei; [|discriminate]. cbn [resume] in E. injection E as <- <-.
  destruct (init_state _ _ _ _ Ei Hd) as (X1 & X2). apply Ph_init; auto.
  - now rewrite X2.
  - intros [X|[X|[]]]; congruence.
  - intros [X|X]; congruence.
Qed.
Lemma call_phase o c stk c' stk' : Inv c stk -> settled stk -> polite c stk (ACall o) -> is_init (ACall o) = false -> do_op o c stk = Run c' stk' -> Phase c stk (ACall o) c' stk'.
Proof.
  intros HI HS HP Hi E.
  pose proof HI as HI'.
  destruct HI as [Hu Hk ? ? ? ? ?|H Hb|ms m more l s' t' H Es Hw Hb|ms s' t' H Es Hne Hw Hb|H Hf|H Hc].
  * apply quiet_phase; auto. { right. subst. split; [intros [X|[X|[]]]; congruence|intros [X|X]; congruence]. }
    rewrite <- E. apply idle_op; auto; [subst; intros []|]. split; auto. rewrite Hu. split; discriminate.
  * apply base_noc in Hb.
    assert (D : (st c = SendingHeaders \/ st c = SendingContent) \/ st c = ReceivingHeaders \/ st c = ReceivingContent).
    { destruct H as [(ms & [] & _)|[(ms & h & l & hb & rest & [] & _)|[(ms & m & more & l & [])|(ms & m & more & l & a & len & pcs & evs & [])]]]; auto. }
    destruct D as [D|D].
    -- apply busy_phase; auto; [unfold answering; tauto|]. rewrite <- E. now apply busy_op.
    -- apply quiet_phase; auto.
       { right. split; [intros [X|[X|X]]; try now apply Hb in X|intros [X|X]]; destruct D; congruence. }
       rewrite <- E. apply idle_op; auto. split; auto. destruct D as [-> | ->]; split; discriminate.
  * assert (Ha : answering c stk) by (right; right; rewrite Es; apply in_app_iff; right; now left).
    assert (Hst : st c = Completed) by apply H.
    apply busy_phase; auto. rewrite <- E. rewrite (completed_op o c stk (resume stk)); auto.
    2: intros d ->; discriminate. 2: intros ->; now apply HP.
    assert (K : OKb (announced (log c)) (resume stk c)) by (rewrite settled_resume by auto; split; auto).
    destruct o; auto. unfold flush. destruct (_ && _); auto. split; auto. left. right. right. right. rewrite Es. apply in_app_iff. right. now left.
  * assert (Hst : st c = Completed) by apply H.
    assert (N : NoC stk).
    { intros X. rewrite Es in X. apply in_app_iff in X as [X|[X|X]]; try discriminate; [|now apply base_noc in X].
      unfold writes in Hw. rewrite Forall_forall in Hw. now apply Hw in X. }
    apply quiet_phase; auto. { right. split; [intros [X|[X|X]]; auto; congruence|intros [X|X]; congruence]. }
    rewrite <- E. apply idle_op; auto. split; auto. rewrite Hst. split; discriminate.
  * assert (Ho : over c) by (destruct H as [(H & _)|(H & _)]; unfold over; auto).
    apply over_phase; auto. rewrite <- E. apply over_op; auto; [now apply clo_noc, Fin_Clo|]. split; auto.
  * assert (Ho : over c) by (destruct H as (H & _); unfold over; auto).
    apply over_phase; auto. rewrite <- E. apply over_op; auto; [now apply clo_noc|]. split; auto.
Qed.
Lemma return_phase c stk c' stk' : Inv c stk -> settled stk ->
  (match stk with KSig _ :: t => resume t c | _ => Run c stk end) = Run c' stk' -> Phase c stk AReturn c' stk'.
Proof.
  intros HI HS E.
    destruct HI as [Hu Hk ? ? ? ? ?|H Hb|ms m more l s' t' H Es Hw Hb|ms s' t' H Es Hne Hw Hb|H Hf|H Hc].
    + subst stk. injection E as <- <-. apply Ph_quiet; auto; [right; split|]; try (intros [X|[X|[]]]; congruence). intros [X|X]; congruence.
    + destruct stk as [|f t].
      { injection E as <- <-. apply other_phase; auto. now apply I_live. }
      inversion_clear Hb as [|? ? Hf Hb']. pose proof (base_noc _ Hb') as Nt.
      destruct f as [s| | | | | | |]; try contradiction; try (destruct HS; fail).
      assert (Hr : releases (KSig s :: t) AReturn = false) by (destruct t as [|[] t]; auto; inversion_clear Hb'; contradiction).
      assert (Nk : NoC (KSig s :: t)) by (apply NoC_push; auto; destruct s; try contradiction; cf).
      assert (D : (st c = SendingHeaders \/ st c = SendingContent) \/ st c = ReceivingHeaders \/ st c = ReceivingContent).
      { destruct H as [(ms & [] & _)|[(ms & h & l & hb & rest & [] & _)|[(ms & m & more & l & [])|(ms & m & more & l & a & len & pcs & evs & [])]]]; auto. }
      destruct D as [D|D].
      * apply busy_phase; auto; [unfold answering; tauto|]. rewrite <- E. apply b_resume; auto. split; tauto.
      * apply quiet_phase; auto.
        { right. split; [intros [X|[X|X]]; try now apply Nk in X|intros [X|X]]; destruct D; congruence. }
        rewrite <- E. apply i_resume; try (split; discriminate); try (intros [X Y]; congruence).
        -- now apply Fin_Clo, Base_Fin.
        -- split; auto. destruct D as [-> | ->]; split; discriminate.
    + destruct s' as [|f s'].
      * cbn in Es. subst stk. apply quiet_phase; auto. rewrite <- E. cbn [resume].
        apply i_completed_tail; auto; try (split; discriminate); [now apply base_noc| |apply H].
        intros c0 H0. apply i_resume; auto; try (split; discriminate); [intros [X Y]; congruence|now apply Fin_Clo, Base_Fin].
      * inversion_clear Hw as [|? ? Hf Hw']. subst f. subst stk. cbn [app] in *.
        assert (Es : resume (s' ++ KSig SCompleted :: KCompleted :: t') c = Run c (s' ++ KSig SCompleted :: KCompleted :: t')).
        { destruct s' as [|f' s'']; [reflexivity|]. inversion_clear Hw'. subst f'. reflexivity. }
        rewrite Es in E. injection E as <- <-.
        assert (Ha : answering c (s' ++ KSig SCompleted :: KCompleted :: t')) by (right; right; apply in_app_iff; right; now left).
        apply busy_phase; auto.
        -- right. right. right. apply in_app_iff. right. now left.
        -- destruct s' as [|f' s'']; [reflexivity|]. inversion_clear Hw'. subst f'. reflexivity.
        -- split; auto.
    + destruct s' as [|f s']; [now destruct Hne|].
      assert (Hst : st c = Completed) by apply H.
      assert (N : NoC stk).
      { intros X. rewrite Es in X. apply in_app_iff in X as [X|[X|X]]; try discriminate; [|now apply base_noc in X].
        unfold writes in Hw. rewrite Forall_forall in Hw. now apply Hw in X. }
      inversion_clear Hw as [|? ? Hf Hw']. subst f. subst stk. cbn [app] in *.
      apply quiet_phase; auto. { right. split; [intros [X|[X|X]]; auto; congruence|intros [X|X]; congruence]. }
      rewrite <- E. destruct s' as [|f' s''].
      * cbn [app resume]. apply i_flushc; auto; try (split; discriminate); [now apply base_noc|].
        intros c0 H0. apply i_resume; auto; try (split; discriminate); [intros [X Y]; congruence|now apply Fin_Clo, Base_Fin].
      * inversion_clear Hw'. subst f'. apply i_run; [|now apply NoC_pop in N]. split; auto. rewrite Hst. split; discriminate.
    + assert (Ho : over c) by (destruct H as [(H & _)|(H & _)]; unfold over; auto).
      destruct stk as [|f t]; [injection E as <- <-; now apply Ph_over|]. destruct f as [s| | | | | | |]; try (destruct HS; fail).
      inversion_clear Hf as [|? ? Hf1 Hf2]. apply over_phase; auto. rewrite <- E. apply i_resume; try (now left); try (now right); [intros [X|X]; discriminate|now apply Fin_Clo|].
      split; auto.
    + assert (Ho : over c) by (destruct H as (H & _); unfold over; auto).
      destruct stk as [|f t]; [injection E as <- <-; now apply Ph_over|]. destruct f as [s| | | | | | |]; try (destruct HS; fail).
      inversion_clear Hc as [|? ? Hf1 Hf2]. apply over_phase; auto. rewrite <- E. apply i_resume; try (now left); try (now right); [intros [X|X]; discriminate|auto|].
      split; auto.
Qed.
Theorem phase_step c stk a c' stk' : Inv c stk -> settled stk -> polite c stk a -> step (Run c stk) a = Run c' stk' -> Phase c stk a c' stk'.
Proof.
  intros HI HS HP E. destruct a as [o| |b|n|n].
  - destruct (is_init (ACall o)) eqn:Hi.
    + destruct o; try discriminate. exact (init_phase _ _ _ _ _ HP E).
    + exact (call_phase _ _ _ _ _ HI HS HP Hi E).
  - exact (return_phase _ _ _ _ HI HS E).
  - unfold step in E. destruct (_ && _); injection E as <- <-; apply other_phase; auto.
  - injection E as <- <-. apply other_phase; auto.
  - exact (written_phase _ _ _ _ _ HI HS E).
Qed.
