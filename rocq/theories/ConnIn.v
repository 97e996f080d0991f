(** No step lets go of the input device before closed was emitted (ConnStep.v redone for the device instead of the log). *)
From Verif Require Import Bytes ByteHelpers Thin Helpers Conn ConnStep.
Open Scope Z_scope.

Definition adds (P : obs -> Prop) (c : conn) (g : cfg) : Prop := in_ok (gconn g) = in_ok c.

Section Adds.
Variable P : obs -> Prop.

Definition quiet (c c' : conn) : Prop := in_ok c' = in_ok c.
Lemma adds_run c c' stk : quiet c c' -> settled stk -> adds P c (Run c' stk).
Proof. intros H _. exact H. Qed.
Lemma adds_ub c c' r : quiet c c' -> adds P c (UB r c').
Proof. intros H. exact H. Qed.
Lemma adds_quiet c c' g : quiet c c' -> adds P c' g -> adds P c g.
Proof. unfold quiet, adds. congruence. Qed.
Lemma adds_event o c c' g : P o -> quiet c c' -> adds P c' g -> adds P c g.
Proof. unfold quiet, adds. congruence. Qed.
Lemma adds_write b c k : P (OWrite b) -> (forall c, adds P c (k c)) -> adds P c (dev_write b c k).
Proof.
  intros H Hk. unfold dev_write. destruct (out_ok c); [|now apply adds_ub].
  eapply adds_event; [exact H| |apply Hk]. reflexivity.
Qed.
Lemma quiet_refl c : quiet c c. Proof. reflexivity. Qed.
Lemma quiet_reserve n c : quiet c (reserve n c).
Proof. unfold reserve. destruct (_ <? _); reflexivity. Qed.
Lemma quiet_read c : quiet c (read_input c).
Proof. unfold read_input. destruct (avail c); [reflexivity|]. unfold reserve. destruct (_ <? _); reflexivity. Qed.
Lemma quiet_trans a b c : quiet a b -> quiet b c -> quiet a c.
Proof. unfold quiet. congruence. Qed.

Variables (stk : list frame) (k : conn -> cfg).
Hypothesis Hk : forall c, adds P c (k c).

Lemma adds_flush c : (forall n, settled (KSig SWritten :: n)) -> adds P c (flush c stk k).
Proof. intros _. unfold flush. destruct (_ && _); auto. apply adds_run; cbn; auto. reflexivity. Qed.

Hypothesis Hclosed : P OClosed.

Lemma adds_toClosed c : P (OShut (pending c)) -> adds P c (toClosed c stk k).
Proof.
  intros H. unfold toClosed. destruct (cst_eqb _ _); auto. destruct (in_ok _ || out_ok _); reflexivity.
Qed.
Hypothesis Hshut : P (OShut 0).
Lemma adds_drain_tail c : adds P c (drain_tail c stk k).
Proof.
  unfold drain_tail. destruct (out_ok c && (pending c =? 0)) eqn:E; auto. apply adds_toClosed.
  apply andb_true_iff in E as (_ & E). apply Z.eqb_eq in E. now rewrite E.
Qed.
End Adds.

Section Adds2.
Variable P : obs -> Prop.
Hypothesis Hclosed : P OClosed.
Hypothesis Hshut : P (OShut 0).

Lemma adds_drain stk k c : (forall c, adds P c (k c)) -> adds P c (drain c stk k).
Proof.
  intros Hk. unfold drain. destruct (negb _); auto. apply adds_flush; [|cbn; auto].
  intros c'. apply adds_drain_tail; auto.
Qed.
Lemma adds_toFlushing stk k c : (forall c, adds P c (k c)) -> adds P c (toFlushing c stk k).
Proof.
  intros Hk. unfold toFlushing. destruct (cst_eqb _ _); auto.
  eapply adds_quiet; [|apply adds_drain]; [reflexivity|].
  intros c'. eapply adds_quiet; [|apply Hk]. unfold flushing_tail. destruct (_ && _); reflexivity.
Qed.

Hypothesis Herror : forall s, P (OWrite (error_text s)).
Hypothesis Hcontinue : P (OWrite (lit "HTTP/1.1 100 Continue" ++ CRLF ++ CRLF)).
Hypothesis Hready : forall r, P (OReady r).

Section Recv.
Variables (stk : list frame) (k : conn -> cfg).
Hypothesis Hk : forall c, adds P c (k c).
Lemma adds_error code c : adds P c (writeRequestErrorResponse code c stk k).
Proof.
  unfold writeRequestErrorResponse. destruct (cst_eqb _ _); auto. apply adds_write; auto.
  intros c'. now apply adds_toFlushing.
Qed.
Lemma adds_toSendingHeaders c : adds P c (toSendingHeaders c stk k).
Proof.
  unfold toSendingHeaders. destruct (cst_eqb _ _); auto. reflexivity.
Qed.
Lemma adds_check_content c : adds P c (check_content c stk k).
Proof. unfold check_content. destruct (_ <=? _); auto using adds_toSendingHeaders. Qed.
Lemma adds_next c : adds P c (let c2 := reserve (body_start (tp (ps c)) + cl c + 1) c in
      if in_ok c2 then check_content (read_input c2) stk k else UB NullInput c2).
Proof.
  cbv zeta. destruct (in_ok _).
  - eapply adds_quiet; [|apply adds_check_content]. eapply quiet_trans; [apply quiet_reserve|apply quiet_read].
  - apply adds_ub. apply quiet_reserve.
Qed.
Lemma adds_toReceivingContent c : adds P c (toReceivingContent c stk k).
Proof.
  unfold toReceivingContent. cbv zeta.
  match goal with |- adds _ _ (let '(_, _) := ?x in _) => set (X := x); assert (Q : quiet c (fst X)); [|destruct X as [c1 ok]; cbn [fst] in Q] end.
  { subst X. destruct (_ <=? _); [|reflexivity]. destruct (toInt _); reflexivity. }
  destruct (_ <? _); [eapply adds_quiet; [exact Q|apply adds_error]|].
  destruct (_ || _); [eapply adds_quiet; [exact Q|apply adds_error]|].
  destruct (_ <? _); [|eapply adds_quiet; [exact Q|apply adds_toSendingHeaders]].
  destruct (asciiEqualsCI_lower _ _).
  - eapply adds_quiet; [exact Q|]. apply adds_write; auto. intros c'. apply adds_next.
  - eapply adds_quiet; [exact Q|]. apply adds_next.
Qed.
Lemma adds_processInput c : adds P c (processInput c stk k).
Proof.
  unfold processInput. destruct (cst_eqb _ _).
  - destruct (negb _); [now apply adds_ub|]. cbv zeta.
    set (s := match buf _ with [] => _ | _ :: _ => _ end).
    assert (Q : quiet c (set_ps s (read_input c))) by (eapply quiet_trans; [apply quiet_read|reflexivity]).
    destruct (_ || _); [eapply adds_quiet; [exact Q|apply adds_error]|].
    destruct (is_finished _); eapply adds_quiet; try exact Q; auto using adds_toReceivingContent.
  - destruct (cst_eqb _ _); auto. destruct (negb _); [now apply adds_ub|].
    eapply adds_quiet; [apply quiet_read|apply adds_check_content].
Qed.
Lemma adds_flushc_tail c : adds P c (flushc_tail c stk k).
Proof.
  unfold flushc_tail. eapply adds_quiet; [|apply adds_processInput]. unfold toReceivingHeaders. destruct (cst_eqb _ _); reflexivity.
Qed.
End Recv.

Lemma quiet_release c : quiet c (release_request c).
Proof. unfold release_request. cbv zeta. destruct (_ <? _); [|destruct (_ <=? _)]; reflexivity. Qed.
Lemma adds_completed_tail stk k c : (forall c, adds P c (k c)) -> adds P c (completed_tail c stk k).
Proof.
  intros Hk. unfold completed_tail. cbv zeta. eapply adds_quiet; [apply quiet_release|].
  destruct (keepalive _); [|now apply adds_toFlushing]. apply adds_flush; [|cbn; auto]. intros c'. now apply adds_flushc_tail.
Qed.
Hypothesis Hcompleted : P OCompleted.
Lemma adds_toCompleted stk k c : (forall c, adds P c (k c)) -> adds P c (toCompleted c stk k).
Proof.
  intros Hk. unfold toCompleted. destruct (cst_eqb _ _); auto.
  reflexivity.
Qed.
Lemma adds_toSendingContent stk k c : (forall c, adds P c (k c)) -> adds P c (toSendingContent c stk k).
Proof.
  intros Hk. unfold toSendingContent. destruct (cst_eqb _ _); auto. cbv zeta.
  eapply adds_quiet with (c' := set_hbuf [] (set_st SendingContent c)); [reflexivity|].
  assert (K : forall c, adds P c (k (sending_tail c))).
  { intros c'. eapply adds_quiet; [|apply Hk]. unfold sending_tail. destruct (_ && _); reflexivity. }
  destruct (_ || _); auto. now apply adds_toCompleted.
Qed.
Lemma adds_writeHeaders code hs stk k c : (forall b, P (OWrite b)) -> (forall c, adds P c (k c)) -> adds P c (writeHeaders code hs c stk k).
Proof.
  intros Hw Hk. unfold writeHeaders. destruct (negb _); auto. cbv zeta.
  match goal with |- adds _ _ (let '(_, _) := ?x in _) => destruct x as [ch te] end. csimp.
  match goal with |- context [match ?x with Some _ => dev_write _ _ _ | None => _ end] => destruct x end.
  - match goal with |- adds _ _ (dev_write _ ?x _) => eapply (adds_quiet P c x); [reflexivity|] end.
    apply adds_write; auto. intros c'. now apply adds_toSendingContent.
  - apply adds_ub. reflexivity.
Qed.
Lemma adds_writeContent content stk k c : content = [] \/ (forall b, P (OWrite b)) -> (forall c, adds P c (k c)) ->
  adds P c (writeContent content c stk k).
Proof.
  intros Hw Hk. unfold writeContent. destruct (negb _); auto. destruct (_ =? _); auto. destruct (_ && _); auto.
  destruct (0 <? blen content) eqn:E; [|cbn [andb]; auto]. destruct (negb _); cbn [andb]; auto. cbv zeta.
  destruct Hw as [-> |Hw]; [discriminate E|].
  assert (F : forall c, adds P c (if rsent c =? rlen c then toCompleted c stk k else k c)) by (intros; destruct (_ =? _); auto using adds_toCompleted).
  eapply (adds_quiet P c (set_rsent (rsent c + blen content) c)); [reflexivity|].
  csimp. destruct (chunked c); [|apply adds_write; auto].
  destruct (appendNumber _ _); [|apply adds_ub; reflexivity].
  apply adds_write; auto. intros. apply adds_write; auto. intros. apply adds_write; auto.
Qed.
Lemma adds_resp_tail content stk k c : content = [] \/ (forall b, P (OWrite b)) -> (forall c, adds P c (k c)) ->
  adds P c (resp_tail content c stk k).
Proof.
  intros Hw Hk. unfold resp_tail. destruct content eqn:E; auto. destruct (_ && _); [apply adds_ub; reflexivity|].
  destruct (is_head _); auto. now apply adds_writeContent.
Qed.
Lemma adds_endContent stk k c : P (OWrite (lit "0" ++ CRLF ++ CRLF)) -> (forall c, adds P c (k c)) -> adds P c (endContent c stk k).
Proof.
  intros Hw Hk. unfold endContent. destruct (negb _); auto. destruct (_ <=? _); auto. destruct (chunked c).
  - apply adds_write; auto. intros. now apply adds_toCompleted.
  - eapply (adds_quiet P c (set_keepalive false c)); [reflexivity|]. now apply adds_toCompleted.
Qed.

Lemma adds_resume stk : ~ In KClosed stk -> (forall b, P (OWrite b)) -> forall c, adds P c (resume stk c).
Proof.
  induction stk as [|f t IH]; intros Hn Hw c; cbn [resume]; [apply adds_run; cbn; auto using quiet_refl|].
  assert (IH' : forall c, adds P c (resume t c)).
  { apply IH; auto. intros I. apply Hn. now right. }
  destruct f as [s| | | | | |content|].
  - apply adds_run; cbn; auto using quiet_refl.
  - now apply adds_completed_tail.
  - now apply adds_flushc_tail.
  - now apply adds_drain_tail.
  - eapply adds_quiet; [|apply IH']. unfold flushing_tail. destruct (_ && _); reflexivity.
  - eapply adds_quiet; [|apply IH']. unfold sending_tail. destruct (_ && _); reflexivity.
  - apply adds_resp_tail; auto.
  - exfalso. apply Hn. now left.
Qed.
End Adds2.

Lemma adds_op (P : obs -> Prop) o c stk : ~ In KClosed stk -> is_init o = false -> (forall b, P (OWrite b)) -> (forall r, P (OReady r)) -> P OCompleted -> P OClosed ->
  P (OShut 0) -> (o = OpClose -> forall p, P (OShut p)) -> adds P c (do_op o c stk).
Proof.
  intros Hn Hi Hw Hr Hc Hcl Hs Hcz. assert (K : forall c, adds P c (resume stk c)) by (apply adds_resume; auto).
  destruct o; cbn [do_op is_init] in *; try discriminate.
  - apply adds_processInput; auto.
  - unfold writeResponse. destruct (negb _); auto. eapply adds_quiet with (c' := set_rlen (blen content) c); [reflexivity|].
    apply adds_writeHeaders; auto. intros. apply adds_resp_tail; auto.
  - apply adds_writeHeaders; auto.
  - apply adds_writeContent; auto.
  - apply adds_endContent; auto.
  - apply adds_toClosed; auto.
  - apply adds_flush; auto. cbn; auto.
  - apply adds_drain; auto.
Qed.


(** the device is kept *)
Lemma step_in c stk a : ~ In KClosed stk -> resets a = false -> in_ok (gconn (step (Run c stk) a)) = in_ok c.
Proof.
  intros N H. assert (K : forall t, ~ In KClosed t -> forall c, in_ok (gconn (resume t c)) = in_ok c).
  { intros t Ht c0. apply (adds_resume (fun _ => True)); auto. }
  destruct a as [o| |b|n|n]; cbn [step].
  - apply (adds_op (fun _ => True)); auto.
  - destruct stk as [|[] t]; auto. apply K. intros I. apply N. now right.
  - destruct (_ && _); reflexivity.
  - reflexivity.
  - cbn zeta. destruct (drain_conn _); [|reflexivity].
    refine (eq_trans (adds_drain (fun _ => True) I stk (resume stk) (set_pending (pending c - Z.max 0 (Z.min n (pending c))) c) _) eq_refl).
    apply (adds_resume (fun _ => True)); auto.
Qed.
