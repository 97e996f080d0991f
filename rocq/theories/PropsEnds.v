(** C85: why a connection ends.  A connection that waits for bytes, answers or has just answered ends (is drained, then closed) only when close() is
    called (by the user, or because the peer or the device went away), when it refuses what it received (and then the refusal is the last thing it wrote),
    or when an answer that does not keep the connection has been completed. *)
From Verif Require Import Bytes ByteHelpers Thin Helpers ReqGrammar TextSpec
  Conn ConnSpec ConnText ConnHead ConnInv ConnStep ConnEnd ConnLog PropsConn ConnSend ConnFree ConnPhase.
Open Scope Z_scope.

Definition refused_with (s : string) : Prop := s = "400 Bad Request"%string \/ s = "413 Request Entity Too Large"%string.
(** the log l goes on from L, ending with a refusal *)
Definition refused (L l : list obs) : Prop := exists w s e, refused_with s /\ Ending e /\ l = L ++ w ++ [OWrite (refusal s)] ++ e.

Section Ends.
Variable L : list obs.
Definition more (c : conn) : Prop := exists w, log c = L ++ w.
Definition Ref (c : conn) : Prop := exists w s, refused_with s /\ log c = L ++ w ++ [OWrite (refusal s)].
Record Pe (c : conn) : Prop := { pe_more : more c; pe_fl : st c = Flushing -> Ref c; pe_cl : st c = Closed -> refused L (log c) }.
Definition OKe (g : cfg) : Prop := match g with Run c _ => Pe c | UB _ _ => True end.
Lemma more_add c c' e : more c -> log c' = log c ++ e -> more c'.
Proof. intros (w & E) Q. exists (w ++ e). now rewrite Q, E, app_assoc. Qed.
Lemma Pe_live c : more c -> ~ over c -> Pe c.
Proof. intros M N. constructor; auto; intros S; exfalso; apply N; [now left|now right]. Qed.
Lemma Pe_same c c' : Pe c -> log c' = log c -> st c' = st c -> Pe c'.
Proof. intros [M F C] E S. constructor; unfold more, Ref in *; rewrite ?E, ?S; auto. Qed.
Lemma e_write b c k : (forall c', log c' = log c ++ [OWrite b] -> st c' = st c -> OKe (k c')) -> OKe (dev_write b c k).
Proof. intros H. unfold dev_write. destruct (out_ok c); [|exact Logic.I]. apply H; unfold emit_log; csimp; auto. Qed.
Section K.
Variables (stk : list frame) (k : conn -> cfg).
Hypothesis Hk : forall c, Pe c -> OKe (k c).
Lemma e_flush c s' k' : (forall c, Pe c -> OKe (k' c)) -> Pe c -> OKe (flush c s' k').
Proof. intros H P. unfold flush. destruct (_ && _); auto. apply (Pe_same c); auto. Qed.
Lemma e_drain_tail c : Pe c -> st c = Flushing -> OKe (drain_tail c stk k).
Proof.
  intros P S. unfold drain_tail. destruct (_ && _); auto. unfold toClosed. rewrite S. cbn [cst_eqb]. cbv zeta.
  destruct P as [_ F _]. destruct (F S) as (w & s & Hs & E).
  assert (G : forall e, Ending e -> OKe (Run (set_st Closed c) stk) -> True) by auto. clear G.
  destruct (_ || _); cbn [OKe]; constructor; unfold emit_log; csimp; try discriminate.
  - exists (w ++ [OWrite (refusal s)] ++ [OShut (pending c)] ++ [OClosed]). unfold emit_log; csimp. now rewrite E, <- !app_assoc.
  - intros _. exists w, s, [OShut (pending c); OClosed]. split; [exact Hs|]. split; [constructor|]. now rewrite E, <- !app_assoc.
  - exists (w ++ [OWrite (refusal s)] ++ [OClosed]). unfold emit_log; csimp. now rewrite E, <- !app_assoc.
  - intros _. exists w, s, [OClosed]. split; [exact Hs|]. split; [constructor|]. now rewrite E, <- !app_assoc.
Qed.
End K.
Lemma e_toFlushing stk k c : (forall c, Pe c -> OKe (k c)) -> Ref c -> ~ over c -> OKe (toFlushing c stk k).
Proof.
  intros Hk R N. unfold toFlushing. destruct (cst_eqb (st c) Flushing) eqn:S; [apply cst_eqb_eq in S; exfalso; apply N; now left|].
  unfold drain. csimp. cbn [cst_eqb negb].
  assert (P : Pe (set_st Flushing c)).
  { constructor; csimp; try discriminate; [|auto]. destruct R as (w & s & _ & E). eexists. exact E. }
  assert (T : forall c, Pe c -> OKe (k (flushing_tail c))).
  { intros c0 P0. apply Hk, (Pe_same c0); auto; unfold flushing_tail; destruct (_ && _); auto. }
  unfold flush. destruct (_ && _).
  - apply (Pe_same _ _ P); auto.
  - apply e_drain_tail; auto.
Qed.
Lemma e_error code stk k c : code = 400 \/ code = 413 -> (forall c, Pe c -> OKe (k c)) -> more c -> ~ over c -> OKe (writeRequestErrorResponse code c stk k).
Proof.
  intros C Hk M N. unfold writeRequestErrorResponse. destruct (cst_eqb (st c) Closed) eqn:S; [apply cst_eqb_eq in S; exfalso; apply N; now right|].
  cbv zeta. apply e_write. intros c' E Es. apply e_toFlushing; auto; [|unfold over in *; now rewrite Es].
  destruct M as (w & Ew). destruct C as [-> | ->].
  - exists w, "400 Bad Request"%string. split; [now left|]. rewrite E, Ew, <- app_assoc. reflexivity.
  - exists w, "413 Request Entity Too Large"%string. split; [now right|]. rewrite E, Ew, <- app_assoc. reflexivity.
Qed.
Ltac nov := unfold over in *; csimp; intuition congruence.
Lemma e_ready stk k c : (forall c, Pe c -> OKe (k c)) -> more c -> ~ over c -> OKe (toSendingHeaders c stk k).
Proof.
  intros Hk M N. unfold toSendingHeaders. destruct (cst_eqb (st c) SendingHeaders) eqn:S; [apply Hk; now apply Pe_live|]. cbv zeta. cbn [OKe].
  apply Pe_live; [|unfold emit_log; nov]. eapply more_add; [exact M|]. unfold emit_log; csimp. reflexivity.
Qed.
Lemma e_check stk k c : (forall c, Pe c -> OKe (k c)) -> more c -> ~ over c -> OKe (check_content c stk k).
Proof. intros Hk M N. unfold check_content. destruct (_ <=? _); [now apply e_ready|apply Hk; now apply Pe_live]. Qed.
Lemma log_read c : log (read_input c) = log c /\ st (read_input c) = st c.
Proof. unfold read_input. destruct (avail c); auto. unfold reserve. cbv zeta. destruct (_ <? _); auto. Qed.
Lemma log_reserve n c : log (reserve n c) = log c /\ st (reserve n c) = st c.
Proof. unfold reserve. destruct (_ <? _); auto. Qed.
Lemma same_more c c' : log c' = log c /\ st c' = st c -> more c -> ~ over c -> more c' /\ ~ over c'.
Proof. intros (E & S) M N. unfold more, over in *. rewrite E, S. auto. Qed.
Lemma e_content stk k c : (forall c, Pe c -> OKe (k c)) -> more c -> OKe (toReceivingContent c stk k).
Proof.
  intros Hk M. unfold toReceivingContent. cbv zeta.
  assert (Q : forall c, more c -> ~ over c -> OKe (let c2 := reserve (body_start (tp (ps c)) + cl c + 1) c in if in_ok c2 then check_content (read_input c2) stk k else UB NullInput c2)).
  { intros c0 M0 N0. cbv zeta. destruct (in_ok _); [|exact Logic.I].
    destruct (same_more _ _ (log_reserve (body_start (tp (ps c0)) + cl c0 + 1) c0) M0 N0) as (M1 & N1). destruct (same_more _ _ (log_read _) M1 N1). now apply e_check. }
  cbv zeta in Q.
  match goal with |- OKe (let '(_, _) := ?x in _) => assert (X : log (fst x) = log c /\ st (fst x) = ReceivingContent) by
    (destruct (0 <=? _); [destruct (toInt _)|]; cbn [fst]; csimp; auto); destruct x as [c1 ok]; cbn [fst] in X end.
  destruct X as (X1 & X2). assert (M1 : more c1) by (unfold more in *; now rewrite X1). assert (N1 : ~ over c1) by (unfold over; rewrite X2; intuition discriminate).
  destruct (cl c1 <? 0); [apply e_error; auto|]. destruct (_ || _); [apply e_error; auto|]. destruct (0 <? cl c1); [|now apply e_ready].
  destruct (asciiEqualsCI_lower _ _); [|now apply Q]. apply e_write. intros c' E Es. apply Q; [eapply more_add; eauto|unfold over in *; now rewrite Es].
Qed.
Lemma e_process stk k c : (forall c, Pe c -> OKe (k c)) -> more c -> ~ over c -> OKe (processInput c stk k).
Proof.
  intros Hk M N. unfold processInput. destruct (same_more _ _ (log_read c) M N) as (M1 & N1).
  destruct (cst_eqb _ ReceivingHeaders).
  - destruct (negb _); [exact Logic.I|]. cbv zeta. set (s := match buf _ with [] => _ | _ => _ end).
    assert (M2 : more (set_ps s (read_input c))) by exact M1. assert (N2 : ~ over (set_ps s (read_input c))) by exact N1.
    destruct (_ || _); [apply e_error; auto|]. destruct (Thin.is_finished _); [now apply e_content|apply Hk; now apply Pe_live].
  - destruct (cst_eqb _ ReceivingContent); [|apply Hk; now apply Pe_live]. destruct (negb _); [exact Logic.I|]. now apply e_check.
Qed.
Lemma e_completed stk k c : (forall c, Pe c -> OKe (k c)) -> more c -> OKe (toCompleted c stk k).
Proof.
  intros Hk M. unfold toCompleted. destruct (cst_eqb _ _) eqn:S; [apply cst_eqb_eq in S; apply Hk, Pe_live; auto; unfold over; rewrite S; intuition discriminate|].
  cbn [OKe]. apply Pe_live; [|unfold emit_log; unfold over; csimp; intuition discriminate]. eapply more_add; [exact M|]. unfold emit_log; csimp. reflexivity.
Qed.
Lemma e_sending_tail c : Pe c -> Pe (sending_tail c).
Proof. intros P. unfold sending_tail. destruct (_ && _); [|exact P]. now apply (Pe_same c). Qed.
Lemma e_sending stk k c : (forall c, Pe c -> OKe (k c)) -> more c -> OKe (toSendingContent c stk k).
Proof.
  intros Hk M. unfold toSendingContent. destruct (cst_eqb _ _) eqn:S; [apply cst_eqb_eq in S; apply Hk, Pe_live; auto; unfold over; rewrite S; intuition discriminate|].
  cbv zeta. destruct (_ || _); [apply e_completed; auto; intros; now apply Hk, e_sending_tail|]. apply Hk, e_sending_tail, Pe_live; [exact M|unfold over; csimp; intuition discriminate].
Qed.
Lemma e_headers code hs stk k c : (forall c, Pe c -> OKe (k c)) -> Pe c -> OKe (writeHeaders code hs c stk k).
Proof.
  intros Hk P. unfold writeHeaders. destruct (negb _); [now apply Hk|]. pose proof (pe_more _ P) as M. cbv zeta.
  match goal with |- OKe (let '(_, _) := ?x in _) => destruct x as [chunk te] end.
  match goal with |- OKe (match ?x with Some _ => _ | None => _ end) => destruct x as [ll|] end; [|exact Logic.I].
  apply e_write. intros c' E _. apply e_sending; auto. eapply more_add; [exact M|exact E].
Qed.
Lemma e_wcontent x stk k c : (forall c, Pe c -> OKe (k c)) -> Pe c -> OKe (writeContent x c stk k).
Proof.
  intros Hk P. unfold writeContent. destruct (negb (cst_eqb _ _)) eqn:S; [now apply Hk|]. destruct (_ =? _); auto. destruct (_ && _); auto. destruct (_ && _); auto. cbv zeta.
  apply negb_false_iff, cst_eqb_eq in S. pose proof (pe_more _ P) as M.
  assert (F : forall c, more c -> st c = SendingContent -> OKe (if rsent c =? rlen c then toCompleted c stk k else k c)).
  { intros c0 M0 S0. destruct (_ =? _); [now apply e_completed|]. apply Hk, Pe_live; auto. unfold over. rewrite S0. intuition discriminate. }
  destruct (chunked _).
  - destruct (appendNumber _ _); [|exact Logic.I]. apply e_write. intros c1 E1 S1. apply e_write. intros c2 E2 S2. apply e_write. intros c3 E3 S3.
    apply F; [|rewrite S3, S2, S1; exact S]. eapply more_add; [|exact E3]. eapply more_add; [|exact E2]. eapply more_add; [|exact E1]. exact M.
  - apply e_write. intros c1 E1 S1. apply F; [|rewrite S1; exact S]. eapply more_add; [|exact E1]. exact M.
Qed.
Lemma e_rtail x stk k c : (forall c, Pe c -> OKe (k c)) -> Pe c -> OKe (resp_tail x c stk k).
Proof. intros H P. unfold resp_tail. destruct x; auto. destruct (_ && _); [exact Logic.I|]. destruct (is_head _); auto. now apply e_wcontent. Qed.
Lemma e_response code hs x stk k c : (forall c, Pe c -> OKe (k c)) -> Pe c -> OKe (writeResponse code hs x c stk k).
Proof. intros Hk P. unfold writeResponse. destruct (negb _); auto. apply e_headers; [intros; now apply e_rtail|]. now apply (Pe_same c). Qed.
Lemma e_end stk k c : (forall c, Pe c -> OKe (k c)) -> Pe c -> OKe (endContent c stk k).
Proof.
  intros Hk P. pose proof (pe_more _ P) as M. unfold endContent. destruct (negb _); auto. destruct (_ <=? _); auto. destruct (chunked c).
  - apply e_write. intros c' E _. apply e_completed; auto. eapply more_add; eauto.
  - now apply e_completed.
Qed.
Lemma e_resume t : Base t -> forall c, Pe c -> OKe (resume t c).
Proof.
  induction 1 as [|f t Hf Ht IH]; intros c P; [exact P|]. destruct f as [| | | | | |x|]; try contradiction; cbn [resume]; auto.
  - apply IH. now apply e_sending_tail.
  - now apply e_rtail.
Qed.
Lemma e_flushc t c : Base t -> more c -> st c = Completed -> OKe (flushc_tail c t (resume t)).
Proof.
  intros B M S. unfold flushc_tail.
  assert (X : log (toReceivingHeaders c) = log c /\ ~ over (toReceivingHeaders c)).
  { unfold toReceivingHeaders, over. rewrite S. cbn [cst_eqb]. cbv zeta. split; [reflexivity|]. csimp. intuition discriminate. }
  apply e_process; [now apply e_resume|unfold more in *; now rewrite (proj1 X)|apply X].
Qed.
End Ends.

Lemma step_ends c stk a c' stk' : reached c stk -> resets a = false -> a <> ACall OpClose -> ~ over c -> step (Run c stk) a = Run c' stk' ->
  (exists s t, stk = KSig s :: KCompleted :: t /\ a = AReturn /\ keepalive c = false) \/ Pe (log c) c'.
Proof.
  intros R Rs Nc N E. pose proof (reached_settled' _ _ R) as T.
  assert (P : Pe (log c) c) by (apply Pe_live; auto; exists []; now rewrite app_nil_r).
  assert (K : forall c1, Pe (log c) c1 -> OKe (log c) (resume stk c1)) by (intros; now rewrite settled_resume).
  assert (G : (exists s t, stk = KSig s :: KCompleted :: t /\ a = AReturn /\ keepalive c = false) \/ OKe (log c) (step (Run c stk) a)).
  { destruct a as [o| |b|n|n]; cbn [step].
    - right. destruct o as [d| |code hs x|code hs|x| | | |]; try discriminate; try congruence; cbn [do_op].
      + apply e_process; auto. apply P.
      + now apply e_response.
      + now apply e_headers.
      + now apply e_wcontent.
      + now apply e_end.
      + now apply e_flush.
      + unfold drain. replace (cst_eqb (st c) Flushing) with false; [now apply K|]. destruct (cst_eqb (st c) Flushing) eqn:S; auto. apply cst_eqb_eq in S. exfalso. apply N. now left.
    - clear K. pose proof (reached_inv _ _ R) as V. destruct V as [_ -> _ _ _ _ _|_ B|ms m mo l s t H -> W B|ms s t H -> Ns W B|[(H & _)|(H & _)] _|(H & _) _].
      + now right.
      + right. destruct stk as [|[g| | | | | | |] t]; try exact P. inversion_clear B. now apply e_resume.
      + destruct s as [|f s]; cbn [app] in *.
        * pose proof (c1_st _ _ _ _ _ H) as S. destruct (keepalive c) eqn:Ka; [|left; eauto]. right. cbn [resume]. unfold completed_tail. cbv zeta.
          assert (X : log (release_request c) = log c /\ st (release_request c) = st c /\ keepalive (release_request c) = keepalive c).
          { unfold release_request. cbv zeta. destruct (0 <? _); [auto|]. destruct (_ <=? _); auto. }
          destruct X as (X1 & X2 & X3). rewrite X3, Ka. unfold flush. destruct (_ && _).
          -- apply (Pe_same _ c); auto.
          -- apply e_flushc; auto; [exists []; now rewrite app_nil_r|congruence].
        * right. inversion_clear W as [|? ? Wf Ws]. subst f. rewrite settled_resume; [exact P|].
          clear - Ws. destruct Ws as [|f s Hf _]; cbn [app]; [exact Logic.I|]. subst f. exact Logic.I.
      + right. destruct s as [|f s]; [congruence|]. cbn [app] in *. inversion_clear W as [|? ? Wf Ws]. subst f.
        destruct Ws as [|f s Hf Ws]; cbn [app]; [|subst f; exact P]. cbn [resume]. apply e_flushc; auto; [exists []; now rewrite app_nil_r|apply H].
      + exfalso. apply N. now left.
      + exfalso. apply N. now right.
      + exfalso. apply N. now right.
    - right. destruct (_ && _); [|exact P]. now apply (Pe_same _ c).
    - right. now apply (Pe_same _ c).
    - right. cbv zeta. destruct (drain_conn _); [|now apply (Pe_same _ c)]. unfold drain. csimp.
      replace (cst_eqb (st c) Flushing) with false; [now apply K, (Pe_same _ c)|]. destruct (cst_eqb (st c) Flushing) eqn:S; auto. apply cst_eqb_eq in S. exfalso. apply N. now left. }
  rewrite E in G. exact G.
Qed.
(** One step: whatever is done to a connection that is not over. *)
Theorem C85_cause : forall c stk a c' stk', reached c stk -> resets a = false -> ~ over c -> step (Run c stk) a = Run c' stk' -> over c' ->
  a = ACall OpClose
  \/ refused (log c) (log c')
  \/ a = AReturn /\ exists rs l r e, log c = l ++ e /\ Exchanges rs l /\ Exchange r false e.
Proof.
  intros c stk a c' stk' R Rs N E O.
  assert (D : a = ACall OpClose \/ a <> ACall OpClose) by (destruct a as [[]| | | |]; auto; right; discriminate).
  destruct D as [D|D]; [now left|]. right. destruct (step_ends _ _ _ _ _ R Rs D N E) as [(s & t & Es & -> & Ka)|[M F C]].
  - right. split; [reflexivity|]. apply reached_inv in R. destruct R as [_ X _ _ _ _ _|_ B|ms m mo l s1 t1 H X W B|ms s1 t1 H X Ns W B|[(H & _)|(H & _)] _|(H & _) _].
    + congruence.
    + rewrite Es in B. inversion_clear B as [|? ? _ B1]. inversion_clear B1. contradiction.
    + destruct H as [_ Sv (e & El & Xe)]. rewrite Ka in Xe. exists (map delivered ms), l, (delivered m), e. split; [exact El|]. split; [|exact Xe]. apply Sv.
    + exfalso. rewrite Es in X. destruct s1 as [|f1 [|f2 s1]]; [congruence|discriminate|]. cbn [app] in X. injection X as _ X _. inversion_clear W as [|? ? _ W1]. inversion_clear W1 as [|? ? W2 _]. subst f2. discriminate.
    + exfalso. apply N. now left.
    + exfalso. apply N. now right.
    + exfalso. apply N. now right.
  - left. destruct O as [O|O]; [|now apply C]. destruct (F O) as (w & s & Hs & X). exists w, s, []. split; [exact Hs|]. split; [constructor|]. now rewrite app_nil_r.
Qed.

Definition because (c : conn) (a : action) (c' : conn) : Prop :=
  a = ACall OpClose
  \/ refused (log c) (log c')
  \/ a = AReturn /\ exists rs l r e, log c = l ++ e /\ Exchanges rs l /\ Exchange r false e.
Lemma over_dec c : over c \/ ~ over c.
Proof. unfold over. destruct (st c); (left; (now left) || (now right)) || (right; intuition discriminate). Qed.
(** A whole history: when the connection is over, there was a moment at which it ended, for one of the reasons. *)
Theorem C85_history : forall l c stk c' stk', reached c stk -> ~ over c -> Forall (fun a => resets a = false) l -> polite_run (Run c stk) l ->
  run (Run c stk) l = Run c' stk' -> over c' ->
  exists l1 a l2 c1 s1 c2 s2, l = l1 ++ a :: l2 /\ run (Run c stk) l1 = Run c1 s1 /\ step (Run c1 s1) a = Run c2 s2 /\
    reached c1 s1 /\ ~ over c1 /\ over c2 /\ because c1 a c2.
Proof.
  induction l as [|a l IH]; intros c stk c' stk' R N F P E O; [injection E as <- _; contradiction|].
  inversion_clear F as [|? ? F1 F2]. destruct P as (P1 & P2).
  destruct (step (Run c stk) a) as [c2 s2|r c2] eqn:S.
  - destruct (over_dec c2) as [O2|O2].
    + exists [], a, l, c, stk, c2, s2. split; [reflexivity|]. split; [reflexivity|]. split; [exact S|]. split; [exact R|]. split; [exact N|]. split; [exact O2|].
      exact (C85_cause _ _ _ _ _ R F1 N S O2).
    + assert (E2 : run (Run c2 s2) l = Run c' stk') by (rewrite <- S; exact E).
      destruct (IH c2 s2 c' stk' (reached_step _ _ _ _ _ R P1 S) O2 F2 P2 E2 O) as (l1 & b & l2 & c3 & s3 & c4 & s4 & -> & Q1 & Q2).
      exists (a :: l1), b, l2, c3, s3, c4, s4. split; [reflexivity|]. split; [|exact Q2]. unfold run in *. cbn [fold_left]. rewrite S. exact Q1.
  - exfalso. assert (X : forall l r c, run (UB r c) l = UB r c) by (clear; induction l; intros; auto; unfold run in *; cbn [fold_left step]; auto).
    unfold run in *. cbn [fold_left] in E. rewrite S, X in E. discriminate.
Qed.

(** Cases: a request that is not HTTP; an answer that closes; an answer that does not (the connection goes on); close(). *)
Definition closing1 : list action := [ACall (OpInit (NewDevice true true true text1)); ACall OpProcess; ACall (OpWriteResponse 200 [(lit "Connection", lit "close")] (lit "content"))].
Definition keeping1 : list action := [ACall (OpInit (NewDevice true true true text1)); ACall OpProcess; ACall (OpWriteResponse 200 [] (lit "content"))].
Definition garbage1 : list action := [ACall (OpInit (NewDevice true true true (lit "hello")))].
Definition overb (c : conn) : bool := match st c with Flushing | Closed => true | _ => false end.
Definition ends_now (l : list action) (a : action) : bool * bool := (overb (run_conn l), overb (run_conn (l ++ [a]))).
Definition top (l : list action) : option frame := match run start l with Run _ (f :: _) => Some f | _ => None end.
Example C85_case :
  (exists stk, reached (run_conn closing1) stk) /\ top closing1 = Some (KSig SCompleted) /\ ends_now closing1 AReturn = (false, true) /\
  (exists stk, reached (run_conn keeping1) stk) /\ top keeping1 = Some (KSig SCompleted) /\ ends_now keeping1 AReturn = (false, false) /\
  (exists stk, reached (run_conn garbage1) stk) /\ ends_now garbage1 (ACall OpProcess) = (false, true) /\
  ends_now keeping1 (ACall OpProcess) = (false, false) /\ ends_now garbage1 (ACall OpClose) = (false, true).
Proof.
  split; [eexists; apply reached_run; vm_compute; reflexivity|]. split; [vm_compute; reflexivity|]. split; [vm_compute; reflexivity|].
  split; [eexists; apply reached_run; vm_compute; reflexivity|]. split; [vm_compute; reflexivity|]. split; [vm_compute; reflexivity|].
  split; [eexists; apply reached_run; vm_compute; reflexivity|]. split; [vm_compute; reflexivity|]. split; vm_compute; reflexivity.
Qed.
