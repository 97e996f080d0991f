(** C78: responseStatusCode() and responseContentLength(). *)
From Verif Require Import Bytes ByteHelpers Thin Helpers ReqGrammar TextSpec
  Conn ConnSpec ConnText ConnHead ConnInv ConnStep ConnEnd ConnLog PropsConn ConnSend ConnFree PropsConn2 ConnPhase ConnLive PropsConn8.
Open Scope Z_scope.

(** what the two getters say is what the head written for the latest request says: it was made (RespHead, as in
    C11) for an answer with that code, and the length in force is that one *)
Definition says (c : conn) : Prop :=
  exists pre r a hd rest, log c = pre ++ OReady r :: OWrite hd :: rest /\ announced rest = [] /\
    RespLength a (rlen c) /\ RespHead r a (rlen c) hd /\ a_code a = rstatus c.

Definition Pm (c : conn) : Prop := st c = SendingContent -> says c.
Definition OKm (g : cfg) : Prop :=
  match g with Run c stk => st c = SendingContent \/ In (KSig SCompleted) stk -> says c | UB _ _ => True end.

Lemma says_more c c' e : says c -> log c' = log c ++ e -> announced e = [] -> rlen c' = rlen c -> rstatus c' = rstatus c -> says c'.
Proof.
  intros (pre & r & a & hd & rest & E & N & H1 & H2 & H3) El Ne E2 E3. exists pre, r, a, hd, (rest ++ e).
  rewrite El, E, E2, E3, announced_app, N, Ne. rewrite <- app_assoc. auto.
Qed.
Lemma says_completed c : says c -> says (emit_log OCompleted (set_st Completed c)).
Proof. intros H. apply (says_more c _ [OCompleted]); [exact H|destruct c; reflexivity..]. Qed.
Lemma m_run c stk : Pm c -> NoC stk -> OKm (Run c stk).
Proof. intros H N [E|E]; [auto|now apply N in E]. Qed.
Lemma m_write b c k : (forall c' e, log c' = log c ++ e -> announced e = [] -> rlen c' = rlen c -> rstatus c' = rstatus c -> rsent c' = rsent c -> st c' = st c -> OKm (k c')) ->
  OKm (dev_write b c k).
Proof. intros H. unfold dev_write. destruct (out_ok c); [|exact Logic.I]. apply (H _ [OWrite b]); reflexivity. Qed.
Section K.
Variables (stk : list frame) (k : conn -> cfg).
Hypothesis Hs : NoC stk.
Hypothesis Hk : forall c, Pm c -> OKm (k c).
Lemma m_toClosed c : Pm c -> OKm (toClosed c stk k).
Proof.
  intros H. unfold toClosed. destruct (cst_eqb (st c) Closed); auto. cbv zeta. apply m_run; [|apply NoC_push; [cf|apply NoC_push; [cf|auto]]].
  intros E. destruct (_ || _); discriminate.
Qed.
Lemma m_flush c : Pm c -> OKm (flush c stk k).
Proof. intros H. unfold flush. destruct (_ && _); auto. apply m_run; [exact H|apply NoC_push; [cf|auto]]. Qed.
Lemma m_toCompleted c : st c <> Completed -> says c -> OKm (toCompleted c stk k).
Proof.
  intros Hst H. unfold toCompleted. replace (cst_eqb (st c) Completed) with false by (destruct (st c); auto; congruence).
  intros _. apply (says_more c _ [OCompleted]); auto.
Qed.
Lemma m_writeContent content c : Pm c -> OKm (writeContent content c stk k).
Proof.
  intros H. unfold writeContent. destruct (cst_eqb (st c) SendingContent) eqn:E; cbn [negb]; auto. apply cst_eqb_eq in E. specialize (H E).
  destruct (_ =? _); [apply Hk; intros _; auto|]. destruct (_ && _); [apply Hk; intros _; auto|]. destruct (_ && _); [|apply Hk; intros _; auto].
  cbv zeta. csimp.
  assert (X : forall c', says c' -> st c' = SendingContent -> OKm (if rsent c' =? rlen c' then toCompleted c' stk k else k c')).
  { intros c' E' H'. destruct (_ =? _); [apply m_toCompleted; auto; congruence|]. apply Hk. intros _. exact E'. }
  assert (H0 : says (set_rsent (rsent c + blen content) c)) by (apply (says_more c _ []); auto; csimp; now rewrite app_nil_r).
  destruct (chunked c).
  - destruct (appendNumber _ _); [|exact Logic.I].
    apply m_write. intros c1 e1 L1 A1 B1 D1 F1 S1. apply m_write. intros c2 e2 L2 A2 B2 D2 F2 S2. apply m_write. intros c3 e3 L3 A3 B3 D3 F3 S3. apply X.
    + apply (says_more c2 _ e3); auto. apply (says_more c1 _ e2); auto. eapply (says_more _ _ e1); eauto.
    + rewrite S3, S2, S1. exact E.
  - apply m_write. intros c1 e1 L1 A1 B1 D1 F1 S1. apply X; [eapply (says_more _ _ e1); eauto|rewrite S1; exact E].
Qed.
Lemma m_resp_tail content c : Pm c -> OKm (resp_tail content c stk k).
Proof.
  intros H. unfold resp_tail. destruct content; auto.
  destruct (_ && _); [exact Logic.I|]. destruct (is_head _); auto. now apply m_writeContent.
Qed.
Lemma m_endContent c : Pm c -> OKm (endContent c stk k).
Proof.
  intros H. unfold endContent. destruct (cst_eqb (st c) SendingContent) eqn:E; cbn [negb]; auto. apply cst_eqb_eq in E. pose proof (H E) as H0.
  destruct (_ <=? _); auto. destruct (chunked c).
  - apply m_write. intros c' e L A B D F S. apply m_toCompleted; [congruence|]. eapply (says_more _ _ e); eauto.
  - apply m_toCompleted; csimp; [congruence|]. exact H0.
Qed.
End K.
Lemma m_sending c : Pm c -> Pm (sending_tail c).
Proof. intros H. unfold sending_tail. destruct (_ && _); auto. Qed.
Lemma m_resume t : Base t -> forall c, Pm c -> OKm (resume t c).
Proof.
  induction t as [|f t IH]; intros Ht c H; cbn [resume]; [apply m_run; auto; intros []|].
  pose proof (base_noc _ Ht) as N. inversion_clear Ht as [|? ? Hf Ht']. specialize (IH Ht'). destruct f as [[]| | | | | |content|]; try contradiction.
  - now apply m_run.
  - now apply m_run.
  - apply IH, m_sending, H.
  - apply m_resp_tail; auto using base_noc.
Qed.

(* writing the head *)
Lemma m_writeHeaders code hs stk k c r pre : (forall c, Pm c -> OKm (k c)) -> Pm c -> NoC stk ->
  (st c = SendingHeaders -> hbuf c = [] /\ http11 c = http11_req (req c) /\ chunked c = false /\ out_ok c = true /\ int_length code hs (rlen c) /\
     req c = r /\ log c = pre ++ [OReady r]) -> OKm (writeHeaders code hs c stk k).
Proof.
  intros Hk H N HX. destruct (cst_eqb (st c) SendingHeaders) eqn:E.
  2: { unfold writeHeaders. rewrite E. cbn [negb]. auto. }
  apply cst_eqb_eq in E. destruct (HX E) as (X1 & X2 & X3 & X4 & X5 & X6 & X7).
  destruct (head_exact code hs c stk k E X1 X2 X3 X4 X5) as (len & hd & HL & HH & Ew). rewrite Ew. cbv zeta in *.
  assert (S : says (after_head code (mkAns code hs (rlen c)) len hd c)).
  { exists pre, r, (mkAns code hs (rlen c)), hd, []. rewrite <- X6. repeat split; auto.
    unfold after_head, wrote, head_conn, emit_log. csimp. rewrite X7, X6, <- app_assoc. reflexivity. }
  destruct (_ || _).
  - intros _. exact (says_completed _ S).
  - apply Hk, m_sending. intros _. exact S.
Qed.

Definition HI (c : conn) (stk : list frame) : Prop := OKm (Run c stk).

Lemma busy_says c stk o : reached c stk -> st c = SendingHeaders \/ st c = SendingContent -> HI c stk -> polite c stk (ACall o) ->
  is_init (ACall o) = false -> OKm (do_op o c stk).
Proof.
  intros R Hst H HP Hi.
  assert (HS : settled stk) by (eapply reached_settled'; eauto).
  assert (Hb : Base stk).
  { pose proof (reached_inv _ _ R) as I. destruct I as [? ? ? ? ? ? ?|? Hb|ms m more l' s t HC ? ? ?|ms s t HC ? ? ? ?|HF Hf|HF Hc]; auto.
    - destruct Hst; congruence.
    - destruct HC. destruct Hst; congruence.
    - destruct HC. destruct Hst; congruence.
    - destruct HF as [(HF & _)|(HF & _)]; destruct Hst; congruence.
    - destruct HF as (HF & _). destruct Hst; congruence. }
  pose proof (base_noc _ Hb) as N.
  assert (P : Pm c) by (intros E; apply H; now left).
  assert (K : forall c, Pm c -> OKm (resume stk c)).
  { intros c' H'. rewrite settled_resume by auto. now apply m_run. }
  assert (X : exists r pre, st c = SendingHeaders -> hbuf c = [] /\ http11 c = http11_req (req c) /\ chunked c = false /\ out_ok c = true /\
     rlen c = -1 /\ req c = r /\ log c = pre ++ [OReady r]).
  { destruct Hst as [E|E]; [|exists req0, []; congruence]. destruct (reached_SH _ _ R E) as (ms & m & more & l & S).
    destruct S as [_ [[] ? ? ? Hreq ? ?] H11 Hch Hr ? HL]. exists (delivered m), (l ++ interim (delivered m)). intros _.
    rewrite <- app_assoc. auto 10. }
  destruct X as (r & pre & X).
  destruct o; cbn [do_op]; try discriminate.
  - unfold processInput. destruct Hst as [E|E]; rewrite E; now apply K.
  - unfold writeResponse. destruct (cst_eqb (st c) SendingHeaders) eqn:E; cbn [negb]; auto.
    apply (m_writeHeaders _ _ _ _ _ r pre); auto.
    + intros. apply m_resp_tail; auto.
    + apply cst_eqb_eq in E. intros E'. csimp_in E'. congruence.
    + apply NoC_push; [cf|auto].
    + intros E'. csimp. destruct (X E') as (X1 & X2 & X3 & X4 & X5 & X6 & X7). auto 10.
  - apply (m_writeHeaders _ _ _ _ _ r pre); auto.
    intros E'. destruct (X E') as (X1 & X2 & X3 & X4 & X5 & X6 & X7). cbn in HP. rewrite X5. auto 10.
  - now apply m_writeContent.
  - now apply m_endContent.
  - now apply m_toClosed.
  - now apply m_flush.
  - unfold drain. destruct Hst as [E|E]; rewrite E; now apply K.
Qed.

Lemma says_same c c' : log c' = log c -> rlen c' = rlen c -> rstatus c' = rstatus c -> says c -> says c'.
Proof. intros E1 E2 E3 H. apply (says_more c _ []); auto. now rewrite app_nil_r. Qed.

Lemma base_of c stk : reached c stk -> st c = SendingHeaders \/ st c = SendingContent -> Base stk.
Proof.
  intros R Hst. pose proof (reached_inv _ _ R) as I. destruct I as [? ? ? ? ? ? ?|? Hb|ms m more l' s t HC ? ? ?|ms s t HC ? ? ? ?|HF Hf|HF Hc]; auto.
  - destruct Hst; congruence.
  - destruct HC. destruct Hst; congruence.
  - destruct HC. destruct Hst; congruence.
  - destruct HF as [(HF & _)|(HF & _)]; destruct Hst; congruence.
  - destruct HF as (HF & _). destruct Hst; congruence.
Qed.
Lemma completed_says c stk o : reached c stk -> In (KSig SCompleted) stk -> says c -> polite c stk (ACall o) -> is_init (ACall o) = false -> OKm (do_op o c stk).
Proof.
  intros R I S HP Hi. destruct (completed_slot _ _ (reached_inv _ _ R) I) as (ms & m & more & l & HC & _).
  assert (HS : settled stk) by (eapply reached_settled'; eauto).
  rewrite (completed_op o c stk (resume stk)); auto.
  2: destruct HC; auto. 2: intros d ->; discriminate. 2: intros ->; apply HP; destruct HC; auto.
  assert (K : OKm (resume stk c)) by (rewrite settled_resume by auto; intros _; exact S).
  destruct o; auto. unfold flush. destruct (_ && _); auto. intros _. exact S.
Qed.
Lemma resume_same s t c : writes s -> resume (s ++ KSig SCompleted :: t) c = Run c (s ++ KSig SCompleted :: t).
Proof. intros H. destruct s as [|f s]; [reflexivity|]. inversion_clear H. subst f. reflexivity. Qed.
Lemma return_says c stk c' stk' : reached c stk -> HI c stk -> answering c stk -> releases stk AReturn = false ->
  step (Run c stk) AReturn = Run c' stk' -> HI c' stk'.
Proof.
  intros R H Ha Hr E. cbn [step] in E. unfold HI in *.
  destruct stk as [|[s| | | | | | |] t]; try (injection E as <- <-; exact H).
  assert (Hst : (st c = SendingHeaders \/ st c = SendingContent) \/ In (KSig SCompleted) (KSig s :: t)) by (unfold answering in Ha; tauto).
  destruct Hst as [Hst|I].
  - pose proof (base_of _ _ R Hst) as Hb. inversion_clear Hb as [|? ? Hf Hb']. rewrite <- E. apply m_resume; auto. intros E'. apply H. now left.
  - assert (S : says c) by (apply H; auto).
    pose proof (reached_inv _ _ R) as HV.
    destruct HV as [? ? ? ? ? ? ?|? Hb|ms m more l' s' t' HC Es Hw Hb|ms s' t' HC Es Hne Hw Hb|HF Hf|HF Hc].
    + discriminate.
    + now apply base_noc in I.
    + destruct s' as [|f s']; cbn [app] in Es; injection Es as E1 E2.
      * subst. discriminate Hr.
      * inversion_clear Hw as [|? ? Hf Hw']. rewrite E2, resume_same in E by auto. injection E as <- <-. intros _. exact S.
    + exfalso. destruct HC as [HC]. destruct (completed_slot _ _ (reached_inv _ _ R) I) as (? & ? & ? & ? & [HC'] & HK).
      rewrite Es in HK. apply in_app_iff in HK as [HK|[HK|HK]]; try discriminate.
      * unfold writes in Hw. rewrite Forall_forall in Hw. now apply Hw in HK.
      * now apply (no_completed_base _ Hb) in HK.
    + now apply clo_noc in I; [|apply Fin_Clo].
    + now apply clo_noc in I.
Qed.
Lemma arrive_same c stk b c' stk' : step (Run c stk) (AArrive b) = Run c' stk' -> stk' = stk /\ st c' = st c /\ log c' = log c /\ rlen c' = rlen c /\ rstatus c' = rstatus c.
Proof. unfold step. destruct (_ && _); intros [= <- <-]; auto. Qed.
Lemma kernel_same c stk n c' stk' : step (Run c stk) (AKernel n) = Run c' stk' -> stk' = stk /\ st c' = st c /\ log c' = log c /\ rlen c' = rlen c /\ rstatus c' = rstatus c.
Proof. unfold step. intros [= <- <-]; auto. Qed.
Lemma written_same c stk n c' stk' : reached c stk -> answering c stk -> step (Run c stk) (AWritten n) = Run c' stk' ->
  stk' = stk /\ st c' = st c /\ log c' = log c /\ rlen c' = rlen c /\ rstatus c' = rstatus c.
Proof.
  intros R Ha E. assert (HS : settled stk) by (eapply reached_settled'; eauto).
  assert (Hf : st c <> Flushing) by (intros X; apply (over_not_answering _ _ R); [now left|auto]).
  rewrite written_step in E. cbv zeta in E. generalize dependent (pending c - Z.max 0 (Z.min n (pending c))). intros p E.
  assert (X : stk' = stk /\ c' = set_pending p c).
  { destruct (drain_conn _); [|now injection E as <- <-]. unfold drain in E.
    replace (cst_eqb (st (set_pending p c)) Flushing) with false in E by (csimp; destruct (st c); auto; congruence).
    cbn [negb] in E. rewrite settled_resume in E by auto. now injection E as <- <-. }
  destruct X as (-> & ->). auto.
Qed.
Lemma HI_same c stk c' : HI c stk -> st c' = st c /\ log c' = log c /\ rlen c' = rlen c /\ rstatus c' = rstatus c -> HI c' stk.
Proof. 
  intros H (E1 & E2 & E3 & E4) [E|E]; apply (says_same c); auto.
  apply H. left. congruence.
Qed.

Lemma classic_answering c stk : answering c stk -> (st c = SendingHeaders \/ st c = SendingContent) \/ In (KSig SCompleted) stk.
Proof. unfold answering. tauto. Qed.
Lemma HI_step c stk a c' stk' : reached c stk -> HI c stk -> polite c stk a -> step (Run c stk) a = Run c' stk' -> HI c' stk'.
Proof.
  intros R H HP E.
  assert (R' : reached c' stk') by (eapply reached_step; eauto).
  assert (V : ~ answering c' stk' -> HI c' stk') by (intros N X; exfalso; apply N; red; tauto).
  pose proof (phase_step _ _ _ _ _ (reached_inv _ _ R) (reached_settled' _ _ R) HP E) as Ph.
  destruct Ph as [_ _ N _|_ _ O _|Hi A Hr _ _|_ _ _ N|r _ _ _ S]; auto.
  - apply V. now apply over_not_answering.
  - destruct a as [o| |b|n|n].
    + change (do_op o c stk = Run c' stk') in E. unfold HI. rewrite <- E.
      destruct (classic_answering c stk A) as [Hst|I].
      * now apply busy_says.
      * apply completed_says; auto.
    + now apply (return_says c stk).
    + destruct (arrive_same _ _ _ _ _ E) as (-> & X). now apply (HI_same c).
    + destruct (kernel_same _ _ _ _ _ E) as (-> & X). now apply (HI_same c).
    + destruct (written_same _ _ _ _ _ R A E) as (-> & X). now apply (HI_same c).
  - intros [X|X]; [congruence|]. destruct (completed_slot _ _ (reached_inv _ _ R') X) as (? & ? & ? & ? & [HC] & _). congruence.
Qed.

Theorem reached_HI c stk : reached c stk -> HI c stk.
Proof.
  intros (l & P & E). revert c stk E. induction l as [|a l IH] using List.rev_ind; intros c stk E.
  - cbv [run fold_left start] in E. injection E as <- <-. intros [H|[]]. discriminate.
  - unfold run in E. rewrite fold_left_app in E. cbn [fold_left] in E.
    assert (P' : polite_run start l /\ match fold_left step l start with Run c stk => polite c stk a | UB _ _ => True end).
    { clear E IH. revert P. generalize start. induction l as [|b l IH]; intros g P.
      - cbn [app polite_run fold_left] in *. split; [exact Logic.I|]. destruct g; [apply P|exact Logic.I].
      - cbn [app polite_run fold_left] in *. destruct P as (P & P'). destruct (IH _ P') as (X & Y). auto. }
    destruct P' as (P1 & P2). destruct (fold_left step l start) as [c0 stk0|w c0] eqn:E0.
    + apply (HI_step c0 stk0 a); auto. exists l. auto.
    + discriminate.
Qed.

(** ** The theorems *)
Lemma fst_fun (l : list (Z * string)) k : NoDup (map fst l) -> forall m m', In (k, m) l -> In (k, m') l -> m' = m.
Proof.
  induction l as [|[j v] l IH]; intros U m m' H H'; [destruct H|]. cbn [map fst] in U. inversion_clear U as [|? ? U1 U2].
  assert (N : forall x, In (j, x) l -> False) by (intros x X; apply U1; apply in_map_iff; exists (j, x); auto).
  destruct H as [H|H], H' as [H'|H'].
  - congruence.
  - injection H as -> ->. now apply N in H'.
  - injection H' as -> ->. now apply N in H.
  - eauto.
Qed.
Theorem C78_says : forall c stk r, reached c stk -> current c r -> st c = SendingContent \/ In (KSig SCompleted) stk ->
  exists pre a hd rest, log c = pre ++ OReady r :: OWrite hd :: rest /\
    RespLength a (rlen c) /\ RespHead r a (rlen c) hd /\ a_code a = rstatus c.
Proof.
  intros c stk r R (rs & Hr) Hs. destruct (reached_HI _ _ R Hs) as (pre & r' & a & hd & rest & E & N & H).
  assert (r' = r) as ->.
  { rewrite E in Hr. rewrite announced_app in Hr. change (announced (OReady r' :: OWrite hd :: rest)) with (r' :: announced rest) in Hr.
    rewrite N in Hr. now apply app_inj_tail in Hr as (_ & Hr). }
  exists pre, a, hd, rest. auto.
Qed.
(* the status line carries responseStatusCode() when HTTP/1.1 knows that code *)
Theorem C78_code : forall c stk r m, reached c stk -> current c r -> st c = SendingContent \/ In (KSig SCompleted) stk ->
  In (rstatus c, m) std_status ->
  exists pre hd rest, log c = pre ++ OReady r :: OWrite (q_version r ++ lit " " ++ three (rstatus c) ++ lit " " ++ lit m ++ CRLF ++ hd) :: rest.
Proof.
  intros c stk r m R Hr Hs Hm. destruct (C78_says _ _ _ R Hr Hs) as (pre & a & hd & rest & E & _ & H & Ec). destruct H as [status digits HST _].
  rewrite Ec in HST. assert (status = status_text (rstatus c) (lit m)) as ->.
  { destruct HST as [m' Hm'|N]; [|now apply N in Hm].
    assert (U : NoDup (map fst std_status)) by (repeat constructor; vm_compute; intuition discriminate).
    assert (X : m' = m) by (revert U Hm Hm'; generalize std_status (rstatus c); intros l k U; apply (fst_fun l k U)). now rewrite X. }
  unfold status_text in E. rewrite <- !app_assoc in E. eauto.
Qed.
(* the head announces responseContentLength() when it is known *)
Theorem C78_length : forall c stk r, reached c stk -> current c r -> st c = SendingContent \/ In (KSig SCompleted) stk -> rlen c <> -1 ->
  exists pre before digits after rest, log c = pre ++ OReady r :: OWrite (before ++ CRLF ++ lit "Content-Length: " ++ digits ++ CRLF ++ after) :: rest /\
    Canonical 10 digits (rlen c).
Proof.
  intros c stk r R Hr Hs N. destruct (C78_says _ _ _ R Hr Hs) as (pre & a & hd & rest & E & _ & H & Ec). destruct H as [status digits HST HD].
  apply Z.eqb_neq in N. rewrite N in E. remember (concat (map line (filter (fun h => negb (special h)) (a_headers a)))) as hs eqn:Eh.
  assert (X : exists b, CRLF ++ hs = b ++ CRLF).
  { clear -Eh. revert hs Eh. induction (filter _ (a_headers a)) as [|h l IH]; intros hs ->; [exists []; reflexivity|].
    cbn [map concat]. destruct (IH _ eq_refl) as (b & Hb). unfold line at 1. exists (CRLF ++ fst h ++ lit ": " ++ snd h ++ b).
    rewrite <- !app_assoc. now rewrite Hb. }
  destruct X as (b & X). rewrite (app_assoc CRLF hs), X in E.
  exists pre, (q_version r ++ lit " " ++ status ++ b), digits. eexists _, rest. split; [rewrite E; rewrite <- !app_assoc; reflexivity|exact HD].
Qed.

(** ** Non-trivial cases *)
Example C78_case : let c := run_conn busy in reached c [] /\ st c = SendingContent /\ (exists r, current c r) /\ rstatus c = 200.
Proof.
  cbv zeta. split; [apply reached_run; vm_compute; reflexivity|]. split; [vm_compute; reflexivity|]. split; [|vm_compute; reflexivity].
  exists (nth 1 (announced (log (run_conn busy))) req0). exists [nth 0 (announced (log (run_conn busy))) req0]. vm_compute. reflexivity.
Qed.
Example C78_case_completed : let c := run_conn finishing in let stk := [KSig SCompleted; KCompleted; KSig SReady] in
  reached c stk /\ In (KSig SCompleted) stk /\ (exists r, current c r) /\ rstatus c = 200 /\ rlen c = 5.
Proof.
  cbv zeta. split; [apply reached_run; vm_compute; reflexivity|]. split; [now left|]. split; [|vm_compute; auto].
  exists (nth 0 (announced (log (run_conn finishing))) req0). exists []. vm_compute. reflexivity.
Qed.

(** ** Outside of these moments *)
(* The code is not reset when the next request is announced: the second request, not answered at all, is shown (and logged by
   HttpHandlerLog::requestClosed) with the first one's status code. *)
Definition stale_code : list action := [ACall (OpInit (NewDevice true true true (text1 ++ text1))); ACall OpProcess;
  ACall (OpWriteResponse 404 [] []); AReturn; AReturn; ACall OpProcess; ACall OpClose].
Theorem C78_stale_refuted : let c := run_conn stale_code in reached c [KSig SClosed; KClosed; KSig SReady] /\
  (exists r1 hd r2 rest, log c = OReady r1 :: OWrite hd :: OCompleted :: OReady r2 :: rest /\ (forall b, ~ In (OWrite b) rest) /\ In OClosed rest) /\
  rstatus c = 404.
Proof.
  cbv zeta. split; [apply reached_run; vm_compute; reflexivity|]. split; [|vm_compute; reflexivity].
  eexists _, _, _, _. split; [vm_compute; reflexivity|]. split; [|right; now left]. intros b [H|[H|[]]]; discriminate.
Qed.
(* A code that is not one of HTTP/1.1's: the client is sent no code at all. *)
Definition odd_code : list action := [ACall (OpInit (NewDevice true true true text1)); ACall OpProcess; ACall (OpWriteResponse 299 [] [])].
Theorem C78_unknown_refuted : let c := run_conn odd_code in let stk := [KSig SCompleted; KCompleted; KSending; KResponse []; KSig SReady] in
  reached c stk /\ rstatus c = 299 /\
  exists r, log c = [OReady r; OWrite (lit "HTTP/1.1 Internal Server Error" ++ CRLF ++ lit "Content-Length: 0" ++ CRLF ++ CRLF); OCompleted].
Proof.
  cbv zeta. split; [apply reached_run; vm_compute; reflexivity|]. split; [vm_compute; reflexivity|].
  exists (nth 0 (announced (log (run_conn odd_code))) req0). vm_compute. reflexivity.
Qed.
