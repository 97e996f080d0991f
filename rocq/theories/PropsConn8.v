(** C76: what the request getters show while a request is being answered. *)
From Verif Require Import Bytes ByteHelpers Thin Helpers ReqGrammar TextSpec
  Conn ConnSpec ConnText ConnHead ConnInv ConnStep ConnEnd ConnLog PropsConn ConnSend ConnFree PropsConn2 ConnLive ConnPhase LogText PropsLog.
Open Scope Z_scope.

Lemma completed_slot c stk : Inv c stk -> In (KSig SCompleted) stk ->
  exists ms m more l, C1 ms m more l c /\ In KCompleted stk.
Proof.
  intros HI I.
  assert (B : forall t, Base t -> ~ In (KSig SCompleted) t) by (intros t Hb J; unfold Base in Hb; rewrite Forall_forall in Hb; now apply Hb in J).
  destruct HI as [? ? ? ? ? ? ?|H Hb|ms m more l s' t' H E Hw Hb|ms s' t' H E Hne Hw Hb|H Hf|H Hc].
  - subst. destruct I.
  - now apply (B _ Hb) in I.
  - exists ms, m, more, l. split; auto. subst. apply in_app_iff. right. right. now left.
  - subst. apply in_app_iff in I as [I|[I|I]]; try discriminate.
    + unfold writes in Hw. rewrite Forall_forall in Hw. now apply Hw in I.
    + now apply (B _ Hb) in I.
  - unfold Fin in Hf. rewrite Forall_forall in Hf. now apply Hf in I.
  - unfold Clo in Hc. rewrite Forall_forall in Hc. now apply Hc in I.
Qed.

Lemma over_not_answering c stk : reached c stk -> over c -> ~ answering c stk.
Proof.
  intros R Ho [H|[H|H]]; [destruct Ho; congruence|destruct Ho; congruence|].
  destruct (completed_slot _ _ (reached_inv _ _ R) H) as (ms & m & more & l & HC & _). destruct HC as [Hs]. destruct Ho; congruence.
Qed.

(** A request is being answered (answering, ConnPhase.v) from requestReady until the slots of requestCompleted have
    returned.  In every history, whatever else arrives on the connection meanwhile and whatever the handler writes, the
    getters show the request that was announced: the same method, target, headers and body. *)
Theorem C76_getters : forall c stk r, reached c stk -> current c r -> answering c stk -> getters c = Some r.
Proof.
  intros c stk r H (rs & Hr) Ha. pose proof (reached_G _ _ H) as (G1 & G2).
  assert (X : forall m, announced (log c) = rs ++ [r] -> (exists rs', announced (log c) = rs' ++ [delivered m]) -> delivered m = r).
  { intros m E (rs' & E'). rewrite E in E'. now apply app_inj_tail in E'. }
  destruct Ha as [Ha|[Ha|Ha]].
  - destruct (reached_SH _ _ H Ha) as (ms & m & more & l & HS). rewrite (G1 (or_introl Ha)). f_equal.
    destruct HS as [? HV ? ? ? ? HL]. rewrite (sv_req _ _ _ _ _ HV). apply X; auto.
    exists (announced l). rewrite HL, !announced_app, interim_no_ready. reflexivity.
  - destruct (reached_SC _ _ H Ha) as (ms & m & more & l & a & len & pcs & evs & HS). rewrite (G1 (or_intror Ha)). f_equal.
    pose proof (sc_sv _ _ _ _ _ _ _ _ _ HS) as HV. rewrite (sv_req _ _ _ _ _ HV). apply X; auto.
    exists (announced l). rewrite (sc_log _ _ _ _ _ _ _ _ _ HS), !announced_app, interim_no_ready. cbn [app].
    now rewrite (announced_answering _ _ _ _ _ (sc_ans _ _ _ _ _ _ _ _ _ HS)).
  - destruct (completed_slot _ _ (reached_inv _ _ H) Ha) as (ms & m & more & l & HS & I). rewrite (G2 I). f_equal.
    destruct HS as [? HV (e & HL & HE)]. rewrite (sv_req _ _ _ _ _ HV). apply X; auto.
    exists (announced l). now rewrite HL, announced_app, (announced_exchange _ _ _ HE).
Qed.

(** The same, said of two moments of one history: as long as no other request is announced, what the getters
    show does not change (and is readable). *)
Corollary C76_stable : forall c1 s1 c2 s2, reached c1 s1 -> reached c2 s2 ->
  announced (log c1) = announced (log c2) -> announced (log c1) <> [] -> answering c1 s1 -> answering c2 s2 ->
  getters c1 <> None /\ getters c2 = getters c1.
Proof.
  intros c1 s1 c2 s2 R1 R2 E N A1 A2. destruct (exists_last N) as (rs & r & Er).
  rewrite (C76_getters c1 s1 r), (C76_getters c2 s2 r); auto; [split; [discriminate|auto]|exists rs; congruence|now exists rs].
Qed.

(** A connection closed in the middle of an answer (by the handler or by the peer): the getters keep showing
    the request in the slots of closed() and after, until initialize(). *)
Theorem C76_closed : forall c stk r l c' stk', reached c stk -> current c r ->
  st c = SendingHeaders \/ st c = SendingContent -> Forall no_init l ->
  run (Run c stk) (ACall OpClose :: l) = Run c' stk' -> getters c' = Some r.
Proof.
  intros c stk r l c' stk' H Hr Hs Hl E.
  assert (HG : getters c = Some r) by (apply (C76_getters c stk); auto; red; tauto).
  assert (HB : Clo stk).
  { pose proof (reached_inv _ _ H) as HI. destruct HI as [? ? ? ? ? ? ?|? Hb|ms m more l' s t HC ? ? ?|ms s t HC ? ? ? ?|HF Hf|? Hc]; auto.
    - destruct Hs; congruence.
    - now apply Fin_Clo, Base_Fin.
    - destruct HC. destruct Hs; congruence.
    - destruct HC. destruct Hs; congruence.
    - now apply Fin_Clo. }
  assert (X : Shut c (run (Run c stk) (ACall OpClose :: l))).
  { cbn [run fold_left]. apply shut_run; auto. cbn [step do_op]. unfold toClosed.
    replace (cst_eqb (st c) Closed) with false by (destruct Hs as [-> | ->]; reflexivity). cbv zeta.
    split; [destruct (_ || _); reflexivity|]. split; [repeat constructor; auto|]. destruct (_ || _); repeat split. }
  rewrite E in X. destruct X as (_ & _ & X). now rewrite (same_getters _ _ X).
Qed.

(** What the getters show holds nothing of the bytes that follow the request on the connection, nor of what
    came before it: it is the request the client wrote. *)
Corollary C76_own_bytes : forall c stk r, reached c stk -> current c r -> answering c stk ->
  exists m pre post, wf_msg m /\ arrived c = pre ++ wire m ++ post /\ getters c = Some (delivered m).
Proof.
  intros c stk r H Hr Ha. rewrite (C76_getters _ _ _ H Hr Ha). destruct Hr as (rs & Hr).
  destruct (C01_requests_from_stream _ _ H) as (ms & rest & W & A & N). rewrite Hr in N.
  destruct ms as [|m0 ms0 _] using List.rev_ind; [destruct rs; discriminate|].
  rewrite map_app in N. cbn [map] in N. apply app_inj_tail in N as (_ & ->).
  exists m0, (concat (map wire ms0)), rest. split; [now apply Forall_elt in W|].
  split; auto. rewrite A, map_app, concat_app. cbn [map concat]. now rewrite app_nil_r, <- app_assoc.
Qed.

(** The log handler makes its lines in the slots of requestReady, requestCompleted and closed, from the getters:
    the request named by the line is then the request announced (the hypothesis `about` of C75_no_forging and
    C75_request). *)
Definition reads (c : conn) (x : info) : Prop :=
  exists q, getters c = Some q /\ i_method x = q_method q /\ i_uri x = q_uri q /\ i_version x = q_version q.
Corollary C76_log_line : forall c stk r x, reached c stk -> current c r -> answering c stk -> reads c x ->
  In (OReady r) (log c) /\ about r x.
Proof.
  intros c stk r x H Hr Ha (q & E & R). rewrite (C76_getters _ _ _ H Hr Ha) in E. injection E as <-. split; auto.
  apply In_ready. destruct Hr as (rs & ->). apply in_app_iff. right. now left.
Qed.

(** Non-trivial case: the second request of the sample life, seen while its chunked answer is under way and
    more bytes of a third request have been received. *)
Definition busy : list action := sample ++ [AArrive (lit "GET /third HTTP/1.1"); ACall OpProcess].
Example C76_case : let c := run_conn busy in reached c [] /\ answering c [] /\
  (exists r, current c r /\ q_path r = lit "/b" /\ q_content r = lit "abc") /\
  option_map q_method (getters c) = Some (lit "POST").
Proof.
  cbv zeta. split; [apply reached_run; vm_compute; reflexivity|]. split; [right; left; vm_compute; reflexivity|].
  split; [|vm_compute; reflexivity].
  exists (nth 1 (announced (log (run_conn busy))) req0). split; [|vm_compute; auto].
  exists [nth 0 (announced (log (run_conn busy))) req0]. vm_compute. reflexivity.
Qed.
(** and inside a requestCompleted slot *)
Definition finishing : list action := [ACall (OpInit (NewDevice true true true (text1 ++ lit "G"))); ACall OpProcess;
  ACall (OpWriteResponse 200 [] (lit "hello"))].
Example C76_case_completed : let c := run_conn finishing in let stk := [KSig SCompleted; KCompleted; KSig SReady] in
  reached c stk /\ answering c stk /\ (exists r, current c r) /\ option_map q_query (getters c) = Some (lit "x=1").
Proof.
  cbv zeta. split; [apply reached_run; vm_compute; reflexivity|]. split; [right; right; now left|].
  split; [|vm_compute; reflexivity]. exists (nth 0 (announced (log (run_conn finishing))) req0). exists []. vm_compute. reflexivity.
Qed.
Definition torn : list action := [ACall (OpInit (NewDevice true true true text1)); ACall OpProcess].
Example C76_closed_case : let c := run_conn torn in reached c [KSig SReady] /\ st c = SendingHeaders /\ (exists r, current c r) /\
  exists c', run (Run c [KSig SReady]) [ACall OpClose] = Run c' [KSig SClosed; KClosed; KSig SReady].
Proof.
  cbv zeta. split; [apply reached_run; vm_compute; reflexivity|]. split; [vm_compute; reflexivity|].
  split; [exists (nth 0 (announced (log (run_conn torn))) req0), []; vm_compute; reflexivity|].
  eexists. vm_compute. reflexivity.
Qed.

(** Once the slots of requestCompleted have returned the buffer is reused or released; a slot of closed() that
    reads the getters then (HttpHandlerLog::requestClosed does, HttpHandler.cpp 189-206) reads memory that has
    been given back: here a client pipelines one byte after a request and hangs up after the answer. *)
Definition hangup : list action := finishing ++ [AReturn; AReturn; ACall OpClose].
Theorem C76_after_completed_refuted : exists c stk r, reached c stk /\ In (KSig SClosed) stk /\ current c r /\
  signals (log c) = [OReady r; OCompleted; OClosed] /\ getters c = None.
Proof.
  exists (run_conn hangup), [KSig SClosed; KClosed], (nth 0 (announced (log (run_conn hangup))) req0).
  split; [apply reached_run; vm_compute; reflexivity|]. split; [now left|]. split; [exists []; vm_compute; reflexivity|].
  vm_compute. auto.
Qed.
