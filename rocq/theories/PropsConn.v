(** PROPERTIES C01, C03-C09, C18, C19: what a connection makes of the bytes it receives.

    [polite_run start l]: the list of actions l (calls of the API at any moment, also from inside signals;
    returns from slots; bytes arriving; the kernel taking bytes) is a polite use of a new connection:
    initialize only on a new or closed connection, with two devices and not from inside a signal; close()
    not from inside requestCompleted; announced response lengths fit in an int.  Everything else is free.
    [reached c stk]: some polite use leads to the state c with the suspended calls stk.
    [arrived c]: the bytes delivered by the input device since initialize; [log c]: what the connection did
    since then (see ConnSpec.v for the specification of logs). *)
From Verif Require Import Bytes ByteHelpers Thin Helpers ReqGrammar TextSpec ThinProofs ThinFields ThinTop CIProofs HelpersProofs
  Conn ConnSpec ConnView ConnText ConnHead ConnInv ConnStep ConnEnd ConnLog PropsParser.
Open Scope Z_scope.

Definition reached (c : conn) (stk : list frame) : Prop :=
  exists l, polite_run start l /\ run start l = Run c stk.
Lemma reached_inv c stk : reached c stk -> Inv c stk.
Proof. intros (l & P & E). pose proof (run_ok l start start_ok P) as G. now rewrite E in G. Qed.
Lemma reached_story c stk : reached c stk -> Story (arrived c) (log c).
Proof. intros H. eapply Inv_Story, reached_inv, H. Qed.
Lemma reached_settled' c stk : reached c stk -> settled stk.
Proof. intros (l & _ & E). eapply reached_settled; eauto. Qed.

(** a decision procedure for politeness, to run examples *)
Definition politeb (c : conn) (stk : list frame) (a : action) : bool :=
  match a with
  | ACall (OpInit (NewDevice true true _ _)) =>
      match stk with [] => cst_eqb (st c) Uninitialized || cst_eqb (st c) Closed | _ => false end
  | ACall (OpInit _) => false
  | ACall OpClose => negb (cst_eqb (st c) Completed)
  | ACall (OpWriteResponse code hs content) =>
      let n := resp_len hs (blen content) in (INT_MIN <? n) && (n <=? INT_MAX)
  | ACall (OpWriteHeaders code hs) => let n := resp_len hs (-1) in (INT_MIN <? n) && (n <=? INT_MAX)
  | _ => true
  end.
Fixpoint politeb_run (g : cfg) (l : list action) {struct l} : bool :=
  match l with
  | [] => true
  | a :: t => (match g with Run c stk => politeb c stk a | UB _ _ => true end) && politeb_run (step g a) t
  end.
Lemma cst_eqb_eq a b : cst_eqb a b = true -> a = b.
Proof. destruct a, b; cbn; congruence. Qed.
Lemma int_length_b code hs size : (INT_MIN <? resp_len hs size) && (resp_len hs size <=? INT_MAX) = true -> int_length code hs size.
Proof.
  intros H len HL. apply RespLength_fun in HL. cbn in HL. subst len. apply andb_true_iff in H as (H1 & H2).
  apply Z.ltb_lt in H1. apply Z.leb_le in H2. lia.
Qed.
Lemma politeb_ok c stk a : politeb c stk a = true -> polite c stk a.
Proof.
  destruct a as [[d| |code hs content|code hs| | | | |]| | | |]; cbn [politeb polite]; auto.
  - destruct d as [[] [] so data|]; try discriminate. destruct stk; [|discriminate]. rewrite orb_true_iff.
    intros [H|H]; apply cst_eqb_eq in H; split; eauto.
  - apply int_length_b.
  - apply int_length_b.
  - intros H E. rewrite E in H. discriminate.
Qed.
Lemma politeb_run_ok l : forall g, politeb_run g l = true -> polite_run g l.
Proof.
  induction l as [|a l IH]; intros g H; cbn in *; auto. apply andb_true_iff in H as (H1 & H2). split; auto.
  destruct g; auto. now apply politeb_ok.
Qed.
Definition run_conn (l : list action) : conn := gconn (run start l).
Lemma reached_run l stk : politeb_run start l = true -> (match run start l with Run _ s => s = stk | UB _ _ => False end) -> reached (run_conn l) stk.
Proof.
  intros H E. exists l. split; [now apply politeb_run_ok|]. unfold run_conn. destruct (run start l); [subst; auto|contradiction].
Qed.

(** A sample life: two pipelined requests arrive in pieces cut anywhere (the second asks for 100-continue);
    the first is answered from inside its requestReady signal, the second later, chunked. *)
Definition text1 : bytes := lit "GET /a?x=1 HTTP/1.1" ++ CRLF ++ lit "Host: h" ++ CRLF ++ CRLF.
Definition text2 : bytes := lit "POST /b HTTP/1.1" ++ CRLF ++ lit "Content-Length: 3" ++ CRLF ++ lit "Expect: 100-Continue" ++ CRLF ++ CRLF.
Definition sample : list action :=
  [ACall (OpInit (NewDevice true true true (lit "GET /a?x")));
   ACall OpProcess;
   AArrive (skipn 8 text1 ++ text2 ++ lit "ab");
   ACall OpProcess;                                        (* requestReady for the first *)
   ACall (OpWriteResponse 200 [(lit "X-Y", lit "z")] (lit "hello"));
   AReturn;                                                (* from requestCompleted: reads the second request *)
   AReturn;                                                (* from requestReady *)
   AArrive (lit "c"); ACall OpProcess;                     (* requestReady for the second *)
   AReturn;
   ACall (OpWriteHeaders 200 [(lit "Transfer-Encoding", lit "chunked")]);
   ACall (OpWriteContent (lit "0123456789abcdef!"))].
Definition sample_conn : conn := run_conn sample.
Lemma sample_reached : reached sample_conn [].
Proof. apply reached_run; vm_compute; reflexivity. Qed.
Definition sample_stream : bytes := text1 ++ text2 ++ lit "abc".
Example sample_facts : arrived sample_conn = sample_stream /\ st sample_conn = SendingContent /\
  map q_path (announced (log sample_conn)) = [lit "/a"; lit "/b"] /\
  written (log sample_conn) =
    lit "HTTP/1.1 200 OK" ++ CRLF ++ lit "X-Y: z" ++ CRLF ++ lit "Content-Length: 5" ++ CRLF ++ lit "Content-Type: text/plain" ++ CRLF ++ CRLF
    ++ lit "hello" ++ lit "HTTP/1.1 100 Continue" ++ CRLF ++ CRLF
    ++ lit "HTTP/1.1 200 OK" ++ CRLF ++ lit "Transfer-Encoding: chunked" ++ CRLF ++ CRLF
    ++ lit "11" ++ CRLF ++ lit "0123456789abcdef!" ++ CRLF.
Proof. vm_compute. auto. Qed.

(** ** C01 *)

(** The stream received is the texts of the announced requests, in order, followed by the bytes not consumed. *)
Theorem C01_requests_from_stream : forall c stk, reached c stk ->
  exists ms rest, Forall wf_msg ms /\ arrived c = concat (map wire ms) ++ rest /\ announced (log c) = map delivered ms.
Proof. intros c stk H. destruct (story_requests _ _ (reached_story _ _ H)) as (ms & rest & A & B & C). eauto. Qed.

(** Two connections that received the same bytes (or one a beginning of the other's), cut in any way and
    whatever their handlers do, announce the same requests as far as both went. *)
Theorem C01_segmentation_independent : forall c1 s1 c2 s2 more, reached c1 s1 -> reached c2 s2 ->
  arrived c2 = arrived c1 ++ more ->
  exists d, announced (log c2) = announced (log c1) ++ d \/ announced (log c1) = announced (log c2) ++ d.
Proof.
  intros c1 s1 c2 s2 more R1 R2 E.
  destruct (C01_requests_from_stream _ _ R1) as (ms1 & r1 & W1 & A1 & N1).
  destruct (C01_requests_from_stream _ _ R2) as (ms2 & r2 & W2 & A2 & N2).
  rewrite A1, A2, <- app_assoc in E. rewrite N1, N2.
  destruct (stream_cut _ _ _ _ W2 W1 E) as [(m & _ & D & _)|(m & _ & D & _)]; exists (map delivered m); auto.
Qed.

Lemma reached_idle c stk : reached c stk -> st c = ReceivingHeaders \/ st c = ReceivingContent -> avail c = [] ->
  exists ms rest l new, Forall wf_msg ms /\ arrived c = concat (map wire ms) ++ rest /\ Exchanges (map delivered ms) l /\
    log c = l ++ new /\ Verdict rest new /\ (forall m x, wf_msg m -> rest <> wire m ++ x).
Proof.
  intros H Hs HA. apply reached_inv in H.
  destruct H as [? ? ? ? ? ? ?|H Hb|ms m more l s t H ? ? ?|ms s t H ? ? ? ?|[(H & _)|(H & _)] Hf|(H & _) Hc]; try (destruct Hs; congruence).
  2: destruct H; destruct Hs; congruence. 2: destruct H; destruct Hs; congruence.
  destruct H as [(ms & H)|[(ms & h & l & hb & rest & H & Hlt)|[(ms & m & more & l & [])|(ms & m & more & l & a & len & pcs & evs & [])]]];
    try (destruct Hs; congruence).
  - destruct (RH_verdict _ _ H HA) as (rest & E & V). exists ms, rest, (log c), []. destruct H as ([? [] ? ? ? ?] & _).
    rewrite app_nil_r. repeat (split; auto). intros m x W Er. assert (X : Verdict rest (interim (delivered m) ++ [OReady (delivered m)])) by (eapply V_ready; eauto).
    pose proof (Verdict_fun _ _ _ V X) as N. destruct (interim _); discriminate.
  - destruct (RC_verdict _ _ _ _ _ _ H Hlt HA) as (rest' & E & V). exists ms, rest', l, (cont h). destruct H as [? [] ? ? ? ? ? ? ? ? ? ?].
    repeat (split; auto). intros m x W Er. assert (X : Verdict rest' (interim (delivered m) ++ [OReady (delivered m)])) by (eapply V_ready; eauto).
    pose proof (Verdict_fun _ _ _ V X) as N. apply (f_equal announced) in N. rewrite announced_interim in N. unfold cont in N. destruct (says _ _); discriminate.
Qed.

(** Nothing is missed: a connection waiting for input that has read what arrived has announced every
    complete request of the stream. *)
Theorem C01_nothing_missed : forall c stk, reached c stk ->
  st c = ReceivingHeaders \/ st c = ReceivingContent -> avail c = [] ->
  exists ms rest, Forall wf_msg ms /\ arrived c = concat (map wire ms) ++ rest /\ announced (log c) = map delivered ms /\
    forall m x, wf_msg m -> rest <> wire m ++ x.
Proof.
  intros c stk H Hs HA. destruct (reached_idle _ _ H Hs HA) as (ms & rest & l & new & W & A & X & L & V & N).
  exists ms, rest. repeat (split; auto). rewrite L, announced_app, (announced_exchanges _ _ X).
  replace (announced new) with (@nil request); [now rewrite app_nil_r|].
  destruct V as [|h part n H1 H2 H3 H4|m x Wm E|s R]; auto.
  - now destruct (says _ _).
  - exfalso. eapply N; eauto.
Qed.

(** Hence the requests announced are a function of the stream alone. *)
Theorem C01_function_of_stream : forall c1 s1 c2 s2, reached c1 s1 -> reached c2 s2 -> arrived c1 = arrived c2 ->
  st c1 = ReceivingHeaders \/ st c1 = ReceivingContent -> avail c1 = [] ->
  st c2 = ReceivingHeaders \/ st c2 = ReceivingContent -> avail c2 = [] ->
  announced (log c1) = announced (log c2).
Proof.
  intros c1 s1 c2 s2 R1 R2 E S1 A1 S2 A2.
  destruct (C01_nothing_missed _ _ R1 S1 A1) as (ms1 & r1 & W1 & E1 & N1 & M1).
  destruct (C01_nothing_missed _ _ R2 S2 A2) as (ms2 & r2 & W2 & E2 & N2 & M2).
  rewrite E1, E2 in E. rewrite N1, N2.
  destruct (stream_cut _ _ _ _ W1 W2 E) as [(m & F & D & R)|(m & F & D & R)].
  - destruct m as [|m ms]; [now rewrite app_nil_r in D|]. exfalso. inversion_clear F. eapply (M1 m); auto.
    rewrite R. cbn [map concat]. rewrite <- app_assoc. reflexivity.
  - destruct m as [|m ms]; [now rewrite app_nil_r in D|]. exfalso. inversion_clear F. eapply (M2 m); auto.
    rewrite R. cbn [map concat]. rewrite <- app_assoc. reflexivity.
Qed.

Example C01_case : reached sample_conn [] /\ length (announced (log sample_conn)) = 2%nat /\
  reached (run_conn [ACall (OpInit (NewDevice true true false (text1 ++ text2))); ACall OpProcess; ACall (OpWriteResponse 404 [] []); AReturn; AReturn]) [] /\
  st (run_conn [ACall (OpInit (NewDevice true true false (text1 ++ text2))); ACall OpProcess; ACall (OpWriteResponse 404 [] []); AReturn; AReturn]) = ReceivingContent.
Proof.
  split; [apply sample_reached|]. split; [vm_compute; reflexivity|]. split; [apply reached_run|]; vm_compute; reflexivity.
Qed.

(** ** C03: the fields of an announced request are those of its text *)
Theorem C03_fields : forall c stk r, reached c stk -> In (OReady r) (log c) ->
  exists h content pre post, wf_head h /\ arrived c = pre ++ head_text h ++ content ++ post /\
    q_method r = hd_method h /\ q_path r = spec_path (hd_target h) /\ q_query r = spec_query (hd_target h) /\
    q_fragment r = spec_fragment h /\ q_version r = version_text h /\ q_headers r = spec_headers h /\ q_content r = content.
Proof.
  intros c stk r H I. destruct (C01_requests_from_stream _ _ H) as (ms & rest & W & A & N).
  rewrite In_ready, N in I. apply in_map_iff in I as (m & <- & I). apply in_split in I as (m1 & m2 & ->).
  apply Forall_elt in W. exists (m_head m), (m_content m), (concat (map wire m1)), (concat (map wire m2) ++ rest).
  split; [apply W|]. split; [|auto 10]. rewrite A, map_app, concat_app. cbn [map concat]. unfold wire at 2. rewrite <- !app_assoc. reflexivity.
Qed.
Example C03_case : exists r, In (OReady r) (log sample_conn) /\ q_query r = lit "x=1" /\ q_headers r = [(lit "Host", lit "h")].
Proof. exists (nth 0 (announced (log sample_conn)) req0). rewrite In_ready. split; [apply nth_In|]; vm_compute; auto. Qed.

(** ** C04: requestUri() *)
Theorem C04_uri_partial : forall c stk r, reached c stk -> In (OReady r) (log c) ->
  exists h content pre post, wf_head h /\ arrived c = pre ++ head_text h ++ content ++ post /\
    ((forall p, hd_target h <> Origin p (Some [])) -> q_uri r = target_text (hd_target h)).
Proof.
  intros c stk r H I. destruct (C01_requests_from_stream _ _ H) as (ms & rest & W & A & N).
  rewrite In_ready, N in I. apply in_map_iff in I as (m & <- & I). apply in_split in I as (m1 & m2 & ->).
  apply Forall_elt in W. exists (m_head m), (m_content m), (concat (map wire m1)), (concat (map wire m2) ++ rest).
  split; [apply W|]. split; [rewrite A, map_app, concat_app; cbn [map concat]; unfold wire at 2; rewrite <- !app_assoc; reflexivity|].
  intros NE. cbn [delivered q_uri]. unfold shown_uri. destruct (hd_target (m_head m)) as [| |p [[|]|]]; auto. now destruct (NE p).
Qed.
(** MISSING, because false: a target with an empty query. The '?' is shown as a NUL byte. *)
Theorem C04_uri_refuted : exists c stk r, reached c stk /\ log c = [OReady r] /\
  arrived c = lit "GET /a? HTTP/1.1" ++ CRLF ++ CRLF /\ q_uri r = lit "/a" ++ [NUL].
Proof.
  set (l := [ACall (OpInit (NewDevice true true true (lit "GET /a? HTTP/1.1" ++ CRLF ++ CRLF))); ACall OpProcess]).
  exists (run_conn l), [KSig SReady], (nth 0 (announced (log (run_conn l))) req0).
  split; [apply reached_run; vm_compute; reflexivity|]. vm_compute. auto.
Qed.
Example C04_case : exists r, In (OReady r) (log sample_conn) /\ q_uri r = lit "/a?x=1".
Proof. exists (nth 0 (announced (log sample_conn)) req0). rewrite In_ready. split; [apply nth_In|]; vm_compute; auto. Qed.

(** ** C05, C06, C07: what reading does *)

(* after reading, and forever until re-initialized, the log is L, or L and the closing *)
Definition settled_log (L : list obs) (g : cfg) : Prop :=
  match g with
  | Run c _ => st c = Flushing /\ log c = L \/ st c = Closed /\ exists p, log c = L ++ [OShut p; OClosed]
  | UB r _ => r = UseAfterFree        (* only in a writeResponse still under way, see C20 *)
  end.
Lemma frozen_settled L g : GoodF L g -> settled_log L g.
Proof. destruct g; cbn; auto. unfold Frozen, FrozenClosed. intros [([(?&?&?&?)|(?&?)] & ?)|((?&?) & ?)]; auto. Qed.

(** what a waiting connection has to do with the bytes that follow the announced requests *)
Definition unanswered (c : conn) (rest : bytes) : Prop :=
  st c = ReceivingHeaders /\ exists ms, Forall wf_msg ms /\ arrived c = concat (map wire ms) ++ rest /\ announced (log c) = map delivered ms.
Lemma reached_reading c stk rest : reached c stk -> unanswered c rest -> Reading stk rest (log c) (step (Run c stk) (ACall OpProcess)).
Proof.
  intros H (Hs & ms & W & A & N). pose proof (reached_settled' _ _ H) as S. apply reached_inv in H.
  destruct H as [? ? ? ? ? ? ?|H Hb|ms' m more l s t H ? ? ?|ms' s t H ? ? ? ?|[(H & _)|(H & _)] Hf|(H & _) Hc]; try congruence.
  2: destruct H; congruence. 2: destruct H; congruence.
  destruct H as [(ms' & H & _)|[(ms' & h & l & hb & rest' & [] & Hlt)|[(ms' & m & more & l & [])|(ms' & m & more & l & a & len & pcs & evs & [])]]]; try congruence.
  cbn [step do_op]. eapply (process_reading ms'); eauto using Base_Fin.
  destruct H as [? [] ? ? AR X]. rewrite (announced_exchanges _ _ X) in N.
  rewrite A in AR. destruct (stream_cut _ _ _ _ W cm_wf AR) as [(d & F & D & R)|(d & F & D & R)].
  - rewrite N in D. apply (f_equal (@length _)) in D. rewrite app_length in D. destruct d; [|cbn in D; lia]. cbn in R.
    rewrite A, AR. now rewrite R.
  - rewrite N in D. apply (f_equal (@length _)) in D. rewrite app_length in D. destruct d; [|cbn in D; lia]. cbn in R.
    rewrite A, AR. now rewrite <- R.
Qed.
Lemma refused_forever c stk rest s : reached c stk -> unanswered c rest -> Refusable rest s ->
  forall l, forallb (fun a => negb (resets a)) l = true ->
  settled_log (log c ++ [OWrite (refusal s)]) (run (step (Run c stk) (ACall OpProcess)) l).
Proof.
  intros H U R l Hl. destruct (reached_reading _ _ _ H U) as (new & V & D).
  assert (new = [OWrite (refusal s)]) by (eapply Verdict_fun; eauto; now apply V_refuse). subst new.
  apply frozen_settled. apply run_frozen; auto.
  destruct D as [(c' & E & L & AV & [(S & Q)|(S & [Q|Q])])|[(c' & m & x & E & L & S & W & Er & Q)|(_ & G)]]; auto; exfalso; try discriminate Q.
  - destruct (interim _) as [|? []]; discriminate.
Qed.
Lemma polite_snoc l : forall g a c stk, polite_run g l -> run g l = Run c stk -> polite c stk a -> polite_run g (l ++ [a]).
Proof.
  induction l as [|b l IH]; intros g a c stk P E Q; cbn in *.
  - subst g. split; auto.
  - destruct P as (P1 & P2). split; eauto.
Qed.
Lemma reached_step c stk a c' stk' : reached c stk -> polite c stk a -> step (Run c stk) a = Run c' stk' -> reached c' stk'.
Proof.
  intros (l & P & E) Q S. exists (l ++ [a]). split; [eapply polite_snoc; eauto|].
  unfold run. rewrite fold_left_app. fold (run start l). now rewrite E.
Qed.
Lemma cut_same ms ms' rest rest' : Forall wf_msg ms -> Forall wf_msg ms' -> map delivered ms = map delivered ms' ->
  concat (map wire ms) ++ rest = concat (map wire ms') ++ rest' -> rest = rest'.
Proof.
  intros W W' D E. destruct (stream_cut _ _ _ _ W W' E) as [(d & F & D' & R)|(d & F & D' & R)];
  rewrite D in D'; apply (f_equal (@length _)) in D'; rewrite app_length in D'; (destruct d; [|cbn in D'; lia]); auto.
Qed.
Lemma reached_content c stk : reached c stk -> st c = ReceivingContent ->
  exists ms h l x, Forall wf_msg ms /\ arrived c = concat (map wire ms) ++ head_text h ++ x /\ announced (log c) = map delivered ms /\
    wf_head h /\ log c = l ++ cont h /\ Exchanges (map delivered ms) l /\ (exists n, AnnouncedLength h n /\ 0 < n <= max_content).
Proof.
  intros H Hs. apply reached_inv in H.
  destruct H as [? ? ? ? ? ? ?|H Hb|ms m more l s t H ? ? ?|ms s t H ? ? ? ?|[(H & _)|(H & _)] Hf|(H & _) Hc]; try congruence.
  2: destruct H; congruence. 2: destruct H; congruence.
  destruct H as [(ms & H)|[(ms & h & l & hb & rest & H & Hlt)|[(ms & m & more & l & [])|(ms & m & more & l & a & len & pcs & evs & [])]]];
    try congruence.
  - destruct H as (? & _). destruct H. congruence.
  - destruct H as [? [] ? ? ? ? ? ? ? ? X HL]. exists ms, h, l, (rest ++ avail c). repeat (split; eauto).
    rewrite HL, announced_app, (announced_exchanges _ _ X). unfold cont. destruct (says _ _); cbn; now rewrite app_nil_r.
Qed.
Lemma process_arrived c stk c' stk' : reached c stk -> step (Run c stk) (ACall OpProcess) = Run c' stk' -> arrived c' = arrived c.
Proof. intros H E. pose proof (adds_op (fun _ => True) OpProcess c stk eq_refl) as Q. cbn [step] in E. rewrite E in Q. apply Q; auto. Qed.
Lemma forallb_nores l : forallb (fun a => negb (resets a)) l = true <-> forall a, In a l -> resets a = false.
Proof. rewrite forallb_forall. split; intros H a I; specialize (H a I); destruct (resets a); auto; discriminate. Qed.

(** ** C05: malformed heads *)

(** [rest]: the bytes received after the announced requests; no well-formed head continues its beginning x.
    Processing them writes the 400 response; whatever happens next, as long as the connection is not
    initialized again, nothing else is written or announced, and the only thing left to do is to close. *)
Theorem C05_malformed_400 : forall c stk rest x y, reached c stk -> unanswered c rest -> rest = x ++ y ->
  (forall ext h z, wf_head h -> x ++ ext <> head_text h ++ z) ->
  forall l, (forall a, In a l -> resets a = false) ->
  settled_log (log c ++ [OWrite (refusal "400 Bad Request")]) (run (step (Run c stk) (ACall OpProcess)) l).
Proof. intros c stk rest x y H U E N l Hl. eapply refused_forever; eauto using Rf_malformed. now apply forallb_nores. Qed.
(** bytes that can still become a head are waited for, silently *)
Theorem C05_incomplete_waits : forall c stk rest, reached c stk -> unanswered c rest ->
  (forall h x, wf_head h -> rest <> head_text h ++ x) -> (exists ext h, wf_head h /\ rest ++ ext = head_text h) ->
  blen rest <= max_pending ->
  exists c', step (Run c stk) (ACall OpProcess) = Run c' stk /\ log c' = log c /\ st c' = ReceivingHeaders.
Proof.
  intros c stk rest H U N E L. destruct (reached_reading _ _ _ H U) as (new & V & D).
  assert (new = []) by (eapply Verdict_fun; eauto; now apply V_wait). subst new. rewrite app_nil_r in D.
  destruct D as [(c' & E' & L' & AV & S)|[(c' & m & x & _ & _ & _ & _ & _ & Q)|((s & Q) & _)]]; try discriminate Q.
  - exists c'. split; auto. split; auto. destruct S as [(S & _)|(S & _)]; auto. exfalso.
    assert (R' : reached c' stk) by (eapply reached_step; eauto; exact I).
    destruct (reached_content _ _ R' S) as (ms' & h' & l' & x' & W' & A' & N' & Wh & _).
    destruct U as (_ & ms & W & A & M). rewrite (process_arrived _ _ _ _ H E'), A in A'. rewrite L', M in N'.
    eapply N; [exact Wh|]. eapply (cut_same ms ms'); eauto.
  - destruct (interim _) as [|? []]; discriminate.
Qed.
(** A second kind of sample: a connection that has answered text1 and then received the bytes [b]. *)
Definition base1 : conn := run_conn [ACall (OpInit (NewDevice true true true text1)); ACall OpProcess;
  ACall (OpWriteResponse 200 [] []); AReturn; AReturn].
Definition after1 (b : bytes) : conn := set_arrived (text1 ++ b) (set_avail b base1).
Definition msg1 : msg := mkMsg (mkHead (lit "GET") (Origin (lit "a") (Some (lit "x=1"))) None (lit "1") (lit "1")
  [mkHline (lit "Host") 1 (lit "h")]) [].
Lemma msg1_wf : wf_msg msg1.
Proof.
  constructor; cbn [msg1 m_head m_content]; try (vm_compute; discriminate).
  - constructor; cbn; try reflexivity; try lia.
    + constructor; text.
    + discriminate.
    + split; [discriminate|reflexivity].
    + split; [discriminate|reflexivity].
    + repeat constructor; cbn; try discriminate; try reflexivity; intuition (subst; discriminate).
  - apply AL_none. reflexivity.
Qed.
Lemma base1_facts : in_ok base1 = true /\ st base1 = ReceivingHeaders /\ arrived base1 = text1 /\ avail base1 = [] /\
  announced (log base1) = map delivered [msg1].
Proof. vm_compute. auto. Qed.
Lemma base1_reached : reached base1 [].
Proof. apply reached_run; vm_compute; reflexivity. Qed.
Lemma arrive_reached c ms b : reached c [] -> in_ok c = true -> st c = ReceivingHeaders -> Forall wf_msg ms ->
  arrived c = concat (map wire ms) -> avail c = [] -> announced (log c) = map delivered ms ->
  let c' := set_arrived (arrived c ++ b) (set_avail (avail c ++ b) c) in reached c' [] /\ unanswered c' b.
Proof.
  intros R F1 F2 W F3 F4 F5 c'.
  assert (S : step (Run c []) (AArrive b) = Run c' []) by (cbn [step]; rewrite F1, F2; reflexivity).
  split; [apply (reached_step c [] (AArrive b)); auto; exact I|].
  unfold c', unanswered. csimp. split; auto. exists ms. rewrite F3. auto.
Qed.
Lemma after1_reached b : reached (after1 b) [] /\ unanswered (after1 b) b.
Proof.
  destruct base1_facts as (F1 & F2 & F3 & F4 & F5). unfold after1.
  pose proof (arrive_reached base1 [msg1] b base1_reached F1 F2) as H. rewrite F3, F4 in H. apply H; auto.
  constructor; [apply msg1_wf|constructor].
Qed.
Example C05_case : reached (after1 (lit "GET ?x")) [] /\ unanswered (after1 (lit "GET ?x")) (lit "GET ?x") /\
  forall ext h z, wf_head h -> lit "GET ?x" ++ ext <> head_text h ++ z.
Proof.
  split; [apply after1_reached|]. split; [apply after1_reached|]. intros ext h z W E.
  assert (R : rejects (lit "GET ?x")) by (rewrite rejects_drun; reflexivity). apply C02_rejects in R. apply R. eauto.
Qed.

(** ** C06: size of the head *)

(** a request whose head has at most 32767 bytes (and whose content is complete) is announced *)
Theorem C06_accepted : forall c stk rest m x, reached c stk -> unanswered c rest -> wf_msg m -> rest = wire m ++ x ->
  exists c', step (Run c stk) (ACall OpProcess) = Run c' (KSig SReady :: stk) /\ st c' = SendingHeaders /\
    log c' = log c ++ interim (delivered m) ++ [OReady (delivered m)].
Proof.
  intros c stk rest m x H U W E. destruct (reached_reading _ _ _ H U) as (new & V & D).
  assert (new = interim (delivered m) ++ [OReady (delivered m)]) by (eapply Verdict_fun; eauto; eapply V_ready; eauto). subst new.
  destruct D as [(c' & E' & L' & AV & [(_ & Q)|(_ & [Q|Q])])|[(c' & m' & x' & E' & L & S & _)|((s & Q) & _)]]; eauto;
    destruct (interim _) as [|? []]; discriminate Q.
Qed.
(** a longer head is refused, and so are more than 32768 bytes which are not (yet) a head of acceptable size *)
Theorem C06_long_head_400 : forall c stk rest h x, reached c stk -> unanswered c rest ->
  wf_head h -> rest = head_text h ++ x -> 32768 <= blen (head_text h) ->
  forall l, (forall a, In a l -> resets a = false) ->
  settled_log (log c ++ [OWrite (refusal "400 Bad Request")]) (run (step (Run c stk) (ACall OpProcess)) l).
Proof. intros c stk rest h x H U W E L l Hl. eapply refused_forever; eauto using Rf_long_head; [|now apply forallb_nores]. eapply Rf_long_head; eauto. unfold max_head. lia. Qed.
Theorem C06_endless_400 : forall c stk rest, reached c stk -> unanswered c rest ->
  (forall h x, wf_head h -> rest <> head_text h ++ x) -> 32768 < blen rest ->
  forall l, (forall a, In a l -> resets a = false) ->
  settled_log (log c ++ [OWrite (refusal "400 Bad Request")]) (run (step (Run c stk) (ACall OpProcess)) l).
Proof.
  intros c stk rest H U N L l Hl. eapply refused_forever; eauto; [|now apply forallb_nores].
  apply Rf_endless; auto. intros h (W & _ & x & E). eapply N; eauto.
Qed.
(** so a connection never holds more than 32768 bytes of an incomplete head *)
Theorem C06_bounded_wait : forall c stk, reached c stk -> st c = ReceivingHeaders -> avail c = [] ->
  exists ms rest, Forall wf_msg ms /\ arrived c = concat (map wire ms) ++ rest /\ announced (log c) = map delivered ms /\ blen rest <= 32768.
Proof.
  intros c stk H Hs HA. apply reached_inv in H.
  destruct H as [? ? ? ? ? ? ?|H Hb|ms m more l s t H ? ? ?|ms s t H ? ? ? ?|[(H & _)|(H & _)] Hf|(H & _) Hc]; try congruence.
  2: destruct H; congruence. 2: destruct H; congruence.
  destruct H as [(ms & H)|[(ms & h & l & hb & rest & H & Hlt)|[(ms & m & more & l & [])|(ms & m & more & l & a & len & pcs & evs & [])]]];
    try congruence.
  - destruct H as ([? [] ? ? AR X] & (p0 & n & _ & _) & HL). exists ms, (buf c). rewrite HA, app_nil_r in AR.
    rewrite (announced_exchanges _ _ X). auto.
  - destruct H; congruence.
Qed.
Lemma big_head n : wf_head (mkHead (lit "GET") (Origin (repeat "a"%char n) None) None (lit "1") (lit "1") []) /\
  blen (head_text (mkHead (lit "GET") (Origin (repeat "a"%char n) None) None (lit "1") (lit "1") [])) = Z.of_nat n + 18.
Proof.
  split.
  - constructor; cbn; try reflexivity; try lia; try (split; [discriminate|reflexivity]); try discriminate; [|constructor].
    constructor. induction n; cbn; constructor; auto.
  - unfold head_text. rewrite !blen_app. cbn [target_text hd_target]. rewrite !blen_app.
    replace (blen (repeat "a"%char n)) with (Z.of_nat n) by (unfold blen; now rewrite repeat_length).
    change (blen (hd_method _)) with 3. change (blen (lit " ")) with 1. change (blen (lit "/")) with 1. change (blen (fragment_text _)) with 0.
    change (blen (version_text _)) with 8. change (blen CRLF) with 2. change (blen (concat _)) with 0. lia.
Qed.
Definition long_head (n : Z) : head := mkHead (lit "GET") (Origin (repeat "a"%char (Z.to_nat (n - 18))) None) None (lit "1") (lit "1") [].
Lemma long_head_ok n : 18 <= n -> wf_head (long_head n) /\ blen (head_text (long_head n)) = n /\ AnnouncedLength (long_head n) 0.
Proof.
  intros L. destruct (big_head (Z.to_nat (n - 18))) as (W & E). fold (long_head n) in W, E. split; auto. split; [lia|].
  apply AL_none. reflexivity.
Qed.
Example C06_case : (exists m, wf_msg m /\ blen (head_text (m_head m)) = 32767) /\ (exists h, wf_head h /\ blen (head_text h) = 32768).
Proof.
  split.
  - exists (mkMsg (long_head 32767) []). destruct (long_head_ok 32767) as (W & L & A); [lia|]. cbn [m_head]. split; auto.
    constructor; cbn [m_head m_content]; auto; [rewrite L; lia|rewrite blen_nil; lia].
  - exists (long_head 32768). destruct (long_head_ok 32768) as (W & L & A); [lia|]. auto.
Qed.

(** ** C07: content length policy *)
Theorem C07_length : forall c stk r, reached c stk -> In (OReady r) (log c) ->
  exists h pre post, wf_head h /\ arrived c = pre ++ head_text h ++ q_content r ++ post /\ q_headers r = spec_headers h /\
    AnnouncedLength h (blen (q_content r)) /\ blen (q_content r) <= 134217728.
Proof.
  intros c stk r H I. destruct (C01_requests_from_stream _ _ H) as (ms & rest & W & A & N).
  rewrite In_ready, N in I. apply in_map_iff in I as (m & <- & I). apply in_split in I as (m1 & m2 & ->).
  apply Forall_elt in W. exists (m_head m), (concat (map wire m1)), (concat (map wire m2) ++ rest).
  split; [apply W|]. split; [|destruct W; cbn; auto]. rewrite A, map_app, concat_app. cbn [map concat]. unfold wire at 2. rewrite <- !app_assoc. reflexivity.
Qed.
(** no Content-Length: empty content *)
Theorem C07_none_empty : forall c stk r, reached c stk -> In (OReady r) (log c) ->
  last_named "content-length" (q_headers r) = None -> q_content r = [].
Proof.
  intros c stk r H I N. destruct (C07_length _ _ _ H I) as (h & pre & post & _ & _ & E & A & _). rewrite E in N.
  inversion A as [Q Q'|f v n Q Q' Q'']; [|congruence]. destruct (q_content r); auto. unfold blen in *. cbn in *. lia.
Qed.
Theorem C07_refused : forall c stk rest h f v s, reached c stk -> unanswered c rest -> starts_head rest h ->
  last_named "content-length" (spec_headers h) = Some (f, v) ->
  (exists n, IntText int_lo int_hi v n /\ n < 0 /\ s = "400 Bad Request"%string) \/
  (exists n, IntText int_lo int_hi v n /\ 134217728 < n /\ s = "413 Request Entity Too Large"%string) \/
  ((forall n, ~ IntText int_lo int_hi v n) /\ s = "413 Request Entity Too Large"%string) ->
  forall l, (forall a, In a l -> resets a = false) ->
  settled_log (log c ++ [OWrite (refusal s)]) (run (step (Run c stk) (ACall OpProcess)) l).
Proof.
  intros c stk rest h f v s H U S E C l Hl. eapply refused_forever; eauto; [|now apply forallb_nores].
  destruct C as [(n & I & L & ->)|[(n & I & L & ->)|(I & ->)]]; [eapply Rf_negative|eapply Rf_too_large|eapply Rf_not_a_number]; eauto.
Qed.
Definition cl_head (v : bytes) : head := mkHead (lit "PUT") (Origin [] None) None (lit "1") (lit "1") [mkHline (lit "Content-length") 1 v].
Lemma cl_head_wf v : (forall c, In c v -> c <> CR) -> (forall t, v <> SP :: t) -> wf_head (cl_head v).
Proof.
  intros. constructor; cbn; try reflexivity; try lia; try (split; [discriminate|reflexivity]); try discriminate.
  - constructor. constructor.
  - repeat constructor; cbn; auto. discriminate.
Qed.
Example C07_case : starts_head (head_text (cl_head (lit "134217729")) ++ lit "abc") (cl_head (lit "134217729")) /\
  last_named "content-length" (spec_headers (cl_head (lit "134217729"))) = Some (lit "Content-length", lit "134217729") /\
  (exists n, IntText int_lo int_hi (lit "134217729") n /\ 134217728 < n) /\
  last_named "content-length" (spec_headers (cl_head (lit "-1"))) = Some (lit "Content-length", lit "-1") /\
  (exists n, IntText int_lo int_hi (lit "-1") n /\ n < 0) /\
  last_named "content-length" (spec_headers (cl_head (lit "1x"))) = Some (lit "Content-length", lit "1x") /\
  (forall n, ~ IntText int_lo int_hi (lit "1x") n).
Proof.
  split. { split; [|split; [vm_compute; discriminate|eauto]]. apply cl_head_wf; cbn; [intuition (subst; discriminate)|discriminate]. }
  split; [reflexivity|]. split. { exists 134217729. split; [|lia]. apply toInt_iff. vm_compute. reflexivity. }
  split; [reflexivity|]. split. { exists (-1). split; [|lia]. apply toInt_iff. vm_compute. reflexivity. }
  split; [reflexivity|]. apply toInt_none. vm_compute. reflexivity.
Qed.

(** ** C08: content *)

(** The announced requests rs ++ r :: rs': the text of r follows right after the texts of rs, the content is the
    bytes right after its head, as many as its Content-Length announces, and the next request follows. *)
Theorem C08_content : forall c stk rs r rs', reached c stk -> announced (log c) = rs ++ r :: rs' ->
  exists before h after rest, wf_head h /\ map delivered before = rs /\ map delivered after = rs' /\
    arrived c = concat (map wire before) ++ head_text h ++ q_content r ++ concat (map wire after) ++ rest /\
    q_headers r = spec_headers h /\ AnnouncedLength h (blen (q_content r)).
Proof.
  intros c stk rs r rs' H E. destruct (C01_requests_from_stream _ _ H) as (ms & rest & W & A & N).
  rewrite E in N. symmetry in N. apply map_eq_app in N as (m1 & m2 & -> & N1 & N2). apply map_eq_cons in N2 as (m & m3 & -> & N2 & N3).
  apply Forall_elt in W. subst r. exists m1, (m_head m), m3, rest. split; [apply W|]. split; auto. split; auto.
  split; [|destruct W; cbn; auto]. rewrite A, map_app, concat_app. cbn [map concat]. unfold wire at 2. cbn [delivered q_content]. rewrite <- !app_assoc. reflexivity.
Qed.
(** a request whose content is incomplete is not announced *)
Theorem C08_waits : forall c stk rest h part n, reached c stk -> unanswered c rest -> starts_head rest h -> rest = head_text h ++ part ->
  AnnouncedLength h n -> blen part < n <= 134217728 ->
  exists c', step (Run c stk) (ACall OpProcess) = Run c' stk /\ announced (log c') = announced (log c) /\ st c' = ReceivingContent.
Proof.
  intros c stk rest h part n H U S E A L. destruct (reached_reading _ _ _ H U) as (new & V & D).
  assert (X : Verdict rest (if says (first_named "expect" (spec_headers h)) "100-continue" then [OWrite continue_text] else [])) by (eapply V_content; eauto).
  pose proof (Verdict_fun _ _ _ V X) as Q.
  destruct D as [(c' & E' & L' & AV & S')|[(c' & m' & x' & _ & _ & _ & _ & _ & Q')|((s & Q') & _)]].
  - exists c'. split; auto. split.
    + rewrite L', announced_app, Q. destruct (says _ _); cbn; now rewrite app_nil_r.
    + destruct S' as [(S' & N)|(S' & _)]; auto. exfalso. assert (R' : reached c' stk) by (apply (reached_step c stk (ACall OpProcess)); auto; exact I).
      destruct (reached_idle _ _ R' (or_introl S') AV) as (ms & rest' & l & new' & W & A' & X' & L2 & V' & _).
      destruct U as (_ & ms0 & W0 & A0 & M0). rewrite (process_arrived _ _ _ _ H E'), A0 in A'.
      apply reached_inv in R'.
      destruct R' as [? ? ? ? ? ? ?|R' Hb|ms1 m more l1 s t R' ? ? ?|ms1 s t R' ? ? ? ?|[(R' & _)|(R' & _)] Hf|(R' & _) Hc]; try congruence.
      2: destruct R'; congruence. 2: destruct R'; congruence.
      destruct R' as [(ms1 & R')|[(ms1 & h1 & l1 & hb & rest1 & R' & Hlt)|[(ms1 & m & more & l1 & [])|(ms1 & m & more & l1 & a & len & pcs & evs & [])]]]; try congruence.
      2: destruct R'; congruence.
      destruct R' as ([? [] ? ? AR XX] & (p0 & k & _ & HD) & _). rewrite AV, app_nil_r, (process_arrived _ _ _ _ H E'), A0 in AR.
      assert (rest = buf c').
      { eapply (cut_same ms0 ms1); eauto. rewrite <- M0, <- (announced_exchanges _ _ XX), L', N, app_nil_r. reflexivity. }
      destruct S as (Wh & _). assert (drun 1 rest = DDone part) by (apply drun_iff; eauto). congruence.
  - rewrite Q' in Q. destruct (says _ _), (interim _) as [|? []]; discriminate.
  - rewrite Q' in Q. destruct (says _ _); discriminate.
Qed.
Example C08_case : exists r, announced (log sample_conn) = [hd req0 (announced (log sample_conn))] ++ r :: [] /\ q_content r = lit "abc".
Proof. exists (nth 1 (announced (log sample_conn)) req0). vm_compute. auto. Qed.

(** ** C09: 100-continue *)

(** The events before requestReady r: those of the completed exchanges (nothing, or ending with
    requestCompleted), then the interim response if r expects it (content not empty, and first Expect header
    equal to 100-continue), once, then requestReady. *)
Theorem C09_before_ready : forall c stk pre r post, reached c stk -> log c = pre ++ OReady r :: post ->
  exists pre', pre = pre' ++ (if expects r then [OWrite (lit "HTTP/1.1 100 Continue" ++ CRLF ++ CRLF)] else []) /\
    (pre' = [] \/ exists q, pre' = q ++ [OCompleted]).
Proof. intros c stk pre r post H E. exact (story_ready _ _ _ _ _ (reached_story _ _ H) E). Qed.
(** It is sent as soon as the head is complete, while the content is waited for. *)
Theorem C09_while_waiting : forall c stk, reached c stk -> st c = ReceivingContent ->
  exists ms h x l, arrived c = concat (map wire ms) ++ head_text h ++ x /\ wf_head h /\ announced (log c) = map delivered ms /\
    (exists n, AnnouncedLength h n /\ 0 < n) /\
    log c = l ++ (if says (first_named "expect" (spec_headers h)) "100-continue" then [OWrite (lit "HTTP/1.1 100 Continue" ++ CRLF ++ CRLF)] else []) /\
    (l = [] \/ exists q, l = q ++ [OCompleted]).
Proof.
  intros c stk H S. destruct (reached_content _ _ H S) as (ms & h & l & x & W & A & N & Wh & L & X & n & AL & Hn).
  exists ms, h, x, l. repeat (split; auto). { exists n. split; auto. lia. } eapply exchanges_end; eauto.
Qed.
(** Never otherwise: all the bytes written on the connection are responses, with an interim response before
    exactly those to the requests that expect it; only a last request whose content is still missing may have
    been sent one in addition. *)
Theorem C09_never_otherwise : forall c stk, reached c stk -> exists rs last bs b,
  announced (log c) = rs ++ last /\ written (log c) = concat bs ++ b /\
  Forall2 (fun r b => Response r true b) rs bs /\ LastWritten last b.
Proof. intros c stk H. exact (story_written _ _ (reached_story _ _ H)). Qed.
Example C09_case : exists pre r post, log sample_conn = pre ++ OReady r :: post /\ expects r = true /\ length pre = 5%nat.
Proof.
  exists (firstn 5 (log sample_conn)), (nth 1 (announced (log sample_conn)) req0), (skipn 6 (log sample_conn)). vm_compute. auto.
Qed.
Example C09_case_waiting : exists c, reached c [] /\ st c = ReceivingContent /\ log c = [OWrite continue_text].
Proof.
  exists (run_conn [ACall (OpInit (NewDevice true true true (text2 ++ lit "a"))); ACall OpProcess]).
  split; [apply reached_run|split]; vm_compute; reflexivity.
Qed.

(** ** C18: signals *)

(** requestReady and requestCompleted alternate, starting with requestReady, for the requests in order; closed
    is emitted at most once, last. *)
Theorem C18_signal_order : forall c stk, reached c stk -> exists rs tail e,
  signals (log c) = concat (map (fun r => [OReady r; OCompleted]) rs) ++ tail ++ e /\
  (tail = [] \/ exists r, tail = [OReady r]) /\ (e = [] \/ e = [OClosed]).
Proof. intros c stk H. exact (story_signals _ _ (reached_story _ _ H)). Qed.
(** nothing is emitted or written after closed *)
Theorem C18_nothing_after_closed : forall c stk pre post, reached c stk -> log c = pre ++ OClosed :: post -> post = [].
Proof. intros c stk pre post H E. eapply story_closed_last; eauto using reached_story. Qed.
(** ...also while UB is met, see C20/C22 *)
Example C18_case : exists c stk, reached c stk /\ map (fun o => match o with OReady _ => 1 | OCompleted => 2 | _ => 3 end) (signals (log c)) = [1; 2; 1; 3].
Proof.
  exists (run_conn (sample ++ [ACall OpClose])), [KSig SClosed; KClosed]. split; [apply reached_run|]; vm_compute; reflexivity.
Qed.

(** ** C19: the bytes written *)

(** One complete response per request answered with keep-alive, in request order, then what was written for the
    last request: nothing, an interim response, an error response, a part of a response or a complete one. *)
Theorem C19_response_order : forall c stk, reached c stk -> exists rs last bs b,
  announced (log c) = rs ++ last /\ written (log c) = concat bs ++ b /\
  Forall2 (fun r b => Response r true b) rs bs /\ LastWritten last b.
Proof. intros c stk H. exact (story_written _ _ (reached_story _ _ H)). Qed.
Example C19_case : reached sample_conn [] /\ length (announced (log sample_conn)) = 2%nat /\ 100 < blen (written (log sample_conn)).
Proof. split; [apply sample_reached|]. split; vm_compute; reflexivity. Qed.

Print Assumptions C01_function_of_stream.
Print Assumptions C05_malformed_400.
Print Assumptions C19_response_order.
