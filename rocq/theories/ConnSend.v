(** What one call of the response API does, in every state reached by polite use. *)
From Verif Require Import Bytes ByteHelpers Thin Helpers ReqGrammar TextSpec ThinProofs ThinFields ThinTop CIProofs HelpersProofs
  Conn ConnSpec ConnView ConnText ConnHead ConnInv ConnStep ConnEnd ConnLog PropsConn.
Open Scope Z_scope.

(** the request being answered: the last one announced *)
Definition current (c : conn) (r : request) : Prop := exists rs, announced (log c) = rs ++ [r].

Lemma reached_SH c stk : reached c stk -> st c = SendingHeaders -> exists ms m more l, SH ms m more l c.
Proof.
  intros H Hs. apply reached_inv in H.
  destruct H as [? ? ? ? ? ? ?|H Hb|ms m more l s t H ? ? ?|ms s t H ? ? ? ?|[(H & _)|(H & _)] Hf|(H & _) Hc]; try congruence.
  2: destruct H; congruence. 2: destruct H; congruence.
  destruct H as [(ms & H & _)|[(ms & h & l & hb & rest & H & Hlt)|[H|(ms & m & more & l & a & len & pcs & evs & [])]]]; auto; try congruence.
  - destruct H. congruence.
  - destruct H. congruence.
Qed.
Lemma reached_SC c stk : reached c stk -> st c = SendingContent -> exists ms m more l a len pcs evs, SC ms m more l a len pcs evs c.
Proof.
  intros H Hs. apply reached_inv in H.
  destruct H as [? ? ? ? ? ? ?|H Hb|ms m more l s t H ? ? ?|ms s t H ? ? ? ?|[(H & _)|(H & _)] Hf|(H & _) Hc]; try congruence.
  2: destruct H; congruence. 2: destruct H; congruence.
  destruct H as [(ms & H & _)|[(ms & h & l & hb & rest & H & Hlt)|[(ms & m & more & l & [])|H]]]; auto; try congruence.
  - destruct H. congruence.
  - destruct H. congruence.
Qed.
Lemma last_ready l r evs : announced evs = [] -> announced (l ++ interim r ++ OReady r :: evs) = announced l ++ [r].
Proof. intros E. rewrite !announced_app, interim_no_ready. cbn. now rewrite E. Qed.
Lemma SH_current ms m more l c r : SH ms m more l c -> current c r -> r = delivered m.
Proof.
  intros H (rs & E). rewrite (sh_log _ _ _ _ _ H), last_ready in E by reflexivity. now apply app_inj_tail in E.
Qed.

(** the state after the head has been written *)
Definition after_head (code : Z) (a : answer) (len : Z) (hd : bytes) (c : conn) : conn :=
  set_hbuf [] (set_st SendingContent (wrote hd (head_conn code a len hd c))).
Lemma head_exact code hs c t k : st c = SendingHeaders -> hbuf c = [] -> http11 c = http11_req (req c) -> chunked c = false -> out_ok c = true ->
  int_length code hs (rlen c) ->
  exists len hd, let a := mkAns code hs (rlen c) in RespLength a len /\ RespHead (req c) a len hd /\
    writeHeaders code hs c t k =
    if (len =? 0) || head_req (req c)
    then Run (emit_log OCompleted (set_st Completed (after_head code a len hd c))) (KSig SCompleted :: KCompleted :: KSending :: t)
    else k (sending_tail (after_head code a len hd c)).
Proof.
  intros Hs Hh H11 Hch Ho HI. exists (resp_len hs (rlen c)).
  destruct (writeHeaders_ok code hs c t k Hs Hh H11 Hch (int_length_ok _ _ _ HI)) as (hd & RH & ->). exists hd. cbv zeta.
  split; [apply resp_len_ok|]. split; auto. rewrite dev_write_ok by auto. unfold toSendingContent.
  replace (cst_eqb (st (wrote hd (head_conn code {| a_code := code; a_headers := hs; a_size := rlen c |} (resp_len hs (rlen c)) hd c))) SendingContent) with false
    by (unfold wrote, head_conn, emit_log; csimp; now rewrite Hs).
  cbv zeta. rewrite is_head_ok. unfold after_head.
  replace (rlen (set_hbuf [] (set_st SendingContent (wrote hd (head_conn code {| a_code := code; a_headers := hs; a_size := rlen c |} (resp_len hs (rlen c)) hd c)))))
    with (resp_len hs (rlen c)) by reflexivity.
  replace (req (set_hbuf [] (set_st SendingContent (wrote hd (head_conn code {| a_code := code; a_headers := hs; a_size := rlen c |} (resp_len hs (rlen c)) hd c)))))
    with (req c) by reflexivity.
  destruct (_ || _); auto.
Qed.
Lemma sending_tail_log c : log (sending_tail c) = log c /\ st (sending_tail c) = st c /\ rlen (sending_tail c) = rlen c /\ rstatus (sending_tail c) = rstatus c.
Proof. unfold sending_tail. now destruct (_ && _). Qed.

(** writeHeaders *)
Lemma writeHeaders_step c stk r code hs : reached c stk -> st c = SendingHeaders -> current c r -> int_length code hs (-1) ->
  exists len hd c' stk', RespLength (mkAns code hs (-1)) len /\ RespHead r (mkAns code hs (-1)) len hd /\
    step (Run c stk) (ACall (OpWriteHeaders code hs)) = Run c' stk' /\ rlen c' = len /\ rstatus c' = code /\
    if (len =? 0) || head_req r
    then st c' = Completed /\ stk' = KSig SCompleted :: KCompleted :: KSending :: stk /\ log c' = log c ++ [OWrite hd; OCompleted]
    else st c' = SendingContent /\ stk' = stk /\ log c' = log c ++ [OWrite hd].
Proof.
  intros H Hs Hcur HI. destruct (reached_SH _ _ H Hs) as (ms & m & more & l & S). pose proof (SH_current _ _ _ _ _ _ S Hcur) as ->.
  destruct S as [_ [[] ? ? ? Hreq ? ?] H11 Hch Hr ? ?]. rewrite <- Hr in HI |- *. rewrite <- Hreq.
  destruct (head_exact code hs c stk (resume stk) Hs cm_hbuf H11 Hch cm_out HI) as (len & hd & HL & HH & E).
  exists len, hd. cbn [step do_op]. rewrite E. destruct ((len =? 0) || head_req (req c)).
  - eexists _, _. repeat (split; [eassumption || reflexivity|]). unfold after_head, wrote, head_conn, emit_log. csimp. now rewrite <- !app_assoc.
  - rewrite settled_resume by (eapply reached_settled'; eauto). eexists _, _. split; auto. split; auto. split; [reflexivity|].
    pose proof (sending_tail_log (after_head code (mkAns code hs (rlen c)) len hd c)) as (-> & -> & -> & ->). auto 10.
Qed.

(** what a piece of content adds to the log *)
Definition piece (ch : bool) (content : bytes) (ev : list obs) : Prop :=
  if ch then exists d, Canonical 16 d (blen content) /\ ev = [OWrite (d ++ CRLF); OWrite content; OWrite CRLF] else ev = [OWrite content].
Lemma piece_ok ch content : exists ev, piece ch content ev.
Proof.
  unfold piece. destruct ch; [|eauto]. destruct (appendNumber_any 16 (blen content) ltac:(lia)) as (d & _ & C); eauto.
  pose proof (blen_nonneg content). unfold INT_MIN. lia.
Qed.
(** writeContent in state SendingContent *)
Lemma content_exact content c t k : st c = SendingContent -> out_ok c = true -> head_req (req c) = false -> rlen c <> 0 ->
  if (0 <? rlen c) && (rlen c <? blen content + rsent c) || (blen content =? 0) then writeContent content c t k = k c
  else exists ev c', piece (chunked c) content ev /\ c' = set_log (log c ++ ev) (set_pending (pending c') (set_rsent (rsent c + blen content) c)) /\
    writeContent content c t k = if rsent c' =? rlen c' then toCompleted c' t k else k c'.
Proof.
  intros Hs Ho Hh Hr. unfold writeContent. rewrite Hs. cbn [cst_eqb negb]. destruct (Z.eqb_spec (rlen c) 0); [congruence|].
  destruct ((0 <? rlen c) && (rlen c <? blen content + rsent c)); cbn [orb]; auto.
  rewrite is_head_ok, Hh. cbn [negb]. rewrite andb_true_r.
  destruct (Z.eqb_spec (blen content) 0) as [E|E]; [rewrite E; auto|].
  pose proof (blen_nonneg content). destruct (Z.ltb_spec 0 (blen content)); [|lia]. cbv zeta. csimp. unfold piece.
  destruct (chunked c).
  - destruct (appendNumber_any 16 (blen content) ltac:(lia)) as (d & -> & Cd); [unfold INT_MIN; lia|].
    rewrite dev_write_ok by (csimp; auto). rewrite dev_write_ok by (csimp; auto). rewrite dev_write_ok by (csimp; auto).
    eexists _, (wrote CRLF (wrote content (wrote (d ++ CRLF) (set_rsent (rsent c + blen content) c)))).
    split; [eauto|]. split; [|reflexivity]. unfold wrote, emit_log. csimp. rewrite <- !app_assoc. reflexivity.
  - rewrite dev_write_ok by (csimp; auto). eexists _, (wrote content (set_rsent (rsent c + blen content) c)). split; [reflexivity|]. split; reflexivity.
Qed.

(** a state in which content is being sent: r is being answered with a, whose length is responseContentLength() *)
Definition sending (c : conn) (r : request) (a : answer) (pcs : list bytes) : Prop :=
  exists pre evs, log c = pre ++ interim r ++ OReady r :: evs /\ (pre = [] \/ exists q, pre = q ++ [OCompleted]) /\ Answering r a (rlen c) pcs evs.
Lemma reached_sending c stk : reached c stk -> st c = SendingContent -> exists r a pcs,
  sending c r a pcs /\ current c r /\ head_req r = false /\ rlen c <> 0 /\ (0 < rlen c -> total pcs < rlen c) /\
  chunked c = chunked_resp r a (rlen c) /\ keepalive c = keeps r a (rlen c) /\ rsent c = total pcs /\ out_ok c = true /\ req c = r.
Proof.
  intros H Hs. destruct (reached_SC _ _ H Hs) as (ms & m & more & l & a & len & pcs & evs & [_ [[] ? ? ? Hreq ? X] HA HL Hr Hc Hka Hsent Hlen Hhead Hmore]).
  exists (delivered m), a, pcs. subst len. split.
  - exists l, evs. split; auto. split; auto. eapply exchanges_end; eauto.
  - split; [|auto 10]. exists (announced l). rewrite HL, last_ready; auto.
    destruct HA as [hd evs' _ _ HC _]. cbn. now apply pieces_written in HC as (_ & -> & _).
Qed.

(** writeContent *)
Lemma writeContent_step c stk content : reached c stk -> st c = SendingContent -> forall r a pcs,
  chunked c = chunked_resp r a (rlen c) -> rsent c = total pcs -> head_req (req c) = false -> rlen c <> 0 -> out_ok c = true -> 0 <= total pcs ->
  let g := step (Run c stk) (ACall (OpWriteContent content)) in
  if (0 <? rlen c) && (rlen c <? total pcs + blen content) || (blen content =? 0) then g = Run c stk
  else exists ev c', piece (chunked_resp r a (rlen c)) content ev /\ rlen c' = rlen c /\ rsent c' = total pcs + blen content /\
    if total pcs + blen content =? rlen c
    then st c' = Completed /\ log c' = log c ++ ev ++ [OCompleted] /\ g = Run c' (KSig SCompleted :: KCompleted :: stk)
    else st c' = SendingContent /\ log c' = log c ++ ev /\ g = Run c' stk.
Proof.
  intros H Hs r a pcs Hch Hsent Hhead Hlen Ho Hpos g. unfold g. cbn [step do_op].
  pose proof (content_exact content c stk (resume stk) Hs Ho Hhead Hlen) as E. rewrite Hsent, Z.add_comm in E.
  assert (ST : settled stk) by (eapply reached_settled'; eauto).
  destruct (_ || _); [now rewrite E, settled_resume|].
  destruct E as (ev & c1 & P & Ec & E). rewrite <- Hch. rewrite E.
  assert (F : rsent c1 = total pcs + blen content /\ rlen c1 = rlen c /\ st c1 = SendingContent /\ log c1 = log c ++ ev) by (rewrite Ec; csimp; repeat split; auto; congruence).
  destruct F as (F1 & F2 & F3 & F4). rewrite F1, F2. destruct (total pcs + blen content =? rlen c) eqn:B.
  - unfold toCompleted. rewrite F3. cbn [cst_eqb]. exists ev, (emit_log OCompleted (set_st Completed c1)). unfold emit_log; csimp. rewrite F4, app_assoc. repeat (split; auto).
  - rewrite settled_resume by auto. exists ev, c1. repeat (split; auto).
Qed.
(** endContent *)
Lemma endContent_step c stk : reached c stk -> st c = SendingContent -> out_ok c = true ->
  let g := step (Run c stk) (ACall OpEndContent) in
  if 0 <=? rlen c then g = Run c stk
  else exists c', st c' = Completed /\ rlen c' = rlen c /\ g = Run c' (KSig SCompleted :: KCompleted :: stk) /\
    log c' = log c ++ (if chunked c then [OWrite (lit "0" ++ CRLF ++ CRLF)] else []) ++ [OCompleted].
Proof.
  intros H Hs Ho g. unfold g. cbn [step do_op]. unfold endContent. rewrite Hs. cbn [cst_eqb negb].
  destruct (0 <=? rlen c); [apply settled_resume; eapply reached_settled'; eauto|].
  destruct (chunked c).
  - rewrite dev_write_ok by auto. unfold toCompleted, wrote, emit_log. csimp. rewrite Hs. cbn [cst_eqb]. eexists. split; [|split; [|split; [reflexivity|]]]; csimp; auto.
    now rewrite <- !app_assoc.
  - unfold toCompleted, emit_log. csimp. rewrite Hs. cbn [cst_eqb]. eexists. split; [|split; [|split; [reflexivity|]]]; csimp; auto.
Qed.
(** writeResponse *)
Lemma freed_sending_tail c : freed (sending_tail c) = freed c.
Proof. unfold sending_tail. now destruct (_ && _). Qed.
Lemma writeResponse_step c stk r code hs content : reached c stk -> st c = SendingHeaders -> current c r -> int_length code hs (blen content) -> freed c = false ->
  let a := mkAns code hs (blen content) in
  exists len hd c' stk', RespLength a len /\ RespHead r a len hd /\
    step (Run c stk) (ACall (OpWriteResponse code hs content)) = Run c' stk' /\ rlen c' = len /\
    if (len =? 0) || head_req r
    then st c' = Completed /\ stk' = KSig SCompleted :: KCompleted :: KSending :: KResponse content :: stk /\ log c' = log c ++ [OWrite hd; OCompleted]
    else if (0 <? len) && (len <? blen content) || (blen content =? 0)
    then st c' = SendingContent /\ stk' = stk /\ log c' = log c ++ [OWrite hd]
    else exists ev, piece (chunked_resp r a len) content ev /\
      if blen content =? len
      then st c' = Completed /\ log c' = log c ++ OWrite hd :: ev ++ [OCompleted] /\ stk' = KSig SCompleted :: KCompleted :: stk
      else st c' = SendingContent /\ log c' = log c ++ OWrite hd :: ev /\ stk' = stk.
Proof.
  intros H Hs Hcur HI HF a. destruct (reached_SH _ _ H Hs) as (ms & m & more & l & S). pose proof (SH_current _ _ _ _ _ _ S Hcur) as ->.
  destruct S as [_ [[] ? ? ? Hreq ? ?] H11 Hch Hr Hsent ?]. rewrite <- Hreq.
  assert (ST : settled stk) by (eapply reached_settled'; eauto).
  destruct (head_exact code hs (set_rlen (blen content) c) (KResponse content :: stk) (fun c => resp_tail content c stk (resume stk))
    Hs cm_hbuf H11 Hch cm_out HI) as (len & hd & HL & HH & E). csimp in *.
  exists len, hd. cbn [step do_op]. unfold writeResponse. rewrite Hs. cbn [cst_eqb negb]. rewrite E. fold a in HL, HH |- *. fold a in E.
  destruct ((len =? 0) || head_req (req c)) eqn:NC.
  - eexists _, _. repeat (split; [eassumption || reflexivity|]). unfold after_head, wrote, head_conn, emit_log. csimp. now rewrite <- !app_assoc.
  - apply orb_false_iff in NC as (NC1 & NC2). apply Z.eqb_neq in NC1.
    set (c1 := sending_tail (after_head code a len hd (set_rlen (blen content) c))).
    assert (F : st c1 = SendingContent /\ rlen c1 = len /\ log c1 = log c ++ [OWrite hd] /\ req c1 = req c /\ out_ok c1 = true /\ rsent c1 = 0 /\
      chunked c1 = chunked_resp (req c) a len /\ freed c1 = false).
    { unfold c1, sending_tail, after_head, wrote, head_conn, emit_log. csimp. destruct (_ && _); csimp; auto 10. }
    destruct F as (F1 & F2 & F3 & F4 & F5 & F6 & F7 & F8).
    unfold resp_tail. rewrite F8, is_head_ok, F4, NC2. cbn [andb].
    destruct content as [|x content'].
    + rewrite settled_resume by auto. exists c1, stk. split; auto. split; auto. split; auto. split; auto.
      replace ((0 <? len) && (len <? blen []) || (blen [] =? 0)) with true; [auto|]. now rewrite blen_nil, orb_true_r.
    + pose proof (content_exact (x :: content') c1 stk (resume stk) F1 F5) as E1. rewrite F4, F2, F6, Z.add_0_r in E1. specialize (E1 NC2 NC1).
      set (ct := x :: content') in *.
      destruct ((0 <? len) && (len <? blen ct) || (blen ct =? 0)) eqn:B.
      * rewrite E1, settled_resume by auto. exists c1, stk. rewrite F2. auto 10.
      * destruct E1 as (ev & c2 & P & Ec & ->). rewrite F7 in P.
        assert (F' : rsent c2 = blen ct /\ rlen c2 = len /\ st c2 = SendingContent /\ log c2 = log c ++ OWrite hd :: ev).
        { rewrite Ec. csimp. rewrite F3, F2, F1, <- app_assoc. repeat split; auto; lia. }
        destruct F' as (G1 & G2 & G3 & G4). rewrite G1, G2. destruct (blen ct =? len) eqn:BL.
        -- unfold toCompleted. rewrite G3. cbn [cst_eqb]. eexists _, _. split; auto. split; auto. split; [reflexivity|].
           unfold emit_log; csimp. rewrite G4, <- app_assoc. split; auto. exists ev. split; auto.
        -- rewrite settled_resume by auto. exists c2, stk. split; auto. split; auto. split; auto. split; auto. exists ev. auto.
Qed.
