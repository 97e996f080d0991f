(** PROPERTIES C43, C59: file transfers and fixed answers, on the model of the connection (Conn.v). *)
From Verif Require Import Bytes ByteHelpers Thin Helpers ReqGrammar TextSpec ThinProofs ThinFields ThinTop CIProofs HelpersProofs
  Conn ConnSpec ConnView ConnText ConnHead ConnInv ConnStep ConnEnd ConnLog PropsParser PropsConn ConnSend ConnFree PropsConn2 PropsConn3 PropsConn4
  Router Handlers PropsHandlers.
Open Scope Z_scope.

(** ** C43: file transfers *)
(** A transfer and its connection.  XNext: writeNextPayload runs (called by the handler, or later by a queued bytesWritten
    notification); XOther a: anything else happens to the connection. *)
Inductive xaction := XNext | XOther (a : action).
Definition xstep (s : cfg * transfer) (e : xaction) : cfg * transfer :=
  let '(g, x) := s in
  match e with
  | XNext => match g with
             | Run c _ => match nextPayload (out_ok c) (pending c) x with
                          | Some (chunk, x') => (step g (ACall (OpWriteContent chunk)), x')
                          | None => (g, x)
                          end
             | UB _ _ => (g, x)
             end
  | XOther a => (step g a, x)
  end.
Definition xrun (s : cfg * transfer) (l : list xaction) : cfg * transfer := fold_left xstep l s.
(** schedules in which nobody else writes to the connection *)
Definition undisturbed (l : list xaction) : Prop := forall a, In (XOther a) l -> not_writing a = true.

(** *** the state of the connection while the file is sent *)
Record Sends (L : Z) (c : conn) (stk : list frame) : Prop := mkSends {
  s_st : st c = SendingContent; s_in : in_ok c = true; s_outok : out_ok c = true; s_head : head_req (req c) = false;
  s_rlen : rlen c = L; s_pos : 0 < L; s_chunk : chunked c = false; s_base : Base stk; s_noc : Forall no_content stk; s_set : settled stk }.
Lemma sends_resume L t : Base t -> Forall no_content t -> forall c stk0, Sends L c stk0 ->
  exists stk', resume t c = Run c stk' /\ Sends L c stk'.
Proof.
  induction t as [|f t IH]; intros Hb Hn c stk0 S.
  - exists []. split; [reflexivity|]. destruct S. constructor; auto; try exact I.
  - inversion Hb as [|? ? Hf Hb']; subst. inversion Hn as [|? ? Hf' Hn']; subst. destruct f as [s| | | | | |content|]; try contradiction; cbn [resume].
    + exists (KSig s :: t). split; auto. destruct S. constructor; auto; try exact I.
    + replace (sending_tail c) with c; [eapply IH; eauto|]. unfold sending_tail. rewrite (s_rlen _ _ _ S), (s_chunk _ _ _ S).
      replace (L <? 0) with false; [reflexivity|]. symmetry. apply Z.ltb_ge. pose proof (s_pos _ _ _ S). lia.
    + destruct content; [|contradiction]. cbn [resp_tail]. eapply IH; eauto.
Qed.
(** closed for good *)
Definition Shut (L : list obs) (g : cfg) : Prop :=
  exists c stk, g = Run c stk /\ FrozenClosed L c /\ Clo stk /\ Forall no_content stk.
Lemma shut_resume L t : Clo t -> Forall no_content t -> forall c, FrozenClosed L c -> Shut L (resume t c).
Proof.
  induction t as [|f t IH]; intros Ht Hn c H; cbn [resume]; [exists c, []; auto|].
  inversion Ht as [|? ? Hf Ht']; subst. inversion Hn as [|? ? Hf' Hn']; subst. specialize (IH Ht' Hn'). pose proof H as (Hs & _). destruct f as [s| | | | | |content|]; try contradiction.
  - exists c, (KSig s :: t). auto.
  - unfold drain_tail. destruct (_ && _); auto. unfold toClosed. rewrite Hs. cbn [cst_eqb]. auto.
  - apply IH. unfold flushing_tail. rewrite Hs. exact H.
  - apply IH. unfold sending_tail. destruct (_ && _); auto.
  - destruct content; [|contradiction]. cbn [resp_tail]. auto.
  - apply IH. exact H.
Qed.
Lemma shut_step L g a : Shut L g -> resets a = false -> Shut L (step g a).
Proof.
  intros (c & stk & -> & H & Hc & Hn) Ha. pose proof (shut_resume L stk Hc Hn) as HR. pose proof H as (Hst & _). destruct a as [o| |b|n|n]; cbn [step].
  - destruct o; cbn [do_op]; try discriminate.
    + unfold processInput. rewrite Hst. now apply HR.
    + unfold writeResponse. rewrite Hst. now apply HR.
    + unfold writeHeaders. rewrite Hst. now apply HR.
    + unfold writeContent. rewrite Hst. now apply HR.
    + unfold endContent. rewrite Hst. now apply HR.
    + unfold toClosed. rewrite Hst. now apply HR.
    + unfold flush. destruct (_ && _); auto. eexists _, _. split; [reflexivity|]. split; [exact H|]. split; constructor; cbn; auto.
    + unfold drain. rewrite Hst. now apply HR.
  - destruct stk as [|[] t]; try (eexists _, _; eauto; fail). inversion Hc; inversion Hn; subst. now apply shut_resume.
  - destruct (_ && _); eexists _, _; eauto.
  - eexists _, _; eauto.
  - cbv zeta. csimp. destruct (drain_conn c); [|eexists _, _; eauto]. unfold drain. csimp. rewrite Hst. now apply HR.
Qed.
Lemma sends_step L c stk a : Sends L c stk -> not_writing a = true ->
  (exists c' stk', step (Run c stk) a = Run c' stk' /\ Sends L c' stk' /\ log c' = log c /\ rsent c' = rsent c) \/ Shut (log c) (step (Run c stk) a).
Proof.
  intros S Ha. pose proof S as [H1 H2 H3 H4 H5 H6 H7 H8 H9 H10].
  assert (HR : exists stk', resume stk c = Run c stk' /\ Sends L c stk') by (eapply sends_resume; eauto).
  assert (ID : exists c' stk', resume stk c = Run c' stk' /\ Sends L c' stk' /\ log c' = log c /\ rsent c' = rsent c) by (destruct HR as (stk' & -> & S'); eauto 6).
  assert (SW : forall c', Sends L c' stk -> log c' = log c -> rsent c' = rsent c ->
    exists c'' stk', Run c' stk = Run c'' stk' /\ Sends L c'' stk' /\ log c'' = log c /\ rsent c'' = rsent c) by (intros c' S' E1 E2; exists c', stk; auto).
  destruct a as [o| |b|n|n]; cbn [step].
  - destruct o; cbn [do_op] in *; try discriminate.
    + left. unfold processInput. rewrite H1. exact ID.
    + right. unfold toClosed. rewrite H1. cbn [cst_eqb]. csimp. rewrite H2. cbn [orb]. unfold emit_log. csimp. eexists _, _. split; [reflexivity|]. split; [|split].
      * split; csimp; auto. exists (pending c). now rewrite <- app_assoc.
      * constructor; [exact I|]. constructor; [exact I|]. now apply Fin_Clo, Base_Fin.
      * constructor; [exact I|]. constructor; [exact I|]. auto.
    + left. unfold flush. destruct (_ && _); auto. eexists _, _. split; [reflexivity|]. csimp. split; auto. constructor; csimp; auto; try exact I; constructor; cbn; auto.
    + left. unfold drain. rewrite H1. exact ID.
  - left. destruct stk as [|[s| | | | | | |] t]; try (apply SW; auto; fail). apply Forall_inv_tail in H8, H9.
    destruct (sends_resume L t H8 H9 c _ S) as (stk' & -> & S'). eauto 6.
  - left. destruct (_ && _); apply SW; auto. constructor; csimp; auto.
  - left. apply SW; auto. constructor; csimp; auto.
  - left. cbv zeta. csimp. destruct (drain_conn c) eqn:D; [|apply SW; auto; constructor; csimp; auto].
    unfold drain. csimp. rewrite H1. cbn [cst_eqb negb]. set (c1 := set_pending _ c).
    assert (S1 : Sends L c1 stk) by (unfold c1; constructor; csimp; auto). destruct (sends_resume L stk H8 H9 c1 stk S1) as (stk' & -> & S'). exists c1, stk'. auto.
Qed.
Lemma sends_write L c stk chunk : Sends L c stk -> chunk <> [] -> rsent c + blen chunk <= L -> 0 <= rsent c ->
  exists c' stk', step (Run c stk) (ACall (OpWriteContent chunk)) = Run c' stk' /\ pending c' <= pending c + blen chunk /\
    if rsent c + blen chunk =? L then log c' = log c ++ [OWrite chunk; OCompleted]
    else Sends L c' stk' /\ log c' = log c ++ [OWrite chunk] /\ rsent c' = rsent c + blen chunk.
Proof.
  intros [H1 H2 H3 H4 H5 H6 H7 H8 H9 H10] Hc HL Hr. cbn [step do_op]. unfold writeContent. rewrite H1. cbn [cst_eqb negb]. rewrite H5.
  replace (L =? 0) with false by (symmetry; apply Z.eqb_neq; lia). replace (L <? blen chunk + rsent c) with false by (symmetry; apply Z.ltb_ge; lia).
  apply blen_pos in Hc. replace (0 <? blen chunk) with true by (symmetry; now apply Z.ltb_lt). rewrite is_head_ok, H4, andb_false_r. cbn [negb andb].
  csimp. rewrite H7. rewrite dev_write_ok by (csimp; auto). unfold wrote, emit_log. csimp. rewrite H5.
  destruct (rsent c + blen chunk =? L) eqn:E.
  - unfold toCompleted. csimp. rewrite H1. cbn [cst_eqb]. unfold emit_log. csimp. eexists _, _. split; [reflexivity|]. csimp. rewrite <- app_assoc. split; auto. destruct (sock c); lia.
  - rewrite settled_resume by auto. eexists _, stk. split; [reflexivity|]. csimp. split; [destruct (sock c); lia|]. split; [|split; auto]. constructor; csimp; auto.
Qed.

(** what was sent so far: non-empty pieces of the file, in order *)
Inductive Outcome (content : bytes) (L : list obs) (g : cfg) (rest : bytes) : Prop :=
| Oc_sending chunks c stk : g = Run c stk -> st c = SendingContent -> Forall (fun p => p <> []) chunks ->
    log c = L ++ map OWrite chunks -> content = concat chunks ++ rest -> rest <> [] -> Outcome content L g rest
| Oc_completed chunks more : Forall (fun p => p <> []) chunks -> log (gconn g) = L ++ map OWrite chunks ++ OCompleted :: more ->
    content = concat chunks -> rest = [] -> Outcome content L g rest
| Oc_closed chunks c stk p lost : g = Run c stk -> st c = Closed -> Forall (fun p => p <> []) chunks ->
    log c = L ++ map OWrite chunks ++ [OShut p; OClosed] -> content = concat chunks ++ lost -> Outcome content L g rest.

Inductive XInv (content : bytes) (L : list obs) (g : cfg) (x : transfer) : Prop :=
| XI_sending chunks c stk : g = Run c stk -> Sends (blen content) c stk -> rsent c = blen (concat chunks) -> Forall (fun p => p <> []) chunks ->
    log c = L ++ map OWrite chunks -> content = concat chunks ++ x_rest x -> x_rest x <> [] -> XInv content L g x
| XI_completed chunks more : Forall (fun p => p <> []) chunks -> log (gconn g) = L ++ map OWrite chunks ++ OCompleted :: more ->
    content = concat chunks -> x_rest x = [] -> XInv content L g x
| XI_closed chunks lost : Shut (L ++ map OWrite chunks) g -> Forall (fun p => p <> []) chunks -> content = concat chunks ++ lost -> XInv content L g x.
Lemma XInv_Outcome content L g x : XInv content L g x -> Outcome content L g (x_rest x).
Proof.
  intros [chunks c stk -> S ? ? ? ? ?|chunks more ? ? ? ?|chunks lost (c & stk & -> & (Hs & p & Hl) & _) ? ?].
  - eapply (Oc_sending _ _ _ _ chunks); eauto. apply (s_st _ _ _ S).
  - eapply Oc_completed; eauto.
  - eapply (Oc_closed _ _ _ _ chunks c stk p); eauto. now rewrite Hl, <- app_assoc.
Qed.
Lemma not_writing_resets a : not_writing a = true -> resets a = false.
Proof. destruct a as [[]| | | |]; cbn; congruence. Qed.
Lemma skipn_firstn_nonempty (n : Z) (l : bytes) : 0 < n <= blen l -> firstn (Z.to_nat n) l <> [] /\ blen (firstn (Z.to_nat n) l) = n.
Proof.
  intros H. assert (E : blen (firstn (Z.to_nat n) l) = n) by (unfold blen in *; rewrite firstn_length; lia). split; auto.
  intros F. rewrite F in E. cbn in E. lia.
Qed.
Lemma payload_facts out pend x chunk x' : nextPayload out pend x = Some (chunk, x') ->
  out = true /\ x_rest x = chunk ++ x_rest x' /\ chunk <> [] /\ x_buf x' = x_buf x /\ pend + blen chunk <= x_buf x.
Proof.
  unfold nextPayload. destruct out; [cbn [negb]|discriminate]. set (n := Z.min (x_buf x - pend) (blen (x_rest x))).
  destruct (Z.ltb_spec 0 n); [|discriminate]. intros [= <- <-]. cbn [x_rest x_buf].
  destruct (skipn_firstn_nonempty n (x_rest x)) as (A & B); [lia|]. rewrite firstn_skipn. rewrite B. repeat split; auto. lia.
Qed.
Lemma payload_none pend x : nextPayload true pend x = None -> x_rest x = [] \/ x_buf x <= pend.
Proof.
  unfold nextPayload. cbn [negb]. destruct (Z.ltb_spec 0 (Z.min (x_buf x - pend) (blen (x_rest x)))); [discriminate|]. intros _.
  destruct (x_rest x) as [|y r] eqn:E; auto. right. pose proof (blen_pos (y :: r)). rewrite <- E in *. specialize (H0 ltac:(rewrite E; discriminate)). lia.
Qed.
Lemma xstep_inv content L g x e : XInv content L g x -> (forall a, e = XOther a -> not_writing a = true) ->
  XInv content L (fst (xstep (g, x) e)) (snd (xstep (g, x) e)).
Proof.
  intros H He. destruct e as [|a]; cbn [xstep].
  - destruct H as [chunks c stk -> S Hr Hf Hl Hc Hn|chunks more Hf Hl Hc Hn|chunks lost HS Hf Hc].
    + destruct (nextPayload (out_ok c) (pending c) x) as [[chunk x']|] eqn:E; cbn [fst snd]; [|eapply XI_sending; eauto].
      apply payload_facts in E as (_ & E1 & E2 & E3 & E4). rewrite E1 in Hc. assert (Lc : blen content = blen (concat chunks) + blen chunk + blen (x_rest x')) by (rewrite Hc, !blen_app; lia).
      destruct (sends_write (blen content) c stk chunk S E2) as (c' & stk' & -> & _ & W); [pose proof (blen_nonneg (x_rest x')); lia|pose proof (blen_nonneg (concat chunks)); lia|].
      assert (Fc : Forall (fun p => p <> []) (chunks ++ [chunk])) by (apply Forall_app; auto).
      assert (Cc : concat (chunks ++ [chunk]) = concat chunks ++ chunk) by (rewrite concat_app; cbn; now rewrite app_nil_r).
      destruct (Z.eqb_spec (rsent c + blen chunk) (blen content)) as [B|B].
      * assert (X0 : x_rest x' = []) by (destruct (x_rest x') as [|y r] eqn:Ex; auto; pose proof (blen_pos (y :: r) ltac:(discriminate)); lia).
        apply (XI_completed _ _ _ _ (chunks ++ [chunk]) []); auto; cbn [gconn].
        -- rewrite W, Hl, map_app. cbn [map]. rewrite <- !app_assoc. reflexivity.
        -- rewrite Cc, Hc, X0, app_nil_r. reflexivity.
      * destruct W as (W1 & W2 & W3). apply (XI_sending _ _ _ _ (chunks ++ [chunk]) c' stk'); auto.
        -- rewrite W3, Hr, Cc, blen_app. reflexivity.
        -- rewrite W2, Hl, map_app, <- app_assoc. reflexivity.
        -- now rewrite Cc, <- app_assoc.
        -- intros X0. rewrite X0 in Lc. cbn in Lc. lia.
    + assert (X : forall out pend, nextPayload out pend x = None).
      { intros out pend. destruct (nextPayload out pend x) as [[ch x']|] eqn:E; auto. apply payload_facts in E as (_ & E1 & E2 & _). rewrite Hn in E1. destruct ch; [contradiction|discriminate]. }
      destruct g as [c stk|r c]; cbn [fst snd]; [rewrite X|]; cbn [fst snd]; eapply XI_completed; eauto.
    + destruct HS as (c & stk & -> & HS). destruct (nextPayload (out_ok c) (pending c) x) as [[chunk x']|]; cbn [fst snd].
      * eapply XI_closed; eauto. apply shut_step; auto. exists c, stk; auto.
      * eapply XI_closed; eauto. exists c, stk; auto.
  - specialize (He a eq_refl). cbn [fst snd]. destruct H as [chunks c stk -> S Hr Hf Hl Hc Hn|chunks more Hf Hl Hc Hn|chunks lost HS Hf Hc].
    + destruct (sends_step _ _ _ _ S He) as [(c' & stk' & -> & S' & E1 & E2)|HS].
      * eapply (XI_sending _ _ _ _ chunks c' stk'); eauto; congruence.
      * rewrite Hl in HS. eapply XI_closed; eauto.
    + destruct (step_log g a (not_writing_resets _ He)) as (e & E). eapply (XI_completed _ _ _ _ chunks (more ++ e)); auto. rewrite E, Hl, <- !app_assoc. reflexivity.
    + eapply XI_closed; eauto. apply shut_step; auto. now apply not_writing_resets.
Qed.
Lemma xrun_inv content L l : forall g x, XInv content L g x -> undisturbed l -> XInv content L (fst (xrun (g, x) l)) (snd (xrun (g, x) l)).
Proof.
  induction l as [|e l IH]; intros g x H U; [exact H|]. cbn [xrun fold_left]. fold (xrun (xstep (g, x) e) l).
  pose proof (xstep_inv content L g x e H) as X. destruct (xstep (g, x) e) as [g' x']. apply IH.
  - apply X. intros a ->. apply U. now left.
  - intros a Ha. apply U. now right.
Qed.

(** *** the head sent by the file handler *)
Lemma number_text n : 0 <= n <= LLONG_MAX -> IntText (-9223372036854775808) 9223372036854775807 (number n) n.
Proof.
  intros H. unfold number. destruct (digits_rev_ok 10 ltac:(lia) (S (Z.to_nat (Z.log2 n))) n) as (D & _ & _); [lia| |lia|].
  - rewrite Nat2Z.inj_succ, Z2Nat.id by apply Z.log2_nonneg. destruct (Z.eq_dec n 0) as [->|]; [reflexivity|]. apply Z.log2_spec. lia.
  - pose proof (IT (-9223372036854775808) 9223372036854775807 [] [] (rev (digits_rev (S (Z.to_nat (Z.log2 n))) 10 n)) n n []) as X.
    cbn [app] in X. rewrite app_nil_r in X. apply X; auto. unfold LLONG_MAX in H. lia.
Qed.
Definition file_head (mime : bytes) (len : Z) : list header := [(lit "Content-Type", mime); (lit "Content-Length", number len)].
Lemma file_head_len code mime len : 0 <= len <= LLONG_MAX -> RespLength (mkAns code (file_head mime len) (-1)) len.
Proof.
  intros H. apply (RL_given _ (lit "Content-Length") (number len)); [reflexivity|]. now apply number_text.
Qed.
Lemma headers_sends c stk r mime len : reached c stk -> st c = SendingHeaders -> current c r -> head_req r = false -> 0 < len <= INT_MAX -> Forall no_content stk ->
  exists hd c', step (Run c stk) (ACall (OpWriteHeaders 200 (file_head mime len))) = Run c' stk /\ RespHead r (mkAns 200 (file_head mime len) (-1)) len hd /\
    Sends len c' stk /\ rsent c' = 0 /\ log c' = log c ++ [OWrite hd].
Proof.
  intros H Hs Hcur Hh Hl Hn.
  assert (RL : RespLength (mkAns 200 (file_head mime len) (-1)) len) by (apply file_head_len; unfold INT_MAX, LLONG_MAX in *; lia).
  assert (HI : int_length 200 (file_head mime len) (-1)).
  { intros len' RL'. apply RespLength_fun in RL, RL'. unfold INT_MIN. lia. }
  destruct (reached_SH _ _ H Hs) as (ms & m & more & l & S). pose proof (SH_current _ _ _ _ _ _ S Hcur) as ->.
  assert (HB : Base stk).
  { destruct (reached_inv _ _ H) as [E|_ B|ms' m' mo' l' s t C1' E|ms' s t C2' E|[(E & _)|(E & _)]|(E & _)]; auto; try congruence.
    - destruct C1'; congruence.
    - destruct C2'; congruence. }
  destruct S as [_ [[] ? ? ? Hreq ? ?] H11 Hch Hr Hrs HL]. rewrite <- Hr in HI, RL |- *. rewrite <- Hreq in Hh |- *.
  destruct (head_exact 200 (file_head mime len) c stk (resume stk) Hs cm_hbuf H11 Hch cm_out HI) as (len' & hd & HL' & HH & E).
  assert (len' = len) as -> by (apply RespLength_fun in HL', RL; congruence).
  exists hd. cbn [step do_op]. rewrite E. replace ((len =? 0) || head_req (req c)) with false by (rewrite Hh, orb_false_r; symmetry; apply Z.eqb_neq; lia).
  rewrite settled_resume by (eapply reached_settled'; eauto).
  assert (CR : chunked_resp (req c) (mkAns 200 (file_head mime len) (rlen c)) len = false).
  { unfold chunked_resp. replace (len =? -1) with false by (symmetry; apply Z.eqb_neq; lia). apply andb_false_r. }
  assert (ST : sending_tail (after_head 200 (mkAns 200 (file_head mime len) (rlen c)) len hd c) = after_head 200 (mkAns 200 (file_head mime len) (rlen c)) len hd c).
  { unfold sending_tail. replace (rlen (after_head 200 (mkAns 200 (file_head mime len) (rlen c)) len hd c)) with len by reflexivity.
    replace (len <? 0) with false; [reflexivity|]. symmetry. apply Z.ltb_ge. lia. }
  rewrite ST. eexists. split; [reflexivity|]. split; [exact HH|]. unfold after_head, wrote, head_conn, emit_log. split; [|csimp; auto].
  constructor; csimp; auto; try lia. eapply reached_settled'; eauto.
Qed.

(** A file larger than the buffer, asked for with another method than HEAD: the handler announces its length; then over any schedule of
    notifications and other events the bytes written after the head are pieces of the file, in order, each once; the response is
    completed exactly when the whole file was sent; if the connection is closed before, what was sent is a beginning of the file. *)
Theorem C43_transfer_partial : forall dec digest F F' pub n path hs p content c stk r sched g x,
  served dec F F' pub path p content -> 0 <= n < blen content -> blen content <= INT_MAX ->
  reached c stk -> Forall no_content stk -> st c = SendingHeaders -> current c r -> q_method r <> lit "HEAD" -> undisturbed sched ->
  exists rh hd c1, fileHandle dec digest F F' pub n path hs = (true, [FOpen p; FOp (OpWriteHeaders 200 rh); FTransfer content n]) /\
    step (Run c stk) (ACall (OpWriteHeaders 200 rh)) = Run c1 stk /\ RespHead r (mkAns 200 rh (-1)) (blen content) hd /\ log c1 = log c ++ [OWrite hd] /\
    (xrun (Run c1 stk, newTransfer content n) sched = (g, x) -> Outcome content (log c1) g (x_rest x)).
Proof.
  intros dec digest F F' pub n path hs p content c stk r sched g x HS Hn Hl HR Hnc Hst Hcu Hm HU.
  rewrite (served_handle dec digest _ _ _ n _ hs _ _ HS). replace (blen content <=? n) with false by (symmetry; apply Z.leb_gt; lia).
  assert (Hh : head_req r = false) by now apply beqb_false.
  destruct (headers_sends c stk r (mimeType (dec (qt_percent path))) (blen content) HR Hst Hcu Hh ltac:(lia) Hnc) as (hd & c1 & E & RH1 & S & R0 & L1).
  eexists _, hd, c1. split; [reflexivity|]. split; [exact E|]. split; [exact RH1|]. split; auto. intros EX.
  pose proof (xrun_inv content (log c1) sched (Run c1 stk) (newTransfer content n)) as X. rewrite EX in X. cbn [fst snd] in X. apply XInv_Outcome, X; auto.
  apply (XI_sending _ _ _ _ [] c1 stk); cbn; auto; [now rewrite app_nil_r|]. intros ->. cbn in Hn. lia.
Qed.
(** The amount waiting in the socket never grows beyond the buffer size through the transfer. *)
Theorem C43_bounded : forall c stk x, reached c stk -> st c = SendingContent -> 0 <= rlen c -> 0 <= pending c ->
  match xstep (Run c stk, x) XNext with (Run c' _, _) => pending c' <= Z.max (pending c) (x_buf x) | (UB _ _, _) => False end.
Proof.
  intros c stk x H Hs Hl Hp. cbn [xstep]. destruct (nextPayload (out_ok c) (pending c) x) as [[chunk x']|] eqn:E; [|lia].
  apply payload_facts in E as (_ & _ & Hc & _ & Hb).
  destruct (reached_sending _ _ H Hs) as (r & a & pcs & _ & _ & Hh & H0 & HT & Hch & _ & Hse & Ho & Hq).
  assert (CH : chunked c = false).
  { rewrite Hch. unfold chunked_resp. replace (rlen c =? -1) with false by (symmetry; apply Z.eqb_neq; lia). apply andb_false_r. }
  assert (ST : settled stk) by (eapply reached_settled'; eauto).
  cbn [step do_op]. unfold writeContent. rewrite Hs. cbn [cst_eqb negb]. destruct (rlen c =? 0); [rewrite settled_resume by auto; lia|].
  destruct (_ && _); [rewrite settled_resume by auto; lia|]. destruct (_ && _); [|rewrite settled_resume by auto; lia].
  csimp. rewrite CH. rewrite dev_write_ok by (csimp; auto). unfold wrote, emit_log. csimp. destruct (_ =? _).
  - unfold toCompleted. csimp. rewrite Hs. cbn [cst_eqb]. unfold emit_log. csimp. destruct (sock c); lia.
  - rewrite settled_resume by auto. csimp. destruct (sock c); lia.
Qed.
(** Whenever there is room in the buffer, a notification makes progress. *)
Theorem C43_progress : forall c stk x, reached c stk -> st c = SendingContent -> x_rest x <> [] -> pending c < x_buf x ->
  exists g x', xstep (Run c stk, x) XNext = (g, x') /\ (length (x_rest x') < length (x_rest x))%nat.
Proof.
  intros c stk x H Hs Hr Hp. destruct (reached_sending _ _ H Hs) as (r & a & pcs & _ & _ & _ & _ & _ & _ & _ & _ & Ho & _). cbn [xstep]. rewrite Ho.
  destruct (nextPayload true (pending c) x) as [[chunk x']|] eqn:E.
  - apply payload_facts in E as (_ & E1 & E2 & _). eexists _, _. split; [reflexivity|]. rewrite E1, app_length. destruct chunk; [contradiction|cbn; lia].
  - apply payload_none in E as [E|E]; [contradiction|lia].
Qed.
(** the buffer size used is never below 512 *)
Theorem C43_buffer : forall content n, x_buf (newTransfer content n) = Z.max 512 n.
Proof. intros content n. cbn. unfold transfer_bufsize. destruct (Z.ltb_spec n 512); lia. Qed.
(** If the socket empties again and again, the transfer completes. *)
Definition rounds (M : Z) (k : nat) : list xaction := concat (repeat [XOther (AWritten M); XNext] k).
Lemma completed_stays content L l : forall g x, (exists chunks more, Forall (fun p => p <> []) chunks /\ log (gconn g) = L ++ map OWrite chunks ++ OCompleted :: more /\ content = concat chunks) -> x_rest x = [] ->
  undisturbed l -> exists chunks more, Forall (fun p => p <> []) chunks /\ log (gconn (fst (xrun (g, x) l))) = L ++ map OWrite chunks ++ OCompleted :: more /\ content = concat chunks.
Proof.
  induction l as [|e l IH]; intros g x H Hx U; [exact H|]. cbn [xrun fold_left]. fold (xrun (xstep (g, x) e) l).
  assert (X : (exists chunks more, Forall (fun p => p <> []) chunks /\ log (gconn (fst (xstep (g, x) e))) = L ++ map OWrite chunks ++ OCompleted :: more /\ content = concat chunks) /\ x_rest (snd (xstep (g, x) e)) = []).
  { destruct e as [|a]; cbn [xstep].
    - assert (X : forall out pend, nextPayload out pend x = None).
      { intros out pend. destruct (nextPayload out pend x) as [[ch x']|] eqn:E; auto. apply payload_facts in E as (_ & E1 & E2 & _). rewrite Hx in E1. destruct ch; [contradiction|discriminate]. }
      destruct g; cbn [fst snd]; [rewrite X|]; auto.
    - split; auto. cbn [fst]. assert (Ha : not_writing a = true) by (apply U; now left). destruct (step_log g a (not_writing_resets _ Ha)) as (e & E).
      destruct H as (chunks & more & H1 & H2 & H3). exists chunks, (more ++ e). split; auto. split; auto. rewrite E, H2, <- !app_assoc. reflexivity. }
  destruct (xstep (g, x) e) as [g' x']. apply IH; [apply X|apply X|]. intros a Ha. apply U. now right.
Qed.
Lemma rounds_undisturbed M k : undisturbed (rounds M k).
Proof.
  intros a H. unfold rounds in H. apply in_concat in H as (r & H1 & H2). apply repeat_spec in H1. subst r. destruct H2 as [[= <-]|[H2|[]]]; [reflexivity|discriminate].
Qed.
Lemma rounds_complete content L M : forall k c stk x chunks, (length (x_rest x) <= k)%nat -> Sends (blen content) c stk -> rsent c = blen (concat chunks) -> Forall (fun p => p <> []) chunks ->
  log c = L ++ map OWrite chunks -> content = concat chunks ++ x_rest x -> x_rest x <> [] -> 0 <= pending c <= M -> 0 < x_buf x <= M ->
  exists chunks more, Forall (fun p => p <> []) chunks /\ log (gconn (fst (xrun (Run c stk, x) (rounds M k)))) = L ++ map OWrite chunks ++ OCompleted :: more /\ content = concat chunks.
Proof.
  induction k as [|k IH]; intros c stk x chunks Hk S Hr Hf Hl Hc Hn HP HB; [destruct (x_rest x); [contradiction|cbn in Hk; lia]|].
  unfold rounds. cbn [repeat concat app]. fold (rounds M k). cbn [xrun fold_left]. set (s1 := xstep (Run c stk, x) (XOther (AWritten M))).
  assert (E1 : exists c1 stk1, s1 = (Run c1 stk1, x) /\ Sends (blen content) c1 stk1 /\ log c1 = log c /\ rsent c1 = rsent c /\ pending c1 = 0).
  { unfold s1. cbn [xstep step]. cbv zeta. csimp. set (c1 := set_pending _ c).
    assert (P0 : pending c1 = 0) by (unfold c1; csimp; lia).
    assert (S1 : Sends (blen content) c1 stk) by (destruct S; unfold c1; constructor; csimp; auto).
    destruct (drain_conn c); [|exists c1, stk; auto 6]. unfold drain. replace (st c1) with SendingContent by (symmetry; apply (s_st _ _ _ S1)). cbn [cst_eqb negb].
    destruct (sends_resume _ stk (s_base _ _ _ S) (s_noc _ _ _ S) c1 stk S1) as (stk' & -> & S'). exists c1, stk'. auto 6. }
  destruct E1 as (c1 & stk1 & -> & S1 & L1 & R1 & P1). cbn [xstep]. rewrite (s_outok _ _ _ S1), P1.
  destruct (nextPayload true 0 x) as [[chunk x']|] eqn:E; [|apply payload_none in E as [E|E]; [contradiction|lia]].
  apply payload_facts in E as (_ & E1 & E2 & E3 & E4). rewrite E1 in Hc.
  assert (Lc : blen content = blen (concat chunks) + blen chunk + blen (x_rest x')) by (rewrite Hc, !blen_app; lia).
  assert (Fc : Forall (fun p => p <> []) (chunks ++ [chunk])) by (apply Forall_app; auto).
  assert (Cc : concat (chunks ++ [chunk]) = concat chunks ++ chunk) by (rewrite concat_app; cbn; now rewrite app_nil_r).
  assert (SW : exists c' stk', step (Run c1 stk1) (ACall (OpWriteContent chunk)) = Run c' stk' /\ pending c' <= pending c1 + blen chunk /\
    if rsent c1 + blen chunk =? blen content then log c' = log c1 ++ [OWrite chunk; OCompleted]
    else Sends (blen content) c' stk' /\ log c' = log c1 ++ [OWrite chunk] /\ rsent c' = rsent c1 + blen chunk).
  { apply sends_write; auto; rewrite R1, Hr; [pose proof (blen_nonneg (x_rest x')); lia|apply blen_nonneg]. }
  destruct SW as (c' & stk' & EW & PW & W). rewrite EW. fold (xrun (Run c' stk', x') (rounds M k)).
  destruct (Z.eqb_spec (rsent c1 + blen chunk) (blen content)) as [B|B].
  - assert (X0 : x_rest x' = []) by (destruct (x_rest x') as [|y r] eqn:Ex; auto; pose proof (blen_pos (y :: r) ltac:(discriminate)); lia).
    apply completed_stays; auto using rounds_undisturbed. exists (chunks ++ [chunk]), []. split; auto. split.
    + cbn [gconn]. rewrite W, L1, Hl, map_app. cbn [map]. rewrite <- !app_assoc. reflexivity.
    + rewrite Cc, Hc, X0, app_nil_r. reflexivity.
  - destruct W as (W1 & W2 & W3). apply (IH c' stk' x' (chunks ++ [chunk])); auto.
    + rewrite E1, app_length in Hk. destruct chunk; [contradiction|cbn in Hk; lia].
    + rewrite W3, R1, Hr, Cc, blen_app. reflexivity.
    + rewrite W2, L1, Hl, map_app, <- app_assoc. reflexivity.
    + now rewrite Cc, <- app_assoc.
    + intros X0. rewrite X0 in Lc. cbn in Lc. lia.
    + split; [|lia]. assert (E5 : pending c' = pending c1 \/ pending c' = pending c1 + blen chunk).
      { clear - EW S1 E2 B. cbn [step do_op] in EW. unfold writeContent in EW. destruct S1 as [H1 H2 H3 H4 H5 H6 H7 H8 H9 H10].
        rewrite H1 in EW. cbn [cst_eqb negb] in EW. rewrite settled_resume in EW by auto.
        destruct (rlen c1 =? 0); [injection EW as <- <-; auto|]. destruct (_ && _); [injection EW as <- <-; auto|]. destruct (_ && _); [|injection EW as <- <-; auto].
        csimp_in EW. rewrite H7 in EW. rewrite dev_write_ok in EW by (csimp; auto). unfold wrote, emit_log in EW. csimp_in EW. rewrite H5 in EW.
        destruct (Z.eqb_spec (rsent c1 + blen chunk) (blen content)); [contradiction|]. rewrite settled_resume in EW by auto. injection EW as <- <-. csimp. destruct (sock c1); auto. }
      pose proof (blen_nonneg chunk). lia.
    + lia.
Qed.
Theorem C43_completes : forall c stk r mime content n M k, reached c stk -> Forall no_content stk -> st c = SendingHeaders -> current c r -> q_method r <> lit "HEAD" ->
  0 < blen content <= INT_MAX -> (length content <= k)%nat ->
  exists c1, step (Run c stk) (ACall (OpWriteHeaders 200 (file_head mime (blen content)))) = Run c1 stk /\
    (0 <= pending c1 <= M -> Z.max 512 n <= M ->
     exists chunks more, log (gconn (fst (xrun (Run c1 stk, newTransfer content n) (rounds M k)))) = log c1 ++ map OWrite chunks ++ OCompleted :: more /\ content = concat chunks).
Proof.
  intros c stk r mime content n M k HR Hnc Hst Hcu Hm Hl Hk. assert (Hh : head_req r = false) by now apply beqb_false.
  destruct (headers_sends c stk r mime (blen content) HR Hst Hcu Hh Hl Hnc) as (hd & c1 & E & RH1 & S & R0 & L1). exists c1. split; auto. intros HP HM.
  destruct (rounds_complete content (log c1) M k c1 stk (newTransfer content n) []) as (chunks & more & _ & H2 & H3); cbn; auto.
  - now rewrite app_nil_r.
  - intros ->. cbn in Hl. lia.
  - unfold transfer_bufsize. destruct (Z.ltb_spec n 512); lia.
  - eauto.
Qed.

(** HEAD requests: the transfer is created after the response was completed, and writes the beginning of the file into whatever
    response is under way then: here the one to the pipelined GET, answered by another handler that announced 1000 bytes. *)
Definition big : bytes := repeat "x"%char 600.
Definition head_then_get : bytes := lit "HEAD /big HTTP/1.1" ++ CRLF ++ CRLF ++ lit "GET /other HTTP/1.1" ++ CRLF ++ CRLF.
Definition head_schedule : list action := [ACall (OpInit (NewDevice true true true head_then_get)); ACall OpProcess;
  ACall (OpWriteHeaders 200 (file_head (lit "text/html") (blen big)));   (* the file handler answers the HEAD request *)
  AReturn;                                                               (* from requestCompleted; the GET request is announced *)
  ACall (OpWriteHeaders 200 [(lit "Content-Length", lit "1000")]);       (* its handler answers and will write later *)
  AReturn].                                                              (* the file handler goes on *)
Theorem C43_head_refuted : exists c stk c' stk' x' r, reached c stk /\ c = run_conn head_schedule /\ current c r /\ q_path r = lit "/other" /\ rlen c = 1000 /\ st c = SendingContent /\
  xstep (Run c stk, newTransfer big 512) XNext = (Run c' stk', x') /\ exists p, p <> [] /\ log c' = log c ++ [OWrite p] /\ (exists q, big = p ++ q).
Proof.
  exists (run_conn head_schedule), [KSig SReady]. eexists _, _, _, (nth 1 (announced (log (run_conn head_schedule))) req0).
  split; [apply reached_run; vm_compute; reflexivity|]. split; [reflexivity|].
  split; [exists (firstn 1 (announced (log (run_conn head_schedule)))); vm_compute; reflexivity|].
  split; [vm_compute; reflexivity|]. split; [vm_compute; reflexivity|]. split; [vm_compute; reflexivity|].
  split; [vm_compute; reflexivity|]. exists (firstn (Z.to_nat (512 - pending (run_conn head_schedule))) big). split; [vm_compute; discriminate|].
  split; [vm_compute; reflexivity|]. eexists. symmetry. apply firstn_skipn.
Qed.
(** the hypotheses of C43 are met *)
Definition big_fs : fs := plain_fs [lit "/srv/www"] [(lit "/srv/www/big", big)].
Example C43_case : served (fun x => x) big_fs big_fs (lit "/srv/www") (lit "/big") (lit "/srv/www/big") big /\ 0 <= 512 < blen big /\ blen big <= INT_MAX /\
  reached ready1 [KSig SReady] /\ Forall no_content [KSig SReady] /\ st ready1 = SendingHeaders /\ current ready1 (delivered msg1) /\ q_method (delivered msg1) <> lit "HEAD" /\
  undisturbed [XNext; XOther (AKernel 100); XOther (ACall OpFlush); XOther AReturn; XNext; XOther (AWritten 300); XNext].
Proof.
  destruct ready1_facts as (F1 & F2). split; [|split; [vm_compute; split; congruence|split; [vm_compute; congruence|]]].
  { split; [reflexivity|]. split; [discriminate|]. split; [vm_compute; reflexivity|]. split; [vm_compute; reflexivity|]. split; [|vm_compute; reflexivity]. exists (lit "/big"). vm_compute. reflexivity. }
  split; [apply ready1_reached|]. split; [repeat constructor|]. split; auto. split; auto. split; [vm_compute; discriminate|].
  clear.
  intros a H. cbn [In] in H. decompose [or] H; try discriminate; try contradiction; match goal with E : XOther _ = XOther _ |- _ => injection E as <-; reflexivity end.
Qed.

(** ** C59: fixed answers *)
Definition answered (c : conn) (stk : list frame) (r : request) (code : Z) (content : bytes) (ops : list op) : Prop :=
  exists hd c' stk', RespHead r (mkAns code [] (blen content)) (blen content) hd /\ run (Run c stk) (map ACall ops) = Run c' stk' /\ st c' = Completed /\
    log c' = log c ++ OWrite hd :: (if beqb content [] || head_req r then [] else [OWrite content]) ++ [OCompleted].
Lemma writeResponse_answers c stk r code content : reached c stk -> st c = SendingHeaders -> current c r -> blen content <= INT_MAX ->
  answered c stk r code content [OpWriteResponse code [] content].
Proof.
  intros H Hs Hc Hl. assert (RL0 : RespLength (mkAns code [] (blen content)) (blen content)) by (apply (RL_size (mkAns code [] (blen content))); reflexivity).
  assert (HI : int_length code [] (blen content)).
  { intros len RL. apply RespLength_fun in RL, RL0. pose proof (blen_nonneg content). assert (E : len = blen content) by exact RL. rewrite E. unfold INT_MIN. lia. }
  destruct (C11_writeResponse c stk r code [] content H Hs Hc HI) as (len & hd & c' & stk' & RL & RH1 & E & Er & W).
  assert (len = blen content) as -> by (apply RespLength_fun in RL; exact RL). exists hd, c', stk'. cbn [map run fold_left]. split; auto. split; auto.
  destruct content as [|y ct].
  - change (blen [] =? 0) with true in W. cbn [orb] in W. destruct W as (W1 & _ & W3). split; auto.
  - set (content := y :: ct) in *. assert (Lp : 0 < blen content) by (apply blen_pos; discriminate).
    replace (beqb content []) with false by (symmetry; apply beqb_false; discriminate). cbn [orb].
    replace (blen content =? 0) with false in W by (symmetry; apply Z.eqb_neq; lia). cbn [orb] in W. destruct (head_req r).
    + destruct W as (W1 & _ & W3). split; auto.
    + rewrite Z.ltb_irrefl, andb_false_r in W. cbn [orb] in W. destruct W as (ev & P & W). rewrite Z.eqb_refl in W. destruct W as (W1 & W2 & _). split; auto.
      match type of P with ConnSend.piece ?b _ _ => replace b with false in P end.
      2: { symmetry. unfold chunked_resp. replace (blen content =? -1) with false by (symmetry; apply Z.eqb_neq; lia). apply andb_false_r. }
      cbn [ConnSend.piece] in P. subst ev. exact W2.
Qed.
(** A fixed handler accepts every request and answers it completely, with its status and its content. *)
Theorem C59_fixed : forall c stk r code content, reached c stk -> st c = SendingHeaders -> current c r -> blen content <= INT_MAX ->
  let '(accepted, ops) := fixedHandle code content in accepted = true /\ answered c stk r code content ops.
Proof. intros c stk r code content H Hs Hc Hl. cbn. split; auto. now apply writeResponse_answers. Qed.
(** The 404 handler answers every request with 404 and a text naming the path. *)
Theorem C59_not_found : forall dec c stk r, reached c stk -> st c = SendingHeaders -> current c r -> blen (dec (q_path r)) <= INT_MAX - 100 ->
  let '(accepted, ops) := notFoundHandle dec (q_path r) in accepted = true /\
    exists before after, answered c stk r 404 (before ++ dec (q_path r) ++ after) ops.
Proof.
  intros dec c stk r H Hs Hc Hl. cbn [notFoundHandle]. split; auto. eexists _, _. apply writeResponse_answers; auto. rewrite !blen_app.
  change (blen (lit "The requested resource '")) with 24. change (blen (lit "' does not exist on this server")) with 31. lia.
Qed.
Example C59_case : reached ready1 [KSig SReady] /\ st ready1 = SendingHeaders /\ current ready1 (delivered msg1) /\ blen (q_path (delivered msg1)) <= INT_MAX - 100.
Proof. destruct ready1_facts. split; [apply ready1_reached|]. split; auto. split; auto. vm_compute. congruence. Qed.
