(** What the calls of a relay and the rest of the world do to a connection whose request is being answered. *)
From Verif Require Import Bytes ByteHelpers Thin Helpers ReqGrammar TextSpec ThinProofs ThinFields ThinTop CIProofs HelpersProofs
  Conn ConnSpec ConnView ConnText ConnHead ConnInv ConnStep ConnEnd ConnLog PropsParser PropsConn ConnSend ConnFree PropsConn2 PropsConn3 PropsConn4.
Open Scope Z_scope.

(** nothing happened that matters *)
Record busy (c c' : conn) : Prop := mkBusy {
  by_st : st c' = st c; by_log : log c' = log c; by_rlen : rlen c' = rlen c; by_rsent : rsent c' = rsent c;
  by_chunked : chunked c' = chunked c; by_req : req c' = req c; by_in : in_ok c' = in_ok c; by_out : out_ok c' = out_ok c }.
Lemma busy_refl c : busy c c.
Proof. now constructor. Qed.
Lemma busy_trans a b c : busy a b -> busy b c -> busy a c.
Proof. intros [] []. constructor; congruence. Qed.
Lemma busy_tail c : busy c (sending_tail c).
Proof. unfold sending_tail. destruct (_ && _); constructor; reflexivity. Qed.
Definition answering (c : conn) : Prop := st c = SendingHeaders \/ st c = SendingContent.
Lemma busy_resume t : Base t -> Forall no_content t -> forall c, answering c -> exists c' stk', resume t c = Run c' stk' /\ busy c c'.
Proof.
  induction t as [|f t IH]; intros Hb Hn c Hc; [exists c, []; split; [reflexivity|apply busy_refl]|].
  inversion Hb as [|? ? Hf Hb']; subst. inversion Hn as [|? ? Hf' Hn']; subst. destruct f as [s| | | | | |content|]; try contradiction; cbn [resume].
  - exists c, (KSig s :: t). split; [reflexivity|apply busy_refl].
  - destruct (IH Hb' Hn' (sending_tail c)) as (c' & stk' & E & B).
    { destruct (busy_tail c) as [E]. unfold answering in *. now rewrite E. }
    exists c', stk'. split; [exact E|]. eapply busy_trans; [apply busy_tail|exact B].
  - destruct content; [|contradiction]. cbn [resp_tail]. now apply IH.
Qed.
Lemma answering_live c stk : reached c stk -> answering c -> out_ok c = true /\ in_ok c = true /\ Base stk.
Proof.
  intros H Hs. apply reached_inv in H.
  destruct H as [? ? ? ? ? ? ?|H Hb|ms m more l s t H ? ? ?|ms s t H ? ? ? ?|[(H & _)|(H & _)] Hf|(H & _) Hc]; try (destruct Hs; congruence).
  2: destruct H; destruct Hs; congruence. 2: destruct H; destruct Hs; congruence.
  assert (X : out_ok c = true /\ in_ok c = true); [|tauto].
  destruct H as [(ms & H & _)|[(ms & h & l & hb & rest & H & Hlt)|[(ms & m & more & l & [? [[] ? ? ? ? ? ?]])|(ms & m & more & l & a & len & pcs & evs & [? [[] ? ? ? ? ? ?]])]]]; auto.
  - destruct H. destruct Hs; congruence.
  - destruct H. destruct Hs; congruence.
Qed.
Lemma busy_step c stk a : reached c stk -> Forall no_content stk -> answering c -> not_writing a = true ->
  exists c' stk', step (Run c stk) a = Run c' stk' /\
    ((reached c' stk' /\ Forall no_content stk' /\ busy c c') \/ exists p, log c' = log c ++ [OShut p; OClosed]).
Proof.
  intros H N Hc Ha. destruct (answering_live _ _ H Hc) as (Ho & Hi & Hb).
  assert (P : polite c stk a) by (destruct a as [[]| | | |]; try discriminate; cbn; auto; destruct Hc; congruence).
  assert (S : sane c a) by (destruct a as [[]| | | |]; try discriminate; exact Logic.I).
  pose proof (step_sane c stk a H N P S) as X.
  assert (HR : forall c', busy c c' -> exists c'' stk', resume stk c' = Run c'' stk' /\ busy c c'').
  { intros c' B. destruct (busy_resume stk Hb N c') as (c2 & stk2 & E & B2).
    - unfold answering in *. now rewrite (by_st _ _ B).
    - exists c2, stk2. split; [exact E|]. eapply busy_trans; eauto. }
  assert (Q : (exists c' stk', step (Run c stk) a = Run c' stk' /\ busy c c') \/ exists c' stk' p, step (Run c stk) a = Run c' stk' /\ log c' = log c ++ [OShut p; OClosed]).
  { clear X. pose proof (busy_refl c) as B0. destruct a as [o| |b|n|n]; cbn [step].
    - destruct o; cbn [do_op] in *; try discriminate.
      + left. unfold processInput. destruct Hc as [-> | ->]; cbn [cst_eqb]; auto.
      + right. unfold toClosed. replace (cst_eqb (st c) Closed) with false by (destruct Hc as [-> | ->]; reflexivity). csimp. rewrite Hi. cbn [orb]. unfold emit_log. csimp.
        eexists _, _, (pending c). split; [reflexivity|]. csimp. now rewrite <- app_assoc.
      + left. unfold flush. destruct (_ && _); auto. eexists _, _. split; [reflexivity|]. constructor; reflexivity.
      + left. unfold drain. replace (cst_eqb (st c) Flushing) with false by (destruct Hc as [-> | ->]; reflexivity). cbn [negb]. auto.
    - left. destruct stk as [|[s| | | | | | |] t]; try (eexists _, _; split; [reflexivity|apply busy_refl]). apply Forall_inv_tail in Hb, N.
      apply (busy_resume t Hb N c Hc).
    - left. destruct (_ && _); eexists _, _; (split; [reflexivity|]); constructor; reflexivity.
    - left. eexists _, _; (split; [reflexivity|]); constructor; reflexivity.
    - left. cbv zeta. csimp. set (c1 := set_pending _ c). assert (B1 : busy c c1) by (constructor; reflexivity).
      destruct (drain_conn c); [|eexists _, _; split; [reflexivity|exact B1]].
      unfold drain. replace (cst_eqb (st c1) Flushing) with false by (subst c1; csimp; destruct Hc as [-> | ->]; reflexivity). cbn [negb]. auto. }
  destruct Q as [(c' & stk' & E & B)|(c' & stk' & p & E & L)]; rewrite E in *; exists c', stk'; (split; [reflexivity|]).
  - left. tauto.
  - right. eauto.
Qed.

(** close() while a request is answered *)
Lemma close_step c stk : reached c stk -> answering c ->
  exists c' stk' p, step (Run c stk) (ACall OpClose) = Run c' stk' /\ log c' = log c ++ [OShut p; OClosed].
Proof.
  intros H Hc. destruct (answering_live _ _ H Hc) as (Ho & Hi & Hb). cbn [step do_op]. unfold toClosed.
  replace (cst_eqb (st c) Closed) with false by (destruct Hc as [-> | ->]; reflexivity). csimp. rewrite Hi. cbn [orb]. unfold emit_log. csimp.
  eexists _, _, (pending c). split; [reflexivity|]. csimp. now rewrite <- app_assoc.
Qed.

(** sending the content of the answer a to r, of the length len; ps: the pieces sent; L: the log before the answer *)
Record Relays (L : list obs) (r : request) (a : answer) (len : Z) (ps : list bytes) (c : conn) (stk : list frame) : Prop := mkRelays {
  rl_reached : reached c stk; rl_nc : Forall no_content stk; rl_st : st c = SendingContent; rl_len : rlen c = len; rl_nz : len <> 0;
  rl_head : head_req r = false; rl_req : req c = r; rl_sent : rsent c = total ps; rl_chunk : chunked c = chunked_resp r a len;
  rl_log : exists evs, log c = L ++ evs /\ Answering r a len ps evs }.
Lemma relays_busy L r a len ps c stk c' stk' : Relays L r a len ps c stk -> reached c' stk' -> Forall no_content stk' -> busy c c' -> Relays L r a len ps c' stk'.
Proof. intros [] R N []. constructor; auto; try congruence. rewrite by_log0. assumption. Qed.

Lemma headers_relay c stk r code hs : reached c stk -> Forall no_content stk -> st c = SendingHeaders -> current c r -> int_length code hs (-1) ->
  let a := mkAns code hs (-1) in
  exists len hd c' stk', step (Run c stk) (ACall (OpWriteHeaders code hs)) = Run c' stk' /\ RespLength a len /\ RespHead r a len hd /\
    if (len =? 0) || head_req r then log c' = log c ++ [OWrite hd; OCompleted] else Relays (log c) r a len [] c' stk' /\ log c' = log c ++ [OWrite hd].
Proof.
  intros H N Hs Hcur HI a. destruct (reached_SH _ _ H Hs) as (ms & m & more & l & S). pose proof (SH_current _ _ _ _ _ _ S Hcur) as ->.
  pose proof (step_sane c stk (ACall (OpWriteHeaders code hs)) H N HI Logic.I) as X.
  destruct S as [_ [[] ? ? ? Hreq ? ?] H11 Hch Hr Hrs ?]. subst a. rewrite <- Hr in HI |- *. rewrite <- Hreq.
  destruct (head_exact code hs c stk (resume stk) Hs cm_hbuf H11 Hch cm_out HI) as (len & hd & HL & HH & E).
  exists len, hd. cbn [step do_op] in *. rewrite E in *. destruct ((len =? 0) || head_req (req c)) eqn:Z0.
  - eexists _, _. split; [reflexivity|]. split; [exact HL|]. split; [exact HH|]. unfold after_head, wrote, head_conn, emit_log. csimp. now rewrite <- !app_assoc.
  - rewrite settled_resume in * by (eapply reached_settled'; eauto). destruct X as [X1 X2]. eexists _, _. split; [reflexivity|]. split; [exact HL|]. split; [exact HH|].
    apply orb_false_iff in Z0 as [Z0 Z1]. apply Z.eqb_neq in Z0.
    pose proof (busy_tail (after_head code (mkAns code hs (rlen c)) len hd c)) as B. set (c1 := after_head code (mkAns code hs (rlen c)) len hd c) in *.
    assert (E1 : st c1 = SendingContent /\ rlen c1 = len /\ req c1 = req c /\ rsent c1 = 0 /\ log c1 = log c ++ [OWrite hd] /\ chunked c1 = chunked_resp (req c) (mkAns code hs (rlen c)) len).
    { subst c1. unfold after_head, wrote, head_conn, emit_log. csimp. auto 10. }
    destruct E1 as (E1 & E2 & E3 & E4 & E5 & E6). destruct B. split; [|congruence]. constructor; auto; try congruence; [unfold total; cbn; congruence|].
    exists [OWrite hd]. split; [congruence|]. constructor; auto; [constructor|]. unfold framing_of, may_send, total. rewrite Z1, orb_false_r.
    destruct (Z.eqb_spec len 0); [contradiction|]. destruct (Z.ltb_spec 0 len); [cbn; lia|]. destruct (chunked_resp _ _ _); exact Logic.I.
Qed.

(** pieces that are taken: not empty, and not beyond the announced length *)
Definition fits (f : framing) (sum : Z) (b : bytes) : bool :=
  negb (beqb b []) && match f with NoContent => false | FixedLength n => sum + blen b <=? n | _ => true end.
Lemma framing_sending r a len : head_req r = false -> len <> 0 ->
  framing_of r a len = if 0 <? len then FixedLength len else if chunked_resp r a len then ChunkedContent else UntilClose.
Proof. intros H N. unfold framing_of. rewrite H, orb_false_r. destruct (Z.eqb_spec len 0); [contradiction|reflexivity]. Qed.
Lemma answering_snoc r a len ps evs b ev : Answering r a len ps evs -> head_req r = false -> len <> 0 -> b <> [] -> (0 < len -> total ps + blen b <= len) ->
  piece (chunked_resp r a len) b ev -> Answering r a len (ps ++ [b]) (evs ++ ev).
Proof.
  intros [hd evs' RL RH CE MS] Hh N Nb HT P. cbn [app]. constructor; auto.
  - apply CE_snoc; auto. rewrite framing_sending by auto. unfold piece in P. destruct (Z.ltb_spec 0 len) as [L|L].
    + unfold chunked_resp in P. replace (len =? -1) with false in P by (symmetry; apply Z.eqb_neq; lia). rewrite andb_false_r in P. subst ev. constructor.
    + destruct (chunked_resp r a len); [destruct P as (d & Cd & ->); now constructor|subst ev; constructor].
  - rewrite framing_sending by auto. rewrite total_snoc. destruct (Z.ltb_spec 0 len); cbn [may_send]; [auto|]. destruct (chunked_resp r a len); exact Logic.I.
Qed.
Lemma content_relay L r a len ps c stk b : Relays L r a len ps c stk ->
  exists c' stk', step (Run c stk) (ACall (OpWriteContent b)) = Run c' stk' /\
    if fits (framing_of r a len) (total ps) b
    then exists ev, piece (chunked_resp r a len) b ev /\
      if total ps + blen b =? len
      then log c' = log c ++ ev ++ [OCompleted] /\ exists evs, log c ++ ev = L ++ evs /\ Answering r a len (ps ++ [b]) evs
      else log c' = log c ++ ev /\ Relays L r a len (ps ++ [b]) c' stk'
    else c' = c /\ stk' = stk.
Proof.
  intros S. pose proof S as [R N Hs Hl Hn Hh Hq Hse Hch (evs & HL & HA)].
  destruct (answering_live _ _ R (or_intror Hs)) as (Ho & Hi & Hb).
  pose proof (writeContent_step c stk b R Hs r a ps) as W. rewrite Hl, Hq in W. specialize (W Hch Hse Hh Hn Ho (total_nonneg _)). cbv zeta in W.
  assert (PC : polite c stk (ACall (OpWriteContent b))) by exact Logic.I.
  pose proof (step_sane c stk (ACall (OpWriteContent b)) R N PC Logic.I) as X.
  unfold fits. rewrite framing_sending by auto.
  assert (FE : negb (beqb b []) && match (if 0 <? len then FixedLength len else if chunked_resp r a len then ChunkedContent else UntilClose) with
     NoContent => false | FixedLength n => total ps + blen b <=? n | _ => true end = negb ((0 <? len) && (len <? total ps + blen b) || (blen b =? 0))).
  { assert (BE : beqb b [] = (blen b =? 0)).
    { destruct b; [reflexivity|]. rewrite (proj2 (beqb_false (a0 :: b) [])) by discriminate. symmetry. apply Z.eqb_neq. rewrite blen_cons. pose proof (blen_nonneg b). lia. }
    rewrite BE. destruct (blen b =? 0); [now rewrite orb_true_r|]. rewrite orb_false_r. cbn [negb andb].
    destruct (0 <? len); cbn [andb]; [|destruct (chunked_resp r a len); reflexivity]. destruct (Z.ltb_spec len (total ps + blen b)), (Z.leb_spec (total ps + blen b) len); auto; lia. }
  rewrite FE. destruct ((0 <? len) && (len <? total ps + blen b) || (blen b =? 0)) eqn:F; cbn [negb].
  - rewrite W. eauto.
  - apply orb_false_iff in F as [F1 F2]. apply Z.eqb_neq in F2.
    assert (Nb : b <> []) by (intros ->; now apply F2). assert (HT : 0 < len -> total ps + blen b <= len).
    { intros G. apply Z.ltb_lt in G. rewrite G in F1. cbn [andb] in F1. apply Z.ltb_ge in F1. lia. }
    destruct W as (ev & c' & P & E1 & E2 & W).
    assert (Q : Answering r a len (ps ++ [b]) (evs ++ ev)) by (eapply answering_snoc; eauto).
    destruct (total ps + blen b =? len).
    + destruct W as (W1 & W2 & W3). rewrite W3. eexists _, _. split; [reflexivity|]. exists ev. split; [exact P|]. split; [exact W2|]. exists (evs ++ ev). rewrite HL, app_assoc. auto.
    + destruct W as (W1 & W2 & W3). rewrite W3 in *. destruct X as [X1 X2]. eexists _, _. split; [reflexivity|]. exists ev. split; [exact P|]. split; [exact W2|].
      assert (EX : exists ev' c2, piece (chunked c) b ev' /\ c2 = set_log (log c ++ ev') (set_pending (pending c2) (set_rsent (total ps + blen b) c)) /\ c' = c2).
      { pose proof (content_exact b c stk (resume stk) Hs Ho) as CE. rewrite Hq in CE. specialize (CE Hh ltac:(congruence)).
        cbn [step do_op] in W3. rewrite Hl, Hse, Z.add_comm in CE. apply Z.eqb_neq in F2. rewrite F1, F2 in CE. cbn [orb] in CE. destruct CE as (ev' & c2 & P' & Ec & CE).
        exists ev', c2. split; [exact P'|]. split; [exact Ec|]. rewrite CE in W3.
        destruct (rsent c2 =? rlen c2).
        - exfalso. unfold toCompleted in W3. replace (st c2) with SendingContent in W3 by (rewrite Ec; csimp; auto). cbn [cst_eqb] in W3. injection W3 as W3 W4.
          rewrite <- W3 in W1. unfold emit_log in W1. csimp. discriminate.
        - rewrite settled_resume in W3 by (eapply reached_settled'; eauto). congruence. }
      destruct EX as (ev' & c2 & P' & Ec & ->).
      assert (E5 : req c2 = req c /\ chunked c2 = chunked c) by (rewrite Ec; csimp; auto). destruct E5 as [E5 E6].
      constructor; auto; try congruence.
      * rewrite total_snoc. exact E2.
      * exists (evs ++ ev). rewrite W2, HL, app_assoc. auto.
Qed.
