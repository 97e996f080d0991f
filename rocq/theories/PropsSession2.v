(** C83, progress: from every moment of a session both ends can go on by themselves (slots return, the network delivers, the handler answers) until the
    client has reported the answer to its last request.  Specification: Session.v *)
From Verif Require Import Bytes TextSpec ByteHelpers Helpers ReqGrammar Conn ConnSpec ConnInv ConnHead ConnStep ConnEnd ConnPhase ConnLive PropsConn PropsConn4 Serve PropsServe PropsServe2 PropsEnds SessionServer.
From Verif Require Import Joyent RespParser RespSpec Client ClientSpec ClientInv PropsClient PropsClient2 PropsClient3 PropsWire PropsWire2 Session PropsSession PropsSettle ClientDry.
Open Scope Z_scope.

(** ** The server does not end by itself *)
Lemma live_in s sk : reached s sk -> ~ over s -> st s <> Uninitialized -> in_ok s = true.
Proof.
  intros R N U. apply reached_inv in R. destruct R as [X|H _|ms m mo l t1 t2 H _ _ _|ms t1 t2 H _ _ _ _|[(H & _)|(H & _)] _|(H & _) _]; try congruence.
  - destruct H as [(ms & H)|[(ms & hd & l & hb & rest & H & _)|[(ms & m & mo & l & H)|(ms & m & mo & l & a & len & p & e & H)]]].
    + destruct H as [H _]. exact (cm_in _ _ (rh_common _ _ H)).
    + exact (cm_in _ _ (rc_common _ _ _ _ _ _ H)).
    + exact (cm_in _ _ (sv_common _ _ _ _ _ (sh_sv _ _ _ _ _ H))).
    + exact (cm_in _ _ (sv_common _ _ _ _ _ (sc_sv _ _ _ _ _ _ _ _ _ H))).
  - exact (cm_in _ _ (sv_common _ _ _ _ _ (c1_sv _ _ _ _ _ H))).
  - exact (cm_in _ _ (c2_common _ _ H)).
  - exfalso. apply N. now left.
  - exfalso. apply N. now right.
  - exfalso. apply N. now right.
Qed.
Section Srv2.
Variable h : handler.
Lemma no_refusal stream lg ms z p st e : Account h stream lg -> Forall wf_msg ms -> stream ++ z = concat (map wire ms) ->
  refused_with st -> Ending e -> lg = p ++ [OWrite (refusal st)] ++ e -> False.
Proof.
  intros AC W E Rs En. destruct AC as [ms1 rest l t e1 Ea W1 D1 Rm En1]. intros El.
  assert (Nc : continue_text <> refusal st) by (destruct Rs as [-> | ->]; intros X; discriminate).
  assert (X : exists y o, l ++ t = y ++ [o] /\ match o with OCompleted | OReady _ => True | OWrite b => b = continue_text \/ exists s, b = refusal s /\ Refusable rest s | _ => False end \/ l ++ t = []).
  { destruct Rm as [|hd n _ _ _ _|m x _ _|m x e2 _ _ A|s Rf].
    - rewrite app_nil_r. destruct (Dialogue_end _ _ _ D1) as [-> |(q & ->)]; [exists [], OCompleted; now right|]. exists q, OCompleted. left. auto.
    - exists l, (OWrite continue_text). left. auto.
    - exists (l ++ interim (delivered m)), (OReady (delivered m)). left. now rewrite app_assoc.
    - destruct (Answered_end _ _ _ _ A) as (q & ->). exists (l ++ q), OCompleted. left. now rewrite app_assoc.
    - exists l, (OWrite (refusal s)). left. split; eauto. }
  rewrite app_assoc in El.
  assert (Y : exists y o, l ++ t = y ++ [o] /\ o = OWrite (refusal st)).
  { destruct X as (y & o & [(X & Ho)|X]).
    - rewrite X in El. exists y, o. split; [exact X|].
      destruct En1, En; rewrite ?app_nil_r in El;
        try change [OShut p0; OClosed] with ([OShut p0] ++ [OClosed]) in El; try change [OShut p1; OClosed] with ([OShut p1] ++ [OClosed]) in El; rewrite ?app_assoc in El;
        repeat match type of El with _ ++ [_] = _ ++ [_] => apply app_inj_tail in El as [El ?] end; subst; try contradiction; try discriminate; congruence.
    - exfalso. rewrite X in El. cbn [app] in El. destruct En1; [now apply app_cons_not_nil in El| |]; destruct p as [|? [|? [|? ?]]]; discriminate. }
  destruct Y as (y & o & X2 & ->). destruct X as (y' & o' & [(X & Ho)|X]); [|rewrite X in X2; now apply app_cons_not_nil in X2].
  rewrite X in X2. apply app_inj_tail in X2 as [_ ->]. destruct Ho as [Ho|(s & Es & Rf)]; [congruence|].
  rewrite Ea, <- app_assoc, <- (app_nil_r (concat (map wire ms))) in E.
  destruct (stream_cut _ _ _ _ W1 W E) as [(mo & Wm & M & Er)|(mo & Wm & M & Er)].
  - rewrite app_nil_r in Er. destruct mo as [|m mo].
    + cbn [map concat] in Er. apply app_eq_nil in Er as [-> _]. eapply (verdict_refused msg1 [] (wire msg1) []); [exact msg1_wf| |exact Rf]. now rewrite app_nil_r.
    + cbn [map concat] in Er. inversion_clear Wm. eapply (verdict_refused m); eauto.
  - destruct mo as [|m mo]; [|inversion_clear Wm; cbn [map concat] in Er; symmetry in Er; apply app_eq_nil in Er as [Er _]; apply app_eq_nil in Er as [Er _]; now apply wire_ne in Er].
    cbn [map concat app] in Er. symmetry in Er. apply app_eq_nil in Er as [-> _]. eapply (verdict_refused msg1 [] (wire msg1) []); [exact msg1_wf| |exact Rf]. now rewrite app_nil_r.
Qed.
Lemma srv_stays s sk a s' sk' ms L z z' : Srv h s sk -> Srv h s' sk' -> ~ over s -> resets a = false -> a <> ACall OpClose -> step (Run s sk) a = Run s' sk' ->
  Forall wf_msg ms -> Dialogue h (map delivered ms) L -> Conn.arrived s ++ z = concat (map wire ms) -> Conn.arrived s' ++ z' = concat (map wire ms) -> ~ over s'.
Proof.
  intros Sv Sv' N Rs Nc E W HL A A' O. destruct Sv as [R HK Nn]. destruct (step_ends _ _ _ _ _ R Rs Nc N E) as [(sg & t & Es & -> & Ka)|[M F C]].
  - assert (S : st s = Completed) by (apply (inv_completed s sk); [now apply reached_inv|rewrite Es; right; now left]).
    pose proof HK as HK'. unfold K in HK. rewrite S in HK. destruct HK as ((rs & l & q & e & El & D & An) & _). rewrite Ka in An.
    destruct (announced_foretold h s sk ms z (mkSrv _ _ _ R HK' Nn) W A) as (mo & Mo). rewrite El, announced_app, (Dialogue_announced _ _ _ D) in Mo.
    destruct (answered_shape _ _ _ _ An) as (_ & _ & _ & Aq). rewrite Aq, <- app_assoc in Mo. cbn [app] in Mo. rewrite Mo in HL.
    destruct (Dialogue_next _ _ _ _ _ HL) as (La & e1 & Lb & _ & _ & Ae). destruct (Answered_uniq _ _ _ _ _ _ An Ae) as (_ & X). discriminate.
  - destruct Sv' as [R' HK' _]. pose proof (K_account h _ _ R' HK') as AC.
    assert (X : refused (log s) (log s')).
    { destruct O as [O|O]; [|now apply C]. destruct (F O) as (w & st & Hs & X). exists w, st, []. split; [exact Hs|]. split; [constructor|]. now rewrite app_nil_r. }
    destruct X as (w & st & e & Hs & En & X). eapply (no_refusal _ _ ms z' (log s ++ w)); eauto. now rewrite <- app_assoc.
Qed.
End Srv2.

(** what goes on by itself *)
Definition by_itself (a : jact) : Prop :=
  match a with
  | JClient CaReturn | JClient CaReadyRead => True
  | JServer a => serving a
  | JUp _ | JDown _ => True
  | _ => False
  end.
Section Progress.
  Variables (zlib : bool) (gunzip : list bytes -> bytes -> bytes) (parse_url : bytes -> url) (h : handler).
  Hypothesis urls : forall b, wf_url (parse_url b).
  Hypothesis HF : friendly h.
  Hypothesis HA : able h.
  Variables (c0 : client) (r0 : creq).
  Notation cstep := (cstep zlib gunzip parse_url).
  Notation crun := (crun zlib gunzip parse_url).
  Notation jstep := (jstep zlib gunzip parse_url).
  Notation jrun := (jrun zlib gunzip parse_url).
  Notation fair := (fair h).
  Notation fair_run := (fair_run zlib gunzip parse_url h).
  Notation Joint := (Joint zlib gunzip parse_url h c0 r0).
  Notation side_now := (side_now zlib gunzip parse_url h c0 r0).
  Definition Goes (p p' : pair) : Prop := exists l, Forall by_itself l /\ fair_run p l /\ jrun p l = p'.
  Lemma goes_refl p : Goes p p. Proof. exists []. split; [constructor|]. split; [exact Logic.I|reflexivity]. Qed.
  Lemma goes_step p a p' : by_itself a -> fair p a -> Goes (jstep p a) p' -> Goes p p'.
  Proof. intros B F (l & Fl & Fr & E). exists (a :: l). split; [now constructor|]. split; [split; auto|exact E]. Qed.
  Lemma goes_trans p q t : Goes p q -> Goes q t -> Goes p t.
  Proof.
    intros (l & Fl & Fr & <-) (l' & Fl' & Fr' & <-). exists (l ++ l'). split; [apply Forall_app; auto|]. split; [|unfold Session.jrun; apply fold_left_app].
    clear - Fr Fr'. revert p Fr Fr'. induction l as [|a l IH]; intros p Fr Fr'; [exact Fr'|]. destruct Fr as [F1 F2]. split; [exact F1|]. now apply IH.
  Qed.
  Lemma no_heads p c stk s sk ms : Joint p c stk s sk ms -> forall r, In r (announced (log s)) -> q_method r = lit "HEAD" -> forall rs, g_content (h (rs ++ [r])) = [].
  Proof.
    intros J. pose proof J as [_ _ _ Sv Wf Nh (z & Up) _ _]. destruct (announced_foretold h s sk ms z Sv Wf Up) as (mo & Mo). intros r Hr.
    assert (Hr' : In r (map delivered ms)) by (rewrite Mo; apply in_app_iff; auto). apply in_map_iff in Hr' as (m & <- & Hm). rewrite Forall_forall in Nh. now apply Nh.
  Qed.

  (** the client's slots return *)
  Lemma return_step p c stk s sk ms : Joint p c stk s sk ms -> stk <> [] -> fair p (JClient CaReturn) /\ exists c' stk', cstep (CRun c stk) CaReturn = CRun c' stk' /\
    Joint (jstep p (JClient CaReturn)) c' stk' s sk ms.
  Proof.
    intros J Nk. pose proof J as [Ec Es Iv Sv Wf Nh Up Dn Sd].
    assert (Fa : fair p (JClient CaReturn)).
    { cbn [Session.fair]. rewrite Ec. split; [exact Logic.I|]. destruct (c_pending c) eqn:P; [|left; auto]. cbn [receiving]. rewrite ?Ec. cbn [receiving]. auto. }
    split; [exact Fa|]. cbn [Session.jstep]. rewrite Ec. destruct (c_pending c) eqn:P.
    - destruct (wait_step zlib gunzip parse_url h urls c0 r0 c stk (p_got p) ms CaReturn Iv Sd P) as (c' & stk' & E & Iv' & Sd'); [split; [exact P|exact Logic.I]|exact Logic.I|].
      exists c', stk'. split; [exact E|]. rewrite app_nil_r in Sd'. constructor; cbn [p_client p_server p_got]; auto.
    - destruct (side_now _ _ _ _ _ _ J) as (L & F & _ & _ & _ & _ & _ & Pf & _). destruct (Pf P) as (_ & _ & X). destruct (X Nk) as (c'' & E & Sd').
      exists c'', []. split; [exact E|]. constructor; cbn [p_client p_server p_got]; auto.
      pose proof (ClientInv.step_ok zlib gunzip parse_url urls (CRun c stk) CaReturn Iv Logic.I) as Iv'. now rewrite E in Iv'.
  Qed.
  Lemma returns dry p c stk s sk ms : Joint p c stk s sk ms -> D dry c -> exists p' c', Goes p p' /\ Joint p' c' [] s sk ms /\ D dry c' /\ p_got p' = p_got p.
  Proof.
    intros J HD. destruct (inv_settles zlib gunzip parse_url _ (jt_inv _ _ _ _ _ _ _ _ _ _ _ _ J)) as (n & c' & E). revert p c stk J HD E.
    induction n as [|n IH]; intros p c stk J HD E.
    - injection E as <- ->. exists p, c. split; [apply goes_refl|]. auto.
    - destruct stk as [|f t]; [exists p, c; split; [apply goes_refl|auto]|].
      destruct (return_step _ _ _ _ _ _ J) as (Fa & c1 & stk1 & E1 & J1); [discriminate|].
      pose proof (d_return zlib gunzip parse_url dry c (f :: t) HD) as HD1. rewrite E1 in HD1.
      unfold Client.crun in E. cbn [repeat fold_left] in E. rewrite E1 in E. destruct (IH _ _ _ J1 HD1 E) as (p' & c2 & G & J2 & HD2 & Gt).
      exists p', c2. split; [exact (goes_step p (JClient CaReturn) p' Logic.I Fa G)|]. auto.
  Qed.
  (** everything is delivered to the server *)
  Lemma ups p c stk s sk ms : Joint p c stk s sk ms -> ~ over s -> exists p' s', Goes p p' /\ Joint p' c stk s' sk ms /\ ~ over s' /\ Conn.arrived s' = concat (map wire ms).
  Proof.
    intros J N. pose proof J as [Ec Es Iv Sv Wf Nh (z & Up) (y & Dn) Sd]. pose proof Sv as [R HK Nn].
    assert (I : in_ok s = true). { apply (live_in s sk); auto. intros X. unfold K in HK. now rewrite X in HK. }
    assert (C : cst_eqb (st s) Closed = false) by (destruct (cst_eqb (st s) Closed) eqn:X; auto; apply cst_eqb_eq in X; exfalso; apply N; now right).
    assert (Eu : up_bytes p = z).
    { unfold up_bytes. rewrite Ec, Es. destruct (side_now _ _ _ _ _ _ J) as (L & F & HL & EL & St & _). rewrite St, <- Up. rewrite skipn_app, skipn_all, Nat.sub_diag. reflexivity. }
    assert (E : step (Run s sk) (AArrive z) = Run (set_arrived (Conn.arrived s ++ z) (set_avail (avail s ++ z) s)) sk) by (cbn [step]; now rewrite I, C).
    destruct (srv_step h s sk (AArrive z) Sv Logic.I Logic.I (no_heads _ _ _ _ _ _ J)) as (s' & sk' & e & E' & Sv' & Le & _).
    rewrite E in E'. injection E' as <- <-.
    exists (jstep p (JUp (length z))), (set_arrived (Conn.arrived s ++ z) (set_avail (avail s ++ z) s)).
    split; [eapply (goes_step p (JUp (length z))); [exact Logic.I|exact Logic.I|apply goes_refl]|].
    split; [|split; [exact N|exact Up]]. constructor; cbn [Session.jstep p_client p_server p_got]; auto.
    - rewrite Eu, Es, firstn_all. exact E.
    - exists []. rewrite app_nil_r. exact Up.
    - exists y. exact Dn.
  Qed.
  (** the server serves *)
  Lemma serves ms c stk s' sk' : forall l p s sk, Joint p c stk s sk ms -> ~ over s -> Conn.arrived s = concat (map wire ms) -> Forall serving l ->
    polite_run (Run s sk) l -> obeys_run h (Run s sk) l -> run (Run s sk) l = Run s' sk' ->
    exists p', Goes p p' /\ Joint p' c stk s' sk' ms /\ ~ over s' /\ Conn.arrived s' = concat (map wire ms) /\ p_got p' = p_got p.
  Proof.
    induction l as [|a l IH]; intros p s sk J N A Fl P O E.
    - injection E as <- <-. exists p. split; [apply goes_refl|]. auto.
    - inversion_clear Fl as [|? ? F1 F2]. destruct P as (P1 & P2), O as (O1 & O2). pose proof J as [Ec Es Iv Sv Wf Nh (z & Up) (y & Dn) Sd].
      destruct (srv_step h s sk a Sv P1 O1 (no_heads _ _ _ _ _ _ J)) as (s1 & sk1 & e & E1 & Sv1 & Le & Ar).
      assert (Na : match a with AArrive _ => False | _ => True end) by (destruct a; auto; contradiction).
      assert (Ar' : Conn.arrived s1 = Conn.arrived s) by (destruct a; auto; contradiction).
      destruct (side_now _ _ _ _ _ _ J) as (L & F & HL & _).
      assert (N1 : ~ over s1).
      { eapply (srv_stays h s sk a s1 sk1 ms L [] []); eauto; try (rewrite app_nil_r; congruence); destruct a as [[]| | | |]; auto; try contradiction; discriminate. }
      assert (J1 : Joint (jstep p (JServer a)) c stk s1 sk1 ms).
      { constructor; cbn [Session.jstep p_client p_server p_got]; auto.
        - now rewrite Es.
        - exists z. now rewrite Ar'.
        - exists (y ++ written e). now rewrite Le, SessionServer.written_app, Dn, app_assoc. }
      assert (E2 : run (Run s1 sk1) l = Run s' sk') by (rewrite <- E1; exact E). rewrite E1 in P2, O2.
      destruct (IH _ _ _ J1 N1 ltac:(congruence) F2 P2 O2 E2) as (p' & G & Q). exists p'. split; [|exact Q].
      apply (goes_step p (JServer a)); [exact F1| |exact G]. cbn [Session.fair]. rewrite Es. auto.
  Qed.
  Lemma served_all p c stk s sk ms : Joint p c stk s sk ms -> ~ over s -> Conn.arrived s = concat (map wire ms) ->
    exists p' s', Goes p p' /\ Joint p' c stk s' [] ms /\ ~ over s' /\ (st s' = ReceivingHeaders \/ st s' = ReceivingContent) /\ avail s' = [] /\
      Conn.arrived s' = concat (map wire ms) /\ p_got p' = p_got p.
  Proof.
    intros J N A. pose proof (jt_srv _ _ _ _ _ _ _ _ _ _ _ _ J) as [R HK Nn].
    destruct (PropsServe2.progress h HA (Z.to_nat (2 * blen (Conn.arrived s) + 1 - paid s)) (length sk) s sk) as (s' & l & Fl & P & O & E & Dn & Ar).
    - constructor; auto.
    - pose proof (mid_account h s sk (Build_Mid _ _ _ R HK Nn)). unfold paid in *. lia.
    - lia.
    - destruct (serves _ _ _ _ _ l p s sk J N A Fl P O E) as (p' & G & J' & N' & A' & Gt). exists p', s'. split; [exact G|]. split; [exact J'|]. split; [exact N'|].
      destruct Dn as [(Hs & Ha)|[X|X]]; [auto|exfalso; apply N'; now left|exfalso; apply N'; now right].
  Qed.
  (** everything is delivered to the client, and read *)
  Theorem goes_on p c stk s sk ms : Joint p c stk s sk ms -> ~ over s -> c_rbuf c <= 0 ->
    exists p' c' s', Goes p p' /\ Joint p' c' [] s' [] ms /\ c_pending c' = false /\ ~ over s' /\ c_rbuf c' <= 0 /\ announced (log s') = map delivered ms.
  Proof.
    intros J N B. destruct (returns False p c stk s sk ms J) as (p1 & c1 & G1 & J1 & (B1 & _) & _); [split; [exact B|contradiction]|].
    destruct (ups _ _ _ _ _ _ J1 N) as (p2 & s2 & G2 & J2 & N2 & A2). destruct (served_all _ _ _ _ _ _ J2 N2 A2) as (p3 & s3 & G3 & J3 & N3 & S3 & V3 & A3 & _).
    pose proof (goes_trans _ _ _ G1 (goes_trans _ _ _ G2 G3)) as G. clear G1 G2 G3 J1 J2 p1 p2.
    pose proof J3 as [Ec Es Iv Sv Wf Nh (z & Up) (y & Dn) Sd]. destruct (side_now _ _ _ _ _ _ J3) as (L & F & HL & EL & St & (obs & rs & Lo & (Se & Er)) & Pw & Pf & _).
    assert (Lg : log s3 = L) by (apply (srv_quiet h s3 [] ms L Sv Wf HL A3 S3 V3)).
    assert (Ne : announced (log s3) = map delivered ms) by (rewrite Lg; exact (Dialogue_announced _ _ _ HL)).
    destruct (c_pending c1) eqn:P1; [|exists p3, c1, s3; auto 8].
    (* the answer arrives *)
    assert (X : exists p4 c4, Goes p3 p4 /\ Joint p4 c4 [] s3 [] ms /\ c_rbuf c4 <= 0 /\ p_got p4 = written (log s3) /\ c_pending c4 = true).
    { destruct (list_eq_dec ascii_dec y []) as [-> |Ny].
      - rewrite app_nil_r in Dn. exists p3, c1. split; [apply goes_refl|]. auto.
      - assert (Ed : down_bytes p3 = y) by (unfold down_bytes; rewrite Es, Dn, skipn_app, skipn_all, Nat.sub_diag; reflexivity).
        destruct (wait_step zlib gunzip parse_url h urls c0 r0 c1 [] (p_got p3) ms (CaArrive y) Iv Sd P1) as (c4 & stk4 & E & Iv' & Sd'); [split; [exact P1|exact Logic.I]|exact Logic.I|].
        assert (Q : stk4 = [] /\ c_rbuf c4 = c_rbuf c1 /\ c_pending c4 = c_pending c1).
        { cbn [Client.cstep] in E. destruct (connected c1); injection E as <- <-; auto. }
        destruct Q as (-> & Q1 & Q2). exists (jstep p3 (JDown (length y))), c4. split.
        + apply (goes_step p3 (JDown (length y))); [exact Logic.I| |apply goes_refl]. cbn [Session.fair]. now rewrite Ed, firstn_all.
        + cbn [Session.jstep]. rewrite Ed, firstn_all, Ec. split; [|split; [lia|split; [cbn [p_got]; now rewrite Dn|congruence]]].
          constructor; cbn [p_client p_server p_got]; eauto. exists []. now rewrite app_nil_r. }
    destruct X as (p4 & c4 & G4 & J4 & B4 & Gt4 & P4). pose proof J4 as [Ec4 Es4 Iv4 _ _ _ Up4 Dn4 Sd4].
    destruct (wait_step zlib gunzip parse_url h urls c0 r0 c4 [] (p_got p4) ms CaReadyRead Iv4 Sd4 P4) as (c5 & stk5 & E5 & Iv5 & Sd5); [split; [exact P4|reflexivity]|exact Logic.I|].
    pose proof (d_read zlib gunzip parse_url c4 B4) as D5. rewrite E5 in D5. cbn [OKd] in D5. rewrite app_nil_r in Sd5.
    assert (J5 : Joint (jstep p4 (JClient CaReadyRead)) c5 stk5 s3 [] ms).
    { cbn [Session.jstep]. rewrite Ec4. constructor; cbn [p_client p_server p_got]; auto. }
    assert (G5 : Goes p4 (jstep p4 (JClient CaReadyRead))).
    { apply (goes_step p4 (JClient CaReadyRead)); [exact Logic.I| |apply goes_refl]. cbn [Session.fair]. rewrite Ec4, P4. split; [exact Logic.I|]. split; [exact P4|reflexivity]. }
    destruct (returns True _ _ _ _ _ _ J5 D5) as (p6 & c6 & G6 & J6 & (B6 & I6) & Gt6).
    destruct (side_now _ _ _ _ _ _ J6) as (L6 & F6 & HL6 & EL6 & _ & _ & Pw6 & _).
    exists p6, c6, s3. split; [eapply goes_trans; [exact G|]; eapply goes_trans; [exact G4|]; eapply goes_trans; [exact G5|exact G6]|]. split; [exact J6|].
    split; [|auto]. destruct (c_pending c6) eqn:P6; [|reflexivity]. exfalso. apply (Pw6 eq_refl eq_refl (I6 Logic.I)).
    rewrite Gt6. cbn [Session.jstep p_got]. rewrite Gt4, Lg. rewrite (Dialogue_uniq _ _ _ HL _ HL6). reflexivity.
  Qed.
End Progress.

(** At every moment of a session (Session.v) in which the server has not ended the connection and the client's read buffer is not limited: both ends can go
    on by themselves (the slots return, the network delivers what is on its way, the server processes and the handler answers, the client reads) until no
    request is under way and everything was reported; the connection is still there.  No moment is a dead end. *)
Theorem C83_progress : forall zlib gunzip parse_url h r c0 s0 l c stk s sk, (forall b, wf_url (parse_url b)) -> friendly h -> able h ->
  Opened zlib gunzip parse_url h r c0 s0 -> fair_run zlib gunzip parse_url h (opened_pair c0 s0) l ->
  let after := jrun zlib gunzip parse_url (opened_pair c0 s0) l in
  p_client after = CRun c stk -> p_server after = Run s sk -> st s <> Flushing -> st s <> Closed -> c_rbuf c <= 0 ->
  exists more c' s' obs, Forall by_itself more /\ fair_run zlib gunzip parse_url h after more /\
    p_client (jrun zlib gunzip parse_url after more) = CRun c' [] /\ p_server (jrun zlib gunzip parse_url after more) = Run s' [] /\
    c_pending c' = false /\ st s' <> Flushing /\ st s' <> Closed /\ c_rbuf c' <= 0 /\
    c_log c' = c_log c0 ++ obs /\ Session zlib gunzip h false (r :: accepted obs) (announced (log s')) (filter said obs).
Proof.
  intros zlib gunzip parse_url h r c0 s0 l c stk s sk urls HF HA Op Fr after Ec Es N1 N2 B.
  destruct (J_run zlib gunzip parse_url h urls HF c0 r l _ (J_start zlib gunzip parse_url h urls HF c0 r s0 Op) Fr) as (c1 & stk1 & s1 & sk1 & ms & J).
  fold after in J. pose proof J as [Ec1 Es1 _ _ _ _ _ _ _]. rewrite Ec in Ec1. rewrite Es in Es1. injection Ec1 as <- <-. injection Es1 as <- <-.
  assert (N : ~ over s) by (intros [X|X]; contradiction).
  destruct (goes_on zlib gunzip parse_url h urls HA c0 r _ _ _ _ _ _ J N B) as (p' & c' & s' & (more & Fm & Fr' & Ep) & J' & P' & N' & B' & Ne).
  destruct (side_now zlib gunzip parse_url h c0 r _ _ _ _ _ _ J') as (L & F & HL & EL & St & (obs & rs & Lo & (Se & Er)) & Pw & Pf & Pr).
  pose proof J' as [Ec' Es' Iv' Sv' Wf' Nh' (z & Up') (y & Dn') Sd'].
  exists more, c', s', obs. rewrite Ep. split; [exact Fm|]. split; [exact Fr'|]. split; [exact Ec'|]. split; [exact Es'|]. split; [exact P'|].
  split; [intros X; apply N'; now left|]. split; [intros X; apply N'; now right|]. split; [exact B'|]. split; [exact Lo|].
  rewrite P' in Se. subst rs. rewrite accepted_said in Se. rewrite Ne. exact Se.
Qed.

(** A case: the same two requests (C83_case), in the middle of the first answer. *)
Definition tale : handler := fun rs => mkGiven 200 [(lit "X-Turn", if (length rs =? 1)%nat then lit "first" else lit "later"); (lit "Content-Type", lit "text/plain")]
  (if beqb (q_method (last rs req0)) (lit "HEAD") then [] else firstn 100 (q_content (last rs req0) ++ lit "!")).
Definition halfway : list jact :=
  [JUp 10; JServer (ACall OpProcess); JClient CaFlushed; JUp 1000; JServer (ACall OpProcess);
   JServer (ACall (OpWriteResponse 200 [(lit "X-Turn", lit "first"); (lit "Content-Type", lit "text/plain")] (lit "content!")));
   JDown 82; JClient CaReadyRead].
Theorem C83_case_progress : friendly tale /\ able tale /\ fair_run false no_gunzip no_url tale pair1 halfway /\
  exists c stk s sk, p_client (djrun pair1 halfway) = CRun c stk /\ p_server (djrun pair1 halfway) = Run s sk /\ stk <> [] /\ sk <> [] /\
    st s <> Flushing /\ st s <> Closed /\ c_rbuf c <= 0 /\ c_pending c = true /\ down_bytes (djrun pair1 halfway) <> [].
Proof.
  split.
  { intros qs q V. cbv zeta. unfold tale. rewrite last_last. cbn [g_code g_headers g_content ans_of]. remember (length (qs ++ [q]) =? 1)%nat as b eqn:Eb. clear Eb.
    split; [constructor; [destruct b; vm_compute; reflexivity|exists "OK"%string; vm_compute; tauto]|]. split; [destruct b; vm_compute; reflexivity|].
    split; [destruct (beqb _ _); [vm_compute; discriminate|unfold blen; rewrite firstn_length; unfold INT_MAX; lia]|]. split; [unfold head_room; rewrite V; destruct b; vm_compute; discriminate|].
    split; [lia|destruct b; vm_compute; reflexivity]. }
  split.
  { intros rs m W. cbv zeta. unfold tale. rewrite last_last. cbn [g_headers g_content]. split; [destruct (_ =? _)%nat; reflexivity|]. split.
    - destruct (beqb _ _); [vm_compute; discriminate|unfold blen; rewrite firstn_length; unfold INT_MAX; lia].
    - intros X. now rewrite X, beqb_refl. }
  split; [apply fairb_run_ok; vm_compute; reflexivity|].
  exists (match p_client (djrun pair1 halfway) with CRun c _ => c | CUB _ => client0 end), (match p_client (djrun pair1 halfway) with CRun _ k => k | CUB _ => [] end),
    (match p_server (djrun pair1 halfway) with Run s _ => s | UB _ s => s end), (match p_server (djrun pair1 halfway) with Run _ k => k | UB _ _ => [] end).
  do 2 (split; [vm_compute; reflexivity|]). do 4 (split; [vm_compute; discriminate|]). split; [vm_compute; discriminate|]. split; [vm_compute; reflexivity|]. vm_compute. discriminate.
Qed.

(** A case with a HEAD request: POST, HEAD and GET on one connection *)
Definition probe : creq := mkCR (lit "HEAD") (cr_url get) [] [].
Lemma probe_clean : clean_request probe.
Proof. pose proof get_clean as [H1 H2 H3 H4 H5 H6 H7 H8 H9]. constructor; auto; try reflexivity. cbn [probe cr_method length lit list_ascii_of_string]. lia. Qed.
Lemma probe_small : small_head probe.
Proof. unfold small_head, probe, get. small.
Qed.
Lemma probe_good : good tale probe.
Proof.
  constructor; [apply probe_clean|apply probe_small| |reflexivity]. intros _ qs q S. destruct S as [host d _ _].
  unfold tale. rewrite last_last. cbn [g_content q_method probe cr_method]. rewrite beqb_refl. reflexivity.
Qed.
Lemma get_tale : good tale get. Proof. apply get_good. Qed.
Definition turn_head : list jact :=
  [JUp 1000; JServer (ACall OpProcess);
   JServer (ACall (OpWriteResponse 200 [(lit "X-Turn", lit "later"); (lit "Content-Type", lit "text/plain")] [])); JServer AReturn; JServer AReturn;
   JDown 20; JClient CaReadyRead; JDown 1000; JClient CaReadyRead; JClient CaReturn; JClient CaReturn].
Definition three_turns : list jact := turn1 ++ [JClient (CaCall (CoRequest probe))] ++ turn_head ++ [JClient (CaCall (CoRequest get))] ++ turn2.
Lemma next_fair r p c : p_client p = CRun c [] -> c_pending c = false -> good tale r -> c_dev c = DConnected -> same_server (cr_url r) (cr_url (c_req c)) = true ->
  c_timeout c < 0 -> fair tale p (JClient (CaCall (CoRequest r))).
Proof.
  intros E P G D S T. cbn [fair]. rewrite E, P. split; [exact (good_wf tale r G)|]. right. exists r. repeat (split; [auto|]). auto.
Qed.
Theorem C83_case_head : friendly tale /\ able tale /\ good tale probe /\ head_method (cr_method probe) = true /\
  Opened false no_gunzip no_url tale post client1 opened /\ fair_run false no_gunzip no_url tale pair1 three_turns /\
  exists c s, p_client (djrun pair1 three_turns) = CRun c [] /\ p_server (djrun pair1 three_turns) = Run s [] /\ c_pending c = false /\ c_in c = [] /\
    up_bytes (djrun pair1 three_turns) = [] /\ down_bytes (djrun pair1 three_turns) = [] /\ st s = ReceivingHeaders /\ avail s = [] /\ c_dev c = DConnected /\
    map q_method (announced (log s)) = [lit "POST"; lit "HEAD"; lit "GET"] /\
    filter (fun o => match o with Some _ => true | None => false end) (map told (c_log c)) = [Some (200, lit "content!"); Some (200, []); Some (200, lit "!")].
Proof.
  split; [exact (proj1 C83_case_progress)|]. split; [exact (proj1 (proj2 C83_case_progress))|]. split; [exact probe_good|]. split; [reflexivity|]. split; [apply case_opened|].
  split.
  { unfold three_turns. apply fair_run_app; [apply fairb_run_ok; vm_compute; reflexivity|]. apply fair_run_app.
    { split; [|exact Logic.I]. apply (next_fair _ _ (match p_client (djrun pair1 turn1) with CRun c _ => c | CUB _ => client0 end)); [vm_compute; reflexivity|vm_compute; reflexivity|exact probe_good| | |];
        vm_compute; reflexivity. }
    apply fair_run_app; [apply fairb_run_ok; vm_compute; reflexivity|]. apply fair_run_app; [|apply fairb_run_ok; vm_compute; reflexivity].
    split; [|exact Logic.I]. apply (next_fair _ _ (match p_client (djrun (djrun (djrun pair1 turn1) [JClient (CaCall (CoRequest probe))]) turn_head) with CRun c _ => c | CUB _ => client0 end));
      [vm_compute; reflexivity|vm_compute; reflexivity|exact get_tale| | |]; vm_compute; reflexivity. }
  exists (match p_client (djrun pair1 three_turns) with CRun c _ => c | CUB _ => client0 end), (match p_server (djrun pair1 three_turns) with Run s _ => s | UB _ s => s end).
  do 10 (split; [vm_compute; reflexivity|]). vm_compute. reflexivity.
Qed.
