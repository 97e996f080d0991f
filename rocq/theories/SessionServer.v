(** For C83: what a connection that obeys a handler writes, foretold from the requests it will be sent. *)
From Verif Require Import Bytes ByteHelpers Thin Helpers ReqGrammar TextSpec
  Conn ConnSpec ConnText ConnHead ConnInv ConnStep ConnEnd ConnLog PropsConn ConnSend ConnFree ConnPhase PropsConn2 PropsConn4 Serve PropsServe.
Open Scope Z_scope.

Lemma wire_ne m : wf_msg m -> wire m <> [].
Proof. intros W E. unfold wire in E. apply app_eq_nil in E as [E _]. unfold head_text in E. destruct (hd_method (m_head m)); discriminate. Qed.
Lemma app_size (a b c d : bytes) : a ++ b = c ++ d -> blen a < blen c -> exists e, c = a ++ e /\ b = e ++ d.
Proof.
  revert c. induction a as [|x a IH]; intros c E L; [exists c; auto|]. destruct c as [|y c]; [unfold blen in L; cbn [length] in L; lia|].
  cbn [app] in E. injection E as -> E. rewrite !blen_cons in L. destruct (IH c E ltac:(lia)) as (e & -> & ->). now exists e.
Qed.
(** the bytes of a request on their way *)
Lemma next_bytes m rest z y : wf_msg m -> rest ++ z = wire m ++ y ->
  (exists x, rest = wire m ++ x) \/ Verdict rest [] \/ Verdict rest (interim (delivered m)).
Proof.
  intros [W Sz A Mx] E. unfold wire in *. rewrite <- app_assoc in E.
  destruct (Z_lt_le_dec (blen rest) (blen (head_text (m_head m)))) as [L|L].
  - right. left. apply V_wait.
    + intros h x Wh Er. rewrite Er, <- app_assoc in E. apply head_cut in E as (E1 & _); auto. rewrite Er, blen_app, <- E1 in L. pose proof (blen_nonneg x). lia.
    + destruct (app_size _ _ _ _ E L) as (e & E1 & _). exists e, (m_head m). auto.
    + unfold max_pending. lia.
  - destruct (app_prefix _ _ _ _ E L) as (part & ->). rewrite <- app_assoc in E. apply app_inv_head in E.
    destruct (Z_lt_le_dec (blen part) (blen (m_content m))) as [L2|L2].
    + right. right. assert (X : interim (delivered m) = if says (first_named "expect" (spec_headers (m_head m))) "100-continue" then [OWrite continue_text] else []).
      { unfold interim, expects. cbn [delivered q_content q_headers]. destruct (m_content m); [unfold blen in L2; cbn in L2; lia|]. cbn [beqb negb andb]. reflexivity. }
      rewrite X. apply (V_content _ (m_head m) part (blen (m_content m))); [|reflexivity|exact A|unfold max_content; lia].
      split; [exact W|]. split; [unfold max_head; lia|]. eauto.
    + left. destruct (app_prefix _ _ _ _ E L2) as (x & ->). exists x. now rewrite app_assoc.
Qed.
Lemma verdict_refused m rest z y s : wf_msg m -> rest ++ z = wire m ++ y -> ~ Refusable rest s.
Proof.
  intros W E R. pose proof (V_refuse _ _ R) as V. assert (Nc : continue_text <> refusal s) by (unfold continue_text, refusal; intros X; discriminate).
  destruct (next_bytes m rest z y W E) as [(x & Ex)|[V'|V']].
  - pose proof (Verdict_fun _ _ _ V (V_ready _ _ _ W Ex)) as X. apply (f_equal announced) in X. rewrite announced_interim in X. discriminate.
  - pose proof (Verdict_fun _ _ _ V V') as X. discriminate.
  - pose proof (Verdict_fun _ _ _ V V') as X. unfold interim in X. destruct (expects _); [|discriminate]. injection X as X. congruence.
Qed.

Lemma written_app a b : written (a ++ b) = written a ++ written b.
Proof. induction a as [|[] a IH]; cbn [written app]; auto. now rewrite IH, app_assoc. Qed.
Lemma Dialogue_split h a b L : Dialogue h (a ++ b) L -> exists La Lb, L = La ++ Lb /\ Dialogue h a La.
Proof.
  revert L. induction b as [|r b IH] using List.rev_ind; intros L D.
  - rewrite app_nil_r in D. exists L, []. now rewrite app_nil_r.
  - rewrite app_assoc in D. inversion D as [E|rs l r' e D' A E]; [now apply app_cons_not_nil in E|]. apply app_inj_tail in E as [-> ->].
    destruct (IH _ D') as (La & Lb & -> & Da). exists La, (Lb ++ e). now rewrite app_assoc.
Qed.
Lemma Dialogue_next h a r b L : Dialogue h (a ++ r :: b) L ->
  exists La e Lb, L = La ++ e ++ Lb /\ Dialogue h a La /\ Answered (h (a ++ [r])) r true e.
Proof.
  change (r :: b) with ([r] ++ b). rewrite app_assoc. intros D. destruct (Dialogue_split _ _ _ _ D) as (L1 & Lb & -> & D1).
  inversion D1 as [E|rs l r' e D' A E]; [now apply app_cons_not_nil in E|]. apply app_inj_tail in E as [-> ->].
  exists l, e, Lb. now rewrite app_assoc.
Qed.
Lemma written_answered g q k e : Answered g q k e -> exists y, written e = written (interim q) ++ y.
Proof. intros [hd _ _]. rewrite written_app. eauto. Qed.

Section Srv.
Variable h : handler.
Record Srv (s : conn) (sk : list frame) : Prop := mkSrv { sv_r : reached s sk; sv_k : K h s sk; sv_n : Forall no_content sk }.

(* the bytes of the requests ms are coming in: this is what was and will be written *)
Theorem foretold s sk ms L z : Srv s sk -> Forall wf_msg ms -> Dialogue h (map delivered ms) L -> arrived s ++ z = concat (map wire ms) ->
  exists F, written L = written (log s) ++ F.
Proof.
  intros [R HK _] W D E. pose proof (K_account h _ _ R HK) as AC. remember (log s) as lg eqn:Elg. destruct AC as [ms1 rest l t e Ea W1 D1 Rm En].
  assert (We : written e = []) by (destruct En; reflexivity). rewrite !written_app, We, app_nil_r.
  rewrite Ea, <- app_assoc in E.
  assert (X : exists more, Forall wf_msg more /\ map delivered ms = map delivered ms1 ++ map delivered more /\ rest ++ z = concat (map wire more)).
  { rewrite <- (app_nil_r (concat (map wire ms))) in E. destruct (stream_cut _ _ _ _ W1 W E) as [(more & F & M & Er)|(more & F & M & Er)].
    - exists more. rewrite app_nil_r in Er. auto.
    - destruct more as [|m more]; [|inversion_clear F; cbn [map concat] in Er; symmetry in Er; apply app_eq_nil in Er as [Er _]; apply app_eq_nil in Er as [Er _]; now apply wire_ne in Er].
      exists []. cbn [map concat app] in *. rewrite app_nil_r in M. rewrite M, app_nil_r. auto. }
  destruct X as (more & Wm & M & Er). rewrite M in D.
  destruct Rm as [|hd n Sh An Hn Sy|m x Wx Ex|m x e1 Wx Ex A|st Rf].
  - destruct (Dialogue_split _ _ _ _ D) as (La & Lb & -> & Da). rewrite (Dialogue_uniq _ _ _ D1 _ Da), written_app. cbn [written]. rewrite app_nil_r. eauto.
  - destruct more as [|m more].
    { cbn [map concat] in Er. apply app_eq_nil in Er as [-> _]. destruct Sh as (_ & _ & x & Sh). symmetry in Sh. apply app_eq_nil in Sh as [Sh _]. unfold head_text in Sh. destruct (hd_method hd); discriminate. }
    cbn [map concat] in Er, D. inversion_clear Wm as [|? ? Wm1 _]. destruct (Dialogue_next _ _ _ _ _ D) as (La & e1 & Lb & -> & Da & Ae).
    rewrite (Dialogue_uniq _ _ _ D1 _ Da), !written_app. destruct (written_answered _ _ _ _ Ae) as (y & ->).
    destruct Sh as (Wh & Sz & x & Ex). unfold wire in Er. rewrite Ex, <- !app_assoc in Er. destruct Wm1 as [Wh' Sz' A' Mx']. apply head_cut in Er as (Eh & _); auto.
    pose proof (announced_text _ _ _ _ Wh Wh' Eh An A') as EA.
    assert (H : spec_headers hd = spec_headers (m_head m)) by (pose proof (f_equal q_headers (delivered_text _ _ [] Wh Wh' Eh)) as H; exact H).
    unfold interim, expects. cbn [delivered q_content q_headers]. rewrite <- H, Sy. destruct (m_content m); [unfold blen in EA; cbn in EA; lia|]. cbn [beqb negb andb written].
    rewrite !app_nil_r. exists (y ++ written Lb). rewrite <- !app_assoc. reflexivity.
  - destruct more as [|m' more]; [cbn [map concat] in Er; apply app_eq_nil in Er as [-> _]; symmetry in Ex; apply app_eq_nil in Ex as [Ex _]; now apply wire_ne in Ex|].
    cbn [map concat] in Er, D. inversion_clear Wm as [|? ? Wm1 _]. rewrite Ex, <- app_assoc in Er. apply wire_cut in Er as (_ & Ed & _); auto. rewrite <- Ed in D.
    destruct (Dialogue_next _ _ _ _ _ D) as (La & e1 & Lb & -> & Da & Ae).
    rewrite (Dialogue_uniq _ _ _ D1 _ Da), !written_app. destruct (written_answered _ _ _ _ Ae) as (y & ->). cbn [written]. rewrite app_nil_r.
    exists (y ++ written Lb). rewrite <- !app_assoc. reflexivity.
  - destruct more as [|m' more]; [cbn [map concat] in Er; apply app_eq_nil in Er as [-> _]; symmetry in Ex; apply app_eq_nil in Ex as [Ex _]; now apply wire_ne in Ex|].
    cbn [map concat] in Er, D. inversion_clear Wm as [|? ? Wm1 _]. rewrite Ex, <- app_assoc in Er. apply wire_cut in Er as (_ & Ed & _); auto. rewrite <- Ed in D.
    destruct (Dialogue_next _ _ _ _ _ D) as (La & e2 & Lb & -> & Da & Ae). destruct (Answered_uniq _ _ _ _ _ _ A Ae) as (_ & X). discriminate.
  - exfalso. destruct more as [|m' more].
    + cbn [map concat] in Er. apply app_eq_nil in Er as [-> _]. eapply (verdict_refused msg1 [] (wire msg1) []); [exact msg1_wf| |eauto]. now rewrite app_nil_r.
    + cbn [map concat] in Er. inversion_clear Wm as [|? ? Wm1 _]. eapply (verdict_refused m'); eauto.
Qed.

(** ** No fault outside of initialize() but those excluded before *)
Definition nosn (g : cfg) : Prop := match g with UB SharedNullWrite _ => False | _ => True end.
Ltac ns := cbv zeta; repeat match goal with
  | |- nosn (Run _ _) => exact Logic.I
  | |- nosn (UB _ _) => exact Logic.I
  | |- nosn (if ?b then _ else _) => destruct b
  | |- nosn (match ?x with _ => _ end) => destruct x
  | H : forall c, nosn (?k c) |- nosn (?k _) => apply H
  end; auto.
Lemma ns_write b c k : (forall c, nosn (k c)) -> nosn (dev_write b c k).
Proof. intros H. unfold dev_write. ns. Qed.
Section Ns.
Variable stk : list frame.
Variable k : conn -> cfg.
Hypothesis Hk : forall c, nosn (k c).
Lemma ns_flush c s' k' : (forall c, nosn (k' c)) -> nosn (flush c s' k').
Proof. intros H. unfold flush. ns. Qed.
Lemma ns_closed c : nosn (toClosed c stk k). Proof. unfold toClosed. ns. Qed.
Lemma ns_drain_tail c : nosn (drain_tail c stk k). Proof. unfold drain_tail. destruct (_ && _); auto. apply ns_closed. Qed.
Lemma ns_ready c : nosn (toSendingHeaders c stk k). Proof. unfold toSendingHeaders. ns. Qed.
Lemma ns_completed c : nosn (toCompleted c stk k). Proof. unfold toCompleted. ns. Qed.
End Ns.
Lemma ns_drain stk k c : (forall c, nosn (k c)) -> nosn (drain c stk k).
Proof. intros H. unfold drain. destruct (negb _); auto. apply ns_flush. intros. now apply ns_drain_tail. Qed.
Lemma ns_flushing stk k c : (forall c, nosn (k c)) -> nosn (toFlushing c stk k).
Proof. intros H. unfold toFlushing. destruct (cst_eqb _ _); auto. apply ns_drain. intros. apply H. Qed.
Lemma ns_error code stk k c : (forall c, nosn (k c)) -> nosn (writeRequestErrorResponse code c stk k).
Proof. intros H. unfold writeRequestErrorResponse. destruct (cst_eqb _ _); auto. cbv zeta. apply ns_write. intros. now apply ns_flushing. Qed.
Lemma ns_check stk k c : (forall c, nosn (k c)) -> nosn (check_content c stk k).
Proof. intros H. unfold check_content. destruct (_ <=? _); auto. now apply ns_ready. Qed.
Lemma ns_content stk k c : (forall c, nosn (k c)) -> nosn (toReceivingContent c stk k).
Proof.
  intros H. unfold toReceivingContent. cbv zeta.
  assert (N : forall c, nosn (let c2 := reserve (body_start (tp (ps c)) + cl c + 1) c in if in_ok c2 then check_content (read_input c2) stk k else UB NullInput c2)).
  { intros c0. cbv zeta. destruct (in_ok _); [now apply ns_check|exact Logic.I]. }
  cbv zeta in N.
  match goal with |- nosn (let '(_, _) := ?x in _) => destruct x as [c1 ok] end.
  destruct (cl c1 <? 0); [now apply ns_error|]. destruct (_ || _); [now apply ns_error|]. destruct (0 <? cl c1); [|now apply ns_ready].
  destruct (asciiEqualsCI_lower _ _); [apply ns_write; exact N|apply N].
Qed.
Lemma ns_process stk k c : (forall c, nosn (k c)) -> nosn (processInput c stk k).
Proof.
  intros H. unfold processInput. destruct (cst_eqb _ ReceivingHeaders).
  - destruct (negb _); [exact Logic.I|]. cbv zeta. destruct (_ || _); [now apply ns_error|]. destruct (Thin.is_finished _); [now apply ns_content|auto].
  - destruct (cst_eqb _ ReceivingContent); [|auto]. destruct (negb _); [exact Logic.I|]. now apply ns_check.
Qed.
Lemma ns_flushc stk k c : (forall c, nosn (k c)) -> nosn (flushc_tail c stk k).
Proof. intros. now apply ns_process. Qed.
Lemma ns_ctail stk k c : (forall c, nosn (k c)) -> nosn (completed_tail c stk k).
Proof. intros H. unfold completed_tail. cbv zeta. destruct (keepalive _); [apply ns_flush; intros; now apply ns_flushc|now apply ns_flushing]. Qed.
Lemma ns_sending stk k c : (forall c, nosn (k c)) -> nosn (toSendingContent c stk k).
Proof. intros H. unfold toSendingContent. destruct (cst_eqb _ _); auto. cbv zeta. destruct (_ || _); auto. apply ns_completed. intros; apply H. Qed.
Lemma ns_headers code hs stk k c : (forall c, nosn (k c)) -> nosn (writeHeaders code hs c stk k).
Proof.
  intros H. unfold writeHeaders. destruct (negb _); auto. cbv zeta.
  match goal with |- nosn (let '(_, _) := ?x in _) => destruct x as [chunk te] end.
  match goal with |- nosn (match ?x with Some _ => _ | None => _ end) => destruct x as [ll|] end; [|exact Logic.I].
  apply ns_write. intros. now apply ns_sending.
Qed.
Lemma ns_wcontent x stk k c : (forall c, nosn (k c)) -> nosn (writeContent x c stk k).
Proof.
  intros H. unfold writeContent. destruct (negb _); auto. destruct (_ =? _); auto. destruct (_ && _); auto. destruct (_ && _); auto. cbv zeta.
  assert (F : forall c, nosn (if rsent c =? rlen c then toCompleted c stk k else k c)) by (intros c0; destruct (_ =? _); auto; now apply ns_completed).
  destruct (chunked _); [|now apply ns_write]. destruct (appendNumber _ _); [|exact Logic.I]. repeat (apply ns_write; intros). apply F.
Qed.
Lemma ns_rtail x stk k c : (forall c, nosn (k c)) -> nosn (resp_tail x c stk k).
Proof. intros H. unfold resp_tail. destruct x; auto. destruct (_ && _); [exact Logic.I|]. destruct (is_head _); auto. now apply ns_wcontent. Qed.
Lemma ns_response code hs x stk k c : (forall c, nosn (k c)) -> nosn (writeResponse code hs x c stk k).
Proof. intros H. unfold writeResponse. destruct (negb _); auto. apply ns_headers. intros. now apply ns_rtail. Qed.
Lemma ns_end stk k c : (forall c, nosn (k c)) -> nosn (endContent c stk k).
Proof.
  intros H. unfold endContent. destruct (negb _); auto. destruct (_ <=? _); auto. destruct (chunked c); [apply ns_write; intros|]; now apply ns_completed.
Qed.
Lemma ns_resume stk : forall c, nosn (resume stk c).
Proof.
  induction stk as [|f t IH]; intros c; [exact Logic.I|]. destruct f; cbn [resume]; auto; [exact Logic.I|now apply ns_ctail|now apply ns_flushc|now apply ns_drain_tail|now apply ns_rtail].
Qed.
Lemma ns_step c stk a : resets a = false -> nosn (step (Run c stk) a).
Proof.
  intros R. pose proof (ns_resume stk) as H. destruct a as [o| |b|n|n]; cbn [step].
  - destruct o; try discriminate; cbn [do_op]; [now apply ns_process|now apply ns_response|now apply ns_headers|now apply ns_wcontent|now apply ns_end|now apply ns_closed|now apply ns_flush|now apply ns_drain].
  - destruct stk as [|[] t]; try exact Logic.I. apply ns_resume.
  - destruct (_ && _); exact Logic.I.
  - exact Logic.I.
  - cbv zeta. destruct (drain_conn _); [now apply ns_drain|exact Logic.I].
Qed.

(** ** Steps of the server *)
Lemma srv_step s sk a : Srv s sk -> polite s sk a -> obeys h s a -> 
  (forall r, In r (announced (log s)) -> q_method r = lit "HEAD" -> forall rs, g_content (h (rs ++ [r])) = []) ->
  exists s' sk' e, step (Run s sk) a = Run s' sk' /\ Srv s' sk' /\ log s' = log s ++ e /\
    (match a with AArrive b => arrived s' = arrived s ++ b \/ arrived s' = arrived s | _ => arrived s' = arrived s end).
Proof.
  intros [R HK N] P O NH.
  assert (Rs : resets a = false) by (destruct a as [[]| | | |]; auto; contradiction).
  assert (Sn : sane s a).
  { destruct a as [[d| |code hs content|code hs| | | | |]| | | |]; cbn [sane]; auto. intros S. cbn [obeys] in O. destruct (O S) as (G & L & B).
    destruct content as [|b content]; [now left|]. right. intros r len Cu RL. split.
    - intros X. destruct Cu as (rs & An). assert (C : g_content (h (rs ++ [r])) = []) by (apply NH; [rewrite An; apply in_app_iff; right; now left|exact X]).
      rewrite <- An, <- G in C. discriminate.
    - assert (RL0 : RespLength (mkAns code hs (blen (b :: content))) (blen (b :: content))) by (apply (RL_size (mkAns code hs (blen (b :: content)))); exact L).
      apply RespLength_fun in RL, RL0. assert (len = blen (b :: content)) as -> by congruence. rewrite blen_cons. pose proof (blen_nonneg content). lia. }
  pose proof (step_sane s sk a R N P Sn) as S. pose proof (ns_step s sk a Rs) as X. pose proof (step_log (Run s sk) a Rs) as (e & Le).
  assert (Ar : match a with AArrive b => arrived (gconn (step (Run s sk) a)) = arrived s ++ b \/ arrived (gconn (step (Run s sk) a)) = arrived s | _ => arrived (gconn (step (Run s sk) a)) = arrived s end).
  { assert (T : settled sk) by (eapply reached_settled'; eauto).
    destruct a as [o| |b|n|n]; cbn [step].
    - assert (Hi : ConnStep.is_init o = false) by (destruct o; auto). now destruct (adds_op (fun _ => True) o s sk) as (_ & A & _).
    - destruct sk as [|[] t]; try reflexivity. now destruct (adds_resume (fun _ => True) Logic.I Logic.I (fun _ => Logic.I) Logic.I (fun _ => Logic.I) Logic.I t (or_intror (fun _ => Logic.I)) s) as (_ & A & _).
    - destruct (_ && _); cbn [gconn]; auto.
    - reflexivity.
    - cbv zeta. destruct (drain_conn _); [|reflexivity].
      destruct (adds_drain (fun _ => True) Logic.I Logic.I sk (resume sk) (set_pending (pending s - Z.max 0 (Z.min n (pending s))) s)) as (_ & A & _); [|exact A]. apply adds_resume; auto. }
  destruct (step (Run s sk) a) as [s' sk'|r s'] eqn:E.
  - exists s', sk', e. cbn [gconn] in *. destruct S as (S1 & S2). split; [reflexivity|]. split; [constructor; auto; exact (serve_step h s sk a s' sk' R HK P O E)|]. auto.
  - subst r. contradiction.
Qed.
Lemma announced_foretold s sk ms z : Srv s sk -> Forall wf_msg ms -> arrived s ++ z = concat (map wire ms) ->
  exists more, map delivered ms = announced (log s) ++ more.
Proof.
  intros [R _ _] W E. destruct (C01_requests_from_stream s sk R) as (ms1 & rest & W1 & A & An). rewrite A, <- app_assoc, <- (app_nil_r (concat (map wire ms))) in E. rewrite An.
  destruct (stream_cut _ _ _ _ W1 W E) as [(more & F & M & _)|(more & F & M & Er)]; [eauto|].
  destruct more as [|m more]; [|inversion_clear F; cbn [map concat] in Er; symmetry in Er; apply app_eq_nil in Er as [Er _]; apply app_eq_nil in Er as [Er _]; now apply wire_ne in Er].
  exists []. cbn [map] in M. now rewrite M, !app_nil_r.
Qed.
(** all has arrived and was read, and the server waits for more: all was answered *)
Lemma srv_quiet s sk ms L : Srv s sk -> Forall wf_msg ms -> Dialogue h (map delivered ms) L -> arrived s = concat (map wire ms) ->
  st s = ReceivingHeaders \/ st s = ReceivingContent -> avail s = [] -> log s = L.
Proof.
  intros [R HK _] W D A Hs Ha. destruct (reached_idle _ _ R Hs Ha) as (ms1 & rest & l1 & new & W1 & A1 & X & LG & V & N).
  assert (KL : Kl h s) by (unfold K in HK; destruct Hs as [Hs|Hs]; rewrite Hs in HK; exact HK). destruct KL as (rs & l2 & t & E2 & D2 & Wt).
  assert (C : l1 = l2 /\ new = t).
  { apply done_cut; [eapply Exchanges_end; eauto|eapply Dialogue_end; eauto|apply talk_nodone; eapply Verdict_talk; eauto|now apply writes_nodone|congruence]. }
  destruct C as [-> ->]. assert (Er : rs = map delivered ms1) by (rewrite <- (announced_exchanges _ _ X), (Dialogue_announced _ _ _ D2); reflexivity). subst rs.
  rewrite A, <- (app_nil_r (concat (map wire ms))) in A1.
  assert (Q : map delivered ms1 = map delivered ms /\ rest = []).
  { destruct (stream_cut _ _ _ _ W W1 A1) as [(more & F & M & Er)|(more & F & M & Er)].
    - destruct more as [|m more]; [cbn [map concat app] in *; rewrite app_nil_r in M; auto|]. exfalso. inversion_clear F. cbn [map concat] in Er. symmetry in Er.
      apply app_eq_nil in Er as [Er _]. apply app_eq_nil in Er as [Er _]. now apply wire_ne in Er.
    - destruct more as [|m more]; [cbn [map concat app] in *; rewrite app_nil_r in *; auto|]. exfalso. inversion_clear F. cbn [map concat] in Er. rewrite app_nil_r in Er. eapply N; eauto. }
  destruct Q as [Q ->]. rewrite Q in D2. rewrite (Dialogue_uniq _ _ _ D2 _ D) in LG.
  assert (T : t = []).
  { destruct (next_bytes msg1 [] (wire msg1) [] msg1_wf) as [(x & E)|[V'|V']]; [now rewrite app_nil_r|symmetry in E; apply app_eq_nil in E as [E _]; now apply (wire_ne _ msg1_wf) in E|exact (Verdict_fun _ _ _ V V')|].
    assert (I0 : interim (delivered msg1) = []) by reflexivity. rewrite I0 in V'. exact (Verdict_fun _ _ _ V V'). }
  rewrite LG, T, app_nil_r. reflexivity.
Qed.
End Srv.
