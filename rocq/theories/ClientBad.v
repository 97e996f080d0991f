(** What HttpClient makes of an invalid response. *)
From Verif Require Import Bytes TextSpec ByteHelpers Helpers CIProofs Joyent RespParser RespSpec RespInv RespSplit RespFeed RespBody RespWhole RespBound.
From Verif Require Import Client ClientSpec ClientInv ClientSim ClientRecv.
Open Scope Z_scope.

Definition failed (r : rparser) : Prop := h_errno (r_h r) <> HPE_OK /\ h_errno (r_h r) <> HPE_PAUSED.

Section Stream.
  Variables (q0 : rparser) (S : bytes) (rb : rparser) (nb : Z).
  Hypotheses (R : ready q0) (NS : S <> []) (EB : inject q0 S = Some (rb, nb)) (HB : hasError rb = true).

  Lemma bad_after D q : After q0 D q -> UOk q /\ h_errno (r_h q) = HPE_OK.
  Proof.
    intros [[-> ->]|(N & E & He)].
    - split; [apply (rd_u _ R)|apply (rd_e _ R)].
    - destruct (inject_total q0 D (rd_u _ R) N) as (r1 & n & E1 & U1 & _). rewrite E in E1. injection E1 as <- <-.
      split; [exact U1|]. now apply UOk_ok.
  Qed.
  Lemma bad_end D q : After q0 D q -> D <> S.
  Proof. intros [[-> ->]|(N & E & He)] ES; [now apply NS|]. subst D. congruence. Qed.

  Lemma bad_rest D q y : After q0 D q -> S = D ++ y -> y <> [] -> exists b n, inject q y = Some (b, n) /\ hasError b = true.
  Proof.
    intros A E Ny. destruct A as [[-> ->]|(N & E1 & He)]; [cbn [app] in E; subst y; eauto|].
    destruct (cut_inject q0 D y (rd_u _ R) (rd_e _ R) N Ny) as (r1 & n1 & X1 & X2). rewrite E1 in X1. injection X1 as <- <-.
    rewrite <- E, EB in X2. destruct X2 as [(_ & _ & _ & xa & xb & n2 & X2 & X3 & HR)|X2]; [|congruence].
    injection X2 as <- _. exists xb, n2. split; [exact X3|]. unfold hasError. destruct HR as (HR & _). now rewrite <- HR.
  Qed.

  Lemma runpause_err r : hasError (rset_parsing false (runpause r)) = true -> failed r.
  Proof.
    unfold hasError, failed, runpause. destruct (h_errno (r_h r)) eqn:Q; rsimp; rewrite ?Q; intros H; try discriminate; split; discriminate.
  Qed.
  Lemma not_blank u v : ~ Blank (u ++ v) -> ~ Blank u.
  Proof. intros N (x & y & H). apply N. exists x, (y ++ v). destruct H as [-> | ->]; [left|right]; rewrite <- !app_assoc; reflexivity. Qed.
  Lemma bad_silent D q d z r2 er : After q0 D q -> d <> [] -> D ++ d ++ z = S -> ~ Blank S ->
    J (rset_parsing true q) (jstart d (r_h q)) = Some (r2, er) -> exists lg, r_log r2 = r_log q ++ lg /\ silent lg.
  Proof.
    intros A Nd E NBl EJ. destruct (bad_after D q A) as [U O]. rewrite <- E, app_assoc in NBl. apply not_blank in NBl.
    assert (H0 : Headed (r_h q0) [] []) by (split; [unfold in_head; now rewrite (rd_s _ R)|unfold endings; now rewrite (rd_s _ R)]).
    assert (HH : Headed (r_h q) [] D).
    { destruct A as [[-> ->]|(N & E1 & He)]; [exact H0|]. apply not_blank in NBl.
      assert (E0 : hasError q0 = false) by (unfold hasError; now rewrite (rd_e _ R)).
      exact (proj2 (proj2 (inject_head q0 D q _ [] (rd_u _ R) E0 H0 N NBl E1 He))). }
    assert (HJ : JOk (r_h (rset_parsing true q)) (jstart d (r_h q))) by (rsimp; apply jstart_ok; auto; apply (uo_h _ U); auto).
    assert (HH' : Headed (r_h (rset_parsing true q)) (l_data (jstart d (r_h q))) D).
    { destruct HH as (H1 & H2). split; [exact H1|]. unfold endings in *. rsimp. destruct (h_state (r_h q)); auto. destruct H2 as [H2|(w' & t & _ & H2)]; [now left|discriminate]. }
    exact (J_silent _ _ _ r2 er D (le_n _) HJ HH' NBl EJ).
  Qed.
  Lemma bad_next D q d z : After q0 D q -> d <> [] -> D ++ d ++ z = S ->
    exists r2 er, J (rset_parsing true q) (jstart d (r_h q)) = Some (r2, er) /\
      (~ Blank S -> exists lg, r_log r2 = r_log q ++ lg /\ silent lg) /\
      (er = [] /\ h_errno (r_h r2) = HPE_OK /\ After q0 (D ++ d) (rset_parsing false r2) \/ failed r2).
  Proof.
    intros A Nd E. destruct (bad_after D q A) as [U O].
    destruct (inject_J q d U O Nd) as (r2 & er & EJ & EI & HO & HP). exists r2, er. split; [exact EJ|].
    split; [intros NBl; eapply bad_silent; eauto|].
    destruct (bad_rest D q (d ++ z) A) as (b & n & Eb & Hb); [congruence|destruct d; [congruence|discriminate]|].
    destruct z as [|z0 z1]; [right; rewrite app_nil_r, EI in Eb; injection Eb as <- _; now apply runpause_err|].
    set (z := z0 :: z1) in *. assert (Nz : z <> []) by discriminate.
    destruct (cut_inject q d z U O Nd Nz) as (r1 & n1 & X1 & [(He & Hn & (lg & L1 & L2) & _)|X2]); rewrite EI in X1; injection X1 as <- <-.
    2:{ right. rewrite Eb in X2. injection X2 as -> _. now apply runpause_err. }
    left. assert (O2 : h_errno (r_h r2) = HPE_OK).
    { destruct (h_errno (r_h r2)) eqn:Q; auto; [|exfalso..].
      all: try (unfold hasError in He; rsimp in *; destruct (runpause_h r2) as (_ & Y2 & _); rewrite Y2, Q in He by congruence; discriminate).
      exfalso. assert (HJ : JOk (r_h (rset_parsing true q)) (jstart d (r_h q))) by (rsimp; apply jstart_ok; auto; apply (uo_h _ U); auto).
      destruct (J_paused _ _ _ _ _ (le_n _) HJ EJ Q) as [lg' L]. rsimp in *. rewrite runpause_log, L in L1. apply app_inv_head in L1. subst lg.
      apply L2, in_app_iff. right. now left. }
    split; [now apply HO|]. split; [exact O2|].
    assert (RP : runpause r2 = r2) by (destruct (runpause_h r2) as (_ & Y2 & _); unfold runpause; now rewrite O2). rewrite RP in *.
    rewrite (HO O2) in *. replace (blen d - blen []) with (blen d) in * by (change (blen []) with 0; lia).
    right. split; [destruct D; [exact Nd|discriminate]|]. split; [|exact He].
    destruct A as [[-> ->]|(N & E1 & HeD)]; [exact EI|].
    destruct (cut_inject q0 D d (rd_u _ R) (rd_e _ R) N Nd) as (r1 & n1 & X1 & X2). rewrite E1 in X1. injection X1 as <- <-.
    destruct X2 as [(_ & _ & _ & xa & xb & n2 & X2 & X3 & HR)|X2].
    - rewrite EI in X3. injection X3 as <- <-. rewrite X2, blen_app. f_equal. f_equal. apply HR. left. destruct HR as (HR & _). rewrite HR. exact O2.
    - exfalso. assert (ND : D ++ d <> []) by (destruct D; [congruence|discriminate]).
      destruct (cut_inject q0 (D ++ d) z (rd_u _ R) (rd_e _ R) ND Nz) as (r1 & n1 & Y1 & Y2). rewrite X2 in Y1. injection Y1 as <- <-.
      destruct Y2 as [(_ & Y2 & _)|Y2].
      + rewrite blen_app in Y2. destruct d; [congruence|]. rewrite blen_cons in Y2. pose proof (blen_nonneg d). lia.
      + rewrite <- app_assoc, E, EB in Y2. congruence.
  Qed.
End Stream.

(** ** The client *)
Definition ends (o : cobs) : bool := match o with CFinished _ _ _ _ => true | _ => false end.
Section Bad.
  Variables (zlib : bool) (gunzip : list bytes -> bytes -> bytes) (parse_url : bytes -> url).
  Variables (req : creq) (L0 : list cobs).
  Variables (q0 : rparser) (S : bytes) (rb : rparser) (nb : Z).
  Hypothesis NHB : head_method (cr_method req) = false \/ ~ Blank S.
  Hypotheses (R : ready q0) (NS : S <> []) (EB : inject q0 S = Some (rb, nb)) (HB : hasError rb = true).

  Definition Quietly (c : client) : Prop := exists obs, c_log c = L0 ++ obs /\ existsb ends obs = false.
  Definition MidB (F : bytes) (l : locals) (c : client) : Prop :=
    exists q r2 er, sim (c_p c) q /\ JOk (r_h q) l /\ NB l /\ J q l = Some (r2, er) /\ r_parsing (c_p c) = true /\
      (~ Blank S -> exists lg, r_log r2 = r_log q ++ lg /\ silent lg) /\ ((exists D, er = [] /\ h_errno (r_h r2) = HPE_OK /\ After q0 D (rset_parsing false r2) /\ D ++ c_in c ++ F = S) \/ failed r2).
  Inductive Fails (F : bytes) : ccfg -> Prop :=
  | Fa_idle c D q : Base req c -> Quietly c -> r_parsing (c_p c) = false -> After q0 D q -> sim (c_p c) q -> D ++ c_in c ++ F = S -> Fails F (CRun c [])
  | Fa_headers c l er ph : head_method (cr_method req) = false -> Base req c -> Quietly c -> MidB F l c -> Fails F (CRun c [KcSig SgHeaders; KcHeaders l er ph])
  | Fa_content c l er ph : Base req c -> Quietly c -> MidB F l c -> Fails F (CRun c [KcSig SgContent; KcParse l er ph])
  | Fa_done c obs code hs b : c_pending c = false -> c_log c = L0 ++ obs ++ [CFinished ResponseInvalidError code hs b] -> existsb ends obs = false ->
      Fails F (CRun c [KcSig SgFinished; KcRead]).

  Lemma baseB_p v c : Base req c -> Base req (cset_p v c).
  Proof. intros [A B C D]. constructor; clsimp; auto. Qed.

  Lemma parse_bad F l ph c : Base req c -> Quietly c -> MidB F l c ->
    Fails F (parse gunzip l ph c [] (finish gunzip ph [] (cresume zlib gunzip []))).
  Proof.
    intros B Qt (q & r2 & er & Sm & HJ & HN & EJ & Pa & Si & Out).
    pose proof (parse_sim _ _ _ Sm HJ HN) as X. rewrite EJ in X. unfold parse.
    destruct (prun (pfuel l) (c_p c) l) as [p' er'|cb p' l' er'|]; cbn [SimRes] in X; [| |contradiction].
    - destruct X as (q' & s & E & Q & NP). injection E as -> <-.
      destruct Out as [(D & -> & O & Af & Ein)|[F1 F2]].
      + assert (Op : h_errno (r_h p') = HPE_OK) by (rewrite (si_h _ _ (qu_sim _ _ _ _ _ Q)); exact O).
        rewrite finish_cont; clsimp; auto; [|apply (ba_pending _ _ B)].
        apply (Fa_idle F _ D (rset_parsing false q')); clsimp; auto; [now apply baseB_p, baseB_p|]. apply sim_parsing, (qu_sim _ _ _ _ _ Q).
      + assert (Op : hasError p' = true).
        { unfold hasError. rewrite (si_h _ _ (qu_sim _ _ _ _ _ Q)). destruct (h_errno (r_h q')); congruence. }
        assert (RP : injected (cset_p p' c) = cset_p (rset_parsing false p') c).
        { unfold injected. clsimp. assert (runpause p' = p') as ->; [|reflexivity]. unfold runpause. unfold hasError in Op. now destruct (h_errno (r_h p')). }
        assert (CE : forall k, Fails F (check_error (cset_p (rset_parsing false p') c) [] k)).
        { intros k. unfold check_error. clsimp. replace (hasError (rset_parsing false p')) with true by (symmetry; exact Op).
          unfold emit_finished. destruct Qt as (obs & Lo & Fo). eapply (Fa_done F _ obs); [reflexivity| |exact Fo]. clsimp. unfold dev_close. clsimp. rewrite Lo, <- app_assoc. reflexivity. }
        destruct ph; cbn [finish]; unfold after1, after2; rewrite RP; cbn zeta; auto.
        clsimp. rewrite (ba_pending _ _ B). cbn [negb]. replace (hasError (rset_parsing false p')) with true by (symmetry; exact Op). apply CE.
    - destruct X as (q' & s & Q & HJ' & HN' & X).
      assert (Pp : r_parsing p' = true) by (rewrite (qu_p _ _ _ _ _ Q); exact Pa).
      assert (Loud : forall e q1, e <> [] -> ~ In RBegin e -> r_log q1 = r_log q' ++ e -> (exists e2, r_log r2 = r_log q1 ++ e2) -> ~ Blank S -> False).
      { intros e q1 Ne Fe L1 (e2 & L2) NBl. destruct (Si NBl) as (lg & Lg & Sl). rewrite L1, (qu_log _ _ _ _ _ Q), Lg, <- !app_assoc in L2. apply app_inv_head in L2. subst lg.
        rewrite !silent_app in Sl. destruct Sl as (_ & Sl & _). destruct e as [|z e]; [congruence|]. inversion Sl; subst. apply Fe. now left. }
      destruct cb as [|y|y| |y|]; try contradiction.
      + destruct X as [Nst EJ'].
        assert (LB : ~ Blank S -> False).
        { apply (Loud [RHeaders (h_major (r_h (pushHeader q'))) (h_minor (r_h (pushHeader q'))) (h_status (r_h (pushHeader q'))) (r_headers (pushHeader q'))] (on_cb CbHeaders q')); [discriminate|intros [Y|[]]; discriminate| |eapply J_log; eauto].
          cbn [on_cb]. unfold rlog. rsimp. unfold pushHeader. destruct (r_lwv q'); reflexivity. }
        assert (NH : head_method (cr_method req) = false) by (destruct NHB as [NH|NH]; [exact NH|destruct (LB NH)]).
        pose proof (sim_push _ _ (qu_sim _ _ _ _ _ Q)) as SP. cbn zeta. apply Fa_headers; [exact NH| | |].
        * destruct B as [B1 B2 B3 B4]. constructor; clsimp; auto.
        * destruct Qt as (obs & Lo & Fo). eexists. clsimp. rewrite Lo, <- app_assoc. split; [reflexivity|]. rewrite existsb_app, Fo. reflexivity.
        * exists (on_cb CbHeaders q'), r2, er. clsimp. split; [cbn [on_cb]; now apply sim_log|]. split; [rewrite on_cb_h by discriminate; exact HJ'|].
          split; [exact HN'|]. split; [auto|]. split; [unfold pushHeader; destruct (r_lwv p'); exact Pp|]. split; [intros NBl; destruct (LB NBl)|exact Out].
      + destruct X as [Ny EJ'].
        assert (LB : ~ Blank S -> False).
        { apply (Loud (map RByte y) (on_cb (CbBody y) q')); [destruct y; [congruence|discriminate]| |reflexivity|eapply J_log; eauto].
          intros Y. apply in_map_iff in Y as (w & Y & _). discriminate. }
        destruct (match c_dec c with None => _ | Some _ => _ end) as [b' d]. cbn zeta. apply Fa_content.
        * destruct B as [B1 B2 B3 B4]. constructor; clsimp; auto.
        * destruct Qt as (obs & Lo & Fo). eexists. clsimp. rewrite Lo, <- app_assoc. split; [reflexivity|]. rewrite existsb_app, Fo. reflexivity.
        * exists (on_cb (CbBody y) q'), r2, er. clsimp. split.
          { apply sim_content. cbn [on_cb]. destruct (qu_sim _ _ _ _ _ Q) as [S1 S2 S3 S4 S5]. constructor; rsimp; auto. }
          split; [rewrite on_cb_h by discriminate; exact HJ'|].
          split; [exact HN'|]. split; [auto|]. split; [unfold set_content; rsimp; exact Pp|]. split; [intros NBl; destruct (LB NBl)|exact Out].
      + exfalso. injection X as -> ->. cbn [on_cb] in Out.
        assert (P : h_errno (hpause (r_h q')) = HPE_PAUSED) by (apply hpause_errno; left; exact (jo_errno _ _ HJ')).
        destruct Out as [(D & _ & O & _)|[_ O]]; rsimp in *; congruence.
  Qed.

  (* changes that do not matter *)
  Record touchB (F : bytes) (c : client) (F' : bytes) (c' : client) : Prop := mkTouchB {
    tb_p : sim (c_p c') (c_p c); tb_pa : r_parsing (c_p c') = r_parsing (c_p c); tb_b : Base req c';
    tb_in : c_in c' ++ F' = c_in c ++ F; tb_log : exists o, c_log c' = c_log c ++ o /\ existsb ends o = false }.
  Lemma sim_trans p q r : sim p q -> sim q r -> sim p r.
  Proof. intros [A B C D E] [A' B' C' D' E']. constructor; congruence. Qed.
  Lemma touchB_ok F c F' c' stk : touchB F c F' c' -> c_pending c = true -> Fails F (CRun c stk) -> Fails F' (CRun c' stk).
  Proof.
    intros [T1 T2 T3 T4 (o & T5 & T6)] P V.
    assert (Qt : Quietly c -> Quietly c').
    { intros (obs & Lo & Fo). exists (obs ++ o). rewrite T5, Lo, app_assoc. split; [reflexivity|]. now rewrite existsb_app, Fo, T6. }
    assert (Md : forall l, MidB F l c -> MidB F' l c').
    { intros l (q & r2 & er & Sm & HJ & HN & EJ & Pa & Si & Out). exists q, r2, er. split; [eapply sim_trans; eauto|]. do 3 (split; [assumption|]).
      split; [congruence|]. split; [exact Si|]. rewrite T4. exact Out. }
    inversion V as [c0 D q B Q Pa Af Sm E|c0 l er ph NH B Q M|c0 l er ph B Q M|c0 obs code hs b Pn]; subst.
    - apply (Fa_idle F' c' D q); auto; [congruence|eapply sim_trans; eauto|now rewrite T4].
    - apply Fa_headers; auto.
    - apply Fa_content; auto.
    - congruence.
  Qed.
  Lemma fails_base F c stk : Fails F (CRun c stk) -> c_pending c = true -> Base req c.
  Proof. intros V P. inversion V; subst; auto. congruence. Qed.
  Lemma fails_cont F c stk : Fails F (CRun c stk) -> Cont stk (cresume zlib gunzip stk).
  Proof. intros V c'. inversion V; subst; reflexivity. Qed.

  Lemma readyRead_bad F c : Fails F (CRun c []) -> c_pending c = true -> Fails F (device_readyRead gunzip c [] (cresume zlib gunzip [])).
  Proof.
    intros V P. inversion V as [c0 D q B Q Pa Af Sm E| | |]; subst. unfold device_readyRead. rewrite P. cbn [negb].
    destruct (c_in c) as [|w ws] eqn:Ci; [exact V|]. set (inp := w :: ws) in *.
    set (room := if 0 <? c_rbuf c then _ else _). destruct (Z.leb_spec room 0) as [Hr|Hr]; [exact V|]. rewrite Pa.
    set (n := Z.to_nat (Z.min room (blen inp))).
    set (c1 := cset_p (rset_parsing true (c_p c)) (cset_dev (c_dev c) (c_unsent c) (skipn n inp) c)).
    assert (Nd : firstn n inp <> []).
    { apply firstn_pos; [|subst inp; discriminate]. subst n. assert (0 < blen inp) by (subst inp; rewrite blen_cons; pose proof (blen_nonneg ws); lia). lia. }
    assert (Ed : firstn n inp ++ skipn n inp = inp) by apply firstn_skipn.
    destruct (bad_after q0 R D q Af) as [U O].
    assert (O1 : is_ok (h_errno (r_h (c_p c1))) = true) by (subst c1; clsimp; rsimp; rewrite (si_h _ _ Sm), O; reflexivity). rewrite O1.
    destruct (bad_next q0 _ rb nb R EB HB D q (firstn n inp) (skipn n inp ++ F) Af Nd) as (r2 & er & EJ & Si & Out).
    { now rewrite (app_assoc (firstn n inp)), Ed. }
    assert (Eh : r_h (c_p c1) = r_h q) by (subst c1; clsimp; rsimp; apply (si_h _ _ Sm)). rewrite Eh.
    apply (parse_bad F _ First).
    - destruct B; subst c1; constructor; clsimp; auto.
    - destruct Q as (obs & Lo & Fo). exists obs. subst c1. clsimp. auto.
    - exists (rset_parsing true q), r2, er. split; [subst c1; clsimp; now apply sim_parsing|].
      split; [rsimp; apply jstart_ok; auto; apply (uo_h _ U); auto|]. split; [apply nb_none; reflexivity|]. split; [exact EJ|]. split; [reflexivity|].
      split; [exact Si|]. destruct Out as [(-> & O2 & A2)|Out]; [left|right; exact Out]. exists (D ++ firstn n inp). split; [reflexivity|]. split; [exact O2|]. split; [exact A2|].
      subst c1. clsimp. now rewrite <- app_assoc, (app_assoc (firstn n inp)), Ed.
  Qed.

  Lemma return_bad F c stk : Fails F (CRun c stk) -> c_pending c = true -> Fails F (cstep zlib gunzip parse_url (CRun c stk) CaReturn).
  Proof.
    intros V P. cbn [cstep]. inversion V as [c0 D q B Q Pa Af Sm E|c0 l er ph NH B Q M|c0 l er ph B Q M|c0 obs code hs b Pn]; subst.
    - exact V.
    - cbn [cresume]. unfold headers_tail. rewrite head_lower, (ba_req _ _ B), NH.
      assert (O : is_ok (h_errno (r_h (c_p c))) = true).
      { destruct M as (q & r2 & er0 & Sm & HJ & M). rewrite (si_h _ _ Sm), (jo_errno _ _ HJ). reflexivity. }
      match goal with |- context[if ?b then cset_dec (Some []) c else c] => destruct b end.
      + clsimp. rewrite O. apply parse_bad; [destruct B; constructor; clsimp; auto|exact Q|exact M].
      + rewrite O. now apply parse_bad.
    - cbn [cresume]. assert (O : is_ok (h_errno (r_h (c_p c))) = true).
      { destruct M as (q & r2 & er0 & Sm & HJ & M). rewrite (si_h _ _ Sm), (jo_errno _ _ HJ). reflexivity. }
      rewrite O. now apply parse_bad.
    - congruence.
  Qed.

  Lemma step_bad F g act bytes : Fails (bytes ++ F) g -> receiving act g -> bytes = (match act with CaArrive y => y | _ => [] end) ->
    Fails F (cstep zlib gunzip parse_url g act).
  Proof.
    intros V Q Eb. destruct g as [c stk|]; [|contradiction]. cbn [receiving] in Q. destruct Q as [P Q].
    pose proof (fails_base _ _ _ V P) as B. pose proof (fails_cont _ _ _ V) as G.
    assert (Tr : forall c', touchB (bytes ++ F) c F c' -> Fails F (CRun c' stk)) by (intros c' T; eapply touchB_ok; eauto).
    assert (TI : forall r, bytes = [] -> touchB (bytes ++ F) c F (cemit [CIgnored r] c)).
    { intros r ->. destruct B as [B1 B2 B3 B4]. constructor; clsimp; auto; [apply sim_refl|constructor; clsimp; auto|]. exists [CIgnored r]. auto. }
    assert (T0 : forall c', c_p c' = c_p c -> Base req c' -> c_in c' = c_in c ++ bytes -> c_log c' = c_log c -> touchB (bytes ++ F) c F c').
    { intros c' E1 E2 E3 E4. constructor; rewrite ?E1, ?E3, ?E4; auto using sim_refl; [now rewrite <- app_assoc|]. exists []. now rewrite app_nil_r. }
    destruct act as [o| | |y| |rem gone| |late|p]; subst bytes; cbn [app] in *.
    - cbn [cstep]. pose proof B as B0. destruct B as [B1 B2 B3 B4].
      destruct o as [r| | | |n|n]; cbn [do_cop] in *; try contradiction.
      + unfold request. rewrite P, G. apply Tr, TI. reflexivity.
      + rewrite G. apply Tr. constructor; clsimp; auto; [apply sim_content, sim_refl|constructor; clsimp; auto|exists []; now rewrite app_nil_r].
      + unfold followRedirection. destruct (redirected c); [unfold request; rewrite P, G; apply Tr, TI; reflexivity|]. rewrite G. apply Tr, T0; auto. now rewrite app_nil_r.
      + rewrite G. apply Tr, T0; clsimp; auto; [constructor; clsimp; auto|now rewrite app_nil_r].
      + rewrite G. apply Tr, T0; clsimp; auto; [constructor; clsimp; auto|now rewrite app_nil_r].
    - now apply return_bad.
    - subst stk. cbn [cstep]. now apply readyRead_bad.
    - cbn [cstep]. unfold connected. destruct B as [B1 B2 B3 B4]. rewrite B2. apply Tr, T0; clsimp; auto. constructor; clsimp; auto.
    - cbn [cstep]. rewrite (ba_dev _ _ B). apply Tr, T0; auto. now rewrite app_nil_r.
    - contradiction.
    - cbn [cstep]. destruct B as [B1 B2 B3 B4]. apply Tr. rewrite B2. apply T0; clsimp; auto; [constructor; clsimp; auto|now rewrite app_nil_r].
    - cbn [cstep]. destruct B as [B1 B2 B3 B4]. apply Tr, T0; clsimp; auto; [constructor; clsimp; auto|now rewrite app_nil_r].
    - cbn [cstep]. destruct B as [B1 B2 B3 B4]. apply Tr, T0; clsimp; auto; [constructor; clsimp; auto|now rewrite app_nil_r].
  Qed.

  Lemma run_bad : forall l F g, Fails (arrived l ++ F) g -> receiving_run (cstep zlib gunzip parse_url) g l ->
    Fails F (crun zlib gunzip parse_url g l).
  Proof.
    induction l as [|act l IH]; intros F g V Q; [exact V|]. destruct Q as [Q1 Q2].
    unfold arrived in V. cbn [map concat] in V. rewrite <- app_assoc in V.
    exact (IH _ _ (step_bad _ g act _ V Q1 eq_refl) Q2).
  Qed.
End Bad.
