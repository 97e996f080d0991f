(** Whole responses: every cut, every prefix, streams of responses. *)
From Verif Require Import Bytes ByteHelpers Helpers TextSpec Joyent RespParser RespInv RespSplit RespSpec RespFeed RespName RespDecode RespBody RespChunk PropsResp.
Open Scope Z_scope.

Lemma on_cb_logs c r : exists l, r_log (on_cb c r) = r_log r ++ l.
Proof.
  destruct c as [|b|b| |b|]; cbn [on_cb]; unfold pushHeader.
  all: try destruct (r_lwv r); rsimp; first [exists []; now rewrite app_nil_r|eexists; reflexivity].
Qed.
Lemma jrun_log : forall f r l r' er, jrun f r l = Some (r', er) -> exists lg, r_log r' = r_log r ++ lg.
Proof.
  induction f as [|f IH]; cbn [jrun]; intros r l r' er E; [discriminate|].
  destruct (jstep (r_h r) l) as [h l'|c h l' e|h e|].
  - apply IH in E. exact E.
  - destruct (on_cb_logs c (rset_h h r)) as [l1 E1]. destruct (is_ok _).
    + apply IH in E as [l2 E2]. exists (l1 ++ l2). rewrite E2, E1. rsimp. now rewrite app_assoc.
    + injection E as <- <-. eauto.
  - injection E as <- <-. exists []. rsimp. now rewrite app_nil_r.
  - discriminate.
Qed.
Lemma inject_log r d r' n : inject r d = Some (r', n) -> exists lg, r_log r' = r_log r ++ lg.
Proof.
  unfold inject. destruct (r_parsing r).
  - intros E; injection E as <- <-. exists []. now rewrite app_nil_r.
  - destruct (execute _ d) as [[r1 er]|] eqn:X; [|discriminate]. intros E. injection E as <- <-.
    assert (G : exists lg, r_log r1 = r_log r ++ lg).
    { unfold execute in X. rsimp in *. destruct (negb _).
      - injection X as <- <-. exists []. rsimp. now rewrite app_nil_r.
      - destruct d.
        + destruct (jeof (r_h r)) as [[c|] h].
          * injection X as <- <-. apply (on_cb_logs c (rset_h h (rset_parsing true r))).
          * injection X as <- <-. exists []. rsimp. now rewrite app_nil_r.
        + apply jrun_log in X. exact X. }
    destruct G as [lg G]. exists lg. unfold runpause. destruct (h_errno (r_h r1)); rsimp; auto.
Qed.

(** without error the cuts do not matter *)
Lemma Feed_same r segs a segs' : UOk r -> Feed r segs a -> hasError a = false -> concat segs' = concat segs -> forall x, Feed r segs' x <-> x = a.
Proof.
  intros U F N Ec. destruct (Feed_total _ segs' r (le_n _) U) as (y & Fy & Uy).
  destruct (Feed_refine _ _ _ U Fy) as (d & Fd & _ & Rd). destruct (Feed_refine _ _ _ U F) as (e & Fe & _ & Re).
  rewrite Ec in Fd. rewrite (Feed_det _ _ _ Fd _ Fe) in Rd.
  assert (O' : h_errno (r_h a) = HPE_OK \/ h_errno (r_h a) = HPE_PAUSED).
  { unfold hasError in N. destruct (h_errno (r_h a)); try discriminate; auto. }
  assert (y = a).
  { destruct Rd as (D1 & _ & D3 & _), Re as (E1' & _ & E3' & _). rewrite D3, E3'; auto. rewrite D1, <- E1'. auto. }
  subst y. intros x. split; [intros G; eapply Feed_det; eauto|intros ->; auto].
Qed.

Lemma whole_inject r t a b c hs body rest : ready r -> WholeResponse t a b c hs body ->
  exists r', inject r (t ++ rest) = Some (r', blen t) /\ completed r a b c hs body r'.
Proof.
  intros R W. destruct W as [txt a b c hs body HD HL NU NC CL|txt a b c hs HD HL NU NC CL HB|txt a b c hs o t body HD HL NU NC CL CB].
  - rewrite <- app_assoc. apply inject_identity; auto.
  - eapply inject_nobody; eauto.
  - rewrite <- app_assoc. eapply inject_chunked; eauto.
Qed.
Lemma whole_nonempty t a b c hs body : WholeResponse t a b c hs body -> t <> [].
Proof.
  assert (G : forall txt a b c hs d, ResponseHead txt a b c hs -> txt ++ d <> []).
  { intros txt a' b' c' hs' d [sl a1 b1 c1 t' hs1 [da db dc]]. discriminate. }
  intros W. destruct W; try (eapply G; eauto). rewrite <- (app_nil_r txt). eapply G; eauto.
Qed.
Lemma completed_log r a b c hs body r' : completed r a b c hs body r' -> ~ exists lg, r_log r' = r_log r ++ lg /\ ~ In RComplete lg.
Proof.
  intros C (lg & E & N). rewrite (cp_l _ _ _ _ _ _ _ C) in E. apply app_inv_head in E. subst lg. apply N.
  unfold reported. right. right. apply in_app_iff. right. now left.
Qed.

Lemma whole_all r t a b c hs body : ready r -> WholeResponse t a b c hs body ->
  exists r', completed r a b c hs body r' /\
    (forall rest, inject r (t ++ rest) = Some (r', blen t)) /\
    (forall p q, t = p ++ q -> p <> [] -> q <> [] -> exists r1, inject r p = Some (r1, blen p) /\ hasError r1 = false /\
       exists lg lg', r_log r1 = r_log r ++ lg /\ reported a b c hs body = lg ++ lg' /\ ~ In RComplete lg) /\
    (forall segs x, concat segs = t -> (Feed r segs x <-> x = r')).
Proof.
  intros R W. pose proof (whole_nonempty _ _ _ _ _ _ W) as NE.
  destruct (whole_inject r t a b c hs body [] R W) as (r' & E & C). rewrite app_nil_r in E.
  exists r'. split; auto.
  pose proof (rd_u _ R) as U. pose proof (rd_e _ R) as O.
  split; [|split].
  - intros rest. destruct rest as [|x rest]; [now rewrite app_nil_r|].
    destruct (cut_inject r t (x :: rest) U O NE) as (r1 & n1 & E1 & [(_ & _ & L & _)|E2]); [discriminate| |].
    + rewrite E in E1. injection E1 as <- <-. exfalso. eapply completed_log; eauto.
    + rewrite E in E1. injection E1 as <- <-. exact E2.
  - intros p q -> Np Nq. destruct (cut_inject r p q U O Np Nq) as (r1 & n1 & E1 & [(N1 & -> & (lg & L1 & L2) & r2 & r3 & n2 & E2 & E3 & HR)|E2]).
    + exists r1. repeat split; auto. rewrite E in E2. injection E2 as <- Ln.
      assert (r' = r3).
      { apply HR. destruct HR as (_ & _ & _). pose proof (cp_e _ _ _ _ _ _ _ C) as X. unfold hasError in X. destruct (h_errno (r_h r')); try discriminate; auto. }
      subst r3. destruct (inject_log _ _ _ _ E3) as [lg' L3]. exists lg, lg'. repeat split; auto.
      rewrite (cp_l _ _ _ _ _ _ _ C), L1, <- app_assoc in L3. apply app_inv_head in L3. exact L3.
    + exfalso. rewrite E in E2. injection E2 as <- <-.
      pose proof (inject_total r p U Np) as (r2 & m & E4 & U2 & B). rewrite E1 in E4. injection E4 as <- <-.
      specialize (B (cp_e _ _ _ _ _ _ _ C)). rewrite blen_app in B. assert (0 < blen q) by (destruct q; [congruence|rewrite blen_cons; pose proof (blen_nonneg q); lia]). lia.
  - assert (F : Feed r [t] r').
    { eapply Feed_more; eauto; [apply (cp_e _ _ _ _ _ _ _ C)|]. unfold blen. rewrite Nat2Z.id, skipn_all. apply Feed_next, Feed_end. }
    intros segs x Ec. apply (Feed_same r [t] r' segs U F (cp_e _ _ _ _ _ _ _ C)). cbn. now rewrite app_nil_r.
Qed.

Lemma waiting_ready r : waiting r -> ready r.
Proof.
  induction 1 as [|r t a b c hs body segs r' _ R W SO Ec F|r t a b c hs body segs r' _ R W Ec F].
  - apply fresh_ready.
  - destruct (whole_all r t a b c hs body R W) as (x & C & _ & _ & G). apply (G segs r' Ec) in F. subst x. apply (cp_r _ _ _ _ _ _ _ C SO).
  - destruct (whole_all r t a b c hs body R W) as (x & C & _ & _ & G). apply (G segs r' Ec) in F. subst x. apply (cp_c' _ _ _ _ _ _ _ C).
Qed.
Lemma completed_decoded r a b c hs body r' : completed r a b c hs body r' -> decoded r a b c hs body r'.
Proof. intros [A B C D E _ _ _]. repeat split; auto. Qed.

(** the body that ends with the connection *)
Lemma inject_until_close r txt a b c hs body : ready r -> ResponseHead txt a b c hs -> blen txt <= max_head - 2 -> no_upgrade hs = true ->
  chunked_resp hs = false -> ContentLength hs None -> bodyless c = false ->
  exists r', inject r (txt ++ body) = Some (r', blen (txt ++ body)) /\ hasError r' = false /\
    r_log r' = r_log r ++ RBegin :: RHeaders a b c hs :: map RByte body /\
    exists r2, injectEof r' = Some r2 /\ decoded r a b c hs body r2 /\ ready (rclear r2).
Proof.
  intros R HD HL NU NC CL HB. destruct (head_run r txt a b c hs None R HD HL CL body) as (hh & idx & k & HJ & E).
  destruct (head_facts r a b c hs None R CL) as (F1 & F2 & F3 & F4 & F5 & F6 & F7 & F8 & F9). specialize (F2 NU). rewrite NC in F1.
  set (h1 := hdone r a b c hs hh idx k) in *.
  set (h2 := hset_nread 0 h1).
  set (r1 := head_r a b c hs h1 (rset_parsing true r)) in *.
  assert (NE : needs_eof h2 = true).
  { unfold needs_eof. subst h2 h1. unfold hdone. hsimp. rewrite F4, F1, F3. unfold bodyless in HB. rewrite HB. reflexivity. }
  assert (M1 : mstep r1 (mkL (LF :: body) None None None true) = OGo (rset_h (hset_state s_body_identity_eof h2) r1) (plain body)).
  { unfold mstep, jstep. cbn [l_data l_re]. change (r_h r1) with h1. unfold jbyte. change (h_state h1) with s_headers_done. cbn [ceq Ascii.eqb Bool.eqb].
    fold h2. replace (h_upgr h2) with false by (subst h2 h1; unfold hdone; hsimp; auto).
    replace (f_chunked h2) with false by (subst h2 h1; unfold hdone; hsimp; auto).
    replace (h_cl h2) with ULLONG_MAX by (subst h2 h1; unfold hdone; hsimp; auto).
    replace (ULLONG_MAX =? 0) with false by reflexivity. rewrite Z.eqb_refl. cbn [negb]. rewrite NE. reflexivity. }
  rewrite J_step in E by (auto; discriminate). rewrite M1 in E.
  pose proof (mstep_inv r1 _ HJ ltac:(discriminate)) as I1. rewrite M1 in I1. destruct I1 as [I1 _].
  set (h3 := hset_state s_body_identity_eof h2) in *.
  assert (O3 : h_errno h3 = HPE_OK) by (subst h3 h2 h1; unfold hdone; hsimp; auto).
  set (r2 := match body with [] => rset_h h3 r1 | _ => on_cb (CbBody body) (rset_h h3 r1) end).
  assert (Ej : J (rset_h h3 r1) (plain body) = Some (r2, [])).
  { destruct body as [|x body']; [rewrite J_end; auto|].
    rewrite J_step by (auto; discriminate).
    assert (M2 : mstep (rset_h h3 r1) (plain (x :: body')) = OGo (rset_h h3 r1) (mkL [] None None (Some (x :: body')) false)).
    { unfold mstep, jstep. cbn [l_data l_re]. change (r_h (rset_h h3 r1)) with h3. change (parsing_header (h_state h3)) with false. cbv iota.
      unfold jbyte. change (h_state h3) with s_body_identity_eof. reflexivity. }
    pose proof (mstep_inv _ _ I1 ltac:(discriminate)) as I2. rewrite M2 in *. destruct I2 as [I2 _]. rewrite J_end; auto. }
  rewrite Ej in E.
  assert (H2 : r_h r2 = h3) by (subst r2; destruct body; reflexivity).
  assert (L2 : r_log r2 = r_log r ++ RBegin :: RHeaders a b c hs :: map RByte body).
  { subst r2 r1. destruct body; cbn [on_cb]; unfold head_r; rsimp; auto. rewrite <- app_assoc. reflexivity. }
  assert (C2 : r_content r2 = body) by (subst r2 r1; destruct body; reflexivity).
  assert (D2 : r_headers r2 = hs /\ r_field r2 = [] /\ r_value r2 = [] /\ r_parsing r2 = true) by (subst r2 r1; destruct body; auto).
  destruct D2 as (D2 & D3 & D4 & D5).
  assert (RP : runpause r2 = r2) by (unfold runpause; rewrite H2, O3; reflexivity). rewrite RP in E.
  eexists. rewrite E. split; [f_equal; f_equal; cbn; lia|].
  split; [unfold hasError; rsimp; rewrite H2, O3; reflexivity|]. split; [exact L2|].
  assert (T : rset_parsing true (rset_parsing false r2) = r2) by (destruct r2; cbn in *; subst; reflexivity).
  unfold injectEof, inject, execute. rsimp. rewrite T, H2, O3. cbn [is_ok negb jeof].
  change (jeof h3) with (Some CbComplete, h3). cbv iota beta. rewrite <- H2, rset_h_id.
  eexists. split; [reflexivity|].
  cbn [on_cb option_map fst]. unfold hpause. rsimp. rewrite H2, O3. unfold runpause. rsimp. hsimp.
  split.
  - unfold decoded, hasError, statusCode, reported. rsimp. hsimp. repeat split; auto.
    rewrite L2, <- app_assoc. reflexivity.
  - unfold rclear. rsimp. constructor; rsimp; auto; [|cbn; lia]. constructor; rsimp; try discriminate; auto. intros _. apply HOk_init.
Qed.
