(** C83: HttpClient and HttpConnection together.  Specification: Session.v *)
From Verif Require Import Bytes TextSpec ByteHelpers Helpers ReqGrammar Conn ConnSpec ConnInv ConnHead ConnEnd PropsConn Serve PropsServe SessionServer.
From Verif Require Import Joyent RespParser RespSpec Client ClientSpec ClientInv PropsClient PropsClient2 PropsClient5 PropsClient3 PropsWire PropsWire2 Session.
Open Scope Z_scope.

(** ** The answers to good requests *)
Lemma same_head h r q : Same r q -> good h r -> q_version q = lit "HTTP/1.1" /\ client_keeps q = true /\ q_method q = cr_method r /\
  (q_method q = lit "HEAD" -> forall qs, g_content (h (qs ++ [q])) = []).
Proof.
  intros S [_ _ Hd Op].
  assert (NH : q_method q = lit "HEAD" -> forall qs, g_content (h (qs ++ [q])) = []).
  { intros E qs. apply Hd; [|exact S]. destruct S as [host d _ _]. cbn [q_method] in E. unfold head_method. rewrite E. reflexivity. }
  destruct S as [host d _ _]. cbn [q_version q_method] in *. split; [reflexivity|]. split; [|split; [reflexivity|exact NH]]. clear NH.
  unfold client_keeps, http11_req. cbn [q_version q_headers]. rewrite beqb_refl.
  assert (E : first_named "connection" ((lit "Host", host) :: cr_headers r ++ (if beqb (cr_data r) [] then [] else [(lit "Content-Length", d)])) = first_named "connection" (cr_headers r)).
  { unfold first_named. cbn [filter]. change (named "connection" (lit "Host", host)) with false. cbn iota. rewrite filter_app.
    destruct (beqb (cr_data r) []); [now rewrite app_nil_r|]. cbn [filter]. change (named "connection" (lit "Content-Length", d)) with false. cbn iota. now rewrite app_nil_r. }
  rewrite E, Op. reflexivity.
Qed.
(** the answer of g as it comes to the client: to a HEAD request there is only the head *)
Definition Comes (head : bool) (t : bytes) (g : given) (hs : list header) : Prop :=
  if head then ResponseHead t 1 1 (g_code g) hs /\ blen t <= RespSpec.max_head - 2 /\ ContentLength hs (Some 0) /\ g_content g = []
  else WholeResponse t 1 1 (g_code g) hs (g_content g).
Lemma answer_exists h qs r q : friendly h -> Same r q -> good h r -> let g := h (qs ++ [q]) in
  exists e t hs, Answered g q true e /\ written e = written (interim q) ++ t /\
    Comes (head_method (cr_method r)) t g hs /\ stays_open 1 1 hs = true /\ AnswerHeaders g hs /\ g_code g <> 100.
Proof.
  intros HF S G g. destruct (same_head _ _ _ S G) as (V & CK & Mt & NH). destruct (HF qs q V) as (CA & CL & Sz & Rm & N1 & NC). specialize (NH) . fold g in CA, CL, Sz, Rm, N1, NC.
  pose proof (fun E => NH E qs) as NHq. fold g in NHq.
  assert (HC : head_method (cr_method r) = true -> g_content g = []) by (intros E; exact (gd_head _ _ G E qs q S)).
  assert (B : 0 <= blen (g_content g)) by apply blen_nonneg.
  destruct (canonical_exists (blen (g_content g)) B) as (d & Cd).
  pose proof (ConnSpec.RH q (ans_of g) (blen (g_content g)) _ d (status_of_ok (a_code (ans_of g))) Cd) as HD.
  match type of HD with RespHead _ _ _ ?x => set (hd := x) in * end. clearbody hd.
  assert (KP : keeps q (ans_of g) (blen (g_content g)) = true).
  { unfold keeps. rewrite CK. replace (0 <=? blen (g_content g)) with true by (symmetry; now apply Z.leb_le). cbn [ans_of a_headers andb orb]. rewrite NC. reflexivity. }
  assert (A : Answered g q true (interim q ++ OReady q :: OWrite hd :: (if beqb (g_content g) [] || head_req q then [] else [OWrite (g_content g)]) ++ [OCompleted]))
    by (apply Answered_intro; [exact HD|now rewrite KP]).
  assert (D1 : Digits 10 (lit "1") 1) by (apply (D_one 10 "1"%char 1); [reflexivity|lia]).
  destruct (sized_headers q (ans_of g) (blen (g_content g)) hd (lit "1") (lit "1") 1 1 HD CA) as (dg & Cg & RHd & NU & CH & CLn & SO);
    [unfold INT_MAX, max_length in *; lia|exact V|exact D1|lia|exact D1|lia|].
  assert (Fit : blen hd <= RespSpec.max_head - 2).
  { pose proof (head_fits q (ans_of g) (blen (g_content g)) hd HD ltac:(unfold INT_MAX in *; lia)) as X. cbn [ans_of a_headers] in X. lia. }
  assert (U : AnswerHeaders g (sent_headers q (ans_of g) (blen (g_content g)) dg)).
  { exists dg. split; [exact Cg|]. unfold sent_headers. cbn [ans_of a_headers]. rewrite KP. unfold http11_req. rewrite V, beqb_refl. cbn [negb orb app].
    replace (blen (g_content g) =? -1) with false by (symmetry; apply Z.eqb_neq; lia). apply f_equal2; [reflexivity|]. apply (f_equal (cons _)). apply f_equal2.
    - destruct (last_named "content-type" (g_headers g)); [reflexivity|]. destruct (g_content g) as [|x b]; [reflexivity|]. rewrite blen_cons. pose proof (blen_nonneg b).
      replace (0 <? 1 + blen b) with true by (symmetry; apply Z.ltb_lt; lia). reflexivity.
    - destruct (last_named "transfer-encoding" (g_headers g)) eqn:Te; [|reflexivity]. unfold ConnSpec.chunked_resp. replace (blen (g_content g) =? -1) with false by (symmetry; apply Z.eqb_neq; lia).
      rewrite andb_false_r. cbn [negb]. rewrite andb_true_r. unfold wants_chunked. cbn [ans_of a_headers]. rewrite Te. reflexivity. }
  assert (Wr : (if beqb (g_content g) [] || head_req q then [] else [OWrite (g_content g)]) = if beqb (g_content g) [] then [] else [OWrite (g_content g)]).
  { destruct (beqb (g_content g) []) eqn:E; [reflexivity|]. cbn [orb]. destruct (head_req q) eqn:Hh; [|reflexivity].
    unfold head_req in Hh. apply beqb_true in Hh. rewrite (NHq Hh) in E. discriminate. }
  rewrite Wr in A.
  eexists _, (hd ++ g_content g), (sent_headers q (ans_of g) (blen (g_content g)) dg). split; [exact A|].
  split; [|split; [|split; [now rewrite SO|split; [exact U|exact N1]]]].
  - rewrite written_app. cbn [written]. f_equal. f_equal. destruct (beqb (g_content g) []) eqn:E; [apply beqb_true in E; now rewrite E|]. cbn [written app]. now rewrite app_nil_r.
  - unfold Comes. destruct (head_method (cr_method r)).
    + rewrite (HC eq_refl) in *. rewrite app_nil_r. auto.
    + apply WR_length; auto.
Qed.
Lemma interim_bytes q : Interim (written (interim q)).
Proof. unfold interim. destruct (expects q); [right|now left]. exists 1, 1, []. apply PropsClient2.continue_whole. Qed.

(** ** The client's side *)
Lemma stream_said l obs : (forall o, In o obs -> match o with CWrite _ | CConnect _ _ => False | _ => True end) -> stream (l ++ obs) = stream l.
Proof.
  rewrite stream_app. generalize (stream l). induction obs as [|o obs IH]; intros p H; [reflexivity|]. cbn [fold_left].
  pose proof (H o (or_introl eq_refl)) as X. destruct o; try contradiction; apply IH; intros y Hy; apply H; now right.
Qed.
Lemma filter_quiet obs l : filter said obs = l -> (forall o, In o l -> match o with CWrite _ | CConnect _ _ => False | _ => True end) ->
  forall o, In o obs -> match o with CWrite _ | CConnect _ _ => False | _ => True end.
Proof.
  intros E H o Ho. destruct (said o) eqn:S; [apply H; rewrite <- E; apply filter_In; auto|]. destruct o; try discriminate. exact Logic.I.
Qed.
Lemma content_quiet (ps : list bytes) more : (forall o, In o more -> match o with CWrite _ | CConnect _ _ => False | _ => True end) ->
  forall o, In o (map CContent ps ++ more) -> match o with CWrite _ | CConnect _ _ => False | _ => True end.
Proof. intros H o Ho. apply in_app_iff in Ho as [Ho|Ho]; [apply in_map_iff in Ho as (x & <- & _); exact Logic.I|exact (H o Ho)]. Qed.

Section Session.
  Variables (zlib : bool) (gunzip : list bytes -> bytes -> bytes) (parse_url : bytes -> url) (h : handler).
  Hypothesis urls : forall b, wf_url (parse_url b).
  Hypothesis HF : friendly h.
  Notation cstep := (cstep zlib gunzip parse_url).
  Notation crun := (crun zlib gunzip parse_url).
  Notation jstep := (jstep zlib gunzip parse_url).
  Notation fair := (fair h).
  Notation Reports := (Reports zlib gunzip).
  Notation Session := (Session zlib gunzip h).

  Lemma reused_text c r : InvG (CRun c []) -> AtRest c -> c_next c = None -> c_dev c = DConnected -> c_in c = [] -> wf_creq r ->
    same_server (cr_url r) (cr_url (c_req c)) = true -> (c_timeout c < 0 \/ c_late c = false) ->
    exists c' ws, cstep (CRun c []) (CaCall (CoRequest r)) = CRun c' [] /\ Waits DConnected c' /\ c_req c' = r /\
      c_log c' = c_log c ++ CAccepted r :: map CWrite ws /\ RequestText r (concat ws).
  Proof.
    intros IV [P R Hf Hv Hd] Nx Dv Ci Hr Sm Tm. cbn [Client.cstep do_cop]. unfold request. rewrite P, R. clsimp. unfold connected. clsimp. rewrite Dv, Sm.
    assert (X : (true && (0 <=? c_timeout c) && c_timer c && c_late c) = false).
    { destruct Tm as [Tm | ->]; [|now rewrite andb_false_r]. destruct (Z.leb_spec 0 (c_timeout c)); [lia|]. reflexivity. }
    rewrite X. cbn [andb negb]. unfold sendRequest. clsimp. cbn [negb].
    destruct Hr as [Hu Hl]. destruct (host_text _ Hu) as (ht & Eh & Hh).
    assert (E : (match c_host c with [] => host_value (cr_url r) | h0 => Some h0 end) = Some ht).
    { destruct (co_host _ _ (iv_core _ _ (proj1 IV))) as [B|B]; [now rewrite B|]. rewrite <- (host_same _ _ Sm), Eh in B. injection B as B. destruct (c_host c); [now subst|]. now subst. }
    rewrite E. destruct (request_text r ht Hh Hl) as (ws & Ew & T). rewrite Ew. eexists. exists ws. split; [reflexivity|].
    split; [|clsimp; split; [reflexivity|split; [rewrite <- app_assoc; reflexivity|exact T]]].
    constructor; clsimp; auto. unfold rclear. rsimp. rewrite R. rsimp. now rewrite Hf, Hv.
  Qed.
  Lemma good_wf r : good h r -> wf_creq r.
  Proof. intros [[] _ _ _]. split; [exact cl_port|]. lia. Qed.
  Lemma crun_snoc g l a : crun g (l ++ [a]) = cstep (crun g l) a.
  Proof. unfold Client.crun. now rewrite fold_left_app. Qed.
  Lemma receiving_snoc l a : forall g, receiving_run cstep g l -> receiving a (crun g l) -> receiving_run cstep g (l ++ [a]).
  Proof. induction l as [|x l IH]; intros g H1 H2; cbn [app receiving_run] in *; [auto|]. destruct H1 as [H1 H3]. split; [exact H1|]. apply IH; auto. Qed.
  Lemma arrived_snoc l a : ClientSpec.arrived (l ++ [a]) = ClientSpec.arrived l ++ match a with CaArrive b => b | _ => [] end.
  Proof. unfold ClientSpec.arrived. rewrite map_app, concat_app. cbn [map concat]. now rewrite app_nil_r. Qed.
  Lemma consumes_snoc l a : consumes l = false -> a <> CaCall CoConsume -> consumes (l ++ [a]) = false.
  Proof. intros H N. unfold consumes in *. rewrite existsb_app, H. cbn [existsb]. destruct a as [[]| | | | | | | |]; auto; congruence. Qed.

  Variables (c0 : client) (r0 : creq).
  Definition Sess (b : bool) (rs : list creq) (qs : list Conn.request) (o : list cobs) : Prop := Session b rs qs o /\ rs = r0 :: accepted o.
  (** the client and the bytes given to it; ms: the requests it wrote, as messages *)
  Inductive Side : ccfg -> bytes -> list msg -> Prop :=
  | Sd_wait c stk ms m L e t hs cw lc ow rs : let g := h (map delivered ms ++ [delivered m]) in
      stream (c_log cw) = concat (map wire (ms ++ [m])) ->
      Dialogue h (map delivered ms) L -> Answered g (delivered m) true e -> written e = written (interim (delivered m)) ++ t ->
      Comes (head_method (cr_method (c_req cw))) t g hs -> stays_open 1 1 hs = true -> AnswerHeaders g hs -> g_code g <> 100 ->
      Waits DConnected cw -> receiving_run cstep (CRun cw []) lc -> consumes lc = false ->
      crun (CRun cw []) lc = CRun c stk -> c_log cw = c_log c0 ++ ow ->
      (forall b o, Reports g b o -> Sess b rs (map delivered (ms ++ [m])) (filter said ow ++ o)) ->
      Side (CRun c stk) (written L ++ ClientSpec.arrived lc) (ms ++ [m])
  | Sd_rest c ms L obs rs : stream (c_log c) = concat (map wire ms) -> Dialogue h (map delivered ms) L ->
      AtRest c -> c_next c = None -> c_in c = [] -> c_log c = c_log c0 ++ obs -> Sess false rs (map delivered ms) (filter said obs) ->
      (c_timeout c <> 0 -> c_dev c = DConnected) ->
      Side (CRun c []) (written L) ms.
  Record Joint (p : pair) (c : client) (stk : list cframe) (s : conn) (sk : list frame) (ms : list msg) : Prop := mkJoint {
    jt_c : p_client p = CRun c stk; jt_s : p_server p = Run s sk; jt_inv : InvG (CRun c stk); jt_srv : Srv h s sk; jt_wf : Forall wf_msg ms;
    jt_nh : Forall (fun m => q_method (delivered m) = lit "HEAD" -> forall qs, g_content (h (qs ++ [delivered m])) = []) ms;
    jt_up : exists z, Conn.arrived s ++ z = concat (map wire ms); jt_down : exists y, written (log s) = p_got p ++ y;
    jt_side : Side (CRun c stk) (p_got p) ms }.
  Definition JJ (p : pair) : Prop := exists c stk s sk ms, Joint p c stk s sk ms.

  Lemma dialogue_snoc ms m L e : Dialogue h (map delivered ms) L -> Answered (h (map delivered ms ++ [delivered m])) (delivered m) true e ->
    Dialogue h (map delivered (ms ++ [m])) (L ++ e).
  Proof. intros D A. rewrite map_app. cbn [map]. now apply Dialogue_snoc. Qed.
  (* the report of a client that waits *)
  Lemma wait_report c stk ms m L e t hs cw lc ow rs F : let g := h (map delivered ms ++ [delivered m]) in
      Dialogue h (map delivered ms) L -> Answered g (delivered m) true e -> written e = written (interim (delivered m)) ++ t ->
      Comes (head_method (cr_method (c_req cw))) t g hs -> stays_open 1 1 hs = true -> AnswerHeaders g hs -> g_code g <> 100 ->
      Waits DConnected cw -> receiving_run cstep (CRun cw []) lc -> consumes lc = false ->
      crun (CRun cw []) lc = CRun c stk -> c_log cw = c_log c0 ++ ow ->
      (forall b o, Reports g b o -> Sess b rs (map delivered (ms ++ [m])) (filter said ow ++ o)) ->
      ClientSpec.arrived lc ++ F = written e ->
      exists obs, c_log c = c_log c0 ++ obs /\ Sess (c_pending c) rs (map delivered (ms ++ [m])) (filter said obs) /\ stream (c_log c) = stream (c_log cw) /\
        (c_pending c = true -> stk = [] -> c_in c = [] -> F <> []) /\
        (c_pending c = false -> F = [] /\ (c_timeout c <> 0 -> c_dev c = DConnected) /\
           exists c'', cstep (CRun c stk) CaReturn = CRun c'' [] /\ AtRest c'' /\ c_next c'' = None /\ c_log c'' = c_log c /\ c_dev c'' = c_dev c /\ c_in c'' = [] /\ c_timeout c'' = c_timeout c).
  Proof.
    intros g D A We W0 SO UH N1 Wt Rr Nc Er Lw Se EF.
    assert (EF' : ClientSpec.arrived lc ++ F = written (interim (delivered m)) ++ t ++ []) by now rewrite app_nil_r, <- We.
    pose proof (interim_bytes (delivered m)) as Hi.
    destruct (head_method (cr_method (c_req cw))) eqn:NH.
    { destruct W0 as (W & TL & CL & C0).
      destruct (C53_head zlib gunzip parse_url cw _ t 1 1 _ hs _ [] lc F Wt NH Hi W TL CL N1 Rr EF') as (c1 & stk1 & obs & E1 & Lo & R).
      rewrite Er in E1. injection E1 as <- <-. exists (ow ++ obs). rewrite Lo, Lw, <- app_assoc. split; [reflexivity|].
      assert (Sh : shown gunzip (zlib && gzipped hs) [] = []) by (unfold shown; now destruct (zlib && gzipped hs)).
      destruct R as [(P & Fo & _ & Mo)|(P & Fo)]; rewrite P.
      - split.
        { rewrite filter_app. apply Se. destruct Fo as [-> | ->]; [constructor|]. pose proof (Rp_some zlib gunzip g hs [] [] UH) as X.
          match type of X with context [map CContent ?ps] => assert (Z0 : ps = []) by exact Sh; rewrite Z0 in X end. apply X. now rewrite C0. }
        split.
        { rewrite app_assoc. apply stream_said. destruct Fo as [Fo|Fo]; apply (filter_quiet _ _ Fo); [intros o []|]. intros o [<- |[]]. exact Logic.I. }
        split; [|discriminate]. intros _ S0 I0 ->. destruct (Mo S0 I0) as (y & Ny & Ey). rewrite !app_nil_r in EF'. rewrite <- EF' in Ey.
        apply Ny. apply (app_inv_head (ClientSpec.arrived lc)). now rewrite Ey, app_nil_r.
      - split.
        { rewrite filter_app. apply Se. rewrite Fo. pose proof (Rp_all zlib gunzip g hs [] UH) as X. cbv zeta in X.
          match type of X with context [map CContent ?ps] => assert (Z0 : ps = []) by exact Sh; rewrite Z0 in X end. apply X; [now rewrite C0|constructor]. }
        split.
        { rewrite app_assoc. apply stream_said. apply (filter_quiet _ _ Fo). intros o [<- |[<- |[]]]; exact Logic.I. }
        split; [discriminate|]. intros _.
        destruct (C53_head_rest zlib gunzip parse_url cw _ t 1 1 _ hs _ [] lc F c stk Wt NH Hi W TL CL N1 Rr EF' Er P) as ((y & Ey) & Kp & Nx' & c'' & E'' & A'' & N'' & L'' & D'' & T'' & I'' & X'').
        split; [|split; [apply Kp; [exact SO|right; right; discriminate]|]].
        { rewrite Ey, <- !app_assoc in EF'. do 2 apply app_inv_head in EF'. now apply app_eq_nil in EF' as [_ EF']. }
        exists c''. split; [exact E''|]. split; [exact A''|]. split; [exact N''|]. split; [rewrite L'', Lo, Lw, <- app_assoc; reflexivity|]. split; [exact D''|]. split; [exact (X'' eq_refl)|exact T'']. }
    assert (W : WholeResponse t 1 1 (g_code g) hs (g_content g)) by exact W0. clear W0.
    destruct (C53_response zlib gunzip parse_url cw _ t 1 1 _ hs _ [] lc F Wt NH Hi W N1 Rr EF') as (c1 & stk1 & obs & E1 & Lo & R).
    rewrite Er in E1. injection E1 as <- <-. exists (ow ++ obs). rewrite Lo, Lw, <- app_assoc. split; [reflexivity|].
    destruct R as [(P & Fo & Mo)|(P & xs & used & ct & Fo & Cx & Nx & Cu & Ku)]; rewrite P.
    - split.
      { rewrite filter_app. apply Se. destruct Fo as [-> |(xs & rest & -> & Cx)]; [constructor|]. econstructor; eauto. }
      split.
      { rewrite app_assoc. apply stream_said. destruct Fo as [Fo|(xs & rest & Fo & Cx)]; apply (filter_quiet _ _ Fo); [intros o []|].
        intros o [<- |Ho]; [exact Logic.I|]. apply (content_quiet (shown gunzip (zlib && gzipped hs) xs) []); [intros ? []|now rewrite app_nil_r]. }
      split; [|discriminate]. intros _ S0 I0 ->. destruct (Mo S0 I0) as (y & Ny & Ey). rewrite !app_nil_r in EF'. rewrite <- EF' in Ey.
      apply Ny. apply (app_inv_head (ClientSpec.arrived lc)). now rewrite Ey, app_nil_r.
    - specialize (Ku Nc). subst used. cbn [app] in Cu. split.
      { rewrite filter_app. apply Se. rewrite Fo, <- Cu. now apply Rp_all. }
      split.
      { rewrite app_assoc. apply stream_said. apply (filter_quiet _ _ Fo).
        intros o [<- |Ho]; [exact Logic.I|]. eapply content_quiet; [|exact Ho]. intros ? [<- |[]]. exact Logic.I. }
      split; [discriminate|]. intros _.
      destruct (C53_kept zlib gunzip parse_url cw _ t 1 1 _ hs _ [] lc F c stk Wt NH Hi W N1 Rr EF' Er P) as ((y & Ey) & Kp & Tm).
      destruct (C53_rest zlib gunzip parse_url cw _ t 1 1 _ hs _ [] lc F c stk Wt NH Hi W N1 Rr EF' Er P) as (Nx' & c'' & E'' & A'' & N'' & L'' & D'' & I'' & X'').
      split; [|split; [now apply Kp|]].
      { rewrite Ey, <- !app_assoc in EF'. do 2 apply app_inv_head in EF'. now apply app_eq_nil in EF' as [_ EF']. }
      exists c''. split; [exact E''|]. split; [exact A''|]. split; [exact N''|]. split; [rewrite L'', Lo, Lw, <- app_assoc; reflexivity|]. split; [exact D''|]. split; [exact (X'' eq_refl)|exact (Tm _ E'')].
  Qed.

  (* all that is to be known of the moment *)
  Lemma side_now p c stk s sk ms : Joint p c stk s sk ms -> exists L F, Dialogue h (map delivered ms) L /\ written L = written (log s) ++ F /\
    stream (c_log c) = concat (map wire ms) /\
    (exists obs rs, c_log c = c_log c0 ++ obs /\ Sess (c_pending c) rs (map delivered ms) (filter said obs)) /\
    (c_pending c = true -> stk = [] -> c_in c = [] -> p_got p <> written L) /\
    (c_pending c = false -> p_got p = written L /\ (c_timeout c <> 0 -> c_dev c = DConnected) /\
       (stk <> [] -> exists c'', cstep (CRun c stk) CaReturn = CRun c'' [] /\ Side (CRun c'' []) (p_got p) ms)) /\
    (c_pending c = false -> stk = [] -> AtRest c /\ c_next c = None /\ c_in c = []).
  Proof.
    intros [Ec Es Iv Sv Wf Nh (z & Up) (y & Dn) Sd].
    assert (X : exists L, Dialogue h (map delivered ms) L).
    { inversion Sd as [? ? ms' m L' e t hs cw lc ow rs g H1 H2 H3|]; subst; [exists (L' ++ e); now apply dialogue_snoc|eauto]. }
    destruct X as (L & HL). destruct (foretold h s sk ms L z Sv Wf HL Up) as (F & EF). exists L, F. split; [exact HL|]. split; [exact EF|].
    inversion Sd as [c1 k1 ms' m L' e t hs cw lc ow rs g H1 H2 H3 H4 H5 H6 H7 H8 H9 H10 H11 H12 H13 H14 E1 E2 E3|c1 ms' L' obs rs H1 H2 H3 H4 H5 H6 H7 H8 E1 E2 E3].
    - assert (L = L' ++ e) as -> by (apply (Dialogue_uniq _ _ _ HL); rewrite <- E3; now apply dialogue_snoc).
      rewrite Dn, <- E2, <- app_assoc, written_app in EF. rewrite <- app_assoc in EF. apply app_inv_head in EF.
      destruct (wait_report c stk ms' m L' e t hs cw lc ow rs (y ++ F) H2 H3 H4 H5 H6 H7 H8 H9 H10 H11 H12 H13 H14) as (obs & Lo & Se & St & Pw & Pf); [now symmetry|].
      split; [now rewrite St|]. split; [eauto|]. rewrite written_app. split; [|split].
      + intros P S0 I0 E. apply app_inv_head in E. apply (Pw P S0 I0). rewrite <- E in EF. rewrite <- (app_nil_r (ClientSpec.arrived lc)) in EF at 1. now apply app_inv_head in EF.
      + intros P. destruct (Pf P) as (F0 & Kp & c'' & Ec'' & A'' & N'' & L'' & D'' & I'' & T''). rewrite F0, app_nil_r in EF.
        split; [now rewrite EF|]. split; [exact Kp|].
        intros _. exists c''. split; [exact Ec''|]. rewrite <- EF, <- written_app. eapply Sd_rest; eauto.
        * rewrite L'', St. exact H1.
        * now apply dialogue_snoc.
        * rewrite L''. exact Lo.
        * rewrite P in Se. exact Se.
        * rewrite T'', D''. exact Kp.
      + intros P ->. destruct (Pf P) as (F0 & Kp & c'' & Ec'' & A'' & N'' & L'' & D'' & I'' & T''). cbn [Client.cstep] in Ec''. injection Ec'' as <-. auto.
    - assert (L = L') as -> by exact (Dialogue_uniq _ _ _ HL _ H2). split; [exact H1|].
      assert (Pn : c_pending c = false) by apply (ar_pending _ H3). rewrite Pn. split; [eauto|]. split; [discriminate|]. split; [|auto].
      intros _. split; [reflexivity|]. split; [exact H8|]. congruence.
  Qed.

  Lemma stream_writes l r ws : stream (l ++ CAccepted r :: map CWrite ws) = stream l ++ concat ws.
  Proof.
    rewrite stream_app. cbn [fold_left]. generalize (stream l). induction ws as [|w ws IH]; intros p; cbn [map fold_left concat]; [now rewrite app_nil_r|].
    rewrite IH. now rewrite app_assoc.
  Qed.
  Lemma said_writes r ws : filter said (CAccepted r :: map CWrite ws) = CAccepted r :: map CWrite ws.
  Proof. cbn [filter said]. f_equal. induction ws as [|w ws IH]; cbn [map filter said]; [reflexivity|now rewrite IH]. Qed.

  Lemma reports_accepted g b o : Reports g b o -> accepted o = [].
  Proof.
    assert (C : forall ps, accepted (map CContent ps) = []) by (induction ps; auto).
    intros [|hs xs rest _ _|hs xs _ _ _]; [reflexivity| |].
    - change (accepted (?x :: ?l)) with (accepted l). apply C.
    - cbv zeta. match goal with |- accepted (_ :: map CContent ?ps ++ ?l) = [] => change (accepted (map CContent ps ++ l) = []) end. now rewrite accepted_app, C.
  Qed.
  Lemma accepted_said l : accepted (filter said l) = accepted l.
  Proof. induction l as [|o l IH]; [reflexivity|]. change (o :: l) with ([o] ++ l). rewrite accepted_app, <- IH. destruct o; reflexivity. Qed.
  (* while the client waits *)
  Lemma wait_step c stk got ms a : InvG (CRun c stk) -> Side (CRun c stk) got ms -> c_pending c = true -> receiving a (CRun c stk) ->
    match a with CaCall CoConsume => False | CaCall (CoRequest r) => wf_creq r | _ => True end ->
    exists c' stk', cstep (CRun c stk) a = CRun c' stk' /\ InvG (CRun c' stk') /\ Side (CRun c' stk') (got ++ match a with CaArrive b => b | _ => [] end) ms.
  Proof.
    intros Iv Sd P Rc Ha.
    assert (Cm : calm a (CRun c stk)).
    { destruct Rc as [_ Rc]. destruct a as [[]| | | | | | | |]; cbn [calm]; auto; try contradiction. intros _. subst stk. split; intros []; contradiction. }
    pose proof (ClientInv.step_ok zlib gunzip parse_url urls (CRun c stk) a Iv Cm) as Iv'.
    destruct (cstep (CRun c stk) a) as [c' stk'|f] eqn:E; [|contradiction]. exists c', stk'. split; [reflexivity|]. split; [exact Iv'|].
    inversion Sd as [c1 k1 ms' m L' e t hs cw lc ow rs g H1 H2 H3 H4 H5 H6 H7 H8 H9 H10 H11 H12 H13 H14 E1 E2 E3|c1 ms' L' obs rs H1 H2 H3 H4 H5 H6 H7 H8 E1 E2 E3].
    - rewrite <- app_assoc, <- arrived_snoc. apply (Sd_wait c' stk' ms' m L' e t hs cw (lc ++ [a]) ow rs); auto.
      + apply receiving_snoc; [exact H10|]. now rewrite H12.
      + apply consumes_snoc; [exact H11|]. intros ->. contradiction.
      + now rewrite crun_snoc, H12.
    - pose proof (ar_pending _ H3). congruence.
  Qed.
  (* the next request *)
  Lemma rest_step p c s sk ms r : Joint p c [] s sk ms -> c_pending c = false -> good h r -> c_dev c = DConnected ->
    same_server (cr_url r) (cr_url (c_req c)) = true -> (c_timeout c < 0 \/ c_late c = false) ->
    exists c' m, cstep (CRun c []) (CaCall (CoRequest r)) = CRun c' [] /\ InvG (CRun c' []) /\ Side (CRun c' []) (p_got p) (ms ++ [m]) /\ wf_msg m /\
      (q_method (delivered m) = lit "HEAD" -> forall qs, g_content (h (qs ++ [delivered m])) = []).
  Proof.
    intros J P G Dv Sm Tm. pose proof (jt_inv _ _ _ _ _ _ J) as Iv.
    destruct (side_now _ _ _ _ _ _ J) as (L & F & HL & EL & St & (obs & rs & Lo & Se) & _ & Pf & Ar).
    destruct (Pf P) as (Eg & _ & _). destruct (Ar P eq_refl) as (AR & Nx & Ci). rewrite P in Se.
    destruct (reused_text c r Iv AR Nx Dv Ci (good_wf r G) Sm Tm) as (c' & ws & E & Wt & Er & Lc & RT).
    destruct (C45_parsed r (concat ws) (gd_clean _ _ G) RT (gd_small _ _ G _ RT)) as (m & Wm & Em & Sa).
    destruct (answer_exists h (map delivered ms) r (delivered m) HF Sa G) as (e & t & hs & A & We & W & SO & U & N1).
    destruct (same_head _ _ _ Sa G) as (_ & _ & _ & NH).
    exists c', m. split; [exact E|].
    split; [pose proof (ClientInv.step_ok zlib gunzip parse_url urls (CRun c []) (CaCall (CoRequest r)) Iv (good_wf r G)) as X; rewrite E in X; exact X|].
    split; [|split; [exact Wm|exact NH]]. rewrite Eg, <- (app_nil_r (written L)).
    apply (Sd_wait c' [] ms m L e t hs c' [] (obs ++ CAccepted r :: map CWrite ws) (rs ++ [r])); auto.
    - rewrite Lc, stream_writes, map_app, concat_app, St. cbn [map concat]. now rewrite app_nil_r, Em.
    - now rewrite Er.
    - exact Logic.I.
    - now rewrite Lc, Lo, <- app_assoc.
    - intros b o Rp. rewrite map_app, filter_app, said_writes, <- app_assoc. cbn [map]. destruct Se as [Se Ers].
      split; [now apply Se_next|]. change (filter said obs ++ (CAccepted r :: map CWrite ws) ++ o) with (filter said obs ++ [CAccepted r] ++ map CWrite ws ++ o).
      rewrite Ers, !accepted_app, accepted_writes, (reports_accepted _ _ _ Rp), app_nil_r. reflexivity.
  Qed.

  Theorem J_step p a : JJ p -> fair p a -> JJ (jstep p a).
  Proof.
    intros (c & stk & s & sk & ms & J) Fa. pose proof J as [Ec Es Iv Sv Wf Nh (z & Up) (y & Dn) Sd].
    assert (NH : forall r, In r (announced (log s)) -> q_method r = lit "HEAD" -> forall rs, g_content (h (rs ++ [r])) = []).
    { destruct (announced_foretold h s sk ms z Sv Wf Up) as (more & M). intros r Hr. assert (Hr' : In r (map delivered ms)) by (rewrite M; apply in_app_iff; auto).
      apply in_map_iff in Hr' as (m & <- & Hm). rewrite Forall_forall in Nh. now apply Nh. }
    destruct a as [a|a|n|n]; cbn [Session.fair Session.jstep] in *.
    - rewrite Ec in Fa. destruct Fa as (Ha & Fa). destruct (c_pending c) eqn:P.
      + destruct (wait_step c stk (p_got p) ms a Iv Sd P Fa) as (c' & stk' & E & Iv' & Sd'); [destruct a as [[]| | | | | | | |]; auto; contradiction|].
        exists c', stk', s, sk, ms. constructor; cbn [p_client p_server p_got]; eauto; [now rewrite Ec|].
        destruct a; try (now rewrite app_nil_r in Sd'); contradiction.
      + destruct Fa as [(-> & Nk)|(r & -> & -> & G & Dv & Sm & Tm)].
        * destruct (side_now _ _ _ _ _ _ J) as (L & F & HL & EL & St & _ & _ & Pf & _). destruct (Pf P) as (_ & _ & X). destruct (X Nk) as (c'' & E & Sd').
          exists c'', [], s, sk, ms. constructor; cbn [p_client p_server p_got]; eauto; [now rewrite Ec|].
          pose proof (ClientInv.step_ok zlib gunzip parse_url urls (CRun c stk) CaReturn Iv Logic.I) as Iv'. now rewrite E in Iv'.
        * destruct (rest_step p c s sk ms r J P G Dv Sm Tm) as (c' & m & E & Iv' & Sd' & Wm & Hm).
          exists c', [], s, sk, (ms ++ [m]). constructor; cbn [p_client p_server p_got]; eauto.
          -- now rewrite Ec.
          -- apply Forall_app. auto.
          -- apply Forall_app. auto.
          -- exists (z ++ wire m). rewrite app_assoc, Up, map_app, concat_app. cbn [map concat]. now rewrite app_nil_r.
    - rewrite Es in Fa. destruct Fa as (Po & Ob & Na). destruct (srv_step h s sk a Sv Po Ob NH) as (s' & sk' & e & E & Sv' & Le & Ar).
      exists c, stk, s', sk', ms. constructor; cbn [p_client p_server p_got]; eauto.
      + now rewrite Es.
      + exists z. destruct a; try contradiction; now rewrite Ar.
      + exists (y ++ written e). now rewrite Le, SessionServer.written_app, Dn, app_assoc.
    - assert (Eu : up_bytes p = z).
      { unfold up_bytes. rewrite Ec, Es. destruct (side_now _ _ _ _ _ _ J) as (L & F & HL & EL & St & _). rewrite St, <- Up. rewrite skipn_app, skipn_all, Nat.sub_diag. reflexivity. }
      rewrite Eu, Es. destruct (srv_step h s sk (AArrive (firstn n z)) Sv Logic.I Logic.I NH) as (s' & sk' & e & E & Sv' & Le & Ar).
      exists c, stk, s', sk', ms. constructor; cbn [p_client p_server p_got]; eauto.
      + destruct Ar as [-> | ->]; [|eauto]. exists (skipn n z). rewrite <- app_assoc, firstn_skipn. exact Up.
      + exists (y ++ written e). now rewrite Le, SessionServer.written_app, Dn, app_assoc.
    - assert (Ed : down_bytes p = y) by (unfold down_bytes; rewrite Es, Dn, skipn_app, skipn_all, Nat.sub_diag; reflexivity).
      rewrite Ed in *. rewrite Ec. destruct (c_pending c) eqn:P.
      + destruct (wait_step c stk (p_got p) ms (CaArrive (firstn n y)) Iv Sd P) as (c' & stk' & E & Iv' & Sd'); [split; [exact P|exact Logic.I]|exact Logic.I|].
        exists c', stk', s, sk, ms. constructor; cbn [p_client p_server p_got]; eauto.
        exists (skipn n y). now rewrite <- app_assoc, firstn_skipn.
      + exfalso. destruct (side_now _ _ _ _ _ _ J) as (L & F & HL & EL & St & _ & _ & Pf & _). destruct (Pf P) as (Eg & _). rewrite <- Eg, Dn, <- app_assoc in EL.
        rewrite <- (app_nil_r (p_got p)) in EL at 1. apply app_inv_head in EL. symmetry in EL. apply app_eq_nil in EL as [-> _]. apply Fa. now destruct n.
  Qed.
  Lemma J_run l : forall p, JJ p -> fair_run zlib gunzip parse_url h p l -> JJ (jrun zlib gunzip parse_url p l).
  Proof. induction l as [|a l IH]; intros p J F; [exact J|]. destruct F as [F1 F2]. cbn [jrun fold_left]. apply IH; [now apply J_step|exact F2]. Qed.

  Lemma J_start s0 : Opened zlib gunzip parse_url h r0 c0 s0 -> JJ (opened_pair c0 s0).
  Proof.
    intros [(l & Cl & El) Wt Er G T R S Lg Ar].
    assert (Iv : InvG (CRun c0 [])) by (rewrite <- El; apply ClientInv.run_ok; auto; apply start_inv).
    destruct (C45_parsed r0 _ (gd_clean _ _ G) T (gd_small _ _ G _ T)) as (m & Wm & Em & Sa).
    destruct (answer_exists h [] r0 (delivered m) HF Sa G) as (e & t & hs & A & We & W & SO & U & N1). destruct (same_head _ _ _ Sa G) as (_ & _ & _ & NH).
    exists c0, [], s0, [], [m]. constructor; cbn [opened_pair p_client p_server p_got]; auto.
    - constructor; [exact R| |constructor]. now apply serve_start.
    - cbn [map concat]. rewrite Ar. exists (wire m ++ []). reflexivity.
    - rewrite Lg. exists []. reflexivity.
    - apply (Sd_wait c0 [] [] m [] e t hs c0 [] [] [r0]); auto.
      + cbn [map concat app]. now rewrite app_nil_r, Em.
      + constructor.
      + now rewrite Er.
      + exact Logic.I.
      + now rewrite app_nil_r.
      + intros b o Rp. cbn [filter app map]. split; [now apply Se_first|]. now rewrite (reports_accepted _ _ _ Rp).
  Qed.
End Session.

Section Theorems.
  Variables (zlib : bool) (gunzip : list bytes -> bytes -> bytes) (parse_url : bytes -> url) (h : handler).
  Hypothesis urls : forall b, wf_url (parse_url b).
  Hypothesis HF : friendly h.
  Variables (r : creq) (c0 : client) (s0 : conn) (l : list jact).
  Hypothesis op : Opened zlib gunzip parse_url h r c0 s0.
  Hypothesis fr : fair_run zlib gunzip parse_url h (opened_pair c0 s0) l.
  Notation after := (jrun zlib gunzip parse_url (opened_pair c0 s0) l).

  (** At every moment neither end has failed, and the client has reported exactly what the handler says to its requests, each in turn. *)
  Theorem C83_session : exists c stk s sk obs qs more, p_client after = CRun c stk /\ p_server after = Run s sk /\ c_log c = c_log c0 ++ obs /\
    Session zlib gunzip h (c_pending c) (r :: accepted obs) qs (filter said obs) /\ qs = announced (log s) ++ more.
  Proof.
    destruct (J_run zlib gunzip parse_url h urls HF c0 r l _ (J_start zlib gunzip parse_url h urls HF c0 r s0 op) fr) as (c & stk & s & sk & ms & J).
    destruct (side_now zlib gunzip parse_url h c0 r _ _ _ _ _ _ J) as (L & F & HL & EL & St & (obs & rs & Lo & (Se & Er)) & _).
    destruct (jt_up _ _ _ _ _ _ _ _ _ _ _ _ J) as (z & Up).
    destruct (announced_foretold h s sk ms z (jt_srv _ _ _ _ _ _ _ _ _ _ _ _ J) (jt_wf _ _ _ _ _ _ _ _ _ _ _ _ J) Up) as (more & M).
    exists c, stk, s, sk, obs, (map delivered ms), more. split; [apply (jt_c _ _ _ _ _ _ _ _ _ _ _ _ J)|]. split; [apply (jt_s _ _ _ _ _ _ _ _ _ _ _ _ J)|].
    split; [exact Lo|]. split; [|exact M]. subst rs. now rewrite accepted_said in Se.
  Qed.

  (** When nothing is on its way, nothing is left to be read and no slot runs, every request was answered, and the client has reported it. *)
  Theorem C83_quiet c s sk : p_client after = CRun c [] -> p_server after = Run s sk -> up_bytes after = [] -> down_bytes after = [] -> c_in c = [] ->
    st s = ReceivingHeaders \/ st s = ReceivingContent -> avail s = [] ->
    c_pending c = false /\ Dialogue h (announced (log s)) (log s) /\ exists obs, c_log c = c_log c0 ++ obs /\
      Session zlib gunzip h false (r :: accepted obs) (announced (log s)) (filter said obs).
  Proof.
    intros Ec Es Eu Ed Ci Hs Ha.
    destruct (J_run zlib gunzip parse_url h urls HF c0 r l _ (J_start zlib gunzip parse_url h urls HF c0 r s0 op) fr) as (c1 & stk & s1 & sk1 & ms & J).
    pose proof J as [Ec1 Es1 Iv Sv Wf Nh (z & Up) (y & Dn) Sd]. rewrite Ec in Ec1. rewrite Es in Es1. injection Ec1 as <- <-. injection Es1 as <- <-.
    destruct (side_now zlib gunzip parse_url h c0 r _ _ _ _ _ _ J) as (L & F & HL & EL & St & (obs & rs & Lo & (Se & Er)) & Pw & _).
    assert (Z0 : z = []) by (unfold up_bytes in Eu; rewrite Ec, Es, St, <- Up, skipn_app, skipn_all, Nat.sub_diag in Eu; exact Eu).
    assert (Y0 : y = []) by (unfold down_bytes in Ed; rewrite Es, Dn, skipn_app, skipn_all, Nat.sub_diag in Ed; exact Ed). subst z y. rewrite app_nil_r in *.
    assert (Lg : log s = L) by exact (srv_quiet h s sk ms L Sv Wf HL Up Hs Ha).
    assert (P : c_pending c = false).
    { destruct (c_pending c) eqn:P; [|reflexivity]. exfalso. apply (Pw eq_refl eq_refl Ci). rewrite <- Dn, Lg. reflexivity. }
    assert (An : announced (log s) = map delivered ms) by (rewrite Lg; eapply Dialogue_announced; eauto).
    split; [exact P|]. rewrite An. split; [rewrite Lg; exact HL|]. exists obs. split; [exact Lo|]. subst rs. rewrite accepted_said, P in Se. exact Se.
  Qed.

  (** Between two requests the connection is kept, unless the user has set the timeout to 0: the next request can be written on it. *)
  Theorem C83_kept c stk : p_client after = CRun c stk -> c_pending c = false -> c_timeout c <> 0 -> c_dev c = DConnected.
  Proof.
    intros Ec P T.
    destruct (J_run zlib gunzip parse_url h urls HF c0 r l _ (J_start zlib gunzip parse_url h urls HF c0 r s0 op) fr) as (c1 & stk1 & s1 & sk1 & ms & J).
    pose proof (jt_c _ _ _ _ _ _ _ _ _ _ _ _ J) as Ec1. rewrite Ec in Ec1. injection Ec1 as <- <-.
    destruct (side_now zlib gunzip parse_url h c0 r _ _ _ _ _ _ J) as (L & F & HL & EL & St & _ & _ & Pf & _). now apply (Pf P).
  Qed.
End Theorems.

(** How it begins: a good request on a new client, the connection established, a new connection at the server *)
Theorem C83_open zlib gunzip parse_url h r s0 : good h r -> reached s0 [] -> st s0 = ReceivingHeaders -> log s0 = [] -> Conn.arrived s0 = [] ->
  exists c, crun zlib gunzip parse_url cstart [CaCall (CoRequest r); CaConnected] = CRun c [] /\ Opened zlib gunzip parse_url h r c s0.
Proof.
  intros G R S Lg Ar. pose proof (good_wf h r G) as Wf. pose proof Wf as [Hu Hl].
  assert (AR : AtRest client0) by (constructor; reflexivity).
  destruct (C53_request zlib gunzip parse_url client0 r AR eq_refl eq_refl eq_refl) as (c1 & E1 & Wt & Er & Lc).
  assert (Hc : c_host c1 = []).
  { assert (X : match cstep zlib gunzip parse_url (CRun client0 []) (CaCall (CoRequest r)) with CRun c _ => c_host c | CUB _ => [] end = []) by (vm_compute; reflexivity).
    rewrite E1 in X. exact X. }
  destruct (host_text _ Hu) as (ht & Eh & Hh). destruct (request_text r ht Hh Hl) as (ws & Ew & T).
  assert (E2 : exists c2, cstep zlib gunzip parse_url (CRun c1 []) CaConnected = CRun c2 [] /\ Waits DConnected c2 /\ c_req c2 = r /\ c_log c2 = c_log c1 ++ map CWrite ws).
  { destruct Wt. cbn [cstep]. rewrite wa_dev. unfold sendRequest. clsimp. rewrite Hc, Er, Eh, Ew, wa_pending. cbn [negb cresume]. eexists. split; [reflexivity|].
    split; [constructor; clsimp; auto|]. clsimp. auto. }
  destruct E2 as (c2 & E2 & Wt2 & Er2 & Lc2). exists c2.
  assert (E : crun zlib gunzip parse_url cstart [CaCall (CoRequest r); CaConnected] = CRun c2 []) by (unfold crun, cstart; cbn [fold_left]; rewrite E1; exact E2).
  split; [exact E|]. constructor; auto.
  - exists [CaCall (CoRequest r); CaConnected]. split; [|exact E]. split; [exact Wf|]. split; [|exact Logic.I]. unfold cstart. rewrite E1. exact Logic.I.
  - rewrite Lc2, PropsClient3.stream_writes, Lc, stream_app. cbn [fold_left app]. exact T.
Qed.

(** ** A case: POST and GET on one connection; the handler returns (part of) what was sent *)
Definition part : handler := fun rs => mkGiven 200 [(lit "X-Turn", if (length rs =? 1)%nat then lit "first" else lit "later"); (lit "Content-Type", lit "text/plain")]
  (firstn 100 (q_content (last rs req0) ++ lit "!")).
Lemma part_friendly : friendly part.
Proof.
  intros qs q V. cbv zeta. unfold part. cbn [g_code g_headers g_content ans_of]. remember (length (qs ++ [q]) =? 1)%nat as b eqn:Eb. clear Eb.
  split; [constructor; [destruct b; vm_compute; reflexivity|exists "OK"%string; vm_compute; tauto]|]. split; [destruct b; vm_compute; reflexivity|].
  split; [unfold blen; rewrite firstn_length; unfold INT_MAX; lia|]. split; [unfold head_room; rewrite V; destruct b; vm_compute; discriminate|].
  split; [lia|destruct b; vm_compute; reflexivity].
Qed.
Lemma post_good h : good h post.
Proof. constructor; [apply post_clean|apply post_small|discriminate|reflexivity]. Qed.
Lemma get_good h : good h get.
Proof. constructor; [apply get_clean|apply get_small|discriminate|reflexivity]. Qed.

Definition fairb (h : handler) (p : pair) (a : jact) : bool :=
  match a with
  | JClient a =>
      match p_client p with
      | CUB _ => false
      | CRun c stk => if c_pending c then match a with CaFlushed | CaReturn => true | CaReadyRead => match stk with [] => true | _ => false end | _ => false end
                      else match a, stk with CaReturn, _ :: _ => true | _, _ => false end
      end
  | JServer a => match p_server p with UB _ _ => false | Run s sk => politeb s sk a && obeysb h s a && match a with AArrive _ => false | _ => true end end
  | JUp _ => true
  | JDown n => negb (beqb (firstn n (down_bytes p)) [])
  end.
Notation djrun := (jrun false no_gunzip no_url).
Notation djstep := (jstep false no_gunzip no_url).
Fixpoint fairb_run (h : handler) (p : pair) (l : list jact) {struct l} : bool :=
  match l with [] => true | a :: t => fairb h p a && fairb_run h (djstep p a) t end.
Lemma fairb_ok h p a : fairb h p a = true -> fair h p a.
Proof.
  destruct a as [a|a|n|n]; cbn [fairb fair]; auto.
  - destruct (p_client p) as [c stk|]; [|discriminate]. destruct (c_pending c) eqn:P.
    + intros H. destruct a; try discriminate; (split; [exact Logic.I|]); (split; [exact P|]); auto. now destruct stk.
    + intros H. destruct a; try discriminate. split; [exact Logic.I|]. left. split; [reflexivity|]. now destruct stk.
  - destruct (p_server p) as [s sk|]; [|discriminate]. rewrite !andb_true_iff. intros ((H1 & H2) & H3).
    split; [now apply politeb_ok|]. split; [now apply obeysb_ok|]. now destruct a.
  - rewrite negb_true_iff. intros H E. rewrite E in H. discriminate.
Qed.
Lemma fairb_run_ok h l : forall p, fairb_run h p l = true -> fair_run false no_gunzip no_url h p l.
Proof.
  induction l as [|a l IH]; intros p; cbn [fairb_run fair_run]; auto. rewrite andb_true_iff. intros [H1 H2]. split; [now apply fairb_ok|auto].
Qed.
Lemma fair_run_app h a : forall b p, fair_run false no_gunzip no_url h p a -> fair_run false no_gunzip no_url h (djrun p a) b ->
  fair_run false no_gunzip no_url h p (a ++ b).
Proof. induction a as [|x a IH]; intros b p H1 H2; [exact H2|]. destruct H1 as [H1 H3]. cbn [app fair_run]. split; [exact H1|]. now apply IH. Qed.

Definition client1 : client := match drun cstart [CaCall (CoRequest post); CaConnected] with CRun c _ => c | CUB _ => client0 end.
Definition pair1 : pair := opened_pair client1 opened.
Definition turn1 : list jact :=
  [JUp 10; JServer (ACall OpProcess); JClient CaFlushed; JUp 1000; JServer (ACall OpProcess);
   JServer (ACall (OpWriteResponse 200 [(lit "X-Turn", lit "first"); (lit "Content-Type", lit "text/plain")] (lit "content!"))); JServer AReturn; JServer AReturn;
   JDown 30; JClient CaReadyRead; JDown 1000; JClient CaReadyRead; JClient CaReturn; JClient CaReturn; JClient CaReturn].
Definition pair2 : pair := djstep (djrun pair1 turn1) (JClient (CaCall (CoRequest get))).
Definition turn2 : list jact :=
  [JUp 1000; JServer (ACall OpProcess);
   JServer (ACall (OpWriteResponse 200 [(lit "X-Turn", lit "later"); (lit "Content-Type", lit "text/plain")] (lit "!"))); JServer AReturn; JServer AReturn;
   JDown 1000; JClient CaReadyRead; JClient CaReturn; JClient CaReturn; JClient CaReturn].
Definition both_turns : list jact := turn1 ++ [JClient (CaCall (CoRequest get))] ++ turn2.
Lemma case_opened h : Opened false no_gunzip no_url h post client1 opened.
Proof.
  constructor.
  - exists [CaCall (CoRequest post); CaConnected]. split; [calm_concrete|]. vm_compute. reflexivity.
  - constructor; vm_compute; reflexivity.
  - vm_compute. reflexivity.
  - apply post_good.
  - destruct (host_text (cr_url post)) as (ht & Eh & Hh); [vm_compute; split; discriminate|].
    destruct (request_text post ht Hh) as (ws & Ew & T); [vm_compute; discriminate|].
    assert (E : stream (c_log client1) = concat ws).
    { assert (Eh' : host_value (cr_url post) = Some (lit "example.org:8080")) by (vm_compute; reflexivity). rewrite Eh in Eh'. injection Eh' as ->.
      apply (f_equal (option_map (@concat ascii))) in Ew. cbn [option_map] in Ew. apply (f_equal (fun o => match o with Some b => b | None => [] end)) in Ew. rewrite <- Ew. vm_compute. reflexivity. }
    rewrite E. exact T.
  - apply reached_run; vm_compute; reflexivity.
  - vm_compute. reflexivity.
  - vm_compute. reflexivity.
  - vm_compute. reflexivity.
Qed.
Lemma request_fair : fair_run false no_gunzip no_url part (djrun pair1 turn1) ([JClient (CaCall (CoRequest get))] ++ turn2).
Proof.
  apply fair_run_app; [|apply fairb_run_ok; vm_compute; reflexivity]. split; [|exact Logic.I]. cbn [fair].
  assert (E : exists c, p_client (djrun pair1 turn1) = CRun c [] /\ c_pending c = false /\ c_dev c = DConnected /\ same_server (cr_url get) (cr_url (c_req c)) = true /\ c_timeout c < 0).
  { exists (match p_client (djrun pair1 turn1) with CRun c _ => c | CUB _ => client0 end). do 4 (split; [vm_compute; reflexivity|]). vm_compute. reflexivity. }
  destruct E as (c & -> & -> & D & S & T). split; [exact (good_wf part get (get_good part))|]. right. exists get. repeat (split; [auto using get_good|]). auto.
Qed.
(** the run: the user's view of it at its end *)
Definition told (o : cobs) : option (Z * bytes) := match o with CFinished NoError code _ b => Some (code, b) | _ => None end.
Theorem C83_case : friendly part /\ (forall b, wf_url (no_url b)) /\ Opened false no_gunzip no_url part post client1 opened /\
  fair_run false no_gunzip no_url part pair1 both_turns /\
  exists c s, p_client (djrun pair1 both_turns) = CRun c [] /\ p_server (djrun pair1 both_turns) = Run s [] /\ c_pending c = false /\ c_in c = [] /\
    up_bytes (djrun pair1 both_turns) = [] /\ down_bytes (djrun pair1 both_turns) = [] /\ st s = ReceivingHeaders /\ avail s = [] /\ c_dev c = DConnected /\
    length (announced (log s)) = 2%nat /\ filter (fun o => match o with Some _ => true | None => false end) (map told (c_log c)) = [Some (200, lit "content!"); Some (200, lit "!")].
Proof.
  split; [exact part_friendly|]. split; [intros b; vm_compute; split; discriminate|]. split; [apply case_opened|].
  split; [apply fair_run_app; [apply fairb_run_ok; vm_compute; reflexivity|exact request_fair]|].
  exists (match p_client (djrun pair1 both_turns) with CRun c _ => c | CUB _ => client0 end), (match p_server (djrun pair1 both_turns) with Run s _ => s | UB _ s => s end).
  do 10 (split; [vm_compute; reflexivity|]). vm_compute. reflexivity.
Qed.
