(** Whole responses. *)
From Verif Require Import Bytes ByteHelpers Helpers TextSpec ConnText HelpersProofs Joyent RespParser RespInv RespSplit RespSpec RespFeed RespName RespDecode.
Open Scope Z_scope.

Definition lenof (v : bytes) : Z := match dec_value 0 v with Some n => n | None => 0 end.
Definition scan (hs : list header) (h : hparser) : hparser :=
  fold_left (fun h nv => hdr_h (kind_name (lower (fst nv))) (snd nv) (lenof (snd nv)) h) hs h.

Lemma kind_excl s : (isk (kind_name s) KTE = beqb s (lit "transfer-encoding")) /\ (isk (kind_name s) KUpg = beqb s (lit "upgrade")) /\
  (isk (kind_name s) KLen = beqb s (lit "content-length")) /\
  (isk (kind_name s) KConn = beqb s (lit "connection") || beqb s (lit "proxy-connection")).
Proof.
  unfold kind_name.
  destruct (beqb s (lit "connection")) eqn:E1; [apply beqb_true in E1; subst; cbn; auto|].
  destruct (beqb s (lit "proxy-connection")) eqn:E2; [apply beqb_true in E2; subst; cbn; auto|].
  destruct (beqb s (lit "content-length")) eqn:E3; [apply beqb_true in E3; subst; cbn; auto|].
  destruct (beqb s (lit "transfer-encoding")) eqn:E4; [apply beqb_true in E4; subst; cbn; auto|].
  destruct (beqb s (lit "upgrade")) eqn:E5; cbn; auto.
Qed.

Lemma scan_flags hs : forall h, f_chunked (scan hs h) = f_chunked h || chunked_resp hs /\
  f_keepalive (scan hs h) = f_keepalive h || connection_says "keep-alive" hs /\
  f_close (scan hs h) = f_close h || connection_says "close" hs /\
  (no_upgrade hs = true -> f_upgrade (scan hs h) = f_upgrade h) /\
  f_trailing (scan hs h) = f_trailing h /\ h_major (scan hs h) = h_major h /\ h_minor (scan hs h) = h_minor h /\
  h_status (scan hs h) = h_status h /\ h_errno (scan hs h) = h_errno h /\ h_nread (scan hs h) = h_nread h /\ h_upgr (scan hs h) = h_upgr h.
Proof.
  induction hs as [|[n v] hs IH]; intros h; cbn [scan fold_left fst snd].
  - cbn. rewrite !orb_false_r. auto 20.
  - change (fold_left _ hs ?x) with (scan hs x). destruct (IH (hdr_h (kind_name (lower n)) v (lenof v) h)) as (A & B & C & D & E & F & G & H & I & K & L).
    destruct (kind_excl (lower n)) as (K1 & K2 & K3 & K4).
    rewrite A, B, C, E, F, G, H, I, K, L. clear A B C E F G H I K L. unfold hdr_h in *; hsimp in *. rewrite K1, K4 in *.
    unfold chunked_resp, connection_says, no_upgrade, has_name. cbn [existsb fst snd]. rewrite !orb_assoc. repeat split; auto.
    intros NU. apply negb_true_iff, orb_false_iff in NU as [NU1 NU2].
    rewrite D by (unfold no_upgrade, has_name; now rewrite NU2). rewrite K2, NU1. cbn [andb]. apply orb_false_r.
Qed.
Lemma scan_length hs o : ContentLength hs o -> forall h, h_cl (scan hs h) = match o with Some n => n | None => h_cl h end.
Proof.
  induction 1 as [|[f v] hs o N C IH|f v hs n N D M C IH|f v hs n m N D M C IH]; intros h; cbn [scan fold_left fst snd]; auto;
  change (fold_left _ hs ?x) with (scan hs x); rewrite IH; destruct (kind_excl (lower f)) as (K1 & K2 & K3 & K4); unfold hdr_h; hsimp; rewrite K3; unfold has_name in N; cbn [fst] in N; rewrite N; auto.
  unfold lenof. now rewrite (Digits_dec _ _ D).
Qed.
Lemma length_ok hs o : ContentLength hs o -> forall n v, In (n, v) hs -> kind_name (lower n) = KLen -> dec_value 0 v = Some (lenof v) /\ v <> [] /\ lenof v <= max_length.
Proof.
  assert (G : forall v m, Digits 10 v m -> m <= max_length -> dec_value 0 v = Some (lenof v) /\ v <> [] /\ lenof v <= max_length).
  { intros v m D M. unfold lenof. rewrite (Digits_dec _ _ D). repeat split; auto. intros ->. exact (Digits_nil _ _ D). }
  induction 1 as [|[f v] hs o N C IH|f v hs n N D M C IH|f v hs n m N D M C IH]; intros a b H K; [destruct H| | |];
  (destruct H as [E|H]; [injection E as <- <-|eauto]); eauto.
  destruct (kind_excl (lower f)) as (_ & _ & K3 & _). rewrite K in K3. unfold has_name in N. cbn [fst] in N. cbn [isk] in K3. congruence.
Qed.

(* what was before the headers does not matter but for the framing *)
Lemma scan_irrel : forall hs a b, h_cl a = h_cl b -> h_major a = h_major b -> h_minor a = h_minor b -> h_status a = h_status b -> h_errno a = h_errno b -> h_upgr a = h_upgr b ->
        f_chunked a = f_chunked b -> f_keepalive a = f_keepalive b -> f_close a = f_close b -> f_trailing a = f_trailing b -> f_upgrade a = f_upgrade b ->
        forall s hh i k, hset_state s (hset_hs hh (hset_index i (hset_nread k (scan hs a)))) = hset_state s (hset_hs hh (hset_index i (hset_nread k (scan hs b)))).
Proof.
  induction hs as [|[n v] hs IH]; intros a b E1 E2 E3 E4 E5 E6 E7 E8 E9 E10 E11 s hh i k; cbn [scan fold_left fst snd].
  - heq; auto.
  - change (fold_left _ hs ?x) with (scan hs x). apply IH; unfold hdr_h; hsimp; rewrite ?E1, ?E2, ?E3, ?E4, ?E5, ?E6, ?E7, ?E8, ?E9, ?E10, ?E11; reflexivity.
Qed.

Lemma Go_lines t hs : HeaderLines t hs -> (forall n v, In (n, v) hs -> kind_name (lower n) = KLen -> dec_value 0 v = Some (lenof v) /\ v <> [] /\ lenof v <= max_length) ->
  forall h r hs0 d nr, pushed r hs0 -> line_start (h_state h) = true -> h_errno h = HPE_OK ->
  nr = h_nread h + blen t -> nr <= HTTP_MAX_HEADER_SIZE ->
  exists s hh idx r', Go (rset_h h r) (plain (t ++ d)) (rset_h (hset_state s (hset_hs hh (hset_index idx (hset_nread nr (scan hs h))))) r') (plain d) /\
    line_start s = true /\ pushed r' (hs0 ++ hs) /\ r_parsing r' = r_parsing r /\ r_content r' = r_content r /\ r_log r' = r_log r.
Proof.
  induction 1 as [|n w v t hs Wn Ww Wv HL IH]; intros Len h r hs0 d nr Pu Ls Ok Enr N; subst nr.
  - cbn [app]. rewrite blen_nil, Z.add_0_r. exists (h_state h), (h_hs h), (h_index h), r. cbn [scan fold_left]. rewrite app_nil_r.
    split; [|auto]. destruct h; apply Go_refl.
  - pose proof (blen_nonneg t).
    assert (BL : blen (n ++ lit ":" ++ w ++ v ++ CRLF ++ t) = blen (n ++ lit ":" ++ w ++ v ++ CRLF) + blen t) by (rewrite !blen_app; lia). rewrite BL in *.
    destruct (Go_header n w v (lenof v) Wn Ww Wv (Len n v (or_introl eq_refl)) h r hs0 (t ++ d) _ Pu Ls Ok eq_refl) as (hs' & idx & G1); [lia|].
    set (h1 := hset_state s_header_value_lws _) in G1.
    set (r1 := after_line n v hs0 h1 r) in G1.
    destruct (IH (fun a b H => Len a b (or_intror H)) h1 r1 (hs0 ++ [(n, v)]) d (h_nread h + (blen (n ++ lit ":" ++ w ++ v ++ CRLF) + blen t))) as (s & hh & i & r' & G2 & P1 & P2 & P3 & P4 & P5).
    + left. auto.
    + reflexivity.
    + subst h1. unfold hdr_h. hsimp. auto.
    + subst h1. hsimp. lia.
    + lia.
    + exists s, hh, i, r'. rewrite <- app_assoc in P2. cbn [app] in P2. split; [|auto].
      rewrite <- !app_assoc. eapply Go_trans; [exact G1|]. change r1 with (rset_h h1 r1). eapply Go_trans; [exact G2|].
      match goal with |- Go (rset_h ?x _) _ (rset_h ?y _) _ => replace x with y; [apply Go_refl|] end.
      cbn [scan fold_left fst snd]. change (fold_left _ hs ?x) with (scan hs x).
      apply scan_irrel; subst h1; unfold hdr_h; hsimp; auto.
Qed.

(** the head, up to the callback at its end *)
Definition head_h (a b c : Z) (hs : list header) (h : hparser) : hparser := scan hs (sl_h a b c 0 h).
Definition head_r (a b c : Z) (hs : list header) (h : hparser) (r : rparser) : rparser :=
  mkRP h [] [] false (r_parsing r) hs [] (r_log r ++ [RBegin; RHeaders a b c hs]).

Lemma Go_head txt a b c hs o : ResponseHead txt a b c hs -> ContentLength hs o ->
  forall h r d, h_state h = s_start_res -> h_errno h = HPE_OK -> 0 <= h_nread h -> h_nread h + blen txt <= HTTP_MAX_HEADER_SIZE ->
  r_field r = [] -> r_value r = [] ->
  exists hh idx k, let h' := hset_upgr (f_upgrade (head_h a b c hs h)) (hset_state s_headers_done (hset_hs hh (hset_index idx (hset_nread k (head_h a b c hs h))))) in
  Go (rset_h h r) (plain (txt ++ d)) (head_r a b c hs h' r) (mkL (LF :: d) None None None true).
Proof.
  intros [sl a' b' c' t hs' SL HL] CL h r d S O P N F V.
  rewrite !blen_app in N. change (blen CRLF) with 2 in N. pose proof (blen_nonneg t). pose proof (blen_nonneg sl).
  rewrite <- !app_assoc.
  pose proof (Go_status_line sl a' b' c' SL h r (t ++ CRLF ++ d) _ S O eq_refl P ltac:(lia)) as G1.
  set (h1 := sl_h a' b' c' (h_nread h + blen sl) h) in *.
  destruct (Go_lines t hs' HL (length_ok _ _ CL) h1 (rbegin r) [] (CRLF ++ d) (h_nread h + blen sl + blen t)) as (s & hh & idx & r' & G2 & P1 & P2 & P3 & P4 & P5); auto; [right; cbn; rewrite F, V; auto|lia|].
  cbn [app] in P2.
  set (h2 := hset_state s (hset_hs hh (hset_index idx (hset_nread (h_nread h + blen sl + blen t) (scan hs' h1))))) in *.
  set (h3 := hset_nread (h_nread h2 + 1) (hset_state s_headers_almost_done h2)).
  assert (G3 : Go (rset_h h2 r') (plain (CRLF ++ d)) (rset_h h3 r') (plain (LF :: d))).
  { unfold CRLF. cbn [app]. destruct s eqn:Es; try discriminate P1.
    - eapply Go_trans; [apply Go_byte; [reflexivity|subst h2; hsimp; lia|unfold jbyte; hsimp; reflexivity]|]. cbn [advance l_data l_field l_value l_body moved option_map].
      match goal with |- Go (rset_h ?x _) _ (rset_h ?y _) _ => replace x with y; [apply Go_refl|subst h3; heq] end.
    - eapply Go_trans; [apply Go_byte; [reflexivity|subst h2; hsimp; lia|unfold jbyte; hsimp; reflexivity]|]. cbn [again l_data l_field l_value l_body].
      eapply Go_trans; [apply Go_again; unfold jbyte; hsimp; reflexivity|]. cbn [advance l_data l_field l_value l_body moved option_map].
      match goal with |- Go (rset_h ?x _) _ (rset_h ?y _) _ => replace x with y; [apply Go_refl|subst h3; heq] end. }
  destruct (scan_flags hs' h1) as (_ & _ & _ & _ & Tr & Ma & Mi & St & Er & _ & _).
  assert (Tr3 : f_trailing h3 = false) by (subst h3 h2; hsimp; rewrite Tr; subst h1; reflexivity).
  assert (Er3 : h_errno h3 = HPE_OK) by (subst h3 h2; hsimp; rewrite Er; subst h1; unfold sl_h; hsimp; auto).
  exists hh, idx, (h_nread h2 + 2). cbn zeta.
  eapply Go_trans; [exact G1|]. eapply Go_trans; [exact G2|]. eapply Go_trans; [exact G3|].
  eapply Go_trans; [eapply Go_call; [reflexivity|subst h3 h2; hsimp; lia|unfold jbyte; hsimp; rewrite Tr3; cbn [ceq Ascii.eqb Bool.eqb]; reflexivity|discriminate|hsimp; exact Er3]|].
  cbn [again l_data l_field l_value l_body].
  match goal with |- Go ?x _ ?y _ => replace x with y; [apply Go_refl|] end.
  cbn [on_cb]. rewrite (pushed_push _ hs') by (destruct P2 as [[? ?]|(? & ? & ? & ?)]; [left|right]; rsimp; auto).
  unfold rlog, head_r. rsimp. rewrite P3, P4, P5. cbn [rbegin on_cb r_parsing r_content r_log rlog].
  hsimp. 
  replace (h_major h3) with a' by (subst h3 h2; hsimp; now rewrite Ma).
  replace (h_minor h3) with b' by (subst h3 h2; hsimp; now rewrite Mi).
  replace (h_status h3) with c' by (subst h3 h2; hsimp; now rewrite St).
  rewrite <- app_assoc. cbn [app].
  assert (FU : forall s hh i k, hset_state s (hset_hs hh (hset_index i (hset_nread k (head_h a' b' c' hs' h)))) = hset_state s (hset_hs hh (hset_index i (hset_nread k (scan hs' h1))))).
  { intros. apply scan_irrel; reflexivity. }
  assert (FU2 : f_upgrade (head_h a' b' c' hs' h) = f_upgrade h3) by (pose proof (f_equal f_upgrade (FU s hh idx 0)) as Q; hsimp in *; exact Q).
  rewrite FU2. f_equal. rewrite FU. subst h3 h2. heq.
Qed.

(** a parser between two messages *)
Record ready (r : rparser) : Prop := mkReady {
  rd_u : UOk r;
  rd_s : h_state (r_h r) = s_start_res;
  rd_e : h_errno (r_h r) = HPE_OK;
  rd_n : 0 <= h_nread (r_h r) <= 2;
  rd_f : r_field r = [];
  rd_v : r_value r = [] }.

Lemma fresh_ready : ready rfresh.
Proof. constructor; try reflexivity; [|cbn; lia]. constructor; cbn; try discriminate; auto. intros _. apply HOk_init. Qed.

(** a parser after a message that closes the connection *)
Record closed (r : rparser) : Prop := mkClosed {
  cl_u : UOk r;
  cl_s : h_state (r_h r) = s_dead;
  cl_e : h_errno (r_h r) = HPE_OK }.

(** the result of a call of inject that completes a message *)
Record completed (r : rparser) (a b c : Z) (hs : list header) (body : bytes) (r' : rparser) : Prop := mkCompleted {
  cp_e : hasError r' = false;
  cp_s : statusCode r' = c;
  cp_h : r_headers r' = hs;
  cp_c : r_content r' = body;
  cp_l : r_log r' = r_log r ++ reported a b c hs body;
  cp_r : stays_open a b hs = true -> ready r';
  cp_d : stays_open a b hs = false -> closed r';
  cp_c' : ready (rclear r');
  cp_k : should_keep_alive (r_h r') = stays_open a b hs }.

Section Head.
Variables (r : rparser) (txt : bytes) (a b c : Z) (hs : list header) (o : option Z).
Hypothesis R : ready r.
Hypothesis HD : ResponseHead txt a b c hs.
Hypothesis HL : blen txt <= max_head - 2.
Hypothesis CL : ContentLength hs o.

Definition hdone (hh : hstate) (idx : nat) (k : Z) : hparser :=
  hset_upgr (f_upgrade (head_h a b c hs (r_h r))) (hset_state s_headers_done (hset_hs hh (hset_index idx (hset_nread k (head_h a b c hs (r_h r)))))).

Lemma txt_nonempty : txt <> [].
Proof. destruct HD as [sl a' b' c' t hs' [da db dc]]. cbn. discriminate. Qed.

Lemma head_run d : exists hh idx k, JOk (hdone hh idx k) (mkL (LF :: d) None None None true) /\
  inject r (txt ++ d) = match J (head_r a b c hs (hdone hh idx k) (rset_parsing true r)) (mkL (LF :: d) None None None true) with
    | Some (r', er) => Some (rset_parsing false (runpause r'), blen (txt ++ d) - blen er)
    | None => None
    end.
Proof.
  destruct R as [U S E N F V]. destruct (Go_head txt a b c hs o HD CL (r_h r) (rset_parsing true r) d) as (hh & idx & k & G); auto; try lia.
  { unfold HTTP_MAX_HEADER_SIZE, max_head in *. lia. }
  exists hh, idx, k. cbn zeta in G. 
  assert (HJ : JOk (r_h (rset_parsing true r)) (plain (txt ++ d))).
  { pose proof (jstart_ok (txt ++ d) (r_h r) (uo_h _ U E) E) as Q. unfold jstart in Q. rewrite S in Q. exact Q. }
  change (rset_h (r_h r) (rset_parsing true r)) with (rset_parsing true r) in G.
  destruct (G HJ) as [G1 G2]. split; [exact G1|].
  unfold inject. rewrite (uo_p _ U). rewrite execute_run; auto.
  - unfold jstart. rewrite S. rewrite G2. reflexivity.
  - pose proof txt_nonempty. destruct txt; [congruence|discriminate].
Qed.
Lemma head_facts : f_chunked (head_h a b c hs (r_h r)) = chunked_resp hs /\ (no_upgrade hs = true -> f_upgrade (head_h a b c hs (r_h r)) = false) /\
  h_cl (head_h a b c hs (r_h r)) = (match o with Some n => n | None => ULLONG_MAX end) /\ h_status (head_h a b c hs (r_h r)) = c /\ h_errno (head_h a b c hs (r_h r)) = HPE_OK /\
  h_major (head_h a b c hs (r_h r)) = a /\ h_minor (head_h a b c hs (r_h r)) = b /\
  f_keepalive (head_h a b c hs (r_h r)) = connection_says "keep-alive" hs /\ f_close (head_h a b c hs (r_h r)) = connection_says "close" hs.
Proof.
  unfold head_h. destruct (scan_flags hs (sl_h a b c 0 (r_h r))) as (A & B & C & D & E & F & G & H & I & K & L).
  rewrite A, B, C, F, G, H, I, (scan_length _ _ CL). unfold sl_h in *; hsimp in *. cbn [orb]. repeat split; auto. destruct R; auto.
Qed.
End Head.

Lemma keep_open a b hs h : h_major h = a -> h_minor h = b -> f_keepalive h = connection_says "keep-alive" hs -> f_close h = connection_says "close" hs ->
  needs_eof h = false -> stays_open a b hs = true -> new_message h = s_start_res.
Proof.
  intros A B C D E. unfold stays_open, new_message, should_keep_alive. rewrite A, B, C, D, E.
  destruct ((0 <? a) && (0 <? b)).
  - intros X. apply negb_true_iff in X. rewrite X. reflexivity.
  - intros ->. reflexivity.
Qed.
Lemma keep_closed a b hs h : h_major h = a -> h_minor h = b -> f_keepalive h = connection_says "keep-alive" hs -> f_close h = connection_says "close" hs ->
  stays_open a b hs = false -> new_message h = s_dead.
Proof.
  intros A B C D. unfold stays_open, new_message, should_keep_alive. rewrite A, B, C, D.
  destruct ((0 <? a) && (0 <? b)).
  - intros X. apply negb_false_iff in X. rewrite X. reflexivity.
  - intros ->. reflexivity.
Qed.

(** the end of a message *)
Definition ended (r : rparser) (a b c : Z) (hs : list header) (body : bytes) (h : hparser) : rparser :=
  mkRP (hset_errno HPE_PAUSED (hset_state (new_message h) h)) [] [] false true hs body (r_log r ++ reported a b c hs body).
Lemma ended_completed r a b c hs body h : ready r -> HOk (hset_state s_start_res h) -> h_status h = c -> h_errno h = HPE_OK ->
  h_major h = a -> h_minor h = b -> f_keepalive h = connection_says "keep-alive" hs -> f_close h = connection_says "close" hs ->
  needs_eof h = false -> 0 <= h_nread h <= 2 -> completed r a b c hs body (rset_parsing false (runpause (ended r a b c hs body h))).
Proof.
  intros Rd HO S E A B C D NE N. unfold ended, runpause. rsimp. hsimp. constructor; unfold hasError, statusCode; rsimp; hsimp; auto.
  - intros SO. rewrite (keep_open a b hs h) by auto. constructor; rsimp; hsimp; auto.
    constructor; rsimp; hsimp; auto; try discriminate.
  - intros SO. rewrite (keep_closed a b hs h) by auto. constructor; rsimp; hsimp; auto.
    constructor; rsimp; hsimp; auto; try discriminate.
  - unfold rclear. rsimp. constructor; rsimp; auto; [|cbn; lia]. constructor; rsimp; try discriminate; auto. intros _. apply HOk_init.
  - change (should_keep_alive h = stays_open a b hs). unfold should_keep_alive, stays_open. rewrite A, B, C, D, NE.
    destruct ((0 <? a) && (0 <? b)); [now destruct (connection_says "close" hs)|now destruct (connection_says "keep-alive" hs)].
Qed.


Lemma HOk_any h s : HOk h -> 0 <= h_cl h <= ULLONG_MAX -> s = s_start_res -> HOk (hset_state s h).
Proof. intros _ A ->. split; hsimp; auto. Qed.

(** no body *)
Lemma inject_nobody r txt a b c hs o rest : ready r -> ResponseHead txt a b c hs -> blen txt <= max_head - 2 -> no_upgrade hs = true ->
  chunked_resp hs = false -> ContentLength hs o -> (o = Some 0 \/ o = None /\ bodyless c = true) ->
  exists r', inject r (txt ++ rest) = Some (r', blen txt) /\ completed r a b c hs [] r'.
Proof.
  intros R HD HL NU NC CL HO. destruct (head_run r txt a b c hs o R HD HL CL rest) as (hh & idx & k & HJ & E).
  destruct (head_facts r a b c hs o R CL) as (F1 & F2 & F3 & F4 & F5 & F6 & F7 & F8 & F9). specialize (F2 NU). rewrite NC in F1.
  set (h1 := hdone r a b c hs hh idx k) in *.
  set (h2 := hset_nread 0 h1).
  assert (NE : needs_eof h2 = false).
  { unfold needs_eof. subst h2 h1. unfold hdone. hsimp. rewrite F4, F1, F3. unfold bodyless in HO.
    destruct HO as [->|[-> ->]]; auto. destruct (_ || _); auto. }
  assert (ME : mstep (head_r a b c hs h1 (rset_parsing true r)) (mkL (LF :: rest) None None None true) = ORet (ended r a b c hs [] h2) rest).
  { unfold mstep, jstep. cbn [l_data l_re head_r r_h]. unfold jbyte. change (h_state h1) with s_headers_done. cbn [ceq Ascii.eqb Bool.eqb].
    fold h2. replace (h_upgr h2) with false by (subst h2 h1; unfold hdone; hsimp; auto).
    replace (f_chunked h2) with false by (subst h2 h1; unfold hdone; hsimp; auto).
    replace (h_cl h2) with (match o with Some n => n | None => ULLONG_MAX end) by (subst h2 h1; unfold hdone; hsimp; auto).
    assert (Z : after (head_r a b c hs h1 (rset_parsing true r)) (notify CbComplete (hset_state (new_message h2) h2) (mkL (LF :: rest) None None None true)) = ORet (ended r a b c hs [] h2) rest).
    { unfold notify. cbn [after on_cb]. unfold head_r, hpause. rsimp. 
      replace (h_errno (hset_state (new_message h2) h2)) with HPE_OK by (subst h2 h1; unfold hdone; hsimp; auto). cbn [is_ok h_errno hset_errno rset_h r_h].
      unfold ended, reported, rset_h. rsimp. cbn [tl l_data map app]. rewrite <- app_assoc. reflexivity. }
    destruct HO as [->|[-> HB]]; [exact Z|]. 
    replace (ULLONG_MAX =? 0) with false by reflexivity. rewrite Z.eqb_refl. cbn [negb]. rewrite NE. exact Z. }
  rewrite J_step in E by (auto; discriminate). rewrite ME in E.
  eexists. rewrite E. split; [f_equal; f_equal; rewrite blen_app; lia|].
  apply ended_completed; auto; try (subst h2 h1; unfold hdone; hsimp; auto; lia).
  split; [|exact I]. subst h2 h1; unfold hdone; hsimp. rewrite F3. destruct HO as [->|[-> _]]; unfold ULLONG_MAX; lia.
Qed.

(** Content-Length *)
Lemma inject_identity r txt a b c hs body rest : ready r -> ResponseHead txt a b c hs -> blen txt <= max_head - 2 -> no_upgrade hs = true ->
  chunked_resp hs = false -> ContentLength hs (Some (blen body)) -> 
  exists r', inject r (txt ++ body ++ rest) = Some (r', blen (txt ++ body)) /\ completed r a b c hs body r'.
Proof.
  intros R HD HL NU NC CL. destruct body as [|cb body'].
  { destruct (inject_nobody r txt a b c hs (Some 0) rest) as (r' & E & C); auto. exists r'. cbn [app]. rewrite app_nil_r. auto. }
  set (body := cb :: body') in *.
  assert (Lm : blen body <= max_length).
  { clear -CL. remember (Some (blen body)) as o eqn:Q. revert Q. induction CL; intros Q; try discriminate; auto. injection Q as ->. auto. }
  assert (Lp : 1 <= blen body) by (subst body; rewrite blen_cons; pose proof (blen_nonneg body'); lia).
  destruct (head_run r txt a b c hs (Some (blen body)) R HD HL CL (body ++ rest)) as (hh & idx & k & HJ & E).
  destruct (head_facts r a b c hs _ R CL) as (F1 & F2 & F3 & F4 & F5 & F6 & F7 & F8 & F9). specialize (F2 NU). rewrite NC in F1.
  set (h1 := hdone r a b c hs hh idx k) in *.
  set (h2 := hset_nread 0 h1).
  set (r1 := head_r a b c hs h1 (rset_parsing true r)) in *.
  assert (M1 : mstep r1 (mkL (LF :: body ++ rest) None None None true) = OGo (rset_h (hset_state s_body_identity h2) r1) (plain (body ++ rest))).
  { unfold mstep, jstep. cbn [l_data l_re]. change (r_h r1) with h1. unfold jbyte. change (h_state h1) with s_headers_done. cbn [ceq Ascii.eqb Bool.eqb].
    fold h2. replace (h_upgr h2) with false by (subst h2 h1; unfold hdone; hsimp; auto).
    replace (f_chunked h2) with false by (subst h2 h1; unfold hdone; hsimp; auto).
    replace (h_cl h2) with (blen body) by (subst h2 h1; unfold hdone; hsimp; auto).
    replace (blen body =? 0) with false by (symmetry; apply Z.eqb_neq; lia).
    replace (blen body =? ULLONG_MAX) with false by (symmetry; apply Z.eqb_neq; unfold max_length, ULLONG_MAX in *; lia). cbn [negb]. reflexivity. }
  rewrite J_step in E by (auto; discriminate). rewrite M1 in E.
  pose proof (mstep_inv r1 _ HJ ltac:(discriminate)) as I1. rewrite M1 in I1. destruct I1 as [I1 _].
  set (r2 := rset_h (hset_state s_body_identity h2) r1) in *.
  set (h3 := hset_state s_message_done (hset_cl 0 h2)).
  set (lastb := skipn (length body - 1) body).
  assert (LB : exists x, lastb = [x]).
  { subst lastb. assert (Q : length (skipn (length body - 1) body) = 1%nat) by (rewrite skipn_length; subst body; cbn [length]; lia).
    destruct (skipn _ body) as [|x [|]]; try discriminate. eauto. }
  destruct LB as [x LB].
  assert (M2 : mstep r2 (plain (body ++ rest)) = OGo (on_cb (CbBody body) (rset_h h3 r2)) (mkL (lastb ++ rest) None None None true)).
  { unfold mstep, jstep. subst body. cbn [l_data l_re app]. change (r_h r2) with (hset_state s_body_identity h2). hsimp. cbn [parsing_header].
    unfold jbyte. hsimp. cbn [l_data l_field l_value l_body].
    change (cb :: body' ++ rest) with ((cb :: body') ++ rest). set (body := cb :: body') in *.
    replace (h_cl h2) with (blen body) by (subst h2 h1; unfold hdone; hsimp; auto). rewrite blen_app. pose proof (blen_nonneg rest).
    rewrite Z.min_l by lia. 
    replace (blen body =? 0) with false by (symmetry; apply Z.eqb_neq; lia).
    replace (blen body =? ULLONG_MAX) with false by (symmetry; apply Z.eqb_neq; unfold max_length, ULLONG_MAX in *; lia). cbn [orb].
    rewrite Z.sub_diag, Z.eqb_refl. cbn [after].
    replace (Z.to_nat (blen body)) with (length body) by (unfold blen; lia).
    replace (Z.to_nat (blen body - 1)) with (length body - 1)%nat by (unfold blen; lia).
    rewrite firstn_app, firstn_all, Nat.sub_diag. cbn [firstn]. rewrite app_nil_r.
    rewrite skipn_app_in by lia. fold lastb. rewrite on_cb_h by discriminate. rsimp. hsimp.
    replace (h_errno h2) with HPE_OK by (subst h2 h1; unfold hdone; hsimp; auto). cbn [is_ok]. reflexivity. }
  rewrite J_step in E by (auto; try discriminate).
  rewrite M2 in E. pose proof (mstep_inv r2 _ I1 ltac:(discriminate)) as I2. rewrite M2 in I2. destruct I2 as [I2 _].
  rewrite LB in *. cbn [app] in *. rewrite J_step in E by (auto; discriminate).
  assert (M3 : mstep (on_cb (CbBody body) (rset_h h3 r2)) (mkL (x :: rest) None None None true) = ORet (ended r a b c hs body h3) rest).
  { unfold mstep, jstep. cbn [l_data l_re]. rewrite on_cb_h by discriminate. rsimp. unfold jbyte. change (h_state h3) with s_message_done.
    unfold notify. cbn [after on_cb tl l_data]. unfold hpause. rsimp. 
    replace (h_errno (hset_state (new_message h3) h3)) with HPE_OK by (subst h3 h2 h1; unfold hdone; hsimp; auto).
    cbn [is_ok h_errno hset_errno rset_h r_h]. unfold ended, reported, rset_h. subst r2 r1. unfold head_r. rsimp. rewrite <- !app_assoc. reflexivity. }
  rewrite M3 in E.
  eexists. rewrite E. split; [f_equal; f_equal; rewrite !blen_app; lia|].
  apply ended_completed; auto; try (subst h3 h2 h1; unfold hdone; hsimp; auto; lia).
  - split; [subst h3; hsimp; unfold ULLONG_MAX; lia|exact I].
  - unfold needs_eof. subst h3; hsimp. rewrite orb_true_r. destruct (_ || _); reflexivity.
Qed.
