(** C49, continued: the answer to a HEAD request, as HttpClient takes it. *)
From Verif Require Import Bytes ByteHelpers Helpers TextSpec ReqGrammar Conn ConnSpec ConnInv ConnLog ConnSend PropsConn PropsConn2 Joyent RespParser RespSpec RespFeed RespBody RespWhole PropsResp PropsResp2 PropsWire PropsWire2.
From Verif Require Import Client ClientSpec ClientInv PropsClient PropsClient2 PropsClient4 PropsClient5 PropsReuse.
Open Scope Z_scope.

Section Head.
  Variables (zlib : bool) (gunzip : list bytes -> bytes -> bytes) (parse_url : bytes -> url).
  Notation step := (cstep zlib gunzip parse_url).
  Notation run := (crun zlib gunzip parse_url).

  (** hd: the head that the server writes for the answer a of length len (-1: not known) to the request r; x: whatever
      comes behind it.  An HttpClient whose request is a HEAD request reports its status and headers once and ends the
      request without an error and without content, however hd comes in; then it keeps the connection exactly if the
      server does and its keep-alive time is not 0. *)
  Theorem C49_head r a len hd major minor da db c x l F :
    RespLength a len -> RespHead r a len hd -> clean_answer a -> -1 <= len <= max_length -> a_code a <> 100 ->
    q_version r = lit "HTTP/" ++ da ++ lit "." ++ db -> Digits 10 da major -> major <= 999 -> Digits 10 db minor -> minor <= 999 ->
    blen hd <= RespSpec.max_head - 2 ->
    Waits DConnected c -> head_method (cr_method (c_req c)) = true ->
    receiving_run step (CRun c []) l -> arrived l ++ F = hd ++ x ->
    exists hs, filter (fun h => negb (special h)) hs = filter (fun h => negb (special h)) (a_headers a) /\
    exists c' stk obs, run (CRun c []) l = CRun c' stk /\ c_log c' = c_log c ++ obs /\
      ((c_pending c' = true /\ (filter said obs = [] \/ filter said obs = [CHeaders (a_code a) hs]) /\
        (stk = [] -> c_in c' = [] -> exists y, y <> [] /\ arrived l ++ y = hd)) \/
       (c_pending c' = false /\ filter said obs = [CHeaders (a_code a) hs; CFinished NoError (a_code a) hs []] /\
        exists c'', step (CRun c' stk) CaReturn = CRun c'' [] /\ c_log c'' = c_log c' /\
          (keeps r a len = true /\ c_timeout c' <> 0 -> Keeps (c_req c) c'') /\
          (~ (keeps r a len = true /\ c_timeout c' <> 0) -> GaveUp c''))).
  Proof.
    intros _ RHd CA HL N1 V Da Ma Db Mb Hh Wt NH Q EF.
    destruct (sent_head r a len hd da db major minor RHd CA) as (digits & CN & Dl & HD); auto; [lia|].
    pose proof (sent_length r a len digits Dl ltac:(lia)) as CL. pose proof (sent_open r a len digits da db major minor CA V Da Db Dl) as SO.
    pose proof (sent_chunked r a len digits CA Dl) as SC.
    set (hs := sent_headers r a len digits) in *. exists hs. split.
    { unfold hs. now apply sent_user. }
    change (arrived l ++ F = [] ++ hd ++ x) in EF. assert (IN : Interim []) by now left.
    destruct (C53_head zlib gunzip parse_url c [] hd major minor (a_code a) hs _ x l F Wt NH IN HD Hh CL N1 Q EF) as (c' & stk & obs & E & Lo & H).
    exists c', stk, obs. split; [exact E|]. split; [exact Lo|]. destruct H as [(P & H1 & _ & H2)|(P & H)]; [left; auto|right].
    split; [exact P|]. split; [exact H|].
    destruct (C89_after_head zlib gunzip parse_url c [] hd major minor (a_code a) hs _ x l F c' stk Wt NH IN HD Hh CL N1 Q EF E P) as (c'' & E2 & _ & L2 & K1 & K2).
    assert (X : (keeps r a len = true /\ c_timeout c' <> 0) <->
      (stays_open major minor hs = true /\ (bodyless (a_code a) = true \/ RespSpec.chunked_resp hs = true \/ (if len =? -1 then None else Some len) <> None) /\ c_timeout c' <> 0)).
    { rewrite SO, SC. split; [|tauto]. intros [K T]. split; [exact K|]. split; [|exact T]. right. unfold keeps in K. apply andb_prop in K as [K _]. apply andb_prop in K as [_ K].
      apply orb_prop in K as [K|K]; [right|now left]. apply Z.leb_le in K. destruct (Z.eqb_spec len (-1)); [lia|discriminate]. }
    exists c''. split; [exact E2|]. split; [exact L2|]. split; intros K; [apply K1, X, K|apply K2; intros K'; apply K, X, K'].
  Qed.
End Head.

Section Served.
  Variables (zlib : bool) (gunzip : list bytes -> bytes -> bytes) (parse_url : bytes -> url).
  Notation cstep := (cstep zlib gunzip parse_url).
  Notation crun := (crun zlib gunzip parse_url).

  (** A server connection, whatever it did before, whose user code answers a HEAD request with writeHeaders(code, hs):
      that completes the response, what was written is one head, and a client that waits for it reports it as above. *)
  Theorem C49_head_served s stk r code hs major minor da db :
    reached s stk -> st s = SendingHeaders -> current s r -> head_req r = true ->
    (forall len, RespLength (mkAns code hs (-1)) len -> -1 <= len <= 2147483647) ->
    clean_answer (mkAns code hs (-1)) -> code <> 100 -> head_room r hs <= RespSpec.max_head - 2 ->
    q_version r = lit "HTTP/" ++ da ++ lit "." ++ db -> Digits 10 da major -> major <= 999 -> Digits 10 db minor -> minor <= 999 ->
    exists s' stk' hd len, Conn.step (Run s stk) (ACall (OpWriteHeaders code hs)) = Run s' stk' /\ st s' = Completed /\
      written (log s') = written (log s) ++ hd /\ RespLength (mkAns code hs (-1)) len /\
      forall c x l F, Waits DConnected c -> head_method (cr_method (c_req c)) = true ->
        receiving_run cstep (CRun c []) l -> arrived l ++ F = hd ++ x ->
        exists got, filter (fun h => negb (special h)) got = filter (fun h => negb (special h)) hs /\
        exists c' stkc obs, crun (CRun c []) l = CRun c' stkc /\ c_log c' = c_log c ++ obs /\
          ((c_pending c' = true /\ (filter said obs = [] \/ filter said obs = [CHeaders code got]) /\
            (stkc = [] -> c_in c' = [] -> exists y, y <> [] /\ arrived l ++ y = hd)) \/
           (c_pending c' = false /\ filter said obs = [CHeaders code got; CFinished NoError code got []] /\
            exists c'', cstep (CRun c' stkc) CaReturn = CRun c'' [] /\ c_log c'' = c_log c' /\
              (keeps r (mkAns code hs (-1)) len = true /\ c_timeout c' <> 0 -> Keeps (c_req c) c'') /\
              (~ (keeps r (mkAns code hs (-1)) len = true /\ c_timeout c' <> 0) -> GaveUp c''))).
  Proof.
    intros H Hs Hc Hh Hl CA N1 HR V Da Ma Db Mb.
    assert (HI : int_length code hs (-1)) by (intros len RL; specialize (Hl len RL); unfold INT_MIN, INT_MAX; lia).
    destruct (C11_writeHeaders s stk r code hs H Hs Hc HI) as (len & hd & s' & stk' & RL & RHd & E & _ & _ & W).
    rewrite Hh, orb_true_r in W. destruct W as (W1 & _ & W3).
    exists s', stk', hd, len. split; [exact E|]. split; [exact W1|]. split; [rewrite W3, written_app; cbn [written]; now rewrite app_nil_r|]. split; [exact RL|].
    intros c x l F Wt NH Q EF.
    refine (C49_head zlib gunzip parse_url r (mkAns code hs (-1)) len hd major minor da db c x l F RL RHd CA _ N1 V Da Ma Db Mb _ Wt NH Q EF).
    - specialize (Hl len RL). unfold max_length. lia.
    - eapply Z.le_trans; [apply (head_fits _ _ _ _ RHd); specialize (Hl len RL); lia|exact HR].
  Qed.
End Served.

(** ** A concrete case: an answer of unknown length, in chunks, to a HEAD request *)
Definition head_request : Conn.request := mkReq (lit "HEAD") (lit "/a") (lit "/a") [] [] (lit "HTTP/1.1") [(lit "Host", lit "example.org")] [].
Definition chunked_answer : answer := mkAns 200 [(lit "Transfer-Encoding", lit "chunked"); (lit "Set-Cookie", lit "s=1")] (-1).
Definition chunked_head : bytes := lit "HTTP/1.1 200 OK" ++ CRLF ++ lit "Set-Cookie: s=1" ++ CRLF ++ lit "Transfer-Encoding: chunked" ++ CRLF ++ CRLF.
Definition head_arrives : list caction := [CaArrive (firstn 20 chunked_head); CaReadyRead; CaArrive (skipn 20 chunked_head ++ lit "0"); CaReadyRead; CaReturn].
Lemma C49_head_case :
  let c := state_of (drun cstart head_wait) in let g := drun (CRun c []) head_arrives in
  RespLength chunked_answer (-1) /\ RespHead head_request chunked_answer (-1) chunked_head /\ clean_answer chunked_answer /\
  q_version head_request = lit "HTTP/" ++ lit "1" ++ lit "." ++ lit "1" /\ Digits 10 (lit "1") 1 /\ blen chunked_head <= RespSpec.max_head - 2 /\
  Waits DConnected c /\ head_method (cr_method (c_req c)) = true /\
  receiving_run dstep (CRun c []) head_arrives /\ arrived head_arrives ++ [] = chunked_head ++ lit "0" /\
  keeps head_request chunked_answer (-1) = true /\ c_timeout (state_of g) <> 0 /\ c_pending (state_of g) = false /\
  signals g = [CHeaders 200 [(lit "Set-Cookie", lit "s=1"); (lit "Transfer-Encoding", lit "chunked")]; CFinished NoError 200 [(lit "Set-Cookie", lit "s=1"); (lit "Transfer-Encoding", lit "chunked")] []].
Proof.
  cbn zeta. split; [exact (RL_size chunked_answer eq_refl)|].
  split. { assert (X : In (200, "OK"%string) std_status) by (cbn; auto 10). assert (Y : Canonical 10 (lit "-1") (-1)). { exists (lit "1"). split; [constructor; reflexivity|]. split; [reflexivity|]. split; [reflexivity|]. intros t E. discriminate. }
    pose proof (ConnSpec.RH head_request chunked_answer (-1) _ _ (ST_known 200 _ X) Y) as R. exact R. }
  split; [constructor; [vm_compute; reflexivity|eexists; cbn; auto 40]|]. split; [reflexivity|]. split; [apply dig1; reflexivity|]. split; [vm_compute; discriminate|].
  split; [constructor; vm_compute; reflexivity|]. split; [reflexivity|].
  split; [vm_compute; repeat (split; [repeat split; reflexivity|]); exact Logic.I|]. split; [vm_compute; reflexivity|]. split; [vm_compute; reflexivity|].
  split; [vm_compute; discriminate|]. split; vm_compute; reflexivity.
Qed.

(** A server connection that has announced a HEAD request and whose user code now answers it. *)
Definition head_text : bytes := lit "HEAD /a HTTP/1.1" ++ CRLF ++ lit "Host: h" ++ CRLF ++ CRLF.
Definition head_ready : conn := run_conn [ACall (OpInit (NewDevice true true true head_text)); ACall OpProcess].
Definition head_got : Conn.request := match filter (fun o => match o with OReady _ => true | _ => false end) (log head_ready) with OReady r :: _ => r | _ => head_request end.
Lemma C49_head_served_case :
  let hs := a_headers chunked_answer in
  reached head_ready [KSig SReady] /\ st head_ready = SendingHeaders /\ current head_ready head_got /\ head_req head_got = true /\
  (forall len, RespLength (mkAns 200 hs (-1)) len -> -1 <= len <= 2147483647) /\ clean_answer (mkAns 200 hs (-1)) /\
  head_room head_got hs <= RespSpec.max_head - 2 /\ q_version head_got = lit "HTTP/" ++ lit "1" ++ lit "." ++ lit "1" /\
  match Conn.step (Run head_ready [KSig SReady]) (ACall (OpWriteHeaders 200 hs)) with Run s' _ => written (log s') = chunked_head | _ => False end.
Proof.
  cbn zeta. split; [apply reached_run; vm_compute; reflexivity|]. split; [vm_compute; reflexivity|]. split; [exists []; vm_compute; reflexivity|]. split; [vm_compute; reflexivity|].
  split. { intros len R. inversion R; subst; vm_compute in H; try discriminate. vm_compute. split; discriminate. }
  split; [constructor; [vm_compute; reflexivity|eexists; cbn; auto 40]|]. split; [vm_compute; discriminate|]. split; vm_compute; reflexivity.
Qed.

(** ** Both sides take the same requests for HEAD requests: the client compares the method without regard to case, the
    server with regard to it, but the server announces no request whose method has a small letter. *)
Lemma lower_method (a : ascii) : method_char a = true -> to_lower a = a \/ is_upper a = true.
Proof. destruct a as [[] [] [] [] [] [] [] []]; vm_compute; auto. Qed.
Lemma upper_back (a : ascii) : is_upper a = true -> ascii_of_nat (nat_of_ascii (to_lower a) - 32) = a.
Proof. destruct a as [[] [] [] [] [] [] [] []]; vm_compute; auto; discriminate. Qed.
Lemma upper_not_method (a : ascii) : is_upper a = true -> method_char (to_lower a) = false.
Proof. destruct a as [[] [] [] [] [] [] [] []]; vm_compute; auto; discriminate. Qed.
Lemma lower_same (a b : ascii) : method_char a = true -> is_upper b = true -> to_lower a = to_lower b -> a = b.
Proof.
  intros A B E. destruct (lower_method a A) as [L|U].
  - rewrite L in E. rewrite E, upper_not_method in A by exact B. discriminate.
  - now rewrite <- (upper_back a U), <- (upper_back b B), E.
Qed.
Lemma lower_same_all m : forall t, forallb method_char m = true -> forallb is_upper t = true -> lower m = lower t -> m = t.
Proof.
  induction m as [|a m IH]; intros [|b t] H1 H2 E; try discriminate; [reflexivity|].
  cbn [forallb] in H1, H2. apply andb_prop in H1 as [A1 A2], H2 as [B1 B2]. cbn [lower map] in E. injection E as E1 E2.
  f_equal; [now apply lower_same|now apply IH].
Qed.
Theorem C49_head_method s stk r : reached s stk -> In r (announced (log s)) -> head_method (q_method r) = head_req r.
Proof.
  intros H I. destruct (C01_requests_from_stream _ _ H) as (ms & rest & W & _ & N). rewrite N in I. apply in_map_iff in I as (m & <- & I).
  rewrite Forall_forall in W. pose proof (W m I) as Wm. unfold head_method, head_req. cbn [delivered q_method].
  destruct (beqb (hd_method (m_head m)) (lit "HEAD")) eqn:E; [apply beqb_true in E; rewrite E; reflexivity|].
  destruct (beqb (lower _) _) eqn:F; [|reflexivity]. exfalso. apply beqb_true in F.
  assert (X : hd_method (m_head m) = lit "HEAD") by (apply lower_same_all; [apply (wf_method _ (wfm_head _ Wm))|reflexivity|exact F]).
  rewrite X in E. discriminate.
Qed.
(** head_ready above announced a HEAD request; a client's request whose method is "Head" is refused, without content *)
Definition mixed_wait : list caction := [CaCall (CoRequest (demo "Head")); CaConnected; CaFlushed].
Definition asked (g : ccfg) : bytes := concat (map (fun o => match o with CWrite b => b | _ => [] end) (log_of g)).
Lemma C49_head_method_case :
  reached head_ready [KSig SReady] /\ announced (log head_ready) = [head_got] /\ head_method (q_method head_got) = true /\
  (let s := run_conn [ACall (OpInit (NewDevice true true true (asked (drun cstart mixed_wait)))); ACall OpProcess] in
   announced (log s) = [] /\ written (log s) = lit "HTTP/1.0 400 Bad Request" ++ CRLF ++ lit "Connection: close" ++ CRLF ++ CRLF) /\
  (let s := run_conn [ACall (OpInit (NewDevice true true true (asked (drun cstart head_wait)))); ACall OpProcess] in
   map q_method (announced (log s)) = [lit "HEAD"]).
Proof.
  split; [apply reached_run; vm_compute; reflexivity|]. split; [vm_compute; reflexivity|]. split; [vm_compute; reflexivity|]. cbv zeta.
  split; [split; vm_compute; reflexivity|]. vm_compute. reflexivity.
Qed.
