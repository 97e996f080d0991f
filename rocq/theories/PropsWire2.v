(** C49, continued: connection and parser joined; what does not hold. *)
From Verif Require Import Bytes ByteHelpers Helpers TextSpec ReqGrammar Conn ConnSpec ConnInv ConnLog ConnSend PropsConn PropsConn2
  Joyent RespParser RespSpec RespFeed RespBody RespWhole PropsResp PropsResp2 PropsWire.
Open Scope Z_scope.

(** the size of a head: at most that of the version and the headers given, and 123 bytes *)
Definition head_room (r : request) (hs : list header) : Z := blen (q_version r) + blen (concat (map line hs)) + 123.
Lemma dec_length s n : Digits 10 s n -> (forall t, s <> "0"%char :: t) -> 10 ^ (blen s - 1) <= n.
Proof.
  induction 1 as [c d Hd Hl|s n c d Hs IH Hd Hl]; intros N.
  - replace (blen [c] - 1) with 0 by reflexivity. rewrite Z.pow_0_r. apply (first_digit c); auto. intros ->. now apply (N []).
  - assert (N' : forall t, s <> "0"%char :: t) by (intros t ->; eapply N; reflexivity).
    specialize (IH N'). rewrite blen_app. change (blen [c]) with 1.
    assert (1 <= blen s) by (destruct s; [now apply HelpersProofs.Digits_nil in Hs|rewrite blen_cons; pose proof (blen_nonneg s); lia]).
    replace (blen s + 1 - 1) with (Z.succ (blen s - 1)) by lia. rewrite Z.pow_succ_r by lia.
    assert (0 <= d). { pose proof (forall_bytes (fun c => match digit_val c with Some d => 0 <=? d | None => true end) ltac:(vm_compute; reflexivity) c) as G. cbn beta in G. rewrite Hd in G. now apply Z.leb_le. }
    lia.
Qed.
Lemma lines_in h hs : In h hs -> blen (line h) <= blen (concat (map line hs)).
Proof.
  induction hs as [|x hs IH]; intros I; [destruct I|]. cbn [map concat]. rewrite blen_app. pose proof (blen_nonneg (line x)). pose proof (blen_nonneg (concat (map line hs))).
  destruct I as [->|I]; [lia|]. apply IH in I. lia.
Qed.
Lemma lines_split (f g k : header -> bool) hs : (forall h, f h = true -> g h = false /\ k h = false) -> (forall h, g h = true -> k h = false) ->
  blen (concat (map line (filter f hs))) + blen (concat (map line (filter g hs))) + blen (concat (map line (filter k hs))) <= blen (concat (map line hs)).
Proof.
  intros F G. induction hs as [|x hs IH]; [cbn; lia|]. cbn [filter map concat]. rewrite blen_app. pose proof (blen_nonneg (line x)).
  destruct (f x) eqn:Fx; [destruct (F _ Fx) as [-> ->]; cbn [map concat]; rewrite blen_app; lia|].
  destruct (g x) eqn:Gx; [rewrite (G _ Gx); cbn [map concat]; rewrite blen_app; lia|].
  destruct (k x); cbn [map concat]; rewrite ?blen_app; lia.
Qed.
Lemma head_fits r a len hd : RespHead r a len hd -> -1 <= len <= 2147483647 -> blen hd <= head_room r (a_headers a).
Proof.
  intros [status digits ST CN] L. unfold head_room. rewrite !blen_app.
  assert (B1 : blen status <= 40).
  { destruct ST as [m I|_]; [|vm_compute; discriminate].
    assert (G : forallb (fun x => blen (status_text (fst x) (lit (snd x))) <=? 40) std_status = true) by (vm_compute; reflexivity).
    rewrite forallb_forall in G. specialize (G _ I). cbn [fst snd] in G. now apply Z.leb_le. }
  assert (B2 : blen (if len =? -1 then [] else lit "Content-Length: " ++ digits ++ CRLF) <= 28).
  { destruct (Z.eqb_spec len (-1)); [cbn; lia|]. rewrite !blen_app. change (blen (lit "Content-Length: ")) with 16. change (blen CRLF) with 2.
    pose proof (canon_digits _ _ _ CN ltac:(lia)) as D. destruct CN as (ds & D' & E & _ & Z0). destruct (Z.ltb_spec len 0); [lia|]. subst ds.
    destruct digits as [|c t]; [rewrite blen_nil; lia|]. destruct (Ascii.eqb_spec c "0").
    - subst c. rewrite (Z0 t eq_refl). cbn. lia.
    - assert (Q : 10 ^ (blen (c :: t) - 1) <= len) by (apply dec_length; auto; intros; congruence).
      destruct (Z.leb_spec (blen (c :: t)) 10); [lia|]. exfalso.
      assert (10 ^ 10 <= 10 ^ (blen (c :: t) - 1)) by (apply Z.pow_le_mono_r; lia). assert (X : 2147483647 < 10 ^ 10) by reflexivity. lia. }
  assert (B3 : blen (if negb (http11_req r) || negb (keeps r a len) then lit (if keeps r a len then "Connection: keep-alive" else "Connection: close") ++ CRLF else []) <= 24).
  { destruct (_ || _); [|cbn; lia]. destruct (keeps r a len); vm_compute; discriminate. }
  assert (B4 : blen (concat (map line (filter (fun h => negb (special h)) (a_headers a)))) +
    blen match last_named "content-type" (a_headers a) with Some h => line h | None => if 0 <? len then lit "Content-Type: text/plain" ++ CRLF else [] end +
    blen match last_named "transfer-encoding" (a_headers a) with Some h => if wants_chunked a && negb (ConnSpec.chunked_resp r a len) then [] else line h | None => [] end
    <= blen (concat (map line (a_headers a))) + 26).
  { pose proof (lines_split (fun h => negb (special h)) (named "content-type") (named "transfer-encoding") (a_headers a)) as S.
    assert (S1 : forall name, match last_named name (a_headers a) with Some h => blen (line h) | None => 0 end <= blen (concat (map line (filter (named name) (a_headers a))))).
    { intros name. destruct (last_named name (a_headers a)) eqn:E; [|apply blen_nonneg]. apply last_named_in in E as [I N]. apply lines_in. now apply filter_In. }
    pose proof (S1 "content-type"%string) as S2. pose proof (S1 "transfer-encoding"%string) as S3.
    specialize (S ltac:(intros h Q; apply negb_true_iff in Q; unfold special in Q; apply orb_false_iff in Q as [Q Q4]; apply orb_false_iff in Q as [Q Q3]; apply orb_false_iff in Q as [Q1 Q2]; auto)).
    specialize (S ltac:(intros h Q; unfold named in *; apply beqb_true in Q; rewrite Q; reflexivity)).
    pose proof (blen_nonneg (concat (map line (filter (named "transfer-encoding") (a_headers a))))).
    destruct (last_named "content-type" (a_headers a)) as [h1|]; destruct (last_named "transfer-encoding" (a_headers a)) as [h2|];
      try (destruct (wants_chunked a && _)); try (destruct (0 <? len)); change (blen (lit "Content-Type: text/plain" ++ CRLF)) with 26; change (blen []) with 0; unfold header in *; lia. }
  change (blen (lit " ")) with 1. change (blen CRLF) with 2. unfold header, bytes in *. lia.
Qed.

(** C49: after writeResponse(status, headers, content), whatever the connection did before, the bytes it sent are read back
    by a parser waiting for a response as exactly this status, these headers and this content, however they are cut *)
Theorem C49_writeResponse c stk r code hs content major minor : reached c stk -> st c = SendingHeaders -> current c r ->
  last_named "content-length" hs = None -> blen content <= 2147483647 ->
  let a := mkAns code hs (blen content) in readable r a (blen content) content major minor ->
  head_room r hs <= RespSpec.max_head - 2 ->
  exists c' stk' sent got, step (Run c stk) (ACall (OpWriteResponse code hs content)) = Run c' stk' /\ st c' = Completed /\
    written (log c') = written (log c) ++ sent /\
    filter (fun h => negb (special h)) got = filter (fun h => negb (special h)) hs /\
    (forall p, waiting p -> read_exactly p sent major minor code got content).
Proof.
  intros H Hs Hc N L a RB HH.
  assert (HI : int_length code hs (blen content)).
  { intros len RL. inversion RL; subst; cbn in *; [|congruence|congruence]. pose proof (blen_nonneg content). unfold INT_MIN, INT_MAX. lia. }
  destruct (C11_writeResponse c stk r code hs content H Hs Hc HI) as (len & hd & c' & stk' & RL & RH1 & E & _ & W).
  assert (len = blen content) as -> by (inversion RL; subst; cbn in *; congruence).
  pose proof (blen_nonneg content) as P.
  assert (NHd : head_req r = false) by apply (rb_nohead _ _ _ _ _ _ RB).
  assert (X : exists sent, written (log c') = written (log c) ++ hd ++ sent /\ st c' = Completed /\ Encoded (framing_of r a (blen content)) content sent).
  { unfold framing_of. fold a in W. rewrite NHd, orb_false_r in W |- *. destruct (Z.eqb_spec (blen content) 0) as [Z0|NZ].
    - destruct W as (W1 & _ & W3). exists []. rewrite W3, written_app. cbn [written]. rewrite !app_nil_r. split; auto. split; auto.
      destruct content; [constructor|rewrite blen_cons in Z0; pose proof (blen_nonneg content); lia].
    - rewrite Z.ltb_irrefl, andb_false_r, orb_false_r in W. destruct W as (ev & Pc & W). rewrite Z.eqb_refl in W. destruct W as (W1 & W2 & _).
      unfold ConnSpec.chunked_resp in Pc. destruct (Z.eqb_spec (blen content) (-1)); [lia|]. rewrite andb_false_r in Pc. cbn in Pc. subst ev.
      exists content. rewrite W2, written_app. cbn [written app]. rewrite !app_nil_r. split; [reflexivity|]. split; auto.
      destruct (Z.ltb_spec 0 (blen content)); [|lia]. apply En_fixed. intros Q. subst content. now apply NZ. }
  destruct X as (sent & EW & ES & EN).
  assert (FR : framing_of r a (blen content) <> UntilClose).
  { unfold framing_of. rewrite NHd. destruct (Z.eqb_spec (blen content) 0); [discriminate|]. destruct (Z.ltb_spec 0 (blen content)); [discriminate|lia]. }
  destruct (C49_response r a (blen content) hd content sent major minor RL RH1 EN FR RB ltac:(eapply Z.le_trans; [apply (head_fits _ _ _ _ RH1); lia|exact HH])) as (got & U & G).
  exists c', stk', (hd ++ sent), got. auto.
Qed.
(** on a real connection *)
Example C49_writeResponse_case :
  let r := delivered msg1 in let a := mkAns 404 [(lit "X-Y", lit "a b"); (lit "Content-Type", lit "text/html")] 5 in
  reached ready1 [KSig SReady] /\ st ready1 = SendingHeaders /\ current ready1 r /\ last_named "content-length" (a_headers a) = None /\
  readable r a 5 (lit "hello") 1 1 /\ head_room r (a_headers a) <= RespSpec.max_head - 2 /\
  written (log (match step (Run ready1 [KSig SReady]) (ACall (OpWriteResponse (a_code a) (a_headers a) (lit "hello"))) with Run c _ => c | UB _ c => c end))
    = lit "HTTP/1.1 404 Not Found" ++ CRLF ++ lit "X-Y: a b" ++ CRLF ++ lit "Content-Length: 5" ++ CRLF ++ lit "Content-Type: text/html" ++ CRLF ++ CRLF ++ lit "hello".
Proof.
  cbn zeta. destruct ready1_facts. split; [apply ready1_reached|]. split; auto. split; auto. split; [reflexivity|]. split; [|split].
  - constructor; [constructor; [vm_compute; reflexivity|eexists; cbn; auto 40]|reflexivity| |vm_compute; discriminate].
    exists (lit "1"), (lit "1"). split; [reflexivity|]. split; [apply dig1; reflexivity|]. split; [lia|]. split; [apply dig1; reflexivity|lia].
  - vm_compute. discriminate.
  - vm_compute. reflexivity.
Qed.

(** ** The conditions in [readable] are needed: what writeResponse sends is read back as something else *)
Definition sent_by (code : Z) (hs : list header) (content : bytes) : bytes :=
  written (log (match step (Run ready1 [KSig SReady]) (ACall (OpWriteResponse code hs content)) with Run c _ => c | UB _ c => c end)).
(** an Upgrade header in the response: the content is lost *)
Theorem C49_upgrade_refuted : exists p n, inject rfresh (sent_by 200 [(lit "Upgrade", lit "h2c")] (lit "abc")) = Some (p, n) /\ hasError p = false /\ r_content p = [] /\ In RComplete (r_log p).
Proof. eexists _, _. split; [vm_compute; reflexivity|]. vm_compute. intuition. Qed.
(** a blank after "chunked": the server sends a Content-Length and plain content, the client reads it as chunks *)
Theorem C49_blank_refuted : exists p n, inject rfresh (sent_by 200 [(lit "Transfer-Encoding", lit "chunked ")] (lit "hello")) = Some (p, n) /\ hasError p = true.
Proof. eexists _, _. split; vm_compute; reflexivity. Qed.
(** a Proxy-Connection header: the client stops reading after this response although the server keeps the connection *)
Theorem C49_proxy_refuted : exists p n, inject rfresh (sent_by 200 [(lit "Proxy-Connection", lit "close")] (lit "hello") ++ sent_by 200 [] (lit "x")) = Some (p, n) /\ hasError p = false /\ n < blen (sent_by 200 [(lit "Proxy-Connection", lit "close")] (lit "hello") ++ sent_by 200 [] (lit "x")) /\ keeps (delivered msg1) (mkAns 200 [(lit "Proxy-Connection", lit "close")] 5) 5 = true.
Proof. eexists _, _. split; [vm_compute; reflexivity|]. vm_compute. auto. Qed.
(** an unknown status: the status line written has no number, the client refuses it *)
Theorem C49_unknown_status_refuted : exists p n, inject rfresh (sent_by 299 [] (lit "hello")) = Some (p, n) /\ hasError p = true.
Proof. eexists _, _. split; vm_compute; reflexivity. Qed.
(** not needed: a status for which HTTP allows no content; both sides count the content *)
Example C49_bodyless_case : exists p n, inject rfresh (sent_by 304 [] (lit "hello")) = Some (p, n) /\ hasError p = false /\ r_content p = lit "hello".
Proof. eexists _, _. split; vm_compute; auto. Qed.

(** ** A stream that meets the conditions of [C49_stream]: an answer of known length, then a chunked one *)
Definition ans1 : answer := mkAns 404 [(lit "X-Y", lit "a b")] 5.
Definition ans2 : answer := mkAns 200 [(lit "Transfer-Encoding", lit "chunked"); (lit "Set-Cookie", lit "s=1")] (-1).
Definition log12 : list obs :=
  log (run_conn [ACall (OpInit (NewDevice true true true (text1 ++ text1))); ACall OpProcess;
    ACall (OpWriteResponse 404 (a_headers ans1) (lit "hello")); AReturn; AReturn;
    ACall (OpWriteHeaders 200 (a_headers ans2)); ACall (OpWriteContent (lit "abcdefghijklmnopq")); ACall (OpWriteContent (lit "xyz")); ACall OpEndContent]).
Lemma canon_one b c d : digit_val c = Some d -> 0 <= d -> d < b -> lowdigit c = true -> Canonical b [c] d.
Proof.
  intros H P L W. exists [c]. rewrite Z.abs_eq by lia. destruct (Z.ltb_spec d 0); [lia|]. split; [now constructor|]. split; auto. cbn. rewrite W. split; auto.
  intros t E. now injection E.
Qed.
Lemma readable1 a len content : forallb clean_header (a_headers a) = true -> (exists m, In (a_code a, m) std_status) -> blen content <= max_length ->
  readable (delivered msg1) a len content 1 1.
Proof.
  intros H1 H2 H3. constructor; [now constructor|reflexivity| |auto].
  exists (lit "1"), (lit "1"). split; [reflexivity|]. split; [apply dig1; reflexivity|]. split; [lia|]. split; [apply dig1; reflexivity|lia].
Qed.
Example C49_stream_case : Served [(delivered msg1, ans1, lit "hello"); (delivered msg1, ans2, lit "abcdefghijklmnopqxyz")] log12.
Proof.
  set (r := delivered msg1).
  set (hd1 := lit "HTTP/1.1 404 Not Found" ++ CRLF ++ lit "X-Y: a b" ++ CRLF ++ lit "Content-Length: 5" ++ CRLF ++ lit "Content-Type: text/plain" ++ CRLF ++ CRLF).
  assert (H1 : RespHead r ans1 5 hd1).
  { refine (eq_ind _ (RespHead r ans1 5) (ConnSpec.RH r ans1 5 (status_text 404 (lit "Not Found")) (lit "5") ltac:(apply ST_known; cbn; auto 40) ltac:(apply canon_one; try reflexivity; lia)) _ _). vm_compute. reflexivity. }
  assert (A1 : Answering r ans1 5 [lit "hello"] (OWrite hd1 :: [] ++ [OWrite (lit "hello")])).
  { apply Answer; [apply RL_size; reflexivity|exact H1| |vm_compute; discriminate].
    change (framing_of r ans1 5) with (FixedLength 5). apply (CE_snoc _ []); [constructor|discriminate|constructor]. }
  pose proof (Sv_snoc [] [] r ans1 5 _ _ 1 1 Sv_nil A1 eq_refl eq_refl) as S1.
  assert (B1 : readable r ans1 5 (concat [lit "hello"]) 1 1) by (apply readable1; [reflexivity|eexists; cbn; auto 40|vm_compute; discriminate]).
  specialize (S1 B1 ltac:(intros h e' E; injection E as <- _; vm_compute; discriminate)).
  assert (CM : Canonical 10 (lit "-1") (-1)).
  { exists (lit "1"). split; [apply dig1; reflexivity|]. split; [reflexivity|]. split; [reflexivity|]. intros t E. discriminate. }
  assert (C17 : Canonical 16 (lit "11") 17).
  { exists (lit "11"). split; [apply (D_more 16 (lit "1") 1 "1"%char 1); try reflexivity; constructor; reflexivity|]. split; [reflexivity|]. split; [reflexivity|]. intros t E. discriminate. }
  set (hd2 := lit "HTTP/1.1 200 OK" ++ CRLF ++ lit "Set-Cookie: s=1" ++ CRLF ++ lit "Transfer-Encoding: chunked" ++ CRLF ++ CRLF).
  assert (H2 : RespHead r ans2 (-1) hd2).
  { refine (eq_ind _ (RespHead r ans2 (-1)) (ConnSpec.RH r ans2 (-1) (status_text 200 (lit "OK")) (lit "-1") ltac:(apply ST_known; cbn; auto 40) CM) _ _). vm_compute. reflexivity. }
  assert (A2 : Answering r ans2 (-1) [lit "abcdefghijklmnopq"; lit "xyz"]
    (OWrite hd2 :: ([] ++ [OWrite (lit "11" ++ CRLF); OWrite (lit "abcdefghijklmnopq"); OWrite CRLF]) ++ [OWrite (lit "3" ++ CRLF); OWrite (lit "xyz"); OWrite CRLF])).
  { apply Answer; [apply RL_size; reflexivity|exact H2| |exact I].
    change (framing_of r ans2 (-1)) with ChunkedContent.
    apply (CE_snoc _ [lit "abcdefghijklmnopq"]); [apply (CE_snoc _ []); [constructor|discriminate|now constructor]|discriminate|].
    constructor. apply canon_one; try reflexivity. vm_compute; discriminate. }
  pose proof (Sv_snoc _ _ r ans2 (-1) _ _ 1 1 S1 A2 I eq_refl) as G.
  refine (eq_ind _ (Served _) (G _ _) _ _).
  - apply readable1; [reflexivity|eexists; cbn; auto 40|vm_compute; discriminate].
  - intros h e' E. injection E as <- _. vm_compute. discriminate.
  - vm_compute. reflexivity.
Qed.
