(** PROPERTIES C20-C24. *)
From Verif Require Import Bytes ByteHelpers Thin Helpers ReqGrammar TextSpec ThinProofs ThinFields ThinTop CIProofs HelpersProofs
  Conn ConnSpec ConnView ConnText ConnHead ConnInv ConnStep ConnEnd ConnLog PropsParser PropsConn ConnSend ConnFree PropsConn2 PropsConn3.
Open Scope Z_scope.

(** ** C20: content does not leak into the next response *)
(** a writeResponse call is sane unless it gives content to a response that cannot have any: to a HEAD request, or
    together with a Content-Length: 0 header *)
Definition sane (c : conn) (a : action) : Prop :=
  match a with
  | ACall (OpWriteResponse code hs content) => st c = SendingHeaders -> content = [] \/
      forall r len, current c r -> RespLength (mkAns code hs (blen content)) len -> q_method r <> lit "HEAD" /\ len <> 0
  | _ => True
  end.
Fixpoint sane_run (g : cfg) (l : list action) {struct l} : Prop :=
  match l with
  | [] => True
  | a :: t => (match g with Run c stk => sane c a | UB _ _ => True end) /\ sane_run (step g a) t
  end.
(** actions other than the calls that write what the handler gives *)
Definition not_writing (a : action) : bool :=
  match a with
  | ACall (OpWriteResponse _ _ _) | ACall (OpWriteHeaders _ _) | ACall (OpWriteContent _) | ACall OpEndContent | ACall (OpInit _) => false
  | _ => true
  end.
(** the texts the connection writes of its own: 100-continue and error answers *)
Definition own_text (b : bytes) : Prop :=
  b = continue_text \/ exists s, b = lit "HTTP/1.0 " ++ s ++ CRLF ++ lit "Connection: close" ++ CRLF ++ CRLF.
Definition own (o : obs) : Prop := match o with OWrite b => own_text b | _ => True end.

Lemma app_inj_tl {A} (f : A) t : f :: t <> t.
Proof. intros E. apply (f_equal (@length A)) in E. cbn in E. lia. Qed.
Lemma step_sane c stk a : reached c stk -> Forall no_content stk -> polite c stk a -> sane c a ->
  match step (Run c stk) a with Run c' stk' => reached c' stk' /\ Forall no_content stk' | UB r _ => r = SharedNullWrite end.
Proof.
  intros H N HP HS.
  assert (X : match step (Run c stk) a with Run _ stk' => Forall no_content stk' | UB r _ => r <> UseAfterFree end).
  { pose proof (reached_NF _ _ H) as HN. pose proof (reached_inv _ _ H) as HI. pose proof (reached_settled' _ _ H) as HT.
    pose proof (step_free no_content (fun r => r <> UseAfterFree)) as S.
    assert (HF : forall f, (forall x, f <> KResponse x) -> no_content f) by (intros [ | | | | | |[|x y]| ] Hf; cbn; auto; now apply (Hf (x :: y))).
    specialize (S HF (fun r h => h) c stk a HI HT HN N (or_intror N) HP).
    assert (Y : (match a with ACall (OpWriteResponse code hs content) => st c = SendingHeaders -> no_content (KResponse content) /\ (UseAfterFree <> UseAfterFree \/ content = []) | _ => True end) ->
      match step (Run c stk) a with Run _ stk' => Forall no_content stk' | UB r _ => r <> UseAfterFree end).
    { intros Y. specialize (S Y). destruct (step (Run c stk) a); auto. apply S. }
    destruct a as [[]| | | |]; try (apply Y; exact I). cbn in HS.
    destruct (cst_eqb (st c) SendingHeaders) eqn:E.
    - apply cst_eqb_eq in E. destruct (HS E) as [->|HS']; [apply Y; cbn; auto|].
      destruct (reached_SH _ _ H E) as (ms & m & more & l & SH1).
      assert (Cu : current c (delivered m)) by (exists (announced l); rewrite (sh_log _ _ _ _ _ SH1); now apply last_ready).
      destruct (C11_writeResponse _ _ _ _ _ _ H E Cu HP) as (len & hd & c' & stk' & RL & RH & -> & _ & R).
      destruct (HS' _ _ Cu RL) as (H1 & H2). replace ((len =? 0) || head_req (delivered m)) with false in R.
      2: { symmetry. apply orb_false_iff. split; [now apply Z.eqb_neq|]. now apply beqb_false. }
      destruct ((0 <? len) && _ || _); [destruct R as (_ & -> & _); auto|]. destruct R as (ev & _ & R).
      destruct (_ =? _); destruct R as (_ & _ & ->); auto. constructor; cbn; auto. constructor; cbn; auto.
    - apply Y. intros E'. rewrite E' in E. discriminate. }
  pose proof (step_ok (Run c stk) a (reached_inv _ _ H) HP) as G. destruct (step (Run c stk) a) as [c' stk'|r c'] eqn:E.
  - split; auto. eapply reached_step; eauto.
  - cbn in G. destruct G; auto. contradiction.
Qed.
Lemma run_sane l : forall c stk, reached c stk -> Forall no_content stk -> polite_run (Run c stk) l -> sane_run (Run c stk) l ->
  match run (Run c stk) l with Run c' stk' => reached c' stk' /\ Forall no_content stk' | UB r _ => r = SharedNullWrite end.
Proof.
  induction l as [|a l IH]; intros c stk H N HP HS; [cbn; auto|]. cbn [run fold_left]. fold (run (step (Run c stk) a) l).
  cbn [polite_run sane_run] in *. destruct HP as (HP & HP'). destruct HS as (HS & HS').
  pose proof (step_sane c stk a H N HP HS) as S. destruct (step (Run c stk) a) as [c' stk'|r c'].
  - destruct S. now apply IH.
  - clear - S. induction l; cbn; auto.
Qed.
Lemma start_reached : reached conn0 [].
Proof. exists []. now split. Qed.
(** In histories of sane calls nothing but the connection's own texts is written outside of the writing calls
    themselves, and released storage is never read.  (What the calls write: C11, C13, C14.) *)
Theorem C20_no_leak_partial : forall l c stk a, polite_run start l -> sane_run start l -> run start l = Run c stk ->
  not_writing a = true -> polite c stk a ->
  (exists e, log (gconn (step (Run c stk) a)) = log c ++ e /\ Forall own e) /\ (forall c', step (Run c stk) a <> UB UseAfterFree c').
Proof.
  intros l c stk a HP HS E HN HA. pose proof (run_sane l conn0 [] start_reached (Forall_nil _) HP HS) as R. change (Run conn0 []) with start in R. rewrite E in R.
  destruct R as (H & N). split.
  - assert (P1 : forall s, own (OWrite (error_text s))) by (intros s; right; exists s; reflexivity).
    assert (P2 : own (OWrite (lit "HTTP/1.1 100 Continue" ++ CRLF ++ CRLF))) by (left; reflexivity).
    assert (K : forall t, Forall no_content t -> forall c, adds own c (resume t c)) by (intros; apply adds_resume; cbn; auto).
    assert (Q : adds own c (step (Run c stk) a) \/ log (gconn (step (Run c stk) a)) = log c).
    { destruct a as [o| |b|n|n]; cbn [step].
      - left. destruct o; cbn [do_op not_writing] in *; try discriminate.
        + apply adds_processInput; cbn; auto.
        + apply adds_toClosed; cbn; auto.
        + apply adds_flush; cbn; auto.
        + apply adds_drain; cbn; auto.
      - destruct stk as [|[s| | | | | | | ] t]; try (right; reflexivity). left. inversion_clear N. auto.
      - right. now destruct (_ && _).
      - right. reflexivity.
      - cbv zeta. csimp. destruct (drain_conn c); [|right; reflexivity]. left. eapply adds_quiet; [|apply adds_drain; cbn; auto]. now split. }
    destruct Q as [((e & Q1 & Q2) & _)|Q]; eauto. exists []. rewrite app_nil_r. auto.
  - intros c' E'. pose proof (step_sane c stk a H N HA) as S. rewrite E' in S. assert (sane c a) by (destruct a as [[]| | | |]; cbn in *; auto; discriminate).
    specialize (S H0). discriminate.
Qed.
(** the calls of C20_no_leak_partial occur: answering two pipelined requests from their slots *)
Definition two_gets : bytes := text1 ++ text1.
Definition sane_list : list action := [ACall (OpInit (NewDevice true true true two_gets)); ACall OpProcess; ACall (OpWriteResponse 200 [] (lit "one")); AReturn;
  ACall (OpWriteResponse 200 [] (lit "two"))].
Lemma sane_nonzero c code hs content : (forall r, current c r -> q_method r <> lit "HEAD") -> resp_len hs (blen content) <> 0 ->
  sane c (ACall (OpWriteResponse code hs content)).
Proof. intros H N _. right. intros r len Hc RL. split; [auto|]. apply RespLength_fun in RL. cbn in RL. now subst len. Qed.
Lemma current_last c rs r0 : announced (log c) = rs ++ [r0] -> forall r, current c r -> r = r0.
Proof. intros E r (rs' & E'). rewrite E in E'. apply app_inj_tail in E' as (_ & E'). auto. Qed.
Example C20_case : polite_run start sane_list /\ sane_run start sane_list /\ (exists c stk, run start sane_list = Run c stk) /\ not_writing AReturn = true.
Proof.
  assert (X : forall c code content r0, announced (log c) = removelast (announced (log c)) ++ [r0] -> q_method r0 <> lit "HEAD" -> content <> [] ->
    sane c (ACall (OpWriteResponse code [] content))).
  { intros c code content r0 E N Nc. apply sane_nonzero. { intros r Hr. now rewrite (current_last _ _ _ E r Hr). } unfold resp_len. cbn. apply blen_pos in Nc. lia. }
  split; [apply politeb_run_ok; vm_compute; reflexivity|]. split; [|split; [eexists _, _; vm_compute; reflexivity|reflexivity]].
  unfold sane_list. split; [exact I|]. split; [destruct (step _ _); exact I|]. split.
  { destruct (step (step start _) _) as [c stk|] eqn:E; [|exact I]. eapply (X c 200 (lit "one") (delivered msg1)); [|discriminate|discriminate].
    assert (E' : announced (log (gconn (Run c stk))) = [delivered msg1]) by (rewrite <- E; vm_compute; reflexivity). cbn [gconn] in E'. rewrite E'. reflexivity. }
  split; [destruct (step _ _); exact I|]. split; [|exact I].
  destruct (step (step (step (step start _) _) _) _) as [c stk|] eqn:E; [|exact I]. eapply (X c 200 (lit "two") (delivered msg1)); [|discriminate|discriminate].
  assert (E' : announced (log (gconn (Run c stk))) = [delivered msg1; delivered msg1]) by (rewrite <- E; vm_compute; reflexivity). cbn [gconn] in E'. rewrite E'. reflexivity.
Qed.
(** The full claim is false: "LEAK", given to writeResponse for the first request together with a
    "Content-Length: 0" header, is written as the content of the response to the second request. *)
Theorem C20_leak_refuted :
  let before := [ACall (OpInit (NewDevice true true true two_gets)); ACall OpProcess;
    ACall (OpWriteResponse 200 [(lit "Content-Length", lit "0")] (lit "LEAK")); AReturn;
    ACall (OpWriteHeaders 200 [(lit "Content-Length", lit "4")])] in
  polite_run start before /\ exists c stk c' stk' pre r hd, run start before = Run c stk /\ log c = pre ++ [OCompleted; OReady r; OWrite hd] /\
    step (Run c stk) AReturn = Run c' stk' /\ log c' = log c ++ [OWrite (lit "LEAK"); OCompleted].
Proof.
  split; [apply politeb_run_ok; vm_compute; reflexivity|]. eexists _, _, _, _, [_; _], _, _. repeat (split; [vm_compute; reflexivity|]). vm_compute. reflexivity.
Qed.
(** and released storage is read: the storage of the first request is gone when its writeResponse resumes *)
Theorem C20_use_after_free_refuted :
  let l := [ACall (OpInit (NewDevice true true true (lit "POST / HTTP/1.1" ++ CRLF ++ CRLF ++ lit "GET"))); ACall OpProcess;
    ACall (OpWriteResponse 200 [(lit "Content-Length", lit "0")] (lit "x")); AReturn] in
  polite_run start l /\ exists c, run start l = UB UseAfterFree c.
Proof. split; [apply politeb_run_ok; vm_compute; reflexivity|]. eexists. vm_compute. reflexivity. Qed.

(** ** C22: null devices *)
Theorem C22_no_null_deref_partial : forall l r c, polite_run start l -> run start l = UB r c -> r <> NullInput /\ r <> NullOutput.
Proof. intros l r c HP E. pose proof (run_ok l start start_ok HP) as G. rewrite E in G. cbn in G. destruct G; subst; split; discriminate. Qed.
(** what polite (ConnInv.v) excludes: initialize() other than on a new or closed connection, or inside of a slot;
    close() while requestCompleted or the flush after it is being delivered; lengths outside of int (C24).
    close() in the slot of requestCompleted of a kept connection dereferences the null input device: *)
Theorem C22_close_in_completed_refuted :
  let l := [ACall (OpInit (NewDevice true true true text1)); ACall OpProcess; ACall (OpWriteResponse 200 [] []);
            ACall OpClose; AReturn; AReturn] in
  exists c, run start l = UB NullInput c.
Proof. eexists. vm_compute. reflexivity. Qed.
Example C22_case : polite_run start sample /\ exists c, run start sample = Run c [].
Proof. split; [apply politeb_run_ok; vm_compute; reflexivity|]. eexists. vm_compute. reflexivity. Qed.

(** ** C23: the status line *)
Theorem C23_known : forall c stk r code hs m, reached c stk -> st c = SendingHeaders -> current c r -> int_length code hs (-1) ->
  In (code, m) std_status ->
  exists rest c' stk' more, step (Run c stk) (ACall (OpWriteHeaders code hs)) = Run c' stk' /\
    log c' = log c ++ OWrite (q_version r ++ lit " " ++ three code ++ lit " " ++ lit m ++ CRLF ++ rest) :: more.
Proof.
  intros c stk r code hs m H Hs Hc HI HK. destruct (writeHeaders_step _ _ _ _ _ H Hs Hc HI) as (len & hd & c' & stk' & HL & HH & E & _ & _ & X).
  destruct HH as [status digits HST HD]. cbn [a_code] in *.
  assert (status = status_text code (lit m)) as ->.
  { destruct HST as [m' HK'|N]; [|exfalso; eapply N; eauto]. assert (U : NoDup (map fst std_status)) by (repeat constructor; vm_compute; intuition discriminate).
    f_equal. f_equal. clear - HK HK' U. revert HK HK' U. generalize std_status as l. induction l as [|[x y] l IH]; [contradiction|]; intros [A|A] [B|B] U; cbn in *; inversion_clear U as [|? ? U1 U2].
    - congruence. - exfalso. apply U1. injection A as -> ->. apply (in_map fst) in B. exact B.
    - exfalso. apply U1. injection B as -> ->. apply (in_map fst) in A. exact A. - auto. }
  unfold status_text in X. rewrite <- !app_assoc in X. destruct (_ || _); destruct X as (_ & _ & X); eexists _, c', stk', _; (split; [exact E|exact X]).
Qed.
(** an unknown code gives a line without any code *)
Theorem C23_unknown : forall c stk r code hs, reached c stk -> st c = SendingHeaders -> current c r -> int_length code hs (-1) ->
  (forall m, ~ In (code, m) std_status) ->
  exists rest c' stk' more, step (Run c stk) (ACall (OpWriteHeaders code hs)) = Run c' stk' /\
    log c' = log c ++ OWrite (q_version r ++ lit " Internal Server Error" ++ CRLF ++ rest) :: more.
Proof.
  intros c stk r code hs H Hs Hc HI HK. destruct (writeHeaders_step _ _ _ _ _ H Hs Hc HI) as (len & hd & c' & stk' & HL & HH & E & _ & _ & X).
  destruct HH as [status digits HST HD]. cbn [a_code] in *.
  assert (status = lit "Internal Server Error") as -> by (destruct HST as [m' HK'|N]; [exfalso; eapply HK; eauto|auto]).
  change (lit " Internal Server Error") with (lit " " ++ lit "Internal Server Error").
  destruct (_ || _); destruct X as (_ & _ & X); eexists _, c', stk', _; (split; [exact E|]); rewrite <- !app_assoc; exact X.
Qed.
Theorem C23_unknown_refuted : exists c stk c' stk' rest more, reached c stk /\ step (Run c stk) (ACall (OpWriteHeaders 299 [])) = Run c' stk' /\
  log c' = log c ++ OWrite (lit "HTTP/1.1 Internal Server Error" ++ CRLF ++ rest) :: more.
Proof.
  exists ready1, [KSig SReady]. eexists _, _, _, _. split; [apply ready1_reached|]. split; [vm_compute; reflexivity|].
  vm_compute. reflexivity.
Qed.
Example C23_case : reached ready1 [KSig SReady] /\ st ready1 = SendingHeaders /\ In (404, "Not Found"%string) std_status /\ (forall m, ~ In (299, m) std_status).
Proof.
  split; [apply ready1_reached|]. split; [apply ready1_facts|]. split; [vm_compute; tauto|].
  intros m H. assert (T : forallb (fun p => negb (fst p =? 299)) std_status = true) by (vm_compute; reflexivity).
  rewrite forallb_forall in T. apply T in H. discriminate.
Qed.

(** ** C24: the Content-Length header *)
(** for lengths that fit in an int *)
Theorem C24_value_partial : forall c stk r code hs, reached c stk -> st c = SendingHeaders -> current c r -> int_length code hs (-1) -> Forall clean_header hs ->
  exists len hd first lines c' stk' more, RespLength (mkAns code hs (-1)) len /\
    step (Run c stk) (ACall (OpWriteHeaders code hs)) = Run c' stk' /\ log c' = log c ++ OWrite hd :: more /\ parses hd first lines /\
    Forall clean_header lines /\
    (len <> -1 -> exists digits, Canonical 10 digits len /\ filter (named "content-length") lines = [(lit "Content-Length", digits)]).
Proof.
  intros c stk r code hs H Hs Hc HI HC. destruct (writeHeaders_step _ _ _ _ _ H Hs Hc HI) as (len & hd & c' & stk' & HL & HH & E & _ & _ & X).
  destruct (C12_well_formed _ _ _ _ HH (C12_version_clean _ _ _ H Hc) HC) as (status & digits & lines & H1 & H2 & H3 & H4 & H5 & H6 & _).
  exists len, hd, (q_version r ++ lit " " ++ status), lines, c', stk'.
  assert (M : exists more, log c' = log c ++ OWrite hd :: more) by (destruct (_ || _); destruct X as (_ & _ & X); eauto).
  destruct M as (more & M). exists more. repeat (split; auto). intros N. exists digits. split; auto.
  replace (len =? -1) with false in H6; auto. symmetry. now apply Z.eqb_neq.
Qed.
Theorem C24_truncated_refuted : exists c stk c' stk' before after, reached c stk /\
  step (Run c stk) (ACall (OpWriteHeaders 200 [(lit "Content-Length", lit "4294967297")])) = Run c' stk' /\
  log c' = log c ++ [OWrite (before ++ lit "Content-Length: 1" ++ CRLF ++ after)] /\ rlen c' = 4294967297.
Proof.
  exists ready1, [KSig SReady]. eexists _, _, (lit "HTTP/1.1 200 OK" ++ CRLF), _. split; [apply ready1_reached|]. split; [vm_compute; reflexivity|].
  split; [vm_compute; reflexivity|vm_compute; reflexivity].
Qed.
Theorem C24_undefined_refuted : exists c stk c', reached c stk /\
  step (Run c stk) (ACall (OpWriteHeaders 200 [(lit "Content-Length", lit "2147483648")])) = UB IntMinNegation c'.
Proof. exists ready1, [KSig SReady]. eexists. split; [apply ready1_reached|]. vm_compute. reflexivity. Qed.
Example C24_case : int_length 200 [(lit "content-LENGTH", lit "2147483647")] (-1) /\ Forall clean_header [(lit "content-LENGTH", lit "2147483647")].
Proof. split; [apply int_length_b; vm_compute; reflexivity|]. repeat constructor; apply cleanb_ok; reflexivity. Qed.
