(** PROPERTIES C11-C17 and C20-C24: what the connection does with the handler's calls.
    [reached c stk], [polite]: see PropsConn.v.  [rlen c] is responseContentLength(), [st c] is state(). *)
From Verif Require Import Bytes ByteHelpers Thin Helpers ReqGrammar TextSpec ThinProofs ThinFields ThinTop CIProofs HelpersProofs
  Conn ConnSpec ConnView ConnText ConnHead ConnInv ConnStep ConnEnd ConnLog PropsParser PropsConn ConnSend ConnFree.
Open Scope Z_scope.

(** a sample connection about to answer a request: GET (HTTP/1.1) *)
Definition ready1 : conn := run_conn [ACall (OpInit (NewDevice true true true text1)); ACall OpProcess].
Lemma ready1_reached : reached ready1 [KSig SReady].
Proof. apply reached_run; vm_compute; reflexivity. Qed.
Lemma ready1_facts : st ready1 = SendingHeaders /\ current ready1 (delivered msg1).
Proof. split; [vm_compute; reflexivity|]. exists []. vm_compute. reflexivity. Qed.

(** ** C11: the head is written at once, in one piece, in the specified format ([RespHead]) *)
Theorem C11_writeHeaders : forall c stk r code hs, reached c stk -> st c = SendingHeaders -> current c r -> int_length code hs (-1) ->
  exists len hd c' stk', RespLength (mkAns code hs (-1)) len /\ RespHead r (mkAns code hs (-1)) len hd /\
    step (Run c stk) (ACall (OpWriteHeaders code hs)) = Run c' stk' /\ rlen c' = len /\ rstatus c' = code /\
    if (len =? 0) || head_req r
    then st c' = Completed /\ stk' = KSig SCompleted :: KCompleted :: KSending :: stk /\ log c' = log c ++ [OWrite hd; OCompleted]
    else st c' = SendingContent /\ stk' = stk /\ log c' = log c ++ [OWrite hd].
Proof. exact writeHeaders_step. Qed.
Theorem C11_writeResponse : forall c stk r code hs content, reached c stk -> st c = SendingHeaders -> current c r -> int_length code hs (blen content) ->
  let a := mkAns code hs (blen content) in
  exists len hd c' stk', RespLength a len /\ RespHead r a len hd /\
    step (Run c stk) (ACall (OpWriteResponse code hs content)) = Run c' stk' /\ rlen c' = len /\
    if (len =? 0) || head_req r
    then st c' = Completed /\ stk' = KSig SCompleted :: KCompleted :: KSending :: KResponse content :: stk /\ log c' = log c ++ [OWrite hd; OCompleted]
    else if (0 <? len) && (len <? blen content) || (blen content =? 0)
    then st c' = SendingContent /\ stk' = stk /\ log c' = log c ++ [OWrite hd]
    else exists ev, piece (chunked_resp r a len) content ev /\
      if blen content =? len
      then st c' = Completed /\ log c' = log c ++ OWrite hd :: ev ++ [OCompleted] /\ stk' = KSig SCompleted :: KCompleted :: stk
      else st c' = SendingContent /\ log c' = log c ++ OWrite hd :: ev /\ stk' = stk.
Proof. intros c stk r code hs content H Hs Hc HI. eapply writeResponse_step; eauto. eapply reached_NF; eauto. Qed.
Example C11_case : reached ready1 [KSig SReady] /\ st ready1 = SendingHeaders /\ current ready1 (delivered msg1) /\
  int_length 404 [(lit "X-Y", lit "z"); (lit "content-LENGTH", lit "12")] (-1).
Proof.
  destruct ready1_facts. split; [apply ready1_reached|]. split; auto. split; auto. apply int_length_b. vm_compute. reflexivity.
Qed.

(** ** C12: the head is well-formed and says what will happen *)
Definition clean (b : bytes) : Prop := ~ In CR b /\ ~ In LF b.
Definition clean_header (h : bytes * bytes) : Prop := clean (fst h) /\ clean (snd h).
Lemma clean_app a b : clean a -> clean b -> clean (a ++ b).
Proof. intros (A1 & A2) (B1 & B2). split; intros I; apply in_app_iff in I as []; auto. Qed.
Definition cleanb (b : bytes) : bool := forallb (fun c => negb (Ascii.eqb c CR) && negb (Ascii.eqb c LF)) b.
Lemma cleanb_ok b : cleanb b = true -> clean b.
Proof.
  unfold cleanb. rewrite forallb_forall. intros H. split; intros I; apply H in I; vm_compute in I; discriminate.
Qed.
Lemma clean_digits b : forallb is_digit b = true -> clean b.
Proof.
  rewrite forallb_forall. intros H. split; intros I; apply H in I; vm_compute in I; discriminate.
Qed.
Lemma clean_lowdigits b : forallb lowdigit b = true -> clean b.
Proof. rewrite forallb_forall. intros H. split; intros I; apply H in I; vm_compute in I; discriminate. Qed.
Lemma clean_canonical base d n : Canonical base d n -> clean d.
Proof.
  intros (ds & _ & -> & H & _). apply clean_lowdigits in H. destruct (n <? 0); auto. apply (clean_app ["-"%char]); auto. now apply cleanb_ok.
Qed.
Lemma reached_version c stk r : reached c stk -> current c r -> clean (q_version r).
Proof.
  intros H (rs & E). destruct (C01_requests_from_stream _ _ H) as (ms & rest & W & A & N). rewrite E in N. symmetry in N.
  apply map_eq_app in N as (m1 & m2 & -> & _ & N). apply map_eq_cons in N as (m & ? & -> & <- & _). apply Forall_elt in W. destruct W as [[] _ _ _].
  cbn [delivered q_version]. unfold version_text. apply clean_app; [now apply cleanb_ok|]. apply clean_app; [apply clean_digits; apply wf_major|].
  apply clean_app; [now apply cleanb_ok|]. apply clean_digits, wf_minor.
Qed.
Lemma clean_status code s : StatusText code s -> clean s.
Proof.
  intros [m I|N]; [|now apply cleanb_ok].
  assert (T : forallb (fun p => cleanb (status_text (fst p) (lit (snd p)))) std_status = true) by (vm_compute; reflexivity).
  rewrite forallb_forall in T. apply cleanb_ok. apply (T _ I).
Qed.

(** [parses hd first lines]: hd is the line [first] and the header lines, each ended by CRLF, then CRLF *)
Definition parses (hd first : bytes) (lines : list (bytes * bytes)) : Prop :=
  hd = first ++ CRLF ++ concat (map (fun h => fst h ++ lit ": " ++ snd h ++ CRLF) lines) ++ CRLF.

Theorem C12_well_formed : forall r a len hd, RespHead r a len hd -> clean (q_version r) -> Forall clean_header (a_headers a) ->
  exists status digits lines, StatusText (a_code a) status /\ Canonical 10 digits len /\
    parses hd (q_version r ++ lit " " ++ status) lines /\ clean (q_version r ++ lit " " ++ status) /\ Forall clean_header lines /\
    filter (named "content-length") lines = (if len =? -1 then [] else [(lit "Content-Length", digits)]) /\
    filter (named "connection") lines =
      (if keeps r a len then (if http11_req r then [] else [(lit "Connection", lit "keep-alive")]) else [(lit "Connection", lit "close")]) /\
    filter (fun h => negb (special h)) lines = filter (fun h => negb (special h)) (a_headers a).
Proof.
  intros r a len hd [status digits HS HD] HV HH.
  set (other := filter (fun h => negb (special h)) (a_headers a)).
  set (lcl := if len =? -1 then [] else [(lit "Content-Length", digits)]).
  set (lct := match last_named "content-type" (a_headers a) with Some h => [h] | None => if 0 <? len then [(lit "Content-Type", lit "text/plain")] else [] end).
  set (lco := if negb (http11_req r) || negb (keeps r a len) then [(lit "Connection", lit (if keeps r a len then "keep-alive" else "close"))] else []).
  set (lte := match last_named "transfer-encoding" (a_headers a) with Some h => if wants_chunked a && negb (chunked_resp r a len) then [] else [h] | None => [] end).
  exists status, digits, (other ++ lcl ++ lct ++ lco ++ lte). split; auto. split; auto.
  assert (LN : forall n h, last_named n (a_headers a) = Some h -> In h (a_headers a) /\ named n h = true).
  { intros n h E. unfold last_named in E. destruct (rev (filter (named n) (a_headers a))) as [|x t] eqn:R; [discriminate|]. injection E as ->.
    assert (I : In h (rev (filter (named n) (a_headers a)))) by (rewrite R; now left). apply in_rev in I. apply filter_In in I. auto. }
  assert (NE : forall n n' h, named n h = true -> lit n <> lit n' -> named n' h = false).
  { unfold named. intros n n' h E D. apply beqb_true in E. rewrite E. destruct (beqb (lit n) (lit n')) eqn:B; auto. apply beqb_true in B. contradiction. }
  assert (SP1 : forall h, In h other -> special h = false) by (intros h I; apply filter_In in I as (_ & I); now destruct (special h)).
  assert (F0 : forall (p : bytes * bytes -> bool) l, (forall h, In h l -> p h = false) -> filter p l = []).
  { intros p l. induction l as [|h l IH]; intros E; cbn; auto. rewrite E by now left. apply IH. intros; apply E; now right. }
  split; [|split; [|split; [|split; [|split]]]].
  - unfold parses. rewrite !map_app, !concat_app, <- !app_assoc. f_equal. f_equal. f_equal. f_equal. fold line. fold other. f_equal.
    unfold lcl, lct, lco, lte. f_equal; [destruct (len =? -1); cbn; now rewrite ?app_nil_r, <- ?app_assoc|].
    f_equal; [destruct (last_named "content-type" (a_headers a)) as [[]|]; [cbn; now rewrite app_nil_r|destruct (0 <? len); reflexivity]|].
    f_equal; [destruct (_ || _); [destruct (keeps r a len); reflexivity|reflexivity]|].
    f_equal. destruct (last_named "transfer-encoding" (a_headers a)) as [[]|]; [|reflexivity]. destruct (_ && _); cbn; now rewrite ?app_nil_r.
  - apply clean_app; auto. apply clean_app; [now apply cleanb_ok|]. eapply clean_status; eauto.
  - assert (L1 : forall n h, last_named n (a_headers a) = Some h -> clean_header h).
    { intros n h E. apply LN in E as (E & _). rewrite Forall_forall in HH. auto. }
    repeat (apply Forall_app; split).
    + apply Forall_forall. intros h I. apply filter_In in I as (I & _). rewrite Forall_forall in HH. auto.
    + unfold lcl. destruct (_ =? _); constructor; auto. split; [now apply cleanb_ok|]. cbn. eapply clean_canonical; eauto.
    + unfold lct. destruct (last_named "content-type" (a_headers a)) eqn:E; [constructor; eauto|]. destruct (_ <? _); constructor; auto. split; now apply cleanb_ok.
    + unfold lco. destruct (_ || _); constructor; auto. destruct (keeps r a len); split; now apply cleanb_ok.
    + unfold lte. destruct (last_named "transfer-encoding" (a_headers a)) eqn:E; [|constructor]. destruct (wants_chunked a && _); constructor; eauto.
  - rewrite !filter_app. rewrite (F0 _ other).
    2: { intros h I. apply SP1 in I. unfold special in I. apply orb_false_iff in I as (I & _). apply orb_false_iff in I as (I & _). now apply orb_false_iff in I as (I & _). }
    replace (filter (named "content-length") lct) with (@nil (bytes * bytes)).
    2: { unfold lct. symmetry. destruct (last_named "content-type" (a_headers a)) as [h|] eqn:E; [|destruct (_ <? _); reflexivity].
         apply LN in E as (_ & E). apply F0. intros h' [<-|[]]. eapply NE; [exact E|discriminate]. }
    replace (filter (named "content-length") lte) with (@nil (bytes * bytes)).
    2: { unfold lte. symmetry. destruct (last_named "transfer-encoding" (a_headers a)) as [h|] eqn:E; [|reflexivity]. destruct (_ && _); [reflexivity|].
         apply LN in E as (_ & E). apply F0. intros h' [<-|[]]. eapply NE; [exact E|discriminate]. }
    unfold lcl, lco. destruct (len =? -1), (_ || _), (keeps r a len); reflexivity.
  - rewrite !filter_app. rewrite (F0 _ other).
    2: { intros h I. apply SP1 in I. unfold special in I. apply orb_false_iff in I as (I & _). now apply orb_false_iff in I as (_ & I). }
    replace (filter (named "connection") lct) with (@nil (bytes * bytes)).
    2: { unfold lct. symmetry. destruct (last_named "content-type" (a_headers a)) as [h|] eqn:E; [|destruct (_ <? _); reflexivity].
         apply LN in E as (_ & E). apply F0. intros h' [<-|[]]. eapply NE; [exact E|discriminate]. }
    replace (filter (named "connection") lte) with (@nil (bytes * bytes)).
    2: { unfold lte. symmetry. destruct (last_named "transfer-encoding" (a_headers a)) as [h|] eqn:E; [|reflexivity]. destruct (_ && _); [reflexivity|].
         apply LN in E as (_ & E). apply F0. intros h' [<-|[]]. eapply NE; [exact E|discriminate]. }
    unfold lcl, lco. destruct (len =? -1), (http11_req r), (keeps r a len); reflexivity.
  - rewrite !filter_app.
    assert (FI : filter (fun h => negb (special h)) other = other).
    { unfold other. generalize (a_headers a) as l. induction l as [|h l IH]; cbn; auto. destruct (special h) eqn:E; cbn; rewrite ?E; cbn; congruence. }
    rewrite FI. rewrite <- (app_nil_r other) at 2. f_equal.
    replace (filter (fun h => negb (special h)) lct) with (@nil (bytes * bytes)).
    2: { unfold lct. symmetry. destruct (last_named "content-type" (a_headers a)) as [h|] eqn:E; [|destruct (_ <? _); reflexivity].
         apply LN in E as (_ & E). apply F0. intros h' [<-|[]]. unfold special. rewrite E. now rewrite orb_true_r. }
    replace (filter (fun h => negb (special h)) lte) with (@nil (bytes * bytes)).
    2: { unfold lte. symmetry. destruct (last_named "transfer-encoding" (a_headers a)) as [h|] eqn:E; [|reflexivity]. destruct (_ && _); [reflexivity|].
         apply LN in E as (_ & E). apply F0. intros h' [<-|[]]. unfold special. rewrite E. now rewrite orb_true_r. }
    unfold lcl, lco. destruct (len =? -1), (http11_req r), (keeps r a len); reflexivity.
Qed.
(** exactly one head: no other first line and header lines, free of CR, make up a beginning of the same bytes *)
Lemma line_cut (a b x y : bytes) : ~ In CR a -> ~ In CR b -> a ++ CRLF ++ x = b ++ CRLF ++ y -> a = b /\ x = y.
Proof.
  revert b. induction a as [|c a IH]; intros [|d b] Ha Hb E; cbn in *.
  - injection E as E. auto.
  - exfalso. injection E as <- _. apply Hb. now left.
  - exfalso. injection E as -> _. apply Ha. now left.
  - injection E as <- E. destruct (IH b) as (-> & ->); auto.
Qed.
Theorem C12_one_head : forall hd first lines first' lines' more, parses hd first lines -> clean first -> Forall clean_header lines ->
  parses (hd ++ more) first' lines' -> ~ In CR first' -> Forall (fun h => ~ In CR (fst h) /\ ~ In CR (snd h)) lines' ->
  first = first' /\ map line lines = map line lines' /\ more = [].
Proof.
  unfold parses. intros hd first lines first' lines' more -> (C & _) CL E C' CL'. rewrite <- !app_assoc in E.
  apply line_cut in E as (-> & E); auto. split; auto. clear C C' first'.
  assert (LC : forall h, clean_header h \/ (~ In CR (fst h) /\ ~ In CR (snd h)) -> ~ In CR (fst h ++ lit ": " ++ snd h)).
  { intros h H I. assert (~ In CR (fst h) /\ ~ In CR (snd h)) as (A & B) by (destruct H as [((? & _) & (? & _))|]; auto).
    apply in_app_iff in I as [I|I]; auto. apply in_app_iff in I as [I|I]; auto. cbn in I. intuition discriminate. }
  revert lines' CL' E. induction lines as [|h lines IH]; intros [|h' lines'] CL' E; cbn [map concat app] in E.
  - unfold CRLF in E; cbn in E; injection E as E. auto.
  - exfalso. inversion_clear CL' as [|? ? H1]. destruct h' as [f v]. cbn [fst snd] in *. unfold CRLF in E at 1. cbn [app] in E.
    destruct f as [|x f]; cbn in E; [discriminate|]. injection E as E0 E1. destruct H1 as (H1 & _). apply H1. subst x. now left.
  - exfalso. inversion_clear CL as [|? ? H1]. destruct h as [f v]. cbn [fst snd] in *. rewrite <- !app_assoc in E.
    destruct f as [|x f]; cbn in E; [discriminate|]. injection E as E0 E1. destruct H1 as ((H1 & _) & _). apply H1. subst x. now left.
  - inversion_clear CL as [|? ? H1 H2]. inversion_clear CL' as [|? ? H1' H2'].
    assert (E' : (fst h ++ lit ": " ++ snd h) ++ CRLF ++ concat (map (fun h => fst h ++ lit ": " ++ snd h ++ CRLF) lines) ++ CRLF ++ more
      = (fst h' ++ lit ": " ++ snd h') ++ CRLF ++ concat (map (fun h => fst h ++ lit ": " ++ snd h ++ CRLF) lines') ++ CRLF) by (etransitivity; [|etransitivity; [exact E|]]; now rewrite <- !app_assoc).
    apply (line_cut (fst h ++ lit ": " ++ snd h) (fst h' ++ lit ": " ++ snd h')) in E' as (E1 & E2); auto. destruct (IH H2 lines' H2' E2) as (M & ->). split; auto. cbn [map]. rewrite M. f_equal.
    unfold line. rewrite !app_assoc. rewrite !app_assoc in E1. now rewrite E1.
Qed.
(** the head written by a call in any reachable state meets the hypotheses of C12_well_formed *)
Theorem C12_version_clean : forall c stk r, reached c stk -> current c r -> clean (q_version r).
Proof. exact reached_version. Qed.
Example C12_case : Forall clean_header [(lit "X-Y", lit "z"); (lit "Content-Length", lit "12")] /\ clean (q_version (delivered msg1)).
Proof. split; [repeat constructor; apply cleanb_ok; reflexivity|apply cleanb_ok; reflexivity]. Qed.
