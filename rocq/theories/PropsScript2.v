(** PROPERTY C71: the response headers given by a script.  Model: ScriptHeaders.v, Script.v, Conn.v. *)
From Verif Require Import Bytes ByteHelpers Thin Helpers ReqGrammar TextSpec ThinProofs ThinFields ThinTop CIProofs HelpersProofs
  Conn ConnSpec ConnView ConnText ConnHead ConnInv ConnStep ConnEnd ConnLog PropsParser PropsConn ConnSend ConnFree PropsConn2 PropsConn3 PropsConn4
  Router Handlers PropsHandlers PropsTransfer Script PropsScript ScriptHeaders.
Open Scope Z_scope.

Lemma fromScript_all o : fromScriptValue o = o.
Proof.
  unfold fromScriptValue. assert (G : forall l acc, fold_left (fun hs (p : bytes * bytes) => hs ++ [(fst p, snd p)]) l acc = acc ++ l).
  { induction l as [|[k v] l IH]; intros acc; cbn [fold_left fst snd]; [now rewrite app_nil_r|]. rewrite IH, <- app_assoc. reflexivity. }
  apply (G o []).
Qed.

Section C71.
  Variables (Val : Type) (isFunction isError toBool : Val -> bool) (str : Val -> bytes) (props : Val -> list (bytes * bytes)).
  Variables (dec : bytes -> bytes) (items : bytes -> list (bytes * bytes)).
  Notation handle := (scriptHandle Val isFunction isError toBool str props dec items).

  (** A script answers a request with a code, an object and a text, and ends without an error.  The head written has, besides
      the lines the connection decides about itself, exactly one line for each property of the object, in their order. *)
  Theorem C71_response : forall (sc : script Val) f c stk r code o text e, reached c stk -> st c = SendingHeaders -> current c r ->
    isFunction f = true -> sc f (requestObject dec items (req c)) = ([jsWriteResponse code o text], e) -> isError (result Val e) = false ->
    Forall clean_header o -> int_length code o (blen text) ->
    exists hd first lines c' stk' more, handle sc f (Run c stk) = (toBool (result Val e), Run c' stk') /\
      log c' = log c ++ OWrite hd :: more /\ parses hd first lines /\ Forall clean_header lines /\
      filter (fun h => negb (special h)) lines = filter (fun h => negb (special h)) o.
  Proof.
    intros sc f c stk r code o text e H Hs Hc Hf Es He Ho HI.
    destruct (C11_writeResponse c stk r code o text H Hs Hc HI) as (len & hd & c' & stk' & RL & RHd & E & _ & Q).
    destruct (C12_well_formed _ _ _ _ RHd (C12_version_clean _ _ _ H Hc) Ho) as (status & digits & lines & _ & _ & P & _ & CL & _ & _ & F).
    assert (L : exists more, log c' = log c ++ OWrite hd :: more).
    { destruct ((len =? 0) || head_req r); [destruct Q as (_ & _ & L); rewrite L; eexists; reflexivity|].
      destruct (_ || (blen text =? 0)); [destruct Q as (_ & _ & L); rewrite L; eexists; reflexivity|].
      destruct Q as (ev & _ & Q). destruct (blen text =? len); [destruct Q as (_ & L & _)|destruct Q as (_ & L & _)]; rewrite L; eexists; reflexivity. }
    destruct L as [more L]. exists hd, (q_version r ++ lit " " ++ status), lines, c', stk', more.
    split; [|repeat (split; [assumption|]); exact F].
    unfold scriptHandle. rewrite Hf, Es. cbn [negb]. unfold scriptEnd. rewrite He. f_equal.
    unfold jsWriteResponse. rewrite fromScript_all. exact E.
  Qed.
  Theorem C71_head : forall (sc : script Val) f c stk r code o e, reached c stk -> st c = SendingHeaders -> current c r ->
    isFunction f = true -> sc f (requestObject dec items (req c)) = ([jsWriteHeaders code o], e) -> isError (result Val e) = false ->
    Forall clean_header o -> int_length code o (-1) ->
    exists hd first lines c' stk' more, handle sc f (Run c stk) = (toBool (result Val e), Run c' stk') /\
      log c' = log c ++ OWrite hd :: more /\ parses hd first lines /\ Forall clean_header lines /\
      filter (fun h => negb (special h)) lines = filter (fun h => negb (special h)) o.
  Proof.
    intros sc f c stk r code o e H Hs Hc Hf Es He Ho HI.
    destruct (C11_writeHeaders c stk r code o H Hs Hc HI) as (len & hd & c' & stk' & RL & RHd & E & _ & _ & Q).
    destruct (C12_well_formed _ _ _ _ RHd (C12_version_clean _ _ _ H Hc) Ho) as (status & digits & lines & _ & _ & P & _ & CL & _ & _ & F).
    assert (L : exists more, log c' = log c ++ OWrite hd :: more).
    { destruct ((len =? 0) || head_req r); destruct Q as (_ & _ & L); rewrite L; eexists; reflexivity. }
    destruct L as [more L]. exists hd, (q_version r ++ lit " " ++ status), lines, c', stk', more.
    split; [|repeat (split; [assumption|]); exact F].
    unfold scriptHandle. rewrite Hf, Es. cbn [negb]. unfold scriptEnd. rewrite He. f_equal.
    unfold jsWriteHeaders. rewrite fromScript_all. exact E.
  Qed.
End C71.

(** the request's headers, given back by the script as they are, are the headers of the request (when they are plain and no name is repeated) *)
Theorem C71_echo : forall dec items r, (forall h, In h (q_headers r) -> plain dec (fst h) /\ plain dec (snd h)) -> NoDup (map fst (q_headers r)) ->
  fromScriptValue (o_headers (requestObject dec items r)) = q_headers r.
Proof.
  intros dec items r Ph ND. rewrite fromScript_all. cbn [requestObject o_headers].
  destruct r as [m u p q f v hs ct]. cbn [q_headers] in *.
  assert (P : forall b, plain dec b -> fromPercent dec b = b) by (intros b [A B]; unfold fromPercent; rewrite qt_percent_id; auto).
  unfold headersObject.
  assert (S : forall l k v, ~ In k (map fst l) -> setProperty k v l = l ++ [(k, v)]).
  { induction l as [|[k' v'] l IH]; intros k w N; [reflexivity|]. cbn [setProperty app map fst] in *. destruct (beqb k' k) eqn:E.
    - apply beqb_true in E. destruct N. left. exact E.
    - f_equal. apply IH. intros I. apply N. right. exact I. }
  assert (G : forall l acc, (forall h, In h l -> plain dec (fst h) /\ plain dec (snd h)) -> NoDup (map fst (acc ++ l)) ->
    fold_left (fun o h => setProperty (dec (fst h)) (fromPercent dec (snd h)) o) l acc = acc ++ l).
  { induction l as [|[k w] l IH]; intros acc Hl N; cbn [fold_left]; [now rewrite app_nil_r|]. cbn [fst snd].
    destruct (Hl (k, w) (or_introl eq_refl)) as [[_ K1] K2]. cbn [fst snd] in *. rewrite K1, P by exact K2.
    rewrite S.
    - rewrite IH, <- app_assoc; [reflexivity|intros h I; apply Hl; right; exact I|]. rewrite <- app_assoc. exact N.
    - rewrite map_app in N. cbn [map fst] in N. apply NoDup_remove_2 in N. rewrite in_app_iff in N. tauto. }
  apply (G hs []); [exact Ph|exact ND].
Qed.

(** a case of C71_response: the script echoes a header of the request under another name *)
Definition js_echo (name from : bytes) (code : Z) (text : bytes) : script jsval :=
  fun _ o => ([jsWriteResponse code [(name, match lookup from (o_headers o) with Some v => v | None => [] end)] text], Returns jsval (JBool true)).
Definition get_next (v : bytes) : bytes := lit "GET /a HTTP/1.1" ++ CRLF ++ lit "X-Next: " ++ v ++ CRLF ++ CRLF.
Definition next_ready (v : bytes) : conn := run_conn [ACall (OpInit (NewDevice true true true (get_next v))); ACall OpProcess].
Definition next_req (v : bytes) : request := mkReq (lit "GET") (lit "/a") (lit "/a") [] [] (lit "HTTP/1.1") [(lit "X-Next", v)] [].
Example C71_case : let c := next_ready (lit "/b") in reached c [KSig SReady] /\ st c = SendingHeaders /\ current c (next_req (lit "/b")) /\
  js_echo (lit "Location") (lit "X-Next") 302 (lit "see there") JFun (requestObject (fun b => b) (fun _ => []) (req c)) =
    ([jsWriteResponse 302 [(lit "Location", lit "/b")] (lit "see there")], Returns jsval (JBool true)) /\
  Forall clean_header [(lit "Location", lit "/b")] /\ int_length 302 [(lit "Location", lit "/b")] 9.
Proof.
  split; [apply reached_run; vm_compute; reflexivity|]. split; [vm_compute; reflexivity|]. split; [exists []; vm_compute; reflexivity|].
  split; [vm_compute; reflexivity|]. split; [repeat constructor; apply cleanb_ok; reflexivity|]. apply int_length_b. vm_compute. reflexivity.
Qed.
(** The request's headers are percent-decoded for the script: a value without any control character becomes one with a line break in
    it, and a script that gives it back as the value of a header lets the client write lines of the response head. *)
Definition injected : bytes := lit "/b%0d%0aSet-Cookie: id=1".
Theorem C71_splitting_refuted : exists c stk r, reached c stk /\ st c = SendingHeaders /\ current c r /\
  q_headers r = [(lit "X-Next", injected)] /\ Forall clean_header (q_headers r) /\
  exists hd first lines c' stk' more, jshandle (js_echo (lit "Location") (lit "X-Next") 302 (lit "see there")) JFun (Run c stk) = (true, Run c' stk') /\
    log c' = log c ++ OWrite hd :: more /\ parses hd first lines /\ Forall clean_header lines /\ In (lit "Set-Cookie", lit "id=1") lines.
Proof.
  exists (next_ready injected), [KSig SReady], (next_req injected).
  split; [apply reached_run; vm_compute; reflexivity|]. split; [vm_compute; reflexivity|]. split; [exists []; vm_compute; reflexivity|].
  split; [reflexivity|]. split; [repeat constructor; apply cleanb_ok; reflexivity|].
  assert (Q : match jshandle (js_echo (lit "Location") (lit "X-Next") 302 (lit "see there")) JFun (Run (next_ready injected) [KSig SReady]) with
              | (b, Run c' _) => b = true /\ log c' = log (next_ready injected) ++
                  OWrite (lit "HTTP/1.1 302 Found" ++ CRLF ++ concat (map ConnSpec.line [(lit "Location", lit "/b"); (lit "Set-Cookie", lit "id=1"); (lit "Content-Length", lit "9"); (lit "Content-Type", lit "text/plain")]) ++ CRLF)
                  :: [OWrite (lit "see there"); OCompleted]
              | _ => False end) by (vm_compute; auto).
  destruct (jshandle _ JFun _) as [b [c' stk'|]]; [|destruct Q]. destruct Q as [-> L].
  eexists _, (lit "HTTP/1.1 302 Found"), _, c', stk', _. split; [reflexivity|]. split; [exact L|]. split; [reflexivity|].
  split; [repeat constructor; apply cleanb_ok; reflexivity|]. right. left. reflexivity.
Qed.
