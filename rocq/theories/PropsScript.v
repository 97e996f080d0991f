(** PROPERTIES C64, C65, C66: handlers written in Qt Script.  Model: Script.v. *)
From Verif Require Import Bytes ByteHelpers Thin Helpers ReqGrammar TextSpec ThinProofs ThinFields ThinTop CIProofs HelpersProofs
  Conn ConnSpec ConnView ConnText ConnHead ConnInv ConnStep ConnEnd ConnLog PropsParser PropsConn ConnSend ConnFree PropsConn2 PropsConn3 PropsConn4
  Router Handlers PropsHandlers PropsTransfer Script.
Open Scope Z_scope.

(** ** C64: what a script leaves behind *)
Section C64.
  Variables (Val : Type) (isFunction isError toBool : Val -> bool) (str : Val -> bytes) (props : Val -> list (bytes * bytes)).
  Variables (dec : bytes -> bytes) (items : bytes -> list (bytes * bytes)).
  Notation handle := (scriptHandle Val isFunction isError toBool str props dec items).
  Notation script := (script Val).
  Notation ending := (ending Val).

  (** something that is no function declines every request and touches nothing *)
  Theorem C64_not_a_function : forall (sc : script) f g, isFunction f = false -> handle sc f g = (false, g).
  Proof. intros sc f g H. unfold scriptHandle. rewrite H. reflexivity. Qed.

  (** The script ran on the connection [c] of request [r], did [l] and ended with [e], which left the connection at [c1]. *)
  Definition ran (sc : script) (f : Val) (c : conn) (stk : list frame) (r : request) (l : list action) (e : ending) (c1 : conn) (stk1 : list frame) : Prop :=
    reached c stk /\ st c = SendingHeaders /\ current c r /\ isFunction f = true /\
    sc f (requestObject dec items (req c)) = (l, e) /\ polite_run (Run c stk) l /\ run (Run c stk) l = Run c1 stk1.

  Lemma polite_run_app l : forall g l', polite_run g l -> polite_run (run g l) l' -> polite_run g (l ++ l').
  Proof. induction l as [|a l IH]; intros g l' A B; [exact B|]. destruct A as [A1 A2]. split; [exact A1|]. apply IH; auto. Qed.
  Lemma reached_more c stk l c1 stk1 : reached c stk -> polite_run (Run c stk) l -> run (Run c stk) l = Run c1 stk1 -> reached c1 stk1.
  Proof.
    intros (l0 & P & E) Pl El. exists (l0 ++ l). split.
    - apply polite_run_app; auto. now rewrite E.
    - unfold run in *. now rewrite fold_left_app, E.
  Qed.

  (** A script that ends without an error decides whether the request was handled, and nothing is added to what it did. *)
  Theorem C64_value : forall sc f c stk r l e c1 stk1, ran sc f c stk r l e c1 stk1 -> isError (result Val e) = false ->
    handle sc f (Run c stk) = (toBool (result Val e), Run c1 stk1).
  Proof.
    intros sc f c stk r l e c1 stk1 (_ & _ & _ & Hf & Es & _ & Er) He. unfold scriptHandle. rewrite Hf, Es. cbn [negb].
    unfold scriptEnd. rewrite He, Er. reflexivity.
  Qed.
  Lemma error_answers sc f c stk l e c1 stk1 r : isFunction f = true -> sc f (requestObject dec items (req c)) = (l, e) -> run (Run c stk) l = Run c1 stk1 ->
    reached c1 stk1 -> isError (result Val e) = true -> st c1 = SendingHeaders -> current c1 r -> blen (objectToString Val str props (result Val e)) <= INT_MAX ->
    exists g', handle sc f (Run c stk) = (true, g') /\
      exists hd c' stk' text, RespHead r (mkAns 500 [] (blen text)) (blen text) hd /\ g' = Run c' stk' /\ st c' = Completed /\
        text = objectToString Val str props (result Val e) /\
        log c' = log c1 ++ OWrite hd :: (if head_req r then [] else [OWrite text]) ++ [OCompleted].
  Proof.
    intros Hf Es Er H1 He Hs1 Hc1 Hl. eexists. split.
    - unfold scriptHandle. rewrite Hf, Es. cbn [negb]. unfold scriptEnd. rewrite He, Er, Hs1. cbn [cst_eqb]. reflexivity.
    - destruct (writeResponse_answers c1 stk1 r 500 _ H1 Hs1 Hc1 Hl) as (hd & c' & stk' & R & E & S & L).
      exists hd, c', stk', (objectToString Val str props (result Val e)). split; [exact R|]. split; [exact E|]. split; [exact S|].
      split; [reflexivity|]. rewrite L. f_equal. f_equal. f_equal.
      replace (beqb (objectToString Val str props (result Val e)) []) with false; [reflexivity|].
      symmetry. apply beqb_false. unfold objectToString. destruct (str (result Val e)); discriminate.
  Qed.
  (** A script that ends with an error before anything of the response was sent: the client gets a complete 500 response
      with the text of the error, and nothing else. *)
  Theorem C64_error_answered : forall sc f c stk r l e c1 stk1, ran sc f c stk r l e c1 stk1 -> isError (result Val e) = true ->
    st c1 = SendingHeaders -> announced (log c1) = announced (log c) -> blen (objectToString Val str props (result Val e)) <= INT_MAX ->
    exists g', handle sc f (Run c stk) = (true, g') /\
      exists hd c' stk' text, RespHead r (mkAns 500 [] (blen text)) (blen text) hd /\ g' = Run c' stk' /\ st c' = Completed /\
        (exists more, text = str (result Val e) ++ more) /\
        log c' = log c1 ++ OWrite hd :: (if head_req r then [] else [OWrite text]) ++ [OCompleted].
  Proof.
    intros sc f c stk r l e c1 stk1 (Hr & Hs & Hc & Hf & Es & Pl & Er) He Hs1 Ha Hl.
    pose proof (reached_more _ _ _ _ _ Hr Pl Er) as H1.
    assert (Hc1 : current c1 r) by (destruct Hc as [rs Hc]; exists rs; congruence).
    destruct (error_answers sc f c stk l e c1 stk1 r Hf Es Er H1 He Hs1 Hc1 Hl) as (g' & E & hd & c' & stk' & text & A & B & C & D & L).
    exists g'. split; [exact E|]. exists hd, c', stk', text. rewrite D. unfold objectToString at 3. rewrite D in *. repeat (split; eauto).
  Qed.
  (** An error after the response began adds nothing to it; the request counts as handled. *)
  Theorem C64_error_too_late : forall sc f c stk r l e c1 stk1, ran sc f c stk r l e c1 stk1 -> isError (result Val e) = true ->
    st c1 <> SendingHeaders -> handle sc f (Run c stk) = (true, Run c1 stk1).
  Proof.
    intros sc f c stk r l e c1 stk1 (_ & _ & _ & Hf & Es & _ & Er) He Hs1. unfold scriptHandle. rewrite Hf, Es. cbn [negb].
    unfold scriptEnd. rewrite He, Er. destruct (cst_eqb (st c1) SendingHeaders) eqn:Q; [|reflexivity]. apply cst_eqb_eq in Q. congruence.
  Qed.
End C64.

(** a small interpreter: values are functions, error objects, booleans, texts *)
Inductive jsval := JFun | JErr (m : bytes) | JBool (b : bool) | JText (t : bytes).
Definition js_fun (v : jsval) : bool := match v with JFun => true | _ => false end.
Definition js_err (v : jsval) : bool := match v with JErr _ => true | _ => false end.
Definition js_bool (v : jsval) : bool := match v with JBool b => b | JText t => negb (beqb t []) | _ => true end.
Definition js_str (v : jsval) : bytes := match v with JErr m => lit "Error: " ++ m | JText t => t | JBool b => if b then lit "true" else lit "false" | JFun => lit "function" end.
Notation jshandle := (scriptHandle jsval js_fun js_err js_bool js_str (fun _ => []) (fun b => b) (fun _ => [])).

Example C64_case : exists c1 stk1, ran jsval js_fun (fun b => b) (fun _ => []) (fun _ _ => ([], Throws jsval (JErr (lit "oops")))) JFun ready1 [KSig SReady] (delivered msg1) [] (Throws jsval (JErr (lit "oops"))) c1 stk1 /\
  st c1 = SendingHeaders /\ announced (log c1) = announced (log ready1).
Proof.
  destruct ready1_facts as [A B]. exists ready1, [KSig SReady]. split; [|auto]. split; [apply ready1_reached|]. repeat (split; auto).
Qed.
(** throwing something that is not an Error object: the request counts as handled, and is never answered *)
Theorem C64_thrown_refuted : exists sc c stk r, reached c stk /\ st c = SendingHeaders /\ current c r /\
  (forall o, sc JFun o = ([], Throws jsval (JText (lit "out of luck")))) /\ jshandle sc JFun (Run c stk) = (true, Run c stk).
Proof.
  exists (fun _ _ => ([], Throws jsval (JText (lit "out of luck")))), ready1, [KSig SReady], (delivered msg1).
  destruct ready1_facts as [A B]. split; [apply ready1_reached|]. split; [exact A|]. split; [exact B|]. split; [auto|]. reflexivity.
Qed.
(** An error after the response was complete, when the next request has already arrived and its handler has not answered yet: the
    500 goes to that request. *)
Definition get_a : bytes := lit "GET /a HTTP/1.1" ++ CRLF ++ CRLF.
Definition get_b : bytes := lit "GET /b HTTP/1.1" ++ CRLF ++ CRLF.
Definition two_ready : conn := run_conn [ACall (OpInit (NewDevice true true true (get_a ++ get_b))); ACall OpProcess].
Definition two_acts : list action := [ACall (OpWriteResponse 200 [] (lit "fine")); AReturn; AReturn].
Definition req_b : request := mkReq (lit "GET") (lit "/b") (lit "/b") [] [] (lit "HTTP/1.1") [] [].
Definition two_later : conn := run_conn [ACall (OpInit (NewDevice true true true (get_a ++ get_b))); ACall OpProcess; ACall (OpWriteResponse 200 [] (lit "fine")); AReturn; AReturn].
Lemma two_later_run : run (Run two_ready [KSig SReady]) two_acts = Run two_later [KSig SReady].
Proof. vm_compute. reflexivity. Qed.
Lemma two_later_reached : reached two_later [KSig SReady].
Proof. apply reached_run; vm_compute; reflexivity. Qed.
Lemma two_later_st : st two_later = SendingHeaders.
Proof. vm_compute. reflexivity. Qed.
Lemma two_later_current : current two_later req_b.
Proof. eexists [_]. vm_compute. reflexivity. Qed.
Lemma two_later_log : exists before, log two_later = before ++ [OReady req_b].
Proof. eexists [_; _; _; _]. vm_compute. reflexivity. Qed.
Lemma two_later_facts : In OCompleted (log two_later) /\ announced (log two_later) = announced (log two_ready) ++ [req_b].
Proof. vm_compute. auto 10. Qed.
Theorem C64_misdirected_refuted : exists sc l c stk r r', reached c stk /\ st c = SendingHeaders /\ current c r /\
  (forall o, sc JFun o = (l, Throws jsval (JErr (lit "oops")))) /\ polite_run (Run c stk) l /\
  (forall c1 stk1, run (Run c stk) l = Run c1 stk1 -> In OCompleted (log c1) /\ announced (log c1) = announced (log c) ++ [r'] /\ q_path r' = lit "/b") /\
  exists hd c2 stk2, jshandle sc JFun (Run c stk) = (true, Run c2 stk2) /\ RespHead r' (mkAns 500 [] 12) 12 hd /\
    exists before, log c2 = before ++ [OReady r'; OWrite hd; OWrite (lit "Error: oops" ++ [LF]); OCompleted].
Proof.
  exists (fun _ _ => (two_acts, Throws jsval (JErr (lit "oops")))), two_acts, two_ready, [KSig SReady], (mkReq (lit "GET") (lit "/a") (lit "/a") [] [] (lit "HTTP/1.1") [] []), req_b.
  split; [apply reached_run; vm_compute; reflexivity|]. split; [vm_compute; reflexivity|]. split; [exists []; vm_compute; reflexivity|]. split; [auto|].
  split; [apply politeb_run_ok; vm_compute; reflexivity|]. split.
  - intros c1 stk1 E. rewrite two_later_run in E. apply (f_equal (fun g => match g with Run x _ => x | UB _ x => x end)) in E. cbn iota beta in E. subst c1.
    destruct two_later_facts. split; [assumption|]. split; [assumption|reflexivity].
  - destruct (error_answers jsval js_fun js_err js_bool js_str (fun _ => []) (fun b => b) (fun _ => []) (fun _ _ => (two_acts, Throws jsval (JErr (lit "oops")))) JFun two_ready [KSig SReady] two_acts
      (Throws jsval (JErr (lit "oops"))) two_later [KSig SReady] req_b eq_refl eq_refl two_later_run two_later_reached eq_refl two_later_st two_later_current ltac:(vm_compute; discriminate))
      as (g' & E & hd & c' & stk' & text & A & B & C & D & L).
    assert (T : text = lit "Error: oops" ++ [LF]) by (rewrite D; reflexivity). clear D. subst text g'.
    exists hd, c', stk'. split; [exact E|]. split; [exact A|]. destruct two_later_log as [before Lb]. exists before. rewrite L, Lb, <- app_assoc. reflexivity.
Qed.

(** ** C65: script files *)
Section C65.
  Variables (Val : Type) (isFunction : Val -> bool).
  Notation moment := (moment Val).
  Notation sfile := (sfile Val).
  Notation loaderror := (loaderror Val).
  (** what handles a request: a function, or the reason why there is none *)
  Definition serve (m : moment) (s : sfile) : sfile * (Val + loaderror) :=
    match refresh Val isFunction m s with
    | (s', Some e) => (s', inr e)
    | (s', None) => (s', inl (sf_function Val s'))
    end.
  Fixpoint serve_all (s : sfile) (ms : list moment) {struct ms} : list (Val + loaderror) :=
    match ms with
    | [] => []
    | m :: t => let '(s', a) := serve m s in a :: serve_all s' t
    end.

  (** the disk at a request: no file, or a file with its time and text; nothing changes while the handler looks at it *)
  Variable eval : bytes -> Val + (bytes -> Val).
  Definition at_rest (d : option (Z * bytes)) : moment :=
    mkM Val (fun _ => option_map fst d) (fun _ => option_map snd d) eval (fun _ => option_map fst d).
  (** what the file says *)
  Definition says_now (fn : bytes) (d : option (Z * bytes)) : Val + loaderror :=
    match d with
    | None => inr (CannotRead Val)
    | Some (_, text) => match eval text with
                        | inl v => inr (EvalError Val v)
                        | inr o => if isFunction (o fn) then inl (o fn) else inr (NotAFunction Val)
                        end
    end.
  (** every change of the file gives it a later time *)
  Definition stamped (ds : list (option (Z * bytes))) : Prop :=
    forall i j t c t' c', (i <= j)%nat -> nth_error ds i = Some (Some (t, c)) -> nth_error ds j = Some (Some (t', c')) -> t <= t' /\ (t = t' -> c = c').

  Definition from_past (fn : bytes) (past : list (option (Z * bytes))) (s : sfile) : Prop :=
    sf_fun Val s = fn /\ sf_auto Val s = true /\
    forall t, sf_mod Val s = Some t -> exists i c, nth_error past i = Some (Some (t, c)) /\ says_now fn (Some (t, c)) = inl (sf_function Val s).

  Lemma current_gen fn : forall ds past s, from_past fn past s -> stamped (past ++ ds) ->
    forall i d, nth_error ds i = Some (Some d) -> nth_error (serve_all s (map at_rest ds)) i = Some (says_now fn (Some d)).
  Proof.
    induction ds as [|d0 ds IH]; intros past s (Hfn & Ha & Hp) Hst i d Hi; [destruct i; discriminate|].
    cbn [map serve_all]. destruct (serve (at_rest d0) s) as [s' a] eqn:E.
    assert (Q : from_past fn (past ++ [d0]) s' /\ (forall x, d0 = Some x -> a = says_now fn (Some x))).
    { unfold serve, refresh, mustLoad in E. rewrite Ha in E. cbn [andb at_rest m_check] in E.
      assert (Keep : from_past fn (past ++ [d0]) s).
      { split; [exact Hfn|]. split; [exact Ha|]. intros t Ht. destruct (Hp t Ht) as (k & c & K1 & K2). exists k, c. split; [|exact K2].
        rewrite nth_error_app1; [exact K1|]. apply nth_error_Some. congruence. }
      assert (Ld : forall sl el, load Val isFunction (at_rest d0) s = (sl, el) -> (s', a) = match el with Some e => (sl, inr e) | None => (sl, inl (sf_function Val sl)) end ->
        from_past fn (past ++ [d0]) s' /\ (forall x, d0 = Some x -> a = says_now fn (Some x))).
      { intros sl el El Es. unfold load in El. cbn [at_rest m_read m_eval m_after] in El. destruct d0 as [[t c]|]; cbn [option_map fst snd] in El.
        - destruct (eval c) as [v|o] eqn:Ev.
          + injection El as <- <-. injection Es as -> ->. split; [exact Keep|]. intros x [= <-]. cbn. rewrite Ev. reflexivity.
          + rewrite Hfn in El. destruct (isFunction (o fn)) eqn:If; cbn [negb] in El; injection El as <- <-; injection Es as -> ->.
            * split; [|intros x [= <-]; cbn; rewrite Ev, If; reflexivity].
              split; [reflexivity|]. split; [exact Ha|]. cbn [sf_mod sf_function]. intros t0 [= <-]. exists (length past), c.
              rewrite nth_error_app2, Nat.sub_diag by lia. split; [reflexivity|]. cbn. rewrite Ev, If. reflexivity.
            * split; [exact Keep|]. intros x [= <-]. cbn. rewrite Ev, If. reflexivity.
        - injection El as <- <-. injection Es as -> ->. split; [exact Keep|]. discriminate. }
      destruct (sf_mod Val s) as [t|] eqn:Em.
      - destruct d0 as [[t0 c0]|]; cbn [option_map fst] in E.
        + destruct (t <? t0) eqn:Lt.
          * destruct (load Val isFunction (at_rest (Some (t0, c0))) s) as [sl el] eqn:El. apply (Ld sl el eq_refl). rewrite <- E. destruct el; reflexivity.
          * injection E as <- <-. split; [exact Keep|]. intros x [= <-]. destruct (Hp t eq_refl) as (k & c & K1 & K2). rewrite <- K2.
            apply Z.ltb_ge in Lt. destruct (Hst k (length past) t c t0 c0) as [S1 S2].
            -- apply Nat.lt_le_incl. apply nth_error_Some. congruence.
            -- rewrite nth_error_app1; [exact K1|]. apply nth_error_Some. congruence.
            -- rewrite nth_error_app2, Nat.sub_diag by lia. reflexivity.
            -- assert (t = t0) by lia. subst t0. rewrite S2; reflexivity.
        + injection E as <- <-. split; [exact Keep|]. discriminate.
      - destruct (load Val isFunction (at_rest d0) s) as [sl el] eqn:El. apply (Ld sl el eq_refl). rewrite <- E. destruct el; reflexivity. }
    destruct Q as [Q1 Q2]. destruct i as [|i]; cbn [nth_error] in *.
    - injection Hi as ->. f_equal. now apply Q2.
    - apply (IH (past ++ [d0])); auto. rewrite <- app_assoc. exact Hst.
  Qed.

  (** With automatic reloading, every request made while the file is there is handled by the function that is in the file then; if
      the file cannot be evaluated or has no such function, that is the answer. *)
  Theorem C65_current : forall name fn undefined ds, stamped ds ->
    forall i d, nth_error ds i = Some (Some d) ->
    nth_error (serve_all (newScriptFile Val name fn true undefined) (map at_rest ds)) i = Some (says_now fn (Some d)).
  Proof.
    intros name fn undefined ds Hst i d Hi. apply (current_gen fn ds []); auto. split; [reflexivity|]. split; [reflexivity|]. discriminate.
  Qed.

  (** Without it, each request is handled by what the file says until a function was found in a file with a time; that function then handles all requests,
      whatever happens to the file. *)
  Lemma once_gen : forall ms (s : sfile), sf_auto Val s = false -> sf_mod Val s <> None -> Forall (fun a => a = inl (sf_function Val s)) (serve_all s ms).
  Proof.
    induction ms as [|m ms IH]; intros s Ha Hm; cbn [serve_all]; [constructor|].
    assert (E : serve m s = (s, inl (sf_function Val s))).
    { unfold serve, refresh, mustLoad. destruct (sf_mod Val s); [|congruence]. rewrite Ha. reflexivity. }
    rewrite E. constructor; [reflexivity|]. apply IH; auto.
  Qed.
  Theorem C65_once : forall name fn undefined ds ms i t c f, nth_error ds i = Some (Some (t, c)) ->
    (forall j d, (j < i)%nat -> nth_error ds j = Some d -> exists e, says_now fn d = inr e) -> says_now fn (Some (t, c)) = inl f ->
    exists before, length before = i /\ (forall j d, (j < i)%nat -> nth_error ds j = Some d -> nth_error before j = Some (says_now fn d)) /\
      forall rest, skipn (S i) ds = rest -> exists after, serve_all (newScriptFile Val name fn false undefined) (map at_rest ds ++ ms) = before ++ inl f :: after /\
        length after = (length rest + length ms)%nat /\ Forall (fun a => a = inl f) after.
  Proof.
    intros name fn undefined ds ms i t c f. unfold newScriptFile.
    revert ds. induction i as [|i IH]; intros ds Hi Hb Hf.
    - exists []. split; [reflexivity|]. split; [intros j d Hj; lia|]. intros rest Hr.
      destruct ds as [|d0 ds]; [discriminate|]. cbn in Hi. injection Hi as ->. cbn [skipn] in Hr. subst rest.
      cbn [map serve_all app]. cbn [says_now] in Hf. destruct (eval c) as [v|o] eqn:Ev; [discriminate|]. destruct (isFunction (o fn)) eqn:If; [|discriminate]. injection Hf as <-.
      assert (E : serve (at_rest (Some (t, c))) (mkSF Val name fn false None undefined) = (mkSF Val name fn false (Some t) (o fn), inl (o fn))).
      { unfold serve, refresh, mustLoad, load. cbn [sf_mod at_rest m_read m_eval m_after option_map fst snd sf_name sf_fun]. rewrite Ev, If. reflexivity. }
      rewrite E. eexists. split; [reflexivity|]. split.
      + assert (L : forall ms s, length (serve_all s ms) = length ms).
        { clear. induction ms as [|m ms IH]; intros s; cbn [serve_all]; [reflexivity|]. destruct (serve m s). cbn [length]. now rewrite IH. }
        rewrite L, app_length, map_length. reflexivity.
      + exact (once_gen (map at_rest ds ++ ms) (mkSF Val name fn false (Some t) (o fn)) eq_refl ltac:(discriminate)).
    - destruct ds as [|d0 ds]; [discriminate|]. cbn [nth_error] in Hi.
      destruct (IH ds Hi) as (before & Bl & Bb & Bs); [intros j d Hj Hd; apply (Hb (S j) d); [lia|exact Hd]|exact Hf|].
      destruct (Hb 0%nat d0 ltac:(lia) eq_refl) as [e He].
      exists (inr e :: before). split; [cbn; lia|]. split.
      + intros [|j] d Hj Hd; cbn [nth_error] in *; [injection Hd as <-; now rewrite He|]. apply Bb; [lia|exact Hd].
      + intros rest Hr. cbn [skipn] in Hr. destruct (Bs rest Hr) as (after & A1 & A2 & A3). exists after. split; [|auto].
        cbn [map app serve_all].
        assert (E : serve (at_rest d0) (mkSF Val name fn false None undefined) = (mkSF Val name fn false None undefined, inr e)).
        { unfold serve, refresh, mustLoad, load. cbn [sf_mod at_rest m_read m_eval m_after sf_name sf_fun]. unfold says_now in He.
          destruct d0 as [[t0 c0]|]; cbn [option_map fst snd]; [|injection He as <-; reflexivity].
          destruct (eval c0) as [v|o]; [injection He as <-; reflexivity|]. destruct (isFunction (o fn)); [discriminate|injection He as <-; reflexivity]. }
        rewrite E, A1. reflexivity.
  Qed.
End C65.

(** what becomes of the request: it goes to the function, or is answered with 500 *)
Theorem C65_handles : forall Val isFunction isError toBool str props dec items message (sc : script Val) m s c stk r,
  reached c stk -> st c = SendingHeaders -> current c r -> (forall e, blen (message e (sf_name Val s)) <= INT_MAX) ->
  match serve Val isFunction m s with
  | (s', inl f) => fileScriptHandle Val isFunction isError toBool str props dec items message sc m s (Run c stk) =
      (scriptHandle Val isFunction isError toBool str props dec items sc f (Run c stk), s')
  | (s', inr e) => exists g', fileScriptHandle Val isFunction isError toBool str props dec items message sc m s (Run c stk) = (true, g', s') /\ s' = s /\
      exists hd c' stk', RespHead r (mkAns 500 [] (blen (message e (sf_name Val s)))) (blen (message e (sf_name Val s))) hd /\ g' = Run c' stk' /\ st c' = Completed /\
        log c' = log c ++ OWrite hd :: (if beqb (message e (sf_name Val s)) [] || head_req r then [] else [OWrite (message e (sf_name Val s))]) ++ [OCompleted]
  end.
Proof.
  intros Val isFunction isError toBool str props dec items message sc m s c stk r H Hs Hc Hm. unfold serve, fileScriptHandle.
  destruct (refresh Val isFunction m s) as [s' [e|]] eqn:E.
  - eexists. split; [reflexivity|]. split.
    + unfold refresh in E. destruct (mustLoad Val m s); [|discriminate]. unfold load in E. destruct (m_read Val m (sf_name Val s)); [|now injection E].
      destruct (m_eval Val m b); [now injection E|]. destruct (negb _); [now injection E|discriminate].
    + destruct (writeResponse_answers c stk r 500 (message e (sf_name Val s)) H Hs Hc (Hm e)) as (hd & c' & stk' & R & E2 & S & L).
      exists hd, c', stk'. cbn [map run fold_left] in E2. auto.
  - destruct (scriptHandle _ _ _ _ _ _ _ _ sc (sf_function Val s') (Run c stk)). reflexivity.
Qed.

(** *** cases and counterexamples: scripts are texts, "f1" and "f2" define functions, anything else is an error *)
Inductive fval := F1 | F2 | FErr | FOther.
Definition f_fun (v : fval) : bool := match v with F1 | F2 => true | _ => false end.
Definition f_eval (t : bytes) : fval + (bytes -> fval) :=
  if beqb t (lit "f1") then inr (fun n => if beqb n (lit "main") then F1 else FOther)
  else if beqb t (lit "f2") then inr (fun n => if beqb n (lit "main") then F2 else FOther) else inl FErr.
Definition sf0 (auto : bool) : sfile fval := newScriptFile fval (lit "a.js") (lit "main") auto FOther.
Example C65_case : let ds := [None; Some (5, lit "f1"); Some (5, lit "f1"); Some (7, lit "oops"); None; Some (8, lit "f2")] in
  stamped ds /\ serve_all fval f_fun (sf0 true) (map (at_rest fval f_eval) ds) =
    [inr (CannotRead fval); inl F1; inl F1; inr (EvalError fval FErr); inl F1; inl F2].
Proof.
  split; [|reflexivity]. intros i j t c t' c' Hij Hi Hj.
  destruct i as [|[|[|[|[|[|[|]]]]]]]; cbn in Hi; try discriminate; injection Hi as <- <-;
  destruct j as [|[|[|[|[|[|[|]]]]]]]; cbn in Hj; try discriminate; injection Hj as <- <-;
    (split; [lia|intros; try lia; reflexivity]).
Qed.
(** a deleted file is still served (fifth request above, and): *)
Theorem C65_deleted_refuted : says_now fval f_fun f_eval (lit "main") None = inr (CannotRead fval) /\
  serve_all fval f_fun (sf0 true) (map (at_rest fval f_eval) [Some (5, lit "f1"); None]) = [inl F1; inl F1].
Proof. split; reflexivity. Qed.
(** two changes within the resolution of the clock: the second one is not seen *)
Theorem C65_same_time_refuted : exists ds, (forall i j t c t' c', (i <= j)%nat -> nth_error ds i = Some (Some (t, c)) -> nth_error ds j = Some (Some (t', c')) -> t <= t') /\
  nth_error ds 1 = Some (Some (5, lit "f2")) /\ nth_error (serve_all fval f_fun (sf0 true) (map (at_rest fval f_eval) ds)) 1 = Some (inl F1).
Proof.
  exists [Some (5, lit "f1"); Some (5, lit "f2")]. split; [|split; reflexivity].
  intros [|[|[|]]] [|[|[|]]] t c t' c' _ Hi Hj; cbn in Hi, Hj; try discriminate; injection Hi as <- <-; injection Hj as <- <-; lia.
Qed.
(** the file is replaced between being read and its time being taken: the old text is used for ever *)
Theorem C65_race_refuted : exists m, m_read fval m (lit "a.js") = Some (lit "f1") /\ m_after fval m (lit "a.js") = Some 6 /\
  forall n, serve_all fval f_fun (sf0 true) (m :: repeat (at_rest fval f_eval (Some (6, lit "f2"))) n) = repeat (inl F1) (S n).
Proof.
  exists (mkM fval (fun _ => Some 5) (fun _ => Some (lit "f1")) f_eval (fun _ => Some 6)). split; [reflexivity|]. split; [reflexivity|].
  set (m := mkM fval _ _ _ _). set (s' := mkSF fval (lit "a.js") (lit "main") true (Some 6) F1).
  assert (E1 : serve fval f_fun m (sf0 true) = (s', inl F1)) by reflexivity.
  assert (E2 : serve fval f_fun (at_rest fval f_eval (Some (6, lit "f2"))) s' = (s', inl F1)) by reflexivity.
  intros n. cbn [serve_all repeat]. rewrite E1. f_equal. induction n as [|n IH]; [reflexivity|]. cbn [repeat serve_all]. rewrite E2. f_equal. exact IH.
Qed.
(** another file name or function name has no effect once a script was loaded *)
Theorem C65_renamed_refuted : exists s, fst (serve fval f_fun (at_rest fval f_eval (Some (5, lit "f1"))) (sf0 true)) = s /\
  snd (serve fval f_fun (at_rest fval f_eval (Some (5, lit "f2"))) (setFileName fval (lit "b.js") s)) = inl F1 /\
  snd (serve fval f_fun (at_rest fval f_eval (Some (5, lit "f1"))) (setFunctionName fval (lit "other") s)) = inl F1.
Proof. eexists. split; [reflexivity|]. split; reflexivity. Qed.

(** ** C66: what a script sees of the request *)
Definition lookup (k : bytes) (o : list (bytes * bytes)) : option bytes := option_map snd (find (fun p => beqb (fst p) k) o).
Lemma setProperty_lookup k v o : forall x, lookup x (setProperty k v o) = if beqb k x then Some v else lookup x o.
Proof.
  induction o as [|[k' v'] o IH]; intros x; cbn [setProperty]; unfold lookup in *; cbn [find fst].
  - destruct (beqb k x); reflexivity.
  - destruct (beqb k' k) eqn:E; cbn [find fst].
    + apply beqb_true in E. subst k'. destruct (beqb k x); reflexivity.
    + destruct (beqb k' x) eqn:E2; [|apply IH]. destruct (beqb k x) eqn:E3; [|reflexivity].
      apply beqb_true in E2, E3. subst. rewrite beqb_refl in E. discriminate.
Qed.
(** the headers as the script sees them: for each name, exactly as it was written, the last value *)
Theorem C66_headers : forall dec hs k,
  lookup k (headersObject dec hs) = option_map (fun h => fromPercent dec (snd h)) (find (fun h => beqb (dec (fst h)) k) (List.rev hs)).
Proof.
  intros dec hs k. unfold headersObject. induction hs as [|h hs IH] using List.rev_ind; [reflexivity|].
  rewrite fold_left_app, rev_app_distr. cbn [fold_left app List.rev find]. rewrite setProperty_lookup.
  destruct (beqb (dec (fst h)) k); [reflexivity|exact IH].
Qed.
(** the query parameters: for each name, the last value Qt finds in the uri of the request *)
Theorem C66_params : forall dec items r k,
  lookup k (o_params (requestObject dec items r)) = option_map snd (find (fun p => beqb (fst p) k) (List.rev (items (q_uri r)))).
Proof.
  intros dec items r k. cbn. unfold paramsObject. induction (items (q_uri r)) as [|[n v] l IH] using List.rev_ind; [reflexivity|].
  rewrite fold_left_app, rev_app_distr. cbn [fold_left app List.rev find fst snd]. rewrite setProperty_lookup.
  destruct (beqb n k); [reflexivity|exact IH].
Qed.
Lemma qt_percent_id b : ~ In "%"%char b -> qt_percent b = b.
Proof.
  assert (G : forall n b, (length b <= n)%nat -> ~ In "%"%char b -> qt_percent b = b).
  { induction n as [|n IH]; intros [|c [|a [|d t]]] L N; try reflexivity; [cbn in L; lia|]. cbn [qt_percent].
    destruct (Ascii.eqb_spec c "%") as [->|_]; [destruct N; left; reflexivity|]. f_equal. 
    change (qt_percent (a :: d :: t) = a :: d :: t). apply IH; [cbn in *; lia|]. intros I. apply N. right. exact I. }
  intros N. eapply G; eauto.
Qed.
(** a request without '%' and with the text of its fields in UTF-8: the script sees all of it, but for repeated headers *)
Definition plain (dec : bytes -> bytes) (b : bytes) : Prop := ~ In "%"%char b /\ dec b = b.
Theorem C66_plain_partial : forall dec items r, plain dec (q_method r) -> plain dec (q_uri r) -> plain dec (q_fragment r) -> plain dec (q_path r) ->
  plain dec (q_query r) -> plain dec (q_content r) -> (forall h, In h (q_headers r) -> plain dec (fst h) /\ plain dec (snd h)) ->
  NoDup (map fst (q_headers r)) ->
  let o := requestObject dec items r in
  o_method o = q_method r /\ o_uri o = q_uri r /\ o_fragment o = q_fragment r /\ o_path o = q_path r /\ o_query o = q_query r /\ o_content o = q_content r /\
  o_headers o = q_headers r.
Proof.
  intros dec items r Pm Pu Pf Pp Pq Pc Ph ND o.
  assert (P : forall b, plain dec b -> fromPercent dec b = b) by (intros b [A B]; unfold fromPercent; rewrite qt_percent_id; auto).
  cbn. rewrite !P by assumption. repeat (split; [reflexivity|]).
  unfold headersObject.
  assert (S : forall l k v, ~ In k (map fst l) -> setProperty k v l = l ++ [(k, v)]).
  { induction l as [|[k' v'] l IH]; intros k v N; [reflexivity|]. cbn [setProperty app map fst] in *. destruct (beqb k' k) eqn:E.
    - apply beqb_true in E. destruct N. left. exact E.
    - f_equal. apply IH. intros I. apply N. right. exact I. }
  assert (G : forall l acc, (forall h, In h l -> plain dec (fst h) /\ plain dec (snd h)) -> NoDup (map fst (acc ++ l)) ->
    fold_left (fun o h => setProperty (dec (fst h)) (fromPercent dec (snd h)) o) l acc = acc ++ l).
  { induction l as [|[k v] l IH]; intros acc Hl N; cbn [fold_left]; [now rewrite app_nil_r|]. cbn [fst snd].
    destruct (Hl (k, v) (or_introl eq_refl)) as [[_ K1] K2]. cbn [fst snd] in *. rewrite K1, P by exact K2.
    rewrite S.
    - rewrite IH, <- app_assoc; [reflexivity|intros h I; apply Hl; right; exact I|]. rewrite <- app_assoc. exact N.
    - rewrite map_app in N. cbn [map fst] in N. apply NoDup_remove_2 in N. rewrite in_app_iff in N. tauto. }
  apply (G (q_headers r) []); [exact Ph|exact ND].
Qed.
Example C66_case : let r := mkReq (lit "POST") (lit "/x?a=b") (lit "/x") (lit "a=b") [] (lit "HTTP/1.1") [(lit "Host", lit "h"); (lit "X", lit "y z")] (lit "a+b") in
  (forall b, In b [q_method r; q_uri r; q_fragment r; q_path r; q_query r; q_content r] -> plain (fun b => b) b) /\
  (forall h, In h (q_headers r) -> plain (fun b => b) (fst h) /\ plain (fun b => b) (snd h)) /\ NoDup (map fst (q_headers r)).
Proof.
  split; [|split].
  - intros b I. split; [|reflexivity]. intros Q. cbn in I. repeat (destruct I as [<-|I]; [cbn in Q; intuition discriminate|]). destruct I.
  - intros h I. cbn in I. repeat (destruct I as [<-|I]; [split; (split; [cbn; intuition discriminate|reflexivity])|]). destruct I.
  - cbn. repeat constructor; cbn; intuition discriminate.
Qed.
(** the content of a request, and its headers, are percent-decoded for the script although nobody encoded them *)
Theorem C66_percent_refuted : exists r, q_content r = lit "50%25 of 3%c" /\ q_headers r = [(lit "If-Match", lit "%41")] /\
  let o := requestObject (fun b => b) (fun _ => []) r in o_content o = lit "50% of 3%c" /\ o_headers o = [(lit "If-Match", lit "A")].
Proof. exists (mkReq (lit "POST") (lit "/") (lit "/") [] [] (lit "HTTP/1.1") [(lit "If-Match", lit "%41")] (lit "50%25 of 3%c")). vm_compute. auto. Qed.
(** of repeated headers only the last is seen *)
Theorem C66_repeated_refuted : exists hs, hs = [(lit "Cookie", lit "a=1"); (lit "Cookie", lit "b=2")] /\ headersObject (fun b => b) hs = [(lit "Cookie", lit "b=2")].
Proof. eexists. split; [reflexivity|]. reflexivity. Qed.
