(** C87, continued: the site and HttpClient; no request waits for ever; cases *)
From Verif Require Import Bytes ByteHelpers Thin Helpers ReqGrammar TextSpec Params Router RouterSpec RouterProofs PropsRouter Handlers Joyent RespParser RespSpec Client ClientSpec PropsClient PropsClient2 PropsClient3
  Conn ConnSpec ConnInv ConnStep PropsConn Serve PropsServe PropsServe2 PropsServe3 PropsWire PropsWire2 Session PropsSession PropsSession2 Site PropsSite.
Open Scope Z_scope.

Section Site2.
  Variables (utf8 : bytes -> qstring) (fold : qstring -> qstring) (uword : Z -> bool) (toAscii : qstring -> bytes) (dec : bytes -> bytes).
  Variable ans : nat -> Conn.request -> list (qstring * qstring) -> given.
  Variables (R : router) (es : list entry).
  Notation Prescribed := (Prescribed utf8 fold uword toAscii dec ans R es).
  Notation site := (site utf8 fold uword toAscii dec ans R).
  Hypotheses (HR : has_routes uword R es) (G : Forall (good_entry uword) es) (T : Forall (fun e => target_there (e_target e)) es).

  (** what the client reports of its requests rs, received as qs: to each the answer prescribed.  b: the last one is still under way *)
  Inductive Visit (zlib : bool) (gunzip : list bytes -> bytes -> bytes) : bool -> list creq -> list Conn.request -> list cobs -> Prop :=
  | Vi_first b r q g o : Same r q -> Prescribed q g -> Reports zlib gunzip g b o -> Visit zlib gunzip b [r] [q] o
  | Vi_next b rs qs l r q ws g o : Visit zlib gunzip false rs qs l -> RequestText r (concat ws) -> Same r q -> Prescribed q g -> Reports zlib gunzip g b o ->
      Visit zlib gunzip b (rs ++ [r]) (qs ++ [q]) (l ++ (CAccepted r :: map CWrite ws) ++ o).
  Lemma session_visit zlib gunzip b rs qs l : Session zlib gunzip site b rs qs l -> Visit zlib gunzip b rs qs l.
  Proof.
    induction 1; [eapply Vi_first|eapply Vi_next]; eauto; [|now apply site_prescribed].
    change [q] with ([] ++ [q]). now apply site_prescribed.
  Qed.

  Section Client.
    (* Suppose the answers prescribed to requests of HTTP/1.1 are clean ones of reasonable size. *)
    Hypothesis mild : forall q g, q_version q = lit "HTTP/1.1" -> Prescribed q g -> clean_answer (ans_of g) /\ last_named "content-length" (g_headers g) = None /\
       blen (g_content g) <= INT_MAX /\ head_room q (g_headers g) <= RespSpec.max_head - 2 /\ g_code g <> 100 /\
       says (option_map snd (last_named "connection" (g_headers g))) "close" = false.
    Lemma mild_friendly : friendly site.
    Proof. intros qs q V. cbv zeta. apply mild; [exact V|]. now apply site_prescribed. Qed.

    (** HttpClient on the other end, and the network between them (Session.v): at every moment neither end has failed, and the client has reported to each
        of its requests, in turn, the answer prescribed for it. *)
    Theorem C87_client : forall zlib gunzip parse_url r c0 s0 l, (forall b, wf_url (parse_url b)) -> Opened zlib gunzip parse_url site r c0 s0 ->
      fair_run zlib gunzip parse_url site (opened_pair c0 s0) l -> let after := jrun zlib gunzip parse_url (opened_pair c0 s0) l in
      exists c stk s sk obs qs more, p_client after = CRun c stk /\ p_server after = Run s sk /\ c_log c = c_log c0 ++ obs /\
        Visit zlib gunzip (c_pending c) (r :: accepted obs) qs (filter said obs) /\ qs = announced (log s) ++ more.
    Proof.
      intros zlib gunzip parse_url r c0 s0 l urls Op Fr after.
      destruct (C83_session zlib gunzip parse_url site urls mild_friendly r c0 s0 l Op Fr) as (c & stk & s & sk & obs & qs & more & H1 & H2 & H3 & H4 & H5).
      exists c, stk, s, sk, obs, qs, more. split; [exact H1|]. split; [exact H2|]. split; [exact H3|]. split; [|exact H5]. now apply session_visit.
    Qed.
    (** When nothing is on its way, nothing is left to be read and no slot runs, every request was answered and the client has reported it. *)
    Theorem C87_client_quiet : forall zlib gunzip parse_url r c0 s0 l c s sk, (forall b, wf_url (parse_url b)) -> Opened zlib gunzip parse_url site r c0 s0 ->
      fair_run zlib gunzip parse_url site (opened_pair c0 s0) l -> let after := jrun zlib gunzip parse_url (opened_pair c0 s0) l in
      p_client after = CRun c [] -> p_server after = Run s sk -> up_bytes after = [] -> down_bytes after = [] -> c_in c = [] ->
      st s = ReceivingHeaders \/ st s = ReceivingContent -> avail s = [] ->
      c_pending c = false /\ exists obs, c_log c = c_log c0 ++ obs /\ Visit zlib gunzip false (r :: accepted obs) (announced (log s)) (filter said obs).
    Proof.
      intros zlib gunzip parse_url r c0 s0 l c s sk urls Op Fr after H1 H2 H3 H4 H5 H6 H7.
      destruct (C83_quiet zlib gunzip parse_url site urls mild_friendly r c0 s0 l Op Fr c s sk H1 H2 H3 H4 H5 H6 H7) as (P & _ & obs & E & S).
      split; [exact P|]. exists obs. split; [exact E|]. now apply session_visit.
    Qed.
  End Client.

  (** ** No request waits for ever.  Suppose the answers prescribed can always be given: no Content-Length of their own, and no content if the method is HEAD
      (see C87_head_refuted). *)
  Theorem C87_progress : (forall m g, wf_msg m -> Prescribed (delivered m) g -> last_named "content-length" (g_headers g) = None /\ blen (g_content g) <= INT_MAX /\
      (q_method (delivered m) = lit "HEAD" -> g_content g = [])) ->
    forall c0 l c stk, reached c0 [] -> st c0 = ReceivingHeaders -> log c0 = [] -> polite_run (Run c0 []) l -> obeys_run site (Run c0 []) l -> run (Run c0 []) l = Run c stk ->
    exists more c', Forall serving more /\ polite_run (Run c0 []) (l ++ more) /\ obeys_run site (Run c0 []) (l ++ more) /\
      run (Run c0 []) (l ++ more) = Run c' [] /\ arrived c' = arrived c /\
      (((st c' = ReceivingHeaders \/ st c' = ReceivingContent) /\ avail c' = [] /\
        exists ms rest said new, Forall wf_msg ms /\ arrived c' = concat (map wire ms) ++ rest /\ (forall m x, wf_msg m -> rest <> wire m ++ x) /\
          Conversation utf8 fold uword toAscii dec ans R es (map delivered ms) said /\ Verdict rest new /\ log c' = said ++ new) \/
       st c' = Flushing \/ st c' = Closed).
  Proof.
    intros A c0 l c stk R0 S L P O E.
    assert (AB : able site) by (intros rs m W; cbv zeta; apply A; [exact W|now apply site_prescribed]).
    destruct (C82_progress site c0 l c stk AB R0 S L P O E) as (more & c' & H1 & H2 & H3 & H4 & H5 & H6).
    exists more, c'. split; [exact H1|]. split; [exact H2|]. split; [exact H3|]. split; [exact H4|]. split; [exact H5|].
    destruct H6 as [(Hs & Ha)|H6]; [left|now right]. split; [exact Hs|]. split; [exact Ha|].
    eapply C87_idle; eauto.
  Qed.
  (** The same for answers with content whatever the method, as those of HttpHandler404, if no HEAD request arrives. *)
  Theorem C87_progress_no_head : (forall m g, wf_msg m -> Prescribed (delivered m) g -> last_named "content-length" (g_headers g) = None /\ blen (g_content g) <= INT_MAX) ->
    forall c0 l c stk, reached c0 [] -> st c0 = ReceivingHeaders -> log c0 = [] -> polite_run (Run c0 []) l -> obeys_run site (Run c0 []) l -> run (Run c0 []) l = Run c stk ->
    no_head (arrived c) ->
    exists more c', Forall serving more /\ polite_run (Run c0 []) (l ++ more) /\ obeys_run site (Run c0 []) (l ++ more) /\
      run (Run c0 []) (l ++ more) = Run c' [] /\ arrived c' = arrived c /\
      (((st c' = ReceivingHeaders \/ st c' = ReceivingContent) /\ avail c' = [] /\
        exists ms rest said new, Forall wf_msg ms /\ arrived c' = concat (map wire ms) ++ rest /\ (forall m x, wf_msg m -> rest <> wire m ++ x) /\
          Conversation utf8 fold uword toAscii dec ans R es (map delivered ms) said /\ Verdict rest new /\ log c' = said ++ new) \/
       st c' = Flushing \/ st c' = Closed).
  Proof.
    intros A c0 l c stk R0 S L P O E N.
    destruct (C82_progress_no_head site c0 l c stk) as (more & c' & H1 & H2 & H3 & H4 & H5 & H6); auto.
    { intros rs m W _. cbv zeta. eapply A; [exact W|now apply site_prescribed]. }
    exists more, c'. split; [exact H1|]. split; [exact H2|]. split; [exact H3|]. split; [exact H4|]. split; [exact H5|].
    destruct H6 as [(Hs & Ha)|H6]; [left|now right]. split; [exact Hs|]. split; [exact Ha|].
    eapply C87_idle; eauto.
  Qed.
End Site2.

(** ** Cases: the routes of PropsRouter.v; the handlers of the users say which one they are and what they were given *)
Definition shown_values (sets : list (qstring * qstring)) : bytes := concat (map (fun x => toA (fst x) ++ lit "=" ++ toA (snd x) ++ lit ";") sets).
Definition ex_ans : nat -> Conn.request -> list (qstring * qstring) -> given := fun id r sets =>
  mkGiven 200 [(lit "X-Route", repeat "i"%char id)] (if beqb (q_method r) (lit "HEAD") then [] else firstn 1000 (shown_values sets)).
Notation ex_site := (site u8 (fun x => x) noword toA (fun b => b) ex_ans ex_router).
Definition get_post : bytes := lit "GET /users/4-2_x/posts/abc HTTP/1.1" ++ CRLF ++ lit "Host: h" ++ CRLF ++ CRLF.
Definition delete_user : bytes := lit "DELETE /users/7 HTTP/1.1" ++ CRLF ++ CRLF.
Definition get_nothing : bytes := lit "GET /nothing HTTP/1.1" ++ CRLF ++ CRLF.
Definition answer_of (h : handler) (l : list action) : action :=
  let c := match run (Run opened []) l with Run c _ => c | UB _ c => c end in
  let g := h (announced (log c)) in ACall (OpWriteResponse (g_code g) (g_headers g) (g_content g)).
(* the requests arrive in two pieces; whenever one is announced the site answers *)
Definition visits : list action :=
  let l1 := [AArrive (get_post ++ firstn 9 delete_user); ACall OpProcess] in
  let l2 := l1 ++ [answer_of ex_site l1; AReturn; AReturn; AArrive (skipn 9 delete_user ++ get_nothing); ACall OpProcess] in
  let l3 := l2 ++ [answer_of ex_site l2; AReturn; AReturn; AReturn] in
  l3 ++ [answer_of ex_site l3; AReturn; AReturn; AReturn].
Definition visited : conn := match run (Run opened []) visits with Run c _ => c | UB _ c => c end.
Lemma ex_there : Forall (fun e => target_there (e_target e)) ex_entries.
Proof. repeat constructor. Qed.

Lemma ex_cases q g : Site.Prescribed u8 (fun x => x) noword toA (fun b => b) ex_ans ex_router ex_entries q g ->
  (exists id sets, In id [1; 2; 3]%nat /\ g = ex_ans id q sets) \/ g = mkGiven 200 [] [] \/ g = mkGiven 404 [] [] \/
  (exists l, In l [[lit "GET"]; [lit "POST"]; [lit "PUT"]; [lit "GET"; lit "POST"]; [lit "GET"; lit "PUT"]; [lit "POST"; lit "PUT"]; [lit "GET"; lit "POST"; lit "PUT"]] /\
     g = mkGiven 405 [(lit "Allow", comma_list l)] []).
Proof.
  intros [pre e post m sets g0 Cm Ees Np Sv Cp Gv|m f Cm M Y N F|U N|m Cm N M U].
  - destruct pre as [|x0 [|x1 [|x2 [|x3 pre]]]]; cbn [app ex_entries] in Ees; injection Ees as; subst; cbn [e_target] in Gv.
    1,2,3: left; inversion Gv; subst; eexists _, _; split; [|reflexivity]; cbn [In]; tauto.
    + right. left. inversion Gv. reflexivity.
    + destruct pre; discriminate.
  - right. right. right. eexists. split; [|reflexivity]. destruct Y as (e & Ie & Pe). pose proof (proj2 (F e Ie) Pe) as Fe.
    assert (F3 : f (nth 2 ex_entries e) = false).
    { destruct (f (nth 2 ex_entries e)) eqn:X; [|reflexivity]. exfalso. assert (I3 : In (nth 2 ex_entries e) ex_entries) by (cbn; tauto).
      apply (N _ I3). split; [now apply F|]. left. reflexivity. }
    cbn [ex_entries nth] in F3. cbn [ex_entries In] in Ie. cbn [ex_entries filter]. rewrite F3.
    destruct Ie as [<-|[<-|[<-|[<-|[]]]]]; try (rewrite F3 in Fe; discriminate); rewrite Fe.
    + repeat match goal with |- context [if ?b then _ else _] => destruct b end; cbn [map e_method In]; tauto.
    + repeat match goal with |- context [if ?b then _ else _] => destruct b end; cbn [map e_method In]; tauto.
    + repeat match goal with |- context [if ?b then _ else _] => destruct b end; cbn [map e_method In]; tauto.
  - right. right. left. reflexivity.
  - exfalso. destruct (any_path noword (path u8 q) ex_entries) as [X|X].
    + specialize (U X). discriminate.
    + specialize (M X). discriminate.
Qed.

(** the answers of this site can always be given *)
Lemma ex_able : forall m g, wf_msg m -> Site.Prescribed u8 (fun x => x) noword toA (fun b => b) ex_ans ex_router ex_entries (delivered m) g ->
  last_named "content-length" (g_headers g) = None /\ blen (g_content g) <= INT_MAX /\ (q_method (delivered m) = lit "HEAD" -> g_content g = []).
Proof.
  intros m g _ P. destruct (ex_cases _ _ P) as [(id & sets & _ & ->)|[->|[->|(l & _ & ->)]]].
  - unfold ex_ans. cbn [g_headers g_content]. split; [reflexivity|]. split.
    + destruct (beqb _ _); [vm_compute; discriminate|]. unfold blen. pose proof (firstn_le_length 1000 (shown_values sets)). unfold INT_MAX. rewrite firstn_length. lia.
    + intros X. now rewrite X, beqb_refl.
  - split; [reflexivity|]. split; [vm_compute; discriminate|reflexivity].
  - split; [reflexivity|]. split; [vm_compute; discriminate|reflexivity].
  - split; [reflexivity|]. split; [vm_compute; discriminate|reflexivity].
Qed.
(** and are clean *)
Lemma ex_mild : forall q g, q_version q = lit "HTTP/1.1" -> Site.Prescribed u8 (fun x => x) noword toA (fun b => b) ex_ans ex_router ex_entries q g ->
  clean_answer (ans_of g) /\ last_named "content-length" (g_headers g) = None /\ blen (g_content g) <= INT_MAX /\ head_room q (g_headers g) <= RespSpec.max_head - 2 /\
  g_code g <> 100 /\ says (option_map snd (last_named "connection" (g_headers g))) "close" = false.
Proof.
  assert (C : forall code hs content s, forallb clean_header hs = true -> In (code, s) std_status -> clean_answer (ans_of (mkGiven code hs content))).
  { intros code hs content s H1 H2. constructor; [exact H1|]. exists s. exact H2. }
  intros q g V P. unfold head_room. rewrite V. destruct (ex_cases _ _ P) as [(id & sets & I & ->)|[->|[->|(l & Il & ->)]]].
  - unfold ex_ans. cbn [g_code g_headers g_content].
    split; [apply (C _ _ _ "OK"%string); [destruct I as [<-|[<-|[<-|[]]]]; vm_compute; reflexivity|vm_compute; tauto]|]. split; [reflexivity|]. split.
    { destruct (beqb _ _); [vm_compute; discriminate|]. unfold blen. pose proof (firstn_le_length 1000 (shown_values sets)). unfold INT_MAX. rewrite firstn_length. lia. }
    split; [destruct I as [<-|[<-|[<-|[]]]]; vm_compute; discriminate|]. split; [lia|]. reflexivity.
  - split; [apply (C _ _ _ "OK"%string); [reflexivity|vm_compute; tauto]|]. split; [reflexivity|]. split; [vm_compute; discriminate|]. split; [vm_compute; discriminate|]. split; [cbn; lia|reflexivity].
  - split; [apply (C _ _ _ "Not Found"%string); [reflexivity|vm_compute; tauto]|]. split; [reflexivity|]. split; [vm_compute; discriminate|]. split; [vm_compute; discriminate|]. split; [cbn; lia|reflexivity].
  - split.
    { apply (C _ _ _ "Method Not Allowed"%string); [|vm_compute; tauto]. cbn [In] in Il. repeat (destruct Il as [<-|Il]; [vm_compute; reflexivity|]). destruct Il. }
    split; [reflexivity|]. split; [vm_compute; discriminate|].
    split; [cbn [In] in Il; repeat (destruct Il as [<-|Il]; [vm_compute; discriminate|]); destruct Il|]. split; [cbn; lia|reflexivity].
Qed.

(** Three requests, two of them in one piece with the end of the first: a functor with the values captured; 405 with the methods; 404. *)
Theorem C87_case : has_routes noword ex_router ex_entries /\ Forall (good_entry noword) ex_entries /\ Forall (fun e => target_there (e_target e)) ex_entries /\
  reached opened [] /\ st opened = ReceivingHeaders /\ log opened = [] /\ polite_run (Run opened []) visits /\ obeys_run ex_site (Run opened []) visits /\
  run (Run opened []) visits = Run visited [] /\ st visited = ReceivingHeaders /\ avail visited = [] /\ arrived visited = get_post ++ delete_user ++ get_nothing /\
  map (fun rs => ex_site rs) [firstn 1 (announced (log visited)); firstn 2 (announced (log visited)); announced (log visited)] =
    [mkGiven 200 [(lit "X-Route", lit "i")] (lit "id=4-2_x;post_id=abc;"); mkGiven 405 [(lit "Allow", lit "POST, PUT")] []; mkGiven 404 [] []].
Proof.
  split; [apply ex_built|]. split; [apply ex_built|]. split; [apply ex_there|].
  split; [apply reached_run; vm_compute; reflexivity|]. split; [vm_compute; reflexivity|]. split; [vm_compute; reflexivity|].
  split; [apply politeb_run_ok; vm_compute; reflexivity|]. split; [apply obeysb_run_ok; vm_compute; reflexivity|].
  do 4 (split; [vm_compute; reflexivity|]). vm_compute; reflexivity.
Qed.

(** HttpClient's request of PropsSession.v, answered by this site *)
Definition visit1 : list jact :=
  let l := [JUp 10; JServer (ACall OpProcess); JClient CaFlushed; JUp 1000; JServer (ACall OpProcess)] in
  let g := match p_server (djrun pair1 l) with Run s _ => ex_site (announced (log s)) | UB _ _ => mkGiven 0 [] [] end in
  l ++ [JServer (ACall (OpWriteResponse (g_code g) (g_headers g) (g_content g))); JServer AReturn; JServer AReturn;
   JDown 30; JClient CaReadyRead; JDown 1000; JClient CaReadyRead; JClient CaReturn].
Theorem C87_case_client : (forall b, wf_url (no_url b)) /\ Opened false no_gunzip no_url ex_site post client1 opened /\ fair_run false no_gunzip no_url ex_site pair1 visit1 /\
  exists c stk s sk obs, p_client (djrun pair1 visit1) = CRun c stk /\ p_server (djrun pair1 visit1) = Run s sk /\ c_log c = c_log client1 ++ obs /\
    filter said obs = [CHeaders 404 [(lit "Content-Length", lit "0")]; CFinished NoError 404 [(lit "Content-Length", lit "0")] []].
Proof.
  split; [exact (proj1 (proj2 C83_case))|]. split; [apply case_opened|]. split; [apply fairb_run_ok; vm_compute; reflexivity|].
  exists (match p_client (djrun pair1 visit1) with CRun c _ => c | CUB _ => client0 end), (match p_client (djrun pair1 visit1) with CRun _ k => k | CUB _ => [] end),
    (match p_server (djrun pair1 visit1) with Run s _ => s | UB _ s => s end), (match p_server (djrun pair1 visit1) with Run _ k => k | UB _ _ => [] end).
  eexists. split; [vm_compute; reflexivity|]. split; [vm_compute; reflexivity|]. split; [vm_compute; reflexivity|]. vm_compute. reflexivity.
Qed.

(** The answer prescribed to a HEAD request that no route takes has content.  If the next request has begun to arrive with it, HttpHandler404 makes the server
    read released storage (the fault of C20; user code is not involved). *)
Theorem C87_head_refuted :
  let R := mkRouter (routes ex_router) false false false in
  let h := site u8 (fun x => x) noword toA (fun b => b) ex_ans R in
  let head := lit "HEAD /nothing HTTP/1.1" ++ CRLF ++ CRLF in
  let l := [AArrive (head ++ firstn 40 get_post); ACall OpProcess] in
  has_routes noword R ex_entries /\ polite_run (Run opened []) l /\ obeys_run h (Run opened []) (l ++ [answer_of h l; AReturn]) /\
  exists c, run (Run opened []) (l ++ [answer_of h l; AReturn]) = UB UseAfterFree c.
Proof.
  cbv zeta. split; [apply ex_built|]. split; [apply politeb_run_ok; vm_compute; reflexivity|]. split; [apply obeysb_run_ok; vm_compute; reflexivity|].
  eexists. vm_compute. reflexivity.
Qed.
Print Assumptions C87_client.
Print Assumptions C87_progress.
