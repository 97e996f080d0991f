(** C88: a file server, from the bytes of the requests to the content of the files.  Specification and model: Files.v *)
From Verif Require Import Bytes ByteHelpers Thin Helpers ReqGrammar PropsParser TextSpec Params Router Handlers PropsHandlers Joyent RespParser RespSpec Client ClientSpec PropsClient PropsClient2 PropsClient3
  Conn ConnSpec ConnText ConnHead ConnInv ConnStep PropsConn Serve PropsServe PropsServe2 PropsServe3 PropsWire PropsWire2 Session PropsSession PropsSession2 Files.
Open Scope Z_scope.

Lemma checks dec digest F F' pub n path hs : passes pub F (pub ++ dec (qt_percent path)) /\ fst (fileHandle dec digest F F' pub n path hs) = true /\
    (f_open F' (pub ++ dec (qt_percent path)) = None -> fileHandle dec digest F F' pub n path hs = (true, [FOpen (pub ++ dec (qt_percent path));
       FOp (OpWriteResponse 403 [] (lit "The requested resource '" ++ dec (qt_percent path) ++ lit "' is not accessible"))])) \/
  ~ passes pub F (pub ++ dec (qt_percent path)) /\ fileHandle dec digest F F' pub n path hs = (false, []).
Proof.
  unfold passes, fileHandle. destruct pub as [|x pub']; [right; split; [tauto|reflexivity]|]. set (pub := x :: pub').
  destruct (f_exists F _); cbn [negb]; [|right; split; [intros (_ & X & _); discriminate|reflexivity]].
  destruct (startsWith _ pub) eqn:E2; cbn [negb].
  - apply startsWith_iff in E2. destruct (f_isfile F _); cbn [negb]; [|right; split; [intros (_ & _ & X & _); discriminate|reflexivity]].
    left. split; [split; [discriminate|auto]|]. split; [reflexivity|]. intros ->. reflexivity.
  - right. split; [|reflexivity]. intros (_ & _ & _ & X). apply startsWith_iff in X. congruence.
Qed.

Section C88.
  Variables (dec digest : bytes -> bytes) (pub : bytes) (bufsize : Z) (disk : nat -> fs * fs) (stats : nat -> bytes).
  Notation FileAnswer := (FileAnswer dec digest pub disk stats).
  Notation files_calls := (files_calls dec digest pub bufsize disk stats).
  Notation files := (files dec digest pub bufsize disk stats).
  Notation file_path := (file_path dec pub).
  (* MD5 sums are not empty, and the files that are read fit into the buffer (others are transferred in pieces, C43) *)
  Hypotheses (digest_text : forall b, digest b <> []) (fits : forall k p b, f_open (snd (disk k)) p = Some b -> blen b <= bufsize).

  Lemma files_stack k q : files_calls k q =
    if beqb (q_path q) (lit "/_stats") then [OpWriteResponse 200 [] (stats k)]
    else let x := fileHandle dec digest (fst (disk k)) (snd (disk k)) pub bufsize (q_path q) (q_headers q) in
         if fst x then file_calls (snd x) else file_calls (snd x) ++ snd (notFoundHandle dec (q_path q)).
  Proof.
    unfold Files.files_calls, stackHandle, file_child. cbn [negb logHandle fst]. destruct (beqb _ _); [reflexivity|].
    cbv zeta. destruct (fst (fileHandle _ _ _ _ _ _ _ _)); reflexivity.
  Qed.

  (** Every request gets one call of writeResponse(). *)
  Theorem C88_calls : forall k q, exists g, FileAnswer k q g /\ files_calls k q = [OpWriteResponse (g_code g) (g_headers g) (g_content g)].
  Proof.
    intros k q. rewrite files_stack. destruct (beqb (q_path q) (lit "/_stats")) eqn:B.
    - apply beqb_true in B. eexists. split; [now apply Fi_stats|reflexivity].
    - apply beqb_false in B. cbv zeta. destruct (checks dec digest (fst (disk k)) (snd (disk k)) pub bufsize (q_path q) (q_headers q)) as [(Pa & Tr & De)|(Np & ->)].
      + destruct (f_open (snd (disk k)) (file_path q)) as [content|] eqn:O.
        * assert (S : PropsHandlers.served dec (fst (disk k)) (snd (disk k)) pub (q_path q) (file_path q) content) by (destruct Pa as (P1 & P2 & P3 & P4); repeat (split; auto)).
          pose proof (fits _ _ _ O) as L. destruct (C42_small_files_partial dec digest digest_text _ _ _ bufsize _ (q_headers q) _ _ S L) as (C1 & C2).
          rewrite (served_handle dec digest _ _ _ bufsize _ (q_headers q) _ _ S) in *. replace (blen content <=? bufsize) with true in * by (symmetry; now apply Z.leb_le).
          destruct (beqb (getFieldValue (q_headers q) (lit "If-None-Match")) (digest content)) eqn:E.
          -- eexists. split; [eapply Fi_same; eauto|reflexivity]. 
             destruct (first_named "if-none-match" (q_headers q)) as [v|] eqn:Ef.
             ++ apply beqb_true in E. rewrite (if_none_match _ _ Ef) in E. subst v. exact Ef.
             ++ rewrite (no_if_none_match _ Ef) in E. apply beqb_true in E. symmetry in E. now apply digest_text in E.
          -- eexists. split; [eapply Fi_file; eauto|reflexivity]. intros X. apply if_none_match in X. rewrite X in E. apply beqb_false in E. congruence.
        * rewrite (De O). eexists. split; [eapply Fi_denied; eauto|reflexivity].
      + eexists. split; [now apply Fi_none|reflexivity].
  Qed.
  Lemma files_answer qs q : FileAnswer (length qs) q (files (qs ++ [q])).
  Proof.
    unfold Files.files. rewrite last_last, app_length. cbn [length]. replace (length qs + 1 - 1)%nat with (length qs) by lia.
    destruct (C88_calls (length qs) q) as ([code hs content] & P & ->). exact P.
  Qed.

  (** ** The server: the requests and their answers *)
  Inductive FileTalk : list Conn.request -> list obs -> Prop :=
  | Ft_nil : FileTalk [] []
  | Ft_snoc qs l q g e : FileTalk qs l -> FileAnswer (length qs) q g -> Answered g q true e -> FileTalk (qs ++ [q]) (l ++ e).
  Lemma dialogue_talk qs l : Dialogue files qs l -> FileTalk qs l.
  Proof. induction 1 as [|qs l q e D IH A]; [constructor|]. econstructor; eauto. apply files_answer. Qed.
  (** whenever it has read all that arrived and waits, it has answered every complete request of the stream, in order *)
  Theorem C88_idle : forall c0 stk0 l c stk, reached c0 stk0 -> st c0 = ReceivingHeaders -> log c0 = [] ->
    polite_run (Run c0 stk0) l -> obeys_run files (Run c0 stk0) l -> run (Run c0 stk0) l = Run c stk ->
    st c = ReceivingHeaders \/ st c = ReceivingContent -> avail c = [] ->
    exists ms rest said new, Forall wf_msg ms /\ arrived c = concat (map wire ms) ++ rest /\ (forall m x, wf_msg m -> rest <> wire m ++ x) /\
      FileTalk (map delivered ms) said /\ Verdict rest new /\ log c = said ++ new.
  Proof.
    intros c0 stk0 l c stk R0 S L P O E Hs Ha. destruct (C82_idle files c0 stk0 l c stk R0 S L P O E Hs Ha) as (ms & rest & said & new & W & A & N & D & V & LG).
    exists ms, rest, said, new. repeat (split; auto). now apply dialogue_talk.
  Qed.

  (* the other texts are not too long, and sums are clean and short *)
  Hypotheses (dec_short : forall b, blen (dec b) <= INT_MAX - 1000) (stats_short : forall k, blen (stats k) <= INT_MAX) (buf_int : bufsize <= INT_MAX)
    (digest_clean : forall b, clean_header (lit "ETag", digest b) = true) (digest_short : forall b, blen (digest b) <= 1000).
  Lemma mime_clean p : clean_header (lit "Content-Type", mimeType p) = true /\ blen (mimeType p) <= 100.
  Proof. unfold mimeType. repeat match goal with |- context [if ?b then _ else _] => destruct b end; (split; [vm_compute; reflexivity|vm_compute; discriminate]). Qed.
  Lemma answer_small k q g : FileAnswer k q g -> last_named "content-length" (g_headers g) = None /\ blen (g_content g) <= INT_MAX.
  Proof.
    assert (X : forall a b c : bytes, blen (a ++ b ++ c) = blen a + blen b + blen c) by (intros; rewrite !blen_app; lia).
    intros [P|content P S N|content P S N|P S N|P N]; cbn [g_headers g_content]; (split; [reflexivity|]); auto.
    - destruct S as (_ & _ & _ & _ & _ & O). pose proof (fits _ _ _ O). lia.
    - vm_compute. discriminate.
    - rewrite X. pose proof (dec_short (qt_percent (q_path q))). change (blen (lit "The requested resource '")) with 24. change (blen (lit "' is not accessible")) with 19. lia.
    - rewrite X. pose proof (dec_short (q_path q)). change (blen (lit "The requested resource '")) with 24. change (blen (lit "' does not exist on this server")) with 31. lia.
  Qed.
  (** No request waits for ever, if no HEAD request arrives. *)
  Theorem C88_progress : forall c0 l c stk, reached c0 [] -> st c0 = ReceivingHeaders -> log c0 = [] -> polite_run (Run c0 []) l -> obeys_run files (Run c0 []) l ->
    run (Run c0 []) l = Run c stk -> no_head (arrived c) ->
    exists more c', Forall serving more /\ polite_run (Run c0 []) (l ++ more) /\ obeys_run files (Run c0 []) (l ++ more) /\
      run (Run c0 []) (l ++ more) = Run c' [] /\ arrived c' = arrived c /\
      (((st c' = ReceivingHeaders \/ st c' = ReceivingContent) /\ avail c' = [] /\
        exists ms rest said new, Forall wf_msg ms /\ arrived c' = concat (map wire ms) ++ rest /\ (forall m x, wf_msg m -> rest <> wire m ++ x) /\
          FileTalk (map delivered ms) said /\ Verdict rest new /\ log c' = said ++ new) \/
       st c' = Flushing \/ st c' = Closed).
  Proof.
    intros c0 l c stk R0 S L P O E N.
    destruct (C82_progress_no_head files c0 l c stk) as (more & c' & H1 & H2 & H3 & H4 & H5 & H6); auto.
    { intros rs m _ _. cbv zeta. eapply answer_small, files_answer. }
    exists more, c'. split; [exact H1|]. split; [exact H2|]. split; [exact H3|]. split; [exact H4|]. split; [exact H5|].
    destruct H6 as [(Hs & Ha)|H6]; [left|now right]. split; [exact Hs|]. split; [exact Ha|]. eapply C88_idle; eauto.
  Qed.

  (** ** HttpClient on the other end: what it reports of its requests rs, received as qs.  b: the last one is still under way *)
  Inductive Download (zlib : bool) (gunzip : list bytes -> bytes -> bytes) : bool -> list creq -> list Conn.request -> list cobs -> Prop :=
  | Do_first b r q g o : Same r q -> FileAnswer 0 q g -> Reports zlib gunzip g b o -> Download zlib gunzip b [r] [q] o
  | Do_next b rs qs l r q ws g o : Download zlib gunzip false rs qs l -> RequestText r (concat ws) -> Same r q -> FileAnswer (length qs) q g -> Reports zlib gunzip g b o ->
      Download zlib gunzip b (rs ++ [r]) (qs ++ [q]) (l ++ (CAccepted r :: map CWrite ws) ++ o).
  Lemma session_download zlib gunzip b rs qs l : Session zlib gunzip files b rs qs l -> Download zlib gunzip b rs qs l.
  Proof.
    induction 1; [eapply Do_first|eapply Do_next]; eauto; [|apply files_answer].
    change [q] with ([] ++ [q]). apply (files_answer [] q).
  Qed.
  Lemma files_friendly : friendly files.
  Proof.
    assert (C : forall code hs content s, forallb clean_header hs = true -> In (code, s) std_status -> clean_answer (ans_of (mkGiven code hs content))).
    { intros code hs content s H1 H2. constructor; [exact H1|]. exists s. exact H2. }
    intros qs q V. cbv zeta. pose proof (files_answer qs q) as A. pose proof (answer_small _ _ _ A) as (Z1 & Z2). unfold head_room. rewrite V.
    enough (X : clean_answer (ans_of (files (qs ++ [q]))) /\ blen (concat (map line (g_headers (files (qs ++ [q]))))) <= 1200 /\ g_code (files (qs ++ [q])) <> 100 /\
       says (option_map snd (last_named "connection" (g_headers (files (qs ++ [q]))))) "close" = false).
    { destruct X as (X1 & X2 & X3 & X4). split; [exact X1|]. split; [exact Z1|]. split; [exact Z2|]. split; [|auto].
      change (blen (lit "HTTP/1.1")) with 8. unfold RespSpec.max_head. lia. }
    clear Z1 Z2. destruct A as [P|content P S N|content P S N|P S N|P N]; cbn [g_headers g_content g_code].
    - split; [apply (C _ _ _ "OK"%string); [reflexivity|vm_compute; tauto]|]. split; [vm_compute; discriminate|]. split; [lia|reflexivity].
    - destruct (mime_clean (dec (qt_percent (q_path q)))) as (M1 & M2). pose proof (digest_short content) as M3. split; [apply (C _ _ _ "OK"%string); [|vm_compute; tauto]|].
      + cbn [forallb]. now rewrite M1, digest_clean.
      + split; [|split; [lia|reflexivity]]. cbn [map concat]. unfold line. cbn [fst snd]. rewrite !blen_app. change (blen (lit "Content-Type")) with 12. change (blen (lit "ETag")) with 4.
        change (blen CRLF) with 2. change (blen []) with 0. change (blen (lit ": ")) with 2. lia.
    - split; [apply (C _ _ _ "Not Modified"%string); [reflexivity|vm_compute; tauto]|]. split; [vm_compute; discriminate|]. split; [lia|reflexivity].
    - split; [apply (C _ _ _ "Forbidden"%string); [reflexivity|vm_compute; tauto]|]. split; [vm_compute; discriminate|]. split; [lia|reflexivity].
    - split; [apply (C _ _ _ "Not Found"%string); [reflexivity|vm_compute; tauto]|]. split; [vm_compute; discriminate|]. split; [lia|reflexivity].
  Qed.
  (** at every moment neither end has failed, and the client has reported to each of its requests, in turn, the answer above *)
  Theorem C88_download : forall zlib gunzip parse_url r c0 s0 l, (forall b, wf_url (parse_url b)) -> Opened zlib gunzip parse_url files r c0 s0 ->
    fair_run zlib gunzip parse_url files (opened_pair c0 s0) l -> let after := jrun zlib gunzip parse_url (opened_pair c0 s0) l in
    exists c stk s sk obs qs more, p_client after = CRun c stk /\ p_server after = Run s sk /\ c_log c = c_log c0 ++ obs /\
      Download zlib gunzip (c_pending c) (r :: accepted obs) qs (filter said obs) /\ qs = announced (log s) ++ more.
  Proof.
    intros zlib gunzip parse_url r c0 s0 l urls Op Fr after.
    destruct (C83_session zlib gunzip parse_url files urls files_friendly r c0 s0 l Op Fr) as (c & stk & s & sk & obs & qs & more & H1 & H2 & H3 & H4 & H5).
    exists c, stk, s, sk, obs, qs, more. split; [exact H1|]. split; [exact H2|]. split; [exact H3|]. split; [|exact H5]. now apply session_download.
  Qed.
End C88.

(** ** Cases: a file system in which /index.html changes before the third request; a simple sum *)
Definition ex_disk (k : nat) : fs * fs :=
  let d := plain_fs [lit "/"; lit "/srv"; lit "/srv/www"] [(lit "/srv/www/index.html", if (k <? 2)%nat then lit "hello" else lit "hello again"); (lit "/srv/www/a b", lit "spaced")] in (d, d).
Definition ex_dec : bytes -> bytes := firstn 1000.
Definition ex_sum (b : bytes) : bytes := lit "sum-" ++ repeat "x"%char (Nat.min 100 (length b)).
Definition ex_stats (k : nat) : bytes := lit "Alive connections: 1" ++ [ascii_of_nat 10].
Notation ex_files := (files ex_dec ex_sum (lit "/srv/www") 131072 ex_disk ex_stats).
Lemma ex_digest : (forall b, ex_sum b <> []) /\ (forall b, clean_header (lit "ETag", ex_sum b) = true) /\ (forall b, blen (ex_sum b) <= 1000).
Proof.
  split; [intros b; discriminate|].
  assert (X : forall n, (n <= 100)%nat -> clean_header (lit "ETag", lit "sum-" ++ repeat "x"%char n) = true /\ blen (lit "sum-" ++ repeat "x"%char n) <= 1000).
  { intros n H. assert (A : forallb (fun n => clean_header (lit "ETag", lit "sum-" ++ repeat "x"%char n) && (blen (lit "sum-" ++ repeat "x"%char n) <=? 1000)) (seq 0 101) = true) by (vm_compute; reflexivity).
    rewrite forallb_forall in A. specialize (A n ltac:(apply in_seq; lia)). apply andb_true_iff in A as (A1 & A2). apply Z.leb_le in A2. auto. }
  split; intros b; apply X; lia.
Qed.
Lemma ex_bounds : (forall k p b, f_open (snd (ex_disk k)) p = Some b -> blen b <= 131072) /\ (forall b, blen (ex_dec b) <= INT_MAX - 1000) /\ (forall k, blen (ex_stats k) <= INT_MAX) /\ 131072 <= INT_MAX.
Proof.
  split.
  { intros k p b. unfold ex_disk, plain_fs. cbn [snd f_open]. unfold PropsHandlers.lookup. cbn [find fst].
    destruct (beqb (lit "/srv/www/index.html") (norm p)); cbn [option_map snd].
    - intros [= <-]. destruct (k <? 2)%nat; vm_compute; discriminate.
    - destruct (beqb (lit "/srv/www/a b") (norm p)); cbn [option_map snd]; [intros [= <-]; vm_compute; discriminate|discriminate]. }
  split; [intros b; unfold ex_dec, blen; rewrite firstn_length; unfold INT_MAX; lia|]. split; [intros k; vm_compute; discriminate|vm_compute; discriminate].
Qed.
Definition ask_for (path : string) (hs : list hline) : msg := mkMsg (mkHead (lit "GET") (Origin (lit path) None) None (lit "1") (lit "1") hs) [].
Definition downloads : list msg :=
  [ask_for "index.html" []; ask_for "index.html" [mkHline (lit "If-None-Match") 1 (lit "sum-xxxxx")]; ask_for "index.html" [mkHline (lit "If-None-Match") 1 (lit "sum-xxxxx")];
   ask_for "nope" []; ask_for "_stats" []].
Lemma ask_for_wf path hs : (path = "index.html" \/ path = "nope" \/ path = "_stats")%string -> hs = [] \/ hs = [mkHline (lit "If-None-Match") 1 (lit "sum-xxxxx")] -> wf_msg (ask_for path hs).
Proof.
  intros Hp Hh. assert (Hl : Forall wf_hline hs).
  { destruct Hh as [-> | ->]; repeat constructor; cbn; try discriminate; try reflexivity; intuition (subst; discriminate). }
  assert (Ht : wf_target (Origin (lit path) None)) by (destruct Hp as [-> |[-> | ->]]; constructor; text).
  constructor; cbn [ask_for m_head m_content].
  - constructor; cbn [hd_method hd_target hd_fragment hd_major hd_minor hd_headers]; auto.
    + cbn. lia.
    + discriminate.
    + split; [discriminate|reflexivity].
    + split; [discriminate|reflexivity].
  - destruct Hp as [-> |[-> | ->]], Hh as [-> | ->]; vm_compute; discriminate.
  - apply AL_none. destruct Hh as [-> | ->]; reflexivity.
  - vm_compute. discriminate.
Qed.
Lemma downloads_wf : Forall wf_msg downloads.
Proof. unfold downloads. repeat (apply Forall_cons; [apply ask_for_wf; tauto|]). constructor. Qed.
(* each request is answered before the slot of requestReady returns *)
Definition file_answer (l : list action) : action :=
  let c := match run (Run opened []) l with Run c _ => c | UB _ c => c end in
  let g := ex_files (announced (log c)) in ACall (OpWriteResponse (g_code g) (g_headers g) (g_content g)).
Fixpoint answered_next (n : nat) (l : list action) : list action :=
  match n with O => l | S n => answered_next n (l ++ [file_answer l; AReturn; AReturn; AReturn]) end.
Definition file_visits : list action := answered_next 5 [AArrive (concat (map wire downloads)); ACall OpProcess].
Definition file_visited : conn := match run (Run opened []) file_visits with Run c _ => c | UB _ c => c end.

(** Five requests in one piece: the file; the same file with its digest in If-None-Match: 304; again, after the file has changed: the new content; a name that does
    not exist: 404; the statistics. *)
Theorem C88_case : (forall b, ex_sum b <> []) /\ (forall b, clean_header (lit "ETag", ex_sum b) = true) /\
  (forall k p b, f_open (snd (ex_disk k)) p = Some b -> blen b <= 131072) /\
  reached opened [] /\ st opened = ReceivingHeaders /\ log opened = [] /\ polite_run (Run opened []) file_visits /\ obeys_run ex_files (Run opened []) file_visits /\
  run (Run opened []) file_visits = Run file_visited [] /\ st file_visited = ReceivingHeaders /\ avail file_visited = [] /\
  arrived file_visited = concat (map wire downloads) /\ no_head (arrived file_visited) /\
  map (fun n => ex_files (firstn n (announced (log file_visited)))) [1; 2; 3; 4; 5]%nat =
    [mkGiven 200 [(lit "Content-Type", lit "text/html"); (lit "ETag", lit "sum-xxxxx")] (lit "hello"); mkGiven 304 [] [];
     mkGiven 200 [(lit "Content-Type", lit "text/html"); (lit "ETag", lit "sum-xxxxxxxxxxx")] (lit "hello again");
     mkGiven 404 [] (lit "The requested resource '/nope' does not exist on this server"); mkGiven 200 [] (lit "Alive connections: 1" ++ [ascii_of_nat 10])].
Proof.
  split; [apply ex_digest|]. split; [apply ex_digest|]. split; [apply ex_bounds|].
  split; [apply reached_run; vm_compute; reflexivity|]. split; [vm_compute; reflexivity|]. split; [vm_compute; reflexivity|].
  split; [apply politeb_run_ok; vm_compute; reflexivity|]. split; [apply obeysb_run_ok; vm_compute; reflexivity|].
  split; [vm_compute; reflexivity|]. split; [vm_compute; reflexivity|]. split; [vm_compute; reflexivity|].
  assert (A : arrived file_visited = concat (map wire downloads)) by (vm_compute; reflexivity).
  split; [exact A|]. split; [rewrite A; apply (no_head_of downloads downloads_wf); unfold downloads; repeat constructor; discriminate|]. vm_compute. reflexivity.
Qed.

(** HttpClient's request of PropsSession.v for "/a%20b": the file "a b" *)
Definition download1 : list jact :=
  let l := [JUp 10; JServer (ACall OpProcess); JClient CaFlushed; JUp 1000; JServer (ACall OpProcess)] in
  let g := match p_server (djrun pair1 l) with Run s _ => ex_files (announced (log s)) | UB _ _ => mkGiven 0 [] [] end in
  l ++ [JServer (ACall (OpWriteResponse (g_code g) (g_headers g) (g_content g))); JServer AReturn; JServer AReturn;
   JDown 30; JClient CaReadyRead; JDown 1000; JClient CaReadyRead; JClient CaReturn; JClient CaReturn].
Theorem C88_case_client : (forall b, wf_url (no_url b)) /\ Opened false no_gunzip no_url ex_files post client1 opened /\ fair_run false no_gunzip no_url ex_files pair1 download1 /\
  exists c stk s sk obs hs, p_client (djrun pair1 download1) = CRun c stk /\ p_server (djrun pair1 download1) = Run s sk /\ c_log c = c_log client1 ++ obs /\
    hs = [(lit "ETag", ex_sum (lit "spaced")); (lit "Content-Length", lit "6"); (lit "Content-Type", mimeType (lit "/a b"))] /\
    filter said obs = [CHeaders 200 hs; CContent (lit "spaced"); CFinished NoError 200 hs (lit "spaced")].
Proof.
  split; [exact (proj1 (proj2 C83_case))|]. split; [apply case_opened|]. split; [apply fairb_run_ok; vm_compute; reflexivity|].
  exists (match p_client (djrun pair1 download1) with CRun c _ => c | CUB _ => client0 end), (match p_client (djrun pair1 download1) with CRun _ k => k | CUB _ => [] end),
    (match p_server (djrun pair1 download1) with Run s _ => s | UB _ s => s end), (match p_server (djrun pair1 download1) with Run _ k => k | UB _ _ => [] end).
  eexists. eexists. split; [vm_compute; reflexivity|]. split; [vm_compute; reflexivity|]. split; [vm_compute; reflexivity|]. split; [reflexivity|]. vm_compute. reflexivity.
Qed.
Print Assumptions C88_calls.
Print Assumptions C88_progress.
Print Assumptions C88_download.
