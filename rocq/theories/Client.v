(** Model of Pillow::HttpRequestWriter and Pillow::HttpClient (/repo/pillowcore/HttpClient.cpp 103-186, 343-744;
    HttpClient.h 35-59, 143-253).  The response parser is the one of RespParser.v / Joyent.v; HttpClient overrides its
    four virtual functions, whose signals run user code, so that a call can be suspended inside of the parser: as in
    Conn.v a stack of [cframe]s tells what continues when the running slots return.

    The QTcpSocket is modelled by what pillow can see of it: its state, the bytes it has to read, whether bytes given
    to write() are still in its buffer (then close() and disconnectFromHost() leave it in ClosingState), and whether
    connectToHost() fails or connects before it returns.  In Qt 4 connectToHost() does nothing but warn when the
    socket is not in UnconnectedState.  Data, errors, connections come as events.

    Simplifications: a QUrl is the record of what pillow asks of it; an empty method stands for a null one (632);
    capacities of buffers (only speed); qWarning; the destruction of the client from one of its own slots is not
    modelled; the socket's events may also come inside of a slot, through a nested event loop, but a readyRead while the
    parser runs is the explicit fault [NestedRead] (585-603: it would change the buffer being parsed). *)
From Verif Require Import Bytes ByteHelpers Helpers Joyent RespParser.
Open Scope Z_scope.

(* QUrl: encodedHost(), port() (-1 if there is none), encodedPath(), encodedQuery() *)
Record url := mkUrl { u_host : bytes; u_port : Z; u_path : bytes; u_query : bytes }.
(* QUrl::port(80) *)
Definition port80 (u : url) : Z := if u_port u =? -1 then 80 else u_port u.
(* HttpClient.h 143-149 *)
Record creq := mkCR { cr_method : bytes; cr_url : url; cr_headers : list header; cr_data : bytes }.

(** ** HttpRequestWriter *)
(* HttpClient.cpp 133-181: the arguments of the calls of device->write, in order; None: appendNumber(INT_MIN) *)
Definition writeRequest (method path : bytes) (hs : list header) (data : bytes) : option (list bytes) :=
  let b := method ++ lit " " ++ path ++ lit " HTTP/1.1" ++ CRLF in                     (* 144 *)
  let b := fold_left (fun b h => b ++ fst h ++ lit ": " ++ snd h ++ CRLF) hs b in       (* 146-147 *)
  match data with
  | [] => Some [b ++ CRLF]                                                              (* 156-160 *)
  | _ => match appendNumber 10 (blen data) with                                         (* 149-154 *)
         | None => None
         | Some n => let b := b ++ lit "Content-Length: " ++ n ++ CRLF ++ CRLF in
                     if blen data <? 4096 then Some [b ++ data] else Some [b; data]     (* 163-173 *)
         end
  end.

(** ** HttpClient *)
(* HttpClient.h 164-173 *)
Inductive cerror := NoError | NetworkError | ResponseInvalidError | RemoteHostClosedError | AbortedError.
Inductive dstate := DUnconnected | DConnecting | DConnected | DClosing.
(* what connectToHost does before it returns *)
Inductive plan := PlLater | PlFails | PlConnects.

(** what an observer sees.  CAccepted, CKept and CIgnored: what became of a call of request() *)
Inductive cobs :=
| CAccepted (r : creq)                               (* the request is under way *)
| CKept (r : creq)                                   (* kept for later, in place of one kept before *)
| CIgnored (r : creq)                                (* not taken: another one is under way *)
| CConnect (host : bytes) (port : Z)                 (* a connection is asked for *)
| CWrite (b : bytes)                                 (* bytes written to the server *)
| CHeaders (status : Z) (hs : list header)           (* headersCompleted(), with what the getters return *)
| CContent (b : bytes)                               (* contentReadyRead(), after b was added to the content *)
| CFinished (e : cerror) (status : Z) (hs : list header) (content : bytes).   (* finished() *)

Inductive csignal := SgHeaders | SgContent | SgFinished.
(* which of the two inject() calls of device_readyRead runs: 588 or 603 *)
Inductive phase := First | Second.
Inductive cframe :=
| KcSig (s : csignal)                                (* user slots *)
| KcHeaders (l : locals) (er : bytes) (ph : phase)   (* headersComplete after the signal, 682 *)
| KcParse (l : locals) (er : bytes) (ph : phase)     (* back in http_parser_execute after a callback *)
| KcComplete (er : bytes) (ph : phase)               (* parser_on_message_complete after messageComplete(), 323 *)
| KcRead.                                            (* device_readyRead after finished(), 625 *)

(* HttpClient.h 240-253.  _contentDecoder is given by the pieces fed to it so far; c_timer: _keepAliveTimeoutTimer is
   valid; c_late: it would say hasExpired(timeout) *)
Record client := mkCl {
  c_p : rparser; c_pending : bool; c_error : cerror; c_req : creq; c_next : option creq;
  c_dev : dstate; c_unsent : bool; c_in : bytes; c_plan : plan;
  c_timeout : Z; c_timer : bool; c_late : bool; c_rbuf : Z; c_host : bytes; c_dec : option (list bytes);
  c_log : list cobs }.
Inductive cfault := NestedRead | AssertFailed | IntMin.
Inductive ccfg := CRun (c : client) (stk : list cframe) | CUB (f : cfault).

Definition cset_p v c := mkCl v (c_pending c) (c_error c) (c_req c) (c_next c) (c_dev c) (c_unsent c) (c_in c) (c_plan c) (c_timeout c) (c_timer c) (c_late c) (c_rbuf c) (c_host c) (c_dec c) (c_log c).
Definition cset_pending v c := mkCl (c_p c) v (c_error c) (c_req c) (c_next c) (c_dev c) (c_unsent c) (c_in c) (c_plan c) (c_timeout c) (c_timer c) (c_late c) (c_rbuf c) (c_host c) (c_dec c) (c_log c).
Definition cset_error v c := mkCl (c_p c) (c_pending c) v (c_req c) (c_next c) (c_dev c) (c_unsent c) (c_in c) (c_plan c) (c_timeout c) (c_timer c) (c_late c) (c_rbuf c) (c_host c) (c_dec c) (c_log c).
Definition cset_req v c := mkCl (c_p c) (c_pending c) (c_error c) v (c_next c) (c_dev c) (c_unsent c) (c_in c) (c_plan c) (c_timeout c) (c_timer c) (c_late c) (c_rbuf c) (c_host c) (c_dec c) (c_log c).
Definition cset_next v c := mkCl (c_p c) (c_pending c) (c_error c) (c_req c) v (c_dev c) (c_unsent c) (c_in c) (c_plan c) (c_timeout c) (c_timer c) (c_late c) (c_rbuf c) (c_host c) (c_dec c) (c_log c).
Definition cset_dev v u i c := mkCl (c_p c) (c_pending c) (c_error c) (c_req c) (c_next c) v u i (c_plan c) (c_timeout c) (c_timer c) (c_late c) (c_rbuf c) (c_host c) (c_dec c) (c_log c).
Definition cset_plan v c := mkCl (c_p c) (c_pending c) (c_error c) (c_req c) (c_next c) (c_dev c) (c_unsent c) (c_in c) v (c_timeout c) (c_timer c) (c_late c) (c_rbuf c) (c_host c) (c_dec c) (c_log c).
Definition cset_timeout v c := mkCl (c_p c) (c_pending c) (c_error c) (c_req c) (c_next c) (c_dev c) (c_unsent c) (c_in c) (c_plan c) v (c_timer c) (c_late c) (c_rbuf c) (c_host c) (c_dec c) (c_log c).
Definition cset_timer v w c := mkCl (c_p c) (c_pending c) (c_error c) (c_req c) (c_next c) (c_dev c) (c_unsent c) (c_in c) (c_plan c) (c_timeout c) v w (c_rbuf c) (c_host c) (c_dec c) (c_log c).
Definition cset_rbuf v c := mkCl (c_p c) (c_pending c) (c_error c) (c_req c) (c_next c) (c_dev c) (c_unsent c) (c_in c) (c_plan c) (c_timeout c) (c_timer c) (c_late c) v (c_host c) (c_dec c) (c_log c).
Definition cset_host v c := mkCl (c_p c) (c_pending c) (c_error c) (c_req c) (c_next c) (c_dev c) (c_unsent c) (c_in c) (c_plan c) (c_timeout c) (c_timer c) (c_late c) (c_rbuf c) v (c_dec c) (c_log c).
Definition cset_dec v c := mkCl (c_p c) (c_pending c) (c_error c) (c_req c) (c_next c) (c_dev c) (c_unsent c) (c_in c) (c_plan c) (c_timeout c) (c_timer c) (c_late c) (c_rbuf c) (c_host c) v (c_log c).
Definition cemit (l : list cobs) c := mkCl (c_p c) (c_pending c) (c_error c) (c_req c) (c_next c) (c_dev c) (c_unsent c) (c_in c) (c_plan c) (c_timeout c) (c_timer c) (c_late c) (c_rbuf c) (c_host c) (c_dec c) (c_log c ++ l).
Ltac clsimp := cbn [c_p c_pending c_error c_req c_next c_dev c_unsent c_in c_plan c_timeout c_timer c_late c_rbuf c_host c_dec c_log
  cset_p cset_pending cset_error cset_req cset_next cset_dev cset_plan cset_timeout cset_timer cset_rbuf cset_host cset_dec cemit].
Tactic Notation "clsimp" "in" "*" := cbn [c_p c_pending c_error c_req c_next c_dev c_unsent c_in c_plan c_timeout c_timer c_late c_rbuf c_host c_dec c_log
  cset_p cset_pending cset_error cset_req cset_next cset_dev cset_plan cset_timeout cset_timer cset_rbuf cset_host cset_dec cemit] in *.

(** ** The socket *)
(* abort(): at once, what was received is dropped *)
Definition dev_abort (c : client) : client := cset_dev DUnconnected false [] c.
(* the state after close() or disconnectFromHost() *)
Definition closing (c : client) : dstate :=
  match c_dev c with
  | DUnconnected => DUnconnected
  | DConnecting => DClosing                           (* given up when the connection is established *)
  | DConnected => if c_unsent c then DClosing else DUnconnected
  | DClosing => DClosing
  end.
Definition dev_close (c : client) : client := cset_dev (closing c) (c_unsent c) [] c.
Definition dev_disconnect (c : client) : client := cset_dev (closing c) (c_unsent c) (c_in c) c.
Definition connected (c : client) : bool := match c_dev c with DConnected => true | _ => false end.
Definition unconnected (c : client) : bool := match c_dev c with DUnconnected => true | _ => false end.

Definition status (c : client) : Z := h_status (r_h (c_p c)).
Definition emit_finished (c : client) (stk : list cframe) : ccfg :=
  CRun (cemit [CFinished (c_error c) (status c) (r_headers (c_p c)) (r_content (c_p c))] c) (KcSig SgFinished :: stk).

(* 531-552: device_error *)
Definition device_error (e : cerror) (c : client) (stk : list cframe) (k : client -> ccfg) : ccfg :=
  if negb (c_pending c) then k c
  else emit_finished (cset_pending false (dev_close (cset_error e c))) stk.

(* 646-654: the Host value *)
Definition host_value (u : url) : option bytes :=
  if port80 u =? 80 then Some (u_host u)
  else match appendNumber 10 (port80 u) with Some n => Some (u_host u ++ lit ":" ++ n) | None => None end.
Definition request_uri (u : url) : bytes :=                                  (* 656-658 *)
  u_path u ++ match u_query u with [] => [] | q => lit "?" ++ q end.
(* 642-667: sendRequest *)
Definition sendRequest (c : client) (k : client -> ccfg) : ccfg :=
  if negb (c_pending c) then k c else
  match (match c_host c with [] => host_value (cr_url (c_req c)) | h => Some h end) with
  | None => CUB IntMin
  | Some h =>
      let c := cset_host h c in
      match writeRequest (cr_method (c_req c)) (request_uri (cr_url (c_req c)))
              ((lit "Host", h) :: cr_headers (c_req c)) (cr_data (c_req c)) with
      | None => CUB IntMin
      | Some ws => k (cset_dev (c_dev c) true (c_in c) (cemit (map CWrite ws) c))
      end
  end.

(* QAbstractSocket::connectToHost *)
Definition connectToHost (c : client) (stk : list cframe) (k : client -> ccfg) : ccfg :=
  if negb (unconnected c) then k c else
  let u := cr_url (c_req c) in
  let c := cemit [CConnect (u_host u) (port80 u)] (cset_dev DUnconnected false [] c) in
  match c_plan c with
  | PlLater => k (cset_dev DConnecting false [] c)
  | PlFails => device_error NetworkError c stk k
  | PlConnects => sendRequest (cset_dev DConnected false [] c) k
  end.

Definition same_server (a b : url) : bool := beqb (u_host a) (u_host b) && (u_port a =? u_port b).
(* 446-503: request *)
Definition request (r : creq) (c : client) (stk : list cframe) (k : client -> ccfg) : ccfg :=
  if c_pending c then k (cemit [CIgnored r] c)
  else if r_parsing (c_p c)
  then k (cemit [CKept r] (cset_next (match cr_method r with [] => None | _ => Some r end) c))
  else
    let previous := cr_url (c_req c) in
    let c := cemit [CAccepted r] (cset_p (rclear (c_p c)) (cset_error NoError (cset_pending true (cset_req r c)))) in
    let same := same_server (cr_url r) previous in
    let expired := same && (0 <=? c_timeout c) && c_timer c && c_late c in
    if connected c && same && negb expired then sendRequest c k
    else
      let c := cset_host [] c in
      let c := if unconnected c then c else dev_disconnect c in
      connectToHost c stk k.

(* 505-516: abort *)
Definition abort (c : client) (stk : list cframe) (k : client -> ccfg) : ccfg :=
  let c := dev_abort c in
  if c_pending c
  then emit_finished (cset_pending false (cset_error AbortedError (cset_p (rset_h (hpause (r_h (c_p c))) (c_p c)) c))) stk
  else k c.

(** ** The overridden callbacks *)
Definition set_content (b : bytes) (r : rparser) : rparser :=
  mkRP (r_h r) (r_field r) (r_value r) (r_lwv r) (r_parsing r) (r_headers r) b (r_log r).

(* 717-740: messageComplete when the status is not 100, up to the signal *)
Definition complete (c : client) : client :=
  let c := cset_pending false (cset_dec None c) in
  if c_timeout c =? 0 then dev_close c
  else let c := if should_keep_alive (r_h (c_p c)) then c else dev_close c in
       cset_timer true false c.

Inductive pres :=
| PEnd (r : rparser) (er : bytes)                             (* http_parser_execute returns, er left *)
| PCall (c : cb) (r : rparser) (l : locals) (er : bytes)      (* one of the callbacks that may run user code *)
| PFault.                                                     (* assert, or out of fuel: never (see ClientInv.v) *)
(* http_parser_execute up to the next callback of interest.  headersComplete for a 100 response does nothing
   (677-678), the other silent callbacks are the parser's own. *)
Fixpoint prun (fuel : nat) (r : rparser) (l : locals) {struct fuel} : pres :=
  match fuel with
  | O => PFault
  | S f =>
      match jstep (r_h r) l with
      | Next h l' => prun f (rset_h h r) l'
      | Ret h er => PEnd (rset_h h r) er
      | Assert => PFault
      | Call c h l' er =>
          let r := rset_h h r in
          match c with
          | CbBegin | CbField _ | CbValue _ => let r' := on_cb c r in
              if is_ok (h_errno (r_h r')) then prun f r' l' else PEnd r' er
          | CbHeaders => if h_status (r_h r) =? 100
                         then let r' := on_cb c r in if is_ok (h_errno (r_h r')) then prun f r' l' else PEnd r' er
                         else PCall c r l' er
          | _ => PCall c r l' er
          end
      end
  end.
Definition pfuel (l : locals) : nat := (6 * length (l_data l) + 8)%nat.

Section Client.
  (* zlib: PILLOW_ZLIB is defined; gunzip fed b: what the GunzipContentTransformer that was fed these pieces returns
     for b; parse_url: QUrl::fromEncoded *)
  Variables (zlib : bool) (gunzip : list bytes -> bytes -> bytes) (parse_url : bytes -> url).

  (* run the parser; fin: http_parser_execute returned *)
  Definition parse (l : locals) (ph : phase) (c : client) (stk : list cframe) (fin : bytes -> client -> ccfg) : ccfg :=
    match prun (pfuel l) (c_p c) l with
    | PFault => CUB AssertFailed
    | PEnd r er => fin er (cset_p r c)
    | PCall CbHeaders r l' er =>                                    (* 302-308, 674-680 *)
        let r := pushHeader r in
        CRun (cemit [CHeaders (h_status (r_h r)) (r_headers r)] (cset_p r c)) (KcSig SgHeaders :: KcHeaders l' er ph :: stk)
    | PCall (CbBody b) r l' er =>                                   (* 310-315, 703-715 *)
        let '(b', d) := match c_dec c with None => (b, None) | Some fed => (gunzip fed b, Some (fed ++ [b])) end in
        let c := cset_dec d (cset_p (set_content (r_content r ++ b') r) c) in
        CRun (cemit [CContent b'] c) (KcSig SgContent :: KcParse l' er ph :: stk)
    | PCall CbComplete r l' er =>                                   (* 317-326, 717-744 *)
        let c := cset_p r c in
        if h_status (r_h r) =? 100
        then let r := rclear r in fin er (cset_p (rset_h (hpause (r_h r)) r) (cset_dec None c))
        else emit_finished (complete c) (KcComplete er ph :: stk)
    | PCall _ _ _ _ => CUB AssertFailed
    end.

  (* 219-220: inject after http_parser_execute *)
  Definition injected (c : client) : client := cset_p (rset_parsing false (runpause (c_p c))) c.

  (* 625-640: the end of device_readyRead *)
  Definition read_tail (c : client) (stk : list cframe) (k : client -> ccfg) : ccfg :=
    if c_pending c then k c
    else match c_next c with
         | None => k c
         | Some r => request r (cset_next None c) stk k
         end.
  (* 616-623 *)
  Definition check_error (c : client) (stk : list cframe) (k : client -> ccfg) : ccfg :=
    if hasError (c_p c)
    then emit_finished (cset_pending false (dev_close (cset_error ResponseInvalidError c))) (KcRead :: stk)
    else read_tail c stk k.
  (* 603-623: after the second inject *)
  Definition after2 (stk : list cframe) (k : client -> ccfg) (er : bytes) (c : client) : ccfg :=
    let c := injected c in
    check_error c stk k.
  (* 603: the second inject; 217-218 *)
  Definition inject2 (er : bytes) (c : client) (stk : list cframe) (k : client -> ccfg) : ccfg :=
    let c := cset_p (rset_parsing true (c_p c)) c in
    if is_ok (h_errno (r_h (c_p c))) then parse (jstart er (r_h (c_p c))) Second c stk (after2 stk k) else after2 stk k er c.
  (* 590-623: after the first inject *)
  Definition after1 (stk : list cframe) (k : client -> ccfg) (er : bytes) (c : client) : ccfg :=
    let c := injected c in
    if negb (c_pending c) then read_tail c stk k
    else if negb (hasError (c_p c)) && negb (beqb er []) then inject2 er c stk k
    else check_error c stk k.
  Definition finish (ph : phase) : list cframe -> (client -> ccfg) -> bytes -> client -> ccfg :=
    match ph with First => after1 | Second => after2 end.

  (* 559-640: device_readyRead; 209-218 *)
  Definition device_readyRead (c : client) (stk : list cframe) (k : client -> ccfg) : ccfg :=
    if negb (c_pending c) then k (dev_close c)
    else match c_in c with
    | [] => k c
    | _ =>
        let room := if 0 <? c_rbuf c then c_rbuf c - blen (r_content (c_p c)) else blen (c_in c) in
        if room <=? 0 then k c
        else if r_parsing (c_p c) then CUB NestedRead
        else
          let n := Z.to_nat (Z.min room (blen (c_in c))) in
          let data := firstn n (c_in c) in
          let c := cset_p (rset_parsing true (c_p c)) (cset_dev (c_dev c) (c_unsent c) (skipn n (c_in c)) c) in
          if is_ok (h_errno (r_h (c_p c))) then parse (jstart data (r_h (c_p c))) First c stk (after1 stk k)
          else after1 stk k data c
    end.

  (* 682-701: the rest of headersComplete; a HEAD response is complete here (messageComplete with a status that is
     not 100, which was checked before the signal) *)
  Definition headers_tail (l : locals) (er : bytes) (ph : phase) (c : client) (stk : list cframe)
      (k : client -> ccfg) (fin : bytes -> client -> ccfg) : ccfg :=
    if asciiEqualsCI_lower (cr_method (c_req c)) (lit "head")
    then emit_finished (complete (cset_p (rset_h (hpause (r_h (c_p c))) (c_p c)) c)) (KcParse l er ph :: stk)
    else
      let gz := zlib && existsb (fun h => asciiEqualsCI_lower (fst h) (lit "content-encoding") &&
                                          asciiEqualsCI_lower (snd h) (lit "gzip")) (r_headers (c_p c)) in
      let c := if gz then cset_dec (Some []) c else c in
      if is_ok (h_errno (r_h (c_p c))) then parse l ph c stk fin else fin er c.

  Fixpoint cresume (stk : list cframe) (c : client) {struct stk} : ccfg :=
    match stk with
    | [] => CRun c []
    | KcSig s :: t => CRun c (KcSig s :: t)
    | KcHeaders l er ph :: t => headers_tail l er ph c t (cresume t) (finish ph t (cresume t))
    | KcParse l er ph :: t => if is_ok (h_errno (r_h (c_p c))) then parse l ph c t (finish ph t (cresume t))
                              else finish ph t (cresume t) er c
    | KcComplete er ph :: t => finish ph t (cresume t) er (cset_p (rset_h (hpause (r_h (c_p c))) (c_p c)) c)
    | KcRead :: t => read_tail c t (cresume t)
    end.

  (* 384-398: redirected *)
  Definition redirected (c : client) : bool := existsb (Z.eqb (status c)) [300; 301; 302; 303; 307].
  (* 400-408: redirectionLocation *)
  Definition redirectionLocation (c : client) : bytes :=
    value_or_empty (find_field asciiEqualsCI_lower (r_headers (c_p c)) (lit "location")).
  (* 518-529: followRedirection *)
  Definition followRedirection (c : client) (stk : list cframe) (k : client -> ccfg) : ccfg :=
    if redirected c
    then request (mkCR (cr_method (c_req c)) (parse_url (redirectionLocation c)) (cr_headers (c_req c)) (cr_data (c_req c))) c stk k
    else k c.

  (* the API; get, head, post, put, deleteResource are request() with a fixed method (421-444).  consumeContent
     (410-419) may also start a timer, whose event is a readyRead *)
  Inductive cop := CoRequest (r : creq) | CoAbort | CoConsume | CoFollow | CoTimeout (n : Z) | CoBuffer (n : Z).
  Definition do_cop (o : cop) (c : client) (stk : list cframe) : ccfg :=
    let k := cresume stk in
    match o with
    | CoRequest r => request r c stk k
    | CoAbort => abort c stk k
    | CoConsume => k (cset_p (set_content [] (c_p c)) c)
    | CoFollow => followRedirection c stk k
    | CoTimeout n => k (cset_timeout n c)
    | CoBuffer n => k (cset_rbuf n c)
    end.

  Inductive caction :=
  | CaCall (o : cop)                      (* user code calls the API *)
  | CaReturn                              (* the innermost running slots return *)
  | CaReadyRead                           (* the socket's readyRead, or the timer of consumeContent *)
  | CaArrive (b : bytes)                  (* bytes from the server *)
  | CaConnected                           (* the connection is established *)
  | CaError (remote gone : bool)          (* the socket's error(): RemoteHostClosedError or another one; gone: its
                                             state is then UnconnectedState *)
  | CaFlushed                             (* everything written was sent; a socket that was closing is closed *)
  | CaClock (late : bool)                 (* time passes *)
  | CaPlan (p : plan).                    (* what the next connectToHost will do at once *)

  Definition cstep (g : ccfg) (a : caction) : ccfg :=
    match g with
    | CUB f => CUB f
    | CRun c stk =>
        let k := cresume stk in
        match a with
        | CaCall o => do_cop o c stk
        | CaReturn => match stk with KcSig _ :: t => cresume t c | _ => CRun c stk end
        | CaReadyRead => device_readyRead c stk k
        | CaArrive b => if connected c then CRun (cset_dev (c_dev c) (c_unsent c) (c_in c ++ b) c) stk else CRun c stk
        | CaConnected => match c_dev c with
                         | DConnecting => sendRequest (cset_dev DConnected false [] c) k      (* 554-557 *)
                         | _ => CRun c stk
                         end
        | CaError remote gone =>
            if unconnected c then CRun c stk
            else device_error (if remote then RemoteHostClosedError else NetworkError)
                   (if gone then cset_dev DUnconnected false (c_in c) c else c) stk k
        | CaFlushed => CRun (cset_dev (match c_dev c with DClosing => DUnconnected | d => d end) false (c_in c) c) stk
        | CaClock b => CRun (cset_timer (c_timer c) b c) stk
        | CaPlan p => CRun (cset_plan p c) stk
        end
    end.
  Definition crun (g : ccfg) (l : list caction) : ccfg := fold_left cstep l g.

  (* 343-352: a new client *)
  Definition client0 : client :=
    mkCl rfresh false NoError (mkCR [] (mkUrl [] (-1) [] []) [] []) None DUnconnected false [] PlLater
         (-1) false false 0 [] None [].
  Definition cstart : ccfg := CRun client0 [].
End Client.
