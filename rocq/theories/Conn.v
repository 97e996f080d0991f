(** Model of /repo/pillowcore/HttpConnection.cpp (HttpConnectionPrivate and the forwarding public API), with
    its input/output devices and re-entrant signals.

    Shape of the model.  A C++ call that emits a signal is suspended while the connected slots (user code)
    run; slots may call the API again.  The suspended calls form an explicit stack of frames: [KSig s] marks
    "user code of signal s is running", the other frames say what the interrupted C++ function still has to
    do once control comes back to it.  Every function takes the stack [stk] below it (pushed under a new
    [KSig] when it emits) and [k], which runs what is left ([k] is always [resume .. stk]).  The environment
    (event loop, peer, kernel, user code) is the list of [action]s given to [run]: it may call any API
    function at any moment, return from the innermost slot, deliver bytes, let the kernel take bytes.

    Undefined behaviour is the outcome [UB], never an ordinary state.

    Simplifications: int/qint64 arithmetic on buffer sizes is unbounded (all buffers below 2^31 bytes);
    qWarning/qDebug are not modelled; isOpen() of devices is not modelled; the memory of the request buffer
    is its contents plus its QByteArray capacity (Qt allocation policy of reserve/right/clear/detach). *)
From Verif Require Import Bytes ByteHelpers Thin Helpers.
Open Scope Z_scope.

(* HttpConnection.h 45 *)
Inductive cst := Uninitialized | ReceivingHeaders | ReceivingContent | SendingHeaders | SendingContent
               | Completed | Flushing | Closed.
Definition cst_eqb (a b : cst) : bool :=
  match a, b with
  | Uninitialized, Uninitialized | ReceivingHeaders, ReceivingHeaders | ReceivingContent, ReceivingContent
  | SendingHeaders, SendingHeaders | SendingContent, SendingContent | Completed, Completed
  | Flushing, Flushing | Closed, Closed => true
  | _, _ => false
  end.
(* HttpConnection.h 46-47 *)
Definition MaxHead : Z := 32 * 1024.
Definition MaxContent : Z := 128 * 1024 * 1024.

(* The request as the getters show it to requestReady slots (HttpConnection.cpp 718-815) *)
Record request := mkReq {
  q_method : bytes; q_uri : bytes; q_path : bytes; q_query : bytes; q_fragment : bytes;
  q_version : bytes; q_headers : list header; q_content : bytes }.
Definition req0 : request := mkReq [] [] [] [] [] [] [] [].

(** Observable events of one connection life, in order. *)
Inductive obs :=
| OReady (r : request)          (* requestReady emitted *)
| OCompleted                    (* requestCompleted emitted *)
| OClosed                       (* closed emitted *)
| OWrite (b : bytes)            (* _outputDevice->write(b) *)
| OShut (p : Z).                (* devices closed while p bytes were waiting to be written *)

Inductive ubreason := NullInput | NullOutput | IntMinNegation | UseAfterFree | SharedNullWrite.

(* The fields of HttpConnectionPrivate (HttpConnection.cpp 78-102) and of the devices it uses:
   in_ok/out_ok: _inputDevice/_outputDevice not null; avail: bytes readable on the input; sock: the output
   is a QTcpSocket/QLocalSocket (buffered, bytesToWrite() = pending) or another, unbuffered device;
   kcap: how many bytes the kernel would take now; drain_conn: bytesWritten connected to drain();
   ps: _parser, _requestHeadersRef, _requestContentLengthHeaderIndex; buf/cap/isnull: _requestBuffer, its
   capacity, and whether it is Qt's shared null array; req: the request getters; freed: the storage the
   request getters point into was released; cl: _requestContentLength; rstatus..chunked: _response*;
   hbuf: _responseHeadersBuffer.  Ghost: log (events since initialize), arrived (bytes delivered by the
   input device since initialize). *)
Record conn := mkC {
  st : cst; in_ok : bool; out_ok : bool; avail : bytes; sock : bool; pending : Z; kcap : Z; drain_conn : bool; ps : tstate; buf : bytes; cap : Z; isnull : bool; req : request; freed : bool; cl : Z; http11 : bool; rstatus : Z; rlen : Z; rsent : Z; keepalive : bool; chunked : bool; hbuf : bytes; log : list obs; arrived : bytes }.

Definition set_st (v : cst) (c : conn) : conn :=
  mkC v (in_ok c) (out_ok c) (avail c) (sock c) (pending c) (kcap c) (drain_conn c) (ps c) (buf c) (cap c) (isnull c) (req c) (freed c) (cl c) (http11 c) (rstatus c) (rlen c) (rsent c) (keepalive c) (chunked c) (hbuf c) (log c) (arrived c).
Definition set_in_ok (v : bool) (c : conn) : conn :=
  mkC (st c) v (out_ok c) (avail c) (sock c) (pending c) (kcap c) (drain_conn c) (ps c) (buf c) (cap c) (isnull c) (req c) (freed c) (cl c) (http11 c) (rstatus c) (rlen c) (rsent c) (keepalive c) (chunked c) (hbuf c) (log c) (arrived c).
Definition set_out_ok (v : bool) (c : conn) : conn :=
  mkC (st c) (in_ok c) v (avail c) (sock c) (pending c) (kcap c) (drain_conn c) (ps c) (buf c) (cap c) (isnull c) (req c) (freed c) (cl c) (http11 c) (rstatus c) (rlen c) (rsent c) (keepalive c) (chunked c) (hbuf c) (log c) (arrived c).
Definition set_avail (v : bytes) (c : conn) : conn :=
  mkC (st c) (in_ok c) (out_ok c) v (sock c) (pending c) (kcap c) (drain_conn c) (ps c) (buf c) (cap c) (isnull c) (req c) (freed c) (cl c) (http11 c) (rstatus c) (rlen c) (rsent c) (keepalive c) (chunked c) (hbuf c) (log c) (arrived c).
Definition set_sock (v : bool) (c : conn) : conn :=
  mkC (st c) (in_ok c) (out_ok c) (avail c) v (pending c) (kcap c) (drain_conn c) (ps c) (buf c) (cap c) (isnull c) (req c) (freed c) (cl c) (http11 c) (rstatus c) (rlen c) (rsent c) (keepalive c) (chunked c) (hbuf c) (log c) (arrived c).
Definition set_pending (v : Z) (c : conn) : conn :=
  mkC (st c) (in_ok c) (out_ok c) (avail c) (sock c) v (kcap c) (drain_conn c) (ps c) (buf c) (cap c) (isnull c) (req c) (freed c) (cl c) (http11 c) (rstatus c) (rlen c) (rsent c) (keepalive c) (chunked c) (hbuf c) (log c) (arrived c).
Definition set_kcap (v : Z) (c : conn) : conn :=
  mkC (st c) (in_ok c) (out_ok c) (avail c) (sock c) (pending c) v (drain_conn c) (ps c) (buf c) (cap c) (isnull c) (req c) (freed c) (cl c) (http11 c) (rstatus c) (rlen c) (rsent c) (keepalive c) (chunked c) (hbuf c) (log c) (arrived c).
Definition set_drain_conn (v : bool) (c : conn) : conn :=
  mkC (st c) (in_ok c) (out_ok c) (avail c) (sock c) (pending c) (kcap c) v (ps c) (buf c) (cap c) (isnull c) (req c) (freed c) (cl c) (http11 c) (rstatus c) (rlen c) (rsent c) (keepalive c) (chunked c) (hbuf c) (log c) (arrived c).
Definition set_ps (v : tstate) (c : conn) : conn :=
  mkC (st c) (in_ok c) (out_ok c) (avail c) (sock c) (pending c) (kcap c) (drain_conn c) v (buf c) (cap c) (isnull c) (req c) (freed c) (cl c) (http11 c) (rstatus c) (rlen c) (rsent c) (keepalive c) (chunked c) (hbuf c) (log c) (arrived c).
Definition set_buf (v : bytes) (c : conn) : conn :=
  mkC (st c) (in_ok c) (out_ok c) (avail c) (sock c) (pending c) (kcap c) (drain_conn c) (ps c) v (cap c) (isnull c) (req c) (freed c) (cl c) (http11 c) (rstatus c) (rlen c) (rsent c) (keepalive c) (chunked c) (hbuf c) (log c) (arrived c).
Definition set_cap (v : Z) (c : conn) : conn :=
  mkC (st c) (in_ok c) (out_ok c) (avail c) (sock c) (pending c) (kcap c) (drain_conn c) (ps c) (buf c) v (isnull c) (req c) (freed c) (cl c) (http11 c) (rstatus c) (rlen c) (rsent c) (keepalive c) (chunked c) (hbuf c) (log c) (arrived c).
Definition set_isnull (v : bool) (c : conn) : conn :=
  mkC (st c) (in_ok c) (out_ok c) (avail c) (sock c) (pending c) (kcap c) (drain_conn c) (ps c) (buf c) (cap c) v (req c) (freed c) (cl c) (http11 c) (rstatus c) (rlen c) (rsent c) (keepalive c) (chunked c) (hbuf c) (log c) (arrived c).
Definition set_req (v : request) (c : conn) : conn :=
  mkC (st c) (in_ok c) (out_ok c) (avail c) (sock c) (pending c) (kcap c) (drain_conn c) (ps c) (buf c) (cap c) (isnull c) v (freed c) (cl c) (http11 c) (rstatus c) (rlen c) (rsent c) (keepalive c) (chunked c) (hbuf c) (log c) (arrived c).
Definition set_freed (v : bool) (c : conn) : conn :=
  mkC (st c) (in_ok c) (out_ok c) (avail c) (sock c) (pending c) (kcap c) (drain_conn c) (ps c) (buf c) (cap c) (isnull c) (req c) v (cl c) (http11 c) (rstatus c) (rlen c) (rsent c) (keepalive c) (chunked c) (hbuf c) (log c) (arrived c).
Definition set_cl (v : Z) (c : conn) : conn :=
  mkC (st c) (in_ok c) (out_ok c) (avail c) (sock c) (pending c) (kcap c) (drain_conn c) (ps c) (buf c) (cap c) (isnull c) (req c) (freed c) v (http11 c) (rstatus c) (rlen c) (rsent c) (keepalive c) (chunked c) (hbuf c) (log c) (arrived c).
Definition set_http11 (v : bool) (c : conn) : conn :=
  mkC (st c) (in_ok c) (out_ok c) (avail c) (sock c) (pending c) (kcap c) (drain_conn c) (ps c) (buf c) (cap c) (isnull c) (req c) (freed c) (cl c) v (rstatus c) (rlen c) (rsent c) (keepalive c) (chunked c) (hbuf c) (log c) (arrived c).
Definition set_rstatus (v : Z) (c : conn) : conn :=
  mkC (st c) (in_ok c) (out_ok c) (avail c) (sock c) (pending c) (kcap c) (drain_conn c) (ps c) (buf c) (cap c) (isnull c) (req c) (freed c) (cl c) (http11 c) v (rlen c) (rsent c) (keepalive c) (chunked c) (hbuf c) (log c) (arrived c).
Definition set_rlen (v : Z) (c : conn) : conn :=
  mkC (st c) (in_ok c) (out_ok c) (avail c) (sock c) (pending c) (kcap c) (drain_conn c) (ps c) (buf c) (cap c) (isnull c) (req c) (freed c) (cl c) (http11 c) (rstatus c) v (rsent c) (keepalive c) (chunked c) (hbuf c) (log c) (arrived c).
Definition set_rsent (v : Z) (c : conn) : conn :=
  mkC (st c) (in_ok c) (out_ok c) (avail c) (sock c) (pending c) (kcap c) (drain_conn c) (ps c) (buf c) (cap c) (isnull c) (req c) (freed c) (cl c) (http11 c) (rstatus c) (rlen c) v (keepalive c) (chunked c) (hbuf c) (log c) (arrived c).
Definition set_keepalive (v : bool) (c : conn) : conn :=
  mkC (st c) (in_ok c) (out_ok c) (avail c) (sock c) (pending c) (kcap c) (drain_conn c) (ps c) (buf c) (cap c) (isnull c) (req c) (freed c) (cl c) (http11 c) (rstatus c) (rlen c) (rsent c) v (chunked c) (hbuf c) (log c) (arrived c).
Definition set_chunked (v : bool) (c : conn) : conn :=
  mkC (st c) (in_ok c) (out_ok c) (avail c) (sock c) (pending c) (kcap c) (drain_conn c) (ps c) (buf c) (cap c) (isnull c) (req c) (freed c) (cl c) (http11 c) (rstatus c) (rlen c) (rsent c) (keepalive c) v (hbuf c) (log c) (arrived c).
Definition set_hbuf (v : bytes) (c : conn) : conn :=
  mkC (st c) (in_ok c) (out_ok c) (avail c) (sock c) (pending c) (kcap c) (drain_conn c) (ps c) (buf c) (cap c) (isnull c) (req c) (freed c) (cl c) (http11 c) (rstatus c) (rlen c) (rsent c) (keepalive c) (chunked c) v (log c) (arrived c).
Definition set_log (v : list obs) (c : conn) : conn :=
  mkC (st c) (in_ok c) (out_ok c) (avail c) (sock c) (pending c) (kcap c) (drain_conn c) (ps c) (buf c) (cap c) (isnull c) (req c) (freed c) (cl c) (http11 c) (rstatus c) (rlen c) (rsent c) (keepalive c) (chunked c) (hbuf c) v (arrived c).
Definition set_arrived (v : bytes) (c : conn) : conn :=
  mkC (st c) (in_ok c) (out_ok c) (avail c) (sock c) (pending c) (kcap c) (drain_conn c) (ps c) (buf c) (cap c) (isnull c) (req c) (freed c) (cl c) (http11 c) (rstatus c) (rlen c) (rsent c) (keepalive c) (chunked c) (hbuf c) (log c) v.

Ltac csimp := cbn [st in_ok out_ok avail sock pending kcap drain_conn ps buf cap isnull req freed cl http11 rstatus rlen rsent keepalive chunked hbuf log arrived set_st set_in_ok set_out_ok set_avail set_sock set_pending set_kcap set_drain_conn set_ps set_buf set_cap set_isnull set_req set_freed set_cl set_http11 set_rstatus set_rlen set_rsent set_keepalive set_chunked set_hbuf set_log set_arrived].
Ltac csimp_in H := cbn [st in_ok out_ok avail sock pending kcap drain_conn ps buf cap isnull req freed cl http11 rstatus rlen rsent keepalive chunked hbuf log arrived set_st set_in_ok set_out_ok set_avail set_sock set_pending set_kcap set_drain_conn set_ps set_buf set_cap set_isnull set_req set_freed set_cl set_http11 set_rstatus set_rlen set_rsent set_keepalive set_chunked set_hbuf set_log set_arrived] in H.
Tactic Notation "csimp" "in" "*" := cbn [st in_ok out_ok avail sock pending kcap drain_conn ps buf cap isnull req freed cl http11 rstatus rlen rsent keepalive chunked hbuf log arrived set_st set_in_ok set_out_ok set_avail set_sock set_pending set_kcap set_drain_conn set_ps set_buf set_cap set_isnull set_req set_freed set_cl set_http11 set_rstatus set_rlen set_rsent set_keepalive set_chunked set_hbuf set_log set_arrived] in *.

Inductive signal := SReady | SCompleted | SClosed | SWritten.

(* suspended calls; the comment tells where execution continues *)
Inductive frame :=
| KSig (s : signal)            (* user slots of signal s *)
| KCompleted                   (* transitionToCompleted, 331 *)
| KFlushC                      (* transitionToCompleted after flush(), 347 *)
| KDrain                       (* drain after flush(), 371 *)
| KFlushing                    (* transitionToFlushing after drain(), 382 *)
| KSending                     (* transitionToSendingContent after transitionToCompleted(), 313 *)
| KResponse (content : bytes)  (* writeResponse after writeHeaders(), 443 *)
| KClosed.                     (* transitionToClosed after emit closed, 395 *)

Inductive cfg := Run (c : conn) (stk : list frame) | UB (r : ubreason) (c : conn).

Definition emit_log (o : obs) (c : conn) : conn := set_log (log c ++ [o]) c.

(* _outputDevice->write(b); null pointer use if there is no device. A socket buffers, other devices do not. *)
Definition dev_write (b : bytes) (c : conn) (k : conn -> cfg) : cfg :=
  if out_ok c
  then k (emit_log (OWrite b) (set_pending (if sock c then pending c + blen b else pending c) c))
  else UB NullOutput c.

(* QByteArray::reserve(n): reallocates when n exceeds the capacity; views on the old block are then dead *)
Definition reserve (n : Z) (c : conn) : conn :=
  if cap c <? n then set_cap n (set_isnull false (set_freed true c)) else c.

(** ** Request fields *)

(* 199-213: setupRequestHeaders, effect on the buffer *)
Definition setup_buf (b : bytes) (rs : list href) : bytes :=
  fold_left (fun b r => nullterm (nullterm b (h_fpos r) (h_flen r)) (h_vpos r) (h_vlen r)) rs b.
(* the header views, read in buffer b *)
Definition view_headers (b : bytes) (rs : list href) : list header :=
  map (fun r => (slice b (h_fpos r) (h_flen r), slice b (h_vpos r) (h_vlen r))) rs.

(* 263-280: null-terminate the request fields, in order *)
Definition field_buf (b : bytes) (p : tparser) : bytes :=
  let b := if qs_len p =? 0 then nullterm b (uri_start p) (uri_len p) else b in
  let b := nullterm b (rm_start p) (rm_len p) in
  let b := nullterm b (frag_start p) (frag_len p) in
  let b := nullterm b (path_start p) (path_len p) in
  let b := nullterm b (qs_start p) (qs_len p) in
  nullterm b (ver_start p) (ver_len p).
(* what the getters return: views in the final buffer, except the URI, which is a deep copy taken before
   the terminations when there is a query string (272-273) *)
Definition view_request (before b : bytes) (s : tstate) (cl : Z) : request :=
  let p := tp s in
  mkReq (slice b (rm_start p) (rm_len p))
        (if qs_len p =? 0 then slice b (uri_start p) (uri_len p)
         else slice before (uri_start p) (uri_len p))
        (slice b (path_start p) (path_len p))
        (slice b (qs_start p) (qs_len p))
        (slice b (frag_start p) (frag_len p))
        (slice b (ver_start p) (ver_len p))
        (view_headers b (refs s))
        (slice b (body_start p) cl).                            (* 289 *)

(** ** Transitions without calls back *)

(* 188-197: transitionToReceivingHeaders *)
Definition toReceivingHeaders (c : conn) : conn :=
  if cst_eqb (st c) ReceivingHeaders then c else
  let c := set_st ReceivingHeaders c in
  let c := set_ps (mkTS (tp_init (tp (ps c))) (refs (ps c)) (-1)) c in
  set_http11 false (set_cl 0 c).

(* 254-298: transitionToSendingHeaders.  setupRequestHeaders is repeated when headers were popped (261-262):
   on an already terminated buffer it stores the same NULs, so it is always run here. *)
Definition toSendingHeaders (c : conn) (stk : list frame) (k : conn -> cfg) : cfg :=
  if cst_eqb (st c) SendingHeaders then k c else
  let c := set_st SendingHeaders c in
  let before := setup_buf (buf c) (refs (ps c)) in
  let b := field_buf before (tp (ps c)) in
  let r := view_request before b (ps c) (cl c) in
  let c := set_freed false (set_req r (set_buf b c)) in
  let c := set_http11 (eq_token (q_version r) (lit "HTTP/1.1")) c in
  let c := set_chunked false (set_keepalive true (set_rsent 0 (set_rlen (-1) c))) in
  Run (emit_log (OReady r) c) (KSig SReady :: stk).

(** ** flush, drain, closing *)

(* 356-365: flush.  QTcpSocket/QLocalSocket::flush hands bytes to the kernel and then emits bytesWritten,
   to which user slots may be connected.  (Qt suppresses a bytesWritten nested in another one; here it is
   emitted anyway: a suppressed emission behaves as slots that return at once.) *)
Definition flush (c : conn) (stk : list frame) (k : conn -> cfg) : cfg :=
  let n := Z.min (pending c) (kcap c) in
  if out_ok c && (0 <? pending c) && sock c && (0 <? n)
  then Run (set_pending (pending c - n) (set_kcap (kcap c - n) c)) (KSig SWritten :: stk)
  else k c.

(* 386-399: transitionToClosed.  Device close() (391-392) is one observable event; the device signals it
   causes (disconnected, aboutToClose) come back as close(), which returns at 388. *)
Definition closed_tail (c : conn) : conn :=                     (* 395-398 *)
  set_in_ok false (set_out_ok false (set_drain_conn false c)).
Definition toClosed (c : conn) (stk : list frame) (k : conn -> cfg) : cfg :=
  if cst_eqb (st c) Closed then k c else
  let c := set_st Closed c in
  let c := if in_ok c || out_ok c then emit_log (OShut (pending c)) c else c in
  Run (emit_log OClosed c) (KSig SClosed :: KClosed :: stk).

(* 367-372: drain *)
Definition drain_tail (c : conn) (stk : list frame) (k : conn -> cfg) : cfg :=   (* 371 *)
  if out_ok c && (pending c =? 0) then toClosed c stk k else k c.
Definition drain (c : conn) (stk : list frame) (k : conn -> cfg) : cfg :=
  if negb (cst_eqb (st c) Flushing) then k c
  else flush c (KDrain :: stk) (fun c => drain_tail c stk k).

(* 374-384: transitionToFlushing; connecting a null device (383) only prints a warning *)
Definition flushing_tail (c : conn) : conn :=                   (* 382-383 *)
  if cst_eqb (st c) Flushing && out_ok c then set_drain_conn true c else c.
Definition toFlushing (c : conn) (stk : list frame) (k : conn -> cfg) : cfg :=
  if cst_eqb (st c) Flushing then k c
  else drain (set_st Flushing c) (KFlushing :: stk) (fun c => k (flushing_tail c)).

(* 401-418: writeRequestErrorResponse; a null status text would be a null pointer, the callers pass 400/413 *)
Definition error_text (status : bytes) : bytes :=
  lit "HTTP/1.0 " ++ status ++ CRLF ++ lit "Connection: close" ++ CRLF ++ CRLF.
Definition writeRequestErrorResponse (code : Z) (c : conn) (stk : list frame) (k : conn -> cfg) : cfg :=
  if cst_eqb (st c) Closed then k c else
  let text := match statusCodeAndMessage code with Some t => t | None => [] end in
  dev_write (error_text text) c (fun c => toFlushing c stk k).

(** ** Receiving *)

(* 161-169: read everything available into the request buffer *)
Definition read_input (c : conn) : conn :=
  match avail c with
  | [] => c
  | _ => let c1 := reserve (blen (buf c) + blen (avail c) + 1) c in
         set_avail [] (set_buf (buf c ++ avail c) c1)
  end.

(* 181-185: processInput in state ReceivingContent, after the read *)
Definition check_content (c : conn) (stk : list frame) (k : conn -> cfg) : cfg :=
  if cl c <=? blen (buf c) - body_start (tp (ps c)) then toSendingHeaders c stk k else k c.

(* 215-252: transitionToReceivingContent (called in ReceivingHeaders only); the nested processInput() at 245
   runs in state ReceivingContent *)
Definition toReceivingContent (c : conn) (stk : list frame) (k : conn -> cfg) : cfg :=
  let c := set_st ReceivingContent c in
  let b := setup_buf (buf c) (refs (ps c)) in
  let c := set_buf b c in
  let hs := view_headers b (refs (ps c)) in
  let '(c, ok) :=
    if 0 <=? cl_index (ps c)
    then match toInt (snd (nth (Z.to_nat (cl_index (ps c))) hs ([], []))) with
         | Some v => (set_cl v c, true)
         | None => (set_cl 0 c, false)
         end
    else (c, true) in
  if cl c <? 0 then writeRequestErrorResponse 400 c stk k
  else if (MaxContent <? cl c) || negb ok then writeRequestErrorResponse 413 c stk k
  else if 0 <? cl c then
    let next c :=
      let c := reserve (body_start (tp (ps c)) + cl c + 1) c in
      if in_ok c then check_content (read_input c) stk k else UB NullInput c in
    if asciiEqualsCI_lower (getFieldValue_tok hs (lit "expect")) (lit "100-continue")
    then dev_write (lit "HTTP/1.1 100 Continue" ++ CRLF ++ CRLF) c next
    else next c
  else toSendingHeaders c stk k.

(* 157-186: processInput *)
Definition processInput (c : conn) (stk : list frame) (k : conn -> cfg) : cfg :=
  if cst_eqb (st c) ReceivingHeaders then
    if negb (in_ok c) then UB NullInput c else
    let c := read_input c in
    let s := match buf c with [] => ps c | _ => texecute (buf c) (nread (tp (ps c))) (ps c) end in
    let c := set_ps s c in
    if (MaxHead <? nread (tp s)) || has_error (tp s) then writeRequestErrorResponse 400 c stk k
    else if is_finished (tp s) then toReceivingContent c stk k
    else k c
  else if cst_eqb (st c) ReceivingContent then
    if negb (in_ok c) then UB NullInput c else check_content (read_input c) stk k
  else k c.

(** ** Completing *)

(* 331-341: what is left of the request buffer, and the released request state.
   _requestParams is modelled in Params.v (emptied here and in initialize). *)
Definition release_request (c : conn) : conn :=
  let remaining := blen (buf c) - body_start (tp (ps c)) - cl c in
  let c := if 0 <? remaining
           then set_freed true (set_isnull false (set_cap remaining
                  (set_buf (skipn (Z.to_nat (blen (buf c) - remaining)) (buf c)) c)))
           else if cap c <=? MaxHead then set_buf [] c
           else set_freed true (set_isnull true (set_cap 0 (set_buf [] c))) in
  set_ps (mkTS (tp (ps c)) [] (cl_index (ps c))) c.
(* 347-348 *)
Definition flushc_tail (c : conn) (stk : list frame) (k : conn -> cfg) : cfg :=
  processInput (toReceivingHeaders c) stk k.
(* 331-353 *)
Definition completed_tail (c : conn) (stk : list frame) (k : conn -> cfg) : cfg :=
  let c := release_request c in
  if keepalive c then flush c (KFlushC :: stk) (fun c => flushc_tail c stk k)
  else toFlushing c stk k.
(* 320-354: transitionToCompleted *)
Definition toCompleted (c : conn) (stk : list frame) (k : conn -> cfg) : cfg :=
  if cst_eqb (st c) Completed then k c
  else Run (emit_log OCompleted (set_st Completed c)) (KSig SCompleted :: KCompleted :: stk).

(** ** Sending *)

Definition is_head (r : request) : bool := eq_token (q_method r) (lit "HEAD").

(* 300-318: transitionToSendingContent *)
Definition sending_tail (c : conn) : conn :=                    (* 313-317 *)
  if (rlen c <? 0) && negb (chunked c) then set_keepalive false c else c.
Definition toSendingContent (c : conn) (stk : list frame) (k : conn -> cfg) : cfg :=
  if cst_eqb (st c) SendingContent then k c else
  let c := set_hbuf [] (set_st SendingContent c) in
  if (rlen c =? 0) || is_head (req c)
  then toCompleted c (KSending :: stk) (fun c => k (sending_tail c))
  else k (sending_tail c).

(* 474-497: the loop over the handler's headers *)
Record scan := mkScan { s_len : Z; s_ct : option header; s_conn : option header; s_te : option header; s_out : bytes }.
Definition scan_header (s : scan) (h : header) : scan :=
  if asciiEqualsCI_lower (fst h) (lit "content-length")
  then mkScan (match toLongLong (snd h) with Some v => v | None => -1 end) (s_ct s) (s_conn s) (s_te s) (s_out s)
  else if asciiEqualsCI_lower (fst h) (lit "content-type")
  then mkScan (s_len s) (Some h) (s_conn s) (s_te s) (s_out s)
  else if asciiEqualsCI_lower (fst h) (lit "connection")
  then mkScan (s_len s) (s_ct s) (Some h) (s_te s) (s_out s)
  else if asciiEqualsCI_lower (fst h) (lit "transfer-encoding")
  then mkScan (s_len s) (s_ct s) (s_conn s) (Some h) (s_out s)
  else mkScan (s_len s) (s_ct s) (s_conn s) (s_te s) (s_out s ++ header_line h).

(* 446-553: writeHeaders *)
Definition writeHeaders (code : Z) (hs : list header) (c : conn) (stk : list frame) (k : conn -> cfg) : cfg :=
  if negb (cst_eqb (st c) SendingHeaders) then k c else
  let status := match statusCodeAndMessage code with
                | Some t => t
                | None => match statusMessage 500 with Some t => t | None => [] end   (* 459 *)
                end in
  let c := set_rstatus code c in
  let hb := hbuf c ++ q_version (req c) ++ [SP] ++ status ++ CRLF in
  let s := fold_left scan_header hs (mkScan (rlen c) None None None hb) in
  let c := set_rlen (s_len s) c in
  let '(chunk, te) :=                                                           (* 499-517 *)
    match s_te s with
    | Some h => if asciiEqualsCI_lower (snd h) (lit "chunked")
                then if http11 c
                     then if rlen c =? -1 then (true, Some h) else (chunked c, None)
                     else (chunked c, None)
                else (chunked c, Some h)
    | None => (chunked c, None)
    end in
  let c := set_chunked chunk c in
  let clientConn := getFieldValue_tok (q_headers (req c)) (lit "connection") in
  let clientWants := if http11 c then negb (asciiEqualsCI_lower clientConn (lit "close"))
                     else asciiEqualsCI_lower clientConn (lit "keep-alive") in
  let ka := if clientWants
            then let serverWants := (0 <=? rlen c) || chunked c in
                 match s_conn s with
                 | Some h => if serverWants then negb (asciiEqualsCI_lower (snd h) (lit "close")) else serverWants
                 | None => serverWants
                 end
            else false in
  let c := set_keepalive ka c in
  let hb := s_out s in
  let numlen := if rlen c =? -1 then Some []
                else match appendNumber 10 (to_int (rlen c)) with
                     | Some d => Some (lit "Content-Length: " ++ d ++ CRLF)
                     | None => None
                     end in
  match numlen with
  | None => UB IntMinNegation c
  | Some lenline =>
      let hb := hb ++ lenline in
      let hb := hb ++ match s_ct s with
                      | Some h => header_line h
                      | None => if 0 <? rlen c then lit "Content-Type: text/plain" ++ CRLF else []
                      end in
      let hb := hb ++ (if negb (http11 c) || negb ka
                       then (if ka then lit "Connection: keep-alive" ++ CRLF else lit "Connection: close" ++ CRLF)
                       else []) in
      let hb := hb ++ match te with Some h => header_line h | None => [] end in
      let hb := hb ++ CRLF in
      let c := set_hbuf hb c in
      dev_write hb c (fun c => toSendingContent c stk k)
  end.

(* 555-589: writeContent *)
Definition writeContent (content : bytes) (c : conn) (stk : list frame) (k : conn -> cfg) : cfg :=
  if negb (cst_eqb (st c) SendingContent) then k c
  else if rlen c =? 0 then k c
  else if (0 <? rlen c) && (rlen c <? blen content + rsent c) then k c
  else if (0 <? blen content) && negb (is_head (req c)) then
    let c := set_rsent (rsent c + blen content) c in
    let fin c := if rsent c =? rlen c then toCompleted c stk k else k c in
    if chunked c then
      match appendNumber 16 (blen content) with
      | None => UB IntMinNegation c
      | Some d => dev_write (d ++ CRLF) c (fun c => dev_write content c (fun c => dev_write CRLF c fin))
      end
    else dev_write content c fin
  else k c.

(* 432-444: writeResponse; line 443 reads _requestMethod, which may point into released storage
   (its bytes are looked at only when its length is that of "HEAD") *)
Definition resp_tail (content : bytes) (c : conn) (stk : list frame) (k : conn -> cfg) : cfg :=
  match content with
  | [] => k c
  | _ => if freed c && (blen (q_method (req c)) =? 4) then UB UseAfterFree c
         else if is_head (req c) then k c else writeContent content c stk k
  end.
Definition writeResponse (code : Z) (hs : list header) (content : bytes) (c : conn) (stk : list frame)
    (k : conn -> cfg) : cfg :=
  if negb (cst_eqb (st c) SendingHeaders) then k c
  else writeHeaders code hs (set_rlen (blen content) c) (KResponse content :: stk)
         (fun c => resp_tail content c stk k).

(* 591-611: endContent *)
Definition endContent (c : conn) (stk : list frame) (k : conn -> cfg) : cfg :=
  if negb (cst_eqb (st c) SendingContent) then k c
  else if 0 <=? rlen c then k c
  else if chunked c then dev_write (lit "0" ++ CRLF ++ CRLF) c (fun c => toCompleted c stk k)
  else toCompleted (set_keepalive false c) stk k.

(** ** initialize *)

(* 632-655 with 139-155: initialize(input, output); [has_in]/[has_out]: the pointers are not null;
   [is_sock]: kind of the output device; [data]: bytes already readable (the zero timer of 154 comes back
   as processInput).  When the input device is the one in use, nothing of the device changes (634). *)
Inductive device := NewDevice (has_in has_out is_sock : bool) (data : bytes) | SameDevice.
Definition initialize (d : device) (c : conn) : cfg :=
  let c := match d with
           | NewDevice hi ho so data =>
               set_arrived data (set_log [] (set_drain_conn false (set_kcap 0 (set_pending 0 (set_sock so
                 (set_avail data (set_out_ok ho (set_in_ok hi c))))))))
           | SameDevice => c
           end in
  if isnull c && (cap c <=? MaxHead) then UB SharedNullWrite c else
  let c := set_ps (mkTS tp_zero [] (cl_index (ps c))) c in
  let c := if cap c <=? MaxHead then set_buf [] c
           else set_freed true (set_isnull true (set_cap 0 (set_buf [] c))) in
  let c := toReceivingHeaders c in
  if in_ok c then Run c [] else UB NullInput c.

(** ** Running *)

(* continue the suspended calls until user code has control again *)
Fixpoint resume (stk : list frame) (c : conn) : cfg :=
  match stk with
  | [] => Run c []
  | KSig s :: t => Run c (KSig s :: t)
  | KCompleted :: t => completed_tail c t (resume t)
  | KFlushC :: t => flushc_tail c t (resume t)
  | KDrain :: t => drain_tail c t (resume t)
  | KFlushing :: t => resume t (flushing_tail c)
  | KSending :: t => resume t (sending_tail c)
  | KResponse content :: t => resp_tail content c t (resume t)
  | KClosed :: t => resume t (closed_tail c)
  end.

(* the public API (slots and methods of HttpConnection, 618-716) *)
Inductive op :=
| OpInit (d : device)
| OpProcess                                                    (* processInput() slot: readyRead, timer *)
| OpWriteResponse (code : Z) (hs : list header) (content : bytes)
| OpWriteHeaders (code : Z) (hs : list header)
| OpWriteContent (content : bytes)
| OpEndContent
| OpClose                                                      (* close(), also disconnected/aboutToClose *)
| OpFlush
| OpDrain.

Definition do_op (o : op) (c : conn) (stk : list frame) : cfg :=
  let k := resume stk in
  match o with
  | OpInit d => match initialize d c with Run c' _ => k c' | UB r c' => UB r c' end
  | OpProcess => processInput c stk k
  | OpWriteResponse code hs content => writeResponse code hs content c stk k
  | OpWriteHeaders code hs => writeHeaders code hs c stk k
  | OpWriteContent content => writeContent content c stk k
  | OpEndContent => endContent c stk k
  | OpClose => toClosed c stk k
  | OpFlush => flush c stk k
  | OpDrain => drain c stk k
  end.

Inductive action :=
| ACall (o : op)               (* user code or the event loop calls the API *)
| AReturn                      (* the innermost running slot returns *)
| AArrive (b : bytes)          (* the peer's bytes reach the input device *)
| AKernel (n : Z)              (* the kernel can now take n bytes *)
| AWritten (n : Z).            (* the socket wrote n buffered bytes and emits bytesWritten, from the event loop *)

Definition step (g : cfg) (a : action) : cfg :=
  match g with
  | UB r c => UB r c
  | Run c stk =>
      match a with
      | ACall o => do_op o c stk
      | AReturn => match stk with
                   | KSig _ :: t => resume t c
                   | _ => Run c stk
                   end
      | AArrive b => if in_ok c && negb (cst_eqb (st c) Closed)
                     then Run (set_arrived (arrived c ++ b) (set_avail (avail c ++ b) c)) stk
                     else Run c stk
      | AKernel n => Run (set_kcap (Z.max 0 n) c) stk
      | AWritten n => let n := Z.max 0 (Z.min n (pending c)) in
                      let c := set_pending (pending c - n) c in
                      if drain_conn c then drain c stk (resume stk) else Run c stk
      end
  end.

Definition run (g : cfg) (l : list action) : cfg := fold_left step l g.

(* 130-136: a new HttpConnection; _requestBuffer detached: capacity 0, not the shared null *)
Definition conn0 : conn :=
  mkC Uninitialized false false [] false 0 0 false
      (mkTS tp_zero [] (-1)) [] 0 false req0 false 0 false
      0 (-1) 0 false false [] [] [].
Definition start : cfg := Run conn0 [].
