(** MODEL of HttpHandlerProxy.{h,cpp}: the request sent upstream, and HttpHandlerProxyPipe, which relays the answer of a
    QNetworkReply to a connection (Conn.v). *)
From Verif Require Import Bytes Helpers Conn ConnStep.
Open Scope Z_scope.

(** ** The request sent upstream *)
(* QNetworkRequest::setRawHeader (Qt): replaces the headers of that name, whatever their case, and appends the new one *)
Definition setRawHeader (h : header) (hs : list header) : list header :=
  filter (fun x => negb (beqb (lower (fst x)) (lower (fst h)))) hs ++ [h].
(* HttpHandlerProxy.cpp 27-44 and 46-60: handleRequest, createProxiedReply.  The target URL is the configured one with the
   path, query and fragment of the request (a component that is empty in the request is left as configured, except the
   path); how QUrl prints it is not modelled.  A request without content is sent with a null device.
   None: the handler declines. *)
Record proxied := mkProxied { px_method : bytes; px_path : bytes; px_query : option bytes; px_fragment : option bytes; px_headers : list header; px_content : option bytes }.
Definition some_bytes (b : bytes) : option bytes := match b with [] => None | _ => Some b end.
Definition proxyHandle (configured : bool) (r : request) : option proxied :=
  if negb configured then None                                                    (* 29 *)
  else Some (mkProxied (q_method r) (q_path r) (some_bytes (q_query r)) (some_bytes (q_fragment r))
               (fold_left (fun hs h => setRawHeader h hs) (q_headers r) []) (some_bytes (q_content r))).

(** ** The pipe *)
(* The QNetworkReply as the pipe sees it: status attribute (0 until known), header pairs, data received and not yet read.
   HttpHandlerProxy.h 54-57: _headersSent, _broken; _request and _proxiedReply are null exactly when _broken. *)
Record pipe := mkPipe { pp_code : Z; pp_headers : list header; pp_data : bytes; pp_sent : bool; pp_broken : bool }.
Definition pipe0 : pipe := mkPipe 0 [] [] false false.                              (* 71-81 *)
Definition set_sent (p : pipe) : pipe := mkPipe (pp_code p) (pp_headers p) (pp_data p) true (pp_broken p).
Definition set_data (b : bytes) (p : pipe) : pipe := mkPipe (pp_code p) (pp_headers p) b (pp_sent p) (pp_broken p).
(* 87-106: teardown: the pipe lets go of both sides; deleteLater() has no other effect *)
Definition teardown (p : pipe) : pipe := mkPipe (pp_code p) (pp_headers p) (pp_data p) (pp_sent p) true.

(** what happens: events of the upstream reply, and everything else that happens to the connection *)
Inductive pevent :=
| PxMeta (code : Z) (hs : list header)   (* the reply learns status and headers *)
| PxData (b : bytes)                     (* the reply buffers data *)
| PxRead                                 (* readyRead() *)
| PxFinished (failed : bool)             (* finished(); failed: error() is not NoError *)
| PxGone                                 (* destroyed() *)
| PxOther (a : action).

(* 74-76: requestCompleted() and closed() of the connection tear the pipe down.  The model of the connection stops in
   these signals, so the slot has run before anything else can happen. *)
Definition ends_request (o : obs) : bool := match o with OCompleted | OClosed => true | _ => false end.
Definition noticed (before after : cfg) (p : pipe) : pipe :=
  if existsb ends_request (skipn (length (log (gconn before))) (log (gconn after))) then teardown p else p.
(* a call of the pipe on its connection *)
Definition pcall (o : op) (s : cfg * pipe) : cfg * pipe :=
  let g' := step (fst s) (ACall o) in (g', noticed (fst s) g' (snd s)).
Definition gstate (g : cfg) : cst := match g with Run c _ => st c | UB _ c => st c end.

(* 109-122: sendHeaders *)
Definition sendHeaders (s : cfg * pipe) : cfg * pipe :=
  let '(g, p) := s in
  if pp_sent p || pp_broken p then s
  else pcall (OpWriteHeaders (pp_code p) (pp_headers p)) (g, set_sent p).
(* 124-127: pump; 129-133: proxiedReply_readyRead.  writeHeaders only suspends in requestCompleted(), which breaks the
   pipe: the rest of the slot then does nothing. *)
Definition pipe_readyRead (s : cfg * pipe) : cfg * pipe :=
  let '(g, p) := sendHeaders s in
  if pp_broken p then (g, p) else pcall (OpWriteContent (pp_data p)) (g, set_data [] p).
(* 135-157: proxiedReply_finished *)
Definition pipe_finished (failed : bool) (s : cfg * pipe) : cfg * pipe :=
  if negb failed then
    let '(g, p) := sendHeaders s in
    if negb (pp_broken p) && cst_eqb (gstate g) SendingContent then pcall OpClose (g, p) else (g, p)
  else
    let '(g, p) := s in
    if negb (pp_broken p) && cst_eqb (gstate g) SendingHeaders then pcall (OpWriteResponse 503 [] []) (g, p) else (g, p).

Definition pstep (s : cfg * pipe) (e : pevent) : cfg * pipe :=
  let '(g, p) := s in
  match e with
  | PxMeta code hs => (g, mkPipe code hs (pp_data p) (pp_sent p) (pp_broken p))
  | PxData b => (g, set_data (pp_data p ++ b) p)
  | PxRead => if pp_broken p then s else pipe_readyRead s               (* disconnected by teardown *)
  | PxFinished failed => if pp_broken p then s else pipe_finished failed s
  | PxGone => (g, teardown p)
  | PxOther a => let g' := step g a in (g', if pp_broken p then p else noticed g g' p)
  end.
Definition prun (s : cfg * pipe) (l : list pevent) : cfg * pipe := fold_left pstep l s.

(** ** ElasticNetworkAccessManager (HttpHandlerProxy.cpp 162-210) *)
(* State: for each child manager, in order of creation, the replies under way through it (a reply is a child of its manager
   until it is deleted; the model gives a manager no other children).  190-197, 199-208: the first manager with fewer
   than 6 children takes the request, else a new one.  [n]: name of the new reply. *)
Fixpoint elastic_put (n : nat) (ms : list (list nat)) : list (list nat) :=
  match ms with
  | [] => [[n]]
  | m :: t => if Nat.ltb (length m) 6 then (m ++ [n]) :: t else m :: elastic_put n t
  end.
(* a reply is deleted *)
Definition elastic_drop (n : nat) (ms : list (list nat)) : list (list nat) := map (filter (fun x => negb (Nat.eqb x n))) ms.
Inductive elastic_event := EPut | EDrop (n : nat).
Definition elastic_step (s : nat * list (list nat)) (e : elastic_event) : nat * list (list nat) :=
  match e with EPut => (S (fst s), elastic_put (fst s) (snd s)) | EDrop n => (fst s, elastic_drop n (snd s)) end.
Definition elastic_run (l : list elastic_event) : nat * list (list nat) := fold_left elastic_step l (O, []).
