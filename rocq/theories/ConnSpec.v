(** SPECIFICATION of what a connection does with a byte stream and with the handler's calls.
    Uses the request grammar (ReqGrammar.v), numerals and status texts (TextSpec.v); the only things taken
    from the model are the record types of what is observed: [request] (the getters) and [obs] (the events). *)
From Verif Require Import Bytes ReqGrammar TextSpec Conn.
Open Scope Z_scope.

(** ** Integers in header values: blanks, optional sign, digits; a NUL byte ends the text *)
Definition blank (c : ascii) : bool := mem c [SP; "009"%char; LF; "011"%char; "012"%char; CR].
Inductive IntText (lo hi : Z) : bytes -> Z -> Prop :=
| IT sp sg ds n m tail : forallb blank sp = true -> Digits 10 ds n ->
    (sg = [] /\ m = n \/ sg = ["+"%char] /\ m = n \/ sg = ["-"%char] /\ m = - n) ->
    (tail = [] \/ exists t, tail = NUL :: t) -> lo <= m <= hi ->
    IntText lo hi (sp ++ sg ++ ds ++ tail) m.

(** ** Headers by name *)
Definition named (name : string) (h : bytes * bytes) : bool := beqb (lower (fst h)) (lit name).
Definition first_named (name : string) (hs : list (bytes * bytes)) : option bytes :=
  match filter (named name) hs with [] => None | h :: _ => Some (snd h) end.
Definition last_named (name : string) (hs : list (bytes * bytes)) : option (bytes * bytes) :=
  match rev (filter (named name) hs) with [] => None | h :: _ => Some h end.
Definition says (v : option bytes) (word : string) : bool :=
  match v with Some b => beqb (lower b) (lit word) | None => false end.

(** ** Requests on the wire *)
Record msg := mkMsg { m_head : head; m_content : bytes }.
Definition wire (m : msg) : bytes := head_text (m_head m) ++ m_content m.

(** the content length a head announces: the last Content-Length header, 0 if there is none *)
Definition int_lo : Z := -2147483648.
Definition int_hi : Z := 2147483647.
Inductive AnnouncedLength (h : head) : Z -> Prop :=
| AL_none : last_named "content-length" (spec_headers h) = None -> AnnouncedLength h 0
| AL_some f v n : last_named "content-length" (spec_headers h) = Some (f, v) -> IntText int_lo int_hi v n ->
    AnnouncedLength h n.

(** the requests a connection accepts: well-formed head of at most 32767 bytes, announced length between 0
    and 128 MiB, and content of exactly that length *)
Record wf_msg (m : msg) : Prop := mkWfMsg {
  wfm_head : wf_head (m_head m);
  wfm_size : blen (head_text (m_head m)) <= 32767;
  wfm_len : AnnouncedLength (m_head m) (blen (m_content m));
  wfm_max : blen (m_content m) <= 134217728 }.

(** requestUri(): the target as sent, except that a target ending with an empty query shows a NUL instead
    of its '?' (see C04) *)
Definition shown_uri (t : target) : bytes :=
  match t with
  | Origin p (Some []) => lit "/" ++ p ++ [NUL]
  | _ => target_text t
  end.

(** the request seen by the handler is the one sent *)
Definition delivered (m : msg) : request :=
  let h := m_head m in
  mkReq (hd_method h) (shown_uri (hd_target h)) (spec_path (hd_target h)) (spec_query (hd_target h))
    (spec_fragment h) (version_text h) (spec_headers h) (m_content m).

(** does the request ask for an interim 100-continue? *)
Definition expects (r : request) : bool :=
  negb (beqb (q_content r) []) && says (first_named "expect" (q_headers r)) "100-continue".
Definition continue_text : bytes := lit "HTTP/1.1 100 Continue" ++ CRLF ++ CRLF.
Definition interim (r : request) : list obs := if expects r then [OWrite continue_text] else [].

(** error answers *)
Definition refusal (status : string) : bytes :=
  lit "HTTP/1.0 " ++ lit status ++ CRLF ++ lit "Connection: close" ++ CRLF ++ CRLF.

(** ** Responses *)

(** what the handler asked for: status, headers, and the size of the content given to writeResponse
    (-1 for writeHeaders) *)
Record answer := mkAns { a_code : Z; a_headers : list (bytes * bytes); a_size : Z }.

Definition http11_req (r : request) : bool := beqb (q_version r) (lit "HTTP/1.1").
Definition head_req (r : request) : bool := beqb (q_method r) (lit "HEAD").

(** length of the response: that of the last Content-Length header given, unknown (-1) if it is not a
    number; otherwise the size of the content *)
Inductive RespLength (a : answer) : Z -> Prop :=
| RL_size : last_named "content-length" (a_headers a) = None -> RespLength a (a_size a)
| RL_given f v n : last_named "content-length" (a_headers a) = Some (f, v) ->
    IntText (-9223372036854775808) 9223372036854775807 v n -> RespLength a n
| RL_bad f v : last_named "content-length" (a_headers a) = Some (f, v) ->
    (forall n, ~ IntText (-9223372036854775808) 9223372036854775807 v n) -> RespLength a (-1).

(** chunked encoding is used when asked for, on HTTP/1.1, and the length is unknown *)
Definition wants_chunked (a : answer) : bool :=
  says (option_map snd (last_named "transfer-encoding" (a_headers a))) "chunked".
Definition chunked_resp (r : request) (a : answer) (len : Z) : bool :=
  wants_chunked a && http11_req r && (len =? -1).

(** keep-alive: the client wants it, the response is delimited, the handler did not say close *)
Definition client_keeps (r : request) : bool :=
  if http11_req r then negb (says (first_named "connection" (q_headers r)) "close")
  else says (first_named "connection" (q_headers r)) "keep-alive".
Definition keeps (r : request) (a : answer) (len : Z) : bool :=
  client_keeps r && ((0 <=? len) || chunked_resp r a len) &&
  negb (says (option_map snd (last_named "connection" (a_headers a))) "close").

(** text of the response head *)
Definition line (h : bytes * bytes) : bytes := fst h ++ lit ": " ++ snd h ++ CRLF.
Definition special (h : bytes * bytes) : bool :=
  named "content-length" h || named "content-type" h || named "connection" h || named "transfer-encoding" h.
Inductive StatusText (code : Z) : bytes -> Prop :=
| ST_known m : In (code, m) std_status -> StatusText code (status_text code (lit m))
| ST_unknown : (forall m, ~ In (code, m) std_status) -> StatusText code (lit "Internal Server Error"). (* C23 *)

Inductive RespHead (r : request) (a : answer) (len : Z) : bytes -> Prop :=
| RH status digits : StatusText (a_code a) status -> Canonical 10 digits len ->
    RespHead r a len
      (q_version r ++ lit " " ++ status ++ CRLF
       ++ concat (map line (filter (fun h => negb (special h)) (a_headers a)))
       ++ (if len =? -1 then [] else lit "Content-Length: " ++ digits ++ CRLF)
       ++ match last_named "content-type" (a_headers a) with
          | Some h => line h
          | None => if 0 <? len then lit "Content-Type: text/plain" ++ CRLF else []
          end
       ++ (if negb (http11_req r) || negb (keeps r a len)
           then lit (if keeps r a len then "Connection: keep-alive" else "Connection: close") ++ CRLF else [])
       ++ match last_named "transfer-encoding" (a_headers a) with
          | Some h => if wants_chunked a && negb (chunked_resp r a len) then [] else line h
          | None => []
          end
       ++ CRLF).

(** framing of the content *)
Inductive framing := NoContent | FixedLength (n : Z) | ChunkedContent | UntilClose.
Definition framing_of (r : request) (a : answer) (len : Z) : framing :=
  if (len =? 0) || head_req r then NoContent
  else if 0 <? len then FixedLength len
  else if chunked_resp r a len then ChunkedContent
  else UntilClose.

(** events of one content write: pieces are not empty *)
Inductive PieceEvents : framing -> bytes -> list obs -> Prop :=
| PE_fixed n p : PieceEvents (FixedLength n) p [OWrite p]
| PE_close p : PieceEvents UntilClose p [OWrite p]
| PE_chunk p d : Canonical 16 d (blen p) ->
    PieceEvents ChunkedContent p [OWrite (d ++ CRLF); OWrite p; OWrite CRLF].
Inductive ContentEvents (f : framing) : list bytes -> list obs -> Prop :=
| CE_nil : ContentEvents f [] []
| CE_snoc ps evs p ev : ContentEvents f ps evs -> p <> [] -> PieceEvents f p ev ->
    ContentEvents f (ps ++ [p]) (evs ++ ev).

Definition final_events (f : framing) : list obs :=
  match f with ChunkedContent => [OWrite (lit "0" ++ CRLF ++ CRLF)] | _ => [] end.
(** content sent so far is allowed / is complete *)
Definition may_send (f : framing) (n : Z) : Prop :=
  match f with NoContent => n = 0 | FixedLength l => n <= l | _ => True end.
Definition all_sent (f : framing) (n : Z) : Prop :=
  match f with NoContent => n = 0 | FixedLength l => n = l | _ => True end.
Definition total (ps : list bytes) : Z := blen (concat ps).

(** a response under way: head and pieces written so far *)
Inductive Answering (r : request) (a : answer) (len : Z) (ps : list bytes) : list obs -> Prop :=
| Answer hd evs : RespLength a len -> RespHead r a len hd ->
    ContentEvents (framing_of r a len) ps evs -> may_send (framing_of r a len) (total ps) ->
    Answering r a len ps (OWrite hd :: evs).

(** a complete exchange: [keep] tells whether the connection stays open after it *)
Inductive Exchange (r : request) (keep : bool) : list obs -> Prop :=
| Exch a len ps evs : Answering r a len ps evs -> all_sent (framing_of r a len) (total ps) ->
    keep = keeps r a len ->
    Exchange r keep (interim r ++ OReady r :: evs ++ final_events (framing_of r a len) ++ [OCompleted]).

(** complete exchanges that all keep the connection open *)
Inductive Exchanges : list request -> list obs -> Prop :=
| Ex_nil : Exchanges [] []
| Ex_snoc rs l r e : Exchanges rs l -> Exchange r true e -> Exchanges (rs ++ [r]) (l ++ e).

(** requests announced in a log *)
Fixpoint announced (l : list obs) : list request :=
  match l with
  | [] => []
  | OReady r :: t => r :: announced t
  | _ :: t => announced t
  end.

(** ** Refused requests: [Refusable rest s]: the bytes [rest] deserve the error answer [s] *)
Definition max_head : Z := 32767.                           (* longest head accepted *)
Definition max_pending : Z := 32768.                        (* longest incomplete head waited for *)
Definition max_content : Z := 134217728.
Definition starts_head (rest : bytes) (h : head) : Prop :=
  wf_head h /\ blen (head_text h) <= max_head /\ exists x, rest = head_text h ++ x.
Inductive Refusable (rest : bytes) : string -> Prop :=
| Rf_malformed x y : rest = x ++ y ->                       (* no continuation of x is a well-formed head *)
    (forall ext h z, wf_head h -> x ++ ext <> head_text h ++ z) -> Refusable rest "400 Bad Request"
| Rf_endless : (forall h, ~ starts_head rest h) -> max_pending < blen rest -> Refusable rest "400 Bad Request"
| Rf_long_head h x : wf_head h -> rest = head_text h ++ x -> max_head < blen (head_text h) ->
    Refusable rest "400 Bad Request"
| Rf_negative h f v n : starts_head rest h ->
    last_named "content-length" (spec_headers h) = Some (f, v) -> IntText int_lo int_hi v n -> n < 0 ->
    Refusable rest "400 Bad Request"
| Rf_too_large h f v n : starts_head rest h ->
    last_named "content-length" (spec_headers h) = Some (f, v) -> IntText int_lo int_hi v n -> max_content < n ->
    Refusable rest "413 Request Entity Too Large"
| Rf_not_a_number h f v : starts_head rest h ->
    last_named "content-length" (spec_headers h) = Some (f, v) -> (forall n, ~ IntText int_lo int_hi v n) ->
    Refusable rest "413 Request Entity Too Large".

(** ** What receiving the bytes [rest], when no request is being answered, must cause *)
Inductive Verdict (rest : bytes) : list obs -> Prop :=
| V_wait : (forall h x, wf_head h -> rest <> head_text h ++ x) ->          (* incomplete head: wait *)
    (exists ext h, wf_head h /\ rest ++ ext = head_text h) -> blen rest <= max_pending -> Verdict rest []
| V_content h part n : starts_head rest h -> rest = head_text h ++ part ->  (* incomplete content: wait *)
    AnnouncedLength h n -> blen part < n <= max_content ->
    Verdict rest (if says (first_named "expect" (spec_headers h)) "100-continue" then [OWrite continue_text] else [])
| V_ready m x : wf_msg m -> rest = wire m ++ x ->                           (* complete: announce it *)
    Verdict rest (interim (delivered m) ++ [OReady (delivered m)])
| V_refuse s : Refusable rest s -> Verdict rest [OWrite (refusal s)].       (* refuse it *)

(** ** What a connection makes of its input stream *)

(** what was done about the bytes [rest] that follow the completely answered requests *)
Inductive Tail (rest : bytes) : list obs -> Prop :=
| T_idle : Tail rest []                                     (* nothing yet *)
| T_continue h n : starts_head rest h -> AnnouncedLength h n -> 0 < n <= max_content ->
    says (first_named "expect" (spec_headers h)) "100-continue" = true ->
    Tail rest [OWrite continue_text]                        (* receiving content after 100-continue *)
| T_waiting m x : wf_msg m -> rest = wire m ++ x ->
    Tail rest (interim (delivered m) ++ [OReady (delivered m)])          (* waiting for the handler *)
| T_answering m x a len ps evs : wf_msg m -> rest = wire m ++ x -> Answering (delivered m) a len ps evs ->
    Tail rest (interim (delivered m) ++ OReady (delivered m) :: evs)     (* response under way *)
| T_last m x e : wf_msg m -> rest = wire m ++ x -> Exchange (delivered m) false e ->
    Tail rest e                                             (* last exchange: connection to be closed *)
| T_refused s : Refusable rest s -> Tail rest [OWrite (refusal s)].      (* connection to be closed *)
Inductive Ending : list obs -> Prop :=
| E_open : Ending []
| E_closed p : Ending [OShut p; OClosed]
| E_closed_early : Ending [OClosed].                        (* closed before it was ever given devices *)

(** [Story stream log]: [log] is a correct account of what a connection that received [stream] did: it
    answered the requests at the beginning of the stream, completely, in order, one after the other, then did
    something about the next bytes, then perhaps was closed. *)
Inductive Story (stream : bytes) : list obs -> Prop :=
| Story_intro ms rest l t e :
    stream = concat (map wire ms) ++ rest -> Forall wf_msg ms -> Exchanges (map delivered ms) l ->
    Tail rest t -> Ending e -> Story stream (l ++ t ++ e).

(** ** Bytes written *)
Fixpoint written (l : list obs) : bytes :=
  match l with
  | [] => []
  | OWrite b :: t => b ++ written t
  | _ :: t => written t
  end.

(** chunked transfer encoding without the terminating chunk: [Chunks enc content] *)
Inductive Chunks : bytes -> bytes -> Prop :=
| Ch_nil : Chunks [] []
| Ch_cons d p e c : Canonical 16 d (blen p) -> p <> [] -> Chunks e c ->
    Chunks (d ++ CRLF ++ p ++ CRLF ++ e) (p ++ c).
(** content as it stands on the wire *)
Inductive Encoded : framing -> bytes -> bytes -> Prop :=
| En_none : Encoded NoContent [] []
| En_fixed c : c <> [] -> Encoded (FixedLength (blen c)) c c
| En_close c : Encoded UntilClose c c
| En_chunked e c : Chunks e c -> Encoded ChunkedContent c (e ++ lit "0" ++ CRLF ++ CRLF).
(** part of it *)
Inductive EncodedPart : framing -> bytes -> bytes -> Prop :=
| Ep_none : EncodedPart NoContent [] []
| Ep_fixed n c : blen c <= n -> EncodedPart (FixedLength n) c c
| Ep_close c : EncodedPart UntilClose c c
| Ep_chunked e c : Chunks e c -> EncodedPart ChunkedContent c e.
Definition interim_text (r : request) : bytes := if expects r then continue_text else [].
(** the bytes of a complete response to r *)
Inductive Response (r : request) (keep : bool) : bytes -> Prop :=
| Resp a len hd content enc : RespLength a len -> RespHead r a len hd -> Encoded (framing_of r a len) content enc ->
    keep = keeps r a len -> Response r keep (interim_text r ++ hd ++ enc).
Inductive PartialResponse (r : request) : bytes -> Prop :=
| PR_none : PartialResponse r (interim_text r)
| PR_part a len hd content enc : RespLength a len -> RespHead r a len hd -> EncodedPart (framing_of r a len) content enc ->
    PartialResponse r (interim_text r ++ hd ++ enc).

(** the last request of a connection life, if it was not answered with keep-alive, and what was written for it *)
Inductive LastWritten : list request -> bytes -> Prop :=
| LW_none : LastWritten [] []
| LW_continue : LastWritten [] continue_text
| LW_refusal s : LastWritten [] (refusal s)
| LW_partial r b : PartialResponse r b -> LastWritten [r] b
| LW_full r b : Response r false b -> LastWritten [r] b.

(** ** Signals *)
Definition is_signal (o : obs) : bool := match o with OReady _ | OCompleted | OClosed => true | _ => false end.
Definition signals (l : list obs) : list obs := filter is_signal l.
