(** What a user of the response parser does and sees. *)
From Verif Require Import Bytes TextSpec Joyent RespParser.
Open Scope Z_scope.

(** Giving the segments to the parser one after the other.  inject() stops at the end of a message and returns the
    number of bytes used: the rest of the segment is given again.  The user stops at the first error. *)
Inductive Feed : rparser -> list bytes -> rparser -> Prop :=
| Feed_end r : Feed r [] r
| Feed_next r segs r' : Feed r segs r' -> Feed r ([] :: segs) r'
| Feed_more r seg segs r1 n r' : seg <> [] -> inject r seg = Some (r1, n) -> hasError r1 = false ->
    Feed r1 (skipn (Z.to_nat n) seg :: segs) r' -> Feed r (seg :: segs) r'
| Feed_err r seg segs r1 n : seg <> [] -> inject r seg = Some (r1, n) -> hasError r1 = true -> Feed r (seg :: segs) r1.

(** the states a parser can be in between two calls of its public functions *)
Inductive usable : rparser -> Prop :=
| usable_new : usable rfresh
| usable_inject r seg r' n : usable r -> inject r seg = Some (r', n) -> usable r'
| usable_eof r r' : usable r -> injectEof r = Some r' -> usable r'
| usable_clear r : usable r -> usable (rclear r).

Definition statusCode (r : rparser) : Z := h_status (r_h r).     (* HttpClient.h 103 *)

(** ** Well-formed responses (nothing below refers to the model) *)
Definition tchar (c : ascii) : bool := is_alpha c || is_digit c || mem c (lit "!#$%&'*+-.^_`|~").
Definition blank_char (c : ascii) : bool := Ascii.eqb c SP || Ascii.eqb c "009".
Definition eol_free (b : bytes) : bool := forallb (fun c => negb (Ascii.eqb c CR) && negb (Ascii.eqb c LF)) b.

(** HTTP/major.minor status reason *)
Inductive StatusLine : bytes -> Z -> Z -> Z -> Prop :=
| SL da db dc a b c reason : Digits 10 da a -> a <= 999 -> Digits 10 db b -> b <= 999 -> Digits 10 dc c -> c <= 999 ->
    reason = [] \/ (exists t, reason = SP :: t /\ eol_free t = true) ->
    StatusLine (lit "HTTP/" ++ da ++ lit "." ++ db ++ lit " " ++ dc ++ reason ++ CRLF) a b c.

(** name: value, any blanks in between; the value has no line end and does not start with a blank *)
Definition wf_name (n : bytes) : bool := negb (beqb n []) && forallb tchar n.
Definition wf_value (v : bytes) : bool := eol_free v && match v with c :: _ => negb (blank_char c) | [] => true end.
Inductive HeaderLines : bytes -> list (bytes * bytes) -> Prop :=
| HL_nil : HeaderLines [] []
| HL_cons n w v t hs : wf_name n = true -> forallb blank_char w = true -> wf_value v = true -> HeaderLines t hs ->
    HeaderLines (n ++ lit ":" ++ w ++ v ++ CRLF ++ t) ((n, v) :: hs).

Inductive ResponseHead : bytes -> Z -> Z -> Z -> list (bytes * bytes) -> Prop :=
| RespHd sl a b c t hs : StatusLine sl a b c -> HeaderLines t hs -> ResponseHead (sl ++ t ++ CRLF) a b c hs.

(** what the headers say; names and words in any letter case, blanks after a word do not matter *)
Definition has_name (name : string) (h : bytes * bytes) : bool := beqb (lower (fst h)) (lit name).
Fixpoint rtrim (v : bytes) {struct v} : bytes :=
  match v with
  | [] => []
  | c :: t => match rtrim t with [] => if Ascii.eqb c SP then [] else [c] | t' => c :: t' end
  end.
Definition is_word (word : string) (v : bytes) : bool := beqb (lower (rtrim v)) (lit word).
Definition chunked_resp (hs : list (bytes * bytes)) : bool :=
  existsb (fun h => has_name "transfer-encoding" h && is_word "chunked" (snd h)) hs.
Definition connection_says (word : string) (hs : list (bytes * bytes)) : bool :=
  existsb (fun h => (has_name "connection" h || has_name "proxy-connection" h) && is_word word (snd h)) hs.
Definition no_upgrade (hs : list (bytes * bytes)) : bool := negb (existsb (has_name "upgrade") hs).

(** every Content-Length header is a number that fits, and the last one is [Some n]; None if there is none *)
Definition max_length : Z := 18446744073709551614.
Inductive ContentLength : list (bytes * bytes) -> option Z -> Prop :=
| CL_nil : ContentLength [] None
| CL_other h hs n : has_name "content-length" h = false -> ContentLength hs n -> ContentLength (h :: hs) n
| CL_last f v hs n : has_name "content-length" (f, v) = true -> Digits 10 v n -> n <= max_length ->
    ContentLength hs None -> ContentLength ((f, v) :: hs) (Some n)
| CL_not_last f v hs n m : has_name "content-length" (f, v) = true -> Digits 10 v n -> n <= max_length ->
    ContentLength hs (Some m) -> ContentLength ((f, v) :: hs) (Some m).

(** responses that never have a body, and connections that stay open after the response *)
Definition bodyless (status : Z) : bool := (status / 100 =? 1) || (status =? 204) || (status =? 304).
Definition stays_open (major minor : Z) (hs : list (bytes * bytes)) : bool :=
  if (0 <? major) && (0 <? minor) then negb (connection_says "close" hs) else connection_says "keep-alive" hs.

(** chunked bodies: size in hexadecimal, an extension that is ignored, the data; then the last chunk; the size line
    is at most 80 KB long *)
Definition max_head : Z := 81920.
Inductive SizeLine : bytes -> Z -> Prop :=
| SzL d ext n : Digits 16 d n -> n <= max_length ->
    (ext = [] \/ exists c t, ext = c :: t /\ (c = ";"%char \/ c = SP) /\ forallb (fun c => negb (Ascii.eqb c CR)) t = true) ->
    blen (d ++ ext ++ CRLF) <= max_head -> SizeLine (d ++ ext ++ CRLF) n.
Inductive ChunkedBody : bytes -> bytes -> Prop :=
| CB_last sz : SizeLine sz 0 -> ChunkedBody (sz ++ CRLF) []
| CB_more sz data t rest : data <> [] -> SizeLine sz (blen data) -> ChunkedBody t rest ->
    ChunkedBody (sz ++ data ++ CRLF ++ t) (data ++ rest).

(** complete chunks, the end of the body not among them *)
Inductive SomeChunks : bytes -> bytes -> Prop :=
| Ch_nil : SomeChunks [] []
| Ch_more sz data t rest : data <> [] -> SizeLine sz (blen data) -> SomeChunks t rest ->
    SomeChunks (sz ++ data ++ CRLF ++ t) (data ++ rest).

(** ** What one response is decoded into *)
(** a complete response and its content: Content-Length, no body by its status, or chunked; a head is less than 80 KB *)
Inductive WholeResponse : bytes -> Z -> Z -> Z -> list (bytes * bytes) -> bytes -> Prop :=
| WR_length txt a b c hs body : ResponseHead txt a b c hs -> blen txt <= max_head - 2 -> no_upgrade hs = true ->
    chunked_resp hs = false -> ContentLength hs (Some (blen body)) -> WholeResponse (txt ++ body) a b c hs body
| WR_none txt a b c hs : ResponseHead txt a b c hs -> blen txt <= max_head - 2 -> no_upgrade hs = true ->
    chunked_resp hs = false -> ContentLength hs None -> bodyless c = true -> WholeResponse txt a b c hs []
| WR_chunked txt a b c hs o t body : ResponseHead txt a b c hs -> blen txt <= max_head - 2 -> no_upgrade hs = true ->
    chunked_resp hs = true -> ContentLength hs o -> ChunkedBody t body -> WholeResponse (txt ++ t) a b c hs body.

(** messageBegin(), headersComplete() with this version, status and headers, the content, messageComplete() *)
Definition reported (a b c : Z) (hs : list (bytes * bytes)) (body : bytes) : list rev :=
  RBegin :: RHeaders a b c hs :: map RByte body ++ [RComplete].
(** from [r] to [r'] exactly this was reported, without error, and can be read from the parser *)
Definition decoded (r : rparser) (a b c : Z) (hs : list (bytes * bytes)) (body : bytes) (r' : rparser) : Prop :=
  hasError r' = false /\ statusCode r' = c /\ r_headers r' = hs /\ r_content r' = body /\
  r_log r' = r_log r ++ reported a b c hs body.

(** a parser that waits for a response: a new one, one that has read complete responses the last of which keeps the
    connection open, or one that has read a complete response and was cleared *)
Inductive waiting : rparser -> Prop :=
| waiting_new : waiting rfresh
| waiting_next r t a b c hs body segs r' : waiting r -> WholeResponse t a b c hs body -> stays_open a b hs = true ->
    concat segs = t -> Feed r segs r' -> waiting r'
| waiting_clear r t a b c hs body segs r' : waiting r -> WholeResponse t a b c hs body ->
    concat segs = t -> Feed r segs r' -> waiting (rclear r').

(** several responses one after the other; all but the last keep the connection open *)
Inductive Responses : bytes -> list rev -> Prop :=
| Rs_last t a b c hs body : WholeResponse t a b c hs body -> Responses t (reported a b c hs body)
| Rs_next t a b c hs body t' evs : WholeResponse t a b c hs body -> stays_open a b hs = true -> Responses t' evs ->
    Responses (t ++ t') (reported a b c hs body ++ evs).
