(** Model of /repo/pillowcore/HttpHelpers.cpp and /repo/pillowcore/HttpHeader.{h,cpp}. *)
From Verif Require Import Bytes ByteHelpers.
Open Scope Z_scope.

(** ** Status codes *)

(* HttpHelpers.cpp 26-75; None is the NULL of line 74 *)
Definition statusCodeAndMessage (code : Z) : option bytes :=
  match code with
  | 100 => Some (lit "100 Continue")
  | 101 => Some (lit "101 Switching Protocols")
  | 200 => Some (lit "200 OK")
  | 201 => Some (lit "201 Created")
  | 202 => Some (lit "202 Accepted")
  | 203 => Some (lit "203 Non-Authoritative Information")
  | 204 => Some (lit "204 No Content")
  | 205 => Some (lit "205 Reset Content")
  | 206 => Some (lit "206 Partial Content")
  | 300 => Some (lit "300 Multiple Choices")
  | 301 => Some (lit "301 Moved Permanently")
  | 302 => Some (lit "302 Found")
  | 303 => Some (lit "303 See Other")
  | 304 => Some (lit "304 Not Modified")
  | 305 => Some (lit "305 Use Proxy")
  | 307 => Some (lit "307 Temporary Redirect")
  | 400 => Some (lit "400 Bad Request")
  | 401 => Some (lit "401 Unauthorized")
  | 403 => Some (lit "403 Forbidden")
  | 404 => Some (lit "404 Not Found")
  | 405 => Some (lit "405 Method Not Allowed")
  | 406 => Some (lit "406 Not Acceptable")
  | 407 => Some (lit "407 Proxy Authentication Required")
  | 408 => Some (lit "408 Request Timeout")
  | 409 => Some (lit "409 Conflict")
  | 410 => Some (lit "410 Gone")
  | 411 => Some (lit "411 Length Required")
  | 412 => Some (lit "412 Precondition Failed")
  | 413 => Some (lit "413 Request Entity Too Large")
  | 414 => Some (lit "414 Request-URI Too Long")
  | 415 => Some (lit "415 Unsupported Media Type")
  | 416 => Some (lit "416 Requested Range Not Satisfiable")
  | 417 => Some (lit "417 Expectation Failed")
  | 500 => Some (lit "500 Internal Server Error")
  | 501 => Some (lit "501 Not Implemented")
  | 502 => Some (lit "502 Bad Gateway")
  | 503 => Some (lit "503 Service Unavailable")
  | 504 => Some (lit "504 Gateway Timeout")
  | 505 => Some (lit "505 HTTP Version Not Supported")
  | _ => None
  end.

(* HttpHelpers.cpp 77-81: the text from its fifth character on *)
Definition statusMessage (code : Z) : option bytes :=
  match statusCodeAndMessage code with
  | None => None
  | Some s => Some (skipn 4 s)
  end.

(** ** Headers: HttpHeader is a pair of byte arrays (HttpHeader.h 32-53) *)
Definition header := (bytes * bytes)%type.

(* HttpHeader.cpp 27-31: position of the first ':' (or len) *)
Fixpoint colon_pos (b : bytes) : nat :=
  match b with
  | [] => 0
  | c :: t => if Ascii.eqb c ":" then 0 else S (colon_pos t)
  end%nat.
(* HttpHeader.cpp 38-42: skip spaces *)
Fixpoint skip_sp (b : bytes) : bytes :=
  match b with
  | c :: t => if Ascii.eqb c " " then skip_sp t else b
  | [] => []
  end.
(* HttpHeader.cpp 13-47: setFromRawHeader(rawHeader, len) with len = length of the list.  The test at 15
   returns for len <= 0, so the [len == -1] branch at 23-24 never runs.  [second] is left as it was (empty:
   the only callers are constructors) when there is no colon. *)
Definition setFromRawHeader (raw : bytes) : header :=
  match raw with
  | [] => ([], [])
  | _ => let p := colon_pos raw in
         (firstn p raw, if Nat.ltb p (length raw) then skip_sp (skipn (S p) raw) else [])
  end.

(* HttpHeader.cpp 67-75: first match, or the static null array; None tells "not found" apart for the
   specification, [value_or_empty] is what the caller sees *)
Fixpoint find_field (eq : bytes -> bytes -> bool) (hs : list header) (name : bytes) : option bytes :=
  match hs with
  | [] => None
  | (f, v) :: t => if eq f name then Some v else find_field eq t name
  end.
Definition value_or_empty (o : option bytes) : bytes := match o with Some v => v | None => [] end.
Definition getFieldValue (hs : list header) (name : bytes) : bytes :=
  value_or_empty (find_field asciiEqualsCI hs name).
(* HttpHeader.cpp 77-85: LowerCaseToken overload *)
Definition getFieldValue_tok (hs : list header) (tok : bytes) : bytes :=
  value_or_empty (find_field asciiEqualsCI_lower hs tok).
(* HttpHeader.cpp 87-96 *)
Fixpoint getFieldValues (hs : list header) (name : bytes) : list bytes :=
  match hs with
  | [] => []
  | (f, v) :: t => if asciiEqualsCI f name then v :: getFieldValues t name else getFieldValues t name
  end.
(* HttpHeader.cpp 98-110 *)
Fixpoint testFieldValue (hs : list header) (name value : bytes) : bool :=
  match hs with
  | [] => false
  | (f, v) :: t =>
      if negb (Nat.eqb (length f) (length name)) || negb (Nat.eqb (length v) (length value))
      then testFieldValue t name value
      else if asciiEqualsCI f name && asciiEqualsCI v value then true
      else testFieldValue t name value
  end.

(* HttpHeader.cpp 53-65: operator+=.  [alias] tells whether the argument is the collection itself.
   When it is not, the loop copies the argument after the old elements.  When it is, l.end() is read after
   the resize, so the loop runs over twice the old size and writes past the end of the vector (None). *)
Definition header_append (alias : bool) (hs l : list header) : option (list header) :=
  if alias then match hs with [] => Some [] | _ => None end
  else Some (hs ++ l).

(* private/ByteArray.h 74-90: append(const HttpHeader&): both branches append the same bytes *)
Definition header_line (h : header) : bytes := fst h ++ lit ": " ++ snd h ++ CRLF.

(** ** Mime types.  Names are QStrings; modelled by their Latin-1 bytes, with the comparison
    QString::endsWith(.., Qt::CaseInsensitive) against ASCII suffixes, which folds ASCII letters (and, on the
    full Unicode range, KELVIN SIGN / LONG S; outside of this byte model). *)
Definition endsWithCI (name suffix : bytes) : bool :=
  if Nat.ltb (length name) (length suffix) then false
  else beqb (lower (skipn (length name - length suffix) name)) (lower suffix).
(* HttpHelpers.cpp 8-19 *)
Definition mimeType (name : bytes) : bytes :=
  if endsWithCI name (lit ".html") then lit "text/html" else
  if endsWithCI name (lit ".jpg") then lit "image/jpeg" else
  if endsWithCI name (lit ".jpeg") then lit "image/jpeg" else
  if endsWithCI name (lit ".png") then lit "image/png" else
  if endsWithCI name (lit ".gif") then lit "image/gif" else
  if endsWithCI name (lit ".css") then lit "text/css" else
  if endsWithCI name (lit ".js") then lit "text/javascript" else
  if endsWithCI name (lit ".xml") then lit "text/xml" else
  lit "application/octet-stream".

(** ** HTTP dates *)
(* HttpHelpers.cpp 88-90: the tables *)
Definition dayNames : list bytes :=
  map lit [""; "Mon"; "Tue"; "Wed"; "Thu"; "Fri"; "Sat"; "Sun"]%string.
Definition monthNames : list bytes :=
  map lit [""; "Jan"; "Feb"; "Mar"; "Apr"; "May"; "Jun"; "Jul"; "Aug"; "Sep"; "Oct"; "Nov"; "Dec"]%string.
Definition intNames : list bytes :=
  map (fun n => [ascii_of_nat (48 + n / 10); ascii_of_nat (48 + n mod 10)])%nat (seq 0 61).

(* The QDateTime already converted to UTC (line 92); dayOfWeek as given by Qt. *)
Record dt := mkDt { d_dow : Z; d_day : Z; d_month : Z; d_year : Z; t_hour : Z; t_min : Z; t_sec : Z }.

(* array lookup; None when out of range (undefined behaviour) *)
Definition tab (t : list bytes) (i : Z) : option bytes :=
  if (i <? 0) then None else nth_error t (Z.to_nat i).

(* HttpHelpers.cpp 86-102; index 0 of the name tables is NULL, which QByteArray::append ignores *)
Definition httpDate (d : dt) : option bytes :=
  match tab dayNames (d_dow d), tab intNames (d_day d), tab monthNames (d_month d),
        appendNumber 10 (d_year d), tab intNames (t_hour d), tab intNames (t_min d), tab intNames (t_sec d) with
  | Some dn, Some dd, Some mn, Some y, Some hh, Some mm, Some ss =>
      Some (dn ++ lit ", " ++ dd ++ lit " " ++ mn ++ lit " " ++ y ++ lit " "
            ++ hh ++ lit ":" ++ mm ++ lit ":" ++ ss ++ lit " GMT")
  | _, _, _, _, _, _, _ => None
  end.
