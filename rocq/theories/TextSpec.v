(** SPECIFICATION (independent of the model): numerals, percent encoding, HTTP dates, standard status codes,
    mime types, key=value lists.  Nothing here refers to a definition of the model. *)
From Verif Require Import Bytes.
Open Scope Z_scope.

(** ** Numerals *)

(** value of a digit character *)
Definition digit_val (c : ascii) : option Z :=
  if is_digit c then Some (byte_val c - 48)
  else if in_range 97 102 c then Some (byte_val c - 87)
  else if in_range 65 70 c then Some (byte_val c - 55)
  else None.

(** [Numeral base s n]: s is a non-empty digit string of value n (leading zeros allowed) *)
Inductive Digits (base : Z) : bytes -> Z -> Prop :=
| D_one c d : digit_val c = Some d -> d < base -> Digits base [c] d
| D_more s n c d : Digits base s n -> digit_val c = Some d -> d < base ->
    Digits base (s ++ [c]) (base * n + d).

(** the canonical numeral of an integer: sign if negative, no leading zero, lower-case digits *)
Definition lowdigit (c : ascii) : bool := is_digit c || in_range 97 102 c.
Definition Canonical (base : Z) (s : bytes) (n : Z) : Prop :=
  (exists ds, Digits base ds (Z.abs n) /\ s = (if n <? 0 then "-"%char :: ds else ds) /\
     forallb lowdigit ds = true /\
     (forall t, ds = "0"%char :: t -> t = [])).

(** ** Percent encoding *)

Definition hexval (c : ascii) : Z := match digit_val c with Some d => d | None => 0 end.
Definition hexbyte (a b : ascii) : ascii := ascii_of_nat (Z.to_nat (16 * hexval a + hexval b)).

(** [PDecode s t]: t is s with each %hh replaced by the byte it stands for, left to right *)
Inductive PDecode : bytes -> bytes -> Prop :=
| PD_nil : PDecode [] []
| PD_esc a b s t : is_xdigit a = true -> is_xdigit b = true -> PDecode s t ->
    PDecode ("%"%char :: a :: b :: s) (hexbyte a b :: t)
| PD_char c s t : c <> "%"%char -> PDecode s t -> PDecode (c :: s) (c :: t).

(** total decoding: any two bytes after '%' are taken as hex digits (non-digits count as 0), and a '%' with
    fewer than two bytes after it stands for itself *)
Inductive PDecodeAny : bytes -> bytes -> Prop :=
| PA_nil : PDecodeAny [] []
| PA_esc a b s t : PDecodeAny s t -> PDecodeAny ("%"%char :: a :: b :: s) (hexbyte a b :: t)
| PA_char c s t : c <> "%"%char \/ (length s < 2)%nat -> PDecodeAny s t -> PDecodeAny (c :: s) (c :: t).

(** percent-encode every byte that [keep] does not let through *)
Definition hexdigit (n : nat) : ascii := nth n (lit "0123456789ABCDEF") NUL.
Definition pencode (keep : ascii -> bool) (s : bytes) : bytes :=
  flat_map (fun c => if keep c then [c]
                     else ["%"%char; hexdigit (nat_of_ascii c / 16); hexdigit (nat_of_ascii c mod 16)]) s.

(** ** Dates (RFC 1123): two-digit and four-digit numbers, English names *)
Definition dig (n : Z) : ascii := ascii_of_nat (Z.to_nat (48 + n)).
Definition two (n : Z) : bytes := [dig (n / 10); dig (n mod 10)].
Definition four (n : Z) : bytes := [dig (n / 1000); dig (n / 100 mod 10); dig (n / 10 mod 10); dig (n mod 10)].
Definition day_name (n : Z) : bytes :=
  nth (Z.to_nat (n - 1)) (map lit ["Mon"; "Tue"; "Wed"; "Thu"; "Fri"; "Sat"; "Sun"]%string) [].
Definition month_name (n : Z) : bytes :=
  nth (Z.to_nat (n - 1))
    (map lit ["Jan"; "Feb"; "Mar"; "Apr"; "May"; "Jun"; "Jul"; "Aug"; "Sep"; "Oct"; "Nov"; "Dec"]%string) [].
Definition rfc1123 (dow day month year h m s : Z) : bytes :=
  day_name dow ++ lit ", " ++ two day ++ lit " " ++ month_name month ++ lit " " ++ four year ++ lit " "
  ++ two h ++ lit ":" ++ two m ++ lit ":" ++ two s ++ lit " GMT".

(** ** Status codes pillow documents (RFC 2616 section 10 names, Found/Timeout spellings of RFC 7231) *)
Definition std_status : list (Z * string) :=
  [(100, "Continue"); (101, "Switching Protocols"); (200, "OK"); (201, "Created"); (202, "Accepted");
   (203, "Non-Authoritative Information"); (204, "No Content"); (205, "Reset Content");
   (206, "Partial Content"); (300, "Multiple Choices"); (301, "Moved Permanently"); (302, "Found");
   (303, "See Other"); (304, "Not Modified"); (305, "Use Proxy"); (307, "Temporary Redirect");
   (400, "Bad Request"); (401, "Unauthorized"); (403, "Forbidden"); (404, "Not Found");
   (405, "Method Not Allowed"); (406, "Not Acceptable"); (407, "Proxy Authentication Required");
   (408, "Request Timeout"); (409, "Conflict"); (410, "Gone"); (411, "Length Required");
   (412, "Precondition Failed"); (413, "Request Entity Too Large"); (414, "Request-URI Too Long");
   (415, "Unsupported Media Type"); (416, "Requested Range Not Satisfiable"); (417, "Expectation Failed");
   (500, "Internal Server Error"); (501, "Not Implemented"); (502, "Bad Gateway");
   (503, "Service Unavailable"); (504, "Gateway Timeout"); (505, "HTTP Version Not Supported")]%string.
Definition three (n : Z) : bytes := [dig (n / 100); dig (n / 10 mod 10); dig (n mod 10)].
(** the text of a status line after the version *)
Definition status_text (code : Z) (msg : bytes) : bytes := three code ++ lit " " ++ msg.

(** ** Mime types by extension *)
Definition mime_of_ext (e : bytes) : bytes :=
  let is s := beqb (lower e) (lit s) in
  if is "html"%string then lit "text/html"
  else if is "jpg"%string || is "jpeg"%string then lit "image/jpeg"
  else if is "png"%string then lit "image/png"
  else if is "gif"%string then lit "image/gif"
  else if is "css"%string then lit "text/css"
  else if is "js"%string then lit "text/javascript"
  else if is "xml"%string then lit "text/xml"
  else lit "application/octet-stream".

(** ** Query strings: '&'-separated pieces; a '&' at the very end does not start another piece *)
Inductive Pieces : bytes -> list bytes -> Prop :=
| Pc_nil : Pieces [] []
| Pc_last p : p <> [] -> ~ In "&"%char p -> Pieces p [p]
| Pc_more p q ps : ~ In "&"%char p -> Pieces q ps -> Pieces (p ++ lit "&" ++ q) (p :: ps).

(** key and value of a piece: split at the first '=' *)
Inductive KeyValue : bytes -> bytes -> bytes -> Prop :=
| KV_eq k v : ~ In "="%char k -> KeyValue (k ++ lit "=" ++ v) k v
| KV_key k : ~ In "="%char k -> KeyValue k k [].
