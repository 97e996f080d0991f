(** Model of the memory of the buffer in which response heads are built: Pillow::ByteArray (private/ByteArray.h), the
    parts of QByteArray (Qt 4.8, qbytearray.cpp) it rests on, and how HttpConnection uses _responseHeadersBuffer
    (HttpConnection.cpp 299-320 and 446-553).  A write outside of the block is the result None. *)
From Verif Require Import Bytes ByteHelpers Thin Helpers Conn.
Open Scope Z_scope.

(** ** QByteArray *)
(* the block a QByteArray points to: whether it is one of Qt's static empty blocks (QByteArray::shared_null), whether
   its reference count is not 1, its fields alloc and size, and its memory: alloc bytes and one for the final NUL *)
Record ba := mkBA { b_static : bool; b_shared : bool; b_alloc : Z; b_size : Z; b_mem : bytes }.
Definition null_ba : ba := mkBA true true 0 0 [NUL].
Definition text (b : ba) : bytes := firstn (Z.to_nat (b_size b)) (b_mem b).
Definition set_size (n : Z) (b : ba) : ba := mkBA (b_static b) (b_shared b) (b_alloc b) n (b_mem b).

(* memcpy to data + off *)
Definition put (off : Z) (s : bytes) (b : ba) : option ba :=
  if (0 <=? off) && (off + blen s <=? blen (b_mem b))
  then Some (mkBA (b_static b) (b_shared b) (b_alloc b) (b_size b)
               (firstn (Z.to_nat off) (b_mem b) ++ s ++ skipn (Z.to_nat off + length s) (b_mem b)))
  else None.
Definition bind {A B} (x : option A) (f : A -> option B) : option B := match x with Some a => f a | None => None end.

Section Qt.
  (* what malloc and realloc give: n bytes, whatever is in them; may depend on what is there before *)
  Variable junk : bytes -> Z -> bytes.
  (* qAllocMore(n, sizeof(Data)) *)
  Variable more : Z -> Z.

  (* QByteArray::realloc(int alloc) *)
  Definition realloc (n : Z) (b : ba) : option ba :=
    if n <? 0 then None
    else if b_shared b
    then let x := Z.min n (b_size b) in
         Some (mkBA false false n x (firstn (Z.to_nat x) (b_mem b) ++ NUL :: junk (b_mem b) (n - x)))
    else Some (mkBA false false n (b_size b)
                 (firstn (Z.to_nat (n + 1)) (b_mem b) ++ junk (b_mem b) (Z.max 0 (n - b_alloc b)))).
  (* QByteArray::data(), which detaches *)
  Definition detach (b : ba) : option ba := if b_shared b then realloc (b_size b) b else Some b.
  Definition reserve (n : Z) (b : ba) : option ba :=
    if b_shared b || (b_alloc b <? n) then realloc n b else Some b.
  (* room for [len] more bytes, as every QByteArray::append makes it *)
  Definition grow (len : Z) (b : ba) : option ba :=
    if b_shared b || (b_alloc b <? to_int (b_size b + len)) then realloc (more (to_int (b_size b + len))) b else Some b.
  Definition fill (s : bytes) (b : ba) : option ba :=
    bind (put (b_size b) s b) (fun b1 =>
    let b2 := set_size (to_int (b_size b1 + blen s)) b1 in
    put (b_size b2) [NUL] b2).
  (* QByteArray::append(const char *, int) *)
  Definition q_append (s : bytes) (b : ba) : option ba :=
    match s with [] => Some b | _ => bind (grow (blen s) b) (fill s) end.
  (* QByteArray::append(const QByteArray &) of an array with [salloc] bytes allocated; [sraw]: made from raw data *)
  Definition q_append_ba (salloc : Z) (sraw : bool) (s : bytes) (b : ba) : option ba :=
    if b_static b && negb sraw
    then Some (mkBA false true salloc (blen s) (s ++ NUL :: junk s (salloc - blen s)))      (* *this = ba: shared *)
    else bind (grow (blen s) b) (fill s).
  (* QByteArray::append(char) *)
  Definition q_append_char (c : ascii) (b : ba) : option ba := bind (grow 1 b) (fill [c]).

  (** ** Pillow::ByteArray *)
  (* 92-137, 139-149: append of literals, tokens, char arrays, (const char *, int) *)
  Definition fast (s : bytes) (b : ba) : option ba :=
    bind (detach b) (fun b1 => bind (put (b_size b1) s b1) (fun b2 => Some (set_size (to_int (b_size b2 + blen s)) b2))).
  Definition append_text (s : bytes) (b : ba) : option ba :=
    if to_int (b_size b + blen s) <=? b_alloc b then fast s b else q_append s b.
  (* 128-138: append(const QByteArray &) *)
  Definition append_ba (salloc : Z) (sraw : bool) (s : bytes) (b : ba) : option ba :=
    if to_int (b_size b + blen s) <=? b_alloc b then fast s b else q_append_ba salloc sraw s b.
  (* 151-161: append(char) *)
  Definition append_char (c : ascii) (b : ba) : option ba :=
    if to_int (b_size b + 1) <=? b_alloc b then fast [c] b else q_append_char c b.
  (* 64-80: append(const HttpHeader &); all arithmetic is int *)
  Definition append_header (h : header) (b : ba) : option ba :=
    let required := to_int (to_int (to_int (blen (fst h) + 2) + blen (snd h)) + 2) in
    if to_int (b_size b + required) <=? b_alloc b
    then bind (detach b) (fun b =>
         let d := b_size b in
         bind (put d (fst h) b) (fun b =>
         let d := d + blen (fst h) in
         bind (put d (lit ": ") b) (fun b =>
         let d := d + 2 in
         bind (put d (snd h) b) (fun b =>
         let d := d + blen (snd h) in
         bind (put d CRLF b) (fun b => Some (set_size (to_int (b_size b + required)) b))))))
    else bind (q_append_ba (blen (fst h)) false (fst h) b) (fun b =>
         bind (q_append (lit ": ") b) (fun b =>
         bind (q_append_ba (blen (snd h)) false (snd h) b) (fun b =>
         q_append CRLF b))).

  (* ByteArrayHelpers.h 96-116: appendNumber; [d]: the digits, least significant last.  They are appended in the
     other order, each by QByteArray::append(char), and then exchanged in place. *)
  Definition turn (start : Z) (b : ba) : ba :=
    let s := Z.to_nat start in let e := Z.to_nat (b_size b) in
    mkBA (b_static b) (b_shared b) (b_alloc b) (b_size b)
      (firstn s (b_mem b) ++ List.rev (firstn (e - s) (skipn s (b_mem b))) ++ skipn e (b_mem b)).
  Fixpoint append_chars (d : bytes) (b : ba) : option ba :=
    match d with [] => Some b | c :: d => bind (q_append_char c b) (append_chars d) end.
  Definition append_number (d : bytes) (b : ba) : option ba :=
    let start := b_size b in
    bind (append_chars (List.rev d) b) (fun b => bind (detach b) (fun b => Some (turn start b))).

  (** ** The head of a response *)
  (* one append to _responseHeadersBuffer *)
  Inductive bop :=
  | BVersion (salloc : Z) (s : bytes)     (* append(_requestHttpVersion), which is raw data (281) *)
  | BChar (c : ascii)
  | BText (s : bytes)
  | BHeader (h : header)
  | BNumber (d : bytes).
  Definition do_bop (o : bop) (b : ba) : option ba :=
    match o with
    | BVersion n s => append_ba n true s b
    | BChar c => append_char c b
    | BText s => append_text s b
    | BHeader h => append_header h b
    | BNumber d => append_number d b
    end.
  Fixpoint do_bops (l : list bop) (b : ba) : option ba :=
    match l with [] => Some b | o :: l => bind (do_bop o b) (do_bops l) end.

  (* 463-464 and the appends: the buffer when it is given to the device (551) *)
  Definition build (l : list bop) (b : ba) : option ba :=
    bind (if b_alloc b =? 0 then reserve 1024 b else Some b) (do_bops l).
  (* 305-308, in transitionToSendingContent: data_ptr()->size = 0, or clear() *)
  Definition recycle (b : ba) : ba := if 4096 <? b_alloc b then null_ba else set_size 0 b.
  (* the heads of one connection object, one after the other: what was given to the device *)
  Fixpoint heads (ls : list (list bop)) (b : ba) : option (list bytes * ba) :=
    match ls with
    | [] => Some ([], b)
    | l :: ls => bind (build l b) (fun b1 => bind (heads ls (recycle b1)) (fun x => Some (text b1 :: fst x, snd x)))
    end.

  (* 400-416: writeRequestErrorResponse *)
  Definition build_error (status : bytes) : option ba :=
    bind (reserve 1024 null_ba) (do_bops [BText (lit "HTTP/1.0 "); BText status; BText CRLF; BText (lit "Connection: close"); BText CRLF; BText CRLF]).
End Qt.

(* 474-497: the handler's headers that are copied as they are *)
Definition ordinary (h : header) : bool :=
  negb (asciiEqualsCI_lower (fst h) (lit "content-length") || asciiEqualsCI_lower (fst h) (lit "content-type")
        || asciiEqualsCI_lower (fst h) (lit "connection") || asciiEqualsCI_lower (fst h) (lit "transfer-encoding")).
(* the appends of writeHeaders, 446-550; None: appendNumber(INT_MIN).  [salloc]: the field alloc of _requestHttpVersion. *)
Definition head_ops (salloc : Z) (code : Z) (hs : list header) (c : conn) : option (list bop) :=
  let status := match statusCodeAndMessage code with
                | Some t => t
                | None => match statusMessage 500 with Some t => t | None => [] end
                end in
  let s := fold_left scan_header hs (mkScan (rlen c) None None None []) in
  let len := s_len s in
  let chunk := match s_te s with                                                  (* 499-517 *)
               | Some h => asciiEqualsCI_lower (snd h) (lit "chunked") && http11 c && (len =? -1) || chunked c
               | None => chunked c
               end in
  let te := match s_te s with
            | Some h => if asciiEqualsCI_lower (snd h) (lit "chunked") && negb (http11 c && (len =? -1)) then None else Some h
            | None => None
            end in
  let clientConn := getFieldValue_tok (q_headers (req c)) (lit "connection") in    (* 519-541 *)
  let clientWants := if http11 c then negb (asciiEqualsCI_lower clientConn (lit "close"))
                     else asciiEqualsCI_lower clientConn (lit "keep-alive") in
  let ka := clientWants && ((0 <=? len) || chunk) &&
            match s_conn s with Some h => negb (asciiEqualsCI_lower (snd h) (lit "close")) | None => true end in
  match (if len =? -1 then Some [] else option_map (fun d => [BText (lit "Content-Length: "); BNumber d; BText CRLF]) (appendNumber 10 (to_int len))) with
  | None => None
  | Some numlen => Some
      ([BVersion salloc (q_version (req c)); BChar SP; BText status; BText CRLF]   (* 466 *)
       ++ map BHeader (filter ordinary hs)   (* 474-497 *)
       ++ numlen                                                                   (* 546-550 *)
       ++ match s_ct s with Some h => [BHeader h] | None => if 0 <? len then [BText (lit "Content-Type: text/plain" ++ CRLF)] else [] end
       ++ (if negb (http11 c) || negb ka then [BText (lit (if ka then "Connection: keep-alive" else "Connection: close") ++ CRLF)] else [])
       ++ match te with Some h => [BHeader h] | None => [] end
       ++ [BText CRLF])
  end.

(** ** The buffer in the life of a connection object *)
Definition head_of (salloc : Z) (c : conn) (a : action) : option (option (list bop)) :=
  match a with
  | ACall (OpWriteHeaders code hs) => if cst_eqb (st c) SendingHeaders then Some (head_ops salloc code hs c) else None
  | ACall (OpWriteResponse code hs content) =>
      if cst_eqb (st c) SendingHeaders then Some (head_ops salloc code hs (set_rlen (blen content) c)) else None
  | _ => None
  end.
Section Life.
  Variable junk : bytes -> Z -> bytes.
  Variable more : Z -> Z.
  Variable salloc : conn -> Z.
  (* nothing but writeHeaders touches the buffer: not even initialize() *)
  Definition bstep (g : cfg) (a : action) (b : ba) : option ba :=
    match g with
    | UB _ _ => Some b
    | Run c _ => match head_of (salloc c) c a with
                 | None => Some b
                 | Some None => None
                 | Some (Some l) => bind (build junk more l b) (fun b1 => Some (recycle b1))
                 end
    end.
  Fixpoint brun (g : cfg) (l : list action) (b : ba) {struct l} : option ba :=
    match l with [] => Some b | a :: l => bind (bstep g a b) (brun (step g a) l) end.
End Life.
