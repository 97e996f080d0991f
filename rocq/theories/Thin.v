(** Model of the request head parser /repo/pillowcore/parser/parser.c (thin / Ragel), with the header
    callback of HttpConnection.cpp plugged in, as HttpConnectionPrivate::initialize does (139-143). *)
From Verif Require Import Bytes ByteHelpers.
From Verif Require Export ThinTable.
Open Scope Z_scope.

(* parser.h 23-44: struct http_parser. Left out: [content_len] (written by init, never read), [data] and
   [http_field] (constant after initialize), [header_done] (always NULL: zeroed by the memset of
   HttpConnection.cpp 141). size_t/int fields are Z: all values are offsets in the buffer. *)
Record tparser := mkTP {
  cs : Z; body_start : Z; nread : Z; mark : Z; field_start : Z; field_len : Z; query_start : Z;
  rm_start : Z; rm_len : Z; uri_start : Z; uri_len : Z; frag_start : Z; frag_len : Z;
  path_start : Z; path_len : Z; qs_start : Z; qs_len : Z; ver_start : Z; ver_len : Z }.

(* HttpConnection.cpp 44-50: HttpHeaderRef *)
Record href := mkHref { h_fpos : Z; h_flen : Z; h_vpos : Z; h_vlen : Z }.

(* The parser together with what its callback writes: _requestHeadersRef and
   _requestContentLengthHeaderIndex of HttpConnectionPrivate (HttpConnection.cpp 91, 93). *)
Record tstate := mkTS { tp : tparser; refs : list href; cl_index : Z }.

(* HttpConnection.cpp 141: memset(&_parser, 0, ..) *)
Definition tp_zero : tparser := mkTP 0 0 0 0 0 0 0 0 0 0 0 0 0 0 0 0 0 0 0.

(* parser.c 36-65: thin_http_parser_init. query_start is the one field init leaves alone. *)
Definition tp_init (p : tparser) : tparser :=
  mkTP 1 0 0 0 0 0 (query_start p) 0 0 0 0 0 0 0 0 0 0 0 0.

Definition set_cs (n : Z) (p : tparser) : tparser :=
  mkTP n (body_start p) (nread p) (mark p) (field_start p) (field_len p) (query_start p)
    (rm_start p) (rm_len p) (uri_start p) (uri_len p) (frag_start p) (frag_len p)
    (path_start p) (path_len p) (qs_start p) (qs_len p) (ver_start p) (ver_len p).
Definition set_nread (n : Z) (p : tparser) : tparser :=
  mkTP (cs p) (body_start p) n (mark p) (field_start p) (field_len p) (query_start p)
    (rm_start p) (rm_len p) (uri_start p) (uri_len p) (frag_start p) (frag_len p)
    (path_start p) (path_len p) (qs_start p) (qs_len p) (ver_start p) (ver_len p).
Definition set_body_start (n : Z) (p : tparser) : tparser :=
  mkTP (cs p) n (nread p) (mark p) (field_start p) (field_len p) (query_start p)
    (rm_start p) (rm_len p) (uri_start p) (uri_len p) (frag_start p) (frag_len p)
    (path_start p) (path_len p) (qs_start p) (qs_len p) (ver_start p) (ver_len p).

(* HttpConnection.cpp 421-430: parser_http_field. [field]/[value] are pointers into the request buffer,
   given here by their offsets (buffer == begin: the parser is run on _requestBuffer.constData()). *)
Definition http_field_cb (buf : bytes) (fpos flen vpos vlen : Z) (s : tstate) : tstate :=
  let idx := if (flen =? 14) && asciiEqualsCI (slice buf fpos 14) (lit "content-length")
             then Z.of_nat (length (refs s)) else cl_index s in
  mkTS (tp s) (refs s ++ [mkHref fpos flen vpos vlen]) idx.

(* parser.rl 22-63 / the tr labels of parser.c: MARK(M, p) stores p - buffer, LEN(A, p) is p - buffer - A. *)
Definition do_act (buf : bytes) (pos : Z) (a : act) (s : tstate) : tstate :=
  let p := tp s in
  let upd q := mkTS q (refs s) (cl_index s) in
  match a with
  | A_mark => upd (mkTP (cs p) (body_start p) (nread p) pos (field_start p) (field_len p) (query_start p)
      (rm_start p) (rm_len p) (uri_start p) (uri_len p) (frag_start p) (frag_len p)
      (path_start p) (path_len p) (qs_start p) (qs_len p) (ver_start p) (ver_len p))
  | A_start_field => upd (mkTP (cs p) (body_start p) (nread p) (mark p) pos (field_len p) (query_start p)
      (rm_start p) (rm_len p) (uri_start p) (uri_len p) (frag_start p) (frag_len p)
      (path_start p) (path_len p) (qs_start p) (qs_len p) (ver_start p) (ver_len p))
  | A_write_field => upd (mkTP (cs p) (body_start p) (nread p) (mark p) (field_start p)
      (pos - field_start p) (query_start p)
      (rm_start p) (rm_len p) (uri_start p) (uri_len p) (frag_start p) (frag_len p)
      (path_start p) (path_len p) (qs_start p) (qs_len p) (ver_start p) (ver_len p))
  | A_write_value => http_field_cb buf (field_start p) (field_len p) (mark p) (pos - mark p) s
  | A_request_method => upd (mkTP (cs p) (body_start p) (nread p) (mark p) (field_start p) (field_len p)
      (query_start p) (mark p) (pos - mark p) (uri_start p) (uri_len p) (frag_start p) (frag_len p)
      (path_start p) (path_len p) (qs_start p) (qs_len p) (ver_start p) (ver_len p))
  | A_request_uri => upd (mkTP (cs p) (body_start p) (nread p) (mark p) (field_start p) (field_len p)
      (query_start p) (rm_start p) (rm_len p) (mark p) (pos - mark p) (frag_start p) (frag_len p)
      (path_start p) (path_len p) (qs_start p) (qs_len p) (ver_start p) (ver_len p))
  | A_fragment => upd (mkTP (cs p) (body_start p) (nread p) (mark p) (field_start p) (field_len p)
      (query_start p) (rm_start p) (rm_len p) (uri_start p) (uri_len p) (mark p) (pos - mark p)
      (path_start p) (path_len p) (qs_start p) (qs_len p) (ver_start p) (ver_len p))
  | A_start_query => upd (mkTP (cs p) (body_start p) (nread p) (mark p) (field_start p) (field_len p)
      pos (rm_start p) (rm_len p) (uri_start p) (uri_len p) (frag_start p) (frag_len p)
      (path_start p) (path_len p) (qs_start p) (qs_len p) (ver_start p) (ver_len p))
  | A_query_string => upd (mkTP (cs p) (body_start p) (nread p) (mark p) (field_start p) (field_len p)
      (query_start p) (rm_start p) (rm_len p) (uri_start p) (uri_len p) (frag_start p) (frag_len p)
      (path_start p) (path_len p) (query_start p) (pos - query_start p) (ver_start p) (ver_len p))
  | A_http_version => upd (mkTP (cs p) (body_start p) (nread p) (mark p) (field_start p) (field_len p)
      (query_start p) (rm_start p) (rm_len p) (uri_start p) (uri_len p) (frag_start p) (frag_len p)
      (path_start p) (path_len p) (qs_start p) (qs_len p) (mark p) (pos - mark p))
  | A_request_path => upd (mkTP (cs p) (body_start p) (nread p) (mark p) (field_start p) (field_len p)
      (query_start p) (rm_start p) (rm_len p) (uri_start p) (uri_len p) (frag_start p) (frag_len p)
      (mark p) (pos - mark p) (qs_start p) (qs_len p) (ver_start p) (ver_len p))
  end.

Definition do_acts (buf : bytes) (pos : Z) (l : list act) (s : tstate) : tstate :=
  fold_left (fun s a => do_act buf pos a s) l s.

Definition with_tp (f : tparser -> tparser) (s : tstate) : tstate :=
  mkTS (f (tp s)) (refs s) (cl_index s).

(* parser.c 88-1199: the loop. [rest] are the bytes of [buf] from offset [pos] = p - buffer on.
   Returns the new state and the final p - buffer. *)
Fixpoint trun (buf : bytes) (pos : Z) (rest : bytes) (s : tstate) : tstate * Z :=
  match rest with
  | [] => (s, pos)                                                   (* p == pe: _test_eof *)
  | c :: rest' =>
      match trans (cs (tp s)) (schar c) with
      | TErr => (with_tp (set_cs 0) s, pos)                          (* st0, parser.c 109-111 *)
      | TGo acts n => trun buf (pos + 1) rest' (with_tp (set_cs n) (do_acts buf pos acts s))
      | TDone => (with_tp (fun p => set_cs 58 (set_body_start (pos + 1) p)) s, pos + 1)
                                                                     (* tr22, parser.c 379-388 *)
      end
  end.

(* parser.c 69-1217: thin_http_parser_execute(parser, buffer, len = size, off).  The asserts are not
   modelled as aborts; assert(off <= len) holds at every call (lemma in ConnInv). *)
Definition texecute (buf : bytes) (off : Z) (s : tstate) : tstate :=
  let '(s', p) := trun buf off (skipn (Z.to_nat off) buf) s in
  let s' := with_tp (fun q => set_nread (nread q + (p - off)) q) s' in
  if body_start (tp s') =? 0 then s' else with_tp (fun q => set_nread (nread q + 1) q) s'.

(* parser.c 1238-1245 *)
Definition has_error (p : tparser) : bool := cs p =? 0.
Definition is_finished (p : tparser) : bool := cs p =? 58.
