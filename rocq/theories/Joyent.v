(** Model of the response half of /repo/pillowcore/parser/http_parser.c (Joyent's parser, HTTP_PARSER_STRICT = 1).

    http_parser_execute is modelled as a small-step machine: one [jstep] goes from one switch dispatch (or from
    the end of the data) to the next, so that the callbacks (user code, which may change the parser) run between
    two steps.  The C locals p and the marks are [locals].  assert() failures are an explicit outcome.

    Not modelled: the request half (parser->type is always HTTP_RESPONSE here), URLs; `method' (always 0, which
    is not HTTP_CONNECT, after http_parser_init); on_headers_complete returning non-zero (Pillow's returns 0), so
    F_SKIPBODY is never set and is left out.  http_parser.h 203-205: http_major/minor/status_code are unsigned
    short and never exceed 9999 before the check that refuses them; nread is at most 80*1024+1; no wrap there. *)
From Verif Require Import Bytes.
Open Scope Z_scope.

(* http_parser.h 64, http_parser.c 34 *)
Definition HTTP_MAX_HEADER_SIZE : Z := 80 * 1024.
Definition ULLONG_MAX : Z := 18446744073709551615.
(* uint64_t arithmetic *)
Definition u64 (z : Z) : Z := z mod 18446744073709551616.

(* http_parser.h 141-176, those a response parser can set *)
Inductive herrno :=
| HPE_OK | HPE_INVALID_EOF_STATE | HPE_HEADER_OVERFLOW | HPE_CLOSED_CONNECTION | HPE_INVALID_VERSION
| HPE_INVALID_STATUS | HPE_INVALID_HEADER_TOKEN | HPE_INVALID_CONTENT_LENGTH | HPE_INVALID_CHUNK_SIZE
| HPE_INVALID_CONSTANT | HPE_STRICT | HPE_PAUSED.

(* http_parser.c 230-303, the states of the response half *)
Inductive jstate :=
| s_dead | s_start_res | s_res_H | s_res_HT | s_res_HTT | s_res_HTTP | s_res_first_http_major | s_res_http_major
| s_res_first_http_minor | s_res_http_minor | s_res_first_status_code | s_res_status_code | s_res_status
| s_res_line_almost_done | s_header_field_start | s_header_field | s_header_value_start | s_header_value
| s_header_value_lws | s_header_almost_done | s_chunk_size_start | s_chunk_size | s_chunk_parameters
| s_chunk_size_almost_done | s_headers_almost_done | s_headers_done
| s_chunk_data | s_chunk_data_almost_done | s_chunk_data_done | s_body_identity | s_body_identity_eof
| s_message_done.

(* http_parser.c 306: state <= s_headers_done *)
Definition parsing_header (s : jstate) : bool :=
  match s with
  | s_chunk_data | s_chunk_data_almost_done | s_chunk_data_done | s_body_identity | s_body_identity_eof
  | s_message_done => false
  | _ => true
  end.

(* http_parser.c 309-330 *)
Inductive hstate :=
| h_general | h_C | h_CO | h_CON | h_matching_connection | h_matching_proxy_connection | h_matching_content_length
| h_matching_transfer_encoding | h_matching_upgrade | h_connection | h_content_length | h_transfer_encoding
| h_upgrade | h_matching_transfer_encoding_chunked | h_matching_connection_keep_alive
| h_matching_connection_close | h_transfer_encoding_chunked | h_connection_keep_alive | h_connection_close.

(* http_parser.h 189-220 struct http_parser; flags as booleans *)
Record hparser := mkH {
  h_state : jstate; h_hs : hstate; h_index : nat; h_nread : Z; h_cl : Z;
  h_major : Z; h_minor : Z; h_status : Z; h_errno : herrno; h_upgr : bool;
  f_chunked : bool; f_keepalive : bool; f_close : bool; f_trailing : bool; f_upgrade : bool }.

Definition hset_state v h := mkH v (h_hs h) (h_index h) (h_nread h) (h_cl h) (h_major h) (h_minor h) (h_status h)
  (h_errno h) (h_upgr h) (f_chunked h) (f_keepalive h) (f_close h) (f_trailing h) (f_upgrade h).
Definition hset_hs v h := mkH (h_state h) v (h_index h) (h_nread h) (h_cl h) (h_major h) (h_minor h) (h_status h)
  (h_errno h) (h_upgr h) (f_chunked h) (f_keepalive h) (f_close h) (f_trailing h) (f_upgrade h).
Definition hset_index v h := mkH (h_state h) (h_hs h) v (h_nread h) (h_cl h) (h_major h) (h_minor h) (h_status h)
  (h_errno h) (h_upgr h) (f_chunked h) (f_keepalive h) (f_close h) (f_trailing h) (f_upgrade h).
Definition hset_nread v h := mkH (h_state h) (h_hs h) (h_index h) v (h_cl h) (h_major h) (h_minor h) (h_status h)
  (h_errno h) (h_upgr h) (f_chunked h) (f_keepalive h) (f_close h) (f_trailing h) (f_upgrade h).
Definition hset_cl v h := mkH (h_state h) (h_hs h) (h_index h) (h_nread h) v (h_major h) (h_minor h) (h_status h)
  (h_errno h) (h_upgr h) (f_chunked h) (f_keepalive h) (f_close h) (f_trailing h) (f_upgrade h).
Definition hset_major v h := mkH (h_state h) (h_hs h) (h_index h) (h_nread h) (h_cl h) v (h_minor h) (h_status h)
  (h_errno h) (h_upgr h) (f_chunked h) (f_keepalive h) (f_close h) (f_trailing h) (f_upgrade h).
Definition hset_minor v h := mkH (h_state h) (h_hs h) (h_index h) (h_nread h) (h_cl h) (h_major h) v (h_status h)
  (h_errno h) (h_upgr h) (f_chunked h) (f_keepalive h) (f_close h) (f_trailing h) (f_upgrade h).
Definition hset_status v h := mkH (h_state h) (h_hs h) (h_index h) (h_nread h) (h_cl h) (h_major h) (h_minor h) v
  (h_errno h) (h_upgr h) (f_chunked h) (f_keepalive h) (f_close h) (f_trailing h) (f_upgrade h).
Definition hset_errno v h := mkH (h_state h) (h_hs h) (h_index h) (h_nread h) (h_cl h) (h_major h) (h_minor h)
  (h_status h) v (h_upgr h) (f_chunked h) (f_keepalive h) (f_close h) (f_trailing h) (f_upgrade h).
Definition hset_upgr v h := mkH (h_state h) (h_hs h) (h_index h) (h_nread h) (h_cl h) (h_major h) (h_minor h)
  (h_status h) (h_errno h) v (f_chunked h) (f_keepalive h) (f_close h) (f_trailing h) (f_upgrade h).
Definition hset_flags c k x t u h := mkH (h_state h) (h_hs h) (h_index h) (h_nread h) (h_cl h) (h_major h) (h_minor h)
  (h_status h) (h_errno h) (h_upgr h) c k x t u.

Ltac hsimp := cbn [h_state h_hs h_index h_nread h_cl h_major h_minor h_status h_errno h_upgr f_chunked f_keepalive
  f_close f_trailing f_upgrade hset_state hset_hs hset_index hset_nread hset_cl hset_major hset_minor hset_status
  hset_errno hset_upgr hset_flags].
Tactic Notation "hsimp" "in" "*" := cbn [h_state h_hs h_index h_nread h_cl h_major h_minor h_status h_errno h_upgr
  f_chunked f_keepalive f_close f_trailing f_upgrade hset_state hset_hs hset_index hset_nread hset_cl hset_major
  hset_minor hset_status hset_errno hset_upgr hset_flags] in *.

(* http_parser.c 1900-1909: http_parser_init(parser, HTTP_RESPONSE), memset to 0 (h_general = 0, HPE_OK = 0) *)
Definition hinit : hparser :=
  mkH s_start_res h_general 0 0 0 0 0 0 HPE_OK false false false false false false.

(* http_parser.c 2029-2041: http_parser_pause(parser, 1); in an error state it does nothing but assert (debug) *)
Definition hpause (h : hparser) : hparser :=
  match h_errno h with HPE_OK | HPE_PAUSED => hset_errno HPE_PAUSED h | _ => h end.

(* http_parser.c 1852-1873 http_message_needs_eof; `/' on non-negative ints *)
Definition needs_eof (h : hparser) : bool :=
  if (h_status h / 100 =? 1) || (h_status h =? 204) || (h_status h =? 304) then false
  else if f_chunked h || negb (h_cl h =? ULLONG_MAX) then false
  else true.
(* http_parser.c 1876-1892 http_should_keep_alive *)
Definition should_keep_alive (h : hparser) : bool :=
  if (0 <? h_major h) && (0 <? h_minor h) then if f_close h then false else negb (needs_eof h)
  else if negb (f_keepalive h) then false else negb (needs_eof h).
(* http_parser.c 365: NEW_MESSAGE(), start_state = s_start_res *)
Definition new_message (h : hparser) : jstate := if should_keep_alive h then s_start_res else s_dead.

(* http_parser.c 334-340, 143-176 *)
Definition IS_NUM (c : ascii) : bool := (48 <=? byte_val c) && (byte_val c <=? 57).
Definition num (c : ascii) : Z := byte_val c - 48.                           (* ch - '0' *)
Definition LOWER (c : ascii) : ascii := ascii_of_nat (Z.to_nat (Z.lor (byte_val c) 32)).
Definition TOKEN (c : ascii) : option ascii :=                               (* tokens[c], None for 0 *)
  let v := byte_val c in
  if (65 <=? v) && (v <=? 90) then Some (ascii_of_nat (Z.to_nat (v + 32)))
  else if (97 <=? v) && (v <=? 122) || (48 <=? v) && (v <=? 57) || mem c (lit "!#$%&'*+-.^_`|~") then Some c
  else None.
Definition unhex (c : ascii) : Z :=                                          (* 179-190 *)
  let v := byte_val c in
  if (48 <=? v) && (v <=? 57) then v - 48
  else if (65 <=? v) && (v <=? 70) then v - 55
  else if (97 <=? v) && (v <=? 102) then v - 87
  else -1.

(** ** Callbacks *)
Inductive cb := CbBegin | CbField (b : bytes) | CbValue (b : bytes) | CbHeaders | CbBody (b : bytes) | CbComplete.

(* Locals of http_parser_execute: the bytes from p to the end of the data, the bytes between each mark and p
   (None: mark not set), and whether we come from `goto reexecute_byte'.  A returned count n of consumed bytes is
   represented by the bytes left, data[n..len). *)
Record locals := mkL { l_data : bytes; l_field : option bytes; l_value : option bytes;
                       l_body : option bytes; l_re : bool }.

Inductive jres :=
| Next (h : hparser) (l : locals)                      (* go on *)
| Call (c : cb) (h : hparser) (l : locals) (er : bytes)  (* run the callback; return, with er left, if errno is
                                                            no longer OK; go on at (h, l) otherwise *)
| Ret (h : hparser) (er : bytes)                       (* return, with er left *)
| Assert.                                              (* assert() fails *)

Definition moved (ch : ascii) (m : option bytes) : option bytes := option_map (fun b => b ++ [ch]) m.
(* p++ *)
Definition advance (l : locals) : locals :=
  match l_data l with
  | [] => l
  | ch :: rest => mkL rest (moved ch (l_field l)) (moved ch (l_value l)) (moved ch (l_body l)) false
  end.
Definition again (l : locals) : locals :=
  mkL (l_data l) (l_field l) (l_value l) (l_body l) true.           (* goto reexecute_byte *)
Definition mark (m : option bytes) : option bytes := match m with None => Some [] | Some b => Some b end.
Definition no_field l := mkL (l_data l) None (l_value l) (l_body l) (l_re l).
Definition no_value l := mkL (l_data l) (l_field l) None (l_body l) (l_re l).
Definition no_body l := mkL (l_data l) (l_field l) (l_value l) None (l_re l).
Definition mark_field l := mkL (l_data l) (mark (l_field l)) (l_value l) (l_body l) (l_re l).
Definition mark_value l := mkL (l_data l) (l_field l) (mark (l_value l)) (l_body l) (l_re l).

(* error: label, 1839-1844 *)
Definition err (e : herrno) (h : hparser) (l : locals) : jres := Ret (hset_errno e h) (l_data l).
(* break out of the switch, then p++ *)
Definition brk (h : hparser) (l : locals) : jres := Next h (advance l).
Definition reexec (h : hparser) (l : locals) : jres := Next h (again l).
(* CALLBACK_NOTIFY(FOR); break;   (74) *)
Definition notify (c : cb) (h : hparser) (l : locals) : jres := Call c h (advance l) (tl (l_data l)).
(* CALLBACK_DATA(header_field/header_value/body); break;   (101-102): nothing if the mark is not set *)
Definition data_field (h : hparser) (l : locals) : jres :=
  match l_field l with
  | None => brk h l
  | Some b => Call (CbField b) h (advance (no_field l)) (tl (l_data l))
  end.
Definition data_value (h : hparser) (l : locals) : jres :=
  match l_value l with
  | None => brk h l
  | Some b => Call (CbValue b) h (advance (no_value l)) (tl (l_data l))
  end.
Definition data_body (h : hparser) (l : locals) : jres :=
  match l_body l with
  | None => brk h l
  | Some b => Call (CbBody b) h (advance (no_body l)) (tl (l_data l))
  end.

Definition ceq := Ascii.eqb.
(* s_header_field, 1236-1323: matching a header name against one of the known ones *)
Definition match_word (w : string) (done : hstate) (c : ascii) (hs : hstate) (idx : nat) : hstate * nat :=
  let idx := S idx in
  let len := length (lit w) in
  if (len <? idx)%nat || negb (ceq c (nth idx (lit w) NUL)) then (h_general, idx)
  else if (idx =? len - 1)%nat then (done, idx)
  else (hs, idx).
Definition field_step (hs : hstate) (idx : nat) (c : ascii) : option (hstate * nat) :=
  match hs with
  | h_general => Some (h_general, idx)
  | h_C => Some (if ceq c "o" then h_CO else h_general, S idx)
  | h_CO => Some (if ceq c "n" then h_CON else h_general, S idx)
  | h_CON => Some (if ceq c "n" then h_matching_connection
                   else if ceq c "t" then h_matching_content_length else h_general, S idx)
  | h_matching_connection => Some (match_word "connection" h_connection c hs idx)
  | h_matching_proxy_connection => Some (match_word "proxy-connection" h_connection c hs idx)
  | h_matching_content_length => Some (match_word "content-length" h_content_length c hs idx)
  | h_matching_transfer_encoding => Some (match_word "transfer-encoding" h_transfer_encoding c hs idx)
  | h_matching_upgrade => Some (match_word "upgrade" h_upgrade c hs idx)
  | h_connection | h_content_length | h_transfer_encoding | h_upgrade =>
      Some (if negb (ceq c SP) then h_general else hs, idx)                   (* ch != ' ' *)
  | _ => None                                                                 (* assert(0) *)
  end.
(* s_header_field_start, 1207-1228 *)
Definition field_first (c : ascii) : hstate :=
  if ceq c "c" then h_C else if ceq c "p" then h_matching_proxy_connection
  else if ceq c "t" then h_matching_transfer_encoding else if ceq c "u" then h_matching_upgrade
  else h_general.

(* s_header_value_start, 1375-1416; None: HPE_INVALID_CONTENT_LENGTH *)
Definition value_first (ch : ascii) (h : hparser) : option hparser :=
  let c := LOWER ch in
  match h_hs h with
  | h_upgrade => Some (hset_hs h_general (hset_flags (f_chunked h) (f_keepalive h) (f_close h) (f_trailing h) true h))
  | h_transfer_encoding => Some (hset_hs (if ceq c "c" then h_matching_transfer_encoding_chunked else h_general) h)
  | h_content_length => if negb (IS_NUM ch) then None else Some (hset_cl (num ch) h)
  | h_connection => Some (hset_hs (if ceq c "k" then h_matching_connection_keep_alive
                                   else if ceq c "c" then h_matching_connection_close else h_general) h)
  | _ => Some (hset_hs h_general h)
  end.

Inductive vres := VOk (h : hparser) | VBad | VAssert.
Definition value_word (w : string) (done : hstate) (c : ascii) (h : hparser) : vres :=
  let (hs, idx) := match_word w done c (h_hs h) (h_index h) in VOk (hset_index idx (hset_hs hs h)).
(* s_header_value, 1441-1512 *)
Definition value_step (ch : ascii) (h : hparser) : vres :=
  let c := LOWER ch in
  match h_hs h with
  | h_general => VOk h
  | h_connection | h_transfer_encoding => VAssert
  | h_content_length =>
      if ceq ch SP then VOk h
      else if negb (IS_NUM ch) then VBad
      else let t := u64 (u64 (h_cl h * 10) + num ch) in
           if (t <? h_cl h) || (t =? ULLONG_MAX) then VBad else VOk (hset_cl t h)
  | h_matching_transfer_encoding_chunked => value_word "chunked" h_transfer_encoding_chunked c h
  | h_matching_connection_keep_alive => value_word "keep-alive" h_connection_keep_alive c h
  | h_matching_connection_close => value_word "close" h_connection_close c h
  | h_transfer_encoding_chunked | h_connection_keep_alive | h_connection_close =>
      VOk (if negb (ceq ch SP) then hset_hs h_general h else h)
  | _ => VOk (hset_hs h_general h)
  end.

(* s_header_almost_done, 1521-1533 *)
Definition header_flags (h : hparser) : hparser :=
  match h_hs h with
  | h_connection_keep_alive => hset_flags (f_chunked h) true (f_close h) (f_trailing h) (f_upgrade h) h
  | h_connection_close => hset_flags (f_chunked h) (f_keepalive h) true (f_trailing h) (f_upgrade h) h
  | h_transfer_encoding_chunked => hset_flags true (f_keepalive h) (f_close h) (f_trailing h) (f_upgrade h) h
  | _ => h
  end.

(* the switch, 637-1818; ch = the byte at p *)
Definition jbyte (ch : ascii) (h : hparser) (l : locals) : jres :=
  let go s := brk (hset_state s h) l in
  let strict (ok : bool) (k : jres) := if ok then k else err HPE_STRICT h l in
  let avail := blen (l_data l) in
  match h_state h with
  | s_dead =>                                                                  (* 639-648 *)
      if ceq ch CR || ceq ch LF then brk h l else err HPE_CLOSED_CONNECTION h l
  | s_start_res =>                                                             (* 690-712 *)
      let h1 := hset_cl ULLONG_MAX (hset_flags false false false false false h) in
      if ceq ch "H" then notify CbBegin (hset_state s_res_H h1) l
      else if ceq ch CR || ceq ch LF then notify CbBegin h1 l
      else err HPE_INVALID_CONSTANT h1 l
  | s_res_H => strict (ceq ch "T") (go s_res_HT)                               (* 714-732 *)
  | s_res_HT => strict (ceq ch "T") (go s_res_HTT)
  | s_res_HTT => strict (ceq ch "P") (go s_res_HTTP)
  | s_res_HTTP => strict (ceq ch "/") (go s_res_first_http_major)
  | s_res_first_http_major =>                                                  (* 734-742 *)
      if IS_NUM ch then brk (hset_state s_res_http_major (hset_major (num ch) h)) l
      else err HPE_INVALID_VERSION h l
  | s_res_http_major =>                                                        (* 745-766 *)
      if ceq ch "." then go s_res_first_http_minor
      else if negb (IS_NUM ch) then err HPE_INVALID_VERSION h l
      else let h1 := hset_major (h_major h * 10 + num ch) h in
           if 999 <? h_major h1 then err HPE_INVALID_VERSION h1 l else brk h1 l
  | s_res_first_http_minor =>                                                  (* 769-777 *)
      if IS_NUM ch then brk (hset_state s_res_http_minor (hset_minor (num ch) h)) l
      else err HPE_INVALID_VERSION h l
  | s_res_http_minor =>                                                        (* 780-801 *)
      if ceq ch SP then go s_res_first_status_code
      else if negb (IS_NUM ch) then err HPE_INVALID_VERSION h l
      else let h1 := hset_minor (h_minor h * 10 + num ch) h in
           if 999 <? h_minor h1 then err HPE_INVALID_VERSION h1 l else brk h1 l
  | s_res_first_status_code =>                                                 (* 803-816 *)
      if negb (IS_NUM ch) then (if ceq ch SP then brk h l else err HPE_INVALID_STATUS h l)
      else brk (hset_state s_res_status_code (hset_status (num ch) h)) l
  | s_res_status_code =>                                                       (* 818-847 *)
      if negb (IS_NUM ch) then
        if ceq ch SP then go s_res_status
        else if ceq ch CR then go s_res_line_almost_done
        else if ceq ch LF then go s_header_field_start
        else err HPE_INVALID_STATUS h l
      else let h1 := hset_status (h_status h * 10 + num ch) h in
           if 999 <? h_status h1 then err HPE_INVALID_STATUS h1 l else brk h1 l
  | s_res_status =>                                                            (* 849-861 *)
      if ceq ch CR then go s_res_line_almost_done
      else if ceq ch LF then go s_header_field_start
      else brk h l
  | s_res_line_almost_done => strict (ceq ch LF) (go s_header_field_start)     (* 863-866 *)
  | s_header_field_start =>                                                    (* 1177-1230 *)
      if ceq ch CR then go s_headers_almost_done
      else if ceq ch LF then reexec (hset_state s_headers_almost_done h) l
      else match TOKEN ch with
           | None => err HPE_INVALID_HEADER_TOKEN h l
           | Some c => brk (hset_hs (field_first c) (hset_state s_header_field (hset_index 0 h))) (mark_field l)
           end
  | s_header_field =>                                                          (* 1232-1352 *)
      match TOKEN ch with
      | Some c => match field_step (h_hs h) (h_index h) c with
                  | Some (hs, idx) => brk (hset_index idx (hset_hs hs h)) l
                  | None => Assert
                  end
      | None =>
          if ceq ch ":" then data_field (hset_state s_header_value_start h) l
          else if ceq ch CR then data_field (hset_state s_header_almost_done h) l
          else if ceq ch LF then data_field (hset_state s_header_field_start h) l
          else err HPE_INVALID_HEADER_TOKEN h l
      end
  | s_header_value_start =>                                                    (* 1354-1418 *)
      if ceq ch SP || ceq ch "009" then brk h l
      else
        let l1 := mark_value l in
        let h1 := hset_index 0 (hset_state s_header_value h) in
        if ceq ch CR then data_value (hset_state s_header_almost_done (hset_hs h_general h1)) l1
        else if ceq ch LF then data_value (hset_state s_header_field_start h1) l1
        else match value_first ch h1 with
             | Some h2 => brk h2 l1
             | None => err HPE_INVALID_CONTENT_LENGTH h1 l1
             end
  | s_header_value =>                                                          (* 1420-1514 *)
      if ceq ch CR then data_value (hset_state s_header_almost_done h) l
      else if ceq ch LF then
        match l_value l with
        | None => reexec (hset_state s_header_almost_done h) l
        | Some b => Call (CbValue b) (hset_state s_header_almost_done h) (again (no_value l)) (l_data l)
        end
      else match value_step ch h with
           | VOk h1 => brk h1 l
           | VBad => err HPE_INVALID_CONTENT_LENGTH h l
           | VAssert => Assert
           end
  | s_header_almost_done =>                                                    (* 1516-1536 *)
      strict (ceq ch LF) (brk (header_flags (hset_state s_header_value_lws h)) l)
  | s_header_value_lws =>                                                      (* 1538-1548 *)
      if ceq ch SP || ceq ch "009" then go s_header_value_start
      else reexec (hset_state s_header_field_start h) l
  | s_headers_almost_done =>                                                   (* 1550-1597 *)
      strict (ceq ch LF)
        (if f_trailing h then notify CbComplete (hset_state (new_message h) h) l
         else Call CbHeaders (hset_upgr (f_upgrade h) (hset_state s_headers_done h)) (again l) (l_data l))
  | s_headers_done =>                                                          (* 1599-1643 *)
      strict (ceq ch LF)
        (let h1 := hset_nread 0 h in
         (* upgrade (1605-1609): after the callback the function returns (p - data) + 1 *)
         if h_upgr h1 then Call CbComplete (hset_state (new_message h1) h1)
                                (mkL [] None None None false) (tl (l_data l))
         else if f_chunked h1 then brk (hset_state s_chunk_size_start h1) l
         else if h_cl h1 =? 0 then notify CbComplete (hset_state (new_message h1) h1) l
         else if negb (h_cl h1 =? ULLONG_MAX) then brk (hset_state s_body_identity h1) l
         else if negb (needs_eof h1) then notify CbComplete (hset_state (new_message h1) h1) l
         else brk (hset_state s_body_identity_eof h1) l)
  | s_body_identity =>                                                         (* 1645-1683 *)
      let to_read := Z.min (h_cl h) avail in
      if (h_cl h =? 0) || (h_cl h =? ULLONG_MAX) then Assert
      else
        let block := firstn (Z.to_nat to_read) (l_data l) in
        let got := match l_body l with None => block | Some b => b ++ block end in
        let h1 := hset_cl (h_cl h - to_read) h in
        if h_cl h1 =? 0 then
          Call (CbBody got) (hset_state s_message_done h1)                     (* p at the last byte of the block *)
            (mkL (skipn (Z.to_nat (to_read - 1)) (l_data l)) (l_field l) (l_value l) None true)
            (skipn (Z.to_nat (to_read - 1)) (l_data l))
        else Next h1 (mkL (skipn (Z.to_nat to_read) (l_data l)) (l_field l) (l_value l)
                          (Some got) false)
  | s_body_identity_eof =>                                                     (* 1686-1690 *)
      Next h (mkL [] (l_field l) (l_value l)
                  (Some (match l_body l with None => l_data l | Some b => b ++ l_data l end)) false)
  | s_message_done => notify CbComplete (hset_state (new_message h) h) l       (* 1692-1695 *)
  | s_chunk_size_start =>                                                      (* 1697-1711 *)
      if negb (h_nread h =? 1) || negb (f_chunked h) then Assert
      else if unhex ch =? -1 then err HPE_INVALID_CHUNK_SIZE h l
      else brk (hset_state s_chunk_size (hset_cl (unhex ch) h)) l
  | s_chunk_size =>                                                            (* 1713-1748 *)
      if negb (f_chunked h) then Assert
      else if ceq ch CR then go s_chunk_size_almost_done
      else if unhex ch =? -1 then
        (if ceq ch ";" || ceq ch SP then go s_chunk_parameters else err HPE_INVALID_CHUNK_SIZE h l)
      else let t := u64 (u64 (h_cl h * 16) + unhex ch) in
           if (t <? h_cl h) || (t =? ULLONG_MAX) then err HPE_INVALID_CONTENT_LENGTH h l
           else brk (hset_cl t h) l
  | s_chunk_parameters =>                                                      (* 1750-1759 *)
      if negb (f_chunked h) then Assert
      else if ceq ch CR then go s_chunk_size_almost_done else brk h l
  | s_chunk_size_almost_done =>                                                (* 1761-1775 *)
      if negb (f_chunked h) then Assert
      else strict (ceq ch LF)
        (let h1 := hset_nread 0 h in
         if h_cl h1 =? 0
         then brk (hset_state s_header_field_start
                     (hset_flags (f_chunked h1) (f_keepalive h1) (f_close h1) true (f_upgrade h1) h1)) l
         else brk (hset_state s_chunk_data h1) l)
  | s_chunk_data =>                                                            (* 1777-1798 *)
      if negb (f_chunked h) || (h_cl h =? 0) || (h_cl h =? ULLONG_MAX) then Assert
      else
        let to_read := Z.min (h_cl h) avail in
        let block := firstn (Z.to_nat to_read) (l_data l) in
        let got := match l_body l with None => block | Some b => b ++ block end in
        let h1 := hset_cl (h_cl h - to_read) h in
        Next (if h_cl h1 =? 0 then hset_state s_chunk_data_almost_done h1 else h1)
          (mkL (skipn (Z.to_nat to_read) (l_data l)) (l_field l) (l_value l) (Some got) false)
  | s_chunk_data_almost_done =>                                                (* 1800-1806 *)
      if negb (f_chunked h) || negb (h_cl h =? 0) then Assert
      else strict (ceq ch CR) (data_body (hset_state s_chunk_data_done h) l)
  | s_chunk_data_done =>                                                       (* 1808-1813 *)
      if negb (f_chunked h) then Assert
      else strict (ceq ch LF) (brk (hset_state s_chunk_size_start (hset_nread 0 h)) l)
  end.

Definition marks (l : locals) : nat :=
  let one (m : option bytes) := match m with None => 0%nat | Some _ => 1%nat end in
  (one (l_field l) + one (l_value l) + one (l_body l))%nat.

(* one turn of the loop 627-1819, from after `ch = *p' or from reexecute_byte; or what follows the loop *)
Definition jstep (h : hparser) (l : locals) : jres :=
  match l_data l with
  | ch :: _ =>
      if l_re l then jbyte ch h l
      else if parsing_header (h_state h) then                                  (* 630-637 *)
        let h1 := hset_nread (h_nread h + 1) h in
        if HTTP_MAX_HEADER_SIZE <? h_nread h1 then err HPE_HEADER_OVERFLOW h1 l else jbyte ch h1 l
      else jbyte ch h l
  | [] =>                                                                      (* 1821-1837 *)
      if (1 <? marks l)%nat then Assert
      else match l_field l, l_value l, l_body l with
           | Some b, _, _ => Call (CbField b) h (no_field l) []
           | None, Some b, _ => Call (CbValue b) h (no_value l) []
           | None, None, Some b => Call (CbBody b) h (no_body l) []
           | None, None, None => Ret h []
           end
  end.

(* entry, 571-625 (len > 0): the marks that are set when a name or a value goes on from the previous call *)
Definition jstart (data : bytes) (h : hparser) : locals :=
  mkL data (match h_state h with s_header_field => Some [] | _ => None end)
             (match h_state h with s_header_value => Some [] | _ => None end) None false.

(* len == 0 (585-605): Some cb: run it and return; None: errno only *)
Definition jeof (h : hparser) : option cb * hparser :=
  match h_state h with
  | s_body_identity_eof => (Some CbComplete, h)
  | s_dead | s_start_res => (None, h)
  | _ => (None, hset_errno HPE_INVALID_EOF_STATE h)
  end.
