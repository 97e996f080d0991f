(** Model of /repo/pillowcore/HttpHandler.cpp: the stack, fixed, 404, function, log and file handlers.
    A handler's calls on its connection are [op]s of Conn.v.  QStrings are modelled by bytes; the conversion
    from a byte array to the text used as a path is an arbitrary function [dec]. *)
From Verif Require Import Bytes ByteHelpers Helpers Conn Router.
Open Scope Z_scope.

(** ** Stack *)
Section Stack.
  (* W: everything handlers can read and change, including which objects exist ([alive]); child objects are
     named by numbers, [is_handler] tells which are HttpHandlers; [handle]: what handleRequest of a child does *)
  Variables (W : Type) (alive : W -> nat -> bool) (is_handler : nat -> bool) (handle : nat -> W -> bool * W).
  (* 31-42: the loop runs over a copy of children(); using a child deleted meanwhile is undefined (None) *)
  Fixpoint stackHandle (children : list nat) (w : W) : option (bool * W) :=
    match children with
    | [] => Some (false, w)
    | i :: t =>
        if negb (alive w i) then None
        else if is_handler i
        then let '(b, w') := handle i w in if b then Some (true, w') else stackHandle t w'
        else stackHandle t w
    end.
End Stack.

(** ** Fixed answers and functions: accepted?, calls on the connection *)
(* 67-71 *)
Definition fixedHandle (code : Z) (content : bytes) : bool * list op := (true, [OpWriteResponse code [] content]).
(* 82-86; writeResponseString converts with toUtf8; [dec]: QString(bytes).toUtf8() *)
Definition notFoundHandle (dec : bytes -> bytes) (path : bytes) : bool * list op :=
  (true, [OpWriteResponse 404 [] (lit "The requested resource '" ++ dec path ++ lit "' does not exist on this server")]).
(* 103-112: [f]: the calls the user's function makes; None: no function set *)
Definition functionHandle (f : option (list op)) : bool * list op :=
  match f with Some ops => (true, ops) | None => (false, []) end.

(** ** Log *)
Section Log.
  Inductive logmode := LogCompleted | Trace.
  (* what a line shows of a connection: its address and request, the response status and length; the date and
     the elapsed time are left out *)
  Variable shown : Type.
  Inductive line := LBegin (i : nat) (s : shown) | LEnd (i : nat) (s : shown) | LClose (i : nat) (s : shown).
  (* timers: keys of _requestTimerMap; subs: one entry per connection of the three signals to the slots
     (Qt calls a slot once per connection made) *)
  Record logst := mkLog { timers : list nat; subs : list nat; lines : list line; lmode : logmode }.
  Definition has (i : nat) (l : list nat) : bool := existsb (Nat.eqb i) l.
  Definition without (i : nat) (l : list nat) : list nat := filter (fun j => negb (Nat.eqb i j)) l.
  Definition add_lines (ls : list line) (s : logst) : logst := mkLog (timers s) (subs s) (lines s ++ ls) (lmode s).
  (* 140-168: handleRequest; never accepts *)
  Definition logHandle (i : nat) (x : shown) (s : logst) : bool * logst :=
    let s := if has i (timers s) then s else mkLog (i :: timers s) (i :: subs s) (lines s) (lmode s) in
    (false, match lmode s with LogCompleted => s | Trace => add_lines [LBegin i x] s end).
  (* 170-187 *)
  Definition requestCompleted (i : nat) (x : shown) (s : logst) : logst :=
    if has i (timers s) then add_lines [LEnd i x] s else s.
  (* 189-206 *)
  Definition requestClosed (i : nat) (x : shown) (s : logst) : logst :=
    if has i (timers s) then match lmode s with Trace => add_lines [LClose i x] s | LogCompleted => s end else s.
  (* 208-213 *)
  Definition requestDestroyed (i : nat) (s : logst) : logst :=
    mkLog (without i (timers s)) (subs s) (lines s) (lmode s).
  (* the signals of the connections: each slot connected is called, once per connection made *)
  Inductive levent :=
  | VHandle (i : nat) (x : shown)       (* a request of connection i is offered to the log handler *)
  | VCompleted (i : nat) (x : shown)    (* connection i emits requestCompleted *)
  | VClosed (i : nat) (x : shown)       (* connection i emits closed *)
  | VDestroyed (i : nat)                (* connection i is destroyed: destroyed(), then Qt drops its signal connections *)
  | VMode (m : logmode).                (* setMode, 231-235 *)
  Definition times {A} (n : nat) (f : A -> A) (a : A) : A := Nat.iter n f a.
  Definition logStep (s : logst) (e : levent) : logst :=
    match e with
    | VHandle i x => snd (logHandle i x s)
    | VCompleted i x => times (count_occ Nat.eq_dec (subs s) i) (requestCompleted i x) s
    | VClosed i x => times (count_occ Nat.eq_dec (subs s) i) (requestClosed i x) s
    | VDestroyed i => let s' := times (count_occ Nat.eq_dec (subs s) i) (requestDestroyed i) s in
                      mkLog (timers s') (without i (subs s')) (lines s') (lmode s')
    | VMode m => mkLog (timers s) (subs s) (lines s) m
    end.
  Definition logRun (m : logmode) (es : list levent) : logst := fold_left logStep es (mkLog [] [] [] m).
End Log.

(** ** File *)
Section File.
  (* the file system at a moment: QFileInfo(path).exists(), canonicalFilePath(), isFile(), what open + readAll give;
     isDir and isReadable are only used for a warning *)
  Record fs := mkFs { f_exists : bytes -> bool; f_canon : bytes -> bytes; f_isfile : bytes -> bool; f_open : bytes -> option bytes }.
  Variables (dec : bytes -> bytes) (digest : bytes -> bytes).   (* digest: MD5, in hexadecimal *)

  (* 236-251: setPublicPath *)
  Definition setPublicPath (F : fs) (current path : bytes) : bytes :=
    if beqb current path then current else match path with [] => [] | _ => f_canon F path end.

  Fixpoint startsWith (s p : bytes) {struct p} : bool :=
    match p, s with
    | [], _ => true
    | c :: p, d :: s => Ascii.eqb c d && startsWith s p
    | _ :: _, [] => false
    end.

  Inductive feffect :=
  | FOpen (path : bytes)                                        (* a file opened for reading *)
  | FOp (o : op)                                                (* a call on the connection *)
  | FTransfer (content : bytes) (bufsize : Z).                  (* a HttpHandlerFileTransfer created and its writeNextPayload called *)

  (* QByteArray::number(qint64), for n >= 0 *)
  Definition number (n : Z) : bytes := rev (digits_rev (S (Z.to_nat (Z.log2 n))) 10 n).

  (* 259-339: handleRequest.  F: the file system when the path is checked; F': when the file is opened.
     path, headers: the request. *)
  Definition fileHandle (F F' : fs) (public : bytes) (bufsize : Z) (path : bytes) (headers : list header) : bool * list feffect :=
    match public with
    | [] => (false, [])
    | _ =>
      let requestPath := dec (qt_percent path) in
      let resultPath := public ++ requestPath in
      if negb (f_exists F resultPath) then (false, [])
      else if negb (startsWith (f_canon F resultPath) public) then (false, [])
      else if negb (f_isfile F resultPath) then (false, [])
      else (true, FOpen resultPath ::
        match f_open F' resultPath with
        | None => [FOp (OpWriteResponse 403 [] (lit "The requested resource '" ++ requestPath ++ lit "' is not accessible"))]
        | Some content =>
            let hs := [(lit "Content-Type", mimeType requestPath)] in
            if blen content <=? bufsize
            then let etag := digest content in
                 if beqb (getFieldValue headers (lit "If-None-Match")) etag
                 then [FOp (OpWriteResponse 304 [] [])]
                 else [FOp (OpWriteResponse 200 (hs ++ [(lit "ETag", etag)]) content)]
            else [FOp (OpWriteHeaders 200 (hs ++ [(lit "Content-Length", number (blen content))])); FTransfer content bufsize]
        end)
    end.
End File.

(** ** File transfer *)
(* 345-359: the constructor corrects the buffer size *)
Definition transfer_bufsize (n : Z) : Z := if n <? 512 then 512 else n.
(* the transfer object: what is left to read, the buffer size; the deletion of the object (deleteLater, on
   finished, requestCompleted, closed, destroyed) is the environment's *)
Record transfer := mkX { x_rest : bytes; x_buf : Z }.
Definition newTransfer (content : bytes) (bufsize : Z) : transfer := mkX content (transfer_bufsize bufsize).
(* 361-377: writeNextPayload: the next chunk to give to writeContent, and what is left; None: nothing is written.
   out: the output device is not null; pending: its bytesToWrite() *)
Definition nextPayload (out : bool) (pending : Z) (x : transfer) : option (bytes * transfer) :=
  if negb out then None else
  let n := Z.min (x_buf x - pending) (blen (x_rest x)) in
  if 0 <? n then Some (firstn (Z.to_nat n) (x_rest x), mkX (skipn (Z.to_nat n) (x_rest x)) (x_buf x)) else None.
