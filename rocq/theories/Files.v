(** SPECIFICATION and model for C88: a file server as in examples/fileserver: a HttpHandlerStack of a HttpHandlerLog, a handler of its own for "/_stats", a
    HttpHandlerFile and a HttpHandler404.  The first part is the specification; it uses Serve.v (answers) and PropsHandlers.v (served: a file that passes the
    checks and can be read; header_is). *)
From Verif Require Import Bytes ByteHelpers Helpers TextSpec Params Router Handlers PropsHandlers Conn ConnSpec Serve.
Open Scope Z_scope.

Section Files.
  (* dec: QString(bytes).toUtf8(); digest: MD5 in hexadecimal; pub: the public path; bufsize: the buffer size of the file handler;
     disk k: the file system when the k-th request is checked, and when its file is opened; stats k: the text shown for "/_stats" *)
  Variables (dec digest : bytes -> bytes) (pub : bytes) (bufsize : Z) (disk : nat -> fs * fs) (stats : nat -> bytes).

  (** ** Specification *)
  (** the path that a request names *)
  Definition file_path (q : Conn.request) : bytes := pub ++ dec (qt_percent (q_path q)).
  (** it passes the checks: it exists, its canonical path begins with the public path, and it is a file *)
  Definition passes (F : fs) (p : bytes) : Prop := pub <> [] /\ f_exists F p = true /\ f_isfile F p = true /\ exists rest, f_canon F p = pub ++ rest.
  (** the answer to the k-th request of a connection *)
  Inductive FileAnswer (k : nat) (q : Conn.request) : given -> Prop :=
  | Fi_stats : q_path q = lit "/_stats" -> FileAnswer k q (mkGiven 200 [] (stats k))
  | Fi_file content : q_path q <> lit "/_stats" -> served dec (fst (disk k)) (snd (disk k)) pub (q_path q) (file_path q) content ->
      ~ header_is (q_headers q) "if-none-match" (digest content) ->
      FileAnswer k q (mkGiven 200 [(lit "Content-Type", mimeType (dec (qt_percent (q_path q)))); (lit "ETag", digest content)] content)
  | Fi_same content : q_path q <> lit "/_stats" -> served dec (fst (disk k)) (snd (disk k)) pub (q_path q) (file_path q) content ->
      header_is (q_headers q) "if-none-match" (digest content) -> FileAnswer k q (mkGiven 304 [] [])
  | Fi_denied : q_path q <> lit "/_stats" -> passes (fst (disk k)) (file_path q) -> f_open (snd (disk k)) (file_path q) = None ->
      FileAnswer k q (mkGiven 403 [] (lit "The requested resource '" ++ dec (qt_percent (q_path q)) ++ lit "' is not accessible"))
  | Fi_none : q_path q <> lit "/_stats" -> ~ passes (fst (disk k)) (file_path q) ->
      FileAnswer k q (mkGiven 404 [] (lit "The requested resource '" ++ dec (q_path q) ++ lit "' does not exist on this server")).

  (** ** Model *)
  (* the effects of the file handler as calls on the connection; a transfer (big files, see C43) makes calls that depend on the connection: none here *)
  Definition file_calls (l : list feffect) : list op := flat_map (fun e => match e with FOp o => [o] | _ => [] end) l.
  (* the children of the stack of fileserver.cpp 49-53: the log (HttpHandler.cpp 140-168: makes no calls on the connection), HttpHandlerStats
     (fileserver.cpp 13-38), the file handler, the 404 handler; the state they work on is the list of calls made on the connection *)
  Definition file_child (k : nat) (q : Conn.request) (i : nat) (w : list op) : bool * list op :=
    match i with
    | 0%nat => (fst (logHandle unit O tt (mkLog unit [] [] [] LogCompleted)), w)
    | 1%nat => if beqb (q_path q) (lit "/_stats") then (true, w ++ [OpWriteResponse 200 [] (stats k)]) else (false, w)
    | 2%nat => let x := fileHandle dec digest (fst (disk k)) (snd (disk k)) pub bufsize (q_path q) (q_headers q) in (fst x, w ++ file_calls (snd x))
    | _ => let x := notFoundHandle dec (q_path q) in (fst x, w ++ snd x)
    end.
  Definition files_calls (k : nat) (q : Conn.request) : list op :=
    match stackHandle (list op) (fun _ _ => true) (fun _ => true) (file_child k q) [0; 1; 2; 3]%nat [] with Some (_, w) => w | None => [] end.
  (** as a handler in the sense of Serve.v *)
  Definition files : handler := fun rs =>
    match files_calls (length rs - 1) (last rs req0) with [OpWriteResponse code hs content] => mkGiven code hs content | _ => mkGiven 0 [] [] end.
End Files.
