(** Model of HttpRequestWriter as a class of its own (HttpClient.h 41-59, HttpClient.cpp 102-187): the device, the buffer
    _builder with its memory (HeadBuf.v), and what every device is given to write. *)
From Verif Require Import Bytes ByteHelpers Helpers HeadBuf.
Open Scope Z_scope.

Section Memory.
  Variable junk : bytes -> Z -> bytes.   (* contents of fresh memory; as in HeadBuf *)
  Variable more : Z -> Z.                (* qAllocMore *)
  (* the fields of the QByteArrays that are appended: bytes allocated, made from raw data *)
  Variable salloc : bytes -> Z.
  Variable sraw : bytes -> bool.

  (* QByteArray::append(const QByteArray &), QByteArray::append(char), appendNumber<int, 10> *)
  Inductive wop := WBytes (s : bytes) | WChar (c : ascii) | WNumber (d : bytes).
  Definition do_wop (o : wop) (b : ba) : option ba :=
    match o with
    | WBytes s => q_append_ba junk more (salloc s) (sraw s) s b
    | WChar c => q_append_char junk more c b
    | WNumber d => append_number junk more d b
    end.
  Fixpoint do_wops (l : list wop) (b : ba) : option ba :=
    match l with [] => Some b | o :: l => bind (do_wop o b) (do_wops l) end.
  (* 144-156; None: appendNumber of a number that has no text *)
  Definition request_ops (method path : bytes) (hs : list header) (data : bytes) : option (list wop) :=
    match (match data with                                                                       (* 149-154 *)
           | [] => Some []
           | _ => option_map (fun d => [WBytes (lit "Content-Length: "); WNumber d; WBytes CRLF]) (appendNumber 10 (to_int (blen data)))
           end) with
    | None => None
    | Some len => Some ([WBytes method; WChar SP; WBytes path; WBytes (lit " HTTP/1.1" ++ CRLF)]   (* 144 *)
        ++ flat_map (fun h => [WBytes (fst h); WBytes (lit ": "); WBytes (snd h); WBytes CRLF]) hs   (* 146-147 *)
        ++ len ++ [WBytes CRLF])
    end.
  (* 176-179 *)
  Definition finish (b : ba) : ba := if 16384 <? b_size b then null_ba else set_size 0 b.
  (* 141-179: the arguments of the calls of _device->write(), and _builder afterwards *)
  Definition write_request (method path : bytes) (hs : list header) (data : bytes) (b : ba) : option (list bytes * ba) :=
    bind (if b_alloc b <? 8192 then reserve junk 8192 b else Some b) (fun b =>
    bind (request_ops method path hs data) (fun l =>
    bind (do_wops l b) (fun b =>
    match data with
    | [] => Some ([text b], finish b)                                                            (* 158-161 *)
    | _ => if blen data <? 4096
           then bind (do_wop (WBytes data) b) (fun b => Some ([text b], finish b))               (* 164-168 *)
           else Some ([text b; data], finish b)                                                  (* 171-172 *)
    end))).

  (** ** The class *)
  Inductive wact :=
  | WDevice (d : option nat)                                          (* setDevice(); None: null *)
  | WGet (path : bytes) (hs : list header)
  | WHead (path : bytes) (hs : list header)
  | WPost (path : bytes) (hs : list header) (data : bytes)
  | WPut (path : bytes) (hs : list header) (data : bytes)
  | WDelete (path : bytes) (hs : list header)
  | WWrite (method path : bytes) (hs : list header) (data : bytes).
  (* wr_out: the calls of write() of all devices, in order *)
  Record writer := mkWr { wr_dev : option nat; wr_buf : ba; wr_out : list (nat * bytes) }.
  Definition writer0 : writer := mkWr None null_ba [].
  (* 133-180 *)
  Definition w_write (method path : bytes) (hs : list header) (data : bytes) (w : writer) : option writer :=
    match wr_dev w with
    | None => Some w                                                                             (* 135-139 *)
    | Some d => bind (write_request method path hs data (wr_buf w)) (fun x =>
                Some (mkWr (wr_dev w) (snd x) (wr_out w ++ map (fun b => (d, b)) (fst x))))
    end.
  Definition wstep (w : writer) (a : wact) : option writer :=
    match a with
    | WDevice d => Some (mkWr d (wr_buf w) (wr_out w))                                           (* 183-187 *)
    | WGet path hs => w_write (lit "GET") path hs [] w                                           (* 108-111 *)
    | WHead path hs => w_write (lit "HEAD") path hs [] w
    | WPost path hs data => w_write (lit "POST") path hs data w
    | WPut path hs data => w_write (lit "PUT") path hs data w
    | WDelete path hs => w_write (lit "DELETE") path hs [] w
    | WWrite method path hs data => w_write method path hs data w
    end.
  Fixpoint wrun (w : writer) (l : list wact) : option writer :=
    match l with [] => Some w | a :: l => bind (wstep w a) (fun w => wrun w l) end.
End Memory.
(* what device d was given, all in one *)
Definition given (d : nat) (w : writer) : bytes := concat (map snd (filter (fun x => (fst x =? d)%nat) (wr_out w))).
