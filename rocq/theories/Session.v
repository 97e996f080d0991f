(** SPECIFICATION for C83: HttpClient on one side, HttpConnection and a handler on the other, the network between them.
    From the specifications: ClientSpec.v (what a user of HttpClient does and sees), Serve.v (handlers, and servers that obey them), PropsClient3.v
    (clean requests, [Same]), PropsWire.v (clean answers).  *)
From Verif Require Import Bytes TextSpec ReqGrammar ByteHelpers Helpers Joyent RespParser RespSpec Client ClientSpec PropsClient3 Conn ConnSpec ConnInv PropsConn Serve PropsWire PropsWire2.
Open Scope Z_scope.

(** requests: clean ones that do not ask for the connection to be closed; HEAD requests if h answers them without content (the server would send it: C20) *)
Record good (h : handler) (r : creq) : Prop := mkGood {
  gd_clean : clean_request r; gd_small : small_head r;
  gd_head : head_method (cr_method r) = true -> forall qs q, Same r q -> g_content (h (qs ++ [q])) = [];
  gd_open : says (first_named "connection" (cr_headers r)) "close" = false }.
(** handlers: clean answers of reasonable size with a known status other than 100, without a Content-Length of their own, that do not close the connection *)
Definition friendly (h : handler) : Prop := forall qs q, q_version q = lit "HTTP/1.1" -> let g := h (qs ++ [q]) in
  clean_answer (ans_of g) /\ last_named "content-length" (g_headers g) = None /\ blen (g_content g) <= INT_MAX /\
  head_room q (g_headers g) <= RespSpec.max_head - 2 /\ g_code g <> 100 /\
  says (option_map snd (last_named "connection" (g_headers g))) "close" = false.

(** ** Both ends.  p_got: the bytes delivered to the client so far; those delivered to the server are [arrived]. *)
Record pair := mkPair { p_client : ccfg; p_server : cfg; p_got : bytes }.
(** on their way to the server: what the client wrote since it connected, without what arrived *)
Definition up_bytes (p : pair) : bytes :=
  match p_client p, p_server p with
  | CRun c _, Run s _ => skipn (length (Conn.arrived s)) (stream (c_log c))
  | _, _ => []
  end.
(** on their way to the client *)
Definition down_bytes (p : pair) : bytes :=
  match p_server p with Run s _ => skipn (length (p_got p)) (written (log s)) | UB _ _ => [] end.
Inductive jact :=
| JClient (a : caction)      (* something happens at the client's end *)
| JServer (a : action)       (* something happens at the server's end *)
| JUp (n : nat)              (* the network delivers up to n bytes to the server *)
| JDown (n : nat).           (* the network delivers up to n bytes to the client *)

Section Session.
  Variables (zlib : bool) (gunzip : list bytes -> bytes -> bytes) (parse_url : bytes -> url) (h : handler).
  Definition jstep (p : pair) (a : jact) : pair :=
    match a with
    | JClient a => mkPair (cstep zlib gunzip parse_url (p_client p) a) (p_server p) (p_got p)
    | JServer a => mkPair (p_client p) (step (p_server p) a) (p_got p)
    | JUp n => mkPair (p_client p) (step (p_server p) (AArrive (firstn n (up_bytes p)))) (p_got p)
    | JDown n => mkPair (cstep zlib gunzip parse_url (p_client p) (CaArrive (firstn n (down_bytes p)))) (p_server p)
                   (p_got p ++ firstn n (down_bytes p))
    end.
  Definition jrun (p : pair) (l : list jact) : pair := fold_left jstep l p.

  (** What may happen.  The client: while a request is under way see [receiving] of ClientSpec.v, and content is not
      consumed; after it, the slots of finished() return, then good requests to the same server, in time.  The server: polite, obeying h. *)
  Definition fair (p : pair) (a : jact) : Prop :=
    match a with
    | JClient a =>
        match p_client p with
        | CUB _ => False
        | CRun c stk =>
            match a with CaArrive _ | CaCall CoConsume => False | CaCall (CoRequest r) => wf_creq r | _ => True end /\
            if c_pending c then receiving a (p_client p)
            else a = CaReturn /\ stk <> [] \/
                 exists r, a = CaCall (CoRequest r) /\ stk = [] /\ good h r /\ c_dev c = DConnected /\
                   same_server (cr_url r) (cr_url (c_req c)) = true /\ (c_timeout c < 0 \/ c_late c = false)
        end
    | JServer a =>
        match p_server p with
        | UB _ _ => False
        | Run s sk => polite s sk a /\ obeys h s a /\ match a with AArrive _ => False | _ => True end
        end
    | JUp n => True
    | JDown n => firstn n (down_bytes p) <> []
    end.
  Fixpoint fair_run (p : pair) (l : list jact) {struct l} : Prop :=
    match l with [] => True | a :: t => fair p a /\ fair_run (jstep p a) t end.

  (** The headers of the answer g: those given (not the special ones), Content-Length, the last Content-Type given (text/plain if none was and there is
      content), the last Transfer-Encoding unless it is "chunked" *)
  Definition AnswerHeaders (g : given) (hs : list header) : Prop := exists d, Canonical 10 d (blen (g_content g)) /\
    hs = filter (fun x => negb (special x)) (g_headers g) ++ [(lit "Content-Length", d)]
      ++ match last_named "content-type" (g_headers g) with
         | Some x => [x]
         | None => if beqb (g_content g) [] then [] else [(lit "Content-Type", lit "text/plain")]
         end
      ++ match last_named "transfer-encoding" (g_headers g) with
         | Some x => if says (Some (snd x)) "chunked" then [] else [x]
         | None => []
         end.
  (** What the client reports of the answer g; b: the request is still under way.  The pieces xs are decoded if they are gzipped. *)
  Inductive Reports (g : given) : bool -> list cobs -> Prop :=
  | Rp_nothing : Reports g true []
  | Rp_some hs xs rest : AnswerHeaders g hs -> concat xs ++ rest = g_content g ->
      Reports g true (CHeaders (g_code g) hs :: map CContent (shown gunzip (zlib && gzipped hs) xs))
  | Rp_all hs xs : AnswerHeaders g hs -> concat xs = g_content g -> Forall (fun x => x <> []) xs ->
      let ps := shown gunzip (zlib && gzipped hs) xs in
      Reports g false (CHeaders (g_code g) hs :: map CContent ps ++ [CFinished NoError (g_code g) hs (concat ps)]).
  (** a session: the requests rs of the client, as the handler sees them (qs), and what the client reports since it wrote the first of them.  b: the last
      one is still under way *)
  Inductive Session : bool -> list creq -> list Conn.request -> list cobs -> Prop :=
  | Se_first b r q o : Same r q -> Reports (h [q]) b o -> Session b [r] [q] o
  | Se_next b rs qs l r q ws o : Session false rs qs l -> RequestText r (concat ws) -> Same r q -> Reports (h (qs ++ [q])) b o ->
      Session b (rs ++ [r]) (qs ++ [q]) (l ++ (CAccepted r :: map CWrite ws) ++ o).

  (** the start: a client that has connected and written its first request; a new connection at the server *)
  Record Opened (r : creq) (c : client) (s : conn) : Prop := mkOpened {
    op_client : exists l, calm_run (cstep zlib gunzip parse_url) cstart l /\ crun zlib gunzip parse_url cstart l = CRun c [];
    op_waits : Waits DConnected c; op_req : c_req c = r; op_good : good h r; op_text : RequestText r (stream (c_log c));
    op_server : reached s []; op_st : st s = ReceivingHeaders; op_log : log s = []; op_in : Conn.arrived s = [] }.
  Definition opened_pair (c : client) (s : conn) : pair := mkPair (CRun c []) (Run s []) [].
End Session.
