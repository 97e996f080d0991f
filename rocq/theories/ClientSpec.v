(** SPECIFICATION of what a user of HttpClient sees.  Taken from the model: the record types [url] and [creq] (the
    arguments of request()), the events [cobs], [cerror]. *)
From Verif Require Import Bytes TextSpec Joyent RespParser Client.
Open Scope Z_scope.

(** ** The text of a request *)
Definition header_line (h : bytes * bytes) : bytes := fst h ++ lit ": " ++ snd h ++ CRLF.
(** host, and the port unless it is 80 *)
Inductive HostText (u : url) : bytes -> Prop :=
| HT_default : u_port u = -1 \/ u_port u = 80 -> HostText u (u_host u)
| HT_port d : u_port u <> -1 -> u_port u <> 80 -> Canonical 10 d (u_port u) -> HostText u (u_host u ++ lit ":" ++ d).
Inductive RequestHead (r : creq) : bytes -> Prop :=
| RqHead host d : HostText (cr_url r) host -> Canonical 10 d (blen (cr_data r)) ->
    RequestHead r
      (cr_method r ++ lit " " ++ u_path (cr_url r)
       ++ (if beqb (u_query (cr_url r)) [] then [] else lit "?" ++ u_query (cr_url r)) ++ lit " HTTP/1.1" ++ CRLF
       ++ concat (map header_line ((lit "Host", host) :: cr_headers r))
       ++ (if beqb (cr_data r) [] then [] else header_line (lit "Content-Length", d))
       ++ CRLF).
Definition RequestText (r : creq) (b : bytes) : Prop := exists h, RequestHead r h /\ b = h ++ cr_data r.

(** ** The dialog: [Dialog l s]: the events l are in order, and s is where the client stands after them *)
Inductive stand :=
| Idle (kept : option creq)   (* no request is under way; the one kept for later *)
| Taken (r : creq)            (* r is under way: nothing was done for it so far *)
| Calling (r : creq)          (* r is under way: a connection was asked for *)
| Sent (r : creq).            (* r is under way: its text was written *)
Definition under_way (s : stand) : option creq :=
  match s with Idle _ => None | Taken r | Calling r | Sent r => Some r end.

(** the server of a URL, and the one the latest connection was asked for *)
Definition server (u : url) : bytes * Z := (u_host u, if u_port u =? -1 then 80 else u_port u).
Definition peer (l : list cobs) : option (bytes * Z) :=
  fold_left (fun p o => match o with CConnect h q => Some (h, q) | _ => p end) l None.

Inductive Dialog : list cobs -> stand -> Prop :=
| Dg_new : Dialog [] (Idle None)
| Dg_accepted l k r : Dialog l (Idle k) -> k = None \/ k = Some r -> Dialog (l ++ [CAccepted r]) (Taken r)
| Dg_kept l k r : Dialog l (Idle k) -> Dialog (l ++ [CKept r]) (Idle (if beqb (cr_method r) [] then None else Some r))
| Dg_ignored l s r r' : Dialog l s -> under_way s = Some r -> Dialog (l ++ [CIgnored r']) s
| Dg_connect l r : Dialog l (Taken r) ->
    Dialog (l ++ [CConnect (u_host (cr_url r)) (if u_port (cr_url r) =? -1 then 80 else u_port (cr_url r))]) (Calling r)
| Dg_write l s r ws : Dialog l s -> s = Taken r \/ s = Calling r -> RequestText r (concat ws) ->
    peer l = Some (server (cr_url r)) ->                     (* only ever on a connection to its own server *)
    Dialog (l ++ map CWrite ws) (Sent r)
| Dg_headers l s r code hs : Dialog l s -> under_way s = Some r -> code <> 100 -> Dialog (l ++ [CHeaders code hs]) s
| Dg_content l s r b : Dialog l s -> under_way s = Some r -> Dialog (l ++ [CContent b]) s
| Dg_finished l s r e code hs b : Dialog l s -> under_way s = Some r -> Dialog (l ++ [CFinished e code hs b]) (Idle None).

(** ** Well-behaved users and environments *)
Definition wf_url (u : url) : Prop := -1 <= u_port u <= 65535.
Definition wf_creq (r : creq) : Prop := wf_url (cr_url r) /\ blen (cr_data r) <= 2147483647.
Definition head_method (m : bytes) : bool := beqb (lower m) (lit "head").

(** the slots of s run *)
Definition inside (s : csignal) (stk : list cframe) : Prop := In (KcSig s) stk.
(** While a request is under way: the slots of headersCompleted() and of contentReadyRead() run no event loop that
    delivers events of the socket, and those of headersCompleted() do not abort a HEAD request. *)
Definition calm (a : caction) (g : ccfg) : Prop :=
  match g with
  | CUB _ => True
  | CRun c stk =>
      match a with
      | CaReadyRead | CaError _ _ => c_pending c = true -> ~ inside SgHeaders stk /\ ~ inside SgContent stk
      | CaCall CoAbort => c_pending c = true -> head_method (cr_method (c_req c)) = true -> ~ inside SgHeaders stk
      | CaCall (CoRequest r) => wf_creq r
      | _ => True
      end
  end.
Fixpoint calm_run (step : ccfg -> caction -> ccfg) (g : ccfg) (l : list caction) : Prop :=
  match l with [] => True | a :: t => calm a g /\ calm_run step (step g a) t end.

(** ** A response as the user sees it *)
(** what counts: not the calls of request() that were refused *)
Definition said (o : cobs) : bool := match o with CIgnored _ => false | _ => true end.
(** the pieces of content shown for the received pieces xs; [gunzip fed b]: what a decoder that was fed these pieces gives for b *)
Fixpoint unzipped (gunzip : list bytes -> bytes -> bytes) (fed xs : list bytes) : list bytes :=
  match xs with [] => [] | b :: t => gunzip fed b :: unzipped gunzip (fed ++ [b]) t end.
Definition shown (gunzip : list bytes -> bytes -> bytes) (gz : bool) (xs : list bytes) : list bytes :=
  if gz then unzipped gunzip [] xs else xs.
(** Content-Encoding: gzip *)
Definition gzipped (hs : list (bytes * bytes)) : bool :=
  existsb (fun h => beqb (lower (fst h)) (lit "content-encoding") && beqb (lower (snd h)) (lit "gzip")) hs.

(** While a response is received: no abort(), no error of the socket; readyRead() is not delivered inside of a slot.
    It ends when the request is not under way any more. *)
Definition receiving (a : caction) (g : ccfg) : Prop :=
  match g with
  | CUB _ => False
  | CRun c stk => c_pending c = true /\
      match a with CaCall CoAbort | CaError _ _ => False | CaReadyRead => stk = [] | _ => True end
  end.
Fixpoint receiving_run (step : ccfg -> caction -> ccfg) (g : ccfg) (l : list caction) : Prop :=
  match l with [] => True | a :: t => receiving a g /\ receiving_run step (step g a) t end.
Definition arrived (l : list caction) : bytes := concat (map (fun a => match a with CaArrive b => b | _ => [] end) l).
Definition consumes (l : list caction) : bool := existsb (fun a => match a with CaCall CoConsume => true | _ => false end) l.

(** A client that waits for the response to its request, nothing of which came in yet; d: the state of its socket.
    PropsClient2.v shows how a client gets there. *)
Record Waits (d : dstate) (c : client) : Prop := mkWaits {
  wa_pending : c_pending c = true; wa_dev : c_dev c = d; wa_error : c_error c = NoError; wa_next : c_next c = None; wa_in : c_in c = [];
  wa_parser : c_p c = mkRP hinit [] [] (r_lwv (c_p c)) false [] [] (r_log (c_p c)); wa_dec : c_dec c = None }.
(** no request is under way, the last one was not given up in the middle of its response *)
Record AtRest (c : client) : Prop := mkRest {
  ar_pending : c_pending c = false; ar_parsing : r_parsing (c_p c) = false;
  ar_field : r_field (c_p c) = []; ar_value : r_value (c_p c) = []; ar_dec : c_dec c = None }.
