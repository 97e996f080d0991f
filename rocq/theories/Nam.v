(** MODEL of Pillow::NetworkReply and Pillow::NetworkAccessManager (/repo/pillowcore/HttpClient.cpp 746-970; HttpClient.h
    256-283) on top of the model of HttpClient (Client.v).

    Modelled: which client serves which reply, the pool, what a reply shows (status, headers, redirection target, content, error,
    its signals), abort().  The cookie jar and the requests that are made (887-959) are in NamJar.v.
    Not modelled: deletion of the clients whose authority is empty (966-967: they are left alone for ever).

    Each client has its own stack of running slots (Client.v).  Slots of different clients may be nested in each other;
    the model lets every client return from its slots at any time, which includes all nestings. *)
From Verif Require Import Bytes ByteHelpers Helpers Joyent RespParser Client.
From Verif Require Proxy.
Open Scope Z_scope.

(* 752-877.  RWorking: connected to its client.  RFailing: its slots of error() run: disconnected, _client still set (834-852).
   RDone: finished, _client is 0.  RGone: deleted by the user. *)
Inductive rphase := RWorking | RFailing | RDone | RGone.
(* QNetworkReply::NetworkError, the values used *)
Inductive qterror := QtUnknownNetworkError | QtProtocolUnknownError | QtRemoteHostClosedError | QtOperationCanceledError.
(* 838-847; not called for NoError *)
Definition qt_error (e : cerror) : qterror :=
  match e with
  | NoError | NetworkError => QtUnknownNetworkError
  | ResponseInvalidError => QtProtocolUnknownError
  | RemoteHostClosedError => QtRemoteHostClosedError
  | AbortedError => QtOperationCanceledError
  end.
(* the signals of a reply: metaDataChanged(), readyRead(), error(), finished() *)
Inductive rsignal := RsMeta | RsReady | RsError (e : qterror) | RsFinished.
(* np_auth: authority of its URL, np_req: the request passed on to the client (none for UnknownOperation), np_target: the
   RedirectionTargetAttribute (before QUrl::fromEncoded), np_sigs: the signals metaDataChanged() and readyRead() emitted,
   np_ends: the signals error() and finished() emitted (after the former) *)
Record nreply := mkRep { np_client : nat; np_auth : bytes; np_req : option creq; np_phase : rphase;
  np_status : Z; np_headers : list header; np_content : bytes; np_error : cerror; np_pos : Z;
  np_target : option bytes; np_sigs : list rsignal; np_ends : list rsignal }.
Definition new_reply (i : nat) (a : bytes) (r : option creq) : nreply := mkRep i a r RWorking 0 [] [] NoError 0 None [] [].
(* the clients in order of creation, the authority of each (_clientToUrlMap), the pool (_urlToClientsMap, a QMultiHash: of
   several values of a key the one inserted last is found first), the replies in order of creation *)
Record nam := mkNam { n_clients : list ccfg; n_auths : list bytes; n_pool : list (bytes * nat); n_replies : list nreply }.
Definition nam0 : nam := mkNam [] [] [] [].

Definition set_phase (f : rphase) (p : nreply) : nreply :=
  mkRep (np_client p) (np_auth p) (np_req p) f (np_status p) (np_headers p) (np_content p) (np_error p) (np_pos p) (np_target p) (np_sigs p) (np_ends p).
(* 852-854: the slots of error() returned *)
Definition failed_reply (p : nreply) : nreply :=
  mkRep (np_client p) (np_auth p) (np_req p) RDone (np_status p) (np_headers p) (np_content p) (np_error p) (np_pos p) (np_target p) (np_sigs p) (np_ends p ++ [RsFinished]).
Definition attached (i : nat) (p : nreply) : bool := Nat.eqb (np_client p) i && match np_phase p with RWorking => true | _ => false end.
(* a slot runs for every reply that is connected to client i.  Exact when there is at most one, as C54 shows for calm
   histories; with several, Qt would run them one after the other, with the user's slots in between. *)
Definition for_attached (i : nat) (f : nreply -> nreply) (l : list nreply) : list nreply := map (fun p => if attached i p then f p else p) l.

Definition client_log (g : ccfg) : list cobs := match g with CRun c _ => c_log c | CUB _ => [] end.
Definition client_content (g : ccfg) : bytes := match g with CRun c _ => r_content (c_p c) | CUB _ => [] end.
Fixpoint set_at {A} (i : nat) (x : A) (l : list A) : list A :=
  match l, i with [], _ => [] | _ :: t, O => x :: t | y :: t, S i => y :: set_at i x t end.
Definition auth_of (i : nat) (s : nam) : bytes := nth i (n_auths s) [].
(* QMultiHash::find, erase *)
Fixpoint take_pool (a : bytes) (l : list (bytes * nat)) : option (nat * list (bytes * nat)) :=
  match l with
  | [] => None
  | (b, i) :: t => if beqb a b then Some (i, t)
                   else match take_pool a t with Some (j, t') => Some (j, (b, i) :: t') | None => None end
  end.

(* QNetworkReply::error(): returns what setError() was given; the code only emits the signal of that name (849), so this is always
   NoError, here None *)
Definition error_code (p : nreply) : option qterror := None.

Section Nam.
  (* cook: of the values of the Set-Cookie headers, the value that QNetworkReply::setHeader(SetCookieHeader) gives to the raw
     header of that name; None if no cookie could be parsed from them *)
  Variables (zlib : bool) (gunzip : list bytes -> bytes -> bytes) (parse_url : bytes -> url) (cook : list bytes -> option bytes).
  Notation cstep := (cstep zlib gunzip parse_url).

  (* 784-823: client_headersCompleted, but for the cookie jar.  794-802: the loop; it has the raw headers, the target, the values for the cookies *)
  Definition meta1 (x : list header * option bytes * list bytes) (h : header) : list header * option bytes * list bytes :=
    let '(raw, target, cs) := x in
    let raw := Proxy.setRawHeader h raw in                                                                     (* 796 *)
    if asciiEqualsCI_lower (fst h) (lit "set-cookie") then (raw, target, cs ++ [snd h])                        (* 798-799 *)
    else if asciiEqualsCI_lower (fst h) (lit "location") then (raw, Some (snd h), cs)                          (* 800-801 *)
    else (raw, target, cs).
  Definition reply_headers (code : Z) (hs : list header) (p : nreply) : nreply :=
    let x := fold_left meta1 hs (np_headers p, np_target p, []) in
    let raw := match cook (snd x) with Some v => Proxy.setRawHeader (lit "Set-Cookie", v) (fst (fst x)) | None => fst (fst x) end in  (* 804-805 *)
    mkRep (np_client p) (np_auth p) (np_req p) (np_phase p) code raw (np_content p) (np_error p) (np_pos p) (snd (fst x)) (np_sigs p ++ [RsMeta]) (np_ends p).
  (* 825-830: client_contentReadyRead; b: consumeContent() *)
  Definition reply_content (b : bytes) (p : nreply) : nreply :=
    mkRep (np_client p) (np_auth p) (np_req p) (np_phase p) (np_status p) (np_headers p) (np_content p ++ b) (np_error p) (np_pos p) (np_target p) (np_sigs p ++ [RsReady]) (np_ends p).
  (* 832-855: client_finished, up to the user's slots *)
  Definition reply_finished (e : cerror) (p : nreply) : nreply :=
    mkRep (np_client p) (np_auth p) (np_req p) (match e with NoError => RDone | _ => RFailing end) (np_status p) (np_headers p) (np_content p) e (np_pos p)
      (np_target p) (np_sigs p) (np_ends p ++ match e with NoError => [RsFinished] | _ => [RsError (qt_error e)] end).

  (* the slots connected to a signal of client i.  finished(): the slot of the manager (961-970, connected in 908) was connected first *)
  Definition slots (i : nat) (s : nam) (o : cobs) : nam :=
    match o with
    | CHeaders code hs => mkNam (n_clients s) (n_auths s) (n_pool s) (for_attached i (reply_headers code hs) (n_replies s))
    | CContent _ =>
        if existsb (attached i) (n_replies s)
        then let g := nth i (n_clients s) (CUB AssertFailed) in
             mkNam (set_at i (cstep g (CaCall CoConsume)) (n_clients s)) (n_auths s) (n_pool s) (for_attached i (reply_content (client_content g)) (n_replies s))
        else s
    | CFinished e _ _ _ =>
        mkNam (n_clients s) (n_auths s)
          (match auth_of i s with [] => n_pool s | a => (a, i) :: n_pool s end)
          (for_attached i (reply_finished e) (n_replies s))
    | _ => s
    end.
  (* client i does a; the slots run *)
  Definition nclient (i : nat) (a : caction) (s : nam) : nam :=
    match nth_error (n_clients s) i with
    | None => s
    | Some g =>
        let g' := cstep g a in
        fold_left (slots i) (skipn (length (client_log g)) (client_log g'))
          (mkNam (set_at i g' (n_clients s)) (n_auths s) (n_pool s) (n_replies s))
    end.

  (* 895-909: the client for a request *)
  Definition pick (a : bytes) (s : nam) : nat * nam :=
    match take_pool a (n_pool s) with
    | Some (i, pool) => (i, mkNam (n_clients s) (n_auths s) pool (n_replies s))
    | None => (length (n_clients s), mkNam (n_clients s ++ [cstart]) (n_auths s ++ [a]) (n_pool s) (n_replies s))
    end.
  (* 887-959: createRequest.  r: the arguments of client->request(), with the Cookie header; none for UnknownOperation *)
  Definition createRequest (a : bytes) (r : option creq) (s : nam) : nam :=
    let '(i, s) := pick a s in
    let s := mkNam (n_clients s) (n_auths s) (n_pool s) (n_replies s ++ [new_reply i a r]) in
    match r with None => s | Some r => nclient i (CaCall (CoRequest r)) s end.

  (* 858-865: readData *)
  Definition readData (n : Z) (p : nreply) : option (bytes * nreply) :=
    if blen (np_content p) <=? np_pos p then None
    else let k := Z.min n (blen (np_content p) - np_pos p) in
         Some (firstn (Z.to_nat k) (skipn (Z.to_nat (np_pos p)) (np_content p)),
               mkRep (np_client p) (np_auth p) (np_req p) (np_phase p) (np_status p) (np_headers p) (np_content p) (np_error p) (np_pos p + k) (np_target p) (np_sigs p) (np_ends p)).

  Inductive nevent :=
  | NCreate (a : bytes) (r : option creq)    (* createRequest() for a URL of authority a *)
  | NEvent (i : nat) (a : caction)           (* an event of the socket of client i, or its running slots return *)
  | NAbort (j : nat)                         (* abort() of reply j *)
  | NRead (j : nat) (n : Z)                  (* reply j is read *)
  | NErrorReturn (j : nat)                   (* the slots of error() of reply j return *)
  | NDelete (j : nat).                       (* reply j is deleted (not from the slots of its error()) *)
  Definition upd_reply (j : nat) (f : nreply -> nreply) (s : nam) : nam :=
    match nth_error (n_replies s) j with
    | None => s
    | Some p => mkNam (n_clients s) (n_auths s) (n_pool s) (set_at j (f p) (n_replies s))
    end.
  Definition is_call (a : caction) : bool := match a with CaCall _ => true | _ => false end.
  Definition nstep (s : nam) (e : nevent) : nam :=
    match e with
    | NCreate a r => createRequest a r s
    | NEvent i a => if is_call a then s else nclient i a s        (* the clients are private *)
    | NAbort j =>                                                  (* 773-776 *)
        match nth_error (n_replies s) j with
        | Some p => match np_phase p with
                    | RWorking | RFailing => nclient (np_client p) (CaCall CoAbort) s
                    | _ => s
                    end
        | None => s
        end
    | NRead j n => upd_reply j (fun p => match readData n p with Some (_, p') => p' | None => p end) s
    | NErrorReturn j => upd_reply j (fun p => match np_phase p with RFailing => failed_reply p | _ => p end) s
    | NDelete j => upd_reply j (fun p => match np_phase p with RFailing => p | _ => set_phase RGone p end) s
    end.
  Definition nrun (s : nam) (l : list nevent) : nam := fold_left nstep l s.
End Nam.
