(** MODEL of the rest of Pillow::NetworkAccessManager::createRequest and of NetworkReply::client_headersCompleted
    (/repo/pillowcore/HttpClient.cpp 784-823, 887-959): the requests that are made for the operations of a
    QNetworkAccessManager, and the cookie jar.  On top of Nam.v.

    The cookie jar (a QNetworkCookieJar, which a user may replace by his own) and QNetworkCookie are parameters: the jar is
    only changed by setCookiesFromUrl() and only asked by cookiesForUrl().  The manager may have no jar (setCookieJar(0)).
    manager() of a reply is set when createRequest() returns (QNetworkAccessManagerPrivate::postProcess), before any response. *)
From Verif Require Import Bytes ByteHelpers Helpers Joyent RespParser Client Nam.
From Verif Require Proxy.
Open Scope Z_scope.

(* QUrl: scheme(), authority(), and the parts that are used by HttpClient *)
Record qurl := mkQ { qu_scheme : bytes; qu_authority : bytes; qu_url : url }.
(* 816-817: url.setPath("/") *)
Definition at_root (u : qurl) : qurl := mkQ (qu_scheme u) (qu_authority u) (mkUrl (u_host (qu_url u)) (u_port (qu_url u)) (lit "/") (u_query (qu_url u))).
Inductive operation := OpHead | OpGet | OpPut | OpPost | OpDelete | OpCustom | OpUnknown.

Section Jar.
  (* parse: QNetworkCookie::parseCookies; name_value: toRawForm(NameAndValueOnly); full: the raw value of the header for
     setHeader(SetCookieHeader); set_cookies, cookies_for: setCookiesFromUrl() and cookiesForUrl() of the jar *)
  Variables (jar cookie : Type) (parse : bytes -> list cookie) (name_value : cookie -> bytes) (full : list cookie -> bytes)
    (set_cookies : list cookie -> qurl -> jar -> jar) (cookies_for : qurl -> jar -> list cookie).
  Variables (zlib : bool) (gunzip : list bytes -> bytes -> bytes) (parse_url : bytes -> url).
  (* 798-799, 804-805 *)
  Definition cook_with (vs : list bytes) : option bytes := match flat_map parse vs with [] => None | cs => Some (full cs) end.
  Notation cstep := (cstep zlib gunzip parse_url).
  Notation slots := (slots zlib gunzip parse_url cook_with).
  Notation nstep := (nstep zlib gunzip parse_url cook_with).

  (* j_jar: cookieJar(), j_urls: request().url() of each reply *)
  Record jnam := mkJ { j_nam : nam; j_jar : option jar; j_urls : list qurl }.

  (* 915-932: the headers of the request.  raw: the raw headers of the QNetworkRequest, in the order of rawHeaderList() *)
  Definition cookie_value (cs : list cookie) : bytes :=                                          (* 924-929 *)
    fst (fold_left (fun x c => let '(b, i) := x in ((if 0 <? i then b ++ lit "; " else b) ++ name_value c, i + 1)) cs ([], 0)).
  Definition request_headers (u : qurl) (raw : list header) (j : option jar) : list header :=
    match j with
    | None => raw
    | Some j => let v := cookie_value (cookies_for u j) in
                match v with [] => raw | _ => raw ++ [(lit "Cookie", v)] end                     (* 930-931 *)
    end.
  (* 934-956; out: what outgoingData->readAll() returns, None if there is no device; verb: the CustomVerbAttribute *)
  Definition read_all (out : option bytes) : bytes := match out with Some b => b | None => [] end.
  Definition make_request (op : operation) (verb : bytes) (u : qurl) (hs : list header) (out : option bytes) : option creq :=
    match op with
    | OpHead => Some (mkCR (lit "HEAD") (qu_url u) hs [])
    | OpGet => Some (mkCR (lit "GET") (qu_url u) hs [])
    | OpPut => Some (mkCR (lit "PUT") (qu_url u) hs (read_all out))
    | OpPost => Some (mkCR (lit "POST") (qu_url u) hs (read_all out))
    | OpDelete => Some (mkCR (lit "DELETE") (qu_url u) hs [])
    | OpCustom => Some (mkCR verb (qu_url u) hs (read_all out))
    | OpUnknown => None
    end.

  (* 784-823, for the reply p to a request of URL u: 814-819 *)
  Definition store (hs : list header) (p : nreply) (u : qurl) (j : option jar) : option jar :=
    match j with
    | None => None
    | Some j => Some (set_cookies (flat_map parse (snd (fold_left meta1 hs (np_headers p, np_target p, [])))) (at_root u) j)
    end.
  Definition jslots (i : nat) (s : jnam) (o : cobs) : jnam :=
    match o with
    | CHeaders code hs =>
        mkJ (slots i (j_nam s) o)
            (fold_left (fun j (x : nreply * qurl) => if attached i (fst x) then store hs (fst x) (snd x) j else j) (combine (n_replies (j_nam s)) (j_urls s)) (j_jar s))
            (j_urls s)
    | _ => mkJ (slots i (j_nam s) o) (j_jar s) (j_urls s)
    end.
  (* as nclient (Nam.v) *)
  Definition jclient (i : nat) (a : caction) (s : jnam) : jnam :=
    match nth_error (n_clients (j_nam s)) i with
    | None => s
    | Some g =>
        let g' := cstep g a in
        fold_left (jslots i) (skipn (length (client_log g)) (client_log g'))
          (mkJ (mkNam (set_at i g' (n_clients (j_nam s))) (n_auths (j_nam s)) (n_pool (j_nam s)) (n_replies (j_nam s))) (j_jar s) (j_urls s))
    end.
  (* 887-959 *)
  Definition http_scheme (u : qurl) : bool := beqb (lower (qu_scheme u)) (lit "http").            (* 889 *)
  Definition jcreate (op : operation) (verb : bytes) (u : qurl) (raw : list header) (out : option bytes) (s : jnam) : jnam :=
    if negb (http_scheme u) then s                                                                (* 892: the base class *)
    else
      let '(i, n) := pick (qu_authority u) (j_nam s) in
      let r := make_request op verb u (request_headers u raw (j_jar s)) out in
      let s := mkJ (mkNam (n_clients n) (n_auths n) (n_pool n) (n_replies n ++ [new_reply i (qu_authority u) r])) (j_jar s) (j_urls s ++ [u]) in
      match r with None => s | Some r => jclient i (CaCall (CoRequest r)) s end.

  Inductive jevent :=
  | JCreate (op : operation) (verb : bytes) (u : qurl) (raw : list header) (out : option bytes)   (* createRequest() *)
  | JEvent (e : nevent).                                                                          (* any other event of Nam.v *)
  Definition jstep (s : jnam) (e : jevent) : jnam :=
    match e with
    | JCreate op verb u raw out => jcreate op verb u raw out s
    | JEvent (NCreate _ _) => s
    | JEvent (NEvent i a) => if is_call a then s else jclient i a s
    | JEvent (NAbort j) =>
        match nth_error (n_replies (j_nam s)) j with
        | Some p => match np_phase p with
                    | RWorking | RFailing => jclient (np_client p) (CaCall CoAbort) s
                    | _ => s
                    end
        | None => s
        end
    | JEvent e => mkJ (nstep (j_nam s) e) (j_jar s) (j_urls s)
    end.
  Definition jrun (s : jnam) (l : list jevent) : jnam := fold_left jstep l s.
  Definition jstart (j : option jar) : jnam := mkJ nam0 j [].
End Jar.
Arguments mkJ {jar}. Arguments j_nam {jar}. Arguments j_jar {jar}. Arguments j_urls {jar}. Arguments jstart {jar}.
