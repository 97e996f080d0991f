(** SPECIFICATION and model for C87: a server whose requests are answered by a HttpHandlerStack of a
    HttpHandlerSimpleRouter and a HttpHandler404.  The first part is the specification; it uses RouterSpec.v,
    PropsRouter.v (entries), PropsGetters.v (query parameters) and Serve.v (answers). *)
From Verif Require Import Bytes ByteHelpers Helpers Params TextSpec Router RouterSpec RouterProofs PropsRouter Handlers Conn ConnSpec Serve PropsGetters.
Open Scope Z_scope.

Section Site.
  (* utf8, fold, uword, toAscii, dec: Qt's conversions (Router.v, Handlers.v); ans: the answers of the user's handlers,
     by the number of the handler, the request and the values set with setRequestParam *)
  Variables (utf8 : bytes -> qstring) (fold : qstring -> qstring) (uword : Z -> bool) (toAscii : qstring -> bytes) (dec : bytes -> bytes).
  Variable ans : nat -> request -> list (qstring * qstring) -> given.
  Variables (R : router) (es : list entry).

  (** ** Specification *)
  (** the method that counts: the request's, or the parameter _method of the query, if the router is told to look at it *)
  Inductive Counted (r : request) : bytes -> Prop :=
  | Co_own : method_param R = false -> Counted r (q_method r)
  | Co_none ps : method_param R = true -> QueryParams utf8 (q_query r) ps -> (forall x, In x ps -> fold (fst x) <> fold (qlit "_method")) -> Counted r (q_method r)
  | Co_given pre n v post : method_param R = true -> QueryParams utf8 (q_query r) (pre ++ (n, v) :: post) -> fold n = fold (qlit "_method") ->
      (forall x, In x pre -> fold (fst x) <> fold (qlit "_method")) -> Counted r (match v with [] => q_method r | _ => toAscii v end).
  Definition path (r : request) : qstring := decoded utf8 (q_path r).
  (** what a route gives *)
  Inductive Gives (r : request) (sets : list (qstring * qstring)) : target -> given -> Prop :=
  | Gi_handler id : Gives r sets (THandler id true) (ans id r sets)
  | Gi_member id : Gives r sets (TMember id true true) (ans id r sets)
  | Gi_method id : Gives r sets (TMethod id true) (ans id r sets)
  | Gi_functor id : Gives r sets (TFunctor id) (ans id r sets)
  | Gi_static code hs content : Gives r sets (TStatic code hs content) (mkGiven code hs content).
  (** the values captured, under the names of the pattern (see C38 for patterns with "*name" before ":name") *)
  Definition Captured (e : entry) (p : qstring) (sets : list (qstring * qstring)) : Prop :=
    params_first (e_pattern e) -> exists vs, Denotes uword (e_pattern e) p vs /\ length vs = length (names (e_pattern e)) /\ sets = combine (names (e_pattern e)) vs.
  Definition not_found (r : request) : given :=
    mkGiven 404 [] (lit "The requested resource '" ++ dec (q_path r) ++ lit "' does not exist on this server").
  (** the answer a request gets: of the first route that matches its path and method; or else 405 with the methods of the routes
      that match the path; or 404; or that of the handler behind the router *)
  Inductive Prescribed (r : request) : given -> Prop :=
  | Pr_route pre e post m sets g : Counted r m -> es = pre ++ e :: post -> (forall e', In e' pre -> ~ serves uword e' m (path r)) ->
      serves uword e m (path r) -> Captured e (path r) sets -> Gives r sets (e_target e) g -> Prescribed r g
  | Pr_mismatch m f : Counted r m -> mismatch_4xx R = true -> (exists e, In e es /\ path_matches uword e (path r)) -> (forall e, In e es -> ~ serves uword e m (path r)) ->
      (forall e, In e es -> f e = true <-> path_matches uword e (path r)) -> Prescribed r (mkGiven 405 [(lit "Allow", comma_list (map e_method (filter f es)))] [])
  | Pr_unmatched : unmatched_4xx R = true -> (forall e, In e es -> ~ path_matches uword e (path r)) -> Prescribed r (mkGiven 404 [] [])
  | Pr_behind m : Counted r m -> (forall e, In e es -> ~ serves uword e m (path r)) ->
      ((exists e, In e es /\ path_matches uword e (path r)) -> mismatch_4xx R = false) -> ((forall e, In e es -> ~ path_matches uword e (path r)) -> unmatched_4xx R = false) ->
      Prescribed r (not_found r).

  (** ** Model *)
  (* HttpHandlerSimpleRouter.cpp 16-86, 248-283: the effects of the router as calls on the connection; user code answers with one
     writeResponse(), with what was set before; setRequestParam writes nothing *)
  Fixpoint perform (r : request) (sets : list (qstring * qstring)) (l : list effect) : list op :=
    match l with
    | [] => []
    | ESet n v :: t => perform r (sets ++ [(n, v)]) t
    | ECall id :: t => let g := ans id r sets in OpWriteResponse (g_code g) (g_headers g) (g_content g) :: perform r sets t
    | EWrite code hs content :: t => OpWriteResponse code hs content :: perform r sets t
    end.
  (* the children of the stack: 0 is the router (229-283; None never happens, see C36_method_total), 1 the 404 handler (HttpHandler.cpp 82-86);
     the state they work on is the list of calls made on the connection *)
  Definition site_child (r : request) (i : nat) (w : list op) : bool * list op :=
    match i with
    | O => match handleRequest utf8 fold uword toAscii R (q_method r) (q_path r) (mkPS (q_query r) []) with
           | Some (b, l) => (b, w ++ perform r [] l)
           | None => (false, w)
           end
    | _ => let x := notFoundHandle dec (q_path r) in (fst x, w ++ snd x)
    end.
  (* HttpHandler.cpp 31-42, connected to requestReady: HttpServer.cpp / main of the examples *)
  Definition site_calls (r : request) : list op :=
    match stackHandle (list op) (fun _ _ => true) (fun _ => true) (site_child r) [0; 1]%nat [] with Some (_, w) => w | None => [] end.
  (** as a handler in the sense of Serve.v *)
  Definition site : handler := fun rs =>
    match site_calls (last rs req0) with [OpWriteResponse code hs content] => mkGiven code hs content | _ => mkGiven 0 [] [] end.
End Site.
