(** Model of the getters of HttpConnection that compute and cache: requestUriDecoded(), requestFragmentDecoded(),
    requestPathDecoded(), requestQueryStringDecoded() (HttpConnection.cpp 60-67, 797-800), requestParams(),
    requestParamValue(), setRequestParam() (732-785), with the places where the caches are emptied: the decoded
    texts at requestReady (282-285), the parameters when a request completes (340-341) and in initialize()
    (148-149). *)
From Verif Require Import Bytes ByteHelpers Thin Helpers ReqGrammar TextSpec Conn Params ConnSpec ConnPhase ConnLive.
Open Scope Z_scope.

Inductive dfield := FUri | FFragment | FPath | FQuery.
(* _requestUri, _requestFragment, _requestPath, _requestQueryString *)
Definition raw (f : dfield) (q : request) : bytes :=
  match f with FUri => q_uri q | FFragment => q_fragment q | FPath => q_path q | FQuery => q_query q end.
Definition dfield_eqb (f g : dfield) : bool :=
  match f, g with FUri, FUri | FFragment, FFragment | FPath, FPath | FQuery, FQuery => true | _, _ => false end.

(* _requestParams and the four _request...Decoded members *)
Record caches := mkCa { k_params : list param; k_dec : dfield -> qstring }.
Definition no_caches : caches := mkCa [] (fun _ => []).
Definition set_dec (f : dfield) (d : qstring) (ca : caches) : caches :=
  mkCa (k_params ca) (fun g => if dfield_eqb f g then d else k_dec ca g).
Definition set_params (ps : list param) (ca : caches) : caches := mkCa ps (k_dec ca).

Section Qt.
  Variable utf8 : bytes -> qstring.
  Variable fold : qstring -> qstring.

  (* 60-63: fieldNameDecoded(), when the raw getters show q; None: the decoding loop left its buffer *)
  Definition decodedGetter (f : dfield) (q : request) (ca : caches) : option (qstring * caches) :=
    match k_dec ca f, raw f q with
    | [], _ :: _ => match percentDecode utf8 (raw f q) with
                    | Some d => Some (d, set_dec f d ca)
                    | None => None
                    end
    | d, _ => Some (d, ca)
    end.
  (* 732-758: requestParams() *)
  Definition paramsGetter (q : request) (ca : caches) : option (list param * caches) :=
    match requestParams utf8 (mkPS (q_query q) (k_params ca)) with
    | Some (s, ps) => Some (ps, set_params (p_params s) ca)
    | None => None
    end.
  (* 760-770: requestParamValue() *)
  Definition paramValueGetter (q : request) (name : qstring) (ca : caches) : option (qstring * caches) :=
    match requestParamValue utf8 fold (mkPS (q_query q) (k_params ca)) name with
    | Some (s, v) => Some (v, set_params (p_params s) ca)
    | None => None
    end.
  (* 772-785: setRequestParam() *)
  Definition paramSetter (q : request) (name value : qstring) (ca : caches) : option caches :=
    match setRequestParam utf8 fold (mkPS (q_query q) (k_params ca)) name value with
    | Some s => Some (set_params (p_params s) ca)
    | None => None
    end.

  (* What user code and the event loop do.  Getters may be called at any moment; while no request is being
     answered the raw getters show left-over memory, so each call comes with some arbitrary request [stale] that
     is shown in that case. *)
  Inductive gact :=
  | GAct (a : action)
  | GDecoded (f : dfield) (stale : request)
  | GParams (stale : request)
  | GValue (name : qstring) (stale : request)
  | GSet (name value : qstring) (stale : request).

  Definition answeringb (c : conn) (stk : list frame) : bool :=
    cst_eqb (st c) SendingHeaders || cst_eqb (st c) SendingContent
    || existsb (fun f => match f with KSig SCompleted => true | _ => false end) stk.
  Definition seen (c : conn) (stk : list frame) (stale : request) : request :=
    if answeringb c stk then live c else stale.

  (* 148-149, 340-341: initialize() and the end of transitionToCompleted() empty the parameters; 282-285:
     transitionToSendingHeaders(), which emits requestReady, empties the decoded texts *)
  Definition touched (c : conn) (stk : list frame) (a : action) (c' : conn) (ca : caches) : caches :=
    let ps := if is_init a || releases stk a then [] else k_params ca in
    if (length (announced (log c)) <? length (announced (log c')))%nat
    then mkCa ps (fun _ => []) else mkCa ps (k_dec ca).

  Inductive gcfg := GRun (c : conn) (stk : list frame) (ca : caches) | GBad.
  Definition gstep (g : gcfg) (a : gact) : gcfg :=
    match g with
    | GBad => GBad
    | GRun c stk ca =>
        match a with
        | GAct a => match step (Run c stk) a with
                    | Run c' stk' => GRun c' stk' (touched c stk a c' ca)
                    | UB _ _ => GBad
                    end
        | GDecoded f x => match decodedGetter f (seen c stk x) ca with Some (_, ca') => GRun c stk ca' | None => GBad end
        | GParams x => match paramsGetter (seen c stk x) ca with Some (_, ca') => GRun c stk ca' | None => GBad end
        | GValue n x => match paramValueGetter (seen c stk x) n ca with Some (_, ca') => GRun c stk ca' | None => GBad end
        | GSet n v x => match paramSetter (seen c stk x) n v ca with Some ca' => GRun c stk ca' | None => GBad end
        end
    end.
  Definition grun (g : gcfg) (l : list gact) : gcfg := fold_left gstep l g.
  Definition gstart : gcfg := GRun conn0 [] no_caches.
End Qt.
