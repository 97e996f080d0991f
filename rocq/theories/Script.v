(** Model of /repo/pillowcore/HttpHandlerQtScript.cpp: the handlers written in Qt Script.
    The interpreter is a parameter: its values, what they are as functions, errors, booleans and texts, and what a
    function does when called (any actions on the connection, in any order, then a value returned or thrown).  QStrings are modelled by their UTF-8 bytes, QString(bytes) by an
    arbitrary [dec], as in Handlers.v.
    Simplifications: qDebug and qWarning; QScriptValue::strictlyEquals is equality; a file name with '%' in it is not
    mangled by QString::arg in the texts of the 500 answers (these texts are a parameter). *)
From Verif Require Import Bytes ByteHelpers Helpers Conn Router.
Open Scope Z_scope.

Section Script.
  (* QScriptValue; isFunction(), isError(), toBool(); toString() and the properties, as objectToString prints them *)
  Variables (Val : Type) (isFunction isError toBool : Val -> bool) (str : Val -> bytes) (props : Val -> list (bytes * bytes)).
  (* QString::fromUtf8 / QString(const char* ) ; QUrl(...).queryItems() of a request's uri *)
  Variables (dec : bytes -> bytes) (items : bytes -> list (bytes * bytes)).

  (* QUrl::fromPercentEncoding *)
  Definition fromPercent (b : bytes) : bytes := dec (qt_percent b).
  (* QScriptValue::setProperty on a plain object: a property that exists gets the new value *)
  Fixpoint setProperty (k v : bytes) (o : list (bytes * bytes)) {struct o} : list (bytes * bytes) :=
    match o with
    | [] => [(k, v)]
    | (k', v') :: t => if beqb k' k then (k, v) :: t else (k', v') :: setProperty k v t
    end.
  (* 10-18: toScriptValue(HttpHeaderCollection) *)
  Definition headersObject (hs : list header) : list (bytes * bytes) :=
    fold_left (fun o h => setProperty (dec (fst h)) (fromPercent (snd h)) o) hs [].
  (* 91-95 *)
  Definition paramsObject (uri : bytes) : list (bytes * bytes) :=
    fold_left (fun o p => setProperty (fst p) (snd p) o) (items uri) [].
  (* 39-48: objectToString *)
  Definition objectToString (v : Val) : bytes :=
    str v ++ [LF] ++ concat (map (fun p => fst p ++ lit ": " ++ snd p ++ [LF]) (props v)).

  (* 80-95: the object given to the script *)
  Record robject := mkObj {
    o_method : bytes; o_uri : bytes; o_fragment : bytes; o_path : bytes; o_query : bytes;
    o_headers : list (bytes * bytes); o_content : bytes; o_params : list (bytes * bytes) }.
  Definition requestObject (r : request) : robject :=
    mkObj (fromPercent (q_method r)) (fromPercent (q_uri r)) (fromPercent (q_fragment r)) (fromPercent (q_path r))
          (fromPercent (q_query r)) (headersObject (q_headers r)) (fromPercent (q_content r)) (paramsObject (q_uri r)).

  (* what a call of a script function does: actions on the connection, and how it ends; QScriptValue::call gives the
     value in both cases *)
  Inductive ending := Returns (v : Val) | Throws (v : Val).
  Definition result (e : ending) : Val := match e with Returns v | Throws v => v end.
  Definition script := Val -> robject -> list action * ending.

  (* 97-110: after the call *)
  Definition scriptEnd (v : Val) (g : cfg) : bool * cfg :=
    if isError v
    then (true, match g with
                | Run c _ => if cst_eqb (st c) SendingHeaders then step g (ACall (OpWriteResponse 500 [] (objectToString v))) else g
                | UB _ _ => g
                end)
    else (toBool v, g).
  (* 75-110: HttpHandlerQtScript::handleRequest *)
  Definition scriptHandle (sc : script) (f : Val) (g : cfg) : bool * cfg :=
    if negb (isFunction f) then (false, g)
    else match g with
         | Run c _ => let '(l, e) := sc f (requestObject (req c)) in scriptEnd (result e) (run g l)
         | UB _ _ => (false, g)
         end.

  (** ** HttpHandlerQtScriptFile *)
  (* _fileName, _functionName, _autoReload, _lastModified (None: invalid), _scriptFunction *)
  Record sfile := mkSF { sf_name : bytes; sf_fun : bytes; sf_auto : bool; sf_mod : option Z; sf_function : Val }.
  (* the world during one call of handleRequest: QFileInfo::lastModified() when it is checked, what reading the file
     gives, what evaluating a text gives (an error, or an object with properties), lastModified() after that *)
  Record moment := mkM { m_check : bytes -> option Z; m_read : bytes -> option bytes;
                         m_eval : bytes -> Val + (bytes -> Val); m_after : bytes -> option Z }.
  Inductive loaderror := CannotRead | EvalError (v : Val) | NotAFunction.
  Variable message : loaderror -> bytes -> bytes.        (* the texts of 154, 168, 175 *)

  (* 116-123, 125-144: constructor and setters; the comparisons with the current values change nothing *)
  Definition newScriptFile (name fn : bytes) (auto : bool) (undefined : Val) : sfile := mkSF name fn auto None undefined.
  Definition setFileName (n : bytes) (s : sfile) : sfile := mkSF n (sf_fun s) (sf_auto s) (sf_mod s) (sf_function s).
  Definition setFunctionName (n : bytes) (s : sfile) : sfile := mkSF (sf_name s) n (sf_auto s) (sf_mod s) (sf_function s).
  Definition setAutoReload (b : bool) (s : sfile) : sfile := mkSF (sf_name s) (sf_fun s) b (sf_mod s) (sf_function s).

  (* 148: an invalid date is before all others *)
  Definition mustLoad (m : moment) (s : sfile) : bool :=
    match sf_mod s with
    | None => true
    | Some t => sf_auto s && match m_check m (sf_name s) with Some t' => t <? t' | None => false end
    end.
  (* 151-181 *)
  Definition load (m : moment) (s : sfile) : sfile * option loaderror :=
    match m_read m (sf_name s) with
    | None => (s, Some CannotRead)
    | Some text =>
        match m_eval m text with
        | inl v => (s, Some (EvalError v))
        | inr o => let f := o (sf_fun s) in
                   if negb (isFunction f) then (s, Some NotAFunction)
                   else (mkSF (sf_name s) (sf_fun s) (sf_auto s) (m_after m (sf_name s)) f, None)
        end
    end.
  Definition refresh (m : moment) (s : sfile) : sfile * option loaderror := if mustLoad m s then load m s else (s, None).
  (* 146-184: handleRequest *)
  Definition fileScriptHandle (sc : script) (m : moment) (s : sfile) (g : cfg) : bool * cfg * sfile :=
    match refresh m s with
    | (s', Some e) => (true, step g (ACall (OpWriteResponse 500 [] (message e (sf_name s)))), s')
    | (s', None) => let '(b, g') := scriptHandle sc (sf_function s') g in (b, g', s')
    end.
End Script.
