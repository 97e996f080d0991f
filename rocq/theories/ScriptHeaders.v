(** Model of /repo/pillowcore/HttpHandlerQtScript.cpp 20-28, 30-37: the headers a script gives to writeResponse,
    writeResponseString or writeHeaders of its nativeRequest (HttpConnection.h 89-93: slots, hence callable from scripts).
    The object is the list of its enumerable properties in the order of QScriptValueIterator, each with the text of its value
    (QScriptValue::toString); texts are their UTF-8 bytes, as in Script.v, so that toUtf8 is the identity. *)
From Verif Require Import Bytes ByteHelpers Helpers Conn Script.
Open Scope Z_scope.

(* 20-27; the collection given is a new one (qscriptvalue_cast) *)
Definition fromScriptValue (o : list (bytes * bytes)) : list header :=
  fold_left (fun hs p => hs ++ [(fst p, snd p)]) o [].
(* request.nativeRequest.writeResponseString(code, o, text) and .writeHeaders(code, o) from a script *)
Definition jsWriteResponse (code : Z) (o : list (bytes * bytes)) (text : bytes) : action := ACall (OpWriteResponse code (fromScriptValue o) text).
Definition jsWriteHeaders (code : Z) (o : list (bytes * bytes)) : action := ACall (OpWriteHeaders code (fromScriptValue o)).
