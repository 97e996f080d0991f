(** Model of the request parameters of /repo/pillowcore/HttpConnection.cpp 732-785. *)
From Verif Require Import Bytes ByteHelpers.

(* QString: UTF-16 code units *)
Definition qstring := list Z.

Section Qt.
  (* QString::fromUtf8 on the decoded bytes, and the case folding used by
     QString::compare(.., Qt::CaseInsensitive): Qt functions, left arbitrary *)
  Variable utf8 : bytes -> qstring.
  Variable fold : qstring -> qstring.

  (* ByteArrayHelpers.h 226-240: percentDecode(const char*, int), null QString for size 0;
     None would be an out-of-bounds access of the decoding loop *)
  Definition percentDecode (b : bytes) : option qstring :=
    match b with
    | [] => Some []
    | _ => match percentDecode_bytes b with Some d => Some (utf8 d) | None => None end
    end.

  Definition param := (qstring * qstring)%type.

  (* HttpConnection.cpp 741-742: bytes before the first [d], and what is from it on *)
  Fixpoint find_byte (d : ascii) (s : bytes) : bytes * bytes :=
    match s with
    | [] => ([], [])
    | c :: t => if Ascii.eqb c d then ([], s) else let '(a, r) := find_byte d t in (c :: a, r)
    end.

  (* HttpConnection.cpp 744-753: the parameter of the piece [c, paramEnd) *)
  Definition param_of (piece : bytes) : option param :=
    let '(key, rest) := find_byte "=" piece in
    match rest with
    | _ :: value => match percentDecode key, percentDecode value with
                    | Some k, Some v => Some (k, v)
                    | _, _ => None
                    end
    | [] => match percentDecode piece with Some k => Some (k, []) | None => None end
    end.

  (* HttpConnection.cpp 738-755: the loop; each iteration consumes at least one byte, [fuel] = length *)
  Fixpoint parse_params (fuel : nat) (s : bytes) : option (list param) :=
    match s, fuel with
    | [], _ => Some []                                        (* c < cE fails *)
    | _, O => None
    | _, S f =>
        let '(piece, rest) := find_byte "&" s in
        match param_of piece, parse_params f (tl rest) with   (* c = paramEnd + 1 *)
        | Some p, Some ps => Some (p :: ps)
        | _, _ => None
        end
    end.

  (* the part of the connection these functions use *)
  Record pstate := mkPS { p_query : bytes; p_params : list param }.

  (* HttpConnection.cpp 732-758: requestParams *)
  Definition requestParams (s : pstate) : option (pstate * list param) :=
    match p_params s, p_query s with
    | [], _ :: _ => match parse_params (length (p_query s)) (p_query s) with
                    | Some ps => Some (mkPS (p_query s) ps, ps)
                    | None => None
                    end
    | _, _ => Some (s, p_params s)
    end.

  Definition qeq (a b : qstring) : bool := if list_eq_dec Z.eq_dec (fold a) (fold b) then true else false.

  (* HttpConnection.cpp 763-769 *)
  Fixpoint lookup_param (name : qstring) (ps : list param) : qstring :=
    match ps with
    | [] => []
    | (n, v) :: t => if qeq n name then v else lookup_param name t
    end.
  (* HttpConnection.cpp 760-770: requestParamValue *)
  Definition requestParamValue (s : pstate) (name : qstring) : option (pstate * qstring) :=
    match requestParams s with
    | Some (s', ps) => Some (s', lookup_param name ps)
    | None => None
    end.

  (* HttpConnection.cpp 775-784 *)
  Fixpoint update_param (name value : qstring) (ps : list param) : list param :=
    match ps with
    | [] => [(name, value)]
    | (n, v) :: t => if qeq n name then (name, value) :: t else (n, v) :: update_param name value t
    end.
  (* HttpConnection.cpp 772-785: setRequestParam *)
  Definition setRequestParam (s : pstate) (name value : qstring) : option pstate :=
    match requestParams s with
    | Some (s', ps) => Some (mkPS (p_query s') (update_param name value ps))
    | None => None
    end.
End Qt.
