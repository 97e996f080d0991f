(** Model of the text HttpHandlerLog writes: /repo/pillowcore/HttpHandler.cpp 140-223, and of the part of Qt it
    is made with: QString::arg (qstring.cpp: findArgEscapes, replaceArgEscapes).
    A QString is modelled by the list of its characters U+0000..U+00FF (QString(QByteArray) is
    Latin-1 in Qt 4.8; in Qt 5 it is UTF-8, which agrees on ASCII texts). *)
From Verif Require Import Bytes ByteHelpers Handlers.
Open Scope Z_scope.

(** ** QString::arg *)
(* QChar::digitValue, for the characters up to U+00FF: the decimal digits and the superscripts one, two, three *)
Definition digitValue (c : ascii) : option Z :=
  if is_digit c then Some (byte_val c - 48)
  else if Ascii.eqb c "185" then Some 1 else if Ascii.eqb c "178" then Some 2 else if Ascii.eqb c "179" then Some 3
  else None.

(* a text cut into its place markers ("%" ["L"] digit [digit]: number, L, text) and its other characters *)
Inductive tok := Txt (c : ascii) | Mark (n : Z) (localized : bool) (raw : bytes).

(* qstring.cpp, the scanning done by findArgEscapes and, in the same way, by replaceArgEscapes: after '%' and 'L' not
   followed by a digit, scanning goes on at the character found *)
Fixpoint scan (s : bytes) : list tok :=
  match s with
  | [] => []
  | c :: t =>
    if negb (Ascii.eqb c "%") then Txt c :: scan t else
    match t with
    | [] => [Txt c]
    | l :: t1 =>
      if Ascii.eqb l "L" then
        match t1 with
        | [] => [Txt c; Txt l]
        | d :: t2 =>
          match digitValue d with
          | None => Txt c :: Txt l :: scan t1
          | Some v =>
            match t2 with
            | [] => [Mark v true [c; l; d]]
            | e :: t3 => match digitValue e with
                         | Some w => Mark (10 * v + w) true [c; l; d; e] :: scan t3
                         | None => Mark v true [c; l; d] :: scan t2
                         end
            end
          end
        end
      else
        match digitValue l with
        | None => Txt c :: scan t
        | Some v =>
          match t1 with
          | [] => [Mark v false [c; l]]
          | e :: t3 => match digitValue e with
                       | Some w => Mark (10 * v + w) false [c; l; e] :: scan t3
                       | None => Mark v false [c; l] :: scan t1
                       end
          end
        end
    end
  end.

(* findArgEscapes: min_escape; None if there is no place marker *)
Fixpoint lowest (ts : list tok) : option Z :=
  match ts with
  | [] => None
  | Txt _ :: t => lowest t
  | Mark n _ _ :: t => match lowest t with None => Some n | Some m => Some (Z.min n m) end
  end.

(* replaceArgEscapes: every marker numbered n is replaced, by la if it says L *)
Definition replace (n : Z) (a la : bytes) (ts : list tok) : bytes :=
  flat_map (fun t => match t with
                     | Txt c => [c]
                     | Mark m l raw => if m =? n then (if l then la else a) else raw
                     end) ts.

(* QString::arg(a), with no field width: without marker, a warning and the text unchanged *)
Definition qarg (a la : bytes) (s : bytes) : bytes :=
  match lowest (scan s) with
  | None => s
  | Some n => replace n a la (scan s)
  end.

(** ** The log handler *)
Section LogText.
  (* QLocale: a number as %L shows it *)
  Variable loc : bytes -> bytes.

  (* what the getters of the connection give when the line is made: remoteAddress().toString(), the date
     (currentDateTime().toString), requestMethod(), requestUri(), requestHttpVersion(), responseStatusCode(),
     responseContentLength(), and elapsed milliseconds *)
  Record info := mkInfo { i_address : bytes; i_date : bytes; i_method : bytes; i_uri : bytes; i_version : bytes;
                          i_status : Z; i_length : Z; i_ms : Z }.

  (* QString(QByteArray): the bytes before the first NUL *)
  Definition qstring (b : bytes) : bytes := until_nul b.
  (* arg(int), arg(qint64): base 10 *)
  Definition decimal (n : Z) : bytes := if n <? 0 then "-"%char :: number (- n) else number n.
  (* arg(elapsed / 1000.0, 3, 'f', 3): seconds with three decimals; at least five characters, so the field width 3 adds
     nothing.  (Exact for 0 <= ms < 2^53; beyond, the rounding of doubles is not modelled.) *)
  Definition pad3 (n : Z) : bytes := number (n / 100) ++ number (n / 10 mod 10) ++ number (n mod 10).
  Definition seconds (ms : Z) : bytes := number (ms / 1000) ++ "."%char :: pad3 (ms mod 1000).

  Definition argS (a : bytes) (s : bytes) : bytes := qarg a a s.            (* arg(QString) *)
  Definition argN (a : bytes) (s : bytes) : bytes := qarg a (loc a) s.      (* arg of a number *)

  Definition fmt_begin : bytes := lit "[BEGIN] %1 - - [%2] ""%3 %4 %5"" - - -".
  Definition fmt_completed : bytes := lit "%1 - - [%2] ""%3 %4 %5"" %6 %7 %8".
  Definition fmt_end : bytes := lit "[ END ] %1 - - [%2] ""%3 %4 %5"" %6 %7 %8".
  Definition fmt_close : bytes := lit "[CLOSE] %1 - - [%2] ""%3 %4 %5"" %6 %7 %8".

  (* 159-162, 178-181, 197-200: the five texts *)
  Definition texts (x : info) (s : bytes) : bytes :=
    argS (qstring (i_version x)) (argS (qstring (i_uri x)) (argS (qstring (i_method x)) (argS (i_date x) (argS (i_address x) s)))).
  (* 182-183, 201-202: the three numbers *)
  Definition numbers (x : info) (s : bytes) : bytes :=
    argN (seconds (i_ms x)) (argN (decimal (i_length x)) (argN (decimal (i_status x)) s)).

  (* the entry of a line, in the mode in force: 159-164; 175-185; 194-204 *)
  Definition entry (m : logmode) (l : line info) : bytes :=
    match l with
    | LBegin _ _ x => texts x fmt_begin
    | LEnd _ _ x => numbers x (texts x (match m with LogCompleted => fmt_completed | Trace => fmt_end end))
    | LClose _ _ x => numbers x (texts x fmt_close)
    end.

  (* QString::toUtf8, for characters up to U+00FF *)
  Definition utf8_char (c : ascii) : bytes :=
    if byte_val c <? 128 then [c] else [ascii_of_nat (192 + nat_of_ascii c / 64); ascii_of_nat (128 + nat_of_ascii c mod 64)].
  Definition utf8 (s : bytes) : bytes := flat_map utf8_char s.

  (* the handler, its device (None: NULL), what qDebug() was given and what was written to each device *)
  Record dlog := mkD { d_log : logst info; d_device : option nat; d_debug : list bytes; d_written : list (nat * bytes) }.
  (* 215-223: log.  qPrintable(entry) gives qDebug() the entry itself (toLocal8Bit) *)
  Definition write_entry (e : bytes) (s : dlog) : dlog :=
    match d_device s with
    | None => mkD (d_log s) None (d_debug s ++ [e]) (d_written s)
    | Some d => mkD (d_log s) (Some d) (d_debug s) (d_written s ++ [(d, utf8 e); (d, [LF])])
    end.
  Inductive devent :=
  | DEvent (e : levent info)          (* as in Handlers.v: a call of handleRequest, a signal, setMode *)
  | DDevice (d : option nat).         (* setDevice, 237-241 *)
  (* each line is given to log as it is made; no event both changes the mode and makes a line *)
  Definition dlogStep (s : dlog) (e : devent) : dlog :=
    match e with
    | DEvent e =>
        let g := logStep info (d_log s) e in
        fold_left (fun s l => write_entry (entry (lmode _ g) l) s)
          (skipn (length (lines _ (d_log s))) (lines _ g)) (mkD g (d_device s) (d_debug s) (d_written s))
    | DDevice d => mkD (d_log s) d (d_debug s) (d_written s)
    end.
  Definition dlogRun (m : logmode) (d : option nat) (es : list devent) : dlog :=
    fold_left dlogStep es (mkD (mkLog _ [] [] [] m) d [] []).
End LogText.
