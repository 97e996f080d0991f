(** Model of Pillow::HttpResponseParser (/repo/pillowcore/HttpClient.cpp 184-337, HttpClient.h 69-150) used on its
    own: the four virtual functions keep their default behaviour.  HttpClient, which overrides them, is in Client.v. *)
From Verif Require Import Bytes ByteHelpers Helpers Joyent.
Open Scope Z_scope.

(** What a user of the parser sees, in order (ghost): one entry per virtual function called, one per content byte
    (so that the log does not tell how the content was cut into messageContent calls). *)
Inductive rev :=
| RBegin
| RHeaders (major minor status : Z) (hs : list header)
| RByte (c : ascii)
| RComplete.

(* HttpClient.h 136-149 *)
Record rparser := mkRP {
  r_h : hparser; r_field : bytes; r_value : bytes; r_lwv : bool; r_parsing : bool;
  r_headers : list header; r_content : bytes; r_log : list rev }.

Definition rset_h v r := mkRP v (r_field r) (r_value r) (r_lwv r) (r_parsing r) (r_headers r) (r_content r) (r_log r).
Definition rset_parsing v r := mkRP (r_h r) (r_field r) (r_value r) (r_lwv r) v (r_headers r) (r_content r) (r_log r).
Definition rlog (l : list rev) r := mkRP (r_h r) (r_field r) (r_value r) (r_lwv r) (r_parsing r) (r_headers r)
  (r_content r) (r_log r ++ l).
Ltac rsimp := cbn [r_h r_field r_value r_lwv r_parsing r_headers r_content r_log rset_h rset_parsing rlog].
Tactic Notation "rsimp" "in" "*" := cbn [r_h r_field r_value r_lwv r_parsing r_headers r_content r_log rset_h
  rset_parsing rlog] in *.

(* HttpClient.cpp 243-250 clear(); _field, _value and _lastWasValue are left as they are *)
Definition rclear (r : rparser) : rparser :=
  let r1 := mkRP hinit (r_field r) (r_value r) (r_lwv r) (r_parsing r) [] [] (r_log r) in
  if r_parsing r1 then rset_h (hpause (r_h r1)) r1 else r1.
(* HttpClient.cpp 192-203: the constructor *)
Definition rfresh : rparser := rclear (mkRP hinit [] [] false false [] [] []).

(* HttpClient.cpp 328-337 *)
Definition pushHeader (r : rparser) : rparser :=
  if r_lwv r then mkRP (r_h r) [] [] false (r_parsing r) (r_headers r ++ [(r_field r, r_value r)]) (r_content r) (r_log r)
  else r.

(* HttpClient.cpp 258-284 (virtual functions), 286-326 (C callbacks) *)
Definition on_cb (c : cb) (r : rparser) : rparser :=
  match c with
  | CbBegin => rlog [RBegin] (mkRP (r_h r) (r_field r) (r_value r) false (r_parsing r) [] [] (r_log r))
  | CbField b => let r := pushHeader r in
      mkRP (r_h r) (r_field r ++ b) (r_value r) (r_lwv r) (r_parsing r) (r_headers r) (r_content r) (r_log r)
  | CbValue b => mkRP (r_h r) (r_field r) (r_value r ++ b) true (r_parsing r) (r_headers r) (r_content r) (r_log r)
  | CbHeaders => let r := pushHeader r in
      rlog [RHeaders (h_major (r_h r)) (h_minor (r_h r)) (h_status (r_h r)) (r_headers r)] r
  | CbBody b => rlog (map RByte b)
      (mkRP (r_h r) (r_field r) (r_value r) (r_lwv r) (r_parsing r) (r_headers r) (r_content r ++ b) (r_log r))
  | CbComplete => let r := rlog [RComplete] r in rset_h (hpause (r_h r)) r
  end.

Definition is_ok (e : herrno) : bool := match e with HPE_OK => true | _ => false end.

(** http_parser_execute with these callbacks.  [fuel] bounds the number of steps; None: assert() failed or the
    fuel was too small, which C46 shows never happens. *)
Fixpoint jrun (fuel : nat) (r : rparser) (l : locals) {struct fuel} : option (rparser * bytes) :=
  match fuel with
  | O => None
  | S f =>
      match jstep (r_h r) l with
      | Next h l' => jrun f (rset_h h r) l'
      | Call c h l' er =>
          let r' := on_cb c (rset_h h r) in
          if is_ok (h_errno (r_h r')) then jrun f r' l' else Some (r', er)
      | Ret h er => Some (rset_h h r, er)
      | Assert => None
      end
  end.
(* the parser and the bytes it left; for len = 0 (585-605) the count returned, 0 or 1, is ignored *)
Definition execute (r : rparser) (data : bytes) : option (rparser * bytes) :=
  if negb (is_ok (h_errno (r_h r))) then Some (r, data)                         (* 582-584 *)
  else match data with
       | [] => match jeof (r_h r) with
               | (Some c, h) => Some (on_cb c (rset_h h r), [])
               | (None, h) => Some (rset_h h r, [])
               end
       | _ => jrun (6 * length data + 8) r (jstart data (r_h r))
       end.

(* HttpClient.cpp 216, 231: unpause *)
Definition runpause (r : rparser) : rparser :=
  match h_errno (r_h r) with HPE_PAUSED => rset_h (hset_errno HPE_OK (r_h r)) r | _ => r end.

(* HttpClient.cpp 205-221; the new state and the number of bytes consumed *)
Definition inject (r : rparser) (data : bytes) : option (rparser * Z) :=
  if r_parsing r then Some (r, 0)
  else match execute (rset_parsing true r) data with
       | Some (r', lft) => Some (rset_parsing false (runpause r'), blen data - blen lft)
       | None => None
       end.
(* HttpClient.cpp 223-235 *)
Definition injectEof (r : rparser) : option rparser :=
  if r_parsing r then Some r else option_map fst (inject r []).

(* HttpClient.h 94: hasError() *)
Definition hasError (r : rparser) : bool :=
  match h_errno (r_h r) with HPE_OK | HPE_PAUSED => false | _ => true end.
