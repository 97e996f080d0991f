(** Model of how the content of a proxied request gets to the server (HttpHandlerProxy.cpp 48-62): createProxiedReply
    gives the network access manager a QBuffer on the connection's own _requestContent, no copy of it.  Qt 4.8
    (QNonContiguousByteDeviceBufferImpl) keeps a pointer to the bytes of that QByteArray and its length, and reads from
    there, piece by piece, whenever the connection to the server wants more, until the reply is destroyed.  The pipe
    deletes the reply with deleteLater() when the client's request is over (110-123), so that pieces may still be read
    between the end of the request and the next turn of the event loop: reads happen at any time here. *)
From Verif Require Import Bytes ByteHelpers Thin Helpers Conn ConnSpec ConnPhase Getters FieldCopies.
Open Scope Z_scope.

(* the bytes pointed to and how many, how far they were read; what the server got *)
Record upload := mkUp { u_from : block; u_pos : nat; u_sent : bytes }.
Inductive uact :=
| UAct (a : vact)                         (* the connection, and what other code does with copies *)
| UStart                                  (* 50-53: new QBuffer(&requestContent), sendCustomRequest *)
| URead (len : nat) (junk : bytes).       (* up to len bytes are read; junk: as in FieldCopies.reading *)
Inductive ucfg := URun (g : vcfg) (u : option upload).
(* the bytes behind the pointer *)
Definition behind (c : conn) (stk : list frame) (w : world) (junk : bytes) (b : block) : bytes :=
  firstn (Z.to_nat (v_size b))
    (match v_data b with
     | Own d => d
     | Lit => []
     | Raw n d => if answeringb c stk && (n =? w_n w)%nat then d else junk
     end).
Definition ustep (qt5 : bool) (g : ucfg) (a : uact) : ucfg :=
  match g with
  | URun VBad u => URun VBad u
  | URun (VRun c stk w) u =>
      match a with
      | UAct a => URun (vstep qt5 (VRun c stk w) a) u
      | UStart => URun (VRun c stk w) (Some (mkUp (at_ (w_heap w) (member VContent w)) 0 []))
      | URead len junk =>
          match u with
          | None => URun (VRun c stk w) None
          | Some u => let piece := firstn len (skipn (u_pos u) (behind c stk w junk (u_from u))) in
                      URun (VRun c stk w) (Some (mkUp (u_from u) (u_pos u + length piece) (u_sent u ++ piece)))
          end
      end
  end.
Definition urun (qt5 : bool) (g : ucfg) (l : list uact) : ucfg := fold_left (ustep qt5) l g.
Definition ustart : ucfg := URun vstart None.
