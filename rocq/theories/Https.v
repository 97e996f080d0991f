(** MODEL of /repo/pillowcore/HttpsServer.cpp, on top of the pool of Server.v.
    A QSslSocket is reduced to what the server sets on it: the descriptor, the private key, the local certificate, and
    whether (and with which key and certificate) encryption was started on it as a server.  Nothing has been decrypted when startServerEncryption returns
    (the handshake needs the event loop), so that a connection is initialized on a device without input.
    Left out: the two empty slots (57-63), the pending connections of QTcpServer (46-47 put the socket in and take it out again). *)
From Verif Require Import Bytes Conn ConnSpec Server.
Open Scope Z_scope.

Section Https.
Variables (Key Cert : Type).

Record sslsock := mkSsl { ss_open : bool; ss_key : option Key; ss_cert : option Cert; ss_tls : option (option Key * option Cert) }.
Definition newSocket : sslsock := mkSsl false None None None.                                             (* 38 *)
Definition setSocketDescriptor (k : sslsock) : sslsock := mkSsl true (ss_key k) (ss_cert k) (ss_tls k).   (* 39 *)
Definition setPrivateKey (x : option Key) (k : sslsock) : sslsock := mkSsl (ss_open k) x (ss_cert k) (ss_tls k).
Definition setLocalCertificate (x : option Cert) (k : sslsock) : sslsock := mkSsl (ss_open k) (ss_key k) x (ss_tls k).
(* the key and certificate used are those set when it is called *)
Definition startServerEncryption (k : sslsock) : sslsock := mkSsl (ss_open k) (ss_key k) (ss_cert k) (Some (ss_key k, ss_cert k)).

(** the server: pool of connections, certificate and key (HttpsServer.h 33-34, none: null objects), and the sockets given to connections, newest first *)
Record https := mkHttps { h_cert : option Cert; h_key : option Key; h_pool : scfg; h_socks : list (nat * sslsock) }.
Definition https0 : https := mkHttps None None sstart [].                                                (* 13-16 *)

Inductive haction :=
| HSetCertificate (c : Cert)                 (* 23-26 *)
| HSetPrivateKey (k : Key)                   (* 28-31 *)
| HIncoming (ok : bool)                      (* 33-55; ok: setSocketDescriptor succeeds *)
| HConn (i : nat) (a : action).

Definition hstep (s : https) (a : haction) : https :=
  match a with
  | HSetCertificate c => mkHttps (Some c) (h_key s) (h_pool s) (h_socks s)
  | HSetPrivateKey k => mkHttps (h_cert s) (Some k) (h_pool s) (h_socks s)
  | HIncoming false => s
  | HIncoming true =>
      let sock := setSocketDescriptor newSocket in
      let sock := setPrivateKey (h_key s) sock in                                                        (* 41 *)
      let sock := setLocalCertificate (h_cert s) sock in                                                 (* 42 *)
      let sock := startServerEncryption sock in                                                          (* 43 *)
      match h_pool s with
      | SRun p => let i := fst (takeConnection p) in                                                     (* 48 *)
          mkHttps (h_cert s) (h_key s) (sstep (SRun p) (SAccept true [])) ((i, sock) :: h_socks s)
      | SFault f => s
      end
  | HConn i a => mkHttps (h_cert s) (h_key s) (sstep (h_pool s) (SConn i a)) (h_socks s)
  end.
Definition hrun (s : https) (l : list haction) : https := fold_left hstep l s.
End Https.
