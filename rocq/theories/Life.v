(** MODEL of the life of the objects of a server: HttpServer.cpp (HttpServer 24-34, 76-105, HttpLocalServer 125-143),
    HttpConnection.cpp 622-636 and what QObject does with children and deleteLater().  The connections themselves are
    those of Server.v; this file adds the sockets, who owns what, and the destructor.
    Simplifications: a socket that is destroyed while it is connected reports disconnected() (TCP) or aboutToClose()
    (local), a closed one reports nothing; the slots that other code connected to the signals of a connection do
    nothing while the server is destroyed. *)
From Verif Require Import Bytes Conn ConnSpec Server.
Open Scope Z_scope.

(** connection [i], socket [k] *)
Inductive lobj := LC (i : nat) | LS (k : nat).
Definition lobj_eq_dec : forall a b : lobj, {a = b} + {a <> b}.
Proof. repeat decide equality. Defined.
(** what happens to the objects: a socket is given to a connection, a socket is released (deleteLater) because the
    connection that has it reported closed, an object is destroyed, a connection reports closed while the server is
    being destroyed *)
Inductive lobs := OGive (k i : nat) | OLater (k i : nat) | ODead (o : lobj) | OReport (i : nat).

Definition deadb (o : lobj) (h : list lobs) : bool :=
  existsb (fun x => match x with ODead o' => if lobj_eq_dec o o' then true else false | _ => false end) h.

(** the server, the input device of each connection (HttpConnectionPrivate::_inputDevice), the posted deferred deletions, the
    children of the server in the order of their creation (QObjectPrivate::children), how many sockets there were, and the
    history *)
Record life := mkLife { l_srv : srv; l_dev : nat -> option nat; l_later : list nat; l_born : list lobj; l_next : nat; l_hist : list lobs }.
Inductive lfault := LServer (f : sfault)        (* see Server.v *)
                  | LDangling (k : nat)         (* a socket is destroyed while a connection still uses it *)
                  | LDouble (o : lobj)          (* an object is deleted twice *)
                  | LInside.                    (* the server is deleted inside a slot *)
Inductive lcfg := LRun (v : life) | LFault (f : lfault) | LEnd (v : life) (h : list lobs).

Definition anyone_running (s : srv) : bool := existsb (fun g => match g with Run _ (_ :: _) => true | _ => false end) (objs s).
(* 24-28 *)
Definition life0 : life := mkLife srv0 (fun _ => None) [] (map LC (seq 0 MaximumReserveCount)) 0 [].

(* 86 / QLocalServer::incomingConnection: new socket(this) *)
Definition newSocket (v : life) : life := mkLife (l_srv v) (l_dev v) (l_later v) (l_born v ++ [LS (l_next v)]) (S (l_next v)) (l_hist v).
(* 87-93, 125-129: takeConnection()->initialize(socket, socket) *)
Definition handSocket (so : bool) (data : bytes) (v : life) : lcfg :=
  let k := l_next v in
  let (i, s) := takeConnection (l_srv v) in
  let v := newSocket v in
  match sstep (SRun (l_srv v)) (SAccept so data) with
  | SFault f => LFault (LServer f)
  | SRun s' =>
      LRun (mkLife s' (fun x => if (x =? i)%nat then Some k else l_dev v x) (l_later v)
              (l_born v ++ map LC (seq (length (objs (l_srv v))) (length (objs s) - length (objs (l_srv v))))) (l_next v)
              (l_hist v ++ [OGive k i]))
  end.
(* 94-98: setSocketDescriptor() failed *)
Definition refuseSocket (v : life) : life :=
  let k := l_next v in
  let v := newSocket v in
  mkLife (l_srv v) (l_dev v) (l_later v) (l_born v) (l_next v) (l_hist v ++ [ODead (LS k)]).

(* what connection_closed (101-105, 140-143) added to the history of the server *)
Definition back_of (e : list sobs) : option nat := match e with SBack i :: _ => Some i | _ => None end.
Fixpoint deleted_of (e : list sobs) : list lobs :=
  match e with [] => [] | SDeleted j :: t => ODead (LC j) :: deleted_of t | _ :: t => deleted_of t end.
(* anything happens to connection i; when transitionToClosed() is done (HttpConnection.cpp 398-401) it has no device *)
Definition connEvent (i : nat) (a : action) (v : life) : lcfg :=
  let s := l_srv v in
  match sstep (SRun s) (SConn i a) with
  | SFault f => LFault (LServer f)
  | SRun s' =>
      let e := skipn (length (hist s)) (hist s') in
      let dev x := if (x =? i)%nat then match nth_error (objs s') i with
                                        | Some (Run c _) => if in_ok c then l_dev v x else None
                                        | _ => l_dev v x
                                        end else l_dev v x in
      match back_of e, l_dev v i with
      | Some _, Some k => LRun (mkLife s' dev (l_later v ++ [k]) (l_born v) (l_next v) (l_hist v ++ OLater k i :: deleted_of e))
      | Some _, None => LFault (LServer FNullDevice)
      | None, _ => LRun (mkLife s' dev (l_later v) (l_born v) (l_next v) (l_hist v))
      end
  end.

Definition holder (v : life) (k : nat) : option nat :=
  find (fun i => match l_dev v i with Some k' => (k =? k')%nat | None => false end && negb (deadb (LC i) (l_hist v))) (seq 0 (length (objs (l_srv v)))).
(* QCoreApplication::sendPostedEvents(0, QEvent::DeferredDelete): only when control is back in the event loop *)
Definition eventLoop (v : life) : lcfg :=
  if anyone_running (l_srv v) then LRun v else
  match find (fun k => match holder v k with Some _ => true | None => false end) (l_later v) with
  | Some k => LFault (LDangling k)
  | None => LRun (mkLife (l_srv v) (l_dev v) [] (l_born v) (l_next v) (l_hist v ++ map (fun k => ODead (LS k)) (nodup Nat.eq_dec (l_later v))))
  end.

(* 30-34, 76-79: delete d_ptr *)
Fixpoint dropPool (p : list nat) (h : list lobs) : lobj + list lobs :=
  match p with
  | [] => inr h
  | i :: t => if deadb (LC i) h then inl (LC i) else dropPool t (h ++ [ODead (LC i)])
  end.
(* HttpConnection.cpp 386-401 in close(): does it report closed? *)
Definition reports (v : life) (i : nat) : bool :=
  match nth_error (objs (l_srv v)) i with
  | Some (Run c stk) => match step (Run c stk) (ACall OpClose) with
                        | Run c' _ => (closed_count c <? closed_count c')%nat
                        | UB _ _ => false
                        end
  | _ => false
  end.
(* ~QObject(): the children that are left, in order; a connected socket tells its connection, if it is still there (649-657);
   the server does not listen to it any more *)
Definition parting (v : life) (o : lobj) (h : list lobs) : list lobs :=
  match o with
  | LC _ => []
  | LS k => match find (fun i => match l_dev v i with Some k' => (k =? k')%nat | None => false end && negb (deadb (LC i) h)) (seq 0 (length (objs (l_srv v)))) with
            | Some i => if reports v i then [OReport i] else []
            | None => []
            end
  end.
Fixpoint dropChildren (v : life) (b : list lobj) (h : list lobs) : list lobs :=
  match b with
  | [] => h
  | o :: t => if deadb o h then dropChildren v t h else dropChildren v t (h ++ parting v o h ++ [ODead o])
  end.
(* delete server: HttpServer has a destructor (76-79), HttpLocalServer has none *)
Definition destroy (local : bool) (v : life) : lcfg :=
  if anyone_running (l_srv v) then LFault LInside else
  match (if local then inr (l_hist v) else dropPool (pool (l_srv v)) (l_hist v)) with
  | inl o => LFault (LDouble o)
  | inr h => LEnd v (dropChildren v (l_born v) h)
  end.

Inductive laction :=
| LAccept (ok : bool) (so : bool) (data : bytes)     (* a peer connects; [ok]: setSocketDescriptor() *)
| LConn (i : nat) (a : action)                       (* anything happens to connection i *)
| LLoop                                              (* deferred deletions *)
| LDestroy (local : bool).                           (* delete server *)
Definition lstep (g : lcfg) (a : laction) : lcfg :=
  match g with
  | LRun v =>
      match a with
      | LAccept true so data => handSocket so data v
      | LAccept false _ _ => LRun (refuseSocket v)
      | LConn i a => connEvent i a v
      | LLoop => eventLoop v
      | LDestroy local => destroy local v
      end
  | g => g
  end.
Definition lrun (g : lcfg) (l : list laction) : lcfg := fold_left lstep l g.
Definition lstart : lcfg := LRun life0.

(** ** Specification *)

(** the same uses as for C44; the server is deleted from the event loop *)
Definition lpolite (v : life) (a : laction) (spolite : srv -> saction -> Prop) : Prop :=
  match a with
  | LAccept true so data => spolite (l_srv v) (SAccept so data)
  | LAccept false _ _ => True
  | LConn i a => spolite (l_srv v) (SConn i a)
  | LLoop => True
  | LDestroy _ => forall i, ~ running (l_srv v) i
  end.

(** what the history says about one socket *)
Definition about (k : nat) (o : lobs) : bool :=
  match o with
  | OGive k' _ | OLater k' _ => (k =? k')%nat
  | ODead (LS k') => (k =? k')%nat
  | _ => false
  end.
Definition story (k : nat) (h : list lobs) : list lobs := filter (about k) h.
(** its life: refused, or given to one connection, released when that one closed, destroyed *)
Inductive SocketLife (k : nat) : list lobs -> Prop :=
| SLrefused : SocketLife k [ODead (LS k)]
| SLused i : SocketLife k [OGive k i]
| SLreleased i : SocketLife k [OGive k i; OLater k i]
| SLdestroyed i : SocketLife k [OGive k i; OLater k i; ODead (LS k)].
(** how often an object was destroyed *)
Definition deaths (o : lobj) (h : list lobs) : nat :=
  length (filter (fun x => match x with ODead o' => if lobj_eq_dec o o' then true else false | _ => false end) h).
