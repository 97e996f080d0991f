(** MODEL of HttpServer.cpp: the pool of connection objects of HttpServer and HttpLocalServer.
    Each connection object is a [cfg] of Conn.v.  What is left out: the listening socket, the failure of
    setSocketDescriptor (94-98: the socket is deleted, no connection is involved), the destructor. *)
From Verif Require Import Bytes Conn ConnSpec.
Open Scope Z_scope.

(* 16: MaximumReserveCount *)
Definition MaximumReserveCount : nat := 25.

(** what an observer of the server sees: a connection object given to a socket, a closed connection given back,
    a connection object destroyed *)
Inductive sobs := SHanded (i : nat) | SBack (i : nat) | SDeleted (i : nat).

(** 20 (reservedConnections; the last element is the head of [pool] here) and all the objects ever created; [hist] is
    the history *)
Record srv := mkSrv { pool : list nat; objs : list cfg; gone : list nat; hist : list sobs }.
Inductive sfault := FConnection (r : ubreason)                (* undefined behaviour inside a connection *)
                  | FDeletedObject                            (* a destroyed connection is used *)
                  | FNullDevice.                              (* 103: a connection without device reports closed *)
Inductive scfg := SRun (s : srv) | SFault (f : sfault).

(* 36-42: createConnection *)
Definition create (s : srv) : nat * srv := (length (objs s), mkSrv (pool s) (objs s ++ [start]) (gone s) (hist s)).
(* 24-28: the constructor; [connect] to the server's slots is part of [create] *)
Fixpoint fill (n : nat) (s : srv) : srv :=
  match n with
  | O => s
  | S n => let (i, s) := create s in fill n (mkSrv (i :: pool s) (objs s) (gone s) (hist s))
  end.
Definition srv0 : srv := fill MaximumReserveCount (mkSrv [] [] [] []).
(* 44-50: takeConnection *)
Definition takeConnection (s : srv) : nat * srv :=
  match pool s with
  | [] => create s
  | i :: t => (i, mkSrv t (objs s) (gone s) (hist s))
  end.
(* 54-55: while (size >= MaximumReserveCount) delete takeLast; what stays and what is deleted *)
Fixpoint trim (p : list nat) : list nat * list nat :=
  match p with
  | [] => ([], [])
  | i :: t => if (MaximumReserveCount <=? length p)%nat then let (k, d) := trim t in (k, i :: d) else (p, [])
  end.
(* 52-58: putConnection *)
Definition putConnection (i : nat) (s : srv) : srv :=
  let (k, d) := trim (pool s) in
  mkSrv (i :: k) (objs s) (d ++ gone s) (hist s ++ map SDeleted d).
(* 101-105, 140-143: connection_closed; the socket's deleteLater (103) has no effect on the connection, which lets go of
   its devices when the signal returns *)
Definition connection_closed (i : nat) (s : srv) : srv :=
  putConnection i (mkSrv (pool s) (objs s) (gone s) (hist s ++ [SBack i])).

Fixpoint set_nth (i : nat) (g : cfg) (l : list cfg) : list cfg :=
  match l, i with
  | [], _ => []
  | _ :: t, O => g :: t
  | x :: t, S i => x :: set_nth i g t
  end.
Definition set_obj (i : nat) (g : cfg) (s : srv) : srv := mkSrv (pool s) (set_nth i g (objs s)) (gone s) (hist s).
Definition is_closed (o : obs) : bool := match o with OClosed => true | _ => false end.
Definition closed_count (c : conn) : nat := length (filter is_closed (log c)).
Definition ingone (i : nat) (s : srv) : bool := existsb (Nat.eqb i) (gone s).

Inductive saction :=
| SAccept (is_sock : bool) (data : bytes)    (* a peer connects: 83-99, 125-129 *)
| SConn (i : nat) (a : action).              (* anything happens to connection i: a call, an event, a slot returns *)

(** one step: the connection does it; if it emitted closed, the server's slot, connected first (40), runs at once *)
Definition sstep (g : scfg) (a : saction) : scfg :=
  match g with
  | SFault f => SFault f
  | SRun s =>
    match a with
    | SAccept so data =>
        let (i, s) := takeConnection s in
        match nth_error (objs s) i with
        | Some g => if ingone i s then SFault FDeletedObject else
            match step g (ACall (OpInit (NewDevice true true so data))) with
            | UB r _ => SFault (FConnection r)
            | g' => SRun (set_obj i g' (mkSrv (pool s) (objs s) (gone s) (hist s ++ [SHanded i])))
            end
        | None => SRun s
        end
    | SConn i a =>
        match nth_error (objs s) i with
        | Some (Run c stk) =>
            if ingone i s then
              match a, stk with
              | ACall _, _ => SFault FDeletedObject
              | AReturn, _ :: _ => SFault FDeletedObject
              | _, _ => SRun s
              end
            else match step (Run c stk) a with
                 | UB r _ => SFault (FConnection r)
                 | Run c' stk' => let s := set_obj i (Run c' stk') s in
                     if (closed_count c <? closed_count c')%nat
                     then if in_ok c' then SRun (connection_closed i s) else SFault FNullDevice
                     else SRun s
                 end
        | _ => SRun s
        end
    end
  end.
Definition srun (g : scfg) (l : list saction) : scfg := fold_left sstep l g.
Definition sstart : scfg := SRun srv0.

(** ** Specification *)

(** which objects the history says are serving a socket *)
Fixpoint busy (h : list sobs) (i : nat) : bool :=          (* newest first *)
  match h with
  | [] => false
  | SHanded j :: t => if (i =? j)%nat then true else busy t i
  | SBack j :: t => if (i =? j)%nat then false else busy t i
  | SDeleted j :: t => busy t i
  end.
Definition in_use (s : srv) (i : nat) : bool := busy (rev (hist s)) i.
Definition deleted (s : srv) (i : nat) : Prop := In (SDeleted i) (hist s).

(** calls running on an object *)
Definition running (s : srv) (i : nat) : Prop := exists c f t, nth_error (objs s) i = Some (Run c (f :: t)).
(** no idle connection is still inside its closed signal *)
Definition quiet (s : srv) : Prop := forall i, In i (pool s) -> ~ running s i.

(** The uses considered:
    - sockets are accepted from the event loop, not inside a closed signal;
    - the connections are used politely (see ConnInv.v), initialize is left to the server;
    - a connection is called only while it serves a socket or from inside one of its own signals;
    - a connection is not closed inside the closed signal of another one. *)
Definition closes (s : srv) (i : nat) (a : action) : Prop := exists c stk c' stk',
  nth_error (objs s) i = Some (Run c stk) /\ step (Run c stk) a = Run c' stk' /\ (closed_count c < closed_count c')%nat.
