(** SPECIFICATION of what users of the NetworkAccessManager rely on.  Taken from the model: its state (Nam.v), the events of a
    client (Client.v), calm clients and well-formed requests (ClientSpec.v). *)
From Verif Require Import Bytes Joyent RespParser Client ClientSpec Nam.
From Verif Require Proxy.
Open Scope Z_scope.

(** what a reply shows after the events of its request: status, headers (see setRawHeader, Proxy.v), content, redirection target,
    signals.  cook: what Qt makes of the values of the Set-Cookie headers (Nam.v) *)
Record view := mkView { v_status : Z; v_headers : list (bytes * bytes); v_content : bytes; v_target : option bytes; v_signals : list rsignal }.
Definition blank_view : view := mkView 0 [] [] None [].
Definition named (n : string) (h : bytes * bytes) : bool := beqb (lower (fst h)) (lit n).
Definition last_or {A} (l : list A) (d : option A) : option A := match List.rev l with [] => d | x :: _ => Some x end.
Section Spec.
Variable cook : list bytes -> option bytes.
Definition raw_headers (hs : list (bytes * bytes)) (l : list (bytes * bytes)) : list (bytes * bytes) :=
  let l := fold_left (fun l h => Proxy.setRawHeader h l) hs l in
  match cook (map snd (filter (named "set-cookie") hs)) with Some v => Proxy.setRawHeader (lit "Set-Cookie", v) l | None => l end.
Definition shows (v : view) (o : cobs) : view :=
  match o with
  | CHeaders code hs => mkView code (raw_headers hs (v_headers v)) (v_content v) (last_or (map snd (filter (named "location") hs)) (v_target v)) (v_signals v ++ [RsMeta])
  | CContent b => mkView (v_status v) (v_headers v) (v_content v ++ b) (v_target v) (v_signals v ++ [RsReady])
  | _ => v
  end.
Definition view_after (evs : list cobs) : view := fold_left shows evs blank_view.
Definition view_of (p : nreply) : view := mkView (np_status p) (np_headers p) (np_content p) (np_target p) (np_sigs p).
(** the signals error() and finished() of a reply, by its phase *)
Definition end_signals (p : nreply) : list rsignal :=
  let error_signal := match np_error p with
    | NoError => []
    | NetworkError => [RsError QtUnknownNetworkError]
    | ResponseInvalidError => [RsError QtProtocolUnknownError]
    | RemoteHostClosedError => [RsError QtRemoteHostClosedError]
    | AbortedError => [RsError QtOperationCanceledError]
    end in
  match np_phase p with
  | RWorking => []
  | RFailing | RGone => error_signal
  | RDone => error_signal ++ [RsFinished]
  end.

(** the request that is under way after the events l *)
Definition under_way_after (l : list cobs) : option creq :=
  fold_left (fun w o => match o with CAccepted r => Some r | CFinished _ _ _ _ => None | _ => w end) l None.
Definition ends_round (o : cobs) : bool := match o with CAccepted _ | CFinished _ _ _ _ => true | _ => false end.

(** what reply p made of the events l of its client *)
Inductive Seen (l : list cobs) (p : nreply) : Prop :=
| Sn_waiting : np_phase p = RWorking -> under_way_after l = None -> view_of p = blank_view -> Seen l p       (* its request was not taken up yet *)
| Sn_running pre r evs : l = pre ++ CAccepted r :: evs -> existsb ends_round evs = false -> np_req p = Some r ->
    np_phase p = RWorking -> view_of p = view_after evs -> Seen l p
| Sn_finished pre r evs e code hs b post : l = pre ++ CAccepted r :: evs ++ CFinished e code hs b :: post -> existsb ends_round evs = false -> np_req p = Some r ->
    np_phase p = RDone \/ (np_phase p = RFailing /\ e <> NoError) -> view_of p = view_after evs -> np_error p = e -> Seen l p.

End Spec.
Arguments Sn_waiting {_} _ _. Arguments Sn_running {_} _ _. Arguments Sn_finished {_} _ _.

Definition client_at (s : nam) (i : nat) : ccfg := nth i (n_clients s) (CUB AssertFailed).
(** the request a client is busy with: under way, or kept to be sent next *)
Definition busy_with (g : ccfg) : option creq :=
  match g with CRun c _ => if c_pending c then Some (c_req c) else c_next c | CUB _ => None end.
Definition working (p : nreply) : Prop := np_phase p = RWorking.

Record Served (cook : list bytes -> option bytes) (s : nam) : Prop := mkServed {
  (** a client serves at most one reply at a time *)
  sv_one : forall j j' p p', nth_error (n_replies s) j = Some p -> nth_error (n_replies s) j' = Some p' ->
    working p -> working p' -> np_client p = np_client p' -> j = j';
  (** it is busy with the request of that reply *)
  sv_work : forall p, In p (n_replies s) -> working p -> busy_with (client_at s (np_client p)) = np_req p;
  (** a client in the pool is idle, serves no reply, and is there once, under its own authority *)
  sv_pool : forall a i, In (a, i) (n_pool s) -> a = auth_of i s /\ busy_with (client_at s i) = None /\
    forall p, In p (n_replies s) -> working p -> np_client p <> i;
  sv_pool_once : NoDup (map snd (n_pool s));
  (** clients are only used for one authority *)
  sv_auth : forall p, In p (n_replies s) -> np_auth p = auth_of (np_client p) s;
  (** a reply shows the response to its own request, and finishes when that does *)
  sv_seen : forall p, In p (n_replies s) -> np_phase p <> RGone -> Seen cook (client_log (client_at s (np_client p))) p }.

Arguments sv_one {cook}. Arguments sv_work {cook}. Arguments sv_pool {cook}. Arguments sv_pool_once {cook}. Arguments sv_auth {cook}. Arguments sv_seen {cook}.

(** Calm histories: those of the clients (ClientSpec.v); requests have a method *)
Definition calm_event (s : nam) (e : nevent) : Prop :=
  match e with
  | NCreate _ (Some r) => wf_creq r /\ cr_method r <> []
  | NEvent i a => calm a (client_at s i)
  | NAbort j => forall p, nth_error (n_replies s) j = Some p -> calm (CaCall CoAbort) (client_at s (np_client p))
  | _ => True
  end.
Fixpoint calm_history (step : nam -> nevent -> nam) (s : nam) (l : list nevent) : Prop :=
  match l with [] => True | e :: t => calm_event s e /\ calm_history step (step s e) t end.
