(** C74: the signals of the replies of the NetworkAccessManager.  Specification: NamSpec.v. *)
From Verif Require Import Bytes ByteHelpers Helpers Joyent RespParser Client ClientSpec ClientInv PropsClient Nam NamSpec NamExt NamInv NamServe PropsNam.
Open Scope Z_scope.

(** the signals of a reply, in the order they were emitted *)
Definition signals (p : nreply) : list rsignal := np_sigs p ++ np_ends p.
(** what it makes of an event of its client *)
Definition signal_of (o : cobs) : list rsignal := match o with CHeaders _ _ => [RsMeta] | CContent _ => [RsReady] | _ => [] end.
(** error() and finished(), for the way a request ended *)
Definition last_signals (e : cerror) : list rsignal :=
  match e with
  | NoError => [RsFinished]
  | NetworkError => [RsError QtUnknownNetworkError; RsFinished]
  | ResponseInvalidError => [RsError QtProtocolUnknownError; RsFinished]
  | RemoteHostClosedError => [RsError QtRemoteHostClosedError; RsFinished]
  | AbortedError => [RsError QtOperationCanceledError; RsFinished]
  end.

Lemma last_or_app {A} (a b : list A) d : last_or (a ++ b) d = last_or b (last_or a d).
Proof. unfold last_or. rewrite rev_app_distr. now destruct (List.rev b). Qed.

Section Nam.
  Variables (zlib : bool) (gunzip : list bytes -> bytes -> bytes) (parse_url : bytes -> url) (cook : list bytes -> option bytes).
  Hypothesis urls : forall b, wf_url (parse_url b).
  Notation nstep := (nstep zlib gunzip parse_url cook).
  Notation nrun := (nrun zlib gunzip parse_url cook).
  Notation nclient := (nclient zlib gunzip parse_url cook).
  Notation slots := (slots zlib gunzip parse_url cook).

  Definition EndsOk (p : nreply) : Prop :=
    (np_phase p <> RGone -> np_ends p = end_signals p) /\ (np_phase p = RWorking -> np_error p = NoError) /\ (np_phase p = RFailing -> np_error p <> NoError).
  Definition AllEnds (s : nam) : Prop := Forall EndsOk (n_replies s).
  Lemma for_ends i f l : (forall p, np_phase p = RWorking -> EndsOk p -> EndsOk (f p)) -> Forall EndsOk l -> Forall EndsOk (for_attached i f l).
  Proof.
    intros F H. unfold for_attached. apply Forall_forall. intros q Hq. apply in_map_iff in Hq as (p & <- & Hp). rewrite Forall_forall in H. specialize (H p Hp).
    destruct (attached i p) eqn:A; [|exact H]. apply attached_working in A as [_ A]. now apply F.
  Qed.
  Lemma slots_ends i s o : AllEnds s -> AllEnds (slots i s o).
  Proof.
    intros H. unfold AllEnds in *. destruct o; cbn [Nam.slots]; try exact H; cbn [n_replies].
    - apply for_ends; auto.
    - destruct (existsb _ _); [|exact H]. cbn [n_replies]. apply for_ends; auto.
    - apply for_ends; auto. intros p P (A & B & _). unfold EndsOk, end_signals. cbn [reply_finished np_phase np_ends np_error].
      rewrite (A ltac:(congruence)). unfold end_signals. rewrite P. cbn [app]. destruct e; cbn; repeat split; congruence.
  Qed.
  Lemma nclient_ends i a s : AllEnds s -> AllEnds (nclient i a s).
  Proof.
    unfold Nam.nclient. destruct (nth_error (n_clients s) i) as [g|]; [|auto]. intros H.
    set (s0 := mkNam _ _ _ _). assert (K : AllEnds s0) by exact H. revert K. generalize s0.
    generalize (skipn (length (client_log g)) (client_log (cstep zlib gunzip parse_url g a))). clear.
    induction l as [|o l IH]; intros t K; [exact K|]. cbn [fold_left]. apply IH. now apply slots_ends.
  Qed.
  Lemma upd_ends j f s : (forall p, EndsOk p -> EndsOk (f p)) -> AllEnds s -> AllEnds (upd_reply j f s).
  Proof.
    intros F H. unfold upd_reply. destruct (nth_error (n_replies s) j) as [p|] eqn:E; [|exact H]. unfold AllEnds in *. cbn [n_replies]. apply Forall_set_at; auto. apply F.
    rewrite Forall_forall in H. apply H. now apply nth_error_In in E.
  Qed.
  Lemma nstep_ends s e : AllEnds s -> AllEnds (nstep s e).
  Proof.
    intros H. destruct e as [a r|i a|j|j n|j|j]; cbn [Nam.nstep].
    - unfold createRequest. assert (E : n_replies (snd (pick a s)) = n_replies s) by (unfold pick; destruct (take_pool a (n_pool s)) as [[i l]|]; reflexivity).
      destruct (pick a s) as [i s1]. cbn [snd] in E. set (s2 := mkNam _ _ _ _). assert (K : AllEnds s2).
      { unfold s2, AllEnds. cbn [n_replies]. rewrite E. apply Forall_app. split; [exact H|]. constructor; [|constructor]. unfold EndsOk. cbn. repeat split; congruence. }
      destruct r; [now apply nclient_ends|exact K].
    - destruct (is_call a); auto. now apply nclient_ends.
    - destruct (nth_error (n_replies s) j) as [p|]; auto. destruct (np_phase p); auto; now apply nclient_ends.
    - apply upd_ends; auto. intros p. unfold readData. destruct (_ <=? _); auto.
    - apply upd_ends; auto. intros p K. destruct (np_phase p) eqn:P; auto. destruct K as (A & B & C). specialize (A ltac:(congruence)). unfold EndsOk, end_signals in *. rewrite P in *. cbn. rewrite A.
      repeat split; congruence.
    - apply upd_ends; auto. intros p K. destruct (np_phase p) eqn:P; auto; unfold EndsOk; cbn; repeat split; congruence.
  Qed.
  (** whatever happens: error() and finished() are emitted once each, when the reply fails and finishes, in this order *)
  Theorem C74_ends : forall l j p, nth_error (n_replies (nrun nam0 l)) j = Some p -> np_phase p <> RGone -> np_ends p = end_signals p.
  Proof.
    intros l j p E G. assert (H : AllEnds (nrun nam0 l)).
    { assert (X : forall l s, AllEnds s -> AllEnds (nrun s l)) by (clear; induction l as [|e l IH]; intros s H; [exact H|]; cbn [Nam.nrun fold_left]; apply IH; now apply nstep_ends).
      apply X. constructor. }
    unfold AllEnds in H. rewrite Forall_forall in H. apply nth_error_In in E. now apply (H p E).
  Qed.
  Lemma view_signals evs : v_signals (view_after cook evs) = flat_map signal_of evs.
  Proof.
    unfold view_after. assert (X : forall v, v_signals (fold_left (shows cook) evs v) = v_signals v ++ flat_map signal_of evs).
    { induction evs as [|o evs IH]; intros v; cbn [fold_left flat_map]; [now rewrite app_nil_r|]. rewrite IH. rewrite app_assoc. f_equal. destruct o; cbn; now rewrite ?app_nil_r. }
    rewrite X. reflexivity.
  Qed.
  (** the signals of a finished reply are those of the response to its own request: metaDataChanged() for its headers, readyRead() for each
      piece of its content, in order; then error() if it failed, with the code of the failure, then finished() *)
  Theorem C74_signals : forall l j p, calm_history nstep nam0 l -> nth_error (n_replies (nrun nam0 l)) j = Some p -> np_phase p = RDone ->
    exists pre r evs e code hs b post, np_req p = Some r /\ existsb ends_round evs = false /\
      client_log (client_at (nrun nam0 l) (np_client p)) = pre ++ CAccepted r :: evs ++ CFinished e code hs b :: post /\
      signals p = flat_map signal_of evs ++ last_signals e.
  Proof.
    intros l j p H E P. pose proof (C63_own_response zlib gunzip parse_url cook urls l j p H E ltac:(congruence)) as S.
    destruct S as [X _ _|pre r evs El Ev R X _|pre r evs e code hs b post El Ev R X V Er]; try congruence.
    exists pre, r, evs, e, code, hs, b, post. split; [exact R|]. split; [exact Ev|]. split; [exact El|]. unfold signals. rewrite (C74_ends l j p E ltac:(congruence)).
    apply (f_equal v_signals) in V. rewrite view_signals in V. cbn [view_of v_signals] in V. rewrite V. f_equal. unfold end_signals. rewrite P, Er. destruct e; reflexivity.
  Qed.
  (** while it works: those of the response as far as it has come *)
  Theorem C74_working : forall l j p, calm_history nstep nam0 l -> nth_error (n_replies (nrun nam0 l)) j = Some p -> np_phase p = RWorking ->
    signals p = [] \/ exists pre r evs, np_req p = Some r /\ existsb ends_round evs = false /\
      client_log (client_at (nrun nam0 l) (np_client p)) = pre ++ CAccepted r :: evs /\ signals p = flat_map signal_of evs.
  Proof.
    intros l j p H E P. pose proof (C63_own_response zlib gunzip parse_url cook urls l j p H E ltac:(congruence)) as S.
    assert (N : np_ends p = []) by (rewrite (C74_ends l j p E ltac:(congruence)); unfold end_signals; now rewrite P).
    destruct S as [_ _ V|pre r evs El Ev R _ V|pre r evs e code hs b post _ _ _ [X|[X _]]]; try congruence; unfold signals; rewrite N, app_nil_r; apply (f_equal v_signals) in V; cbn [view_of v_signals] in V.
    - left. exact V.
    - right. exists pre, r, evs. rewrite view_signals in V. auto.
  Qed.
  (** the redirection target of a reply: the last Location header of the response to its own request *)
  Theorem C74_target : forall l j p, calm_history nstep nam0 l -> nth_error (n_replies (nrun nam0 l)) j = Some p -> np_phase p <> RGone ->
    np_target p = None \/ exists pre r evs post, np_req p = Some r /\ existsb ends_round evs = false /\
      client_log (client_at (nrun nam0 l) (np_client p)) = pre ++ CAccepted r :: evs ++ post /\
      np_target p = last_or (map snd (filter (named "location") (flat_map (fun o => match o with CHeaders _ hs => hs | _ => [] end) evs))) None /\
      (post = [] \/ exists e code hs b post', post = CFinished e code hs b :: post').
  Proof.
    intros l j p H E G. pose proof (C63_own_response zlib gunzip parse_url cook urls l j p H E G) as S.
    assert (V : forall evs, v_target (view_after cook evs) = last_or (map snd (filter (named "location") (flat_map (fun o => match o with CHeaders _ hs => hs | _ => [] end) evs))) None).
    { intros evs. unfold view_after. change (@None bytes) with (v_target blank_view). generalize blank_view. induction evs as [|o evs IH]; intros v; [reflexivity|]. cbn [fold_left flat_map]. rewrite IH, filter_app, map_app.
      destruct o; try reflexivity. cbn [shows v_target]. symmetry. apply last_or_app. }
    destruct S as [_ _ X|pre r evs El Ev R _ X|pre r evs e code hs b post El Ev R _ X _]; apply (f_equal v_target) in X; cbn [view_of v_target] in X.
    - left. exact X.
    - right. exists pre, r, evs, []. rewrite app_nil_r. rewrite V in X. auto 10.
    - right. exists pre, r, evs, (CFinished e code hs b :: post). rewrite V in X. split; [exact R|]. split; [exact Ev|]. split; [exact El|]. split; [exact X|]. right. eauto 10.
  Qed.
End Nam.

Example C74_case : calm_history ndstep nam0 nam_run /\
  map signals (n_replies (ndrun nam0 nam_run)) = [[RsMeta; RsReady; RsFinished]; [RsError QtOperationCanceledError; RsFinished]; []; []; [RsMeta; RsReady; RsFinished]].
Proof. split; [apply calm_historyb_ok|]; vm_compute; reflexivity. Qed.

(** the user who asks the finished reply whether it failed, as one does with a QNetworkReply, is told that it did not: error() has been
    emitted, but the getter of the same name still says NoError *)
Definition lost_history : list nevent := [NCreate org (Some (get "GET" "/1")); NEvent 0 CaConnected; NEvent 0 (CaError true true); NErrorReturn 0].
Theorem C74_getter_refuted : calm_history ndstep nam0 lost_history /\
  map (fun p => (np_phase p, np_status p, signals p, error_code p)) (n_replies (ndrun nam0 lost_history)) =
    [(RDone, 0, [RsError QtRemoteHostClosedError; RsFinished], None)].
Proof. split; [apply calm_historyb_ok|]; vm_compute; reflexivity. Qed.

(** the content of an interim response (status 100) reaches the reply, before its headers; it is then part of what is read from it *)
Definition interim_answer : bytes := lit "HTTP/1.1 100 Continue" ++ CRLF ++ lit "Content-Length: 2" ++ CRLF ++ CRLF ++ lit "no" ++ answer "r1".
Definition interim_history : list nevent :=
  [NCreate org (Some (get "GET" "/1")); NEvent 0 CaConnected; NEvent 0 CaFlushed; NEvent 0 (CaArrive interim_answer); NEvent 0 CaReadyRead;
   NEvent 0 CaReturn; NEvent 0 CaReturn; NEvent 0 CaReturn; NEvent 0 CaReturn].
Theorem C74_interim_refuted : calm_history ndstep nam0 interim_history /\
  map (fun p => (np_phase p, np_status p, np_content p, signals p)) (n_replies (ndrun nam0 interim_history)) =
    [(RDone, 200, lit "nor1", [RsReady; RsMeta; RsReady; RsFinished])].
Proof. split; [apply calm_historyb_ok|]; vm_compute; reflexivity. Qed.
