(** C52: one finished() per request of HttpClient.  Specification: ClientSpec.v. *)
From Verif Require Import Bytes TextSpec ByteHelpers Helpers Joyent RespParser Client ClientSpec ClientInv.
Open Scope Z_scope.

(** the requests that were taken, and the finished() signals *)
Definition milestone (o : cobs) : bool := match o with CAccepted _ | CFinished _ _ _ _ => true | _ => false end.
(** [Rounds l u]: requests and finished() alternate in l; u is the request that has not finished *)
Inductive Rounds : list cobs -> option creq -> Prop :=
| Ro_none : Rounds [] None
| Ro_request l r : Rounds l None -> Rounds (l ++ [CAccepted r]) (Some r)
| Ro_finished l r e code hs b : Rounds l (Some r) -> Rounds (l ++ [CFinished e code hs b]) None.

Lemma filter_none {A} (f : A -> bool) l : (forall x, In x l -> f x = false) -> filter f l = [].
Proof. induction l as [|x l IH]; intros H; cbn [filter]; auto. rewrite (H x) by now left. apply IH. intros y Hy. apply H. now right. Qed.
Lemma dialog_rounds l s : Dialog l s -> Rounds (filter milestone l) (under_way s).
Proof.
  induction 1; rewrite ?filter_app; cbn [filter milestone under_way] in *; rewrite ?app_nil_r; auto.
  - apply Ro_none.
  - now apply Ro_request.
  - rewrite (filter_none milestone (map CWrite ws)), app_nil_r by (intros x Hx; apply in_map_iff in Hx as (y & <- & _); reflexivity).
    destruct H0 as [-> | ->]; exact IHDialog.
  - rewrite H0 in IHDialog. eapply Ro_finished; eauto.
Qed.

Section Client.
  Variables (zlib : bool) (gunzip : list bytes -> bytes -> bytes) (parse_url : bytes -> url).
  Hypothesis urls : forall b, wf_url (parse_url b).
  Notation step := (cstep zlib gunzip parse_url).
  Notation run := (crun zlib gunzip parse_url).

  Theorem C52_one_finished l : calm_run step cstart l ->
    exists c stk, run cstart l = CRun c stk /\ Rounds (filter milestone (c_log c)) (if c_pending c then Some (c_req c) else None).
  Proof.
    intros Q. pose proof (run_ok zlib gunzip parse_url urls l cstart start_inv Q) as X.
    destruct (run cstart l) as [c stk|]; [|contradiction]. exists c, stk. split; [reflexivity|].
    pose proof (dialog_rounds _ _ (co_dialog _ _ (iv_core _ _ (proj1 X)))) as R.
    unfold place in R. destruct (c_pending c); [|exact R]. destruct (c_dev c); exact R.
  Qed.

  (** everything an observer sees, and what the socket is doing for the request that is under way *)
  Theorem C52_dialog l : calm_run step cstart l ->
    exists c stk s, run cstart l = CRun c stk /\ Dialog (c_log c) s /\
      under_way s = (if c_pending c then Some (c_req c) else None) /\
      (stk = [] -> c_pending c = false -> s = Idle None) /\
      (forall r, s = Calling r -> c_dev c = DConnecting) /\ (forall r, s = Sent r -> c_dev c = DConnected).
  Proof.
    intros Q. pose proof (run_ok zlib gunzip parse_url urls l cstart start_inv Q) as X.
    destruct (run cstart l) as [c stk|]; [|contradiction]. exists c, stk, (place c). split; [reflexivity|].
    split; [exact (co_dialog _ _ (iv_core _ _ (proj1 X)))|]. split; [|split; [|split]].
    - unfold place. destruct (c_pending c); [|reflexivity]. destruct (c_dev c); reflexivity.
    - intros E P. unfold place. rewrite P. f_equal. apply (proj2 X). rewrite (iv_parsing _ _ (proj1 X)), E. reflexivity.
    - intros r. unfold place. destruct (c_pending c); [|discriminate]. destruct (c_dev c); congruence.
    - intros r. unfold place. destruct (c_pending c); [|discriminate]. destruct (c_dev c); congruence.
  Qed.

  (** abort() ends the request at once; without a request nothing is reported *)
  Theorem C52_abort c stk : c_pending c = true ->
    exists c' stk', step (CRun c stk) (CaCall CoAbort) = CRun c' stk' /\ c_pending c' = false /\ c_dev c' = DUnconnected /\
      c_log c' = c_log c ++ [CFinished AbortedError (h_status (r_h (c_p c))) (r_headers (c_p c)) (r_content (c_p c))].
  Proof.
    intros P. cbn [cstep do_cop]. unfold abort, dev_abort. clsimp. rewrite P. unfold emit_finished. do 2 eexists. split; [reflexivity|].
    clsimp. split; [reflexivity|]. split; [reflexivity|]. f_equal. unfold status. clsimp. rsimp.
    assert (E : h_status (hpause (r_h (c_p c))) = h_status (r_h (c_p c))) by (unfold hpause; destruct (h_errno _); reflexivity).
    rewrite E. reflexivity.
  Qed.

  (** so does an error of the socket *)
  Theorem C52_error c stk remote gone : c_pending c = true -> c_dev c <> DUnconnected ->
    exists c' stk', step (CRun c stk) (CaError remote gone) = CRun c' stk' /\ c_pending c' = false /\
      c_log c' = c_log c ++ [CFinished (if remote then RemoteHostClosedError else NetworkError)
                               (h_status (r_h (c_p c))) (r_headers (c_p c)) (r_content (c_p c))].
  Proof.
    intros P Dv. cbn [cstep]. unfold unconnected. destruct (c_dev c) eqn:D; try congruence; unfold device_error;
      destruct gone; clsimp; rewrite P; cbn [negb]; unfold emit_finished, dev_close; do 2 eexists; (split; [reflexivity|]); clsimp; auto.
  Qed.

  (** a connection that fails at once *)
  Theorem C52_connection_failed c r : c_pending c = false -> r_parsing (c_p c) = false -> c_dev c = DUnconnected -> c_plan c = PlFails ->
    exists c' stk', step (CRun c []) (CaCall (CoRequest r)) = CRun c' stk' /\ c_pending c' = false /\
      c_log c' = c_log c ++ [CAccepted r; CConnect (u_host (cr_url r)) (if u_port (cr_url r) =? -1 then 80 else u_port (cr_url r));
                             CFinished NetworkError 0 [] []].
  Proof.
    intros P R Dv Pl. cbn [cstep do_cop]. unfold request. rewrite P, R. clsimp. unfold connected, unconnected. clsimp. rewrite Dv.
    cbn [andb negb]. unfold connectToHost, unconnected. clsimp. rewrite Dv. cbn [negb]. rewrite Pl. unfold device_error. clsimp. cbn [negb].
    unfold emit_finished, dev_close. do 2 eexists. split; [reflexivity|]. clsimp. split; [reflexivity|].
    unfold status, rclear. clsimp. rsimp. rewrite R. rsimp. rewrite <- !app_assoc. reflexivity.
  Qed.

  (** while no request is under way, aborting and the events of the socket report nothing *)
  Theorem C52_quiet c a : c_pending c = false ->
    (match a with CaCall CoAbort | CaReadyRead | CaArrive _ | CaConnected | CaError _ _ | CaFlushed => True | _ => False end) ->
    exists c', step (CRun c []) a = CRun c' [] /\ c_pending c' = false /\ c_log c' = c_log c.
  Proof.
    intros P Ha. destruct a as [o| | |b| |rem gone| |b|p]; try contradiction; cbn [cstep cresume].
    - destruct o; try contradiction. cbn [do_cop]. unfold abort, dev_abort. clsimp. rewrite P. eexists. split; [reflexivity|]. auto.
    - unfold device_readyRead. rewrite P. cbn [negb]. eexists. split; [reflexivity|]. auto.
    - destruct (connected c); eexists; (split; [reflexivity|]); auto.
    - destruct (c_dev c); [eexists; split; [reflexivity|]; auto| |eexists; split; [reflexivity|]; auto..].
      unfold sendRequest. clsimp. rewrite P. cbn [negb]. eexists; split; [reflexivity|]; auto.
    - destruct (unconnected c); [eexists; (split; [reflexivity|]); auto|]. unfold device_error. destruct gone; clsimp; rewrite P; cbn [negb]; eexists; (split; [reflexivity|]); auto.
    - eexists. split; [reflexivity|]. auto.
  Qed.
End Client.

(** ** Concrete histories *)
Definition no_gunzip (fed : list bytes) (b : bytes) : bytes := b.
Definition no_url (b : bytes) : url := mkUrl [] (-1) [] [].
Definition demo_url : url := mkUrl (lit "example.org") (-1) (lit "/a") [].
Definition demo (m : string) : creq := mkCR (lit m) demo_url [] [].
Notation drun := (crun false no_gunzip no_url).
Notation dstep := (cstep false no_gunzip no_url).
Definition log_of (g : ccfg) : list cobs := match g with CRun c _ => c_log c | CUB _ => [] end.
Definition mile_names (l : list cobs) : list (bool * option cerror) :=
  map (fun o => match o with CFinished e _ _ _ => (false, Some e) | _ => (true, None) end) (filter milestone l).

Ltac calm_concrete := vm_compute; repeat (split; [intuition (discriminate || congruence)|]); exact Logic.I.

(* a request, its response in two pieces, another request from the slot of finished(), and an abort *)
Definition demo_run : list caction :=
  [CaCall (CoRequest (demo "GET")); CaConnected; CaFlushed; CaArrive (lit "HTTP/1.1 200 OK" ++ CRLF); CaReadyRead;
   CaArrive (lit "Content-Length: 2" ++ CRLF ++ CRLF ++ lit "hi"); CaReadyRead; CaReturn; CaReturn;
   CaCall (CoRequest (demo "HEAD")); CaReturn; CaCall CoAbort; CaReturn].
Lemma C52_one_finished_example : calm_run dstep cstart demo_run /\
  mile_names (log_of (drun cstart demo_run)) = [(true, None); (false, Some NoError); (true, None); (false, Some AbortedError)] /\
  length (log_of (drun cstart demo_run)) = 10%nat.
Proof. split; [calm_concrete|]. split; vm_compute; reflexivity. Qed.

(** ** What fails *)
(** abort() in the slot of headersCompleted() of a HEAD request: finished() twice *)
Theorem C52_head_abort_refuted :
  mile_names (log_of (drun cstart
    [CaCall (CoRequest (demo "HEAD")); CaConnected; CaArrive (lit "HTTP/1.1 200 OK" ++ CRLF ++ CRLF); CaReadyRead;
     CaCall CoAbort; CaReturn; CaReturn; CaReturn])) = [(true, None); (false, Some AbortedError); (false, Some AbortedError)].
Proof. vm_compute. reflexivity. Qed.

(** the socket fails while a slot of headersCompleted() runs an event loop: finished() twice *)
Theorem C52_nested_error_refuted :
  mile_names (log_of (drun cstart
    [CaCall (CoRequest (demo "GET")); CaConnected; CaArrive (lit "HTTP/1.1 200 OK" ++ CRLF ++ lit "Content-Length: 0" ++ CRLF ++ CRLF); CaReadyRead;
     CaError true true; CaReturn; CaReturn; CaReturn])) = [(true, None); (false, Some RemoteHostClosedError); (false, Some RemoteHostClosedError)].
Proof. vm_compute. reflexivity. Qed.

Definition answer_ok : bytes := lit "HTTP/1.1 200 OK" ++ CRLF ++ lit "Content-Length: 0" ++ CRLF ++ CRLF.
Definition kept_run : list caction :=
  [CaCall (CoRequest (demo "GET")); CaConnected; CaFlushed; CaArrive answer_ok; CaReadyRead; CaReturn;
   CaCall (CoRequest (demo "PUT")); CaCall (CoRequest (demo "DELETE")); CaReturn].
(** of two requests made in the slots of finished(), the first one is dropped without a word *)
Theorem C52_kept_replaced_refuted : exists c,
  calm_run dstep cstart kept_run /\ drun cstart kept_run = CRun c [] /\
  In (CKept (demo "PUT")) (c_log c) /\ ~ In (CAccepted (demo "PUT")) (c_log c) /\ c_next c = None /\ c_req c = demo "DELETE".
Proof.
  eexists. split; [calm_concrete|]. split; [vm_compute; reflexivity|].
  split; [vm_compute; tauto|]. split; [|split; vm_compute; reflexivity]. vm_compute. intuition discriminate.
Qed.

(** abort() does not cancel a request made in the slots of finished(): it is sent afterwards *)
Theorem C52_kept_abort_refuted : exists c,
  let l := [CaCall (CoRequest (demo "GET")); CaConnected; CaFlushed; CaArrive answer_ok; CaReadyRead; CaReturn;
            CaCall (CoRequest (demo "PUT")); CaCall CoAbort; CaReturn] in
  calm_run dstep cstart l /\ drun cstart l = CRun c [] /\ c_pending c = true /\ c_req c = demo "PUT" /\ c_dev c = DConnecting.
Proof. eexists. cbn zeta. split; [calm_concrete|]. split; [vm_compute; reflexivity|]. vm_compute. auto. Qed.

(** ** A request that never ends *)
(* the server answered, and asked to close, before everything was sent; the next request is made while the socket closes *)
Definition stuck_run : list caction :=
  [CaCall (CoRequest (mkCR (lit "POST") demo_url [] (lit "data"))); CaConnected;
   CaArrive (lit "HTTP/1.1 413 Too large" ++ CRLF ++ lit "Connection: close" ++ CRLF ++ lit "Content-Length: 0" ++ CRLF ++ CRLF);
   CaReadyRead; CaReturn; CaReturn; CaCall (CoRequest (demo "GET")); CaFlushed].
Definition by_the_user (a : caction) : bool := match a with CaCall _ => true | _ => false end.
Definition Stuck (c : client) : Prop := c_pending c = true /\ c_dev c = DUnconnected /\ c_in c = [].
Lemma stuck_step zlib gunzip parse_url c a : Stuck c -> by_the_user a = false ->
  exists c', cstep zlib gunzip parse_url (CRun c []) a = CRun c' [] /\ Stuck c' /\ c_log c' = c_log c.
Proof.
  intros (P & D & E) H. unfold Stuck. destruct a as [o| | |b| |rem gone| |b|p]; try discriminate; cbn [cstep cresume].
  - eexists. split; [reflexivity|]. auto.
  - unfold device_readyRead. rewrite P, E. cbn [negb]. eexists. split; [reflexivity|]. auto.
  - unfold connected. rewrite D. eexists. split; [reflexivity|]. auto.
  - rewrite D. eexists. split; [reflexivity|]. auto.
  - unfold unconnected. rewrite D. eexists. split; [reflexivity|]. auto.
  - eexists. split; [reflexivity|]. clsimp. rewrite D. auto.
  - eexists. split; [reflexivity|]. clsimp. auto.
  - eexists. split; [reflexivity|]. clsimp. auto.
Qed.
Lemma stuck_forever zlib gunzip parse_url : forall l c, Stuck c -> forallb (fun a => negb (by_the_user a)) l = true ->
  exists c', crun zlib gunzip parse_url (CRun c []) l = CRun c' [] /\ Stuck c' /\ c_log c' = c_log c.
Proof.
  induction l as [|a l IH]; intros c S H; [exists c; cbn; auto|]. cbn [forallb] in H. apply andb_prop in H as [H1 H2]. apply negb_true_iff in H1.
  destruct (stuck_step zlib gunzip parse_url c a S H1) as (c1 & E1 & S1 & L1). destruct (IH c1 S1 H2) as (c2 & E2 & S2 & L2).
  exists c2. split; [|split; [exact S2|congruence]]. unfold crun. cbn [fold_left]. rewrite E1. exact E2.
Qed.
Theorem C52_never_finished_refuted : exists c, drun cstart stuck_run = CRun c [] /\ calm_run dstep cstart stuck_run /\
  c_pending c = true /\ c_req c = demo "GET" /\
  forall l, forallb (fun a => negb (by_the_user a)) l = true ->
    exists c', drun (CRun c []) l = CRun c' [] /\ c_pending c' = true /\ c_log c' = c_log c.
Proof.
  eexists. split; [vm_compute; reflexivity|]. split; [calm_concrete|]. split; [reflexivity|]. split; [reflexivity|].
  intros l H. edestruct (stuck_forever false no_gunzip no_url l) as (c' & E & S & L); [|exact H|].
  2:{ exists c'. split; [exact E|]. split; [apply S|exact L]. }
  split; [reflexivity|]. split; reflexivity.
Qed.
