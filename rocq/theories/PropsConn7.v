(** C21, C18: no byte is lost between the connection and the kernel; the devices are let go. *)
From Verif Require Import Bytes ByteHelpers Thin Helpers Conn ConnSpec ConnStep ConnAcct PropsConn ConnDrain PropsConn5.
Open Scope Z_scope.

Lemma reached_let_go c stk : reached c stk -> Let_go c stk.
Proof. intros (l & _ & E). pose proof (run_let_go l start) as H. rewrite E in H. apply H. discriminate. Qed.

(** When the slots of closed() have returned, the connection has no devices any more.  In any state where it does, what
    is closed has announced it, see C18_signal_order. *)
Theorem C18_devices_released : forall c stk, reached c stk -> st c = Closed -> ~ In KClosed stk -> in_ok c = false /\ out_ok c = false.
Proof. intros c stk H E N. destruct (reached_let_go _ _ H E); [contradiction|auto]. Qed.

(** [l]: actions without initialize, on a connection with a socket; every byte written since is either buffered by the socket
    or was taken by the kernel *)
Theorem C21_accounting : forall l c stk c' stk', reached c stk -> sock c = true -> (forall a, In a l -> resets a = false) ->
  run (Run c stk) l = Run c' stk' ->
  blen (written (log c')) + pending c = blen (written (log c)) + pending c' + handed_run (Run c stk) l /\
  0 <= pending c' /\ 0 <= handed_run (Run c stk) l.
Proof.
  intros l c stk c' stk' H S HR E. assert (L := reached_let_go _ _ H). destruct (reached_D _ _ H) as (P & _). clear H.
  revert c stk S P L E. induction l as [|a l IH]; intros c stk S P L E; unfold handed_run in *; cbn [run fold_left handed_by] in *.
  - injection E as <- <-. lia.
  - assert (Ra : resets a = false) by (apply HR; now left).
    destruct (step_acct c stk a Ra P S L) as (A1 & A2 & A3 & A4). pose proof (step_let_go (Run c stk) a L) as L1.
    destruct (step (Run c stk) a) as [c1 s1|r c1] eqn:Q.
    + cbn [gconn] in *. destruct (IH (fun x Hx => HR x (or_intror Hx)) c1 s1 A2 A3 L1 E). lia.
    + exfalso. clear - E. induction l; cbn in E; [discriminate|auto].
Qed.
(** so when the devices are closed with an empty buffer (C21_shut_drained), everything written was taken *)
Corollary C21_everything_taken : forall l c stk c' stk', reached c stk -> sock c = true -> pending c = 0 -> (forall a, In a l -> resets a = false) ->
  run (Run c stk) l = Run c' stk' -> pending c' = 0 -> exists new, written (log c') = written (log c) ++ new /\ handed_run (Run c stk) l = blen new.
Proof.
  intros l c stk c' stk' H S P0 HR E P1. destruct (C21_accounting l c stk c' stk' H S HR E) as (A & _).
  assert (G : exists e, log c' = log c ++ e).
  { clear - HR E. assert (X : exists e, log (gconn (run (Run c stk) l)) = log (gconn (Run c stk)) ++ e).
    { clear E. generalize (Run c stk). induction l as [|a l IH]; intros g; [exists []; cbn; now rewrite app_nil_r|].
      cbn [run fold_left]. destruct (step_log g a (HR a (or_introl eq_refl))) as [e1 E1]. destruct (IH (fun x Hx => HR x (or_intror Hx)) (step g a)) as [e2 E2].
      exists (e1 ++ e2). unfold run in E2. rewrite E2, E1, app_assoc. reflexivity. }
    rewrite E in X. exact X. }
  destruct G as [e Ge]. exists (written e).
  assert (W : written (log c') = written (log c) ++ written e).
  { rewrite Ge. clear. induction (log c) as [|o t IH]; [reflexivity|]. cbn [app written]. destruct o; rewrite ?IH, ?app_assoc; reflexivity. }
  split; [exact W|]. rewrite W, blen_app in A. lia.
Qed.
Definition taken_case : list action := [ACall OpProcess;
  ACall (OpWriteResponse 200 [(lit "Connection", lit "close")] (lit "content")); AReturn; AReturn; AKernel 10; AWritten 20; AReturn; AWritten 1000; AReturn].
Example C21_accounting_case :
  let c := run_conn [ACall (OpInit (NewDevice true true true text1))] in
  reached c [] /\ sock c = true /\ pending c = 0 /\ (exists c', run (Run c []) taken_case = Run c' [] /\ pending c' = 0 /\ st c' = Closed) /\
  handed_run (Run c []) taken_case = 90.
Proof.
  cbn zeta. split; [apply reached_run; vm_compute; reflexivity|]. split; [vm_compute; reflexivity|]. split; [vm_compute; reflexivity|].
  split; [eexists; split; [vm_compute; reflexivity|]; vm_compute; auto|vm_compute; reflexivity].
Qed.
