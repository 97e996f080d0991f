(** PROPERTY C21: closing waits for the output to drain. *)
From Verif Require Import Bytes ByteHelpers Thin Helpers ReqGrammar TextSpec ThinProofs ThinFields ThinTop CIProofs HelpersProofs
  Conn ConnSpec ConnView ConnText ConnHead ConnInv ConnStep ConnEnd ConnLog PropsParser PropsConn ConnSend ConnFree PropsConn2 PropsConn3 ConnDrain.
Open Scope Z_scope.

(** devices are closed with an empty output buffer, whatever happens, except by close() *)
Theorem C21_shut_drained : forall c stk a, reached c stk -> resets a = false -> a <> ACall OpClose ->
  exists e, log (gconn (step (Run c stk) a)) = log c ++ e /\ forall p, In (OShut p) e -> p = 0.
Proof.
  intros c stk a H HR HC. set (P := fun o => match o with OShut p => p = 0 | _ => True end).
  enough (Q : exists e, log (gconn (step (Run c stk) a)) = log c ++ e /\ Forall P e).
  { destruct Q as (e & E & F). exists e. split; auto. intros p Hp. rewrite Forall_forall in F. now apply F in Hp. }
  assert (Z : forall g, log (gconn g) = log c -> exists e, log (gconn g) = log c ++ e /\ Forall P e).
  { intros g E. exists []. rewrite app_nil_r. auto. }
  destruct a as [o| |b|n|n]; cbn [step].
  - apply (adds_op P); cbn; auto. intros ->. contradiction.
  - destruct stk as [|[s| | | | | | | ] t]; try now apply Z. apply (adds_resume P); cbn; auto.
  - destruct (_ && _); now apply Z.
  - now apply Z.
  - cbv zeta. csimp. destruct (drain_conn c); [|now apply Z].
    change (log c) with (log (set_pending (pending c - Z.max 0 (Z.min n (pending c))) c)). apply (adds_drain P); cbn; auto.
    apply (adds_resume P); cbn; auto.
Qed.

(** a connection being flushed writes and announces nothing more: it stays so until it is closed *)
Theorem C21_flushing_then_closed : forall c stk l, reached c stk -> st c = Flushing -> (forall a, In a l -> resets a = false) ->
  settled_log (log c) (run (Run c stk) l).
Proof.
  intros c stk l H Hs HR. apply frozen_settled, run_frozen; [|now apply forallb_nores]. apply reached_inv in H.
  destruct H as [E|H|ms m more l' s t H|ms s t H|[(H & B)|(H & _)] Hf|(H & _) Hc]; try congruence.
  - destruct H as [(ms & [[]])|[(ms & h & l' & hb & rest & [] & _)|[(ms & m & more & l' & [])|(ms & m & more & l' & a & len & pcs & evs & [])]]]; congruence.
  - destruct H. congruence.
  - destruct H. congruence.
  - left. split; auto. left. destruct B as (ms & rest & l' & t & [] & _). auto.
Qed.
(** each bytesWritten notification retries: when nothing is left to write, the devices are closed and closed() is emitted *)
Theorem C21_bytesWritten_closes : forall c stk n, reached c stk -> st c = Flushing -> ~ In KFlushing stk -> pending c <= n ->
  exists c', step (Run c stk) (AWritten n) = Run c' (KSig SClosed :: KClosed :: stk) /\ st c' = Closed /\ log c' = log c ++ [OShut 0; OClosed].
Proof.
  intros c stk n H Hs HK Hn. destruct (reached_D _ _ H) as (Hp & HD). destruct (HD Hs) as (Ho & [Hd|Hd]); [|contradiction].
  assert (E0 : pending c - Z.max 0 (Z.min n (pending c)) = 0) by lia.
  cbn [step]. cbv zeta. csimp. rewrite Hd, E0. unfold drain. csimp. rewrite Hs. cbn [cst_eqb negb]. unfold flush. csimp.
  rewrite Ho. cbn [andb Z.ltb Z.compare]. unfold drain_tail. csimp. rewrite Ho. cbn [andb Z.eqb]. unfold toClosed. csimp. rewrite Hs. cbn [cst_eqb]. rewrite Ho, orb_true_r.
  eexists. split; [reflexivity|]. unfold emit_log. csimp. split; auto. now rewrite <- app_assoc.
Qed.
(** and as long as something is left, it stays open *)
Theorem C21_bytesWritten_waits : forall c stk n, reached c stk -> st c = Flushing -> 0 <= n < pending c ->
  exists c' stk', step (Run c stk) (AWritten n) = Run c' stk' /\ st c' = Flushing /\ log c' = log c /\ out_ok c' = true.
Proof.
  intros c stk n H Hs Hn. destruct (reached_D _ _ H) as (Hp & HD). destruct (HD Hs) as (Ho & _).
  pose proof (reached_settled' _ _ H) as ST.
  cbn [step]. cbv zeta. csimp. destruct (drain_conn c); [|(eexists _, _; split; [reflexivity|]; csimp; auto)]. unfold drain. csimp. rewrite Hs. cbn [cst_eqb negb]. unfold flush. csimp.
  destruct (_ && _); [(eexists _, _; split; [reflexivity|]; csimp; auto)|]. unfold drain_tail. csimp.
  replace (pending c - Z.max 0 (Z.min n (pending c)) =? 0) with false by (symmetry; apply Z.eqb_neq; lia).
  rewrite andb_false_r, settled_resume by auto. (eexists _, _; split; [reflexivity|]; csimp; auto).
Qed.
(** drain() with an empty buffer closes; so does the return of the slots of a bytesWritten emitted by the flush in drain() *)
Theorem C21_drain_closes : forall c stk, reached c stk -> st c = Flushing -> pending c = 0 ->
  exists c', step (Run c stk) (ACall OpDrain) = Run c' (KSig SClosed :: KClosed :: stk) /\ st c' = Closed /\ log c' = log c ++ [OShut 0; OClosed].
Proof.
  intros c stk H Hs E0. destruct (reached_D _ _ H) as (Hp & HD). destruct (HD Hs) as (Ho & _).
  cbn [step do_op]. unfold drain. rewrite Hs. cbn [cst_eqb negb]. unfold flush. rewrite E0, Ho. cbn [andb Z.ltb Z.compare]. unfold drain_tail. rewrite Ho, E0. cbn [andb Z.eqb].
  unfold toClosed. rewrite Hs. cbn [cst_eqb]. csimp. rewrite Ho, orb_true_r. eexists. split; [reflexivity|]. unfold emit_log. csimp. rewrite E0. split; auto. now rewrite <- app_assoc.
Qed.
(** the end of a response without keep-alive, or of an error response, puts the connection in Flushing or closes it: C16, C05-C07 *)
Definition flushing1 : conn := run_conn [ACall (OpInit (NewDevice true true true text1)); ACall OpProcess;
  ACall (OpWriteResponse 200 [(lit "Connection", lit "close")] (lit "content")); AReturn; AReturn; AKernel 10; AWritten 20].
Example C21_case : reached flushing1 [KSig SWritten; KDrain] /\ st flushing1 = Flushing /\ 0 < pending flushing1 /\ ~ In KFlushing [KSig SWritten; KDrain].
Proof.
  split; [apply reached_run; vm_compute; reflexivity|]. split; [vm_compute; reflexivity|]. split; [vm_compute; reflexivity|]. intros [|[|[]]]; discriminate.
Qed.
