(** PROPERTY C10: a re-initialized connection is fresh. *)
From Verif Require Import Bytes ByteHelpers Thin Helpers ReqGrammar TextSpec ThinProofs ThinFields ThinTop CIProofs HelpersProofs
  Conn ConnSpec ConnView ConnText ConnHead ConnInv ConnStep ConnEnd ConnLog PropsParser PropsConn ConnSend ConnFree PropsConn2 PropsConn3 PropsConn4 ConnReinit.
Open Scope Z_scope.

(** [alike fresh re]: after the same actions, the two connections show the same: same state, same suspended
    signals, same announcements and writes (with all the request fields announced), same bytes consumed and
    waiting; the running request, while there is one, is the same.  Not compared: what happens once one of
    them touched memory it does not own. *)
Definition memory_fault (g : cfg) : Prop := match g with UB UseAfterFree _ | UB SharedNullWrite _ => True | _ => False end.
Definition alike (g1 g2 : cfg) : Prop :=
  match g1, g2 with
  | Run c1 s1, Run c2 s2 => s1 = s2 /\ st c1 = st c2 /\ log c1 = log c2 /\ arrived c1 = arrived c2 /\ avail c1 = avail c2 /\ pending c1 = pending c2 /\
      (st c1 = SendingHeaders \/ st c1 = SendingContent \/ st c1 = Completed -> req c1 = req c2)
  | UB r1 _, UB r2 _ => r1 = r2
  | _, _ => False
  end.
Lemma SimG_alike g1 g2 : SimG g1 g2 -> alike g1 g2 \/ memory_fault g1 \/ memory_fault g2.
Proof.
  assert (M : forall r c, memory r -> memory_fault (UB r c)) by (intros r c [->| ->]; exact I).
  destruct g1 as [c1 s1|r1 c1], g2 as [c2 s2|r2 c2]; cbn [SimG alike]; intros H; auto.
  - left. destruct H as (E & T & -> & O). tws. repeat (split; [easy|]). intros Hs. destruct O as [(L & _)|(Ee & _)]; [easy|].
    destruct (st c1); cbn in Ee; try contradiction; now destruct Hs as [|[|]].
  - destruct H as [H|[H|H]]; auto.
Qed.

Definition new_devices (is_socket : bool) (data : bytes) : action := ACall (OpInit (NewDevice true true is_socket data)).

Definition fresh_conn (so : bool) (data : bytes) (p : tparser) (cp : Z) (nu fr : bool) (r : request) (rs rl rt : Z) (ka ch : bool) : conn :=
  mkC ReceivingHeaders true true data so 0 0 false (mkTS p [] (-1)) [] cp nu r fr 0 false rs rl rt ka ch [] [] data.
Lemma init_fresh so data c : st c = Closed \/ st c = Uninitialized -> hbuf c = [] ->
  let d := init2 (init1 (NewDevice true true so data) c) in
  toReceivingHeaders d = fresh_conn so data (tp_init tp_zero) (cap d) (isnull d) (freed d) (req d) (rstatus d) (rlen d) (rsent d) (keepalive d) (chunked d).
Proof.
  intros Hs Hh d.
  assert (D : (st d = Closed \/ st d = Uninitialized) /\ hbuf d = [] /\ in_ok d = true /\ out_ok d = true /\ avail d = data /\ sock d = so /\ pending d = 0 /\ kcap d = 0 /\ drain_conn d = false /\
    tp (ps d) = tp_zero /\ refs (ps d) = [] /\ buf d = [] /\ log d = [] /\ arrived d = data).
  { unfold d, init2, init1. cbv zeta. csimp. destruct (cap c <=? _); csimp; cbn [tp refs]; auto 20. }
  clearbody d. destruct D as (D1 & D2 & D3 & D4 & D5 & D6 & D7 & D8 & D9 & D10 & D11 & D12 & D13 & D14).
  unfold toReceivingHeaders. replace (cst_eqb (st d) ReceivingHeaders) with false by (destruct D1 as [D1|D1]; rewrite D1; reflexivity).
  cbv zeta. csimp. rewrite D10, D11.
  destruct d as [a1 a2 a3 a4 a5 a6 a7 a8 a9 b1 b2 b3 b4 b5 b6 b7 b8 b9 d1 d2 d3 d4 d5 d6]. csimp in *. rewrite D2, D3, D4, D5, D6, D7, D8, D9, D12, D13, D14. reflexivity.
Qed.
Lemma init_sim c so data : st c = Closed -> hbuf c = [] -> SimG (step start (new_devices so data)) (step (Run c []) (new_devices so data)).
Proof.
  intros Hs Hh. unfold new_devices. cbn [step do_op start]. rewrite !initialize_eq.
  rewrite (init_fresh so data c (or_introl Hs) Hh), (init_fresh so data conn0 (or_intror eq_refl) eq_refl).
  destruct (isnull (init1 _ conn0) && _) eqn:E; [discriminate E|]. clear E. destruct (isnull (init1 _ c) && _); [apply simg_mem2; now right|].
  set (d := init2 (init1 _ c)). set (d0 := init2 (init1 _ conn0)). clearbody d d0. unfold fresh_conn at 1 3. csimp. cbn [resume].
  split; [reflexivity|].
  exists (mkT (cap d) (isnull d) (freed d) (rstatus d) (req d) (rlen d) (rsent d) (keepalive d) (chunked d)). split; [|right; split; [exact I|constructor]].
  generalize (tp_init tp_zero). intros p.
  generalize (cap d) (isnull d) (freed d) (req d) (rstatus d) (rlen d) (rsent d) (keepalive d) (chunked d).
  generalize (cap d0) (isnull d0) (freed d0) (req d0) (rstatus d0) (rlen d0) (rsent d0) (keepalive d0) (chunked d0).
  intros. vm_compute. reflexivity.
Qed.

(** Partial: it holds up to accesses to released or shared memory.  What is missing of the full statement: the
    recycled connection should then never fault when a new one does not; that is false, see C10_refuted. *)
Theorem C10_fresh_partial : forall c so data l, reached c [] -> st c = Closed ->
  let fresh := run (step start (new_devices so data)) l in
  let again := run (step (Run c []) (new_devices so data)) l in
  alike fresh again \/ memory_fault fresh \/ memory_fault again.
Proof.
  intros c so data l H Hs fresh again. apply SimG_alike. apply s_run, init_sim; auto.
  apply reached_inv in H. destruct H as [E|H|ms m more l' s t H|ms s t H|[(H & B)|(H & Hh & _)] Hf|(H & Hh & _) Hc]; try congruence; auto.
  - destruct H as [(ms & [[]])|[(ms & h & l' & hb & rest & [] & _)|[(ms & m & more & l' & [])|(ms & m & more & l' & a & len & pcs & evs & [])]]]; congruence.
  - destruct H. congruence.
  - destruct H. congruence.
Qed.

(** after a request whose buffer grew beyond 32768 bytes, initialize() writes into memory shared by the whole process *)
Definition big_request : bytes := lit "POST / HTTP/1.1" ++ CRLF ++ lit "Content-Length: 33000" ++ CRLF ++ CRLF ++ repeat "x"%char (Z.to_nat 33000).
Definition big_life : list action :=
  [new_devices true big_request; ACall OpProcess; ACall (OpWriteResponse 200 [] (lit "ok")); AReturn; AReturn; ACall OpClose; AReturn].
Theorem C10_refuted : exists c, polite_run start big_life /\ run start big_life = Run c [] /\ st c = Closed /\
  memory_fault (step (Run c []) (new_devices true [])) /\ ~ memory_fault (step start (new_devices true [])).
Proof.
  assert (P : polite_run start big_life) by (apply politeb_run_ok; vm_compute; reflexivity).
  assert (X : match run start big_life with Run c [] => cst_eqb (st c) Closed && isnull c && (cap c <=? MaxHead) | _ => false end = true) by (vm_compute; reflexivity).
  destruct (run start big_life) as [c [|f t]|r c]; try discriminate. exists c. apply andb_true_iff in X as (X & X3). apply andb_true_iff in X as (X1 & X2).
  split; [exact P|]. split; [reflexivity|]. split; [now apply cst_eqb_eq|]. split; [|cbn; auto].
  unfold new_devices. cbn [step do_op]. rewrite initialize_eq. unfold init1. csimp. rewrite X2, X3. exact I.
Qed.
(** a connection closed in the middle of an aborted upload, used again: the follow-up is as on a new one *)
Definition aborted_life : list action :=
  [new_devices true (lit "GET /a HTTP/1.1" ++ CRLF ++ CRLF ++ lit "POST /b HTTP/1.1" ++ CRLF ++ lit "Content-Length: 50" ++ CRLF ++ CRLF ++ lit "part"); ACall OpProcess;
   ACall (OpWriteHeaders 200 [(lit "Transfer-Encoding", lit "chunked")]); ACall (OpWriteContent (lit "x")); ACall OpEndContent; AReturn; AReturn; ACall OpClose; AReturn].
Example C10_case : exists c, reached c [] /\ st c = Closed /\
  let go g := run (step g (new_devices true (lit "GET /c HTTP/1.1" ++ CRLF ++ CRLF))) [ACall OpProcess; ACall (OpWriteResponse 404 [] []); AReturn; AReturn] in
  exists c', go (Run c []) = Run c' [] /\ log c' = log (gconn (go start)) /\ 3 <= Z.of_nat (length (log c')).
Proof.
  assert (P : polite_run start aborted_life) by (apply politeb_run_ok; vm_compute; reflexivity).
  eexists. split; [exists aborted_life; split; [exact P|vm_compute; reflexivity]|]. split; [reflexivity|]. cbv zeta. eexists. split; [vm_compute; reflexivity|]. split; [vm_compute; reflexivity|apply Z.leb_le; vm_compute; reflexivity].
Qed.
