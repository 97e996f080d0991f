(** Two connections that differ only in what does not matter stay so: used for re-initialized connections. *)
From Verif Require Import Bytes ByteHelpers Thin Helpers ReqGrammar TextSpec
  Conn ConnSpec ConnText ConnHead ConnInv ConnStep ConnEnd ConnLog PropsConn ConnSend.
Open Scope Z_scope.

(* what may differ: memory (cap, isnull, freed), responseStatusCode(), and, before the first request is
   announced, the request and response fields *)
Record tweak := mkT { t_cap : Z; t_null : bool; t_freed : bool; t_status : Z;
  t_req : request; t_rlen : Z; t_rsent : Z; t_ka : bool; t_ch : bool }.
Definition tw (T : tweak) (c : conn) : conn :=
  set_cap (t_cap T) (set_isnull (t_null T) (set_freed (t_freed T) (set_rstatus (t_status T)
   (set_req (t_req T) (set_rlen (t_rlen T) (set_rsent (t_rsent T) (set_keepalive (t_ka T) (set_chunked (t_ch T) c)))))))).
Definition late (T : tweak) (c : conn) : Prop :=
  t_req T = req c /\ t_rlen T = rlen c /\ t_rsent T = rsent c /\ t_ka T = keepalive c /\ t_ch T = chunked c.
Definition early_st (s : cst) : Prop := match s with ReceivingHeaders | ReceivingContent | Flushing | Closed => True | _ => False end.
Definition early_frame (f : frame) : Prop := match f with KSig _ | KDrain | KFlushing | KClosed => True | _ => False end.
Definition ok (T : tweak) (c : conn) (stk : list frame) : Prop := late T c \/ early_st (st c) /\ Forall early_frame stk.
Definition Sim (stk : list frame) (c1 c2 : conn) : Prop := exists T, c2 = tw T c1 /\ ok T c1 stk.
Definition memory (r : ubreason) : Prop := r = UseAfterFree \/ r = SharedNullWrite.
Definition SimG (g1 g2 : cfg) : Prop :=
  match g1, g2 with
  | Run c1 s1, Run c2 s2 => s1 = s2 /\ Sim s1 c1 c2
  | UB r1 _, UB r2 _ => r1 = r2 \/ memory r1 \/ memory r2
  | UB r _, Run _ _ | Run _ _, UB r _ => memory r
  end.
Lemma simg_ub r c1 c2 : SimG (UB r c1) (UB r c2). Proof. cbn. auto. Qed.
Lemma simg_mem1 r c1 g : memory r -> SimG (UB r c1) g. Proof. destruct g; cbn; auto. Qed.
Lemma simg_mem2 r c1 g : memory r -> SimG g (UB r c1). Proof. destruct g; cbn; auto. Qed.
Lemma tw_eq T c c' : ok T c' [] -> c = tw T c' -> exists T, c = tw T c' . Proof. eauto. Qed.
Definition with_mem (c : conn) (T : tweak) : tweak :=
  mkT (t_cap T) (t_null T) (t_freed T) (t_status T) (req c) (rlen c) (rsent c) (keepalive c) (chunked c).
Lemma late_eq T c : late T c -> tw T c = set_cap (t_cap T) (set_isnull (t_null T) (set_freed (t_freed T) (set_rstatus (t_status T) c))).
Proof. intros (H1 & H2 & H3 & H4 & H5). unfold tw. rewrite H1, H2, H3, H4, H5. now destruct c. Qed.

Lemma tw_st T c : st (tw T c) = st c. Proof. reflexivity. Qed.
Lemma tws_st T v c : set_st v (tw T c) = tw T (set_st v c). Proof. reflexivity. Qed.
Lemma tw_in_ok T c : in_ok (tw T c) = in_ok c. Proof. reflexivity. Qed.
Lemma tws_in_ok T v c : set_in_ok v (tw T c) = tw T (set_in_ok v c). Proof. reflexivity. Qed.
Lemma tw_out_ok T c : out_ok (tw T c) = out_ok c. Proof. reflexivity. Qed.
Lemma tws_out_ok T v c : set_out_ok v (tw T c) = tw T (set_out_ok v c). Proof. reflexivity. Qed.
Lemma tw_avail T c : avail (tw T c) = avail c. Proof. reflexivity. Qed.
Lemma tws_avail T v c : set_avail v (tw T c) = tw T (set_avail v c). Proof. reflexivity. Qed.
Lemma tw_sock T c : sock (tw T c) = sock c. Proof. reflexivity. Qed.
Lemma tws_sock T v c : set_sock v (tw T c) = tw T (set_sock v c). Proof. reflexivity. Qed.
Lemma tw_pending T c : pending (tw T c) = pending c. Proof. reflexivity. Qed.
Lemma tws_pending T v c : set_pending v (tw T c) = tw T (set_pending v c). Proof. reflexivity. Qed.
Lemma tw_kcap T c : kcap (tw T c) = kcap c. Proof. reflexivity. Qed.
Lemma tws_kcap T v c : set_kcap v (tw T c) = tw T (set_kcap v c). Proof. reflexivity. Qed.
Lemma tw_drain_conn T c : drain_conn (tw T c) = drain_conn c. Proof. reflexivity. Qed.
Lemma tws_drain_conn T v c : set_drain_conn v (tw T c) = tw T (set_drain_conn v c). Proof. reflexivity. Qed.
Lemma tw_ps T c : ps (tw T c) = ps c. Proof. reflexivity. Qed.
Lemma tws_ps T v c : set_ps v (tw T c) = tw T (set_ps v c). Proof. reflexivity. Qed.
Lemma tw_buf T c : buf (tw T c) = buf c. Proof. reflexivity. Qed.
Lemma tws_buf T v c : set_buf v (tw T c) = tw T (set_buf v c). Proof. reflexivity. Qed.
Lemma tw_cl T c : cl (tw T c) = cl c. Proof. reflexivity. Qed.
Lemma tws_cl T v c : set_cl v (tw T c) = tw T (set_cl v c). Proof. reflexivity. Qed.
Lemma tw_http11 T c : http11 (tw T c) = http11 c. Proof. reflexivity. Qed.
Lemma tws_http11 T v c : set_http11 v (tw T c) = tw T (set_http11 v c). Proof. reflexivity. Qed.
Lemma tw_hbuf T c : hbuf (tw T c) = hbuf c. Proof. reflexivity. Qed.
Lemma tws_hbuf T v c : set_hbuf v (tw T c) = tw T (set_hbuf v c). Proof. reflexivity. Qed.
Lemma tw_log T c : log (tw T c) = log c. Proof. reflexivity. Qed.
Lemma tws_log T v c : set_log v (tw T c) = tw T (set_log v c). Proof. reflexivity. Qed.
Lemma tw_arrived T c : arrived (tw T c) = arrived c. Proof. reflexivity. Qed.
Lemma tws_arrived T v c : set_arrived v (tw T c) = tw T (set_arrived v c). Proof. reflexivity. Qed.
Lemma tw_req T c : req (tw T c) = t_req T. Proof. reflexivity. Qed.
Lemma tw_cap T c : cap (tw T c) = t_cap T. Proof. reflexivity. Qed.
Lemma tw_isnull T c : isnull (tw T c) = t_null T. Proof. reflexivity. Qed.
Lemma tw_freed T c : freed (tw T c) = t_freed T. Proof. reflexivity. Qed.
Lemma tw_ka T c : keepalive (tw T c) = t_ka T. Proof. reflexivity. Qed.
Global Hint Rewrite tw_req tw_cap tw_isnull tw_freed tw_ka tw_st tws_st tw_in_ok tws_in_ok tw_out_ok tws_out_ok tw_avail tws_avail tw_sock tws_sock tw_pending tws_pending tw_kcap tws_kcap tw_drain_conn tws_drain_conn tw_ps tws_ps tw_buf tws_buf tw_cl tws_cl tw_http11 tws_http11 tw_hbuf tws_hbuf tw_log tws_log tw_arrived tws_arrived : tw.
Definition tmem (T : tweak) (a : Z) (b d : bool) : tweak := mkT a b d (t_status T) (t_req T) (t_rlen T) (t_rsent T) (t_ka T) (t_ch T).
Definition tstat (T : tweak) (v : Z) : tweak := mkT (t_cap T) (t_null T) (t_freed T) v (t_req T) (t_rlen T) (t_rsent T) (t_ka T) (t_ch T).
Lemma tw_mem T n b d c : set_cap n (set_isnull b (set_freed d (tw T c))) = tw (tmem T n b d) c. Proof. destruct T, c; vm_compute; reflexivity. Qed.
Lemma tw_mem' T n b d c : set_freed d (set_isnull b (set_cap n (tw T c))) = tw (tmem T n b d) c. Proof. destruct T, c; vm_compute; reflexivity. Qed.
Lemma tw_stat T v c : set_rstatus v (tw T c) = tw (tstat T v) c. Proof. destruct T, c; vm_compute; reflexivity. Qed.
Lemma two_cap T v c : tw T (set_cap v c) = tw T c. Proof. destruct T, c; vm_compute; reflexivity. Qed.
Lemma two_isnull T v c : tw T (set_isnull v c) = tw T c. Proof. destruct T, c; vm_compute; reflexivity. Qed.
Lemma two_freed T v c : tw T (set_freed v c) = tw T c. Proof. destruct T, c; vm_compute; reflexivity. Qed.
Lemma two_req T v c : tw T (set_req v c) = tw T c. Proof. destruct T, c; vm_compute; reflexivity. Qed.
Lemma two_rlen T v c : tw T (set_rlen v c) = tw T c. Proof. destruct T, c; vm_compute; reflexivity. Qed.
Lemma two_rsent T v c : tw T (set_rsent v c) = tw T c. Proof. destruct T, c; vm_compute; reflexivity. Qed.
Lemma two_keepalive T v c : tw T (set_keepalive v c) = tw T c. Proof. destruct T, c; vm_compute; reflexivity. Qed.
Lemma two_chunked T v c : tw T (set_chunked v c) = tw T c. Proof. destruct T, c; vm_compute; reflexivity. Qed.
Lemma two_rstatus T v c : tw T (set_rstatus v c) = tw T c. Proof. destruct T, c; vm_compute; reflexivity. Qed.
Global Hint Rewrite tw_mem tw_mem' tw_stat two_cap two_isnull two_freed two_req two_rlen two_rsent two_keepalive two_chunked two_rstatus : tw.
Global Opaque tw.
Ltac tws := autorewrite with tw.
Ltac twr := unfold emit_log; tws; csimp; reflexivity.
Lemma ok_mem T T' c c' stk : ok T c stk -> st c' = st c ->
  (t_req T' = t_req T /\ t_rlen T' = t_rlen T /\ t_rsent T' = t_rsent T /\ t_ka T' = t_ka T /\ t_ch T' = t_ch T) ->
  (req c' = req c /\ rlen c' = rlen c /\ rsent c' = rsent c /\ keepalive c' = keepalive c /\ chunked c' = chunked c) -> ok T' c' stk.
Proof.
  intros [(L1 & L2 & L3 & L4 & L5)|(E & F)] S (A1 & A2 & A3 & A4 & A5) (B1 & B2 & B3 & B4 & B5).
  - left. repeat split; congruence.
  - right. rewrite S. auto.
Qed.
Lemma ok_push T c f stk : early_frame f -> ok T c stk -> ok T c (f :: stk).
Proof. intros Hf [L|(E & F)]; [now left|right; auto]. Qed.
Lemma ok_pop T c f stk : ok T c (f :: stk) -> ok T c stk.
Proof. intros [L|(E & F)]; [now left|right; inversion F; auto]. Qed.
Lemma ok_st T c s stk : early_st s -> ok T c stk -> ok T (set_st s c) stk.
Proof. intros Hs [L|(E & F)]; [now left|right; auto]. Qed.
Ltac same_ok := eapply ok_mem; [eassumption|unfold emit_log; csimp; reflexivity|auto 6|unfold emit_log; csimp; auto 6].

Section K.
Variables (stk : list frame) (k : conn -> cfg).
Hypothesis Hk : forall c1 c2, Sim stk c1 c2 -> SimG (k c1) (k c2).

Lemma s_write b c1 c2 k' : Sim stk c1 c2 -> (forall c1 c2, Sim stk c1 c2 -> SimG (k' c1) (k' c2)) -> SimG (dev_write b c1 k') (dev_write b c2 k').
Proof.
  intros (T & -> & O) H'. unfold dev_write. tws. csimp. destruct (out_ok c1); [|apply simg_ub]. apply H'. exists T. split; [twr|]. same_ok.
Qed.
Lemma s_flush c1 c2 : Sim stk c1 c2 -> SimG (flush c1 stk k) (flush c2 stk k).
Proof.
  intros S. pose proof S as (T & -> & O). unfold flush. tws. csimp. destruct (_ && _); [|now apply Hk]. split; [reflexivity|]. exists T. split; [twr|].
  apply ok_push; [exact I|]. same_ok.
Qed.
Lemma s_toClosed c1 c2 : Sim stk c1 c2 -> SimG (toClosed c1 stk k) (toClosed c2 stk k).
Proof.
  intros S. pose proof S as (T & -> & O). unfold toClosed. tws. csimp. destruct (cst_eqb _ _); [now apply Hk|]. csimp. tws. csimp.
  destruct (_ || _); (split; [reflexivity|]); exists T; (split; [twr|]); (apply ok_push; [exact I|]); (apply ok_push; [exact I|]); apply (ok_st _ _ Closed) in O; try exact I; same_ok.
Qed.
Lemma s_drain_tail c1 c2 : Sim stk c1 c2 -> SimG (drain_tail c1 stk k) (drain_tail c2 stk k).
Proof. intros S. pose proof S as (T & -> & O). unfold drain_tail. tws. csimp. destruct (_ && _); [|now apply Hk]. now apply s_toClosed. Qed.
End K.
Lemma Sim_pop f stk c1 c2 : Sim (f :: stk) c1 c2 -> Sim stk c1 c2.
Proof. intros (T & E & O). exists T. split; auto. now apply ok_pop in O. Qed.
Lemma Sim_push f stk c1 c2 : early_frame f -> Sim stk c1 c2 -> Sim (f :: stk) c1 c2.
Proof. intros Hf (T & E & O). exists T. split; auto. now apply ok_push. Qed.
Lemma s_drain stk k c1 c2 : (forall c1 c2, Sim stk c1 c2 -> SimG (k c1) (k c2)) -> Sim stk c1 c2 -> SimG (drain c1 stk k) (drain c2 stk k).
Proof.
  intros Hk S. pose proof S as (T & -> & O). unfold drain. tws. csimp. destruct (negb _); [now apply Hk|].
  apply s_flush; [|now apply Sim_push]. intros. apply s_drain_tail; auto. eapply Sim_pop; eauto.
Qed.
Lemma s_flushing stk c1 c2 : Sim stk c1 c2 -> Sim stk (flushing_tail c1) (flushing_tail c2).
Proof.
  intros (T & -> & O). unfold flushing_tail. tws. csimp. destruct (_ && _); exists T; (split; [twr|]); [same_ok|exact O].
Qed.
Lemma s_toFlushing stk k c1 c2 : (forall c1 c2, Sim stk c1 c2 -> SimG (k c1) (k c2)) -> Sim stk c1 c2 -> SimG (toFlushing c1 stk k) (toFlushing c2 stk k).
Proof.
  intros Hk S. pose proof S as (T & -> & O). unfold toFlushing. tws. csimp. destruct (cst_eqb _ _); [now apply Hk|].
  apply s_drain.
  - intros c c' H. apply Hk, s_flushing. eapply Sim_pop; eauto.
  - exists T. split; [twr|]. apply ok_push; [exact I|]. now apply ok_st.
Qed.
Section K2.
Variables (stk : list frame) (k : conn -> cfg).
Hypothesis Hk : forall c1 c2, Sim stk c1 c2 -> SimG (k c1) (k c2).
Lemma s_error code c1 c2 : Sim stk c1 c2 -> SimG (writeRequestErrorResponse code c1 stk k) (writeRequestErrorResponse code c2 stk k).
Proof.
  intros S. pose proof S as (T & -> & O). unfold writeRequestErrorResponse. tws. csimp. destruct (cst_eqb _ _); [now apply Hk|].
  apply (s_write stk); auto. intros. now apply s_toFlushing.
Qed.
Lemma s_toSendingHeaders c1 c2 : Sim stk c1 c2 -> SimG (toSendingHeaders c1 stk k) (toSendingHeaders c2 stk k).
Proof.
  intros S. pose proof S as (T & -> & O). unfold toSendingHeaders. tws. csimp. destruct (cst_eqb _ _); [now apply Hk|].
  cbv zeta. split; [reflexivity|]. csimp.
  match goal with |- Sim _ ?x _ => exists (mkT (t_cap T) (t_null T) false (t_status T) (req x) (-1) 0 true false) end.
  split; [twr|]. left. repeat split.
Qed.
Lemma s_reserve n c1 c2 : Sim stk c1 c2 -> Sim stk (reserve n c1) (reserve n c2).
Proof.
  intros (T & -> & O). unfold reserve. tws. csimp. destruct (cap c1 <? n), (t_cap T <? n).
  - exists (tmem T n false true). split; [twr|]. same_ok.
  - exists T. split; [twr|]. same_ok.
  - exists (tmem T n false true). split; [twr|]. same_ok.
  - exists T. auto.
Qed.
Lemma s_set stk' c1 c2 (f : conn -> conn) : (forall T c, f (tw T c) = tw T (f c)) -> (forall c, st (f c) = st c /\ req (f c) = req c /\ rlen (f c) = rlen c /\ rsent (f c) = rsent c /\ keepalive (f c) = keepalive c /\ chunked (f c) = chunked c) ->
  Sim stk' c1 c2 -> Sim stk' (f c1) (f c2).
Proof.
  intros H1 H2 (T & -> & O). exists T. split; auto. destruct (H2 c1) as (S & R). eapply ok_mem; eauto.
Qed.
Lemma s_read c1 c2 : Sim stk c1 c2 -> Sim stk (read_input c1) (read_input c2).
Proof.
  intros S. pose proof S as (T & E & O). assert (EA : avail c2 = avail c1) by (rewrite E; now tws). assert (EB : buf c2 = buf c1) by (rewrite E; now tws).
  unfold read_input. rewrite EA, EB. destruct (avail c1) as [|x a]; auto.
  apply (s_set stk _ _ (set_avail [])); [intros; twr|intros; csimp; auto 6|]. apply (s_set stk _ _ (set_buf (buf c1 ++ x :: a))); [intros; twr|intros; csimp; auto 6|].
  now apply s_reserve.
Qed.
Lemma s_check c1 c2 : Sim stk c1 c2 -> SimG (check_content c1 stk k) (check_content c2 stk k).
Proof. intros S. pose proof S as (T & -> & O). unfold check_content. tws. csimp. destruct (_ <=? _); [|now apply Hk]. now apply s_toSendingHeaders. Qed.
Definition hs_of (c : conn) : list header := view_headers (setup_buf (buf c) (refs (ps c))) (refs (ps c)).
Definition clv (c : conn) : option (option Z) :=
  if 0 <=? cl_index (ps c) then Some (toInt (snd (nth (Z.to_nat (cl_index (ps c))) (hs_of c) ([], [])))) else None.
Definition setcl (o : option (option Z)) (c : conn) : conn := match o with Some (Some v) => set_cl v c | Some None => set_cl 0 c | None => c end.
Definition okcl (o : option (option Z)) : bool := match o with Some None => false | _ => true end.
Definition prep (c : conn) : conn := setcl (clv c) (set_buf (setup_buf (buf c) (refs (ps c))) (set_st ReceivingContent c)).
Definition next_ (c : conn) : cfg :=
  if in_ok (reserve (body_start (tp (ps c)) + cl c + 1) c) then check_content (read_input (reserve (body_start (tp (ps c)) + cl c + 1) c)) stk k
  else UB NullInput (reserve (body_start (tp (ps c)) + cl c + 1) c).
Definition rest_ (hs : list header) (ok : bool) (c : conn) : cfg :=
  if cl c <? 0 then writeRequestErrorResponse 400 c stk k
  else if (MaxContent <? cl c) || negb ok then writeRequestErrorResponse 413 c stk k
  else if 0 <? cl c then
    if asciiEqualsCI_lower (getFieldValue_tok hs (lit "expect")) (lit "100-continue")
    then dev_write (lit "HTTP/1.1 100 Continue" ++ CRLF ++ CRLF) c next_
    else next_ c
  else toSendingHeaders c stk k.
Lemma toRC_eq c : toReceivingContent c stk k = rest_ (hs_of c) (okcl (clv c)) (prep c).
Proof.
  unfold toReceivingContent, prep, clv. cbv zeta. csimp. fold (hs_of c).
  destruct (0 <=? cl_index (ps c)); [destruct (toInt _)|]; cbn [setcl okcl]; unfold rest_, next_; reflexivity.
Qed.
Lemma s_next c1 c2 : Sim stk c1 c2 -> SimG (next_ c1) (next_ c2).
Proof.
  intros S'. pose proof S' as (T' & E' & _). unfold next_. replace (body_start (tp (ps c2)) + cl c2 + 1) with (body_start (tp (ps c1)) + cl c1 + 1) by (rewrite E'; now tws).
  apply (s_reserve (body_start (tp (ps c1)) + cl c1 + 1)) in S'. set (r1 := reserve _ c1) in *. set (r2 := reserve _ c2) in *. clearbody r1 r2.
  pose proof S' as (T2 & E2 & _). replace (in_ok r2) with (in_ok r1) by (rewrite E2; now tws). destruct (in_ok r1); [|apply simg_ub]. now apply s_check, s_read.
Qed.
Lemma s_rest hs o c1 c2 : Sim stk c1 c2 -> SimG (rest_ hs o c1) (rest_ hs o c2).
Proof.
  intros S. pose proof S as (T & E & _). unfold rest_. replace (cl c2) with (cl c1) by (rewrite E; now tws).
  destruct (cl c1 <? 0); [now apply s_error|]. destruct (_ || _); [now apply s_error|]. destruct (0 <? cl c1); [|now apply s_toSendingHeaders].
  destruct (asciiEqualsCI_lower _ _); [|now apply s_next]. apply (s_write stk); auto. exact s_next.
Qed.
Lemma s_prep c1 c2 : Sim stk c1 c2 -> Sim stk (prep c1) (prep c2) /\ hs_of c2 = hs_of c1 /\ clv c2 = clv c1.
Proof.
  intros (T & -> & O).
  assert (Eh : hs_of (tw T c1) = hs_of c1) by (unfold hs_of; now tws). assert (Ec : clv (tw T c1) = clv c1) by (unfold clv; rewrite Eh; now tws).
  split; auto. unfold prep. rewrite Ec. tws. set (d := set_buf _ _).
  assert (O' : ok T d stk). { apply (ok_st _ _ ReceivingContent) in O; [|exact I]. unfold d. same_ok. } clearbody d. clear O.
  exists T. destruct (clv c1) as [[v|]|]; cbn [setcl]; (split; [now tws|]); first [exact O'|same_ok].
Qed.
Lemma s_toReceivingContent c1 c2 : Sim stk c1 c2 -> SimG (toReceivingContent c1 stk k) (toReceivingContent c2 stk k).
Proof.
  intros S. destruct (s_prep _ _ S) as (P & E1 & E2). rewrite !toRC_eq, E1, E2. now apply s_rest.
Qed.
Lemma s_processInput c1 c2 : Sim stk c1 c2 -> SimG (processInput c1 stk k) (processInput c2 stk k).
Proof.
  intros S. pose proof S as (T & E & _). unfold processInput. replace (st c2) with (st c1) by (rewrite E; now tws). replace (in_ok c2) with (in_ok c1) by (rewrite E; now tws).
  destruct (cst_eqb (st c1) ReceivingHeaders).
  - destruct (negb _); [apply simg_ub|]. cbv zeta. apply s_read in S. set (d1 := read_input c1) in *. set (d2 := read_input c2) in *. clearbody d1 d2.
    clear T E. pose proof S as (T & E & _). replace (buf d2) with (buf d1) by (rewrite E; now tws). replace (ps d2) with (ps d1) by (rewrite E; now tws).
    set (s := match buf d1 with [] => ps d1 | _ => texecute (buf d1) (nread (tp (ps d1))) (ps d1) end). clearbody s.
    apply (s_set stk _ _ (set_ps s)) in S; [|intros; twr|intros; csimp; auto 6].
    destruct (_ || _); [now apply s_error|]. destruct (is_finished _); [|now apply Hk]. now apply s_toReceivingContent.
  - destruct (cst_eqb (st c1) ReceivingContent); [|now apply Hk]. destruct (negb _); [apply simg_ub|]. now apply s_check, s_read.
Qed.
Lemma s_toReceivingHeaders stk' c1 c2 : Sim stk' c1 c2 -> Sim stk' (toReceivingHeaders c1) (toReceivingHeaders c2).
Proof.
  intros S. pose proof S as (T & E & O). unfold toReceivingHeaders. replace (st c2) with (st c1) by (rewrite E; now tws). destruct (cst_eqb _ _); auto. cbv zeta.
  exists T. split; [rewrite E; twr|]. apply (ok_st _ _ ReceivingHeaders) in O; [|exact I]. same_ok.
Qed.
Lemma s_flushc c1 c2 : Sim stk c1 c2 -> SimG (flushc_tail c1 stk k) (flushc_tail c2 stk k).
Proof. intros S. unfold flushc_tail. now apply s_processInput, s_toReceivingHeaders. Qed.
End K2.

(* after the first request: only memory and status differ *)
Definition Late (c1 c2 : conn) : Prop := exists T, c2 = tw T c1 /\ late T c1.
Lemma Late_Sim stk c1 c2 : Late c1 c2 -> Sim stk c1 c2.
Proof. intros (T & E & L). exists T. split; auto. now left. Qed.
Lemma Late_fields c1 c2 : Late c1 c2 -> st c2 = st c1 /\ req c2 = req c1 /\ rlen c2 = rlen c1 /\ rsent c2 = rsent c1 /\ keepalive c2 = keepalive c1 /\ chunked c2 = chunked c1 /\
  http11 c2 = http11 c1 /\ hbuf c2 = hbuf c1 /\ out_ok c2 = out_ok c1 /\ buf c2 = buf c1 /\ ps c2 = ps c1 /\ cl c2 = cl c1.
Proof. intros (T & -> & L). rewrite (late_eq _ _ L). csimp. auto 20. Qed.
Lemma late_set f c1 c2 : (forall a b d e c, f (set_cap a (set_isnull b (set_freed d (set_rstatus e c)))) = set_cap a (set_isnull b (set_freed d (set_rstatus e (f c))))) -> Late c1 c2 -> Late (f c1) (f c2).
Proof.
  intros H (T & -> & L). exists (mkT (t_cap T) (t_null T) (t_freed T) (t_status T) (req (f c1)) (rlen (f c1)) (rsent (f c1)) (keepalive (f c1)) (chunked (f c1))).
  split; [|repeat split]. rewrite (late_eq _ _ L), H. rewrite late_eq by (repeat split). reflexivity.
Qed.
Lemma late_status v c1 c2 : Late c1 c2 -> Late (set_rstatus v c1) (set_rstatus v c2).
Proof.
  intros (T & -> & L). exists (mkT (t_cap T) (t_null T) (t_freed T) v (t_req T) (t_rlen T) (t_rsent T) (t_ka T) (t_ch T)). split; [|exact L]. tws. reflexivity.
Qed.
Section K3.
Variables (stk : list frame) (k : conn -> cfg).
Hypothesis Hk : forall c1 c2, Late c1 c2 -> SimG (k c1) (k c2).
Lemma l_write b c1 c2 : Late c1 c2 -> SimG (dev_write b c1 k) (dev_write b c2 k).
Proof.
  intros L. pose proof (Late_fields _ _ L) as (_ & _ & _ & _ & _ & _ & _ & _ & Ho & _). unfold dev_write. rewrite Ho. destruct (out_ok c1); [|apply simg_ub].
  apply Hk. apply (late_set (fun c => emit_log (OWrite b) (set_pending (if sock c then pending c + blen b else pending c) c))); auto.
Qed.
Lemma l_toCompleted c1 c2 : Late c1 c2 -> SimG (toCompleted c1 stk k) (toCompleted c2 stk k).
Proof.
  intros L. pose proof (Late_fields _ _ L) as (E & _). unfold toCompleted. rewrite E. destruct (cst_eqb _ _); auto. split; [reflexivity|]. apply Late_Sim.
  apply (late_set (fun c => emit_log OCompleted (set_st Completed c))); auto.
Qed.
End K3.
Lemma l_sending c1 c2 : Late c1 c2 -> Late (sending_tail c1) (sending_tail c2).
Proof. intros L. pose proof (Late_fields _ _ L) as (E & _ & E1 & _ & _ & E2 & _). unfold sending_tail. rewrite E1, E2. destruct (_ && _); auto. apply (late_set (set_keepalive false)); auto. Qed.
Section K4.
Variables (stk : list frame) (k : conn -> cfg).
Hypothesis Hk : forall c1 c2, Late c1 c2 -> SimG (k c1) (k c2).
Lemma l_writeContent content c1 c2 : Late c1 c2 -> SimG (writeContent content c1 stk k) (writeContent content c2 stk k).
Proof.
  intros L. pose proof (Late_fields _ _ L) as (E1 & E2 & E3 & E4 & E5 & E6 & _). unfold writeContent. rewrite E1, E2, E3, E4.
  destruct (negb _); auto. destruct (_ =? _); auto. destruct (_ && _); auto. destruct (_ && _); auto. cbv zeta. csimp.
  apply (late_set (set_rsent (rsent c1 + blen content))) in L; [|intros; twr].
  assert (X : forall d1 d2, Late d1 d2 -> SimG (if rsent d1 =? rlen d1 then toCompleted d1 stk k else k d1) (if rsent d2 =? rlen d2 then toCompleted d2 stk k else k d2)).
  { intros d1 d2 L'. pose proof (Late_fields _ _ L') as (_ & _ & F1 & F2 & _). rewrite F1, F2. destruct (_ =? _); auto. now apply l_toCompleted. }
  rewrite E6. destruct (chunked c1).
  - destruct (appendNumber _ _); [|apply simg_ub]. apply l_write; auto. intros. apply l_write; auto. intros. apply l_write; auto.
  - apply l_write; auto.
Qed.
Lemma l_resp_tail content c1 c2 : Late c1 c2 -> SimG (resp_tail content c1 stk k) (resp_tail content c2 stk k).
Proof.
  intros L. pose proof (Late_fields _ _ L) as (E1 & E2 & _). unfold resp_tail. destruct content as [|x content]; auto. rewrite E2.
  destruct (freed c1 && _); [apply simg_mem1; left; reflexivity|]. destruct (freed c2 && _); [apply simg_mem2; left; reflexivity|].
  destruct (is_head _); auto. now apply l_writeContent.
Qed.
Lemma l_endContent c1 c2 : Late c1 c2 -> SimG (endContent c1 stk k) (endContent c2 stk k).
Proof.
  intros L. pose proof (Late_fields _ _ L) as (E1 & E2 & E3 & E4 & E5 & E6 & _). unfold endContent. rewrite E1, E3, E6.
  destruct (negb _); auto. destruct (_ <=? _); auto. destruct (chunked c1).
  - apply l_write; auto. intros. now apply l_toCompleted.
  - apply l_toCompleted; auto. now apply (late_set (set_keepalive false)).
Qed.
End K4.
Lemma l_toSendingContent stk k c1 c2 : (forall c1 c2, Late c1 c2 -> SimG (k c1) (k c2)) -> Late c1 c2 -> SimG (toSendingContent c1 stk k) (toSendingContent c2 stk k).
Proof.
  intros Hk L. pose proof (Late_fields _ _ L) as (E1 & E2 & E3 & _). unfold toSendingContent. rewrite E1. destruct (cst_eqb _ _); auto. cbv zeta. csimp. rewrite E2, E3.
  apply (late_set (fun c => set_hbuf [] (set_st SendingContent c))) in L; [|intros; twr]. destruct (_ || _).
  - apply l_toCompleted; auto. intros. apply Hk. now apply l_sending.
  - apply Hk. now apply l_sending.
Qed.
Lemma l_writeHeaders code hs stk k c1 c2 : (forall c1 c2, Late c1 c2 -> SimG (k c1) (k c2)) -> Late c1 c2 -> SimG (writeHeaders code hs c1 stk k) (writeHeaders code hs c2 stk k).
Proof.
  intros Hk L. pose proof (Late_fields _ _ L) as (E1 & E2 & E3 & E4 & E5 & E6 & E7 & E8 & _). unfold writeHeaders. rewrite E1. destruct (negb _); auto. cbv zeta. csimp.
  rewrite E2, E3, E6, E7, E8.
  set (s := fold_left scan_header hs _).
  match goal with |- context [let '(chunk, te) := ?x in _] => set (X := x) end. clearbody X. destruct X as (chunk & te). csimp.
  match goal with |- SimG (match ?x with Some _ => _ | None => _ end) _ => destruct x end; [|apply simg_ub].
  apply l_write; [intros; now apply l_toSendingContent|]. apply (late_status code) in L.
  match goal with |- Late (set_hbuf ?h (set_keepalive ?ka (set_chunked ?ch (set_rlen ?n _)))) _ => apply (late_set (fun c => set_hbuf h (set_keepalive ka (set_chunked ch (set_rlen n c))))) end; [intros; twr|exact L].
Qed.
Lemma l_writeResponse code hs content stk k c1 c2 : (forall c1 c2, Late c1 c2 -> SimG (k c1) (k c2)) -> Late c1 c2 ->
  SimG (writeResponse code hs content c1 stk k) (writeResponse code hs content c2 stk k).
Proof.
  intros Hk L. pose proof (Late_fields _ _ L) as (E1 & _). unfold writeResponse. rewrite E1. destruct (negb _); auto.
  apply l_writeHeaders; [intros; now apply l_resp_tail|]. apply (late_set (set_rlen (blen content))); [intros; twr|exact L].
Qed.
Lemma l_release c1 c2 : Late c1 c2 -> Late (release_request c1) (release_request c2).
Proof.
  intros L. pose proof (Late_fields _ _ L) as (_ & _ & _ & _ & _ & _ & _ & _ & _ & Eb & Ep & Ec). unfold release_request. rewrite Eb, Ep, Ec. cbv zeta.
  set (rem := blen (buf c1) - _ - _). clearbody rem. set (b := skipn _ _). clearbody b. clear Ec.
  assert (X : forall d1 d2, Late d1 d2 -> ps d1 = ps c1 -> ps d2 = ps c1 -> Late (set_ps (mkTS (tp (ps d1)) [] (cl_index (ps d1))) d1) (set_ps (mkTS (tp (ps d2)) [] (cl_index (ps d2))) d2)).
  { intros d1 d2 L' F1 F2. rewrite F1, F2. apply (late_set (set_ps (mkTS (tp (ps c1)) [] (cl_index (ps c1))))); [intros; twr|exact L']. }
  assert (M1 : forall a n f d1 d2, Late d1 d2 -> Late (set_freed f (set_isnull n (set_cap a d1))) d2).
  { intros a n f d1 d2 (T & -> & K). exists T. split; [now tws|]. exact K. }
  assert (M2 : forall a n f d1 d2, Late d1 d2 -> Late d1 (set_freed f (set_isnull n (set_cap a d2)))).
  { intros a n f d1 d2 (T & -> & K). exists (tmem T a n f). split; [now tws|]. exact K. }
  assert (LB : forall v, Late (set_buf v c1) (set_buf v c2)).
  { intros v. apply (late_set (set_buf v)); [intros; twr|exact L]. }
  apply X.
  - destruct (0 <? rem); [apply M1, M2, LB|]. destruct (cap c1 <=? _), (cap c2 <=? _); repeat first [apply M1|apply M2]; apply LB.
  - destruct (0 <? rem); [reflexivity|]. destruct (cap c1 <=? _); reflexivity.
  - destruct (0 <? rem); [exact Ep|]. destruct (cap c2 <=? _); exact Ep.
Qed.
Lemma l_completed stk k c1 c2 : (forall c1 c2, Sim stk c1 c2 -> SimG (k c1) (k c2)) -> Late c1 c2 -> SimG (completed_tail c1 stk k) (completed_tail c2 stk k).
Proof.
  intros Hk L. unfold completed_tail. cbv zeta. apply l_release in L. set (d1 := release_request c1) in *. set (d2 := release_request c2) in *. clearbody d1 d2.
  pose proof (Late_fields _ _ L) as (_ & _ & _ & _ & Ek & _). rewrite Ek. destruct (keepalive d1).
  - apply s_flush; [|now apply Late_Sim]. intros. apply s_flushc; auto. eapply Sim_pop; eauto.
  - apply s_toFlushing; auto. now apply Late_Sim.
Qed.
Lemma Sim_Late f stk c1 c2 : ~ early_frame f -> Sim (f :: stk) c1 c2 -> Late c1 c2.
Proof. intros Hf (T & E & [L|(_ & F)]); [now exists T|]. inversion F. contradiction. Qed.
Lemma s_closed stk c1 c2 : Sim stk c1 c2 -> Sim stk (closed_tail c1) (closed_tail c2).
Proof.
  apply (s_set stk _ _ closed_tail); [intros; unfold closed_tail; now tws|]. intros c. unfold closed_tail. csimp. auto 6.
Qed.
Lemma s_resume stk : forall c1 c2, Sim stk c1 c2 -> SimG (resume stk c1) (resume stk c2).
Proof.
  induction stk as [|f t IH]; intros c1 c2 S; [split; auto|].
  assert (HL : forall c1 c2, Late c1 c2 -> SimG (resume t c1) (resume t c2)) by (intros; now apply IH, Late_Sim).
  destruct f; cbn [resume].
  - split; auto.
  - apply l_completed; auto. eapply Sim_Late; eauto. auto.
  - apply s_flushc; auto. eapply Sim_pop; eauto.
  - apply s_drain_tail; auto. eapply Sim_pop; eauto.
  - apply IH, s_flushing. eapply Sim_pop; eauto.
  - apply HL, l_sending. eapply Sim_Late; eauto. auto.
  - apply l_resp_tail; auto. eapply Sim_Late; eauto. auto.
  - apply IH, s_closed. eapply Sim_pop; eauto.
Qed.
(* initialize in two steps *)
Definition init1 (d : device) (c : conn) : conn :=
  match d with
  | NewDevice hi ho so data => set_arrived data (set_log [] (set_drain_conn false (set_kcap 0 (set_pending 0 (set_sock so (set_avail data (set_out_ok ho (set_in_ok hi c))))))))
  | SameDevice => c
  end.
Definition init2 (c : conn) : conn :=
  let c := set_ps (mkTS tp_zero [] (cl_index (ps c))) c in
  if cap c <=? MaxHead then set_buf [] c else set_freed true (set_isnull true (set_cap 0 (set_buf [] c))).
Lemma initialize_eq d c : initialize d c =
  if isnull (init1 d c) && (cap (init1 d c) <=? MaxHead) then UB SharedNullWrite (init1 d c)
  else if in_ok (toReceivingHeaders (init2 (init1 d c))) then Run (toReceivingHeaders (init2 (init1 d c))) [] else UB NullInput (toReceivingHeaders (init2 (init1 d c))).
Proof. reflexivity. Qed.
Lemma s_init1 d stk c1 c2 : Sim stk c1 c2 -> Sim stk (init1 d c1) (init1 d c2).
Proof.
  intros (T & -> & O). exists T. destruct d as [hi ho so data|]; [|auto]. unfold init1. split; [now tws|]. same_ok.
Qed.
Lemma s_init2 stk c1 c2 : Sim stk c1 c2 -> Sim stk (init2 c1) (init2 c2).
Proof.
  intros (T & -> & O). unfold init2. cbv zeta. tws. csimp. destruct (cap c1 <=? _), (t_cap T <=? _).
  - exists T. split; [twr|]. same_ok.
  - exists (tmem T 0 true true). split; [twr|]. same_ok.
  - exists T. split; [twr|]. same_ok.
  - exists (tmem T 0 true true). split; [twr|]. same_ok.
Qed.
Lemma s_op o stk c1 c2 : Sim stk c1 c2 -> SimG (do_op o c1 stk) (do_op o c2 stk).
Proof.
  intros S. pose proof (s_resume stk) as K. assert (KL : forall c1 c2, Late c1 c2 -> SimG (resume stk c1) (resume stk c2)) by (intros; now apply K, Late_Sim).
  pose proof S as (T & E & O). assert (Es : st c2 = st c1) by (rewrite E; now tws).
  destruct o as [d| |code hs content|code hs|content| | | | ]; cbn [do_op].
  - rewrite !initialize_eq. apply (s_init1 d) in S. set (d1 := init1 d c1) in *. set (d2 := init1 d c2) in *. clearbody d1 d2. clear T E O Es.
    destruct (isnull d1 && _); [apply simg_mem1; now right|]. destruct (isnull d2 && _); [apply simg_mem2; now right|].
    apply s_init2, s_toReceivingHeaders in S. set (e1 := toReceivingHeaders (init2 d1)) in *. set (e2 := toReceivingHeaders (init2 d2)) in *. clearbody e1 e2.
    pose proof S as (T & E & O). replace (in_ok e2) with (in_ok e1) by (rewrite E; now tws). destruct (in_ok e1); [|apply simg_ub]. now apply K.
  - now apply s_processInput.
  - destruct O as [L|(Ee & _)]; [apply l_writeResponse; auto; now exists T|]. unfold writeResponse. rewrite Es. destruct (st c1); try contradiction; now apply K.
  - destruct O as [L|(Ee & _)]; [apply l_writeHeaders; auto; now exists T|]. unfold writeHeaders. rewrite Es. destruct (st c1); try contradiction; now apply K.
  - destruct O as [L|(Ee & _)]; [apply l_writeContent; auto; now exists T|]. unfold writeContent. rewrite Es. destruct (st c1); try contradiction; now apply K.
  - destruct O as [L|(Ee & _)]; [apply l_endContent; auto; now exists T|]. unfold endContent. rewrite Es. destruct (st c1); try contradiction; now apply K.
  - now apply s_toClosed.
  - now apply s_flush.
  - now apply s_drain.
Qed.
Lemma s_step a g1 g2 : SimG g1 g2 -> SimG (step g1 a) (step g2 a).
Proof.
  destruct g1 as [c1 s1|r1 c1], g2 as [c2 s2|r2 c2]; cbn [SimG]; intros H.
  2: { apply simg_mem2. exact H. } 2: { apply simg_mem1. exact H. } 2: { cbn. exact H. }
  destruct H as (<- & S). destruct a as [o| |b|n|n]; cbn [step].
  - now apply s_op.
  - destruct s1 as [|[s| | | | | | | ] t]; try (split; [reflexivity|exact S]). apply s_resume. eapply Sim_pop; eauto.
  - pose proof S as (T & E & O). replace (in_ok c2) with (in_ok c1) by (rewrite E; now tws). replace (st c2) with (st c1) by (rewrite E; now tws).
    destruct (_ && _); (split; [reflexivity|]); [|exact S]. exists T. rewrite E. split; [now tws|]. same_ok.
  - split; [reflexivity|]. apply (s_set s1 _ _ (set_kcap (Z.max 0 n))); [intros; now tws|intros; csimp; auto 6|exact S].
  - pose proof S as (T & E & O). cbv zeta. csimp. replace (pending c2) with (pending c1) by (rewrite E; now tws). replace (drain_conn c2) with (drain_conn c1) by (rewrite E; now tws).
    apply (s_set s1 _ _ (set_pending (pending c1 - Z.max 0 (Z.min n (pending c1))))) in S; [|intros; now tws|intros; csimp; auto 6].
    destruct (drain_conn c1); [|now split]. apply s_drain; auto. apply s_resume.
Qed.
Lemma s_run l : forall g1 g2, SimG g1 g2 -> SimG (run g1 l) (run g2 l).
Proof. induction l as [|a l IH]; intros g1 g2 H; [exact H|]. apply (IH (step g1 a)). now apply s_step. Qed.
