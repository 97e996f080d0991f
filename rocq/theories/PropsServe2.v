(** Progress of a served connection (C82_progress): every call back into user code is paid for, either by an event (requestReady,
    requestCompleted, closed) or by bytes the kernel took, so that returning from slots ends. *)
From Verif Require Import Bytes ByteHelpers Thin Helpers ReqGrammar TextSpec
  Conn ConnSpec ConnText ConnHead ConnInv ConnStep ConnEnd ConnLog PropsConn ConnSend ConnFree ConnPhase PropsConn2 PropsConn4 Serve PropsServe.
Open Scope Z_scope.

Fixpoint sigs (l : list obs) : Z :=
  match l with [] => 0 | o :: t => (match o with OReady _ | OCompleted | OClosed => 1 | _ => 0 end) + sigs t end.
Lemma sigs_app a b : sigs (a ++ b) = sigs a + sigs b.
Proof. induction a as [|o a IH]; cbn [sigs app]; [lia|]. rewrite IH. lia. Qed.
Lemma sigs_nonneg l : 0 <= sigs l.
Proof. induction l as [|o l IH]; cbn [sigs]; [lia|]. destruct o; lia. Qed.
Definition paid (c : conn) : Z := sigs (log c) - Z.max 0 (kcap c).
Definition up (n : nat) (c : conn) (g : cfg) : Prop :=
  match g with
  | Run c' stk' => paid c <= paid c' /\ (paid c' = paid c -> (length stk' <= n)%nat)
  | UB r _ => r <> SharedNullWrite
  end.
Definition same (c c' : conn) : Prop := log c' = log c /\ kcap c' = kcap c.
Lemma up_same n c c' g : same c c' -> up n c' g -> up n c g.
Proof. intros (H1 & H2). unfold up, paid. rewrite H1, H2. auto. Qed.
Lemma up_le n c c' g : paid c <= paid c' -> up n c' g -> up n c g.
Proof. unfold up. destruct g; auto. intros H (H1 & H2). split; [lia|]. intros E. apply H2. lia. Qed.
Lemma up_emit n c c' stk : paid c < paid c' -> up n c (Run c' stk).
Proof. intros H. unfold up. split; [lia|]. intros E. lia. Qed.
Lemma paid_emit o c : paid (emit_log o c) = paid c + sigs [o].
Proof. unfold paid, emit_log. csimp. rewrite sigs_app. lia. Qed.
Lemma same_reserve n c : same c (reserve n c).
Proof. unfold reserve. destruct (_ <? _); now split. Qed.
Lemma same_read c : same c (read_input c).
Proof. unfold read_input. destruct (avail c); [now split|]. unfold reserve. destruct (_ <? _); now split. Qed.
Lemma same_trans a b c : same a b -> same b c -> same a c.
Proof. intros (? & ?) (? & ?). split; congruence. Qed.
Lemma up_write n b c k : (forall c, up n c (k c)) -> up n c (dev_write b c k).
Proof.
  intros Hk. unfold dev_write. destruct (out_ok c); [|discriminate].
  match goal with |- up _ _ (k ?x) => apply (up_le n c x); auto end.
  unfold paid, emit_log. csimp. rewrite sigs_app. cbn [sigs]. lia.
Qed.
Section Up.
Variable n : nat.
Lemma up_flush stk k c : (forall c, up n c (k c)) -> up n c (flush c stk k).
Proof.
  intros Hk. unfold flush. destruct (_ && _) eqn:E; auto. rewrite !andb_true_iff, !Z.ltb_lt in E. apply up_emit. unfold paid. csimp. lia.
Qed.
Lemma up_toClosed stk k c : (forall c, up n c (k c)) -> up n c (toClosed c stk k).
Proof.
  intros Hk. unfold toClosed. destruct (cst_eqb _ _); auto. apply up_emit.
  destruct (in_ok _ || out_ok _); rewrite !paid_emit; cbn [sigs]; unfold paid; csimp; lia.
Qed.
Lemma up_drain_tail stk k c : (forall c, up n c (k c)) -> up n c (drain_tail c stk k).
Proof. intros Hk. unfold drain_tail. destruct (_ && _); auto. now apply up_toClosed. Qed.
Lemma up_drain stk k c : (forall c, up n c (k c)) -> up n c (drain c stk k).
Proof. intros Hk. unfold drain. destruct (negb _); auto. apply up_flush. intros c'. now apply up_drain_tail. Qed.
Lemma up_toFlushing stk k c : (forall c, up n c (k c)) -> up n c (toFlushing c stk k).
Proof.
  intros Hk. unfold toFlushing. destruct (cst_eqb _ _); auto.
  eapply up_same; [|apply up_drain]; [now split|].
  intros c'. eapply up_same; [|apply Hk]. unfold flushing_tail. destruct (_ && _); now split.
Qed.
Section Recv.
Variables (stk : list frame) (k : conn -> cfg).
Hypothesis Hk : forall c, up n c (k c).
Lemma up_error code c : up n c (writeRequestErrorResponse code c stk k).
Proof. unfold writeRequestErrorResponse. destruct (cst_eqb _ _); auto. apply up_write. intros c'. now apply up_toFlushing. Qed.
Lemma up_toSendingHeaders c : up n c (toSendingHeaders c stk k).
Proof. unfold toSendingHeaders. destruct (cst_eqb _ _); auto. cbv zeta. apply up_emit. rewrite paid_emit. cbn [sigs]. unfold paid. csimp. lia. Qed.
Lemma up_check_content c : up n c (check_content c stk k).
Proof. unfold check_content. destruct (_ <=? _); auto using up_toSendingHeaders. Qed.
Lemma up_next c : up n c (let c2 := reserve (body_start (tp (ps c)) + cl c + 1) c in
      if in_ok c2 then check_content (read_input c2) stk k else UB NullInput c2).
Proof.
  cbv zeta. destruct (in_ok _); [|discriminate].
  eapply up_same; [|apply up_check_content]. eapply same_trans; [apply same_reserve|apply same_read].
Qed.
Lemma up_toReceivingContent c : up n c (toReceivingContent c stk k).
Proof.
  unfold toReceivingContent. cbv zeta.
  match goal with |- up _ _ (let '(_, _) := ?x in _) => set (X := x); assert (Q : same c (fst X)); [|destruct X as [c1 ok]; cbn [fst] in Q] end.
  { subst X. destruct (_ <=? _); [|now split]. destruct (toInt _); now split. }
  destruct (_ <? _); [eapply up_same; [exact Q|apply up_error]|].
  destruct (_ || _); [eapply up_same; [exact Q|apply up_error]|].
  destruct (_ <? _); [|eapply up_same; [exact Q|apply up_toSendingHeaders]].
  destruct (asciiEqualsCI_lower _ _).
  - eapply up_same; [exact Q|]. apply up_write; auto. intros c'. apply up_next.
  - eapply up_same; [exact Q|]. apply up_next.
Qed.
Lemma up_processInput c : up n c (processInput c stk k).
Proof.
  unfold processInput. destruct (cst_eqb _ _).
  - destruct (negb _); [discriminate|]. cbv zeta.
    set (s := match buf _ with [] => _ | _ :: _ => _ end).
    assert (Q : same c (set_ps s (read_input c))) by (eapply same_trans; [apply same_read|now split]).
    destruct (_ || _); [eapply up_same; [exact Q|apply up_error]|].
    destruct (is_finished _); eapply up_same; try exact Q; auto using up_toReceivingContent.
  - destruct (cst_eqb _ _); auto. destruct (negb _); [discriminate|].
    eapply up_same; [apply same_read|apply up_check_content].
Qed.
Lemma up_flushc_tail c : up n c (flushc_tail c stk k).
Proof.
  unfold flushc_tail. eapply up_same; [|apply up_processInput]. unfold toReceivingHeaders. destruct (cst_eqb _ _); now split.
Qed.
End Recv.
Lemma same_release c : same c (release_request c).
Proof. unfold release_request. cbv zeta. destruct (_ <? _); [|destruct (_ <=? _)]; now split. Qed.
Lemma up_completed_tail stk k c : (forall c, up n c (k c)) -> up n c (completed_tail c stk k).
Proof.
  intros Hk. unfold completed_tail. cbv zeta. eapply up_same; [apply same_release|].
  destruct (keepalive _); [|now apply up_toFlushing]. apply up_flush. intros c'. now apply up_flushc_tail.
Qed.
Lemma up_toCompleted stk k c : (forall c, up n c (k c)) -> up n c (toCompleted c stk k).
Proof. intros Hk. unfold toCompleted. destruct (cst_eqb _ _); auto. apply up_emit. rewrite paid_emit. cbn [sigs]. unfold paid. csimp. lia. Qed.
Lemma up_writeContent content stk k c : (forall c, up n c (k c)) -> up n c (writeContent content c stk k).
Proof.
  intros Hk. unfold writeContent. destruct (negb _); auto. destruct (_ =? _); auto. destruct (_ && _); auto.
  destruct (_ && _); auto. cbv zeta.
  assert (F : forall c, up n c (if rsent c =? rlen c then toCompleted c stk k else k c)) by (intros; destruct (_ =? _); auto using up_toCompleted).
  eapply (up_same n c (set_rsent (rsent c + blen content) c)); [now split|].
  csimp. destruct (chunked c); [|apply up_write; auto].
  destruct (appendNumber _ _); [|discriminate].
  apply up_write; auto. intros. apply up_write; auto. intros. apply up_write; auto.
Qed.
Lemma up_resp_tail content stk k c : (forall c, up n c (k c)) -> up n c (resp_tail content c stk k).
Proof.
  intros Hk. unfold resp_tail. destruct content eqn:E; auto. destruct (_ && _); [discriminate|].
  destruct (is_head _); auto. now apply up_writeContent.
Qed.
End Up.
Lemma up_more n m c g : (n <= m)%nat -> up n c g -> up m c g.
Proof. intros L. unfold up. destruct g; auto. intros (H1 & H2). split; auto. intros E. specialize (H2 E). lia. Qed.
Lemma up_resume stk : forall c, up (length stk) c (resume stk c).
Proof.
  induction stk as [|f t IH]; intros c; [split; [lia|cbn; lia]|].
  assert (K : forall c, up (length (f :: t)) c (resume t c)) by (intros; eapply up_more; [|apply IH]; cbn [length]; lia).
  destruct f; cbn [resume].
  - split; [lia|auto].
  - now apply up_completed_tail.
  - now apply up_flushc_tail.
  - now apply up_drain_tail.
  - eapply up_same; [|apply K]. unfold flushing_tail. destruct (_ && _); now split.
  - eapply up_same; [|apply K]. unfold sending_tail. destruct (_ && _); now split.
  - now apply up_resp_tail.
  - eapply up_same; [|apply K]. now split.
Qed.

(** reading takes everything *)
Definition dry (g : cfg) : Prop := match g with Run c' [] => avail c' = [] | _ => True end.
Section Dry.
Variables (stk : list frame) (k : conn -> cfg).
Hypothesis Hk : forall c, avail c = [] -> dry (k c).
Lemma dry_write b c kk : avail c = [] -> (forall c, avail c = [] -> dry (kk c)) -> dry (dev_write b c kk).
Proof. intros A H. unfold dev_write. destruct (out_ok c); [|exact Logic.I]. apply H. unfold emit_log. csimp. exact A. Qed.
Lemma dry_toFlushing c : avail c = [] -> dry (toFlushing c stk k).
Proof.
  intros A. unfold toFlushing. destruct (cst_eqb _ _); auto. unfold drain. csimp. cbn [cst_eqb negb]. unfold flush. destruct (_ && _); [exact Logic.I|].
  unfold drain_tail. destruct (_ && _); [unfold toClosed; csimp; cbn [cst_eqb]; exact Logic.I|]. apply Hk. unfold flushing_tail. destruct (_ && _); csimp; exact A.
Qed.
Lemma dry_error code c : avail c = [] -> dry (writeRequestErrorResponse code c stk k).
Proof. intros A. unfold writeRequestErrorResponse. destruct (cst_eqb _ _); auto. apply dry_write; auto. apply dry_toFlushing. Qed.
Lemma dry_check c : avail c = [] -> dry (check_content c stk k).
Proof. intros A. unfold check_content. destruct (_ <=? _); auto. unfold toSendingHeaders. destruct (cst_eqb _ _); auto. exact Logic.I. Qed.
Lemma read_dry c : avail (read_input c) = [].
Proof. unfold read_input. destruct (avail c) eqn:E; auto. Qed.
Lemma dry_content c : avail c = [] -> dry (toReceivingContent c stk k).
Proof.
  intros A. unfold toReceivingContent. cbv zeta.
  match goal with |- dry (let '(_, _) := ?x in _) => set (X := x); assert (Q : avail (fst X) = []); [|destruct X as [c1 ok]; cbn [fst] in Q] end.
  { subst X. destruct (_ <=? _); [|exact A]. destruct (toInt _); exact A. }
  destruct (_ <? _); [now apply dry_error|].
  destruct (_ || _); [now apply dry_error|].
  assert (T : forall c, avail c = [] -> dry (toSendingHeaders c stk k)).
  { intros c0 A0. unfold toSendingHeaders. destruct (cst_eqb _ _); auto. exact Logic.I. }
  destruct (_ <? _); [|now apply T].
  assert (N : forall c, dry (let c2 := reserve (body_start (tp (ps c)) + cl c + 1) c in if in_ok c2 then check_content (read_input c2) stk k else UB NullInput c2)).
  { intros c0. cbv zeta. destruct (in_ok _); [|exact Logic.I]. apply dry_check, read_dry. }
  destruct (asciiEqualsCI_lower _ _); [apply dry_write; auto|]; apply N.
Qed.
Lemma dry_process c : st c = ReceivingHeaders \/ st c = ReceivingContent -> dry (processInput c stk k).
Proof.
  intros H. unfold processInput. destruct H as [-> | ->]; cbn [cst_eqb].
  - destruct (negb _); [exact Logic.I|]. cbv zeta. set (s := match buf _ with [] => _ | _ :: _ => _ end).
    assert (Q : avail (set_ps s (read_input c)) = []) by (csimp; apply read_dry).
    destruct (_ || _); [now apply dry_error|]. destruct (is_finished _); [now apply dry_content|now apply Hk].
  - destruct (negb _); [exact Logic.I|]. apply dry_check, read_dry.
Qed.
End Dry.

(** writing an answer does not use the kernel's buffer *)
Definition kk (c : conn) (g : cfg) : Prop := kcap (gconn g) = kcap c.
Lemma kk_write b c k : (forall c, kk c (k c)) -> kk c (dev_write b c k).
Proof. intros Hk. unfold dev_write. destruct (out_ok c); [|reflexivity]. unfold kk in *. rewrite Hk. reflexivity. Qed.
Lemma kk_completed stk k c : (forall c, kk c (k c)) -> kk c (toCompleted c stk k).
Proof. intros Hk. unfold toCompleted. destruct (cst_eqb _ _); auto. reflexivity. Qed.
Lemma kk_sending stk k c : (forall c, kk c (k c)) -> kk c (toSendingContent c stk k).
Proof.
  intros Hk. unfold toSendingContent. destruct (cst_eqb _ _); auto. cbv zeta.
  assert (F : forall c, kk c (k (sending_tail c))) by (intros; unfold kk in *; rewrite Hk; unfold sending_tail; destruct (_ && _); reflexivity).
  destruct (_ || _); [|exact (F _)]. exact (kk_completed (KSending :: stk) (fun c => k (sending_tail c)) _ F).
Qed.
Lemma kk_headers code hs stk k c : (forall c, kk c (k c)) -> kk c (writeHeaders code hs c stk k).
Proof.
  intros Hk. unfold writeHeaders. destruct (negb _); auto. cbv zeta.
  match goal with |- kk _ (let '(_, _) := ?x in _) => destruct x as [ch te] end. csimp.
  match goal with |- context [match ?x with Some _ => dev_write _ _ _ | None => _ end] => destruct x end; [|reflexivity].
  match goal with |- kk c (dev_write ?b ?x ?f) => change (kcap (gconn (dev_write b x f)) = kcap x); apply (kk_write b x f) end.
  intros. now apply kk_sending.
Qed.
Lemma kk_tail content stk k c : (forall c, kk c (k c)) -> kk c (resp_tail content c stk k).
Proof.
  intros Hk. unfold resp_tail. destruct content eqn:E; auto. destruct (_ && _); [reflexivity|]. destruct (is_head _); auto.
  unfold writeContent. destruct (negb _); auto. destruct (_ =? _); auto. destruct (_ && _); auto. destruct (_ && _); auto. cbv zeta.
  assert (F : forall c, kk c (if rsent c =? rlen c then toCompleted c stk k else k c)) by (intros; destruct (_ =? _); auto using kk_completed).
  assert (G : forall g, kk (set_rsent (rsent c + blen (a :: b)) c) g -> kk c g) by (intros g H; exact H).
  apply G. csimp. destruct (chunked c); [|apply kk_write; auto].
  destruct (appendNumber _ _); [|reflexivity].
  apply kk_write; auto. intros. apply kk_write; auto. intros. apply kk_write; auto.
Qed.
Lemma kk_response code hs content c stk : settled stk -> kk c (step (Run c stk) (ACall (OpWriteResponse code hs content))).
Proof.
  intros T. assert (R : forall c, kk c (resume stk c)) by (intros; unfold kk; rewrite settled_resume by exact T; reflexivity).
  cbn [step do_op]. unfold writeResponse. destruct (negb _); auto.
  assert (G : forall g, kk (set_rlen (blen content) c) g -> kk c g) by (intros g H; exact H). apply G. apply kk_headers. intros. now apply kk_tail.
Qed.

(** ** Bound on the events *)
Lemma wire_pos m : wf_msg m -> 1 <= blen (wire m).
Proof.
  intros W. destruct (wire m) as [|x y] eqn:E; [|rewrite blen_cons; pose proof (blen_nonneg y); apply Z.le_trans with (1 + blen y); [lia|apply Z.le_refl]].
  exfalso. unfold wire in E. apply app_eq_nil in E as [E _]. unfold head_text in E. destruct (hd_method (m_head m)); discriminate.
Qed.
Lemma wires_pos ms : Forall wf_msg ms -> Z.of_nat (length ms) <= blen (concat (map wire ms)).
Proof.
  induction 1 as [|m ms W H IH]; [cbn; lia|]. cbn [map concat length]. rewrite blen_app. pose proof (wire_pos _ W). lia.
Qed.
Lemma sigs_interim r : sigs (interim r) = 0.
Proof. unfold interim. destruct (expects r); reflexivity. Qed.
Lemma sigs_answered g r k e : Answered g r k e -> sigs e = 2.
Proof. intros [hd _ _]. rewrite sigs_app, sigs_interim. cbn [sigs]. rewrite sigs_app. destruct (_ || _); reflexivity. Qed.
Lemma sigs_dialogue h rs l : Dialogue h rs l -> sigs l = 2 * Z.of_nat (length rs).
Proof.
  induction 1 as [|rs l r e D IH A]; [reflexivity|]. rewrite sigs_app, IH, (sigs_answered _ _ _ _ A), app_length. cbn [length]. lia.
Qed.
Lemma account_bound h stream l : Account h stream l -> sigs l <= 2 * blen stream + 1.
Proof.
  intros [ms rest l0 t e -> W D R E]. rewrite !sigs_app, (sigs_dialogue _ _ _ D), map_length, blen_app. pose proof (wires_pos _ W).
  assert (sigs e <= 1) by (destruct E; cbn [sigs]; lia). pose proof (blen_nonneg rest).
  assert (sigs t <= 2 * blen rest); [|lia].
  destruct R as [|hd n _ _ _ _|m x Wm ->|m x e1 Wm -> A|s _]; cbn [sigs]; try lia.
  - rewrite sigs_app, sigs_interim, blen_app. cbn [sigs]. pose proof (wire_pos _ Wm). pose proof (blen_nonneg x). lia.
  - rewrite (sigs_answered _ _ _ _ A), blen_app. pose proof (wire_pos _ Wm). pose proof (blen_nonneg x). lia.
Qed.

(** ** Handlers that can always answer *)
Definition able (h : handler) : Prop := forall rs m, wf_msg m -> let g := h (rs ++ [delivered m]) in
  last_named "content-length" (g_headers g) = None /\ blen (g_content g) <= INT_MAX /\ (q_method (delivered m) = lit "HEAD" -> g_content g = []).
(** what the server does by itself, and the handler's answers *)
Definition serving (a : action) : Prop :=
  match a with AReturn | ACall OpProcess | ACall (OpWriteResponse _ _ _) => True | _ => False end.
Definition over_or_idle (c : conn) : Prop :=
  (st c = ReceivingHeaders \/ st c = ReceivingContent) /\ avail c = [] \/ st c = Flushing \/ st c = Closed.

Lemma obeys_sane h c stk a : able h -> reached c stk -> obeys h c a -> sane c a.
Proof.
  intros HA R O. destruct a as [[d| |code hs content|code hs| | | | |]| | | |]; cbn [sane]; auto. intros S. cbn [obeys] in O. destruct (O S) as (G & L & B).
  destruct content as [|b content]; [now left|]. right. intros r len Cu RL.
  destruct (reached_SH _ _ R S) as (ms & m & more & l & H). pose proof (SH_current _ _ _ _ _ _ H Cu) as ->. destruct Cu as (rs & An). rewrite An in G.
  assert (W : wf_msg m) by (destruct H as [? [] ? ? ? ? ?]; assumption). destruct (HA rs m W) as (_ & _ & HH). rewrite <- G in HH. cbn [g_content] in HH.
  split; [intros X; specialize (HH X); discriminate|].
  assert (RL0 : RespLength (mkAns code hs (blen (b :: content))) (blen (b :: content))) by (apply (RL_size (mkAns code hs (blen (b :: content)))); exact L).
  apply RespLength_fun in RL, RL0. assert (len = blen (b :: content)) as -> by congruence. rewrite blen_cons. pose proof (blen_nonneg content). lia.
Qed.

Section Progress.
Variable h : handler.
Hypothesis HA : able h.

(* the state between two steps *)
Record Mid (c : conn) (stk : list frame) : Prop := { md_r : reached c stk; md_k : K h c stk; md_n : Forall no_content stk }.

Lemma mid_step c stk a n : Mid c stk -> polite c stk a -> obeys h c a -> up n c (step (Run c stk) a) -> exists c' stk', step (Run c stk) a = Run c' stk' /\ Mid c' stk'.
Proof.
  intros [R HK N] P O U. pose proof (step_sane c stk a R N P (obeys_sane _ _ _ _ HA R O)) as S.
  destruct (step (Run c stk) a) as [c' stk'|r c'] eqn:E.
  - exists c', stk'. split; auto. destruct S. constructor; auto. exact (serve_step h c stk a c' stk' R HK P O E).
  - contradiction.
Qed.
Lemma arrived_step c stk a c' stk' : serving a -> step (Run c stk) a = Run c' stk' -> settled stk -> arrived c' = arrived c.
Proof.
  intros S E T.
  assert (AD : forall t c, adds (fun _ => True) c (resume t c)) by (intros; apply adds_resume; auto).
  assert (G : adds (fun _ => True) c (step (Run c stk) a)).
  { destruct a as [[d| |code hs content|code hs| | | | |]| | | |]; try contradiction; cbn [step do_op].
    - apply adds_processInput; auto.
    - unfold writeResponse. destruct (negb _); auto. eapply (adds_quiet _ c (set_rlen (blen content) c)); [now split|]. apply adds_writeHeaders; auto. intros. apply adds_resp_tail; auto.
    - destruct stk as [|[] t]; auto; try (apply adds_run; [apply quiet_refl|exact T]). }
  destruct G as (_ & G & _). rewrite E in G. exact G.
Qed.
Lemma mid_account c stk : Mid c stk -> sigs (log c) <= 2 * blen (arrived c) + 1.
Proof. intros [R HK _]. apply (account_bound h). eapply K_account; eauto. Qed.
Lemma mid_answer c stk : Mid c stk -> st c = SendingHeaders -> exists code hs content c' stk', let a := ACall (OpWriteResponse code hs content) in
  polite c stk a /\ obeys h c a /\ step (Run c stk) a = Run c' stk' /\ Mid c' stk' /\ paid c < paid c'.
Proof.
  intros M S. pose proof M as [R HK N]. destruct (reached_SH _ _ R S) as (ms & m & more & l & H).
  assert (Cu : current c (delivered m)) by (exists (announced l); rewrite (sh_log _ _ _ _ _ H); now apply last_ready).
  assert (W : wf_msg m) by (destruct H as [? [] ? ? ? ? ?]; assumption).
  destruct Cu as (rs & Cu). destruct (HA rs m W) as (L & B & HH). destruct (h (rs ++ [delivered m])) as [code hs content] eqn:G. cbn [g_headers g_content] in L, B, HH.
  exists code, hs, content. 
  assert (O : obeys h c (ACall (OpWriteResponse code hs content))) by (intros _; rewrite Cu, G; auto).
  assert (P : polite c stk (ACall (OpWriteResponse code hs content))).
  { intros len RL. assert (RL0 : RespLength (mkAns code hs (blen content)) (blen content)) by (apply (RL_size (mkAns code hs (blen content))); exact L).
    apply RespLength_fun in RL, RL0. pose proof (blen_nonneg content). rewrite <- RL0 in RL. unfold INT_MIN. lia. }
  destruct (writeResponse_full c stk (delivered m) code hs content R S (ex_intro _ rs Cu) L B) as (hd & c' & stk' & RH & E & S' & KA & LG & NF).
  exists c', stk'. split; [exact P|]. split; [exact O|]. split; [exact E|].
  pose proof (step_sane c stk _ R N P (obeys_sane _ _ _ _ HA R O)) as Sn. rewrite E in Sn. destruct Sn as (R' & N'). split.
  - constructor; auto. exact (serve_step h c stk _ c' stk' R HK P O E).
  - pose proof (kk_response code hs content c stk (reached_settled' _ _ R)) as Q. unfold kk in Q. rewrite E in Q. cbn [gconn] in Q.
    unfold paid. rewrite Q, LG, sigs_app. cbn [sigs]. rewrite sigs_app. cbn [sigs]. destruct (_ || _); cbn [sigs]; lia.
Qed.

Lemma run_cons c stk a c1 stk1 l : step (Run c stk) a = Run c1 stk1 -> run (Run c stk) (a :: l) = run (Run c1 stk1) l.
Proof. intros E. unfold run. cbn [fold_left]. now rewrite E. Qed.
Lemma polite_cons c stk a c1 stk1 l : step (Run c stk) a = Run c1 stk1 -> polite c stk a -> polite_run (Run c1 stk1) l -> polite_run (Run c stk) (a :: l).
Proof. intros E P H. cbn [polite_run]. rewrite E. auto. Qed.
Lemma obeys_cons c stk a c1 stk1 l : step (Run c stk) a = Run c1 stk1 -> obeys h c a -> obeys_run h (Run c1 stk1) l -> obeys_run h (Run c stk) (a :: l).
Proof. intros E P H. cbn [obeys_run]. rewrite E. auto. Qed.

(* what there is to do *)
Definition todo (c : conn) (stk : list frame) : Prop := exists c' l, Forall serving l /\ polite_run (Run c stk) l /\ obeys_run h (Run c stk) l /\
  run (Run c stk) l = Run c' [] /\ over_or_idle c' /\ arrived c' = arrived c.
Lemma todo_step c stk a c1 stk1 : Mid c stk -> serving a -> polite c stk a -> obeys h c a -> step (Run c stk) a = Run c1 stk1 -> todo c1 stk1 -> todo c stk.
Proof.
  intros M S P O E (c' & l & F & P1 & O1 & E1 & D & A). exists c', (a :: l). split; [now constructor|].
  split; [exact (polite_cons _ _ _ _ _ _ E P P1)|]. split; [exact (obeys_cons _ _ _ _ _ _ E O O1)|]. split; [rewrite (run_cons _ _ _ _ _ _ E); exact E1|].
  split; [exact D|]. rewrite A. eapply arrived_step; eauto. eapply reached_settled'. apply M.
Qed.
Lemma not_completed c : reached c [] -> st c <> Completed.
Proof.
  intros R S. apply reached_inv in R.
  destruct R as [? ? ? ? ? ? ?|H Hb|ms m more l s t H ? ? ?|ms s t H ? ? ? ?|[(H & _)|(H & _)] Hf|(H & _) Hc]; try congruence.
  - destruct H as [(? & H)|[(? & ? & ? & ? & ? & H & _)|[(? & ? & ? & ? & H)|(? & ? & ? & ? & ? & ? & ? & ? & H)]]]; destruct H; try congruence.
    destruct H; congruence.
  - destruct s; discriminate.
  - destruct s; discriminate.
Qed.
Lemma done c : over_or_idle c -> todo c [].
Proof. intros D. exists c, []. split; [constructor|]. split; [exact Logic.I|]. split; [exact Logic.I|]. split; [reflexivity|]. split; [exact D|reflexivity]. Qed.
Lemma dried c : Mid c [] -> avail c = [] -> (forall code hs content c2 stk2, step (Run c []) (ACall (OpWriteResponse code hs content)) = Run c2 stk2 -> Mid c2 stk2 -> paid c < paid c2 -> arrived c2 = arrived c -> todo c2 stk2) -> todo c [].
Proof.
  intros M A LT. pose proof M as [R HK _]. destruct (st c) eqn:S; try (unfold K in HK; rewrite S in HK; contradiction).
  - apply done. left. auto.
  - apply done. left. auto.
  - destruct (mid_answer _ _ M S) as (code & hs & content & c' & stk' & P & O & E & M' & PD).
    apply (todo_step c [] (ACall (OpWriteResponse code hs content)) c' stk' M Logic.I P O E). eapply LT; eauto. eapply (arrived_step c [] (ACall (OpWriteResponse code hs content))); eauto; exact Logic.I.
  - exfalso. exact (not_completed _ R S).
  - apply done. right. auto.
  - apply done. right. auto.
Qed.
Lemma progress N : forall n c stk, Mid c stk -> 2 * blen (arrived c) + 1 - paid c <= Z.of_nat N -> (length stk <= n)%nat -> todo c stk.
Proof.
  induction N as [N IHN] using lt_wf_ind. induction n as [n IHn] using lt_wf_ind. intros c stk M B L.
  assert (Q : sigs (log c) <= 2 * blen (arrived c) + 1) by (eapply mid_account; eauto).
  assert (LT : forall c1 stk1, Mid c1 stk1 -> arrived c1 = arrived c -> paid c < paid c1 -> todo c1 stk1).
  { intros c1 stk1 M1 A1 P1. pose proof (mid_account _ _ M1) as Q1.
    assert (0 <= 2 * blen (arrived c1) + 1 - paid c1) by (unfold paid; lia).
    apply (IHN (Z.to_nat (2 * blen (arrived c1) + 1 - paid c1))) with (n := length stk1); auto; [|lia]. rewrite A1 in *. lia. }
  pose proof M as [R HK N0]. pose proof (reached_settled' _ _ R) as T.
  destruct stk as [|f t].
  - destruct (st c) eqn:S; try (unfold K in HK; rewrite S in HK; contradiction).
    1: assert (S' : st c = ReceivingHeaders \/ st c = ReceivingContent) by auto; clear S.
    2: assert (S' : st c = ReceivingHeaders \/ st c = ReceivingContent) by auto; clear S.
    1,2: destruct (avail c) as [|x y] eqn:A;
      [exists c, []; split; [constructor|]; split; [exact Logic.I|]; split; [exact Logic.I|]; split; [reflexivity|]; split; [left; auto|reflexivity]|].
    1,2: assert (U : up 0 c (step (Run c []) (ACall OpProcess))) by (apply up_processInput; intros c1; apply (up_resume [] c1));
      assert (Dr : dry (step (Run c []) (ACall OpProcess))) by (apply dry_process; [intros c1 A1; exact A1|exact S']);
      destruct (mid_step c [] (ACall OpProcess) 0 M Logic.I Logic.I U) as (c1 & stk1 & E & M1);
      apply (todo_step c [] (ACall OpProcess) c1 stk1 M Logic.I Logic.I Logic.I E);
      assert (A1 : arrived c1 = arrived c) by (eapply (arrived_step c [] (ACall OpProcess)); eauto; exact Logic.I);
      rewrite E in U, Dr; destruct U as (U1 & U2);
      (destruct (Z.eq_dec (paid c1) (paid c)) as [EQ|NE]; [|apply LT; auto; lia]);
      specialize (U2 EQ); destruct stk1; [|cbn [length] in U2; lia]; cbn [dry] in Dr; apply (dried c1 M1 Dr); intros code hs content c2 stk2 E2 M2 P2 A2; apply LT; [exact M2|congruence|lia].
    + destruct (mid_answer _ _ M S) as (code & hs & content & c' & stk' & P & O & E & M' & PD).
      apply (todo_step c [] (ACall (OpWriteResponse code hs content)) c' stk' M Logic.I P O E). apply LT; auto. eapply (arrived_step c [] (ACall (OpWriteResponse code hs content))); eauto.
    + exfalso. exact (not_completed _ R S).
    + exists c, []. split; [constructor|]. split; [exact Logic.I|]. split; [exact Logic.I|]. split; [reflexivity|]. split; [right; auto|reflexivity].
    + exists c, []. split; [constructor|]. split; [exact Logic.I|]. split; [exact Logic.I|]. split; [reflexivity|]. split; [right; auto|reflexivity].
  - destruct f as [s| | | | | | |]; try contradiction.
    assert (U : up (length t) c (step (Run c (KSig s :: t)) AReturn)) by apply up_resume.
    destruct (mid_step c _ AReturn _ M Logic.I Logic.I U) as (c1 & stk1 & E & M1).
    apply (todo_step c _ AReturn c1 stk1 M Logic.I Logic.I Logic.I E).
    assert (A1 : arrived c1 = arrived c) by (eapply (arrived_step c (KSig s :: t) AReturn); eauto; exact Logic.I).
    rewrite E in U. destruct U as (U1 & U2). destruct (Z.eq_dec (paid c1) (paid c)) as [EQ|NE]; [|apply LT; auto; lia].
    specialize (U2 EQ). cbn [length] in L. apply (IHn (length stk1)); auto; [lia|]. rewrite A1, EQ. exact B.
Qed.
End Progress.

(** ** C82_progress: nothing waits for ever.  Whatever happened before (requests answered by h or still waiting), once the slots return, the handler
    answers what is announced and what the device holds is read, the connection waits for more bytes or has said its last word; it needs no more than that,
    and what it then has said is C82_idle's function of the bytes received. *)
Theorem C82_progress : forall h c0 l c stk, able h -> reached c0 [] -> st c0 = ReceivingHeaders -> log c0 = [] ->
  polite_run (Run c0 []) l -> obeys_run h (Run c0 []) l -> run (Run c0 []) l = Run c stk ->
  exists more c', Forall serving more /\ polite_run (Run c0 []) (l ++ more) /\ obeys_run h (Run c0 []) (l ++ more) /\
    run (Run c0 []) (l ++ more) = Run c' [] /\ arrived c' = arrived c /\
    ((st c' = ReceivingHeaders \/ st c' = ReceivingContent) /\ avail c' = [] \/ st c' = Flushing \/ st c' = Closed).
Proof.
  intros h c0 l c stk HA R S L P O E. destruct (serve_run h l c0 [] c stk R (serve_start _ _ _ S L) P O E) as (K1 & R1).
  assert (N : Forall no_content stk).
  { assert (SR : forall l c1 s1, reached c1 s1 -> polite_run (Run c1 s1) l -> obeys_run h (Run c1 s1) l -> sane_run (Run c1 s1) l).
    { clear - HA. induction l as [|a l IH]; intros c1 s1 R P O; [exact Logic.I|]. cbn [polite_run obeys_run sane_run] in *. destruct P as (P1 & P2), O as (O1 & O2).
      split; [eapply obeys_sane; eauto|]. destruct (step (Run c1 s1) a) as [c2 s2|r c2] eqn:E.
      - apply IH; auto. eapply reached_step; eauto.
      - clear. induction l; cbn; auto. }
    pose proof (run_sane l c0 [] R (Forall_nil _) P (SR l c0 [] R P O)) as X. rewrite E in X. apply X. }
  destruct (progress h HA (Z.to_nat (2 * blen (arrived c) + 1 - paid c)) (length stk) c stk) as (c' & more & F & P1 & O1 & E1 & D & A).
  - constructor; auto.
  - pose proof (mid_account h c stk (Build_Mid _ _ _ R1 K1 N)). unfold paid in *. lia.
  - lia.
  - exists more, c'. split; [exact F|].
    assert (PA : forall l g, polite_run g l -> polite_run (run g l) more -> polite_run g (l ++ more)).
    { clear. induction l as [|a l IH]; intros g P1 P2; [exact P2|]. cbn [polite_run app] in *. destruct P1. split; auto. }
    assert (OA : forall l g, obeys_run h g l -> obeys_run h (run g l) more -> obeys_run h g (l ++ more)).
    { clear. induction l as [|a l IH]; intros g P1 P2; [exact P2|]. cbn [obeys_run app] in *. destruct P1. split; auto. }
    split; [apply PA; auto; rewrite E; exact P1|]. split; [apply OA; auto; rewrite E; exact O1|].
    split; [unfold run in *; rewrite fold_left_app, E; exact E1|]. auto.
Qed.
Definition counter : handler := fun rs => mkGiven 200 [(lit "X-Count", repeat "i"%char (length rs))] (if beqb (q_method (last rs req0)) (lit "HEAD") then [] else lit "hello").
Definition waits : list action := [AArrive (ask1 ++ ask2); AKernel 10; ACall OpProcess].
Definition waited : conn := match run (Run opened []) waits with Run c _ => c | UB _ c => c end.
Example C82_case_progress : able counter /\ reached opened [] /\ st opened = ReceivingHeaders /\ log opened = [] /\
  polite_run (Run opened []) waits /\ obeys_run counter (Run opened []) waits /\ run (Run opened []) waits = Run waited [KSig SReady] /\
  st waited = SendingHeaders /\ avail waited = [] /\ buf waited <> [].
Proof.
  split.
  { intros rs m W. cbv zeta. unfold counter. cbn [g_headers g_content]. split; [reflexivity|]. rewrite last_last. destruct (beqb (q_method (delivered m)) (lit "HEAD")) eqn:E.
    - split; [discriminate|auto].
    - split; [discriminate|]. intros X. rewrite X, beqb_refl in E. discriminate. }
  split; [apply reached_run; vm_compute; reflexivity|]. split; [vm_compute; reflexivity|]. split; [vm_compute; reflexivity|].
  split; [apply politeb_run_ok; vm_compute; reflexivity|]. split; [apply obeysb_run_ok; vm_compute; reflexivity|].
  split; [vm_compute; reflexivity|]. split; [vm_compute; reflexivity|]. split; [vm_compute; reflexivity|]. vm_compute. discriminate.
Qed.
