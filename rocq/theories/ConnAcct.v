(** Where the bytes given to the output device are, and when the devices are let go. *)
From Verif Require Import Bytes ByteHelpers Thin Helpers Conn ConnSpec ConnStep.
Open Scope Z_scope.

(** bytes written to the device: still buffered by the socket, or taken by the kernel.  [total c]: those taken, up to
    what the kernel would still take *)
Definition total (c : conn) : Z := blen (written (log c)) - pending c + kcap c.
Record Acct (c0 c : conn) : Prop := mkAcct {
  ac_sock : sock c = sock c0;
  ac_total : sock c0 = true -> total c = total c0;
  ac_kcap : kcap c <= kcap c0;
  ac_pos : 0 <= pending c0 -> 0 <= pending c }.
(** when closed, the devices are let go, or will be when the slots of closed() return *)
Definition Let_go (c : conn) (stk : list frame) : Prop := st c = Closed -> In KClosed stk \/ (in_ok c = false /\ out_ok c = false).
Definition AS (c0 c : conn) (stk : list frame) : Prop := Acct c0 c /\ Let_go c stk.
Definition AG (c0 : conn) (g : cfg) : Prop := match g with Run c stk => AS c0 c stk | UB _ c => Acct c0 c end.
Definition AK (c0 : conn) (stk : list frame) (k : conn -> cfg) : Prop := forall c, AS c0 c stk -> AG c0 (k c).

Lemma as_move c0 c c' stk : AS c0 c stk -> sock c' = sock c -> log c' = log c -> pending c' = pending c -> kcap c' = kcap c ->
  (st c' = Closed -> st c = Closed) -> in_ok c' = in_ok c -> out_ok c' = out_ok c -> AS c0 c' stk.
Proof.
  intros [[A B C D] L] H1 H2 H3 H4 H5 H6 H7. split; [|unfold Let_go; rewrite H6, H7; auto].
  constructor; rewrite ?H1, ?H3, ?H4; auto. unfold total. rewrite H2, H3, H4. auto.
Qed.
Lemma as_frame c0 c f stk : AS c0 c stk -> AS c0 c (f :: stk).
Proof. intros [A L]. split; auto. intros E. destruct (L E); [left; now right|auto]. Qed.
Lemma as_unframe c0 c f stk : AS c0 c (f :: stk) -> f <> KClosed -> AS c0 c stk.
Proof. intros [A L] N. split; auto. intros E. destruct (L E) as [[H|H]|H]; [congruence|auto..]. Qed.
Lemma as_acct c0 c stk : AS c0 c stk -> Acct c0 c. Proof. now intros []. Qed.
Ltac mv H := eapply as_move; [exact H|csimp; auto; try discriminate..].

Lemma written_snoc l o : written (l ++ [o]) = written l ++ written [o].
Proof. induction l as [|x l IH]; cbn [app written]; [destruct o; reflexivity|]. destruct x; cbn [written app]; rewrite ?IH, ?app_assoc; auto. Qed.
Lemma as_log c0 c stk o : AS c0 c stk -> written [o] = [] -> AS c0 (emit_log o c) stk.
Proof.
  intros [[A B C D] L] E. split; [|exact L]. unfold emit_log. constructor; csimp; auto. unfold total. csimp. rewrite written_snoc, E, app_nil_r. auto.
Qed.
Section C0.
Variable c0 : conn.
Notation AS := (AS c0). Notation AG := (AG c0). Notation AK := (AK c0).
Section Stk.
Variables (stk : list frame) (k : conn -> cfg).
Hypothesis HK : AK stk k.

Lemma write_acct b c (k' : conn -> cfg) : AS c stk -> AK stk k' -> AG (dev_write b c k').
Proof.
  intros H Hk. unfold dev_write. destruct (out_ok c) eqn:E; [|apply (as_acct _ _ _ H)]. apply Hk. destruct H as [[A B C D] L].
  split; [|unfold Let_go, emit_log; csimp; exact L]. unfold emit_log. constructor; csimp; auto.
  - intros S. unfold total. csimp. rewrite written_snoc, blen_app. rewrite A, S. specialize (B S). unfold total in B.
    change (written [OWrite b]) with (b ++ []). rewrite app_nil_r. lia.
  - intros P. specialize (D P). pose proof (blen_nonneg b). destruct (sock c); lia.
Qed.
Lemma flush_acct c f (k' : conn -> cfg) : AS c stk -> AK stk k' -> AG (flush c (f ++ stk) k').
Proof.
  intros H Hk. unfold flush. destruct (_ && _) eqn:E; [|auto]. destruct H as [[A B C D] L]. rewrite !andb_true_iff in E.
  destruct E as (((E1 & E2) & E3) & E4). apply Z.ltb_lt in E2, E4. split.
  - constructor; csimp; auto; try lia. unfold total in *. csimp. intros S. specialize (B S). lia.
  - unfold Let_go in *. csimp. intros S. destruct (L S); auto. left. cbn [In]. right. apply in_app_iff. auto.
Qed.
Lemma toClosed_acct c : AS c stk -> AG (toClosed c stk k).
Proof.
  intros H. unfold toClosed. destruct (cst_eqb _ _); auto. cbv zeta.
  assert (X : Acct c0 (emit_log OClosed (if in_ok (set_st Closed c) || out_ok (set_st Closed c) then emit_log (OShut (pending (set_st Closed c))) (set_st Closed c) else set_st Closed c))).
  { destruct H as [[A B C D] _]. destruct (in_ok _ || out_ok _); unfold emit_log; constructor; csimp; auto;
      unfold total in *; csimp; rewrite !written_snoc, !app_nil_r; auto. }
  split; [exact X|]. intros _. left. right. now left.
Qed.
Lemma drain_tail_acct c : AS c stk -> AG (drain_tail c stk k).
Proof. intros H. unfold drain_tail. destruct (_ && _); auto using toClosed_acct. Qed.
End Stk.

Lemma drain_acct stk k c : AK stk k -> AS c stk -> AG (drain c stk k).
Proof.
  intros HK H. unfold drain. destruct (negb _); auto. apply (flush_acct stk c [KDrain]); auto. intros c' H'. now apply drain_tail_acct.
Qed.
Lemma toFlushing_acct stk k c : AK stk k -> AS c stk -> AG (toFlushing c stk k).
Proof.
  intros HK H. unfold toFlushing. destruct (cst_eqb _ _); auto. apply drain_acct.
  - intros c' H'. apply HK. assert (H2 : AS c' stk) by (eapply as_unframe; eauto; discriminate).
    unfold flushing_tail. destruct (_ && _); auto. mv H2.
  - apply as_frame. mv H.
Qed.
Lemma error_acct code stk k c : AK stk k -> AS c stk -> AG (writeRequestErrorResponse code c stk k).
Proof.
  intros HK H. unfold writeRequestErrorResponse. destruct (cst_eqb _ _); auto. apply (write_acct stk); auto. intros c' H'. now apply toFlushing_acct.
Qed.
Lemma reserve_as stk n c : AS c stk -> AS (reserve n c) stk.
Proof. intros H. unfold reserve. destruct (_ <? _); auto. mv H. Qed.
Lemma read_as stk c : AS c stk -> AS (read_input c) stk.
Proof. intros H. unfold read_input. destruct (avail c); auto. eapply as_move; [apply reserve_as; exact H|csimp; auto..]. Qed.
Lemma toSendingHeaders_acct stk k c : AK stk k -> AS c stk -> AG (toSendingHeaders c stk k).
Proof.
  intros HK H. unfold toSendingHeaders. destruct (cst_eqb _ _); auto. cbv zeta. apply as_frame, as_log; [|reflexivity]. mv H.
Qed.
Lemma check_content_acct stk k c : AK stk k -> AS c stk -> AG (check_content c stk k).
Proof. intros HK H. unfold check_content. destruct (_ <=? _); auto using toSendingHeaders_acct. Qed.
Lemma toReceivingContent_acct stk k c : AK stk k -> AS c stk -> AG (toReceivingContent c stk k).
Proof.
  intros HK H. unfold toReceivingContent. cbv zeta.
  match goal with |- AG (let '(_, _) := ?x in _) => set (X := x); assert (Q : AS (fst X) stk); [|destruct X as [c1 ok]; cbn [fst] in Q] end.
  { subst X. destruct (_ <=? _); [|mv H]. destruct (toInt _); mv H. }
  destruct (_ <? _); [now apply error_acct|]. destruct (_ || _); [now apply error_acct|].
  destruct (_ <? _); [|now apply toSendingHeaders_acct].
  assert (N : AK stk (fun c2 => let c3 := reserve (body_start (tp (ps c2)) + cl c2 + 1) c2 in if in_ok c3 then check_content (read_input c3) stk k else UB NullInput c3)).
  { intros c2 H2. cbv zeta. destruct (in_ok _); [|apply (as_acct _ _ _ (reserve_as _ _ _ H2))]. apply check_content_acct; auto. now apply read_as, reserve_as. }
  destruct (asciiEqualsCI_lower _ _); [now apply (write_acct stk)|now apply N].
Qed.
Lemma processInput_acct stk k c : AK stk k -> AS c stk -> AG (processInput c stk k).
Proof.
  intros HK H. unfold processInput. destruct (cst_eqb _ _).
  - destruct (negb _); [apply (as_acct _ _ _ H)|]. cbv zeta. set (s := match buf _ with [] => _ | _ :: _ => _ end).
    assert (Q : AS (set_ps s (read_input c)) stk) by (eapply as_move; [apply read_as; exact H|csimp; auto..]).
    destruct (_ || _); [now apply error_acct|]. destruct (is_finished _); auto. now apply toReceivingContent_acct.
  - destruct (cst_eqb _ _); auto. destruct (negb _); [apply (as_acct _ _ _ H)|]. apply check_content_acct; auto. now apply read_as.
Qed.
Lemma flushc_acct stk k c : AK stk k -> AS c stk -> AG (flushc_tail c stk k).
Proof.
  intros HK H. unfold flushc_tail. apply processInput_acct; auto. unfold toReceivingHeaders. destruct (cst_eqb _ _); auto. mv H.
Qed.
Lemma completed_acct stk k c : AK stk k -> AS c stk -> AG (completed_tail c stk k).
Proof.
  intros HK H. unfold completed_tail. cbv zeta.
  assert (Q : AS (release_request c) stk) by (unfold release_request; cbv zeta; destruct (_ <? _); [|destruct (_ <=? _)]; mv H).
  destruct (keepalive _); [|now apply toFlushing_acct]. apply (flush_acct stk _ [KFlushC]); auto. intros c' H'. now apply flushc_acct.
Qed.
Lemma toCompleted_acct f stk k c : AK stk k -> AS c stk -> AG (toCompleted c (f ++ stk) k).
Proof.
  intros HK H. unfold toCompleted. destruct (cst_eqb _ _); auto.
  assert (X : AS (set_st Completed c) stk) by (mv H).
  pose proof (as_log _ _ _ OCompleted X eq_refl) as [Y Z]. split; [exact Y|]. intros E. discriminate E.
Qed.
Lemma sending_as stk c : AS c stk -> AS (sending_tail c) stk.
Proof. intros H. unfold sending_tail. destruct (_ && _); auto. mv H. Qed.
Lemma toSendingContent_acct f stk k c : AK stk k -> AS c stk -> AG (toSendingContent c (f ++ stk) k).
Proof.
  intros HK H. unfold toSendingContent. destruct (cst_eqb _ _); auto. cbv zeta.
  assert (Q : AS (set_hbuf [] (set_st SendingContent c)) stk) by (mv H).
  destruct (_ || _); [|apply HK; now apply sending_as]. apply (toCompleted_acct (KSending :: f) stk); auto. intros c' H'. apply HK. now apply sending_as.
Qed.
Lemma writeHeaders_acct code hs f stk k c : AK stk k -> AS c stk -> AG (writeHeaders code hs c (f ++ stk) k).
Proof.
  intros HK H. unfold writeHeaders. destruct (negb _); auto. cbv zeta.
  match goal with |- AG (let '(_, _) := ?x in _) => destruct x as [ch te] end. csimp.
  match goal with |- context [match ?x with Some _ => dev_write _ _ _ | None => _ end] => destruct x end.
  - apply (write_acct stk); [mv H|]. intros c' H'. now apply toSendingContent_acct.
  - apply (as_acct c0 _ stk). mv H.
Qed.
Lemma writeContent_acct content stk k c : AK stk k -> AS c stk -> AG (writeContent content c stk k).
Proof.
  intros HK H. unfold writeContent. destruct (negb _); auto. destruct (_ =? _); auto. destruct (_ && _); auto. destruct (_ && _); auto. cbv zeta.
  assert (F : AK stk (fun c => if rsent c =? rlen c then toCompleted c stk k else k c)) by (intros c' H'; destruct (_ =? _); auto; now apply (toCompleted_acct [])).
  assert (Q : AS (set_rsent (rsent c + blen content) c) stk) by (mv H). csimp.
  destruct (chunked c); [|now apply (write_acct stk)]. destruct (appendNumber _ _); [|apply (as_acct _ _ _ Q)].
  apply (write_acct stk); auto. intros c2 H2. apply (write_acct stk); auto. intros c3 H3. now apply (write_acct stk).
Qed.
Lemma resp_acct content stk k c : AK stk k -> AS c stk -> AG (resp_tail content c stk k).
Proof.
  intros HK H. unfold resp_tail. destruct content; auto. destruct (_ && _); [apply (as_acct _ _ _ H)|]. destruct (is_head _); auto. now apply writeContent_acct.
Qed.
Lemma endContent_acct stk k c : AK stk k -> AS c stk -> AG (endContent c stk k).
Proof.
  intros HK H. unfold endContent. destruct (negb _); auto. destruct (_ <=? _); auto. destruct (chunked c).
  - apply (write_acct stk); auto. intros c' H'. now apply (toCompleted_acct []).
  - apply (toCompleted_acct []); auto. mv H.
Qed.
Lemma resume_acct : forall stk, AK stk (resume stk).
Proof.
  induction stk as [|f t IH]; intros c H; cbn [resume]; [exact H|].
  destruct f as [s| | | | | |content|]; try (assert (H2 : AS c t) by (eapply as_unframe; [exact H|discriminate])).
  - exact H.
  - now apply completed_acct.
  - now apply flushc_acct.
  - now apply drain_tail_acct.
  - apply IH. unfold flushing_tail. destruct (_ && _); auto. mv H2.
  - apply IH. now apply sending_as.
  - now apply resp_acct.
  - apply IH. destruct H as [[A B C D] L]. unfold closed_tail. split; [constructor; csimp; auto|]. intros _. right. csimp. auto.
Qed.
Lemma op_acct o c stk : is_init o = false -> AS c stk -> AG (do_op o c stk).
Proof.
  intros Hi H. pose proof (resume_acct stk) as HK. destruct o; cbn [do_op is_init] in *; try discriminate.
  - now apply processInput_acct.
  - unfold writeResponse. destruct (negb _); auto. apply (writeHeaders_acct _ _ [_] stk); [|mv H]. intros c' H'. now apply resp_acct.
  - now apply (writeHeaders_acct _ _ []).
  - now apply writeContent_acct.
  - now apply endContent_acct.
  - now apply toClosed_acct.
  - now apply (flush_acct stk _ []).
  - now apply drain_acct.
Qed.
End C0.

Lemma acct_refl c : Acct c c. Proof. constructor; auto; lia. Qed.
Lemma ag_conn c0 g : AG c0 g -> Acct c0 (gconn g). Proof. destruct g; [now intros []|auto]. Qed.

(** how many buffered bytes the kernel took during a step: kcap is what it would take *)
Definition handed (c : conn) (a : action) (c' : conn) : Z :=
  match a with
  | AKernel _ => 0
  | AWritten n => Z.max 0 (Z.min n (pending c)) + (kcap c - kcap c')
  | _ => kcap c - kcap c'
  end.
Lemma acct_drop c stk : Let_go c stk -> AS c c stk. Proof. split; [apply acct_refl|auto]. Qed.
Lemma step_acct c stk a : resets a = false -> 0 <= pending c -> sock c = true -> Let_go c stk ->
  let c' := gconn (step (Run c stk) a) in
  0 <= handed c a c' /\ sock c' = true /\ 0 <= pending c' /\
  blen (written (log c')) = blen (written (log c)) + (pending c' - pending c) + handed c a c'.
Proof.
  intros R P S L.
  assert (G : forall g, AG c g -> 0 <= kcap c - kcap (gconn g) /\ sock (gconn g) = true /\ 0 <= pending (gconn g) /\
            blen (written (log (gconn g))) = blen (written (log c)) + (pending (gconn g) - pending c) + (kcap c - kcap (gconn g))).
  { intros g H. apply ag_conn in H. destruct H as [A B C D]. specialize (B S). unfold total in B. split; [lia|]. split; [congruence|]. split; [auto|lia]. }
  destruct a as [o| |b|n|n]; cbn [step resets] in *; cbv zeta; unfold handed.
  - apply G, op_acct; [destruct o; auto|now apply acct_drop].
  - destruct stk as [|[s| | | | | | | ] t]; try (apply G; now apply acct_drop).
    apply G, resume_acct. split; [apply acct_refl|]. intros E. destruct (L E) as [[H|H]|H]; [discriminate|auto..].
  - destruct (_ && _); [|apply G; now apply acct_drop]. cbn [gconn]. csimp. split; [lia|]. split; [auto|]. lia.
  - cbn [gconn]. csimp. split; [lia|]. split; [auto|]. lia.
  - set (m := Z.max 0 (Z.min n (pending c))). assert (Hm : 0 <= m <= pending c) by (subst m; lia). clearbody m. csimp. destruct (drain_conn c); [|cbn [gconn]; csimp; split; [lia|]; split; [auto|]; lia].
    set (c1 := set_pending (pending c - m) c).
    assert (H : AG c1 (drain c1 stk (resume stk))).
    { apply drain_acct; [apply resume_acct|]. apply acct_drop. exact L. }
    apply ag_conn in H. set (g := drain _ _ _) in *. destruct H as [A B C D]. subst c1. unfold total in *. csimp in *. specialize (B S).
    split; [lia|]. split; [congruence|]. split; [apply D; lia|]. lia.
Qed.
(** the devices *)
Definition Let_goG (g : cfg) : Prop := match g with Run c stk => Let_go c stk | UB _ _ => True end.
Lemma step_let_go g a : Let_goG g -> Let_goG (step g a).
Proof.
  intros L. destruct g as [c stk|]; [|exact L]. cbn [Let_goG] in L.
  assert (G : forall c0 g, AG c0 g -> Let_goG g) by (intros c0 [c' s'|] H; [apply H|exact Logic.I]).
  destruct a as [o| |b|n|n]; cbn [step].
  - destruct (is_init o) eqn:E; [|eapply G, op_acct; [auto|now apply acct_drop]]. destruct o; try discriminate. cbn [do_op].
    destruct (initialize d c) as [c' s'|] eqn:Q; [|exact Logic.I]. eapply G, (resume_acct c'), acct_drop.
    unfold initialize in Q. destruct (_ && _); [discriminate|]. cbv zeta in Q. destruct (in_ok _); [|discriminate]. injection Q as <- <-.
    intros E'. exfalso. revert E'. unfold toReceivingHeaders. destruct (cst_eqb _ _) eqn:Y; csimp; [|discriminate]. intros E'. rewrite E' in Y. discriminate.
  - destruct stk as [|[s| | | | | | | ] t]; try exact L. eapply G, (resume_acct c), acct_drop. intros E. destruct (L E) as [[H|H]|H]; [discriminate|auto..].
  - destruct (_ && _); exact L.
  - exact L.
  - cbv zeta. csimp. destruct (drain_conn c); [|exact L]. eapply G, drain_acct; [apply resume_acct|]. apply acct_drop. exact L.
Qed.
Lemma run_let_go : forall l g, Let_goG g -> Let_goG (run g l).
Proof. induction l as [|a l IH]; intros g H; [exact H|]. cbn [run fold_left]. apply IH, step_let_go, H. Qed.

Fixpoint handed_by (next : cfg -> action -> cfg) (g : cfg) (l : list action) : Z :=
  match l with [] => 0 | a :: t => handed (gconn g) a (gconn (next g a)) + handed_by next (next g a) t end.
Definition handed_run : cfg -> list action -> Z := handed_by step.
