(** PROPERTIES C13-C17: the content of responses, keep-alive, calls in the wrong state. *)
From Verif Require Import Bytes ByteHelpers Thin Helpers ReqGrammar TextSpec ThinProofs ThinFields ThinTop CIProofs HelpersProofs
  Conn ConnSpec ConnView ConnText ConnHead ConnInv ConnStep ConnEnd ConnLog PropsParser PropsConn ConnSend ConnFree PropsConn2.
Open Scope Z_scope.

(** [sending c r a pcs] (ConnSend.v): the log of c ends with the head answering r as asked by a, of the length
    responseContentLength(), followed by the events of exactly the content pieces pcs *)
Lemma blen_pos b : b <> [] -> 0 < blen b.
Proof. destruct b; [congruence|]. intros _. rewrite blen_cons. pose proof (blen_nonneg b). lia. Qed.

Lemma sending_snoc c r a pcs content ev c' : sending c r a pcs -> head_req r = false -> rlen c <> 0 -> rlen c' = rlen c -> content <> [] ->
  piece (chunked_resp r a (rlen c)) content ev -> log c' = log c ++ ev -> (0 < rlen c -> total pcs + blen content <= rlen c) -> sending c' r a (pcs ++ [content]).
Proof.
  intros (pre & evs & HL & HP & HA) Hh Hn Hr Hc P HL' HT. exists pre, (evs ++ ev). split.
  - rewrite HL', HL, <- !app_assoc. reflexivity.
  - split; auto. rewrite Hr. destruct HA as [hd evs' RL RH CE MS]. cbn [app]. constructor; auto.
    + apply CE_snoc; auto. unfold piece in P. destruct (Z_lt_le_dec 0 (rlen c)) as [L|L].
      * rewrite framing_fixed in * by auto. unfold chunked_resp in P. replace (rlen c =? -1) with false in P by (symmetry; apply Z.eqb_neq; lia).
        rewrite andb_false_r in P. subst ev. constructor.
      * rewrite framing_unknown in * by (auto; lia). destruct (chunked_resp r a (rlen c)).
        -- destruct P as (d & Cd & ->). now constructor.
        -- subst ev. constructor.
    + rewrite total_snoc. unfold framing_of in *. rewrite Hh in *. destruct (Z.eqb_spec (rlen c) 0); [contradiction|]. cbn [orb] in *.
      destruct (Z.ltb_spec 0 (rlen c)); cbn [may_send] in *; auto. destruct (chunked_resp _ _ _); auto.
Qed.

Lemma Forall2_impl {A B} (P Q : A -> B -> Prop) l l' : (forall x y, P x y -> Q x y) -> Forall2 P l l' -> Forall2 Q l l'.
Proof. intros H. induction 1; constructor; auto. Qed.

(** ** C13: responses of known length *)
Theorem C13_writeContent : forall c stk content, reached c stk -> st c = SendingContent -> 0 <= rlen c ->
  exists r a pcs, sending c r a pcs /\ current c r /\ total pcs < rlen c /\
    let g := step (Run c stk) (ACall (OpWriteContent content)) in
    (content = [] \/ rlen c < total pcs + blen content -> g = Run c stk) /\
    (content <> [] -> total pcs + blen content < rlen c ->
       exists c', g = Run c' stk /\ st c' = SendingContent /\ rlen c' = rlen c /\ sending c' r a (pcs ++ [content]) /\ log c' = log c ++ [OWrite content]) /\
    (content <> [] -> total pcs + blen content = rlen c ->
       exists c', g = Run c' (KSig SCompleted :: KCompleted :: stk) /\ st c' = Completed /\ log c' = log c ++ [OWrite content; OCompleted]).
Proof.
  intros c stk content H Hs Hn. destruct (reached_sending _ _ H Hs) as (r & a & pcs & S & Cu & Hh & H0 & HT & Hch & Hka & Hse & Ho & Hq).
  assert (L : 0 < rlen c) by lia. exists r, a, pcs. split; auto. split; auto. split; auto.
  rewrite <- Hq in Hh. pose proof (writeContent_step c stk content H Hs r a pcs Hch Hse Hh H0 Ho (total_nonneg _)) as W. cbv zeta in *.
  assert (CH : chunked_resp r a (rlen c) = false).
  { unfold chunked_resp. replace (rlen c =? -1) with false by (symmetry; apply Z.eqb_neq; lia). apply andb_false_r. }
  rewrite CH in W. cbn [piece] in W. replace (0 <? rlen c) with true in W by (symmetry; apply Z.ltb_lt; auto). cbn [andb] in W.
  split; [|split].
  - intros D. replace ((rlen c <? total pcs + blen content) || (blen content =? 0)) with true in W; auto. symmetry. apply orb_true_iff.
    destruct D as [->|D]; [right; reflexivity|left; now apply Z.ltb_lt].
  - intros Nc Lt. apply blen_pos in Nc as Np. replace ((rlen c <? total pcs + blen content) || (blen content =? 0)) with false in W.
    2: { symmetry. apply orb_false_iff. split; [apply Z.ltb_ge|apply Z.eqb_neq]; lia. }
    destruct W as (ev & c' & -> & E1 & E2 & W). replace (total pcs + blen content =? rlen c) with false in W by (symmetry; apply Z.eqb_neq; lia).
    destruct W as (W1 & W2 & W3). exists c'. split; auto. split; auto. split; auto. split; auto.
    eapply (sending_snoc c r a pcs content [OWrite content]); eauto; try congruence; try lia. now rewrite CH.
  - intros Nc Eq. apply blen_pos in Nc as Np. replace ((rlen c <? total pcs + blen content) || (blen content =? 0)) with false in W.
    2: { symmetry. apply orb_false_iff. split; [apply Z.ltb_ge|apply Z.eqb_neq]; lia. }
    destruct W as (ev & c' & -> & E1 & E2 & W). rewrite Eq, Z.eqb_refl in W. destruct W as (W1 & W2 & W3). exists c'. auto.
Qed.
Theorem C13_endContent : forall c stk, reached c stk -> st c = SendingContent -> 0 <= rlen c -> step (Run c stk) (ACall OpEndContent) = Run c stk.
Proof.
  intros c stk H Hs Hn. destruct (reached_sending _ _ H Hs) as (r & a & pcs & S & Cu & Hh & H0 & HT & Hch & Hka & Hse & Ho & Hq).
  pose proof (endContent_step c stk H Hs Ho) as E. cbv zeta in E. destruct (Z.leb_spec 0 (rlen c)); [auto|lia].
Qed.
(** over a whole connection life: whatever was done, in the bytes written the content of every completed response
    of known length has exactly that length, and that of a response under way at most that length *)
Theorem C13_whole_life : forall c stk, reached c stk -> exists rs last bs b,
  announced (log c) = rs ++ last /\ written (log c) = concat bs ++ b /\ LastWritten last b /\
  Forall2 (fun r b => exists a len hd content enc, b = interim_text r ++ hd ++ enc /\ RespLength a len /\ RespHead r a len hd /\
    (head_req r = false -> 0 <= len -> enc = content /\ blen content = len)) rs bs.
Proof.
  intros c stk H. destruct (C19_response_order _ _ H) as (rs & last & bs & b & H1 & H2 & H3 & H4). exists rs, last, bs, b. split; auto. split; auto. split; auto.
  eapply Forall2_impl; [|exact H3]. cbn. clear. intros r b [a len hd content enc HL HH HE _]. exists a, len, hd, content, enc. split; auto. split; auto. split; auto.
  intros Hh Hn. unfold framing_of in HE. rewrite Hh, orb_false_r in HE. destruct (Z.eqb_spec len 0) as [->|]; [inversion HE; auto|].
  destruct (Z.ltb_spec 0 len); [|lia]. inversion HE; subst; auto.
Qed.
(** the response under way *)
Theorem C13_under_way : forall r b, PartialResponse r b -> b = interim_text r \/
  exists a len hd content enc, b = interim_text r ++ hd ++ enc /\ RespLength a len /\ RespHead r a len hd /\
    (head_req r = false -> 0 <= len -> enc = content /\ blen content <= len).
Proof.
  intros r b [|a len hd content enc HL HH HE]; auto. right. exists a, len, hd, content, enc. split; auto. split; auto. split; auto.
  intros Hh Hn. unfold framing_of in HE. rewrite Hh, orb_false_r in HE. destruct (Z.eqb_spec len 0) as [->|]; [inversion HE; subst; split; [reflexivity|rewrite blen_nil; lia]|].
  destruct (Z.ltb_spec 0 len); [|lia]. inversion HE; subst; auto.
Qed.
(** a sample: 5 bytes announced, 3 written *)
Definition sending5 : conn := run_conn [ACall (OpInit (NewDevice true true true text1)); ACall OpProcess;
  ACall (OpWriteHeaders 200 [(lit "Content-Length", lit "5")]); ACall (OpWriteContent (lit "abc"))].
Example C13_case : reached sending5 [KSig SReady] /\ st sending5 = SendingContent /\ rlen sending5 = 5 /\ written (log sending5) <> [].
Proof. split; [apply reached_run; vm_compute; reflexivity|]. vm_compute. repeat split; discriminate. Qed.

(** ** C14: responses of unknown length: chunked, or ended by closing *)
Definition zero_chunk : bytes := lit "0" ++ CRLF ++ CRLF.
Theorem C14_writeContent : forall c stk content, reached c stk -> st c = SendingContent -> rlen c < 0 ->
  exists r a pcs, sending c r a pcs /\ current c r /\
    let g := step (Run c stk) (ACall (OpWriteContent content)) in
    (content = [] -> g = Run c stk) /\
    (content <> [] -> exists c', g = Run c' stk /\ st c' = SendingContent /\ rlen c' = rlen c /\ sending c' r a (pcs ++ [content]) /\
       if chunked_resp r a (rlen c)
       then exists size, Canonical 16 size (blen content) /\ log c' = log c ++ [OWrite (size ++ CRLF); OWrite content; OWrite CRLF]
       else log c' = log c ++ [OWrite content]).
Proof.
  intros c stk content H Hs Hn. destruct (reached_sending _ _ H Hs) as (r & a & pcs & S & Cu & Hh & H0 & HT & Hch & Hka & Hse & Ho & Hq).
  exists r, a, pcs. split; auto. split; auto. pose proof Hh as Hh'. rewrite <- Hq in Hh.
  pose proof (writeContent_step c stk content H Hs r a pcs Hch Hse Hh H0 Ho (total_nonneg _)) as W. cbv zeta in *.
  replace (0 <? rlen c) with false in W by (symmetry; apply Z.ltb_ge; lia). cbn [andb orb] in W. split.
  - intros ->. exact W.
  - intros Nc. apply blen_pos in Nc as Np. replace (blen content =? 0) with false in W by (symmetry; apply Z.eqb_neq; lia).
    destruct W as (ev & c' & P & E1 & E2 & W). pose proof (total_nonneg pcs). replace (total pcs + blen content =? rlen c) with false in W by (symmetry; apply Z.eqb_neq; lia).
    destruct W as (W1 & W2 & W3). exists c'. split; auto. split; auto. split; auto. split.
    + eapply (sending_snoc c r a pcs content ev); eauto. lia.
    + unfold piece in P. destruct (chunked_resp r a (rlen c)); [|now subst ev]. destruct P as (d & Cd & ->). eauto.
Qed.
Theorem C14_endContent : forall c stk, reached c stk -> st c = SendingContent -> rlen c < 0 ->
  exists r a pcs, sending c r a pcs /\ current c r /\
    exists c', step (Run c stk) (ACall OpEndContent) = Run c' (KSig SCompleted :: KCompleted :: stk) /\ st c' = Completed /\
      log c' = log c ++ (if chunked_resp r a (rlen c) then [OWrite zero_chunk] else []) ++ [OCompleted].
Proof.
  intros c stk H Hs Hn. destruct (reached_sending _ _ H Hs) as (r & a & pcs & S & Cu & Hh & H0 & HT & Hch & Hka & Hse & Ho & Hq).
  exists r, a, pcs. split; auto. split; auto. pose proof (endContent_step c stk H Hs Ho) as E. cbv zeta in E. destruct (Z.leb_spec 0 (rlen c)); [lia|].
  destruct E as (c' & E1 & E2 & E3 & E4). exists c'. rewrite <- Hch. auto.
Qed.
(** what has been written for the response under way: the head, then chunks whose content is the pieces given *)
Theorem C14_encoding : forall c r a pcs, sending c r a pcs -> head_req r = false -> rlen c < 0 -> chunked_resp r a (rlen c) = true ->
  exists pre hd enc, RespHead r a (rlen c) hd /\ written (log c) = pre ++ hd ++ enc /\ Chunks enc (concat pcs).
Proof.
  intros c r a pcs (pre & evs & HL & _ & HA) Hh Hn Hc. destruct HA as [hd evs' RL RH CE MS]. rewrite framing_unknown, Hc in CE by auto.
  apply pieces_written in CE as (_ & _ & CE). exists (written pre ++ interim_text r), hd, (written evs'). split; auto. split; auto.
  rewrite HL, !written_app, written_interim. cbn [written]. now rewrite <- !app_assoc.
Qed.
(** over a whole connection life: each completed chunked response is its head, chunks, one zero chunk *)
Theorem C14_whole_life : forall c stk, reached c stk -> exists rs last bs b,
  announced (log c) = rs ++ last /\ written (log c) = concat bs ++ b /\ LastWritten last b /\
  Forall2 (fun r b => exists a len hd content enc, b = interim_text r ++ hd ++ enc /\ RespLength a len /\ RespHead r a len hd /\
    (head_req r = false -> chunked_resp r a len = true -> exists e, Chunks e content /\ enc = e ++ zero_chunk)) rs bs.
Proof.
  intros c stk H. destruct (C19_response_order _ _ H) as (rs & last & bs & b & H1 & H2 & H3 & H4). exists rs, last, bs, b. split; auto. split; auto. split; auto.
  eapply Forall2_impl; [|exact H3]. cbn. clear. intros r b [a len hd content enc HL HH HE _]. exists a, len, hd, content, enc. split; auto. split; auto. split; auto.
  intros Hh Hn. assert (len = -1) as -> by (unfold chunked_resp in Hn; apply andb_true_iff in Hn as (_ & Hn); now apply Z.eqb_eq).
  rewrite framing_unknown, Hn in HE by (auto; lia). inversion HE; subst. eauto.
Qed.
(** decoding a chunked encoding is unambiguous, whatever follows it *)
Theorem C14_decodes_once : forall e c e' c' x x', Chunks e c -> Chunks e' c' -> e ++ zero_chunk ++ x = e' ++ zero_chunk ++ x' -> c = c' /\ x = x'.
Proof.
  intros e c e' c' x x' H. revert e' c'. induction H as [|d p e c Cd Np H IH]; intros e' c' [|d' p' e1 c1 Cd' Np' H'] E.
  - cbn in E. injection E as E. auto.
  - exfalso. unfold zero_chunk in E. rewrite <- !app_assoc in E. cbn [app] in E. apply (line_cut (lit "0") d') in E as (E & _).
    + subst d'. assert (Z0 : Canonical 16 (lit "0") 0) by (exists (lit "0"); split; [apply D_one; [reflexivity|lia]|]; split; auto; split; auto; intros t T; now injection T).
      pose proof (Canonical_inj 16 (lit "0") _ _ ltac:(lia) Z0 Cd'). apply blen_pos in Np'. lia.
    + intros [I|[]]. discriminate.
    + now apply (clean_canonical _ _ _ Cd').
  - exfalso. unfold zero_chunk in E. rewrite <- !app_assoc in E. cbn [app] in E. apply (line_cut d (lit "0")) in E as (E & _).
    + subst d. assert (Z0 : Canonical 16 (lit "0") 0) by (exists (lit "0"); split; [apply D_one; [reflexivity|lia]|]; split; auto; split; auto; intros t T; now injection T).
      pose proof (Canonical_inj 16 (lit "0") _ _ ltac:(lia) Z0 Cd). apply blen_pos in Np. lia.
    + now apply (clean_canonical _ _ _ Cd).
    + intros [I|[]]. discriminate.
  - rewrite <- !app_assoc in E. apply line_cut in E as (E & E2); [|now apply (clean_canonical _ _ _ Cd)|now apply (clean_canonical _ _ _ Cd')]. subst d'.
    pose proof (Canonical_inj 16 d _ _ ltac:(lia) Cd Cd') as L. unfold blen in L. apply app_len_inj in E2 as (-> & E2); [|lia].
    apply app_inv_head in E2. destruct (IH e1 c1 H' E2) as (-> & ->). auto.
Qed.
Example C14_case : reached sample_conn [] /\ st sample_conn = SendingContent /\ rlen sample_conn = -1 /\
  exists r a pcs, sending sample_conn r a pcs /\ head_req r = false /\ chunked_resp r a (-1) = true.
Proof.
  assert (F : st sample_conn = SendingContent /\ rlen sample_conn = -1 /\ chunked sample_conn = true) by (vm_compute; auto). destruct F as (F1 & F2 & F3).
  split; [apply sample_reached|]. split; auto. split; auto.
  destruct (reached_sending _ _ sample_reached F1) as (r & a & pcs & S & Cu & Hh & H0 & HT & Hch & Hka & Hse & Ho & Hq).
  exists r, a, pcs. rewrite F2, F3 in Hch. auto.
Qed.

(** ** C15: HEAD *)
Theorem C15_writeHeaders : forall c stk r code hs, reached c stk -> st c = SendingHeaders -> current c r -> q_method r = lit "HEAD" -> int_length code hs (-1) ->
  exists len hd c' stk', RespHead r (mkAns code hs (-1)) len hd /\ step (Run c stk) (ACall (OpWriteHeaders code hs)) = Run c' stk' /\
    st c' = Completed /\ log c' = log c ++ [OWrite hd; OCompleted].
Proof.
  intros c stk r code hs H Hs Hc Hh HI. destruct (writeHeaders_step _ _ _ _ _ H Hs Hc HI) as (len & hd & c' & stk' & HL & HH & E & _ & _ & X).
  exists len, hd, c', stk'. unfold head_req in X. rewrite Hh, beqb_refl, orb_true_r in X. destruct X as (X1 & X2 & X3). auto.
Qed.
Theorem C15_writeResponse : forall c stk r code hs content, reached c stk -> st c = SendingHeaders -> current c r -> q_method r = lit "HEAD" ->
  int_length code hs (blen content) ->
  exists len hd c' stk', RespHead r (mkAns code hs (blen content)) len hd /\ step (Run c stk) (ACall (OpWriteResponse code hs content)) = Run c' stk' /\
    st c' = Completed /\ log c' = log c ++ [OWrite hd; OCompleted].
Proof.
  intros c stk r code hs content H Hs Hc Hh HI. destruct (C11_writeResponse _ _ _ _ _ _ H Hs Hc HI) as (len & hd & c' & stk' & HL & HH & E & _ & X).
  exists len, hd, c', stk'. unfold head_req in X. rewrite Hh, beqb_refl, orb_true_r in X. destruct X as (X1 & X2 & X3). auto.
Qed.
(** over a whole connection life: only a head is ever written for a HEAD request *)
Theorem C15_whole_life : forall c stk, reached c stk -> exists rs last bs b,
  announced (log c) = rs ++ last /\ written (log c) = concat bs ++ b /\
  Forall2 (fun r b => q_method r = lit "HEAD" -> exists a len hd, RespHead r a len hd /\ b = interim_text r ++ hd) rs bs /\
  (forall r, last = [r] -> q_method r = lit "HEAD" -> b = interim_text r \/ exists a len hd, RespHead r a len hd /\ b = interim_text r ++ hd).
Proof.
  intros c stk H. destruct (C19_response_order _ _ H) as (rs & last & bs & b & H1 & H2 & H3 & H4). exists rs, last, bs, b. split; auto. split; auto.
  assert (R : forall r k b, Response r k b -> q_method r = lit "HEAD" -> exists a len hd, RespHead r a len hd /\ b = interim_text r ++ hd).
  { clear. intros r k b [a len hd content enc HL HH HE _] Hh. exists a, len, hd. split; auto. unfold framing_of, head_req in HE.
    rewrite Hh, beqb_refl, orb_true_r in HE. inversion HE. now rewrite app_nil_r. }
  split.
  - eapply Forall2_impl; [|exact H3]. cbn. intros r b'. apply R.
  - intros r E Hh. destruct H4 as [| |s|r' b [|a len hd content enc HL HH HE]|r' b HR]; try discriminate; injection E as ->; auto.
    + right. exists a, len, hd. split; auto. unfold framing_of, head_req in HE. rewrite Hh, beqb_refl, orb_true_r in HE. inversion HE. now rewrite app_nil_r.
    + right. eauto.
Qed.
Definition head1 : conn := run_conn [ACall (OpInit (NewDevice true true true (lit "HEAD / HTTP/1.1" ++ CRLF ++ CRLF))); ACall OpProcess].
Example C15_case : reached head1 [KSig SReady] /\ st head1 = SendingHeaders /\ (exists r, current head1 r /\ q_method r = lit "HEAD") /\ int_length 200 [] (blen (lit "content")).
Proof.
  split; [apply reached_run; vm_compute; reflexivity|]. split; [vm_compute; reflexivity|]. split.
  - exists (hd req0 (announced (log head1))). split; [exists []|]; vm_compute; reflexivity.
  - apply int_length_b. vm_compute. reflexivity.
Qed.

(** ** C17: calls in the wrong state *)
Theorem C17_wrong_state : forall c stk o, reached c stk ->
  match o with
  | OpWriteResponse _ _ _ | OpWriteHeaders _ _ => st c <> SendingHeaders
  | OpWriteContent _ | OpEndContent => st c <> SendingContent
  | OpProcess => st c <> ReceivingHeaders /\ st c <> ReceivingContent
  | OpDrain => st c <> Flushing
  | OpClose => st c = Closed
  | _ => False
  end -> step (Run c stk) (ACall o) = Run c stk.
Proof.
  intros c stk o H. apply reached_settled' in H. pose proof (settled_resume stk c H) as E.
  destruct o; cbn [step do_op]; try contradiction; unfold processInput, writeResponse, writeHeaders, writeContent, endContent, toClosed, drain.
  all: intros N; destruct (st c) eqn:S; cbn [cst_eqb negb]; auto; try congruence; try (destruct N; congruence).
Qed.
Example C17_case : reached sample_conn [] /\ st sample_conn <> SendingHeaders /\ st sample_conn <> ReceivingHeaders /\ st sample_conn <> ReceivingContent.
Proof. split; [apply sample_reached|]. vm_compute. repeat split; discriminate. Qed.

(** ** C16: keep-alive *)
(** what receiving [rest] must cause (the Verdict) was caused; [L]: events before *)
Definition goes_on (rest : bytes) (L : list obs) (g : cfg) : Prop :=
  exists new, Verdict rest new /\
  match g with
  | Run c _ => log c = L ++ new /\ (st c = ReceivingHeaders \/ st c = ReceivingContent \/ st c = SendingHeaders) \/
               (exists s, new = [OWrite (refusal s)]) /\ settled_log (L ++ new) g
  | UB r _ => r = UseAfterFree                                     (* see C20 *)
  end.
Lemma resume_waiting t : Base t -> forall c, st c = ReceivingHeaders \/ st c = ReceivingContent ->
  match resume t c with Run c' _ => log c' = log c /\ st c' = st c | UB r _ => r = UseAfterFree end.
Proof.
  intros B. induction B as [|f t Hf B IH]; intros c Hc; [cbn; auto|]. destruct f as [s| | | | | |content|]; cbn in Hf; try contradiction; cbn [resume]; auto.
  - destruct (sending_tail_log c) as (E1 & E2 & _). rewrite <- E1, <- E2. apply IH. now rewrite E2.
  - unfold resp_tail. destruct content as [|x content]; [now apply IH|]. destruct (freed c && _); [reflexivity|]. destruct (is_head _); [now apply IH|]. unfold writeContent.
    replace (cst_eqb (st c) SendingContent) with false by (destruct Hc as [-> | ->]; reflexivity). cbn [negb]. now apply IH.
Qed.
Lemma process_goes_on ms c t rest : RHpre ms c -> Base t -> arrived c = concat (map wire ms) ++ rest ->
  goes_on rest (log c) (processInput c t (resume t)).
Proof.
  intros H Hb HA.
  assert (ARR : arrived (gconn (processInput c t (resume t))) = arrived c).
  { apply (adds_processInput (fun _ => True)); auto. apply adds_resume; auto. }
  assert (AR : forall c', arrived (gconn (resume t c')) = arrived c').
  { intros c'. apply (adds_resume (fun _ => True)); auto. }
  set (G := fun g => arrived (gconn g) = arrived c -> goes_on rest (log c) g).
  enough (X : G (processInput c t (resume t))) by (apply X; exact ARR).
  apply (processInput_rh t (resume t) G ms (log c)); auto.
  - intros c' H1 H2 H3. unfold G. rewrite AR. intros E.
    destruct (RH_verdict _ _ H1 H3) as (rest' & E' & V). rewrite E, HA in E'. apply app_inv_head in E'. subst rest'.
    exists []. split; auto. pose proof (resume_waiting t Hb c') as W. destruct H1 as ([] & _). specialize (W (or_introl rh_st)).
    destruct (resume t c'); auto. destruct W as (-> & ->). left. rewrite app_nil_r. auto.
  - intros c' h hb r H1 H2 H3. unfold G. rewrite AR. intros E.
    destruct (RC_verdict _ _ _ _ _ _ H1 H2 H3) as (rest' & E' & V). rewrite E, HA in E'. apply app_inv_head in E'. subst rest'.
    exists (cont h). split; auto. pose proof (resume_waiting t Hb c') as W. destruct H1. specialize (W (or_intror rc_st)).
    destruct (resume t c'); auto. destruct W as (-> & ->). left. auto.
  - intros c' m more H1 H2 E. cbn [gconn] in E. destruct H1 as [? [? ? ? ? ? AR' ?] ? ? ? ? HL].
    exists (interim (delivered m) ++ [OReady (delivered m)]). split; [|left; auto].
    eapply (V_ready _ m (more ++ avail c')); auto. rewrite E, HA in AR'. apply app_inv_head in AR'. auto.
  - intros c' r s (H1 & H2 & H3 & H4 & H5 & H6 & H7) E.
    exists [OWrite (refusal s)].
    assert (E' : arrived c' = arrived c).
    { rewrite <- E. symmetry. apply (adds_toFlushing (fun _ => True)); auto. apply adds_resume; auto. }
    rewrite H2, HA in E'. apply app_inv_head in E'. subst r. split; [now apply V_refuse|].
    assert (F : GoodF (log c ++ [OWrite (refusal s)]) (toFlushing c' t (resume t))).
    { rewrite <- H4. apply toFlushing_frozen; auto; try apply H1; [now apply Base_Fin|apply resume_frozen, Base_Fin, Hb]. }
    apply frozen_settled in F. destruct (toFlushing c' t (resume t)) eqn:T; auto. right. split; eauto.
Qed.
(** The slots of requestCompleted return.  r was just answered, as asked by a, with length len: *)
Theorem C16_after_completed : forall c t, reached c (KSig SCompleted :: KCompleted :: t) ->
  exists r a len pre e ms rest, log c = pre ++ e /\ (pre = [] \/ exists q, pre = q ++ [OCompleted]) /\
    (exists pcs evs, Answering r a len pcs evs /\ e = interim r ++ OReady r :: evs ++ final_events (framing_of r a len) ++ [OCompleted]) /\
    Forall wf_msg ms /\ arrived c = concat (map wire ms) ++ rest /\ announced (log c) = map delivered ms /\
    let g := step (Run c (KSig SCompleted :: KCompleted :: t)) AReturn in
    if keeps r a len
    then goes_on rest (log c) g \/
         exists c', g = Run c' (KSig SWritten :: KFlushC :: t) /\ log c' = log c /\            (* flush() emits bytesWritten; *)
           goes_on rest (log c) (step (Run c' (KSig SWritten :: KFlushC :: t)) AReturn)          (* its slots return *)
    else forall l, (forall x, In x l -> resets x = false) -> settled_log (log c) (run g l).
Proof.
  intros c t H. apply reached_inv in H.
  assert (X : exists ms m more l, C1 ms m more l c /\ Base t).
  { destruct H as [? E|? B|ms m more l s t' H E W B|ms s t' H E N W B|? B|? B]; try discriminate.
    - inversion_clear B as [|? ? B1 B2]. now destruct B1.
    - exists ms, m, more, l. split; auto. destruct s as [|f [|f' s]]; cbn in E.
      + now injection E as ->.
      + exfalso. injection E as <- E. discriminate.
      + exfalso. injection E as <- E. inversion_clear W. discriminate.
    - exfalso. destruct s as [|f [|f' s]]; cbn in E; [congruence| |].
      + injection E as E' E. discriminate.
      + injection E as <- E. inversion_clear W as [|? ? W1]. discriminate.
    - exfalso. inversion_clear B as [|? ? B1 B2]. now destruct B1.
    - exfalso. inversion_clear B as [|? ? B1 B2]. now destruct B1. }
  destruct X as (ms & m & more & l & [Hs HV (e & HL & HE)] & B). clear H.
  pose proof HE as HE'. destruct HE' as [a len pcs evs HA HS HK]. exists (delivered m), a, len, l. eexists. exists (ms ++ [m]), (more ++ avail c).
  split; [exact HL|]. split; [eapply exchanges_end; apply HV|]. split; [eauto|].
  split; [apply Forall_app; split; [apply HV|constructor; [apply HV|constructor]]|].
  split; [rewrite (sv_arr _ _ _ _ _ HV), map_app, concat_app; cbn [map concat]; now rewrite app_nil_r, <- !app_assoc|].
  split. { rewrite HL, map_app, announced_app, (announced_exchanges _ _ (sv_ex _ _ _ _ _ HV)). f_equal. apply (announced_exchange _ _ _ HE). }
  cbv zeta. rewrite <- HK. cbn [step resume]. unfold completed_tail. cbv zeta.
  pose proof (release_ok ms m more l c HV) as (R1 & R2 & R3 & R4 & R5 & R6 & R7 & R8 & R9 & R10).
  set (c' := release_request c) in *. clearbody c'. destruct HV as [[] ? ? ? ? HAr ?].
  rewrite R10. destruct (keepalive c) eqn:K.
  - assert (H2 : forall c2, same c' c2 -> RHpre (ms ++ [m]) (toReceivingHeaders c2) /\ log (toReceivingHeaders c2) = log c /\ arrived (toReceivingHeaders c2) = arrived c).
    { intros c2 S. unfold toReceivingHeaders. same_fields S. replace (cst_eqb (st c2) ReceivingHeaders) with false by (replace (st c2) with Completed by congruence; reflexivity).
      split; [|split; csimp; congruence]. constructor; csimp; auto; try congruence.
      - constructor; csimp; try congruence. apply Forall_app. auto.
      - exists (tp (ps c2)), [], (buf c2), 1. replace (refs (ps c2)) with (@nil href) by congruence. auto.
      - rewrite map_app, concat_app. cbn [map concat]. rewrite app_nil_r, <- !app_assoc. congruence.
      - replace (log c2) with (log c) by congruence. rewrite HL, map_app. now apply Ex_snoc. }
    assert (H3 : forall c2, same c' c2 -> goes_on (more ++ avail c) (log c) (flushc_tail c2 t (resume t))).
    { intros c2 S. destruct (H2 c2 S) as (P & E1 & E2). rewrite <- E1. unfold flushc_tail. eapply process_goes_on; eauto.
      rewrite E2, HAr, map_app, concat_app. cbn [map concat]. now rewrite app_nil_r, <- !app_assoc. }
    unfold flush. destruct (_ && _).
    + right. eexists. split; [reflexivity|]. split; [csimp; congruence|]. cbn [resume]. apply H3. reflexivity.
    + left. apply H3. reflexivity.
  - intros acts NR. apply frozen_settled, run_frozen; [|now apply forallb_nores]. apply toFlushing_frozen; try congruence.
    + now apply Base_Fin. + apply resume_frozen, Base_Fin, B.
Qed.
Definition completed1 (hs : list header) : conn := run_conn [ACall (OpInit (NewDevice true true true text1)); ACall OpProcess; ACall (OpWriteResponse 200 hs [])].
Example C16_case : reached (completed1 []) [KSig SCompleted; KCompleted; KSending; KResponse []; KSig SReady] /\ keepalive (completed1 []) = true /\
  reached (completed1 [(lit "connection", lit "Close")]) [KSig SCompleted; KCompleted; KSending; KResponse []; KSig SReady] /\
  keepalive (completed1 [(lit "connection", lit "Close")]) = false.
Proof. split; [apply reached_run; vm_compute; reflexivity|]. split; [vm_compute; reflexivity|]. split; [apply reached_run; vm_compute; reflexivity|vm_compute; reflexivity]. Qed.
