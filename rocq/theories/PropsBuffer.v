(** PROPERTY C68: setReadBufferSize().  Specification: ClientSpec.v, and what is below. *)
From Verif Require Import Bytes ByteHelpers Helpers CIProofs TextSpec Joyent RespParser RespInv RespSplit RespFeed RespSize Client ClientSpec ClientInv ClientRecv PropsClient.
Open Scope Z_scope.

(** ** Specification *)
(** no response said to be gzipped was seen (they are not decoded by a pillow without zlib) *)
Definition no_gzip (zlib : bool) (l : list cobs) : Prop :=
  zlib = true -> forall code hs, In (CHeaders code hs) l -> gzipped hs = false.
(** every later limit is at most n, and a limit *)
Definition limits (n : Z) (l : list caction) : Prop := forall m, In (CaCall (CoBuffer m)) l -> 0 < m <= n.
(** what was shown of the content at any time *)
Definition shown_content (o : cobs) : bytes := match o with CContent b => b | CFinished _ _ _ b => b | _ => [] end.

(** ** Proofs *)
Section Client.
  Variables (zlib : bool) (gunzip : list bytes -> bytes -> bytes) (parse_url : bytes -> url).
  Hypothesis urls : forall b, wf_url (parse_url b).
  Notation step := (cstep zlib gunzip parse_url).
  Notation run := (crun zlib gunzip parse_url).
  Variable n : Z.
  Hypothesis n_pos : 0 < n.

  Definition LogOk (l : list cobs) : Prop := forall o, In o l -> blen (shown_content o) <= n.
  Record B0 (c : client) : Prop := mkB0 {
    b_rbuf : 0 < c_rbuf c <= n;
    b_dec : no_gzip zlib (c_log c) -> c_dec c = None;
    b_content : no_gzip zlib (c_log c) -> blen (r_content (c_p c)) <= n;
    b_log : no_gzip zlib (c_log c) -> LogOk (c_log c) }.
  Definition room_for (c : client) (l : locals) : Prop := no_gzip zlib (c_log c) -> blen (r_content (c_p c)) + size (r_h (c_p c)) l <= n.
  Definition FB (c : client) (stk : list cframe) : Prop :=
    (forall l er ph, In (KcHeaders l er ph) stk -> exists code, In (CHeaders code (r_headers (c_p c))) (c_log c)) /\
    (c_pending c = true -> forall l er ph, In (KcHeaders l er ph) stk \/ In (KcParse l er ph) stk -> room_for c l).
  Definition BG (g : ccfg) : Prop := match g with CRun c stk => B0 c /\ FB c stk | CUB _ => True end.

  Lemma noparse_in stk f : noparse stk -> In f stk -> parse_frame f = false.
  Proof.
    intros N H. destruct (parse_frame f) eqn:E; [|reflexivity]. assert (Y : existsb parse_frame stk = true) by (apply existsb_exists; eauto). unfold noparse in N. congruence.
  Qed.
  Lemma fb_noparse c stk : noparse stk -> FB c stk.
  Proof. intros N. split; [|intros _]; intros l er ph; [intros H|intros [H|H]]; apply (noparse_in _ _ N) in H; discriminate. Qed.
  Lemma no_gzip_app l l' : no_gzip zlib (l ++ l') -> no_gzip zlib l.
  Proof. intros H Z code hs I. apply (H Z code hs). apply in_or_app. now left. Qed.
  Lemma fb_more c c' more stk : FB c stk -> c_log c' = c_log c ++ more -> (c_pending c' = true -> c_pending c = true) -> (c_pending c' = true -> r_h (c_p c') = r_h (c_p c)) -> r_headers (c_p c') = r_headers (c_p c) ->
    blen (r_content (c_p c')) <= blen (r_content (c_p c)) -> FB c' stk.
  Proof.
    unfold FB, room_for. intros [A B] -> Pc Rh -> L. split.
    - intros l er ph I. destruct (A _ _ _ I) as (code & A1). exists code. apply in_or_app. now left.
    - intros P l er ph I. specialize (B (Pc P) _ _ _ I). rewrite (Rh P). intros G. specialize (B (no_gzip_app _ _ G)). lia.
  Qed.
  Lemma fb_push c f stk : FB c stk -> parse_frame f = false -> FB c (f :: stk).
  Proof. intros [A B] N. split; [intros l er ph [X|X]|intros P l er ph [[X|X]|[X|X]]]; try (subst f; discriminate); eauto. Qed.
  Lemma fb_sig c s stk : FB c stk -> FB c (KcSig s :: stk).
  Proof. intros H. now apply fb_push. Qed.
  Lemma fb_pop c f stk : FB c (f :: stk) -> FB c stk.
  Proof. intros [A B]. split; [intros l er ph X; eapply A; right; eauto|]. intros P l er ph X. apply (B P l er ph). destruct X; [left|right]; now right. Qed.
  Lemma b0_more c c' more : B0 c -> c_log c' = c_log c ++ more -> c_rbuf c' = c_rbuf c -> c_dec c' = c_dec c \/ c_dec c' = None ->
    blen (r_content (c_p c')) <= blen (r_content (c_p c)) -> (no_gzip zlib (c_log c') -> LogOk more) -> B0 c'.
  Proof.
    intros [A B C D] E1 E2 E3 E4 E5. assert (G : no_gzip zlib (c_log c') -> no_gzip zlib (c_log c)) by (rewrite E1; apply no_gzip_app). constructor.
    - now rewrite E2.
    - intros H. specialize (B (G H)). destruct E3; congruence.
    - intros H. specialize (C (G H)). lia.
    - intros H o I. rewrite E1 in I. apply in_app_or in I as [I|I]; [exact (D (G H) o I)|exact (E5 H o I)].
  Qed.
  Lemma quiet_log l : (forall o, In o l -> shown_content o = []) -> LogOk l.
  Proof. intros H o I. rewrite (H o I). change (blen []) with 0. lia. Qed.
  Lemma b0_same c c' : B0 c -> c_log c' = c_log c -> c_rbuf c' = c_rbuf c -> c_dec c' = c_dec c \/ c_dec c' = None ->
    blen (r_content (c_p c')) <= blen (r_content (c_p c)) -> B0 c'.
  Proof. intros H E1 E2 E3 E4. apply (b0_more c c' []); auto; [now rewrite app_nil_r|intros _ o []]. Qed.
  Lemma fb_same c c' stk : FB c stk -> c_log c' = c_log c -> (c_pending c' = true -> c_pending c = true) -> (c_pending c' = true -> r_h (c_p c') = r_h (c_p c)) -> r_headers (c_p c') = r_headers (c_p c) ->
    blen (r_content (c_p c')) <= blen (r_content (c_p c)) -> FB c' stk.
  Proof. intros H E. apply (fb_more c c' []); auto. now rewrite app_nil_r. Qed.
  Ltac bsame H := (eapply b0_same || eapply fb_same); [exact H|..]; clsimp; rsimp; auto; try reflexivity; try discriminate; try lia.

  Lemma b_emitf c stk : B0 c -> FB c stk -> BG (emit_finished c stk).
  Proof.
    intros H P. unfold emit_finished. split; [|apply fb_sig; eapply (fb_more c _ [_]); [exact P|reflexivity|..]; clsimp; auto; lia]. eapply (b0_more c); [exact H|reflexivity|reflexivity|now left|clsimp; lia|].
    clsimp. intros G o [<-|[]]. cbn [shown_content]. apply (b_content _ H). now apply no_gzip_app in G.
  Qed.
  Lemma b_error e c stk k : B0 c -> FB c stk -> Cont stk k -> BG (device_error e c stk k).
  Proof. intros H F K. unfold device_error. destruct (c_pending c) eqn:P; cbn [negb]; [|rewrite K; now split]. apply b_emitf; unfold dev_close; [bsame H|bsame F; try discriminate]. Qed.
  Lemma b_send c stk k : B0 c -> FB c stk -> Cont stk k -> BG (sendRequest c k).
  Proof.
    intros H F K. unfold sendRequest. destruct (c_pending c) eqn:P; cbn [negb]; [|rewrite K; now split].
    destruct (match c_host c with [] => _ | _ => _ end) as [h|]; [|exact Logic.I]. destruct (writeRequest _ _ _ _) as [ws|]; [|exact Logic.I].
    rewrite K. split.
    - eapply (b0_more c _ (map CWrite ws)); [exact H|reflexivity|reflexivity|now left|clsimp; lia|]. intros _. apply quiet_log. intros o I. apply in_map_iff in I as (w & <- & _). reflexivity.
    - eapply (fb_more c _ (map CWrite ws)); [exact F|reflexivity|clsimp; auto|clsimp; auto|reflexivity|clsimp; lia].
  Qed.
  Lemma b_connect c stk k : B0 c -> FB c stk -> Cont stk k -> BG (connectToHost c stk k).
  Proof.
    intros H F K. unfold connectToHost. destruct (negb (unconnected c)); [rewrite K; now split|]. set (c1 := cemit _ _).
    assert (H1 : B0 c1).
    { eapply (b0_more c _ [_]); [exact H|reflexivity|reflexivity|now left|subst c1; clsimp; lia|]. intros _. apply quiet_log. intros o [<-|[]]. reflexivity. }
    assert (F1 : FB c1 stk) by (eapply (fb_more c _ [_]); [exact F|reflexivity|subst c1; clsimp; auto|subst c1; clsimp; auto|reflexivity|subst c1; clsimp; lia]).
    destruct (c_plan c1).
    - rewrite K. split; [bsame H1|bsame F1].
    - now apply b_error.
    - apply b_send with stk; [bsame H1|bsame F1|exact K].
  Qed.
  Lemma b0_emit o c : B0 c -> shown_content o = [] -> B0 (cemit [o] c).
  Proof. intros H E. eapply (b0_more c _ [o]); [exact H|reflexivity|reflexivity|now left|clsimp; lia|]. intros _. apply quiet_log. now intros x [<-|[]]. Qed.
  Lemma fb_emit o c stk : FB c stk -> FB (cemit [o] c) stk.
  Proof. intros F. eapply (fb_more c _ [o]); [exact F|reflexivity|clsimp; auto|clsimp; auto|reflexivity|clsimp; lia]. Qed.
  Lemma b_request r c stk k : (r_parsing (c_p c) = false -> noparse stk) -> B0 c -> FB c stk -> Cont stk k -> BG (request r c stk k).
  Proof.
    intros N H F K. unfold request. destruct (c_pending c) eqn:P; [rewrite K; split; [now apply b0_emit|now apply fb_emit]|].
    destruct (r_parsing (c_p c)) eqn:R.
    { rewrite K. split; [apply b0_emit; [bsame H|reflexivity]|apply fb_emit; bsame F]. }
    specialize (N eq_refl). set (c1 := cemit [CAccepted r] _). assert (H1 : B0 c1).
    { apply b0_emit; [|reflexivity]. bsame H. unfold rclear. rsimp. rewrite R. rsimp. pose proof (blen_pos (r_content (c_p c))). unfold blen in *. cbn [length]. lia. }
    destruct (connected c1 && _ && _); [apply b_send with stk; auto; now apply fb_noparse|]. apply b_connect; [|now apply fb_noparse|exact K].
    destruct (unconnected (cset_host [] c1)); [bsame H1|unfold dev_disconnect; bsame H1].
  Qed.
  Lemma b_abort c stk k : B0 c -> FB c stk -> Cont stk k -> BG (abort c stk k).
  Proof.
    intros H F K. unfold abort, dev_abort. clsimp. destruct (c_pending c) eqn:P.
    - apply b_emitf; [bsame H|bsame F; try discriminate].
    - rewrite K. split; [bsame H|bsame F].
  Qed.
  Lemma runpause_content r : r_content (runpause r) = r_content r.
  Proof. unfold runpause. destruct (h_errno (r_h r)); reflexivity. Qed.
  Lemma b_injected c : B0 c -> B0 (injected c).
  Proof. intros H. unfold injected. bsame H. rewrite runpause_content. lia. Qed.
  Lemma b_read_tail c stk k : noparse stk -> B0 c -> Cont stk k -> BG (read_tail c stk k).
  Proof.
    intros N H K. unfold read_tail. pose proof (fb_noparse c stk N) as F. destruct (c_pending c); [rewrite K; now split|]. destruct (c_next c); [|rewrite K; now split].
    apply b_request; [auto|bsame H|now apply fb_noparse|exact K].
  Qed.
  Lemma b_check c stk k : noparse stk -> B0 c -> Cont stk k -> BG (check_error c stk k).
  Proof. intros N H K. unfold check_error. destruct (hasError (c_p c)); [|now apply b_read_tail]. apply b_emitf; [unfold dev_close; bsame H|apply fb_push; [now apply fb_noparse|reflexivity]]. Qed.

  (* what http_parser_execute leaves *)
  Definition BF (c : client) (er : bytes) : Prop := c_pending c = true -> hasError (c_p c) = true \/
    (HOk (r_h (c_p c)) /\ (no_gzip zlib (c_log c) -> er = [] \/ blen (r_content (c_p c)) + blen er <= n)).
  Definition BK (fin : bytes -> client -> ccfg) : Prop := forall er c, B0 c -> BF c er -> BG (fin er c).

  Lemma push_fields r : r_h (pushHeader r) = r_h r /\ r_content (pushHeader r) = r_content r.
  Proof. unfold pushHeader. destruct (r_lwv r); auto. Qed.
  Lemma b_parse l ph c t fin : noparse t -> c_pending c = true -> r_parsing (c_p c) = true -> JOk (r_h (c_p c)) l -> B0 c -> room_for c l -> BK fin -> BG (parse gunzip l ph c t fin).
  Proof.
    intros N P R J H F K. unfold parse. pose proof (prun_ok _ _ J) as G. pose proof (prun_size (pfuel l) (c_p c) l (or_introl J)) as Z.
    destruct (prun (pfuel l) (c_p c) l) as [r er|cb r l' er|]; cbn [PGood PSized] in G, Z; [| |exact Logic.I].
    - destruct G as (G1 & G2 & G3). apply K; [bsame H|]. intros _. clsimp. unfold hasError. destruct (h_errno (r_h r)); auto; try contradiction. destruct (G3 eq_refl) as [G4 G5]. right. auto.
    - destruct G as (G1 & G2 & G3). destruct cb as [|x|x| |x|]; try contradiction; cbn zeta.
      + destruct (push_fields r) as [X1 X2]. split.
        * apply b0_emit; [|reflexivity]. bsame H. rewrite X2. lia.
        * apply fb_sig. split; [intros l0 er0 ph0 [X|X]|intros _ l0 er0 ph0 [[X|X]|[X|X]]]; try discriminate; try (apply (noparse_in _ _ N) in X; discriminate); injection X as <- <- <-.
          -- exists (h_status (r_h (pushHeader r))). clsimp. apply in_or_app. right. now left.
          -- intros Q. clsimp in *. rewrite X1, X2. specialize (F (no_gzip_app _ _ Q)). lia.
      + assert (Q0 : no_gzip zlib (c_log c) -> c_dec c = None) by exact (b_dec _ H).
        destruct (match c_dec c with None => _ | Some _ => _ end) as [b' d] eqn:D.
        assert (Q1 : no_gzip zlib (c_log c) -> b' = x /\ d = None) by (intros Q; rewrite (Q0 Q) in D; injection D as <- <-; auto).
        split.
        * constructor; clsimp; unfold set_content; rsimp.
          -- apply H.
          -- intros Q. apply no_gzip_app in Q. now apply Q1.
          -- intros Q. apply no_gzip_app in Q. destruct (Q1 Q) as [-> _]. specialize (F Q). rewrite blen_app. lia.
          -- intros Q o I. apply in_app_or in I as [I|[<-|[]]]; [apply (b_log _ H); [now apply no_gzip_app in Q|exact I]|]. apply no_gzip_app in Q. destruct (Q1 Q) as [-> _]. cbn [shown_content]. specialize (F Q).
             pose proof (blen_pos (r_content (c_p c))). lia.
        * apply fb_sig. split; [intros l0 er0 ph0 [X|X]|intros _ l0 er0 ph0 [[X|X]|[X|X]]]; try discriminate; try (apply (noparse_in _ _ N) in X; discriminate); injection X as <- <- <-.
          intros Q. clsimp in *. unfold set_content. rsimp. apply no_gzip_app in Q. destruct (Q1 Q) as [-> _]. specialize (F Q). rewrite blen_app. lia.
      + destruct (h_status (r_h r) =? 100).
        * assert (X : rclear r = mkRP (hpause hinit) (r_field r) (r_value r) (r_lwv r) true [] [] (r_log r)).
          { unfold rclear. rsimp. rewrite G1, R. rsimp. reflexivity. }
          rewrite X. pose proof (blen_pos (r_content (c_p c))) as B. pose proof (eq_refl : blen [] = 0) as BN. apply K; [bsame H|].
          intros _. right. clsimp. rsimp. split; [exact HOk_init|]. intros Q. right. specialize (F Q). lia.
        * destruct (complete_fields (cset_p r c)) as (F1 & F2 & F3 & F4 & F5 & F6). apply b_emitf; [|split; [intros l0 er0 ph0 [X|X]; [discriminate|apply (noparse_in _ _ N) in X; discriminate]|congruence]].
          assert (X : c_rbuf (complete (cset_p r c)) = c_rbuf c /\ c_dec (complete (cset_p r c)) = None).
          { unfold complete. clsimp. destruct (c_timeout c =? 0); [auto|]. destruct (should_keep_alive (r_h r)); auto. }
          destruct X as [X1 X2]. eapply (b0_same c); [exact H|rewrite F4; reflexivity|exact X1|now right|]. rewrite F1. clsimp. lia.
  Qed.
  Lemma b_after2 t k : noparse t -> Cont t k -> BK (after2 t k).
  Proof. intros N K er c H _. unfold after2. apply b_check; auto. now apply b_injected. Qed.
  Lemma b_start data ph c t fin : noparse t -> c_pending c = true -> B0 c ->
    (h_errno (r_h (c_p c)) = HPE_OK \/ h_errno (r_h (c_p c)) = HPE_PAUSED -> HOk (r_h (c_p c))) ->
    (no_gzip zlib (c_log c) -> blen (r_content (c_p c)) + blen data <= n) -> BK fin ->
    BG (let c := cset_p (rset_parsing true (c_p c)) c in if is_ok (h_errno (r_h (c_p c))) then parse gunzip (jstart data (r_h (c_p c))) ph c t fin else fin data c).
  Proof.
    intros N P H O F K. cbn zeta. clsimp. rsimp. destruct (is_ok (h_errno (r_h (c_p c)))) eqn:E.
    - apply is_ok_true in E. apply b_parse; clsimp; rsimp; auto.
      + apply jstart_ok; auto.
      + bsame H.
      + intros Q. clsimp. rsimp. specialize (F Q). pose proof (jstart_size data (r_h (c_p c))). lia.
    - apply K; [bsame H|]. intros _. clsimp. unfold hasError. rsimp. destruct (h_errno (r_h (c_p c))); auto; discriminate.
  Qed.
  Lemma b_after1 t k : noparse t -> Cont t k -> BK (after1 gunzip t k).
  Proof.
    intros N K er c H B. unfold after1. pose proof (b_injected _ H) as H1. destruct (c_pending (injected c)) eqn:P; cbn [negb]; [|now apply b_read_tail].
    destruct (hasError (c_p (injected c))) eqn:E; cbn [negb andb]; [now apply b_check|]. destruct (beqb er []) eqn:Er; cbn [negb]; [now apply b_check|].
    destruct (runpause_h (c_p c)) as (X1 & X2 & X3).
    destruct (B P) as [X|[B1 B2]].
    { unfold hasError, injected in *. clsimp in *. rsimp in *. rewrite X2 in E; [congruence|]. intros Y. rewrite Y in X. discriminate. }
    unfold inject2. apply b_start; auto; [| |now apply b_after2].
    - intros _. unfold injected. clsimp. rsimp. destruct (h_errno (r_h (c_p c))) eqn:Y; try (rewrite X2 by discriminate; exact B1). now apply X3.
    - intros Q. unfold injected. clsimp. rsimp. rewrite runpause_content. destruct (B2 Q) as [->|B3]; [discriminate|exact B3].
  Qed.
  Lemma b_finish ph t k : noparse t -> Cont t k -> BK (finish gunzip ph t k).
  Proof. intros N K. destruct ph; cbn [finish]; [now apply b_after1|now apply b_after2]. Qed.
  Lemma b_readyRead c stk k : Inv c stk -> (c_pending c = true -> noparse stk) -> B0 c -> FB c stk -> Cont stk k -> BG (device_readyRead gunzip c stk k).
  Proof.
    intros I N H F K. unfold device_readyRead. destruct (c_pending c) eqn:P; cbn [negb].
    2:{ rewrite K. unfold dev_close. split; [bsame H|bsame F]. }
    specialize (N eq_refl).
    destruct (c_in c) as [|x xs]; [rewrite K; now split|]. set (room := if 0 <? c_rbuf c then _ else _). destruct (room <=? 0) eqn:R0; [rewrite K; now split|].
    destruct (r_parsing (c_p c)) eqn:R; [exact Logic.I|].
    apply (b_start _ First (cset_dev (c_dev c) (c_unsent c) (skipn (Z.to_nat (Z.min room (blen (x :: xs)))) (x :: xs)) c)); auto; [bsame H| | |now apply b_after1].
    - intros O. clsimp. destruct I as [[K0 S E1 Hh] Nx]. now apply Hh.
    - clsimp. intros Q. apply Z.leb_gt in R0. pose proof (b_rbuf _ H) as RB. assert (Er : room = c_rbuf c - blen (r_content (c_p c))).
      { unfold room. destruct (Z.ltb_spec 0 (c_rbuf c)); [reflexivity|lia]. }
      pose proof (blen_pos (x :: xs)). rewrite blen_firstn by lia. lia.
  Qed.
  Lemma b_cont c t : Shape c t -> Cont t (cresume zlib gunzip t).
  Proof. intros S c'. now apply (shape_resume _ _ S). Qed.
  Lemma b_return c t : Inv c t -> B0 c -> FB c t -> BG (step (CRun c t) CaReturn).
  Proof.
    intros I H B. cbn [cstep]. destruct I as [[K S E Hh] Nx].
    destruct S as [|s t S|l er ph t F Hd S N|s l er ph t F Hs S N|er ph t P O S N|t S N]; cbn [existsb parse_frame orb] in E.
    - split; [exact H|exact B].
    - rewrite (shape_resume _ _ S). split; [exact H|]. now apply fb_pop in B.
    - cbn [cresume]. pose proof (b_finish ph t _ N (b_cont _ _ S)) as FK. destruct F as [F1 F2]. unfold headers_tail.
      destruct (asciiEqualsCI_lower _ _).
      { set (c1 := cset_p (rset_h (hpause (r_h (c_p c))) (c_p c)) c). destruct (complete_fields c1) as (Y1 & Y2 & Y3 & Y4 & Y5 & Y6).
        apply b_emitf; [|split; [intros l0 er0 ph0 [X|X]; [discriminate|apply (noparse_in _ _ N) in X; discriminate]|congruence]].
        assert (X : c_rbuf (complete c1) = c_rbuf c /\ c_dec (complete c1) = None).
        { unfold complete. clsimp. destruct (c_timeout c1 =? 0); [auto|]. destruct (should_keep_alive (r_h (c_p c1))); auto. }
        destruct X as [X1 X2]. eapply (b0_same c); [exact H|rewrite Y4; reflexivity|exact X1|now right|]. rewrite Y1. subst c1. clsimp. rsimp. lia. }
      rewrite gz_model. set (c1 := if zlib && gzipped (r_headers (c_p c)) then cset_dec (Some []) c else c).
      assert (C1 : c_p c1 = c_p c /\ c_pending c1 = c_pending c /\ c_log c1 = c_log c /\ c_rbuf c1 = c_rbuf c) by (subst c1; destruct (zlib && _); auto).
      destruct C1 as (C1 & C2 & C3 & C4). destruct B as [B1 B2]. destruct (B1 l er ph) as (code & B3); [right; now left|].
      assert (G : B0 c1).
      { destruct H as [A1 A2 A3 A4]. constructor; rewrite ?C1, ?C3, ?C4; auto. intros Q. subst c1. destruct zlib; cbn [andb]; [|now apply A2]. rewrite (Q eq_refl code _ B3). now apply A2. }
      rewrite C1. destruct (c_pending c) eqn:P.
      + destruct (is_ok _) eqn:O.
        * apply b_parse; rewrite ?C1, ?C2; auto. intros Q. rewrite C1. rewrite C3 in Q. apply (B2 eq_refl l er ph); [left; right; now left|exact Q].
        * rewrite (jo_errno _ _ (F1 eq_refl)) in O. discriminate.
      + rewrite (F2 eq_refl). cbn [is_ok]. apply FK; [exact G|]. intros X. congruence.
    - cbn [cresume]. pose proof (b_finish ph t _ N (b_cont _ _ S)) as FK. destruct F as [F1 F2]. destruct B as [B1 B2].
      destruct (c_pending c) eqn:P.
      + destruct (is_ok _) eqn:O.
        * apply b_parse; auto. apply (B2 eq_refl l er ph). right. right. now left.
        * rewrite (jo_errno _ _ (F1 eq_refl)) in O. discriminate.
      + rewrite (F2 eq_refl). cbn [is_ok]. apply FK; [exact H|]. intros X. congruence.
    - cbn [cresume]. pose proof (b_finish ph t _ N (b_cont _ _ S)) as FK. apply FK; [bsame H|]. clsimp. intros X. clsimp in *. congruence.
    - cbn [cresume]. apply b_read_tail; [exact N|exact H|]. exact (b_cont _ _ S).
  Qed.
  Lemma b_step g a : InvG g -> calm a g -> (forall m, a = CaCall (CoBuffer m) -> 0 < m <= n) -> BG g -> BG (step g a).
  Proof.
    destruct g as [c stk|f]; [|contradiction]. intros I Q M [H F]. pose proof (b_cont _ _ (iv_shape _ _ (proj1 I))) as K.
    assert (NP : r_parsing (c_p c) = false -> noparse stk) by (intros X; pose proof (iv_parsing _ _ (proj1 I)) as E; unfold noparse; congruence).
    destruct a as [o| | |b| |rem gone| |b|p]; cbn [calm] in Q; [|now apply b_return|..]; cbn [cstep].
    - destruct o as [r| | | |m|m]; cbn [do_cop].
      + now apply b_request.
      + now apply b_abort.
      + rewrite K. pose proof (blen_pos (r_content (c_p c))). pose proof (eq_refl : blen [] = 0) as BN. unfold set_content. split; [bsame H|bsame F].
      + unfold followRedirection. destruct (redirected c); [now apply b_request|rewrite K; now split].
      + rewrite K. split; [bsame H|bsame F].
      + rewrite K. split; [|bsame F]. destruct H as [A1 A2 A3 A4]. constructor; clsimp; auto.
    - apply b_readyRead; auto. intros P. destruct (Q P) as [Q1 Q2]. exact (pending_noparse _ _ (iv_shape _ _ (proj1 I)) P Q1 Q2).
    - destruct (connected c); [|now split]. split; [bsame H|bsame F].
    - destruct (c_dev c); try (split; assumption). apply b_send with stk; [bsame H|bsame F|exact K].
    - destruct (unconnected c); [now split|]. apply b_error; [destruct gone; [bsame H|exact H]|destruct gone; [bsame F|exact F]|exact K].
    - assert (X : BG (CRun (cset_dev (match c_dev c with DClosing => DUnconnected | d => d end) false (c_in c) c) stk)); [|exact X]. split; [bsame H|bsame F].
    - split; [bsame H|bsame F].
    - split; [bsame H|bsame F].
  Qed.
  Lemma b_run : forall l g, InvG g -> BG g -> calm_run step g l -> limits n l -> BG (run g l).
  Proof.
    induction l as [|a l IH]; intros g I H Q L; [exact H|]. destruct Q as [Q1 Q2]. apply IH; auto.
    - now apply step_ok.
    - apply b_step; auto. intros m ->. apply L. now left.
    - intros m X. apply L. now right.
  Qed.
End Client.

Section Claims.
  Variables (zlib : bool) (gunzip : list bytes -> bytes -> bytes) (parse_url : bytes -> url).
  Hypothesis urls : forall b, wf_url (parse_url b).
  Notation step := (cstep zlib gunzip parse_url).
  Notation run := (crun zlib gunzip parse_url).

  (** ** C68 *)
  (** With setReadBufferSize(n), and no larger one later, content() never holds more than n bytes, whatever the server sends
      and however the bytes arrive; nor was more ever shown. *)
  Theorem C68_bounded : forall n l c stk, 0 < n -> limits n l ->
    calm_run step cstart (CaCall (CoBuffer n) :: l) -> run cstart (CaCall (CoBuffer n) :: l) = CRun c stk -> no_gzip zlib (c_log c) ->
    blen (r_content (c_p c)) <= n /\ forall o, In o (c_log c) -> blen (shown_content o) <= n.
  Proof.
    intros n l c stk Hn L [_ Q] E G. cbn [crun fold_left] in E, Q.
    assert (B : BG zlib n (run (step cstart (CaCall (CoBuffer n))) l)).
    { apply b_run; auto; [apply step_ok; auto; [apply start_inv|exact Logic.I]|]. split.
      - constructor; cbn; [lia|auto|unfold blen; cbn; lia|intros _ o []].
      - apply fb_noparse. reflexivity. }
    unfold crun in B. rewrite E in B. destruct B as [[B1 B2 B3 B4] _]. split; [now apply B3|]. intros o I. exact (B4 G o I).
  Qed.
  (** While the content held fills the buffer, nothing is taken from the socket; after consumeContent() reading goes on. *)
  Theorem C68_waits : forall c, c_pending c = true -> 0 < c_rbuf c <= blen (r_content (c_p c)) ->
    step (CRun c []) CaReadyRead = CRun c [].
  Proof.
    intros c P H. cbn [cstep cresume]. unfold device_readyRead. rewrite P. cbn [negb]. destruct (c_in c); [reflexivity|].
    destruct (Z.ltb_spec 0 (c_rbuf c)); [|lia]. destruct (Z.leb_spec (c_rbuf c - blen (r_content (c_p c))) 0); [reflexivity|lia].
  Qed.
End Claims.

(** ** Cases and refutations *)
Definition five_txt : bytes := lit "HTTP/1.1 200 OK" ++ CRLF ++ lit "Content-Length: 5" ++ CRLF ++ CRLF ++ lit "hello".
Definition reads (k : nat) : list caction := concat (repeat [CaReadyRead; CaReturn; CaReturn] k).
Definition held_run (k : nat) : list caction :=
  [CaCall (CoRequest (demo "GET")); CaConnected; CaFlushed; CaArrive five_txt] ++ reads k.
Lemma C68_case : exists c, calm_run dstep cstart (CaCall (CoBuffer 3) :: held_run 20) /\
  drun cstart (CaCall (CoBuffer 3) :: held_run 20) = CRun c [] /\ limits 3 (held_run 20) /\ no_gzip false (c_log c) /\
  c_pending c = true /\ r_content (c_p c) = lit "hel" /\ c_in c = lit "lo" /\
  log_of (drun (CRun c []) [CaCall CoConsume; CaReadyRead; CaReturn; CaReturn]) =
    c_log c ++ [CContent (lit "lo"); CFinished NoError 200 [(lit "Content-Length", lit "5")] (lit "lo")].
Proof.
  eexists. split; [calm_concrete|]. split; [vm_compute; reflexivity|]. split.
  { intros m H. exfalso. vm_compute in H. repeat (destruct H as [H|H]; [discriminate|]). exact H. }
  split; [discriminate|]. vm_compute. auto.
Qed.
(** the limit is on what arrives: decompressed content may be larger *)
Definition ten_gunzip (fed : list bytes) (b : bytes) : bytes := lit "0123456789".
Definition zip_txt : bytes := lit "HTTP/1.1 200 OK" ++ CRLF ++ lit "Content-Encoding: gzip" ++ CRLF ++ lit "Content-Length: 2" ++ CRLF ++ CRLF ++ lit "zz".
Theorem C68_gzip_refuted : exists c,
  crun true ten_gunzip no_url cstart ([CaCall (CoBuffer 3); CaCall (CoRequest (demo "GET")); CaConnected; CaFlushed; CaArrive zip_txt] ++ reads 30) = CRun c [] /\
  r_content (c_p c) = lit "0123456789".
Proof. eexists. split; vm_compute; reflexivity. Qed.
(** a smaller limit does not drop what is held *)
Theorem C68_smaller_refuted : exists c,
  drun cstart (CaCall (CoBuffer 4) :: held_run 20 ++ [CaCall (CoBuffer 1)]) = CRun c [] /\ c_rbuf c = 1 /\ 1 < blen (r_content (c_p c)).
Proof. eexists. split; [vm_compute; reflexivity|]. split; [reflexivity|]. vm_compute. reflexivity. Qed.
