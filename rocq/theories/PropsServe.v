(** C82: what a connection served by a handler says, exactly.  See Serve.v for the specification. *)
From Verif Require Import Bytes ByteHelpers Thin Helpers ReqGrammar TextSpec
  Conn ConnSpec ConnText ConnHead ConnInv ConnStep ConnEnd ConnLog PropsConn ConnSend ConnFree ConnPhase PropsConn2 PropsConn9 Serve.
Open Scope Z_scope.

Lemma kind_cut (P : obs -> Prop) (a b a' b' : list obs) : Forall P a -> Forall P a' -> (forall o, In o b -> ~ P o) -> (forall o, In o b' -> ~ P o) ->
  a ++ b = a' ++ b' -> a = a' /\ b = b'.
Proof.
  revert a'. induction a as [|x a IH]; intros a' H H' N N' E.
  - destruct a' as [|y a']; auto. cbn [app] in E. subst b. inversion H'; subst. exfalso. apply (N y); auto. now left.
  - destruct a' as [|y a'].
    + cbn [app] in E. subst b'. inversion H; subst. exfalso. apply (N' x); auto. now left.
    + cbn [app] in E. injection E as -> E. inversion H; subst. inversion H'; subst. destruct (IH a') as [-> ->]; auto.
Qed.
Definition talk (o : obs) : Prop := match o with OWrite _ | OReady _ => True | _ => False end.
Lemma talk_nodone t : Forall talk t -> nodone t.
Proof. intros H X. rewrite Forall_forall in H. now apply H in X. Qed.
Lemma Ending_quiet e : Ending e -> (forall o, In o e -> ~ talk o) /\ nodone e.
Proof. intros [|p|]; (split; [intros o H; cbn in H; intuition (subst; auto)|intros H; cbn in H; intuition discriminate]). Qed.
Lemma talk_interim r : Forall talk (interim r).
Proof. unfold interim. destruct (expects r); repeat constructor. Qed.
Lemma talk_pieces f ps evs : ContentEvents f ps evs -> Forall talk evs.
Proof. induction 1 as [|ps evs p ev H IH Hp He]; auto. apply Forall_app. split; auto. destruct He; repeat constructor. Qed.
Lemma talk_answering r a len ps evs : Answering r a len ps evs -> Forall talk (interim r ++ OReady r :: evs).
Proof. intros [hd evs' _ _ H _]. apply Forall_app. split; [apply talk_interim|]. repeat constructor. eapply talk_pieces; eauto. Qed.
Lemma talk_final f : Forall talk (final_events f).
Proof. destruct f; repeat constructor. Qed.
Lemma exchange_shape r k e : Exchange r k e -> exists q, e = q ++ [OCompleted] /\ Forall talk q.
Proof.
  intros [a len ps evs H _ _]. exists (interim r ++ OReady r :: evs ++ final_events (framing_of r a len)). split.
  - rewrite <- app_assoc. cbn [app]. now rewrite <- app_assoc.
  - rewrite app_comm_cons, app_assoc. apply Forall_app. split; [eapply talk_answering; eauto|apply talk_final].
Qed.
Lemma answered_shape g r k e : Answered g r k e -> exists q, e = q ++ [OCompleted] /\ Forall talk q /\ announced e = [r].
Proof.
  intros [hd _ _]. exists (interim r ++ OReady r :: OWrite hd :: (if beqb (g_content g) [] || head_req r then [] else [OWrite (g_content g)])). split; [|split].
  - rewrite <- app_assoc. reflexivity.
  - apply Forall_app. split; [apply talk_interim|]. destruct (_ || _); repeat constructor.
  - rewrite announced_interim. cbn [announced]. rewrite announced_app. destruct (_ || _); reflexivity.
Qed.
Lemma writes_talk t : writes_only t -> Forall talk t.
Proof. apply Forall_impl. now intros o (b & ->). Qed.

(** ** Response heads are a function of the answer *)
Lemma digit_val_pos c d : digit_val c = Some d -> 0 <= d.
Proof.
  unfold digit_val, is_digit, in_range.
  destruct (Z.leb_spec 48 (byte_val c)), (Z.leb_spec (byte_val c) 57), (Z.leb_spec 97 (byte_val c)),
    (Z.leb_spec (byte_val c) 102), (Z.leb_spec 65 (byte_val c)), (Z.leb_spec (byte_val c) 70); cbn [andb]; intros [=]; lia.
Qed.
Lemma lowdigit_inj c c' d : lowdigit c = true -> lowdigit c' = true -> digit_val c = Some d -> digit_val c' = Some d -> c = c'.
Proof.
  intros L L' V V'. apply byte_val_inj. unfold lowdigit, digit_val, is_digit, in_range in *.
  destruct (Z.leb_spec 48 (byte_val c)), (Z.leb_spec (byte_val c) 57), (Z.leb_spec 97 (byte_val c)), (Z.leb_spec (byte_val c) 102);
  destruct (Z.leb_spec 48 (byte_val c')), (Z.leb_spec (byte_val c') 57), (Z.leb_spec 97 (byte_val c')), (Z.leb_spec (byte_val c') 102);
    cbn [andb orb] in *; try discriminate; injection V as V; injection V' as V'; lia.
Qed.
Lemma Digits_big base s n : 2 <= base -> Digits base s n -> forallb lowdigit s = true -> (forall t, s <> "0"%char :: t) -> 1 <= n.
Proof.
  intros B. induction 1 as [c d V L|s n c d D IH V L]; intros LW NZ.
  - pose proof (digit_val_pos _ _ V). assert (d <> 0); [|lia]. intros ->. apply (NZ []). f_equal. cbn [forallb] in LW. rewrite andb_true_r in LW.
    apply (lowdigit_inj c "0"%char 0); auto.
  - rewrite forallb_app in LW. apply andb_true_iff in LW as [LW _]. pose proof (digit_val_pos _ _ V).
    assert (1 <= n); [|nia]. apply IH; auto. intros t ->. apply (NZ (t ++ [c])). reflexivity.
Qed.
Lemma Digits_uniq base s n : 2 <= base -> Digits base s n -> forallb lowdigit s = true -> (forall t, s = "0"%char :: t -> t = []) ->
  forall s', Digits base s' n -> forallb lowdigit s' = true -> (forall t, s' = "0"%char :: t -> t = []) -> s = s'.
Proof.
  intros B. induction 1 as [c d V L|s n c d D IH V L]; intros LW NZ s' D' LW' NZ'.
  - inversion D' as [c' d' V' L' E'|s2 n2 c' d' D2 V' L' E']; subst.
    + f_equal. cbn [forallb] in LW, LW'. rewrite andb_true_r in LW, LW'. now apply (lowdigit_inj c c' d).
    + exfalso. rewrite forallb_app in LW'. apply andb_true_iff in LW' as [LW' _]. pose proof (digit_val_pos _ _ V').
      assert (1 <= n2); [|nia]. apply (Digits_big base s2); auto. intros t ->. specialize (NZ' (t ++ [c']) eq_refl). destruct t; discriminate.
  - rewrite forallb_app in LW. apply andb_true_iff in LW as [LW Lc].
    assert (NZ1 : forall t, s <> "0"%char :: t) by (intros t ->; specialize (NZ (t ++ [c]) eq_refl); destruct t; discriminate).
    pose proof (digit_val_pos _ _ V). pose proof (Digits_big _ _ _ B D LW NZ1).
    inversion D' as [c' d' V' L' E'|s2 n2 c' d' D2 V' L' E' E2]; subst; [exfalso; nia|].
    rewrite forallb_app in LW'. apply andb_true_iff in LW' as [LW' Lc']. pose proof (digit_val_pos _ _ V').
    assert (N2 : n2 = n) by (destruct (Z.lt_trichotomy n2 n) as [X|[X|X]]; auto; exfalso; nia). subst n2.
    assert (d' = d) as -> by lia.
    assert (NZ2 : forall t, s2 <> "0"%char :: t) by (intros t ->; specialize (NZ' (t ++ [c']) eq_refl); destruct t; discriminate).
    rewrite (IH LW (fun t E => match NZ1 t E with end) s2 D2 LW' (fun t E => match NZ2 t E with end)). f_equal. f_equal.
    cbn [forallb] in Lc, Lc'. rewrite andb_true_r in Lc, Lc'. now apply (lowdigit_inj c c' d).
Qed.
Lemma Canonical_uniq s s' n : Canonical 10 s n -> Canonical 10 s' n -> s = s'.
Proof.
  intros (ds & D & -> & L & Z0) (ds' & D' & -> & L' & Z0'). rewrite (Digits_uniq 10 ds (Z.abs n) ltac:(lia) D L Z0 ds' D' L' Z0'). reflexivity.
Qed.
Lemma StatusText_uniq code s s' : StatusText code s -> StatusText code s' -> s = s'.
Proof.
  assert (U : NoDup (map fst std_status)) by (vm_compute; repeat (constructor; [intros X; cbn in X; repeat destruct X as [X|X]; try discriminate X; exact X|]); constructor).
  intros [m H|H] [m' H'|H']; auto; [|exfalso; eapply H'; eauto|exfalso; eapply H; eauto].
  now rewrite (PropsConn9.fst_fun _ _ U _ _ H H').
Qed.
Lemma RespHead_uniq r a len hd hd' : RespHead r a len hd -> RespHead r a len hd' -> hd = hd'.
Proof. intros [s d S D] [s' d' S' D']. now rewrite (StatusText_uniq _ _ _ S S'), (Canonical_uniq _ _ _ D D'). Qed.
Lemma Answered_uniq g r k k' e e' : Answered g r k e -> Answered g r k' e' -> e = e' /\ k = k'.
Proof. intros [hd H ->] [hd' H' ->]. now rewrite (RespHead_uniq _ _ _ _ _ H H'). Qed.
Lemma Dialogue_uniq h rs l : Dialogue h rs l -> forall l', Dialogue h rs l' -> l = l'.
Proof.
  induction 1 as [|rs l r e D IH A]; intros l' D'.
  - inversion D' as [|rs' l1 r' e' D1 A1 E]; auto. destruct rs'; discriminate.
  - inversion D' as [E|rs' l1 r' e' D1 A1 E]; [destruct rs; discriminate|]. apply app_inj_tail in E as [-> ->].
    rewrite (IH _ D1). now destruct (Answered_uniq _ _ _ _ _ _ A A1) as [-> _].
Qed.

Section C82.
Variable h : handler.
Lemma K_unified c stk : K h c stk -> exists rs l t e, log c = l ++ t ++ e /\ Dialogue h rs l /\ Ending e /\
  (writes_only t \/ (exists t' r, t = t' ++ [OReady r] /\ writes_only t') \/ exists r, Answered (h (rs ++ [r])) r false t).
Proof.
  unfold K. intros H.
  assert (L : Kl h c -> exists rs l t e, log c = l ++ t ++ e /\ Dialogue h rs l /\ Ending e /\
    (writes_only t \/ (exists t' r, t = t' ++ [OReady r] /\ writes_only t') \/ exists r, Answered (h (rs ++ [r])) r false t)).
  { intros (rs & l & t & E & D & W). exists rs, l, t, []. rewrite app_nil_r. repeat split; auto. constructor. }
  destruct (st c); auto; try contradiction.
  - destruct H as (rs & l & t & r & E & D & W). exists rs, l, (t ++ [OReady r]), []. rewrite app_nil_r. split; auto. split; auto. split; [constructor|]. right. left. eauto.
  - destruct H as ((rs & l & r & e & E & D & A) & _). destruct (keepalive c).
    + exists (rs ++ [r]), (l ++ e), [], []. rewrite !app_nil_r. split; auto. split; [now constructor|]. split; [constructor|]. left. constructor.
    + exists rs, l, e, []. rewrite app_nil_r. split; auto. split; auto. split; [constructor|]. eauto.
  - destruct H as (rs & l & t & E & D & W). exists rs, l, t, []. repeat split; auto. constructor.
  - destruct H as (e & En & rs & l & t & E & D & W). exists rs, l, t, e. auto.
Qed.
Lemma last_split {A B} (f : A -> B) l rs r : map f l = rs ++ [r] -> exists l' m, l = l' ++ [m] /\ map f l' = rs /\ f m = r.
Proof.
  intros E. destruct (@exists_last A l) as (l' & m & ->); [destruct l; [destruct rs; discriminate|discriminate]|].
  rewrite map_app in E. cbn [map] in E. apply app_inj_tail in E as [E1 E2]. eauto.
Qed.
Lemma K_account c stk : reached c stk -> K h c stk -> Account h (arrived c) (log c).
Proof.
  intros R HK. destruct (K_unified _ _ HK) as (rs & l & t & e & E & D & En & T). clear HK.
  pose proof (reached_story _ _ R) as S. remember (log c) as L eqn:EL. remember (arrived c) as stream eqn:ES.
  destruct S as [ms rest l0 t0 e0 Sm Wf Ex Tl En0].
  pose proof (Dialogue_end _ _ _ D) as De. pose proof (Exchanges_end _ _ Ex) as De0. pose proof (Dialogue_announced _ _ _ D) as An. pose proof (announced_exchanges _ _ Ex) as An0.
  destruct (Ending_quiet _ En) as (Q & N). destruct (Ending_quiet _ En0) as (Q0 & N0).
  assert (LAST : (exists m x, wf_msg m /\ rest = wire m ++ x /\ Exchange (delivered m) false t0) \/
     Forall talk t0 /\ (Remains h (map delivered ms) rest t0 \/ exists r o y, t0 = interim r ++ OReady r :: OWrite o :: y)).
  { destruct Tl as [|hd n H1 H2 H3 H4|m x H1 H2|m x a len ps evs H1 H2 H3|m x e1 H1 H2 H3|s H].
    - right. split; [constructor|left; constructor].
    - right. split; [repeat constructor|left; econstructor; eauto].
    - right. split; [|left; econstructor; eauto]. apply Forall_app. split; [apply talk_interim|repeat constructor].
    - right. split; [eapply talk_answering; eauto|right]. destruct H3 as [hd evs' _ _ _ _]. eauto.
    - left. eauto.
    - right. split; [repeat constructor|left; now constructor]. }
  destruct T as [W|T].
  2: destruct T as [(t' & r & -> & W)|(r & A)].
  - (* only writes *)
    destruct LAST as [(m & x & Wm & -> & Xm)|(Tk & LAST)].
    + destruct (exchange_shape _ _ _ Xm) as (q & -> & Tq).
      assert (C : l0 ++ q ++ [OCompleted] = l /\ e0 = t ++ e).
      { apply done_cut; auto; [right; exists (l0 ++ q); now rewrite app_assoc| |rewrite <- E; rewrite <- !app_assoc; reflexivity].
        apply nodone_app; auto. now apply talk_nodone, writes_talk. }
      destruct C as [C1 C2]. assert (t = [] /\ e = e0) as [-> ->].
      { apply (kind_cut talk t e [] e0); auto. now apply writes_talk. }
      rewrite E. apply (Account_intro h stream (ms ++ [m]) x l [] e0); auto.
      * rewrite map_app, concat_app. cbn [map concat]. rewrite app_nil_r, <- app_assoc. exact Sm.
      * apply Forall_app. auto.
      * rewrite map_app. cbn [map]. replace (map delivered ms ++ [delivered m]) with rs; auto. rewrite <- An, <- C1, announced_app, An0.
        f_equal. now rewrite (announced_exchange _ _ _ Xm).
      * constructor.
    + assert (C : l0 = l /\ t0 ++ e0 = t ++ e) by (apply done_cut; auto; apply nodone_app; auto using talk_nodone, writes_talk).
      destruct C as [-> C]. apply (kind_cut talk) in C as [-> ->]; auto using writes_talk. 
      apply (Account_intro h stream ms rest l t e); auto; [rewrite <- An0, An; auto|].
      destruct LAST as [LAST|(r & o & y & ->)]; auto. exfalso. apply Forall_app in W as [_ W]. inversion W as [|? ? (b & X) _]. discriminate.
  - (* waiting *)
    assert (Wt : Forall talk (t' ++ [OReady r])) by (apply Forall_app; split; [now apply writes_talk|repeat constructor]).
    destruct LAST as [(m & x & Wm & -> & Xm)|(Tk & LAST)].
    + exfalso. destruct (exchange_shape _ _ _ Xm) as (q & -> & Tq).
      assert (C : l0 ++ q ++ [OCompleted] = l /\ e0 = (t' ++ [OReady r]) ++ e).
      { apply done_cut; auto; [right; exists (l0 ++ q); now rewrite app_assoc| |rewrite <- E; rewrite <- !app_assoc; reflexivity].
        apply nodone_app; auto. now apply talk_nodone. }
      destruct C as [_ C2]. apply (Q0 (OReady r)); [|exact Logic.I]. rewrite C2. apply in_or_app. left. apply in_or_app. right. now left.
    + assert (C : l0 = l /\ t0 ++ e0 = (t' ++ [OReady r]) ++ e) by (apply done_cut; auto; apply nodone_app; auto using talk_nodone).
      destruct C as [-> C]. apply (kind_cut talk) in C as [-> ->]; auto.
      apply (Account_intro h stream ms rest l (t' ++ [OReady r]) e); auto; [rewrite <- An0, An; auto|].
      destruct LAST as [LAST|(r' & o & y & X)]; auto. exfalso.
      assert (Y : exists z, OReady r' :: OWrite o :: y = z ++ [OReady r] /\ t' = interim r' ++ z).
      { clear - X. destruct (@exists_last _ (OReady r' :: OWrite o :: y)) as (z & b & Z); [discriminate|]. rewrite Z, app_assoc in X. apply app_inj_tail in X as [X <-]. eauto. }
      destruct Y as (z & Z & ->). apply Forall_app in W as [_ W]. destruct z as [|z0 z]; [discriminate Z|]. cbn [app] in Z. injection Z as <- _. inversion W as [|? ? (b & X') _]. discriminate.
  - (* last answer *)
    destruct (answered_shape _ _ _ _ A) as (q1 & -> & Tq1 & Aq).
    destruct LAST as [(m & x & Wm & -> & Xm)|(Tk & LAST)].
    + pose proof (announced_exchange _ _ _ Xm) as Ax. destruct (exchange_shape _ _ _ Xm) as (q & -> & Tq).
      assert (C : l0 ++ q ++ [OCompleted] = l ++ q1 ++ [OCompleted] /\ e0 = e).
      { apply done_cut; auto; [right; exists (l0 ++ q); now rewrite app_assoc|right; exists (l ++ q1); now rewrite app_assoc|].
        rewrite <- !app_assoc in *. exact E. }
      destruct C as [C1 ->]. rewrite !app_assoc in C1. apply app_inj_tail in C1 as [C1 _]. apply done_cut in C1 as [-> ->]; auto using talk_nodone.
      assert (r = delivered m) as -> by congruence. rewrite <- An in A. rewrite An0 in A.
      apply (Account_intro h stream ms (wire m ++ x) l (q1 ++ [OCompleted]) e); auto; [rewrite <- An0, An; auto|eapply Rm_last; eauto].
    + assert (C : l0 = l ++ q1 ++ [OCompleted] /\ t0 ++ e0 = e).
      { apply done_cut; auto; [right; exists (l ++ q1); now rewrite app_assoc|apply nodone_app; auto using talk_nodone|]. rewrite <- !app_assoc in *. exact E. }
      destruct C as [-> C]. assert (t0 = [] /\ e0 = e) as [-> ->] by (apply (kind_cut talk t0 e0 [] e); auto).
      rewrite announced_app, Aq, An in An0. symmetry in An0. destruct (last_split _ _ _ _ An0) as (ms' & m & -> & <- & <-).
      rewrite E. apply (Account_intro h stream ms' (wire m ++ rest) l (q1 ++ [OCompleted]) e); auto.
      * rewrite Sm, map_app, concat_app. cbn [map concat]. now rewrite app_nil_r, <- app_assoc.
      * apply Forall_app in Wf. tauto.
      * apply Forall_app in Wf as [_ Wf]. inversion Wf. eapply Rm_last; eauto.
Qed.

(** From a connection that waits for its first request, any history in which requests are answered by h alone (and polite otherwise): *)
Theorem C82_account : forall c0 stk0 l c stk, reached c0 stk0 -> st c0 = ReceivingHeaders -> log c0 = [] ->
  polite_run (Run c0 stk0) l -> obeys_run h (Run c0 stk0) l -> run (Run c0 stk0) l = Run c stk ->
  Account h (arrived c) (log c).
Proof.
  intros c0 stk0 l c stk R S L P O E. destruct (serve_run h l c0 stk0 c stk R (serve_start _ _ _ S L) P O E) as (K1 & R1). eapply K_account; eauto.
Qed.

Lemma Verdict_talk rest t : Verdict rest t -> Forall talk t.
Proof.
  intros [|hd part n _ _ _ _|m x _ _|s _]; [constructor| | |repeat constructor].
  - match goal with |- Forall _ (if ?b then _ else _) => destruct b end; repeat constructor.
  - apply Forall_app. split; [apply talk_interim|repeat constructor].
Qed.
(** a connection that has read all and waits for more has said exactly this: the answers to the complete requests of the stream, then what the
    bytes after them deserve *)
Theorem C82_idle : forall c0 stk0 l c stk, reached c0 stk0 -> st c0 = ReceivingHeaders -> log c0 = [] ->
  polite_run (Run c0 stk0) l -> obeys_run h (Run c0 stk0) l -> run (Run c0 stk0) l = Run c stk ->
  st c = ReceivingHeaders \/ st c = ReceivingContent -> avail c = [] ->
  exists ms rest said new, Forall wf_msg ms /\ arrived c = concat (map wire ms) ++ rest /\ (forall m x, wf_msg m -> rest <> wire m ++ x) /\
    Dialogue h (map delivered ms) said /\ Verdict rest new /\ log c = said ++ new.
Proof.
  intros c0 stk0 l c stk R S L P O E Hs Ha. destruct (serve_run h l c0 stk0 c stk R (serve_start _ _ _ S L) P O E) as (K1 & R1).
  destruct (reached_idle _ _ R1 Hs Ha) as (ms & rest & l1 & new & W & A & X & LG & V & N).
  assert (KL : Kl h c) by (unfold K in K1; destruct Hs as [Hs|Hs]; rewrite Hs in K1; exact K1).
  destruct KL as (rs & l2 & t & E2 & D & Wt).
  assert (C : l1 = l2 /\ new = t).
  { apply done_cut; [eapply Exchanges_end; eauto|eapply Dialogue_end; eauto|apply talk_nodone; eapply Verdict_talk; eauto|now apply writes_nodone|congruence]. }
  destruct C as [-> ->]. exists ms, rest, l2, t. repeat (split; auto).
  rewrite <- (announced_exchanges _ _ X), (Dialogue_announced _ _ _ D). exact D.
Qed.
End C82.
(** so everything a connection says is a function of the handler and of the bytes received: not of how they were cut, of when the handler answered, of
    what the kernel took when *)
Theorem C82_function : forall h c1 k1 l1 d1 t1 c2 k2 l2 d2 t2,
  reached c1 k1 -> st c1 = ReceivingHeaders -> log c1 = [] -> polite_run (Run c1 k1) l1 -> obeys_run h (Run c1 k1) l1 -> run (Run c1 k1) l1 = Run d1 t1 ->
  reached c2 k2 -> st c2 = ReceivingHeaders -> log c2 = [] -> polite_run (Run c2 k2) l2 -> obeys_run h (Run c2 k2) l2 -> run (Run c2 k2) l2 = Run d2 t2 ->
  st d1 = ReceivingHeaders \/ st d1 = ReceivingContent -> avail d1 = [] -> st d2 = ReceivingHeaders \/ st d2 = ReceivingContent -> avail d2 = [] ->
  arrived d1 = arrived d2 -> log d1 = log d2.
Proof.
  intros h c1 k1 l1 d1 t1 c2 k2 l2 d2 t2 R1 S1 L1 P1 O1 E1 R2 S2 L2 P2 O2 E2 I1 A1 I2 A2 EQ.
  destruct (C82_idle h _ _ _ _ _ R1 S1 L1 P1 O1 E1 I1 A1) as (ms & rest & said & new & W & A & N & D & V & LG).
  destruct (C82_idle h _ _ _ _ _ R2 S2 L2 P2 O2 E2 I2 A2) as (ms' & rest' & said' & new' & W' & A' & N' & D' & V' & LG').
  rewrite A, A' in EQ.
  assert (Q : map delivered ms = map delivered ms' /\ rest = rest').
  { destruct (stream_cut _ _ _ _ W W' EQ) as [(more & F & M & Rs)|(more & F & M & Rs)].
    - destruct more as [|m more]; [cbn [map concat app] in *; rewrite app_nil_r in M; auto|].
      exfalso. cbn [map concat] in Rs. rewrite <- app_assoc in Rs. inversion F; subst. eapply N; eauto.
    - destruct more as [|m more]; [cbn [map concat app] in *; rewrite app_nil_r in M; auto|].
      exfalso. cbn [map concat] in Rs. rewrite <- app_assoc in Rs. inversion F; subst. eapply N'; eauto. }
  destruct Q as [Q ->]. rewrite Q in D. rewrite LG, LG', (Dialogue_uniq _ _ _ D _ D'), (Verdict_fun _ _ _ V V'). reflexivity.
Qed.

(** ** A case: two requests, the second arriving in two pieces, answered by a handler that echoes the path and counts *)
Fixpoint heqb (a b : list (bytes * bytes)) : bool :=
  match a, b with
  | [], [] => true
  | (f, v) :: a', (f', v') :: b' => beqb f f' && beqb v v' && heqb a' b'
  | _, _ => false
  end.
Lemma heqb_eq a : forall b, heqb a b = true -> a = b.
Proof.
  induction a as [|(f & v) a IH]; intros [|(f' & v') b]; cbn [heqb]; try discriminate; auto.
  rewrite !andb_true_iff. intros ((E1 & E2) & E3). apply beqb_true in E1, E2. apply IH in E3. now subst.
Qed.
Definition obeysb (h : handler) (c : conn) (a : action) : bool :=
  match a with
  | ACall (OpWriteResponse code hs content) => negb (cst_eqb (st c) SendingHeaders) ||
      ((code =? g_code (h (announced (log c)))) && heqb hs (g_headers (h (announced (log c)))) && beqb content (g_content (h (announced (log c)))) &&
       match last_named "content-length" hs with None => true | _ => false end && (blen content <=? INT_MAX))
  | ACall (OpWriteHeaders _ _) => negb (cst_eqb (st c) SendingHeaders)
  | ACall (OpInit _) => false
  | _ => true
  end.
Lemma obeysb_ok h c a : obeysb h c a = true -> obeys h c a.
Proof.
  destruct a as [[d| |code hs content|code hs| | | | |]| | | |]; cbn [obeysb obeys]; auto; try discriminate.
  - rewrite orb_true_iff, !andb_true_iff, negb_true_iff. intros [H|((((H1 & H2) & H3) & H4) & H5)] S.
    + rewrite S in H. discriminate.
    + apply Z.eqb_eq in H1. apply heqb_eq in H2. apply beqb_true in H3. apply Z.leb_le in H5.
      split; [subst; now destruct (h (announced (log c)))|]. split; auto. now destruct (last_named _ _).
  - rewrite negb_true_iff. intros H S. rewrite S in H. discriminate.
Qed.
Fixpoint obeysb_run (h : handler) (g : cfg) (l : list action) {struct l} : bool :=
  match l with
  | [] => true
  | a :: t => (match g with Run c stk => obeysb h c a | UB _ _ => true end) && obeysb_run h (step g a) t
  end.
Lemma obeysb_run_ok h l : forall g, obeysb_run h g l = true -> obeys_run h g l.
Proof.
  induction l as [|a l IH]; intros g; cbn [obeysb_run obeys_run]; auto. rewrite andb_true_iff. intros [H1 H2]. split; auto.
  destruct g; auto. now apply obeysb_ok.
Qed.
Definition echo : handler := fun rs => mkGiven 200 [(lit "X-Count", repeat "i"%char (length rs))] (q_path (last rs req0)).
Definition ask1 : bytes := lit "GET /a?x=1 HTTP/1.1" ++ CRLF ++ lit "Host: h" ++ CRLF ++ CRLF.
Definition ask2 : bytes := lit "GET /b HTTP/1.1" ++ CRLF ++ CRLF.
Definition opened : conn := run_conn [ACall (OpInit (NewDevice true true true []))].
Definition talks : list action :=
  [AArrive (ask1 ++ firstn 4 ask2); ACall OpProcess; ACall (OpWriteResponse 200 [(lit "X-Count", lit "i")] (lit "/a")); AReturn; AReturn;
   AArrive (skipn 4 ask2); ACall OpProcess; ACall (OpWriteResponse 200 [(lit "X-Count", lit "ii")] (lit "/b")); AReturn; AReturn].
Definition talked : conn := match run (Run opened []) talks with Run c _ => c | UB _ c => c end.
Example C82_case : reached opened [] /\ st opened = ReceivingHeaders /\ log opened = [] /\ polite_run (Run opened []) talks /\ obeys_run echo (Run opened []) talks /\
  run (Run opened []) talks = Run talked [] /\ st talked = ReceivingHeaders /\ avail talked = [] /\ arrived talked = ask1 ++ ask2 /\ length (announced (log talked)) = 2%nat.
Proof.
  split; [apply reached_run; vm_compute; reflexivity|]. split; [vm_compute; reflexivity|]. split; [vm_compute; reflexivity|].
  split; [apply politeb_run_ok; vm_compute; reflexivity|]. split; [apply obeysb_run_ok; vm_compute; reflexivity|].
  do 4 (split; [vm_compute; reflexivity|]). vm_compute; reflexivity.
Qed.
