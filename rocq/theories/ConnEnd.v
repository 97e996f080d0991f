(** Uniqueness of the decomposition of a stream into requests; what can happen after the end of service. *)
From Verif Require Import Bytes ByteHelpers Thin Helpers ReqGrammar TextSpec ThinProofs ThinFields ThinTop CIProofs HelpersProofs
  Conn ConnSpec ConnView ConnText ConnHead ConnInv ConnStep.
Open Scope Z_scope.

(** ** A stream can be cut into requests in one way *)
Lemma head_cut h h' x x' : wf_head h -> wf_head h' -> head_text h ++ x = head_text h' ++ x' ->
  head_text h = head_text h' /\ x = x'.
Proof.
  intros W W' E. pose proof (drun_complete h x W) as D. rewrite E, (drun_complete h' x' W') in D. injection D as <-.
  split; auto. now apply app_inv_tail in E.
Qed.
Lemma delivered_text h h' content : wf_head h -> wf_head h' -> head_text h = head_text h' ->
  delivered (mkMsg h content) = delivered (mkMsg h' content).
Proof.
  intros W W' E. destruct (parsed_head h tp_zero [] W) as (P & _). destruct (parsed_head h' tp_zero [] W') as (P' & _).
  rewrite <- E in P'. set (s := parsed tp_zero (head_text h ++ [])) in *.
  destruct (view_request_ok h s (head_text h) content [] W P) as (V & _).
  { split; auto. }
  destruct (view_request_ok h' s (head_text h) content [] W' P') as (V' & _).
  { rewrite <- E. split; auto. }
  cbv zeta in *. rewrite <- V. exact V'.
Qed.
Lemma announced_text h h' n n' : wf_head h -> wf_head h' -> head_text h = head_text h' ->
  AnnouncedLength h n -> AnnouncedLength h' n' -> n = n'.
Proof.
  intros W W' E A A'. pose proof (f_equal q_headers (delivered_text h h' [] W W' E)) as H. cbn in H.
  destruct A as [A|f v n A I], A' as [A'|f' v' n' A' I']; rewrite H, A' in A; try congruence; auto.
  injection A as <- <-. eapply IntText_fun; eauto; unfold int_lo, int_hi, LLONG_MIN, LLONG_MAX; lia.
Qed.
Lemma wire_cut m m' x x' : wf_msg m -> wf_msg m' -> wire m ++ x = wire m' ++ x' ->
  wire m = wire m' /\ delivered m = delivered m' /\ x = x'.
Proof.
  destruct m as [h b], m' as [h' b']. unfold wire. cbn [m_head m_content]. intros [W ? A ?] [W' ? A' ?] E. cbn [m_head m_content] in *.
  rewrite <- !app_assoc in E. apply head_cut in E as (E1 & E2); auto.
  pose proof (announced_text h h' _ _ W W' E1 A A') as L.
  apply app_len_inj in E2 as (-> & ->); [|unfold blen in L; lia]. rewrite E1. split; auto. split; auto.
  now apply delivered_text.
Qed.
Lemma stream_cut : forall ms ms' rest rest', Forall wf_msg ms -> Forall wf_msg ms' ->
  concat (map wire ms) ++ rest = concat (map wire ms') ++ rest' ->
  (exists more, Forall wf_msg more /\ map delivered ms' = map delivered ms ++ map delivered more /\
     rest = concat (map wire more) ++ rest') \/
  (exists more, Forall wf_msg more /\ map delivered ms = map delivered ms' ++ map delivered more /\
     rest' = concat (map wire more) ++ rest).
Proof.
  induction ms as [|m ms IH]; intros ms' rest rest' W W' E.
  - left. exists ms'. auto.
  - destruct ms' as [|m' ms'].
    + right. exists (m :: ms). auto.
    + inversion_clear W. inversion_clear W'. cbn [map concat] in E. rewrite <- !app_assoc in E.
      apply wire_cut in E as (E1 & E2 & E3); auto.
      destruct (IH ms' rest rest') as [(more & F & D & R)|(more & F & D & R)]; auto.
      * left. exists more. cbn [map app]. rewrite D, E2. auto.
      * right. exists more. cbn [map app]. rewrite D, E2. auto.
Qed.

(** requests announced in the parts of a story *)
Lemma announced_pieces r f ps evs : ContentEvents f ps evs -> announced (OReady r :: evs) = [r].
Proof.
  intros H. cbn [announced]. f_equal. induction H as [|ps evs p ev H IH NE PE]; auto. rewrite announced_app, IH.
  destruct PE; reflexivity.
Qed.
Lemma announced_interim r l : announced (interim r ++ l) = announced l.
Proof. unfold interim. destruct (expects r); reflexivity. Qed.
Lemma announced_answering r a len ps evs : Answering r a len ps evs -> announced (OReady r :: evs) = [r].
Proof. intros [hd evs' ? ? H ?]. cbn [announced]. apply (announced_pieces r) in H. exact H. Qed.
Lemma announced_exchange r keep e : Exchange r keep e -> announced e = [r].
Proof.
  intros [a len ps evs H _ _]. rewrite announced_interim, app_comm_cons, announced_app.
  rewrite (announced_answering _ _ _ _ _ H). rewrite announced_app. destruct (framing_of r a len); reflexivity.
Qed.
Lemma announced_exchanges rs l : Exchanges rs l -> announced l = rs.
Proof.
  induction 1 as [|rs l r e H IH He]; auto. rewrite announced_app, IH. now rewrite (announced_exchange _ _ _ He).
Qed.
Lemma announced_ending e : Ending e -> announced e = [].
Proof. now intros []. Qed.
Lemma announced_tail rest t : Tail rest t ->
  announced t = [] \/ exists m x, wf_msg m /\ rest = wire m ++ x /\ announced t = [delivered m].
Proof.
  intros [|h n H1 H2 H3 H4|m x H1 H2|m x a len ps evs H1 H2 H3|m x e H1 H2 H3|s H]; auto; right; exists m, x; (split; [assumption|split; [assumption|]]).
  - now rewrite announced_interim.
  - rewrite announced_interim. eapply announced_answering; eauto.
  - eapply announced_exchange; eauto.
Qed.
Lemma story_requests stream lg : Story stream lg -> exists ms rest, stream = concat (map wire ms) ++ rest /\
  Forall wf_msg ms /\ announced lg = map delivered ms.
Proof.
  intros [ms rest l t e E W X T En]. rewrite !announced_app, (announced_exchanges _ _ X), (announced_ending _ En), app_nil_r.
  destruct (announced_tail _ _ T) as [A|(m & x & Wm & Er & A)]; rewrite A.
  - exists ms, rest. rewrite app_nil_r. auto.
  - exists (ms ++ [m]), x. rewrite !map_app, concat_app. cbn [map concat]. rewrite app_nil_r, <- app_assoc, <- Er.
    split; auto. split; auto. apply Forall_app. auto.
Qed.

(** ** After the end of service the log is frozen, apart from closing *)
Definition Frozen (L : list obs) (c : conn) : Prop :=
  st c = Flushing /\ in_ok c = true /\ out_ok c = true /\ log c = L \/ st c = Closed /\ exists p, log c = L ++ [OShut p; OClosed].
Definition FrozenClosed (L : list obs) (c : conn) : Prop := st c = Closed /\ exists p, log c = L ++ [OShut p; OClosed].
Definition GoodF (L : list obs) (g : cfg) : Prop :=
  match g with
  | Run c stk => Frozen L c /\ Fin stk \/ FrozenClosed L c /\ Clo stk
  | UB r c => r = UseAfterFree
  end.
Lemma Frozen_same L c c' : same c c' -> Frozen L c -> Frozen L c'.
Proof. intros H [(? & ? & ? & ?)|(? & p & ?)]; same_fields H; [left; repeat split; congruence|right; split; [congruence|exists p; congruence]]. Qed.
Lemma FrozenClosed_same L c c' : same c c' -> FrozenClosed L c -> FrozenClosed L c'.
Proof. intros H (? & p & ?); same_fields H. split; [congruence|exists p; congruence]. Qed.

Section K.
Variable L : list obs.
Variable t : list frame.
Variable k : conn -> cfg.
Hypothesis Ht : Fin t.
Hypothesis Hf : forall c, Frozen L c -> GoodF L (k c).
Lemma toClosed_frozen c : Frozen L c -> GoodF L (toClosed c t k).
Proof.
  intros H. pose proof H as H0. unfold toClosed. destruct H0 as [(Hs & Hi & Ho & HL)|(Hs & _)]; rewrite Hs; cbn [cst_eqb]; auto.
  csimp. rewrite Hi. cbn [orb]. unfold emit_log. csimp. right. split.
  - split; auto. exists (pending c). csimp. rewrite HL, <- app_assoc. reflexivity.
  - constructor; [exact I|]. constructor; [exact I|]. now apply Fin_Clo.
Qed.
Lemma drain_tail_frozen c : Frozen L c -> GoodF L (drain_tail c t k).
Proof. intros H. unfold drain_tail. destruct (_ && _); auto using toClosed_frozen. Qed.
End K.
Lemma flush_frozen L t k c : Fin t -> (forall c, Frozen L c -> GoodF L (k c)) -> Frozen L c -> GoodF L (flush c t k).
Proof.
  intros Ht Hf H. unfold flush. destruct (_ && _); auto. left. split; [eapply Frozen_same; [|exact H]; reflexivity|]. constructor; cbn; auto.
Qed.
Lemma drain_frozen L t k c : Fin t -> (forall c, Frozen L c -> GoodF L (k c)) -> Frozen L c -> GoodF L (drain c t k).
Proof.
  intros Ht Hf H. unfold drain. destruct (negb _); auto. apply flush_frozen; auto; [constructor; cbn; auto|].
  intros. now apply drain_tail_frozen.
Qed.
Lemma sending_frozen L c : Frozen L c -> Frozen L (sending_tail c).
Proof. intros H. unfold sending_tail. destruct (_ && _); exact H. Qed.
Lemma resume_frozenclosed L t : Clo t -> forall c, FrozenClosed L c -> GoodF L (resume t c).
Proof.
  induction t as [|f t IH]; intros Ht c H; cbn [resume]; [now right|].
  inversion_clear Ht as [|? ? Hf Ht']. specialize (IH Ht'). destruct f as [s| | | | | |content|]; try contradiction.
  - right. split; auto. now constructor.
  - unfold drain_tail. destruct (_ && _); auto. unfold toClosed. pose proof H as (Hs & _). rewrite Hs. cbn [cst_eqb]. auto.
  - apply IH. unfold flushing_tail. pose proof H as (Hs & _). rewrite Hs. exact H.
  - apply IH. unfold sending_tail. destruct (_ && _); auto.
  - unfold resp_tail. destruct content; auto. destruct (_ && _); [reflexivity|]. destruct (is_head _); auto.
    unfold writeContent. pose proof H as (Hs & _). rewrite Hs. cbn. auto.
  - apply IH. exact H.
Qed.
Lemma resume_frozen L t : Fin t -> forall c, Frozen L c -> GoodF L (resume t c).
Proof.
  induction t as [|f t IH]; intros Ht c H; cbn [resume]; [now left|].
  inversion_clear Ht as [|? ? Hf Ht']. specialize (IH Ht'). destruct f as [s| | | | | |content|]; try contradiction.
  - left. split; auto. now constructor.
  - now apply drain_tail_frozen.
  - apply IH. unfold flushing_tail. destruct (_ && _); exact H.
  - apply IH. now apply sending_frozen.
  - unfold resp_tail. destruct content; auto. destruct (_ && _); [reflexivity|]. destruct (is_head _); auto.
    unfold writeContent. replace (cst_eqb (st c) SendingContent) with false by (destruct H as [(-> & _)|(-> & _)]; reflexivity). cbn. auto.
Qed.
Lemma step_frozen L g a : GoodF L g -> resets a = false -> GoodF L (step g a).
Proof.
  intros HG Ha. destruct g as [c stk|r c]; [|exact HG]. destruct HG as [(H & Hs)|(H & Hs)].
  - pose proof (resume_frozen L stk Hs) as HR.
    assert (Hst : st c = Flushing \/ st c = Closed) by (destruct H as [(-> & _)|(-> & _)]; auto).
    destruct a as [o| |b|n|n]; cbn [step].
    + destruct o; cbn [do_op]; try discriminate.
      * unfold processInput. destruct Hst as [-> | ->]; now apply HR.
      * unfold writeResponse. destruct Hst as [-> | ->]; now apply HR.
      * unfold writeHeaders. destruct Hst as [-> | ->]; now apply HR.
      * unfold writeContent. destruct Hst as [-> | ->]; now apply HR.
      * unfold endContent. destruct Hst as [-> | ->]; now apply HR.
      * now apply toClosed_frozen.
      * now apply flush_frozen.
      * now apply drain_frozen.
    + destruct stk as [|[] t]; try (left; split; auto; fail). inversion_clear Hs. now apply resume_frozen.
    + destruct (_ && _); left; split; auto.
    + left; split; auto.
    + cbv zeta. csimp. destruct (drain_conn c); [|left; split; auto]. now apply drain_frozen.
  - pose proof (resume_frozenclosed L stk Hs) as HR. pose proof H as (Hst & _).
    destruct a as [o| |b|n|n]; cbn [step].
    + destruct o; cbn [do_op]; try discriminate.
      * unfold processInput. rewrite Hst. now apply HR.
      * unfold writeResponse. rewrite Hst. now apply HR.
      * unfold writeHeaders. rewrite Hst. now apply HR.
      * unfold writeContent. rewrite Hst. now apply HR.
      * unfold endContent. rewrite Hst. now apply HR.
      * unfold toClosed. rewrite Hst. now apply HR.
      * unfold flush. destruct (_ && _); auto. right. split; auto. now constructor.
      * unfold drain. rewrite Hst. now apply HR.
    + destruct stk as [|[] t]; try (right; split; auto; fail). inversion_clear Hs. now apply resume_frozenclosed.
    + destruct (_ && _); right; split; auto.
    + right; split; auto.
    + cbv zeta. csimp. destruct (drain_conn c); [|right; split; auto]. unfold drain. csimp. rewrite Hst. now apply HR.
Qed.
Lemma run_frozen L l : forall g, GoodF L g -> forallb (fun a => negb (resets a)) l = true -> GoodF L (run g l).
Proof.
  induction l as [|a l IH]; intros g H Hl; [exact H|]. cbn [forallb] in Hl. apply andb_true_iff in Hl as (H1 & H2).
  cbn [run fold_left]. apply IH; auto. apply step_frozen; auto. now destruct (resets a).
Qed.

(** ** What a connection that is not answering a request makes of the bytes received *)
Definition Reading (stk : list frame) (rest : bytes) (L : list obs) (g : cfg) : Prop :=
  exists new, Verdict rest new /\
    ((exists c, g = Run c stk /\ log c = L ++ new /\ avail c = [] /\ (st c = ReceivingHeaders /\ new = [] \/ st c = ReceivingContent /\ (new = [] \/ new = [OWrite continue_text]))) \/
     (exists c m x, g = Run c (KSig SReady :: stk) /\ log c = L ++ new /\ st c = SendingHeaders /\ wf_msg m /\ rest = wire m ++ x /\
        new = interim (delivered m) ++ [OReady (delivered m)]) \/
     (exists s, new = [OWrite (refusal s)]) /\ GoodF (L ++ new) g).

Lemma RH_verdict ms c : RH ms c -> avail c = [] -> exists rest, arrived c = concat (map wire ms) ++ rest /\ Verdict rest [].
Proof.
  intros ([? ? ? ? AR ?] & (p0 & n & _ & HD) & HL) HA. exists (buf c). rewrite HA, app_nil_r in AR. split; auto. apply V_wait; auto.
  - intros h x W E. assert (drun 1 (buf c) = DDone x) by (apply drun_iff; eauto). congruence.
  - pose proof (drun_more 1 _ _ ltac:(lia) HD) as Hn. pose proof (live n Hn) as L.
    assert (C : drun 1 (buf c ++ witness n) = DDone []) by (rewrite drun_app, HD; exact L).
    apply drun_sound in C. destruct C as (h & W & C). rewrite app_nil_r in C. eauto.
Qed.
Lemma RC_verdict ms h l hb rest c : RC ms h l hb rest c -> blen rest < cl c -> avail c = [] ->
  exists rest, arrived c = concat (map wire ms) ++ rest /\ Verdict rest (cont h).
Proof.
  intros [? ? ? ? ? ? ? ? ? AR ? ?] HL HA. exists (head_text h ++ rest). rewrite HA, app_nil_r in AR. split; auto.
  eapply (V_content _ h rest (cl c)); eauto; [|lia]. split; auto. split; eauto.
Qed.
Lemma toFlushing_frozen L t k c : Fin t -> (forall c, Frozen L c -> GoodF L (k c)) -> st c <> Flushing ->
  in_ok c = true -> out_ok c = true -> log c = L -> GoodF L (toFlushing c t k).
Proof.
  intros Ht Hf Hs Hi Ho HL. unfold toFlushing. replace (cst_eqb (st c) Flushing) with false by (destruct (st c); auto; congruence).
  apply drain_frozen.
  - constructor; cbn; auto.
  - intros c' H'. apply Hf. unfold flushing_tail. destruct (_ && _); exact H'.
  - left. csimp. auto.
Qed.
Lemma process_reading ms c stk rest : RHpre ms c -> Fin stk -> settled stk -> arrived c = concat (map wire ms) ++ rest ->
  Reading stk rest (log c) (processInput c stk (resume stk)).
Proof.
  intros H Hb Hs HA.
  assert (ARR : arrived (gconn (processInput c stk (resume stk))) = arrived c).
  { apply (adds_processInput (fun _ => True)); auto. apply adds_resume; auto. }
  set (G := fun g => arrived (gconn g) = arrived c -> Reading stk rest (log c) g).
  enough (X : G (processInput c stk (resume stk))) by (apply X; exact ARR).
  apply (processInput_rh stk (resume stk) G ms (log c)); auto.
  - intros c' H1 H2 H3. unfold G. rewrite settled_resume by auto. cbn [gconn]. intros E.
    destruct (RH_verdict _ _ H1 H3) as (rest' & E' & V). rewrite E, HA in E'. apply app_inv_head in E'. subst rest'.
    exists []. split; auto. left. exists c'. rewrite app_nil_r. destruct H1 as ([] & _). auto 6.
  - intros c' h hb r H1 H2 H3. unfold G. rewrite settled_resume by auto. cbn [gconn]. intros E.
    destruct (RC_verdict _ _ _ _ _ _ H1 H2 H3) as (rest' & E' & V). rewrite E, HA in E'. apply app_inv_head in E'. subst rest'.
    exists (cont h). split; auto. left. exists c'. destruct H1. split; auto. split; auto. split; auto. right. split; auto.
    unfold cont. destruct (says _ _); auto.
  - intros c' m more H1 H2 E. cbn [gconn] in E. destruct H1 as [? [? ? ? ? ? AR ?] ? ? ? ? HL].
    exists (interim (delivered m) ++ [OReady (delivered m)]). split.
    + eapply (V_ready _ m (more ++ avail c')); auto. rewrite E, HA in AR. apply app_inv_head in AR. auto.
    + right; left. exists c', m, (more ++ avail c'). rewrite E, HA in AR. apply app_inv_head in AR. auto 9.
  - intros c' r s (H1 & H2 & H3 & H4 & H5 & H6 & H7) E.
    exists [OWrite (refusal s)].
    assert (E' : arrived c' = arrived c).
    { rewrite <- E. symmetry. apply (adds_toFlushing (fun _ => True)); auto. apply adds_resume; auto. }
    rewrite H2, HA in E'. apply app_inv_head in E'. subst r. split; [now apply V_refuse|]. right; right. split; eauto.
    rewrite <- H4. apply toFlushing_frozen; auto; try apply H1. apply resume_frozen, Hb.
Qed.

(** the verdict is determined by the bytes *)
Lemma app_nil_blen (a b : bytes) : a = a ++ b -> b = [].
Proof. intros E. rewrite <- (app_nil_r a) in E at 1. now apply app_inv_head in E. Qed.
Lemma refuse_viable x y h z : (forall ext h z, wf_head h -> x ++ ext <> head_text h ++ z) -> wf_head h -> x ++ y <> head_text h ++ z.
Proof. auto. Qed.
Lemma refuse_head rest h x : wf_head h -> rest = head_text h ++ x -> forall s, Refusable rest s ->
  max_head < blen (head_text h) /\ s = "400 Bad Request"%string \/
  blen (head_text h) <= max_head /\ exists f v, last_named "content-length" (spec_headers h) = Some (f, v) /\
    ((exists n, IntText int_lo int_hi v n /\ (n < 0 /\ s = "400 Bad Request"%string \/ max_content < n /\ s = "413 Request Entity Too Large"%string))
     \/ (forall n, ~ IntText int_lo int_hi v n) /\ s = "413 Request Entity Too Large"%string).
Proof.
  intros W E s [a b Ea H|H L|h' x' W' E' L|h' f v n (W' & L & x' & E') H2 H3 H4|h' f v n (W' & L & x' & E') H2 H3 H4|h' f v (W' & L & x' & E') H2 H3].
  - exfalso. subst rest. eapply H; eauto.
  - destruct (Z_lt_le_dec max_head (blen (head_text h))); auto. exfalso. apply (H h). split; auto. split; eauto.
  - rewrite E in E'. apply head_cut in E' as (E' & _); auto. left. rewrite E'. auto.
  - right. rewrite E in E'. apply head_cut in E' as (E' & _); auto. split; [congruence|].
    pose proof (f_equal q_headers (delivered_text h h' [] W W' E')) as HH. cbn in HH. rewrite HH. exists f, v. split; auto. left. exists n. auto.
  - right. rewrite E in E'. apply head_cut in E' as (E' & _); auto. split; [congruence|].
    pose proof (f_equal q_headers (delivered_text h h' [] W W' E')) as HH. cbn in HH. rewrite HH. exists f, v. split; auto. left. exists n. auto.
  - right. rewrite E in E'. apply head_cut in E' as (E' & _); auto. split; [congruence|].
    pose proof (f_equal q_headers (delivered_text h h' [] W W' E')) as HH. cbn in HH. rewrite HH. exists f, v. split; auto.
Qed.
Lemma refuse_bad_length h n f v : AnnouncedLength h n -> 0 <= n <= max_content ->
  last_named "content-length" (spec_headers h) = Some (f, v) ->
  ((exists n, IntText int_lo int_hi v n /\ (n < 0 \/ max_content < n)) \/ (forall n, ~ IntText int_lo int_hi v n)) -> False.
Proof.
  intros A Hn E H. destruct A as [A|f' v' n A I]; [congruence|]. rewrite A in E. injection E as -> ->.
  destruct H as [(k & I' & H)|H]; [|eapply H; eauto].
  assert (n = k) by (eapply IntText_fun; eauto; unfold int_lo, int_hi, LLONG_MIN, LLONG_MAX; lia). lia.
Qed.
Lemma refuse_no_head rest s : (forall h x, wf_head h -> rest <> head_text h ++ x) -> Refusable rest s -> s = "400 Bad Request"%string.
Proof.
  intros N [a b Ea H|H L|h' x' W' E' L|h' f v n (W' & L & x' & E') H2 H3 H4|h' f v n (W' & L & x' & E') H2 H3 H4|h' f v (W' & L & x' & E') H2 H3]; auto;
  exfalso; eapply N; eauto.
Qed.
Lemma refuse_wait rest s : (forall h x, wf_head h -> rest <> head_text h ++ x) -> (exists ext h, wf_head h /\ rest ++ ext = head_text h) ->
  blen rest <= max_pending -> Refusable rest s -> False.
Proof.
  intros N (ext & h & W & E) L [a b Ea H|H L'|h' x' W' E' L'|h' f v n (W' & L' & x' & E') H2 H3 H4|h' f v n (W' & L' & x' & E') H2 H3 H4|h' f v (W' & L' & x' & E') H2 H3];
  try (eapply N; eauto; fail); try lia.
  subst rest. apply (H (b ++ ext) h []); auto. now rewrite app_nil_r, app_assoc.
Qed.
Lemma refuse_fun rest s s' : Refusable rest s -> Refusable rest s' -> s = s'.
Proof.
  intros R R'. destruct (drun 1 rest) as [|n|x] eqn:D.
  - assert (N : forall h x, wf_head h -> rest <> head_text h ++ x) by (intros h x W E; assert (drun 1 rest = DDone x) by (apply drun_iff; eauto); congruence).
    rewrite (refuse_no_head _ _ N R), (refuse_no_head _ _ N R'). auto.
  - assert (N : forall h x, wf_head h -> rest <> head_text h ++ x) by (intros h x W E; assert (drun 1 rest = DDone x) by (apply drun_iff; eauto); congruence).
    rewrite (refuse_no_head _ _ N R), (refuse_no_head _ _ N R'). auto.
  - apply drun_iff in D as (h & W & E).
    destruct (refuse_head rest h x W E s R) as [(L & ->)|(L & f & v & Ef & H)], (refuse_head rest h x W E s' R') as [(L' & ->)|(L' & f' & v' & Ef' & H')]; auto; try lia.
    rewrite Ef in Ef'. injection Ef' as <- <-.
    assert (F : forall a b, IntText int_lo int_hi v a -> IntText int_lo int_hi v b -> a = b).
    { intros a b A B. eapply IntText_fun; eauto; unfold int_lo, int_hi, LLONG_MIN, LLONG_MAX; lia. }
    destruct H as [(n & I & H)|(N & ->)], H' as [(n' & I' & H')|(N' & ->)]; auto.
    + assert (n = n') by auto. subst n'. unfold max_content in *. destruct H as [(? & ->)|(? & ->)], H' as [(? & ->)|(? & ->)]; auto; lia.
    + exfalso. eapply N'; eauto.
    + exfalso. eapply N; eauto.
Qed.
Theorem Verdict_fun rest e e' : Verdict rest e -> Verdict rest e' -> e = e'.
Proof.
  intros V V'.
  assert (WAIT : forall e, (forall h x, wf_head h -> rest <> head_text h ++ x) -> (exists ext h, wf_head h /\ rest ++ ext = head_text h) ->
    blen rest <= max_pending -> Verdict rest e -> e = []).
  { intros x N EX L [| h part n (W & _) E|m y W E|s R]; auto.
    - exfalso. eapply N; eauto.
    - exfalso. unfold wire in E. rewrite <- app_assoc in E. eapply N; [apply W|eauto].
    - exfalso. eapply refuse_wait; eauto. }
  destruct V as [N EX L|h part n (W & L & _) E A Hn|m y W E|s R].
  - symmetry. eauto.
  - destruct V' as [N EX L'|h' part' n' (W' & L' & _) E' A' Hn'|m y W' E'|s R].
    + exfalso. eapply N; eauto.
    + rewrite E in E'. apply head_cut in E' as (E' & _); auto.
      pose proof (f_equal q_headers (delivered_text h h' [] W W' E')) as HH. cbn in HH. rewrite HH. reflexivity.
    + exfalso. unfold wire in E'. rewrite E, <- app_assoc in E'. destruct m as [h' b]. destruct W' as [Wh ? Al ?]. cbn [m_head m_content] in *.
      apply head_cut in E' as (E1 & E2); auto. pose proof (announced_text h h' _ _ W Wh E1 A Al).
      rewrite E2, blen_app in Hn. pose proof (blen_nonneg y). lia.
    + exfalso. destruct (refuse_head rest h part W E s R) as [(? & _)|(_ & f & v & Ef & H)]; [lia|].
      pose proof (blen_nonneg part). eapply (refuse_bad_length h n f v); eauto; [lia|]. destruct H as [(k & I & [(?&?)|(?&?)])|(H & _)]; eauto.
  - destruct V' as [N EX L'|h' part' n' (W' & L' & _) E' A' Hn'|m' y' W' E'|s R].
    + exfalso. unfold wire in E. rewrite <- app_assoc in E. eapply N; [apply W|eauto].
    + exfalso. unfold wire in E. rewrite E', <- app_assoc in E. destruct m as [h b]. destruct W as [Wh ? Al ?]. cbn [m_head m_content] in *.
      apply head_cut in E as (E1 & E2); auto. pose proof (announced_text h' h _ _ W' Wh E1 A' Al).
      rewrite E2, blen_app in Hn'. pose proof (blen_nonneg y). lia.
    + rewrite E in E'. apply wire_cut in E' as (_ & E' & _); auto. now rewrite E'.
    + exfalso. unfold wire in E. rewrite <- app_assoc in E. destruct W as [Wh ? Al ?].
      destruct (refuse_head rest _ _ Wh E s R) as [(? & _)|(_ & f & v & Ef & H)]; [unfold max_head in *; lia|].
      eapply (refuse_bad_length (m_head m)); eauto; [pose proof (blen_nonneg (m_content m)); unfold max_content; lia|].
      destruct H as [(k & I & [(?&?)|(?&?)])|(H & _)]; eauto.
  - destruct V' as [N EX L'|h' part' n' (W' & L' & _) E' A' Hn'|m' y' W E|s' R'].
    + exfalso. eapply refuse_wait; eauto.
    + exfalso. destruct (refuse_head rest h' part' W' E' s R) as [(? & _)|(_ & f & v & Ef & H)]; [lia|].
      pose proof (blen_nonneg part'). eapply (refuse_bad_length h' n' f v); eauto; [lia|]. destruct H as [(k & I & [(?&?)|(?&?)])|(H & _)]; eauto.
    + exfalso. unfold wire in E. rewrite <- app_assoc in E. destruct W as [Wh ? Al ?].
      destruct (refuse_head rest _ _ Wh E s R) as [(? & _)|(_ & f & v & Ef & H)]; [unfold max_head in *; lia|].
      eapply (refuse_bad_length (m_head m')); eauto; [pose proof (blen_nonneg (m_content m')); unfold max_content; lia|].
      destruct H as [(k & I & [(?&?)|(?&?)])|(H & _)]; eauto.
    + now rewrite (refuse_fun _ _ _ R R').
Qed.
