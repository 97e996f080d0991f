(** Consequences of a [Story]. *)
From Verif Require Import Bytes ReqGrammar TextSpec Conn ConnSpec ConnInv ConnEnd.
Open Scope Z_scope.

Lemma written_app a b : written (a ++ b) = written a ++ written b.
Proof. induction a as [|[] a IH]; cbn; auto. now rewrite IH, app_assoc. Qed.
Lemma written_interim r : written (interim r) = interim_text r.
Proof. unfold interim, interim_text. destruct (expects r); cbn; auto using app_nil_r. Qed.
Lemma signals_app a b : signals (a ++ b) = signals a ++ signals b.
Proof. apply filter_app. Qed.

(** pieces *)
Lemma Chunks_snoc e c d p : Chunks e c -> Canonical 16 d (blen p) -> p <> [] -> Chunks (e ++ d ++ CRLF ++ p ++ CRLF) (c ++ p).
Proof.
  intros H Hd Hp. induction H as [|d' p' e c H1 H2 H3 IH].
  - cbn [app]. rewrite <- (app_nil_r p) at 2. rewrite <- (app_nil_r CRLF) at 2. now apply Ch_cons; [| |constructor].
  - rewrite <- !app_assoc. now apply Ch_cons.
Qed.
Lemma pieces_written f ps evs : ContentEvents f ps evs ->
  signals evs = [] /\ announced evs = [] /\
  match f with
  | ChunkedContent => Chunks (written evs) (concat ps)
  | NoContent => ps = [] /\ evs = []
  | _ => written evs = concat ps
  end.
Proof.
  induction 1 as [|ps evs p ev H (IH1 & IH2 & IH3) NE PE].
  - split; auto. split; auto. destruct f; cbn; auto. constructor.
  - rewrite signals_app, announced_app, written_app, concat_app, IH1, IH2. cbn [concat]. rewrite app_nil_r.
    destruct PE as [n p|p|p d Hd].
    + cbn. rewrite IH3, app_nil_r. auto.
    + cbn. rewrite IH3, app_nil_r. auto.
    + split; [reflexivity|]. split; [reflexivity|]. cbn [written]. rewrite app_nil_r.
      replace ((d ++ CRLF) ++ p ++ CRLF) with (d ++ CRLF ++ p ++ CRLF) by now rewrite <- app_assoc. now apply Chunks_snoc.
Qed.

Lemma answering_written r a len ps evs : Answering r a len ps evs -> PartialResponse r (interim_text r ++ written evs).
Proof.
  intros [hd evs' HL HH HC HM]. pose proof (pieces_written _ _ _ HC) as (_ & _ & HW). cbn [written].
  apply (PR_part _ a len hd (concat ps)); auto. unfold total in HM.
  destruct (framing_of r a len); cbn in HM.
  - destruct HW as (-> & ->). cbn. constructor.
  - rewrite HW. now constructor.
  - now constructor.
  - rewrite HW. constructor.
Qed.
Lemma framing_fixed_pos r a len n : framing_of r a len = FixedLength n -> 0 < n.
Proof.
  unfold framing_of. destruct (_ || _); [discriminate|]. destruct (Z.ltb_spec 0 len); [intros [= <-]; auto|]. destruct (chunked_resp _ _ _); discriminate.
Qed.
Lemma exchange_written r keep e : Exchange r keep e -> Response r keep (written e).
Proof.
  intros [a len ps evs HA HS HK]. destruct HA as [hd evs' HL HH HC HM].
  pose proof (pieces_written _ _ _ HC) as (_ & _ & HW).
  rewrite written_app, written_interim. cbn [written app]. rewrite !written_app. cbn [written]. rewrite app_nil_r.
  apply (Resp _ _ a len hd (concat ps)); auto. unfold total in HS.
  pose proof (framing_fixed_pos r a len) as FP.
  destruct (framing_of r a len); cbn in HS |- *; rewrite ?app_nil_r.
  - destruct HW as (-> & ->). cbn. constructor.
  - rewrite HW, <- HS. apply En_fixed. intros E. rewrite E in HS. specialize (FP n eq_refl). cbn in HS. lia.
  - now constructor.
  - rewrite HW. constructor.
Qed.
Lemma exchanges_written rs l : Exchanges rs l -> exists bs, written l = concat bs /\ Forall2 (fun r b => Response r true b) rs bs.
Proof.
  induction 1 as [|rs l r e H (bs & E & F) HE]; [exists []; auto|].
  exists (bs ++ [written e]). rewrite written_app, E, concat_app. cbn [concat]. rewrite app_nil_r. split; auto.
  apply Forall2_app; auto. constructor; auto. now apply exchange_written.
Qed.

(** signals *)
Lemma signals_interim r : signals (interim r) = [].
Proof. unfold interim. now destruct (expects r). Qed.
Lemma answering_signals r a len ps evs : Answering r a len ps evs -> signals evs = [].
Proof. intros [hd evs' HL HH HC HM]. cbn. apply pieces_written in HC. apply HC. Qed.
Lemma exchange_signals r keep e : Exchange r keep e -> signals e = [OReady r; OCompleted].
Proof.
  intros [a len ps evs HA HS HK]. rewrite signals_app, signals_interim. cbn [app signals filter is_signal]. fold (signals (evs ++ final_events (framing_of r a len) ++ [OCompleted])).
  rewrite !signals_app, (answering_signals _ _ _ _ _ HA). destruct (framing_of _ _ _); reflexivity.
Qed.
Lemma exchanges_signals rs l : Exchanges rs l -> signals l = concat (map (fun r => [OReady r; OCompleted]) rs).
Proof.
  induction 1 as [|rs l r e H IH HE]; auto. rewrite signals_app, IH, (exchange_signals _ _ _ HE), map_app, concat_app. reflexivity.
Qed.

(** where requestReady stands *)
Lemma In_ready l r : In (OReady r) l <-> In r (announced l).
Proof.
  induction l as [|o l IH]; [reflexivity|]. cbn [In announced]. rewrite IH.
  destruct o; cbn; try (intuition congruence).
Qed.
Lemma split_ready l : forall pre r post, l = pre ++ OReady r :: post -> announced l = announced pre ++ r :: announced post.
Proof. intros pre r post ->. now rewrite announced_app. Qed.
Lemma split_app {A} (a b pre post : list A) x : a ++ b = pre ++ x :: post ->
  (exists post', a = pre ++ x :: post' /\ post = post' ++ b) \/ (exists pre', pre = a ++ pre' /\ b = pre' ++ x :: post).
Proof.
  revert pre; induction a as [|y a IH]; intros pre E.
  - right. exists pre. auto.
  - destruct pre as [|z pre].
    + cbn in E. injection E as <- <-. left. exists a. auto.
    + cbn in E. injection E as <- E. destruct (IH pre E) as [(p & -> & ->)|(p & -> & ->)].
      * left. exists p. auto.
      * right. exists p. auto.
Qed.
Lemma interim_no_ready r : announced (interim r) = [].
Proof. unfold interim. now destruct (expects r). Qed.
Lemma ready_split r rest pre r' post : announced rest = [] -> interim r ++ OReady r :: rest = pre ++ OReady r' :: post -> pre = interim r /\ r' = r.
Proof.
  intros N E. apply split_app in E as [(p & E & _)|(p & -> & E)].
  - exfalso. apply split_ready in E. rewrite interim_no_ready in E. destruct (announced pre); discriminate.
  - destruct p as [|o p]; cbn in E.
    + injection E as <- _. now rewrite app_nil_r.
    + exfalso. injection E as _ E. apply split_ready in E. rewrite N in E. destruct (announced p); discriminate.
Qed.
Lemma exchange_ready r keep e pre r' post : Exchange r keep e -> e = pre ++ OReady r' :: post -> pre = interim r /\ r' = r.
Proof.
  intros [a len ps evs HA HS HK] E. eapply ready_split; [|exact E].
  pose proof (announced_answering _ _ _ _ _ HA) as A. cbn in A. injection A as A. rewrite !announced_app, A. destruct (framing_of _ _ _); reflexivity.
Qed.
Definition fresh_start (pre : list obs) : Prop := pre = [] \/ exists q, pre = q ++ [OCompleted].
Lemma exchanges_end rs l : Exchanges rs l -> fresh_start l.
Proof.
  intros [|rs' l' r e H HE]; [now left|]. right. destruct HE as [a len ps evs _ _ _].
  exists (l' ++ interim r ++ OReady r :: evs ++ final_events (framing_of r a len)).
  rewrite <- !app_assoc. cbn. rewrite <- !app_assoc. reflexivity.
Qed.
Lemma exchanges_ready rs l : Exchanges rs l -> forall pre r post, l = pre ++ OReady r :: post ->
  exists pre', pre = pre' ++ interim r /\ fresh_start pre'.
Proof.
  induction 1 as [|rs l r e H IH HE]; intros pre r' post E.
  - destruct pre; discriminate.
  - apply split_app in E as [(p & E & _)|(p & -> & E)]; [eauto|].
    destruct (exchange_ready _ _ _ _ _ _ HE E) as (-> & ->). exists l. split; auto. eapply exchanges_end; eauto.
Qed.
Lemma tail_ready rest t pre r post : Tail rest t -> t = pre ++ OReady r :: post -> pre = interim r.
Proof.
  intros [|h n H1 H2 H3 H4|m x H1 H2|m x a len ps evs H1 H2 H3|m x e H1 H2 H3|s H] E.
  - destruct pre; discriminate.
  - destruct pre as [|? [|]]; discriminate.
  - apply ready_split in E as (-> & ->); auto.
  - apply ready_split in E as (-> & ->); auto. pose proof (announced_answering _ _ _ _ _ H3) as A. cbn in A. injection A as A. auto.
  - eapply exchange_ready in E as (-> & ->); eauto.
  - destruct pre as [|? [|]]; discriminate.
Qed.
Lemma story_ready stream lg pre r post : Story stream lg -> lg = pre ++ OReady r :: post ->
  exists pre', pre = pre' ++ interim r /\ fresh_start pre'.
Proof.
  intros [ms rest l t e E W X T En] S. apply split_app in S as [(p & S & _)|(p & -> & S)].
  - eapply exchanges_ready; eauto.
  - apply split_app in S as [(q & S & _)|(q & -> & S)].
    + pose proof (tail_ready _ _ _ _ _ T S) as ->. exists l. split; auto. eapply exchanges_end; eauto.
    + exfalso. destruct En; destruct q as [|? [|? [|]]]; discriminate.
Qed.

Definition ending_signals (e : list obs) : Prop := e = [] \/ e = [OClosed].
Lemma story_signals stream lg : Story stream lg -> exists rs tail e,
  signals lg = concat (map (fun r => [OReady r; OCompleted]) rs) ++ tail ++ e /\
  (tail = [] \/ exists r, tail = [OReady r]) /\ ending_signals e.
Proof.
  intros [ms rest l t e E W X T En]. rewrite !signals_app, (exchanges_signals _ _ X).
  assert (ES : ending_signals (signals e)) by (destruct En; [left|right|right]; reflexivity).
  destruct T as [|h n H1 H2 H3 H4|m x H1 H2|m x a len ps evs H1 H2 H3|m x e' H1 H2 H3|s H].
  - exists (map delivered ms), [], (signals e). auto.
  - exists (map delivered ms), [], (signals e). auto.
  - exists (map delivered ms), [OReady (delivered m)], (signals e). rewrite signals_app, signals_interim. split; auto. split; eauto.
  - exists (map delivered ms), [OReady (delivered m)], (signals e). rewrite signals_app, signals_interim.
    pose proof (answering_signals _ _ _ _ _ H3) as A. cbn. unfold signals in A. rewrite A. split; auto. split; eauto.
  - exists (map delivered ms ++ [delivered m]), [], (signals e). rewrite (exchange_signals _ _ _ H3), (map_app _ (map delivered ms)), concat_app, <- !app_assoc. split; auto.
  - exists (map delivered ms), [], (signals e). auto.
Qed.
Lemma no_closed_signals l : ~ In OClosed l <-> ~ In OClosed (signals l).
Proof. unfold signals. rewrite filter_In. cbn. tauto. Qed.
Lemma story_closed_last stream lg pre post : Story stream lg -> lg = pre ++ OClosed :: post -> post = [].
Proof.
  intros [ms rest l t e E W X T En] S.
  assert (NL : ~ In OClosed l).
  { rewrite no_closed_signals, (exchanges_signals _ _ X), in_concat. intros (y & I1 & I2). apply in_map_iff in I1 as (r & <- & _). cbn in I2. intuition discriminate. }
  assert (NT : ~ In OClosed t).
  { rewrite no_closed_signals. destruct T as [|h n H1 H2 H3 H4|m x H1 H2|m x a len ps evs H1 H2 H3|m x e' H1 H2 H3|s H].
    - auto. - cbn; auto.
    - rewrite signals_app, signals_interim. cbn. intuition discriminate.
    - rewrite signals_app, signals_interim. pose proof (answering_signals _ _ _ _ _ H3) as A. cbn. unfold signals in A. rewrite A. cbn. intuition discriminate.
    - rewrite (exchange_signals _ _ _ H3). cbn. intuition discriminate.
    - cbn; auto. }
  apply split_app in S as [(p & S & _)|(p & -> & S)]; [exfalso; apply NL; rewrite S, in_app_iff; cbn; auto|].
  apply split_app in S as [(q & S & _)|(q & -> & S)]; [exfalso; apply NT; rewrite S, in_app_iff; cbn; auto|].
  destruct En; destruct q as [|? [|? [|]]]; try discriminate; injection S; auto; intros; subst; auto.
Qed.

(** bytes written *)
Lemma story_written stream lg : Story stream lg -> exists rs last bs b,
  announced lg = rs ++ last /\ written lg = concat bs ++ b /\ Forall2 (fun r b => Response r true b) rs bs /\ LastWritten last b.
Proof.
  intros [ms rest l t e E W X T En]. destruct (exchanges_written _ _ X) as (bs & EW & F).
  assert (We : written e = []) by (now destruct En).
  rewrite !written_app, !announced_app, EW, We, (announced_exchanges _ _ X), (announced_ending _ En), !app_nil_r.
  exists (map delivered ms).
  destruct T as [|h n H1 H2 H3 H4|m x H1 H2|m x a len ps evs H1 H2 H3|m x e' H1 H2 H3|s H].
  - exists [], bs, []. cbn. repeat split; auto using LW_none.
  - exists [], bs, continue_text. cbn [announced written]. rewrite !app_nil_r. repeat split; auto using LW_continue.
  - exists [delivered m], bs, (interim_text (delivered m)). rewrite announced_interim, written_app, written_interim. cbn [written announced]. rewrite app_nil_r.
    repeat split; auto. apply LW_partial, PR_none.
  - exists [delivered m], bs, (interim_text (delivered m) ++ written evs). rewrite announced_interim, written_app, written_interim, (announced_answering _ _ _ _ _ H3). cbn [written].
    repeat split; auto. apply LW_partial. eapply answering_written; eauto.
  - exists [delivered m], bs, (written e'). rewrite (announced_exchange _ _ _ H3). repeat split; auto. apply LW_full. now apply exchange_written.
  - exists [], bs, (refusal s). cbn [announced written]. rewrite !app_nil_r. repeat split; auto using LW_refusal.
Qed.
