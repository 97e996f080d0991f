(** C82, continued: progress when no HEAD request arrives, for handlers that would give content to one *)
From Verif Require Import Bytes ByteHelpers Thin Helpers ReqGrammar TextSpec
  Conn ConnSpec ConnText ConnHead ConnInv ConnStep ConnEnd PropsConn ConnSend ConnPhase PropsConn2 Serve PropsServe PropsServe2 SessionServer.
Open Scope Z_scope.

(** no complete request of the stream is a HEAD request *)
Definition no_head (stream : bytes) : Prop := forall ms rest, Forall wf_msg ms -> stream = concat (map wire ms) ++ rest ->
  Forall (fun m => q_method (delivered m) <> lit "HEAD") ms.
Lemma no_head_prefix a b : no_head (a ++ b) -> no_head a.
Proof. intros H ms rest W E. apply (H ms (rest ++ b) W). subst a. now rewrite <- app_assoc. Qed.
(** it is enough to look at the messages the stream consists of *)
Lemma no_head_of ms : Forall wf_msg ms -> Forall (fun m => q_method (delivered m) <> lit "HEAD") ms -> no_head (concat (map wire ms)).
Proof.
  intros W F ms1 rest W1 E. rewrite <- (app_nil_r (concat (map wire ms))) in E.
  assert (X : exists more, map delivered ms = map delivered ms1 ++ more).
  { destruct (stream_cut _ _ _ _ W W1 E) as [(more & Fm & M & Er)|(more & Fm & M & Er)]; [|eauto].
    destruct more as [|m more]; [exists []; cbn [map] in M; rewrite app_nil_r in *; auto|]. exfalso. inversion_clear Fm. cbn [map concat] in Er. symmetry in Er.
    apply app_eq_nil in Er as [Er _]. apply app_eq_nil in Er as [Er _]. now apply wire_ne in Er. }
  destruct X as (more & X). apply (Forall_map delivered (fun q => q_method q <> lit "HEAD")) in F. rewrite X in F. apply Forall_app in F as (F & _).
  now apply (Forall_map delivered (fun q => q_method q <> lit "HEAD")).
Qed.

(** the stream received only grows *)
Lemma step_arr g a : resets a = false -> exists b, arrived (gconn (step g a)) = arrived (gconn g) ++ b.
Proof.
  intros H. destruct g as [c stk|r c]; [|exists []; cbn; now rewrite app_nil_r]. destruct a as [o| |b|n|n]; cbn [step].
  - destruct (adds_op (fun _ => True) o c stk) as (_ & E & _); auto. exists []. cbn [gconn]. now rewrite app_nil_r.
  - destruct stk as [|[] t]; try (exists []; cbn [gconn]; now rewrite app_nil_r).
    destruct (adds_resume (fun _ => True) Logic.I Logic.I (fun _ => Logic.I) Logic.I (fun _ => Logic.I) Logic.I t (or_intror (fun _ => Logic.I)) c) as (_ & E & _).
    exists []. cbn [gconn]. now rewrite app_nil_r.
  - destruct (_ && _); cbn [gconn]; csimp; [exists b; reflexivity|exists []; now rewrite app_nil_r].
  - exists []; cbn [gconn]; csimp; now rewrite app_nil_r.
  - cbv zeta. csimp. destruct (drain_conn c); [|exists []; cbn [gconn]; csimp; now rewrite app_nil_r].
    destruct (adds_drain (fun _ => True) Logic.I Logic.I stk (resume stk) (set_pending (pending c - Z.max 0 (Z.min n (pending c))) c)) as (_ & E & _).
    + apply adds_resume; auto.
    + exists []. cbn [gconn]. rewrite app_nil_r. exact E.
Qed.
Lemma obeys_no_reset h c a : obeys h c a -> resets a = false.
Proof. destruct a as [[]| | | |]; cbn; tauto. Qed.
Lemma run_ub r c l : run (UB r c) l = UB r c.
Proof. induction l; auto. Qed.

Section NoHead.
  Variable h : handler.
  Definition empty_heads : handler := fun rs => if beqb (q_method (last rs req0)) (lit "HEAD") then mkGiven 200 [] [] else h rs.
  Lemma same_obeys c stk a : reached c stk -> no_head (arrived c) -> (obeys h c a <-> obeys empty_heads c a).
  Proof.
    intros R N. destruct a as [[d| |code hs content|code hs| | | | |]| | | |]; cbn [obeys]; try tauto.
    assert (X : st c = SendingHeaders -> empty_heads (announced (log c)) = h (announced (log c))).
    { intros S. destruct (reached_SH _ _ R S) as (ms & m & more & l & H).
      assert (M : q_method (delivered m) <> lit "HEAD").
      { pose proof H as [_ [Cm W _ _ _ Ar _] _ _ _ _ _]. assert (F : Forall (fun m => q_method (delivered m) <> lit "HEAD") (ms ++ [m])).
        { apply (N (ms ++ [m]) (more ++ avail c)).
          - apply Forall_app. split; [|auto]. apply (cm_wf _ _ Cm).
          - rewrite Ar, map_app, concat_app. cbn [map concat]. now rewrite <- !app_assoc. }
        apply Forall_app in F as (_ & F). inversion F. assumption. }
      unfold empty_heads. rewrite (sh_log _ _ _ _ _ H), last_ready, last_last by reflexivity.
      replace (beqb (q_method (delivered m)) (lit "HEAD")) with false; [reflexivity|]. symmetry. now apply beqb_false. }
    split; intros H S; specialize (H S); rewrite X in * by exact S; exact H.
  Qed.
  Lemma same_run : forall l c stk c' stk', reached c stk -> polite_run (Run c stk) l -> run (Run c stk) l = Run c' stk' -> no_head (arrived c') ->
    (obeys_run h (Run c stk) l \/ obeys_run empty_heads (Run c stk) l) -> (exists b, arrived c' = arrived c ++ b) /\ obeys_run h (Run c stk) l /\ obeys_run empty_heads (Run c stk) l.
  Proof.
    induction l as [|a l IH]; intros c stk c' stk' R P E N O.
    - cbn in E. injection E as <- <-. split; [exists []; now rewrite app_nil_r|]. split; exact Logic.I.
    - cbn [polite_run obeys_run run fold_left] in *. fold (run (step (Run c stk) a) l) in E. destruct P as (P1 & P2).
      assert (Re : resets a = false) by (destruct O as [(O & _)|(O & _)]; eapply obeys_no_reset; eauto).
      destruct (step_arr (Run c stk) a Re) as (b & Eb). destruct (step (Run c stk) a) as [c1 stk1|r1 c1] eqn:Es.
      2: { rewrite run_ub in E. discriminate. }
      cbn [gconn] in Eb. assert (R1 : reached c1 stk1) by (eapply reached_step; eauto).
      destruct (IH c1 stk1 c' stk' R1 P2 E N) as ((b2 & Eb2) & O1 & O2); [tauto|].
      assert (Nc : no_head (arrived c)) by (rewrite Eb2, Eb, <- app_assoc in N; now apply no_head_prefix in N).
      pose proof (same_obeys c stk a R Nc) as S. split; [exists (b ++ b2); now rewrite Eb2, Eb, app_assoc|]. tauto.
  Qed.
End NoHead.

(** As C82_progress, for any handler, if no HEAD request has arrived. *)
Theorem C82_progress_no_head : forall h c0 l c stk,
  (forall rs m, wf_msg m -> q_method (delivered m) <> lit "HEAD" -> let g := h (rs ++ [delivered m]) in last_named "content-length" (g_headers g) = None /\ blen (g_content g) <= INT_MAX) ->
  reached c0 [] -> st c0 = ReceivingHeaders -> log c0 = [] ->
  polite_run (Run c0 []) l -> obeys_run h (Run c0 []) l -> run (Run c0 []) l = Run c stk -> no_head (arrived c) ->
  exists more c', Forall serving more /\ polite_run (Run c0 []) (l ++ more) /\ obeys_run h (Run c0 []) (l ++ more) /\
    run (Run c0 []) (l ++ more) = Run c' [] /\ arrived c' = arrived c /\
    ((st c' = ReceivingHeaders \/ st c' = ReceivingContent) /\ avail c' = [] \/ st c' = Flushing \/ st c' = Closed).
Proof.
  intros h c0 l c stk A R S L P O E N.
  assert (AB : able (empty_heads h)).
  { intros rs m W. cbv zeta. unfold empty_heads. rewrite last_last. destruct (beqb (q_method (delivered m)) (lit "HEAD")) eqn:B.
    - cbn [g_headers g_content]. split; [reflexivity|]. split; [vm_compute; discriminate|reflexivity].
    - apply beqb_false in B. destruct (A rs m W B) as (A1 & A2). split; [exact A1|]. split; [exact A2|]. intros X. contradiction. }
  destruct (same_run h l c0 [] c stk R P E N (or_introl O)) as (_ & _ & O2).
  destruct (C82_progress (empty_heads h) c0 l c stk AB R S L P O2 E) as (more & c' & F & P' & O' & E' & Ar & X).
  exists more, c'. split; [exact F|]. split; [exact P'|]. split; [|auto].
  eapply (same_run h (l ++ more) c0 [] c' []); eauto. now rewrite Ar.
Qed.
Print Assumptions C82_progress_no_head.
