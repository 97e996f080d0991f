(** PROPERTIES C35, C41, C42, C58, C59: request handlers.  Model: Handlers.v. *)
From Verif Require Import Bytes ByteHelpers Helpers TextSpec CIProofs HelpersProofs Conn ConnSpec Router Handlers.
Open Scope Z_scope.

(** ** C35: the stack *)
Section C35.
  Variables (W : Type) (alive : W -> nat -> bool) (is_handler : nat -> bool) (handle : nat -> W -> bool * W).
  (** [Declined l w w']: the handlers among l were offered the request one after the other, all declined, and
      what they did led from w to w' *)
  Inductive Declined : list nat -> W -> W -> Prop :=
  | Dc_nil w : Declined [] w w
  | Dc_other i l w w' : is_handler i = false -> Declined l w w' -> Declined (i :: l) w w'
  | Dc_handler i l w w1 w' : is_handler i = true -> handle i w = (false, w1) -> Declined l w1 w' -> Declined (i :: l) w w'.
  (** what a stack must do *)
  Inductive Stacked (children : list nat) (w : W) : bool -> W -> Prop :=
  | Sk_accept before i after w1 w2 : children = before ++ i :: after -> Declined before w w1 -> is_handler i = true ->
      handle i w1 = (true, w2) -> Stacked children w true w2
  | Sk_decline w2 : Declined children w w2 -> Stacked children w false w2.
  (** handlers do not delete the children of the stack while they decline *)
  Definition keeps_children (children : list nat) : Prop :=
    forall i j w w', In i children -> In j children -> alive w j = true -> handle i w = (false, w') -> alive w' j = true.

  Lemma stack_some children : forall w b w2, stackHandle W alive is_handler handle children w = Some (b, w2) -> Stacked children w b w2.
  Proof.
    induction children as [|i t IH]; cbn [stackHandle]; intros w b w2 H.
    - injection H as <- <-. apply Sk_decline. constructor.
    - destruct (negb (alive w i)); [discriminate|]. destruct (is_handler i) eqn:E; [destruct (handle i w) as [[|] w'] eqn:Hh|].
      + injection H as <- <-. apply (Sk_accept _ _ [] i t w w'); auto. constructor.
      + apply IH in H. destruct H as [b4 k aft w1 w2 -> D Hk Hk'|w2 D].
        * apply (Sk_accept _ _ (i :: b4) k aft w1 w2); auto. eapply Dc_handler; eauto.
        * apply Sk_decline. eapply Dc_handler; eauto.
      + apply IH in H. destruct H as [b4 k aft w1 w2 -> D Hk Hk'|w2 D].
        * apply (Sk_accept _ _ (i :: b4) k aft w1 w2); auto. apply Dc_other; auto.
        * apply Sk_decline. apply Dc_other; auto.
  Qed.
  Lemma stack_total all : keeps_children all -> forall children w, incl children all -> (forall i, In i children -> alive w i = true) ->
    exists b w2, stackHandle W alive is_handler handle children w = Some (b, w2).
  Proof.
    intros K. induction children as [|i t IH]; intros w Hi Ha; cbn [stackHandle]; [eauto|].
    assert (It : incl t all) by (intros x Hx; apply Hi; now right).
    rewrite Ha by (left; auto). cbn [negb]. destruct (is_handler i) eqn:E; [destruct (handle i w) as [[|] w'] eqn:Hh; [eauto|]|].
    - apply IH; auto. intros j Hj. apply (K i j w w'); auto. apply Hi. now left. apply Ha. now right.
    - apply IH; auto. intros j Hj. apply Ha. now right.
  Qed.
  Lemma declined_fun l : forall w w1 w2, Declined l w w1 -> Declined l w w2 -> w1 = w2.
  Proof.
    induction l as [|i l IH]; intros w w1 w2 H1 H2.
    - inversion H1; inversion H2; congruence.
    - inversion H1 as [|? ? ? ? Ei D1|? ? ? v ? Ei Hh D1]; inversion H2 as [|? ? ? ? Ei' D2|? ? ? v' ? Ei' Hh' D2]; subst; try congruence.
      + eapply IH; eauto.
      + rewrite Hh in Hh'. injection Hh' as <-. eapply IH; eauto.
  Qed.
  Theorem C35_in_order_partial : forall children w, (forall i, In i children -> alive w i = true) -> keeps_children children ->
    exists b w2, stackHandle W alive is_handler handle children w = Some (b, w2) /\ Stacked children w b w2.
  Proof.
    intros children w H K. destruct (stack_total children K children w (incl_refl _) H) as (b & w2 & E). exists b, w2. split; auto. now apply stack_some.
  Qed.
  (** the specification leaves no choice *)
  Theorem C35_unique : forall children w b w2 b' w2', Stacked children w b w2 -> Stacked children w b' w2' -> b = b' /\ w2 = w2'.
  Proof.
    assert (X : forall before i after w w1 w2 w3, Declined before w w1 -> is_handler i = true -> handle i w1 = (true, w2) ->
      ~ Declined (before ++ i :: after) w w3).
    { induction before as [|j t IH]; intros i after w w1 w2 w3 D Hi Hh D'; cbn in *.
      - inversion D; subst. inversion D'; subst; congruence.
      - inversion D as [|? ? ? ? Ej D1|? ? ? v ? Ej Hj D1]; inversion D' as [|? ? ? ? Ej' D2|? ? ? v' ? Ej' Hj' D2]; subst; try congruence.
        + eapply (IH i after _ w1 w2 w3); [exact D1|exact Hi|exact Hh|exact D2].
        + rewrite Hj in Hj'. injection Hj' as <-. eapply (IH i after _ w1 w2 w3); [exact D1|exact Hi|exact Hh|exact D2]. }
    assert (Y : forall before before' i i' after after' w w1 w1' w2 w2', before ++ i :: after = before' ++ i' :: after' ->
      Declined before w w1 -> Declined before' w w1' -> is_handler i = true -> is_handler i' = true -> handle i w1 = (true, w2) -> handle i' w1' = (true, w2') -> w2 = w2').
    { induction before as [|j t IH]; intros [|j' t'] i i' after after' w w1 w1' w2 w2' E D D' Hi Hi' Hh Hh'; cbn in E; injection E as <- E.
      - inversion D; inversion D'; subst; congruence.
      - inversion D; subst. inversion D'; subst; congruence.
      - inversion D'; subst. inversion D; subst; congruence.
      - inversion D as [|? ? ? ? Ej D1|? ? ? v ? Ej Hj D1]; inversion D' as [|? ? ? ? Ej' D2|? ? ? v' ? Ej' Hj' D2]; subst; try congruence.
        + eapply (IH t' i i'); eauto.
        + rewrite Hj in Hj'. injection Hj' as <-. eapply (IH t' i i'); eauto. }
    intros children w b w2 b' w2' S S'. destruct S as [b4 i af w1 w2 E D Hi Hh|w2 D]; destruct S' as [b4' i' af' w1' w2' E' D' Hi' Hh'|w2' D'].
    - split; auto. rewrite E in E'. eapply Y; eauto.
    - subst. exfalso. exact (X _ _ _ _ _ _ _ D Hi Hh D').
    - subst. exfalso. exact (X _ _ _ _ _ _ _ D' Hi' Hh' D).
    - split; auto. eapply declined_fun; eauto.
  Qed.
  (** a stack whose last child accepts everything accepts everything *)
  Theorem C35_last_accepts : forall children last w, (forall i, In i (children ++ [last]) -> alive w i = true) -> keeps_children (children ++ [last]) ->
    is_handler last = true -> (forall w, fst (handle last w) = true) ->
    exists w2, stackHandle W alive is_handler handle (children ++ [last]) w = Some (true, w2).
  Proof.
    intros children last w Ha K Hl Hacc. destruct (C35_in_order_partial _ _ Ha K) as (b & w2 & E & S). rewrite E.
    destruct S as [|w2 D]; [eauto|]. exfalso. clear E K Ha. revert w D. induction children as [|i t IH]; cbn; intros w D.
    - inversion D as [|? ? ? ? Ej D1|? ? ? v ? Ej Hj D1]; subst; try congruence. specialize (Hacc w). rewrite Hj in Hacc. discriminate.
    - inversion D; subst; eauto.
  Qed.
End C35.
(** who sees the request: every call recorded in the world *)
Definition recording {W} (handle : nat -> W -> bool * W) (i : nat) (w : W * list nat) : bool * (W * list nat) :=
  let '(b, w') := handle i (fst w) in (b, (w', snd w ++ [i])).
Lemma declined_recording W is_handler (handle : nat -> W -> bool * W) l : forall w seen w1 seen1,
  Declined (W * list nat) is_handler (recording handle) l (w, seen) (w1, seen1) -> seen1 = seen ++ filter is_handler l.
Proof.
  induction l as [|i l IH]; intros w seen w1 seen1 D; inversion D as [|? ? ? ? Ej D1|? ? ? v ? Ej Hj D1]; subst; cbn.
  - now rewrite app_nil_r.
  - rewrite Ej. eauto.
  - rewrite Ej. unfold recording in Hj. cbn in Hj. destruct (handle i w) as [b w'] eqn:E. injection Hj as -> <-.
    apply IH in D1. subst. now rewrite <- app_assoc.
Qed.
Theorem C35_later_never_see_it : forall W alive is_handler (handle : nat -> W -> bool * W) children w b w2 seen,
  stackHandle (W * list nat) (fun w => alive (fst w)) is_handler (recording handle) children (w, []) = Some (b, (w2, seen)) ->
  exists before after, children = before ++ after /\ seen = filter is_handler before /\
    (b = false -> after = []) /\ (b = true -> exists i before', before = before' ++ [i]).
Proof.
  intros W alive is_handler handle children w b w2 seen S. apply stack_some in S. inversion S as [b4 i af w1 w2' E D Hi Hh|w2' D]; subst.
  - destruct w1 as (w1 & seen1). apply declined_recording in D. exists (b4 ++ [i]), af. split; [now rewrite <- app_assoc|].
    split; [|split; [discriminate|intros _; eauto]]. rewrite filter_app. cbn [filter]. rewrite Hi. subst seen1. cbn [app] in *.
    unfold recording in Hh. cbn in Hh. destruct (handle i w1). now injection Hh as _ _ <-.
  - exists children, []. split; [now rewrite app_nil_r|]. apply declined_recording in D. split; auto. split; auto. discriminate.
Qed.
(** a handler that deletes a later sibling makes the stack call a deleted object *)
Theorem C35_deleted_sibling_refuted : exists (handle : nat -> list nat -> bool * list nat) (alive : list nat -> nat -> bool),
  (forall w, alive w = fun i => existsb (Nat.eqb i) w) /\ (forall w, handle 0%nat w = (false, [0%nat])) /\
  (forall i, In i [0%nat; 1%nat] -> alive [0%nat; 1%nat] i = true) /\
  stackHandle (list nat) alive (fun _ => true) handle [0%nat; 1%nat] [0%nat; 1%nat] = None.
Proof.
  exists (fun i w => if Nat.eqb i 0 then (false, [0%nat]) else (true, w)), (fun w i => existsb (Nat.eqb i) w).
  repeat split; auto. intros i [<-|[<-|[]]]; reflexivity.
Qed.
(** a function handler accepts exactly if a function was set, and then does what the function does *)
Theorem C35_function : forall f handled ops, functionHandle f = (handled, ops) ->
  (handled = true <-> f <> None) /\ (forall does, f = Some does -> ops = does) /\ (f = None -> ops = []).
Proof. intros [does|] handled ops H; injection H as <- <-; repeat split; try congruence. Qed.
(** three children: one declines, one is not a handler, one accepts *)
Example C35_case : let handle := fun i w => (Nat.eqb i 2, w ++ [i]) in let alive := fun (_ : list nat) (_ : nat) => true in
  keeps_children (list nat) alive handle [0; 1; 2; 3]%nat /\
  stackHandle (list nat) alive (fun i => negb (Nat.eqb i 1)) handle [0; 1; 2; 3]%nat [] = Some (true, [0; 2]%nat).
Proof. split; [|reflexivity]. intros i j w w' _ _ _ _. reflexivity. Qed.

(** ** C58: the log *)
Section C58.
  Variable shown : Type.
  Notation levent := (levent shown).
  Notation logRun := (logRun shown).
  (** connection i was offered to the log and not destroyed since *)
  Definition Watched (es : list levent) (i : nat) : Prop :=
    exists before x after, es = before ++ VHandle _ i x :: after /\ ~ In (VDestroyed _ i) after.
  (** the mode in force *)
  Definition mode_after (m : logmode) (es : list levent) : logmode :=
    fold_left (fun m e => match e with VMode _ m' => m' | _ => m end) es m.
  (** the lines an event adds *)
  Inductive NewLines (m : logmode) (es : list levent) : levent -> list (line shown) -> Prop :=
  | NL_handle i x : NewLines m es (VHandle _ i x) (match mode_after m es with Trace => [LBegin _ i x] | LogCompleted => [] end)
  | NL_completed i x : Watched es i -> NewLines m es (VCompleted _ i x) [LEnd _ i x]
  | NL_unknown i x : ~ Watched es i -> NewLines m es (VCompleted _ i x) []
  | NL_closed i x : Watched es i -> NewLines m es (VClosed _ i x) (match mode_after m es with Trace => [LClose _ i x] | LogCompleted => [] end)
  | NL_closed_unknown i x : ~ Watched es i -> NewLines m es (VClosed _ i x) []
  | NL_destroyed i : NewLines m es (VDestroyed _ i) []
  | NL_mode m' : NewLines m es (VMode _ m') [].

  Lemma has_iff i l : has i l = true <-> In i l.
  Proof.
    unfold has. rewrite existsb_exists. split; [intros (j & H & E); apply Nat.eqb_eq in E; now subst|intros H; exists i; split; auto; apply Nat.eqb_refl].
  Qed.
  Lemma without_in i j l : In j (without i l) <-> In j l /\ j <> i.
  Proof.
    unfold without. rewrite filter_In, negb_true_iff, Nat.eqb_neq. intuition.
  Qed.
  Lemma without_nodup i l : NoDup l -> NoDup (without i l).
  Proof. apply NoDup_filter. Qed.
  Lemma watched_snoc es e i : Watched (es ++ [e]) i <->
    match e with VHandle _ j _ => j = i \/ Watched es i | VDestroyed _ j => j <> i /\ Watched es i | _ => Watched es i end.
  Proof.
    assert (K : e <> VDestroyed _ i -> Watched es i -> Watched (es ++ [e]) i).
    { intros Ne (b & x & a & -> & N). exists b, x, (a ++ [e]). split; [now rewrite <- app_assoc|]. rewrite in_app_iff. cbn. intuition. }
    assert (B : Watched (es ++ [e]) i -> (exists x, e = VHandle _ i x) \/ (e <> VDestroyed _ i /\ Watched es i)).
    { intros (b & x & a & E & N). destruct (rev a) as [|z a'] eqn:R.
      - assert (a = []) by (rewrite <- (rev_involutive a), R; reflexivity). subst a. apply app_inj_tail in E as (_ & E). left. eauto.
      - assert (Ea : a = rev a' ++ [z]) by (rewrite <- (rev_involutive a), R; reflexivity). subst a.
        rewrite app_comm_cons, app_assoc in E. apply app_inj_tail in E as (E & <-). right. rewrite in_app_iff in N. cbn in N. split; [intuition|].
        exists b, x, (rev a'). split; auto. }
    split.
    - intros H. apply B in H as [(x & ->)|(Ne & H)]; auto. destruct e as [j x|j x|j x|j|m']; auto; try (split; [congruence|auto]).
    - destruct e as [j x|j x|j x|j|m']; intros H; try (apply K; [discriminate|auto]; fail).
      + destruct H as [->|H]; [|apply K; [discriminate|auto]]. exists es, x, []. auto.
      + destruct H as (H1 & H2). apply K; [congruence|auto].
  Qed.
  Lemma mode_snoc m es e : mode_after m (es ++ [e]) = match e with VMode _ m' => m' | _ => mode_after m es end.
  Proof. unfold mode_after. rewrite fold_left_app. reflexivity. Qed.
  Record logInv (m : logmode) (es : list levent) (s : logst shown) : Prop := mkLI {
    li_t : forall i, In i (timers _ s) <-> Watched es i; li_s : forall i, In i (subs _ s) <-> Watched es i;
    li_n : NoDup (subs _ s); li_m : lmode _ s = mode_after m es }.
  Lemma count_watched m es s i : logInv m es s ->
    (has i (timers _ s) = true /\ count_occ Nat.eq_dec (subs _ s) i = 1%nat /\ Watched es i) \/
    (has i (timers _ s) = false /\ count_occ Nat.eq_dec (subs _ s) i = 0%nat /\ ~ Watched es i).
  Proof.
    intros [Ht Hs Hn Hm]. destruct (has i (timers _ s)) eqn:E.
    - left. split; auto. apply has_iff in E. apply Ht in E. split; auto. apply Hs in E.
      pose proof (proj1 (NoDup_count_occ Nat.eq_dec (subs _ s)) Hn i). apply (count_occ_In Nat.eq_dec) in E. lia.
    - right. assert (N : ~ Watched es i) by (intros W; apply Ht in W; apply has_iff in W; congruence). split; auto. split; auto.
      apply count_occ_not_In. intros H. apply N. now apply Hs.
  Qed.
  Lemma log_step m es s e : logInv m es s -> logInv m (es ++ [e]) (logStep _ s e) /\
    forall ls, NewLines m es e ls -> lines _ (logStep _ s e) = lines _ s ++ ls.
  Proof.
    intros I. pose proof I as [Ht Hs Hn Hm]. destruct e as [i x|i x|i x|i|m']; cbn [logStep].
    - unfold logHandle. cbn [snd]. split.
      + assert (Q : logInv m (es ++ [VHandle _ i x]) (if has i (timers _ s) then s else mkLog _ (i :: timers _ s) (i :: subs _ s) (lines _ s) (lmode _ s))).
        { destruct (has i (timers _ s)) eqn:E.
          - apply has_iff in E. constructor; auto; try (rewrite mode_snoc; auto); intros j; rewrite watched_snoc.
            + rewrite <- Ht. intuition. now subst.
            + rewrite <- Hs. intuition. subst. apply Hs. now apply Ht.
          - assert (N : ~ In i (timers _ s)) by (intros H; apply has_iff in H; congruence). constructor; cbn; try (rewrite mode_snoc; auto); try (intros j; rewrite watched_snoc).
            + rewrite Ht. intuition.
            + rewrite Hs. intuition.
            + constructor; auto. rewrite Hs, <- Ht. auto. }
        destruct (has i (timers _ s)); cbn in *; destruct (lmode _ s); auto; destruct Q as [Q1 Q2 Q3 Q4]; constructor; auto.
      + intros ls NL. inversion NL; subst. rewrite <- Hm. destruct (has i (timers _ s)); cbn; destruct (lmode _ s); cbn; auto; now rewrite app_nil_r.
    - destruct (count_watched m es s i I) as [(E1 & E2 & E3)|(E1 & E2 & E3)]; rewrite E2; cbn [times Nat.iter nat_rect].
      + unfold requestCompleted. rewrite E1. split.
        * constructor; cbn; auto; try (rewrite mode_snoc; auto); intros j; rewrite watched_snoc; auto.
        * intros ls NL. inversion NL; subst; auto; contradiction.
      + split; [constructor; auto; try (rewrite mode_snoc; auto); intros j; rewrite watched_snoc; auto|].
        intros ls NL. inversion NL; subst; [contradiction|now rewrite app_nil_r].
    - destruct (count_watched m es s i I) as [(E1 & E2 & E3)|(E1 & E2 & E3)]; rewrite E2; cbn [times Nat.iter nat_rect].
      + unfold requestClosed. rewrite E1. split.
        * destruct (lmode _ s) eqn:M; constructor; cbn; auto; try (rewrite mode_snoc, ?M; auto); intros j; rewrite watched_snoc; auto.
        * intros ls NL. inversion NL; subst; [|contradiction]. rewrite <- Hm. destruct (lmode _ s); cbn; auto. now rewrite app_nil_r.
      + split; [constructor; auto; try (rewrite mode_snoc; auto); intros j; rewrite watched_snoc; auto|].
        intros ls NL. inversion NL; subst; [contradiction|now rewrite app_nil_r].
    - destruct (count_watched m es s i I) as [(E1 & E2 & E3)|(E1 & E2 & E3)]; rewrite E2; cbn [times Nat.iter nat_rect requestDestroyed timers subs lines lmode].
      + split.
        * constructor; cbn; try (rewrite mode_snoc; auto); try (apply without_nodup; auto); intros j; rewrite watched_snoc, without_in; [rewrite Ht|rewrite Hs]; intuition.
        * intros ls NL. inversion NL. now rewrite app_nil_r.
      + split.
        * constructor; cbn; try (rewrite mode_snoc; auto); try (apply without_nodup; auto); intros j; rewrite watched_snoc, ?without_in; [rewrite Ht|rewrite Hs]; intuition; subst; contradiction.
        * intros ls NL. inversion NL. now rewrite app_nil_r.
    - split; [constructor; cbn; auto; try (rewrite mode_snoc; auto); intros j; rewrite watched_snoc; auto|].
      intros ls NL. inversion NL. cbn. now rewrite app_nil_r.
  Qed.
  Lemma log_inv m es : logInv m es (logRun m es).
  Proof.
    induction es as [|e es IH] using rev_ind.
    - constructor; cbn; auto; try constructor; try contradiction; intros (b & x & a & E & _); destruct b; discriminate.
    - unfold Handlers.logRun. rewrite fold_left_app. cbn [fold_left]. apply log_step. exact IH.
  Qed.
  (** every event adds exactly its lines *)
  Theorem C58_log_lines : forall m es e, exists ls, NewLines m es e ls /\ lines _ (logRun m (es ++ [e])) = lines _ (logRun m es) ++ ls.
  Proof.
    intros m es e. assert (X : exists ls, NewLines m es e ls).
    { destruct e as [i x|i x|i x|i|m']; try (eexists; constructor; fail);
        destruct (count_watched m es _ i (log_inv m es)) as [(_ & _ & H)|(_ & _ & H)]; eexists; econstructor; eauto; fail. }
    destruct X as (ls & X). exists ls. split; auto. unfold Handlers.logRun. rewrite fold_left_app. cbn [fold_left].
    now apply (log_step m es _ e (log_inv m es)).
  Qed.
  Theorem C58_never_accepts : forall i x s, fst (logHandle shown i x s) = false.
  Proof. reflexivity. Qed.
  (** two requests on one connection: one line each, although the request was offered twice *)
  Example C58_case : forall x y : shown, lines _ (logRun LogCompleted [VHandle _ 7%nat x; VCompleted _ 7%nat x; VHandle _ 7%nat y; VCompleted _ 7%nat y; VClosed _ 7%nat y; VDestroyed _ 7%nat; VCompleted _ 7%nat y]) =
    [LEnd _ 7%nat x; LEnd _ 7%nat y].
  Proof. reflexivity. Qed.
End C58.

(** ** C41: only files under the public path *)
Lemma startsWith_iff p : forall s, startsWith s p = true <-> exists rest, s = p ++ rest.
Proof.
  induction p as [|c p IH]; intros s; cbn [startsWith].
  - split; [intros _; exists s; reflexivity|intros _; reflexivity].
  - destruct s as [|d s]; [split; [discriminate|intros (rest & [=])]|].
    rewrite andb_true_iff, Ascii.eqb_eq, IH. split.
    + intros (-> & rest & ->). now exists rest.
    + intros (rest & [= -> ->]). split; auto. now exists rest.
Qed.
(** a canonical path is inside of the directory whose canonical path is dir *)
Definition Inside (dir p : bytes) : Prop := exists rest, p = dir ++ lit "/" ++ rest \/ dir = lit "/" /\ p = dir ++ rest.
Definition opened (es : list feffect) (p : bytes) : Prop := In (FOpen p) es.

Section C41.
  Variables (dec digest : bytes -> bytes).
  Notation fileHandle := (fileHandle dec digest).
  (** the public path as set by setPublicPath(dir) *)
  Definition public (F : fs) (dir : bytes) : bytes := setPublicPath F [] dir.

  Lemma fileHandle_open F F' pub n path hs b es p : fileHandle F F' pub n path hs = (b, es) -> opened es p ->
    pub <> [] /\ b = true /\ p = pub ++ dec (qt_percent path) /\ f_exists F p = true /\ f_isfile F p = true /\ exists rest, f_canon F p = pub ++ rest.
  Proof.
    unfold Handlers.fileHandle. destruct pub as [|x pub']; [intros [= <- <-] []|]. set (pub := x :: pub').
    destruct (f_exists F _) eqn:E1; cbn [negb]; [|intros [= <- <-] []].
    destruct (startsWith _ _) eqn:E2; cbn [negb]; [|intros [= <- <-] []].
    destruct (f_isfile F _) eqn:E3; cbn [negb]; [|intros [= <- <-] []].
    intros [= <- <-] O. assert (P : p = pub ++ dec (qt_percent path)).
    { destruct O as [[= <-]|O]; auto. exfalso. revert O. destruct (f_open F' _) as [ct|]; [destruct (blen ct <=? n); [destruct (beqb _ _)|]|]; cbn; intuition congruence. }
    subst p. split; [discriminate|]. split; auto. split; auto. split; auto. split; auto. now apply startsWith_iff.
  Qed.
  (** Every file opened has a canonical path that begins with the text of the public path; so it is inside of the public
      directory, unless its path goes through a sibling whose name begins with the name of the public directory. *)
  Theorem C41_containment_partial : forall F dir n path hs b es p, fileHandle F F (public F dir) n path hs = (b, es) -> opened es p ->
    f_isfile F p = true /\ (exists rest, f_canon F p = f_canon F dir ++ rest) /\
    ((forall q, f_exists F q = true -> (exists rest, f_canon F q = f_canon F dir ++ rest) -> f_canon F q = f_canon F dir \/ Inside (f_canon F dir) (f_canon F q)) ->
     f_canon F p = f_canon F dir \/ Inside (f_canon F dir) (f_canon F p)).
  Proof.
    intros F dir n path hs b es p H O. assert (D : public F dir = f_canon F dir \/ public F dir = []).
    { unfold public, setPublicPath. destruct (beqb [] dir); auto. destruct dir; auto. }
    destruct (fileHandle_open _ _ _ _ _ _ _ _ _ H O) as (N & _ & _ & E1 & E2 & R). destruct D as [D|D]; [|contradiction]. rewrite D in R.
    split; auto.
  Qed.
  (** A public path that does not exist (canonicalFilePath() is then empty), or is empty, serves nothing. *)
  Theorem C41_nothing_public : forall F F' dir n path hs, dir = [] \/ f_canon F dir = [] -> fileHandle F F' (public F dir) n path hs = (false, []).
  Proof.
    intros F F' dir n path hs H. replace (public F dir) with (@nil ascii); [reflexivity|]. unfold public, setPublicPath.
    destruct (beqb [] dir); auto. destruct dir; auto. destruct H as [[=]|H]; auto.
  Qed.
End C41.

(** a file system: paths are normalised by removing empty and "." segments and resolving ".." *)
Fixpoint split_slash (cur : bytes) (s : bytes) : list bytes :=
  match s with
  | [] => [rev cur]
  | c :: t => if Ascii.eqb c "/" then rev cur :: split_slash [] t else split_slash (c :: cur) t
  end.
Definition norm_segs (s : bytes) : list bytes :=
  rev (fold_left (fun acc seg => if beqb seg [] || beqb seg (lit ".") then acc else if beqb seg (lit "..") then tl acc else seg :: acc) (split_slash [] s) []).
Definition path_of (segs : list bytes) : bytes := match segs with [] => lit "/" | _ => concat (map (fun s => lit "/" ++ s) segs) end.
Definition norm (p : bytes) : bytes := path_of (norm_segs p).
Definition lookup (files : list (bytes * bytes)) (p : bytes) : option bytes := option_map snd (find (fun f => beqb (fst f) p) files).
(** files: canonical paths and contents; dirs: canonical paths *)
Definition plain_fs (dirs : list bytes) (files : list (bytes * bytes)) : fs :=
  let ex p := existsb (beqb (norm p)) dirs || match lookup files (norm p) with Some _ => true | None => false end in
  mkFs ex (fun p => if ex p then norm p else []) (fun p => match lookup files (norm p) with Some _ => true | None => false end)
    (fun p => lookup files (norm p)).
Definition demo_fs : fs := plain_fs [lit "/"; lit "/srv"; lit "/srv/www"; lit "/srv/www-private"]
  [(lit "/srv/www/index.html", lit "hello"); (lit "/srv/www-private/secret", lit "key"); (lit "/srv/other", lit "other")].
(** GET /../www-private/secret opens a file outside of the public directory /srv/www *)
Theorem C41_sibling_refuted : forall digest, exists path b es p,
  fileHandle (fun x => x) digest demo_fs demo_fs (public demo_fs (lit "/srv/www")) 100 path [] = (b, es) /\ opened es p /\
  f_canon demo_fs (lit "/srv/www") = lit "/srv/www" /\ f_canon demo_fs p = lit "/srv/www-private/secret" /\
  ~ Inside (lit "/srv/www") (f_canon demo_fs p) /\
  (digest (lit "key") <> [] -> In (FOp (OpWriteResponse 200 [(lit "Content-Type", lit "application/octet-stream"); (lit "ETag", digest (lit "key"))] (lit "key"))) es).
Proof.
  intros digest. exists (lit "/%2e%2e/www-private/secret"). eexists _, _, (lit "/srv/www/../www-private/secret"). split; [reflexivity|].
  split; [left; vm_compute; reflexivity|]. split; [vm_compute; reflexivity|]. split; [vm_compute; reflexivity|]. split.
  - replace (f_canon demo_fs (lit "/srv/www/../www-private/secret")) with (lit "/srv/www-private/secret") by (vm_compute; reflexivity).
    intros (rest & [E|(E & _)]); discriminate.
  - intros N. right. vm_compute. destruct (digest _); [contradiction|]. left. reflexivity.
Qed.
(** the file checked and the file opened can be different ones if the file system changes in between *)
Theorem C41_race_refuted : forall digest, exists F F' b es p,
  fileHandle (fun x => x) digest F F' (public F (lit "/srv/www")) 100 (lit "/index.html") [] = (b, es) /\ opened es p /\
  ~ Inside (lit "/srv/www") (f_canon F' p).
Proof.
  intros digest. exists demo_fs, (mkFs (fun _ => true) (fun _ => lit "/etc/passwd") (fun _ => true) (fun _ => Some [])).
  eexists _, _, (lit "/srv/www/index.html"). split; [reflexivity|]. split; [left; vm_compute; reflexivity|].
  cbn. intros (rest & [E|(E & _)]); discriminate.
Qed.
(** other escapes are refused, files inside are served *)
Example C41_case : forall digest,
  fileHandle (fun x => x) digest demo_fs demo_fs (public demo_fs (lit "/srv/www")) 100 (lit "/../other") [] = (false, []) /\
  opened (snd (fileHandle (fun x => x) digest demo_fs demo_fs (public demo_fs (lit "/srv/www")) 100 (lit "/./index.html") [])) (lit "/srv/www/./index.html").
Proof. intros digest. split; [reflexivity|]. left. reflexivity. Qed.

(** ** C42: ETags *)
Section C42.
  Variables (dec digest : bytes -> bytes).
  (** MD5 sums in hexadecimal are not empty *)
  Hypothesis digest_text : forall content, digest content <> [].
  Notation fileHandle := (fileHandle dec digest).
  Definition header_is (hs : list header) (name : string) (v : bytes) : Prop := first_named name hs = Some v.
  (** the file asked for: accepted by the checks, readable *)
  Definition served (F F' : fs) (pub path p content : bytes) : Prop :=
    p = pub ++ dec (qt_percent path) /\ pub <> [] /\ f_exists F p = true /\ f_isfile F p = true /\ (exists rest, f_canon F p = pub ++ rest) /\ f_open F' p = Some content.

  Lemma if_none_match hs v : header_is hs "if-none-match" v -> getFieldValue hs (lit "If-None-Match") = v.
  Proof.
    unfold header_is, first_named, getFieldValue. induction hs as [|(f, w) hs IH]; cbn [filter find_field]; [discriminate|].
    unfold named at 1. cbn [fst]. destruct (asciiEqualsCI f (lit "If-None-Match")) eqn:E.
    - apply asciiEqualsCI_iff in E. rewrite E. change (beqb (lower (lit "If-None-Match")) (lit "if-none-match")) with true.
      cbv iota. cbn [snd]. intros [= <-]. reflexivity.
    - replace (beqb (lower f) (lit "if-none-match")) with false; [auto|]. symmetry. apply beqb_false. intros H.
      assert (X : asciiEqualsCI f (lit "If-None-Match") = true) by (apply asciiEqualsCI_iff; now rewrite H). congruence.
  Qed.
  Lemma no_if_none_match hs : first_named "if-none-match" hs = None -> getFieldValue hs (lit "If-None-Match") = [].
  Proof.
    unfold first_named, getFieldValue. induction hs as [|(f, w) hs IH]; cbn [filter find_field]; auto.
    unfold named at 1. cbn [fst]. destruct (asciiEqualsCI f (lit "If-None-Match")) eqn:E.
    - apply asciiEqualsCI_iff in E. rewrite E. change (beqb (lower (lit "If-None-Match")) (lit "if-none-match")) with true. discriminate.
    - replace (beqb (lower f) (lit "if-none-match")) with false; [auto|]. symmetry. apply beqb_false. intros H.
      assert (X : asciiEqualsCI f (lit "If-None-Match") = true) by (apply asciiEqualsCI_iff; now rewrite H). congruence.
  Qed.
  Lemma served_handle F F' pub n path hs p content : served F F' pub path p content ->
    fileHandle F F' pub n path hs = (true, FOpen p ::
      if blen content <=? n
      then if beqb (getFieldValue hs (lit "If-None-Match")) (digest content) then [FOp (OpWriteResponse 304 [] [])]
           else [FOp (OpWriteResponse 200 [(lit "Content-Type", mimeType (dec (qt_percent path))); (lit "ETag", digest content)] content)]
      else [FOp (OpWriteHeaders 200 [(lit "Content-Type", mimeType (dec (qt_percent path))); (lit "Content-Length", number (blen content))]); FTransfer content n]).
  Proof.
    intros (-> & Np & E1 & E2 & E3 & E4). apply startsWith_iff in E3. unfold Handlers.fileHandle. destruct pub as [|x pub']; [contradiction|].
    rewrite E1, E2, E3, E4. cbn [negb]. reflexivity.
  Qed.
  (** A file that fits in the buffer: 304 without content if the request carries the ETag of the content, else 200 with the
      whole content and its ETag. *)
  Theorem C42_small_files_partial : forall F F' pub n path hs p content, served F F' pub path p content -> blen content <= n ->
    (header_is hs "if-none-match" (digest content) -> fileHandle F F' pub n path hs = (true, [FOpen p; FOp (OpWriteResponse 304 [] [])])) /\
    (~ header_is hs "if-none-match" (digest content) -> exists rh, fileHandle F F' pub n path hs = (true, [FOpen p; FOp (OpWriteResponse 200 rh content)]) /\
       header_is rh "etag" (digest content)).
  Proof.
    intros F F' pub n path hs p content S L. rewrite (served_handle _ _ _ n _ hs _ _ S). replace (blen content <=? n) with true by (symmetry; now apply Z.leb_le). split.
    - intros H. apply if_none_match in H. rewrite H. replace (beqb (digest content) (digest content)) with true by (symmetry; now apply beqb_true). reflexivity.
    - intros H. assert (N : beqb (getFieldValue hs (lit "If-None-Match")) (digest content) = false).
      { apply beqb_false. intros E. destruct (first_named "if-none-match" hs) as [v|] eqn:Ef.
        - rewrite (if_none_match _ _ Ef) in E. subst v. now apply H.
        - rewrite (no_if_none_match _ Ef) in E. symmetry in E. now apply digest_text in E. }
      rewrite N. eexists. split; [reflexivity|]. reflexivity.
  Qed.
  (** Sending back the ETag of an answer: 304 as long as the content is the same, the new content once its sum is another. *)
  Theorem C42_revalidate : forall F F' pub n path hs p rh content etag, fileHandle F F' pub n path hs = (true, [FOpen p; FOp (OpWriteResponse 200 rh content)]) ->
    header_is rh "etag" etag ->
    forall F2 F2' hs' content', served F2 F2' pub path p content' -> blen content' <= n -> header_is hs' "if-none-match" etag ->
    (content' = content -> fileHandle F2 F2' pub n path hs' = (true, [FOpen p; FOp (OpWriteResponse 304 [] [])])) /\
    (digest content' <> digest content -> exists rh', fileHandle F2 F2' pub n path hs' = (true, [FOpen p; FOp (OpWriteResponse 200 rh' content')]) /\
       header_is rh' "etag" (digest content')).
  Proof.
    intros F F' pub n path hs p rh content etag H HE F2 F2' hs' content' S L HI.
    assert (X : served F F' pub path p content /\ rh = [(lit "Content-Type", mimeType (dec (qt_percent path))); (lit "ETag", digest content)]).
    { assert (O : opened [FOpen p; FOp (OpWriteResponse 200 rh content)] p) by (left; auto).
      destruct (fileHandle_open _ _ _ _ _ _ _ _ _ _ _ H O) as (Np & _ & Ep & E1 & E2 & E3).
      destruct (f_open F' p) as [ct|] eqn:Eo.
      - assert (S' : served F F' pub path p ct) by (repeat split; auto). rewrite (served_handle _ _ _ n _ hs _ _ S') in H.
        destruct (blen ct <=? n); [|discriminate]. destruct (beqb _ _); [discriminate|]. injection H as <- <-. auto.
      - exfalso. unfold Handlers.fileHandle in H. subst p. apply startsWith_iff in E3. destruct pub as [|x pub']; [contradiction|].
        rewrite E1, E2, E3, Eo in H. cbn [negb] in H. discriminate. }
    destruct X as (S' & ->). assert (etag = digest content) as -> by (cbv in HE; injection HE; auto).
    destruct (C42_small_files_partial _ _ _ n _ hs' _ _ S L) as (A & B). split.
    - intros ->. auto.
    - intros Ne. apply B. unfold header_is in *. congruence.
  Qed.
End C42.
(** A file larger than the buffer never gets an ETag, and If-None-Match is ignored. *)
Theorem C42_large_refuted : forall dec digest F F' pub n path hs p content, served dec F F' pub path p content -> n < blen content ->
  exists rh, fileHandle dec digest F F' pub n path hs = (true, [FOpen p; FOp (OpWriteHeaders 200 rh); FTransfer content n]) /\ first_named "etag" rh = None.
Proof.
  intros dec digest F F' pub n path hs p content S L. rewrite (served_handle dec digest _ _ _ n _ hs _ _ S).
  replace (blen content <=? n) with false by (symmetry; now apply Z.leb_gt). eexists. split; reflexivity.
Qed.
Example C42_case : served (fun x => x) demo_fs demo_fs (lit "/srv/www") (lit "/index.html") (lit "/srv/www/index.html") (lit "hello") /\
  header_is [(lit "Host", lit "x"); (lit "IF-none-Match", lit "abc")] "if-none-match" (lit "abc").
Proof.
  split; [|reflexivity]. repeat split; try reflexivity; try discriminate. exists (lit "/index.html"). vm_compute. reflexivity.
Qed.
