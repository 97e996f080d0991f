(** The parser fed segment by segment. *)
From Verif Require Import Bytes ByteHelpers Helpers Joyent RespParser RespInv RespSplit RespSpec.
Open Scope Z_scope.

Record UOk (r : rparser) : Prop := mkUOk {
  uo_p : r_parsing r = false;
  uo_np : h_errno (r_h r) <> HPE_PAUSED;
  uo_h : h_errno (r_h r) = HPE_OK -> HOk (r_h r) }.

Lemma execute_run r d : UOk r -> h_errno (r_h r) = HPE_OK -> d <> [] ->
  execute (rset_parsing true r) d = J (rset_parsing true r) (jstart d (r_h r)).
Proof.
  intros [A B C] E D. unfold execute. rsimp. rewrite E. cbn [is_ok negb]. destruct d as [|c d]; [congruence|].
  unfold J. apply jrun_fuel; rsimp.
  - apply jstart_ok; auto.
  - unfold mu, jstart. cbn [l_data l_re]. lia.
  - lia.
Qed.

Lemma jrun_parsing f r l r' er : jrun f r l = Some (r', er) -> r_parsing r' = r_parsing r.
Proof.
  revert r l. induction f as [|f IH]; intros r l; cbn [jrun]; [discriminate|].
  destruct (jstep (r_h r) l) as [h l'|c h l' e|h e|]; try discriminate.
  - intros H. apply IH in H. exact H.
  - assert (P : r_parsing (on_cb c (rset_h h r)) = r_parsing r).
    { destruct c; cbn; unfold pushHeader; rsimp; destruct (r_lwv r); reflexivity. }
    destruct (is_ok _); intros H.
    + apply IH in H. congruence.
    + inversion H; subst. exact P.
  - intros H; inversion H; subst. reflexivity.
Qed.

Lemma runpause_h r : h_errno (r_h (runpause r)) <> HPE_PAUSED /\
  (h_errno (r_h r) <> HPE_PAUSED -> runpause r = r) /\
  (h_errno (r_h r) = HPE_PAUSED -> HOk (r_h r) -> h_errno (r_h (runpause r)) = HPE_OK /\ HOk (r_h (runpause r))).
Proof.
  unfold runpause. destruct (h_errno (r_h r)) eqn:E; rsimp; hsimp; rewrite ?E; repeat split; try congruence; try discriminate.
  all: match goal with H : HOk _ |- _ => destruct H end; tauto.
Qed.

(** shorter is what is left, unless there was an error *)
Lemma jstep_left r l : JOk (r_h r) l -> l_data l <> [] ->
  match mstep r l with
  | OGo r' l' => (length (l_data l') <= length (l_data l))%nat
  | ORet r' er => h_errno (r_h r') = HPE_PAUSED -> (length er < length (l_data l))%nat
  | OAssert => True
  end.
Proof.
  intros HJ D. pose proof (jo_errno _ _ HJ) as Eo. destruct l as [d f v b re]; cbn [l_data] in *. destruct d as [|ch d]; [congruence|].
  unfold mstep, jstep. cbn [l_data l_re].
  assert (G : forall h, h_errno h = HPE_OK ->
    match after r (jbyte ch h (mkL (ch :: d) f v b re)) with
    | OGo r' l' => (length (l_data l') <= length (ch :: d))%nat
    | ORet r' er => h_errno (r_h r') = HPE_PAUSED -> (length er < length (ch :: d))%nat
    | OAssert => True end).
  { intros h He. unfold jbyte. cbn [l_data l_field l_value l_body l_re].
    destruct (h_state h) eqn:S;
    repeat match goal with
    | |- context[match TOKEN ?x with _ => _ end] => destruct (TOKEN x)
    | |- context[match field_step ?x ?y ?z with _ => _ end] => destruct (field_step x y z) as [[? ?]|]
    | |- context[match value_first ?x ?y with _ => _ end] => destruct (value_first x y)
    | |- context[match value_step ?x ?y with _ => _ end] => destruct (value_step x y)
    | |- context[if ?x then _ else _] => destruct x eqn:?
    end; unfold data_field, data_value, data_body, notify, err, brk, reexec;
    cbn [l_data l_field l_value l_body l_re mark_value mark_field];
    destruct f, v, b; cbn [mark after advance again no_field no_value no_body l_data];
    rewrite ?on_cb_h by discriminate; rsimp; hsimp; rewrite ?He; cbn [is_ok];
    rewrite ?skipn_length; cbn [length tl]; try lia; try discriminate; auto.
    all: try match goal with |- match (if ?x then _ else _) with _ => _ end => destruct x end; cbn [l_data length tl]; auto; try lia.
    all: rewrite skipn_length; cbn [length]; lia. }
  destruct re; [apply G; auto|].
  destruct (parsing_header (h_state (r_h r))); [|apply G; auto].
  match goal with |- context[if ?x then _ else _] => destruct x eqn:? end; [cbn; discriminate|]. apply G; hsimp; auto.
Qed.

Lemma J_left : forall n r l r' er, (mu (r_h r) l <= n)%nat -> JOk (r_h r) l -> l_data l <> [] -> J r l = Some (r', er) ->
  h_errno (r_h r') = HPE_PAUSED -> (length er < length (l_data l))%nat.
Proof.
  induction n as [n IH] using lt_wf_ind; intros r l r' er Hn HJ D.
  rewrite J_step by auto. pose proof (mstep_inv _ _ HJ D) as I. pose proof (jstep_left _ _ HJ D) as L.
  destruct (mstep r l) as [r1 l1|r1 e1|]; [| |destruct I].
  - destruct I as [I1 I2]. destruct (list_eq_dec ascii_dec (l_data l1) []) as [D1|D1].
    + rewrite J_end by auto. intros H; inversion H; subst. cbn. destruct (l_data l); [congruence|cbn; lia].
    + intros H P. assert (length er < length (l_data l1))%nat; [|lia]. eapply (IH (mu (r_h r1) l1)); eauto; lia.
  - intros H; inversion H; subst. auto.
Qed.

(** one call of inject *)
Lemma inject_total r d : UOk r -> d <> [] -> exists r1 n, inject r d = Some (r1, n) /\ UOk r1 /\
  (hasError r1 = false -> 0 < n <= blen d).
Proof.
  intros U D. unfold inject. rewrite (uo_p _ U).
  destruct (is_ok (h_errno (r_h r))) eqn:O.
  - apply is_ok_true in O. rewrite execute_run by auto.
    assert (HJ : JOk (r_h (rset_parsing true r)) (jstart d (r_h r))) by (rsimp; apply jstart_ok; auto; apply (uo_h _ U); auto).
    destruct (J_total _ _ _ (le_n _) HJ) as (r' & er & E & H1 & H2). rewrite E.
    destruct (runpause_h r') as (R1 & R2 & R3).
    eexists _, _. split; [reflexivity|]. split.
    + constructor; rsimp; auto. intros O'. destruct (h_errno (r_h r')) eqn:Q;
      try (rewrite R2 in * by congruence; congruence).
      * rewrite R2 by congruence. apply H1; auto.
      * apply R3; auto.
    + intros NE. assert (length er < length d)%nat; [|unfold blen; lia].
      destruct (h_errno (r_h r')) eqn:Q;
      try (unfold hasError in NE; rsimp in *; rewrite R2 in NE by congruence; rewrite Q in NE; discriminate).
      * destruct H1 as [_ ->]; auto. destruct d; [congruence|cbn; lia].
      * exact (J_left _ _ _ _ _ (le_n _) HJ D E Q).
  - unfold execute. rsimp. rewrite O. cbn [negb]. eexists _, _. split; [reflexivity|].
    destruct (runpause_h (rset_parsing true r)) as (R1 & R2 & R3). pose proof (uo_np _ U) as NP.
    rewrite R2 in * by exact NP.
    split.
    + constructor; rsimp; auto. apply (uo_h _ U).
    + unfold hasError. rsimp. destruct (h_errno (r_h r)) eqn:Q; try discriminate; rewrite ?Q in *; try discriminate; congruence.
Qed.

Lemma inject_eof_ok r r' n : UOk r -> inject r [] = Some (r', n) -> UOk r'.
Proof.
  intros U. unfold inject. rewrite (uo_p _ U). unfold execute. rsimp.
  destruct (is_ok (h_errno (r_h r))) eqn:O; cbn [negb].
  - apply is_ok_true in O. pose proof (uo_h _ U O) as H.
    unfold jeof.
    destruct (h_state (r_h r)) eqn:S; intros E; inversion E; subst; clear E; rewrite ?rset_h_id;
      unfold runpause, on_cb, hpause; rsimp; hsimp; rewrite ?O; constructor; rsimp; hsimp; rewrite ?O; try congruence; try discriminate; auto.
  - intros E; inversion E; subst. destruct (runpause_h (rset_parsing true r)) as (R1 & R2 & R3). pose proof (uo_np _ U) as NP.
    rewrite R2 by exact NP. constructor; rsimp; auto. apply (uo_h _ U).
Qed.

Lemma HOk_init : HOk hinit.
Proof. split; [cbn; unfold ULLONG_MAX; lia|exact I]. Qed.
Lemma usable_ok r : usable r -> UOk r.
Proof.
  induction 1 as [|r seg r' n _ U E|r r' _ U E|r _ U].
  - unfold rfresh, rclear. rsimp. constructor; rsimp; try discriminate; auto. intros _; apply HOk_init.
  - destruct seg as [|c seg]; [eapply inject_eof_ok; eauto|].
    destruct (inject_total r (c :: seg) U) as (r1 & m & E1 & U1 & _); [discriminate|]. congruence.
  - unfold injectEof in E. rewrite (uo_p _ U) in E. destruct (inject r []) as [[r1 n]|] eqn:E1; [|discriminate].
    inversion E; subst. eapply inject_eof_ok; eauto.
  - unfold rclear. rsimp. rewrite (uo_p _ U). constructor; rsimp; try discriminate; auto; try apply (uo_p _ U). intros _; apply HOk_init.
Qed.

Lemma UOk_ok r : UOk r -> hasError r = false -> h_errno (r_h r) = HPE_OK.
Proof. intros [_ N _]. unfold hasError. destruct (h_errno (r_h r)); congruence. Qed.

Lemma inject_error r d : UOk r -> hasError r = true -> d <> [] -> exists n, inject r d = Some (r, n).
Proof.
  intros [P N H] E D. unfold inject, execute. rewrite P. rsimp. destruct (h_errno (r_h r)) eqn:Q; cbn [is_ok negb];
  unfold hasError in E; rewrite Q in E; try discriminate; unfold runpause; rsimp; rewrite Q; eexists; f_equal; f_equal;
  destruct r; cbn in *; subst; reflexivity.
Qed.

(** nothing completes in a run that does not stop *)
Lemma on_cb_log c r : c <> CbComplete -> exists l, r_log (on_cb c r) = r_log r ++ l /\ ~ In RComplete l.
Proof.
  intros N. destruct c as [|b|b| |b|]; [| | | | |congruence]; cbn [on_cb].
  - exists [RBegin]; split; auto; intros [?|[]]; discriminate.
  - exists []. rewrite app_nil_r. unfold pushHeader. destruct (r_lwv r); auto.
  - exists []. rewrite app_nil_r. auto.
  - unfold pushHeader; destruct (r_lwv r); (eexists [_]; split; [reflexivity|]; intros [?|[]]; discriminate).
  - exists (map RByte b). split; auto. intros H. apply in_map_iff in H as (? & ? & _). discriminate.
Qed.
Lemma J_nocomplete : forall n r l r' er, (mu (r_h r) l <= n)%nat -> JOk (r_h r) l -> J r l = Some (r', er) -> h_errno (r_h r') = HPE_OK ->
  exists lg, r_log r' = r_log r ++ lg /\ ~ In RComplete lg.
Proof.
  induction n as [n IH] using lt_wf_ind; intros r l r' er Hn HJ E O.
  destruct (list_eq_dec ascii_dec (l_data l) []) as [D|D].
  - rewrite J_end in E by auto. injection E as <- <-. unfold eff.
    assert (G : forall (m : option bytes) (k : bytes -> cb) r0, (forall b, k b <> CbComplete) -> exists lg, r_log (match m with Some b => on_cb (k b) r0 | None => r0 end) = r_log r0 ++ lg /\ ~ In RComplete lg).
    { intros [b|] k r0 K; [apply on_cb_log; auto|exists []; rewrite app_nil_r; auto]. }
    destruct (G (l_field l) CbField r) as (l1 & E1 & N1); [discriminate|].
    set (r1 := match l_field l with Some b => on_cb (CbField b) r | None => r end) in *.
    destruct (G (l_value l) CbValue r1) as (l2 & E2 & N2); [discriminate|].
    set (r2 := match l_value l with Some b => on_cb (CbValue b) r1 | None => r1 end) in *.
    destruct (G (l_body l) CbBody r2) as (l3 & E3 & N3); [discriminate|].
    exists (l1 ++ l2 ++ l3). rewrite E3, E2, E1, !app_assoc. split; auto. rewrite !in_app_iff. tauto.
  - rewrite J_step in E by auto. pose proof (mstep_inv _ _ HJ D) as I. unfold mstep, after in *.
    destruct (jstep (r_h r) l) as [h l'|c h l' e|h e|] eqn:Js.
    + destruct I as [I1 I2]. destruct (IH (mu (r_h (rset_h h r)) l')) with (r := rset_h h r) (l := l') (r' := r') (er := er) as (lg & E1 & N1); auto; [lia|].
      exists lg. auto.
    + destruct (is_ok (h_errno (r_h (on_cb c (rset_h h r))))) eqn:K.
      * destruct I as [I1 I2]. destruct (IH (mu (r_h (on_cb c (rset_h h r))) l')) with (r := on_cb c (rset_h h r)) (l := l') (r' := r') (er := er) as (lg & E1 & N1); auto; [lia|].
        destruct (jok_step r l HJ D h l') as [_ G]. destruct (G _ _ Js) as [G1 _].
        assert (Nc : c <> CbComplete) by (intros ->; cbn in K; unfold hpause in K; rsimp in *; rewrite (jo_errno _ _ G1) in K; discriminate).
        destruct (on_cb_log c (rset_h h r) Nc) as (l1 & E2 & N2). exists (l1 ++ lg). rewrite E1, E2. rsimp. rewrite app_assoc. split; auto. rewrite in_app_iff. tauto.
      * injection E as <- <-. rewrite O in K. discriminate.
    + injection E as <- <-. destruct I. congruence.
    + discriminate.
Qed.

(** cutting one segment *)
Lemma cut_inject r d1 d2 : UOk r -> h_errno (r_h r) = HPE_OK -> d1 <> [] -> d2 <> [] ->
  exists r1 n1, inject r d1 = Some (r1, n1) /\
    ((hasError r1 = false /\ n1 = blen d1 /\ (exists lg, r_log r1 = r_log r ++ lg /\ ~ In RComplete lg) /\ exists a b n2, inject r (d1 ++ d2) = Some (a, blen d1 + n2) /\
         inject r1 d2 = Some (b, n2) /\ RR a b) \/
     inject r (d1 ++ d2) = Some (r1, n1)).
Proof.
  intros U O D1 D2. unfold inject at 1. rewrite (uo_p _ U).
  rewrite execute_run by auto.
  assert (HJ : JOk (r_h (rset_parsing true r)) (jstart d1 (r_h r))) by (rsimp; apply jstart_ok; auto; apply (uo_h _ U); auto).
  destruct (split_run _ _ _ d2 (le_n _) HJ D2) as (r1 & er & E & G1 & G2). rewrite E.
  eexists _, _. split; [reflexivity|].
  assert (A : app2 (jstart d1 (r_h r)) d2 = jstart (d1 ++ d2) (r_h r)) by reflexivity. rewrite A in *.
  assert (D12 : d1 ++ d2 <> []) by (destruct d1; [congruence|discriminate]).
  unfold inject. rewrite (uo_p _ U). rewrite execute_run by auto.
  assert (P1 : r_parsing r1 = true) by (apply jrun_parsing in E; rewrite E; reflexivity).
  destruct (J_total _ _ _ (le_n _) HJ) as (r1' & er' & E' & H1 & H2). rewrite E in E'. injection E' as <- <-.
  destruct (runpause_h r1) as (R1 & R2 & R3).
  destruct (is_ok (h_errno (r_h r1))) eqn:O1.
  - left. apply is_ok_true in O1. destruct (H1 O1) as [Ho ->]. rewrite R2 by congruence.
    split; [unfold hasError; rsimp; rewrite O1; reflexivity|]. split; [unfold blen; cbn; lia|].
    split; [destruct (J_nocomplete _ _ _ _ _ (le_n _) HJ E O1) as (lg & ? & ?); exists lg; auto|].
    destruct (G1 O1) as (a & b & er2 & Ea & Eb & HR). rewrite Ea.
    assert (U1 : UOk (rset_parsing false r1)) by (constructor; rsimp; auto; congruence).
    eexists _, (rset_parsing false (runpause b)), (blen d2 - blen er2). rewrite blen_app. split; [f_equal; f_equal; lia|].
    rsimp. rewrite execute_run by auto. cbn [rset_parsing].
    assert (T : rset_parsing true (rset_parsing false r1) = r1) by (destruct r1; cbn in *; subst; reflexivity).
    rewrite T. change (r_h (rset_parsing false r1)) with (r_h r1). rewrite Eb. split; [reflexivity|].
    destruct HR as (Q1 & Q2 & Q3 & x & Q4 & Q5).
    unfold runpause. rewrite <- Q1. destruct (h_errno (r_h a)) eqn:Ea'; unfold RR; rsimp; hsimp; rewrite ?Ea', <- ?Q1; repeat split; eauto.
    all: try (intros [?|?]; discriminate).
    all: intros _; rewrite Q3 by auto; reflexivity.
  - right. assert (N : h_errno (r_h r1) <> HPE_OK) by (intros X; rewrite X in O1; discriminate).
    rewrite (G2 N). rewrite !blen_app. f_equal. f_equal. lia.
Qed.

Lemma RR_trans a b c : RR a b -> RR b c -> RR a c.
Proof.
  intros (A1 & A2 & A3 & x & A4 & A5) (B1 & B2 & B3 & y & B4 & B5). unfold RR. repeat split; try congruence.
  - intros H. rewrite A3 by auto. apply B3. rewrite <- A1. auto.
  - exists (x ++ y). rewrite B4, A4, B5, A5, map_app, !app_assoc. auto.
Qed.

Lemma Feed_stuck r segs : UOk r -> hasError r = true -> Feed r segs r.
Proof.
  intros U E. induction segs as [|s segs IH]; [constructor|]. destruct s as [|c s]; [constructor; auto|].
  destruct (inject_error r (c :: s) U E) as [n En]; [discriminate|]. eapply Feed_err; eauto. discriminate.
Qed.

Lemma Feed_det r segs a : Feed r segs a -> forall b, Feed r segs b -> a = b.
Proof.
  induction 1 as [r|r segs r' F IH|r seg segs r1 n r' N I E F IH|r seg segs r1 n N I E]; intros b G; inversion G; subst; auto; try congruence.
  - apply IH. replace r2 with r1 in * by congruence. replace n0 with n in * by congruence. auto.
Qed.

Lemma skipn_app_in {A} (x y : list A) n : (n <= length x)%nat -> skipn n (x ++ y) = skipn n x ++ y.
Proof. intros H. rewrite skipn_app. replace (n - length x)%nat with 0%nat by lia. reflexivity. Qed.

Lemma Feed_total : forall k segs r, (length (concat segs) + length segs <= k)%nat -> UOk r ->
  exists r', Feed r segs r' /\ UOk r'.
Proof.
  induction k as [|k IH]; intros segs r Hk U; destruct segs as [|s segs]; cbn [concat length] in Hk; try lia; try (exists r; split; [constructor|auto]; fail).
  rewrite app_length in Hk.
  destruct s as [|c s].
  - destruct (IH segs r) as (r' & F & U'); auto; [cbn in Hk; lia|]. exists r'. split; auto. constructor; auto.
  - destruct (inject_total r (c :: s) U) as (r1 & n & E & U1 & L); [discriminate|].
    destruct (hasError r1) eqn:Er.
    + exists r1. split; auto. eapply Feed_err; eauto. discriminate.
    + specialize (L eq_refl). destruct (IH (skipn (Z.to_nat n) (c :: s) :: segs) r1) as (r' & F & U'); auto.
      * cbn [concat]. rewrite app_length, skipn_length. cbn [length] in *. lia.
      * exists r'. split; auto. eapply Feed_more; eauto. discriminate.
Qed.

Lemma Feed_app r l1 : forall m a l2, Feed r l1 m -> UOk r -> Feed m l2 a -> Feed r (l1 ++ l2) a.
Proof.
  intros m a l2 F. revert a l2. induction F as [r|r segs r' F IH|r seg segs r1 n r' N I E F IH|r seg segs r1 n N I E]; intros a l2 U G; auto.
  - cbn. constructor. auto.
  - cbn. eapply Feed_more; eauto. apply IH; auto. destruct (inject_total r seg U N) as (? & ? & E1 & U1 & _). congruence.
  - cbn. assert (U1 : UOk r1) by (destruct (inject_total r seg U N) as (? & ? & E1 & U1 & _); congruence).
    rewrite <- (Feed_det _ _ _ (Feed_stuck r1 l2 U1 E) _ G). eapply Feed_err; eauto.
Qed.

Lemma Feed_split r l1 l2 a : UOk r -> Feed r (l1 ++ l2) a -> exists m, Feed r l1 m /\ UOk m /\ Feed m l2 a.
Proof.
  intros U F. destruct (Feed_total _ l1 r (le_n _) U) as (m & F1 & U1).
  destruct (Feed_total _ l2 m (le_n _) U1) as (b & F2 & _). exists m. split; [exact F1|split; [exact U1|]].
  pose proof (Feed_det _ _ _ F _ (Feed_app _ _ _ _ _ F1 U F2)). subst. auto.
Qed.

(** merging two segments *)
Lemma Feed_two : forall k r s1 s2 segs a, (length s1 <= k)%nat -> UOk r -> Feed r (s1 :: s2 :: segs) a ->
  exists b, Feed r ((s1 ++ s2) :: segs) b /\ RR b a.
Proof.
  induction k as [k IH] using lt_wf_ind; intros r s1 s2 segs a Hk U F.
  destruct s1 as [|c1 s1]; [inversion F; subst; try congruence; exists a; split; auto using RR_refl|].
  destruct s2 as [|c2 s2].
  - exists a. split; [|apply RR_refl]. rewrite app_nil_r.
    clear -F U. change ((c1 :: s1) :: [] :: segs) with ([c1 :: s1] ++ [[]] ++ segs) in F.
    apply Feed_split in F as (m & F1 & U1 & F2); auto. inversion F2; subst; try congruence.
    change ((c1 :: s1) :: segs) with ([c1 :: s1] ++ segs). eapply Feed_app; eauto.
  - destruct (hasError r) eqn:He.
    { exists r. split; [apply Feed_stuck; auto|]. rewrite (Feed_det _ _ _ F _ (Feed_stuck _ _ U He)). apply RR_refl. }
    destruct (cut_inject r (c1 :: s1) (c2 :: s2) U (UOk_ok _ U He)) as (r1 & n1 & E1 & G); try discriminate.
    destruct (inject_total r (c1 :: s1) U) as (r1' & n1' & E1' & U1 & L1); [discriminate|]. rewrite E1 in E1'. injection E1' as <- <-.
    destruct G as [(N1 & -> & _ & x & y & n2 & Ex & Ey & HR)|E12].
    + inversion F; subst; try congruence. assert (r2 = r1) by congruence. assert (n = blen (c1 :: s1)) by congruence. subst r2 n.
      replace (skipn (Z.to_nat (blen (c1 :: s1))) (c1 :: s1)) with (@nil ascii) in * by
        (unfold blen; rewrite Nat2Z.id, skipn_all; reflexivity).
      match goal with H : Feed r1 ([] :: _) a |- _ => inversion H; subst; try congruence end.
      destruct (inject_total r1 (c2 :: s2) U1) as (y' & n2' & Ey' & U2 & L2); [discriminate|]. rewrite Ey in Ey'. injection Ey' as <- <-.
      assert (HE : hasError x = hasError y) by (unfold hasError; destruct HR as [-> _]; reflexivity).
      match goal with H : Feed r1 ((c2 :: s2) :: _) a |- _ => inversion H; subst; try congruence end.
      * assert (r2 = y) by congruence. assert (n = n2) by congruence. subst r2 n.
        assert (x = y) as -> by (apply HR; left; destruct HR as [-> _]; apply UOk_ok; auto).
        exists a. split; [|apply RR_refl]. eapply Feed_more; eauto; [discriminate|].
        match goal with H : Feed y (skipn _ _ :: _) a |- _ => rename H into FY end.
        match goal with |- Feed y (?u :: _) a => replace u with (skipn (Z.to_nat n2) (c2 :: s2)); auto end.
        specialize (L2 ltac:(congruence)).
        replace (Z.to_nat (blen (c1 :: s1) + n2)) with (length (c1 :: s1) + Z.to_nat n2)%nat by (unfold blen; lia).
        now rewrite skipn_app_over.
      * assert (a = y) by congruence. subst. exists x. split; auto. eapply Feed_err; eauto; try discriminate; congruence.
    + inversion F; subst; try congruence.
      * assert (r2 = r1) by congruence. assert (n = n1) by congruence. subst r2 n.
        specialize (L1 ltac:(auto)).
        destruct (IH (length (skipn (Z.to_nat n1) (c1 :: s1)))) with (r := r1) (s1 := skipn (Z.to_nat n1) (c1 :: s1)) (s2 := c2 :: s2) (segs := segs) (a := a) as (b & Fb & Rb); auto.
        { rewrite skipn_length. cbn [length] in *. lia. }
        exists b. split; auto. eapply Feed_more; eauto; [discriminate|].
        rewrite skipn_app_in; auto. unfold blen in L1. lia.
      * exists a. split; [|apply RR_refl]. assert (a = r1) by congruence. subst. eapply Feed_err; eauto; discriminate.
Qed.

Lemma Feed_merge : forall l s r a, UOk r -> Feed r (s :: l) a -> exists b, Feed r [s ++ concat l] b /\ RR b a.
Proof.
  induction l as [|t l IH]; intros s r a U F.
  - exists a. cbn. rewrite app_nil_r. split; auto using RR_refl.
  - destruct (Feed_two _ _ _ _ _ _ (le_n _) U F) as (b & Fb & Rb).
    destruct (IH _ _ _ U Fb) as (c & Fc & Rc). exists c. cbn [concat]. rewrite app_assoc. split; auto. eapply RR_trans; eauto.
Qed.

Definition singles (d : bytes) : list bytes := map (fun c => [c]) d.
Lemma concat_singles d : concat (singles d) = d.
Proof. induction d; cbn; f_equal; auto. Qed.

Lemma RR_error a b : RR a b -> hasError a = hasError b.
Proof. unfold hasError. intros [-> _]. reflexivity. Qed.

Lemma Feed_refine : forall segs r a, UOk r -> Feed r segs a -> exists c, Feed r (singles (concat segs)) c /\ UOk c /\ RR a c.
Proof.
  induction segs as [|s segs IH]; intros r a U F.
  - inversion F; subst. exists a. cbn. split; [constructor|split; [exact U|apply RR_refl]].
  - change (s :: segs) with ([s] ++ segs) in F. apply Feed_split in F as (m & F1 & U1 & F2); auto.
    destruct (Feed_total _ (singles s) r (le_n _) U) as (c0 & Fc & Uc).
    assert (R : RR m c0).
    { destruct (Feed_merge (singles s) [] r c0 U (Feed_next _ _ _ Fc)) as (b & Fb & Rb). cbn in Fb. rewrite concat_singles in Fb.
      now rewrite (Feed_det _ _ _ F1 _ Fb). }
    destruct (IH m a U1 F2) as (c & F3 & U3 & R3).
    unfold singles in *. cbn [concat]. rewrite map_app.
    destruct (hasError m) eqn:E.
    + pose proof (RR_error _ _ R) as E2. rewrite E in E2.
      exists c0. split; [eapply Feed_app; eauto; apply Feed_stuck; auto|]. split; auto.
      now rewrite (Feed_det _ _ _ F2 _ (Feed_stuck _ _ U1 E)).
    + assert (m = c0) as -> by (apply R; left; apply UOk_ok; auto).
      exists c. split; [eapply Feed_app; eauto|auto].
Qed.
