(** C80: copies user code takes of the request fields. *)
From Verif Require Import Bytes ByteHelpers Thin Helpers ReqGrammar TextSpec Params ParamsProofs
  Conn ConnSpec ConnText ConnHead ConnInv ConnStep ConnEnd ConnLog PropsConn ConnSend ConnFree PropsConn2 ConnPhase ConnLive PropsConn8 Getters PropsGetters FieldCopies.
Open Scope Z_scope.

(** ** Lists *)
Lemma put_len i x h : length (put_at i x h) = length h.
Proof. revert i; induction h as [|y h IH]; intros [|i]; cbn; auto. Qed.
Lemma at_put i x h j : (i < length h)%nat -> at_ (put_at i x h) j = if (i =? j)%nat then x else at_ h j.
Proof.
  revert i j. unfold at_. induction h as [|y h IH]; intros [|i] [|j] H; cbn in *; try lia; auto. apply IH. lia.
Qed.
Lemma at_fresh h b j : at_ (h ++ [b]) j = if (length h =? j)%nat then b else at_ h j.
Proof.
  unfold at_. destruct (Nat.eqb_spec (length h) j) as [<-|N].
  - rewrite app_nth2, Nat.sub_diag by lia. reflexivity.
  - destruct (Nat.ltb_spec j (length h)) as [L|L]; [now rewrite app_nth1|].
    rewrite (nth_overflow h) by auto. apply nth_overflow. rewrite app_length. cbn. lia.
Qed.
Lemma refs_app i a b : refs i (a ++ b) = (refs i a + refs i b)%nat.
Proof. induction a as [|x a IH]; cbn; auto. destruct (i =? x)%nat; rewrite IH; auto. Qed.
Lemma refs_in i l : In i l -> (1 <= refs i l)%nat.
Proof. induction l as [|x l IH]; [intros []|]. intros [-> |H]; cbn; [rewrite Nat.eqb_refl; lia|]. specialize (IH H). destruct (_ =? _)%nat; lia. Qed.
Lemma refs_notin i l : ~ In i l -> refs i l = 0%nat.
Proof.
  induction l as [|x l IH]; cbn; auto. intros H. destruct (Nat.eqb_spec i x) as [-> |N]; [destruct H; auto|]. apply IH. auto.
Qed.
Lemma refs_zero i l : refs i l = 0%nat -> ~ In i l.
Proof. intros H I. apply refs_in in I. lia. Qed.
Lemma sole_true i l : sole i l = true -> In i l -> (i <> 0 /\ refs i l = 1)%nat.
Proof.
  unfold sole. intros H I. apply Nat.eqb_eq in H. apply refs_in in I. destruct (Nat.eqb_spec i 0); lia.
Qed.

(** ** One assignment *)
Definition shows (h : blocks) (i n : nat) (v : bytes) : Prop :=
  v_size (at_ h i) = blen v /\ (v_data (at_ h i) = Own v \/ v_data (at_ h i) = Raw n v \/ v_data (at_ h i) = Lit /\ v = []).
Definition same_text (a b : block) : Prop := v_size a = v_size b /\ v_data a = v_data b.
Lemma shows_same h h' i n v : same_text (at_ h' i) (at_ h i) -> shows h i n v -> shows h' i n v.
Proof. intros (E1 & E2) (H1 & H2). split; [congruence|]. now rewrite E2. Qed.
Definition text_of_setting (s : setting) : bytes := match s with SText b => b | SDeep b => b | SContent b => b end.
Section Version.
Variable qt5 : bool.
Local Notation assign := (FieldCopies.assign qt5).
Local Notation assign_all := (FieldCopies.assign_all qt5).
Local Notation announce := (FieldCopies.announce qt5).
Local Notation follow := (FieldCopies.follow qt5).
Local Notation vstep := (FieldCopies.vstep qt5).
Local Notation vrun := (FieldCopies.vrun qt5).
(* no room for writing past the end in memory that is not its own *)
Definition okb (b : block) : Prop :=
  0 <= v_size b /\ match v_data b with Own d => v_size b <= blen d | _ => v_alloc b <= v_size b /\ (qt5 = true -> v_alloc b = 0) end.

Definition only_alloc (a b : block) : Prop := a = b \/ (v_alloc a = 0 /\ same_text a b).
Record assigned (n : nat) (s : setting) (one : bool) (i : nat) (h h' : blocks) (i' : nat) : Prop := {
  as_len : (length h <= length h')%nat;
  as_in : (i' < length h')%nat;
  as_dom : forall j, (j < length h')%nat -> j = i' \/ (j < length h)%nat;
  as_shows : shows h' i' n (text_of_setting s);
  as_ok : okb (at_ h' i');
  as_id : (one = true /\ i' = i) \/ i' = length h;
  as_old : i' <> i -> only_alloc (at_ h' i) (at_ h i);
  as_other : forall j, (j < length h)%nat -> j <> i -> at_ h' j = at_ h j;
  as_content : forall b, s = SContent b -> i' <> i -> qt5 = true \/ v_alloc (at_ h' i) = 0 }.

Lemma at_clear i h j : (i < length h)%nat -> at_ (clear_alloc i h) j = if (i =? j)%nat then mkB 0 (v_size (at_ h i)) (v_data (at_ h i)) else at_ h j.
Proof. intros H. unfold clear_alloc. now rewrite at_put. Qed.
Lemma clear_len i h : length (clear_alloc i h) = length h.
Proof. apply put_len. Qed.
Ltac nb := repeat (match goal with |- context [(?a =? ?b)%nat] => destruct (Nat.eqb_spec a b) | H : context [(?a =? ?b)%nat] |- _ => destruct (Nat.eqb_spec a b) end); try lia; try congruence; auto.
Lemma raw_shows n b : shows [mkB (blen b) (blen b) (Raw n b)] 0 n b.
Proof. split; cbn; auto. Qed.
Definition fits (n : nat) (s : setting) (b : block) : Prop :=
  okb b /\ v_size b = blen (text_of_setting s) /\
  (v_data b = Own (text_of_setting s) \/ v_data b = Raw n (text_of_setting s) \/ v_data b = Lit /\ text_of_setting s = []).
Lemma put_assigned n s i h b : (i < length h)%nat -> fits n s b -> assigned n s true i h (put_at i b h) i.
Proof.
  intros Hi (F1 & F2 & F3). split; rewrite ?put_len; auto; try congruence.
  - unfold shows. rewrite at_put, Nat.eqb_refl; auto.
  - rewrite at_put, Nat.eqb_refl; auto.
  - intros j Hj N. rewrite at_put by auto. nb.
Qed.
Lemma fresh_assigned n s one i h b : (i < length h)%nat -> fits n s b -> (forall b, s <> SContent b) \/ qt5 = true -> assigned n s one i h (h ++ [b]) (length h).
Proof.
  intros Hi (F1 & F2 & F3) Hs.
  assert (X : at_ (h ++ [b]) (length h) = b) by (rewrite at_fresh, Nat.eqb_refl; auto).
  assert (Y : forall j, (j < length h)%nat -> at_ (h ++ [b]) j = at_ h j) by (intros; rewrite at_fresh; nb).
  split; rewrite ?app_length; cbn [length]; try lia; auto.
  - unfold shows. now rewrite X.
  - now rewrite X.
  - intros _. left. auto.
  - intros c -> _. destruct Hs as [Hs|Hs]; [now destruct (Hs c)|auto].
Qed.
Lemma clear_fresh n s one i h b : (i < length h)%nat -> fits n s b -> assigned n s one i h (clear_alloc i h ++ [b]) (length h).
Proof.
  intros Hi (F1 & F2 & F3).
  assert (X : at_ (clear_alloc i h ++ [b]) (length h) = b) by (rewrite at_fresh, clear_len, Nat.eqb_refl; auto).
  assert (Y : forall j, (j < length h)%nat -> at_ (clear_alloc i h ++ [b]) j = at_ (clear_alloc i h) j) by (intros; rewrite at_fresh, clear_len; nb).
  split; rewrite ?app_length, ?clear_len; cbn [length]; try lia; auto.
  - unfold shows. now rewrite X.
  - now rewrite X.
  - intros _. right. rewrite Y, at_clear, Nat.eqb_refl by auto. split; [reflexivity|]. now split.
  - intros j Hj N. rewrite Y, at_clear by auto. nb.
  - intros c _ _. right. rewrite Y, at_clear, Nat.eqb_refl by auto. reflexivity.
Qed.
Lemma put_put i x y h : put_at i x (put_at i y h) = put_at i x h.
Proof. revert i; induction h as [|z h IH]; intros [|i]; cbn; auto. now rewrite IH. Qed.
Lemma blen_pos b : 0 <= blen b.
Proof. unfold blen. lia. Qed.

Lemma assign_ok n s one i h : (i < length h)%nat -> assigned n s one i h (fst (assign n s one i h)) (snd (assign n s one i h)).
Proof.
  intros Hi. destruct (bool_dec qt5 true) as [Q|Q].
  - assert (FR : forall s, fits n s (mkB 0 (blen (text_of_setting s)) (Raw n (text_of_setting s)))).
    { intros s'. split; [|cbn; auto]. pose proof (blen_pos (text_of_setting s')). split; cbn; auto. }
    assert (SR : forall b, fits n s b -> assigned n s one i h (fst (setRawData one b i h)) (snd (setRawData one b i h))).
    { intros b F. unfold setRawData. destruct one; cbn [negb orb]; [destruct (negb _)|]; cbn [fst snd fresh]; auto using fresh_assigned, put_assigned. }
    destruct s as [[|x b]|b|b]; cbn [FieldCopies.assign]; rewrite ?Q.
    + apply SR. split; [split; cbn; auto; lia|]. cbn. auto.
    + apply SR. exact (FR (SText (x :: b))).
    + apply fresh_assigned; auto. split; [|cbn; auto]. split; cbn; [apply blen_pos|lia].
    + apply SR. exact (FR (SContent b)).
  - apply not_true_is_false in Q.
    assert (FR : forall s, fits n s (mkB (blen (text_of_setting s)) (blen (text_of_setting s)) (Raw n (text_of_setting s)))).
    { intros s'. split; [|cbn; auto]. split; cbn; [apply blen_pos|]. split; [lia|congruence]. }
    destruct s as [b|b|b]; cbn [FieldCopies.assign].
    + assert (H0 : v_alloc (at_ (clear_alloc i h) i) = 0) by (rewrite at_clear, Nat.eqb_refl by auto; reflexivity).
      destruct b as [|x b]; rewrite Q.
      * unfold setRawData. rewrite H0, Z.eqb_refl. cbn [negb]. rewrite orb_false_r.
        assert (F : fits n (SText []) (mkB 0 0 Lit)). { split; [split; cbn; auto; lia|]. cbn. auto. }
        destruct one; cbn [negb fst snd fresh].
        -- unfold clear_alloc. rewrite put_put. now apply put_assigned.
        -- unfold fresh. cbn [fst snd]. rewrite clear_len. now apply clear_fresh.
      * unfold setRawData. destruct one; cbn [negb orb fst snd fresh].
        -- unfold clear_alloc. rewrite put_put. apply put_assigned; auto. exact (FR (SText (x :: b))).
        -- rewrite clear_len. apply clear_fresh; auto. exact (FR (SText (x :: b))).
    + apply fresh_assigned; auto; [|left; discriminate]. split; [|cbn; auto]. split; cbn; [apply blen_pos|lia].
    + rewrite Q. unfold setRawData. destruct one; cbn [negb orb fst snd fresh].
      * apply put_assigned; auto. exact (FR (SContent b)).
      * rewrite clear_len. apply clear_fresh; auto. exact (FR (SContent b)).
Qed.

(** ** A list of assignments *)
Definition within (h : blocks) (l : list nat) : Prop := Forall (fun i => (i < length h)%nat) l.
Lemma within_more h h' l : (length h <= length h')%nat -> within h l -> within h' l.
Proof. intros H. apply Forall_impl. intros. lia. Qed.
Definition single (l : list nat) : Prop := forall i, i <> 0%nat -> (refs i l <= 1)%nat.
Lemma refs_fresh h l : within h l -> refs (length h) l = 0%nat.
Proof. intros H. apply refs_notin. intros I. apply (proj1 (Forall_forall _ _) H) in I. lia. Qed.


(* the block of _requestContent may have room in memory that is not its own (342) *)
Definition okx (b : block) : Prop := 0 <= v_size b /\ match v_data b with Own d => v_size b <= blen d | _ => qt5 = true -> v_alloc b = 0 end.
Lemma okb_okx b : okb b -> okx b.
Proof. intros (H1 & H2). split; auto. destruct (v_data b); tauto. Qed.
Lemma only_okx a b : only_alloc a b -> okx b -> okx a.
Proof.
  intros [-> |(H0 & E1 & E2)] (H1 & H2); [now split|]. split; rewrite ?E1, ?E2; auto. destruct (v_data b); auto.
Qed.
Lemma only_okb a b : only_alloc a b -> okb b -> okb a.
Proof.
  intros [-> |(H0 & E1 & E2)] (H1 & H2); [now split|]. split; rewrite ?E1, ?E2; auto. destruct (v_data b); auto; split; auto; lia.
Qed.
Lemma clear_okb a b : only_alloc a b -> qt5 = true \/ v_alloc a = 0 -> okx b -> okb a.
Proof.
  intros HA H0 HX. apply (only_okx _ _ HA) in HX as (H1 & H2). split; auto.
  destruct (v_data a); auto; assert (v_alloc a = 0) by tauto; split; auto; lia.
Qed.
Lemma only_same a b : only_alloc a b -> same_text a b.
Proof. intros [-> |(_ & H)]; [now split|auto]. Qed.
Lemma same_trans a b c : same_text a b -> same_text b c -> same_text a c.
Proof. unfold same_text. intuition congruence. Qed.
Definition okw (x : nat) (P : Prop) (h : blocks) : Prop :=
  forall j, (j < length h)%nat -> okx (at_ h j) /\ (okb (at_ h j) \/ j = x /\ P).

Record all_assigned (x n : nat) (om cs done todo : list nat) (ss : list setting) (h h' : blocks) (ids : list nat) : Prop := {
  aa_len : (length h <= length h')%nat;
  aa_in : within h' ids;
  aa_new : exists new, ids = done ++ new /\ Forall2 (fun i s => shows h' i n (text_of_setting s)) new ss /\
           Forall (fun i => i <> 0%nat /\ (In i todo \/ (length h <= i)%nat)) new;
  aa_single : single (ids ++ om);
  aa_same : forall j, In j (done ++ om ++ cs) -> same_text (at_ h' j) (at_ h j);
  aa_others : forall j, (j < length h)%nat -> ~ In j todo -> at_ h' j = at_ h j;
  aa_ok : okw x (~ In x todo) h';
  aa_null : at_ h 0 = null_block -> at_ h' 0 = null_block }.

Lemma assign_all_ok x n om cs todo : forall ss done h, length todo = length ss ->
  within h (done ++ todo ++ om ++ cs) -> single (done ++ todo ++ om) -> okw x True h ->
  (forall i s, In (i, s) (combine todo ss) -> i = x -> exists b, s = SContent b) ->
  all_assigned x n om cs done todo ss h (fst (assign_all n (om ++ cs) done todo ss h)) (snd (assign_all n (om ++ cs) done todo ss h)).
Proof.
  induction todo as [|i todo IH]; intros ss done h HL HW HS HQ HX; destruct ss as [|s ss]; try discriminate; cbn [FieldCopies.assign_all fst snd].
  - split; auto.
    + apply Forall_app in HW as (HW & _). exact HW.
    + exists []. rewrite app_nil_r. auto.
    + intros. now split.
    + intros j Hj. destruct (HQ j Hj) as (H1 & [H2|(H2 & _)]); auto.
  - set (one := sole i (done ++ (i :: todo) ++ om ++ cs)).
    assert (Hi : (i < length h)%nat).
    { apply Forall_app in HW as (_ & HW). cbn [app] in HW. now inversion HW. }
    pose proof (assign_ok n s one i h Hi) as A. destruct (assign n s one i h) as (h1 & i1). cbn [fst snd] in *.
    assert (HO : one = true -> (i <> 0 /\ refs i (done ++ todo ++ om ++ cs) = 0)%nat).
    { intros E. apply sole_true in E; [|rewrite in_app_iff; cbn; auto]. rewrite !refs_app in *. cbn [refs] in E. rewrite Nat.eqb_refl in E. lia. }
    assert (HW' : within h (done ++ todo ++ om ++ cs)).
    { apply Forall_app in HW as (W1 & W2). apply Forall_app. split; auto. cbn [app] in W2. now inversion W2. }
    assert (SM : forall j, (j < length h)%nat -> In j (done ++ todo ++ om ++ cs) -> same_text (at_ h1 j) (at_ h j)).
    { intros j Hj I. destruct (Nat.eq_dec j i) as [-> |N]; [|rewrite (as_other _ _ _ _ _ _ _ A) by auto; now split].
      destruct (Nat.eq_dec i1 i) as [E|N1]; [|apply only_same, (as_old _ _ _ _ _ _ _ A N1)].
      destruct (as_id _ _ _ _ _ _ _ A) as [(E1 & _)|E2]; [|lia].
      destruct (HO E1) as (_ & Z0). apply refs_zero in Z0. contradiction. }
    destruct (IH ss (done ++ [i1]) h1) as [B1 B2 B3 B4 B5 B6 B7 B8].
    + cbn in HL. lia.
    + apply (within_more h h1) in HW'; [|apply (as_len _ _ _ _ _ _ _ A)]. apply Forall_app in HW' as (W1 & W2).
      rewrite <- app_assoc. cbn [app]. apply Forall_app. split; auto. constructor; auto. apply (as_in _ _ _ _ _ _ _ A).
    + intros j Hj. specialize (HS j Hj). rewrite !refs_app in *. cbn [refs] in *. rewrite ?refs_app in HS.
      destruct (as_id _ _ _ _ _ _ _ A) as [(_ & ->)|E]; [destruct (j =? i)%nat; lia|].
      subst i1. destruct (Nat.eqb_spec j (length h)) as [-> |N]; [|destruct (j =? i)%nat; lia].
      unfold within in HW'. rewrite !Forall_app in HW'. destruct HW' as (W1 & W2 & W3 & W4).
      rewrite !refs_fresh by auto. lia.
    + intros j Hj. destruct (Nat.eq_dec j i1) as [-> |N1]; [split; [apply okb_okx|left]; apply (as_ok _ _ _ _ _ _ _ A)|].
      assert (Hj' : (j < length h)%nat).
      { destruct (as_dom _ _ _ _ _ _ _ A j Hj); [contradiction|auto]. }
      destruct (HQ j Hj') as (Q1 & Q2). destruct (Nat.eq_dec j i) as [-> |N].
      * pose proof (as_old _ _ _ _ _ _ _ A (fun e => N1 (eq_sym e))) as O. split.
        { eapply only_okx; eauto. }
        destruct Q2 as [Q2|(Q2 & _)]; [left; eapply only_okb; eauto|right; auto].
      * rewrite (as_other _ _ _ _ _ _ _ A) by auto. auto.
    + intros j s' I. apply HX. right. exact I.
    + assert (L1 := as_len _ _ _ _ _ _ _ A).
      assert (ID : i1 = i \/ i1 = length h) by (destruct (as_id _ _ _ _ _ _ _ A) as [(_ & ->)|E]; auto).
      split.
      * lia.
      * exact B2.
      * destruct B3 as (new & -> & N1 & N2). exists (i1 :: new). rewrite <- app_assoc. split; [reflexivity|]. split.
        -- constructor; auto. eapply shows_same; [|apply (as_shows _ _ _ _ _ _ _ A)]. apply B5. rewrite !in_app_iff. cbn. auto.
        -- constructor.
           { destruct (as_id _ _ _ _ _ _ _ A) as [(E1 & ->)| ->]; [split; [apply (HO E1)|left; now left]|split; [lia|right; lia]]. }
           eapply Forall_impl; [|exact N2]. cbn. intros j (H0 & [H|H]); split; auto. right; lia.
      * exact B4.
      * intros j I. assert (Hj : (j < length h)%nat).
        { apply (proj1 (Forall_forall _ _) HW'). rewrite !in_app_iff in *. tauto. }
        apply same_trans with (at_ h1 j); [|apply SM; auto; rewrite !in_app_iff in *; tauto].
        apply B5. rewrite !in_app_iff in *. cbn. tauto.
      * intros j Hj NI. rewrite B6; [|lia|intros I; apply NI; now right]. apply (as_other _ _ _ _ _ _ _ A); auto. intros ->. apply NI. now left.
      * intros j Hj. destruct (B7 j Hj) as (C1 & [C2|(-> & C2)]); auto.
        split; auto. destruct (Nat.eq_dec x i) as [-> |NX]; [|right; split; auto; intros [E|E]; auto].
        left. destruct (Nat.eq_dec i1 i) as [E|NE].
        -- rewrite B6 by (auto; lia). rewrite <- E. apply (as_ok _ _ _ _ _ _ _ A).
        -- destruct (HX i s (or_introl eq_refl) eq_refl) as (b & Eb). rewrite B6 by (auto; lia).
           eapply clear_okb; [apply (as_old _ _ _ _ _ _ _ A NE)|eapply (as_content _ _ _ _ _ _ _ A); eauto|]. now apply HQ.
      * intros H0. apply B8. destruct (Nat.eq_dec i 0) as [-> |N]; [|rewrite (as_other _ _ _ _ _ _ _ A); auto; lia].
        assert (N1 : i1 <> 0%nat) by (destruct (as_id _ _ _ _ _ _ _ A) as [(E1 & _)| ->]; [now destruct (HO E1)|lia]).
        destruct (as_old _ _ _ _ _ _ _ A N1) as [-> |(E0 & E1 & E2)]; auto.
        rewrite H0 in E1, E2. cbn in E1, E2. destruct (at_ h1 0). cbn in *. subst. reflexivity.
Qed.

(** ** The whole of memory *)
Record WI (w : world) : Prop := {
  wi_fix : length (w_fix w) = 7%nat;
  wi_in : within (w_heap w) (members w ++ alive (w_copies w));
  wi_null : (0 < length (w_heap w))%nat /\ at_ (w_heap w) 0 = null_block;
  wi_single : single (members w);
  wi_content : nth 6 (w_fix w) 0%nat <> 0%nat;
  wi_ok : okw (nth 6 (w_fix w) 0%nat) True (w_heap w) }.

Lemma refs_comm i a b : refs i (a ++ b) = refs i (b ++ a).
Proof. rewrite !refs_app. lia. Qed.
Lemma refs_firstn i n l : (refs i (firstn n l) <= refs i l)%nat.
Proof. revert n; induction l as [|x l IH]; intros [|n]; cbn; auto; try lia. specialize (IH n). destruct (_ =? _)%nat; lia. Qed.
Lemma refs_repeat0 i n : i <> 0%nat -> refs i (repeat 0%nat n) = 0%nat.
Proof. intros H. apply refs_notin. intros I. now apply repeat_spec in I. Qed.
Lemma resize_len n l : length (resize n l) = n.
Proof. unfold resize. rewrite app_length, firstn_length, repeat_length. lia. Qed.
Lemma resize_in n l j : In j (resize n l) -> In j l \/ j = 0%nat.
Proof. unfold resize. rewrite in_app_iff. intros [H|H]; [left; rewrite <- (firstn_skipn n l); apply in_or_app; now left|right; now apply repeat_spec in H]. Qed.

Lemma header_shows h n hs ids : Forall2 (fun i s => shows h i n (text_of_setting s)) ids (header_settings hs) ->
  (0 < length h)%nat -> at_ h 0 = null_block ->
  forall i, shows h (nth (2 * i) ids 0%nat) n (fst (nth i hs ([], []))) /\ shows h (nth (2 * i + 1) ids 0%nat) n (snd (nth i hs ([], []))).
Proof.
  intros F H0 N. revert ids F. induction hs as [|x hs IH]; intros ids F i.
  - cbn in F. inversion F. subst. rewrite !nth_overflow by (cbn; lia). cbn [fst snd].
    unfold shows. rewrite N. cbn. auto.
  - cbn in F. inversion F as [|a1 ? l1 ? F1 F2]; subst. inversion F2 as [|a2 ? l2 ? F3 F4]; subst. destruct i as [|i].
    + cbn. auto.
    + replace (2 * S i)%nat with (S (S (2 * i))) by lia. replace (S (S (2 * i)) + 1)%nat with (S (S (2 * i + 1))) by lia. cbn [nth]. now apply IH.
Qed.
Lemma settings_len hs : length (header_settings hs) = (2 * length hs)%nat.
Proof. unfold header_settings. induction hs; cbn [flat_map length app]; rewrite ?app_length; auto. cbn in *. lia. Qed.

Record announced_in (r : request) (w w' : world) : Prop := {
  an_wi : WI w';
  an_n : w_n w' = S (w_n w);
  an_copies : w_copies w' = w_copies w;
  an_len : (length (w_heap w) <= length (w_heap w'))%nat;
  an_shows : forall f, shows (w_heap w') (member f w') (w_n w') (value_of f r);
  an_same : forall j, In j (alive (w_copies w)) -> same_text (at_ (w_heap w') j) (at_ (w_heap w) j);
  an_others : forall j, (j < length (w_heap w))%nat -> j <> 0%nat -> ~ In j (members w) ->
     at_ (w_heap w') j = at_ (w_heap w) j /\ ~ In j (members w') }.
Lemma announce_ok r w : WI w -> announced_in r w (announce r w).
Proof.
  intros [W1 W2 (W30 & W3) W4 W5 W6]. unfold FieldCopies.announce. cbv zeta.
  set (hs := resize (2 * length (q_headers r)) (w_hdrs w)). set (n := S (w_n w)). set (x := nth 6 (w_fix w) 0%nat) in *.
  unfold members in *. set (cs := alive (w_copies w)) in *.
  assert (Ws : single (hs ++ w_fix w)).
  { intros i Hi. specialize (W4 i Hi). rewrite refs_app in *. unfold hs, resize. rewrite refs_app, refs_repeat0 by auto.
    pose proof (refs_firstn i (2 * length (q_headers r)) (w_hdrs w)). lia. }
  assert (Xf : In x (w_fix w)) by (apply nth_In; lia).
  assert (Xh : ~ In x hs).
  { intros I. specialize (Ws x W5). rewrite refs_app in Ws. apply refs_in in I. apply refs_in in Xf. lia. }
  assert (Wi : within (w_heap w) ([] ++ hs ++ w_fix w ++ cs)).
  { unfold within in *. rewrite !Forall_app in *. destruct W2 as ((V1 & V2) & V3). split; [constructor|]. split; [|auto].
    apply Forall_forall. intros j I. apply resize_in in I as [I| ->]; [now apply (proj1 (Forall_forall _ _) V1)|auto]. }
  pose proof (assign_all_ok x n (w_fix w) cs hs (header_settings (q_headers r)) [] (w_heap w)) as A.
  destruct (assign_all n (w_fix w ++ cs) [] hs (header_settings (q_headers r)) (w_heap w)) as (h1 & ids). cbn [fst snd] in *.
  destruct A as [A1 A2 A3 A4 A5 A6 A7 A8]; auto.
  { unfold hs. now rewrite resize_len, settings_len. }
  { intros i s I ->. apply in_combine_l in I. contradiction. }
  destruct A3 as (ids' & E & A3 & A3'). cbn [app] in E. subst ids'.
  assert (Wi1 : within h1 ([] ++ w_fix w ++ ids ++ cs)).
  { apply (within_more _ h1) in Wi; [|auto]. unfold within in *. rewrite !Forall_app in *. tauto. }
  pose proof (assign_all_ok x n ids cs (w_fix w) (field_settings r) [] h1) as B.
  destruct (assign_all n (ids ++ cs) [] (w_fix w) (field_settings r) h1) as (h2 & ids2). cbn [fst snd] in *.
  destruct B as [B1 B2 B3 B4 B5 B6 B7 B8]; auto.
  { intros i Hi. cbn [app]. rewrite refs_comm. now apply A4. }
  { intros j Hj. destruct (A7 j Hj) as (C1 & [C2|(C2 & _)]); auto. }
  { intros i s I E. subst i. unfold x in *.
    destruct (w_fix w) as [|i0 [|i1 [|i2 [|i3 [|i4 [|i5 [|i6 [|]]]]]]]]; try discriminate W1. cbn [nth] in *.
    specialize (Ws i6 W5). rewrite refs_app in Ws. cbn [refs] in Ws. rewrite Nat.eqb_refl in Ws.
    cbn [combine field_settings In] in I.
    repeat match type of I with _ \/ _ => destruct I as [I|I] end; try (injection I as -> <-; rewrite ?Nat.eqb_refl in Ws; exfalso; repeat destruct (_ =? _)%nat; lia).
    - injection I as <-. eauto.
    - destruct I. }
  destruct B3 as (ids' & E & B3 & B3'). cbn [app] in E. subst ids'. cbn [app] in B5.
  assert (OK2 : forall j, (j < length h2)%nat -> okb (at_ h2 j)).
  { intros j Hj. destruct (B7 j Hj) as (C1 & [C2|(_ & C2)]); [auto|contradiction]. }
  assert (L2 : length ids2 = 7%nat) by (clear - B3; unfold field_settings in B3; repeat match goal with H : Forall2 _ _ _ |- _ => inversion H; clear H; subst end; reflexivity).
  assert (Z0 : forall j, (j < length (w_heap w))%nat -> ~ In j hs -> ~ In j (w_fix w) -> at_ h2 j = at_ (w_heap w) j).
  { intros j Hj N1 N2. rewrite B6 by (auto; lia). now apply A6. }
  assert (NUL2 : at_ h2 0 = null_block) by auto.
  split; cbn [w_n w_heap w_hdrs w_fix w_copies].
  - split; cbn [w_n w_heap w_hdrs w_fix w_copies]; unfold members; cbn [w_hdrs w_fix]; auto.
    + unfold within in *. rewrite !Forall_app. split; [split; auto|].
      * eapply Forall_impl; [|exact A2]. cbn. intros. lia.
      * apply (within_more _ h2) in Wi1; auto. unfold within in Wi1. rewrite !Forall_app in Wi1. tauto.
    + split; [lia|auto].
    + intros i Hi. rewrite refs_comm. now apply B4.
    + apply (proj1 (Forall_forall _ _) B3'). apply nth_In. lia.
    + intros j Hj. split; [apply okb_okx|left]; now apply OK2.
  - reflexivity.
  - reflexivity.
  - lia.
  - assert (A3'' : Forall2 (fun i s => shows h2 i n (text_of_setting s)) ids (header_settings (q_headers r))).
    { assert (X : forall i, In i ids -> same_text (at_ h2 i) (at_ h1 i)) by (intros; apply B5; rewrite in_app_iff; auto).
      clear - X A3. induction A3 as [|i s l ss H A3 IH]; constructor.
      - eapply shows_same; [|exact H]. apply X. now left.
      - apply IH. intros j I. apply X. now right. }
    pose proof (header_shows h2 n (q_headers r) ids A3'' ltac:(lia) NUL2) as HH.
    assert (T : forall b, text_of_setting (match q_query r with [] => SText b | _ => SDeep b end) = b) by (intros; destruct (q_query r); reflexivity).
    clear - HH B3 T. unfold field_settings in B3.
    destruct ids2 as [|i0 [|i1 [|i2 [|i3 [|i4 [|i5 [|i6 [|]]]]]]]]; repeat match goal with H : Forall2 _ _ _ |- _ => inversion H; clear H; subst end.
    intros f. destruct f; cbn [member value_of w_fix w_hdrs nth]; auto; try (now apply HH). rewrite T in *. auto.
  - intros j I. apply same_trans with (at_ h1 j); [apply B5; rewrite in_app_iff; auto|apply A5; cbn [app]; rewrite in_app_iff; auto].
  - intros j Hj Hz N. unfold members in *. cbn [w_hdrs w_fix]. rewrite in_app_iff in N.
    assert (N1 : ~ In j hs) by (intros I; apply resize_in in I; tauto).
    split; [apply Z0; auto|]. rewrite in_app_iff. intros [I|I].
    + apply (proj1 (Forall_forall _ _) A3') in I as (_ & [I|I]); [auto|lia].
    + apply (proj1 (Forall_forall _ _) B3') in I as (_ & [I|I]); [auto|lia].
Qed.

(** ** Line 342 *)
Lemma empty_ok w : WI w -> WI (empty_content w) /\ w_n (empty_content w) = w_n w /\ w_copies (empty_content w) = w_copies w /\
  length (w_heap (empty_content w)) = length (w_heap w) /\ members (empty_content w) = members w /\
  (forall j, j <> nth 6 (w_fix w) 0%nat -> at_ (w_heap (empty_content w)) j = at_ (w_heap w) j).
Proof.
  intros [W1 W2 (W30 & W3) W4 W5 W6]. set (x := nth 6 (w_fix w) 0%nat) in *.
  assert (Hx : (x < length (w_heap w))%nat).
  { apply (proj1 (Forall_forall _ _) W2). unfold members. rewrite !in_app_iff. left. right. apply nth_In. lia. }
  assert (HL : length (w_heap (empty_content w)) = length (w_heap w)) by (unfold empty_content; fold x; cbv zeta; cbn [w_heap]; destruct (_ <? _); auto; apply put_len).
  assert (HA : forall j, j <> x -> at_ (w_heap (empty_content w)) j = at_ (w_heap w) j).
  { intros j N. unfold empty_content; fold x; cbv zeta; cbn [w_heap w_n w_hdrs w_fix w_copies]. destruct (_ <? _); auto. rewrite at_put by auto. nb. }
  split; [|repeat split; auto]. split; auto.
  - eapply within_more; [|exact W2]. lia.
  - split; [lia|]. rewrite HA; auto.
  - intros j Hj. cbn [w_fix empty_content]. fold x. destruct (Nat.eq_dec j x) as [-> |N]; [|rewrite HA by auto; apply W6; lia].
    split; [|auto]. destruct (W6 x Hx) as ((O1 & O2) & _). unfold empty_content; fold x; cbv zeta; cbn [w_heap w_n w_hdrs w_fix w_copies].
    destruct (Z.ltb_spec 0 (v_size (at_ (w_heap w) x))) as [L|L]; [rewrite at_put, Nat.eqb_refl by auto; cbn [v_size v_data]|]; split; cbn [v_size v_data]; auto; try lia.
    destruct (v_data (at_ (w_heap w) x)); auto. lia.
Qed.

(** ** Copies *)
Lemma copy_alive k w i : copy_of k w = Some i -> In i (alive (w_copies w)).
Proof.
  unfold copy_of. intros H. revert k H. induction (w_copies w) as [|o l IH]; intros [|k] H; cbn in H; try discriminate.
  - subst o. now left.
  - apply IH in H. destruct o; cbn; auto.
Qed.
Lemma copy_twice k j w i : k <> j -> copy_of k w = Some i -> copy_of j w = Some i -> (2 <= refs i (alive (w_copies w)))%nat.
Proof.
  unfold copy_of. intros N. revert k j N. induction (w_copies w) as [|o l IH]; intros [|k] [|j] N H1 H2; cbn in H1, H2; try discriminate; try lia.
  - subst o. cbn. rewrite Nat.eqb_refl. enough (1 <= refs i (alive l))%nat by lia. apply refs_in.
    apply (copy_alive j (mkW 0 [] [] [] l)). exact H2.
  - subst o. cbn. rewrite Nat.eqb_refl. enough (1 <= refs i (alive l))%nat by lia. apply refs_in.
    apply (copy_alive k (mkW 0 [] [] [] l)). exact H1.
  - assert (X : (2 <= refs i (alive l))%nat) by (apply (IH k j); auto). destruct o; cbn; auto. destruct (_ =? _)%nat; lia.
Qed.
Lemma alive_app a b : alive (a ++ b) = alive a ++ alive b.
Proof. induction a as [|[]]; cbn; auto. now rewrite IHa. Qed.
Lemma slot_alive k x l j : In j (alive (set_slot k x l)) -> In j (alive l) \/ x = Some j.
Proof.
  revert k. induction l as [|o l IH]; intros [|k]; cbn; auto.
  - destruct x; cbn; destruct o; cbn; intuition congruence.
  - destruct o; cbn; [intros [-> |H]; auto|intros H]; apply IH in H; tauto.
Qed.
Lemma slot_same k x w j : nth j (set_slot k x (w_copies w)) None = if (k =? j)%nat && (k <? length (w_copies w))%nat then x else copy_of j w.
Proof.
  unfold copy_of. generalize (w_copies w). intros l. revert k j. induction l as [|o l IH]; intros [|k] [|j]; cbn; auto.
  - now rewrite andb_false_r.
  - now rewrite IH.
Qed.
Lemma copy_len k w i : copy_of k w = Some i -> (k < length (w_copies w))%nat.
Proof. unfold copy_of. intros H. destruct (Nat.ltb_spec k (length (w_copies w))); auto. rewrite nth_overflow in H by auto. discriminate. Qed.

Lemma reading_len c stk w junk i : okx (at_ (w_heap w) i) -> 0 <= blen (reading c stk w junk i).
Proof. intros _. apply blen_pos. Qed.
Lemma own_ok k b more w : WI w -> WI (own_copy k b more w).
Proof.
  intros [W1 W2 (W30 & W3) W4 W5 W6]. split; auto; cbn [own_copy w_heap w_fix w_hdrs w_copies members].
  - unfold within in *. rewrite Forall_app in *. destruct W2 as (V1 & V2). rewrite app_length. cbn [length]. split.
    + eapply Forall_impl; [|exact V1]. cbn. intros. lia.
    + apply Forall_forall. intros j I. apply slot_alive in I as [I|I]; [|injection I as <-; lia].
      apply (proj1 (Forall_forall _ _) V2) in I. lia.
  - rewrite app_length. cbn. split; [lia|]. rewrite at_fresh. nb.
  - intros j Hj. rewrite app_length in Hj. cbn in Hj. rewrite at_fresh. destruct (Nat.eqb_spec (length (w_heap w)) j) as [E|N].
    + assert (okb (mkB (blen b + Z.max 0 more) (blen b) (Own b))) by (split; cbn; [apply blen_pos|lia]). split; [now apply okb_okx|now left].
    + apply W6. lia.
Qed.

Lemma member_in f w : WI w -> In (member f w) (members w) \/ member f w = 0%nat.
Proof.
  intros W. pose proof (wi_fix _ W) as L. unfold members. setoid_rewrite in_app_iff.
  assert (X : forall i, In (nth i (w_fix w) 0%nat) (w_fix w) \/ nth i (w_fix w) 0%nat = 0%nat).
  { intros i. destruct (Nat.ltb_spec i (length (w_fix w))); [left; now apply nth_In|right; now apply nth_overflow]. }
  assert (Y : forall i, In (nth i (w_hdrs w) 0%nat) (w_hdrs w) \/ nth i (w_hdrs w) 0%nat = 0%nat).
  { intros i. destruct (Nat.ltb_spec i (length (w_hdrs w))); [left; now apply nth_In|right; now apply nth_overflow]. }
  destruct f; cbn [member]; match goal with |- context [nth ?i (w_fix w) _] => destruct (X i) | |- context [nth ?i (w_hdrs w) _] => destruct (Y i) end; tauto.
Qed.

(* what the rest of the program may rely on when the connection or other copies are used *)
Record undisturbed (w w' : world) : Prop := {
  un_wi : WI w';
  un_len : (length (w_heap w) <= length (w_heap w'))%nat;
  un_others : forall j, (j < length (w_heap w))%nat -> j <> 0%nat -> ~ In j (members w) ->
     at_ (w_heap w') j = at_ (w_heap w) j /\ ~ In j (members w') }.
Lemma undisturbed_refl w : WI w -> undisturbed w w.
Proof. intros W. split; auto. Qed.
Lemma follow_ok c stk a c' w : WI w -> undisturbed w (follow c stk a c' w) /\ w_copies (follow c stk a c' w) = w_copies w.
Proof.
  intros W. unfold FieldCopies.follow.
  assert (E : exists w1, (if releases stk a then empty_content w else w) = w1 /\ undisturbed w w1 /\ w_copies w1 = w_copies w).
  { eexists. split; [reflexivity|]. destruct (releases stk a); [|split; [now apply undisturbed_refl|auto]].
    destruct (empty_ok w W) as (H1 & H2 & H3 & H4 & H5 & H6). split; auto. split; auto; [lia|]. intros j Hj Hz N. rewrite H5. split; auto.
    apply H6. intros ->. apply N. unfold members. rewrite in_app_iff. right. apply nth_In. rewrite (wi_fix _ W). lia. }
  destruct E as (w1 & -> & U & C1). destruct (_ <? _)%nat; [|auto]. destruct (List.rev _) as [|r rs]; [auto|].
  destruct U as [U1 U2 U3]. destruct (announce_ok r w1 U1) as [A1 A2 A3 A4 A5 A6 A7]. split; [|congruence]. split; auto; [lia|].
  intros j Hj Hz N. destruct (U3 j Hj Hz N) as (E1 & N1). destruct (A7 j) as (E2 & N2); auto; [lia|]. split; congruence.
Qed.

(** *** What user code does *)
(* the copies from l, the heap changed to h' *)
Lemma user_ok c stk w a g : WI w -> (forall b, a <> VAct b) -> vstep (VRun c stk w) a = g ->
  exists w', g = VRun c stk w' /\ WI w' /\ w_n w' = w_n w /\ members w' = members w /\ (forall f, member f w' = member f w) /\ (length (w_heap w) <= length (w_heap w'))%nat /\
    (forall j, In j (members w) -> at_ (w_heap w') j = at_ (w_heap w) j) /\
    (forall k i, copy_of k w = Some i -> (forall s m x, a <> VAppend k s m x) -> at_ (w_heap w') i = at_ (w_heap w) i).
Proof.
  intros W HA E. assert (IN : forall i, In i (members w ++ alive (w_copies w)) -> (i < length (w_heap w))%nat).
  { intros i I. pose proof (wi_in _ W) as F. now apply (proj1 (Forall_forall _ _) F). }
  assert (OWN : forall k b m, exists w', own_copy k b m w = w' /\ WI w' /\ w_n w' = w_n w /\ members w' = members w /\ (forall f, member f w' = member f w) /\
    (length (w_heap w) <= length (w_heap w'))%nat /\ (forall j, In j (members w) -> at_ (w_heap w') j = at_ (w_heap w) j) /\
    (forall k' i, copy_of k' w = Some i -> at_ (w_heap w') i = at_ (w_heap w) i)).
  { intros k b m. eexists. split; [reflexivity|]. split; [now apply own_ok|]. split; [reflexivity|]. split; [reflexivity|].
    split; [intros []; reflexivity|].
    split; [cbn; rewrite app_length; lia|].
    assert (X : forall j, In j (members w ++ alive (w_copies w)) -> at_ (w_heap (own_copy k b m w)) j = at_ (w_heap w) j).
    { intros j I. apply IN in I. cbn [own_copy w_heap]. rewrite at_fresh. nb. }
    split; [intros j I; apply X; apply in_or_app; auto|intros k' i I; apply X; apply in_or_app; right; eapply copy_alive; eauto]. }
  destruct a as [b|f|k junk|k s m junk|k]; [now destruct (HA b)| | | |]; cbn [FieldCopies.vstep] in E.
  - subst g. eexists. split; [reflexivity|]. split; [|split; [reflexivity|split; [reflexivity|split; [intros []; reflexivity|split; [auto|split; auto]]]]].
    destruct W as [W1 W2 W3 W4 W5 W6]. split; auto; cbn [w_heap w_copies members w_hdrs w_fix]. rewrite alive_app. cbn [alive].
    unfold within in *. rewrite !Forall_app in *. destruct W2 as (V1 & V2). split; auto. split; auto. constructor; auto.
    assert (WI w) as WW by (split; auto; unfold within; now rewrite Forall_app).
    destruct (member_in f w WW) as [I| ->]; [|lia]. apply IN. rewrite in_app_iff. auto.
  - destruct (copy_of k w) as [i|] eqn:EC.
    + destruct (_ && _).
      * subst g. exists w. intuition.
      * destruct (OWN k (reading c stk w junk i) 0) as (w' & E' & H1 & H2 & H3 & H3' & H4 & H5 & H6). rewrite E' in E. subst g. exists w'. split; [auto|].
        split; auto. split; auto. split; auto. split; auto. split; auto. split; auto. intros. eapply H6; eauto.
    + subst g. exists w. intuition.
  - destruct (copy_of k w) as [i|] eqn:EC; [|subst g; exists w; intuition].
    destruct s as [|x s]; [subst g; exists w; intuition|]. cbv zeta in E.
    destruct (_ || _) eqn:EO.
    + destruct (OWN k (reading c stk w junk i ++ x :: s) m) as (w' & E' & H1 & H2 & H3 & H3' & H4 & H5 & H6). rewrite E' in E. subst g. exists w'. split; [auto|].
      split; auto. split; auto. split; auto. split; auto. split; auto. split; auto. intros. eapply H6; eauto.
    + apply orb_false_iff in EO as (E1 & E2). apply negb_false_iff in E1. apply Z.ltb_ge in E2.
      assert (IA : In i (alive (w_copies w))) by (eapply copy_alive; eauto).
      destruct (sole_true _ _ E1) as (Nz & R1); [unfold all_arrays; rewrite in_app_iff; auto|]. unfold all_arrays in R1. rewrite refs_app in R1.
      assert (R2 := refs_in _ _ IA). assert (R3 : ~ In i (members w)) by (apply refs_zero; lia).
      assert (Hi : (i < length (w_heap w))%nat) by (apply IN; rewrite in_app_iff; auto).
      destruct (wi_ok _ W i Hi) as (X1 & [(X2 & X3)|(X2 & _)]).
      2:{ destruct R3. subst i. unfold members. rewrite in_app_iff. right. apply nth_In. rewrite (wi_fix _ W). lia. }
      assert (blen (x :: s) > 0) by (unfold blen; cbn [length]; lia).
      destruct (v_data (at_ (w_heap w) i)) as [d|n d|] eqn:ED; [|lia|lia].
      subst g. eexists. split; [reflexivity|]. cbn [w_n w_heap w_hdrs w_fix w_copies members].
      assert (PA : forall j, j <> i -> at_ (put_at i (mkB (v_alloc (at_ (w_heap w) i)) (v_size (at_ (w_heap w) i) + blen (x :: s)) (Own (firstn (Z.to_nat (v_size (at_ (w_heap w) i))) d ++ x :: s))) (w_heap w)) j = at_ (w_heap w) j)
        by (intros j N; rewrite at_put by auto; nb).
      split; [|split; [reflexivity|split; [reflexivity|split; [intros []; reflexivity|split; [rewrite put_len; auto|split]]]]].
      * destruct W as [W1 W2 (W30 & W3) W4 W5 W6]. split; auto; cbn [w_n w_heap w_hdrs w_fix w_copies members].
        -- eapply within_more; [|exact W2]. rewrite put_len. auto.
        -- rewrite put_len. split; auto. rewrite PA by auto. auto.
        -- intros j Hj. rewrite put_len in Hj. destruct (Nat.eq_dec j i) as [-> |N]; [|rewrite PA by auto; now apply W6].
           rewrite at_put, Nat.eqb_refl by auto.
           match goal with |- okx ?b /\ _ => assert (okb b) as K end; [|split; [now apply okb_okx|now left]].
           split; cbn [v_size v_data v_alloc]; [lia|]. unfold blen in *. rewrite app_length, firstn_length. lia.
      * intros j I. apply PA. intros ->. contradiction.
      * intros k' i' EC' HN. apply PA. intros ->. destruct (Nat.eq_dec k' k) as [-> |N]; [now destruct (HN (x :: s) m junk)|].
        pose proof (copy_twice _ _ _ _ N EC' EC). lia.
  - subst g. eexists. split; [reflexivity|]. split; [|split; [reflexivity|split; [reflexivity|split; [intros []; reflexivity|split; [auto|split; auto]]]]].
    destruct W as [W1 W2 W3 W4 W5 W6]. split; auto; cbn [w_heap w_copies members w_hdrs w_fix].
    unfold within in *. rewrite !Forall_app in *. destruct W2 as (V1 & V2). split; auto.
    apply Forall_forall. intros j I. apply slot_alive in I as [I|I]; [|discriminate]. now apply (proj1 (Forall_forall _ _) V2).
Qed.

Lemma world0_ok : WI world0.
Proof.
  split; cbn; auto.
  - repeat constructor.
  - intros i Hi. cbn. nb.
  - intros j Hj. unfold okx, okb, at_. destruct j as [|[|j]]; cbn in *; [| |lia]; (split; [split; [lia|unfold blen; cbn; lia]|left; split; [lia|unfold blen; cbn; lia]]).
Qed.

(** ** Histories *)
(* the API of the connection is used politely (as in C01) *)
Definition vpolite (g : vcfg) (a : vact) : Prop :=
  match g, a with VRun c stk _, VAct a => polite c stk a | _, _ => True end.
Fixpoint vpolite_run (g : vcfg) (l : list vact) {struct l} : Prop :=
  match l with [] => True | a :: t => vpolite g a /\ vpolite_run (vstep g a) t end.
(* copy k itself is not changed or destroyed *)
Definition spares (k : nat) (a : vact) : Prop :=
  match a with VAppend j _ _ _ | VDrop j => j <> k | _ => True end.

Definition VI (g : vcfg) : Prop :=
  match g with
  | VBad => True
  | VRun c stk w => reached c stk /\ WI w /\
      (answering c stk -> forall r, current c r -> forall f, shows (w_heap w) (member f w) (w_n w) (value_of f r))
  end.
Lemma vact_step c stk w a c' stk' w' : reached c stk -> polite c stk a -> vstep (VRun c stk w) (VAct a) = VRun c' stk' w' ->
  reached c' stk' /\ Phase c stk a c' stk' /\ w' = follow c stk a c' w.
Proof.
  intros R HP E. cbn [FieldCopies.vstep] in E. destruct (step (Run c stk) a) as [c1 s1|] eqn:E1; [|discriminate]. injection E as <- <- <-.
  split; [|split; [|reflexivity]].
  - eapply reached_step; eauto.
  - apply phase_step; auto; [now apply reached_inv|eapply reached_settled'; eauto].
Qed.
Lemma follow_same c stk a c' w : releases stk a = false -> announced (log c') = announced (log c) -> follow c stk a c' w = w.
Proof. intros E1 E2. unfold FieldCopies.follow. rewrite E1, E2, Nat.ltb_irrefl. reflexivity. Qed.
Lemma follow_ready c stk a c' w r : announced (log c') = announced (log c) ++ [r] ->
  follow c stk a c' w = announce r (if releases stk a then empty_content w else w).
Proof.
  intros E. unfold FieldCopies.follow. rewrite E, app_length. cbn [length]. destruct (Nat.ltb_spec (length (announced (log c))) (length (announced (log c)) + 1)); [|lia].
  rewrite rev_app_distr. reflexivity.
Qed.
Lemma follow_quiet c stk a c' w : announced (log c') = announced (log c) \/ announced (log c') = [] -> WI w -> w_n (follow c stk a c' w) = w_n w.
Proof.
  intros H W. unfold FieldCopies.follow. assert (X : w_n (if releases stk a then empty_content w else w) = w_n w) by (destruct (releases stk a); reflexivity).
  destruct H as [-> | ->]; rewrite ?Nat.ltb_irrefl; auto.
Qed.
Lemma released_ok stk a w : WI w -> WI (if releases stk a then empty_content w else w) /\ w_n (if releases stk a then empty_content w else w) = w_n w.
Proof. intros W. destruct (releases stk a); auto. destruct (empty_ok w W) as (H1 & H2 & _). auto. Qed.
Lemma current_last c rs r r' : announced (log c) = rs ++ [r] -> current c r' -> r' = r.
Proof. intros E (rs' & E'). rewrite E in E'. now apply app_inj_tail in E' as (_ & E'). Qed.
Lemma vact_cases a : (exists b, a = VAct b) \/ (forall b, a <> VAct b).
Proof. destruct a; [left; eauto|right; discriminate..]. Qed.

Lemma VI_step g a : VI g -> vpolite g a -> VI (vstep g a).
Proof.
  intros H HP. destruct g as [c stk w|]; [|exact Logic.I]. destruct H as (R & W & H). destruct (vact_cases a) as [(b & ->)|HA].
  - destruct (vstep (VRun c stk w) (VAct b)) as [c' stk' w'|] eqn:E; [|exact Logic.I].
    destruct (vact_step _ _ _ _ _ _ _ R HP E) as (R' & Ph & ->). split; [exact R'|]. split; [apply follow_ok, W|].
    intros Ha r Hr f. destruct Ph as [_ _ N _|_ _ O _|_ A Hr' Q _|_ _ _ N|r' _ _ Q _].
    + contradiction.
    + now apply over_not_answering in R'.
    + rewrite follow_same by auto. apply H; auto. unfold current in *. now rewrite Q in Hr.
    + contradiction.
    + rewrite (follow_ready _ _ _ _ _ _ Q). rewrite (current_last _ _ _ _ Q Hr).
      apply an_shows with (w := if releases stk b then empty_content w else w). apply announce_ok, released_ok, W.
  - destruct (user_ok c stk w a _ W HA eq_refl) as (w' & -> & W' & E1 & E2 & E3 & E4 & E5 & _). split; auto. split; auto.
    intros Ha r Hr f. specialize (H Ha r Hr f). rewrite E1, E3. destruct (member_in f w W) as [I|Z].
    + unfold shows. rewrite E5 by auto. exact H.
    + rewrite Z in *. unfold shows in *. rewrite (proj2 (wi_null _ W')). rewrite (proj2 (wi_null _ W)) in H. exact H.
Qed.
Lemma VI_start : VI vstart.
Proof.
  split; [apply start_reached|]. split; [apply world0_ok|]. intros _ r (rs & E). cbn in E. destruct rs; discriminate.
Qed.
Lemma VI_run l : forall g, VI g -> vpolite_run g l -> VI (vrun g l).
Proof.
  induction l as [|a l IH]; intros g H HP; [exact H|]. destruct HP as (HP & HP'). cbn [FieldCopies.vrun fold_left]. apply IH; auto. now apply VI_step.
Qed.
Lemma vpolite_app a b : forall g, vpolite_run g (a ++ b) -> vpolite_run g a /\ vpolite_run (vrun g a) b.
Proof. induction a as [|x a IH]; intros g H; [split; [exact Logic.I|exact H]|]. destruct H as (H1 & H2). apply IH in H2 as (H2 & H3). repeat split; auto. Qed.
Lemma vrun_app a b g : vrun g (a ++ b) = vrun (vrun g a) b.
Proof. apply fold_left_app. Qed.

Lemma reading_shows c stk w junk i v : answering c stk -> shows (w_heap w) i (w_n w) v -> reading c stk w junk i = v.
Proof.
  intros Ha (H1 & H2). unfold reading. rewrite H1. apply answeringb_iff in Ha. rewrite Ha. cbn [andb].
  unfold blen. rewrite Nat2Z.id. destruct H2 as [-> |[-> |(-> & ->)]]; rewrite ?Nat.eqb_refl; apply firstn_all.
Qed.

(** ** The theorems *)
(* The getters show the request whatever user code did with copies of them. *)
Theorem C80_getters : forall l c stk w r f junk, vpolite_run vstart l -> vrun vstart l = VRun c stk w ->
  answering c stk -> current c r -> reading c stk w junk (member f w) = value_of f r.
Proof.
  intros l c stk w r f junk HP E Ha Hr. pose proof (VI_run l vstart VI_start HP) as H. rewrite E in H. destruct H as (_ & _ & H).
  apply reading_shows; auto.
Qed.

(* A copy taken while a request is answered *)
Definition KI (n k : nat) (v : bytes) (g : vcfg) : Prop :=
  match g with
  | VBad => True
  | VRun c stk w => (n <= w_n w)%nat /\ exists i, copy_of k w = Some i /\ (w_n w = n -> answering c stk -> shows (w_heap w) i n v)
  end.
Lemma copy_own k j b m w i : copy_of k w = Some i -> copy_of k (own_copy j b m w) = Some (if (j =? k)%nat then length (w_heap w) else i).
Proof.
  intros H. unfold copy_of at 1. cbn [own_copy w_copies]. rewrite slot_same. destruct (Nat.eqb_spec j k) as [-> |N]; cbn [andb]; auto.
  pose proof (copy_len _ _ _ H) as L. apply Nat.ltb_lt in L. rewrite L. auto.
Qed.
Lemma user_copy c stk w a c' stk' w' k i : (forall b, a <> VAct b) -> spares k a -> vstep (VRun c stk w) a = VRun c' stk' w' -> copy_of k w = Some i ->
  copy_of k w' = Some i \/ exists junk, a = VDetach k junk /\ copy_of k w' = Some (length (w_heap w)) /\ w' = own_copy k (reading c stk w junk i) 0 w.
Proof.
  intros HA HS E HK. destruct a as [b|f|j junk|j s m junk|j]; [now destruct (HA b)| | | |]; cbn [FieldCopies.vstep] in E; cbn [spares] in HS.
  - injection E as <- <- <-. left. unfold copy_of in *. cbn [w_copies]. rewrite app_nth1; auto. eapply copy_len; eauto.
  - destruct (copy_of j w) as [x|] eqn:EJ; [|injection E as <- <- <-; auto]. destruct (_ && _); injection E as <- <- <-; auto.
    rewrite (copy_own _ _ _ _ _ _ HK). destruct (Nat.eqb_spec j k) as [-> |N]; auto. right. exists junk. rewrite HK in EJ. injection EJ as <-. auto.
  - destruct (copy_of j w) as [x|] eqn:EJ; [|injection E as <- <- <-; auto]. destruct s; [injection E as <- <- <-; auto|]. cbv zeta in E.
    destruct (_ || _).
    + injection E as <- <- <-. rewrite (copy_own _ _ _ _ _ _ HK). destruct (Nat.eqb_spec j k) as [-> |N]; auto. contradiction.
    + destruct (v_data _); try discriminate. injection E as <- <- <-. left. exact HK.
  - injection E as <- <- <-. left. unfold copy_of at 1. cbn [w_copies]. rewrite slot_same. destruct (Nat.eqb_spec j k); [contradiction|]. cbn [andb]. exact HK.
Qed.
Lemma KI_step n k v g a : VI g -> vpolite g a -> spares k a -> KI n k v g -> KI n k v (vstep g a).
Proof.
  intros HV HP HS H. destruct g as [c stk w|]; [|exact Logic.I]. destruct HV as (R & W & HV). destruct H as (Hn & i & HK & H).
  destruct (vstep (VRun c stk w) a) as [c' stk' w'|] eqn:E; [|exact Logic.I]. destruct (vact_cases a) as [(b & ->)|HA].
  - destruct (vact_step _ _ _ _ _ _ _ R HP E) as (R' & Ph & ->). destruct (follow_ok c stk b c' w W) as (_ & EC).
    assert (HK' : copy_of k (follow c stk b c' w) = Some i) by (unfold copy_of in *; now rewrite EC).
    destruct Ph as [_ Q N _|_ _ O Q|_ A Hr' Q _|_ _ Q N|r' _ _ Q _].
    + split; [rewrite follow_quiet; auto|]. exists i. split; auto. contradiction.
    + split; [rewrite follow_quiet; auto|]. exists i. split; auto. intros _ X. now apply over_not_answering in R'.
    + rewrite follow_same by auto. split; auto. exists i. split; auto.
    + split; [rewrite follow_quiet; auto|]. exists i. split; auto. contradiction.
    + assert (X : w_n (follow c stk b c' w) = S (w_n w)).
      { rewrite (follow_ready _ _ _ _ _ _ Q). destruct (released_ok stk b w W) as (W' & En). rewrite <- En. apply (an_n _ _ _ (announce_ok r' _ W')). }
      split; [lia|]. exists i. split; auto. intros Y. lia.
  - destruct (user_ok c stk w a _ W HA eq_refl) as (w1 & E0 & W' & E1 & E2 & E3 & E4 & E5 & E6). rewrite E in E0. injection E0 as -> -> <-.
    split; [lia|]. destruct (user_copy _ _ _ _ _ _ _ _ _ HA HS E HK) as [HK'|(junk & -> & HK' & Ew)].
    + exists i. split; auto. intros X Y. rewrite E1 in X. unfold shows. rewrite E6 with (k := k); auto; [now apply H|].
      intros s m x ->. now apply HS.
    + eexists. split; [exact HK'|]. intros X Y. rewrite E1 in X. specialize (H X Y). subst w'. cbn [own_copy w_heap].
      subst n. rewrite (reading_shows c stk w junk i v) by auto. unfold shows. rewrite at_fresh, Nat.eqb_refl. cbn. auto.
Qed.
Lemma KI_run n k v l : forall g, VI g -> vpolite_run g l -> Forall (spares k) l -> KI n k v g -> KI n k v (vrun g l).
Proof.
  induction l as [|a l IH]; intros g HV HP HS H; [exact H|]. destruct HP as (HP & HP'). inversion HS; subst. cbn [FieldCopies.vrun fold_left].
  apply IH; auto; [now apply VI_step|now apply KI_step].
Qed.
Lemma copy_new f c stk w : copy_of (length (w_copies w)) (mkW (w_n w) (w_heap w) (w_hdrs w) (w_fix w) (w_copies w ++ [Some (member f w)])) = Some (member f w) /\
  vstep (VRun c stk w) (VCopy f) = VRun c stk (mkW (w_n w) (w_heap w) (w_hdrs w) (w_fix w) (w_copies w ++ [Some (member f w)])).
Proof. split; [|reflexivity]. unfold copy_of. cbn [w_copies]. rewrite app_nth2, Nat.sub_diag by lia. reflexivity. Qed.

Lemma kept_KI l1 f l2 c stk w r : vpolite_run vstart (l1 ++ VCopy f :: l2) -> vrun vstart l1 = VRun c stk w -> answering c stk -> current c r ->
  Forall (spares (length (w_copies w))) l2 ->
  KI (w_n w) (length (w_copies w)) (value_of f r) (vrun vstart (l1 ++ VCopy f :: l2)) /\ VI (vrun vstart (l1 ++ VCopy f :: l2)).
Proof.
  intros HP E Ha Hr HS. assert (HP0 := HP). apply vpolite_app in HP as (HP1 & HP2). rewrite E in HP2. destruct HP2 as (_ & HP2).
  pose proof (VI_run l1 vstart VI_start HP1) as HV. rewrite E in HV.
  split; [|apply VI_run; [exact VI_start|exact HP0]].
  rewrite vrun_app, E. cbn [FieldCopies.vrun fold_left]. apply KI_run; auto.
  - now apply VI_step.
  - destruct (copy_new f c stk w) as (C1 & ->). split; [cbn; lia|]. eexists. split; [exact C1|]. intros _ _. cbn [w_heap]. now apply (proj2 (proj2 HV)).
Qed.

(* A copy taken while a request is answered reads the same for as long as that request is answered, whatever else is done,
   also to other copies; [detach()] may be called on it. *)
Theorem C80_copy : forall l1 f l2 c stk w r c2 stk2 w2 junk,
  vpolite_run vstart (l1 ++ VCopy f :: l2) ->
  vrun vstart l1 = VRun c stk w -> answering c stk -> current c r ->
  Forall (spares (length (w_copies w))) l2 ->
  vrun vstart (l1 ++ VCopy f :: l2) = VRun c2 stk2 w2 -> answering c2 stk2 -> w_n w2 = w_n w ->
  reads (VRun c2 stk2 w2) (length (w_copies w)) junk = Some (value_of f r).
Proof.
  intros l1 f l2 c stk w r c2 stk2 w2 junk HP E Ha Hr HS E2 Ha2 En.
  destruct (kept_KI _ _ _ _ _ _ _ HP E Ha Hr HS) as (HK & HV). rewrite E2 in HK, HV. destruct HK as (_ & i & HK & H).
  cbn [reads]. rewrite HK. f_equal. apply reading_shows; auto. rewrite En. now apply H.
Qed.

(* A detached copy *)
Definition XI (k : nat) (v : bytes) (g : vcfg) : Prop :=
  match g with
  | VBad => True
  | VRun c stk w => exists i, copy_of k w = Some i /\ i <> 0%nat /\ ~ In i (members w) /\ v_size (at_ (w_heap w) i) = blen v /\ v_data (at_ (w_heap w) i) = Own v
  end.
Lemma reading_own c stk w junk i v : v_size (at_ (w_heap w) i) = blen v -> v_data (at_ (w_heap w) i) = Own v -> reading c stk w junk i = v.
Proof. intros H1 H2. unfold reading. rewrite H1, H2. unfold blen. rewrite Nat2Z.id. apply firstn_all. Qed.
Lemma fresh_notin w k : WI w -> ~ In (length (w_heap w)) (members w) /\ length (w_heap w) <> 0%nat /\ (copy_of k w = Some (length (w_heap w)) -> False).
Proof.
  intros W. pose proof (wi_in _ W) as F. assert (X : forall i, In i (members w ++ alive (w_copies w)) -> (i < length (w_heap w))%nat) by (intros i I; now apply (proj1 (Forall_forall _ _) F)).
  pose proof (wi_null _ W). split; [|split; [lia|]].
  - intros I. specialize (X _ (in_or_app _ _ _ (or_introl I))). lia.
  - intros I. apply copy_alive in I. specialize (X _ (in_or_app _ _ _ (or_intror I))). lia.
Qed.
Lemma XI_step k v g a : VI g -> vpolite g a -> spares k a -> XI k v g -> XI k v (vstep g a).
Proof.
  intros HV HP HS H. destruct g as [c stk w|]; [|exact Logic.I]. destruct HV as (R & W & HV). destruct H as (i & HK & Hz & Hm & H1 & H2).
  assert (Hi : (i < length (w_heap w))%nat).
  { pose proof (wi_in _ W) as F. apply (proj1 (Forall_forall _ _) F). apply in_or_app. right. eapply copy_alive; eauto. }
  destruct (vstep (VRun c stk w) a) as [c' stk' w'|] eqn:E; [|exact Logic.I]. destruct (vact_cases a) as [(b & ->)|HA].
  - destruct (vact_step _ _ _ _ _ _ _ R HP E) as (R' & Ph & ->). destruct (follow_ok c stk b c' w W) as (U & EC).
    destruct (un_others _ _ U i Hi Hz Hm) as (E1 & E2). exists i. unfold copy_of in *. rewrite EC, E1. auto.
  - destruct (user_ok c stk w a _ W HA eq_refl) as (w1 & E0 & W' & E1 & E2 & E3 & E4 & E5 & E6). rewrite E in E0. injection E0 as -> -> <-.
    destruct (user_copy _ _ _ _ _ _ _ _ _ HA HS E HK) as [HK'|(junk & -> & HK' & Ew)].
    + exists i. rewrite E2. rewrite E6 with (k := k); auto. intros s m x ->. now apply HS.
    + eexists. split; [exact HK'|]. destruct (fresh_notin w k W) as (F1 & F2 & _). split; auto. rewrite E2. split; auto.
      subst w'. cbn [own_copy w_heap]. rewrite at_fresh, Nat.eqb_refl. rewrite (reading_own c stk w junk i v) by auto. auto.
Qed.
Lemma XI_run k v l : forall g, VI g -> vpolite_run g l -> Forall (spares k) l -> XI k v g -> XI k v (vrun g l).
Proof.
  induction l as [|a l IH]; intros g HV HP HS H; [exact H|]. destruct HP as (HP & HP'). inversion HS; subst. cbn [FieldCopies.vrun fold_left].
  apply IH; auto; [now apply VI_step|now apply XI_step].
Qed.

(* A copy on which detach() is called before the request is over keeps its bytes for ever, unless it is changed itself. *)
Theorem C80_detached : forall l1 f l2 junk l3 c stk w r c2 stk2 w2 c3 stk3 w3 junk',
  vpolite_run vstart ((l1 ++ VCopy f :: l2) ++ VDetach (length (w_copies w)) junk :: l3) ->
  vrun vstart l1 = VRun c stk w -> answering c stk -> current c r ->
  Forall (spares (length (w_copies w))) l2 ->
  vrun vstart (l1 ++ VCopy f :: l2) = VRun c2 stk2 w2 -> answering c2 stk2 -> w_n w2 = w_n w ->
  Forall (spares (length (w_copies w))) l3 ->
  vrun vstart ((l1 ++ VCopy f :: l2) ++ VDetach (length (w_copies w)) junk :: l3) = VRun c3 stk3 w3 ->
  reads (VRun c3 stk3 w3) (length (w_copies w)) junk' = Some (value_of f r).
Proof.
  intros l1 f l2 junk l3 c stk w r c2 stk2 w2 c3 stk3 w3 junk' HP E Ha Hr HS E2 Ha2 En HS3 E3.
  apply vpolite_app in HP as (HP1 & HP2). destruct (kept_KI _ _ _ _ _ _ _ HP1 E Ha Hr HS) as (HK & HV). rewrite E2 in *.
  rewrite vrun_app, E2 in E3. cbn [FieldCopies.vrun fold_left] in E3. destruct HP2 as (_ & HP2). destruct HK as (_ & i & HK & H). specialize (H En Ha2).
  set (k := length (w_copies w)) in *. set (v := value_of f r) in *.
  assert (W := proj1 (proj2 HV)).
  assert (X : XI k v (vstep (VRun c2 stk2 w2) (VDetach k junk))).
  { cbn [FieldCopies.vstep]. rewrite HK. destruct (sole i (all_arrays w2)) eqn:ES.
    - apply sole_true in ES as (Nz & R1); [|unfold all_arrays; apply in_or_app; right; eapply copy_alive; eauto].
      unfold all_arrays in R1. rewrite refs_app in R1. assert (R2 := refs_in _ _ (copy_alive _ _ _ HK)).
      assert (Hm : ~ In i (members w2)) by (apply refs_zero; lia).
      destruct H as (H1 & H2). destruct (v_data (at_ (w_heap w2) i)) as [d|m d|] eqn:ED; cbn [andb].
      + exists i. rewrite ED. repeat split; auto. destruct H2 as [H2|[H2|(H2 & _)]]; try discriminate. exact H2.
      + eexists. split; [rewrite (copy_own _ _ _ _ _ _ HK), Nat.eqb_refl; reflexivity|]. destruct (fresh_notin w2 k W) as (F1 & F2 & _). split; auto. split; auto.
        cbn [own_copy w_heap]. rewrite at_fresh, Nat.eqb_refl. rewrite (reading_shows c2 stk2 w2 junk i v); auto. rewrite En. split; auto. rewrite ED. auto.
      + eexists. split; [rewrite (copy_own _ _ _ _ _ _ HK), Nat.eqb_refl; reflexivity|]. destruct (fresh_notin w2 k W) as (F1 & F2 & _). split; auto. split; auto.
        cbn [own_copy w_heap]. rewrite at_fresh, Nat.eqb_refl. rewrite (reading_shows c2 stk2 w2 junk i v); auto. rewrite En. split; auto. rewrite ED. auto.
    - cbn [andb]. eexists. split; [rewrite (copy_own _ _ _ _ _ _ HK), Nat.eqb_refl; reflexivity|]. destruct (fresh_notin w2 k W) as (F1 & F2 & _). split; auto. split; auto.
      cbn [own_copy w_heap]. rewrite at_fresh, Nat.eqb_refl. rewrite (reading_shows c2 stk2 w2 junk i v); auto. now rewrite En. }
  pose proof (XI_run k v l3 _ (VI_step _ (VDetach k junk) HV Logic.I) HP2 HS3 X) as Y. unfold FieldCopies.vrun in Y. rewrite E3 in Y.
  destruct Y as (i3 & Y1 & _ & _ & Y2 & Y3). cbn [reads]. rewrite Y1. f_equal. now apply reading_own.
Qed.

(* Appending to a copy never writes into memory that is not the copy's. *)
Theorem C80_append : forall l c stk w k s m junk, vpolite_run vstart l -> vrun vstart l = VRun c stk w ->
  vstep (VRun c stk w) (VAppend k s m junk) <> VBad.
Proof.
  intros l c stk w k s m junk HP E. pose proof (VI_run l vstart VI_start HP) as H. rewrite E in H. destruct H as (_ & W & _).
  destruct (user_ok c stk w (VAppend k s m junk) _ W ltac:(discriminate) eq_refl) as (w' & -> & _). discriminate.
Qed.

(** ** A case *)
Definition vpoliteb (g : vcfg) (a : vact) : bool :=
  match g, a with VRun c stk _, VAct a => politeb c stk a | _, _ => true end.
Fixpoint vpoliteb_run (g : vcfg) (l : list vact) {struct l} : bool :=
  match l with [] => true | a :: t => vpoliteb g a && vpoliteb_run (vstep g a) t end.
Lemma vpoliteb_ok l : forall g, vpoliteb_run g l = true -> vpolite_run g l.
Proof.
  induction l as [|a l IH]; intros g H; [exact Logic.I|]. cbn [vpoliteb_run] in H. apply andb_true_iff in H as (H1 & H2).
  split; [|now apply IH]. destruct g as [c stk w|]; [|exact Logic.I]. destruct a; try exact Logic.I. now apply politeb_ok.
Qed.
End Version.
Definition v_state (g : vcfg) : conn * list frame * world := match g with VRun c stk w => (c, stk, w) | VBad => (conn0, [], world0) end.

Definition post (path content : bytes) : bytes :=
  lit "POST " ++ path ++ lit " HTTP/1.1" ++ CRLF ++ lit "Content-Length: 3" ++ CRLF ++ CRLF ++ content.
(* two pipelined requests *)
Definition arriving : list vact := [VAct (ACall (OpInit (NewDevice true true true (post (lit "/a") (lit "abc") ++ post (lit "/b") (lit "xyz"))))); VAct (ACall OpProcess)].
(* the handler of the first keeps its content as it is and in a detached copy, and its method; it answers; the second is announced *)
Definition keeping : list vact := arriving ++ VCopy VContent :: [VCopy VContent; VCopy VMethod].
Definition going_on : list vact := [VAct (ACall (OpWriteResponse 200 [] (lit "ok"))); VAct AReturn; VAppend 1 (lit "def") 0 []].
Definition later : list vact := keeping ++ VDetach 0 [] :: going_on.

Example C80_case : forall qt5,
  let c1 := fst (fst (v_state (vrun qt5 vstart arriving))) in let s1 := snd (fst (v_state (vrun qt5 vstart arriving))) in let w1 := snd (v_state (vrun qt5 vstart arriving)) in
  let g3 := vrun qt5 vstart later in
  vpolite_run qt5 vstart later /\ vrun qt5 vstart arriving = VRun c1 s1 w1 /\ answering c1 s1 /\ length (w_copies w1) = 0%nat /\
  (exists r, current c1 r /\ value_of VContent r = lit "abc") /\
  (exists c2 w2, vrun qt5 vstart keeping = VRun c2 s1 w2 /\ answering c2 s1 /\ w_n w2 = w_n w1) /\
  Forall (spares 0) [VCopy VContent; VCopy VMethod] /\ Forall (spares 0) going_on /\
  (exists c3 s3 w3, g3 = VRun c3 s3 w3 /\ announced (log c3) <> announced (log c1) /\ answering c3 s3 /\
     forall junk, reads g3 0 junk = Some (lit "abc") /\ reading c3 s3 w3 junk (member VContent w3) = lit "xyz").
Proof.
  intros qt5. cbv zeta. split; [apply vpoliteb_ok; destruct qt5; vm_compute; reflexivity|]. split; [destruct qt5; vm_compute; reflexivity|].
  split; [left; destruct qt5; vm_compute; reflexivity|]. split; [destruct qt5; vm_compute; reflexivity|].
  split. { exists (nth 0 (announced (log (fst (fst (v_state (vrun qt5 vstart arriving)))))) req0). split; [exists []; destruct qt5; vm_compute; reflexivity|destruct qt5; vm_compute; reflexivity]. }
  split. { exists (fst (fst (v_state (vrun qt5 vstart keeping)))), (snd (v_state (vrun qt5 vstart keeping))). split; [destruct qt5; vm_compute; reflexivity|]. split; [left; destruct qt5; vm_compute; reflexivity|destruct qt5; vm_compute; reflexivity]. }
  split; [repeat constructor|]. split; [repeat constructor; discriminate|].
  exists (fst (fst (v_state (vrun qt5 vstart later)))), (snd (fst (v_state (vrun qt5 vstart later)))), (snd (v_state (vrun qt5 vstart later))).
  split; [destruct qt5; vm_compute; reflexivity|]. split; [destruct qt5; vm_compute; discriminate|]. split; [left; destruct qt5; vm_compute; reflexivity|].
  intros junk. split; destruct qt5; vm_compute; reflexivity.
Qed.

(* Without detach() a copy is not kept: once the request is over, a copy of the content is empty (and takes the text of
   whatever the buffer holds if it is a copy of another field). *)
Definition undetached : list vact := keeping ++ [VAct (ACall (OpWriteResponse 200 [] (lit "ok"))); VAct AReturn].
Theorem C80_undetached_lost : forall qt5, exists l g, vpolite_run qt5 vstart l /\ vrun qt5 vstart l = g /\
  (exists l1 c stk w r, l = l1 ++ VCopy VContent :: skipn (S (length l1)) l /\ vrun qt5 vstart l1 = VRun c stk w /\ answering c stk /\ current c r /\
     q_content r = lit "abc" /\ length (w_copies w) = 0%nat) /\
  forall junk, reads g 0 junk = Some [] /\ reads g 2 junk = Some (firstn 4 junk).
Proof.
  intros qt5. exists undetached, (vrun qt5 vstart undetached). split; [apply vpoliteb_ok; destruct qt5; vm_compute; reflexivity|]. split; [reflexivity|]. split.
  - exists arriving, (fst (fst (v_state (vrun qt5 vstart arriving)))), (snd (fst (v_state (vrun qt5 vstart arriving)))), (snd (v_state (vrun qt5 vstart arriving))),
      (nth 0 (announced (log (fst (fst (v_state (vrun qt5 vstart arriving)))))) req0).
    split; [reflexivity|]. split; [destruct qt5; vm_compute; reflexivity|]. split; [left; destruct qt5; vm_compute; reflexivity|]. split; [exists []; destruct qt5; vm_compute; reflexivity|].
    split; destruct qt5; vm_compute; reflexivity.
  - intros junk. split; [destruct qt5; vm_compute; reflexivity|]. destruct qt5; vm_compute; destruct junk as [|? [|? [|? [|]]]]; reflexivity.
Qed.

(** When the connection is destroyed its members are gone.  With Qt 5 a copy can still be appended to; with Qt 4 a copy
    of the content that was left undetached is then the only one to use its block, which says that there is room in the
    memory it points to, the connection's released request buffer. *)
Definition destroyed (w : world) : world := mkW (w_n w) (w_heap w) [] [] (w_copies w).
Theorem C80_destroyed : forall l c stk w k s m junk, vpolite_run true vstart l -> vrun true vstart l = VRun c stk w ->
  vstep true (VRun c stk (destroyed w)) (VAppend k s m junk) <> VBad.
Proof.
  intros l c stk w k s m junk HP E. pose proof (VI_run true l vstart (VI_start true) HP) as H. rewrite E in H. destruct H as (_ & W & _).
  cbn [vstep]. change (copy_of k (destroyed w)) with (copy_of k w). destruct (copy_of k w) as [i|] eqn:EC; [|discriminate]. destruct s as [|x s]; [discriminate|].
  cbv zeta. cbn [destroyed w_heap]. destruct (negb _ || _) eqn:EO; [discriminate|]. apply orb_false_iff in EO as (_ & EO). apply Z.ltb_ge in EO.
  assert (Hi : (i < length (w_heap w))%nat).
  { pose proof (wi_in _ _ W) as F. apply (proj1 (Forall_forall _ _) F). rewrite in_app_iff. right. eapply copy_alive; eauto. }
  destruct (wi_ok _ _ W i Hi) as ((O1 & O2) & _). unfold blen in EO. cbn [length] in EO.
  destruct (v_data (at_ (w_heap w) i)); [discriminate|specialize (O2 eq_refl); lia..].
Qed.
Definition answered : list vact :=
  [VAct (ACall (OpInit (NewDevice true true true (post (lit "/a") (lit "abc"))))); VAct (ACall OpProcess); VCopy VContent;
   VAct (ACall (OpWriteResponse 200 [] (lit "ok"))); VAct AReturn].
Theorem C80_destroyed_refuted : vpolite_run false vstart answered /\
  exists c stk w, vrun false vstart answered = VRun c stk w /\ vstep false (VRun c stk (destroyed w)) (VAppend 0 (lit "x") 0 []) = VBad.
Proof.
  split; [apply vpoliteb_ok; vm_compute; reflexivity|].
  exists (fst (fst (v_state (vrun false vstart answered)))), (snd (fst (v_state (vrun false vstart answered)))), (snd (v_state (vrun false vstart answered))).
  split; vm_compute; reflexivity.
Qed.
Print Assumptions C80_detached.
