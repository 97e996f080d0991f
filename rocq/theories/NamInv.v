(** The invariant of the NetworkAccessManager in calm histories. *)
From Verif Require Import Bytes ByteHelpers Helpers Joyent RespParser Client ClientSpec ClientInv NamExt Nam NamSpec CIProofs.
Open Scope Z_scope.

(** ** Logs *)
Lemma writes_split l0 ws l r m : l0 ++ map CWrite ws = l ++ CAccepted r :: m -> exists m', l0 = l ++ CAccepted r :: m'.
Proof.
  revert m. induction ws as [|w ws IH] using List.rev_ind; intros m E; [rewrite app_nil_r in E; eauto|].
  rewrite map_app, app_assoc in E. destruct m as [|x m _] using List.rev_ind.
  - apply app_inj_tail in E as [_ E]. discriminate.
  - rewrite app_comm_cons, app_assoc in E. apply app_inj_tail in E as [E _]. eauto.
Qed.
Lemma dialog_accept l' s : Dialog l' s -> forall l r m, l' = l ++ CAccepted r :: m -> under l = None.
Proof.
  induction 1 as [|l0 k r0 H IH K|l0 k r0 H IH|l0 s r0 r' H IH U|l0 r0 H IH|l0 s r0 ws H IH U T P|l0 s r0 code hs H IH U N|l0 s r0 b H IH U|l0 s r0 e code hs b H IH U]; intros l r m E;
    [destruct l; discriminate| | | | | |..].
  2,3,4,6,7,8: destruct m as [|x m _] using List.rev_ind; [apply app_inj_tail in E as [_ E]; discriminate|rewrite app_comm_cons, app_assoc in E; apply app_inj_tail in E as [E _]; eauto].
  - destruct m as [|x m _] using List.rev_ind.
    + apply app_inj_tail in E as [<- _]. now rewrite (proj2 (dialog_work _ _ H)).
    + rewrite app_comm_cons, app_assoc in E. apply app_inj_tail in E as [E _]. eauto.
  - destruct (writes_split _ _ _ _ _ E) as (m' & E'). eauto.
Qed.
Lemma under_same l : under_way_after l = under l.
Proof. reflexivity. Qed.

(** events without signals: at most one acceptance *)
Lemma quiet_ends W q : Forall (okq W) q -> existsb ends_round q = true -> exists q1 r q2, q = q1 ++ CAccepted r :: q2 /\ existsb ends_round q2 = false /\ W = Some r.
Proof.
  induction 1 as [|o q Ho Hq IH]; [discriminate|]. cbn [existsb]. destruct (existsb ends_round q) eqn:E.
  - intros _. destruct (IH eq_refl) as (q1 & r & q2 & -> & A & B). exists (o :: q1), r, q2. auto.
  - rewrite orb_false_r. intros X. destruct o; cbn [okq ends_round] in *; try discriminate; try contradiction. exists [], r, q. auto.
Qed.
Lemma quiet_under q : existsb ends_round q = false -> forall l, under (l ++ q) = under l.
Proof.
  induction q as [|o q IH]; intros E l; [now rewrite app_nil_r|]. cbn [existsb] in E. apply orb_false_iff in E as [E1 E2].
  replace (l ++ o :: q) with ((l ++ [o]) ++ q) by now rewrite <- app_assoc. rewrite IH, under_snoc by auto. destruct o; try discriminate; reflexivity.
Qed.
Lemma under_round pre r evs : existsb ends_round evs = false -> under (pre ++ CAccepted r :: evs) = Some r.
Proof. intros E. replace (pre ++ CAccepted r :: evs) with ((pre ++ [CAccepted r]) ++ evs) by now rewrite <- app_assoc. now rewrite quiet_under, under_snoc. Qed.
Lemma first_end W q : Forall (okq W) q -> existsb ends_round q = true -> exists q1 r q2, q = q1 ++ CAccepted r :: q2 /\ existsb ends_round q1 = false.
Proof.
  induction 1 as [|o q Ho Hq IH]; [discriminate|]. cbn [existsb]. destruct (ends_round o) eqn:E.
  - intros _. destruct o; cbn [okq ends_round] in *; try discriminate; try contradiction. exists [], r, q. auto.
  - cbn [orb]. intros X. destruct (IH X) as (q1 & r & q2 & -> & A). exists (o :: q1), r, q2. split; auto. cbn [existsb]. now rewrite E.
Qed.
Section Seen.
Context {cook : list bytes -> option bytes}.
Notation shows := (NamSpec.shows cook).
Notation Seen := (NamSpec.Seen cook).
Notation view_after := (NamSpec.view_after cook).
Lemma quiet_view W q : Forall (okq W) q -> forall v, fold_left shows q v = v.
Proof. induction 1 as [|o q Ho Hq IH]; intros v; cbn [fold_left]; auto. rewrite IH. destruct o; cbn [okq] in Ho; try contradiction; reflexivity. Qed.

(** ** What a reply sees *)
Lemma seen_quiet W B l q m s p : Forall (okq W) q -> Dialog (l ++ q ++ m) s -> np_phase p = RWorking -> np_req p = B -> W = None \/ W = B -> Seen l p -> Seen (l ++ q) p.
Proof.
  intros F D Wk Rq WB S. destruct S as [_ U V|pre r evs El E R _ V|pre r evs e code hs b post _ _ _ [X|[X _]]]; try congruence.
  - destruct (existsb ends_round q) eqn:X.
    + destruct (quiet_ends W q F X) as (q1 & r & q2 & -> & Y & ->). apply Forall_app in F as [F1 F2]. apply Forall_inv_tail in F2.
      eapply (Sn_running _ _ (l ++ q1) r q2); auto; [now rewrite <- app_assoc|destruct WB as [WB|WB]; congruence|]. unfold view_after. now rewrite (quiet_view _ _ F2), V.
    + apply Sn_waiting; auto. rewrite under_same in *. now rewrite quiet_under.
  - subst l. destruct (existsb ends_round q) eqn:X.
    + exfalso. destruct (first_end W q F X) as (q1 & r' & q2 & -> & Y). rewrite <- (app_assoc q1), (app_assoc _ q1) in D.
      assert (Z : under ((pre ++ CAccepted r :: evs) ++ q1) = None) by (eapply dialog_accept; [exact D|reflexivity]).
      rewrite quiet_under, under_round in Z by auto. discriminate.
    + apply (Sn_running _ _ pre r (evs ++ q)); auto; [now rewrite <- app_assoc|now rewrite existsb_app, E, X|]. rewrite V. unfold view_after. rewrite fold_left_app, (quiet_view _ _ F). reflexivity.
Qed.
Lemma seen_more l m p : np_phase p <> RWorking -> Seen l p -> Seen (l ++ m) p.
Proof.
  intros N S. destruct S as [X _ _|pre r evs _ _ _ X _|pre r evs e code hs b post El E R P V Er]; try congruence. subst l.
  apply (Sn_finished _ _ pre r evs e code hs b (post ++ m)); auto. rewrite <- app_assoc. cbn [app]. rewrite <- app_assoc. reflexivity.
Qed.
Lemma seen_signal l o p r : np_phase p = RWorking -> under l = Some r -> Seen l p -> exists pre evs, l = pre ++ CAccepted r :: evs /\ existsb ends_round evs = false /\ np_req p = Some r /\ view_of p = view_after evs /\ view_after (evs ++ [o]) = shows (view_of p) o.
Proof.
  intros Wk U S. destruct S as [_ U' _|pre r' evs El E R _ V|pre r' evs e code hs b post _ _ _ [X|[X _]]]; try congruence; try (rewrite under_same in *; congruence).
  subst l. rewrite under_round in U by auto. injection U as ->. exists pre, evs. repeat split; auto. unfold view_after in *. rewrite fold_left_app, V. reflexivity.
Qed.

Lemma last_or_snoc {A} (l : list A) x d : last_or (l ++ [x]) d = Some x.
Proof. unfold last_or. now rewrite rev_app_distr. Qed.
Lemma meta_loop hs : forall raw t cs, fold_left meta1 hs (raw, t, cs) =
  (fold_left (fun l h => Proxy.setRawHeader h l) hs raw, last_or (map snd (filter (named "location") hs)) t, cs ++ map snd (filter (named "set-cookie") hs)).
Proof.
  induction hs as [|h hs IH] using List.rev_ind; intros raw t cs; [cbn; now rewrite app_nil_r|].
  rewrite !fold_left_app, IH, !filter_app, !map_app. cbn [fold_left meta1 filter].
  assert (E1 : asciiEqualsCI_lower (fst h) (lit "set-cookie") = named "set-cookie" h).
  { unfold named. rewrite asciiEqualsCI_lower_agrees by reflexivity. apply eq_true_iff_eq. rewrite <- asciiEqualsCI_lower_agrees by reflexivity. rewrite asciiEqualsCI_lower_iff by reflexivity. now rewrite beqb_true. }
  assert (E2 : asciiEqualsCI_lower (fst h) (lit "location") = named "location" h).
  { unfold named. apply eq_true_iff_eq. rewrite asciiEqualsCI_lower_iff by reflexivity. now rewrite beqb_true. }
  rewrite E1, E2. destruct (named "set-cookie" h) eqn:S.
  - assert (named "location" h = false) as -> by (unfold named in *; apply beqb_true in S; rewrite S; reflexivity). cbn [map]. now rewrite app_nil_r, app_assoc.
  - destruct (named "location" h); cbn [map]; [rewrite last_or_snoc|]; now rewrite ?app_nil_r.
Qed.
Lemma view_headers code hs p : view_of (reply_headers cook code hs p) = shows (view_of p) (CHeaders code hs).
Proof. unfold reply_headers. rewrite meta_loop. cbn [app]. unfold view_of, NamSpec.shows, raw_headers. cbn [np_status np_headers np_content np_target np_sigs v_status v_headers v_content v_target v_signals]. reflexivity. Qed.
End Seen.

(** ** Lists *)
Lemma set_at_length {A} i (x : A) l : length (set_at i x l) = length l.
Proof. revert i. induction l as [|y l IH]; intros [|i]; cbn; auto. Qed.
Lemma nth_set_at {A} i (x : A) l d k : (i < length l)%nat -> nth k (set_at i x l) d = if Nat.eqb k i then x else nth k l d.
Proof.
  revert i k. induction l as [|y l IH]; intros i k H; cbn in H; [lia|]. destruct i as [|i]; cbn [set_at]; [destruct k; reflexivity|].
  destruct k as [|k]; [reflexivity|]. cbn [nth]. rewrite IH by lia. reflexivity.
Qed.
Lemma set_at_In {A} i (x y : A) l : In y (set_at i x l) -> y = x \/ In y l.
Proof. revert i. induction l as [|z l IH]; intros [|i] H; cbn in *; auto; destruct H as [H|H]; auto. destruct (IH _ H); auto. Qed.
Lemma Forall_set_at {A} (P : A -> Prop) i x l : P x -> Forall P l -> Forall P (set_at i x l).
Proof. intros Hx H. revert i. induction H as [|y l Hy Hl IH]; intros [|i]; cbn; auto. Qed.
Lemma set_at_replace {A} i (y : A) l : nth_error l i = Some y -> exists a b, l = a ++ y :: b /\ forall x, set_at i x l = a ++ x :: b.
Proof.
  revert i. induction l as [|z l IH]; intros [|i] H; cbn in H; try discriminate.
  - injection H as ->. exists [], l. auto.
  - destruct (IH _ H) as (a & b & -> & E). exists (z :: a), b. split; auto. intros x. cbn. now rewrite E.
Qed.

(** ** Replies attached to a client *)
Lemma attached_working i p : attached i p = true <-> np_client p = i /\ working p.
Proof. unfold attached, working. rewrite andb_true_iff, Nat.eqb_eq. destruct (np_phase p); intuition congruence. Qed.
Lemma for_attached_In i f l p' : In p' (for_attached i f l) -> exists p, In p l /\ p' = if attached i p then f p else p.
Proof. unfold for_attached. intros H. apply in_map_iff in H as (p & <- & H). eauto. Qed.
Lemma filter_for i k f l : (forall p, attached i p = true -> attached k (f p) = attached k p) -> length (filter (attached k) (for_attached i f l)) = length (filter (attached k) l).
Proof.
  intros H. unfold for_attached. induction l as [|p l IH]; auto. cbn [map filter]. destruct (attached i p) eqn:E; [rewrite (H p E)|]; destruct (attached k p); cbn; now rewrite IH.
Qed.
Lemma filter_nil {A} f (l : list A) : filter f l = [] <-> forall x, In x l -> f x = false.
Proof.
  split; intros H.
  - intros x Hx. destruct (f x) eqn:E; auto. assert (X : In x (filter f l)) by (apply filter_In; auto). rewrite H in X. destruct X.
  - induction l as [|x l IH]; auto. cbn. rewrite (H x) by now left. apply IH. intros y Hy. apply H. now right.
Qed.
Lemma finished_detached e p i : attached i (reply_finished e p) = false.
Proof. unfold attached. cbn [reply_finished np_client np_phase]. destruct e; apply andb_false_r. Qed.
Lemma finished_filter e i k l : (length (filter (attached k) (for_attached i (reply_finished e) l)) <= length (filter (attached k) l))%nat.
Proof.
  unfold for_attached. induction l as [|p l IH]; auto. cbn [map filter]. destruct (attached i p) eqn:E; [rewrite finished_detached|]; destruct (attached k p); cbn; lia.
Qed.
Lemma filter_none_iff i l : filter (attached i) l = [] <-> existsb (attached i) l = false.
Proof.
  rewrite filter_nil. split; intros H.
  - destruct (existsb (attached i) l) eqn:E; auto. apply existsb_exists in E as (x & Hx & E). now rewrite (H x Hx) in E.
  - intros x Hx. destruct (attached i x) eqn:E; auto. assert (X : existsb (attached i) l = true) by (apply existsb_exists; eauto). congruence.
Qed.

Section Nam.
  Variables (zlib : bool) (gunzip : list bytes -> bytes -> bytes) (parse_url : bytes -> url) (cook : list bytes -> option bytes).
  Hypothesis urls : forall b, wf_url (parse_url b).
  Notation cstep := (cstep zlib gunzip parse_url).
  Notation slots := (slots zlib gunzip parse_url cook).
  Notation shows := (NamSpec.shows cook).
  Notation Seen := (NamSpec.Seen cook).
  Notation Served := (NamSpec.Served cook).
  Notation view_after := (NamSpec.view_after cook).
  Notation reply_headers := (Nam.reply_headers cook).

  Record NIg (busy : nat -> option creq) (logs : nat -> list cobs) (s : nam) : Prop := mkNIg {
    g_rep : Forall (fun p => (np_client p < length (n_clients s))%nat /\ np_auth p = auth_of (np_client p) s) (n_replies s);
    g_pool : Forall (fun x => (snd x < length (n_clients s))%nat /\ fst x = auth_of (snd x) s) (n_pool s);
    g_once : NoDup (map snd (n_pool s));
    g_one : forall i, (length (filter (attached i) (n_replies s)) <= 1)%nat;
    g_work : forall p, In p (n_replies s) -> working p -> busy (np_client p) = np_req p;
    g_idle : forall a i, In (a, i) (n_pool s) -> busy i = None /\ filter (attached i) (n_replies s) = [];
    g_seen : forall p, In p (n_replies s) -> np_phase p <> RGone -> Seen (logs (np_client p)) p }.
  Definition consumed (g : ccfg) : Prop := match g with CRun c _ => c_pending c = true -> r_content (c_p c) = [] | CUB _ => False end.
  Record NI (s : nam) : Prop := mkNI {
    n_len : length (n_auths s) = length (n_clients s);
    n_inv : Forall InvG (n_clients s);
    n_con : forall p, In p (n_replies s) -> working p -> consumed (client_at s (np_client p));
    n_gen : NIg (fun i => busy_with (client_at s i)) (fun i => client_log (client_at s i)) s }.

  Lemma slots_quiet i W q : Forall (okq W) q -> forall s, fold_left (slots i) q s = s.
  Proof. induction 1 as [|o q Ho Hq IH]; intros s; auto. cbn [fold_left]. rewrite IH. destruct o; cbn [okq] in Ho; try contradiction; reflexivity. Qed.

  Lemma nig_ext busy logs busy' logs' s : (forall i, busy i = busy' i) -> (forall i, logs i = logs' i) -> NIg busy logs s -> NIg busy' logs' s.
  Proof.
    intros E1 E2 [A B C D F G H]. constructor; auto.
    - intros p Hp Hw. rewrite <- E1. auto.
    - intros a i Hi. rewrite <- E1. exact (G a i Hi).
    - intros p Hp Hw. rewrite <- E2. auto.
  Qed.

  (** client i has moved: it is busy with B, and its log was l when the invariant held *)
  Lemma moved s i c stk W B l q t : length (n_auths s) = length (n_clients s) -> Forall InvG (n_clients s) -> (i < length (n_clients s))%nat ->
    client_at s i = CRun c stk -> c_log c = l ++ q ++ t -> Forall (okq W) q -> t = [] \/ (exists o, t = [o] /\ is_signal o = true) ->
    work (l ++ q) = B -> W = None \/ W = B ->
    (existsb (attached i) (n_replies s) = true -> c_pending c = true -> r_content (c_p c) = match t with [CContent b] => b | _ => [] end) ->
    (forall p, In p (n_replies s) -> working p -> np_client p <> i -> consumed (client_at s (np_client p))) ->
    NIg (fun k => if Nat.eqb k i then B else busy_with (client_at s k)) (fun k => if Nat.eqb k i then l else client_log (client_at s k)) s ->
    NI (fold_left (slots i) (q ++ t) s).
  Proof.
    intros Ln Iv Hi Ei El F Ht Hw WB Hc Ho G. rewrite fold_left_app, (slots_quiet i W q F).
    assert (I : Inv c stk).
    { rewrite Forall_forall in Iv. assert (X : InvG (client_at s i)) by (apply Iv; unfold client_at; apply nth_In; exact Hi). rewrite Ei in X. exact X. }
    pose proof (co_dialog _ _ (iv_core _ _ (proj1 I))) as D. rewrite El in D.
    destruct (inv_work _ _ I) as [Iw Iu]. rewrite El, app_assoc in Iw, Iu.
    destruct G as [A1 A2 A3 A4 A5 A6 A7].
    assert (SQ : forall p, In p (n_replies s) -> np_phase p <> RGone -> np_client p = i -> (np_phase p = RWorking -> Seen (l ++ q) p) /\ (np_phase p <> RWorking -> forall m, Seen (l ++ m) p)).
    { intros p Hp Hg Hq. specialize (A7 p Hp Hg). rewrite Hq, Nat.eqb_refl in A7. split.
      - intros Wk. eapply seen_quiet; eauto. specialize (A5 p Hp Wk). rewrite Hq, Nat.eqb_refl in A5. rewrite <- A5. exact WB.
      - intros N m. now apply seen_more. }
    destruct Ht as [-> |(o & -> & So)]; cbn [fold_left].
    - (* no signal *)
      rewrite app_nil_r in *. assert (BW : busy_with (client_at s i) = B) by (rewrite Ei; cbn [busy_with]; unfold at_work in Iw; congruence).
      constructor; auto.
      + intros p Hp Wk. destruct (Nat.eqb_spec (np_client p) i) as [Hq|Hq]; [|auto]. rewrite Hq, Ei. cbn [consumed]. apply Hc. apply existsb_exists. exists p. split; auto. apply attached_working. auto.
      + constructor; auto.
        * intros p Hp Wk. specialize (A5 p Hp Wk). destruct (Nat.eqb_spec (np_client p) i) as [Hq|Hq]; [|auto]. rewrite Hq. congruence.
        * intros a k Hk. specialize (A6 a k Hk). cbv beta. destruct (Nat.eqb k i) eqn:Hq; [|exact A6]. apply Nat.eqb_eq in Hq. rewrite Hq in *. rewrite BW. exact A6.
        * intros p Hp Hg. specialize (A7 p Hp Hg). destruct (Nat.eqb_spec (np_client p) i) as [Hq|Hq]; [|auto]. rewrite Hq, Ei. cbn [client_log]. rewrite El.
          destruct (SQ p Hp Hg Hq) as [S1 S2]. destruct (np_phase p) eqn:Ph; auto; apply S2; congruence.
    - rewrite app_assoc in D. destruct (dialog_signal _ _ _ D So) as (s0 & r0 & D0 & U0). destruct (dialog_work _ _ D0) as [W0 U1]. rewrite U0 in U1.
      assert (B = Some r0) as -> by (destruct s0; cbn [under_way at_hand] in *; congruence). clear W0 D0 U0 s0.
      (* the replies of client i are running *)
      assert (SG : forall p, In p (n_replies s) -> attached i p = true -> np_req p = Some r0 /\ exists pre evs, l ++ q = pre ++ CAccepted r0 :: evs /\ existsb ends_round evs = false /\ view_of p = view_after evs /\ view_after (evs ++ [o]) = shows (view_of p) o).
      { intros p Hp At. apply attached_working in At as [Hq Wk]. destruct (SQ p Hp ltac:(unfold working in Wk; congruence) Hq) as [S1 _].
        destruct (seen_signal _ o p r0 Wk U1 (S1 Wk)) as (pre & evs & X1 & X2 & X3 & X4 & X5). split; eauto 10. }
      assert (ND : forall p, In p (n_replies s) -> np_phase p <> RGone -> attached i p = false -> Seen (if Nat.eqb (np_client p) i then c_log c else client_log (client_at s (np_client p))) p).
      { intros p Hp Hg At. specialize (A7 p Hp Hg). destruct (Nat.eqb_spec (np_client p) i) as [Hq|Hq]; [|exact A7].
        destruct (SQ p Hp Hg Hq) as [_ S2]. rewrite El. apply S2. intros Wk. assert (X : attached i p = true) by (apply attached_working; auto). congruence. }
      destruct o as [| | | | |code hs|b|e code hs b]; try discriminate So; cbn [Nam.slots].
      + (* headersCompleted *)
        assert (BW : busy_with (client_at s i) = Some r0) by (rewrite Ei; cbn [busy_with]; unfold at_work in Iw; rewrite work_snoc in Iw; cbn [work1] in Iw; congruence).
        assert (PA : forall p k, attached k (reply_headers code hs p) = attached k p) by reflexivity.
        set (s' := mkNam _ _ _ _). assert (CA : forall k, client_at s' k = client_at s k) by reflexivity.
        assert (RP : forall p', In p' (n_replies s') -> exists p, In p (n_replies s) /\ np_client p' = np_client p /\ np_phase p' = np_phase p /\ np_auth p' = np_auth p /\ np_req p' = np_req p /\ p' = if attached i p then reply_headers code hs p else p).
        { intros p' Hp'. apply for_attached_In in Hp' as (p & Hp & ->). exists p. destruct (attached i p); auto 10. }
        constructor; auto.
        * intros p' Hp' Wk. destruct (RP p' Hp') as (p & Hp & E1 & E2 & _). rewrite E1, CA. unfold working in Wk. rewrite E2 in Wk. destruct (Nat.eqb_spec (np_client p) i) as [Hq|Hq]; [|auto].
          rewrite Hq, Ei. cbn [consumed]. apply Hc. apply existsb_exists. exists p. split; auto. apply attached_working. auto.
        * constructor; auto.
          -- apply Forall_forall. intros p' Hp'. destruct (RP p' Hp') as (p & Hp & E1 & E2 & E3 & _). rewrite Forall_forall in A1. rewrite E1, E3. apply (A1 p Hp).
          -- intros k. unfold s'. cbn [n_replies]. rewrite filter_for; auto.
          -- intros p' Hp' Wk. destruct (RP p' Hp') as (p & Hp & E1 & E2 & E3 & E4 & _). unfold working in Wk. rewrite E2 in Wk. specialize (A5 p Hp Wk). rewrite CA, E1, E4.
             destruct (Nat.eqb_spec (np_client p) i) as [Hq|Hq]; [|auto]. rewrite Hq. congruence.
          -- intros a k Hk. destruct (A6 a k Hk) as [X1 X2]. rewrite CA. split; [destruct (Nat.eqb_spec k i); [congruence|exact X1]|].
             unfold s'. cbn [n_replies]. apply length_zero_iff_nil. rewrite filter_for by auto. now rewrite X2.
          -- intros p' Hp' Hg. destruct (RP p' Hp') as (p & Hp & E1 & E2 & E3 & E4 & E5). rewrite E2 in Hg. rewrite E1, CA. destruct (attached i p) eqn:At.
             ++ destruct (SG p Hp At) as (R1 & pre & evs & X1 & X2 & X3 & X4). apply attached_working in At as [Hq Wk]. rewrite Hq, Ei. cbn [client_log].
                apply (Sn_running _ _ pre r0 (evs ++ [CHeaders code hs])).
                ** now rewrite El, app_assoc, X1, <- app_assoc.
                ** rewrite existsb_app, X2. reflexivity.
                ** congruence.
                ** now rewrite E2.
                ** rewrite X4, E5, view_headers. reflexivity.
             ++ rewrite E5. specialize (ND p Hp Hg At). destruct (Nat.eqb_spec (np_client p) i) as [Hq|Hq]; [|exact ND]. rewrite Hq, Ei. exact ND.
      + (* contentReadyRead *)
        assert (BW : busy_with (client_at s i) = Some r0) by (rewrite Ei; cbn [busy_with]; unfold at_work in Iw; rewrite work_snoc in Iw; cbn [work1] in Iw; congruence).
        assert (Pn : c_pending c = true) by (rewrite under_snoc in Iu; cbn [under1] in Iu; destruct (c_pending c); congruence).
        destruct (existsb (attached i) (n_replies s)) eqn:Ex.
        * specialize (Hc eq_refl Pn). change (nth i (n_clients s) (CUB AssertFailed)) with (client_at s i). rewrite Ei. cbn [client_content]. rewrite Hc.
          assert (SC : cstep (CRun c stk) (CaCall CoConsume) = CRun (cset_p (set_content [] (c_p c)) c) stk) by (cbn [Client.cstep do_cop]; exact (shape_resume _ _ (iv_shape _ _ (proj1 I)) _ _ _)).
          assert (I2 : InvG (cstep (CRun c stk) (CaCall CoConsume))) by (apply (step_ok zlib gunzip parse_url urls); [exact I|exact Logic.I]).
          rewrite SC in *. set (g2 := CRun (cset_p (set_content [] (c_p c)) c) stk) in *. set (s' := mkNam _ _ _ _).
          assert (CA : forall k, client_at s' k = if Nat.eqb k i then g2 else client_at s k) by (intros k; unfold s', client_at; cbn [n_clients]; now apply nth_set_at).
          assert (BC : forall k, busy_with (client_at s' k) = busy_with (client_at s k)) by (intros k; rewrite CA; destruct (Nat.eqb_spec k i) as [-> |]; [rewrite Ei|]; reflexivity).
          assert (LC : forall k, client_log (client_at s' k) = client_log (client_at s k)) by (intros k; rewrite CA; destruct (Nat.eqb_spec k i) as [-> |]; [rewrite Ei|]; reflexivity).
          assert (PA : forall p k, attached k (reply_content b p) = attached k p) by reflexivity.
          assert (RP : forall p', In p' (n_replies s') -> exists p, In p (n_replies s) /\ np_client p' = np_client p /\ np_phase p' = np_phase p /\ np_auth p' = np_auth p /\ np_req p' = np_req p /\ p' = if attached i p then reply_content b p else p).
          { intros p' Hp'. apply for_attached_In in Hp' as (p & Hp & ->). exists p. destruct (attached i p); auto 10. }
          assert (NL : length (n_clients s') = length (n_clients s)) by (unfold s'; cbn [n_clients]; apply set_at_length).
          constructor; auto.
          -- rewrite NL. exact Ln.
          -- unfold s'. cbn [n_clients]. now apply Forall_set_at.
          -- intros p' Hp' Wk. destruct (RP p' Hp') as (p & Hp & E1 & E2 & _). rewrite E1, CA. unfold working in Wk. rewrite E2 in Wk. destruct (Nat.eqb_spec (np_client p) i) as [Hq|Hq]; [|auto].
             unfold g2. cbn [consumed]. clsimp. reflexivity.
          -- constructor; auto.
             ++ apply Forall_forall. intros p' Hp'. destruct (RP p' Hp') as (p & Hp & E1 & E2 & E3 & _). rewrite Forall_forall in A1. rewrite E1, E3, NL. apply (A1 p Hp).
             ++ rewrite NL. exact A2.
             ++ intros k. unfold s'. cbn [n_replies]. rewrite filter_for; auto.
             ++ intros p' Hp' Wk. destruct (RP p' Hp') as (p & Hp & E1 & E2 & E3 & E4 & _). unfold working in Wk. rewrite E2 in Wk. specialize (A5 p Hp Wk). rewrite BC, E1, E4.
                destruct (Nat.eqb_spec (np_client p) i) as [Hq|Hq]; [|auto]. rewrite Hq. congruence.
             ++ intros a k Hk. destruct (A6 a k Hk) as [X1 X2]. rewrite BC. split; [destruct (Nat.eqb_spec k i); [congruence|exact X1]|].
                unfold s'. cbn [n_replies]. apply length_zero_iff_nil. rewrite filter_for by auto. now rewrite X2.
             ++ intros p' Hp' Hg. destruct (RP p' Hp') as (p & Hp & E1 & E2 & E3 & E4 & E5). rewrite E2 in Hg. rewrite E1, LC. destruct (attached i p) eqn:At.
                ** destruct (SG p Hp At) as (R1 & pre & evs & X1 & X2 & X3 & X4). apply attached_working in At as [Hq Wk]. rewrite Hq, Ei. cbn [client_log].
                   apply (Sn_running _ _ pre r0 (evs ++ [CContent b])); [now rewrite El, app_assoc, X1, <- app_assoc|rewrite existsb_app, X2; reflexivity|congruence|now rewrite E2|rewrite X4, E5; reflexivity].
                ** rewrite E5. specialize (ND p Hp Hg At). destruct (Nat.eqb_spec (np_client p) i) as [Hq|Hq]; [|exact ND]. rewrite Hq, Ei. exact ND.
        * assert (NA : forall p, In p (n_replies s) -> attached i p = false) by (apply filter_nil; now apply filter_none_iff).
          constructor; auto.
          -- intros p Hp Wk. apply Ho; auto. intros Hq. assert (X : attached i p = true) by (apply attached_working; auto). rewrite (NA p Hp) in X. discriminate.
          -- constructor; auto.
             ++ intros p Hp Wk. specialize (A5 p Hp Wk). destruct (Nat.eqb_spec (np_client p) i) as [Hq|Hq]; [|auto]. rewrite Hq. congruence.
             ++ intros a k Hk. destruct (A6 a k Hk) as [X1 X2]. split; auto. destruct (Nat.eqb_spec k i); [congruence|exact X1].
             ++ intros p Hp Hg. specialize (ND p Hp Hg (NA p Hp)). destruct (Nat.eqb_spec (np_client p) i) as [Hq|Hq]; [|exact ND]. rewrite Hq, Ei. exact ND.
      + (* finished *)
        assert (BW : busy_with (client_at s i) = None) by (rewrite Ei; cbn [busy_with]; unfold at_work in Iw; rewrite work_snoc in Iw; cbn [work1] in Iw; congruence).
        set (s' := mkNam _ _ _ _). assert (CA : forall k, client_at s' k = client_at s k) by reflexivity. assert (AU : forall k, auth_of k s' = auth_of k s) by reflexivity.
        assert (RP : forall p', In p' (n_replies s') -> exists p, In p (n_replies s) /\ np_client p' = np_client p /\ np_auth p' = np_auth p /\ np_req p' = np_req p /\ p' = (if attached i p then reply_finished e p else p) /\
          (attached i p = false -> np_phase p' = np_phase p) /\ (attached i p = true -> np_phase p' <> RWorking)).
        { intros p' Hp'. apply for_attached_In in Hp' as (p & Hp & ->). exists p. destruct (attached i p); repeat split; auto; try discriminate. intros _. cbn [reply_finished np_phase]. destruct e; discriminate. }
        assert (NW : forall p', In p' (n_replies s') -> working p' -> exists p, In p (n_replies s) /\ working p /\ np_client p' = np_client p /\ np_client p <> i /\ np_req p' = np_req p).
        { intros p' Hp' Wk. destruct (RP p' Hp') as (p & Hp & E1 & E2 & E3 & E4 & E5 & E6). exists p. destruct (attached i p) eqn:At; [now destruct (E6 eq_refl)|]. unfold working in *. rewrite (E5 eq_refl) in Wk.
          repeat split; auto. intros Hq. assert (X : attached i p = true) by (apply attached_working; auto). congruence. }
        assert (PI : ~ In i (map snd (n_pool s))).
        { intros X. apply in_map_iff in X as ([a k] & E & X). cbn in E. subst k. destruct (A6 a i X) as [X1 _]. rewrite Nat.eqb_refl in X1. discriminate. }
        assert (PL : forall a k, In (a, k) (n_pool s') -> In (a, k) (n_pool s) \/ (k = i /\ a = auth_of i s)).
        { intros a k H. unfold s' in H. cbn [n_pool] in H. destruct (auth_of i s) eqn:Ea; [auto|]. destruct H as [H|H]; [injection H as <- <-; auto|auto]. }
        constructor; auto.
        * intros p' Hp' Wk. destruct (NW p' Hp' Wk) as (p & Hp & Wk' & E1 & Hq & E2). rewrite E1, CA. auto.
        * constructor; auto.
          -- apply Forall_forall. intros p' Hp'. destruct (RP p' Hp') as (p & Hp & E1 & E2 & _). rewrite Forall_forall in A1. rewrite E1, E2. apply (A1 p Hp).
          -- unfold s'. cbn [n_pool]. destruct (auth_of i s) eqn:Ea; [exact A2|]. constructor; [|exact A2]. cbn [fst snd n_clients]. split; [exact Hi|]. rewrite <- Ea. reflexivity.
          -- unfold s'. cbn [n_pool]. destruct (auth_of i s); [exact A3|]. cbn [map snd]. constructor; auto.
          -- intros k. unfold s'. cbn [n_replies]. etransitivity; [apply finished_filter|apply A4].
          -- intros p' Hp' Wk. destruct (NW p' Hp' Wk) as (p & Hp & Wk' & E1 & Hq & E2). rewrite E1, CA, E2. specialize (A5 p Hp Wk'). destruct (Nat.eqb_spec (np_client p) i); [contradiction|auto].
          -- intros a k Hk. rewrite CA. destruct (PL a k Hk) as [Hk'|[-> _]].
             ++ destruct (A6 a k Hk') as [X1 X2]. split; [destruct (Nat.eqb_spec k i); [congruence|exact X1]|]. unfold s'. cbn [n_replies]. apply length_zero_iff_nil.
                pose proof (finished_filter e i k (n_replies s)) as X. rewrite X2 in X. cbn [length] in X. lia.
             ++ split; [exact BW|]. apply filter_nil. intros p' Hp'. destruct (attached i p') eqn:At; auto. apply attached_working in At as [Hq Wk]. destruct (NW p' Hp' Wk) as (p & _ & _ & E1 & Hn & _). congruence.
          -- intros p' Hp' Hg. destruct (RP p' Hp') as (p & Hp & E1 & E2 & E3 & E5 & E6 & E7). rewrite E1, CA. destruct (attached i p) eqn:At.
             ++ destruct (SG p Hp At) as (R1 & pre & evs & X1 & X2 & X3 & X4). apply attached_working in At as [Hq Wk]. rewrite Hq, Ei. cbn [client_log].
                apply (Sn_finished _ _ pre r0 evs e code hs b []).
                ** rewrite El, app_assoc, X1, <- app_assoc. reflexivity.
                ** exact X2.
                ** congruence.
                ** rewrite E5. cbn [reply_finished np_phase]. destruct e; auto; right; split; auto; discriminate.
                ** rewrite E5. exact X3.
                ** rewrite E5. reflexivity.
             ++ rewrite (E6 eq_refl) in Hg. rewrite E5. specialize (ND p Hp Hg At). destruct (Nat.eqb_spec (np_client p) i) as [Hq|Hq]; [|exact ND]. rewrite Hq, Ei. exact ND.
  Qed.
End Nam.
Arguments g_rep {cook}. Arguments g_pool {cook}. Arguments g_once {cook}. Arguments mkNIg {cook}. Arguments mkNI {cook}. Arguments nig_ext {cook}.
Arguments n_len {cook}. Arguments n_inv {cook}. Arguments n_con {cook}. Arguments n_gen {cook}.
