(** Every event of the NetworkAccessManager keeps the invariant of NamInv.v. *)
From Verif Require Import Bytes ByteHelpers Helpers Joyent RespParser Client ClientSpec ClientInv Nam NamSpec NamExt NamInv.
Open Scope Z_scope.

Lemma skipn_len {A} (a b : list A) : skipn (length a) (a ++ b) = b.
Proof. induction a; auto. Qed.
Lemma busy_idle c stk : busy_with (CRun c stk) = None -> c_pending c = false /\ c_next c = None.
Proof. cbn [busy_with]. destruct (c_pending c); [discriminate|auto]. Qed.

Section Nam.
  Variables (zlib : bool) (gunzip : list bytes -> bytes -> bytes) (parse_url : bytes -> url) (cook : list bytes -> option bytes).
  Hypothesis urls : forall b, wf_url (parse_url b).
  Notation cstep := (cstep zlib gunzip parse_url).
  Notation slots := (slots zlib gunzip parse_url cook).
  Notation shows := (NamSpec.shows cook).
  Notation Seen := (NamSpec.Seen cook).
  Notation Served := (NamSpec.Served cook).
  Notation view_after := (NamSpec.view_after cook).
  Notation reply_headers := (Nam.reply_headers cook).
  Notation NIg := (NamInv.NIg cook).
  Notation NI := (NamInv.NI cook).
  Notation nclient := (nclient zlib gunzip parse_url cook).
  Notation nstep := (nstep zlib gunzip parse_url cook).

  Definition at_client (s : nam) (i : nat) (g : ccfg) : nam := mkNam (set_at i g (n_clients s)) (n_auths s) (n_pool s) (n_replies s).
  Lemma at_client_at s i g k : (i < length (n_clients s))%nat -> client_at (at_client s i g) k = if Nat.eqb k i then g else client_at s k.
  Proof. intros H. unfold client_at, at_client. cbn [n_clients]. now apply nth_set_at. Qed.

  Lemma inv_at s i : Forall InvG (n_clients s) -> (i < length (n_clients s))%nat -> exists c stk, client_at s i = CRun c stk /\ Inv c stk.
  Proof.
    intros F H. rewrite Forall_forall in F. assert (X : InvG (client_at s i)) by (unfold client_at; exact (F _ (nth_In _ _ H))).
    destruct (client_at s i) as [c stk|]; [|contradiction]. eauto.
  Qed.
  Lemma client_some s i g : nth_error (n_clients s) i = Some g -> (i < length (n_clients s))%nat /\ client_at s i = g.
  Proof. intros H. split; [apply nth_error_Some; congruence|]. unfold client_at. now apply nth_error_nth. Qed.

  (** the general move, from the extension of the log *)
  Lemma ext_moved s i c stk W B l g' : length (n_auths s) = length (n_clients s) -> Forall InvG (n_clients s) -> (i < length (n_clients s))%nat ->
    InvG g' -> Ext (existsb (attached i) (n_replies s)) W l g' -> client_at s i = CRun c stk -> (exists m, l = c_log c ++ m /\ forall s, fold_left (slots i) m s = s) ->
    (forall q, Forall (okq W) q -> work (l ++ q) = B) -> W = None \/ W = B ->
    (forall p, In p (n_replies s) -> working p -> np_client p <> i -> consumed (client_at s (np_client p))) ->
    NIg (fun k => if Nat.eqb k i then B else busy_with (client_at s k)) (fun k => if Nat.eqb k i then l else client_log (client_at s k)) s ->
    NI (fold_left (slots i) (skipn (length (c_log c)) (client_log g')) (at_client s i g')).
  Proof.
    intros Ln Iv Hi Ig Ex Ei (m & El & Em) Hq WB Ho G. destruct g' as [c' stk'|f]; [|contradiction]. destruct Ex as (q & t & E1 & E2 & E3 & E4 & E5).
    cbn [client_log]. rewrite E1, El, <- app_assoc, skipn_len, fold_left_app, Em.
    assert (CA : forall k, client_at (at_client s i (CRun c' stk')) k = if Nat.eqb k i then CRun c' stk' else client_at s k) by (intros; now apply at_client_at).
    assert (NL : length (n_clients (at_client s i (CRun c' stk'))) = length (n_clients s)) by apply set_at_length.
    eapply (moved zlib gunzip parse_url cook urls _ i c' stk' W B l q t).
    - rewrite NL. exact Ln.
    - unfold at_client. cbn [n_clients]. now apply Forall_set_at.
    - now rewrite NL.
    - now rewrite CA, Nat.eqb_refl.
    - exact E1.
    - exact E2.
    - exact E4.
    - now apply Hq.
    - exact WB.
    - exact E5.
    - intros p Hp Wk Hn. rewrite CA. destruct (Nat.eqb_spec (np_client p) i); [contradiction|]. now apply Ho.
    - assert (G' : NIg (fun k => if Nat.eqb k i then B else busy_with (client_at s k)) (fun k => if Nat.eqb k i then l else client_log (client_at s k)) (at_client s i (CRun c' stk'))).
      { destruct G as [A1 A2 A3 A4 A5 A6 A7]. constructor; auto; rewrite NL; auto. }
      revert G'. apply nig_ext; intros k; rewrite CA; destruct (Nat.eqb k i); reflexivity.
  Qed.

  Lemma nclient_ok s i a : NI s -> asks a = false -> calm a (client_at s i) -> NI (nclient i a s).
  Proof.
    intros [Ln Iv Nc Ng] A Q. unfold Nam.nclient. destruct (nth_error (n_clients s) i) as [g|] eqn:E; [|now constructor].
    apply client_some in E as [Hi Eg]. destruct (inv_at s i Iv Hi) as (c & stk & Ei & I). assert (g = CRun c stk) as -> by congruence. clear Eg. rewrite Ei in Q. cbn [client_log].
    assert (WB : c_next c = None \/ c_next c = at_work c) by (unfold at_work; destruct (c_pending c) eqn:P; [left; now apply (inv_next c stk)|now right]).
    eapply (ext_moved s i c stk (c_next c) (at_work c) (c_log c)); auto.
    - apply (step_ok zlib gunzip parse_url urls); [exact I|exact Q].
    - apply step_ext; [exact A|]. intros Z0. apply existsb_exists in Z0 as (p & Hp & At). apply attached_working in At as [Hq Wk]. specialize (Nc p Hp Wk). rewrite Hq, Ei in Nc. exact Nc.
    - exists []. now rewrite app_nil_r.
    - intros q Fq. destruct (inv_work _ _ I) as [Iw Iu]. destruct (c_pending c) eqn:P.
      + rewrite (inv_next _ _ I P) in *. rewrite (okq_work _ _ Fq); auto; discriminate.
      + rewrite (okq_work _ _ Fq); auto; [now apply (inv_method _ _ I)|]. left. rewrite Iw. unfold at_work. now rewrite P.
    - revert Ng. apply nig_ext; intros k; (destruct (Nat.eqb_spec k i) as [-> |]; [rewrite Ei|]; reflexivity).
  Qed.

  (** a new reply, and its request *)
  Lemma blank_req i a r : view_of (new_reply i a r) = blank_view.
  Proof. reflexivity. Qed.
  Definition with_reply (s : nam) (p : nreply) : nam := mkNam (n_clients s) (n_auths s) (n_pool s) (n_replies s ++ [p]).
  Lemma added s i a r B l : let p := new_reply i a r in
    NI s -> (i < length (n_clients s))%nat -> a = auth_of i s -> ~ In i (map snd (n_pool s)) -> (forall p, In p (n_replies s) -> attached i p = false) ->
    B = r -> Seen l p -> (exists m, l = client_log (client_at s i) ++ m) ->
    NIg (fun k => if Nat.eqb k i then B else busy_with (client_at s k)) (fun k => if Nat.eqb k i then l else client_log (client_at s k)) (with_reply s p).
  Proof.
    intros p [Ln Iv Nc [A1 A2 A3 A4 A5 A6 A7]] Hi Ha Np Na EB Sp (m & El). constructor; auto; unfold with_reply; cbn [n_replies n_pool n_clients].
    - apply Forall_app. split; [exact A1|]. constructor; [|constructor]. split; auto.
    - intros k. rewrite filter_app, app_length. cbn [filter]. destruct (attached k p) eqn:At; [|rewrite Nat.add_0_r; apply A4].
      apply attached_working in At as [Hk _]. cbn [new_reply np_client p] in Hk. subst k. pose proof (proj2 (filter_nil (attached i) (n_replies s)) Na) as X. apply (f_equal (@length nreply)) in X. cbn [length] in X. change (np_client p) with i. rewrite X. cbn. lia.
    - intros p' Hp' Wk. apply in_app_or in Hp' as [Hp'|[<-|[]]]; [|cbn [new_reply np_client p np_req]; now rewrite Nat.eqb_refl].
      destruct (Nat.eqb_spec (np_client p') i) as [Hq|]; [|auto]. assert (X : attached i p' = true) by (apply attached_working; auto). rewrite (Na p' Hp') in X. discriminate.
    - intros b k Hk. destruct (Nat.eqb_spec k i) as [Hq|Hq]; [destruct Np; apply in_map_iff; exists (b, k); auto|]. destruct (A6 b k Hk) as [X1 X2]. split; auto.
      rewrite filter_app, X2. cbn [filter app]. destruct (attached k p) eqn:At; auto. apply attached_working in At as [Hk' _]. cbn [p new_reply np_client] in Hk'. congruence.
    - intros p' Hp' Hg. apply in_app_or in Hp' as [Hp'|[<-|[]]]; [|cbn [new_reply np_client p]; now rewrite Nat.eqb_refl]. specialize (A7 p' Hp' Hg). destruct (Nat.eqb_spec (np_client p') i) as [Hq|]; [|auto].
      rewrite Hq in A7. rewrite El. apply seen_more; auto. intros Wk. assert (X : attached i p' = true) by (apply attached_working; auto). rewrite (Na p' Hp') in X. discriminate.
  Qed.

  Lemma pooled a l : forall i l', take_pool a l = Some (i, l') -> exists l1 l2, l = l1 ++ (a, i) :: l2 /\ l' = l1 ++ l2.
  Proof.
    induction l as [|[b k] l IH]; intros i l' H; cbn [take_pool] in H; [discriminate|]. destruct (beqb a b) eqn:E.
    - apply beqb_true in E. subst b. injection H as -> ->. exists [], l'. auto.
    - destruct (take_pool a l) as [[j t]|] eqn:T; [|discriminate]. injection H as -> <-. destruct (IH _ _ eq_refl) as (l1 & l2 & -> & ->). exists ((b, k) :: l1), l2. auto.
  Qed.
  Lemma picked s a : NI s -> let '(i, s') := pick a s in
    NI s' /\ (i < length (n_clients s'))%nat /\ a = auth_of i s' /\ ~ In i (map snd (n_pool s')) /\ (forall p, In p (n_replies s') -> attached i p = false) /\ busy_with (client_at s' i) = None.
  Proof.
    intros [Ln Iv Nc [A1 A2 A3 A4 A5 A6 A7]]. unfold pick. destruct (take_pool a (n_pool s)) as [[i l']|] eqn:T.
    - apply pooled in T as (l1 & l2 & El & ->). rewrite El in A2, A3. apply Forall_app in A2 as [B1 B2]. pose proof (Forall_inv B2) as [Hi Ha]. apply Forall_inv_tail in B2. cbn [fst snd] in Hi, Ha.
      rewrite map_app in A3. cbn [map snd] in A3. pose proof (NoDup_remove _ _ _ A3) as [A3' Ni]. rewrite <- map_app in A3', Ni.
      assert (Sub : forall b k, In (b, k) (l1 ++ l2) -> In (b, k) (n_pool s)) by (intros b k H; rewrite El; apply in_or_app; apply in_app_or in H as [H|H]; auto; right; now right).
      assert (X : In (a, i) (n_pool s)) by (rewrite El; apply in_or_app; right; now left). destruct (A6 a i X) as [X1 X2].
      split; [|split; [exact Hi|split; [exact Ha|split; [exact Ni|split; [exact (proj1 (filter_nil _ _) X2)|exact X1]]]]].
      constructor; auto. constructor; auto.
      + now apply Forall_app.
      + intros b k Hk. exact (A6 b k (Sub b k Hk)).
    - set (s' := mkNam _ _ _ _).
      assert (CA : forall k, (k < length (n_clients s))%nat -> client_at s' k = client_at s k) by (intros k Hk; unfold s', client_at; cbn [n_clients]; now apply app_nth1).
      assert (AU : forall k, (k < length (n_clients s))%nat -> auth_of k s' = auth_of k s) by (intros k Hk; unfold s', auth_of; cbn [n_auths]; apply app_nth1; now rewrite Ln).
      assert (CN : client_at s' (length (n_clients s)) = cstart) by (unfold s', client_at; cbn [n_clients]; rewrite app_nth2, Nat.sub_diag by auto; reflexivity).
      assert (NL : length (n_clients s') = S (length (n_clients s))) by (unfold s'; cbn [n_clients]; rewrite app_length; cbn; lia).
      assert (RL : forall p, In p (n_replies s) -> (np_client p < length (n_clients s))%nat) by (intros p Hp; rewrite Forall_forall in A1; apply (A1 p Hp)).
      assert (PL : forall b k, In (b, k) (n_pool s) -> (k < length (n_clients s))%nat) by (intros b k Hp; rewrite Forall_forall in A2; apply (A2 _ Hp)).
      split; [|split; [lia|split; [|split; [|split]]]].
      + constructor.
        * unfold s'. cbn [n_clients n_auths]. rewrite !app_length, Ln. reflexivity.
        * unfold s'. cbn [n_clients]. apply Forall_app. split; [exact Iv|]. constructor; [exact start_inv|constructor].
        * intros p Hp Wk. rewrite CA by auto. auto.
        * constructor; auto.
          -- apply Forall_forall. intros p Hp. rewrite NL, AU by auto. rewrite Forall_forall in A1. destruct (A1 p Hp). auto.
          -- apply Forall_forall. intros [b k] Hp. cbn [fst snd]. rewrite NL, AU by eauto. rewrite Forall_forall in A2. destruct (A2 _ Hp). auto.
          -- intros p Hp Wk. rewrite CA by auto. auto.
          -- intros b k Hk. rewrite CA by eauto. exact (A6 b k Hk).
          -- intros p Hp Hg. rewrite CA by auto. auto.
      + unfold s', auth_of. cbn [n_auths]. rewrite <- Ln, app_nth2, Nat.sub_diag by auto. reflexivity.
      + intros H. apply in_map_iff in H as ([b k] & E & H). cbn [snd] in E. specialize (PL b k H). lia.
      + intros p Hp. destruct (attached _ p) eqn:At; auto. apply attached_working in At as [E _]. specialize (RL p Hp). lia.
      + now rewrite CN.
  Qed.

  Lemma create_ok s a r : NI s -> match r with Some r => wf_creq r /\ cr_method r <> [] | None => True end -> NI (createRequest zlib gunzip parse_url cook a r s).
  Proof.
    intros N0 Wf. pose proof (picked s a N0) as P. unfold createRequest. destruct (pick a s) as [i s1]. destruct P as (N1 & Hi & Ha & Np & Na & Bz). cbn iota beta.
    destruct (inv_at s1 i (n_inv _ N1) Hi) as (c & stk & Ei & I). rewrite Ei in Bz. apply busy_idle in Bz as [Pn Nx]. destruct (inv_work _ _ I) as [_ Iu]. rewrite Pn in Iu.
    change (mkNam (n_clients s1) (n_auths s1) (n_pool s1) (n_replies s1 ++ [new_reply i a r])) with (with_reply s1 (new_reply i a r)).
    set (p := new_reply i a r).
    assert (CN : forall q, In q (n_replies s1 ++ [p]) -> working q -> np_client q <> i -> consumed (client_at s1 (np_client q))).
    { intros q Hq Wk Hn. apply in_app_or in Hq as [Hq|[<-|[]]]; [now apply (n_con _ N1)|now destruct Hn]. }
    destruct r as [r|].
    - unfold Nam.nclient. change (n_clients (with_reply s1 p)) with (n_clients s1). destruct (nth_error (n_clients s1) i) as [g|] eqn:En; [|apply nth_error_None in En; lia].
      apply client_some in En as [_ En]. assert (g = CRun c stk) as -> by congruence. clear En. cbn [client_log]. destruct Wf as [Wf Me].
      set (o := if r_parsing (c_p c) then CKept r else CAccepted r).
      assert (Wo : forall w, work1 w o = Some r) by (intros w; subst o; destruct (r_parsing _); cbn [work1]; auto; rewrite (proj2 (beqb_false _ _)); auto).
      eapply (ext_moved (with_reply s1 p) i c stk (Some r) (Some r) (c_log c ++ [o])).
      + exact (n_len _ N1).
      + exact (n_inv _ N1).
      + exact Hi.
      + apply (step_ok zlib gunzip parse_url urls (CRun c stk) (CaCall (CoRequest r))); [exact I|exact Wf].
      + cbn [Client.cstep do_cop]. apply request_starts; auto. intros base. apply resume_ext.
      + exact Ei.
      + exists [o]. split; auto. intros s'. subst o. destruct (r_parsing _); reflexivity.
      + intros q Fq. assert (X : work (c_log c ++ [o]) = Some r) by (rewrite work_snoc; apply Wo). rewrite (okq_work _ _ Fq); auto. intros r' E. injection E as <-. exact Me.
      + now right.
      + exact CN.
      + apply (added s1 i a (Some r) (Some r) (c_log c ++ [o])); auto; [|exists [o]; now rewrite Ei]. subst o. destruct (r_parsing (c_p c)) eqn:Pa.
        * apply Sn_waiting; try reflexivity. change (under (c_log c ++ [CKept r]) = None). rewrite under_snoc. exact Iu.
        * apply (Sn_running _ _ (c_log c) r []); reflexivity.
    - assert (CA : forall k, client_at (with_reply s1 p) k = client_at s1 k) by reflexivity. constructor.
      + exact (n_len _ N1).
      + exact (n_inv _ N1).
      + intros q Hq Wk. destruct (Nat.eq_dec (np_client q) i) as [Hn|Hn]; [|rewrite CA; now apply CN]. rewrite Hn, CA, Ei. cbn [consumed]. congruence.
      + assert (G : NIg (fun k => if Nat.eqb k i then None else busy_with (client_at s1 k)) (fun k => if Nat.eqb k i then c_log c else client_log (client_at s1 k)) (with_reply s1 p)).
        { apply (added s1 i a None None (c_log c)); auto; [|exists []; now rewrite Ei, app_nil_r]. apply Sn_waiting; try reflexivity. exact Iu. }
        revert G. apply nig_ext; intros k; rewrite CA; (destruct (Nat.eqb_spec k i) as [-> |]; [rewrite Ei|]; auto). cbn [busy_with]. now rewrite Pn, Nx.
  Qed.

  (** reply j changes on its own *)
  Lemma upd_ok s j f : NI s -> (forall p, np_client (f p) = np_client p /\ np_auth (f p) = np_auth p /\ np_req (f p) = np_req p /\ view_of (f p) = view_of p /\ np_error (f p) = np_error p /\
     (np_phase (f p) = np_phase p \/ (np_phase p = RFailing /\ np_phase (f p) = RDone) \/ np_phase (f p) = RGone)) -> NI (upd_reply j f s).
  Proof.
    intros N H. unfold upd_reply. destruct (nth_error (n_replies s) j) as [p|] eqn:E; [|exact N]. destruct (set_at_replace _ _ _ E) as (l1 & l2 & El & Es). rewrite (Es (f p)). clear E Es.
    destruct N as [Ln Iv Nc [A1 A2 A3 A4 A5 A6 A7]]. destruct (H p) as (H1 & H2 & H3 & H4 & H5 & H6). set (s' := mkNam _ _ _ _).
    assert (Hp : In p (n_replies s)) by (rewrite El; apply in_or_app; right; now left).
    assert (RP : forall q, In q (n_replies s') -> q = f p \/ In q (n_replies s)).
    { intros q Hq. unfold s' in Hq. cbn [n_replies] in Hq. rewrite El. apply in_app_or in Hq as [Hq|[<-|Hq]]; auto; right; apply in_or_app; auto. right. now right. }
    assert (WF : working (f p) -> working p) by (unfold working; intros W; destruct H6 as [H6|[[_ H6]|H6]]; congruence).
    assert (AT : forall k, (length (filter (attached k) (n_replies s')) <= length (filter (attached k) (n_replies s)))%nat).
    { intros k. unfold s'. cbn [n_replies]. rewrite El, !filter_app, !app_length. cbn [filter]. destruct (attached k (f p)) eqn:At; [|destruct (attached k p); cbn; lia].
      apply attached_working in At as [X1 X2]. assert (attached k p = true) as -> by (apply attached_working; split; [congruence|auto]). cbn. lia. }
    constructor; auto.
    - intros q Hq Wk. change (consumed (client_at s (np_client q))). destruct (RP q Hq) as [-> |Hq']; [rewrite H1|]; auto.
    - constructor; auto.
      + apply Forall_forall. intros q Hq. rewrite Forall_forall in A1. destruct (RP q Hq) as [-> |Hq']; [rewrite H1, H2; exact (A1 p Hp)|exact (A1 q Hq')].
      + intros k. etransitivity; [apply AT|apply A4].
      + intros q Hq Wk. change (busy_with (client_at s (np_client q)) = np_req q). destruct (RP q Hq) as [-> |Hq']; [rewrite H1, H3|]; auto.
      + intros a k Hk. destruct (A6 a k Hk) as [X1 X2]. split; [exact X1|]. apply length_zero_iff_nil. specialize (AT k). rewrite X2 in AT. cbn [length] in AT. lia.
      + intros q Hq Hg. change (Seen (client_log (client_at s (np_client q))) q). destruct (RP q Hq) as [-> |Hq']; [|auto]. rewrite H1.
        assert (Hg' : np_phase p <> RGone) by (destruct H6 as [H6|[[H6 _]|H6]]; congruence). specialize (A7 p Hp Hg'). destruct A7 as [X1 X2 X3|pre r evs X1 X2 X3 X4 X5|pre r evs e code hs b post X1 X2 X3 X4 X5 X6].
        * apply Sn_waiting; [destruct H6 as [H6|[[H6 _]|H6]]; congruence|exact X2|congruence].
        * apply (Sn_running _ _ pre r evs); try congruence. destruct H6 as [H6|[[H6 _]|H6]]; congruence.
        * apply (Sn_finished _ _ pre r evs e code hs b post); try congruence. destruct H6 as [H6|[[H6 H7]|H6]]; [rewrite H6; exact X4|now left|contradiction].
  Qed.

  Lemma nstep_ok s e : NI s -> calm_event s e -> NI (nstep s e).
  Proof.
    intros N Q. destruct e as [a r|i a|j|j n|j|j]; cbn [Nam.nstep calm_event] in *.
    - apply create_ok; auto.
    - destruct (is_call a) eqn:E; [exact N|]. apply nclient_ok; auto. destruct a; auto; discriminate.
    - destruct (nth_error (n_replies s) j) as [p|]; [|exact N]. destruct (np_phase p); auto; apply nclient_ok; auto.
    - apply upd_ok; auto. intros p. unfold readData. destruct (_ <=? _); cbn; auto 10.
    - apply upd_ok; auto. intros p. destruct (np_phase p) eqn:E; cbn; rewrite ?E; auto 10.
    - apply upd_ok; auto. intros p. destruct (np_phase p) eqn:E; cbn; rewrite ?E; auto 10.
  Qed.
  Lemma nam0_ok : NI nam0.
  Proof. constructor; cbn; auto; try contradiction. constructor; cbn; auto; try contradiction; try constructor. Qed.
  Lemma nrun_ok l : forall s, NI s -> calm_history nstep s l -> NI (nrun zlib gunzip parse_url cook s l).
  Proof. induction l as [|e l IH]; intros s N H; [exact N|]. destruct H as [H1 H2]. cbn [nrun fold_left]. apply IH; [now apply nstep_ok|exact H2]. Qed.

  Lemma ni_served s : NI s -> Served s.
  Proof.
    intros [Ln Iv Nc [A1 A2 A3 A4 A5 A6 A7]]. constructor; auto.
    - intros j j' p p' E E' W W' Ec. destruct (Nat.eq_dec j j') as [|Hn]; auto. exfalso. specialize (A4 (np_client p)).
      assert (X : forall l j j' p p' i, nth_error l j = Some p -> nth_error l j' = Some p' -> (j < j')%nat -> attached i p = true -> attached i p' = true -> (2 <= length (filter (attached i) l))%nat).
      { clear. induction l as [|x l IH]; intros [|j] [|j'] p p' i H1 H2 H3 H4 H5; cbn [nth_error] in *; try discriminate; try lia.
        - injection H1 as ->. cbn [filter]. rewrite H4. apply nth_error_In in H2. assert (In p' (filter (attached i) l)) by (apply filter_In; auto). destruct (filter (attached i) l); [contradiction|cbn; lia].
        - cbn [filter]. pose proof (IH j j' p p' i H1 H2 ltac:(lia) H4 H5). destruct (attached i x); cbn; lia. }
      assert (B : attached (np_client p) p = true) by (apply attached_working; auto). assert (B' : attached (np_client p) p' = true) by (apply attached_working; auto).
      destruct (Nat.lt_ge_cases j j') as [L|L].
      + specialize (X _ _ _ _ _ _ E E' L B B'). lia.
      + specialize (X _ _ _ _ _ _ E' E ltac:(lia) B' B). lia.
    - intros a i Hi. rewrite Forall_forall in A2. destruct (A2 _ Hi) as [_ X]. destruct (A6 a i Hi) as [X1 X2]. split; [exact X|]. split; [exact X1|].
      intros p Hp Wk Hc. apply filter_nil with (x := p) in X2; auto. assert (attached i p = true) by (apply attached_working; auto). congruence.
    - intros p Hp. rewrite Forall_forall in A1. apply (A1 p Hp).
  Qed.
End Nam.
Arguments ni_served {cook}. Arguments nam0_ok {cook}.
