(** C54, C63: NetworkAccessManager.  Specification: NamSpec.v. *)
From Verif Require Import Bytes ByteHelpers Helpers Joyent RespParser Client ClientSpec ClientInv PropsClient Nam NamSpec NamExt NamInv NamServe.
Open Scope Z_scope.

(** what the user gets from reading reply j during the events l *)
Definition read_now (j : nat) (s : nam) (e : nevent) : bytes :=
  match e with
  | NRead j' n => if Nat.eqb j' j then match nth_error (n_replies s) j with
                    | Some p => match readData n p with Some (b, _) => b | None => [] end
                    | None => []
                    end else []
  | _ => []
  end.
Fixpoint reads (step : nam -> nevent -> nam) (j : nat) (s : nam) (l : list nevent) : bytes :=
  match l with [] => [] | e :: t => read_now j s e ++ reads step j (step s e) t end.
Definition sane_read (e : nevent) : Prop := match e with NRead _ n => 0 <= n | _ => True end.

Section Nam.
  Variables (zlib : bool) (gunzip : list bytes -> bytes -> bytes) (parse_url : bytes -> url) (cook : list bytes -> option bytes).
  Hypothesis urls : forall b, wf_url (parse_url b).
  Notation nstep := (nstep zlib gunzip parse_url cook).
  Notation nrun := (nrun zlib gunzip parse_url cook).
  Notation nclient := (nclient zlib gunzip parse_url cook).
  Notation slots := (slots zlib gunzip parse_url cook).
  Notation shows := (NamSpec.shows cook).
  Notation Seen := (NamSpec.Seen cook).
  Notation Served := (NamSpec.Served cook).
  Notation view_after := (NamSpec.view_after cook).
  Notation reply_headers := (Nam.reply_headers cook).
  Notation NIg := (NamInv.NIg cook).
  Notation NI := (NamInv.NI cook).

  Theorem C54_served : forall l, calm_history nstep nam0 l -> Served (nrun nam0 l).
  Proof. intros l H. apply ni_served. apply nrun_ok; auto. apply nam0_ok. Qed.

  (** reply p' is reply p, later *)
  Definition Later (p p' : nreply) : Prop :=
    np_client p' = np_client p /\ np_auth p' = np_auth p /\ np_req p' = np_req p /\ exists x, np_content p' = np_content p ++ x.
  Definition LaterAt (p p' : nreply) : Prop := Later p p' /\ np_pos p' = np_pos p.
  Lemma later_refl p : LaterAt p p.
  Proof. split; auto. repeat split; auto. exists []. now rewrite app_nil_r. Qed.
  Lemma later_trans p q r : LaterAt p q -> LaterAt q r -> LaterAt p r.
  Proof. intros [(A & B & C & x & D) E] [(A' & B' & C' & x' & D') E']. split; [|congruence]. repeat split; try congruence. exists (x ++ x'). now rewrite D', D, app_assoc. Qed.
  Definition Keeps (s s' : nam) : Prop := forall j p, nth_error (n_replies s) j = Some p -> exists p', nth_error (n_replies s') j = Some p' /\ LaterAt p p'.
  Lemma keeps_refl s : Keeps s s.
  Proof. intros j p H. exists p. split; auto. apply later_refl. Qed.
  Lemma keeps_trans s t u : Keeps s t -> Keeps t u -> Keeps s u.
  Proof. intros A B j p H. destruct (A j p H) as (p' & H' & L). destruct (B j p' H') as (p'' & H'' & L'). exists p''. split; auto. eapply later_trans; eauto. Qed.
  Lemma for_keeps i f l j p : (forall p, LaterAt p (f p)) -> nth_error l j = Some p -> exists p', nth_error (for_attached i f l) j = Some p' /\ LaterAt p p'.
  Proof. intros F H. unfold for_attached. rewrite nth_error_map, H. cbn [option_map]. eexists. split; [reflexivity|]. destruct (attached i p); [apply F|apply later_refl]. Qed.
  Lemma headers_later code hs p : LaterAt p (reply_headers code hs p).
  Proof. split; auto. repeat split; auto. exists []. now rewrite app_nil_r. Qed.
  Lemma content_later b p : LaterAt p (reply_content b p).
  Proof. split; auto. repeat split; auto. now exists b. Qed.
  Lemma finished_later e p : LaterAt p (reply_finished e p).
  Proof. split; auto. repeat split; auto. exists []. now rewrite app_nil_r. Qed.
  Lemma slots_keeps i s o : Keeps s (slots i s o).
  Proof.
    destruct o; cbn [Nam.slots]; try apply keeps_refl.
    - intros j p H. cbn [n_replies]. apply for_keeps; auto. intros q. apply headers_later.
    - destruct (existsb _ _); [|apply keeps_refl]. intros j p H. cbn [n_replies]. apply for_keeps; auto. intros q. apply content_later.
    - intros j p H. cbn [n_replies]. apply for_keeps; auto. intros q. apply finished_later.
  Qed.
  Lemma nclient_keeps i a s : Keeps s (nclient i a s).
  Proof.
    unfold Nam.nclient. destruct (nth_error (n_clients s) i) as [g|]; [|apply keeps_refl].
    set (s0 := mkNam _ _ _ _). assert (K : Keeps s s0) by (intros j p H; exists p; split; [exact H|apply later_refl]). revert K.
    generalize s0. generalize (skipn (length (client_log g)) (client_log (cstep zlib gunzip parse_url g a))). clear s0.
    induction l as [|o l IH]; intros t K; [exact K|]. cbn [fold_left]. apply IH. eapply keeps_trans; [exact K|apply slots_keeps].
  Qed.
  Lemma create_keeps a r s : Keeps s (createRequest zlib gunzip parse_url cook a r s).
  Proof.
    unfold createRequest. assert (E : n_replies (snd (pick a s)) = n_replies s) by (unfold pick; destruct (take_pool a (n_pool s)) as [[i l]|]; reflexivity).
    destruct (pick a s) as [i s1]. cbn [snd] in E. set (s2 := mkNam _ _ _ _).
    assert (K : Keeps s s2) by (intros j p H; exists p; split; [unfold s2; cbn [n_replies]; rewrite E; rewrite nth_error_app1; auto; apply nth_error_Some; congruence|apply later_refl]).
    destruct r as [r|]; [eapply keeps_trans; [exact K|apply nclient_keeps]|exact K].
  Qed.
  Lemma set_at_nth {A} j (x : A) l k : nth_error (set_at j x l) k = if Nat.eqb k j then match nth_error l k with Some _ => Some x | None => None end else nth_error l k.
  Proof. revert j k. induction l as [|y l IH]; intros [|j] [|k]; cbn; auto. destruct (Nat.eqb k j); reflexivity. Qed.
  Lemma upd_keeps j f s k p : nth_error (n_replies s) k = Some p -> nth_error (n_replies (upd_reply j f s)) k = Some (if Nat.eqb k j then f p else p).
  Proof.
    intros H. unfold upd_reply. destruct (Nat.eqb_spec k j) as [-> |N].
    - rewrite H. cbn [n_replies]. now rewrite set_at_nth, Nat.eqb_refl, H.
    - destruct (nth_error (n_replies s) j) as [q|]; [|exact H]. cbn [n_replies]. rewrite set_at_nth. destruct (Nat.eqb_spec k j); [contradiction|exact H].
  Qed.
  Lemma nstep_later s e j p : nth_error (n_replies s) j = Some p -> sane_read e -> 0 <= np_pos p <= blen (np_content p) ->
    exists p', nth_error (n_replies (nstep s e)) j = Some p' /\ Later p p' /\ np_pos p <= np_pos p' <= blen (np_content p) /\
      read_now j s e = firstn (Z.to_nat (np_pos p' - np_pos p)) (skipn (Z.to_nat (np_pos p)) (np_content p)).
  Proof.
    intros H Sr Hp.
    assert (G : forall s', Keeps s s' -> exists p', nth_error (n_replies s') j = Some p' /\ Later p p' /\ np_pos p <= np_pos p' <= blen (np_content p) /\
      [] = firstn (Z.to_nat (np_pos p' - np_pos p)) (skipn (Z.to_nat (np_pos p)) (np_content p))).
    { intros s' K. destruct (K j p H) as (p' & H' & L & E). exists p'. split; auto. split; auto. rewrite E, Z.sub_diag. split; [lia|reflexivity]. }
    assert (U : forall k f, (forall p, LaterAt p (f p)) -> Keeps s (upd_reply k f s)).
    { intros k f F i q Hq. rewrite (upd_keeps _ _ _ _ _ Hq). eexists. split; [reflexivity|]. destruct (Nat.eqb i k); [apply F|apply later_refl]. }
    destruct e as [a r|i a|k|k n|k|k]; cbn [Nam.nstep read_now sane_read] in *.
    - apply G, create_keeps.
    - apply G. destruct (is_call a); [apply keeps_refl|apply nclient_keeps].
    - apply G. destruct (nth_error (n_replies s) k) as [q|]; [|apply keeps_refl]. destruct (np_phase q); try apply keeps_refl; apply nclient_keeps.
    - rewrite (upd_keeps _ _ _ _ _ H). rewrite Nat.eqb_sym. destruct (Nat.eqb_spec k j) as [-> |N].
      + rewrite H. unfold readData. destruct (Z.leb_spec (blen (np_content p)) (np_pos p)) as [Le|Lt].
        * exists p. split; auto. split; [apply later_refl|]. rewrite Z.sub_diag. split; [lia|reflexivity].
        * eexists. split; [reflexivity|]. cbn [np_pos np_content]. split; [split; [|split; [|split; [|exists []]]]; auto; now rewrite app_nil_r|]. split; [lia|].
          replace (np_pos p + Z.min n (blen (np_content p) - np_pos p) - np_pos p) with (Z.min n (blen (np_content p) - np_pos p)) by lia. reflexivity.
      + exists p. split; auto. split; [apply later_refl|]. rewrite Z.sub_diag. split; [lia|reflexivity].
    - apply G, U. intros q. destruct (np_phase q); try apply later_refl; destruct (later_refl q); split; auto.
    - apply G, U. intros q. destruct (np_phase q); try apply later_refl; destruct (later_refl q); split; auto.
  Qed.

  Lemma slots_length i s o : length (n_replies (slots i s o)) = length (n_replies s).
  Proof.
    destruct o; cbn [Nam.slots]; auto; try (cbn [n_replies]; unfold for_attached; now rewrite map_length). destruct (existsb _ _); auto. cbn [n_replies]; unfold for_attached; now rewrite map_length.
  Qed.
  Lemma nclient_length i a s : length (n_replies (nclient i a s)) = length (n_replies s).
  Proof.
    unfold Nam.nclient. destruct (nth_error (n_clients s) i) as [g|]; [|reflexivity].
    set (s0 := mkNam _ (n_auths s) (n_pool s) (n_replies s)). change (length (n_replies s)) with (length (n_replies s0)). generalize s0.
    generalize (skipn (length (client_log g)) (client_log (cstep zlib gunzip parse_url g a))). clear s0.
    induction l as [|o l IH]; intros t; [reflexivity|]. cbn [fold_left]. now rewrite IH, slots_length.
  Qed.
  Lemma upd_length j f s : length (n_replies (upd_reply j f s)) = length (n_replies s).
  Proof. unfold upd_reply. destruct (nth_error _ _); auto. apply set_at_length. Qed.

  (** whatever happens, reply j stays reply j: its request, its authority, its client *)
  Theorem C63_identity : forall l s j p, nth_error (n_replies s) j = Some p ->
    exists p', nth_error (n_replies (nrun s l)) j = Some p' /\ np_req p' = np_req p /\ np_auth p' = np_auth p /\ np_client p' = np_client p.
  Proof.
    induction l as [|e l IH]; intros s j p H; [exists p; auto|]. cbn [Nam.nrun fold_left].
    assert (X : exists p', nth_error (n_replies (nstep s e)) j = Some p' /\ np_req p' = np_req p /\ np_auth p' = np_auth p /\ np_client p' = np_client p).
    { assert (G : forall s', Keeps s s' -> exists p', nth_error (n_replies s') j = Some p' /\ np_req p' = np_req p /\ np_auth p' = np_auth p /\ np_client p' = np_client p).
      { intros s' K. destruct (K j p H) as (p' & H' & (A & B & C & _) & _). eauto 6. }
      destruct e as [a r|i a|k|k n|k|k]; cbn [Nam.nstep].
      - apply G, create_keeps.
      - apply G. destruct (is_call a); [apply keeps_refl|apply nclient_keeps].
      - apply G. destruct (nth_error (n_replies s) k) as [q|]; [|apply keeps_refl]. destruct (np_phase q); try apply keeps_refl; apply nclient_keeps.
      - rewrite (upd_keeps _ _ _ _ _ H). eexists. split; [reflexivity|]. destruct (Nat.eqb j k); auto. unfold readData. destruct (_ <=? _); auto.
      - rewrite (upd_keeps _ _ _ _ _ H). eexists. split; [reflexivity|]. destruct (Nat.eqb j k); auto. destruct (np_phase p); auto.
      - rewrite (upd_keeps _ _ _ _ _ H). eexists. split; [reflexivity|]. destruct (Nat.eqb j k); auto. destruct (np_phase p); auto. }
    destruct X as (p1 & H1 & A & B & C). destruct (IH _ _ _ H1) as (p2 & H2 & A2 & B2 & C2). exists p2. split; [exact H2|]. repeat split; congruence.
  Qed.
  (** createRequest() makes one reply, for the request and the authority it was given *)
  Theorem C63_create : forall s a r, exists p, nth_error (n_replies (nstep s (NCreate a r))) (length (n_replies s)) = Some p /\
    np_req p = r /\ np_auth p = a /\ length (n_replies (nstep s (NCreate a r))) = S (length (n_replies s)).
  Proof.
    intros s a r. cbn [Nam.nstep]. unfold createRequest. assert (E : n_replies (snd (pick a s)) = n_replies s) by (unfold pick; destruct (take_pool a (n_pool s)) as [[i l]|]; reflexivity).
    destruct (pick a s) as [i s1]. cbn [snd] in E. set (s2 := mkNam _ _ _ _). set (p := new_reply i a r) in *.
    assert (H2 : nth_error (n_replies s2) (length (n_replies s)) = Some p) by (unfold s2; cbn [n_replies]; rewrite E, nth_error_app2, Nat.sub_diag by auto; reflexivity).
    assert (L2 : length (n_replies s2) = S (length (n_replies s))) by (unfold s2; cbn [n_replies]; rewrite E, app_length; cbn; lia).
    destruct r as [r|]; [|exists p; auto].
    destruct (nclient_keeps i (CaCall (CoRequest r)) s2 _ _ H2) as (p' & H' & (A & B & C & _) & _). exists p'. split; [exact H'|]. split; [exact C|]. split; [exact B|].
    rewrite nclient_length. exact L2.
  Qed.

  (** the status, the headers and the content of a reply are those of the response to its own request; it has finished when that has *)
  Theorem C63_own_response : forall l j p, calm_history nstep nam0 l -> nth_error (n_replies (nrun nam0 l)) j = Some p -> np_phase p <> RGone ->
    Seen (client_log (client_at (nrun nam0 l) (np_client p))) p.
  Proof. intros l j p H E G. apply (sv_seen _ (C54_served l H)); auto. now apply nth_error_In in E. Qed.

  Lemma born s e j p : nth_error (n_replies s) j = None -> nth_error (n_replies (nstep s e)) j = Some p -> np_pos p = 0.
  Proof.
    intros H H'. assert (G : length (n_replies (nstep s e)) = length (n_replies s) -> np_pos p = 0).
    { intros E. apply nth_error_None in H. assert (j < length (n_replies (nstep s e)))%nat by (apply nth_error_Some; congruence). lia. }
    destruct e as [a r|i a|k|k n|k|k]; try (apply G; cbn [Nam.nstep]; apply upd_length).
    - destruct (C63_create s a r) as (q & Hq & _ & _ & L). apply nth_error_None in H. assert (j < length (n_replies (nstep s (NCreate a r))))%nat by (apply nth_error_Some; congruence).
      assert (j = length (n_replies s)) as -> by lia. clear Hq q L G. cbn [Nam.nstep] in H'. unfold createRequest in H'.
      assert (E : n_replies (snd (pick a s)) = n_replies s) by (unfold pick; destruct (take_pool a (n_pool s)) as [[i l]|]; reflexivity).
      destruct (pick a s) as [i s1]. cbn [snd] in E. set (s2 := mkNam _ _ _ _) in *. set (q := new_reply i a r) in *.
      assert (H2 : nth_error (n_replies s2) (length (n_replies s)) = Some q) by (unfold s2; cbn [n_replies]; rewrite E, nth_error_app2, Nat.sub_diag by auto; reflexivity).
      destruct r as [r|]; [|rewrite H2 in H'; injection H' as <-; reflexivity].
      destruct (nclient_keeps i (CaCall (CoRequest r)) s2 _ _ H2) as (p' & E' & _ & P). rewrite H' in E'. injection E' as <-. exact P.
    - apply G. cbn [Nam.nstep]. destruct (is_call a); [reflexivity|apply nclient_length].
    - apply G. cbn [Nam.nstep]. destruct (nth_error (n_replies s) k) as [q|]; [|reflexivity]. destruct (np_phase q); try reflexivity; apply nclient_length.
  Qed.
  Lemma reads_from : forall l s j p0, nth_error (n_replies s) j = Some p0 -> 0 <= np_pos p0 <= blen (np_content p0) -> Forall sane_read l ->
      exists p, nth_error (n_replies (nrun s l)) j = Some p /\ firstn (Z.to_nat (np_pos p0)) (np_content p0) ++ reads nstep j s l = firstn (Z.to_nat (np_pos p)) (np_content p) /\ 0 <= np_pos p <= blen (np_content p).
  Proof.
    induction l as [|e l IH]; intros s j p0 H0 P0 F; [exists p0; cbn [reads]; rewrite app_nil_r; auto|]. pose proof (Forall_inv F) as F1. apply Forall_inv_tail in F. cbn [Nam.nrun fold_left reads].
    destruct (nstep_later s e j p0 H0 F1 P0) as (p1 & H1 & (_ & _ & _ & x & Ex) & P1 & R1).
    assert (P1' : 0 <= np_pos p1 <= blen (np_content p1)) by (rewrite Ex, blen_app; pose proof (blen_nonneg x); lia).
    destruct (IH _ _ _ H1 P1' F) as (p & Hp & E & Pp). exists p. split; [exact Hp|]. split; [|exact Pp].
    rewrite <- E, R1, app_assoc. f_equal. rewrite Ex. unfold blen in *.
    replace (Z.to_nat (np_pos p1)) with (Z.to_nat (np_pos p0) + Z.to_nat (np_pos p1 - np_pos p0))%nat by lia.
    rewrite firstn_app. replace (_ - length (np_content p0))%nat with 0%nat by lia. rewrite firstn_O, app_nil_r.
    generalize (Z.to_nat (np_pos p1 - np_pos p0)) (Z.to_nat (np_pos p0)) (np_content p0). clear.
    intros n m l. revert l. induction m as [|m IH]; intros [|x l]; cbn; auto; [now rewrite firstn_nil|]. now rewrite <- IH.
  Qed.
  (** reading a reply gives the bytes of its content once, in order, and nothing else *)
  Theorem C63_read : forall l j p, Forall sane_read l -> nth_error (n_replies (nrun nam0 l)) j = Some p ->
    reads nstep j nam0 l = firstn (Z.to_nat (np_pos p)) (np_content p) /\ 0 <= np_pos p <= blen (np_content p) /\
    (forall n, readData n p = None <-> reads nstep j nam0 l = np_content p).
  Proof.
    assert (G : forall l s j p, nth_error (n_replies s) j = None -> Forall sane_read l -> nth_error (n_replies (nrun s l)) j = Some p ->
      reads nstep j s l = firstn (Z.to_nat (np_pos p)) (np_content p) /\ 0 <= np_pos p <= blen (np_content p)).
    { induction l as [|e l IH]; intros s j p H F E; [cbn [Nam.nrun fold_left] in E; congruence|]. pose proof (Forall_inv F) as F1. apply Forall_inv_tail in F. cbn [Nam.nrun fold_left reads] in *.
      assert (R : read_now j s e = []) by (unfold read_now; destruct e; auto; rewrite H; destruct (Nat.eqb _ _); reflexivity). rewrite R. cbn [app].
      destruct (nth_error (n_replies (nstep s e)) j) as [q|] eqn:N; [|exact (IH _ _ _ N F E)].
      pose proof (born _ _ _ _ H N) as B. destruct (reads_from l _ _ _ N) as (p' & Hp & E' & P'); auto; [rewrite B; pose proof (blen_nonneg (np_content q)); lia|].
      unfold Nam.nrun in Hp. rewrite Hp in E. injection E as ->. rewrite B in E'. cbn [firstn Z.to_nat app] in E'. auto. }
    intros l j p F E. destruct (G l nam0 j p) as [A B]; auto; [now destruct j|]. split; [exact A|]. split; [exact B|]. intros n. unfold readData. rewrite A.
    destruct (Z.leb_spec (blen (np_content p)) (np_pos p)) as [L|L]; (split; intros X; auto; try discriminate).
    - apply firstn_all2. unfold blen in *. lia.
    - exfalso. apply (f_equal (@length _)) in X. rewrite firstn_length in X. unfold blen in *. lia.
  Qed.
  (** what happens on one client leaves the replies of the others alone, and those that have finished *)
  Lemma slots_alone i s o k p : nth_error (n_replies s) k = Some p -> attached i p = false -> nth_error (n_replies (slots i s o)) k = Some p.
  Proof.
    intros H A. assert (F : forall f, nth_error (for_attached i f (n_replies s)) k = Some p) by (intros f; unfold for_attached; rewrite nth_error_map, H; cbn [option_map]; now rewrite A).
    destruct o; cbn [Nam.slots]; try exact H; try exact (F _). destruct (existsb _ _); [exact (F _)|exact H].
  Qed.
  Lemma nclient_alone i a s k p : nth_error (n_replies s) k = Some p -> attached i p = false -> nth_error (n_replies (nclient i a s)) k = Some p.
  Proof.
    intros H A. unfold Nam.nclient. destruct (nth_error (n_clients s) i) as [g|]; [|exact H].
    set (s0 := mkNam _ _ _ _). assert (K : nth_error (n_replies s0) k = Some p) by exact H. revert K. generalize s0.
    generalize (skipn (length (client_log g)) (client_log (cstep zlib gunzip parse_url g a))). clear s0.
    induction l as [|o l IH]; intros t K; [exact K|]. cbn [fold_left]. apply IH. now apply slots_alone.
  Qed.
  Theorem C63_isolation : forall s i a k p, nth_error (n_replies s) k = Some p -> np_client p <> i \/ np_phase p <> RWorking -> nth_error (n_replies (nstep s (NEvent i a))) k = Some p.
  Proof.
    intros s i a k p H N. cbn [Nam.nstep]. destruct (is_call a); [exact H|]. apply nclient_alone; auto. destruct (attached i p) eqn:A; auto. apply attached_working in A as [A B]. unfold working in B. destruct N; contradiction.
  Qed.
  (** abort(): of a finished reply, nothing happens *)
  Theorem C63_abort_finished : forall s j p, nth_error (n_replies s) j = Some p -> np_phase p = RDone -> nstep s (NAbort j) = s.
  Proof. intros s j p H E. cbn [Nam.nstep]. now rewrite H, E. Qed.
  (** of a reply whose request was taken up: the reply finishes, and the others stay as they are *)
  Theorem C63_abort : forall l j p, calm_history nstep nam0 l -> let s := nrun nam0 l in
    nth_error (n_replies s) j = Some p -> np_phase p = RWorking -> under_way_after (client_log (client_at s (np_client p))) <> None ->
    exists p', nth_error (n_replies (nstep s (NAbort j))) j = Some p' /\ np_phase p' = RFailing /\ np_error p' = AbortedError /\ view_of p' = view_of p /\
      forall k q, k <> j -> nth_error (n_replies s) k = Some q -> nth_error (n_replies (nstep s (NAbort j))) k = Some q.
  Proof.
    intros l j p H s E Ph U. pose proof (nrun_ok zlib gunzip parse_url cook urls l nam0 nam0_ok H) as N. change (nrun nam0 l) with s in N. pose proof (ni_served _ N) as Sv. destruct N as [Ln Iv Nc Ng].
    assert (Hi : (np_client p < length (n_clients s))%nat) by (pose proof (g_rep _ _ _ Ng) as X; rewrite Forall_forall in X; apply (X p); now apply nth_error_In in E).
    destruct (inv_at s _ Iv Hi) as (c & stk & Ei & I). destruct (inv_work _ _ I) as [_ Iu]. rewrite Ei in U. cbn [client_log] in U. change (under_way_after (c_log c)) with (under (c_log c)) in U.
    rewrite Iu in U. destruct (c_pending c) eqn:Pn; [|congruence]. clear U Iu. cbn [Nam.nstep]. rewrite E, Ph.
    assert (AT : attached (np_client p) p = true) by (apply attached_working; auto).
    assert (X : n_replies (nclient (np_client p) (CaCall CoAbort) s) = for_attached (np_client p) (reply_finished AbortedError) (n_replies s)).
    { unfold Nam.nclient. destruct (nth_error (n_clients s) (np_client p)) as [g|] eqn:En; [|apply nth_error_None in En; lia]. apply client_some in En as [_ En]. assert (g = CRun c stk) as -> by congruence.
      destruct (C52_abort zlib gunzip parse_url c stk Pn) as (c' & stk' & S1 & _ & _ & S2). rewrite S1. cbn [client_log]. rewrite S2, skipn_len. reflexivity. }
    rewrite X. unfold for_attached. exists (reply_finished AbortedError p). rewrite nth_error_map, E. cbn [option_map]. rewrite AT. repeat (split; [reflexivity|]).
    intros k q Hk Hq. rewrite nth_error_map, Hq. cbn [option_map]. destruct (attached (np_client p) q) eqn:Aq; auto. apply attached_working in Aq as [Q1 Q2].
    destruct Hk. eapply (sv_one _ Sv); eauto.
  Qed.
  (** UnknownOperation: the reply never finishes, aborted or not *)
  Theorem C63_unknown_refuted : forall l j p, calm_history nstep nam0 l -> nth_error (n_replies (nrun nam0 l)) j = Some p -> np_req p = None ->
    np_phase p = RWorking \/ np_phase p = RGone.
  Proof.
    intros l j p H E R. destruct (np_phase p) eqn:Ph; auto; exfalso; (assert (G : np_phase p <> RGone) by congruence); destruct (C63_own_response l j p H E G); congruence.
  Qed.
End Nam.

(** ** Concrete histories *)
Definition no_cook (vs : list bytes) : option bytes := None.
Notation ndrun := (nrun false no_gunzip no_url no_cook).
Notation ndstep := (nstep false no_gunzip no_url no_cook).
Definition org : bytes := lit "example.org".
Definition com : bytes := lit "example.com:81".
Definition get (m path : string) : creq := mkCR (lit m) (mkUrl (lit "example.org") (-1) (lit path) []) [] [].
Definition answer (c : string) : bytes := lit "HTTP/1.1 200 OK" ++ CRLF ++ lit "X: " ++ lit c ++ CRLF ++ lit "Content-Length: 2" ++ CRLF ++ CRLF ++ lit c.
Lemma no_url_wf : forall b, wf_url (no_url b).
Proof. intros b. unfold wf_url. cbn. lia. Qed.
(** deciding calm histories *)
Definition insideb (g : csignal) (stk : list cframe) : bool := existsb (fun f => match f, g with KcSig SgHeaders, SgHeaders | KcSig SgContent, SgContent | KcSig SgFinished, SgFinished => true | _, _ => false end) stk.
Lemma inside_iff g stk : inside g stk <-> insideb g stk = true.
Proof.
  unfold inside, insideb. rewrite existsb_exists. split.
  - intros H. exists (KcSig g). split; auto. destruct g; reflexivity.
  - intros (f & H & E). destruct f as [s| | | |]; try discriminate. assert (s = g) as -> by (destruct s, g; congruence). exact H.
Qed.
Definition wf_creqb (r : creq) : bool := (-1 <=? u_port (cr_url r)) && (u_port (cr_url r) <=? 65535) && (blen (cr_data r) <=? 2147483647).
Definition calmb (a : caction) (g : ccfg) : bool :=
  match g with
  | CUB _ => true
  | CRun c stk =>
      match a with
      | CaReadyRead | CaError _ _ => negb (c_pending c) || (negb (insideb SgHeaders stk) && negb (insideb SgContent stk))
      | CaCall CoAbort => negb (c_pending c) || negb (head_method (cr_method (c_req c))) || negb (insideb SgHeaders stk)
      | CaCall (CoRequest r) => wf_creqb r
      | _ => true
      end
  end.
Lemma not_inside g stk : negb (insideb g stk) = true -> ~ inside g stk.
Proof. rewrite negb_true_iff, inside_iff. congruence. Qed.
Lemma wf_creqb_ok r : wf_creqb r = true -> wf_creq r.
Proof. unfold wf_creqb. rewrite !andb_true_iff, !Z.leb_le. unfold wf_creq, wf_url. tauto. Qed.
Lemma calmb_ok a g : calmb a g = true -> calm a g.
Proof.
  destruct g as [c stk|]; [|reflexivity]. cbn [calmb calm]. destruct a as [o| | |b| |rem gone| |b|p]; auto.
  - destruct o; auto; [apply wf_creqb_ok|]. intros H P Hd. rewrite P, Hd in H. now apply not_inside.
  - intros H P. rewrite P in H. apply andb_prop in H as [A B]. split; now apply not_inside.
  - intros H P. rewrite P in H. apply andb_prop in H as [A B]. split; now apply not_inside.
Qed.
Definition calm_eventb (s : nam) (e : nevent) : bool :=
  match e with
  | NCreate _ (Some r) => wf_creqb r && negb (beqb (cr_method r) [])
  | NEvent i a => calmb a (client_at s i)
  | NAbort j => match nth_error (n_replies s) j with Some p => calmb (CaCall CoAbort) (client_at s (np_client p)) | None => true end
  | _ => true
  end.
Fixpoint calm_historyb (step : nam -> nevent -> nam) (s : nam) (l : list nevent) : bool :=
  match l with [] => true | e :: t => calm_eventb s e && calm_historyb step (step s e) t end.
Lemma calm_historyb_ok step l : forall s, calm_historyb step s l = true -> calm_history step s l.
Proof.
  induction l as [|e l IH]; intros s H; [exact Logic.I|]. cbn [calm_historyb calm_history] in *. apply andb_prop in H as [A B]. split; [|now apply IH].
  destruct e as [a r|i a|k|k n|k|k]; cbn [calm_event calm_eventb] in *; auto.
  - destruct r as [r|]; auto. apply andb_prop in A as [A1 A2]. split; [now apply wf_creqb_ok|]. apply negb_true_iff, beqb_false in A2. exact A2.
  - now apply calmb_ok.
  - intros p E. rewrite E in A. now apply calmb_ok.
Qed.
(** two requests to one server at a time, a third to another one; a reply is aborted; a client is used again *)
Definition nam_run : list nevent :=
  [NCreate org (Some (get "GET" "/1")); NEvent 0 CaConnected; NCreate org (Some (get "GET" "/2")); NCreate com (Some (get "GET" "/3"));
   NEvent 0 CaFlushed; NEvent 0 (CaArrive (answer "r1")); NEvent 0 CaReadyRead; NEvent 0 CaReturn; NRead 0 1; NEvent 0 CaReturn; NEvent 0 CaReturn;
   NAbort 1; NErrorReturn 1; NEvent 1 CaReturn; NRead 0 5;
   NCreate org (Some (get "PUT" "/4")); NEvent 1 CaConnected; NCreate org (Some (get "PUT" "/5")); NEvent 2 CaConnected; NEvent 0 CaFlushed;
   NEvent 0 (CaArrive (answer "r5")); NEvent 0 CaReadyRead; NEvent 0 CaReturn; NEvent 0 CaReturn].
Example C54_case : calm_history ndstep nam0 nam_run /\
  map (fun p => (np_client p, np_phase p, np_error p, np_status p, np_headers p, np_content p, np_pos p)) (n_replies (ndrun nam0 nam_run)) =
    [(0%nat, RDone, NoError, 200, [(lit "X", lit "r1"); (lit "Content-Length", lit "2")], lit "r1", 2);
     (1%nat, RDone, AbortedError, 0, [], [], 0);
     (2%nat, RWorking, NoError, 0, [], [], 0);
     (1%nat, RWorking, NoError, 0, [], [], 0);
     (0%nat, RDone, NoError, 200, [(lit "X", lit "r5"); (lit "Content-Length", lit "2")], lit "r5", 0)] /\
  n_pool (ndrun nam0 nam_run) = [(org, 0%nat)] /\ n_auths (ndrun nam0 nam_run) = [org; org; com] /\ reads ndstep 0 nam0 nam_run = lit "r1" /\ Forall sane_read nam_run.
Proof.
  split; [|split; [vm_compute; reflexivity|split; [vm_compute; reflexivity|split; [vm_compute; reflexivity|split; [vm_compute; reflexivity|]]]]].
  - apply calm_historyb_ok. vm_compute. reflexivity.
  - repeat constructor; discriminate.
Qed.

(** ** What fails *)
(** abort() of a reply to a HEAD request, from a slot of metaDataChanged(): its client is in the pool twice, and the next two
    replies share it; the second of them finishes with the status of the response to the first, its own request is never made.
    (What content it shows is not claimed: Nam.v is not exact about that.) *)
Definition head_history : list nevent :=
  [NCreate org (Some (get "HEAD" "/1")); NEvent 0 CaConnected; NEvent 0 (CaArrive (answer "r1")); NEvent 0 CaReadyRead; NAbort 0; NErrorReturn 0; NEvent 0 CaReturn; NEvent 0 CaReturn; NEvent 0 CaReturn;
   NCreate org (Some (get "GET" "/2")); NCreate org (Some (get "GET" "/3"));
   NEvent 0 CaConnected; NEvent 0 CaFlushed; NEvent 0 (CaArrive (answer "r2")); NEvent 0 CaReadyRead; NEvent 0 CaReturn; NEvent 0 CaReturn].
Theorem C54_shared_refuted :
  map (fun p => (np_client p, np_req p, np_phase p, np_error p, np_status p)) (n_replies (ndrun nam0 head_history)) =
    [(0%nat, Some (get "HEAD" "/1"), RDone, AbortedError, 200);
     (0%nat, Some (get "GET" "/2"), RDone, NoError, 200);
     (0%nat, Some (get "GET" "/3"), RDone, NoError, 200)] /\
  filter (fun o => match o with CAccepted _ => true | _ => false end) (client_log (client_at (ndrun nam0 head_history) 0)) = [CAccepted (get "HEAD" "/1"); CAccepted (get "GET" "/2")].
Proof. split; vm_compute; reflexivity. Qed.

(** abort() of a reply from a slot of its own error(), after a new request was made there: the new one is aborted *)
Definition abort_history : list nevent :=
  [NCreate org (Some (get "GET" "/1")); NEvent 0 CaConnected; NEvent 0 (CaError true true); NCreate org (Some (get "GET" "/2")); NAbort 0].
Theorem C63_abort_refuted : calm_history ndstep nam0 abort_history /\
  map (fun p => (np_req p, np_phase p, np_error p)) (n_replies (ndrun nam0 abort_history)) =
    [(Some (get "GET" "/1"), RFailing, RemoteHostClosedError); (Some (get "GET" "/2"), RFailing, AbortedError)].
Proof. split; [apply calm_historyb_ok|]; vm_compute; reflexivity. Qed.

Example C63_unknown_case : calm_history ndstep nam0 [NCreate org None; NAbort 0] /\
  map (fun p => (np_req p, np_phase p)) (n_replies (ndrun nam0 [NCreate org None; NAbort 0])) = [(None, RWorking)].
Proof. split; [apply calm_historyb_ok|]; vm_compute; reflexivity. Qed.

(** abort() of a reply that was made while the previous one on the same client was finishing: its request is made all the same *)
Definition kept_history : list nevent :=
  [NCreate org (Some (get "GET" "/1")); NEvent 0 CaConnected; NEvent 0 CaFlushed; NEvent 0 (CaArrive (answer "r1")); NEvent 0 CaReadyRead; NEvent 0 CaReturn; NEvent 0 CaReturn;
   NCreate org (Some (get "GET" "/2")); NAbort 1; NEvent 0 CaReturn; NEvent 0 CaConnected].
Theorem C63_abort_kept_refuted : calm_history ndstep nam0 kept_history /\
  map (fun p => (np_req p, np_phase p)) (n_replies (ndrun nam0 kept_history)) = [(Some (get "GET" "/1"), RDone); (Some (get "GET" "/2"), RWorking)] /\
  In (CAccepted (get "GET" "/2")) (client_log (client_at (ndrun nam0 kept_history) 0)).
Proof. split; [apply calm_historyb_ok; vm_compute; reflexivity|]. split; [vm_compute; reflexivity|]. vm_compute. tauto. Qed.
Example C63_abort_case : let s := ndrun nam0 (firstn 11 nam_run) in
  map np_phase (n_replies s) = [RDone; RWorking; RWorking] /\ under_way_after (client_log (client_at s 1)) = Some (get "GET" "/2") /\
  map np_phase (n_replies (ndstep s (NAbort 1))) = [RDone; RFailing; RWorking].
Proof. repeat split; vm_compute; reflexivity. Qed.
