(** Invariants of HttpClient: the dialog, the shape of the stack, the response parser never asserts. *)
From Verif Require Import Bytes ByteHelpers Helpers CIProofs TextSpec Joyent RespParser RespInv RespSplit RespFeed ConnHead Client ClientSpec.
Open Scope Z_scope.

(** ** The text of a request *)
Lemma fold_lines hs : forall b, fold_left (fun b h => b ++ fst h ++ lit ": " ++ snd h ++ CRLF) hs b = b ++ concat (map header_line hs).
Proof.
  induction hs as [|h hs IH]; intros b; cbn [fold_left map concat]; [now rewrite app_nil_r|].
  rewrite IH. unfold header_line at 2. now rewrite <- !app_assoc.
Qed.

Lemma beqb_nil (b : bytes) : beqb b [] = match b with [] => true | _ => false end.
Proof. destruct b; reflexivity. Qed.

Lemma canonical_exists n : 0 <= n -> exists d, Canonical 10 d n.
Proof. intros H. destruct (appendNumber_any 10 n ltac:(lia)) as (d & _ & C); eauto. unfold INT_MIN. lia. Qed.

Lemma request_text r h : HostText (cr_url r) h -> blen (cr_data r) <= 2147483647 ->
  exists ws, writeRequest (cr_method r) (request_uri (cr_url r)) ((lit "Host", h) :: cr_headers r) (cr_data r) = Some ws /\
    RequestText r (concat ws).
Proof.
  intros HT HL. unfold writeRequest, request_uri.
  set (uri := u_path (cr_url r) ++ _).
  set (b0 := cr_method r ++ lit " " ++ uri ++ lit " HTTP/1.1" ++ CRLF).
  rewrite fold_lines. set (hs := concat (map header_line _)).
  destruct (appendNumber_any 10 (blen (cr_data r)) ltac:(lia)) as (d & Ed & Cd); [unfold INT_MIN, blen; lia|].
  assert (Hd : RequestHead r (b0 ++ hs ++ (if beqb (cr_data r) [] then [] else header_line (lit "Content-Length", d)) ++ CRLF)).
  { replace b0 with (cr_method r ++ lit " " ++ u_path (cr_url r) ++ (if beqb (u_query (cr_url r)) [] then [] else lit "?" ++ u_query (cr_url r)) ++ lit " HTTP/1.1" ++ CRLF)
      by (subst b0 uri; rewrite beqb_nil; destruct (u_query (cr_url r)); rewrite <- ?app_assoc; reflexivity).
    pose proof (RqHead r h d HT Cd) as X. rewrite <- !app_assoc. exact X. }
  rewrite Ed. unfold RequestText.
  destruct (cr_data r) as [|c data] eqn:D.
  - eexists. split; [reflexivity|]. eexists. split; [exact Hd|]. cbn [beqb concat]. now rewrite !app_nil_r, <- app_assoc.
  - assert (E : b0 ++ hs ++ (if beqb (c :: data) [] then [] else header_line (lit "Content-Length", d)) ++ CRLF =
                (b0 ++ hs) ++ lit "Content-Length: " ++ d ++ CRLF ++ CRLF).
    { rewrite beqb_nil. unfold header_line. cbn [fst snd]. rewrite <- !app_assoc. reflexivity. }
    rewrite E in Hd.
    destruct (blen (c :: data) <? 4096); (eexists; split; [reflexivity|]; eexists; split; [exact Hd|]);
      cbn [concat]; now rewrite ?app_nil_r.
Qed.

Lemma host_text u : wf_url u -> exists h, host_value u = Some h /\ HostText u h.
Proof.
  intros W. unfold wf_url in W. unfold host_value, port80.
  destruct (Z.eqb_spec (u_port u) (-1)) as [E|E].
  - cbn [Z.eqb]. eexists. split; [reflexivity|]. now apply HT_default; left.
  - destruct (Z.eqb_spec (u_port u) 80) as [E'|E'].
    + eexists. split; [reflexivity|]. now apply HT_default; right.
    + destruct (appendNumber_any 10 (u_port u) ltac:(lia)) as (d & Ed & Cd); [unfold INT_MIN; lia|]. rewrite Ed.
      eexists. split; [reflexivity|]. now apply HT_port.
Qed.
Lemma host_value_text u h : wf_url u -> host_value u = Some h -> HostText u h.
Proof. intros W E. destruct (host_text u W) as (h' & E' & H). congruence. Qed.

(** ** http_parser_execute with the client's callbacks *)
Definition PGood (r : rparser) (res : pres) : Prop :=
  match res with
  | PEnd r' er => r_parsing r' = r_parsing r /\ h_errno (r_h r') <> HPE_PAUSED /\ (h_errno (r_h r') = HPE_OK -> HOk (r_h r') /\ er = [])
  | PCall c r' l' er => r_parsing r' = r_parsing r /\ JOk (r_h r') l' /\
      match c with CbHeaders => h_status (r_h r') <> 100 | CbBody _ | CbComplete => True | _ => False end
  | PFault => False
  end.
Lemma on_cb_parsing c r : r_parsing (on_cb c r) = r_parsing r.
Proof. destruct c; cbn [on_cb]; unfold pushHeader; try destruct (r_lwv r); reflexivity. Qed.

Lemma prun_nomark f r re : (1 <= f)%nat -> prun f r (mkL [] None None None re) = PEnd r [].
Proof. intros H. destruct f as [|f]; [lia|]. cbn. now rewrite rset_h_id. Qed.
Lemma pgood_end r r' : r_parsing r' = r_parsing r -> h_errno (r_h r') = HPE_OK -> HOk (r_h r') -> PGood r (PEnd r' []).
Proof. intros A B C. unfold PGood. rewrite B. split; [exact A|]. split; [discriminate|auto]. Qed.
Lemma prun_end f r l : JOk (r_h r) l -> l_data l = [] -> (mu (r_h r) l <= f)%nat -> PGood r (prun f r l).
Proof.
  intros [Hh He Hf Hv Hb Hr] D F. destruct l as [d fm v b re]; cbn [l_data l_field l_value l_body l_re] in *. subst d.
  unfold mu, marks in F. cbn [l_data l_field l_value l_body l_re] in F.
  assert (re = false) by (destruct re; auto; destruct (Hr eq_refl); congruence). subst re.
  destruct f as [|f]; [lia|]. cbn [prun]. unfold jstep. cbn [l_data l_field l_value l_body].
  unfold marks; cbn [l_field l_value l_body].
  destruct (h_state (r_h r)) eqn:S; cbn in Hf, Hv; destruct fm, v; try discriminate;
  (destruct b as [b|]; [try (specialize (Hb eq_refl); discriminate)|]); cbn [Nat.add Nat.ltb Nat.leb] in *;
  rewrite ?rset_h_id; try (apply pgood_end; auto; fail).
  1,2: rewrite on_cb_h by discriminate; rewrite He; cbn [is_ok]; unfold no_field, no_value; cbn [l_data l_field l_value l_body l_re];
    rewrite prun_nomark by lia; apply pgood_end; rewrite ?on_cb_parsing; auto; rewrite on_cb_h by discriminate; auto.
  all: cbn [PGood]; split; [reflexivity|]; split; [|exact I]; constructor; unfold no_body;
   cbn [l_data l_field l_value l_body l_re isSome]; rewrite ?S; auto; discriminate.
Qed.

Lemma prun_good : forall f r l, JOk (r_h r) l -> (mu (r_h r) l <= f)%nat -> PGood r (prun f r l).
Proof.
  induction f as [|f IH]; intros r l HJ F.
  { exfalso. unfold mu in F. destruct (l_data l); cbn [length] in F; lia. }
  destruct (list_eq_dec ascii_dec (l_data l) []) as [D|D]; [now apply prun_end|].
  pose proof (jstep_inv _ _ HJ D) as G. cbn [prun].
  destruct (jstep (r_h r) l) as [h l'|c h l' er|h er|]; cbn [Good] in G; try contradiction.
  - destruct G as [J1 M1]. apply (IH (rset_h h r) l'); rsimp; auto; lia.
  - destruct G as [J1 M1].
    assert (Q : forall c0, c0 <> CbComplete -> PGood r (prun f (on_cb c0 (rset_h h r)) l')).
    { intros c0 N. pose proof (IH (on_cb c0 (rset_h h r)) l') as X. rewrite on_cb_h in X by auto. rsimp in *.
      specialize (X J1 ltac:(lia)). unfold PGood in *. destruct (prun _ _ _); auto; rewrite on_cb_parsing in X; rsimp in *; exact X. }
    assert (O : forall c0, c0 <> CbComplete -> is_ok (h_errno (r_h (on_cb c0 (rset_h h r)))) = true).
    { intros c0 N. rewrite on_cb_h by auto. rsimp. now rewrite (jo_errno _ _ J1). }
    destruct c as [|b|b| |b|]; rewrite ?O by discriminate; try (apply Q; discriminate); [|cbn; auto|cbn; auto].
    destruct (Z.eqb_spec (h_status (r_h (rset_h h r))) 100) as [E|E]; [apply Q; discriminate|].
    cbn. auto.
  - destruct G as [G1 G2]. cbn. split; [reflexivity|]. split; [auto|]. intros; congruence.
Qed.
Lemma prun_ok r l : JOk (r_h r) l -> PGood r (prun (pfuel l) r l).
Proof. intros H. apply prun_good; auto. pose proof (mu_le (r_h r) l). unfold pfuel. lia. Qed.

(** ** The invariant *)
Definition parse_frame (f : cframe) : bool :=
  match f with KcHeaders _ _ _ | KcParse _ _ _ | KcComplete _ _ => true | _ => false end.
Definition noparse (stk : list cframe) : Prop := existsb parse_frame stk = false.
Definition FOk (c : client) (l : locals) : Prop :=
  (c_pending c = true -> JOk (r_h (c_p c)) l) /\ (c_pending c = false -> h_errno (r_h (c_p c)) = HPE_PAUSED).

Inductive Shape (c : client) : list cframe -> Prop :=
| Sh_nil : Shape c []
| Sh_sig s t : Shape c t -> Shape c (KcSig s :: t)
| Sh_headers l er ph t : FOk c l -> (c_pending c = false -> head_method (cr_method (c_req c)) = false) -> Shape c t -> noparse t ->
    Shape c (KcSig SgHeaders :: KcHeaders l er ph :: t)
| Sh_parse s l er ph t : FOk c l -> (c_pending c = true -> s = SgContent) -> Shape c t -> noparse t -> Shape c (KcSig s :: KcParse l er ph :: t)
| Sh_complete er ph t : c_pending c = false -> h_errno (r_h (c_p c)) = HPE_OK \/ h_errno (r_h (c_p c)) = HPE_PAUSED -> Shape c t -> noparse t -> Shape c (KcSig SgFinished :: KcComplete er ph :: t)
| Sh_read t : Shape c t -> noparse t -> Shape c (KcSig SgFinished :: KcRead :: t).

Lemma shape_free c c' t : Shape c t -> noparse t -> Shape c' t.
Proof.
  unfold noparse. induction 1; intros N; cbn [existsb parse_frame orb] in N; try discriminate; eauto using Sh_nil, Sh_sig, Sh_read.
Qed.
Lemma shape_same c c' t : Shape c t -> c_pending c' = c_pending c -> r_h (c_p c') = r_h (c_p c) -> c_req c' = c_req c -> Shape c' t.
Proof.
  intros H A B D. induction H; [apply Sh_nil|apply Sh_sig|apply Sh_headers|apply Sh_parse|apply Sh_complete|apply Sh_read]; auto; unfold FOk in *; rewrite ?A, ?B, ?D; auto.
Qed.
Lemma shape_resume c t : Shape c t -> forall zl gz c', cresume zl gz t c' = CRun c' t.
Proof. intros H. destruct H; reflexivity. Qed.
Lemma shape_abort c c' t : Shape c t -> (head_method (cr_method (c_req c)) = true -> ~ inside SgHeaders t) ->
  c_pending c' = false -> h_errno (r_h (c_p c')) = HPE_PAUSED -> c_req c' = c_req c -> Shape c' t.
Proof.
  intros H K A B D. induction H; [apply Sh_nil|apply Sh_sig|apply Sh_headers|apply Sh_parse|apply Sh_complete|apply Sh_read]; auto; unfold FOk; rewrite ?A, ?B, ?D; auto; try (split; congruence); try congruence.
  - apply IHShape. intros X Y. apply (K X). now right.
  - intros _. destruct (head_method _); auto. exfalso. apply K; auto. now left.
  - apply IHShape. intros X Y. apply (K X). right. now right.
  - apply IHShape. intros X Y. apply (K X). right. now right.
  - apply IHShape. intros X Y. apply (K X). right. now right.
  - apply IHShape. intros X Y. apply (K X). right. now right.
Qed.
Lemma pending_noparse c t : Shape c t -> c_pending c = true -> ~ inside SgHeaders t -> ~ inside SgContent t -> noparse t.
Proof.
  unfold noparse, inside. intros H P A B. induction H; cbn [existsb parse_frame orb].
  - reflexivity.
  - apply IHShape; intros X; [apply A|apply B]; now right.
  - exfalso. apply A. now left.
  - exfalso. apply B. left. f_equal. auto.
  - congruence.
  - apply IHShape; intros X; [apply A|apply B]; right; now right.
Qed.

Definition live (d : dstate) : bool := match d with DConnecting | DConnected => true | _ => false end.
Record CoreS (s : stand) (c : client) : Prop := mkCoreS {
  co_dialog : Dialog (c_log c) s;
  co_host : c_host c = [] \/ host_value (cr_url (c_req c)) = Some (c_host c);
  co_req : wf_creq (c_req c);
  co_next : forall r, c_next c = Some r -> wf_creq r;
  co_kept : under_way s <> None -> c_next c = None;
  co_peer : live (c_dev c) = true -> peer (c_log c) = Some (server (cr_url (c_req c))) }.
Definition place (c : client) : stand :=
  if c_pending c then match c_dev c with DConnecting => Calling (c_req c) | DConnected => Sent (c_req c) | _ => Taken (c_req c) end
  else Idle (c_next c).
Definition Core (c : client) : Prop := CoreS (place c) c.
Record InvW (c : client) (stk : list cframe) : Prop := mkInv {
  iv_core : Core c;
  iv_shape : Shape c stk;
  iv_parsing : r_parsing (c_p c) = existsb parse_frame stk;
  iv_h : r_parsing (c_p c) = false -> c_pending c = true -> h_errno (r_h (c_p c)) = HPE_OK \/ h_errno (r_h (c_p c)) = HPE_PAUSED -> HOk (r_h (c_p c)) }.
Definition Inv (c : client) (stk : list cframe) : Prop := InvW c stk /\ (r_parsing (c_p c) = false -> c_next c = None).
Definition InvG (g : ccfg) : Prop := match g with CRun c stk => Inv c stk | CUB _ => False end.
Definition Cont (stk : list cframe) (k : client -> ccfg) : Prop := forall c, k c = CRun c stk.

Lemma cores_set s c c' : CoreS s c -> c_log c' = c_log c -> c_host c' = c_host c -> c_req c' = c_req c -> c_next c' = c_next c ->
  (live (c_dev c') = true -> live (c_dev c) = true) -> CoreS s c'.
Proof. intros [A B C D F Pr] E1 E2 E3 E4 E5. constructor; rewrite ?E1, ?E2, ?E3, ?E4; auto. Qed.
Lemma closing_live c : live (closing c) = true -> live (c_dev c) = true.
Proof. unfold closing. destruct (c_dev c); auto. Qed.
Ltac keep K := eapply cores_set; [exact K|reflexivity|reflexivity|reflexivity|reflexivity|
  clsimp; unfold dev_close, dev_disconnect, dev_abort; clsimp; auto using closing_live; try discriminate].
Lemma peer_app l a : peer (l ++ a) = fold_left (fun p o => match o with CConnect h q => Some (h, q) | _ => p end) a (peer l).
Proof. apply fold_left_app. Qed.
Lemma peer_writes l ws : peer (l ++ map CWrite ws) = peer l.
Proof. rewrite peer_app. generalize (peer l). induction ws as [|w ws IH]; intros p; [reflexivity|]. apply IH. Qed.

Lemma finished_ok s r c stk : CoreS s c -> under_way s = Some r -> c_pending c = false -> Shape c (KcSig SgFinished :: stk) ->
  r_parsing (c_p c) = existsb parse_frame stk -> InvG (emit_finished c stk).
Proof.
  intros [A B C D F Pr] U P S E. assert (Nx : c_next c = None) by (apply F; congruence). unfold emit_finished. split; [|clsimp; auto]. constructor; clsimp.
  - unfold Core, place. clsimp. rewrite P, Nx. constructor; clsimp; auto; [eapply Dg_finished; eauto|rewrite peer_app; exact Pr].
  - eapply shape_same; [exact S| | |]; reflexivity.
  - exact E.
  - congruence.
Qed.

Lemma under_place c : c_pending c = true -> under_way (place c) = Some (c_req c).
Proof. intros P. unfold place. rewrite P. destruct (c_dev c); reflexivity. Qed.

Lemma error_ok e s c stk k : CoreS s c -> (c_pending c = true -> under_way s = Some (c_req c) /\ Shape c stk /\ noparse stk /\ r_parsing (c_p c) = false) ->
  (c_pending c = false -> InvG (k c)) -> InvG (device_error e c stk k).
Proof.
  intros K A B. unfold device_error. destruct (c_pending c) eqn:P; cbn [negb]; [|auto].
  destruct (A eq_refl) as (U & S & N & R). eapply finished_ok; [| exact U | | |].
  - keep K.
  - reflexivity.
  - constructor. eapply shape_free; eauto.
  - clsimp. rewrite N. exact R.
Qed.

Lemma send_ok s c k : CoreS s c -> c_dev c = DConnected -> (c_pending c = true -> s = Taken (c_req c) \/ s = Calling (c_req c)) ->
  (c_pending c = false -> s = Idle (c_next c)) ->
  (forall c', Core c' -> c_p c' = c_p c -> c_pending c' = c_pending c -> c_req c' = c_req c -> c_next c' = c_next c -> InvG (k c')) -> InvG (sendRequest c k).
Proof.
  intros [A B C D F Pr] Dv Sp Si K. unfold sendRequest. destruct (c_pending c) eqn:P; cbn [negb].
  2:{ apply K; auto. unfold Core, place. rewrite P. rewrite (Si eq_refl) in *. constructor; auto. }
  destruct C as [Cu Cl].
  destruct (host_text _ Cu) as (h & Eh & Hh).
  assert (E : (match c_host c with [] => host_value (cr_url (c_req c)) | h0 => Some h0 end) = Some h).
  { destruct B as [B|B]; [now rewrite B|]. rewrite B in Eh. injection Eh as Eh. destruct (c_host c); [now subst|]. now subst. }
  rewrite E. destruct (request_text (c_req c) h Hh Cl) as (ws & Ew & T). clsimp. rewrite Ew.
  apply K; clsimp; auto. unfold Core, place. clsimp. rewrite P, Dv. constructor; clsimp; auto.
  - eapply Dg_write; eauto. apply Pr. now rewrite Dv.
  - split; auto.
  - intros _. apply F. destruct (Sp eq_refl) as [-> | ->]; discriminate.
  - intros _. rewrite peer_writes. apply Pr. now rewrite Dv.
Qed.

Lemma connect_ok c stk k : CoreS (Taken (c_req c)) c -> c_pending c = true -> c_dev c = DUnconnected \/ c_dev c = DClosing ->
  Shape c stk -> noparse stk -> r_parsing (c_p c) = false ->
  (forall c', Core c' -> c_p c' = c_p c -> c_pending c' = c_pending c -> c_req c' = c_req c -> c_next c' = c_next c -> InvG (k c')) ->
  InvG (connectToHost c stk k).
Proof.
  intros K P Dv S N R G. unfold connectToHost, unconnected.
  assert (KC : forall dv u i, CoreS (Calling (c_req c)) (cset_dev dv u i (cemit [CConnect (u_host (cr_url (c_req c))) (port80 (cr_url (c_req c)))] c))).
  { intros dv u i. destruct K as [A B C D F Pr]. constructor; clsimp; auto; [now apply Dg_connect|]. intros _. rewrite peer_app. reflexivity. }
  destruct Dv as [Dv|Dv]; rewrite Dv; cbn [negb].
  2:{ apply G; auto. unfold Core, place. now rewrite P, Dv. }
  clsimp. destruct (c_plan c).
  - apply G; auto. unfold Core, place. clsimp. rewrite P. exact (KC DConnecting false []).
  - apply (error_ok _ (Calling (c_req c))); clsimp.
    + exact (KC DUnconnected false []).
    + intros _. split; [reflexivity|]. split; [|auto]. eapply shape_free; eauto.
    + congruence.
  - eapply send_ok; [exact (KC DConnected false [])| | | |]; clsimp; auto. congruence.
Qed.

Lemma host_same a b : same_server a b = true -> host_value a = host_value b.
Proof.
  unfold same_server. intros H. apply andb_prop in H as [H1 H2]. apply beqb_true in H1. apply Z.eqb_eq in H2.
  unfold host_value, port80. now rewrite H1, H2.
Qed.

Lemma server_same a b : same_server a b = true -> server a = server b.
Proof.
  unfold same_server. intros H. apply andb_prop in H as [H1 H2]. apply beqb_true in H1. apply Z.eqb_eq in H2.
  unfold server. now rewrite H1, H2.
Qed.

Lemma rclear_ok r : r_parsing r = false -> r_parsing (rclear r) = false /\ r_h (rclear r) = hinit.
Proof. intros E. unfold rclear. rsimp. rewrite E. rsimp. auto. Qed.

Lemma request_new r kept c stk k : CoreS (Idle kept) c -> kept = None \/ kept = Some r -> c_next c = None -> c_pending c = false ->
  r_parsing (c_p c) = false -> Shape c stk -> noparse stk -> wf_creq r -> Cont stk k -> InvG (request r c stk k).
Proof.
  intros KI Kr Nx P R S N W G. unfold request. rewrite P, R.
  destruct (rclear_ok _ R) as [R1 R2].
  set (c1 := cemit [CAccepted r] _).
  assert (K1 : forall c', (c_host c' = [] \/ host_value (cr_url r) = Some (c_host c')) -> c_log c' = c_log c1 -> c_req c' = r -> c_next c' = c_next c ->
    (live (c_dev c') = true -> live (c_dev c) = true /\ server (cr_url r) = server (cr_url (c_req c))) -> CoreS (Taken r) c').
  { intros c' Hh E1 E2 E3 E4. destruct KI as [A B C D F Pr]. constructor; rewrite ?E1, ?E2, ?E3; subst c1; clsimp; auto; [eapply Dg_accepted; eauto|].
    intros L. destruct (E4 L) as [L1 ->]. rewrite peer_app. exact (Pr L1). }
  assert (Gk : forall c', Core c' -> c_p c' = c_p c1 -> c_pending c' = c_pending c1 -> c_req c' = c_req c1 -> c_next c' = c_next c1 -> InvG (k c')).
  { intros c' K' E1 E2 E3 E4. rewrite G. split; [|intros _; rewrite E4; subst c1; exact Nx]. constructor; auto.
    - eapply shape_free; eauto.
    - rewrite E1. subst c1. clsimp. now rewrite N.
    - intros _ _ _. rewrite E1. subst c1. clsimp. rewrite R2. exact HOk_init. }
  replace (c_timeout c1) with (c_timeout c) by reflexivity.
  destruct (connected c1 && same_server (cr_url r) (cr_url (c_req c)) && negb _) eqn:Re.
  - apply andb_prop in Re as [Re _]. apply andb_prop in Re as [Re1 Re2].
    assert (Dv : c_dev c1 = DConnected) by (unfold connected in Re1; destruct (c_dev c1); auto; discriminate).
    eapply (send_ok (Taken r)); auto; subst c1; clsimp; auto; [|congruence].
    apply K1; clsimp; auto.
    + destruct (co_host _ _ KI) as [B|B]; auto. right. now rewrite (host_same _ _ Re2).
    + intros L. split; [exact L|]. now apply server_same.
  - set (c2 := if unconnected (cset_host [] c1) then _ else _).
    assert (C2 : CoreS (Taken r) c2 /\ (c_dev c2 = DUnconnected \/ c_dev c2 = DClosing) /\ c_p c2 = c_p c1 /\ c_pending c2 = true /\ c_req c2 = r /\ c_next c2 = c_next c1).
    { subst c2. destruct (unconnected (cset_host [] c1)) eqn:U.
      - assert (Dv : c_dev (cset_host [] c1) = DUnconnected) by (unfold unconnected in U; destruct (c_dev (cset_host [] c1)); auto; discriminate).
        split; [apply K1; auto; rewrite Dv; discriminate|]. split; [|subst c1; auto]. left. exact Dv.
      - assert (Dv : closing (cset_host [] c1) = DUnconnected \/ closing (cset_host [] c1) = DClosing).
        { unfold closing. destruct (c_dev (cset_host [] c1)); auto. destruct (c_unsent (cset_host [] c1)); auto. }
        split; [apply K1; auto; unfold dev_disconnect; clsimp; destruct Dv as [-> | ->]; discriminate|]. split; [|subst c1; auto]. exact Dv. }
    destruct C2 as (X1 & X2 & X3 & X4 & X5 & X6).
    apply connect_ok; auto.
    + now rewrite X5.
    + eapply shape_free; eauto.
    + now rewrite X3.
    + intros c' Y1 Y2 Y3 Y4 Y5. apply Gk; auto; [congruence|rewrite Y3, X4; reflexivity|rewrite Y4, X5; reflexivity|congruence].
Qed.

Lemma request_ok r c stk k : Inv c stk -> wf_creq r -> Cont stk k -> InvG (request r c stk k).
Proof.
  intros [[K S E H] Nx] W G.
  destruct (c_pending c) eqn:P.
  { unfold request. rewrite P, G. split; [|exact Nx]. constructor; clsimp; auto; [|eapply shape_same; eauto]. unfold Core, place in *. clsimp. rewrite P in *.
    destruct K as [A B C D F Pr]. constructor; clsimp; auto; [eapply Dg_ignored; eauto; destruct (c_dev c); reflexivity|].
    rewrite peer_app. exact Pr. }
  assert (KI : CoreS (Idle (c_next c)) c) by (unfold Core, place in K; rewrite P in K; exact K).
  destruct (r_parsing (c_p c)) eqn:R.
  { unfold request. rewrite P, R, G. split; [|clsimp; congruence]. constructor; clsimp; [|eapply shape_same; eauto|congruence|congruence].
    unfold Core, place. clsimp. rewrite P. destruct KI as [A B C D F Pr]. constructor; clsimp; auto.
    - pose proof (Dg_kept _ _ r A) as X. rewrite beqb_nil in X. now destruct (cr_method r).
    - intros r0 Er. destruct (cr_method r); [discriminate|]. injection Er as <-. exact W.
    - now intros [].
    - rewrite peer_app. exact Pr. }
  apply (request_new r (c_next c)); auto. unfold noparse. now rewrite <- E.
Qed.

Lemma hpause_errno h : h_errno h = HPE_OK \/ h_errno h = HPE_PAUSED -> h_errno (hpause h) = HPE_PAUSED.
Proof. unfold hpause. intros [-> | ->]; reflexivity. Qed.


Lemma abort_ok c stk k : Inv c stk -> (c_pending c = true -> head_method (cr_method (c_req c)) = true -> ~ inside SgHeaders stk) ->
  Cont stk k -> InvG (abort c stk k).
Proof.
  intros [[K S E H] Nx] Q G. unfold abort, dev_abort. clsimp. destruct (c_pending c) eqn:P.
  - eapply (finished_ok (place c)); clsimp; rsimp; [| now apply under_place | reflexivity | | exact E].
    + keep K.
    + apply Sh_sig. destruct (r_parsing (c_p c)) eqn:R.
      2:{ eapply shape_free; [exact S|now unfold noparse]. }
      eapply shape_abort; eauto. clsimp. rsimp. apply hpause_errno. left.
      clear - S E P. induction S; cbn [existsb parse_frame orb] in E; try discriminate; try congruence; auto.
      * destruct H as [H _]. apply (H P).
      * destruct H as [H _]. apply (H P).
  - rewrite G. split; [|exact Nx]. constructor; clsimp; auto.
    + unfold Core, place in *. clsimp. rewrite P in *. keep K.
    + eapply shape_same; eauto.
    + congruence.
Qed.

Definition Fin (c : client) (t : list cframe) : Prop :=
  Core c /\ Shape c t /\ noparse t /\ r_parsing (c_p c) = true /\
  (c_pending c = true -> h_errno (r_h (c_p c)) = HPE_OK \/ h_errno (r_h (c_p c)) = HPE_PAUSED -> HOk (r_h (c_p c))) /\
  (c_pending c = false -> h_errno (r_h (c_p c)) = HPE_PAUSED).
Definition FinK (t : list cframe) (fin : bytes -> client -> ccfg) : Prop := forall er c, Fin c t -> InvG (fin er c).

Lemma runpause_p r : r_parsing (runpause r) = r_parsing r.
Proof. unfold runpause. destruct (h_errno (r_h r)); reflexivity. Qed.

Section Steps.
  Variables (zlib : bool) (gunzip : list bytes -> bytes -> bytes) (parse_url : bytes -> url).
  Hypothesis urls : forall b, wf_url (parse_url b).

  Lemma core_p v c : Core c -> Core (cset_p v c).
  Proof. intros K. keep K. Qed.

  Lemma core_dec v c : Core c -> Core (cset_dec v c).
  Proof. intros K. keep K. Qed.

  (* what messageComplete does before finished() *)
  Lemma complete_fields c : c_p (complete c) = c_p c /\ c_pending (complete c) = false /\ c_req (complete c) = c_req c /\
    c_log (complete c) = c_log c /\ c_host (complete c) = c_host c /\ c_next (complete c) = c_next c.
  Proof.
    unfold complete. clsimp. destruct (c_timeout c =? 0); [repeat split|].
    destruct (should_keep_alive (r_h (c_p c))); repeat split.
  Qed.
  Lemma complete_core s c : CoreS s c -> CoreS s (complete c).
  Proof. intros K. destruct (complete_fields c) as (A & B & C & D & E & F). eapply cores_set; eauto.
    unfold complete. clsimp. destruct (c_timeout c =? 0); [unfold dev_close; clsimp; apply (closing_live (cset_pending false (cset_dec None c)))|].
    destruct (should_keep_alive (r_h (c_p c))); unfold dev_close; clsimp; auto. apply (closing_live (cset_pending false (cset_dec None c))).
  Qed.

  Lemma parse_ok l ph c t fin : Core c -> c_pending c = true -> Shape c t -> noparse t -> r_parsing (c_p c) = true ->
    JOk (r_h (c_p c)) l -> FinK t fin -> InvG (parse gunzip l ph c t fin).
  Proof.
    intros K P S N R HJ FK. unfold parse. pose proof (prun_ok _ _ HJ) as G.
    destruct (prun (pfuel l) (c_p c) l) as [r er|cb r l' er|]; cbn [PGood] in G; [| |contradiction].
    - destruct G as (G1 & G2 & G3). apply FK. unfold Fin. clsimp. split; [now apply core_p|]. split; [eapply shape_free; eauto|].
      split; [exact N|]. split; [congruence|]. split; [|congruence]. intros _ [X|X]; [apply (G3 X)|congruence].
    - destruct G as (G1 & G2 & G3). destruct cb as [|x|x| |x|]; try contradiction.
      + assert (PH : r_h (pushHeader r) = r_h r /\ r_parsing (pushHeader r) = r_parsing r) by (unfold pushHeader; destruct (r_lwv r); auto).
        destruct PH as [PH1 PH2]. cbn zeta. split; [|clsimp; rewrite PH2, G1; congruence]. constructor; clsimp.
        * unfold Core, place in *. clsimp. destruct K as [A B C D F Pr]. constructor; clsimp; auto; [|rewrite peer_app; exact Pr]. rewrite PH1.
          rewrite P in *. eapply Dg_headers; eauto. destruct (c_dev c); reflexivity.
        * apply Sh_headers; auto; [|clsimp; congruence|eapply shape_free; eauto].
          split; clsimp; [|congruence]. intros _. now rewrite PH1.
        * cbn [existsb parse_frame orb]. congruence.
        * rewrite PH2, G1. congruence.
      + destruct (match c_dec c with None => _ | Some _ => _ end) as [b' d]. cbn zeta. split; [|clsimp; unfold set_content; rsimp; rewrite G1; congruence]. constructor; clsimp; unfold set_content; rsimp.
        * unfold Core, place in *. clsimp. destruct K as [A B C D F Pr]. constructor; clsimp; auto; [|rewrite peer_app; exact Pr].
          rewrite P in *. eapply Dg_content; eauto. destruct (c_dev c); reflexivity.
        * apply Sh_parse; auto; [|eapply shape_free; eauto].
          split; clsimp; [|congruence]. intros _. rsimp. exact G2.
        * cbn [existsb parse_frame orb]. congruence.
        * rewrite G1. congruence.
      + destruct (Z.eqb_spec (h_status (r_h r)) 100) as [E|E].
        * cbn zeta. apply FK. unfold Fin. clsimp. split; [now apply core_p, core_dec, core_p|]. split; [eapply shape_free; eauto|].
          split; [exact N|].
          assert (X : rclear r = mkRP (hpause hinit) (r_field r) (r_value r) (r_lwv r) true [] [] (r_log r)).
          { unfold rclear. rsimp. rewrite G1, R. rsimp. reflexivity. }
          rewrite X. rsimp. split; [reflexivity|]. split; [|congruence]. intros _ _. exact HOk_init.
        * destruct (complete_fields (cset_p r c)) as (F1 & F2 & F3 & F4 & F5 & F6).
          eapply (finished_ok (place c)); [|now apply under_place|exact F2| |].
          { apply complete_core. keep K. }
          { apply Sh_complete; auto; [|eapply shape_free; eauto]. rewrite F1. clsimp. left. exact (jo_errno _ _ G2). }
          { rewrite F1. clsimp. cbn [existsb parse_frame orb]. congruence. }
  Qed.

  Lemma read_tail_ok c t k : InvW c t -> r_parsing (c_p c) = false -> Cont t k -> InvG (read_tail c t k).
  Proof.
    intros I R G. unfold read_tail. destruct (c_pending c) eqn:P.
    { rewrite G. split; [exact I|]. intros _. apply (co_kept _ _ (iv_core _ _ I)). rewrite under_place by exact P. discriminate. }
    destruct (c_next c) as [r|] eqn:Nx; [|rewrite G; now split].
    destruct I as [K S E H]. unfold Core, place in K. rewrite P, Nx in K.
    apply (request_new r (Some r)); clsimp; auto.
    - destruct K as [A B C D F Pr]. constructor; clsimp; auto. discriminate.
    - eapply shape_same; eauto.
    - unfold noparse. now rewrite <- E.
    - exact (co_next _ _ K _ Nx).
  Qed.

  (* after inject() *)
  Lemma injected_ok c t : Fin c t -> InvW (injected c) t /\ r_parsing (c_p (injected c)) = false /\ (c_pending c = false -> hasError (c_p (injected c)) = false) /\ noparse t /\
    c_pending (injected c) = c_pending c.
  Proof.
    intros (K & S & N & R & Hp & Hn). unfold injected. clsimp.
    pose proof (runpause_h (c_p c)) as (X1 & X2 & X3).
    split; [|split; [reflexivity|split; [|auto]]].
    - constructor; clsimp; rsimp.
      + now apply core_p.
      + eapply shape_free; eauto.
      + now rewrite N.
      + intros _ P O. destruct (h_errno (r_h (c_p c))) eqn:Q; try (rewrite X2 in * by discriminate; destruct O; congruence).
        * rewrite X2 by discriminate. apply Hp; auto.
        * apply X3; auto.
    - intros P. specialize (Hn P). unfold hasError, runpause. rewrite Hn. reflexivity.
  Qed.

  Lemma check_error_ok c t k : InvW c t -> r_parsing (c_p c) = false -> noparse t -> (c_pending c = false -> hasError (c_p c) = false) -> Cont t k -> InvG (check_error c t k).
  Proof.
    intros I R N Q G. unfold check_error. destruct (hasError (c_p c)) eqn:E; [|now apply read_tail_ok].
    destruct (c_pending c) eqn:P; [|specialize (Q eq_refl); congruence].
    destruct I as [K S E1 H]. eapply (finished_ok (place c)); [|now apply under_place| | |].
    - keep K.
    - reflexivity.
    - apply Sh_read; [eapply shape_free; eauto|exact N].
    - clsimp. cbn [existsb parse_frame orb]. exact E1.
  Qed.

  Lemma after2_ok t k : Cont t k -> FinK t (after2 t k).
  Proof.
    intros G er c F. unfold after2. destruct (injected_ok _ _ F) as (I & R & Q & N & P). apply check_error_ok; auto.
  Qed.

  Lemma start_ok data ph c t fin : Inv c t -> noparse t -> c_pending c = true -> FinK t fin ->
    InvG (let c := cset_p (rset_parsing true (c_p c)) c in
          if is_ok (h_errno (r_h (c_p c))) then parse gunzip (jstart data (r_h (c_p c))) ph c t fin else fin data c).
  Proof.
    intros [[K S E H] Nx] N P FK. clsimp. rsimp. rewrite N in E.
    destruct (is_ok (h_errno (r_h (c_p c)))) eqn:O.
    - apply is_ok_true in O. apply parse_ok; clsimp; rsimp; auto.
      + now apply core_p.
      + eapply shape_free; eauto.
      + apply jstart_ok; auto.
    - apply FK. unfold Fin. clsimp. rsimp. split; [now apply core_p|]. split; [eapply shape_free; eauto|]. split; [exact N|]. split; [reflexivity|].
      split; [|congruence]. auto.
  Qed.

  Lemma after1_ok t k : Cont t k -> FinK t (after1 gunzip t k).
  Proof.
    intros G er c F. unfold after1. destruct (injected_ok _ _ F) as (I & R & Q & N & P).
    destruct (c_pending (injected c)) eqn:P1; cbn [negb]; [|now apply read_tail_ok].
    destruct (negb (hasError (c_p (injected c))) && negb (beqb er [])).
    - unfold inject2. apply start_ok; auto; [|now apply after2_ok]. split; [exact I|]. intros _. apply (co_kept _ _ (iv_core _ _ I)).
      rewrite under_place by exact P1. discriminate.
    - apply check_error_ok; auto.
  Qed.
  Lemma finish_ok ph t k : Cont t k -> FinK t (finish gunzip ph t k).
  Proof. intros G. destruct ph; cbn [finish]; [now apply after1_ok|now apply after2_ok]. Qed.

  Lemma core_dev v u i c : Core c -> c_pending c = false /\ (live v = true -> live (c_dev c) = true) \/ v = c_dev c -> Core (cset_dev v u i c).
  Proof.
    intros K H. unfold Core, place in *. clsimp. destruct (c_pending c).
    - destruct H as [[H _]|H]; [discriminate|]. subst v. keep K.
    - destruct H as [[_ H]|H]; keep K; congruence.
  Qed.

  Lemma readyRead_ok c stk k : Inv c stk -> (c_pending c = true -> noparse stk) -> Cont stk k -> InvG (device_readyRead gunzip c stk k).
  Proof.
    intros I Q G. unfold device_readyRead. destruct (c_pending c) eqn:P; cbn [negb].
    2:{ rewrite G. destruct I as [[K S E H] Nx]. split; [|exact Nx]. constructor; clsimp; auto.
        - apply core_dev; auto using closing_live.
        - eapply shape_same; eauto. }
    destruct (c_in c) as [|x xs] eqn:Ci; [now rewrite G|]. set (data := x :: xs).
    set (room := if 0 <? c_rbuf c then c_rbuf c - blen (r_content (c_p c)) else blen data). change (x :: xs) with data. fold room. destruct (room <=? 0); [now rewrite G|].
    specialize (Q eq_refl). pose proof (iv_parsing _ _ (proj1 I)) as E. rewrite Q in E. rewrite E.
    apply (start_ok _ First (cset_dev (c_dev c) (c_unsent c) (skipn (Z.to_nat (Z.min room (blen data))) data) c)); auto; [|now apply after1_ok].
    destruct I as [[K S E1 H] Nx]. split; [|exact Nx]. constructor; clsimp; auto.
    - apply core_dev; auto.
    - eapply shape_same; eauto.
  Qed.

  Lemma head_lower m : asciiEqualsCI_lower m (lit "head") = head_method m.
  Proof.
    apply eq_iff_eq_true. rewrite asciiEqualsCI_lower_iff by reflexivity. unfold head_method. symmetry. apply beqb_true.
  Qed.

  Lemma return_ok c t : Inv c t -> InvG (cstep zlib gunzip parse_url (CRun c t) CaReturn).
  Proof.
    intros I. cbn [cstep]. destruct I as [[K S E H] Nx].
    destruct S as [|s t S|l er ph t F Hd S N|s l er ph t F Hs S N|er ph t P O S N|t S N]; cbn [existsb parse_frame orb] in E.
    - split; auto. constructor; auto; apply Sh_nil.
    - rewrite (shape_resume _ _ S). split; auto. constructor; auto.
    - cbn [cresume]. assert (G : Cont t (cresume zlib gunzip t)) by (intros c'; now apply (shape_resume _ _ S)).
      pose proof (finish_ok ph t _ G) as FK. destruct F as [F1 F2]. unfold headers_tail. rewrite head_lower.
      destruct (head_method (cr_method (c_req c))) eqn:HM.
      + destruct (c_pending c) eqn:P; [|now specialize (Hd eq_refl)].
        set (c1 := cset_p (rset_h (hpause (r_h (c_p c))) (c_p c)) c).
        destruct (complete_fields c1) as (X1 & X2 & X3 & X4 & X5 & X6).
        eapply (finished_ok (place c)); [|now apply under_place|exact X2| |].
        * apply complete_core. keep K.
        * apply Sh_parse; auto; [|congruence|eapply shape_free; eauto].
          split; [congruence|]. intros _. rewrite X1. subst c1. clsimp. rsimp. apply hpause_errno. left. exact (jo_errno _ _ (F1 eq_refl)).
        * rewrite X1. subst c1. clsimp. rsimp. cbn [existsb parse_frame orb]. exact E.
      + match goal with |- context[if ?b then cset_dec (Some []) c else c] => set (c1 := if b then cset_dec (Some []) c else c) end.
        assert (C1 : c_p c1 = c_p c /\ c_pending c1 = c_pending c /\ Core c1 /\ Shape c1 t).
        { subst c1. match goal with |- context[if ?b then cset_dec (Some []) c else c] => destruct b end; [|auto]. split; [reflexivity|]. split; [reflexivity|]. split; [now apply core_dec|]. eapply shape_free; eauto. }
        destruct C1 as (Y1 & Y2 & Y3 & Y4). rewrite Y1. destruct (is_ok (h_errno (r_h (c_p c)))) eqn:O.
        * apply is_ok_true in O.
          destruct (c_pending c) eqn:P; [|specialize (F2 eq_refl); congruence].
          apply parse_ok; auto; rewrite ?Y1; auto.
        * apply FK. unfold Fin. rewrite Y1, Y2. split; [exact Y3|]. split; [exact Y4|]. split; [exact N|]. split; [exact E|].
          split; [|exact F2]. intros P. rewrite (jo_errno _ _ (F1 P)) in O. discriminate.
    - cbn [cresume]. assert (G : Cont t (cresume zlib gunzip t)) by (intros c'; now apply (shape_resume _ _ S)).
      pose proof (finish_ok ph t _ G) as FK. destruct F as [F1 F2].
      destruct (is_ok (h_errno (r_h (c_p c)))) eqn:O.
      + apply is_ok_true in O. destruct (c_pending c) eqn:P; [|specialize (F2 eq_refl); congruence].
        apply parse_ok; auto.
      + apply FK. unfold Fin. split; [exact K|]. split; [exact S|]. split; [exact N|]. split; [exact E|].
        split; [|exact F2]. intros P. rewrite (jo_errno _ _ (F1 P)) in O. discriminate.
    - cbn [cresume]. assert (G : Cont t (cresume zlib gunzip t)) by (intros c'; now apply (shape_resume _ _ S)).
      apply (finish_ok ph t _ G). unfold Fin. clsimp. rsimp. split; [now apply core_p|]. split; [eapply shape_free; eauto|]. split; [exact N|]. split; [exact E|].
      split; [congruence|]. intros _. now apply hpause_errno.
    - cbn [cresume]. assert (G : Cont t (cresume zlib gunzip t)) by (intros c'; now apply (shape_resume _ _ S)).
      apply read_tail_ok; auto; [constructor; auto|]. rewrite E. exact N.
  Qed.

  Lemma step_ok g a : InvG g -> calm a g -> InvG (cstep zlib gunzip parse_url g a).
  Proof.
    destruct g as [c stk|f]; [|contradiction]. intros I Q. cbn [InvG] in I.
    assert (G : Cont stk (cresume zlib gunzip stk)) by (intros c'; exact (shape_resume _ _ (iv_shape _ _ (proj1 I)) _ _ _)).
    assert (ST : forall c', c_p c' = c_p c -> c_pending c' = c_pending c -> c_req c' = c_req c -> c_next c' = c_next c -> Core c' -> Inv c' stk).
    { intros c' E1 E2 E3 E4 K. destruct I as [[K0 S E H] Nx]. split; [|rewrite E1, E4; exact Nx]. constructor; rewrite ?E1, ?E2; auto. eapply shape_same; eauto. now rewrite E1. }
    pose proof (iv_core _ _ (proj1 I)) as K.
    destruct a as [o| | |b| |rem gone| |b|p]; cbn [calm] in Q; [|now apply return_ok|..]; cbn [cstep].
    - destruct o as [r| | | |n|n]; cbn [do_cop].
      + now apply request_ok.
      + now apply abort_ok.
      + rewrite G. destruct I as [[K0 S E H] Nx]. split; [|exact Nx]. constructor; clsimp; unfold set_content; rsimp; auto.
        * now apply core_p.
        * eapply shape_same; eauto.
      + unfold followRedirection. destruct (redirected c); [|now rewrite G]. apply request_ok; auto.
        split; cbn [cr_url cr_data]; [apply urls|]. apply (co_req _ _ K).
      + rewrite G. apply ST; auto. keep K.
      + rewrite G. apply ST; auto. keep K.
    - apply readyRead_ok; auto. intros P. destruct (Q P) as [Q1 Q2]. exact (pending_noparse _ _ (iv_shape _ _ (proj1 I)) P Q1 Q2).
    - destruct (connected c) eqn:Cn; [|exact I]. apply ST; auto. apply core_dev; auto.
    - destruct (c_dev c) eqn:Dv; try exact I.
      apply (send_ok (place c)); clsimp; auto.
      + keep K. now rewrite Dv.
      + intros P. right. unfold place. now rewrite P, Dv.
      + intros P. unfold place. now rewrite P.
      + intros c' K' E1 E2 E3 E4. rewrite G. apply ST; auto.
    - destruct (unconnected c); [exact I|].
      apply (error_ok _ (place c)).
      + destruct gone; [keep K|exact K].
      + intros P. assert (P' : c_pending c = true) by (destruct gone; exact P). clear P.
        destruct (Q P') as [Q1 Q2]. pose proof (pending_noparse _ _ (iv_shape _ _ (proj1 I)) P' Q1 Q2) as N.
        split; [pose proof (under_place _ P'); destruct gone; assumption|]. split; [eapply shape_free; [exact (iv_shape _ _ (proj1 I))|exact N]|].
        split; [exact N|]. pose proof (iv_parsing _ _ (proj1 I)) as E. rewrite N in E. destruct gone; exact E.
      + intros P. rewrite G. destruct gone; [|exact I]. apply ST; auto. apply core_dev; auto. left. split; [exact P|discriminate].
    - assert (X : InvG (CRun (cset_dev (match c_dev c with DClosing => DUnconnected | d => d end) false (c_in c) c) stk)); [|exact X].
      apply ST; auto. unfold Core, place in *. clsimp. destruct (c_pending c); [|keep K; now destruct (c_dev c)].
      destruct (c_dev c) eqn:Dv; keep K; now rewrite Dv.
    - apply ST; auto. keep K.
    - apply ST; auto. keep K.
  Qed.

  Lemma start_inv : InvG cstart.
  Proof.
    split; [|reflexivity]. constructor; [|apply Sh_nil|reflexivity|discriminate].
    unfold Core, place. cbn [client0 c_pending]. constructor; cbn [client0 c_log c_host c_req c_next].
    - apply Dg_new.
    - now left.
    - split; cbn; [unfold wf_url; cbn|]; lia.
    - discriminate.
    - now intros [].
    - discriminate.
  Qed.

  Lemma run_ok : forall l g, InvG g -> calm_run (cstep zlib gunzip parse_url) g l -> InvG (crun zlib gunzip parse_url g l).
  Proof.
    induction l as [|a l IH]; intros g I Q; [exact I|]. destruct Q as [Q1 Q2]. apply IH; auto. now apply step_ok.
  Qed.
End Steps.
