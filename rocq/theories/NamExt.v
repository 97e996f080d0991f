(** What one step of an HttpClient adds to its log: no signal but the last event, and no new request but the one kept before. *)
From Verif Require Import Bytes ByteHelpers Helpers Joyent RespParser Client ClientSpec ClientInv.
Open Scope Z_scope.

Definition is_signal (o : cobs) : bool := match o with CHeaders _ _ | CContent _ | CFinished _ _ _ _ => true | _ => false end.
Definition okq (W : option creq) (o : cobs) : Prop :=
  match o with CAccepted r | CKept r => W = Some r | CHeaders _ _ | CContent _ | CFinished _ _ _ _ => False | _ => True end.
Definition Pre (z : bool) (W : option creq) (base : list cobs) (c : client) : Prop :=
  (exists q, c_log c = base ++ q /\ Forall (okq W) q) /\ (c_next c = None \/ c_next c = W) /\ (z = true -> c_pending c = true -> r_content (c_p c) = []).
Definition Ext (z : bool) (W : option creq) (base : list cobs) (g : ccfg) : Prop :=
  match g with
  | CUB _ => True
  | CRun c _ => exists q t, c_log c = base ++ q ++ t /\ Forall (okq W) q /\ (c_next c = None \/ c_next c = W) /\
      (t = [] \/ exists o, t = [o] /\ is_signal o = true) /\ (z = true -> c_pending c = true -> r_content (c_p c) = match t with [CContent b] => b | _ => [] end)
  end.
Definition KOk z W base (k : client -> ccfg) : Prop := forall c, Pre z W base c -> Ext z W base (k c).
Definition KFin z W base (fin : bytes -> client -> ccfg) : Prop := forall er c, Pre z W base c -> Ext z W base (fin er c).

Lemma prun_content : forall f r l, match prun f r l with PEnd r' _ | PCall _ r' _ _ => r_content r = [] -> r_content r' = [] | PFault => True end.
Proof.
  induction f as [|f IH]; intros r l; cbn [prun]; [exact Logic.I|]. destruct (jstep (r_h r) l) as [h l'|c h l' er|h er|]; rsimp.
  - specialize (IH (rset_h h r) l'). destruct (prun f (rset_h h r) l'); auto.
  - assert (OC : forall c, (forall b, c <> CbBody b) -> r_content r = [] -> r_content (on_cb c (rset_h h r)) = []).
    { intros c0 N E. destruct c0; cbn [on_cb]; unfold rlog, pushHeader; rsimp; try destruct (r_lwv r); rsimp; auto.
      all: now destruct (N b). }
    assert (Q : forall c, (forall b, c <> CbBody b) -> match (if is_ok (h_errno (r_h (on_cb c (rset_h h r)))) then prun f (on_cb c (rset_h h r)) l' else PEnd (on_cb c (rset_h h r)) er) with PEnd r' _ | PCall _ r' _ _ => r_content r = [] -> r_content r' = [] | PFault => True end).
    { intros c0 N. destruct (is_ok _); [|now apply OC]. specialize (IH (on_cb c0 (rset_h h r)) l'). destruct (prun f _ l'); auto; intros E; apply IH; apply OC; auto. }
    destruct c; try (apply Q; discriminate); auto. destruct (_ =? 100); [apply Q; discriminate|auto].
  - auto.
  - exact Logic.I.
Qed.

Lemma pre_same z W base c c' : Pre z W base c -> c_log c' = c_log c -> c_next c' = c_next c -> (c_pending c' = true -> c_pending c = true) ->
  (r_content (c_p c) = [] -> r_content (c_p c') = []) -> Pre z W base c'.
Proof. intros (A & B & D) E1 E2 E3 E4. split; [now rewrite E1|]. split; [now rewrite E2|]. auto. Qed.
Lemma pre_ext z W base c stk : Pre z W base c -> Ext z W base (CRun c stk).
Proof. intros ((q & A & B) & D & E). exists q, []. rewrite app_nil_r. auto 10. Qed.
Lemma pre_emit z W base c q : Pre z W base c -> Forall (okq W) q -> Pre z W base (cemit q c).
Proof. intros ((q0 & A & B) & D & E) F. split; [|split; clsimp; auto]. exists (q0 ++ q). clsimp. rewrite A, app_assoc. split; [reflexivity|]. now apply Forall_app. Qed.
Lemma sig_ext z W base c o stk c' : Pre z W base c -> c_log c' = c_log c ++ [o] -> is_signal o = true -> c_next c' = c_next c ->
  (z = true -> c_pending c' = true -> r_content (c_p c') = match o with CContent b => b | _ => [] end) -> Ext z W base (CRun c' stk).
Proof.
  intros ((q & A & B) & D & E) F S N C. exists q, [o]. rewrite F, A, <- app_assoc, N. split; [reflexivity|]. split; [exact B|]. split; [exact D|]. split; [right; eauto|].
  intros Hz P. rewrite (C Hz P). destruct o; auto.
Qed.
Ltac pre H := eapply pre_same; [exact H|reflexivity|reflexivity|clsimp; auto; try congruence|clsimp; auto].

Lemma finished_ext z W base c stk : Pre z W base c -> Ext z W base (emit_finished c stk).
Proof. intros H. eapply sig_ext; [exact H|reflexivity|reflexivity|reflexivity|]. destruct H as (_ & _ & H). exact H. Qed.
Lemma close_pre z W base c : Pre z W base c -> Pre z W base (dev_close c).
Proof. intros H. pre H. Qed.
Lemma error_ext z W base e c stk k : Pre z W base c -> KOk z W base k -> Ext z W base (device_error e c stk k).
Proof. intros H K. unfold device_error. destruct (negb _); [now apply K|]. apply finished_ext. pre H. Qed.
Lemma send_ext z W base c k : Pre z W base c -> KOk z W base k -> Ext z W base (sendRequest c k).
Proof.
  intros H K. unfold sendRequest. destruct (negb _); [now apply K|]. destruct (match c_host c with [] => _ | _ => _ end) as [h|]; [|exact Logic.I].
  cbv zeta. destruct (writeRequest _ _ _ _) as [ws|]; [|exact Logic.I]. apply K.
  assert (H1 : Pre z W base (cset_host h c)) by pre H.
  assert (H2 : Pre z W base (cemit (map CWrite ws) (cset_host h c))) by (apply pre_emit; auto; apply Forall_forall; intros x Hx; apply in_map_iff in Hx as (y & <- & _); exact Logic.I).
  pre H2.
Qed.
Lemma connect_ext z W base c stk k : Pre z W base c -> KOk z W base k -> Ext z W base (connectToHost c stk k).
Proof.
  intros H K. unfold connectToHost. destruct (negb _); [now apply K|]. cbv zeta.
  assert (H1 : Pre z W base (cemit [CConnect (u_host (cr_url (c_req c))) (port80 (cr_url (c_req c)))] (cset_dev DUnconnected false [] c))) by (apply pre_emit; [pre H|repeat constructor]).
  destruct (c_plan _); [apply K; pre H1|now apply error_ext|apply send_ext; auto; pre H1].
Qed.
Lemma request_ext z W base r c stk k : Pre z W base c -> W = Some r -> KOk z W base k -> Ext z W base (request r c stk k).
Proof.
  intros H E K. unfold request. destruct (c_pending c) eqn:P; [apply K; apply pre_emit; auto; repeat constructor|]. destruct (r_parsing (c_p c)) eqn:Pa.
  - apply K. assert (X : Pre z W base (cset_next (match cr_method r with [] => None | _ => Some r end) c)).
    { destruct H as (A & B & D). split; [exact A|]. split; [|exact D]. clsimp. destruct (cr_method r); auto. }
    apply pre_emit; auto.
  - cbv zeta. assert (X : Pre z W base (cemit [CAccepted r] (cset_p (rclear (c_p c)) (cset_error NoError (cset_pending true (cset_req r c)))))).
    { apply pre_emit; [|repeat constructor; exact E]. destruct H as (A & B & D). split; [exact A|]. split; [exact B|]. intros _ _. clsimp. unfold rclear. rsimp. rewrite Pa. reflexivity. }
    set (c1 := cemit _ _) in *. destruct (_ && _ && _); [now apply send_ext|]. apply connect_ext; auto.
    destruct (unconnected _); [pre X|]. unfold dev_disconnect. pre X.
Qed.

Section Client.
  Variables (zlib : bool) (gunzip : list bytes -> bytes -> bytes) (parse_url : bytes -> url).
  Lemma complete_pre z W base c : Pre z W base c -> Pre z W base (complete c).
  Proof.
    intros H. unfold complete. cbv zeta. destruct (c_timeout _ =? 0); [unfold dev_close; pre H|]. destruct (should_keep_alive _); [pre H|unfold dev_close; pre H].
  Qed.
  Lemma parse_ext z W base l ph c stk fin : Pre z W base c -> KFin z W base fin -> Ext z W base (parse gunzip l ph c stk fin).
  Proof.
    intros H K. unfold parse. pose proof (prun_content (pfuel l) (c_p c) l) as PC. destruct (prun (pfuel l) (c_p c) l) as [r er|cb r l' er|]; [| |exact Logic.I].
    - apply K. pre H.
    - assert (X : Pre z W base (cset_p r c)) by pre H.
      destruct cb as [|b|b| |b|]; try exact Logic.I.
      + eapply sig_ext; [exact X|reflexivity|reflexivity|reflexivity|]. clsimp. destruct X as (_ & _ & X). intros Hz P. specialize (X Hz P). clsimp in *. unfold pushHeader. destruct (r_lwv r); exact X.
      + destruct (match c_dec c with None => _ | Some _ => _ end) as [b' d]. eapply sig_ext; [exact X|reflexivity|reflexivity|reflexivity|]. clsimp. unfold set_content. rsimp.
        destruct X as (_ & _ & X). intros Hz P. specialize (X Hz P). clsimp in *. now rewrite X.
      + cbv zeta. destruct (_ =? 100).
        * apply K. eapply pre_same; [exact X|reflexivity|reflexivity|clsimp; auto|]. clsimp. intros _. unfold rclear. rsimp. destruct (r_parsing r); reflexivity.
        * apply finished_ext. now apply complete_pre.
  Qed.
  Lemma runpause_content r : r_content (runpause r) = r_content r.
  Proof. unfold runpause. destruct (h_errno _); reflexivity. Qed.
  Lemma injected_pre z W base c : Pre z W base c -> Pre z W base (injected c).
  Proof. intros H. unfold injected. pre H. unfold rset_parsing. rsimp. now rewrite runpause_content. Qed.
  Lemma tail_ext z W base c stk k : Pre z W base c -> KOk z W base k -> Ext z W base (read_tail c stk k).
  Proof.
    intros H K. unfold read_tail. destruct (c_pending c); [now apply K|]. destruct (c_next c) as [r|] eqn:N; [|now apply K].
    destruct H as (A & B & D). rewrite N in B. destruct B as [B|B]; [discriminate|]. apply request_ext; auto. split; [exact A|]. split; [now left|exact D].
  Qed.
  Lemma check_ext z W base c stk k : Pre z W base c -> KOk z W base k -> Ext z W base (check_error c stk k).
  Proof. intros H K. unfold check_error. destruct (hasError _); [|now apply tail_ext]. apply finished_ext. unfold dev_close. pre H. Qed.
  Lemma after2_ext z W base stk k : KOk z W base k -> KFin z W base (after2 stk k).
  Proof. intros K er c H. unfold after2. apply check_ext; auto. now apply injected_pre. Qed.
  Lemma after1_ext z W base stk k : KOk z W base k -> KFin z W base (after1 gunzip stk k).
  Proof.
    intros K er c H. unfold after1. cbv zeta. apply injected_pre in H. destruct (negb _); [now apply tail_ext|]. destruct (_ && _); [|now apply check_ext].
    unfold inject2. cbv zeta. assert (X : Pre z W base (cset_p (rset_parsing true (c_p (injected c))) (injected c))) by pre H.
    destruct (is_ok _); [apply parse_ext; auto|]; now apply after2_ext.
  Qed.
  Lemma finish_ext z W base ph stk k : KOk z W base k -> KFin z W base (finish gunzip ph stk k).
  Proof. destruct ph; [apply after1_ext|apply after2_ext]. Qed.
  Lemma resume_ext z W base : forall stk, KOk z W base (cresume zlib gunzip stk).
  Proof.
    induction stk as [|f t IH]; intros c H; [now apply pre_ext|]. destruct f as [s|l er ph|l er ph|er ph|]; cbn [cresume].
    - now apply pre_ext.
    - unfold headers_tail. destruct (asciiEqualsCI_lower _ _).
      + apply finished_ext, complete_pre. pre H.
      + cbv zeta. match goal with |- context [if ?b then cset_dec ?x c else c] => set (c1 := if b then cset_dec x c else c) end.
        assert (X : Pre z W base c1) by (subst c1; destruct (_ && _); [pre H|exact H]). destruct (is_ok _); [apply parse_ext; auto|]; now apply finish_ext.
    - destruct (is_ok _); [apply parse_ext; auto|]; now apply finish_ext.
    - apply finish_ext; auto.
    - now apply tail_ext.
  Qed.
  Lemma readyRead_ext z W base c stk k : Pre z W base c -> KOk z W base k -> Ext z W base (device_readyRead gunzip c stk k).
  Proof.
    intros H K. unfold device_readyRead. destruct (negb _); [apply K; now apply close_pre|]. destruct (c_in c) eqn:I; [now apply K|]. cbv zeta. rewrite <- I.
    destruct (_ <=? 0); [now apply K|]. destruct (r_parsing _); [exact Logic.I|].
    match goal with |- context [is_ok (h_errno (r_h (c_p ?x)))] => set (c1 := x) end. assert (X : Pre z W base c1) by (subst c1; pre H).
    destruct (is_ok _); [apply parse_ext; auto|]; now apply after1_ext.
  Qed.
  Definition asks (a : caction) : bool := match a with CaCall (CoRequest _) | CaCall CoFollow => true | _ => false end.
  Lemma step_ext z c stk a : asks a = false -> (z = true -> c_pending c = true -> r_content (c_p c) = []) -> Ext z (c_next c) (c_log c) (cstep zlib gunzip parse_url (CRun c stk) a).
  Proof.
    intros A Z0. set (W := c_next c). assert (H : Pre z W (c_log c) c) by (split; [exists []; rewrite app_nil_r; auto|]; split; [now right|exact Z0]).
    pose proof (resume_ext z W (c_log c)) as R. destruct a as [o| | |b| |rem gone| |b|p]; cbn [cstep].
    - destruct o; try discriminate; cbn [do_cop].
      + unfold abort. cbv zeta. unfold dev_abort. clsimp. destruct (c_pending c) eqn:P; [|apply R; pre H].
        apply finished_ext. pre H.
      + apply R. pre H.
      + apply R. pre H.
      + apply R. pre H.
    - destruct stk as [|[s| | | |] t]; try (now apply pre_ext). now apply R.
    - apply readyRead_ext; auto.
    - destruct (connected c); apply pre_ext; [pre H|exact H].
    - destruct (c_dev c); try (now apply pre_ext). apply send_ext; auto.
    - destruct (unconnected c); [now apply pre_ext|]. apply error_ext; auto. destruct gone; [pre H|exact H].
    - apply pre_ext. pre H.
    - apply pre_ext. pre H.
    - apply pre_ext. pre H.
  Qed.
End Client.
Lemma request_starts z r c stk k : c_pending c = false -> c_next c = None -> (forall base, KOk z (Some r) base k) ->
  Ext z (Some r) (c_log c ++ [if r_parsing (c_p c) then CKept r else CAccepted r]) (request r c stk k).
Proof.
  intros P N K. unfold request. rewrite P. destruct (r_parsing (c_p c)) eqn:Pa.
  - apply K. split; [exists []; clsimp; rewrite app_nil_r; auto|]. split; [clsimp; destruct (cr_method r); auto|]. clsimp. congruence.
  - cbv zeta. assert (X : Pre z (Some r) (c_log c ++ [CAccepted r]) (cemit [CAccepted r] (cset_p (rclear (c_p c)) (cset_error NoError (cset_pending true (cset_req r c)))))).
    { split; [exists []; clsimp; rewrite app_nil_r; auto|]. split; [clsimp; auto|]. intros _ _. clsimp. unfold rclear. rsimp. rewrite Pa. reflexivity. }
    set (c1 := cemit _ _) in *. destruct (_ && _ && _); [now apply send_ext|]. apply connect_ext; auto.
    destruct (unconnected _); [pre X|]. unfold dev_disconnect. pre X.
Qed.

(** ** What the log says: the request to work on, and the one under way *)
Definition work1 (w : option creq) (o : cobs) : option creq :=
  match o with
  | CAccepted r => Some r
  | CKept r => if beqb (cr_method r) [] then None else Some r
  | CFinished _ _ _ _ => None
  | _ => w
  end.
Definition work (l : list cobs) : option creq := fold_left work1 l None.
Definition under1 (w : option creq) (o : cobs) : option creq :=
  match o with CAccepted r => Some r | CFinished _ _ _ _ => None | _ => w end.
Definition under (l : list cobs) : option creq := fold_left under1 l None.
Definition at_hand (s : stand) : option creq := match s with Idle k => k | Taken r | Calling r | Sent r => Some r end.

Lemma fold_writes {A} (f : A -> cobs -> A) ws : (forall a b, f a (CWrite b) = a) -> forall a, fold_left f (map CWrite ws) a = a.
Proof. intros H. induction ws as [|x ws IH]; intros a; cbn [map fold_left]; auto. now rewrite H. Qed.
Lemma work_snoc l o : work (l ++ [o]) = work1 (work l) o.
Proof. unfold work. now rewrite fold_left_app. Qed.
Lemma under_snoc l o : under (l ++ [o]) = under1 (under l) o.
Proof. unfold under. now rewrite fold_left_app. Qed.
Lemma dialog_work l s : Dialog l s -> work l = at_hand s /\ under l = under_way s.
Proof.
  induction 1 as [|l k r H IH K|l k r H IH|l s r r' H IH U|l r H IH|l s r ws H IH U T P|l s r code hs H IH U N|l s r b H IH U|l s r e code hs b H IH U];
    rewrite ?work_snoc, ?under_snoc; cbn [work1 under1 at_hand under_way] in *; auto; try tauto.
  unfold work, under in *. rewrite !fold_left_app, !fold_writes by reflexivity. destruct IH as [-> ->]. now destruct U as [-> | ->].
Qed.
Lemma dialog_method l k : Dialog l (Idle k) -> forall r, k = Some r -> cr_method r <> [].
Proof.
  intros H r ->. inversion H; subst; cbn [under_way] in *; try discriminate. destruct (beqb (cr_method r0) []) eqn:B; [discriminate|]. intros E. injection H0 as ->. rewrite E in B. discriminate.
Qed.
Lemma request_text_pos r : ~ RequestText r [].
Proof. intros (h & H & E). destruct H. destruct (cr_method r); discriminate. Qed.
Lemma dialog_signal l o s : Dialog (l ++ [o]) s -> is_signal o = true -> exists s0 r, Dialog l s0 /\ under_way s0 = Some r.
Proof.
  intros H S. remember (l ++ [o]) as l' eqn:E.
  destruct H as [|l0 k r H K|l0 k r H|l0 s r r' H U|l0 r H|l0 s r ws H U T P|l0 s r code hs H U N|l0 s r b H U|l0 s r e code hs b H U];
    try (apply app_inj_tail in E as [-> <-]; try discriminate; eauto; fail); [destruct l; discriminate|].
  destruct ws as [|w ws] using List.rev_ind; [now apply request_text_pos in T|]. rewrite map_app, app_assoc in E. apply app_inj_tail in E as [_ <-]. discriminate.
Qed.

Definition at_work (c : client) : option creq := if c_pending c then Some (c_req c) else c_next c.
Lemma inv_work c stk : Inv c stk -> work (c_log c) = at_work c /\ under (c_log c) = if c_pending c then Some (c_req c) else None.
Proof.
  intros [[K _ _ _] _]. destruct (dialog_work _ _ (co_dialog _ _ K)) as [-> ->]. unfold place, at_work. destruct (c_pending c); [destruct (c_dev c)|]; auto.
Qed.
Lemma inv_method c stk : Inv c stk -> c_pending c = false -> forall r, c_next c = Some r -> cr_method r <> [].
Proof.
  intros [[K _ _ _] _] P. pose proof (co_dialog _ _ K) as D. unfold place in D. rewrite P in D. now apply (dialog_method (c_log c)).
Qed.
Lemma inv_next c stk : Inv c stk -> c_pending c = true -> c_next c = None.
Proof. intros [[K _ _ _] _] P. apply (co_kept _ _ K). rewrite under_place by auto. discriminate. Qed.
(** quiet events with the kept request only *)
Lemma okq_work W q : Forall (okq W) q -> (forall r, W = Some r -> cr_method r <> []) -> forall l, work l = W \/ (W = None) -> work (l ++ q) = work l.
Proof.
  intros F M. induction F as [|o q Ho Hq IH]; intros l E; [now rewrite app_nil_r|]. replace (l ++ o :: q) with ((l ++ [o]) ++ q) by now rewrite <- app_assoc.
  assert (X : work (l ++ [o]) = work l).
  { rewrite work_snoc. destruct o; cbn [okq work1] in *; auto; try contradiction; destruct E as [E|E]; try congruence. rewrite E, Ho. rewrite (proj2 (beqb_false _ _)); auto. }
  rewrite IH; auto. now rewrite X.
Qed.
Lemma okq_under W q : Forall (okq W) q -> W = None -> forall l, under (l ++ q) = under l.
Proof.
  intros F ->. induction F as [|o q Ho Hq IH]; intros l; [now rewrite app_nil_r|]. replace (l ++ o :: q) with ((l ++ [o]) ++ q) by now rewrite <- app_assoc.
  rewrite IH, under_snoc. destruct o; cbn [okq under1] in *; auto; try contradiction; discriminate.
Qed.
