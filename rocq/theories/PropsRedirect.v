(** PROPERTY C67: followRedirection().  Specification: ClientSpec.v, and what is below. *)
From Verif Require Import Bytes ByteHelpers Helpers CIProofs TextSpec Joyent RespParser RespInv RespSplit RespFeed Client ClientSpec ClientInv PropsClient.
Open Scope Z_scope.

(** ** Specification *)
(** the latest request that was taken, and the status and header fields its finished() showed *)
Definition latest (l : list cobs) : option creq * option (Z * list (bytes * bytes)) :=
  fold_left (fun p o => match o with
                        | CAccepted r => (Some r, None)
                        | CFinished _ code hs _ => (fst p, Some (code, hs))
                        | _ => p
                        end) l (None, None).
(** the statuses that ask to go elsewhere *)
Definition elsewhere (code : Z) : Prop := code = 300 \/ code = 301 \/ code = 302 \/ code = 303 \/ code = 307.
(** the first field of that name, in any case *)
Definition location (hs : list (bytes * bytes)) : bytes :=
  match filter (fun h => beqb (lower (fst h)) (lit "location")) hs with [] => [] | h :: _ => snd h end.
(** the same request for another URL *)
Definition for_url (u : url) (r : creq) : creq := mkCR (cr_method r) u (cr_headers r) (cr_data r).

(** ** Proofs *)
Lemma latest_app l x : latest (l ++ [x]) = match x with
  | CAccepted r => (Some r, None) | CFinished _ code hs _ => (fst (latest l), Some (code, hs)) | _ => latest l end.
Proof. unfold latest. rewrite fold_left_app. reflexivity. Qed.
Lemma latest_writes ws : forall l, latest (l ++ map CWrite ws) = latest l.
Proof. intros l. unfold latest. rewrite fold_left_app. generalize (fold_left (fun p o => match o with CAccepted r => (Some r, None) | CFinished _ code hs _ => (fst p, Some (code, hs)) | _ => p end) l (None, None)). induction ws as [|w ws IH]; intros p; [reflexivity|]. apply IH. Qed.

(* the request is the latest one taken *)
Definition Lreq (c : client) : Prop := fst (latest (c_log c)) = Some (c_req c).
Definition Linv (c : client) : Prop :=
  (fst (latest (c_log c)) = None /\ c_pending c = false /\ status c = 0 /\ r_parsing (c_p c) = false) \/
  (Lreq c /\ (c_pending c = false -> snd (latest (c_log c)) = Some (status c, r_headers (c_p c)))).
Definition LG (g : ccfg) : Prop := match g with CRun c _ => Linv c | CUB _ => True end.
Definition LK (k : client -> ccfg) : Prop := forall c, Linv c -> LG (k c).

Lemma emitf c stk : Lreq c -> LG (emit_finished c stk).
Proof. intros H. right. unfold Lreq in *. clsimp. rewrite latest_app. cbn [fst snd]. split; [exact H|]. reflexivity. Qed.
Lemma linv_same c c' : Linv c -> c_log c' = c_log c -> c_req c' = c_req c -> c_pending c' = c_pending c -> status c' = status c -> r_headers (c_p c') = r_headers (c_p c) ->
  (r_parsing (c_p c') = true -> r_parsing (c_p c) = true) -> Linv c'.
Proof.
  unfold Linv, Lreq. intros H -> -> -> -> -> Q. destruct H as [(A & B & C & D)|H]; [left|now right]. repeat split; auto. destruct (r_parsing (c_p c')); [|reflexivity]. now rewrite Q in D.
Qed.
Ltac lsame H := eapply linv_same; [exact H|..]; try reflexivity; auto.
Lemma linv_pending c : c_pending c = true -> Lreq c -> Linv c.
Proof. intros P H. right. split; [exact H|]. congruence. Qed.
Lemma linv_req c : Linv c -> c_pending c = true -> Lreq c.
Proof. intros [(_ & P & _)|(H & _)] Q; [congruence|exact H]. Qed.
Lemma linv_emit c o : Linv c -> (match o with CAccepted _ | CFinished _ _ _ _ => False | _ => True end) -> Linv (cemit [o] c).
Proof. unfold Linv, Lreq, status. clsimp. intros H Ho. rewrite latest_app. destruct o; try contradiction; exact H. Qed.

Lemma l_error e c stk k : Linv c -> LK k -> LG (device_error e c stk k).
Proof. intros H K. unfold device_error. destruct (c_pending c) eqn:P; cbn [negb]; [|now apply K]. apply emitf. exact (linv_req _ H P). Qed.
Lemma l_send c k : Linv c -> LK k -> LG (sendRequest c k).
Proof.
  intros H K. unfold sendRequest. destruct (c_pending c) eqn:P; cbn [negb]; [|now apply K].
  destruct (match c_host c with [] => _ | _ => _ end) as [h|]; [|exact Logic.I]. destruct (writeRequest _ _ _ _) as [ws|]; [|exact Logic.I].
  apply K. apply linv_pending; [exact P|]. unfold Lreq. clsimp. rewrite latest_writes. exact (linv_req _ H P).
Qed.
Lemma l_connect c stk k : Linv c -> LK k -> LG (connectToHost c stk k).
Proof.
  intros H K. unfold connectToHost. destruct (negb (unconnected c)); [now apply K|]. set (c1 := cemit _ _).
  assert (H1 : Linv c1) by (subst c1; apply linv_emit; [lsame H|exact Logic.I]).
  destruct (c_plan c1).
  - apply K. lsame H1.
  - now apply l_error.
  - apply l_send; [|exact K]. lsame H1.
Qed.
Lemma l_request r c stk k : Linv c -> LK k -> LG (request r c stk k).
Proof.
  intros H K. unfold request. destruct (c_pending c) eqn:P; [apply K; now apply linv_emit|].
  destruct (r_parsing (c_p c)).
  { apply K. apply linv_emit; [|exact Logic.I]. lsame H. }
  set (c1 := cemit [CAccepted r] _). assert (H1 : Linv c1).
  { apply linv_pending; [reflexivity|]. unfold Lreq, c1. clsimp. rewrite latest_app. reflexivity. }
  destruct (connected c1 && _ && _); [now apply l_send|]. apply l_connect; [|exact K].
  destruct (unconnected (cset_host [] c1)); lsame H1.
Qed.
Lemma hpause_status h : h_status (hpause h) = h_status h.
Proof. unfold hpause. destruct (h_errno h); reflexivity. Qed.
Lemma l_abort c stk k : Linv c -> LK k -> LG (abort c stk k).
Proof.
  intros H K. unfold abort, dev_abort. clsimp. destruct (c_pending c) eqn:P.
  - apply emitf. exact (linv_req _ H P).
  - apply K. lsame H.
Qed.
Lemma runpause_keeps r : h_status (r_h (runpause r)) = h_status (r_h r) /\ r_headers (runpause r) = r_headers r.
Proof. unfold runpause. destruct (h_errno (r_h r)); auto. Qed.
Lemma l_injected c : Linv c -> Linv (injected c).
Proof.
  intros H. unfold injected. destruct (runpause_keeps (c_p c)) as [A B]. eapply linv_same; [exact H|reflexivity|reflexivity|reflexivity|..]; unfold status; clsimp; rsimp; try assumption. discriminate.
Qed.
Lemma l_read_tail c stk k : Linv c -> LK k -> LG (read_tail c stk k).
Proof.
  intros H K. unfold read_tail. destruct (c_pending c); [now apply K|]. destruct (c_next c); [|now apply K].
  apply l_request; [|exact K]. lsame H.
Qed.
Lemma l_check c stk k : Linv c -> Lreq c -> LK k -> LG (check_error c stk k).
Proof. intros H R K. unfold check_error. destruct (hasError (c_p c)); [|now apply l_read_tail]. now apply emitf. Qed.
Definition LF (fin : bytes -> client -> ccfg) : Prop := forall er c, Linv c -> Lreq c -> LG (fin er c).
Lemma l_complete c : c_log (complete c) = c_log c /\ c_req (complete c) = c_req c.
Proof. destruct (complete_fields c) as (A & B & C & D & E & F). auto. Qed.

Section Client.
  Variables (zlib : bool) (gunzip : list bytes -> bytes -> bytes) (parse_url : bytes -> url).
  Hypothesis urls : forall b, wf_url (parse_url b).
  Notation step := (cstep zlib gunzip parse_url).
  Notation run := (crun zlib gunzip parse_url).

  Lemma l_parse l ph c t fin : c_pending c = true -> Lreq c -> LF fin -> LG (parse gunzip l ph c t fin).
  Proof.
    intros P R F. unfold parse. destruct (prun (pfuel l) (c_p c) l) as [r er|cb r l' er|]; [| |exact Logic.I].
    - apply F; [|exact R]. apply linv_pending; [exact P|exact R].
    - destruct cb as [|x|x| |x|]; try exact Logic.I; cbn zeta.
      + apply linv_emit; [|exact Logic.I]. apply linv_pending; [exact P|exact R].
      + destruct (match c_dec c with None => _ | Some _ => _ end) as [b' d]. apply linv_emit; [|exact Logic.I]. apply linv_pending; [exact P|exact R].
      + destruct (h_status (r_h r) =? 100).
        * apply F; [|exact R]. apply linv_pending; [exact P|exact R].
        * apply emitf. destruct (l_complete (cset_p r c)) as [A B]. unfold Lreq. rewrite A, B. exact R.
  Qed.
  Lemma l_after2 t k : LK k -> LF (after2 t k).
  Proof. intros K er c H R. unfold after2. apply l_check; auto. now apply l_injected. Qed.
  Lemma l_start data ph c t fin : c_pending c = true -> Lreq c -> LF fin ->
    LG (let c := cset_p (rset_parsing true (c_p c)) c in if is_ok (h_errno (r_h (c_p c))) then parse gunzip (jstart data (r_h (c_p c))) ph c t fin else fin data c).
  Proof. intros P R F. cbn zeta. destruct (is_ok _); [now apply l_parse|]. apply F; [|exact R]. apply linv_pending; [exact P|exact R]. Qed.
  Lemma l_after1 t k : LK k -> LF (after1 gunzip t k).
  Proof.
    intros K er c H R. unfold after1. pose proof (l_injected _ H) as H1. destruct (c_pending (injected c)) eqn:P; cbn [negb]; [|now apply l_read_tail].
    destruct (negb (hasError (c_p (injected c))) && negb (beqb er [])); [|now apply l_check].
    unfold inject2. apply l_start; auto. now apply l_after2.
  Qed.
  Lemma l_finish ph t k : LK k -> LF (finish gunzip ph t k).
  Proof. intros K. destruct ph; cbn [finish]; [now apply l_after1|now apply l_after2]. Qed.
  Lemma l_readyRead c stk k : Linv c -> LK k -> LG (device_readyRead gunzip c stk k).
  Proof.
    intros H K. unfold device_readyRead. destruct (c_pending c) eqn:P; cbn [negb].
    2:{ apply K. unfold dev_close. lsame H. }
    destruct (c_in c) as [|x xs]; [now apply K|]. set (room := if 0 <? c_rbuf c then _ else _). destruct (room <=? 0); [now apply K|].
    destruct (r_parsing (c_p c)); [exact Logic.I|].
    apply (l_start _ First (cset_dev (c_dev c) (c_unsent c) (skipn (Z.to_nat (Z.min room (blen (x :: xs)))) (x :: xs)) c)); auto; [|now apply l_after1].
    exact (linv_req _ H P).
  Qed.
  Lemma l_cont c t : Shape c t -> LK (cresume zlib gunzip t).
  Proof. intros S c' H. now rewrite (shape_resume _ _ S). Qed.
  Lemma linv_parsing c : Linv c -> r_parsing (c_p c) = true -> Lreq c.
  Proof. intros [(_ & _ & _ & D)|(H & _)] Q; [congruence|exact H]. Qed.
  Lemma l_return c t : Inv c t -> Linv c -> LG (step (CRun c t) CaReturn).
  Proof.
    intros I H. cbn [cstep]. destruct I as [[K S E Hh] Nx].
    destruct S as [|s t S|l er ph t F Hd S N|s l er ph t F Hs S N|er ph t P O S N|t S N]; cbn [existsb parse_frame orb] in E.
    - exact H.
    - now rewrite (shape_resume _ _ S).
    - cbn [cresume]. pose proof (l_finish ph t _ (l_cont _ _ S)) as FK. pose proof (linv_parsing _ H E) as R. destruct F as [F1 F2]. unfold headers_tail.
      destruct (asciiEqualsCI_lower _ _).
      { apply emitf. match goal with |- Lreq (complete ?x) => destruct (l_complete x) as [A B]; unfold Lreq; rewrite A, B end. exact R. }
      match goal with |- context[if ?b then cset_dec (Some []) c else c] => set (c1 := if b then cset_dec (Some []) c else c) end.
      assert (C1 : Linv c1 /\ Lreq c1 /\ c_p c1 = c_p c /\ c_pending c1 = c_pending c).
      { subst c1. match goal with |- context[if ?b then cset_dec (Some []) c else c] => destruct b end; [|auto]. split; [lsame H|auto]. }
      destruct C1 as (C1 & C2 & C3 & C4). rewrite C3. destruct (is_ok _) eqn:O; [|now apply FK]. apply l_parse; auto. rewrite C4.
      destruct (c_pending c); [reflexivity|]. apply is_ok_true in O. specialize (F2 eq_refl). congruence.
    - cbn [cresume]. pose proof (l_finish ph t _ (l_cont _ _ S)) as FK. pose proof (linv_parsing _ H E) as R. destruct F as [F1 F2].
      destruct (is_ok _) eqn:O; [|now apply FK]. apply l_parse; auto.
      destruct (c_pending c); [reflexivity|]. apply is_ok_true in O. specialize (F2 eq_refl). congruence.
    - cbn [cresume]. pose proof (l_finish ph t _ (l_cont _ _ S)) as FK. pose proof (linv_parsing _ H E) as R. apply FK; [|exact R].
      eapply linv_same; [exact H|reflexivity|reflexivity|reflexivity|..]; unfold status; clsimp; rsimp; auto. apply hpause_status.
    - cbn [cresume]. apply l_read_tail; [exact H|]. exact (l_cont _ _ S).
  Qed.
  Lemma l_step g a : InvG g -> LG g -> LG (step g a).
  Proof.
    destruct g as [c stk|f]; [|contradiction]. intros I H. cbn [LG] in H.
    pose proof (l_cont _ _ (iv_shape _ _ (proj1 I))) as K.
    destruct a as [o| | |b| |rem gone| |b|p]; [|now apply l_return|..]; cbn [cstep].
    - destruct o as [r| | | |n|n]; cbn [do_cop].
      + now apply l_request.
      + now apply l_abort.
      + apply K. lsame H.
      + unfold followRedirection. destruct (redirected c); [now apply l_request|now apply K].
      + apply K. lsame H.
      + apply K. lsame H.
    - now apply l_readyRead.
    - destruct (connected c); [lsame H|exact H].
    - destruct (c_dev c); try exact H. apply l_send; [lsame H|exact K].
    - destruct (unconnected c); [exact H|]. apply l_error; [destruct gone; [lsame H|exact H]|exact K].
    - assert (X : LG (CRun (cset_dev (match c_dev c with DClosing => DUnconnected | d => d end) false (c_in c) c) stk)); [|exact X]. lsame H.
    - cbn [LG]. lsame H.
    - cbn [LG]. lsame H.
  Qed.
  Lemma l_run : forall l g, InvG g -> LG g -> calm_run step g l -> InvG (run g l) /\ LG (run g l).
  Proof.
    induction l as [|a l IH]; intros g I H Q; [split; assumption|]. destruct Q as [Q1 Q2]. apply IH; auto; [now apply step_ok|now apply l_step].
  Qed.
  Lemma l_reached l : calm_run step cstart l -> InvG (run cstart l) /\ LG (run cstart l).
  Proof. intros Q. apply l_run; [exact start_inv| |exact Q]. left. repeat split. Qed.

  Lemma location_spec hs : value_or_empty (find_field asciiEqualsCI_lower hs (lit "location")) = location hs.
  Proof.
    unfold location. induction hs as [|(f, v) hs IH]; [reflexivity|]. cbn [find_field filter fst].
    assert (E : asciiEqualsCI_lower f (lit "location") = beqb (lower f) (lit "location")).
    { apply eq_iff_eq_true. rewrite asciiEqualsCI_lower_iff by reflexivity. symmetry. apply beqb_true. }
    rewrite E. destruct (beqb (lower f) (lit "location")); [reflexivity|exact IH].
  Qed.
  Lemma elsewhere_spec z : existsb (Z.eqb z) [300; 301; 302; 303; 307] = true <-> elsewhere z.
  Proof. unfold elsewhere. cbn [existsb]. rewrite !orb_true_iff, !Z.eqb_eq. intuition discriminate. Qed.
  Lemma redirected_spec c : redirected c = true <-> elsewhere (status c).
  Proof. apply elsewhere_spec. Qed.

  (** ** C67 *)
  (** No request is under way: if the latest finished() showed one of the five statuses, followRedirection() does exactly
      what request() does for the same method, header fields and data and the URL in Location; otherwise nothing. *)
  Theorem C67_follows : forall l c stk, calm_run step cstart l -> run cstart l = CRun c stk -> c_pending c = false ->
    match latest (c_log c) with
    | (Some r, Some (code, hs)) =>
        (elsewhere code -> step (CRun c stk) (CaCall CoFollow) = step (CRun c stk) (CaCall (CoRequest (for_url (parse_url (location hs)) r)))) /\
        (~ elsewhere code -> step (CRun c stk) (CaCall CoFollow) = CRun c stk)
    | (None, None) => step (CRun c stk) (CaCall CoFollow) = CRun c stk
    | _ => False
    end.
  Proof.
    intros l c stk Q E P. destruct (l_reached _ Q) as [I H]. rewrite E in I, H. cbn [InvG LG] in I, H. cbn [cstep do_cop].
    pose proof (redirected_spec c) as RS. pose proof (shape_resume _ _ (iv_shape _ _ (proj1 I)) zlib gunzip) as SR.
    assert (X : ~ elsewhere (status c) -> followRedirection parse_url c stk (cresume zlib gunzip stk) = CRun c stk).
    { intros N. unfold followRedirection. destruct (redirected c); [destruct N; now apply RS|apply SR]. }
    unfold Linv, Lreq in H. assert (NF : fst (latest (c_log c)) = None -> snd (latest (c_log c)) = None -> latest (c_log c) = (None, None)) by (destruct (latest (c_log c)); cbn; congruence).
    destruct H as [(A & B & C & D)|(A & B)].
    - assert (S0 : snd (latest (c_log c)) = None).
      { destruct (snd (latest (c_log c))) as [x|] eqn:Y; [|reflexivity]. exfalso.
        assert (Z : forall L s, Dialog L s -> (under_way s <> None -> fst (latest L) <> None) /\ (snd (latest L) <> None -> fst (latest L) <> None)).
        { clear. induction 1; rewrite ?latest_app, ?latest_writes; cbn [fst snd under_way] in *; try (split; [congruence|congruence]); try assumption; try (split; [intros []; reflexivity|assumption] || tauto).
          - destruct H0 as [-> | ->]; cbn [under_way] in *; tauto.
          - split; [now intros []|]. intros _. apply (proj1 IHDialog). congruence. }
        destruct (Z _ _ (co_dialog _ _ (iv_core _ _ (proj1 I)))) as [_ Z2]. apply Z2; [congruence|exact A]. }
      rewrite (NF A S0). apply X. rewrite C. unfold elsewhere. lia.
    - specialize (B P). destruct (latest (c_log c)) as [a b]. cbn [fst snd] in A, B. subst a b. split; [|exact X].
      intros El. unfold followRedirection. apply RS in El. rewrite El. unfold redirectionLocation. rewrite location_spec. reflexivity.
  Qed.
  (** the request is then taken at once, or kept until the response being read ends *)
  Lemma request_log r c stk k : (forall c', k c' = CRun c' stk) -> c_pending c = false ->
    match request r c stk k with
    | CRun c' _ => exists o more, c_log c' = c_log c ++ o :: more /\ (o = CAccepted r \/ o = CKept r)
    | CUB _ => True
    end.
  Proof.
    intros K P. unfold request. rewrite P. destruct (r_parsing (c_p c)).
    { rewrite K. clsimp. exists (CKept r), []. auto. }
    set (c1 := cemit [CAccepted r] _). assert (L1 : c_log c1 = c_log c ++ [CAccepted r]) by reflexivity.
    assert (SL : forall c2 o more, c_log c2 = c_log c ++ o :: more -> (o = CAccepted r \/ o = CKept r) ->
      match sendRequest c2 k with CRun c' _ => exists o more, c_log c' = c_log c ++ o :: more /\ (o = CAccepted r \/ o = CKept r) | CUB _ => True end).
    { intros c2 o more L O. unfold sendRequest. destruct (negb (c_pending c2)); [rewrite K; eauto|]. destruct (match c_host c2 with [] => _ | _ => _ end); [|exact Logic.I].
      destruct (writeRequest _ _ _ _) as [ws|]; [|exact Logic.I]. rewrite K. clsimp. rewrite L. exists o, (more ++ map CWrite ws). rewrite <- app_assoc. auto. }
    destruct (connected c1 && _ && _); [eapply SL; eauto|].
    set (c2 := if unconnected (cset_host [] c1) then _ else _). assert (L2 : c_log c2 = c_log c ++ [CAccepted r]) by (subst c2; destruct (unconnected _); exact L1).
    unfold connectToHost. destruct (negb (unconnected c2)); [rewrite K; eauto|].
    set (c3 := cemit _ _). assert (L3 : exists x, c_log c3 = c_log c ++ [CAccepted r; x]) by (subst c3; clsimp; rewrite L2, <- app_assoc; cbn [app]; eauto). destruct L3 as [x L3].
    destruct (c_plan c3).
    - rewrite K. clsimp. rewrite L3. eauto.
    - unfold device_error. destruct (negb (c_pending c3)); [rewrite K, L3; eauto|]. unfold emit_finished, dev_close. clsimp. rewrite L3, <- app_assoc. cbn [app]. eauto.
    - eapply SL; [clsimp; exact L3|auto].
  Qed.
  Theorem C67_requested : forall l c stk r code hs, calm_run step cstart l -> run cstart l = CRun c stk -> c_pending c = false ->
    latest (c_log c) = (Some r, Some (code, hs)) -> elsewhere code ->
    exists c' stk' o more, step (CRun c stk) (CaCall CoFollow) = CRun c' stk' /\ c_log c' = c_log c ++ o :: more /\
      (o = CAccepted (for_url (parse_url (location hs)) r) \/ o = CKept (for_url (parse_url (location hs)) r)).
  Proof.
    intros l c stk r code hs Q E P L El. pose proof (C67_follows _ _ _ Q E P) as F. rewrite L in F. destruct F as [F _]. rewrite (F El). clear F.
    destruct (l_reached _ Q) as [I H]. rewrite E in I, H. cbn [InvG LG] in I, H. cbn [cstep do_cop].
    pose proof (shape_resume _ _ (iv_shape _ _ (proj1 I)) zlib gunzip) as SR.
    set (r' := for_url (parse_url (location hs)) r).
    pose proof (request_log r' c stk (cresume zlib gunzip stk) SR P) as X.
    assert (W : wf_creq r').
    { split; cbn [r' for_url cr_url cr_data]; [apply urls|]. destruct H as [(A & _)|(A & _)]; [rewrite L in A; discriminate|]. unfold Lreq in A. rewrite L in A. cbn in A.
      injection A as ->. apply (co_req _ _ (iv_core _ _ (proj1 I))). }
    pose proof (request_ok r' c stk _ I W SR) as Y.
    destruct (request r' c stk _) as [c' stk'|]; [|contradiction]. destruct X as (o & more & X1 & X2). exists c', stk', o, more. auto.
  Qed.
  (** while a request is under way nothing happens *)
  Theorem C67_not_while_pending : forall l c stk, calm_run step cstart l -> run cstart l = CRun c stk -> c_pending c = true ->
    exists c', step (CRun c stk) (CaCall CoFollow) = CRun c' stk /\ (c' = c \/ exists r, c' = cemit [CIgnored r] c).
  Proof.
    intros l c stk Q E P. destruct (l_reached _ Q) as [I _]. rewrite E in I. cbn [InvG] in I. cbn [cstep do_cop].
    pose proof (shape_resume _ _ (iv_shape _ _ (proj1 I)) zlib gunzip) as SR.
    unfold followRedirection, request. rewrite P, !SR. destruct (redirected c); eexists; (split; [reflexivity|]); eauto.
  Qed.
End Client.

(** ** Cases and refutations *)
Definition moved_txt (code loc : string) : bytes :=
  lit "HTTP/1.1 " ++ lit code ++ lit " Moved" ++ CRLF ++ lit "location: " ++ lit loc ++ CRLF ++ lit "Content-Length: 0" ++ CRLF ++ CRLF.
Arguments moved_txt (code loc)%string.
(* QUrl::fromEncoded for the two addresses used below: one absolute, one relative (no host) *)
Definition two_urls (b : bytes) : url :=
  if beqb b (lit "http://other.net/b") then mkUrl (lit "other.net") (-1) (lit "/b") [] else mkUrl [] (-1) b [].
Lemma two_urls_ok b : wf_url (two_urls b).
Proof. unfold two_urls, wf_url. destruct (beqb _ _); cbn; lia. Qed.
Definition moved_run (r : creq) (code loc : string) : list caction :=
  [CaCall (CoRequest r); CaConnected; CaFlushed; CaArrive (moved_txt code loc); CaReadyRead; CaReturn; CaReturn].
Arguments moved_run r (code loc)%string.
Notation trun := (crun false no_gunzip two_urls).
Notation tstep := (cstep false no_gunzip two_urls).
Definition post : creq := mkCR (lit "POST") demo_url [(lit "Authorization", lit "secret")] (lit "data").
Definition after_log (l : list caction) : list cobs := skipn (length (log_of (trun cstart l))) (log_of (trun cstart (l ++ [CaCall CoFollow]))).
Lemma C67_case : exists c, calm_run tstep cstart (moved_run (demo "GET") "301" "http://other.net/b") /\
  trun cstart (moved_run (demo "GET") "301" "http://other.net/b") = CRun c [] /\ c_pending c = false /\
  latest (c_log c) = (Some (demo "GET"), Some (301, [(lit "location", lit "http://other.net/b"); (lit "Content-Length", lit "0")])) /\ elsewhere 301 /\
  after_log (moved_run (demo "GET") "301" "http://other.net/b") = [CAccepted (mkCR (lit "GET") (mkUrl (lit "other.net") (-1) (lit "/b") []) [] []); CConnect (lit "other.net") 80].
Proof. eexists. split; [calm_concrete|]. split; [vm_compute; reflexivity|]. split; [reflexivity|]. split; [vm_compute; reflexivity|]. split; [right; left; reflexivity|vm_compute; reflexivity]. Qed.
(** 303 "See Other": the POST is sent again, with its data, instead of a GET; with header fields meant for the first server *)
Theorem C67_see_other_refuted :
  calm_run tstep cstart (moved_run post "303" "http://other.net/b") /\
  after_log (moved_run post "303" "http://other.net/b") =
    [CAccepted (mkCR (lit "POST") (mkUrl (lit "other.net") (-1) (lit "/b") []) [(lit "Authorization", lit "secret")] (lit "data")); CConnect (lit "other.net") 80].
Proof. split; [calm_concrete|vm_compute; reflexivity]. Qed.
(** a relative Location is not resolved: no host *)
Theorem C67_relative_refuted :
  calm_run tstep cstart (moved_run (demo "GET") "302" "/b") /\
  after_log (moved_run (demo "GET") "302" "/b") = [CAccepted (mkCR (lit "GET") (mkUrl [] (-1) (lit "/b") []) [] []); CConnect [] 80].
Proof. split; [calm_concrete|vm_compute; reflexivity]. Qed.
(** 308 "Permanent Redirect" is not followed; 300 without a Location makes a request for the empty URL *)
Theorem C67_which_refuted :
  after_log (moved_run (demo "GET") "308" "http://other.net/b") = [] /\
  after_log [CaCall (CoRequest (demo "GET")); CaConnected; CaFlushed; CaArrive (lit "HTTP/1.1 300 Choose" ++ CRLF ++ lit "Content-Length: 0" ++ CRLF ++ CRLF); CaReadyRead; CaReturn; CaReturn] =
    [CAccepted (mkCR (lit "GET") (mkUrl [] (-1) [] []) [] []); CConnect [] 80].
Proof. split; vm_compute; reflexivity. Qed.
