(** C53: the response as HttpClient reports it; interim 100 responses are hidden.  Specification: ClientSpec.v, and
    RespSpec.v for the responses. *)
From Verif Require Import Bytes TextSpec ByteHelpers Helpers Joyent RespParser RespSpec RespInv RespSplit RespFeed RespBody RespWhole ConnHead.
From Verif Require Import Client ClientSpec ClientInv ClientSim ClientRecv PropsResp2 PropsClient.
Open Scope Z_scope.

(** nothing, or one interim response *)
Definition Interim (i : bytes) : Prop := i = [] \/ exists a b hs, WholeResponse i a b 100 hs [].

(* an interim response *)
Definition continue_txt : bytes := (lit "HTTP/1.1 100 Continue" ++ CRLF) ++ [] ++ CRLF.
Lemma continue_whole : WholeResponse continue_txt 1 1 100 [] [].
Proof.
  apply WR_none; try reflexivity; [|vm_compute; discriminate|constructor].
  apply RespHd; [|constructor].
  apply (SL (lit "1") (lit "1") (lit "100") 1 1 100 (lit " Continue")); try lia; try (apply dig1; reflexivity).
  - apply (D_more 10 (lit "10") 10 "0"%char 0); try reflexivity; try lia. apply (D_more 10 (lit "1") 1 "0"%char 0); try reflexivity; try lia. apply dig1; reflexivity.
  - right. exists (lit "Continue"). split; reflexivity.
Qed.
Lemma waits_ready d c : Waits d c -> ready (c_p c).
Proof.
  intros Wt. rewrite (wa_parser _ _ Wt). constructor; try reflexivity; [|cbn; lia].
  constructor; cbn; try discriminate; auto. intros _. apply HOk_init.
Qed.
Section Client.
  Variables (zlib : bool) (gunzip : list bytes -> bytes -> bytes) (parse_url : bytes -> url).
  Notation step := (cstep zlib gunzip parse_url).
  Notation run := (crun zlib gunzip parse_url).

  Lemma map_byte_prefix : forall (u v : bytes) m, map RByte v ++ [RComplete] = map RByte u ++ m -> exists rest, u ++ rest = v.
  Proof.
    induction u as [|ch u IH]; intros v m E; [now exists v|]. destruct v as [|w v]; cbn [map app] in E; [discriminate|].
    injection E as -> E. destruct (IH _ _ E) as [rest <-]. now exists rest.
  Qed.
  Lemma saw_prefix L0 a b code hs body k lg more c d :
    Saw zlib gunzip L0 a b code hs k lg c d -> reported a b code hs body = lg ++ more ->
    exists obs, c_log c = L0 ++ obs /\ (filter said obs = [] \/
         exists xs rest, filter said obs = CHeaders code hs :: map CContent (shown gunzip (zlib && gzipped hs) xs) /\ concat xs ++ rest = body).
  Proof.
    intros (obs & Lo & H) E. exists obs. split; [exact Lo|]. destruct H as [(_ & Fo & _)|(xs & used & -> & Fo & _)]; [now left|right].
    unfold reported in E. cbn [app] in E. injection E as E. apply map_byte_prefix in E as [rest Er]. exists xs, rest. auto.
  Qed.
  Lemma mid_saw L0 x t a b code hs body k F l c d : Mid zlib gunzip L0 x t a b code hs body k F l c d ->
    exists obs, c_log c = L0 ++ obs /\ (filter said obs = [] \/
         exists xs rest, filter said obs = CHeaders code hs :: map CContent (shown gunzip (zlib && gzipped hs) xs) /\ concat xs ++ rest = body).
  Proof.
    intros (q0 & q & r2 & er & lg & lgr & lgx & R0 & S & HJ & HN & EJ & Pa & Lq & Sw & Lr & Er & _).
    destruct (J_log _ _ _ _ EJ) as [e Ee]. rewrite Lq, Lr, <- app_assoc in Ee. apply app_inv_head in Ee. subst lgr. rewrite <- app_assoc in Er.
    eapply saw_prefix; eauto.
  Qed.

  Lemma received c i t a b code hs body x l F :
    Waits DConnected c -> head_method (cr_method (c_req c)) = false ->
    Interim i -> WholeResponse t a b code hs body -> code <> 100 ->
    receiving_run step (CRun c []) l -> arrived l ++ F = i ++ t ++ x ->
    exists j, Recv zlib gunzip (c_req c) (c_log c) x t a b code hs body j (consumes l) F (run (CRun c []) l).
  Proof.
    intros Wt NH Hi HW N100 Q EF.
    assert (V : exists j ja jb jhs, WholeResponse j ja jb 100 jhs [] /\ (i = [] \/ i = j)).
    { destruct Hi as [->|(ja & jb & jhs & HI)]; [exists continue_txt, 1, 1, []; split; [apply continue_whole|now left]|exists i, ja, jb, jhs; auto]. }
    destruct V as (j & ja & jb & jhs & WI & Ei). pose proof (waits_ready _ _ Wt) as Rd.
    assert (Sf : sim (c_p c) (c_p c)) by (constructor; reflexivity).
    assert (Sw : Saw zlib gunzip (c_log c) a b code hs false [] c (c_dec c)).
    { exists []. rewrite app_nil_r. split; [reflexivity|]. left. split; [now left|]. split; [reflexivity|].
      split; [now rewrite (wa_parser _ _ Wt)|apply (wa_dec _ _ Wt)]. }
    assert (V : Recv zlib gunzip (c_req c) (c_log c) x t a b code hs body j false (arrived l ++ F) (CRun c [])).
    { apply Rc_idle.
      - destruct Wt. constructor; auto.
      - now rewrite (wa_parser _ _ Wt).
      - destruct Ei as [-> | ->].
        + left. exists (c_p c), [], (c_p c), t, []. split; [exact Rd|]. split; [now left|]. split; [reflexivity|].
          split; [eapply whole_nonempty; eauto|]. split; [exact Sf|]. split; [rewrite (wa_in _ _ Wt); exact EF|]. split; [now rewrite app_nil_r|exact Sw].
        + right. exists (c_p c), [], (c_p c), j. split; [exact Rd|]. split; [now left|]. split; [reflexivity|].
          split; [eapply whole_nonempty; eauto|]. split; [exact Sf|]. split; [rewrite (wa_in _ _ Wt); exact EF|exact Sw]. }
    pose proof (run_recv zlib gunzip parse_url (c_req c) (c_log c) x NH t a b code hs body HW N100 j ja jb jhs WI l false F _ V Q) as R.
    exists j. exact R.
  Qed.

  (** Of the response t, possibly after an interim one and possibly with more bytes x behind it, the data of the
      actions l has arrived; F comes later.  obs: what was reported since. *)
  Theorem C53_response c i t a b code hs body x l F :
    Waits DConnected c -> head_method (cr_method (c_req c)) = false ->
    Interim i -> WholeResponse t a b code hs body -> code <> 100 ->
    receiving_run step (CRun c []) l -> arrived l ++ F = i ++ t ++ x ->
    let pieces := shown gunzip (zlib && gzipped hs) in
    exists c' stk obs, run (CRun c []) l = CRun c' stk /\ c_log c' = c_log c ++ obs /\
      ((c_pending c' = true /\
        (filter said obs = [] \/
         exists xs rest, filter said obs = CHeaders code hs :: map CContent (pieces xs) /\ concat xs ++ rest = body) /\
        (stk = [] -> c_in c' = [] -> exists y, y <> [] /\ arrived l ++ y = i ++ t)) \/
       (c_pending c' = false /\
        exists xs used content,
          filter said obs = CHeaders code hs :: map CContent (pieces xs) ++ [CFinished NoError code hs content] /\
          concat xs = body /\ Forall (fun p => p <> []) xs /\
          concat (pieces xs) = used ++ content /\ (consumes l = false -> used = []))).
  Proof.
    intros Wt NH Hi HW N100 Q EF pieces. destruct (received _ _ _ _ _ _ _ _ _ _ _ Wt NH Hi HW N100 Q EF) as [j R].
    inversion R as [c0 B Pa H E1|c0 l0 er ph B M Dn Hh E1|c0 l0 er ph B M E1|c0 er ph obs xs used Pn Lo Fo Nx Cx Ux Ku Rf Rv Dn Pr He Nn Sx Sf So E1].
    - assert (H' : exists y obs, c_log c0 = c_log c ++ obs /\ (filter said obs = [] \/
         exists xs rest, filter said obs = CHeaders code hs :: map CContent (shown gunzip (zlib && gzipped hs) xs) /\ concat xs ++ rest = body) /\
         y <> [] /\ c_in c0 ++ F = y ++ x).
      { destruct H as [(q0 & D & q & y & lg & H1 & H2 & H3 & H4 & H5 & H6 & H7 & H8)|(q0 & D & q & y & H1 & H2 & H3 & H4 & H5 & H6 & H8)].
        - destruct (after_ok q0 t a b code hs body H1 HW D q y H2 H3 H4) as (_ & _ & lg' & more & L1 & L2 & _).
          rewrite H7 in L1. apply app_inv_head in L1. subst lg'. destruct (saw_prefix _ _ _ _ _ _ _ _ _ _ _ H8 L2) as (obs & Lo & Fo).
          exists y, obs. auto.
        - destruct (saw_prefix _ _ _ _ _ body _ _ _ _ _ H8 eq_refl) as (obs & Lo & Fo). exists (y ++ t), obs. split; [exact Lo|]. split; [exact Fo|].
          split; [intros X; apply app_eq_nil in X as [X _]; congruence|]. now rewrite H6, app_assoc. }
      destruct H' as (y & obs & Lo & Fo & Ny & Ey). exists c0, [], obs. split; [reflexivity|]. split; [exact Lo|]. left.
      split; [apply (ba_pending _ _ B)|]. split; [exact Fo|]. intros _ Z. exists y. split; [exact Ny|]. rewrite Z in Ey. cbn [app] in Ey.
      rewrite Ey in EF. rewrite !app_assoc in EF. now apply app_inv_tail in EF.
    - destruct (mid_saw _ _ _ _ _ _ _ _ _ _ _ _ _ M) as (obs & Lo & Fo). do 2 eexists. exists obs. split; [reflexivity|]. split; [exact Lo|]. left.
      split; [apply (ba_pending _ _ B)|]. split; [exact Fo|]. discriminate.
    - destruct (mid_saw _ _ _ _ _ _ _ _ _ _ _ _ _ M) as (obs & Lo & Fo). do 2 eexists. exists obs. split; [reflexivity|]. split; [exact Lo|]. left.
      split; [apply (ba_pending _ _ B)|]. split; [exact Fo|]. discriminate.
    - do 2 eexists. exists obs. split; [reflexivity|]. split; [exact Lo|]. right. split; [exact Pn|]. exists xs, used, (r_content (c_p c0)). auto 6.
  Qed.

  (** ** Where such clients come from *)
  Lemma writes_some m p hs data : blen data <= 2147483647 -> exists ws, writeRequest m p hs data = Some ws.
  Proof.
    intros L. unfold writeRequest. destruct data as [|w d]; [eauto|].
    destruct (appendNumber_any 10 (blen (w :: d)) ltac:(lia)) as (n & -> & _); [unfold INT_MIN; pose proof (blen_nonneg (w :: d)); lia|]. destruct (_ <? _); eauto.
  Qed.
  Lemma send_waits c k : Waits DConnected c -> wf_creq (c_req c) ->
    exists c' ws, sendRequest c k = k c' /\ Waits DConnected c' /\ c_req c' = c_req c /\ c_log c' = c_log c ++ map CWrite ws.
  Proof.
    intros Wt [Hu Hd]. unfold sendRequest. rewrite (wa_pending _ _ Wt). cbn [negb].
    destruct (host_text _ Hu) as (h & Eh & _).
    destruct (match c_host c with [] => host_value (cr_url (c_req c)) | h0 => Some h0 end) as [h'|] eqn:Q.
    2:{ destruct (c_host c); [rewrite Eh in Q|]; discriminate. }
    clsimp. destruct (writes_some (cr_method (c_req c)) (request_uri (cr_url (c_req c))) ((lit "Host", h') :: cr_headers (c_req c)) _ Hd) as [ws ->].
    eexists. exists ws. split; [reflexivity|]. destruct Wt. split; [constructor; clsimp; auto|]. auto.
  Qed.

  (** a request of a client at rest, when there is no connection *)
  Theorem C53_request c r : AtRest c -> c_next c = None -> c_dev c = DUnconnected -> c_plan c = PlLater ->
    exists c', step (CRun c []) (CaCall (CoRequest r)) = CRun c' [] /\ Waits DConnecting c' /\ c_req c' = r /\
      c_log c' = c_log c ++ [CAccepted r; CConnect (u_host (cr_url r)) (if u_port (cr_url r) =? -1 then 80 else u_port (cr_url r))].
  Proof.
    intros [P R Hf Hv Hd] Nx Dv Pl. cbn [cstep do_cop]. unfold request. rewrite P, R. clsimp. unfold connected, unconnected. clsimp. rewrite Dv.
    cbn [andb negb]. unfold connectToHost, unconnected. clsimp. rewrite Dv. cbn [negb]. rewrite Pl. cbn [cresume]. eexists. split; [reflexivity|].
    split; [|clsimp; split; [reflexivity|rewrite <- !app_assoc; reflexivity]].
    constructor; clsimp; auto. unfold rclear. rsimp. rewrite R. rsimp. now rewrite Hf, Hv.
  Qed.
  (** the connection is established *)
  Theorem C53_connected c : Waits DConnecting c -> wf_creq (c_req c) ->
    exists c' ws, step (CRun c []) CaConnected = CRun c' [] /\ Waits DConnected c' /\ c_req c' = c_req c /\ c_log c' = c_log c ++ map CWrite ws.
  Proof.
    intros Wt Hr. cbn [cstep]. rewrite (wa_dev _ _ Wt).
    destruct (send_waits (cset_dev DConnected false [] c) (cresume zlib gunzip [])) as (c' & ws & E & H); [destruct Wt; constructor; clsimp; auto|exact Hr|].
    exists c', ws. rewrite E. cbn [cresume]. split; [reflexivity|]. exact H.
  Qed.
  (** a request on the connection of the previous one *)
  Theorem C53_reused c r : AtRest c -> c_next c = None -> c_dev c = DConnected -> c_in c = [] -> wf_creq r ->
    same_server (cr_url r) (cr_url (c_req c)) = true -> (c_timeout c < 0 \/ c_late c = false) ->
    exists c' ws, step (CRun c []) (CaCall (CoRequest r)) = CRun c' [] /\ Waits DConnected c' /\ c_req c' = r /\
      c_log c' = c_log c ++ CAccepted r :: map CWrite ws.
  Proof.
    intros [P R Hf Hv Hd] Nx Dv Ci Hr Sm Tm. cbn [cstep do_cop]. unfold request. rewrite P, R. clsimp. unfold connected. clsimp. rewrite Dv, Sm.
    assert (X : (true && (0 <=? c_timeout c) && c_timer c && c_late c) = false).
    { destruct Tm as [Tm | ->]; [|now rewrite andb_false_r]. destruct (Z.leb_spec 0 (c_timeout c)); [lia|]. reflexivity. }
    rewrite X. cbn [andb negb].
    match goal with |- context[sendRequest ?d _] => destruct (send_waits d (cresume zlib gunzip [])) as (c' & ws & E & H1 & H2 & H3) end.
    { constructor; clsimp; auto. unfold rclear. rsimp. rewrite R. rsimp. now rewrite Hf, Hv. }
    { exact Hr. }
    exists c', ws. rewrite E. cbn [cresume]. split; [reflexivity|]. split; [exact H1|]. split; [exact H2|]. rewrite H3. clsimp. now rewrite <- app_assoc.
  Qed.
  (** after the response, the client is at rest again, unless a request was made in the slots of finished() *)
  Theorem C53_rest c i t a b code hs body x l F c' stk :
    Waits DConnected c -> head_method (cr_method (c_req c)) = false ->
    Interim i -> WholeResponse t a b code hs body -> code <> 100 ->
    receiving_run step (CRun c []) l -> arrived l ++ F = i ++ t ++ x ->
    run (CRun c []) l = CRun c' stk -> c_pending c' = false ->
    c_next c' = None /\ exists c'', step (CRun c' stk) CaReturn = CRun c'' [] /\ AtRest c'' /\ c_next c'' = None /\
      c_log c'' = c_log c' /\ c_dev c'' = c_dev c' /\ c_in c'' = c_in c' /\ (x = [] -> c_in c'' = []).
  Proof.
    intros Wt NH Hi HW N100 Q EF Er Pn. destruct (received _ _ _ _ _ _ _ _ _ _ _ Wt NH Hi HW N100 Q EF) as [j R]. rewrite Er in R.
    inversion R as [c0 B Pa H E1|c0 l0 er ph B M Dn Hh E1|c0 l0 er ph B M E1|c0 er ph obs xs used Pn' Lo Fo Nx Cx Ux Ku Rf Rv Dn Pr He Nn Sx Sf So E1]; subst;
      try (rewrite (ba_pending _ _ B) in Pn; discriminate).
    split; [exact Nn|]. cbn [cstep cresume].
    set (c1 := cset_p (rset_h (hpause (r_h (c_p c'))) (c_p c')) c').
    assert (O : h_errno (r_h (c_p c1)) = HPE_PAUSED) by (subst c1; clsimp; rsimp; apply hpause_errno; auto).
    assert (G : forall k, finish gunzip ph [] k er c1 = read_tail (injected c1) [] k).
    { assert (P1 : c_pending (injected c1) = false) by (unfold injected; subst c1; clsimp; exact Pn).
      assert (H1 : hasError (c_p (injected c1)) = false).
      { unfold injected, hasError. clsimp. rsimp. unfold runpause. rewrite O. rsimp. hsimp. reflexivity. }
      intros k. destruct ph; cbn [finish]; unfold after1, after2; cbn zeta; [now rewrite P1|]. unfold check_error. now rewrite H1. }
    rewrite G. unfold read_tail. assert (P1 : c_pending (injected c1) = false) by (unfold injected; subst c1; clsimp; exact Pn).
    assert (N1 : c_next (injected c1) = None) by (unfold injected; subst c1; clsimp; exact Nn). rewrite P1, N1.
    eexists. split; [reflexivity|]. assert (Rp : forall p, r_field (runpause p) = r_field p /\ r_value (runpause p) = r_value p) by (intros p; unfold runpause; destruct (h_errno (r_h p)); auto).
    split; [|split; [exact N1|]].
    - unfold injected. subst c1. constructor; clsimp; rsimp; auto; rewrite ?(proj1 (Rp _)), ?(proj2 (Rp _)); rsimp; auto.
    - unfold injected. subst c1. clsimp. do 3 (split; [reflexivity|]). intros ->.
      destruct Sx as [[p Sx]|Sx]; [|exact Sx]. symmetry in Sx. apply app_eq_nil in Sx as [_ Sx]. now apply app_eq_nil in Sx as [Sx _].
  Qed.
  (** finished() is reported only when the whole response was received; then the connection is kept if the response and the keep-alive time allow it *)
  Theorem C53_kept c i t a b code hs body x l F c' stk :
    Waits DConnected c -> head_method (cr_method (c_req c)) = false ->
    Interim i -> WholeResponse t a b code hs body -> code <> 100 ->
    receiving_run step (CRun c []) l -> arrived l ++ F = i ++ t ++ x ->
    run (CRun c []) l = CRun c' stk -> c_pending c' = false ->
    (exists y, arrived l = i ++ t ++ y) /\
    (stays_open a b hs = true -> c_timeout c' <> 0 -> c_dev c' = DConnected) /\
    (forall c'', step (CRun c' stk) CaReturn = CRun c'' [] -> c_timeout c'' = c_timeout c').
  Proof.
    intros Wt NH Hi HW N100 Q EF Er Pn. destruct (received _ _ _ _ _ _ _ _ _ _ _ Wt NH Hi HW N100 Q EF) as [j R]. rewrite Er in R.
    inversion R as [c0 B Pa H E1|c0 l0 er ph B M Dn Hh E1|c0 l0 er ph B M E1|c0 er ph obs xs used Pn' Lo Fo Nx Cx Ux Ku Rf Rv Dn Pr He Nn Sx Sf So E1]; subst;
      try (rewrite (ba_pending _ _ B) in Pn; discriminate).
    split; [destruct Sf as [y ->]; exists y; apply (app_inv_tail F); rewrite EF, <- !app_assoc; reflexivity|]. split; [exact (proj1 (proj2 So))|].
    intros c''. cbn [cstep cresume].
    set (c1 := cset_p (rset_h (hpause (r_h (c_p c'))) (c_p c')) c').
    assert (O : h_errno (r_h (c_p c1)) = HPE_PAUSED) by (subst c1; clsimp; rsimp; apply hpause_errno; auto).
    assert (P1 : c_pending (injected c1) = false) by (unfold injected; subst c1; clsimp; exact Pn).
    assert (H1 : hasError (c_p (injected c1)) = false) by (unfold injected, hasError; clsimp; rsimp; unfold runpause; rewrite O; rsimp; hsimp; reflexivity).
    assert (N1 : c_next (injected c1) = None) by (unfold injected; subst c1; clsimp; exact Nn).
    assert (G : forall k, finish gunzip ph [] k er c1 = k (injected c1)).
    { intros k. destruct ph; cbn [finish]; unfold after1, after2; cbn zeta; [rewrite P1; cbn [negb]|unfold check_error; rewrite H1]; unfold read_tail; rewrite P1, N1; reflexivity. }
    intros E. rewrite G in E. injection E as <-. reflexivity.
  Qed.
  Theorem C53_new : exists c, cstart = CRun c [] /\ AtRest c /\ c_next c = None /\ c_dev c = DUnconnected.
  Proof. exists client0. split; [reflexivity|]. split; [constructor; reflexivity|]. auto. Qed.
End Client.

(** ** A concrete case: an interim response, then a chunked one, in segments that do not respect their limits *)
Definition awaiting_run : list caction := [CaCall (CoRequest (demo "GET")); CaConnected; CaFlushed].
Definition chunk_whole : bytes := chunk_txt ++ chunk_body.
Definition chunked_run : list caction :=
  [CaArrive (firstn 7 continue_txt); CaReadyRead; CaArrive (skipn 7 continue_txt ++ firstn 30 chunk_whole); CaReadyRead;
   CaArrive (firstn 26 (skipn 30 chunk_whole)); CaReadyRead; CaReturn; CaCall (CoRequest (demo "PUT")); CaReturn;
   CaArrive (skipn 56 chunk_whole); CaReadyRead; CaReturn; CaReturn].
Definition state_of (g : ccfg) : client := match g with CRun c _ => c | CUB _ => client0 end.
Lemma C53_response_example :
  let c := state_of (drun cstart awaiting_run) in
  drun cstart awaiting_run = CRun c [] /\ Waits DConnected c /\ head_method (cr_method (c_req c)) = false /\
  Interim continue_txt /\ WholeResponse chunk_whole 1 1 200 chunk_hs two_chunks /\
  receiving_run dstep (CRun c []) chunked_run /\ arrived chunked_run ++ [] = continue_txt ++ chunk_whole ++ [] /\
  log_of (drun (CRun c []) chunked_run) = c_log c ++
    [CHeaders 200 chunk_hs; CContent (lit "0a"); CIgnored (demo "PUT"); CContent (lit "Z"); CContent (lit "q"); CFinished NoError 200 chunk_hs two_chunks].
Proof.
  cbn zeta. split; [vm_compute; reflexivity|]. split; [constructor; vm_compute; reflexivity|]. split; [reflexivity|].
  split; [right; exists 1, 1, []; apply continue_whole|].
  split; [eapply WR_chunked; try reflexivity; [apply chunk_head|vm_compute; discriminate| |apply chunk_ok]; apply CL_other; [reflexivity|constructor]|].
  split; [vm_compute; repeat (split; [repeat split; reflexivity|]); exact Logic.I|]. split; vm_compute; reflexivity.
Qed.

(** ** What fails *)
Definition signals (g : ccfg) : list cobs := filter (fun o => match o with CHeaders _ _ | CContent _ | CFinished _ _ _ _ => true | _ => false end) (log_of g).
Definition received_at_once (b : bytes) : list caction := awaiting_run ++ [CaArrive b; CaReadyRead; CaReturn; CaReturn; CaReturn].
Definition final_txt : bytes := lit "HTTP/1.1 200 OK" ++ CRLF ++ lit "Content-Length: 2" ++ CRLF ++ CRLF ++ lit "hi".
Definition final_hs : list header := [(lit "Content-Length", lit "2")].

(** two interim responses in one segment: what follows the second one is dropped, the request does not end *)
Theorem C53_two_interims_refuted :
  signals (drun cstart (received_at_once (continue_txt ++ continue_txt ++ final_txt))) = [] /\
  c_in (state_of (drun cstart (received_at_once (continue_txt ++ continue_txt ++ final_txt)))) = [] /\
  signals (drun cstart (received_at_once (continue_txt ++ final_txt))) = [CHeaders 200 final_hs; CContent (lit "hi"); CFinished NoError 200 final_hs (lit "hi")].
Proof. vm_compute. auto. Qed.

(** any other interim response is taken for the final one: here 103 *)
Theorem C53_other_interim_refuted :
  signals (drun cstart (received_at_once (lit "HTTP/1.1 103 Early Hints" ++ CRLF ++ CRLF ++ final_txt))) =
    [CHeaders 103 []; CFinished NoError 103 [] []].
Proof. vm_compute. reflexivity. Qed.

(** content of an interim response is reported, before headersCompleted() *)
Theorem C53_interim_content_refuted :
  signals (drun cstart (received_at_once (lit "HTTP/1.1 100 Continue" ++ CRLF ++ lit "Content-Length: 1" ++ CRLF ++ CRLF ++ lit "x" ++ final_txt))) =
    [CContent (lit "x"); CHeaders 200 final_hs; CContent (lit "hi"); CFinished NoError 200 final_hs (lit "hi")].
Proof. vm_compute. reflexivity. Qed.

(** a response that ends with the connection is reported as an error *)
Theorem C53_until_close_refuted :
  signals (drun cstart (awaiting_run ++ [CaArrive (lit "HTTP/1.0 200 OK" ++ CRLF ++ CRLF ++ lit "hi"); CaReadyRead; CaReturn; CaReturn; CaError true true; CaReturn])) =
    [CHeaders 200 []; CContent (lit "hi"); CFinished RemoteHostClosedError 200 [] (lit "hi")].
Proof. vm_compute. reflexivity. Qed.

(** a request given up in the middle of a header leaves its text in the parser: the first header of the next response is wrong *)
Definition given_up : list caction :=
  awaiting_run ++ [CaArrive (lit "HTTP/1.1 200 OK" ++ CRLF ++ lit "Content-L"); CaReadyRead; CaCall CoAbort; CaReturn] ++
  [CaCall (CoRequest (demo "GET")); CaConnected; CaFlushed; CaArrive final_txt; CaReadyRead; CaReturn; CaReturn; CaReturn].
Theorem C53_after_abort_refuted :
  signals (drun cstart given_up) =
    [CFinished AbortedError 200 [] [];
     CHeaders 200 [(lit "Content-LContent-Length", lit "2")]; CContent (lit "hi");
     CFinished NoError 200 [(lit "Content-LContent-Length", lit "2")] (lit "hi")].
Proof. vm_compute. reflexivity. Qed.

(** one given up while its content is decompressed: the next response is decompressed too, though it is not compressed *)
Definition mark_gunzip (fed : list bytes) (b : bytes) : bytes := lit "?".
Definition given_up_gzip : list caction :=
  awaiting_run ++ [CaArrive (lit "HTTP/1.1 200 OK" ++ CRLF ++ lit "Content-Encoding: gzip" ++ CRLF ++ lit "Content-Length: 9" ++ CRLF ++ CRLF); CaReadyRead; CaReturn;
                   CaCall CoAbort; CaReturn] ++
  [CaCall (CoRequest (demo "GET")); CaConnected; CaFlushed; CaArrive final_txt; CaReadyRead; CaReturn; CaReturn; CaReturn].
Theorem C53_stale_decoder_refuted :
  skipn 2 (signals (crun true mark_gunzip no_url cstart given_up_gzip)) =
    [CHeaders 200 final_hs; CContent (lit "?"); CFinished NoError 200 final_hs (lit "?")].
Proof. vm_compute. reflexivity. Qed.

(** bytes that arrive on a kept connection between two requests are the response to the second one *)
Theorem C53_stale_bytes_refuted :
  signals (drun cstart (received_at_once final_txt ++ [CaArrive (lit "HTTP/1.1 404 Gone" ++ CRLF ++ lit "Content-Length: 0" ++ CRLF ++ CRLF);
      CaCall (CoRequest (demo "PUT")); CaReadyRead; CaReturn; CaReturn])) =
    [CHeaders 200 final_hs; CContent (lit "hi"); CFinished NoError 200 final_hs (lit "hi");
     CHeaders 404 [(lit "Content-Length", lit "0")]; CFinished NoError 404 [(lit "Content-Length", lit "0")] []].
Proof. vm_compute. reflexivity. Qed.
