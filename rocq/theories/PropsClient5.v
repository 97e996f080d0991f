(** C53, continued: the response to a HEAD request. *)
From Verif Require Import Bytes TextSpec ByteHelpers Helpers CIProofs Joyent RespParser RespSpec RespInv RespSplit RespFeed RespBody RespWhole RespBound.
From Verif Require Import Client ClientSpec ClientInv ClientSim ClientRecv ClientBad ClientHead PropsResp2 PropsClient PropsClient2 PropsClient4.
Open Scope Z_scope.

Section Client.
  Variables (zlib : bool) (gunzip : list bytes -> bytes -> bytes) (parse_url : bytes -> url).
  Notation step := (cstep zlib gunzip parse_url).
  Notation run := (crun zlib gunzip parse_url).

  Lemma received_head c i t a b code hs o x l F :
    Waits DConnected c -> head_method (cr_method (c_req c)) = true ->
    Interim i -> ResponseHead t a b code hs -> blen t <= max_head - 2 -> ContentLength hs o -> code <> 100 ->
    receiving_run step (CRun c []) l -> arrived l ++ F = i ++ t ++ x ->
    exists ia ib ihs, Hd (c_req c) (c_log c) t a b code hs o x i ia ib ihs F (run (CRun c []) l).
  Proof.
    intros Wt NH Hi HD TL CL N100 Q EF. pose proof (waits_ready _ _ Wt) as Rd.
    assert (X : exists ia ib ihs, (HeadA t x (arrived l ++ F) c \/ InterA t x i ia ib ihs (arrived l ++ F) c)).
    { assert (Nt : t <> []) by (eapply txt_nonempty; eauto). destruct Hi as [->|(ia & ib & ihs & Wi)].
      - exists 0, 0, []. left. exists (c_p c), [], (c_p c), t. split; [exact Rd|]. split; [now left|]. split; [reflexivity|]. split; [exact Nt|]. split; [apply sim_refl|].
        rewrite (wa_in _ _ Wt). exact EF.
      - exists ia, ib, ihs. right. split; [exact Wi|]. exists (c_p c), [], (c_p c), i. split; [exact Rd|]. split; [now left|]. split; [reflexivity|]. split; [eapply whole_nonempty; eauto|]. split; [apply sim_refl|].
        rewrite (wa_in _ _ Wt). exact EF. }
    destruct X as (ia & ib & ihs & X). exists ia, ib, ihs.
    assert (V : Hd (c_req c) (c_log c) t a b code hs o x i ia ib ihs (arrived l ++ F) (CRun c [])).
    { apply Hd_idle; [destruct Wt; constructor; auto|exists []; now rewrite app_nil_r|now rewrite (wa_parser _ _ Wt)|now rewrite (wa_parser _ _ Wt)|exact X]. }
    exact (run_head zlib gunzip parse_url (c_req c) (c_log c) NH t a b code hs o x HD TL CL N100 i ia ib ihs l F _ V Q).
  Qed.

  (** t: the head of a response, whatever its headers say about a body, possibly after an interim response and possibly
      with more bytes x behind it.  It arrives in any pieces, between any actions of the user; F is still to come.  The
      headers are reported once, the request ends right then, without an error and without content; and it has ended once
      all of t was read and the slots have returned. *)
  Theorem C53_head c i t a b code hs o x l F :
    Waits DConnected c -> head_method (cr_method (c_req c)) = true ->
    Interim i -> ResponseHead t a b code hs -> blen t <= max_head - 2 -> ContentLength hs o -> code <> 100 ->
    receiving_run step (CRun c []) l -> arrived l ++ F = i ++ t ++ x ->
    exists c' stk obs, run (CRun c []) l = CRun c' stk /\ c_log c' = c_log c ++ obs /\
      ((c_pending c' = true /\ (filter said obs = [] \/ filter said obs = [CHeaders code hs]) /\
        (stk = [] -> filter said obs = []) /\
        (stk = [] -> c_in c' = [] -> exists y, y <> [] /\ arrived l ++ y = i ++ t)) \/
       (c_pending c' = false /\ filter said obs = [CHeaders code hs; CFinished NoError code hs []])).
  Proof.
    intros Wt NH Hi HD TL CL N100 Q EF. destruct (received_head _ _ _ _ _ _ _ _ _ _ _ Wt NH Hi HD TL CL N100 Q EF) as (ia & ib & ihs & R).
    inversion R as [c0 B Tl Ct Pa H E1|c0 l0 er ph B Tl Ct Eh Es Rs E1|c0 l0 er ph Pn Tl Dn E1]; destruct Tl as (obs & Lo & Fo).
    - exists c0, [], obs. split; [reflexivity|]. split; [exact Lo|]. left. split; [apply (ba_pending _ _ B)|]. split; [now left|]. split; [auto|]. intros _ Z.
      destruct H as [(q0 & D & q & y & _ & _ & _ & Ny & _ & Ein)|(_ & q0 & D & q & y & _ & _ & _ & Ny & _ & Ein)]; rewrite Z in Ein; cbn [app] in Ein; rewrite Ein in EF.
      + exists y. split; [exact Ny|]. rewrite !app_assoc in EF. now apply app_inv_tail in EF.
      + exists (y ++ t). split; [intros Y; apply app_eq_nil in Y as [Y _]; congruence|]. rewrite !app_assoc in EF. apply app_inv_tail in EF. now rewrite app_assoc.
    - do 2 eexists. exists obs. split; [reflexivity|]. split; [exact Lo|]. left. split; [apply (ba_pending _ _ B)|]. split; [now right|]. split; discriminate.
    - do 2 eexists. exists obs. split; [reflexivity|]. split; [exact Lo|]. right. auto.
  Qed.

  (** finished() means that the whole head was received.  The connection is kept if the response and the keep-alive time
      allow it and the head says how long the body would be; when the slots have returned, the client is at rest, and
      nothing of a head that came alone is left over for the next response. *)
  Theorem C53_head_rest c i t a b code hs o x l F c' stk :
    Waits DConnected c -> head_method (cr_method (c_req c)) = true ->
    Interim i -> ResponseHead t a b code hs -> blen t <= max_head - 2 -> ContentLength hs o -> code <> 100 ->
    receiving_run step (CRun c []) l -> arrived l ++ F = i ++ t ++ x ->
    run (CRun c []) l = CRun c' stk -> c_pending c' = false ->
    (exists y, arrived l = i ++ t ++ y) /\
    (stays_open a b hs = true -> (bodyless code = true \/ chunked_resp hs = true \/ o <> None) -> c_timeout c' <> 0 -> c_dev c' = DConnected) /\
    c_next c' = None /\
    exists c'', step (CRun c' stk) CaReturn = CRun c'' [] /\ AtRest c'' /\ c_next c'' = None /\ c_log c'' = c_log c' /\
      c_dev c'' = c_dev c' /\ c_timeout c'' = c_timeout c' /\ c_in c'' = c_in c' /\ (x = [] -> c_in c'' = []).
  Proof.
    intros Wt NH Hi HD TL CL N100 Q EF Er Pn0. destruct (received_head _ _ _ _ _ _ _ _ _ _ _ Wt NH Hi HD TL CL N100 Q EF) as (ia & ib & ihs & R). rewrite Er in R.
    inversion R as [c0 B Tl Ct Pa H E1|c0 l0 er ph B Tl Ct Eh Es Rs E1|c0 l0 er ph Pn Tl Dn E1]; subst; try (rewrite (ba_pending _ _ B) in Pn0; discriminate).
    destruct Dn as [Nn Dd Rf Rv O Sx Sf (_ & So & _)].
    split; [destruct Sf as [y ->]; exists y; apply (app_inv_tail F); rewrite EF, <- !app_assoc; reflexivity|].
    split. { intros K1 K2. apply So. unfold kept. rewrite K1. destruct K2 as [-> |[-> |K2]]; [reflexivity|now rewrite orb_true_r|]. destruct o; [now rewrite orb_true_r|congruence]. }
    split; [exact Nn|]. cbn [cstep cresume]. rewrite O. cbn [is_ok].
    assert (P1 : c_pending (injected c') = false) by (unfold injected; clsimp; exact Pn).
    assert (H1 : hasError (c_p (injected c')) = false) by (unfold injected, hasError; clsimp; rsimp; unfold runpause; rewrite O; rsimp; hsimp; reflexivity).
    assert (N1 : c_next (injected c') = None) by (unfold injected; clsimp; exact Nn).
    assert (G : forall k, finish gunzip ph [] k er c' = k (injected c')).
    { intros k. destruct ph; cbn [finish]; unfold after1, after2; cbn zeta; [rewrite P1; cbn [negb]|unfold check_error; rewrite H1]; unfold read_tail; rewrite P1, N1; reflexivity. }
    rewrite G. eexists. split; [reflexivity|]. assert (Rp : forall p, r_field (runpause p) = r_field p /\ r_value (runpause p) = r_value p) by (intros p; unfold runpause; destruct (h_errno (r_h p)); auto).
    split; [|split; [exact N1|]].
    - unfold injected. constructor; clsimp; rsimp; auto; rewrite ?(proj1 (Rp _)), ?(proj2 (Rp _)); auto.
    - unfold injected. clsimp. do 4 (split; [reflexivity|]). intros ->.
      destruct Sx as [[p Sx]|Sx]; [|exact Sx]. symmetry in Sx. apply app_eq_nil in Sx as [_ Sx]. now apply app_eq_nil in Sx as [Sx _].
  Qed.
End Client.

(** ** A concrete case: the head announces a body, an interim response comes first, and there are bytes behind *)
Definition head_wait : list caction := [CaCall (CoRequest (demo "HEAD")); CaConnected; CaFlushed].
Definition head_run_ex : list caction :=
  [CaArrive (firstn 7 continue_txt); CaReadyRead; CaArrive (skipn 7 continue_txt ++ firstn 9 chunk_txt); CaReadyRead;
   CaArrive (skipn 9 chunk_txt ++ lit "more"); CaReadyRead; CaCall (CoRequest (demo "PUT")); CaReturn].
Lemma C53_head_example :
  let c := state_of (drun cstart head_wait) in
  drun cstart head_wait = CRun c [] /\ Waits DConnected c /\ head_method (cr_method (c_req c)) = true /\
  Interim continue_txt /\ ResponseHead chunk_txt 1 1 200 chunk_hs /\ blen chunk_txt <= max_head - 2 /\ ContentLength chunk_hs None /\
  receiving_run dstep (CRun c []) head_run_ex /\ arrived head_run_ex ++ [] = continue_txt ++ chunk_txt ++ lit "more" /\
  log_of (drun (CRun c []) head_run_ex) = c_log c ++ [CHeaders 200 chunk_hs; CIgnored (demo "PUT"); CFinished NoError 200 chunk_hs []].
Proof.
  cbn zeta. split; [vm_compute; reflexivity|]. split; [constructor; vm_compute; reflexivity|]. split; [reflexivity|].
  split; [right; exists 1, 1, []; exact continue_whole|]. split; [exact chunk_head|]. split; [vm_compute; discriminate|].
  split; [repeat constructor|].
  split; [vm_compute; repeat (split; [repeat split; reflexivity|]); exact Logic.I|]. split; vm_compute; reflexivity.
Qed.

(** the same head alone: the connection is kept, the client is at rest, and its next request is answered on it *)
Definition head_alone : list caction := [CaArrive (firstn 9 chunk_txt); CaReadyRead; CaArrive (skipn 9 chunk_txt); CaReadyRead; CaReturn].
Lemma C53_head_rest_example :
  let c := state_of (drun cstart head_wait) in let g := drun (CRun c []) head_alone in
  Waits DConnected c /\ ResponseHead chunk_txt 1 1 200 chunk_hs /\ blen chunk_txt <= max_head - 2 /\ ContentLength chunk_hs None /\
  receiving_run dstep (CRun c []) head_alone /\ arrived head_alone ++ [] = [] ++ chunk_txt ++ [] /\
  c_pending (state_of g) = false /\ stays_open 1 1 chunk_hs = true /\ chunked_resp chunk_hs = true /\ c_timeout (state_of g) <> 0 /\
  c_dev (state_of (dstep g CaReturn)) = DConnected /\
  signals (drun g [CaReturn; CaCall (CoRequest (demo "GET")); CaFlushed; CaArrive final_txt; CaReadyRead; CaReturn; CaReturn; CaReturn]) =
    [CHeaders 200 chunk_hs; CFinished NoError 200 chunk_hs []; CHeaders 200 final_hs; CContent (lit "hi"); CFinished NoError 200 final_hs (lit "hi")].
Proof.
  cbn zeta. split; [constructor; vm_compute; reflexivity|]. split; [exact chunk_head|]. split; [vm_compute; discriminate|].
  split; [repeat constructor|]. split; [vm_compute; repeat (split; [repeat split; reflexivity|]); exact Logic.I|].
  do 4 (split; [vm_compute; reflexivity|]). split; [vm_compute; discriminate|]. split; vm_compute; reflexivity.
Qed.

(** ** What fails *)
(** a header line without a colon is accepted; as the last line of a head it is added to the first header name of the
    next response on the same connection, which is otherwise well-formed and answers another request *)
Definition colonless : bytes := lit "HTTP/1.1 200 OK" ++ CRLF ++ lit "Content-Length: 0" ++ CRLF ++ lit "Foo" ++ CRLF ++ CRLF.
Theorem C53_colonless_refuted :
  signals (drun cstart (awaiting_run ++ [CaArrive colonless; CaReadyRead; CaReturn; CaReturn; CaCall (CoRequest (demo "GET")); CaFlushed;
                                         CaArrive final_txt; CaReadyRead; CaReturn; CaReturn; CaReturn])) =
    [CHeaders 200 [(lit "Content-Length", lit "0")]; CFinished NoError 200 [(lit "Content-Length", lit "0")] [];
     CHeaders 200 [(lit "FooContent-Length", lit "2")]; CContent (lit "hi"); CFinished NoError 200 [(lit "FooContent-Length", lit "2")] (lit "hi")].
Proof. vm_compute. reflexivity. Qed.
