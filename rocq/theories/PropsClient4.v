(** C53, continued: what HttpClient makes of bytes that HttpResponseParser refuses. *)
From Verif Require Import Bytes TextSpec ByteHelpers Helpers CIProofs Joyent RespParser RespSpec RespInv RespSplit RespFeed RespBody RespWhole RespBound.
From Verif Require Import Client ClientSpec ClientInv ClientSim ClientRecv ClientBad PropsClient PropsClient2.
Open Scope Z_scope.

Section Client.
  Variables (zlib : bool) (gunzip : list bytes -> bytes -> bytes) (parse_url : bytes -> url).
  Notation step := (cstep zlib gunzip parse_url).
  Notation run := (crun zlib gunzip parse_url).

  Lemma invalid_any c S rb nb l F :
    Waits DConnected c -> head_method (cr_method (c_req c)) = false \/ ~ Blank S ->
    S <> [] -> inject (c_p c) S = Some (rb, nb) -> hasError rb = true ->
    receiving_run step (CRun c []) l -> arrived l ++ F = S ->
    exists c' stk obs, run (CRun c []) l = CRun c' stk /\ c_log c' = c_log c ++ obs /\
      ((c_pending c' = true /\ existsb ends obs = false /\ (stk = [] -> c_in c' = [] -> F <> [])) \/
       (c_pending c' = false /\ exists obs' code hs b, obs = obs' ++ [CFinished ResponseInvalidError code hs b] /\ existsb ends obs' = false)).
  Proof.
    intros Wt NH NS EB HB Q EF. pose proof (waits_ready _ _ Wt) as Rd.
    assert (V : Fails (c_req c) (c_log c) (c_p c) S (arrived l ++ F) (CRun c [])).
    { apply (Fa_idle _ _ _ _ _ c [] (c_p c)).
      - destruct Wt. constructor; auto.
      - exists []. now rewrite app_nil_r.
      - now rewrite (wa_parser _ _ Wt).
      - now left.
      - constructor; reflexivity.
      - rewrite (wa_in _ _ Wt). exact EF. }
    pose proof (run_bad zlib gunzip parse_url (c_req c) (c_log c) (c_p c) S rb nb NH Rd EB HB l F _ V Q) as R.
    inversion R as [c0 D q B Qt Pa Af Sm E E1|c0 l0 er ph NH0 B Qt M E1|c0 l0 er ph B Qt M E1|c0 obs code hs b Pn Lo No E1].
    - destruct Qt as (obs & Lo & Fo). exists c0, [], obs. split; [reflexivity|]. split; [exact Lo|]. left. split; [apply (ba_pending _ _ B)|]. split; [exact Fo|].
      intros _ Z -> . rewrite Z, app_nil_r in E. cbn [app] in E. rewrite ?app_nil_r in E. exact (bad_end _ _ rb nb NS EB HB _ _ Af E).
    - destruct Qt as (obs & Lo & Fo). do 2 eexists. exists obs. split; [reflexivity|]. split; [exact Lo|]. left. split; [apply (ba_pending _ _ B)|]. split; [exact Fo|]. discriminate.
    - destruct Qt as (obs & Lo & Fo). do 2 eexists. exists obs. split; [reflexivity|]. split; [exact Lo|]. left. split; [apply (ba_pending _ _ B)|]. split; [exact Fo|]. discriminate.
    - do 2 eexists. eexists. split; [reflexivity|]. split; [exact Lo|]. right. split; [exact Pn|]. exists obs, code, hs, b. auto.
  Qed.

  (** S: bytes that a parser on its own, given all of them at once, refuses.  They arrive in any pieces, between any
      actions of the user; F is still to come.  As soon as the client knows, the request ends, with ResponseInvalidError
      and never otherwise; and it does know once all of S was read. *)
  Theorem C53_invalid c S rb nb l F :
    Waits DConnected c -> head_method (cr_method (c_req c)) = false ->
    S <> [] -> inject (c_p c) S = Some (rb, nb) -> hasError rb = true ->
    receiving_run step (CRun c []) l -> arrived l ++ F = S ->
    exists c' stk obs, run (CRun c []) l = CRun c' stk /\ c_log c' = c_log c ++ obs /\
      ((c_pending c' = true /\ existsb ends obs = false /\ (stk = [] -> c_in c' = [] -> F <> [])) \/
       (c_pending c' = false /\ exists obs' code hs b, obs = obs' ++ [CFinished ResponseInvalidError code hs b] /\ existsb ends obs' = false)).
  Proof. intros Wt NH. now apply invalid_any; [|left]. Qed.
End Client.

(** ** A concrete case: a chunk whose size is no number, in two segments *)
Definition bad_txt : bytes :=
  lit "HTTP/1.1 200 OK" ++ CRLF ++ lit "Transfer-Encoding: chunked" ++ CRLF ++ CRLF ++ lit "1" ++ CRLF ++ lit "x" ++ CRLF ++ lit "zz" ++ CRLF.
Definition bad_run : list caction :=
  [CaArrive (firstn 30 bad_txt); CaReadyRead; CaArrive (skipn 30 bad_txt); CaReadyRead; CaReturn; CaReturn].
Lemma C53_invalid_example :
  let c := state_of (drun cstart awaiting_run) in
  drun cstart awaiting_run = CRun c [] /\ Waits DConnected c /\ head_method (cr_method (c_req c)) = false /\
  (exists rb nb, inject (c_p c) bad_txt = Some (rb, nb) /\ hasError rb = true) /\
  receiving_run dstep (CRun c []) bad_run /\ arrived bad_run ++ [] = bad_txt /\
  log_of (drun (CRun c []) bad_run) = c_log c ++
    [CHeaders 200 [(lit "Transfer-Encoding", lit "chunked")]; CContent (lit "x");
     CFinished ResponseInvalidError 200 [(lit "Transfer-Encoding", lit "chunked")] (lit "x")].
Proof.
  cbn zeta. split; [vm_compute; reflexivity|]. split; [constructor; vm_compute; reflexivity|]. split; [reflexivity|].
  split; [vm_compute; eauto|].
  split; [vm_compute; repeat (split; [repeat split; reflexivity|]); exact Logic.I|]. split; vm_compute; reflexivity.
Qed.
