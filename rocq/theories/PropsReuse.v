(** C89: what becomes of the connection after a response, and when a request is sent on it.  Specification: ClientSpec.v,
    RespSpec.v, and the definitions below. *)
From Verif Require Import Bytes TextSpec ByteHelpers Helpers Joyent RespParser RespSpec RespInv RespSplit RespFeed RespBody RespWhole RespBound ConnHead.
From Verif Require Import Client ClientSpec ClientInv ClientSim ClientRecv ClientBad ClientHead PropsResp2 PropsClient PropsClient2 PropsClient4 PropsClient5.
Open Scope Z_scope.

(** a client that keeps the connection of its last request, of which the keep-alive time has just begun *)
Record Keeps (last : creq) (c : client) : Prop := mkKeeps {
  kp_rest : AtRest c; kp_next : c_next c = None; kp_dev : c_dev c = DConnected; kp_req : c_req c = last;
  kp_timer : c_timer c = true; kp_late : c_late c = false }.
(** one that gave it up: what is unsent is still sent, nothing more is read *)
Record GaveUp (c : client) : Prop := mkGaveUp {
  gu_rest : AtRest c; gu_next : c_next c = None; gu_dev : c_dev c = (if c_unsent c then DClosing else DUnconnected); gu_in : c_in c = [] }.

(** between two requests: anything but a new one *)
Definition idle (a : caction) : Prop := match a with CaCall (CoRequest _) | CaCall CoFollow => False | _ => True end.
(** the connection outlives: no abort(), nothing that came in was announced, no error that closed it *)
Definition survives (a : caction) : bool := match a with CaCall CoAbort | CaReadyRead => false | CaError _ gone => negb gone | _ => true end.
(** the keep-alive time as last set, and whether it is over *)
Definition time_set (n : Z) (a : caction) : Z := match a with CaCall (CoTimeout m) => m | _ => n end.
Definition time_over (b : bool) (a : caction) : bool := match a with CaClock late => late | _ => b end.

Section Client.
  Variables (zlib : bool) (gunzip : list bytes -> bytes -> bytes) (parse_url : bytes -> url).
  Hypothesis urls : forall b, wf_url (parse_url b).
  Notation step := (cstep zlib gunzip parse_url).
  Notation run := (crun zlib gunzip parse_url).

  Lemma rest_injected c k er ph : c_pending c = false -> c_next c = None -> h_errno (r_h (c_p c)) = HPE_PAUSED ->
    finish gunzip ph [] k er c = k (injected c).
  Proof.
    intros Pn Nn O.
    assert (P1 : c_pending (injected c) = false) by (unfold injected; clsimp; exact Pn).
    assert (H1 : hasError (c_p (injected c)) = false) by (unfold injected, hasError; clsimp; rsimp; unfold runpause; rewrite O; rsimp; hsimp; reflexivity).
    assert (N1 : c_next (injected c) = None) by (unfold injected; clsimp; exact Nn).
    destruct ph; cbn [finish]; unfold after1, after2; cbn zeta; [rewrite P1; cbn [negb]|unfold check_error; rewrite H1]; unfold read_tail; rewrite P1, N1; reflexivity.
  Qed.
  Lemma rest_at c : c_pending c = false -> r_field (c_p c) = [] -> r_value (c_p c) = [] -> c_dec c = None -> AtRest (injected c).
  Proof.
    intros P F V D. assert (Rp : forall p, r_field (runpause p) = r_field p /\ r_value (runpause p) = r_value p) by (intros p; unfold runpause; destruct (h_errno (r_h p)); auto).
    unfold injected. constructor; clsimp; rsimp; auto; rewrite ?(proj1 (Rp _)), ?(proj2 (Rp _)); auto.
  Qed.
  Lemma after_ended req keep c : Ended req keep c -> AtRest (injected c) -> c_next c = None ->
    (keep = true /\ c_timeout c <> 0 -> Keeps req (injected c)) /\ (~ (keep = true /\ c_timeout c <> 0) -> GaveUp (injected c)).
  Proof.
    intros (E1 & E2 & E3 & E4) R N. split.
    - intros [K T]. destruct (E3 T). constructor; auto.
    - intros H. assert (X : keep = false \/ c_timeout c = 0).
      { destruct keep; [|now left]. right. destruct (Z.eq_dec (c_timeout c) 0); [assumption|exfalso; auto]. }
      destruct (E1 X). constructor; auto.
  Qed.

  (** A response was received, however it came in, and the slots of finished() return: the connection is kept if the
      response leaves it open and a keep-alive time other than 0 is set, and given up otherwise. *)
  Theorem C89_after c i t a b code hs body x l F c' stk :
    Waits DConnected c -> head_method (cr_method (c_req c)) = false ->
    Interim i -> WholeResponse t a b code hs body -> code <> 100 ->
    receiving_run step (CRun c []) l -> arrived l ++ F = i ++ t ++ x ->
    run (CRun c []) l = CRun c' stk -> c_pending c' = false ->
    exists c'', step (CRun c' stk) CaReturn = CRun c'' [] /\ c_timeout c'' = c_timeout c' /\ c_log c'' = c_log c' /\
      (stays_open a b hs = true /\ c_timeout c' <> 0 -> Keeps (c_req c) c'') /\
      (~ (stays_open a b hs = true /\ c_timeout c' <> 0) -> GaveUp c'').
  Proof.
    intros Wt NH Hi HW N100 Q EF Er Pn. destruct (received zlib gunzip parse_url _ _ _ _ _ _ _ _ _ _ _ Wt NH Hi HW N100 Q EF) as [j R]. rewrite Er in R.
    inversion R as [c0 B Pa H E1|c0 l0 er ph B M Dn Hh E1|c0 l0 er ph B M E1|c0 er ph obs xs used Pn' Lo Fo Nx Cx Ux Ku Rf Rv Dn Pr He Nn Sx Sf So E1]; subst;
      try (rewrite (ba_pending _ _ B) in Pn; discriminate).
    cbn [cstep cresume].
    set (c1 := cset_p (rset_h (hpause (r_h (c_p c'))) (c_p c')) c').
    assert (O : h_errno (r_h (c_p c1)) = HPE_PAUSED) by (subst c1; clsimp; rsimp; apply hpause_errno; auto).
    rewrite (rest_injected c1) by (subst c1; auto). eexists. split; [reflexivity|]. split; [reflexivity|]. split; [reflexivity|].
    apply (after_ended _ _ c1); [exact So| |exact Nn]. apply rest_at; subst c1; clsimp; rsimp; auto.
  Qed.
  (** the same for a HEAD request; a head that does not say how long its body would be ends with the connection *)
  Theorem C89_after_head c i t a b code hs o x l F c' stk :
    Waits DConnected c -> head_method (cr_method (c_req c)) = true ->
    Interim i -> ResponseHead t a b code hs -> blen t <= max_head - 2 -> ContentLength hs o -> code <> 100 ->
    receiving_run step (CRun c []) l -> arrived l ++ F = i ++ t ++ x ->
    run (CRun c []) l = CRun c' stk -> c_pending c' = false ->
    let keep := stays_open a b hs = true /\ (bodyless code = true \/ chunked_resp hs = true \/ o <> None) /\ c_timeout c' <> 0 in
    exists c'', step (CRun c' stk) CaReturn = CRun c'' [] /\ c_timeout c'' = c_timeout c' /\ c_log c'' = c_log c' /\
      (keep -> Keeps (c_req c) c'') /\ (~ keep -> GaveUp c'').
  Proof.
    intros Wt NH Hi HD TL CL N100 Q EF Er Pn0. destruct (received_head zlib gunzip parse_url _ _ _ _ _ _ _ _ _ _ _ Wt NH Hi HD TL CL N100 Q EF) as (ia & ib & ihs & R). rewrite Er in R.
    inversion R as [c0 B Tl Ct Pa H E1|c0 l0 er ph B Tl Ct Eh Es Rs E1|c0 l0 er ph Pn Tl Dn E1]; subst; try (rewrite (ba_pending _ _ B) in Pn0; discriminate).
    destruct Dn as [Nn Dd Rf Rv O Sx Sf So]. intros keep.
    cbn [cstep cresume]. rewrite O. cbn [is_ok]. rewrite (rest_injected c') by auto. eexists. split; [reflexivity|]. split; [reflexivity|]. split; [reflexivity|].
    destruct (after_ended _ _ c' So) as [A1 A2]; [apply rest_at; auto|exact Nn|].
    assert (X : kept a b code hs o = true /\ c_timeout c' <> 0 <-> keep).
    { subst keep. unfold kept. split.
      - intros [K T]. apply andb_prop in K as [K1 K2]. split; [exact K1|]. split; [|exact T]. apply orb_prop in K2 as [K2|K2]; [apply orb_prop in K2 as [K2|K2]; auto|]. right. right. intros ->. discriminate.
      - intros (K1 & K2 & T). split; [|exact T]. rewrite K1. destruct K2 as [-> |[-> |K2]]; [reflexivity|now rewrite orb_true_r|]. destruct o; [now rewrite orb_true_r|congruence]. }
    split; [intros K; apply A1, X, K|intros K; apply A2; intros K'; apply K, X, K'].
  Qed.

  (** between two requests *)
  Record Rests (HH : hparser * list header) (last : creq) (T : Z) (late ok : bool) (L : list cobs) (c : client) : Prop := mkRests {
    rs_p : c_pending c = false; rs_np : r_parsing (c_p c) = false; rs_req : c_req c = last; rs_t : c_timeout c = T; rs_late : c_late c = late; rs_timer : c_timer c = true;
    rs_dev : if ok then c_dev c = DConnected else c_dev c = DUnconnected \/ c_dev c = DClosing; rs_log : c_log c = L; rs_hh : (r_h (c_p c), r_headers (c_p c)) = HH }.
  Lemma rests_step HH last T late ok L c a : Rests HH last T late ok L c -> idle a ->
    exists c', step (CRun c []) a = CRun c' [] /\ Rests HH last (time_set T a) (time_over late a) (ok && survives a) L c'.
  Proof.
    intros [P N R Ti La Tm D Lg Hh] I. destruct a as [[r| | | |n|n]| | |d| |rm gn| |lt|p]; cbn [idle] in I; try contradiction; cbn [survives time_set time_over cstep do_cop cresume]; rewrite ?andb_true_r, ?andb_false_r.
    - unfold abort, dev_abort. clsimp. rewrite P. eexists. split; [reflexivity|]. constructor; clsimp; auto.
    - eexists. split; [reflexivity|]. constructor; clsimp; auto.
    - eexists. split; [reflexivity|]. constructor; clsimp; auto.
    - eexists. split; [reflexivity|]. constructor; clsimp; auto.
    - eexists. split; [reflexivity|]. constructor; auto.
    - unfold device_readyRead. rewrite P. cbn [negb]. eexists. split; [reflexivity|]. constructor; unfold dev_close, closing; clsimp; auto.
      destruct ok; [rewrite D; destruct (c_unsent c); auto|destruct D as [-> | ->]; auto].
    - destruct (connected c); eexists; (split; [reflexivity|]); constructor; clsimp; auto.
    - destruct (c_dev c) eqn:E; try (eexists; split; [reflexivity|]; constructor; rewrite ?E; auto). destruct ok; [discriminate|destruct D; discriminate].
    - destruct (unconnected c) eqn:U.
      + eexists. split; [reflexivity|]. constructor; auto. destruct ok; cbn [andb]; [|auto]. unfold unconnected in U. rewrite D in U. discriminate.
      + unfold device_error. destruct gn; clsimp; rewrite P; cbn [negb andb]; rewrite ?andb_false_r, ?andb_true_r; eexists; (split; [reflexivity|]); constructor; clsimp; auto.
    - eexists. split; [reflexivity|]. constructor; clsimp; auto. destruct ok; [now rewrite D|destruct D as [-> | ->]; auto].
    - eexists. split; [reflexivity|]. constructor; clsimp; auto.
    - eexists. split; [reflexivity|]. constructor; clsimp; auto.
  Qed.
  Lemma rests_run HH last L : forall l T late ok c, Rests HH last T late ok L c -> Forall idle l ->
    exists c', run (CRun c []) l = CRun c' [] /\ Rests HH last (fold_left time_set l T) (fold_left time_over l late) (ok && forallb survives l) L c'.
  Proof.
    induction l as [|a l IH]; intros T late ok c R H; cbn [fold_left forallb].
    - exists c. rewrite andb_true_r. auto.
    - inversion H as [|? ? I H']; subst. destruct (rests_step _ _ _ _ _ _ _ _ R I) as (c1 & E & R1).
      destruct (IH _ _ _ _ R1 H') as (c' & E' & R'). exists c'. rewrite andb_assoc. split; [|exact R']. unfold run in *. cbn [fold_left]. rewrite E. exact E'.
  Qed.
  Lemma idle_calm a c : c_pending c = false -> idle a -> calm a (CRun c []).
  Proof. intros P I. destruct a as [[]| | | | | | | |]; cbn in *; auto; try contradiction; congruence. Qed.
  Lemma idle_calms HH last L : forall l T late ok c, Rests HH last T late ok L c -> Forall idle l -> calm_run step (CRun c []) l.
  Proof.
    induction l as [|a l IH]; intros T late ok c R H; cbn [calm_run]; [exact Logic.I|].
    inversion H as [|? ? I H']; subst. split; [apply idle_calm; [apply (rs_p _ _ _ _ _ _ _ R)|exact I]|].
    destruct (rests_step _ _ _ _ _ _ _ _ R I) as (c1 & E & R1). rewrite E. eapply IH; eauto.
  Qed.

  (** A client that keeps its connection, some time later: the next request, if it is to the same server, is written on
      it at once if it was not lost in the meantime and the keep-alive time is not over (a negative one never is);
      otherwise not a byte is written before a new connection is asked for. *)
  Theorem C89_reuse pre c l r last :
    calm_run step cstart pre -> run cstart pre = CRun c [] -> Keeps last c -> Forall idle l -> wf_creq r ->
    let T := fold_left time_set l (c_timeout c) in
    let usable := same_server (cr_url r) (cr_url last) && forallb survives l && ((T <? 0) || negb (fold_left time_over l false)) in
    exists c' c'' stk more, run (CRun c []) l = CRun c' [] /\ c_log c' = c_log c /\
      step (CRun c' []) (CaCall (CoRequest r)) = CRun c'' stk /\ c_log c'' = c_log c ++ CAccepted r :: more /\
      (usable = true -> exists ws, more = map CWrite ws /\ RequestText r (concat ws) /\ c_pending c'' = true /\ stk = []) /\
      (usable = false -> more = [] \/ exists more', more = CConnect (u_host (cr_url r)) (if u_port (cr_url r) =? -1 then 80 else u_port (cr_url r)) :: more') /\
      (usable = false -> c_dev c' = DUnconnected \/ (c_dev c' = DConnected /\ c_unsent c' = false) -> more <> []).
  Proof.
    intros Q E K HI Hr T usable. destruct K as [[P N Hf Hv Hd] Nx Dv Rq Tm La].
    assert (R0 : Rests (r_h (c_p c), r_headers (c_p c)) last (c_timeout c) false true (c_log c) c) by (constructor; auto).
    destruct (rests_run _ _ _ l _ _ _ _ R0 HI) as (c' & E' & R'). fold T in R'. cbn [andb] in R'.
    assert (IV : InvG (CRun c' [])).
    { rewrite <- E'. apply (run_ok zlib gunzip parse_url urls); [|eapply idle_calms; eauto]. rewrite <- E. apply (run_ok zlib gunzip parse_url urls); [apply start_inv|exact Q]. }
    exists c'. destruct R' as [P1 N1 Rq1 T1 L1 Tm1 D1 Lg1 _]. cbn [cstep do_cop]. unfold request. rewrite P1, N1, Rq1.
    set (same := same_server (cr_url r) (cr_url last)) in *. clsimp. unfold connected. clsimp.
    rewrite T1, Tm1, L1. cbn [cresume].
    assert (U : (match c_dev c' with DConnected => true | _ => false end && same && negb (same && (0 <=? T) && true && fold_left time_over l false)) = usable).
    { subst usable. destruct (forallb survives l).
      - rewrite D1. destruct same; cbn [andb]; [|reflexivity]. rewrite andb_true_r. destruct (Z.leb_spec 0 T); destruct (Z.ltb_spec T 0); try lia; destruct (fold_left time_over l false); reflexivity.
      - rewrite andb_false_r. destruct D1 as [-> | ->]; reflexivity. }
    assert (Sm : usable = true -> same = true) by (subst usable; destruct same; auto; discriminate).
    assert (D2 : c_dev c' = DConnected \/ c_dev c' = DUnconnected \/ c_dev c' = DClosing) by (destruct (forallb survives l); [now left|now right]).
    rewrite U. clearbody usable. destruct Hr as [Hu Hl]. destruct (host_text _ Hu) as (ht & Eh & Hh). destruct (request_text r ht Hh Hl) as (ws & Ew & RT). destruct usable.
    - unfold sendRequest. clsimp. cbn [negb].
      assert (EH : (match c_host c' with [] => host_value (cr_url r) | h0 => Some h0 end) = Some ht).
      { destruct (co_host _ _ (iv_core _ _ (proj1 IV))) as [B|B]; [now rewrite B|]. rewrite Rq1 in B. unfold same in Sm. rewrite <- (host_same _ _ (Sm eq_refl)), Eh in B. injection B as B. destruct (c_host c'); [now subst|]. now subst. }
      rewrite EH, Ew. eexists. exists [], (map CWrite ws). split; [exact E'|]. split; [exact Lg1|]. split; [reflexivity|]. clsimp. split; [rewrite Lg1, <- app_assoc; reflexivity|].
      split; [intros _; exists ws; auto|]. split; discriminate.
    - set (u := u_host (cr_url r)). set (p := if u_port (cr_url r) =? -1 then 80 else u_port (cr_url r)).
      assert (X : forall c'' stk more, c_log c'' = c_log c ++ CAccepted r :: more -> 
        (more = [] /\ ~ (c_dev c' = DUnconnected \/ (c_dev c' = DConnected /\ c_unsent c' = false)) \/ exists more', more = CConnect u p :: more') ->
        exists c''0 stk0 more0, run (CRun c []) l = CRun c' [] /\ c_log c' = c_log c /\ CRun c'' stk = CRun c''0 stk0 /\ c_log c''0 = c_log c ++ CAccepted r :: more0 /\
          (false = true -> exists ws, more0 = map CWrite ws /\ RequestText r (concat ws) /\ c_pending c''0 = true /\ stk0 = []) /\
          (false = false -> more0 = [] \/ exists more', more0 = CConnect u p :: more') /\
          (false = false -> c_dev c' = DUnconnected \/ (c_dev c' = DConnected /\ c_unsent c' = false) -> more0 <> [])).
      { intros c'' stk more H1 H2. exists c'', stk, more. split; [exact E'|]. split; [exact Lg1|]. split; [reflexivity|]. split; [exact H1|]. split; [discriminate|].
        destruct H2 as [[-> H2]|[m ->]]; (split; [eauto|]); intros _ H3; [contradiction|discriminate]. }
      assert (Y : forall d : client, c_log d = c_log c ++ [CAccepted r] -> c_req d = r -> c_pending d = true -> c_dev d = DUnconnected -> c_host d = [] ->
         exists c'' stk more, connectToHost d [] (fun c => CRun c []) = CRun c'' stk /\ c_log c'' = c_log c ++ CAccepted r :: CConnect u p :: more).
      { intros d Lg Rd Pd Dd Hdd. unfold connectToHost, unconnected. rewrite Dd. cbn [negb]. rewrite Rd. clsimp. destruct (c_plan d).
        - cbn [cresume]. do 2 eexists. exists []. split; [reflexivity|]. clsimp. rewrite Lg, <- app_assoc. reflexivity.
        - unfold device_error. clsimp. rewrite Pd. cbn [negb]. unfold emit_finished, dev_close. do 2 eexists. eexists. split; [reflexivity|]. clsimp. rewrite Lg, <- !app_assoc. reflexivity.
        - unfold sendRequest. clsimp. rewrite Pd, Hdd, Rd, Eh. cbn [negb]. clsimp. rewrite ?Rd, Ew. cbn [cresume]. do 2 eexists. exists (map CWrite ws). split; [reflexivity|]. clsimp. rewrite Lg, <- !app_assoc. reflexivity. }
      match goal with |- context[connectToHost ?d _ _] => set (d0 := d) end.
      assert (Z : c_log d0 = c_log c ++ [CAccepted r] /\ c_req d0 = r /\ c_pending d0 = true /\ c_host d0 = [] /\
        (c_dev d0 = DUnconnected \/ (c_dev d0 = DClosing /\ ~ (c_dev c' = DUnconnected \/ (c_dev c' = DConnected /\ c_unsent c' = false))))).
      { subst d0. unfold unconnected, dev_disconnect, closing. clsimp. destruct D2 as [DD|[DD|DD]]; rewrite ?DD; clsimp; rewrite ?DD, Lg1; (do 4 (split; [reflexivity|])).
        - destruct (c_unsent c'); [right|now left]. split; [reflexivity|]. intros [V|[_ V]]; discriminate.
        - left. reflexivity.
        - right. split; [reflexivity|]. intros [V|[V _]]; discriminate. }
      clearbody d0. destruct Z as (Z1 & Z2 & Z3 & Z4 & [Z5|[Z5 Z6]]).
      + destruct (Y d0 Z1 Z2 Z3 Z5 Z4) as (c'' & stk & more & -> & Lm). apply (X c'' stk (CConnect u p :: more) Lm). right. eauto.
      + unfold connectToHost, unconnected. rewrite Z5. cbn [negb]. apply (X d0 [] [] Z1). left. auto.
  Qed.

  Lemma same_redirect c c' : (r_h (c_p c'), r_headers (c_p c')) = (r_h (c_p c), r_headers (c_p c)) ->
    redirected c' = redirected c /\ redirectionLocation c' = redirectionLocation c.
  Proof. intros H. injection H as H1 H2. unfold redirected, redirectionLocation, status. now rewrite H1, H2. Qed.
  (** followRedirection() some time after a redirecting response: the same, for the last request at the place the
      response named *)
  Theorem C89_redirection pre c l last :
    calm_run step cstart pre -> run cstart pre = CRun c [] -> Keeps last c -> Forall idle l -> redirected c = true ->
    let r := mkCR (cr_method last) (parse_url (redirectionLocation c)) (cr_headers last) (cr_data last) in
    let T := fold_left time_set l (c_timeout c) in
    let usable := same_server (cr_url r) (cr_url last) && forallb survives l && ((T <? 0) || negb (fold_left time_over l false)) in
    exists c' c'' stk more, run (CRun c []) l = CRun c' [] /\ c_log c' = c_log c /\
      step (CRun c' []) (CaCall CoFollow) = CRun c'' stk /\ c_log c'' = c_log c ++ CAccepted r :: more /\
      (usable = true -> exists ws, more = map CWrite ws /\ RequestText r (concat ws) /\ c_pending c'' = true /\ stk = []) /\
      (usable = false -> more = [] \/ exists more', more = CConnect (u_host (cr_url r)) (if u_port (cr_url r) =? -1 then 80 else u_port (cr_url r)) :: more') /\
      (usable = false -> c_dev c' = DUnconnected \/ (c_dev c' = DConnected /\ c_unsent c' = false) -> more <> []).
  Proof.
    intros Q E K HI Rd r T usable.
    assert (Wl : wf_creq last).
    { pose proof (run_ok zlib gunzip parse_url urls pre cstart start_inv Q) as IV. rewrite E in IV. rewrite <- (kp_req _ _ K). exact (co_req _ _ (iv_core _ _ (proj1 IV))). }
    assert (Wr : wf_creq r) by (split; [apply urls|exact (proj2 Wl)]).
    destruct (C89_reuse pre c l r last Q E K HI Wr) as (c' & c'' & stk & more & E1 & Lg & E2 & H). fold T in H. fold usable in H.
    assert (R0 : Rests (r_h (c_p c), r_headers (c_p c)) last (c_timeout c) false true (c_log c) c) by (destruct K as [[]]; constructor; auto).
    destruct (rests_run _ _ _ l _ _ _ _ R0 HI) as (c1 & E' & R'). rewrite E1 in E'. injection E' as <-.
    destruct (same_redirect c c' (rs_hh _ _ _ _ _ _ _ R')) as [X1 X2].
    exists c', c'', stk, more. split; [exact E1|]. split; [exact Lg|]. split; [|exact H]. rewrite <- E2. cbn [cstep do_cop].
    unfold followRedirection. rewrite X1, Rd, X2, (rs_req _ _ _ _ _ _ _ R'). reflexivity.
  Qed.
End Client.

(** ** A concrete case: a chunked response, kept; the next request after a while, in time and too late; and not kept *)
Definition kept_run : list caction := [CaArrive chunk_whole; CaReadyRead; CaReturn; CaReturn; CaReturn].
Definition while_idle (late : bool) : list caction := [CaFlushed; CaCall (CoTimeout 1000); CaClock late; CaPlan PlConnects].
Definition not_kept_run : list caction := CaCall (CoTimeout 0) :: kept_run.
Lemma C89_example :
  let c := state_of (drun cstart awaiting_run) in let g := drun (CRun c []) kept_run in
  Waits DConnected c /\ head_method (cr_method (c_req c)) = false /\ WholeResponse chunk_whole 1 1 200 chunk_hs two_chunks /\
  receiving_run dstep (CRun c []) kept_run /\ arrived kept_run ++ [] = [] ++ chunk_whole ++ [] /\
  c_pending (state_of g) = false /\ stays_open 1 1 chunk_hs = true /\ c_timeout (state_of g) <> 0 /\
  let pre := awaiting_run ++ kept_run ++ [CaReturn] in let k := state_of (drun cstart pre) in
  drun cstart pre = CRun k [] /\ calm_run dstep cstart pre /\ Keeps (demo "GET") k /\ wf_creq (demo "PUT") /\
  same_server (cr_url (demo "PUT")) (cr_url (demo "GET")) = true /\
  Forall idle (while_idle false) /\ forallb survives (while_idle false) = true /\
  fold_left time_set (while_idle false) (c_timeout k) = 1000 /\ fold_left time_over (while_idle false) false = false /\
  (exists w, skipn (length (c_log k)) (log_of (drun (CRun k []) (while_idle false ++ [CaCall (CoRequest (demo "PUT"))]))) = CAccepted (demo "PUT") :: map CWrite w) /\
  (exists w, skipn (length (c_log k)) (log_of (drun (CRun k []) (while_idle true ++ [CaCall (CoRequest (demo "PUT"))]))) =
     CAccepted (demo "PUT") :: CConnect (u_host (cr_url (demo "PUT"))) 80 :: map CWrite w) /\
  receiving_run dstep (CRun c []) not_kept_run /\ c_pending (state_of (drun (CRun c []) not_kept_run)) = false /\
  GaveUp (state_of (dstep (drun (CRun c []) not_kept_run) CaReturn)).
Proof.
  cbn zeta. split; [constructor; vm_compute; reflexivity|]. split; [reflexivity|].
  split; [eapply WR_chunked; try reflexivity; [apply chunk_head|vm_compute; discriminate| |apply chunk_ok]; apply CL_other; [reflexivity|constructor]|].
  split; [vm_compute; repeat (split; [repeat split; reflexivity|]); exact Logic.I|]. split; [vm_compute; reflexivity|].
  split; [vm_compute; reflexivity|]. split; [vm_compute; reflexivity|]. split; [vm_compute; discriminate|].
  split; [vm_compute; reflexivity|]. split; [vm_compute; repeat split; auto; try discriminate; try (intros; discriminate)|].
  split; [constructor; try (vm_compute; reflexivity); constructor; vm_compute; reflexivity|].
  split; [split; [split|]; vm_compute; discriminate|]. split; [reflexivity|].
  split; [repeat constructor|]. do 3 (split; [vm_compute; reflexivity|]).
  split; [eexists [_]; vm_compute; reflexivity|]. split; [eexists [_]; vm_compute; reflexivity|].
  split; [vm_compute; repeat (split; [repeat split; reflexivity|]); exact Logic.I|].
  split; [vm_compute; reflexivity|]. constructor; try (vm_compute; reflexivity). constructor; vm_compute; reflexivity.
Qed.
(** the same head as in C53_head_rest_example, which satisfies the hypotheses of C89_after_head: kept; not kept with keep-alive time 0 *)
Lemma C89_after_head_example :
  let c := state_of (drun cstart head_wait) in let g := drun (CRun c []) head_alone in
  let g0 := drun (CRun c []) (CaCall (CoTimeout 0) :: head_alone) in
  Waits DConnected c /\ head_method (cr_method (c_req c)) = true /\ ResponseHead chunk_txt 1 1 200 chunk_hs /\ ContentLength chunk_hs None /\
  receiving_run dstep (CRun c []) (CaCall (CoTimeout 0) :: head_alone) /\ stays_open 1 1 chunk_hs = true /\ chunked_resp chunk_hs = true /\
  c_pending (state_of g) = false /\ Keeps (demo "HEAD") (state_of (dstep g CaReturn)) /\
  c_pending (state_of g0) = false /\ GaveUp (state_of (dstep g0 CaReturn)).
Proof.
  cbn zeta. split; [constructor; vm_compute; reflexivity|]. split; [reflexivity|]. split; [exact chunk_head|]. split; [repeat constructor|].
  split; [vm_compute; repeat (split; [repeat split; reflexivity|]); exact Logic.I|]. do 3 (split; [vm_compute; reflexivity|]).
  split; [constructor; try (vm_compute; reflexivity); constructor; vm_compute; reflexivity|]. split; [vm_compute; reflexivity|].
  constructor; try (vm_compute; reflexivity). constructor; vm_compute; reflexivity.
Qed.

(** ** What fails *)
(** Content is consumed in the slots of contentReadyRead() while more of it has come in: consumeContent() starts a timer
    (415-416).  The socket's own readyRead() comes first and the response is received; then the timer's event finds no
    request under way and closes the connection, which the response would have left open: the next request needs a new one. *)
Definition consumed_run : list caction :=
  [CaArrive (firstn (length final_txt - 1) final_txt); CaReadyRead; CaReturn; CaArrive (skipn (length final_txt - 1) final_txt); CaCall CoConsume; CaReturn;
   CaReadyRead; CaReturn; CaReturn].
Theorem C89_consume_refuted :
  let c := state_of (drun cstart awaiting_run) in let k := state_of (drun (CRun c []) consumed_run) in
  signals (drun (CRun c []) consumed_run) = [CHeaders 200 final_hs; CContent (lit "h"); CContent (lit "i"); CFinished NoError 200 final_hs (lit "i")] /\
  Keeps (demo "GET") k /\ c_in k = [] /\
  c_dev (state_of (dstep (CRun k []) CaReadyRead)) = DUnconnected /\
  skipn (length (c_log k)) (log_of (drun (CRun k []) [CaReadyRead; CaCall (CoRequest (demo "GET"))])) = [CAccepted (demo "GET"); CConnect (lit "example.org") 80].
Proof.
  cbn zeta. split; [vm_compute; reflexivity|]. split; [constructor; try (vm_compute; reflexivity); constructor; vm_compute; reflexivity|].
  split; [vm_compute; reflexivity|]. split; vm_compute; reflexivity.
Qed.

(** ** A redirection followed on the connection it came on *)
Definition see_txt : bytes := lit "HTTP/1.1 302 Found" ++ CRLF ++ lit "Location: /b" ++ CRLF ++ lit "Content-Length: 0" ++ CRLF ++ CRLF.
Definition here_url (b : bytes) : url := mkUrl (lit "example.org") (-1) b [].
Lemma C89_redirection_case :
  let pre := awaiting_run ++ [CaArrive see_txt; CaReadyRead; CaReturn; CaReturn] in
  let go := crun false no_gunzip here_url in let k := state_of (go cstart pre) in
  go cstart pre = CRun k [] /\ calm_run (cstep false no_gunzip here_url) cstart pre /\ Keeps (demo "GET") k /\ redirected k = true /\ redirectionLocation k = lit "/b" /\
  Forall idle (while_idle false) /\ same_server (here_url (redirectionLocation k)) (cr_url (demo "GET")) = true /\
  skipn (length (c_log k)) (log_of (go (CRun k []) (while_idle false ++ [CaCall CoFollow]))) =
    [CAccepted (mkCR (lit "GET") (here_url (lit "/b")) [] []); CWrite (lit "GET /b HTTP/1.1" ++ CRLF ++ lit "Host: example.org" ++ CRLF ++ CRLF)].
Proof.
  cbn zeta. split; [vm_compute; reflexivity|]. split; [vm_compute; repeat split; auto; try discriminate; try (intros; discriminate)|].
  split; [constructor; try (vm_compute; reflexivity); constructor; vm_compute; reflexivity|]. do 2 (split; [vm_compute; reflexivity|]).
  split; [repeat constructor|]. split; vm_compute; reflexivity.
Qed.
