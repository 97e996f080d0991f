(** C84: when the user's slots return, the client is back in the event loop after finitely many returns: it neither calls back for ever nor keeps the
    caller (the slot of the socket's readyRead(), or the user's own call). *)
From Verif Require Import Bytes TextSpec ByteHelpers Helpers Joyent RespParser RespSpec RespInv RespSplit Client ClientSpec ClientInv PropsClient PropsClient2 PropsClient3.
Open Scope Z_scope.

Lemma shape_headers c s l er ph t : Shape c (KcSig s :: KcHeaders l er ph :: t) -> FOk c l /\ Shape c t /\ noparse t.
Proof. intros H. inversion H as [|? ? H1|? ? ? ? ? ? ? ?| | |]; subst; [inversion H1|auto]. Qed.
Lemma shape_parse c s l er ph t : Shape c (KcSig s :: KcParse l er ph :: t) -> FOk c l /\ (c_pending c = true -> s = SgContent) /\ Shape c t /\ noparse t.
Proof. intros H. inversion H as [|? ? H1| |? ? ? ? ? ? ? ? ?| |]; subst; [inversion H1|auto]. Qed.
Section Settle.
  Variables (zlib : bool) (gunzip : list bytes -> bytes -> bytes) (parse_url : bytes -> url).
  Hypothesis urls : forall b, wf_url (parse_url b).
  Notation cstep := (cstep zlib gunzip parse_url).
  Notation crun := (crun zlib gunzip parse_url).
  Notation cresume := (cresume zlib gunzip).
  Definition settles (g : ccfg) : Prop := exists n c, crun g (repeat CaReturn n) = CRun c [].
  (* for the results of functions: that they are not faults is known *)
  Definition soon (g : ccfg) : Prop := InvG g -> settles g.

  Lemma soon_sig c s t : soon (cresume t c) -> soon (CRun c (KcSig s :: t)).
  Proof.
    intros H I. assert (I' : InvG (cresume t c)) by (exact (ClientInv.return_ok zlib gunzip parse_url c (KcSig s :: t) I)).
    destruct (H I') as (n & c' & E). exists (S n), c'. exact E.
  Qed.
  Lemma soon_fault f : soon (CUB f). Proof. intros []. Qed.
  Section Tail.
    Variable t : list cframe.
    Hypothesis Ht : forall c, cresume t c = CRun c t.
    Hypothesis IH : forall c, soon (CRun c t).
    Lemma soon_k c : soon (cresume t c). Proof. rewrite Ht. apply IH. Qed.
    Lemma soon_finished c : soon (emit_finished c t). Proof. unfold emit_finished. apply soon_sig, soon_k. Qed.
    Lemma soon_send c : soon (sendRequest c (cresume t)).
    Proof.
      unfold sendRequest. destruct (negb _); [apply soon_k|]. destruct (match c_host c with [] => _ | _ => _ end); [|apply soon_fault]. cbv zeta.
      destruct (writeRequest _ _ _ _); [apply soon_k|apply soon_fault].
    Qed.
    Lemma soon_request r c : soon (request r c t (cresume t)).
    Proof.
      unfold request. destruct (c_pending c); [apply soon_k|]. destruct (r_parsing _); [apply soon_k|]. cbv zeta.
      destruct (_ && _); [apply soon_send|]. unfold connectToHost. destruct (negb _); [apply soon_k|]. cbv zeta.
      match goal with |- soon (match ?p with PlLater => _ | PlFails => _ | PlConnects => _ end) => destruct p end;
        [apply soon_k| |apply soon_send].
      unfold device_error. destruct (negb _); [apply soon_k|apply soon_finished].
    Qed.
    Lemma soon_read_tail c : soon (read_tail c t (cresume t)).
    Proof. unfold read_tail. destruct (c_pending c); [apply soon_k|]. destruct (c_next c); [apply soon_request|apply soon_k]. Qed.
    Lemma soon_check c : soon (check_error c t (cresume t)).
    Proof. unfold check_error. destruct (hasError _); [|apply soon_read_tail]. unfold emit_finished. apply soon_sig. apply soon_read_tail. Qed.
    Lemma soon_after2 er c : soon (after2 t (cresume t) er c).
    Proof. unfold after2. apply soon_check. Qed.
  End Tail.

  Lemma noparse_soon : forall t, noparse t -> forall c, soon (CRun c t).
  Proof.
    induction t as [t IH] using (well_founded_induction (Wf_nat.well_founded_ltof _ (@length cframe))). intros N c I. pose proof I as [[_ S _ _] _].
    unfold Wf_nat.ltof in IH. revert I. unfold noparse in *. destruct S as [|s t S|l er ph t F Hd S N'|s l er ph t F Hs S N'|er ph t P O S N'|t S N']; cbn [existsb parse_frame orb] in N; try discriminate.
    - intros I. exists 0%nat, c. reflexivity.
    - apply soon_sig, soon_k; [intros; now apply (shape_resume _ _ S)|apply IH; auto with arith].
    - apply soon_sig. cbn [Client.cresume]. apply soon_read_tail; [intros; now apply (shape_resume _ _ S)|apply IH; auto]. cbn [length]. lia.
  Qed.

  (* a parser run: its callbacks are nearer to the end *)
  Lemma prun_less : forall f r l c r' l' er, JOk (r_h r) l -> prun f r l = PCall c r' l' er -> (mu (r_h r') l' < mu (r_h r) l)%nat.
  Proof.
    induction f as [|f IH]; intros r l c r' l' er HJ E; [discriminate|].
    destruct (list_eq_dec ascii_dec (l_data l) []) as [D|D].
    - pose proof HJ as [Hh He Hf Hv Hb Hr]. destruct l as [d fm v b re]; cbn [l_data l_field l_value l_body l_re] in *. subst d.
      cbn [prun] in E. unfold jstep in E. cbn [l_data l_field l_value l_body] in E. unfold marks in E. cbn [l_field l_value l_body] in E.
      assert (X : forall r0 re0, prun f r0 (mkL [] None None None re0) = PCall c r' l' er -> False) by (intros r0 re0; destruct f; discriminate).
      destruct (Nat.ltb 1 _) eqn:M; [discriminate|]. destruct fm as [fm|]; [|destruct v as [v|]; [|destruct b as [b|]; [|discriminate]]].
      + destruct v, b; try discriminate. cbv zeta in E. destruct (is_ok _); [exfalso; eapply X; exact E|discriminate].
      + destruct b; try discriminate. cbv zeta in E. destruct (is_ok _); [exfalso; eapply X; exact E|discriminate].
      + injection E as <- <- <- <-. cbn. lia.
    - pose proof (jstep_inv _ _ HJ D) as G. cbn [prun] in E.
      destruct (jstep (r_h r) l) as [h l1|c1 h l1 er1|h er1|]; cbn [Good] in G; try discriminate.
      + destruct G as [J1 M1]. specialize (IH (rset_h h r) l1 c r' l' er). rsimp in *. specialize (IH J1 E). lia.
      + destruct G as [J1 M1].
        assert (Q : forall c0, c0 <> CbComplete -> prun f (on_cb c0 (rset_h h r)) l1 = PCall c r' l' er -> (mu (r_h r') l' < mu (r_h r) l)%nat).
        { intros c0 N E0. pose proof (IH (on_cb c0 (rset_h h r)) l1 c r' l' er) as X. rewrite on_cb_h in X by auto. rsimp in *. specialize (X J1 E0). lia. }
        destruct c1 as [|b|b| |b|]; cbv zeta in E;
          repeat match type of E with (if ?b then _ else _) = _ => destruct b end; try discriminate; try (eapply Q; [|exact E]; discriminate); injection E as <- <- <- <-; rsimp; auto.
  Qed.

  Section Frames.
    Variables (ph : phase) (t : list cframe).
    Hypothesis fin : forall er c, soon (finish gunzip ph t (cresume t) er c).
    Lemma soon_over c s l er : c_pending c = false -> soon (CRun c (KcSig s :: KcParse l er ph :: t)).
    Proof.
      intros P I. pose proof I as [[_ Sh _ _] _]. revert I. apply soon_sig. cbn [Client.cresume].
      assert (E : is_ok (h_errno (r_h (c_p c))) = false); [|rewrite E; apply fin].
      destruct (shape_parse _ _ _ _ _ _ Sh) as (F & _). destruct F as [_ F]. now rewrite (F P).
    Qed.
    Lemma soon_parse n l c : JOk (r_h (c_p c)) l -> (mu (r_h (c_p c)) l <= n)%nat ->
      (forall l' c' er, (mu (r_h (c_p c')) l' < n)%nat -> soon (CRun c' (KcSig SgHeaders :: KcHeaders l' er ph :: t)) /\ soon (CRun c' (KcSig SgContent :: KcParse l' er ph :: t))) ->
      soon (parse gunzip l ph c t (finish gunzip ph t (cresume t))).
    Proof.
      intros HJ M IH. unfold parse. pose proof (prun_less (pfuel l) (c_p c) l) as PL. destruct (prun (pfuel l) (c_p c) l) as [r er|cb r l' er|]; [apply fin| |apply soon_fault].
      specialize (PL cb r l' er HJ eq_refl). destruct cb as [|b|b| |b|]; try apply soon_fault.
      - cbv zeta. apply IH. clsimp. assert (Eh : r_h (pushHeader r) = r_h r) by (unfold pushHeader; destruct (r_lwv r); reflexivity). rewrite Eh. lia.
      - destruct (match c_dec c with None => _ | Some _ => _ end) as [b' d]. cbv zeta. apply IH. clsimp. unfold set_content. rsimp. lia.
      - cbv zeta. destruct (_ =? 100); [apply fin|]. unfold emit_finished. apply soon_sig. cbn [Client.cresume]. apply fin.
    Qed.
    Lemma soon_frames : forall n l c er, (mu (r_h (c_p c)) l < n)%nat ->
      soon (CRun c (KcSig SgHeaders :: KcHeaders l er ph :: t)) /\ soon (CRun c (KcSig SgContent :: KcParse l er ph :: t)).
    Proof.
      induction n as [|n IH]; intros l c er M; [lia|].
      assert (A : forall c', c_p c' = c_p c -> (is_ok (h_errno (r_h (c_p c))) = true -> JOk (r_h (c_p c)) l) ->
        soon (if is_ok (h_errno (r_h (c_p c'))) then parse gunzip l ph c' t (finish gunzip ph t (cresume t)) else finish gunzip ph t (cresume t) er c')).
      { intros c' E J. rewrite E. destruct (is_ok _); [|apply fin]. apply (soon_parse n); [rewrite E; now apply J|rewrite E; lia|]. intros l' c'' er' M'. now apply IH. }
      assert (B : FOk c l -> is_ok (h_errno (r_h (c_p c))) = true -> JOk (r_h (c_p c)) l).
      { intros [F1 F2] O. apply is_ok_true in O. destruct (c_pending c); [now apply F1|]. specialize (F2 eq_refl). congruence. }
      split; intros I; pose proof I as [[_ Sh _ _] _]; revert I; apply soon_sig; cbn [Client.cresume].
      - destruct (shape_headers _ _ _ _ _ _ Sh) as (F & _). unfold headers_tail. destruct (asciiEqualsCI_lower _ _).
        + unfold emit_finished. apply soon_over. unfold complete. clsimp. destruct (_ =? 0); [reflexivity|]. destruct (should_keep_alive _); reflexivity.
        + cbv zeta. apply A; [|now apply B]. destruct (_ && _); reflexivity.
      - destruct (shape_parse _ _ _ _ _ _ Sh) as (F & _). apply A; [reflexivity|now apply B].
    Qed.
    Lemma soon_parse_frame c s l er : soon (CRun c (KcSig s :: KcParse l er ph :: t)).
    Proof.
      intros I. pose proof I as [[_ Sh _ _] _]. destruct (c_pending c) eqn:P; [|revert I; now apply soon_over].
      destruct (shape_parse _ _ _ _ _ _ Sh) as (F & Hs & _). rewrite (Hs P) in *. revert I. eapply soon_frames. apply Nat.lt_succ_diag_r.
    Qed.
    Lemma soon_parse0 l c : soon (parse gunzip l ph c t (finish gunzip ph t (cresume t))).
    Proof.
      unfold parse. destruct (prun (pfuel l) (c_p c) l) as [r er|cb r l' er|]; [apply fin| |apply soon_fault].
      destruct cb as [|b|b| |b|]; try apply soon_fault.
      - cbv zeta. eapply soon_frames. apply Nat.lt_succ_diag_r.
      - destruct (match c_dec c with None => _ | Some _ => _ end) as [b' d]. cbv zeta. eapply soon_frames. apply Nat.lt_succ_diag_r.
      - cbv zeta. destruct (_ =? 100); [apply fin|]. unfold emit_finished. apply soon_sig. cbn [Client.cresume]. apply fin.
    Qed.
    Lemma soon_complete c s er : soon (CRun c (KcSig s :: KcComplete er ph :: t)).
    Proof. apply soon_sig. cbn [Client.cresume]. apply fin. Qed.
  End Frames.

  Section Ends.
    Variable t : list cframe.
    Hypothesis N : noparse t.
    Hypothesis Ht : forall c, cresume t c = CRun c t.
    Lemma soon_finish2 er c : soon (finish gunzip Second t (cresume t) er c).
    Proof. cbn [finish]. apply soon_after2; [exact Ht|]. intros. now apply noparse_soon. Qed.
    Lemma soon_finish1 er c : soon (finish gunzip First t (cresume t) er c).
    Proof.
      cbn [finish]. unfold after1. cbv zeta. assert (B : forall c, soon (CRun c t)) by (intros; now apply noparse_soon).
      destruct (negb (c_pending _)); [now apply soon_read_tail|]. destruct (_ && _); [|now apply soon_check].
      unfold inject2. cbv zeta. destruct (is_ok _) eqn:O; [|now apply soon_after2].
      apply (soon_parse0 Second t soon_finish2).
    Qed.
    Lemma soon_finish ph er c : soon (finish gunzip ph t (cresume t) er c).
    Proof. destruct ph; [apply soon_finish1|apply soon_finish2]. Qed.
  End Ends.
  Theorem inv_settles g : InvG g -> settles g.
  Proof.
    destruct g as [c stk|f]; [|intros []]. revert c. induction stk as [stk IH] using (well_founded_induction (Wf_nat.well_founded_ltof _ (@length cframe))).
    unfold Wf_nat.ltof in IH. intros c I. pose proof I as [[_ S _ _] _]. revert I.
    destruct S as [|s t S|l er ph t F Hd S N|s l er ph t F Hs S N|er ph t P O S N|t S N];
      try (assert (Ht : forall c', cresume t c' = CRun c' t) by (intros; now apply (shape_resume _ _ S))).
    - intros I. exists 0%nat, c. reflexivity.
    - apply soon_sig. rewrite Ht. intros I. apply IH; auto.
    - eapply soon_frames; [now apply soon_finish|apply Nat.lt_succ_diag_r].
    - apply soon_parse_frame. now apply soon_finish.
    - apply soon_complete. now apply soon_finish.
    - apply noparse_soon. exact N.
  Qed.

  (** From every moment of every calm history: when the running slots return (and the user does nothing else), the client is back in the event loop
      after finitely many returns. *)
  Theorem C84_returns l : calm_run cstep cstart l -> exists n c, crun cstart (l ++ repeat CaReturn n) = CRun c [].
  Proof.
    intros Q. pose proof (ClientInv.run_ok zlib gunzip parse_url urls l cstart start_inv Q) as I. destruct (inv_settles _ I) as (n & c & E).
    exists n, c. unfold Client.crun in *. rewrite fold_left_app. exact E.
  Qed.
End Settle.

(** A case: the answer has arrived and the user's slots are running (the stack is not empty); the client needs several returns. *)
Definition stack_of (g : ccfg) : nat := match g with CRun _ stk => length stk | _ => 0%nat end.
Definition settling : list caction := [CaCall (CoRequest post); CaConnected; CaFlushed; CaArrive answer_ok; CaReadyRead].
Theorem C84_case : calm_run dstep cstart settling /\ (2 <= stack_of (drun cstart settling))%nat /\
  (1 <= stack_of (drun cstart (settling ++ [CaReturn])))%nat /\
  exists c, drun cstart (settling ++ repeat CaReturn 4) = CRun c [].
Proof.
  split; [calm_concrete|]. split; [vm_compute; lia|]. split; [vm_compute; lia|]. eexists. vm_compute. reflexivity.
Qed.
