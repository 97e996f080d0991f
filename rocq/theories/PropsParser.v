(** PROPERTY C02: the request head parser against the grammar of ReqGrammar.v.
    [parsed p0 buf] is the parser state after thin_http_parser_init and thin_http_parser_execute on [buf]
    ([p0] is whatever the parser struct held before). *)
From Verif Require Import Bytes ByteHelpers Thin ReqGrammar ThinClasses ThinProofs ThinFields ThinTop.
Open Scope Z_scope.

Definition accepts (buf : bytes) : Prop := forall p0, is_finished (tp (parsed p0 buf)) = true.
Definition rejects (buf : bytes) : Prop := forall p0, has_error (tp (parsed p0 buf)) = true.

Lemma accepts_drun buf : accepts buf <-> exists r, drun 1 buf = DDone r.
Proof.
  unfold accepts, is_finished. split.
  - intros H. specialize (H tp_zero). pose proof (parsed_drun tp_zero buf) as P. destruct (drun 1 buf) as [|n|r] eqn:D.
    + rewrite P in H. discriminate.
    + apply drun_more in D; [|lia]. destruct P as (P & _). rewrite P in H. apply Z.eqb_eq in H. lia.
    + eauto.
  - intros (r & D) p0. pose proof (parsed_drun p0 buf) as P. rewrite D in P. destruct P as (-> & _). reflexivity.
Qed.
Lemma rejects_drun buf : rejects buf <-> drun 1 buf = DErr.
Proof.
  unfold rejects, has_error. split.
  - intros H. specialize (H tp_zero). pose proof (parsed_drun tp_zero buf) as P. destruct (drun 1 buf) as [|n|r] eqn:D; auto.
    + apply drun_more in D; [|lia]. destruct P as (P & _). rewrite P in H. apply Z.eqb_eq in H. lia.
    + destruct P as (P & _). rewrite P in H. discriminate.
  - intros D p0. pose proof (parsed_drun p0 buf) as P. rewrite D in P. rewrite P. reflexivity.
Qed.

(** A buffer is accepted exactly when it starts with a well-formed head. *)
Theorem C02_accepts_grammar : forall buf,
  accepts buf <-> exists h rest, wf_head h /\ buf = head_text h ++ rest.
Proof.
  intros buf. rewrite accepts_drun. split.
  - intros (r & D). apply drun_iff in D. destruct D as (h & W & E). eauto.
  - intros (h & r & W & E). exists r. apply drun_iff. eauto.
Qed.

(** A buffer is rejected exactly when no continuation of it is a well-formed head followed by anything. *)
Theorem C02_rejects : forall buf,
  rejects buf <-> ~ exists ext h rest, wf_head h /\ buf ++ ext = head_text h ++ rest.
Proof. intros buf. rewrite rejects_drun. apply drun_err_iff. Qed.

(** Hence the rejection happens at the first byte that rules every continuation out, and is final. *)
Theorem C02_first_offending_byte : forall buf, rejects buf ->
  exists good bad rest, buf = good ++ bad :: rest /\ ~ rejects good /\ rejects (good ++ [bad]) /\
    forall more, rejects (good ++ bad :: more).
Proof.
  intros buf R.
  assert (E : forall l pre, rejects (pre ++ l) -> ~ rejects pre ->
     exists good bad rest, pre ++ l = good ++ bad :: rest /\ ~ rejects good /\ rejects (good ++ [bad])).
  { induction l as [|c l IH]; intros pre H N.
    - rewrite app_nil_r in H. contradiction.
    - destruct (drun 1 (pre ++ [c])) eqn:D.
      + exists pre, c, l. split; [reflexivity|]. split; auto. now apply rejects_drun.
      + destruct (IH (pre ++ [c])) as (g & b & r & E & G); auto.
        * now rewrite <- app_assoc.
        * rewrite rejects_drun, D. discriminate.
        * rewrite <- app_assoc in E. eauto.
      + destruct (IH (pre ++ [c])) as (g & b & r & E & G); auto.
        * now rewrite <- app_assoc.
        * rewrite rejects_drun, D. discriminate.
        * rewrite <- app_assoc in E. eauto. }
  destruct (E buf []) as (g & b & r & Eq & N & B); auto.
  { rewrite rejects_drun. discriminate. }
  exists g, b, r. repeat split; auto. intros more.
  rewrite rejects_drun in *. change (g ++ b :: more) with (g ++ [b] ++ more). rewrite app_assoc, drun_app, B. reflexivity.
Qed.

(** A buffer that is neither can become either: it is a proper prefix of some head. *)
Theorem C02_pending : forall buf, ~ accepts buf -> ~ rejects buf ->
  exists ext h, wf_head h /\ buf ++ ext = head_text h.
Proof.
  intros buf NA NR. rewrite accepts_drun in NA. rewrite rejects_drun in NR.
  destruct (drun 1 buf) as [|n|r] eqn:D; [congruence| |exfalso; eauto].
  pose proof (drun_more 1 _ _ ltac:(lia) D) as Hn. pose proof (live n Hn) as L.
  assert (C : drun 1 (buf ++ witness n) = DDone []) by (rewrite drun_app, D; exact L).
  apply drun_sound in C. destruct C as (h & W & C). rewrite app_nil_r in C. eauto.
Qed.

(** Feeding the parser piece by piece, resuming from its own position, is the same as feeding everything. *)
Theorem C02_incremental : forall p0 buf more, ~ accepts buf -> ~ rejects buf ->
  texecute (buf ++ more) (nread (tp (parsed p0 buf))) (parsed p0 buf) = parsed p0 (buf ++ more).
Proof.
  intros p0 buf more NA NR. rewrite accepts_drun in NA. rewrite rejects_drun in NR.
  destruct (drun 1 buf) as [|n|r] eqn:D; [congruence| |exfalso; eauto].
  eapply parsed_incremental; eauto.
Qed.

Definition sample_head : head :=
  mkHead (lit "POST") (Origin (lit "a/b") (Some (lit "x=%20"))) (Some (lit "frag")) (lit "1") (lit "1")
    [mkHline (lit "Host") 1 (lit "example.org"); mkHline (lit "Content-Length") 2 (lit "3")].
Ltac text := repeat first [apply T_nil | apply T_char; [reflexivity|] | apply T_esc; [reflexivity|reflexivity|]].
Lemma sample_head_wf : wf_head sample_head.
Proof.
  constructor; cbn; try reflexivity; try lia.
  - constructor; text.
  - intros f [= <-]. text.
  - split; [discriminate|reflexivity].
  - split; [discriminate|reflexivity].
  - repeat constructor; cbn; try discriminate; try reflexivity; intuition (subst; discriminate).
Qed.
Example C02_case : wf_head sample_head /\ accepts (head_text sample_head ++ lit "abc") /\
  rejects (lit "GET / HTP") /\ ~ accepts (lit "GET / HTT") /\ ~ rejects (lit "GET / HTT").
Proof.
  split; [apply sample_head_wf|]. split; [apply C02_accepts_grammar; eauto using sample_head_wf|].
  rewrite !rejects_drun, accepts_drun. split; [reflexivity|]. split; [|vm_compute; discriminate].
  intros (r & D). vm_compute in D. discriminate.
Qed.

Print Assumptions C02_accepts_grammar.
Print Assumptions C02_rejects.
Print Assumptions C02_first_offending_byte.
Print Assumptions C02_incremental.
