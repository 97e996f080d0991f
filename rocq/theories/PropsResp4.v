(** PROPERTY C50, another part: what comes after a response that closes the connection.  Model: RespParser.v, Joyent.v. *)
From Verif Require Import Bytes ByteHelpers Helpers TextSpec Joyent RespParser RespInv RespSplit RespSpec RespFeed RespName RespDecode RespBody RespChunk RespWhole PropsResp PropsResp2.
Open Scope Z_scope.

Definition line_end (c : ascii) : bool := Ascii.eqb c CR || Ascii.eqb c LF.

Lemma closed_byte r ch r1 n : closed r -> inject r [ch] = Some (r1, n) ->
  r_log r1 = r_log r /\ r_content r1 = r_content r /\ r_headers r1 = r_headers r /\ statusCode r1 = statusCode r /\
  (hasError r1 = true \/ line_end ch = true /\ closed r1 /\ n = 1).
Proof.
  intros [U S E]. unfold inject. rewrite (uo_p _ U). rewrite execute_run by (auto; discriminate).
  pose proof (jstart_ok [ch] (r_h r) (uo_h _ U E) E) as HJ.
  assert (HJ' : JOk (r_h (rset_parsing true r)) (jstart [ch] (r_h r))) by (rsimp; exact HJ).
  rewrite J_step by (auto; discriminate). pose proof (mstep_inv _ _ HJ' ltac:(discriminate)) as G.
  revert G. unfold mstep, jstep, jstart. rsimp. rewrite S. cbn [l_data l_re parsing_header]. 
  destruct (HTTP_MAX_HEADER_SIZE <? _).
  - intros _ [= <- <-]. unfold runpause, statusCode, hasError. rsimp. hsimp. rsimp. hsimp. auto 10.
  - unfold jbyte. hsimp. rewrite S. unfold line_end, ceq. destruct (Ascii.eqb ch CR || Ascii.eqb ch LF).
    + cbn [after brk advance l_data moved l_field l_value l_body]. intros [G _] Q.
      rewrite J_end in Q by (auto; reflexivity). cbn [l_data] in Q.
      match type of Q with context [eff ?a ?l] => assert (Ef : eff a l = a) by reflexivity; rewrite Ef in Q; clear Ef end. injection Q as <- <-.
      unfold runpause, statusCode, hasError. rsimp. hsimp. rewrite E. rsimp. hsimp. rewrite E.
      repeat (split; [reflexivity|]). right. split; [reflexivity|]. split; [|reflexivity].
      constructor; rsimp; hsimp; auto. constructor; rsimp; hsimp; auto; [congruence|]. intros _. destruct (uo_h _ U E) as [H1 _]. split; hsimp; auto. rewrite S. exact Logic.I.
    + intros _ [= <- <-]. unfold runpause, statusCode, hasError. rsimp. hsimp. rsimp. hsimp. auto 10.
Qed.

Lemma Feed_skip r l x : Feed r ([] :: l) x -> Feed r l x.
Proof. intros F. inversion F; subst; auto; congruence. Qed.
Lemma closed_feed : forall more r x, closed r -> Feed r (singles more) x ->
  r_log x = r_log r /\ r_content x = r_content r /\ r_headers x = r_headers r /\ statusCode x = statusCode r /\
  (hasError x = true \/ forallb line_end more = true).
Proof.
  induction more as [|ch more IH]; intros r x C F; unfold singles in F; cbn [map] in F.
  - inversion F; subst. auto 10.
  - fold (singles more) in F. remember ([ch] :: singles more) as sg eqn:Es.
    destruct F as [r|r sg x F|r seg sg r1 n x N1 N2 N3 N4|r seg sg r1 n N1 N2 N3]; try discriminate; injection Es as -> ->.
    + destruct (closed_byte _ _ _ _ C N2) as (L & K & H & S & [X|(B & C1 & ->)]); [congruence|].
      cbn [Z.to_nat Pos.to_nat Pos.iter_op skipn] in N4. change (skipn (Z.to_nat 1) [ch]) with (@nil ascii) in N4.
      apply Feed_skip in N4.
      destruct (IH r1 x C1 N4) as (L' & K' & H' & S' & Q').
      rewrite L', K', H', S'. repeat (split; [assumption|]). destruct Q'; [left; assumption|right; cbn [forallb]; rewrite B; assumption].
    + destruct (closed_byte _ _ _ _ C N2) as (L & K & H & S & _). auto 10.
Qed.

(** A response that closes the connection is the last one: whatever follows it, and however all of it arrives, nothing more is reported; anything but
    line ends is an error. *)
Theorem C50_after_close : forall r t a b c hs body more segs x, waiting r -> WholeResponse t a b c hs body -> stays_open a b hs = false ->
  concat segs = t ++ more -> Feed r segs x ->
  r_log x = r_log r ++ reported a b c hs body /\ r_content x = body /\ statusCode x = c /\
  (hasError x = false -> r_headers x = hs /\ forallb line_end more = true).
Proof.
  intros r t a b c hs body more segs x W Wh SO Ec F. pose proof (waiting_ready _ W) as R. pose proof (rd_u _ R) as U.
  destruct (whole_all r t a b c hs body R Wh) as (r' & C & _ & _ & G).
  destruct (Feed_refine _ _ _ U F) as (y & Fy & Uy & HR). rewrite Ec in Fy. unfold singles in Fy. rewrite map_app in Fy. fold (singles t) (singles more) in Fy.
  apply Feed_split in Fy as (m & F1 & U1 & F2); [|exact U]. apply (G (singles t) m (concat_singles t)) in F1. subst m.
  destruct (closed_feed more r' y (cp_d _ _ _ _ _ _ _ C SO) F2) as (L & K & H & S & Q).
  destruct HR as (R1 & _ & R3 & z & Rc & Rl). rewrite L, (cp_l _ _ _ _ _ _ _ C) in Rl. rewrite K, (cp_c _ _ _ _ _ _ _ C) in Rc.
  assert (z = []).
  { destruct z as [|z0 z] using List.rev_ind; [reflexivity|exfalso]. clear IHz. rewrite map_app in Rl. cbn [map] in Rl. unfold reported in Rl.
    change (RBegin :: RHeaders a b c hs :: map RByte body ++ [RComplete]) with ((RBegin :: RHeaders a b c hs :: map RByte body) ++ [RComplete]) in Rl.
    rewrite !app_assoc in Rl. apply app_inj_tail in Rl. destruct Rl. discriminate. }
  subst z. cbn [map] in Rl. rewrite app_nil_r in Rl, Rc. split; [now rewrite <- Rl|]. split; [now rewrite <- Rc|].
  split; [unfold statusCode in *; rewrite R1, S; apply (cp_s _ _ _ _ _ _ _ C)|].
  intros N. assert (x = y) by (apply R3; unfold hasError in N; destruct (h_errno (r_h x)); try discriminate; auto). subst y.
  split; [rewrite H; apply (cp_h _ _ _ _ _ _ _ C)|]. destruct Q; [congruence|assumption].
Qed.
(** a case: a second response after "Connection: close" *)
Definition bye_txt : bytes := (lit "HTTP/1.1 204 No Content" ++ CRLF) ++ hl "Connection" "close" ++ CRLF.
Example C50_close_case : WholeResponse bye_txt 1 1 204 [(lit "Connection", lit "close")] [] /\ stays_open 1 1 [(lit "Connection", lit "close")] = false /\
  exists x, Feed rfresh [bye_txt ++ CRLF ++ lit "HTTP"] x /\ hasError x = true.
Proof.
  split.
  - apply WR_none; try reflexivity; [|vm_compute; discriminate|apply CL_other; [reflexivity|constructor]].
    apply RespHd.
    + apply (SL (lit "1") (lit "1") (lit "204") 1 1 204 (lit " No Content")); try lia; try (apply dig1; reflexivity).
      * apply (D_more 10 (lit "20") 20 "4"%char 4); try reflexivity; try lia. apply (D_more 10 (lit "2") 2 "0"%char 0); try reflexivity; try lia. apply dig1; reflexivity.
      * right. exists (lit "No Content"). split; reflexivity.
    + unfold hl. replace CRLF with (CRLF ++ []) at 1 by reflexivity. apply HL_cons; try reflexivity. constructor.
  - split; [reflexivity|]. eexists. split; [|].
    + eapply Feed_more; [discriminate|vm_compute; reflexivity|reflexivity|]. eapply Feed_err; [vm_compute; discriminate|vm_compute; reflexivity|reflexivity].
    + reflexivity.
Qed.
