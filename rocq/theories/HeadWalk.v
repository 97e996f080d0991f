(** The parser at the end of a response head: where it calls on_headers_complete, and in what state. *)
From Verif Require Import Bytes TextSpec ByteHelpers Helpers CIProofs Joyent RespParser RespSpec RespInv RespSplit RespFeed RespDecode RespBody RespWhole RespBound.
From Verif Require Import Client ClientInv ClientSim.
Open Scope Z_scope.

Definition at_done (h : hparser) : Prop := h_state h = s_headers_done.
(** from a state in a head to just after on_headers_complete *)
Inductive Walk : rparser -> locals -> rparser -> locals -> Prop :=
| W_last r l a la : in_head (r_h r) = true -> l_data l <> [] -> mstep r l = OGo a la -> at_done (r_h a) -> Walk r l a la
| W_step r l r1 l1 a la : in_head (r_h r) = true -> l_data l <> [] -> mstep r l = OGo r1 l1 -> in_head (r_h r1) = true -> Walk r1 l1 a la -> Walk r l a la.
Lemma done_not_head h : at_done h -> in_head h = false.
Proof. unfold at_done, in_head. now intros ->. Qed.
Lemma head_nocut h l : in_head h = true -> cutting h l = false.
Proof. unfold in_head, cutting. destruct (h_state h); try discriminate; reflexivity. Qed.

Lemma walk_det r l a la : Walk r l a la -> forall b lb, Walk r l b lb -> a = b /\ la = lb.
Proof.
  induction 1 as [r l a la H D M E|r l r1 l1 a la H D M H1 W IH]; intros b lb W2; inversion W2 as [? ? ? ? H' D' M' E'|? ? r2 l2 ? ? H' D' M' H2' W']; subst; rewrite M in M'; injection M' as <- <-.
  - auto.
  - rewrite (done_not_head _ E) in H2'. discriminate.
  - rewrite (done_not_head _ E') in H1. discriminate.
  - auto.
Qed.
Lemma walk_J r l a la : Walk r l a la -> JOk (r_h r) l -> J r l = J a la /\ JOk (r_h a) la.
Proof.
  induction 1 as [r l a la H D M E|r l r1 l1 a la H D M H1 W IH]; intros HJ; rewrite J_step by auto; pose proof (mstep_inv _ _ HJ D) as I; rewrite M in *; destruct I as [I _]; auto.
Qed.
Lemma walk_app r l a la d : Walk r l a la -> JOk (r_h r) l -> Walk r (app2 l d) a (app2 la d).
Proof.
  assert (N : forall l d, l_data l <> [] -> l_data (app2 l d) <> []) by (intros l0 d0 X Y; apply X; cbn [app2 l_data] in Y; now apply app_eq_nil in Y as [Y _]).
  induction 1 as [r l a la H D M E|r l r1 l1 a la H D M H1 W IH]; intros HJ; pose proof (mstep_inv _ _ HJ D) as I; rewrite M in I; destruct I as [I _].
  - apply W_last; auto. rewrite mstep_app, M by auto using head_nocut. reflexivity.
  - eapply W_step; eauto. rewrite mstep_app, M by auto using head_nocut. reflexivity.
Qed.
Lemma walk_cut r l' a la' d : Walk r l' a la' -> forall l, l' = app2 l d -> JOk (r_h r) l' -> (l_data l <> [] -> JOk (r_h r) l) -> (length d < length (l_data la'))%nat ->
  exists la, la' = app2 la d /\ Walk r l a la.
Proof.
  induction 1 as [r l' a la' H D M E|r l' r1 l1 a la' H D M H1 W IH]; intros l -> HJ HJ' L;
    pose proof (jstep_left _ _ HJ D) as K; pose proof (mstep_inv _ _ HJ D) as I; rewrite M in K, I; destruct I as [I _].
  - assert (D2 : l_data l <> []) by (intros X; cbn [app2 l_data] in K; rewrite X in K; cbn [app] in K; lia).
    rewrite mstep_app in M by auto using head_nocut. destruct (mstep r l) as [r2 l2|r2 e2|] eqn:M2; cbn [appout] in M; try discriminate. injection M as -> <-.
    exists l2. split; [reflexivity|]. apply W_last; auto.
  - assert (D2 : l_data l <> []).
    { intros X. assert (Y : (length (l_data la') <= length (l_data l1))%nat).
      { clear -W I. revert I. induction W as [r l a la H D M E|r l r1 l1 a la H D M H1 W IH]; intros HJ; pose proof (jstep_left _ _ HJ D) as K; pose proof (mstep_inv _ _ HJ D) as J; rewrite M in K, J; destruct J as [J _]; [exact K|]. specialize (IH J). lia. }
      cbn [app2 l_data] in K. rewrite X in K. cbn [app] in K. lia. }
    rewrite mstep_app in M by auto using head_nocut. destruct (mstep r l) as [r2 l2|r2 e2|] eqn:M2; cbn [appout] in M; try discriminate. injection M as -> <-.
    pose proof (mstep_inv _ _ (HJ' D2) D2) as I2. rewrite M2 in I2. destruct I2 as [I2 _].
    destruct (IH l2 eq_refl I (fun _ => I2) L) as (la & E1 & W2). exists la. split; [exact E1|]. eapply W_step; eauto.
Qed.

(** ** What the steps in a head do *)
Definition HeadStep (l : locals) (res : jres) : Prop :=
  match res with
  | Next h' l' => in_head h' = true
  | Call c h' l' er => (soft c /\ in_head h' = true) \/ (c = CbHeaders /\ at_done h' /\ l' = again l)
  | _ => True
  end.
Lemma jbyte_instep ch rest h l : in_head h = true -> l_data l = ch :: rest -> HeadStep l (jbyte ch h l).
Proof.
  intros IH D. destruct l as [d f v b re]; cbn [l_data] in *. subst d.
  unfold in_head in IH. unfold jbyte. destruct (h_state h) eqn:S; try discriminate; try (apply negb_true_iff in IH);
    unfold data_field, data_value, data_body, notify, brk, reexec, err, advance, no_field, no_value, no_body, new_message;
    cbn [l_data l_field l_value l_body l_re mark_field mark_value].
  all: try (rewrite IH; destruct (ceq ch LF); [|exact Logic.I]; right; split; [reflexivity|]; split; reflexivity).
  all: repeat match goal with |- context [match ?x with _ => _ end] => first [is_var x; destruct x | destruct x eqn:?] end;
    repeat match goal with X : value_first _ _ = Some _ |- _ => pose proof (first_trail _ _ _ X); apply first_nread in X | X : value_step _ _ = VOk _ |- _ => pose proof (step_trail _ _ _ X); apply step_nread in X end;
    cbn [HeadStep soft]; try exact Logic.I;
    repeat match goal with X : h_nread _ = _ /\ h_state _ = _ |- _ => let A := fresh in let B := fresh in destruct X as [A B] end;
    try (left; split; [exact Logic.I|]);
    unfold in_head; hsimp in *; rewrite ?flags_trail, ?(proj2 (flags_nread _)); hsimp in *;
    repeat match goal with X : h_state _ = _ |- _ => rewrite X end; repeat match goal with X : f_trailing _ = _ |- _ => rewrite X end; rewrite ?IH; try reflexivity.
Qed.
Lemma jstep_instep h l : in_head h = true -> l_data l <> [] -> HeadStep l (jstep h l).
Proof.
  intros IH D. unfold jstep. destruct (l_data l) as [|ch rest] eqn:E; [congruence|].
  destruct (l_re l); [now apply (jbyte_instep ch rest)|]. destruct (parsing_header (h_state h)); [|now apply (jbyte_instep ch rest)].
  cbn zeta. destruct (HTTP_MAX_HEADER_SIZE <? _); [exact Logic.I|]. apply (jbyte_instep ch rest); auto.
Qed.
(* a step of Walk: silent, or the callback *)
Lemma mstep_cases r l r1 l1 : in_head (r_h r) = true -> l_data l <> [] -> mstep r l = OGo r1 l1 ->
  (in_head (r_h r1) = true /\ ((exists h, jstep (r_h r) l = Next h l1 /\ r1 = rset_h h r) \/
      (exists c h er, jstep (r_h r) l = Call c h l1 er /\ soft c /\ r1 = on_cb c (rset_h h r)))) \/
  (exists h er, jstep (r_h r) l = Call CbHeaders h l1 er /\ at_done h /\ r1 = on_cb CbHeaders (rset_h h r) /\ l1 = again l).
Proof.
  intros H D M. pose proof (jstep_instep _ _ H D) as S. unfold mstep, after in M. destruct (jstep (r_h r) l) as [h l'|c h l' er|h er|]; try discriminate; cbn [HeadStep] in S.
  - injection M as <- <-. left. split; [exact S|]. left. eauto.
  - destruct (is_ok _); [|discriminate]. injection M as <- <-. destruct S as [(S1 & S2)|(-> & S2 & S3)].
    + left. split; [rewrite on_cb_h by (intros ->; exact S1); exact S2|]. right. exists c, h, er. auto.
    + right. exists h, er. auto.
Qed.
Lemma soft_log c r : soft c -> exists lg, r_log (on_cb c r) = r_log r ++ lg /\ silent lg.
Proof.
  intros S. destruct c; try contradiction; cbn [on_cb]; unfold pushHeader, rlog; rsimp; try (destruct (r_lwv r)); rsimp.
  all: first [exists []; rewrite app_nil_r; split; [reflexivity|constructor] | exists [RBegin]; split; [reflexivity|repeat constructor]].
Qed.
Lemma walk_end r l a la : Walk r l a la -> exists q h lg, a = on_cb CbHeaders (rset_h h q) /\ at_done h /\ r_log q = r_log r ++ lg /\ silent lg /\ l_re la = true /\ l_data la <> [] /\ r_parsing q = r_parsing r.
Proof.
  induction 1 as [r l a la H D M E|r l r1 l1 a la H D M H1 W IH]; destruct (mstep_cases _ _ _ _ H D M) as [(H2 & X)|(h & er & E1 & E2 & -> & ->)].
  - rewrite (done_not_head _ E) in H2. discriminate.
  - exists r, h, []. rewrite app_nil_r. split; [reflexivity|]. split; [exact E2|]. split; [reflexivity|]. split; [constructor|]. split; [reflexivity|]. split; [exact D|reflexivity].
  - destruct IH as (q & h & lg & -> & A & L & S & R). exists q, h. destruct X as [(h0 & _ & ->)|(c & h0 & er & _ & Sc & ->)].
    + rsimp in *. exists lg. auto 10.
    + destruct (soft_log c (rset_h h0 r) Sc) as (l2 & L2 & S2). rsimp in *. rewrite on_cb_parsing in R. exists (l2 ++ lg). rewrite L, L2, <- app_assoc. split; [reflexivity|]. split; [exact A|]. split; [reflexivity|]. split; [now apply silent_app|exact R].
  - exfalso. rewrite on_cb_h in H1 by discriminate. rsimp in *. rewrite (done_not_head _ E2) in H1. discriminate.
Qed.
Lemma push_keeps r : r_h (pushHeader r) = r_h r /\ r_log (pushHeader r) = r_log r /\ r_parsing (pushHeader r) = r_parsing r.
Proof. unfold pushHeader. destruct (r_lwv r); auto. Qed.
Lemma walk_log r l a la : Walk r l a la -> exists lg, r_log a = r_log r ++ lg ++ [RHeaders (h_major (r_h a)) (h_minor (r_h a)) (h_status (r_h a)) (r_headers a)] /\ silent lg.
Proof.
  intros W. destruct (walk_end _ _ _ _ W) as (q & h & lg & -> & _ & L & S & _). exists lg. split; [|exact S].
  cbn [on_cb]. unfold rlog. rsimp. destruct (push_keeps (rset_h h q)) as (E1 & E2 & _). rewrite E1, E2. rsimp. now rewrite L, <- app_assoc.
Qed.
(* if something is reported, it walks *)
Lemma walk_ex : forall n r l r' er lg, (mu (r_h r) l <= n)%nat -> JOk (r_h r) l -> in_head (r_h r) = true -> J r l = Some (r', er) -> r_log r' = r_log r ++ lg -> ~ silent lg ->
  exists a la, Walk r l a la.
Proof.
  induction n as [n IH] using lt_wf_ind; intros r l r' er lg Hn HJ H E L NS.
  destruct (list_eq_dec ascii_dec (l_data l) []) as [D|D].
  - exfalso. rewrite J_end in E by auto. injection E as <- <-. apply NS.
    assert (B : l_body l = None). { destruct (l_body l) eqn:B; [|reflexivity]. pose proof (jo_b _ _ HJ) as X. rewrite B in X. specialize (X eq_refl). unfold in_head in H. destruct (h_state (r_h r)); discriminate. }
    assert (X : r_log (eff r l) = r_log r). { unfold eff. rewrite B. destruct (l_field l), (l_value l); cbn [on_cb]; unfold pushHeader, rlog; rsimp; try reflexivity; destruct (r_lwv r); reflexivity. }
    rewrite X in L. rewrite <- (app_nil_r (r_log r)) in L at 1. apply app_inv_head in L. subst lg. constructor.
  - rewrite J_step in E by auto. pose proof (mstep_inv _ _ HJ D) as I. pose proof (jstep_instep _ _ H D) as P. destruct (mstep r l) as [r1 l1|r1 e1|] eqn:M.
    + destruct I as [I1 I2]. destruct (mstep_cases _ _ _ _ H D M) as [(H2 & X)|(h & e & E1 & E2 & -> & ->)].
      * assert (Y : exists l0, r_log r1 = r_log r ++ l0 /\ silent l0).
        { destruct X as [(h & _ & ->)|(c & h & e & _ & Sc & ->)]; [exists []; rsimp; rewrite app_nil_r; split; [reflexivity|constructor]|]. destruct (soft_log c (rset_h h r) Sc) as (l2 & L2 & S2). eauto. }
        destruct Y as (l0 & L0 & S0). destruct (jrun_log _ _ _ _ _ E) as (l2 & L2).
        destruct (IH (mu (r_h r1) l1) ltac:(lia) r1 l1 r' er l2 (le_n _) I1 H2 E L2) as (a & la & W).
        { intros S2. apply NS. rewrite L2, L0, <- app_assoc in L. apply app_inv_head in L. subst lg. now apply silent_app. }
        exists a, la. eapply W_step; eauto.
      * exists (on_cb CbHeaders (rset_h h r)), (again l). apply W_last; auto. rewrite on_cb_h by discriminate. exact E2.
    + (* the parser stopped: nothing was reported *)
      exfalso. injection E as <- <-. unfold mstep, after in M. destruct (jstep (r_h r) l) as [h l'|c h l' e|h e|] eqn:Js; try discriminate; cbn [HeadStep] in P.
      * destruct (is_ok _) eqn:O; [discriminate|]. pose proof (jok_step r l HJ D h l') as [_ G]. destruct (G _ _ Js) as [G1 _].
        assert (Nc : c <> CbComplete) by (destruct P as [(P & _)|(-> & _)]; [intros ->; exact P|discriminate]).
        rewrite on_cb_h in O by exact Nc. rsimp in *. rewrite (jo_errno _ _ G1) in O. discriminate.
      * injection M as <- <-. rsimp in *. apply NS. rewrite <- (app_nil_r (r_log r)) in L at 1. apply app_inv_head in L. subst lg. constructor.
    + destruct I.
Qed.

Lemma J_in_head : forall n r l r' er, (mu (r_h r) l <= n)%nat -> JOk (r_h r) l -> in_head (r_h r) = true -> J r l = Some (r', er) -> h_errno (r_h r') = HPE_OK ->
  (exists a la, Walk r l a la) \/ in_head (r_h r') = true.
Proof.
  induction n as [n IH] using lt_wf_ind; intros r l r' er Hn HJ H E O.
  destruct (list_eq_dec ascii_dec (l_data l) []) as [D|D].
  - right. rewrite J_end in E by auto. injection E as <- <-. unfold eff. destruct (l_field l), (l_value l), (l_body l); rewrite ?on_cb_h by discriminate; exact H.
  - rewrite J_step in E by auto. pose proof (mstep_inv _ _ HJ D) as I. destruct (mstep r l) as [r1 l1|r1 e1|] eqn:M; [| |destruct I].
    + destruct I as [I1 I2]. destruct (mstep_cases _ _ _ _ H D M) as [(H2 & _)|(h & e & _ & E2 & -> & ->)].
      * destruct (IH (mu (r_h r1) l1) ltac:(lia) r1 l1 r' er (le_n _) I1 H2 E O) as [(a & la & W)|X]; [left|now right]. exists a, la. eapply W_step; eauto.
      * left. exists (on_cb CbHeaders (rset_h h r)), (again l). apply W_last; auto. rewrite on_cb_h by discriminate. exact E2.
    + destruct I as [I _]. injection E as <- <-. congruence.
Qed.

(** after the callback: if only the last character of the head is left, the parser does nothing to the name and value it keeps, nor to what decides about the
    connection *)
Lemma done_J a la r' er : at_done (r_h a) -> JOk (r_h a) la -> length (l_data la) = 1%nat -> l_re la = true -> J a la = Some (r', er) ->
  l_data la = [LF] \/ h_errno (r_h r') = HPE_OK \/ h_errno (r_h r') = HPE_PAUSED ->
  r_field r' = r_field a /\ r_value r' = r_value a /\ should_keep_alive (r_h r') = should_keep_alive (r_h a) /\ (h_errno (r_h r') = HPE_OK \/ h_errno (r_h r') = HPE_PAUSED).
Proof.
  intros S HJ L Re E O. destruct la as [d f v b re]; cbn [l_data l_re] in *. subst re. destruct d as [|ch [|? ?]]; try discriminate.
  pose proof (jo_f _ _ HJ) as F. pose proof (jo_v _ _ HJ) as V. pose proof (jo_b _ _ HJ) as B. cbn [l_field l_value l_body] in *. unfold at_done in S. rewrite S in *. cbn in F, V, B.
  destruct f; [discriminate|]. destruct v; [discriminate|]. destruct b; [specialize (B eq_refl); discriminate|]. clear F V B L.
  pose proof (jo_errno _ _ HJ) as Eo.
  assert (K : forall s x h, should_keep_alive (hset_state s (hset_nread x h)) = should_keep_alive h) by reflexivity.
  assert (K2 : forall s e x h, should_keep_alive (hset_errno e (hset_state s (hset_nread x h))) = should_keep_alive h) by reflexivity.
  rewrite J_step in E by (auto; discriminate). pose proof (mstep_inv _ _ HJ ltac:(discriminate)) as I. unfold mstep, jstep in *. cbn [l_data l_re] in *.
  unfold jbyte in *. rewrite S in *. cbn [l_data] in *. hsimp in *. cbn zeta in *.
  destruct (ceq ch LF) eqn:Cq; [|exfalso; destruct O as [O|O]; [injection O as ->; discriminate|]; cbn [after err] in E; injection E as <- <-; rsimp in *; hsimp in *; destruct O; discriminate].
  unfold notify, brk in *. cbn [l_data tl] in *.
  assert (N : forall h l e, h_errno h = HPE_OK -> after a (Call CbComplete h l e) = ORet (on_cb CbComplete (rset_h h a)) e).
  { intros h l e X. cbn [after on_cb]. unfold rlog. rsimp. unfold hpause. rewrite X. reflexivity. }
  assert (Fin : forall h, h_errno h = HPE_OK -> r_field (on_cb CbComplete (rset_h h a)) = r_field a /\ r_value (on_cb CbComplete (rset_h h a)) = r_value a /\ should_keep_alive (r_h (on_cb CbComplete (rset_h h a))) = should_keep_alive h /\ h_errno (r_h (on_cb CbComplete (rset_h h a))) = HPE_PAUSED).
  { intros h X. cbn [on_cb]. unfold rlog. rsimp. unfold hpause. rewrite X. auto. }
  repeat match type of E with context [if ?b then _ else _] => destruct b end; unfold advance in *; cbn [l_data l_field l_value l_body tl length skipn] in *.
  all: first [ rewrite N in E by (hsimp; exact Eo); apply (f_equal (option_map fst)) in E; cbn [option_map fst] in E; match type of E with Some ?u = Some ?v => assert (EE : u = v) by congruence end; rewrite <- EE;
               match goal with |- context [on_cb CbComplete (rset_h ?h _)] => destruct (Fin h) as (F1 & F2 & F3 & F4); [hsimp; exact Eo|rewrite F1, F2, F3, F4; auto] end
             | cbn [after] in E, I; destruct I as [I _]; rewrite J_end in E by (auto; reflexivity); injection E as <- <-; unfold eff; cbn [l_field l_value l_body moved option_map]; rsimp; hsimp; auto 10 ].
Qed.

(** the client's run of the parser stops at on_headers_complete only at the end of such a walk *)
Lemma prun_walk_end f p q l p' l' er : sim p q -> JOk (r_h q) l -> NB l -> (mu (r_h q) l <= f)%nat -> in_head (r_h q) = true -> l_data l = [] ->
  prun f p l = PCall CbHeaders p' l' er -> False.
Proof.
  intros S HJ NBl F H D E. pose proof (prun_sim f p q l S HJ NBl F) as X. rewrite E in X. cbn [SimRes] in X. destruct X as (q' & s & Q & _ & _ & _ & EJ).
  rewrite J_end in EJ by auto. symmetry in EJ. apply jrun_log in EJ as (e & L).
  assert (B : l_body l = None). { destruct (l_body l) eqn:B; [|reflexivity]. pose proof (jo_b _ _ HJ) as X. rewrite B in X. specialize (X eq_refl). unfold in_head in H. destruct (h_state (r_h q)); discriminate. }
  assert (X : r_log (eff q l) = r_log q). { unfold eff. rewrite B. destruct (l_field l), (l_value l); cbn [on_cb]; unfold pushHeader, rlog; rsimp; try reflexivity; destruct (r_lwv q); reflexivity. }
  rewrite X in L. cbn [on_cb] in L. unfold rlog in L. rsimp in *. rewrite (proj1 (proj2 (push_keeps q'))), (qu_log _ _ _ _ _ Q) in L. rewrite <- !app_assoc in L.
  rewrite <- (app_nil_r (r_log q)) in L at 1. apply app_inv_head in L. destruct s; discriminate.
Qed.
Lemma prun_walk : forall f p q l p' l' er, sim p q -> JOk (r_h q) l -> NB l -> (mu (r_h q) l <= f)%nat -> in_head (r_h q) = true ->
  prun f p l = PCall CbHeaders p' l' er ->
  (exists q1, sim p' q1 /\ Walk q l (on_cb CbHeaders q1) l') \/ (exists a la, Walk q l a la /\ h_status (r_h a) = 100).
Proof.
  induction f as [|f IH]; intros p q l p' l' er S HJ NBl F H E; [discriminate|].
  destruct (list_eq_dec ascii_dec (l_data l) []) as [D|D]; [exfalso; eapply prun_walk_end; [exact S|exact HJ|exact NBl|exact F|exact H|exact D|exact E]|].
  pose proof (jstep_inv _ _ HJ D) as G. pose proof (jstep_nb _ _ NBl HJ) as NG. pose proof (jstep_instep _ _ H D) as P.
  cbn [prun] in E. rewrite (si_h _ _ S) in E.
  destruct (jstep (r_h q) l) as [h l1|c h l1 er1|h er1|] eqn:Js; cbn [Good NBres HeadStep] in G, NG, P; try contradiction; try discriminate.
  - destruct G as [J1 M1]. assert (M : mstep q l = OGo (rset_h h q) l1) by (unfold mstep; rewrite Js; reflexivity).
    destruct (IH (rset_h h p) (rset_h h q) l1 p' l' er (sim_h h _ _ S) J1 NG) as [(q1 & S1 & W)|(a & la & W & St)]; auto; [rsimp; lia| |].
    + left. exists q1. split; [exact S1|]. eapply W_step; eauto.
    + right. exists a, la. split; [|exact St]. eapply W_step; eauto.
  - destruct G as [J1 M1]. destruct NG as [N1 N2]. pose proof (sim_h h _ _ S) as S1.
    assert (O : forall c0 r, r_h r = h -> c0 <> CbComplete -> is_ok (h_errno (r_h (on_cb c0 r))) = true).
    { intros c0 r Er N. rewrite on_cb_h, Er by auto. now rewrite (jo_errno _ _ J1). }
    assert (M : c <> CbComplete -> mstep q l = OGo (on_cb c (rset_h h q)) l1).
    { intros N. unfold mstep, after. rewrite Js. cbn zeta. now rewrite O. }
    destruct P as [(P1 & P2)|(-> & P2 & _)].
    + assert (N : c <> CbComplete) by (intros ->; exact P1). specialize (M N).
      assert (E2 : prun f (on_cb c (rset_h h p)) l1 = PCall CbHeaders p' l' er).
      { destruct c; try contradiction; cbn zeta in E; rewrite O in E by (auto; discriminate); exact E. }
      assert (H1 : in_head (r_h (on_cb c (rset_h h q))) = true) by (rewrite on_cb_h by auto; exact P2).
      destruct (IH (on_cb c (rset_h h p)) (on_cb c (rset_h h q)) l1 p' l' er) as [(q1 & S2 & W)|(a & la & W & St)]; auto; try (rewrite on_cb_h by auto; rsimp; auto; lia).
      * now apply sim_cb.
      * left. exists q1. split; [exact S2|]. eapply W_step; eauto.
      * right. exists a, la. split; [|exact St]. eapply W_step; eauto.
    + specialize (M ltac:(discriminate)).
      assert (W : Walk q l (on_cb CbHeaders (rset_h h q)) l1) by (apply W_last; auto; rewrite on_cb_h by discriminate; exact P2).
      cbn zeta in E. rsimp in *. destruct (Z.eqb_spec (h_status h) 100) as [E1|E1].
      * right. do 2 eexists. split; [exact W|]. rewrite on_cb_h by discriminate. exact E1.
      * injection E as <- <- <-. left. exists (rset_h h q). auto.
Qed.
