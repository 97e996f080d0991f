(** What HttpClient makes of a response that comes in pieces. *)
From Verif Require Import Bytes TextSpec ByteHelpers Helpers CIProofs Joyent RespParser RespSpec RespInv RespSplit RespFeed RespBody RespWhole.
From Verif Require Import Client ClientSpec ClientInv ClientSim.
Open Scope Z_scope.

(** ** What is left over is the end of the data *)
Definition suffix (d e : bytes) : Prop := exists p, d = p ++ e.
Lemma suffix_refl d : suffix d d. Proof. now exists []. Qed.
Lemma suffix_tl ch d : suffix (ch :: d) d. Proof. now exists [ch]. Qed.
Lemma suffix_skipn n d : suffix d (skipn n d). Proof. exists (firstn n d). symmetry. apply firstn_skipn. Qed.
Lemma suffix_trans a b c : suffix a b -> suffix b c -> suffix a c.
Proof. intros [p ->] [q ->]. exists (p ++ q). now rewrite app_assoc. Qed.
Lemma suffix_nil d : suffix d []. Proof. exists d. now rewrite app_nil_r. Qed.
#[local] Hint Resolve suffix_nil suffix_refl suffix_tl suffix_skipn : core.

Lemma jstep_suffix r l : l_data l <> [] ->
  match mstep r l with
  | OGo r' l' => suffix (l_data l) (l_data l')
  | ORet r' er => h_errno (r_h r') = HPE_PAUSED -> suffix (l_data l) er
  | OAssert => True
  end.
Proof.
  intros D. destruct l as [d f v b re]; cbn [l_data] in *. destruct d as [|ch d]; [congruence|].
  unfold mstep, jstep. cbn [l_data l_re].
  assert (G : forall h,
    match after r (jbyte ch h (mkL (ch :: d) f v b re)) with
    | OGo r' l' => suffix (ch :: d) (l_data l')
    | ORet r' er => h_errno (r_h r') = HPE_PAUSED -> suffix (ch :: d) er
    | OAssert => True end).
  { intros h. unfold jbyte. cbn [l_data l_field l_value l_body l_re].
    destruct (h_state h) eqn:S;
    repeat match goal with
    | |- context[match TOKEN ?x with _ => _ end] => destruct (TOKEN x)
    | |- context[match field_step ?x ?y ?z with _ => _ end] => destruct (field_step x y z) as [[? ?]|]
    | |- context[match value_first ?x ?y with _ => _ end] => destruct (value_first x y)
    | |- context[match value_step ?x ?y with _ => _ end] => destruct (value_step x y)
    | |- context[if ?x then _ else _] => destruct x eqn:?
    end; unfold data_field, data_value, data_body, notify, err, brk, reexec;
    cbn [l_data l_field l_value l_body l_re mark_value mark_field];
    destruct f, v, b; cbn [mark after advance again no_field no_value no_body l_data];
    rewrite ?on_cb_h by discriminate; rsimp; hsimp; cbn [tl]; auto.
    all: try match goal with |- match (if ?x then _ else _) with _ => _ end => destruct x end; cbn [l_data length tl]; auto. }
  destruct re; [apply G; auto|].
  destruct (parsing_header (h_state (r_h r))); [|apply G; auto].
  match goal with |- context[if ?x then _ else _] => destruct x eqn:? end; [cbn; discriminate|]. apply G; hsimp; auto.
Qed.
Lemma J_suffix : forall n r l r' er, (mu (r_h r) l <= n)%nat -> JOk (r_h r) l -> J r l = Some (r', er) ->
  h_errno (r_h r') = HPE_PAUSED -> suffix (l_data l) er.
Proof.
  induction n as [n IH] using lt_wf_ind; intros r l r' er Hn HJ E P.
  destruct (list_eq_dec ascii_dec (l_data l) []) as [D|D].
  { rewrite J_end in E by auto. injection E as <- <-. rewrite D. apply suffix_refl. }
  rewrite J_step in E by auto. pose proof (mstep_inv _ _ HJ D) as G. pose proof (jstep_suffix r l D) as L.
  destruct (mstep r l) as [r1 l1|r1 e1|]; [| |destruct G].
  - destruct G as [I1 I2]. eapply suffix_trans; [exact L|]. eapply (IH (mu (r_h r1) l1)); eauto; lia.
  - inversion E; subst. auto.
Qed.

(** the parser pauses only when a message is complete *)
Lemma J_paused : forall n r l r' er, (mu (r_h r) l <= n)%nat -> JOk (r_h r) l -> J r l = Some (r', er) ->
  h_errno (r_h r') = HPE_PAUSED -> exists lg, r_log r' = r_log r ++ lg ++ [RComplete].
Proof.
  induction n as [n IH] using lt_wf_ind; intros r l r' er Hn HJ E P.
  destruct (list_eq_dec ascii_dec (l_data l) []) as [D|D].
  { rewrite J_end in E by auto. injection E as <- <-. rewrite eff_h in P. rewrite (jo_errno _ _ HJ) in P. discriminate. }
  rewrite J_step in E by auto. pose proof (jstep_inv _ _ HJ D) as G. unfold mstep, after in E.
  destruct (jstep (r_h r) l) as [h l'|c h l' e|h e|]; cbn [Good] in G; try contradiction.
  - destruct G as [J1 M1]. destruct (IH (mu h l')) with (r := rset_h h r) (l := l') (r' := r') (er := er) as [lg L]; [rsimp; lia|auto|exact J1|exact E|exact P|]. rsimp in *. now exists lg.
  - destruct G as [J1 M1]. destruct (on_cb_logs c (rset_h h r)) as [l1 L1]. rsimp in *. cbn zeta in E.
    destruct (is_ok (h_errno (r_h (on_cb c (rset_h h r))))) eqn:O.
    + assert (N : c <> CbComplete).
      { intros ->. cbn [on_cb] in O. rsimp in *. rewrite hpause_errno in O; [discriminate|left; exact (jo_errno _ _ J1)]. }
      assert (Eh : r_h (on_cb c (rset_h h r)) = h) by (rewrite on_cb_h by exact N; reflexivity).
      destruct (IH (mu h l')) with (r := on_cb c (rset_h h r)) (l := l') (r' := r') (er := er) as [lg L]; rewrite ?Eh; auto; [lia|].
      rewrite L, L1. exists (l1 ++ lg). now rewrite <- !app_assoc.
    + assert (c = CbComplete).
      { destruct c; auto; rewrite on_cb_h in O by discriminate; rsimp in *; rewrite (jo_errno _ _ J1) in O; discriminate. }
      subst c. injection E as <- <-. exists []. reflexivity.
  - injection E as <- <-. rsimp in *. destruct G as [G1 G2]. congruence.
Qed.

(** ** The plain parser in the middle of a response *)
Definition After (q0 : rparser) (D : bytes) (q : rparser) : Prop :=
  (D = [] /\ q = q0) \/ (D <> [] /\ inject q0 D = Some (q, blen D) /\ hasError q = false).

Lemma inject_J q d : UOk q -> h_errno (r_h q) = HPE_OK -> d <> [] ->
  exists r2 er, J (rset_parsing true q) (jstart d (r_h q)) = Some (r2, er) /\
    inject q d = Some (rset_parsing false (runpause r2), blen d - blen er) /\
    (h_errno (r_h r2) = HPE_OK -> er = []) /\ (h_errno (r_h r2) = HPE_PAUSED -> suffix d er).
Proof.
  intros U O D. assert (HJ : JOk (r_h (rset_parsing true q)) (jstart d (r_h q))) by (rsimp; apply jstart_ok; auto; apply (uo_h _ U); auto).
  destruct (J_total _ _ _ (le_n _) HJ) as (r2 & er & E & H1 & H2). exists r2, er. split; [exact E|]. split; [|split].
  - unfold inject. rewrite (uo_p _ U), execute_run by auto. now rewrite E.
  - intros X. apply (H1 X).
  - intros X. exact (J_suffix _ _ _ _ _ (le_n _) HJ E X).
Qed.

Lemma runpause_log r : r_log (runpause r) = r_log r.
Proof. unfold runpause. destruct (h_errno (r_h r)); reflexivity. Qed.

Definition sofar (q0 : rparser) (a b c : Z) (hs : list header) (body : bytes) (r : rparser) : Prop :=
  exists lg lg', r_log r = r_log q0 ++ lg /\ reported a b c hs body = lg ++ lg' /\ ~ In RComplete lg.

Section Response.
  Variables (q0 : rparser) (t : bytes) (a b c : Z) (hs : list header) (body : bytes).
  Hypotheses (R : ready q0) (W : WholeResponse t a b c hs body).

  Lemma after_ok D q y : After q0 D q -> t = D ++ y -> y <> [] -> UOk q /\ h_errno (r_h q) = HPE_OK /\ sofar q0 a b c hs body q.
  Proof.
    intros [[-> ->]|(N & E & He)] Et Ny.
    - split; [apply (rd_u _ R)|]. split; [apply (rd_e _ R)|]. exists [], (reported a b c hs body). rewrite app_nil_r. auto.
    - destruct (inject_total q0 D (rd_u _ R) N) as (r1 & n & E1 & U1 & _). rewrite E in E1. injection E1 as <- <-.
      split; [exact U1|]. split; [now apply UOk_ok|].
      destruct (whole_all q0 t a b c hs body R W) as (r' & C & _ & Hp & _). destruct (Hp D y Et N Ny) as (r1 & E1 & _ & L).
      rewrite E in E1. injection E1 as <-. exact L.
  Qed.

  (** the next piece d of the data: z follows, rest follows the response *)
  Lemma after_next D q y d z rest : After q0 D q -> t = D ++ y -> y <> [] -> d <> [] -> d ++ z = y ++ rest ->
    exists r2 er, J (rset_parsing true q) (jstart d (r_h q)) = Some (r2, er) /\
      ((exists y', y = d ++ y' /\ y' <> [] /\ er = [] /\ h_errno (r_h r2) = HPE_OK /\ After q0 (D ++ d) (rset_parsing false r2) /\
          sofar q0 a b c hs body r2) \/
       (d = y ++ er /\ h_errno (r_h r2) = HPE_PAUSED /\ completed q0 a b c hs body (rset_parsing false (runpause r2)))).
  Proof.
    intros Af Et Ny Nd Ez. destruct (after_ok D q y Af Et Ny) as (U & O & _).
    destruct (inject_J q d U O Nd) as (r2 & er & EJ & EI & HO & HP). exists r2, er. split; [exact EJ|].
    destruct (whole_all q0 t a b c hs body R W) as (r' & C & Hr & Hp & _).
    assert (Dec : (exists y', y = d ++ y' /\ y' <> []) \/ exists d2, d = y ++ d2).
    { apply app_eq_app in Ez as (m & [[E1 E2]|[E1 E2]]).
      - right. now exists m.
      - destruct m as [|x m]; [right; exists []; rewrite app_nil_r in *; auto|]. left. exists (x :: m). split; [exact E1|discriminate]. }
    (* what one call on everything gives *)
    assert (Cut : forall q1 n, inject q0 (D ++ d) = Some (q1, n) -> hasError q1 = false -> blen D < n ->
                  rset_parsing false (runpause r2) = q1 /\ blen d - blen er = n - blen D).
    { intros q1 n E1 He Hn. destruct Af as [[-> ->]|(ND & ED & HD)].
      - cbn [app] in E1. rewrite EI in E1. injection E1 as E1 E2. split; auto. cbn. lia.
      - destruct (cut_inject q0 D d (rd_u _ R) (rd_e _ R) ND Nd) as (r1 & n1 & X1 & [(_ & _ & _ & xa & xb & n2 & X2 & X3 & HR)|X2]).
        + rewrite ED in X1. injection X1 as <- <-. rewrite E1 in X2. injection X2 as <- X2. rewrite EI in X3. injection X3 as <- X3.
          split; [|lia]. symmetry. apply HR. unfold hasError in He. destruct (h_errno (r_h q1)); try discriminate; auto.
        + rewrite ED in X1. injection X1 as <- <-. rewrite E1 in X2. injection X2 as -> ->. lia. }
    destruct Dec as [(y' & Ey & Ny')|(d2 & Ed)].
    - left. exists y'. split; [exact Ey|]. split; [exact Ny'|].
      destruct (Hp (D ++ d) y') as (r1 & E1 & He & lg & lg' & L1 & L2 & L3); auto.
      { rewrite <- app_assoc. now rewrite <- Ey. }
      { intros X. apply app_eq_nil in X as [_ X]. congruence. }
      assert (Ld : 0 < blen d) by (destruct d; [congruence|rewrite blen_cons; pose proof (blen_nonneg d); lia]).
      destruct (Cut r1 _ E1 He) as [X1 X2]; [rewrite blen_app; lia|].
      assert (O2 : h_errno (r_h r2) = HPE_OK).
      { destruct (runpause_h r2) as (Y1 & Y2 & Y3). rewrite <- X1 in He. unfold hasError in He. rsimp in *.
        destruct (h_errno (r_h r2)) eqn:Q; try (rewrite Y2, Q in He by discriminate; discriminate); auto.
        (* paused: something is left, or nothing *)
        exfalso. rewrite blen_app in X2. assert (blen er = 0) by lia.
        assert (er = []) by (destruct er; auto; rewrite blen_cons in *; pose proof (blen_nonneg er); lia). subst er.
        (* a paused parser has completed a message *)
        assert (HJ : JOk (r_h (rset_parsing true q)) (jstart d (r_h q))) by (rsimp; apply jstart_ok; auto; apply (uo_h _ U); auto).
        assert (sofar_log : r_log r2 = r_log q0 ++ lg) by (rewrite <- L1, <- X1; rsimp; now rewrite runpause_log).
        destruct (J_paused _ _ _ _ _ (le_n _) HJ EJ Q) as [l2 L4]. rsimp in *.
        destruct (after_ok D q y Af Et Ny) as (_ & _ & l3 & _ & L5 & _). rewrite L5, <- app_assoc in L4.
        rewrite sofar_log in L4. apply app_inv_head in L4. apply L3. rewrite L4. rewrite !in_app_iff. right. right. now left. }
      assert (E2 : rset_parsing false r2 = r1) by (rewrite <- X1; destruct (runpause_h r2) as (_ & Y2 & _); rewrite Y2 by congruence; reflexivity).
      split; [apply HO, O2|]. split; [exact O2|]. split.
      + right. split; [intros X; apply app_eq_nil in X as [_ X]; congruence|]. rewrite E2. auto.
      + exists lg, lg'. split; auto. rewrite <- L1, <- E2. reflexivity.
    - right. assert (Ly : 0 < blen y) by (destruct y; [congruence|rewrite blen_cons; pose proof (blen_nonneg y); lia]).
      specialize (Hr d2). rewrite Et, <- app_assoc, <- Ed in Hr.
      destruct (Cut r' _ Hr (cp_e _ _ _ _ _ _ _ C)) as [X1 X2]; [rewrite blen_app; lia|].
      rewrite blen_app in X2.
      assert (P2 : h_errno (r_h r2) = HPE_PAUSED).
      { destruct (runpause_h r2) as (Y1 & Y2 & Y3). pose proof (cp_e _ _ _ _ _ _ _ C) as He. rewrite <- X1 in He. unfold hasError in He. rsimp in *.
        destruct (h_errno (r_h r2)) eqn:Q; try (rewrite Y2, Q in He by discriminate; discriminate); auto.
        exfalso. assert (HJ : JOk (r_h (rset_parsing true q)) (jstart d (r_h q))) by (rsimp; apply jstart_ok; auto; apply (uo_h _ U); auto).
        destruct (J_nocomplete _ _ _ _ _ (le_n _) HJ EJ Q) as (l1 & L1 & L2). rsimp in *.
        destruct (after_ok D q y Af Et Ny) as (_ & _ & l3 & l4 & L5 & _ & L6).
        apply (completed_log _ _ _ _ _ _ _ C). exists (l3 ++ l1). split.
        - rewrite <- X1. rsimp. rewrite runpause_log, L1, L5, app_assoc. reflexivity.
        - rewrite in_app_iff. tauto. }
      split; [|split; [exact P2|now rewrite X1]].
      destruct (HP P2) as [p Ep]. rewrite Ep. f_equal. rewrite Ep in Ed. apply app_eq_app in Ed as (m & [[E1 E2]|[E1 E2]]).
      + assert (blen m = 0) by (rewrite Ep, E1, !blen_app in X2; lia).
        destruct m; [now rewrite app_nil_r in E1|rewrite blen_cons in *; pose proof (blen_nonneg m); lia].
      + assert (blen m = 0) by (rewrite E1, !blen_app in X2; rewrite Ep, blen_app in X2; lia).
        destruct m; [now rewrite app_nil_r in E1|rewrite blen_cons in *; pose proof (blen_nonneg m); lia].
  Qed.
End Response.

(** ** The client *)
Lemma unzipped_snoc gunzip : forall xs fed b, unzipped gunzip fed (xs ++ [b]) = unzipped gunzip fed xs ++ [gunzip (fed ++ xs) b].
Proof.
  induction xs as [|x xs IH]; intros fed b; cbn [unzipped app]; [now rewrite app_nil_r|]. rewrite IH, <- app_assoc. reflexivity.
Qed.
Lemma shown_snoc gunzip gz xs b : shown gunzip gz (xs ++ [b]) = shown gunzip gz xs ++ [if gz then gunzip xs b else b].
Proof. unfold shown. destruct gz; [|reflexivity]. rewrite unzipped_snoc. reflexivity. Qed.

Lemma sim_parsing v p q : sim p q -> sim (rset_parsing v p) (rset_parsing v q).
Proof. intros [A B C D E]. constructor; rsimp; auto. Qed.
Lemma sim_parsing_l v p q : sim p q -> sim (rset_parsing v p) q.
Proof. intros [A B C D E]. constructor; rsimp; auto. Qed.
Lemma sim_content x p q : sim p q -> sim (set_content x p) q.
Proof. intros [A B C D E]. constructor; unfold set_content; rsimp; auto. Qed.
Lemma sim_log x p q : sim p q -> sim p (rlog x q).
Proof. intros [A B C D E]. constructor; unfold rlog; rsimp; auto. Qed.

(** the connection after the response to req; keep: the response lets it stay open *)
Definition Ended (req : creq) (keep : bool) (c : client) : Prop :=
  (keep = false \/ c_timeout c = 0 -> c_dev c = (if c_unsent c then DClosing else DUnconnected) /\ c_in c = []) /\
  (keep = true -> c_timeout c <> 0 -> c_dev c = DConnected) /\ (c_timeout c <> 0 -> c_timer c = true /\ c_late c = false) /\ c_req c = req.
Lemma complete_ended c keep : c_dev c = DConnected -> should_keep_alive (r_h (c_p c)) = keep -> Ended (c_req c) keep (complete c).
Proof.
  intros D <-. unfold complete, Ended. clsimp. destruct (Z.eqb_spec (c_timeout c) 0) as [E|E].
  - unfold dev_close, closing. clsimp. rewrite D. split; [auto|]. split; [congruence|]. split; [congruence|reflexivity].
  - destruct (should_keep_alive (r_h (c_p c))); unfold dev_close, closing; clsimp; [|rewrite D]; split; auto; try (intros [X|X]; congruence); split; auto; discriminate.
Qed.

Section Receive.
  Variables (zlib : bool) (gunzip : list bytes -> bytes -> bytes) (parse_url : bytes -> url).
  Variables (req : creq) (L0 : list cobs) (x : bytes).
  Hypothesis NH : head_method (cr_method req) = false.
  (* the final response *)
  Variables (t : bytes) (a b code : Z) (hs : list header) (body : bytes).
  Hypotheses (W : WholeResponse t a b code hs body) (N100 : code <> 100).
  (* the interim response *)
  Variables (i : bytes) (ia ib : Z) (ihs : list header).
  Hypothesis WI : WholeResponse i ia ib 100 ihs [].
  Let gz := zlib && gzipped hs.
  Notation dec xs := (if gz then Some xs else None).

  Record Base (c : client) : Prop := mkBase {
    ba_pending : c_pending c = true; ba_dev : c_dev c = DConnected; ba_error : c_error c = NoError; ba_req : c_req c = req; ba_next : c_next c = None }.

  Definition Saw (k : bool) (lg : list RespParser.rev) (c : client) (d : option (list bytes)) : Prop :=
    exists obs, c_log c = L0 ++ obs /\
      (((lg = [] \/ lg = [RBegin]) /\ filter said obs = [] /\ r_content (c_p c) = [] /\ d = None) \/
       exists xs used, lg = RBegin :: RHeaders a b code hs :: map RByte (concat xs) /\
         filter said obs = CHeaders code hs :: map CContent (shown gunzip gz xs) /\ Forall (fun y => y <> []) xs /\
         concat (shown gunzip gz xs) = used ++ r_content (c_p c) /\ (k = false -> used = []) /\ d = dec xs).

  (* the final response is being read; the bytes c_in c, then F, come next *)
  Definition FinalA (k : bool) (F : bytes) (c : client) : Prop :=
    exists q0 D q y lg, ready q0 /\ After q0 D q /\ t = D ++ y /\ y <> [] /\ sim (c_p c) q /\ c_in c ++ F = y ++ x /\
      r_log q = r_log q0 ++ lg /\ Saw k lg c (c_dec c).
  Definition InterimA (k : bool) (F : bytes) (c : client) : Prop :=
    exists q0 D q y, ready q0 /\ After q0 D q /\ i = D ++ y /\ y <> [] /\ sim (c_p c) q /\ c_in c ++ F = y ++ t ++ x /\
      Saw k [] c (c_dec c).
  (* inside of http_parser_execute *)
  Definition Mid (k : bool) (F : bytes) (l : locals) (c : client) (d : option (list bytes)) : Prop :=
    exists q0 q r2 er lg lgr lgx, ready q0 /\ sim (c_p c) q /\ JOk (r_h q) l /\ NB l /\ J q l = Some (r2, er) /\ r_parsing (c_p c) = true /\
      r_log q = r_log q0 ++ lg /\ Saw k lg c d /\ r_log r2 = r_log q0 ++ lgr /\ reported a b code hs body = lgr ++ lgx /\
      ((exists D y, er = [] /\ h_errno (r_h r2) = HPE_OK /\ After q0 D (rset_parsing false r2) /\ t = D ++ y /\ y <> [] /\ c_in c ++ F = y ++ x) \/
       (er ++ c_in c ++ F = x /\ h_errno (r_h r2) = HPE_PAUSED /\ completed q0 a b code hs body (rset_parsing false (runpause r2)))).

  Inductive Recv (k : bool) (F : bytes) : ccfg -> Prop :=
  | Rc_idle c : Base c -> r_parsing (c_p c) = false -> FinalA k F c \/ InterimA k F c -> Recv k F (CRun c [])
  | Rc_headers c l er ph : Base c -> Mid k F l c (dec []) -> c_dec c = None -> r_headers (c_p c) = hs ->
      Recv k F (CRun c [KcSig SgHeaders; KcHeaders l er ph])
  | Rc_content c l er ph : Base c -> Mid k F l c (c_dec c) -> Recv k F (CRun c [KcSig SgContent; KcParse l er ph])
  | Rc_done c er ph obs xs used : c_pending c = false -> c_log c = L0 ++ obs ->
      filter said obs = CHeaders code hs :: map CContent (shown gunzip gz xs) ++ [CFinished NoError code hs (r_content (c_p c))] ->
      Forall (fun y => y <> []) xs -> concat xs = body -> concat (shown gunzip gz xs) = used ++ r_content (c_p c) -> (k = false -> used = []) ->
      r_field (c_p c) = [] -> r_value (c_p c) = [] -> c_dec c = None -> r_parsing (c_p c) = true -> h_errno (r_h (c_p c)) = HPE_OK -> c_next c = None -> suffix x (c_in c ++ F) \/ c_in c = [] ->
      suffix x F -> Ended req (stays_open a b hs) c ->
      Recv k F (CRun c [KcSig SgFinished; KcComplete er ph]).

  Lemma base_p v c : Base c -> Base (cset_p v c).
  Proof. intros [A B C D]. constructor; clsimp; auto. Qed.

  Lemma finish_cont ph c : c_pending c = true -> h_errno (r_h (c_p c)) = HPE_OK ->
    finish gunzip ph [] (cresume zlib gunzip []) [] c = CRun (cset_p (rset_parsing false (c_p c)) c) [].
  Proof.
    intros P O. assert (E : injected c = cset_p (rset_parsing false (c_p c)) c).
    { unfold injected. destruct (runpause_h (c_p c)) as (_ & Y & _). rewrite Y by congruence. reflexivity. }
    assert (H : hasError (c_p (cset_p (rset_parsing false (c_p c)) c)) = false) by (unfold hasError; clsimp; rsimp; now rewrite O).
    assert (X : check_error (cset_p (rset_parsing false (c_p c)) c) [] (cresume zlib gunzip []) = CRun (cset_p (rset_parsing false (c_p c)) c) []).
    { unfold check_error. rewrite H. unfold read_tail. clsimp. rewrite P. reflexivity. }
    destruct ph; cbn [finish]; unfold after1, after2; rewrite E; cbn zeta; auto.
    clsimp. rewrite P. cbn [negb]. rewrite andb_false_r. exact X.
  Qed.

  (* what quiet callbacks can be *)
  Lemma saw_quiet k lg c d s q0 q q' p' more : Saw k lg c d -> Quiet (c_p c) q p' q' s -> r_log q = r_log q0 ++ lg ->
    reported a b code hs body = lg ++ s ++ more -> Saw k (lg ++ s) (cset_p p' c) d /\ r_log q' = r_log q0 ++ lg ++ s.
  Proof.
    intros (obs & Lo & H) [_ _ QL QE QC] Lq Er. split; [|now rewrite QL, Lq, app_assoc].
    exists obs. clsimp. split; [exact Lo|]. destruct H as [([-> | ->] & Fo & Co & ->)|(xs & used & -> & Fo & Nx & Cx & Ku & ->)].
    - left. unfold reported in Er. destruct s as [|e s]; cbn [app] in *.
      + split; [now left|]. split; [exact Fo|]. split; [|reflexivity]. destruct QC as [->|[[] _]]; exact Co.
      + injection Er as <- Er. destruct s as [|e s]; cbn [app] in *.
        * split; [now right|]. split; [exact Fo|]. split; [|reflexivity]. destruct QC as [->|[_ QC]]; auto.
        * injection Er as <- _. inversion QE as [|? ? _ Q2]; subst. inversion Q2 as [|? ? Q3 _]; subst. cbn in Q3. contradiction.
    - left. unfold reported in Er. destruct s as [|e s]; cbn [app] in *.
      + split; [now right|]. split; [exact Fo|]. split; [|reflexivity]. destruct QC as [->|[[] _]]; exact Co.
      + injection Er as <- _. inversion QE as [|? ? Q3 _]; subst. cbn in Q3. contradiction.
    - right. assert (s = []).
      { unfold reported in Er. cbn [app] in Er. injection Er as Er. destruct s as [|e s]; auto. exfalso.
        assert (I : In e (map RByte body ++ [RComplete])) by (rewrite Er; apply in_app_iff; right; now left).
        inversion QE as [|? ? Q3 _]; subst. apply in_app_iff in I as [I|[I|[]]]; [apply in_map_iff in I as (z & <- & _)|subst e]; contradiction. }
      subst s. rewrite app_nil_r. exists xs, used. destruct QC as [-> | [[] _]]. repeat split; auto.
  Qed.

  Lemma J_log q l r2 er : J q l = Some (r2, er) -> exists e, r_log r2 = r_log q ++ e.
  Proof. apply jrun_log. Qed.
  Lemma status_hpause h : h_status (hpause h) = h_status h.
  Proof. unfold hpause. destruct (h_errno h); reflexivity. Qed.
  Lemma hpause_keep h : should_keep_alive (hpause h) = should_keep_alive h.
  Proof. unfold hpause. destruct (h_errno h); reflexivity. Qed.
  Lemma runpause_keep r : should_keep_alive (r_h (runpause r)) = should_keep_alive (r_h r).
  Proof. unfold runpause. destruct (h_errno (r_h r)); reflexivity. Qed.
  Lemma complete_dec c : c_dec (complete c) = None /\ c_error (complete c) = c_error c /\ (c_in (complete c) = c_in c \/ c_in (complete c) = []).
  Proof.
    unfold complete. clsimp. destruct (c_timeout c =? 0); [unfold dev_close; clsimp; auto|].
    destruct (should_keep_alive (r_h (c_p c))); unfold dev_close; clsimp; auto.
  Qed.

  Lemma parse_final k F l ph c : Base c -> Mid k F l c (c_dec c) ->
    Recv k F (parse gunzip l ph c [] (finish gunzip ph [] (cresume zlib gunzip []))).
  Proof.
    intros B (q0 & q & r2 & er & lg & lgr & lgx & R0 & S & HJ & HN & EJ & Pa & Lq & Sw & Lr & Er & Out).
    pose proof (parse_sim _ _ _ S HJ HN) as X. rewrite EJ in X. unfold parse.
    destruct (prun (pfuel l) (c_p c) l) as [p' er'|cb p' l' er'|]; cbn [SimRes] in X; [| |contradiction].
    - destruct X as (q' & s & E & Q & NP). injection E as -> <-.
      destruct Out as [(D & y & -> & O & Af & Et & Ny & Ein)|(_ & O & _)]; [|congruence].
      assert (Op : h_errno (r_h p') = HPE_OK) by (rewrite (si_h _ _ (qu_sim _ _ _ _ _ Q)); exact O).
      rewrite finish_cont; clsimp; auto; [|apply (ba_pending _ B)].
      assert (El : lgr = lg ++ s) by (apply (app_inv_head (r_log q0)); rewrite <- Lr, (qu_log _ _ _ _ _ Q), Lq, app_assoc; reflexivity).
      destruct (saw_quiet k lg c (c_dec c) s q0 q q' p' lgx Sw Q Lq) as [Sw' Lq']; [rewrite app_assoc, <- El; exact Er|].
      apply Rc_idle; [now apply base_p, base_p|reflexivity|]. left. exists q0, D, (rset_parsing false q'), y, (lg ++ s). clsimp.
      split; [exact R0|]. split; [exact Af|]. split; [exact Et|]. split; [exact Ny|]. split; [apply sim_parsing, (qu_sim _ _ _ _ _ Q)|].
      split; [exact Ein|]. split; [exact Lq'|]. exact Sw'.
    - destruct X as (q' & s & Q & HJ' & HN' & X).
      assert (Next : forall e q1, r_log q1 = r_log q' ++ e -> (exists e2, r_log r2 = r_log q1 ++ e2) ->
         exists e2, lgr = lg ++ s ++ e ++ e2 /\ reported a b code hs body = lg ++ s ++ e ++ e2 ++ lgx).
      { intros e q1 L1 (e2 & L2). exists e2. assert (El : lgr = lg ++ s ++ e ++ e2).
        { apply (app_inv_head (r_log q0)). rewrite <- Lr, L2, L1, (qu_log _ _ _ _ _ Q), Lq, <- !app_assoc. reflexivity. }
        split; [exact El|]. rewrite Er, El, <- !app_assoc. reflexivity. }
      destruct cb as [|y|y| |y|]; try contradiction.
      + (* headersCompleted *)
        destruct X as [Nst EJ'].
        destruct (Next [RHeaders (h_major (r_h (pushHeader q'))) (h_minor (r_h (pushHeader q'))) (h_status (r_h (pushHeader q'))) (r_headers (pushHeader q'))]
          (on_cb CbHeaders q')) as (e2 & El & Er').
        { cbn [on_cb]. unfold rlog. rsimp. unfold pushHeader. destruct (r_lwv q'); reflexivity. }
        { eapply J_log; eauto. }
        destruct (saw_quiet k lg c (c_dec c) s q0 q q' p' _ Sw Q Lq Er') as [(obs & Lo & H) Lq'].
        destruct H as [(Hb & Fo & Co & Dn)|(xs & used & Hb & _)].
        2:{ exfalso. rewrite app_assoc, Hb in Er'. unfold reported in Er'. cbn [app] in Er'. injection Er' as Er'.
            assert (I : In (RHeaders (h_major (r_h (pushHeader q'))) (h_minor (r_h (pushHeader q'))) (h_status (r_h (pushHeader q'))) (r_headers (pushHeader q')))
                          (map RByte body ++ [RComplete])) by (rewrite Er'; apply in_app_iff; right; now left).
            apply in_app_iff in I as [I|[I|[]]]; [apply in_map_iff in I as (z & I & _)|]; discriminate. }
        rewrite app_assoc in Er', El. destruct Hb as [Hb|Hb]; rewrite Hb in Er', El; unfold reported in Er'; cbn [app] in Er', El; [discriminate|].
        injection Er' as Ea Eb Ec Eh Er'.
        pose proof (sim_push _ _ (qu_sim _ _ _ _ _ Q)) as SP.
        assert (PP : r_parsing (pushHeader p') = true) by (transitivity (r_parsing p'); [unfold pushHeader; destruct (r_lwv p'); reflexivity|rewrite (qu_p _ _ _ _ _ Q); exact Pa]).
        assert (CP : r_content (pushHeader p') = r_content p') by (unfold pushHeader; destruct (r_lwv p'); reflexivity).
        cbn zeta. clsimp in *.
        assert (E1 : h_status (r_h (pushHeader p')) = code) by (rewrite (si_h _ _ SP); auto).
        assert (E2 : r_headers (pushHeader p') = hs) by (rewrite (si_hs _ _ SP); auto). rewrite E1, E2.
        apply Rc_headers; clsimp; auto.
        * destruct B as [B1 B2 B3 B4]. constructor; clsimp; auto.
        * exists q0, (on_cb CbHeaders q'), r2, er, [RBegin; RHeaders a b code hs], lgr, lgx. clsimp.
          split; [exact R0|]. split; [cbn [on_cb]; now apply sim_log|]. split; [rewrite on_cb_h by discriminate; exact HJ'|]. split; [exact HN'|].
          split; [auto|]. split; [exact PP|]. split.
          { cbn [on_cb]. unfold rlog. rsimp. assert (LP : r_log (pushHeader q') = r_log q') by (unfold pushHeader; destruct (r_lwv q'); reflexivity).
            rewrite LP, Lq', Hb, <- Ea, <- Eb, <- Ec, <- Eh, <- app_assoc. reflexivity. }
          split; [|split; [exact Lr|split; [exact Er|exact Out]]].
          exists (obs ++ [CHeaders code hs]). clsimp. split; [rewrite Lo, app_assoc; reflexivity|]. right. exists [], [].
          split; [reflexivity|]. split; [rewrite filter_app, Fo; unfold shown; cbn; destruct gz; reflexivity|]. split; [constructor|].
          split; [rewrite CP, Co; unfold shown; destruct gz; reflexivity|]. auto.
      + (* contentReadyRead *)
        destruct X as [Ny EJ'].
        destruct (Next (map RByte y) (on_cb (CbBody y) q')) as (e2 & El & Er'); [reflexivity|eapply J_log; eauto|].
        destruct (saw_quiet k lg c (c_dec c) s q0 q q' p' _ Sw Q Lq Er') as [(obs & Lo & H) Lq'].
        destruct H as [(Hb & _)|(xs & used & Hb & Fo & Nx & Cx & Ku & Dx)].
        { exfalso. destruct y as [|ch y]; [congruence|]. rewrite app_assoc in Er'. unfold reported in Er'.
          destruct Hb as [Hb|Hb]; rewrite Hb in Er'; cbn [app map] in Er'; discriminate. }
        clsimp in *. rewrite Dx.
        assert (K : forall b' (d' : option (list bytes)), b' = (if gz then gunzip xs y else y) -> d' = dec (xs ++ [y]) ->
          Recv k F (CRun (cemit [CContent b'] (cset_dec d' (cset_p (set_content (r_content p' ++ b') p') c))) [KcSig SgContent; KcParse l' er' ph])).
        { intros b' d' Eb' Ed'. apply Rc_content; clsimp.
          - destruct B as [B1 B2 B3 B4]. constructor; clsimp; auto.
          - exists q0, (on_cb (CbBody y) q'), r2, er, (RBegin :: RHeaders a b code hs :: map RByte (concat (xs ++ [y]))), lgr, lgx. clsimp.
            split; [exact R0|]. split; [apply sim_content; cbn [on_cb]; apply sim_log; destruct (qu_sim _ _ _ _ _ Q); constructor; rsimp; auto|].
            split; [rewrite on_cb_h by discriminate; exact HJ'|]. split; [exact HN'|]. split; [auto|].
            split; [unfold set_content; rsimp; rewrite (qu_p _ _ _ _ _ Q); exact Pa|]. split.
            { cbn [on_cb]. unfold rlog. rsimp. rewrite Lq', Hb, concat_app, map_app, <- app_assoc. cbn [concat app]. rewrite app_nil_r. reflexivity. }
            split; [|split; [exact Lr|split; [exact Er|exact Out]]].
            exists (obs ++ [CContent b']). clsimp. split; [rewrite Lo, app_assoc; reflexivity|]. right. exists (xs ++ [y]), used.
            split; [reflexivity|]. split; [rewrite filter_app, Fo, shown_snoc, map_app, <- Eb'; reflexivity|].
            split; [apply Forall_app; split; auto|]. split; [|split; [exact Ku|exact Ed']].
            rewrite shown_snoc, concat_app, Cx, <- Eb'. unfold set_content. rsimp. cbn [concat]. now rewrite app_nil_r, app_assoc. }
        destruct gz eqn:Eg; cbn zeta; apply K; auto.
      + (* finished *)
        assert (X1 : r2 = on_cb CbComplete q') by congruence. assert (X2 : er = er') by congruence. clear X. subst r2 er.
        destruct Out as [(D & y & _ & O & _)|(Ein & O & C)].
        { exfalso. cbn [on_cb] in O. rsimp in *. rewrite hpause_errno in O; [discriminate|]. left. exact (jo_errno _ _ HJ'). }
        destruct (Next [RComplete] (on_cb CbComplete q')) as (e2 & El & Er'); [reflexivity|exists []; now rewrite app_nil_r|].
        destruct (saw_quiet k lg c (c_dec c) s q0 q q' p' _ Sw Q Lq Er') as [(obs & Lo & H) Lq'].
        assert (Pq : forall r, r_headers (runpause r) = r_headers r /\ h_status (r_h (runpause r)) = h_status (r_h r) /\ r_field (runpause r) = r_field r /\ r_value (runpause r) = r_value r)
          by (intros r; unfold runpause; destruct (h_errno (r_h r)); auto).
        destruct (Pq (on_cb CbComplete q')) as (P1 & P2 & P3 & P4).
        pose proof (cp_s _ _ _ _ _ _ _ C) as Cs. pose proof (cp_h _ _ _ _ _ _ _ C) as Ch. unfold statusCode in Cs.
 rsimp in *. rewrite P2 in Cs. rewrite P1 in Ch.
        cbn [on_cb] in Cs, Ch. rsimp in *. rewrite status_hpause in Cs.
        pose proof (qu_sim _ _ _ _ _ Q) as SQ.
        assert (E1 : h_status (r_h p') = code) by (rewrite (si_h _ _ SQ); auto).
        assert (E2 : r_headers p' = hs) by (rewrite (si_hs _ _ SQ); auto).
        cbn zeta. rewrite E1. rewrite (proj2 (Z.eqb_neq _ _) N100).
        destruct (complete_fields (cset_p p' c)) as (F1 & F2 & F3 & F4 & F5 & F6). destruct (complete_dec (cset_p p' c)) as (F7 & F8 & F9).
        pose proof (cp_l _ _ _ _ _ _ _ C) as Cl. rsimp in *. rewrite runpause_log in Cl. cbn [on_cb] in Cl. unfold rlog in Cl. rsimp in *. 
        rewrite Lq', <- app_assoc in Cl. apply app_inv_head in Cl.
        destruct H as [(Hb & _)|(xs & used & Hb & Fo & Nx & Cx & Ku & Dx)].
        { exfalso. unfold reported in Cl. destruct Hb as [Hb|Hb]; rewrite Hb in Cl; cbn [app] in Cl; discriminate. }
        assert (Ebody : concat xs = body).
        { rewrite Hb in Cl. unfold reported in Cl. cbn [app] in Cl. injection Cl as Cl. apply app_inj_tail in Cl as [Cl _].
          clear - Cl. revert body Cl. induction (concat xs) as [|ch m IH]; intros [|ch' m'] E; try discriminate; auto. injection E as -> E. f_equal; auto. }
        pose proof (cp_c' _ _ _ _ _ _ _ C) as RC. pose proof (rd_f _ RC) as Rf. pose proof (rd_v _ RC) as Rv.
        unfold rclear in Rf, Rv. rsimp in *. rewrite P3 in Rf. rewrite P4 in Rv. cbn [on_cb] in Rf, Rv. rsimp in *.
        unfold emit_finished. eapply (Rc_done k F _ er' ph _ xs used); clsimp.
        * exact F2.
        * rewrite F4. clsimp in *. rewrite Lo, <- app_assoc. reflexivity.
        * rewrite filter_app, Fo. cbn [filter said]. rewrite F8. unfold status. rewrite F1. clsimp. rewrite E1, E2, (ba_error _ B). reflexivity.
        * exact Nx.
        * exact Ebody.
        * rewrite F1. exact Cx.
        * exact Ku.
        * rewrite F1. clsimp. rewrite (si_f _ _ SQ). exact Rf.
        * rewrite F1. clsimp. rewrite (si_v _ _ SQ). exact Rv.
        * exact F7.
        * rewrite F1. clsimp. rewrite (qu_p _ _ _ _ _ Q). exact Pa.
        * rewrite F1. clsimp. rewrite (si_h _ _ SQ). exact (jo_errno _ _ HJ').
        * rewrite F6. clsimp. apply (ba_next _ B).
        * destruct F9 as [F9|F9]; [left; rewrite F9; exists er'; symmetry; exact Ein|right; exact F9].
        * exists (er' ++ c_in c). rewrite <- app_assoc. symmetry. exact Ein.
        * pose proof (cp_k _ _ _ _ _ _ _ C) as SO. rsimp in *. rewrite runpause_keep in SO. cbn [on_cb] in SO. rsimp in *. rewrite hpause_keep in SO.
          rewrite <- (ba_req _ B) at 1. change (c_req c) with (c_req (cset_p p' c)). apply complete_ended; clsimp; [exact (ba_dev _ B)|]. now rewrite (si_h _ _ SQ).
  Qed.

  Lemma start_mid k F c q0 D q y d z lg : Base c -> ready q0 -> After q0 D q -> t = D ++ y -> y <> [] -> sim (c_p c) q -> d <> [] ->
    d ++ z = y ++ x -> c_in c ++ F = z -> r_log q = r_log q0 ++ lg -> Saw k lg c (c_dec c) -> r_parsing (c_p c) = true ->
    Mid k F (jstart d (r_h (c_p c))) c (c_dec c).
  Proof.
    intros B R0 Af Et Ny S Nd Ez Ein Lq Sw Pa. destruct (after_ok q0 t a b code hs body R0 W D q y Af Et Ny) as (U & O & _).
    destruct (after_next q0 t a b code hs body R0 W D q y d z x Af Et Ny Nd Ez) as (r2 & er & EJ & Out).
    rewrite (si_h _ _ S).
    assert (HJ : JOk (r_h (rset_parsing true q)) (jstart d (r_h q))) by (rsimp; apply jstart_ok; auto; apply (uo_h _ U); auto).
    assert (Lr : exists lgr lgx, r_log r2 = r_log q0 ++ lgr /\ reported a b code hs body = lgr ++ lgx).
    { destruct Out as [(y' & _ & _ & _ & _ & _ & l1 & l2 & L1 & L2 & _)|(_ & _ & C)]; [eauto|].
      pose proof (cp_l _ _ _ _ _ _ _ C) as L. rsimp in *. rewrite runpause_log in L. exists (reported a b code hs body), []. now rewrite app_nil_r. }
    destruct Lr as (lgr & lgx & Lr & Er).
    exists q0, (rset_parsing true q), r2, er, lg, lgr, lgx. split; [exact R0|]. split; [destruct S; constructor; rsimp; auto|]. split; [exact HJ|].
    split; [apply nb_none; reflexivity|]. split; [exact EJ|]. split; [exact Pa|]. split; [exact Lq|]. split; [exact Sw|]. split; [exact Lr|]. split; [exact Er|].
    destruct Out as [(y' & Ey & Ny' & -> & O2 & Af2 & _)|(Ed & P2 & C)].
    - left. exists (D ++ d), y'. split; [reflexivity|]. split; [exact O2|]. split; [exact Af2|]. split; [rewrite <- app_assoc, <- Ey; exact Et|].
      split; [exact Ny'|]. rewrite Ein. rewrite Ey, <- app_assoc in Ez. now apply app_inv_head in Ez.
    - right. split; [|split; [exact P2|exact C]]. rewrite Ein. rewrite Ed, <- app_assoc in Ez. now apply app_inv_head in Ez.
  Qed.

  Lemma saw_p k lg p c d : Saw k lg c d -> r_content p = r_content (c_p c) -> Saw k lg (cset_p p c) d.
  Proof. intros (obs & Lo & H) E. exists obs. clsimp. split; [exact Lo|]. now rewrite E. Qed.

  Lemma parse_interim k F l c q0 q r2 er lg lgr lgx : Base c -> ready q0 -> sim (c_p c) q -> JOk (r_h q) l -> NB l ->
    J q l = Some (r2, er) -> r_parsing (c_p c) = true -> r_log q = r_log q0 ++ lg -> r_log r2 = r_log q0 ++ lgr ->
    reported ia ib 100 ihs [] = lgr ++ lgx -> Saw k [] c (c_dec c) ->
    ((exists D y, er = [] /\ h_errno (r_h r2) = HPE_OK /\ After q0 D (rset_parsing false r2) /\ i = D ++ y /\ y <> [] /\ c_in c ++ F = y ++ t ++ x) \/
     (er ++ c_in c ++ F = t ++ x /\ h_errno (r_h r2) = HPE_PAUSED /\ completed q0 ia ib 100 ihs [] (rset_parsing false (runpause r2)))) ->
    Recv k F (parse gunzip l First c [] (finish gunzip First [] (cresume zlib gunzip []))).
  Proof.
    intros B R0 S HJ HN EJ Pa Lq Lr Er Sw Out.
    assert (SW : exists obs, c_log c = L0 ++ obs /\ filter said obs = [] /\ r_content (c_p c) = [] /\ c_dec c = None).
    { destruct Sw as (obs & Lo & [(_ & F1 & F2 & F3)|(xs & used & E & _)]); [|discriminate]. exists obs. auto. }
    destruct SW as (obs & Lo & Fo & Co & Dn).
    pose proof (parse_sim _ _ _ S HJ HN) as X. rewrite EJ in X. unfold parse.
    destruct (prun (pfuel l) (c_p c) l) as [p' er'|cb p' l' er'|]; cbn [SimRes] in X; [| |contradiction].
    - destruct X as (q' & s & E & Q & NP). injection E as -> <-.
      destruct Out as [(D & y & -> & O & Af & Et & Ny & Ein)|(_ & O & _)]; [|congruence].
      assert (Op : h_errno (r_h p') = HPE_OK) by (rewrite (si_h _ _ (qu_sim _ _ _ _ _ Q)); exact O).
      rewrite finish_cont; clsimp; auto; [|apply (ba_pending _ B)].
      assert (Cp : r_content p' = []) by (destruct (qu_c _ _ _ _ _ Q) as [->|[_ ->]]; auto).
      apply Rc_idle; [now apply base_p, base_p|reflexivity|]. right. exists q0, D, (rset_parsing false q'), y. clsimp.
      split; [exact R0|]. split; [exact Af|]. split; [exact Et|]. split; [exact Ny|]. split; [apply sim_parsing, (qu_sim _ _ _ _ _ Q)|].
      split; [exact Ein|]. exists obs. clsimp. rsimp. split; [exact Lo|]. left. rewrite Cp, Dn. auto.
    - destruct X as (q' & s & Q & HJ' & HN' & X).
      assert (Next : forall e q1, r_log q1 = r_log q' ++ e -> (exists e2, r_log r2 = r_log q1 ++ e2) ->
         forall z, In z e -> In z (reported ia ib 100 ihs [])).
      { intros e q1 L1 (e2 & L2) z I. assert (El : lgr = lg ++ s ++ e ++ e2).
        { apply (app_inv_head (r_log q0)). rewrite <- Lr, L2, L1, (qu_log _ _ _ _ _ Q), Lq, <- !app_assoc. reflexivity. }
        rewrite Er, El. rewrite !in_app_iff. tauto. }
      destruct cb as [|y|y| |y|]; try contradiction.
      + exfalso. destruct X as [Nst EJ'].
        assert (I : In (RHeaders (h_major (r_h (pushHeader q'))) (h_minor (r_h (pushHeader q'))) (h_status (r_h (pushHeader q'))) (r_headers (pushHeader q'))) (reported ia ib 100 ihs [])).
        { match goal with |- In ?e _ => apply (Next [e] (on_cb CbHeaders q')) end; [|eapply J_log; eauto|now left].
          cbn [on_cb]. unfold rlog. rsimp. unfold pushHeader. destruct (r_lwv q'); reflexivity. }
        assert (Eq : h_status (r_h (pushHeader q')) = h_status (r_h q')) by (unfold pushHeader; destruct (r_lwv q'); reflexivity).
        rewrite Eq in I. cbn in I. destruct I as [I|[I|[I|[]]]]; try discriminate. injection I as _ _ I _. congruence.
      + exfalso. destruct X as [Ny EJ']. destruct y as [|ch y]; [congruence|].
        assert (I : In (RByte ch) (reported ia ib 100 ihs [])).
        { apply (Next (map RByte (ch :: y)) (on_cb (CbBody (ch :: y)) q')); [reflexivity|eapply J_log; eauto|now left]. }
        cbn in I. destruct I as [I|[I|[I|[]]]]; discriminate.
      + assert (X1 : r2 = on_cb CbComplete q') by congruence. assert (X2 : er = er') by congruence. clear X. subst r2 er.
        destruct Out as [(D & y & _ & O & _)|(Ein & O & C)].
        { exfalso. cbn [on_cb] in O. rsimp in *. rewrite hpause_errno in O; [discriminate|]. left. exact (jo_errno _ _ HJ'). }
        assert (Pq : forall r, r_headers (runpause r) = r_headers r /\ h_status (r_h (runpause r)) = h_status (r_h r) /\ r_field (runpause r) = r_field r /\ r_value (runpause r) = r_value r /\ r_lwv (runpause r) = r_lwv r)
          by (intros r; unfold runpause; destruct (h_errno (r_h r)); auto).
        destruct (Pq (on_cb CbComplete q')) as (P1 & P2 & P3 & P4 & P5).
        pose proof (cp_s _ _ _ _ _ _ _ C) as Cs. unfold statusCode in Cs. rsimp in *. rewrite P2 in Cs. cbn [on_cb] in Cs. rsimp in *. rewrite status_hpause in Cs.
        pose proof (qu_sim _ _ _ _ _ Q) as SQ.
        assert (E1 : h_status (r_h p') = 100) by (rewrite (si_h _ _ SQ); auto).
        cbn zeta. rewrite E1. cbn [Z.eqb Pos.eqb].
        pose proof (cp_c' _ _ _ _ _ _ _ C) as RC. set (q1 := rclear _) in RC.
        set (p1 := mkRP hinit (r_field p') (r_value p') (r_lwv p') false [] [] (r_log p')).
        assert (Pp : r_parsing p' = true) by (rewrite (qu_p _ _ _ _ _ Q); exact Pa).
        set (c1 := cset_p p1 (cset_dec None (cset_p p' c))).
        assert (EI : injected (cset_p (rset_h (hpause (r_h (rclear p'))) (rclear p')) (cset_dec None (cset_p p' c))) = c1).
        { unfold injected, rclear. clsimp. rsimp. rewrite Pp. rsimp. reflexivity. }
        assert (B1 : Base c1) by (destruct B as [X1 X2 X3 X4]; subst c1; constructor; clsimp; auto).
        assert (S1 : sim p1 q1).
        { subst p1 q1. unfold rclear. rsimp. destruct SQ as [Y1 Y2 Y3 Y4 Y5]. constructor; rsimp; rewrite ?P3, ?P4, ?P5; auto. }
        assert (Sw1 : Saw k [] c1 None).
        { exists obs. subst c1. clsimp. split; [exact Lo|]. left. auto. }
        cbn [finish]. unfold after1. rewrite EI. cbn zeta. rewrite (ba_pending _ B1). cbn [negb].
        assert (NE : hasError (c_p c1) = false) by reflexivity. rewrite NE. cbn [negb andb].
        destruct er' as [|ch er'].
        * change (beqb [] []) with true. cbn [negb]. unfold check_error. rewrite NE. unfold read_tail. rewrite (ba_pending _ B1). cbn [cresume].
          apply Rc_idle; [exact B1|reflexivity|]. left. exists q1, [], q1, t, []. split; [exact RC|]. split; [now left|]. split; [reflexivity|].
          split; [eapply whole_nonempty; eauto|]. split; [exact S1|]. split; [exact Ein|]. split; [now rewrite app_nil_r|]. exact Sw1.
        * change (beqb (ch :: er') []) with false. cbn [negb]. unfold inject2. clsimp. rsimp.
          change (is_ok (h_errno (r_h (c_p c1)))) with true.
          set (c2 := cset_p (rset_parsing true (c_p c1)) c1). change (r_h (c_p c1)) with (r_h (c_p c2)).
          apply (parse_final k F _ Second). { destruct B1; constructor; subst c2; clsimp; auto. }
          apply (start_mid k F c2 q1 [] q1 t (ch :: er') (c_in c ++ F) []); subst c2; clsimp; auto.
          { destruct B1; constructor; clsimp; auto. }
          { now left. }
          { eapply whole_nonempty; eauto. }
          { now apply sim_parsing_l. }
          { discriminate. }
          { now rewrite app_nil_r. }
  Qed.

  (** ** Steps *)
  Record touch (k : bool) (F : bytes) (c : client) (k' : bool) (F' : bytes) (c' : client) : Prop := mkTouch {
    to_p : c_p c' = c_p c \/ (k' = true /\ c_p c' = set_content [] (c_p c));
    to_b : Base c';
    to_in : c_in c' ++ F' = c_in c ++ F;
    to_dec : c_dec c' = c_dec c;
    to_log : exists o, c_log c' = c_log c ++ o /\ filter said o = [];
    to_k : k = true -> k' = true }.
  Lemma touch_fields k F c k' F' c' : touch k F c k' F' c' -> r_parsing (c_p c') = r_parsing (c_p c) /\ r_headers (c_p c') = r_headers (c_p c) /\
    (forall q, sim (c_p c) q -> sim (c_p c') q) /\ (forall lg d, Saw k lg c d -> Saw k' lg c' d).
  Proof.
    intros [Tp Tb Ti Td (o & To & Fo) Tk]. split; [|split; [|split]].
    - destruct Tp as [->|[_ ->]]; reflexivity.
    - destruct Tp as [->|[_ ->]]; reflexivity.
    - intros q S. destruct Tp as [->|[_ ->]]; [exact S|now apply sim_content].
    - intros lg d (obs & Lo & H). exists (obs ++ o). split; [rewrite To, Lo, app_assoc; reflexivity|]. rewrite filter_app, Fo, app_nil_r.
      destruct H as [(Hl & Fb & Co & Dn)|(xs & used & Hl & Fb & Nx & Cx & Ku & Dx)].
      + left. split; [exact Hl|]. split; [exact Fb|]. split; [|exact Dn]. destruct Tp as [->|[_ ->]]; [exact Co|reflexivity].
      + right. destruct Tp as [->|[Ek ->]].
        * exists xs, used. do 4 (split; [assumption|]). split; [|exact Dx]. intros E. apply Ku. destruct k; auto. specialize (Tk eq_refl). congruence.
        * exists xs, (concat (shown gunzip gz xs)). do 3 (split; [assumption|]). unfold set_content. rsimp.
          split; [now rewrite app_nil_r|]. split; [congruence|exact Dx].
  Qed.
  Lemma touch_ok k F c k' F' c' stk : touch k F c k' F' c' -> c_pending c = true -> Recv k F (CRun c stk) -> Recv k' F' (CRun c' stk).
  Proof.
    intros T P V. destruct (touch_fields _ _ _ _ _ _ T) as (T1 & T2 & T3 & T4).
    assert (MidOk : forall l d, Mid k F l c d -> Mid k' F' l c' d).
    { intros l d (q0 & q & r2 & er & lg & lgr & lgx & R0 & S & HJ & HN & EJ & Pa & Lq & Sw & Lr & Er & Out).
      exists q0, q, r2, er, lg, lgr, lgx. split; [exact R0|]. split; [now apply T3|]. do 3 (split; [assumption|]). split; [congruence|].
      split; [exact Lq|]. split; [now apply T4|]. split; [exact Lr|]. split; [exact Er|]. rewrite (to_in _ _ _ _ _ _ T). exact Out. }
    inversion V as [c0 B Pa H|c0 l er ph B M Dn Hh|c0 l er ph B M|c0 er ph obs xs used Pn]; subst.
    - apply Rc_idle; [apply (to_b _ _ _ _ _ _ T)|congruence|]. destruct H as [H|H]; [left|right].
      + destruct H as (q0 & D & q & y & lg & H1 & H2 & H3 & H4 & H5 & H6 & H7 & H8). exists q0, D, q, y, lg. do 4 (split; [assumption|]).
        split; [now apply T3|]. split; [now rewrite (to_in _ _ _ _ _ _ T)|]. split; [exact H7|]. rewrite (to_dec _ _ _ _ _ _ T). now apply T4.
      + destruct H as (q0 & D & q & y & H1 & H2 & H3 & H4 & H5 & H6 & H8). exists q0, D, q, y. do 4 (split; [assumption|]).
        split; [now apply T3|]. split; [now rewrite (to_in _ _ _ _ _ _ T)|]. rewrite (to_dec _ _ _ _ _ _ T). now apply T4.
    - apply Rc_headers; [apply (to_b _ _ _ _ _ _ T)|now apply MidOk| |congruence]. now rewrite (to_dec _ _ _ _ _ _ T).
    - apply Rc_content; [apply (to_b _ _ _ _ _ _ T)|]. rewrite (to_dec _ _ _ _ _ _ T). now apply MidOk.
    - congruence.
  Qed.

  Lemma recv_base k F c stk : Recv k F (CRun c stk) -> c_pending c = true -> Base c.
  Proof. intros V P. inversion V; subst; auto. congruence. Qed.
  Lemma recv_cont k F c stk : Recv k F (CRun c stk) -> Cont stk (cresume zlib gunzip stk).
  Proof. intros V c'. inversion V; subst; reflexivity. Qed.

  Lemma readyRead_recv k F c : Recv k F (CRun c []) -> c_pending c = true ->
    Recv k F (device_readyRead gunzip c [] (cresume zlib gunzip [])).
  Proof.
    intros V P. inversion V as [c0 B Pa H| | |]; subst. unfold device_readyRead. rewrite P. cbn [negb].
    destruct (c_in c) as [|w ws] eqn:Ci; [exact V|]. set (inp := w :: ws) in *.
    set (room := if 0 <? c_rbuf c then _ else _). destruct (Z.leb_spec room 0) as [Hr|Hr]; [exact V|]. rewrite Pa.
    set (n := Z.to_nat (Z.min room (blen inp))).
    set (c1 := cset_p (rset_parsing true (c_p c)) (cset_dev (c_dev c) (c_unsent c) (skipn n inp) c)).
    assert (Nd : firstn n inp <> []).
    { apply firstn_pos; [|subst inp; discriminate]. subst n. assert (0 < blen inp) by (subst inp; rewrite blen_cons; pose proof (blen_nonneg ws); lia). lia. }
    assert (Ed : firstn n inp ++ skipn n inp = inp) by apply firstn_skipn.
    assert (B1 : Base c1) by (destruct B; subst c1; constructor; clsimp; auto).
    assert (SwK : forall lg d, Saw k lg c d -> Saw k lg c1 d).
    { intros lg d (obs & Lo & Hs). exists obs. subst c1. clsimp. rsimp. auto. }
    destruct H as [(q0 & D & q & y & lg & H1 & H2 & H3 & H4 & H5 & H6 & H7 & H8)|(q0 & D & q & y & H1 & H2 & H3 & H4 & H5 & H6 & H8)].
    - destruct (after_ok q0 t a b code hs body H1 W D q y H2 H3 H4) as (U & O & _).
      assert (O1 : is_ok (h_errno (r_h (c_p c1))) = true) by (subst c1; clsimp; rsimp; rewrite (si_h _ _ H5), O; reflexivity). rewrite O1.
      apply (parse_final k F _ First); [exact B1|].
      apply (start_mid k F c1 q0 D q y (firstn n inp) (skipn n inp ++ F) lg); auto.
      + subst c1. clsimp. now apply sim_parsing_l.
      + rewrite app_assoc, Ed. rewrite <- Ci. exact H6.
    - destruct (after_ok q0 i ia ib 100 ihs [] H1 WI D q y H2 H3 H4) as (U & O & lg & lg2 & Lq & _).
      assert (O1 : is_ok (h_errno (r_h (c_p c1))) = true) by (subst c1; clsimp; rsimp; rewrite (si_h _ _ H5), O; reflexivity). rewrite O1.
      assert (Ez : firstn n inp ++ (skipn n inp ++ F) = y ++ t ++ x) by (rewrite app_assoc, Ed, <- Ci; exact H6).
      destruct (after_next q0 i ia ib 100 ihs [] H1 WI D q y (firstn n inp) (skipn n inp ++ F) (t ++ x) H2 H3 H4 Nd Ez) as (r2 & er & EJ & Out).
      assert (HJ : JOk (r_h (rset_parsing true q)) (jstart (firstn n inp) (r_h q))) by (rsimp; apply jstart_ok; auto; apply (uo_h _ U); auto).
      assert (Lr : exists lgr lgx, r_log r2 = r_log q0 ++ lgr /\ reported ia ib 100 ihs [] = lgr ++ lgx).
      { destruct Out as [(y' & _ & _ & _ & _ & _ & l1 & l2 & L1 & L2 & _)|(_ & _ & C)]; [eauto|].
        pose proof (cp_l _ _ _ _ _ _ _ C) as L. rsimp in *. rewrite runpause_log in L. exists (reported ia ib 100 ihs []), []. now rewrite app_nil_r. }
      destruct Lr as (lgr & lgx & Lr & Er).
      assert (Eh : r_h (c_p c1) = r_h q) by (subst c1; clsimp; rsimp; apply (si_h _ _ H5)). rewrite Eh.
      apply (parse_interim k F _ c1 q0 (rset_parsing true q) r2 er lg lgr lgx); auto.
      + subst c1. clsimp. now apply sim_parsing.
      + apply nb_none; reflexivity.
      + destruct Out as [(y' & Ey & Ny' & -> & O2 & Af2 & _)|(Ey & P2 & C)].
        * left. exists (D ++ firstn n inp), y'. split; [reflexivity|]. split; [exact O2|]. split; [exact Af2|]. split; [rewrite <- app_assoc, <- Ey; exact H3|].
          split; [exact Ny'|]. subst c1. clsimp. rewrite Ey in Ez at 1. rewrite <- app_assoc in Ez. now apply app_inv_head in Ez.
        * right. split; [|split; [exact P2|exact C]]. subst c1. clsimp. rewrite Ey, <- app_assoc in Ez. now apply app_inv_head in Ez.
  Qed.

  Lemma gz_model l : existsb (fun h => asciiEqualsCI_lower (fst h) (lit "content-encoding") && asciiEqualsCI_lower (snd h) (lit "gzip")) l = gzipped l.
  Proof.
    assert (G : forall v w, lower w = w -> asciiEqualsCI_lower v w = beqb (lower v) w).
    { intros v w Hw. apply eq_iff_eq_true. rewrite asciiEqualsCI_lower_iff by exact Hw. symmetry. apply beqb_true. }
    unfold gzipped. induction l as [|h l IH]; cbn [existsb]; [reflexivity|]. rewrite IH, !G by reflexivity. reflexivity.
  Qed.

  Lemma return_recv k F c stk : Recv k F (CRun c stk) -> c_pending c = true -> Recv k F (cstep zlib gunzip parse_url (CRun c stk) CaReturn).
  Proof.
    intros V P. cbn [cstep]. inversion V as [c0 B Pa H|c0 l er ph B M Dn Hh|c0 l er ph B M|c0 er ph obs xs used Pn]; subst.
    - exact V.
    - cbn [cresume]. unfold headers_tail. rewrite head_lower, (ba_req _ B), NH. rewrite Hh, gz_model. fold gz.
      destruct M as (q0 & q & r2 & er0 & lg & lgr & lgx & R0 & S & HJ & M).
      assert (O : is_ok (h_errno (r_h (c_p c))) = true) by (rewrite (si_h _ _ S), (jo_errno _ _ HJ); reflexivity).
      destruct gz eqn:Eg.
      + clsimp. rewrite O. apply parse_final; [destruct B; constructor; clsimp; auto|]. clsimp.
        exists q0, q, r2, er0, lg, lgr, lgx. auto.
      + rewrite O. apply parse_final; [exact B|]. rewrite Dn. exists q0, q, r2, er0, lg, lgr, lgx. auto.
    - cbn [cresume]. assert (O : is_ok (h_errno (r_h (c_p c))) = true).
      { destruct M as (q0 & q & r2 & er0 & lg & lgr & lgx & R0 & S & HJ & M). rewrite (si_h _ _ S), (jo_errno _ _ HJ). reflexivity. }
      rewrite O. now apply parse_final.
    - congruence.
  Qed.

  Definition eats (a : caction) : bool := match a with CaCall CoConsume => true | _ => false end.
  Lemma step_recv k F g act bytes : Recv k (bytes ++ F) g -> receiving act g -> bytes = (match act with CaArrive y => y | _ => [] end) ->
    Recv (k || eats act) F (cstep zlib gunzip parse_url g act).
  Proof.
    intros V Q Eb. destruct g as [c stk|]; [|contradiction]. cbn [receiving] in Q. destruct Q as [P Q].
    pose proof (recv_base _ _ _ _ V P) as B. pose proof (recv_cont _ _ _ _ V) as G.
    assert (Tr : forall c', touch k (bytes ++ F) c (k || eats act) F c' -> Recv (k || eats act) F (CRun c' stk)) by (intros c' T; eapply touch_ok; eauto).
    assert (KT : k = true -> k || eats act = true) by (intros ->; reflexivity).
    assert (Same : bytes = [] -> touch k (bytes ++ F) c (k || eats act) F c).
    { intros ->. constructor; auto. exists []. now rewrite app_nil_r. }
    destruct act as [o| | |y| |rem gone| |late|p]; subst bytes; cbn [app] in *.
    - cbn [cstep]. destruct B as [B1 B2 B3 B4]. 
      assert (TI : forall r, touch k F c (k || false) F (cemit [CIgnored r] c)).
      { intros r. constructor; clsimp; auto; [constructor; clsimp; auto| |rewrite orb_false_r; auto]. exists [CIgnored r]. auto. }
      destruct o as [r| | | |n|n]; cbn [do_cop eats] in *; try contradiction.
      + unfold request. rewrite P, G. apply Tr, TI.
      + rewrite G. apply Tr. constructor; clsimp; auto; [right; split; auto; apply orb_true_r|constructor; clsimp; auto|exists []; now rewrite app_nil_r].
      + unfold followRedirection. destruct (redirected c); [|rewrite G; auto]. unfold request. rewrite P, G. apply Tr, TI.
      + rewrite G. apply Tr. constructor; clsimp; auto; [constructor; clsimp; auto|exists []; now rewrite app_nil_r].
      + rewrite G. apply Tr. constructor; clsimp; auto; [constructor; clsimp; auto|exists []; now rewrite app_nil_r].
    - cbn [eats]. rewrite orb_false_r. now apply return_recv.
    - subst stk. cbn [cstep eats]. rewrite orb_false_r. now apply readyRead_recv.
    - cbn [cstep]. unfold connected. destruct B as [B1 B2 B3 B4]. rewrite B2. apply Tr.
      constructor; clsimp; auto; [constructor; clsimp; auto|now rewrite <- app_assoc|exists []; now rewrite app_nil_r].
    - cbn [cstep]. rewrite (ba_dev _ B). auto.
    - contradiction.
    - cbn [cstep]. destruct B as [B1 B2 B3 B4]. apply Tr. rewrite B2.
      constructor; clsimp; auto; [constructor; clsimp; auto|exists []; now rewrite app_nil_r].
    - cbn [cstep]. destruct B as [B1 B2 B3 B4]. apply Tr. constructor; clsimp; auto; [constructor; clsimp; auto|exists []; now rewrite app_nil_r].
    - cbn [cstep]. destruct B as [B1 B2 B3 B4]. apply Tr. constructor; clsimp; auto; [constructor; clsimp; auto|exists []; now rewrite app_nil_r].
  Qed.

  Lemma run_recv : forall l k F g, Recv k (arrived l ++ F) g -> receiving_run (cstep zlib gunzip parse_url) g l ->
    Recv (k || consumes l) F (crun zlib gunzip parse_url g l).
  Proof.
    induction l as [|act l IH]; intros k F g V Q; [cbn; rewrite orb_false_r; exact V|]. destruct Q as [Q1 Q2].
    unfold arrived in V. cbn [map concat] in V. rewrite <- app_assoc in V.
    pose proof (step_recv k _ g act _ V Q1 eq_refl) as V1. specialize (IH _ _ _ V1 Q2).
    unfold consumes. cbn [existsb]. rewrite orb_assoc. exact IH.
  Qed.
End Receive.
