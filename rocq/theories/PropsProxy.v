(** C55, C56, C61: the proxy (Proxy.v) on the model of the connection (Conn.v).  Specification of responses: ConnSpec.v. *)
From Verif Require Import Bytes ByteHelpers Thin Helpers ReqGrammar TextSpec ThinProofs ThinFields ThinTop CIProofs HelpersProofs
  Conn ConnSpec ConnView ConnText ConnHead ConnInv ConnStep ConnEnd ConnLog PropsParser PropsConn ConnSend ConnFree PropsConn2 PropsConn3 PropsConn4 Proxy ProxyInv.
Open Scope Z_scope.

(** ** Specification: what the upstream reply says, from its events alone *)
(** status and headers at the first readyRead() or successful finished() *)
Fixpoint first_head (h : Z * list header) (l : list pevent) : option (Z * list header) :=
  match l with
  | [] => None
  | PxMeta code hs :: t => first_head (code, hs) t
  | PxRead :: _ | PxFinished false :: _ => Some h
  | _ :: t => first_head h t
  end.
Definition head_of (l : list pevent) : option (Z * list header) := first_head (0, []) l.
(** the data available at each readyRead() *)
Fixpoint reads (buf : bytes) (l : list pevent) : list bytes :=
  match l with
  | [] => []
  | PxData b :: t => reads (buf ++ b) t
  | PxRead :: t => buf :: reads [] t
  | _ :: t => reads buf t
  end.
(** the pieces of it that can be forwarded: not empty, and not beyond the announced length ([fits], ProxyInv.v) *)
Fixpoint kept (f : framing) (sum : Z) (bs : list bytes) : list bytes :=
  match bs with
  | [] => []
  | b :: t => if fits f sum b then b :: kept f (sum + blen b) t else kept f sum t
  end.
Definition is_read (e : pevent) : bool := match e with PxRead => true | _ => false end.
Definition is_finished (e : pevent) : bool := match e with PxFinished _ => true | _ => false end.
Definition is_success (e : pevent) : bool := match e with PxFinished false => true | _ => false end.

(** the beginning of the answer to r: the upstream head, then the upstream content as far as it goes *)
Definition Begun (r : request) (l : list pevent) (len : Z) (evs : list obs) : Prop :=
  exists code hs, head_of l = Some (code, hs) /\ let a := mkAns code hs (-1) in
    Answering r a len (kept (framing_of r a len) 0 (reads [] l)) evs.
Definition complete_of (r : request) (l : list pevent) (len : Z) : Prop :=
  exists code hs, head_of l = Some (code, hs) /\ let f := framing_of r (mkAns code hs (-1)) len in all_sent f (total (kept f 0 (reads [] l))).
(** more content is expected, or its end cannot be told from its length *)
Definition Unfinished (r : request) (l : list pevent) (len : Z) : Prop :=
  exists code hs, head_of l = Some (code, hs) /\ let f := framing_of r (mkAns code hs (-1)) len in f <> NoContent /\ total (kept f 0 (reads [] l)) <> len.
(** what the rest of the program did to the connection *)
Fixpoint others (l : list pevent) : list action :=
  match l with [] => [] | PxOther a :: t => a :: others t | _ :: t => others t end.
(** what the client got, when the pipe let go after the events l *)
Inductive Over (r : request) (l : list pevent) : list obs -> Prop :=
| Ov_completed len evs : Begun r l len evs -> complete_of r l len -> Over r l (evs ++ [OCompleted])
| Ov_closed_early q : head_of l = None -> Over r l [OShut q; OClosed]
| Ov_closed len evs q : Begun r l len evs -> Unfinished r l len -> Over r l (evs ++ [OShut q; OClosed])
| Ov_unavailable l0 hd : l = l0 ++ [PxFinished true] -> head_of l0 = None -> RespHead r (mkAns 503 [] 0) 0 hd -> Over r l [OWrite hd; OCompleted]
| Ov_gone_early l0 : l = l0 ++ [PxGone] -> head_of l0 = None -> Over r l []
| Ov_gone l0 len evs : l = l0 ++ [PxGone] -> Begun r l0 len evs -> Unfinished r l0 len -> Over r l evs.

(** [L]: what was logged before.  Rl_over: after the events l1 the pipe has let go; from then on only the others act *)
Inductive Relay (L : list obs) (r : request) (l : list pevent) (g : cfg) (p : pipe) : Prop :=
| Rl_waiting c stk : g = Run c stk -> st c = SendingHeaders -> log c = L -> pp_broken p = false ->
    head_of l = None -> existsb is_finished l = false -> Relay L r l g p
| Rl_sending c stk len evs : g = Run c stk -> st c = SendingContent -> log c = L ++ evs -> pp_broken p = false ->
    Begun r l len evs -> Unfinished r l len -> existsb is_success l = false -> Relay L r l g p
| Rl_over l1 l2 t g1 : l = l1 ++ l2 -> pp_broken p = true -> Over r l1 t -> log (gconn g1) = L ++ t ->
    g = fold_left step (others l2) g1 -> Relay L r l g p.

(** Environments: while the pipe is at work nobody else writes to the connection (closing it is fine); afterwards
    anything may happen.  The lengths the
    upstream announces fit in an int (see C24). *)
Definition fair_event (s : cfg * pipe) (e : pevent) : Prop :=
  match e with
  | PxOther a => pp_broken (snd s) = false -> not_writing a = true
  | PxMeta code hs => int_length code hs (-1)
  | _ => True
  end.
Fixpoint fair (s : cfg * pipe) (l : list pevent) : Prop :=
  match l with [] => True | e :: t => fair_event s e /\ fair (pstep s e) t end.

(** ** The invariant *)
Fixpoint last_meta (h : Z * list header) (l : list pevent) : Z * list header :=
  match l with [] => h | PxMeta code hs :: t => last_meta (code, hs) t | _ :: t => last_meta h t end.
Fixpoint unread (buf : bytes) (l : list pevent) : bytes :=
  match l with [] => buf | PxData b :: t => unread (buf ++ b) t | PxRead :: t => unread [] t | _ :: t => unread buf t end.
Lemma head_snoc l : forall h e, first_head h (l ++ [e]) =
  match first_head h l with Some x => Some x | None => match e with PxRead | PxFinished false => Some (last_meta h l) | _ => None end end.
Proof.
  induction l as [|x l IH]; intros h e; cbn [app first_head last_meta]; [destruct e as [| | |[]| |]; reflexivity|].
  destruct x as [| | |[]| |]; auto.
Qed.
Lemma reads_snoc l : forall b e, reads b (l ++ [e]) = reads b l ++ match e with PxRead => [unread b l] | _ => [] end.
Proof.
  induction l as [|x l IH]; intros b e; cbn [app reads unread]; [destruct e; reflexivity|]. destruct x; auto. cbn [app]. now rewrite IH.
Qed.
Lemma unread_snoc l : forall b e, unread b (l ++ [e]) = match e with PxData x => unread b l ++ x | PxRead => [] | _ => unread b l end.
Proof. induction l as [|x l IH]; intros b e; cbn [app unread]; [destruct e; reflexivity|]. destruct x; auto. Qed.
Lemma meta_snoc l : forall h e, last_meta h (l ++ [e]) = match e with PxMeta code hs => (code, hs) | _ => last_meta h l end.
Proof. induction l as [|x l IH]; intros h e; cbn [app last_meta]; [destruct e; reflexivity|]. destruct x; auto. Qed.
Lemma kept_snoc f bs : forall sum b, kept f sum (bs ++ [b]) = kept f sum bs ++ (if fits f (sum + total (kept f sum bs)) b then [b] else []).
Proof.
  induction bs as [|x bs IH]; intros sum b; cbn [app kept].
  - replace (sum + total []) with sum by (unfold total; cbn; lia). destruct (fits f sum b); reflexivity.
  - destruct (fits f sum x); cbn [app]; rewrite IH; [|reflexivity].
    replace (sum + total (x :: kept f (sum + blen x) bs)) with (sum + blen x + total (kept f (sum + blen x) bs)); [reflexivity|].
    unfold total. cbn [concat]. rewrite blen_app. lia.
Qed.

Inductive PInv (L : list obs) (r : request) (l : list pevent) : cfg * pipe -> Prop :=
| P_waiting c stk code hs : reached c stk -> Forall no_content stk -> st c = SendingHeaders -> current c r -> log c = L ->
    head_of l = None -> existsb is_finished l = false -> reads [] l = [] -> last_meta (0, []) l = (code, hs) -> int_length code hs (-1) ->
    PInv L r l (Run c stk, mkPipe code hs (unread [] l) false false)
| P_sending c stk code hs code' hs' len : let a := mkAns code hs (-1) in
    Relays L r a len (kept (framing_of r a len) 0 (reads [] l)) c stk ->
    head_of l = Some (code, hs) -> total (kept (framing_of r a len) 0 (reads [] l)) <> len -> existsb is_success l = false -> PInv L r l (Run c stk, mkPipe code' hs' (unread [] l) true false)
| P_over g p t : pp_broken p = true -> Over r l t -> log (gconn g) = L ++ t -> PInv L r l (g, p).

Lemma PInv_Relay L r l g p : PInv L r l (g, p) -> Relay L r l g p.
Proof.
  intros H. inversion H as [c stk code hs R N S C Lg Hd Fi Rd Me HI|c stk code hs code' hs' len a [R N S Hl Hn Hh Hq Hse Hch (evs & HL & HA)] Hd Uf Su|g' p' t B O Lg]; subst.
  - eapply Rl_waiting; eauto.
  - eapply Rl_sending; eauto. exists code, hs. split; [exact Hd|]. exact HA.
    exists code, hs. split; [exact Hd|]. cbn zeta. fold a. split; [|exact Uf]. rewrite framing_sending by auto. destruct (0 <? _); [discriminate|]. destruct (chunked_resp _ _ _); discriminate.
  - apply (Rl_over L r l g p l [] t g); auto. now rewrite app_nil_r.
Qed.

Lemma noticed_app c stk c' stk' e p : log c' = log c ++ e -> noticed (Run c stk) (Run c' stk') p = if existsb ends_request e then teardown p else p.
Proof. intros E. unfold noticed. cbn [gconn]. rewrite E, skipn_app, skipn_all, Nat.sub_diag. reflexivity. Qed.
Lemma piece_quiet ch b ev : piece ch b ev -> existsb ends_request ev = false.
Proof. unfold piece. destruct ch; [intros (d & _ & ->)|intros ->]; reflexivity. Qed.
Lemma over_begin L r l g p t : Over r l t -> log (gconn g) = L ++ t -> pp_broken p = true -> PInv L r l (g, p).
Proof. intros O E B. eapply P_over; eauto. Qed.

(** sendHeaders() in the waiting state, at an event e that makes the head known *)
Lemma waiting_sends L r l e c stk code hs d : reached c stk -> Forall no_content stk -> st c = SendingHeaders -> current c r -> log c = L ->
  head_of (l ++ [e]) = Some (code, hs) -> reads [] l = [] -> int_length code hs (-1) ->
  let a := mkAns code hs (-1) in
  exists len c' stk' p', sendHeaders (Run c stk, mkPipe code hs d false false) = (Run c' stk', p') /\
   ((p' = mkPipe code hs d true true /\ exists evs, log c' = L ++ evs ++ [OCompleted] /\ Answering r a len [] evs /\ framing_of r a len = NoContent) \/
    (p' = mkPipe code hs d true false /\ Relays L r a len [] c' stk')).
Proof.
  intros R N Hs Hc HL Hd Rd HI a. destruct (headers_relay c stk r code hs R N Hs Hc HI) as (len & hd & c' & stk' & E & RL & RH1 & X). fold a in RL, RH1, X.
  exists len, c', stk'. unfold sendHeaders, pcall. cbn [pp_sent pp_broken orb pp_code pp_headers fst snd set_sent pp_data]. rewrite E.
  destruct ((len =? 0) || head_req r) eqn:F.
  - rewrite (noticed_app _ _ _ _ _ _ X). cbn [existsb ends_request orb teardown pp_code pp_headers pp_data pp_sent]. eexists. split; [reflexivity|]. left. split; [reflexivity|].
    exists [OWrite hd]. rewrite X, HL. split; [reflexivity|]. assert (FN : framing_of r a len = NoContent) by (unfold framing_of; now rewrite F).
    split; [|exact FN]. constructor; auto; [constructor|]. now rewrite FN.
  - destruct X as [X1 X2]. rewrite (noticed_app _ _ _ _ _ _ X2). cbn [existsb ends_request orb]. eexists. split; [reflexivity|]. right. split; [reflexivity|]. now rewrite <- HL.
Qed.

Lemma kept_none bs : forall sum, kept NoContent sum bs = [].
Proof. induction bs as [|b bs IH]; intros sum; cbn [kept]; auto. unfold fits. rewrite andb_false_r. apply IH. Qed.

Lemma pump_inv L r l e c stk code hs code' hs' len d : let a := mkAns code hs (-1) in
  Relays L r a len (kept (framing_of r a len) 0 (reads [] l)) c stk -> total (kept (framing_of r a len) 0 (reads [] l)) <> len -> head_of (l ++ [e]) = Some (code, hs) -> existsb is_success (l ++ [e]) = false ->
  d = unread [] l -> e = PxRead ->
  PInv L r (l ++ [e]) (pcall (OpWriteContent d) (Run c stk, mkPipe code' hs' [] true false)).
Proof.
  intros a R Uf Hd Su Ed ->. destruct (content_relay L r a len _ c stk d R) as (c' & stk' & E & X).
  unfold pcall. cbn [fst snd]. rewrite E. set (f := framing_of r a len) in *. set (ps := kept f 0 (reads [] l)) in *.
  assert (KS : kept f 0 (reads [] (l ++ [PxRead])) = ps ++ if fits f (total ps) d then [d] else []).
  { rewrite reads_snoc, <- Ed. rewrite kept_snoc. fold ps. now rewrite Z.add_0_l. }
  assert (UR : unread [] (l ++ [PxRead]) = []) by now rewrite unread_snoc.
  destruct (fits f (total ps) d) eqn:F.
  - destruct X as (ev & P & X). destruct (Z.eqb_spec (total ps + blen d) len) as [B|B].
    + destruct X as (X1 & evs & X2 & X3). rewrite (noticed_app _ _ _ _ _ _ X1). rewrite existsb_app. cbn [existsb ends_request orb]. rewrite orb_true_r.
      apply (over_begin L r _ _ _ (evs ++ [OCompleted])); [|cbn [gconn]; rewrite X1, app_assoc, X2, <- app_assoc; reflexivity|reflexivity].
      apply (Ov_completed r _ len evs).
      * exists code, hs. split; [exact Hd|]. cbn zeta. fold a. fold f. rewrite KS. exact X3.
      * exists code, hs. split; [exact Hd|]. cbn zeta. fold a. fold f. rewrite KS, total_snoc, B.
        destruct R as [_ _ _ _ Nz Hh _ _ _ _]. unfold f in *. rewrite framing_sending in * by auto. destruct (Z.ltb_spec 0 len); cbn [all_sent]; auto. destruct (chunked_resp r a len); exact Logic.I.
    + destruct X as (X1 & X2). rewrite (noticed_app _ _ _ _ _ _ X1), (piece_quiet _ _ _ P).
      rewrite <- UR. apply (P_sending L r _ c' stk' code hs code' hs' len); auto; cbn zeta; fold a; fold f; rewrite KS; [exact X2|]. now rewrite total_snoc.
  - destruct X as (-> & ->). rewrite (noticed_app c stk c stk []) by (now rewrite app_nil_r). cbn [existsb].
    rewrite <- UR. apply (P_sending L r _ c stk code hs code' hs' len); auto; cbn zeta; fold a; fold f; rewrite KS, app_nil_r; assumption.
Qed.

Lemma begun_of L r a len ps c stk : Relays L r a len ps c stk -> exists evs, log c = L ++ evs /\ Answering r a len ps evs.
Proof. intros [_ _ _ _ _ _ _ _ _ H]. exact H. Qed.

Lemma unfinished L r l c stk code hs len : let a := mkAns code hs (-1) in
  Relays L r a len (kept (framing_of r a len) 0 (reads [] l)) c stk -> total (kept (framing_of r a len) 0 (reads [] l)) <> len -> head_of l = Some (code, hs) -> Unfinished r l len.
Proof.
  intros a [] U H. exists code, hs. split; [exact H|]. cbn zeta. fold a. split; [|exact U]. rewrite framing_sending by auto.
  destruct (0 <? _); [discriminate|]. destruct (chunked_resp _ _ _); discriminate.
Qed.
Lemma close_inv L r l c stk code hs p len : let a := mkAns code hs (-1) in
  Relays L r a len (kept (framing_of r a len) 0 (reads [] l)) c stk -> total (kept (framing_of r a len) 0 (reads [] l)) <> len -> head_of l = Some (code, hs) ->
  PInv L r l (pcall OpClose (Run c stk, p)).
Proof.
  intros a R Uf Hd. pose proof (rl_reached _ _ _ _ _ _ _ R) as Rc. pose proof (rl_st _ _ _ _ _ _ _ R) as Rs. destruct (close_step c stk Rc (or_intror Rs)) as (c' & stk' & q & E & Lc).
  unfold pcall. cbn [fst snd]. rewrite E, (noticed_app _ _ _ _ _ _ Lc). cbn [existsb ends_request orb].
  destruct (begun_of _ _ _ _ _ _ _ R) as (evs & Le & An).
  apply (over_begin L r l _ _ (evs ++ [OShut q; OClosed])); [|cbn [gconn]; rewrite Lc, Le, <- app_assoc; reflexivity|reflexivity].
  apply (Ov_closed r l len evs q); [exists code, hs; auto|]. eapply unfinished; eauto.
Qed.

Lemma pstep_inv L r l s e : PInv L r l s -> pp_broken (snd s) = false -> fair_event s e -> PInv L r (l ++ [e]) (pstep s e).
Proof.
  intros H Hb Hf. inversion H as [c stk code hs R N S C Lg Hd Fi Rd Me HI|c stk code hs code' hs' len a Rl Hd Uf Su|g p t B O Lg]; subst s.
  - (* waiting *)
    assert (HS : forall e, head_of (l ++ [e]) = match e with PxRead | PxFinished false => Some (code, hs) | _ => None end).
    { intros e'. unfold head_of in *. now rewrite head_snoc, Hd, Me. }
    assert (FS : existsb is_finished (l ++ [e]) = is_finished e) by (rewrite existsb_app, Fi; cbn [existsb orb]; now rewrite orb_false_r).
    assert (SS : forall e, existsb is_success (l ++ [e]) = is_success e).
    { intros e'. rewrite existsb_app. cbn [existsb]. rewrite orb_false_r. replace (existsb is_success l) with false; [reflexivity|].
      symmetry. clear -Fi. induction l as [|x l IH]; auto. cbn [existsb] in *. apply orb_false_iff in Fi as [Fi Fj]. rewrite (IH Fj). destruct x; try discriminate; reflexivity. }
    destruct e as [code2 hs2|b| |failed| |a]; cbn [pstep fair_event snd pp_broken] in *.
    + cbn [pp_data pp_sent pp_broken]. replace (unread [] l) with (unread [] (l ++ [PxMeta code2 hs2])) by now rewrite unread_snoc.
      apply P_waiting; auto; rewrite ?reads_snoc, ?meta_snoc, ?HS, ?app_nil_r; auto.
    + cbn [set_data pp_code pp_headers pp_data pp_sent pp_broken]. replace (unread [] l ++ b) with (unread [] (l ++ [PxData b])) by now rewrite unread_snoc.
      apply P_waiting; auto; rewrite ?reads_snoc, ?meta_snoc, ?HS, ?app_nil_r; auto.
    + unfold pipe_readyRead. destruct (waiting_sends L r l PxRead c stk code hs (unread [] l) R N S C Lg (HS PxRead) Rd HI) as (len & c' & stk' & p' & -> & [(-> & evs & L1 & A1 & F1)|(-> & R1)]);
        cbn [pp_broken].
      * apply (over_begin L r _ _ _ (evs ++ [OCompleted])); auto. apply (Ov_completed r _ len evs).
        -- exists code, hs. split; [apply (HS PxRead)|]. cbn zeta. rewrite F1, kept_none. exact A1.
        -- exists code, hs. split; [apply (HS PxRead)|]. cbn zeta. rewrite F1, kept_none. reflexivity.
      * cbn [pp_data set_data pp_code pp_headers pp_sent pp_broken]. apply (pump_inv L r l PxRead c' stk' code hs code hs len); [rewrite Rd; exact R1|rewrite Rd; intros X; apply (rl_nz _ _ _ _ _ _ _ R1); now rewrite <- X|apply (HS PxRead)|apply (SS PxRead)|reflexivity|reflexivity].
    + unfold pipe_finished. destruct failed; cbn [negb].
      * cbn [pp_broken gstate negb andb]. rewrite S. cbn [cst_eqb].
        destruct (C11_writeResponse c stk r 503 [] [] R S C) as (len & hd & c' & stk' & RL & RH1 & E & _ & X).
        { intros len RL. apply RespLength_fun in RL. change (len = blen []) in RL. rewrite RL. cbn. unfold INT_MIN, INT_MAX. lia. }
        assert (len = 0) as -> by (apply RespLength_fun in RL; exact RL). change (0 =? 0) with true in X. cbn [orb] in X. destruct X as (X1 & X2 & X3).
        unfold pcall. cbn [fst snd]. rewrite E, (noticed_app _ _ _ _ _ _ X3). cbn [existsb ends_request orb].
        apply (over_begin L r _ _ _ [OWrite hd; OCompleted]); [|cbn [gconn]; rewrite X3, Lg; reflexivity|reflexivity].
        eapply Ov_unavailable; eauto.
      * destruct (waiting_sends L r l (PxFinished false) c stk code hs (unread [] l) R N S C Lg (HS (PxFinished false)) Rd HI) as (len & c' & stk' & p' & -> & [(-> & evs & L1 & A1 & F1)|(-> & R1)]);
          cbn [pp_broken negb andb].
        -- apply (over_begin L r _ _ _ (evs ++ [OCompleted])); auto. apply (Ov_completed r _ len evs).
           ++ exists code, hs. split; [apply (HS (PxFinished false))|]. cbn zeta. rewrite F1, kept_none. exact A1.
           ++ exists code, hs. split; [apply (HS (PxFinished false))|]. cbn zeta. rewrite F1, kept_none. reflexivity.
        -- cbn [gstate]. rewrite (rl_st _ _ _ _ _ _ _ R1). cbn [cst_eqb]. eapply close_inv; [| |apply (HS (PxFinished false))]; rewrite reads_snoc, app_nil_r, Rd; [exact R1|]. intros X. apply (rl_nz _ _ _ _ _ _ _ R1). now rewrite <- X.
    + apply (over_begin L r _ _ _ []); [|cbn [gconn]; now rewrite app_nil_r|reflexivity]. eapply Ov_gone_early; eauto.
    + destruct (busy_step c stk a R N (or_introl S) (Hf eq_refl)) as (c' & stk' & -> & [(R' & N' & B)|(q & Lq)]).
      * rewrite (noticed_app c stk c' stk' []) by (rewrite app_nil_r; apply (by_log _ _ B)). cbn [existsb].
        replace (unread [] l) with (unread [] (l ++ [PxOther a])) by now rewrite unread_snoc.
        apply P_waiting; auto; rewrite ?reads_snoc, ?meta_snoc, ?HS, ?app_nil_r; auto; try (rewrite (by_st _ _ B); assumption); try (rewrite (by_log _ _ B); assumption).
        destruct C as (rs & Cr). exists rs. now rewrite (by_log _ _ B).
      * rewrite (noticed_app _ _ _ _ _ _ Lq). cbn [existsb ends_request orb]. apply (over_begin L r _ _ _ [OShut q; OClosed]); [|cbn [gconn]; now rewrite Lq, Lg|reflexivity].
        apply Ov_closed_early. rewrite HS. reflexivity.
  - (* sending *)
    assert (HS : forall e, head_of (l ++ [e]) = Some (code, hs)) by (intros e'; unfold head_of in *; now rewrite head_snoc, Hd).
    assert (SS : existsb is_success (l ++ [e]) = is_success e) by (rewrite existsb_app, Su; cbn [existsb orb]; now rewrite orb_false_r).
    pose proof Rl as [Rc Nc Sc _ _ _ _ _ _ (evs & Le & An)].
    destruct e as [code2 hs2|b| |failed| |act]; cbn [pstep fair_event snd pp_broken] in *.
    + cbn [pp_data pp_sent pp_broken]. replace (unread [] l) with (unread [] (l ++ [PxMeta code2 hs2])) by now rewrite unread_snoc.
      apply (P_sending L r _ c stk code hs code2 hs2 len); auto; rewrite reads_snoc, app_nil_r; assumption.
    + cbn [set_data pp_code pp_headers pp_data pp_sent pp_broken]. replace (unread [] l ++ b) with (unread [] (l ++ [PxData b])) by now rewrite unread_snoc.
      apply (P_sending L r _ c stk code hs code' hs' len); auto; rewrite reads_snoc, app_nil_r; assumption.
    + unfold pipe_readyRead, sendHeaders. cbn [pp_sent pp_broken orb pp_data set_data pp_code pp_headers]. apply (pump_inv L r l PxRead c stk code hs code' hs' len); auto.
    + unfold pipe_finished. destruct failed; cbn [negb].
      * cbn [pp_broken gstate negb andb]. rewrite Sc. cbn [cst_eqb].
        replace (unread [] l) with (unread [] (l ++ [PxFinished true])) by now rewrite unread_snoc.
        apply (P_sending L r _ c stk code hs code' hs' len); auto; rewrite reads_snoc, app_nil_r; assumption.
      * unfold sendHeaders. cbn [pp_sent pp_broken orb negb andb gstate]. rewrite Sc. cbn [cst_eqb]. apply (close_inv L r _ c stk code hs _ len); [| |apply HS]; rewrite reads_snoc, app_nil_r; assumption.
    + apply (over_begin L r _ _ _ evs); [|cbn [gconn]; exact Le|reflexivity]. eapply (Ov_gone r _ l len); [reflexivity| |eapply unfinished; eauto]. exists code, hs. auto.
    + destruct (busy_step c stk act Rc Nc (or_intror Sc) (Hf eq_refl)) as (c' & stk' & -> & [(R' & N' & B)|(q & Lq)]).
      * rewrite (noticed_app c stk c' stk' []) by (rewrite app_nil_r; apply (by_log _ _ B)). cbn [existsb].
        replace (unread [] l) with (unread [] (l ++ [PxOther act])) by now rewrite unread_snoc.
        apply (P_sending L r _ c' stk' code hs code' hs' len); auto; rewrite reads_snoc, app_nil_r; [eapply relays_busy; eauto|exact Uf].
      * rewrite (noticed_app _ _ _ _ _ _ Lq). cbn [existsb ends_request orb]. apply (over_begin L r _ _ _ (evs ++ [OShut q; OClosed])); [|cbn [gconn]; rewrite Lq, Le, <- app_assoc; reflexivity|reflexivity].
        apply (Ov_closed r _ len evs q); [exists code, hs; split; [apply HS|]; cbn zeta; rewrite reads_snoc, app_nil_r; exact An|].
        eapply unfinished; [| |apply HS]; rewrite reads_snoc, app_nil_r; eassumption.
  - cbn [snd] in Hb. congruence.
Qed.
Lemma prun_snoc s l e : prun s (l ++ [e]) = pstep (prun s l) e.
Proof. unfold prun. now rewrite fold_left_app. Qed.
Lemma fair_snoc l : forall s e, fair s (l ++ [e]) <-> fair s l /\ fair_event (prun s l) e.
Proof. induction l as [|x l IH]; intros s e; cbn [app fair]; [cbn; tauto|]. rewrite IH. change (prun s (x :: l)) with (prun (pstep s x) l). tauto. Qed.
Lemma broken_step g p e : pp_broken p = true -> exists p', pstep (g, p) e = (match e with PxOther a => step g a | _ => g end, p') /\ pp_broken p' = true.
Proof. intros B. destruct e; cbn [pstep]; rewrite ?B; eexists; (split; [reflexivity|auto]). Qed.
Lemma broken_run l : forall g p, pp_broken p = true -> exists p', prun (g, p) l = (fold_left step (others l) g, p') /\ pp_broken p' = true.
Proof.
  induction l as [|e l IH]; intros g p B; [exists p; auto|]. destruct (broken_step g p e B) as (p1 & E & B1). change (prun (g, p) (e :: l)) with (prun (pstep (g, p) e) l). rewrite E.
  destruct (IH (match e with PxOther a => step g a | _ => g end) p1 B1) as (p2 & E2 & B2). exists p2. rewrite E2. destruct e; auto.
Qed.
(** while the pipe works, its invariant; afterwards, the point where it let go *)
Lemma prun_inv L r s0 : PInv L r [] s0 -> pp_broken (snd s0) = false -> forall l, fair s0 l ->
  (pp_broken (snd (prun s0 l)) = false /\ PInv L r l (prun s0 l)) \/
  (pp_broken (snd (prun s0 l)) = true /\ exists l1 l2 g1 p1, l = l1 ++ l2 /\ pp_broken p1 = true /\ PInv L r l1 (g1, p1) /\ fst (prun s0 l) = fold_left step (others l2) g1).
Proof.
  intros P0 B0. induction l as [|e l IH] using rev_ind; intros F; [left; auto|]. apply fair_snoc in F as [F1 F2]. rewrite prun_snoc.
  destruct (IH F1) as [(B & P)|(B & l1 & l2 & g1 & p1 & -> & B1 & P1 & E)].
  - pose proof (pstep_inv _ _ _ _ _ P B F2) as P'. destruct (pstep (prun s0 l) e) as [g p] eqn:E. cbn [fst snd]. destruct (pp_broken p) eqn:Bp; [right|left; auto].
    split; auto. exists (l ++ [e]), [], g, p. rewrite app_nil_r. auto.
  - right. destruct (prun s0 (l1 ++ l2)) as [g p] eqn:Eg. cbn [fst snd] in *. destruct (broken_step g p e B) as (p' & -> & B'). cbn [fst snd]. split; [exact B'|].
    exists l1, (l2 ++ [e]), g1, p1. rewrite app_assoc. split; auto. split; auto. split; auto.
    assert (O2 : others (l2 ++ [e]) = others l2 ++ match e with PxOther a => [a] | _ => [] end).
    { clear. induction l2 as [|x l2 IH]; [destruct e; reflexivity|]. destruct x; cbn [app others]; auto. now rewrite IH. }
    rewrite O2, fold_left_app, <- E. destruct e; reflexivity.
Qed.
Lemma start_inv c stk r : reached c stk -> Forall no_content stk -> st c = SendingHeaders -> current c r -> PInv (log c) r [] (Run c stk, pipe0).
Proof. intros R N S C. apply (P_waiting (log c) r [] c stk 0 []); auto. apply int_length_b. reflexivity. Qed.

(** ** C55 *)
(** A request r waits for its answer and a pipe is made for it.  Whatever the upstream reply and the connection do: *)
Theorem C55_relay : forall c stk r l g p, reached c stk -> Forall no_content stk -> st c = SendingHeaders -> current c r ->
  fair (Run c stk, pipe0) l -> prun (Run c stk, pipe0) l = (g, p) -> Relay (log c) r l g p.
Proof.
  intros c stk r l g p R N S C F E. destruct (prun_inv (log c) r _ (start_inv c stk r R N S C) eq_refl l F) as [(B & P)|(B & l1 & l2 & g1 & p1 & -> & B1 & P1 & Eg)]; rewrite E in *; cbn [fst snd] in *.
  - now apply PInv_Relay.
  - inversion P1; subst; try discriminate. eapply Rl_over; eauto.
Qed.

(** what the upstream reply delivered, all events together *)
Definition all_data (l : list pevent) : bytes := concat (map (fun e => match e with PxData b => b | _ => [] end) l).
Lemma reads_all l : forall b, concat (reads b l) ++ unread b l = b ++ all_data l.
Proof.
  unfold all_data. induction l as [|e l IH]; intros b; cbn [reads unread map concat app]; [now rewrite app_nil_r|].
  destruct e; cbn [concat]; rewrite ?IH; auto; [now rewrite app_assoc|now rewrite <- app_assoc, IH].
Qed.
Lemma kept_all f bs : forall sum, match f with NoContent => False | FixedLength n => sum + total bs <= n | _ => True end -> concat (kept f sum bs) = concat bs.
Proof.
  induction bs as [|b bs IH]; intros sum H; cbn [kept concat]; auto.
  assert (T : total (b :: bs) = blen b + total bs) by (unfold total; cbn [concat]; apply blen_app). pose proof (total_nonneg bs).
  destruct (fits f sum b) eqn:F.
  - cbn [concat]. f_equal. apply IH. destruct f; auto. lia.
  - unfold fits in F. destruct (beqb b []) eqn:B.
    + apply beqb_true in B. subst b. cbn [app]. apply IH. destruct f; auto.
    + cbn [negb andb] in F. destruct f; try discriminate; [contradiction|]. apply Z.leb_gt in F. rewrite T in H. lia.
Qed.
(** as long as the upstream content does not exceed the announced length (if there is one), it is relayed as it comes, byte for byte *)
Theorem C55_content : forall c stk r l c' stk' p, reached c stk -> Forall no_content stk -> st c = SendingHeaders -> current c r ->
  fair (Run c stk, pipe0) l -> prun (Run c stk, pipe0) l = (Run c' stk', p) -> pp_broken p = false -> existsb is_read l = true ->
  exists code hs len evs ps, let a := mkAns code hs (-1) in
    head_of l = Some (code, hs) /\ log c' = log c ++ evs /\ Answering r a len ps evs /\
    (match framing_of r a len with FixedLength n => blen (all_data l) <= n | _ => True end -> concat ps ++ unread [] l = all_data l).
Proof.
  intros c stk r l c' stk' p R N S C F E B HR. pose proof (C55_relay c stk r l _ p R N S C F E) as Q.
  destruct Q as [c1 stk1 _ _ _ _ Hd _|c1 stk1 len evs Eg Es El _ (code & hs & Hd & HB) (code' & hs' & Hd' & HU) _|l1 l2 t g1 _ Bp _ _ _]; [| |congruence].
  - exfalso. clear -HR Hd. unfold head_of in Hd. revert Hd. generalize (0, @nil header). induction l as [|e l IH]; intros h Hd; [discriminate|]. destruct e as [| | |[]| |]; cbn [existsb is_read orb first_head] in *; eauto; discriminate.
  - injection Eg as <- <-. rewrite Hd in Hd'. injection Hd' as <- <-. cbn zeta in *. destruct HU as [HU _]. eexists code, hs, len, evs, _. split; [exact Hd|]. split; [exact El|]. split; [exact HB|].
    intros Hfit. rewrite kept_all.
    + now rewrite reads_all.
    + pose proof (reads_all l []) as RA. cbn [app] in RA. destruct (framing_of r (mkAns code hs (-1)) len); auto. rewrite <- RA, blen_app in Hfit. pose proof (blen_nonneg (unread [] l)). unfold total. lia.
Qed.

(** ** C56 *)
(** The upstream reply finishes without error while the pipe works: the response is over.  It was complete, or it is now if it
    has no content; otherwise the connection is closed: that is the end of a response without announced length, and
    tells the client that a response of announced length was cut short.  Missing: a chunked response is not terminated. *)
Theorem C56_success_partial : forall c stk r l g0 p0 g p, reached c stk -> Forall no_content stk -> st c = SendingHeaders -> current c r ->
  fair (Run c stk, pipe0) l -> prun (Run c stk, pipe0) l = (g0, p0) -> pp_broken p0 = false ->
  prun (Run c stk, pipe0) (l ++ [PxFinished false]) = (g, p) ->
  pp_broken p = true /\ exists code hs len evs, head_of (l ++ [PxFinished false]) = Some (code, hs) /\
    let a := mkAns code hs (-1) in let f := framing_of r a len in let ps := kept f 0 (reads [] l) in
    Answering r a len ps evs /\
    match f with
    | NoContent => log (gconn g) = log c ++ evs ++ [OCompleted]
    | FixedLength n => total ps < n /\ exists q, log (gconn g) = log c ++ evs ++ [OShut q; OClosed]
    | ChunkedContent | UntilClose => exists q, log (gconn g) = log c ++ evs ++ [OShut q; OClosed]
    end.
Proof.
  intros c stk r l g0 p0 g p R N S C F E B E2. destruct (prun_inv (log c) r _ (start_inv c stk r R N S C) eq_refl l F) as [(_ & P)|(B' & _)]; [|rewrite E in B'; cbn in B'; congruence].
  rewrite prun_snoc in E2. rewrite E in *.
  assert (CL : forall c1 stk1 code hs len p1, head_of (l ++ [PxFinished false]) = Some (code, hs) -> let a := mkAns code hs (-1) in let f := framing_of r a len in let ps := kept f 0 (reads [] l) in
    Relays (log c) r a len ps c1 stk1 -> total ps <> len -> pcall OpClose (Run c1 stk1, p1) = (g, p) ->
    pp_broken p = true /\ exists evs, Answering r a len ps evs /\
    match f with
    | NoContent => log (gconn g) = log c ++ evs ++ [OCompleted]
    | FixedLength n => total ps < n /\ exists q, log (gconn g) = log c ++ evs ++ [OShut q; OClosed]
    | ChunkedContent | UntilClose => exists q, log (gconn g) = log c ++ evs ++ [OShut q; OClosed]
    end).
  { intros c1 stk1 code hs len p1 Hd a f ps RL Ne Ec. pose proof (rl_reached _ _ _ _ _ _ _ RL) as Rc. pose proof (rl_st _ _ _ _ _ _ _ RL) as Rs.
    destruct (close_step c1 stk1 Rc (or_intror Rs)) as (c2 & stk2 & q & Es & Lc). unfold pcall in Ec. cbn [fst snd] in Ec. rewrite Es, (noticed_app _ _ _ _ _ _ Lc) in Ec. cbn [existsb ends_request orb] in Ec.
    injection Ec as <- <-. split; [reflexivity|]. destruct (begun_of _ _ _ _ _ _ _ RL) as (evs & Le & An). exists evs. split; [exact An|].
    assert (LG : log (gconn (Run c2 stk2)) = log c ++ evs ++ [OShut q; OClosed]) by (cbn [gconn]; now rewrite Lc, Le, <- app_assoc).
    assert (FE : f = if 0 <? len then FixedLength len else if chunked_resp r a len then ChunkedContent else UntilClose) by (apply framing_sending; destruct RL; auto).
    inversion An as [? ? _ _ _ MS]; subst. fold f in MS. rewrite FE in *. destruct (0 <? len).
    - cbn [may_send] in MS. split; [lia|eauto].
    - destruct (chunked_resp r a len); eauto. }
  inversion P as [c1 stk1 code hs R1 N1 S1 C1 Lg Hd Fi Rd Me HI|c1 stk1 code hs code' hs' len a Rl Hd Uf Su|g' p' t Bp O Lg]; subst; [| |congruence].
  - assert (HS : head_of (l ++ [PxFinished false]) = Some (code, hs)) by (unfold head_of in *; now rewrite head_snoc, Hd, Me).
    destruct (waiting_sends (log c) r l (PxFinished false) c1 stk1 code hs (unread [] l) R1 N1 S1 C1 Lg HS Rd HI) as (len & c2 & stk2 & p2 & Es & X).
    cbn [pstep pp_broken] in E2. unfold pipe_finished in E2. cbn [negb] in E2. rewrite Es in E2. destruct X as [(-> & evs & L1 & A1 & F1)|(-> & R2)]; cbn [pp_broken negb andb] in E2.
    + injection E2 as <- <-. split; [reflexivity|]. exists code, hs, len, evs. split; [exact HS|]. cbn zeta. rewrite Rd, F1. cbn [kept gconn]. auto.
    + cbn [gstate] in E2. rewrite (rl_st _ _ _ _ _ _ _ R2) in E2. cbn [cst_eqb] in E2. specialize (fun p1 => CL c2 stk2 code hs len p1 HS) as CL2. cbn zeta in CL2. rewrite Rd in CL2.
      edestruct CL2 as (B1 & evs & X1 & X2); [exact R2|intros X; apply (rl_nz _ _ _ _ _ _ _ R2); now rewrite <- X|exact E2|]. split; [exact B1|]. exists code, hs, len, evs. rewrite Rd. auto.
  - assert (HS : head_of (l ++ [PxFinished false]) = Some (code, hs)) by (unfold head_of in *; now rewrite head_snoc, Hd).
    cbn [pstep pp_broken] in E2. unfold pipe_finished, sendHeaders in E2. cbn [negb pp_sent pp_broken orb andb gstate] in E2. rewrite (rl_st _ _ _ _ _ _ _ Rl) in E2. cbn [cst_eqb] in E2.
    destruct (CL c1 stk1 code hs len _ HS Rl Uf E2) as (B1 & evs & X1 & X2). split; [exact B1|]. exists code, hs, len, evs. auto.
Qed.
