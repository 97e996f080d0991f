(** Invariant of the connection under polite use, for every schedule (see [polite]). *)
From Verif Require Import Bytes ByteHelpers Thin Helpers ReqGrammar TextSpec ThinProofs ThinFields ThinTop CIProofs HelpersProofs
  Conn ConnSpec ConnView ConnText ConnHead.
Open Scope Z_scope.

(** Polite use of the API:
    - initialize with devices, on a new or closed connection, not from inside one of its signals;
    - close() not while the connection is in the Completed state (that is, inside requestCompleted);
    - response lengths that fit in an int. *)
Definition int_length (code : Z) (hs : list header) (size : Z) : Prop :=
  forall len, RespLength (mkAns code hs size) len -> INT_MIN < len <= INT_MAX.
Definition polite (c : conn) (stk : list frame) (a : action) : Prop :=
  match a with
  | ACall (OpInit d) => stk = [] /\ (st c = Uninitialized \/ st c = Closed) /\ exists so data, d = NewDevice true true so data
  | ACall OpClose => st c <> Completed
  | ACall (OpWriteResponse code hs content) => int_length code hs (blen content)
  | ACall (OpWriteHeaders code hs) => int_length code hs (-1)
  | _ => True
  end.
Fixpoint polite_run (g : cfg) (l : list action) {struct l} : Prop :=
  match l with
  | [] => True
  | a :: t => (match g with Run c stk => polite c stk a | UB _ _ => True end) /\ polite_run (step g a) t
  end.

(** ** Small facts *)
Lemma announced_app a b : announced (a ++ b) = announced a ++ announced b.
Proof. induction a as [|[] a IH]; cbn; auto. now rewrite IH. Qed.

Lemma starts_head_ext rest b h : starts_head rest h -> starts_head (rest ++ b) h.
Proof. intros (W & L & x & ->). split; auto. split; auto. exists (x ++ b). now rewrite app_assoc. Qed.
Lemma app_prefix (a b c d : bytes) : a ++ b = c ++ d -> blen c <= blen a -> exists e, a = c ++ e.
Proof.
  intros E L. exists (firstn (length a - length c) d).
  assert (H : firstn (length a) (a ++ b) = firstn (length a) (c ++ d)) by congruence.
  rewrite firstn_app, firstn_all, Nat.sub_diag in H. cbn in H. rewrite app_nil_r in H. rewrite H at 1.
  rewrite firstn_app. rewrite firstn_all2 by (unfold blen in L; lia). reflexivity.
Qed.
Lemma Refusable_ext rest b s : Refusable rest s -> Refusable (rest ++ b) s.
Proof.
  intros [x y -> H|H L|h x W -> L|h f v n H1 H2 H3 H4|h f v n H1 H2 H3 H4|h f v H1 H2 H3].
  - eapply Rf_malformed; [|exact H]. rewrite <- app_assoc. reflexivity.
  - apply Rf_endless; [|rewrite blen_app; pose proof (blen_nonneg b); lia].
    intros h (W & Lh & x & E). apply (H h). split; auto. split; auto.
    apply app_prefix in E; auto. unfold max_head, max_pending in *. lia.
  - eapply Rf_long_head; eauto. rewrite <- app_assoc. reflexivity.
  - eapply Rf_negative; eauto using starts_head_ext.
  - eapply Rf_too_large; eauto using starts_head_ext.
  - eapply Rf_not_a_number; eauto using starts_head_ext.
Qed.
Lemma Tail_ext rest b t : Tail rest t -> Tail (rest ++ b) t.
Proof.
  intros [|h n H1 H2 H3 H4|m x H1 ->|m x a len ps evs H1 -> H3|m x e H1 -> H3|s H].
  - apply T_idle.
  - eapply T_continue; eauto using starts_head_ext.
  - apply (T_waiting _ m (x ++ b)); auto. now rewrite app_assoc.
  - apply (T_answering _ m (x ++ b) a len ps evs); auto. now rewrite app_assoc.
  - apply (T_last _ m (x ++ b) e); auto. now rewrite app_assoc.
  - apply T_refused. now apply Refusable_ext.
Qed.

Lemma RespLength_fun a len : RespLength a len -> len = resp_len (a_headers a) (a_size a).
Proof.
  unfold resp_len. intros [H|f v n H1 H2|f v H1 H2].
  - now rewrite H.
  - rewrite H1. cbn [snd]. apply toLongLong_iff in H2. now rewrite H2.
  - rewrite H1. cbn [snd]. apply toLongLong_none in H2. now rewrite H2.
Qed.
Lemma int_length_ok code hs size : int_length code hs size -> INT_MIN < resp_len hs size <= INT_MAX.
Proof. intros H. apply H. apply resp_len_ok. Qed.

(** ** State predicates *)
Record Common (ms : list msg) (c : conn) : Prop := mkCommon {
  cm_in : in_ok c = true; cm_out : out_ok c = true; cm_hbuf : hbuf c = []; cm_wf : Forall wf_msg ms }.

Record RHpre (ms : list msg) (c : conn) : Prop := mkRHpre {
  rh_st : st c = ReceivingHeaders; rh_common : Common ms c; rh_cl : cl c = 0;
  rh_ps : exists p0 b0 more n, buf c = b0 ++ more /\ ps c = parsed p0 b0 /\ drun 1 b0 = DMore n;
  rh_arr : arrived c = concat (map wire ms) ++ buf c ++ avail c;
  rh_log : Exchanges (map delivered ms) (log c) }.
Definition RH (ms : list msg) (c : conn) : Prop :=
  RHpre ms c /\ (exists p0 n, ps c = parsed p0 (buf c) /\ drun 1 (buf c) = DMore n) /\ blen (buf c) <= MaxHead.

Definition cont (h : head) : list obs :=
  if says (first_named "expect" (spec_headers h)) "100-continue" then [OWrite continue_text] else [].

Record RC (ms : list msg) (h : head) (l : list obs) (hb rest : bytes) (c : conn) : Prop := mkRC {
  rc_st : st c = ReceivingContent; rc_common : Common ms c;
  rc_wf : wf_head h; rc_size : blen (head_text h) <= max_head; rc_ps : head_parsed h (ps c);
  rc_len : AnnouncedLength h (cl c); rc_pos : 0 < cl c <= max_content;
  rc_agree : agree (hterm (o_headers h) (hd_headers h)) (head_text h) hb;
  rc_buf : buf c = hb ++ rest;
  rc_arr : arrived c = concat (map wire ms) ++ head_text h ++ rest ++ avail c;
  rc_ex : Exchanges (map delivered ms) l; rc_log : log c = l ++ cont h }.

Record Serving (ms : list msg) (m : msg) (more : bytes) (l : list obs) (c : conn) : Prop := mkServing {
  sv_common : Common ms c; sv_wf : wf_msg m;
  sv_buf : exists hb, buf c = hb ++ m_content m ++ more /\ blen hb = body_start (tp (ps c));
  sv_cl : cl c = blen (m_content m); sv_req : req c = delivered m;
  sv_arr : arrived c = concat (map wire ms) ++ wire m ++ more ++ avail c;
  sv_ex : Exchanges (map delivered ms) l }.

Record SH (ms : list msg) (m : msg) (more : bytes) (l : list obs) (c : conn) : Prop := mkSH {
  sh_st : st c = SendingHeaders; sh_sv : Serving ms m more l c;
  sh_11 : http11 c = http11_req (req c); sh_ch : chunked c = false; sh_rlen : rlen c = -1; sh_rsent : rsent c = 0;
  sh_log : log c = l ++ interim (delivered m) ++ [OReady (delivered m)] }.

Record SC (ms : list msg) (m : msg) (more : bytes) (l : list obs) (a : answer) (len : Z) (pcs : list bytes)
    (evs : list obs) (c : conn) : Prop := mkSC {
  sc_st : st c = SendingContent; sc_sv : Serving ms m more l c;
  sc_ans : Answering (delivered m) a len pcs evs;
  sc_log : log c = l ++ interim (delivered m) ++ OReady (delivered m) :: evs;
  sc_rlen : rlen c = len; sc_ch : chunked c = chunked_resp (delivered m) a len;
  sc_ka : keepalive c = keeps (delivered m) a len; sc_sent : rsent c = total pcs;
  sc_len : len <> 0; sc_head : head_req (delivered m) = false; sc_more : 0 < len -> total pcs < len }.

(* a response just completed, requestCompleted not yet in the log *)
Record Done (ms : list msg) (m : msg) (more : bytes) (l : list obs) (c : conn) : Prop := mkDone {
  dn_st : st c <> Completed; dn_sv : Serving ms m more l c;
  dn_log : exists e, log c ++ [OCompleted] = l ++ e /\ Exchange (delivered m) (keepalive c) e }.

Record C1 (ms : list msg) (m : msg) (more : bytes) (l : list obs) (c : conn) : Prop := mkC1 {
  c1_st : st c = Completed; c1_sv : Serving ms m more l c;
  c1_log : exists e, log c = l ++ e /\ Exchange (delivered m) (keepalive c) e }.
Record C2 (ms : list msg) (c : conn) : Prop := mkC2 {
  c2_st : st c = Completed; c2_common : Common ms c; c2_refs : refs (ps c) = [];
  c2_arr : arrived c = concat (map wire ms) ++ buf c ++ avail c;
  c2_log : Exchanges (map delivered ms) (log c) }.

Definition Live (c : conn) : Prop :=
  (exists ms, RH ms c) \/ (exists ms h l hb rest, RC ms h l hb rest c /\ blen rest < cl c)
  \/ (exists ms m more l, SH ms m more l c) \/ (exists ms m more l a len pcs evs, SC ms m more l a len pcs evs c).

(* exchanges complete, then a tail described by T *)
Definition BodyOf (T : bytes -> list obs -> Prop) (c : conn) : Prop :=
  exists ms rest l t, Common ms c /\ arrived c = concat (map wire ms) ++ rest /\ Exchanges (map delivered ms) l /\
    log c = l ++ t /\ T rest t.
Definition Body := BodyOf Tail.
(* the tails after which the connection is being closed *)
Inductive LastTail (rest : bytes) : list obs -> Prop :=
| LT_last m x e : wf_msg m -> rest = wire m ++ x -> Exchange (delivered m) false e -> LastTail rest e
| LT_refused s : Refusable rest s -> LastTail rest [OWrite (refusal s)].
Lemma LastTail_Tail rest t : LastTail rest t -> Tail rest t.
Proof. intros [m x e H1 H2 H3|s H]; [eapply T_last; eauto|now apply T_refused]. Qed.
Definition ClosedS (c : conn) : Prop := st c = Closed /\ hbuf c = [] /\ Story (arrived c) (log c) /\ In OClosed (log c).
Definition FinS (c : conn) : Prop := st c = Flushing /\ BodyOf LastTail c \/ ClosedS c.

Definition base_frame (f : frame) : Prop :=
  match f with KSig SReady | KSig SWritten | KSending | KResponse _ => True | _ => False end.
Definition fin_frame (f : frame) : Prop :=
  match f with KCompleted | KFlushC | KSig SCompleted | KClosed => False | _ => True end.
Definition clo_frame (f : frame) : Prop :=
  match f with KCompleted | KFlushC | KSig SCompleted => False | _ => True end.
Definition Base := Forall base_frame.
Definition Fin := Forall fin_frame.
Definition Clo := Forall clo_frame.
Lemma Fin_Clo t : Fin t -> Clo t.
Proof. apply Forall_impl. intros [[]| | | | | | |]; cbn; tauto. Qed.
Lemma Base_Fin t : Base t -> Fin t.
Proof. apply Forall_impl. intros [[]| | | | | | |]; cbn; tauto. Qed.

Definition writes := Forall (fun f => f = KSig SWritten).

Inductive Inv (c : conn) (stk : list frame) : Prop :=
| I_new : st c = Uninitialized -> stk = [] -> hbuf c = [] -> in_ok c = false -> out_ok c = false -> log c = [] -> arrived c = [] -> Inv c stk
| I_live : Live c -> Base stk -> Inv c stk
| I_c1 ms m more l s t : C1 ms m more l c -> stk = s ++ KSig SCompleted :: KCompleted :: t -> writes s -> Base t -> Inv c stk
| I_c2 ms s t : C2 ms c -> stk = s ++ KFlushC :: t -> s <> [] -> writes s -> Base t -> Inv c stk
| I_fin : FinS c -> Fin stk -> Inv c stk
| I_clo : ClosedS c -> Clo stk -> Inv c stk.

Definition Good (g : cfg) : Prop :=
  match g with Run c stk => Inv c stk | UB r _ => r = UseAfterFree \/ r = SharedNullWrite end.

(** ** Live states tell a story *)
Lemma Body_intro (T : bytes -> list obs -> Prop) c ms rest l t : Common ms c -> arrived c = concat (map wire ms) ++ rest ->
  Exchanges (map delivered ms) l -> log c = l ++ t -> T rest t -> BodyOf T c.
Proof. intros. now exists ms, rest, l, t. Qed.

Lemma Live_Body c : Live c -> Body c.
Proof.
  intros [(ms & H & _)|[(ms & h & l & hb & rest & H & _)|[(ms & m & more & l & H)|(ms & m & more & l & a & len & pcs & evs & H)]]].
  - destruct H. eapply (Body_intro _ c ms (buf c ++ avail c) (log c) []); auto using T_idle. now rewrite app_nil_r.
  - destruct H. eapply (Body_intro _ c ms (head_text h ++ rest ++ avail c) l (cont h)); auto.
    unfold cont. destruct (says _ _) eqn:E; [|apply T_idle].
    eapply T_continue; eauto. split; auto. split; auto. eauto.
  - destruct H as [? [] ? ? ? ? HL]. eapply (Body_intro _ c ms (wire m ++ more ++ avail c) l); eauto. eapply T_waiting; eauto.
  - destruct H as [? [] HA HL ? ? ? ? ? ?]. eapply (Body_intro _ c ms (wire m ++ more ++ avail c) l); eauto. eapply T_answering; eauto.
Qed.

Lemma Last_Body c : BodyOf LastTail c -> Body c.
Proof. intros (ms & rest & l & t & C & A & E & L & T). exists ms, rest, l, t. auto 6 using LastTail_Tail. Qed.

Lemma Body_Story c : Body c -> Story (arrived c) (log c).
Proof.
  intros (ms & rest & l & t & C & A & E & L & T). rewrite L. rewrite <- (app_nil_r (l ++ t)), <- app_assoc.
  destruct C. econstructor; eauto. apply E_open.
Qed.

Lemma C1_Body ms m more l c : C1 ms m more l c -> Body c.
Proof.
  intros [Hs [] (e & HL & HE)]. destruct (keepalive c) eqn:K.
  - eapply (Body_intro _ c (ms ++ [m]) (more ++ avail c) (log c) []).
    + destruct sv_common0. constructor; auto. apply Forall_app. auto.
    + rewrite sv_arr0, map_app, concat_app. cbn [map concat]. now rewrite app_nil_r, <- app_assoc.
    + rewrite HL, map_app. cbn [map]. now apply Ex_snoc.
    + now rewrite app_nil_r.
    + apply T_idle.
  - eapply (Body_intro _ c ms (wire m ++ more ++ avail c) l); eauto. eapply T_last; eauto.
Qed.
Lemma C2_Body ms c : C2 ms c -> Body c.
Proof. intros []. eapply (Body_intro _ c ms (buf c ++ avail c) (log c) []); auto using T_idle. now rewrite app_nil_r. Qed.

Theorem Inv_Story c stk : Inv c stk -> Story (arrived c) (log c).
Proof.
  intros [H1 _ _ _ _ HL HA|H _|ms m more l s t H _ _ _|ms s t H _ _ _ _|[(_ & H)|(_ & _ & H & _)] _|(_ & _ & H & _) _]; auto.
  - rewrite HL, HA. apply (Story_intro [] [] [] [] [] []); constructor.
  - apply Body_Story, Live_Body, H.
  - eapply Body_Story, C1_Body, H.
  - eapply Body_Story, C2_Body, H.
  - apply Body_Story, Last_Body, H.
Qed.

(** ** Closing *)
Section K.
Variable t : list frame.
Variable k : conn -> cfg.
Hypothesis Ht : Fin t.
Hypothesis Hf : forall c, FinS c -> Good (k c).

Lemma toClosed_ok c : Body c -> st c <> Closed -> Good (toClosed c t k).
Proof.
  intros B Hs. unfold toClosed. replace (cst_eqb (st c) Closed) with false by (destruct (st c); auto; congruence).
  destruct B as (ms & rest & l & tl & [Hi Ho Hh Hw] & A & E & L & T).
  csimp. rewrite Hi. cbn [orb]. unfold emit_log. csimp. cbn [Good]. apply I_clo.
  - unfold ClosedS. csimp. split; auto. split; auto. split; [|rewrite in_app_iff; cbn; auto]. rewrite L, A.
    replace (((l ++ tl) ++ [OShut (pending c)]) ++ [OClosed]) with (l ++ tl ++ [OShut (pending c); OClosed]) by (rewrite <- !app_assoc; reflexivity).
    econstructor; eauto. apply E_closed.
  - constructor; [cbn; auto|]. constructor; [cbn; auto|]. now apply Fin_Clo.
Qed.
Lemma toClosed_fin c : FinS c -> Good (toClosed c t k).
Proof.
  intros [(Hs & B)|(Hs & H)].
  - apply toClosed_ok; auto using Last_Body. congruence.
  - unfold toClosed. rewrite Hs. cbn [cst_eqb]. apply Hf. right. split; auto.
Qed.
Lemma drain_tail_fin c : FinS c -> Good (drain_tail c t k).
Proof. intros H. unfold drain_tail. destruct (out_ok c && (pending c =? 0)); auto using toClosed_fin. Qed.
End K.

(** ** Fields that do not matter *)
Definition core (c : conn) : conn :=
  set_pending 0 (set_kcap 0 (set_sock false (set_drain_conn false (set_cap 0 (set_isnull false (set_freed false (set_rstatus 0 c))))))).
Definition same (c c' : conn) : Prop := core c = core c'.
Lemma same_refl c : same c c. Proof. reflexivity. Qed.
Lemma same_trans a b c : same a b -> same b c -> same a c. Proof. unfold same. congruence. Qed.

Ltac same_fields H := 
  pose proof (f_equal st H : st _ = st _); pose proof (f_equal in_ok H : in_ok _ = in_ok _);
  pose proof (f_equal out_ok H : out_ok _ = out_ok _); pose proof (f_equal avail H : avail _ = avail _);
  pose proof (f_equal ps H : ps _ = ps _); pose proof (f_equal buf H : buf _ = buf _);
  pose proof (f_equal req H : req _ = req _); pose proof (f_equal cl H : cl _ = cl _);
  pose proof (f_equal http11 H : http11 _ = http11 _); pose proof (f_equal rlen H : rlen _ = rlen _);
  pose proof (f_equal rsent H : rsent _ = rsent _); pose proof (f_equal keepalive H : keepalive _ = keepalive _);
  pose proof (f_equal chunked H : chunked _ = chunked _); pose proof (f_equal hbuf H : hbuf _ = hbuf _);
  pose proof (f_equal log H : log _ = log _); pose proof (f_equal arrived H : arrived _ = arrived _);
  unfold core in *; csimp in *; clear H.

Lemma Common_same ms c c' : same c c' -> Common ms c -> Common ms c'.
Proof. intros H []. same_fields H. constructor; congruence. Qed.
Lemma RHpre_same ms c c' : same c c' -> RHpre ms c -> RHpre ms c'.
Proof.
  intros H [? HC ? HP]. pose proof (Common_same _ _ _ H HC). same_fields H. constructor; try congruence.
  destruct HP as (p0 & b0 & more & n & ? & ? & ?). exists p0, b0, more, n. repeat split; congruence.
Qed.
Lemma Serving_same ms m more l c c' : same c c' -> Serving ms m more l c -> Serving ms m more l c'.
Proof.
  intros H [HC ? (hb & ? & ?)]. pose proof (Common_same _ _ _ H HC). same_fields H. constructor; try congruence.
  exists hb. split; congruence.
Qed.
Lemma Live_same c c' : same c c' -> Live c -> Live c'.
Proof.
  intros H [(ms & HR & (p0 & n & HP & HD) & HL)|[(ms & h & l & hb & rest & HR & Hlt)|[(ms & m & more & l & HS)|(ms & m & more & l & a & len & pcs & evs & HS)]]].
  - left. exists ms. split; [eapply RHpre_same; eauto|]. same_fields H. split; [|congruence]. exists p0, n. split; congruence.
  - right; left. exists ms, h, l, hb, rest. destruct HR as [? HC ? ? HP]. pose proof (Common_same _ _ _ H HC). same_fields H.
    split; [|congruence]. constructor; try congruence.
  - right; right; left. exists ms, m, more, l. destruct HS as [? HV]. pose proof (Serving_same _ _ _ _ _ _ H HV). same_fields H.
    constructor; congruence.
  - right; right; right. exists ms, m, more, l, a, len, pcs, evs. destruct HS as [? HV]. pose proof (Serving_same _ _ _ _ _ _ H HV). same_fields H.
    constructor; auto; congruence.
Qed.
Lemma Body_same T c c' : same c c' -> BodyOf T c -> BodyOf T c'.
Proof.
  intros H (ms & rest & l & t & HC & A & E & L & HT). pose proof (Common_same _ _ _ H HC). same_fields H.
  exists ms, rest, l, t. split; auto. split; [congruence|]. split; auto. split; congruence.
Qed.
Lemma FinS_same c c' : same c c' -> FinS c -> FinS c'.
Proof.
  intros H [(Hs & B)|(Hs & Hh & HS & HO)].
  - left. split; [|eapply Body_same; eauto]. same_fields H. congruence.
  - right. same_fields H. repeat split; try congruence.
Qed.

(** FinS after changes of the response fields *)
Lemma sending_fin c : FinS c -> FinS (sending_tail c).
Proof.
  intros H. unfold sending_tail. destruct (_ && _); auto.
  destruct H as [(Hs & ms & rest & l & t & [] & A & E & L & T)|H]; [left|right; exact H].
  split; [exact Hs|]. exists ms, rest, l, t. repeat split; auto.
Qed.
Lemma flushing_fin c : FinS c -> FinS (flushing_tail c).
Proof. intros H. unfold flushing_tail. destruct (_ && _); auto. eapply FinS_same; [|exact H]. reflexivity. Qed.

Lemma flush_fin t k c : Fin t -> (forall c, FinS c -> Good (k c)) -> FinS c -> Good (flush c t k).
Proof.
  intros Ht Hf H. unfold flush. destruct (_ && _); auto. cbn [Good]. apply I_fin.
  - eapply FinS_same; [|exact H]. reflexivity.
  - constructor; cbn; auto.
Qed.
Lemma drain_fin t k c : Fin t -> (forall c, FinS c -> Good (k c)) -> FinS c -> Good (drain c t k).
Proof.
  intros Ht Hf H. unfold drain. destruct (negb _); auto. apply flush_fin; auto.
  - constructor; cbn; auto.
  - intros c' H'. apply drain_tail_fin; auto.
Qed.
Lemma toFlushing_ok t k c : Fin t -> (forall c, FinS c -> Good (k c)) -> BodyOf LastTail c -> st c <> Flushing -> Good (toFlushing c t k).
Proof.
  intros Ht Hf H Hs. unfold toFlushing. replace (cst_eqb (st c) Flushing) with false by (destruct (st c); auto; congruence).
  apply drain_fin.
  - constructor; cbn; auto.
  - intros c' H'. apply Hf. now apply flushing_fin.
  - left. csimp. split; auto. destruct H as (ms & rest & l & tl & [] & A & E & L & T).
    exists ms, rest, l, tl. repeat split; auto.
Qed.

(** A write keeps the devices; what it adds *)
Definition wrote (b : bytes) (c : conn) : conn :=
  emit_log (OWrite b) (set_pending (if sock c then pending c + blen b else pending c) c).
Lemma dev_write_ok b c k : out_ok c = true -> dev_write b c k = k (wrote b c).
Proof. intros H. unfold dev_write. now rewrite H. Qed.

(** the error answers *)
Definition Refused (ms : list msg) (rest : bytes) (l : list obs) (s : string) (c : conn) : Prop :=
  Common ms c /\ arrived c = concat (map wire ms) ++ rest /\ Exchanges (map delivered ms) l /\
  log c = l ++ [OWrite (refusal s)] /\ Refusable rest s /\ st c <> Flushing /\ st c <> Closed.
Lemma error_ok t k c code s ms rest l : statusCodeAndMessage code = Some (lit s) ->
  Common ms c -> arrived c = concat (map wire ms) ++ rest -> Exchanges (map delivered ms) l -> log c = l ->
  Refusable rest s -> st c <> Flushing -> st c <> Closed ->
  exists c', writeRequestErrorResponse code c t k = toFlushing c' t k /\ Refused ms rest l s c'.
Proof.
  intros Hc HC HA HE HL HR H1 H2. unfold writeRequestErrorResponse.
  replace (cst_eqb (st c) Closed) with false by (destruct (st c); auto; congruence).
  rewrite Hc. rewrite dev_write_ok by apply HC. eexists. split; [reflexivity|].
  unfold Refused, wrote, emit_log. csimp. split; [destruct HC; constructor; auto|]. repeat (split; auto).
  rewrite HL. reflexivity.
Qed.
Lemma refused_ok t k c ms rest l s : Fin t -> (forall c, FinS c -> Good (k c)) -> Refused ms rest l s c -> Good (toFlushing c t k).
Proof.
  intros Ht Hf (HC & HA & HE & HL & HR & H1 & H2). apply toFlushing_ok; auto.
  eapply (Body_intro _ _ ms rest l); eauto. now apply LT_refused.
Qed.

(** ** Receiving *)
Lemma delivered_interim h content : content <> [] -> interim (delivered (mkMsg h content)) = cont h.
Proof.
  intros H. unfold interim, expects, cont, delivered. cbn [q_content q_headers m_head m_content].
  replace (beqb content []) with false by (symmetry; now apply beqb_false). reflexivity.
Qed.
Lemma delivered_interim_nil h : interim (delivered (mkMsg h [])) = [].
Proof. reflexivity. Qed.

Lemma http11_ok r : eq_token (q_version r) (lit "HTTP/1.1") = http11_req r.
Proof.
  unfold http11_req. destruct (beqb (q_version r) (lit "HTTP/1.1")) eqn:E.
  - apply beqb_true in E. rewrite E. reflexivity.
  - destruct (eq_token _ _) eqn:E'; auto. apply eq_token_iff in E'; [|cbn; intuition discriminate]. rewrite E' in E. discriminate.
Qed.
Lemma is_head_ok r : is_head r = head_req r.
Proof.
  unfold is_head, head_req. destruct (beqb (q_method r) (lit "HEAD")) eqn:E.
  - apply beqb_true in E. rewrite E. reflexivity.
  - destruct (eq_token _ _) eqn:E'; auto. apply eq_token_iff in E'; [|cbn; intuition discriminate]. rewrite E' in E. discriminate.
Qed.

Lemma toSendingHeaders_ok t k c ms h content more hb l : st c <> SendingHeaders ->
  Common ms c -> wf_msg (mkMsg h content) -> head_parsed h (ps c) -> cl c = blen content ->
  agree (hterm (o_headers h) (hd_headers h)) (head_text h) hb -> buf c = hb ++ content ++ more ->
  arrived c = concat (map wire ms) ++ head_text h ++ content ++ more ++ avail c ->
  Exchanges (map delivered ms) l -> log c = l ++ interim (delivered (mkMsg h content)) ->
  exists c', toSendingHeaders c t k = Run c' (KSig SReady :: t) /\ SH ms (mkMsg h content) more l c' /\ avail c' = avail c.
Proof.
  intros Hs [Hi Ho Hh Hw] Hm Hp Hcl Hag Hb Ha He Hl. unfold toSendingHeaders.
  replace (cst_eqb (st c) SendingHeaders) with false by (destruct (st c); auto; congruence).
  cbv zeta. csimp. rewrite Hb.
  pose proof (view_request_ok h (ps c) hb content more (wfm_head _ Hm) Hp Hag) as (V & hb' & B & L). cbv zeta in V, B.
  rewrite Hcl, V, B. rewrite http11_ok. eexists. split; [reflexivity|]. unfold emit_log. csimp. split; auto.
  constructor; csimp; auto.
  - constructor; csimp; auto.
    + constructor; csimp; auto.
    + exists hb'. split; auto. rewrite (hp_body _ _ Hp). auto.
    + rewrite Ha. unfold wire. cbn [m_head m_content]. now rewrite <- !app_assoc.
  - rewrite Hl, <- app_assoc. reflexivity.
Qed.

Section Recv.
Variable t : list frame.
Variable k : conn -> cfg.
Variable G : cfg -> Prop.
Variable ms : list msg.
Variable l : list obs.
Hypothesis HkRH : forall c, RH ms c -> log c = l -> avail c = [] -> G (k c).
Hypothesis HkRC : forall c h hb rest, RC ms h l hb rest c -> blen rest < cl c -> avail c = [] -> G (k c).
Hypothesis HReady : forall c m more, SH ms m more l c -> avail c = [] -> G (Run c (KSig SReady :: t)).
Hypothesis HErr : forall c rest s, Refused ms rest l s c -> G (toFlushing c t k).

Lemma RC_same_cont h hb rest c c' : same c c' -> RC ms h l hb rest c -> RC ms h l hb rest c'.
Proof.
  intros H [? HC ? ? HP]. pose proof (Common_same _ _ _ H HC). same_fields H. constructor; try congruence.
Qed.

Lemma check_content_ok h hb rest c : RC ms h l hb rest c -> avail c = [] -> G (check_content c t k).
Proof.
  intros R AV. pose proof R as R0. destruct R. unfold check_content.
  pose proof (hp_body _ _ rc_ps0) as Hb. rewrite Hb, rc_buf0, blen_app.
  assert (Lh : blen hb = o_body h) by (unfold o_body, blen; destruct rc_agree0 as (-> & _); reflexivity).
  rewrite Lh. destruct (Z.leb_spec (cl c) (o_body h + blen rest - o_body h)) as [L|L].
  - assert (exists content more, rest = content ++ more /\ blen content = cl c) as (content & more & Er & Ec).
    { exists (firstn (Z.to_nat (cl c)) rest), (skipn (Z.to_nat (cl c)) rest). split; [now rewrite firstn_skipn|].
      unfold blen in *. rewrite firstn_length. lia. }
    assert (NE : content <> []) by (intros ->; rewrite blen_nil in Ec; lia).
    destruct (toSendingHeaders_ok t k c ms h content more hb l) as (c' & -> & S' & AV'); auto.
    + congruence.
    + constructor; cbn [m_head m_content]; auto; unfold max_content in *; try lia. now rewrite Ec.
    + now rewrite rc_buf0, Er.
    + rewrite rc_arr0, Er. now rewrite <- !app_assoc.
    + rewrite delivered_interim; auto.
    + eapply HReady; eauto. congruence.
  - eapply HkRC; eauto. lia.
Qed.

Lemma read_avail c : avail (read_input c) = [].
Proof. unfold read_input. destruct (avail c) eqn:E; auto. Qed.
Lemma read_RC h hb rest c : RC ms h l hb rest c -> RC ms h l hb (rest ++ avail c) (read_input c).
Proof.
  intros R. unfold read_input. destruct (avail c) as [|x y] eqn:E; [now rewrite app_nil_r|]. rewrite <- E.
  eapply RC_same_cont; [|]. instantiate (1 := set_avail [] (set_buf (buf c ++ avail c) c)).
  - unfold reserve. destruct (_ <? _); reflexivity.
  - destruct R as [? [] ? ? ? ? ? ? HB HA ? ?]. constructor; csimp; auto.
    + constructor; csimp; auto.
    + rewrite HB, <- app_assoc. reflexivity.
    + rewrite HA, app_nil_r. reflexivity.
Qed.

Lemma lower_lit s : lower (lit s) = lit s -> lower (lit s) = lit s. Proof. auto. Qed.

Lemma toReceivingContent_ok h rest c : avail c = [] -> st c = ReceivingHeaders -> Common ms c -> cl c = 0 ->
  wf_head h -> blen (head_text h) <= max_head -> head_parsed h (ps c) -> buf c = head_text h ++ rest ->
  arrived c = concat (map wire ms) ++ head_text h ++ rest ++ avail c -> log c = l -> Exchanges (map delivered ms) l ->
  G (toReceivingContent c t k).
Proof.
  intros AV Hs HC Hcl W Lh HP Hb HA Hlog HE. unfold toReceivingContent. cbv zeta. csimp.
  pose proof (hp_refs _ _ HP) as HR. pose proof (hp_cl _ _ HP) as HI.
  assert (O0 : 0 <= o_headers h) by (offs h; lia).
  set (b := setup_buf (buf c) (refs (ps c))).
  assert (A : agree (hterm (o_headers h) (hd_headers h)) (head_text h ++ rest) b).
  { unfold b. rewrite Hb, HR. now apply setup_agree. }
  assert (VH : view_headers b (refs (ps c)) = spec_headers h).
  { rewrite HR. unfold spec_headers.
    apply (view_headers_ok (hterm (o_headers h) (hd_headers h)) _ _ (hd_method h ++ lit " " ++ target_text (hd_target h) ++ fragment_text h ++ lit " "
     ++ version_text h ++ CRLF) (CRLF ++ rest)).
    + rewrite !blen_app. change (blen (lit " ")) with 1. change (blen CRLF) with 2. offs h. lia.
    + unfold head_text in A. rewrite <- !app_assoc in *. exact A.
    + auto. }
  rewrite VH. 
  destruct (agree_app_inv _ _ _ A (head_text h) rest eq_refl) as (hb & Ehb & Ahb).
  { intros i Hi. apply hterm_body in Hi. unfold o_body in Hi. lia. }
  assert (SHd : starts_head (head_text h ++ rest ++ avail c) h) by (split; auto; split; eauto).
  (* the announced length *)
  pose proof (last_cl_ok (hd_headers h) 0 (-1) ltac:(lia)) as LC. cbv zeta in LC. fold (spec_headers h) in LC. rewrite <- HI in LC.
  set (c1 := set_buf b (set_st ReceivingContent c)).
  assert (C1' : Common ms c1) by (destruct HC; constructor; auto).
  assert (Cset : forall v, Common ms (set_cl v c1)) by (intros v; destruct HC; constructor; auto).
  (* one accepted length *)
  assert (ACC : forall v, AnnouncedLength h v -> 0 <= v <= max_content -> 
     G (if 0 <? v then
        (if asciiEqualsCI_lower (getFieldValue_tok (spec_headers h) (lit "expect")) (lit "100-continue")
         then dev_write (lit "HTTP/1.1 100 Continue" ++ CRLF ++ CRLF) (set_cl v c1)
           (fun c0 : conn => let c2 := reserve (body_start (tp (ps c0)) + cl c0 + 1) c0 in if in_ok c2 then check_content (read_input c2) t k else UB NullInput c2)
         else (let c2 := reserve (body_start (tp (ps c)) + v + 1) (set_cl v c1) in if in_ok c2 then check_content (read_input c2) t k else UB NullInput c2))
        else toSendingHeaders (set_cl v c1) t k)).
  { intros v AL Hv. destruct (Z.ltb_spec 0 v) as [P|P].
    - rewrite field_says by (reflexivity || discriminate).
      assert (NX : forall c2, same (set_log (l ++ cont h) (set_cl v c1)) c2 ->
        G (if in_ok c2 then check_content (read_input c2) t k else UB NullInput c2)).
      { intros c2 S2.
        assert (R2 : RC ms h l hb rest c2).
        { eapply RC_same_cont; [exact S2|]. constructor; csimp; auto; try lia. destruct HC; constructor; auto. }
        rewrite (cm_in _ _ (rc_common _ _ _ _ _ _ R2)). eapply check_content_ok; [apply read_RC; exact R2|apply read_avail]. }
      unfold cont in NX. destruct (says _ _).
      + rewrite dev_write_ok by apply HC. cbv zeta. apply NX. rewrite <- Hlog. unfold wrote, emit_log, reserve. csimp. destruct (_ <? _); reflexivity.
      + cbv zeta. apply NX. rewrite app_nil_r, <- Hlog. unfold reserve. destruct (_ <? _); reflexivity.
    - assert (v = 0) by lia. subst v.
      destruct (toSendingHeaders_ok t k (set_cl 0 c1) ms h [] rest hb l) as (c' & -> & S' & AV'); csimp; auto.
      + discriminate.
      + constructor; auto. cbn. lia.
      + rewrite delivered_interim_nil, app_nil_r. exact Hlog.
      + eapply HReady; eauto. rewrite AV'. exact AV. }
  cbv zeta in ACC.
  destruct (last_named "content-length" (spec_headers h)) as [[f v]|] eqn:LN.
  - destruct LC as (LC1 & LC2). destruct (Z.leb_spec 0 (cl_index (ps c))); [|lia].
    rewrite Z.sub_0_r in LC2. unfold header in *. rewrite LC2. cbn [snd].
    destruct (toInt v) as [n|] eqn:TI.
    + apply toInt_iff in TI. fold c1. csimp.
      destruct (Z.ltb_spec n 0).
      { destruct (error_ok t k (set_cl n c1) 400 "400 Bad Request" ms (head_text h ++ rest ++ avail c) l) as (c' & -> & RF); auto; try (csimp; discriminate).
        1: eapply Rf_negative; eauto.
        eapply HErr; eauto. }
      cbn [negb]. rewrite orb_false_r. destruct (Z.ltb_spec MaxContent n).
      { destruct (error_ok t k (set_cl n c1) 413 "413 Request Entity Too Large" ms (head_text h ++ rest ++ avail c) l) as (c' & -> & RF); auto; try (csimp; discriminate).
        1: eapply Rf_too_large; eauto.
        eapply HErr; eauto. }
      apply ACC; [eapply AL_some; eauto|unfold MaxContent, max_content in *; lia].
    + rewrite toInt_none in TI. fold c1. csimp. change (0 <? 0) with false. cbn [negb]. rewrite orb_true_r. cbv iota.
      destruct (error_ok t k (set_cl 0 c1) 413 "413 Request Entity Too Large" ms (head_text h ++ rest ++ avail c) l) as (c' & -> & RF); auto; try (csimp; discriminate).
      1: eapply Rf_not_a_number; eauto.
      eapply HErr; eauto.
  - rewrite LC. change (0 <=? -1) with false. cbv iota. fold c1. 
    assert (Ec : c1 = set_cl 0 c1) by (unfold c1; destruct c; cbn in Hcl; subst; reflexivity).
    rewrite Ec. csimp. change (0 <? 0) with false. cbn [negb orb]. change (MaxContent <? 0) with false. cbn [orb].
    apply (ACC 0); [now apply AL_none|unfold max_content; lia].
Qed.

Lemma processInput_rh c : RHpre ms c -> log c = l -> G (processInput c t k).
Proof.
  intros R Hlog. pose proof R as R0. destruct R as [Hs HC Hcl (p0 & b0 & more & n & HB & HP & HD) HA HL].
  rewrite Hlog in HL.
  unfold processInput. rewrite Hs. cbn [cst_eqb]. rewrite (cm_in _ _ HC). cbn [negb].
  set (c1 := read_input c).
  assert (E1 : same (set_avail [] (set_buf (buf c ++ avail c) c)) c1).
  { unfold c1, read_input. destruct (avail c) as [|x y] eqn:E.
    - rewrite app_nil_r. destruct c; cbn in *; subst; reflexivity.
    - unfold reserve. destruct (_ <? _); reflexivity. }
  set (s1 := match buf c1 with [] => ps c1 | _ :: _ => texecute (buf c1) (nread (tp (ps c1))) (ps c1) end).
  assert (Eb : buf c1 = b0 ++ more ++ avail c).
  { rewrite <- (f_equal buf E1 : buf _ = buf c1). csimp. rewrite HB, <- app_assoc. reflexivity. }
  assert (Es : s1 = parsed p0 (buf c1)).
  { unfold s1. replace (ps c1) with (parsed p0 b0) by (rewrite <- HP; exact (f_equal ps E1)).
    destruct (buf c1) as [|x y] eqn:E.
    - symmetry in Eb. apply app_eq_nil in Eb as (-> & _). reflexivity.
    - rewrite Eb. eapply parsed_incremental; eauto. }
  rewrite Es.
  assert (Cm : forall s, Common ms (set_ps s c1)).
  { intros s. eapply Common_same; [|destruct HC; constructor; [..|eassumption]]. 
    1: instantiate (1 := set_ps s (set_avail [] (set_buf (buf c ++ avail c) c))); unfold same in *;
       change (core (set_ps s c1)) with (set_ps s (core c1)); rewrite <- E1; reflexivity.
    all: auto. }
  same_fields E1. 
  pose proof (parsed_drun p0 (buf c1)) as PD.
  assert (Arr : arrived c1 = concat (map wire ms) ++ buf c1 ++ avail c1).
  { rewrite <- H14, <- H2, <- H4. rewrite HA, app_nil_r. reflexivity. }
  assert (ERR : Refusable (buf c1 ++ avail c1) "400 Bad Request" -> G (writeRequestErrorResponse 400 (set_ps (parsed p0 (buf c1)) c1) t k)).
  { intros RF. destruct (error_ok t k (set_ps (parsed p0 (buf c1)) c1) 400 "400 Bad Request" ms (buf c1 ++ avail c1) l) as (c' & -> & R'); csimp; auto; try congruence.
    eapply HErr; eauto. }
  destruct (drun 1 (buf c1)) as [|m|r] eqn:DR.
  - (* malformed *)
    unfold has_error. rewrite PD. rewrite Z.eqb_refl, orb_true_r. apply ERR.
    apply drun_err_iff in DR. eapply Rf_malformed; [reflexivity|]. intros ext h z W E. apply DR. exists ext, h, z. auto.
  - destruct PD as (Pc & Pn & Pb). pose proof (drun_more 1 _ _ ltac:(lia) DR) as Hm.
    unfold has_error, is_finished. rewrite Pc, Pn. 
    destruct (Z.eqb_spec m 0); [lia|]. destruct (Z.eqb_spec m 58); [lia|]. rewrite orb_false_r.
    destruct (Z.ltb_spec MaxHead (blen (buf c1))) as [L|L].
    + apply ERR.
      apply Rf_endless; [|rewrite blen_app; pose proof (blen_nonneg (avail c1)); unfold MaxHead, max_pending in *; lia].
      intros h (W & Lh & x & E). apply app_prefix in E as (e & E); [|unfold MaxHead, max_head in *; lia].
      assert (drun 1 (buf c1) = DDone e) by (apply drun_iff; eauto). congruence.
    + apply HkRH; csimp; try congruence. split; [|split].
      * constructor; csimp; auto; try congruence. exists p0, (buf c1), [], m. rewrite app_nil_r. auto.
      * exists p0, m. csimp. auto.
      * csimp. auto.
  - apply drun_iff in DR as (h & W & E). rewrite E in PD. 
    destruct (parsed_head h p0 r W) as (HPd & Hn). rewrite E.
    rewrite Hn. unfold has_error, is_finished. rewrite (hp_cs _ _ HPd). change (58 =? 0) with false. rewrite orb_false_r.
    destruct (Z.ltb_spec MaxHead (o_body h + 1)) as [L|L].
    + rewrite E in ERR. apply ERR. rewrite <- E.
      eapply (Rf_long_head _ h (r ++ avail c1)); auto; [now rewrite E, <- app_assoc|].
      fold (o_body h). unfold MaxHead, max_head in *. lia.
    + change (58 =? 58) with true. cbv iota.
      apply (toReceivingContent_ok h r); csimp; auto; try congruence.
      * fold (o_body h). unfold MaxHead, max_head in *. lia.
      * rewrite Arr, E, <- app_assoc. reflexivity.
Qed.
End Recv.

Section RecvGood.
Variable t : list frame.
Variable k : conn -> cfg.
Hypothesis Ht : Base t.
Hypothesis Hk : forall c, Live c -> Good (k c).
Hypothesis Hf : forall c, FinS c -> Good (k c).
Lemma recv_good ms l :
  (forall c, RH ms c -> log c = l -> avail c = [] -> Good (k c)) /\
  (forall c h hb rest, RC ms h l hb rest c -> blen rest < cl c -> avail c = [] -> Good (k c)) /\
  (forall c m more, SH ms m more l c -> avail c = [] -> Good (Run c (KSig SReady :: t))) /\
  (forall c rest s, Refused ms rest l s c -> Good (toFlushing c t k)).
Proof.
  split; [|split; [|split]].
  - intros. apply Hk. left. eauto.
  - intros. apply Hk. right; left. eauto 10.
  - intros. apply I_live; [|constructor; cbn; auto]. right; right; left. eauto 10.
  - intros. eapply refused_ok; eauto using Base_Fin.
Qed.
Lemma processInput_rh_good ms c : RHpre ms c -> Good (processInput c t k).
Proof. intros H. destruct (recv_good ms (log c)) as (H1 & H2 & H3 & H4). eapply processInput_rh; eauto. Qed.
Lemma processInput_live c : Live c -> Good (processInput c t k).
Proof.
  intros H. pose proof H as H0. destruct H as [(ms & H & _)|[(ms & h & l & hb & rest & H & Hlt)|[(ms & m & more & l & H)|(ms & m & more & l & a & len & pcs & evs & H)]]].
  - eapply processInput_rh_good; eauto.
  - unfold processInput. rewrite (rc_st _ _ _ _ _ _ H). cbn [cst_eqb]. rewrite (cm_in _ _ (rc_common _ _ _ _ _ _ H)). cbn [negb].
    destruct (recv_good ms l) as (H1 & H2 & H3 & H4). 
    eapply check_content_ok; eauto using read_RC, read_avail.
  - unfold processInput. rewrite (sh_st _ _ _ _ _ H). cbn [cst_eqb]. auto.
  - unfold processInput. rewrite (sc_st _ _ _ _ _ _ _ _ _ H). cbn [cst_eqb]. auto.
Qed.
End RecvGood.

(** ** Completing *)
Lemma toCompleted_ok t k c ms m more l : Base t -> Done ms m more l c -> Good (toCompleted c t k).
Proof.
  intros Ht [Hs HV (e & HL & HE)]. unfold toCompleted. replace (cst_eqb (st c) Completed) with false by (destruct (st c); auto; congruence).
  cbn [Good]. eapply (I_c1 _ _ ms m more l [] t); auto; [|constructor].
  destruct HV as [[] ? ? ? ? ? ?]. constructor; unfold emit_log; csimp; auto.
  - constructor; csimp; auto. constructor; csimp; auto.
  - exists e. auto.
Qed.

Lemma release_ok ms m more l c : Serving ms m more l c ->
  let c' := release_request c in
  buf c' = more /\ refs (ps c') = [] /\ st c' = st c /\ in_ok c' = in_ok c /\ out_ok c' = out_ok c /\ avail c' = avail c /\
  hbuf c' = hbuf c /\ log c' = log c /\ arrived c' = arrived c /\ keepalive c' = keepalive c.
Proof.
  intros [HC ? (hb & HB & Hl) Hcl ? ? ?]. cbv zeta. unfold release_request. cbv zeta.
  assert (Er : blen (buf c) - body_start (tp (ps c)) - cl c = blen more).
  { rewrite HB, !blen_app, Hcl, Hl. lia. }
  rewrite Er. destruct (Z.ltb_spec 0 (blen more)).
  - csimp. split; [|auto 12]. rewrite HB.
    replace (Z.to_nat (blen (hb ++ m_content m ++ more) - blen more)) with (length (hb ++ m_content m)).
    + rewrite app_assoc, skipn_app, skipn_all, Nat.sub_diag. reflexivity.
    + rewrite app_assoc, blen_app. unfold blen. lia.
  - assert (more = []) by (destruct more; auto; rewrite blen_cons in H; pose proof (blen_nonneg more); lia). subst more.
    destruct (cap c <=? MaxHead); csimp; auto 12.
Qed.

Section Send.
Variable t : list frame.
Variable k : conn -> cfg.
Hypothesis Ht : Base t.
Hypothesis Hk : forall c, Live c -> Good (k c).
Hypothesis Hf : forall c, FinS c -> Good (k c).

Lemma flushc_tail_ok ms c : C2 ms c -> Good (flushc_tail c t k).
Proof.
  intros [Hs [] HR HA HL]. unfold flushc_tail, toReceivingHeaders. rewrite Hs. cbn [cst_eqb].
  eapply (processInput_rh_good t k Ht Hk Hf ms). csimp. constructor; csimp; auto.
  - constructor; csimp; auto.
  - exists (tp (ps c)), [], (buf c), 1. rewrite HR. auto.
Qed.

Lemma completed_tail_ok ms m more l c : C1 ms m more l c -> Good (completed_tail c t k).
Proof.
  intros [Hs HV (e & HL & HE)]. unfold completed_tail. cbv zeta.
  pose proof (release_ok ms m more l c HV) as (R1 & R2 & R3 & R4 & R5 & R6 & R7 & R8 & R9 & R10).
  set (c' := release_request c) in *. destruct HV as [[] ? ? ? ? HA ?].
  destruct (keepalive c') eqn:K.
  - assert (H2 : forall c2, same c' c2 -> C2 (ms ++ [m]) c2).
    { intros c2 S. same_fields S. constructor; try congruence.
      - constructor; try congruence. apply Forall_app. auto.
      - rewrite map_app, concat_app. cbn [map concat]. rewrite app_nil_r, <- !app_assoc. congruence.
      - replace (log c2) with (l ++ e) by congruence. rewrite map_app. cbn [map]. replace (keepalive c) with true in HE by congruence. now apply Ex_snoc. }
    unfold flush. destruct (_ && _).
    + cbn [Good]. eapply (I_c2 _ _ (ms ++ [m]) [KSig SWritten] t); auto; try discriminate.
      * apply H2. reflexivity.
      * repeat constructor.
    + eapply flushc_tail_ok. apply H2. reflexivity.
  - apply toFlushing_ok; auto.
    + now apply Base_Fin.
    + eapply (Body_intro _ _ ms (wire m ++ more ++ avail c) l e); try congruence.
      * constructor; congruence.
      * replace (keepalive c) with false in HE by congruence. eapply LT_last; eauto.
    + congruence.
Qed.

(** ** Sending *)
Lemma sending_live c : Live c -> Live (sending_tail c).
Proof.
  intros H. unfold sending_tail. destruct ((rlen c <? 0) && negb (chunked c)) eqn:E; auto.
  destruct H as [(ms & [? [] ? HP ? ?] & H2 & H3)|[(ms & h & l & hb & rest & [? [] ? ? ? ? ? ? ? ? ? ?] & Hlt)|[(ms & m & more & l & H)|(ms & m & more & l & a & len & pcs & evs & H)]]].
  - left. exists ms. split; [|split; auto]. constructor; csimp; auto. constructor; auto.
  - right; left. exists ms, h, l, hb, rest. split; auto. constructor; csimp; auto. constructor; auto.
  - right; right; left. exists ms, m, more, l. destruct H as [? [[]] ? ? ? ?]. constructor; csimp; auto. constructor; csimp; auto. constructor; auto.
  - right; right; right. exists ms, m, more, l, a, len, pcs, evs. destruct H as [? [[]] ? ? Hr Hc Hka ? ? ? ?]. constructor; csimp; auto.
    + constructor; csimp; auto. constructor; auto.
    + apply andb_true_iff in E as (E1 & E2). apply Z.ltb_lt in E1. apply negb_true_iff in E2.
      unfold keeps. rewrite <- Hc, E2. destruct (Z.leb_spec 0 len); [lia|]. cbn. now rewrite andb_false_r.
Qed.

Lemma total_nil : total [] = 0. Proof. reflexivity. Qed.
Lemma total_snoc pcs p : total (pcs ++ [p]) = total pcs + blen p.
Proof. unfold total. rewrite concat_app, blen_app. cbn [concat]. now rewrite app_nil_r. Qed.
Lemma total_nonneg pcs : 0 <= total pcs. Proof. apply blen_nonneg. Qed.

Lemma framing_none r a len : len = 0 \/ head_req r = true -> framing_of r a len = NoContent.
Proof. unfold framing_of. intros [->| ->]; [reflexivity|]. now rewrite orb_true_r. Qed.
Lemma framing_fixed r a len : 0 < len -> head_req r = false -> framing_of r a len = FixedLength len.
Proof. intros H E. unfold framing_of. rewrite E. destruct (Z.eqb_spec len 0); [lia|]. cbn [orb]. destruct (Z.ltb_spec 0 len); [auto|lia]. Qed.
Lemma framing_unknown r a len : len < 0 -> head_req r = false ->
  framing_of r a len = if chunked_resp r a len then ChunkedContent else UntilClose.
Proof. intros H E. unfold framing_of. rewrite E. destruct (Z.eqb_spec len 0); [lia|]. cbn [orb]. destruct (Z.ltb_spec 0 len); [lia|auto]. Qed.

(* the state in which toSendingContent is called *)
Lemma toSendingContent_ok c ms m more l a len hd : st c = SendingHeaders ->
  in_ok c = true -> out_ok c = true -> Serving ms m more l (set_hbuf [] c) ->
  RespLength a len -> RespHead (delivered m) a len hd ->
  log c = l ++ interim (delivered m) ++ [OReady (delivered m); OWrite hd] ->
  rlen c = len -> chunked c = chunked_resp (delivered m) a len -> keepalive c = keeps (delivered m) a len -> rsent c = 0 ->
  Good (toSendingContent c t k).
Proof.
  intros Hs Hin Hout HV HR HH HL Hr Hch Hka Hsent. unfold toSendingContent. rewrite Hs. cbn [cst_eqb].
  cbv zeta. csimp. rewrite is_head_ok.
  assert (Hreq : req c = delivered m) by (destruct HV; auto). rewrite Hreq, Hr.
  assert (AN : Answering (delivered m) a len [] [OWrite hd]).
  { apply Answer; auto; [constructor|]. unfold may_send. rewrite total_nil. unfold framing_of.
    destruct ((len =? 0) || _); auto. destruct (Z.ltb_spec 0 len); [lia|]. now destruct (chunked_resp _ _ _). }
  destruct ((len =? 0) || head_req (delivered m)) eqn:E.
  - eapply (toCompleted_ok _ _ _ ms m more l); [constructor; cbn; auto|].
    constructor; csimp; [discriminate| |].
    + destruct HV as [[] ? ? ? ? ? ?]. constructor; csimp in *; auto. constructor; auto.
    + assert (F : framing_of (delivered m) a len = NoContent) by (unfold framing_of; now rewrite E).
      exists (interim (delivered m) ++ OReady (delivered m) :: [OWrite hd] ++ final_events (framing_of (delivered m) a len) ++ [OCompleted]).
      split.
      * rewrite HL, F. cbn. rewrite <- !app_assoc. reflexivity.
      * rewrite Hka. eapply Exch; eauto. rewrite F. reflexivity.
  - apply orb_false_iff in E as (E1 & E2). apply Z.eqb_neq in E1.
    apply Hk. apply sending_live. right; right; right. exists ms, m, more, l, a, len, [], [OWrite hd].
    constructor; csimp; auto.
    + destruct HV as [[] ? ? ? ? ? ?]. constructor; csimp in *; auto. constructor; auto.
Qed.

Lemma writeHeaders_ok' code hs c ms m more l : SH ms m more l (set_rlen (-1) c) -> int_length code hs (rlen c) ->
  Good (writeHeaders code hs c t k).
Proof.
  intros [Hs HV H11 Hch Hrl Hsent HL] HI. csimp in *. pose proof HV as HV0. destruct HV0 as [[Hi Ho Hh Hw] ? ? ? Hreq ? ?]. csimp in *.
  destruct (writeHeaders_ok code hs c t k Hs Hh H11 Hch (int_length_ok _ _ _ HI)) as (hd & RH & ->).
  rewrite dev_write_ok by auto. rewrite Hreq in *.
  eapply (toSendingContent_ok _ ms m more l (mkAns code hs (rlen c)) (resp_len hs (rlen c)) hd); unfold wrote, head_conn, emit_log; csimp; auto.
  - constructor; csimp; auto. constructor; auto.
  - apply resp_len_ok.
  - rewrite HL, <- !app_assoc. reflexivity.
  - now rewrite Hreq.
  - now rewrite Hreq.
Qed.

Lemma writeHeaders_live code hs c : Live c -> int_length code hs (-1) -> Good (writeHeaders code hs c t k).
Proof.
  intros H HI. pose proof H as H0. destruct H as [(ms & H & _)|[(ms & h & l & hb & rest & H & _)|[(ms & m & more & l & H)|(ms & m & more & l & a & len & pcs & evs & H)]]].
  - unfold writeHeaders. rewrite (rh_st _ _ H). cbn. auto.
  - unfold writeHeaders. rewrite (rc_st _ _ _ _ _ _ H). cbn. auto.
  - pose proof (sh_rlen _ _ _ _ _ H) as E. eapply (writeHeaders_ok' code hs c ms m more l); [|now rewrite E].
    rewrite <- E. destruct c; exact H.
  - unfold writeHeaders. rewrite (sc_st _ _ _ _ _ _ _ _ _ H). cbn. auto.
Qed.

Lemma writeContent_live content c : Live c -> Good (writeContent content c t k).
Proof.
  intros H. pose proof H as H0. destruct H as [(ms & H & _)|[(ms & h & l & hb & rest & H & _)|[(ms & m & more & l & H)|(ms & m & more & l & a & len & pcs & evs & H)]]].
  1-3: unfold writeContent. 
  - rewrite (rh_st _ _ H). cbn. auto.
  - rewrite (rc_st _ _ _ _ _ _ H). cbn. auto.
  - rewrite (sh_st _ _ _ _ _ H). cbn. auto.
  - destruct H as [Hs HV HA HL Hr Hc Hka Hsent Hlen Hhead Hmore]. unfold writeContent. rewrite Hs. cbn [cst_eqb negb].
    rewrite Hr. destruct (Z.eqb_spec len 0); [auto|].
    destruct ((0 <? len) && (len <? blen content + rsent c)) eqn:EX; [auto|].
    pose proof HV as HV0. destruct HV0 as [[Hi Ho Hh Hw] ? ? ? Hreq ? ?].
    rewrite is_head_ok, Hreq, Hhead. cbn [negb]. rewrite andb_true_r.
    destruct (Z.ltb_spec 0 (blen content)) as [LP|LP]; [|auto].
    assert (NE : content <> []) by (intros ->; rewrite blen_nil in LP; lia).
    assert (MS : may_send (framing_of (delivered m) a len) (total (pcs ++ [content]))).
    { destruct (Z_lt_le_dec 0 len) as [P|P].
      - rewrite framing_fixed by auto. unfold may_send. rewrite total_snoc. destruct (Z.ltb_spec 0 len); [|lia].
        cbn [andb] in EX. destruct (Z.ltb_spec len (blen content + rsent c)); [discriminate|]. lia.
      - rewrite framing_unknown by (auto; lia). destruct (chunked_resp _ _ _); exact I. }
    (* after the piece has been written *)
    assert (FIN : forall c' ev, PieceEvents (framing_of (delivered m) a len) content ev ->
      same (set_log (log c ++ ev) (set_rsent (rsent c + blen content) c)) c' ->
      Good (if rsent c' =? rlen c' then toCompleted c' t k else k c')).
    { intros c' ev PE S.
      assert (HV' : Serving ms m more l c').
      { eapply Serving_same; [exact S|]. destruct HV as [[] ? ? ? ? ? ?]. constructor; csimp; auto. constructor; auto. }
      same_fields S.
      destruct HA as [hd evs HRL HRH HCE HMS].
      assert (HA' : Answering (delivered m) a len (pcs ++ [content]) (OWrite hd :: evs ++ ev)).
      { apply (Answer _ _ _ _ hd (evs ++ ev)); auto. now apply CE_snoc. }
      assert (HL' : log c' = l ++ interim (delivered m) ++ OReady (delivered m) :: OWrite hd :: evs ++ ev).
      { replace (log c') with (log c ++ ev) by congruence. rewrite HL, <- !app_assoc. reflexivity. }
      destruct (Z.eqb_spec (rsent c') (rlen c')) as [EQ|NEQ].
      - assert (TL : total (pcs ++ [content]) = len) by (rewrite total_snoc; lia).
        assert (P : 0 < len) by (pose proof (total_nonneg pcs); rewrite total_snoc in TL; lia).
        eapply (toCompleted_ok _ _ _ ms m more l); auto. constructor; auto; [congruence|].
        exists (interim (delivered m) ++ OReady (delivered m) :: (OWrite hd :: evs ++ ev) ++ final_events (framing_of (delivered m) a len) ++ [OCompleted]).
        split.
        + rewrite framing_fixed by auto. rewrite HL'. cbn. rewrite <- !app_assoc. cbn. rewrite <- !app_assoc. reflexivity.
        + eapply Exch; [exact HA'| |congruence]. rewrite framing_fixed by auto. exact TL.
      - apply Hk. right; right; right. exists ms, m, more, l, a, len, (pcs ++ [content]), (OWrite hd :: evs ++ ev).
        constructor; auto; try congruence.
        + rewrite total_snoc. congruence.
        + intros P. rewrite framing_fixed in MS by auto. unfold may_send in MS. rewrite total_snoc in *.
          assert (rsent c' = total pcs + blen content) by congruence. lia. }
    cbv zeta. csimp. rewrite Hc. destruct (chunked_resp (delivered m) a len) eqn:CH.
    + destruct (appendNumber_any 16 (blen content) ltac:(lia)) as (d & -> & Cd); [unfold INT_MIN; lia|].
      assert (len = -1).
      { unfold chunked_resp in CH. apply andb_true_iff in CH as (_ & CH). now apply Z.eqb_eq in CH. }
      rewrite dev_write_ok by (csimp; auto). rewrite dev_write_ok by (csimp; auto). rewrite dev_write_ok by (csimp; auto).
      apply (FIN _ [OWrite (d ++ CRLF); OWrite content; OWrite CRLF]).
      * rewrite framing_unknown, CH by (auto; lia). now apply PE_chunk.
      * unfold same, wrote, emit_log, core. csimp. rewrite <- !app_assoc. reflexivity.
    + rewrite dev_write_ok by (csimp; auto). apply (FIN _ [OWrite content]).
      * destruct (Z_lt_le_dec 0 len) as [P|P].
        -- rewrite framing_fixed by auto. constructor.
        -- rewrite framing_unknown, CH by (auto; lia). constructor.
      * reflexivity.
Qed.

Lemma endContent_live c : Live c -> Good (endContent c t k).
Proof.
  intros H. pose proof H as H0. destruct H as [(ms & H & _)|[(ms & h & l & hb & rest & H & _)|[(ms & m & more & l & H)|(ms & m & more & l & a & len & pcs & evs & H)]]].
  1-3: unfold endContent. 
  - rewrite (rh_st _ _ H). cbn. auto.
  - rewrite (rc_st _ _ _ _ _ _ H). cbn. auto.
  - rewrite (sh_st _ _ _ _ _ H). cbn. auto.
  - destruct H as [Hs HV HA HL Hr Hc Hka Hsent Hlen Hhead Hmore]. unfold endContent. rewrite Hs. cbn [cst_eqb negb].
    rewrite Hr. destruct (Z.leb_spec 0 len) as [P|P]; [auto|].
    pose proof HV as HV0. destruct HV0 as [[Hi Ho Hh Hw] ? ? ? Hreq ? ?].
    pose proof (framing_unknown (delivered m) a len P Hhead) as F.
    assert (EXC : forall ka, ka = keeps (delivered m) a len ->
       Exchange (delivered m) ka (interim (delivered m) ++ OReady (delivered m) :: evs ++ final_events (framing_of (delivered m) a len) ++ [OCompleted])).
    { intros ka ->. eapply Exch; eauto. rewrite F. destruct (chunked_resp _ _ _); exact I. }
    rewrite Hc. destruct (chunked_resp (delivered m) a len) eqn:CH.
    + rewrite dev_write_ok by auto. eapply (toCompleted_ok _ _ _ ms m more l); auto. unfold wrote, emit_log. constructor; csimp.
      * congruence.
      * destruct HV as [[] ? ? ? ? ? ?]. constructor; csimp; auto. constructor; auto.
      * eexists. split; [|apply EXC; exact Hka]. rewrite HL, F. cbn. rewrite <- !app_assoc. cbn. reflexivity.
    + eapply (toCompleted_ok _ _ _ ms m more l); auto. constructor; csimp.
      * congruence.
      * destruct HV as [[] ? ? ? ? ? ?]. constructor; csimp; auto. constructor; auto.
      * eexists. split; [|apply EXC].
        -- rewrite HL, F. cbn. rewrite <- !app_assoc. reflexivity.
        -- unfold keeps. rewrite CH. destruct (Z.leb_spec 0 len); [lia|]. cbn. now rewrite andb_false_r.
Qed.

Lemma resp_tail_live content c : Live c -> Good (resp_tail content c t k).
Proof.
  intros H. unfold resp_tail. destruct content; auto. destruct (_ && _); [left; auto|].
  destruct (is_head _); auto using writeContent_live.
Qed.
Lemma resp_tail_fin content c : FinS c -> Good (resp_tail content c t k).
Proof.
  intros H. unfold resp_tail. destruct content; auto. destruct (_ && _); [left; auto|].
  destruct (is_head _); auto. unfold writeContent.
  replace (cst_eqb (st c) SendingContent) with false by (destruct H as [(-> & _)|(-> & _)]; reflexivity). cbn. auto.
Qed.
Lemma flush_live c : Live c -> Good (flush c t k).
Proof.
  intros H. unfold flush. destruct (_ && _); auto. cbn [Good]. apply I_live.
  - eapply Live_same; [|exact H]. reflexivity.
  - constructor; cbn; auto.
Qed.
End Send.

Lemma writeResponse_live t k code hs content c : Base t -> (forall c, Live c -> Good (k c)) -> (forall c, FinS c -> Good (k c)) ->
  Live c -> int_length code hs (blen content) -> Good (writeResponse code hs content c t k).
Proof.
  intros Ht Hk Hf H HI. pose proof H as H0. unfold writeResponse.
  destruct H as [(ms & H & _)|[(ms & h & l & hb & rest & H & _)|[(ms & m & more & l & H)|(ms & m & more & l & a & len & pcs & evs & H)]]].
  - rewrite (rh_st _ _ H). cbn. auto.
  - rewrite (rc_st _ _ _ _ _ _ H). cbn. auto.
  - rewrite (sh_st _ _ _ _ _ H). cbn [cst_eqb negb].
    eapply (writeHeaders_ok' _ _ _ _ code hs _ ms m more l); csimp; auto.
    pose proof (sh_rlen _ _ _ _ _ H) as E. unfold set_rlen. csimp. rewrite <- E. destruct c; exact H.
  - rewrite (sc_st _ _ _ _ _ _ _ _ _ H). cbn. auto.
    Unshelve. all: auto.
    + constructor; cbn; auto.
    + intros; now apply resp_tail_live.
Qed.

(** ** Continuing the suspended calls *)
Lemma ClosedS_same c c' : same c c' -> ClosedS c -> ClosedS c'.
Proof. intros H (Hs & Hh & HS & HO). same_fields H. unfold ClosedS. repeat split; congruence. Qed.
Lemma resume_closed t : Clo t -> forall c, ClosedS c -> Good (resume t c).
Proof.
  induction t as [|f t IH]; intros Ht c H; cbn [resume]; [now apply I_clo|].
  inversion_clear Ht as [|? ? Hf Ht']. specialize (IH Ht'). destruct f as [s| | | | | |content|]; try contradiction.
  - apply I_clo; auto. now constructor.
  - unfold drain_tail. destruct (_ && _); auto. unfold toClosed. destruct H as (Hs & H). rewrite Hs. cbn [cst_eqb]. apply IH. split; auto.
  - apply IH. unfold flushing_tail. destruct H as (Hs & H). rewrite Hs. cbn [cst_eqb andb]. split; auto.
  - apply IH. unfold sending_tail. destruct (_ && _); auto.
  - unfold resp_tail. destruct content; auto. destruct (_ && _); [left; auto|]. destruct (is_head _); auto.
    unfold writeContent. destruct H as (Hs & H). rewrite Hs. cbn. apply IH. split; auto.
  - apply IH. exact H.
Qed.
Lemma resume_fin t : Fin t -> forall c, FinS c -> Good (resume t c).
Proof.
  induction t as [|f t IH]; intros Ht c H; cbn [resume]; [now apply I_fin|].
  inversion_clear Ht as [|? ? Hf Ht']. specialize (IH Ht'). destruct f as [s| | | | | |content|]; try contradiction.
  - apply I_fin; auto. now constructor.
  - now apply drain_tail_fin.
  - apply IH, flushing_fin, H.
  - apply IH, sending_fin, H.
  - now apply resp_tail_fin.
Qed.
Lemma resume_base t : Base t -> forall c, Live c -> Good (resume t c).
Proof.
  induction t as [|f t IH]; intros Ht c H; cbn [resume]; [now apply I_live|].
  pose proof Ht as Ht0. inversion_clear Ht as [|? ? Hf Ht']. specialize (IH Ht'). destruct f as [[]| | | | | |content|]; try contradiction.
  - apply I_live; auto.
  - apply I_live; auto.
  - apply IH, sending_live, H.
  - apply resp_tail_live; auto. 
Qed.

(** ** Steps *)
Lemma run_good_conn c stk : Inv c stk -> forall g, g = Run c stk -> Good g.
Proof. now intros H g ->. Qed.

Lemma closed_op o c stk : ClosedS c -> Clo stk -> (forall d, o <> OpInit d) -> Good (do_op o c stk).
Proof.
  intros H Hs Ho. pose proof (resume_closed stk Hs c H) as HR. pose proof H as H0. destruct H0 as (Hst & _). destruct o; cbn [do_op].
  - now destruct (Ho d).
  - unfold processInput. rewrite Hst. exact HR.
  - unfold writeResponse. rewrite Hst. exact HR.
  - unfold writeHeaders. rewrite Hst. exact HR.
  - unfold writeContent. rewrite Hst. exact HR.
  - unfold endContent. rewrite Hst. exact HR.
  - unfold toClosed. rewrite Hst. exact HR.
  - unfold flush. destruct (_ && _); auto. apply I_clo; [|now constructor]. eapply ClosedS_same; [|exact H]. reflexivity.
  - unfold drain. rewrite Hst. exact HR.
Qed.
Lemma fin_op o c stk : FinS c -> Fin stk -> (forall d, o <> OpInit d) -> Good (do_op o c stk).
Proof.
  intros H Hs Ho. pose proof (resume_fin stk Hs) as HR. 
  assert (Hst : st c = Flushing \/ st c = Closed) by (destruct H as [(-> & _)|(-> & _)]; auto).
  destruct o; cbn [do_op].
  - now destruct (Ho d).
  - unfold processInput. destruct Hst as [-> | ->]; now apply HR.
  - unfold writeResponse. destruct Hst as [-> | ->]; now apply HR.
  - unfold writeHeaders. destruct Hst as [-> | ->]; now apply HR.
  - unfold writeContent. destruct Hst as [-> | ->]; now apply HR.
  - unfold endContent. destruct Hst as [-> | ->]; now apply HR.
  - apply toClosed_fin; auto.
  - apply flush_fin; auto.
  - apply drain_fin; auto.
Qed.

(* after Completed, nothing but the pending continuation happens *)
Lemma completed_op o c stk k : st c = Completed -> (forall d, o <> OpInit d) -> o <> OpClose -> k = resume stk ->
  do_op o c stk = match o with OpFlush => flush c stk k | _ => k c end.
Proof.
  intros Hst Hi Hc ->. destruct o; cbn [do_op]; auto; try (now destruct (Hi d)); try congruence.
  - unfold processInput. now rewrite Hst.
  - unfold writeResponse. now rewrite Hst.
  - unfold writeHeaders. now rewrite Hst.
  - unfold writeContent. now rewrite Hst.
  - unfold endContent. now rewrite Hst.
  - unfold drain. now rewrite Hst.
Qed.

Lemma C1_same ms m more l c c' : same c c' -> C1 ms m more l c -> C1 ms m more l c'.
Proof.
  intros H [? HV (e & ? & ?)]. pose proof (Serving_same _ _ _ _ _ _ H HV). same_fields H. constructor; auto; try congruence.
  exists e. split; congruence.
Qed.
Lemma C2_same ms c c' : same c c' -> C2 ms c -> C2 ms c'.
Proof. intros H [? HC ? ? ?]. pose proof (Common_same _ _ _ H HC). same_fields H. constructor; auto; congruence. Qed.

Lemma init_ok c so data : Inv c [] -> st c = Uninitialized \/ st c = Closed ->
  Good (do_op (OpInit (NewDevice true true so data)) c []).
Proof.
  intros HI Hs. cbn [do_op]. unfold initialize. csimp.
  destruct (isnull c && (cap c <=? MaxHead)); [right; auto|].
  assert (Hh : hbuf c = []).
  { destruct HI as [? ? H ? ? ? ?|H _|? ? ? ? ? ? H _ _ _|? ? ? H _ _ _ _|H _|(_ & H & _) _]; auto.
    - apply Live_Body in H as (ms & ? & ? & ? & [] & _). auto.
    - apply H.
    - apply H.
    - destruct H as [(_ & ms & ? & ? & ? & [] & _)|(_ & H & _)]; auto. }
  match goal with |- context [toReceivingHeaders ?x] => assert (E : in_ok x = true /\ out_ok x = true /\ avail x = data /\ buf x = [] /\ hbuf x = [] /\ arrived x = data /\ log x = [] /\ refs (ps x) = [] /\ st x = st c); [|set (c1 := x) in *] end.
  { csimp. destruct (cap c <=? MaxHead); csimp; auto 10. }
  destruct E as (E1 & E2 & E3 & E4 & E5 & E6 & E7 & E8 & E9).
  assert (ET : in_ok (toReceivingHeaders c1) = true) by (unfold toReceivingHeaders; rewrite E9; destruct Hs as [-> | ->]; exact E1).
  rewrite ET. cbn [Good]. cbn [resume]. cbn [Good]. apply I_live; [|constructor].
  left. exists []. unfold toReceivingHeaders. rewrite E9. replace (cst_eqb (st c) ReceivingHeaders) with false by (destruct Hs as [-> | ->]; reflexivity).
  split; [|split]; csimp.
  - constructor; csimp; auto.
    + constructor; csimp; auto.
    + exists (tp (ps c1)), [], [], 1. rewrite E4, E8. auto.
    + rewrite E3, E4, E6. reflexivity.
    + rewrite E7. constructor.
  - exists (tp (ps c1)), 1. rewrite E4, E8. auto.
  - rewrite E4. unfold MaxHead. cbn. lia.
Qed.

Lemma live_op o c stk : Live c -> Base stk -> polite c stk (ACall o) -> Good (do_op o c stk).
Proof.
  intros H Hs Hp. pose proof (resume_base stk Hs) as HR. pose proof (resume_fin stk (Base_Fin _ Hs)) as HF.
  destruct o; cbn [do_op polite] in *.
  - exfalso. destruct Hp as (_ & [E|E] & _);
    destruct H as [(ms & [] & _)|[(ms & h & l & hb & rest & [] & _)|[(ms & m & more & l & [])|(ms & m & more & l & a & len & pcs & evs & [])]]]; congruence.
  - now apply processInput_live.
  - now apply writeResponse_live.
  - now apply writeHeaders_live.
  - now apply writeContent_live.
  - now apply endContent_live.
  - apply toClosed_ok; auto using Live_Body, Base_Fin.
    destruct H as [(ms & [] & _)|[(ms & h & l & hb & rest & [] & _)|[(ms & m & more & l & [])|(ms & m & more & l & a & len & pcs & evs & [])]]]; congruence.
  - now apply flush_live.
  - unfold drain. replace (cst_eqb (st c) Flushing) with false; [now apply HR|].
    destruct H as [(ms & [] & _)|[(ms & h & l & hb & rest & [] & _)|[(ms & m & more & l & [])|(ms & m & more & l & a & len & pcs & evs & [])]]];
    match goal with E : st _ = _ |- _ => rewrite E end; reflexivity.
Qed.

Lemma c1_op o c stk ms m more l s t : C1 ms m more l c -> stk = s ++ KSig SCompleted :: KCompleted :: t -> writes s -> Base t ->
  polite c stk (ACall o) -> Good (do_op o c stk).
Proof.
  intros H -> Hs Ht Hp. pose proof (c1_st _ _ _ _ _ H) as Hst.
  rewrite (completed_op o c _ (resume (s ++ KSig SCompleted :: KCompleted :: t)) Hst); auto.
  2: { intros d ->. cbn in Hp. destruct Hp as (_ & [E|E] & _); congruence. }
  2: { intros ->. cbn in Hp. congruence. }
  assert (K : Good (resume (s ++ KSig SCompleted :: KCompleted :: t) c)).
  { destruct s as [|f s]; cbn [app resume].
    - eapply I_c1 with (s := []); eauto; reflexivity.
    - inversion Hs; subst. eapply I_c1 with (s := KSig SWritten :: s); eauto; reflexivity. }
  destruct o; auto. unfold flush. destruct (_ && _); auto.
  eapply I_c1 with (s := KSig SWritten :: s); eauto; [|reflexivity|now constructor].
  eapply C1_same; [|exact H]. reflexivity.
Qed.
Lemma c2_op o c stk ms s t : C2 ms c -> stk = s ++ KFlushC :: t -> s <> [] -> writes s -> Base t ->
  polite c stk (ACall o) -> Good (do_op o c stk).
Proof.
  intros H -> Hn Hs Ht Hp. pose proof (c2_st _ _ H) as Hst.
  rewrite (completed_op o c _ (resume (s ++ KFlushC :: t)) Hst); auto.
  2: { intros d ->. cbn in Hp. destruct Hp as (_ & [E|E] & _); congruence. }
  2: { intros ->. cbn in Hp. congruence. }
  assert (K : Good (resume (s ++ KFlushC :: t) c)).
  { destruct s as [|f s]; [congruence|]. inversion Hs; subst. cbn [app resume].
    eapply I_c2 with (s := KSig SWritten :: s); eauto; reflexivity. }
  destruct o; auto. unfold flush. destruct (_ && _); auto.
  eapply I_c2 with (s := KSig SWritten :: s); eauto; [|reflexivity|discriminate|now constructor].
  eapply C2_same; [|exact H]. reflexivity.
Qed.

Lemma new_op o c : Inv c [] -> st c = Uninitialized -> (forall d, o <> OpInit d) -> in_ok c = false -> out_ok c = false ->
  log c = [] -> arrived c = [] -> hbuf c = [] -> Good (do_op o c []).
Proof.
  intros HI Hs Ho Hi Hout HL HA Hh. destruct o; cbn [do_op].
  - now destruct (Ho d).
  - unfold processInput. rewrite Hs. exact HI.
  - unfold writeResponse. rewrite Hs. exact HI.
  - unfold writeHeaders. rewrite Hs. exact HI.
  - unfold writeContent. rewrite Hs. exact HI.
  - unfold endContent. rewrite Hs. exact HI.
  - unfold toClosed. rewrite Hs. cbn [cst_eqb]. csimp. rewrite Hi, Hout. cbn [orb]. unfold emit_log. csimp. rewrite HL.
    apply I_clo; [|repeat constructor]. split; [reflexivity|]. split; [exact Hh|]. csimp. rewrite HA. split; [|now left].
    apply (Story_intro [] [] [] [] [] [OClosed]); constructor.
  - unfold flush. rewrite Hout. exact HI.
  - unfold drain. rewrite Hs. exact HI.
Qed.

(** more bytes arrive *)
Lemma Live_arrive b c : Live c -> Live (set_arrived (arrived c ++ b) (set_avail (avail c ++ b) c)).
Proof.
  intros [(ms & [? [] ? HP HA ?] & H2 & H3)|[(ms & h & l & hb & rest & [? [] ? ? ? ? ? ? ? HA ? ?] & Hlt)|[(ms & m & more & l & H)|(ms & m & more & l & a & len & pcs & evs & H)]]].
  - left. exists ms. split; [|split; auto]. constructor; csimp; auto; [constructor; auto|]. rewrite HA, <- !app_assoc. reflexivity.
  - right; left. exists ms, h, l, hb, rest. split; auto. constructor; csimp; auto; [constructor; auto|]. rewrite HA, <- !app_assoc. reflexivity.
  - right; right; left. exists ms, m, more, l. destruct H as [? [[] ? ? ? ? HA ?] ? ? ? ?]. constructor; csimp; auto. constructor; csimp; auto; [constructor; auto|].
    rewrite HA, <- !app_assoc. reflexivity.
  - right; right; right. exists ms, m, more, l, a, len, pcs, evs. destruct H as [? [[] ? ? ? ? HA ?] ? ? ? ? ? ? ? ? ?]. constructor; csimp; auto.
    constructor; csimp; auto; [constructor; auto|]. rewrite HA, <- !app_assoc. reflexivity.
Qed.
Lemma LastTail_ext rest b t : LastTail rest t -> LastTail (rest ++ b) t.
Proof.
  intros [m x e H1 -> H3|s H].
  - apply (LT_last _ m (x ++ b) e); auto. now rewrite app_assoc.
  - apply LT_refused. now apply Refusable_ext.
Qed.
Lemma Body_arrive b c : BodyOf LastTail c -> BodyOf LastTail (set_arrived (arrived c ++ b) (set_avail (avail c ++ b) c)).
Proof.
  intros (ms & rest & l & t & [] & A & E & L & T). eapply (Body_intro _ _ ms (rest ++ b) l t); csimp; auto.
  - constructor; auto.
  - rewrite A, <- app_assoc. reflexivity.
  - now apply LastTail_ext.
Qed.
Lemma arrive_ok b c stk : Inv c stk -> st c <> Closed -> in_ok c = true -> Inv (set_arrived (arrived c ++ b) (set_avail (avail c ++ b) c)) stk.
Proof.
  intros [? ? ? ? ? ? ?|H Hb|ms m more l s t H ? ? ?|ms s t H ? ? ? ?|H Hf|H Hc] Hs Hi.
  - congruence.
  - apply I_live; auto using Live_arrive.
  - eapply (I_c1 _ _ ms m more l s t); auto. destruct H as [? [[] ? ? ? ? HA ?] ?]. constructor; csimp; auto. constructor; csimp; auto; [constructor; auto|].
    rewrite HA, <- !app_assoc. reflexivity.
  - eapply (I_c2 _ _ ms s t); auto. destruct H as [? [] ? HA ?]. constructor; csimp; auto; [constructor; auto|]. rewrite HA, <- !app_assoc. reflexivity.
  - apply I_fin; auto. destruct H as [(Hst & B)|(Hst & _)]; [|congruence]. left. split; auto. now apply Body_arrive.
  - destruct H. congruence.
Qed.

Lemma Inv_same c c' stk : same c c' -> Inv c stk -> Inv c' stk.
Proof.
  intros S [? ? ? ? ? ? ?|H Hb|ms m more l s t H ? ? ?|ms s t H ? ? ? ?|H Hf|H Hc].
  - same_fields S. apply I_new; congruence.
  - apply I_live; eauto using Live_same.
  - eapply I_c1; eauto using C1_same.
  - eapply I_c2; eauto using C2_same.
  - apply I_fin; eauto using FinS_same.
  - apply I_clo; eauto using ClosedS_same.
Qed.

Lemma op_ok o c stk : Inv c stk -> polite c stk (ACall o) -> Good (do_op o c stk).
Proof.
  intros HI Hp. destruct o as [d| | | | | | | |] eqn:EO.
  - cbn in Hp. destruct Hp as (-> & Hs & so & data & ->). now apply init_ok.
  - rewrite <- EO in *. assert (Ho : forall d, o <> OpInit d) by (intros d; congruence).
    destruct HI as [? -> ? ? ? ? ?|H Hb|ms m more l s t H ? ? ?|ms s t H ? ? ? ?|H Hf|H Hc].
    1: apply new_op; auto; now apply I_new. all: eauto using live_op, c1_op, c2_op, fin_op, closed_op.
  - rewrite <- EO in *. assert (Ho : forall d, o <> OpInit d) by (intros d; congruence).
    destruct HI as [? -> ? ? ? ? ?|H Hb|ms m more l s t H ? ? ?|ms s t H ? ? ? ?|H Hf|H Hc].
    1: apply new_op; auto; now apply I_new. all: eauto using live_op, c1_op, c2_op, fin_op, closed_op.
  - rewrite <- EO in *. assert (Ho : forall d, o <> OpInit d) by (intros d; congruence).
    destruct HI as [? -> ? ? ? ? ?|H Hb|ms m more l s t H ? ? ?|ms s t H ? ? ? ?|H Hf|H Hc].
    1: apply new_op; auto; now apply I_new. all: eauto using live_op, c1_op, c2_op, fin_op, closed_op.
  - rewrite <- EO in *. assert (Ho : forall d, o <> OpInit d) by (intros d; congruence).
    destruct HI as [? -> ? ? ? ? ?|H Hb|ms m more l s t H ? ? ?|ms s t H ? ? ? ?|H Hf|H Hc].
    1: apply new_op; auto; now apply I_new. all: eauto using live_op, c1_op, c2_op, fin_op, closed_op.
  - rewrite <- EO in *. assert (Ho : forall d, o <> OpInit d) by (intros d; congruence).
    destruct HI as [? -> ? ? ? ? ?|H Hb|ms m more l s t H ? ? ?|ms s t H ? ? ? ?|H Hf|H Hc].
    1: apply new_op; auto; now apply I_new. all: eauto using live_op, c1_op, c2_op, fin_op, closed_op.
  - rewrite <- EO in *. assert (Ho : forall d, o <> OpInit d) by (intros d; congruence).
    destruct HI as [? -> ? ? ? ? ?|H Hb|ms m more l s t H ? ? ?|ms s t H ? ? ? ?|H Hf|H Hc].
    1: apply new_op; auto; now apply I_new. all: eauto using live_op, c1_op, c2_op, fin_op, closed_op.
  - rewrite <- EO in *. assert (Ho : forall d, o <> OpInit d) by (intros d; congruence).
    destruct HI as [? -> ? ? ? ? ?|H Hb|ms m more l s t H ? ? ?|ms s t H ? ? ? ?|H Hf|H Hc].
    1: apply new_op; auto; now apply I_new. all: eauto using live_op, c1_op, c2_op, fin_op, closed_op.
  - rewrite <- EO in *. assert (Ho : forall d, o <> OpInit d) by (intros d; congruence).
    destruct HI as [? -> ? ? ? ? ?|H Hb|ms m more l s t H ? ? ?|ms s t H ? ? ? ?|H Hf|H Hc].
    1: apply new_op; auto; now apply I_new. all: eauto using live_op, c1_op, c2_op, fin_op, closed_op.
Qed.

Lemma step_ok g a : Good g -> (match g with Run c stk => polite c stk a | UB _ _ => True end) -> Good (step g a).
Proof.
  intros HG Hp. destruct g as [c stk|r c]; [|exact HG]. cbn [Good] in HG. destruct a as [o| |b|n|n].
  - now apply op_ok.
  - cbn [step]. destruct stk as [|[s| | | | | | |] t]; auto.
    destruct HG as [? E ? ? ? ? ?|H Hb|ms m more l s' t' H E Hw Ht|ms s' t' H E Hn Hw Ht|H Hf|H Hc].
    + discriminate.
    + inversion_clear Hb. now apply resume_base.
    + destruct s' as [|f s'].
      * injection E as -> ->. cbn [resume]. eapply completed_tail_ok; eauto using resume_base, resume_fin, Base_Fin.
      * injection E as <- ->. inversion Hw; subst. destruct s' as [|f s'].
        -- cbn [app resume]. eapply I_c1 with (s := []); eauto; reflexivity.
        -- inversion H3; subst. cbn [app resume]. eapply I_c1 with (s := KSig SWritten :: s'); eauto; reflexivity.
    + destruct s' as [|f s']; [congruence|]. injection E as <- ->. inversion Hw; subst. destruct s' as [|f s'].
      * cbn [app resume]. eapply flushc_tail_ok; eauto using resume_base, resume_fin, Base_Fin.
      * inversion H3; subst. cbn [app resume]. eapply I_c2 with (s := KSig SWritten :: s'); eauto; [reflexivity|discriminate].
    + inversion_clear Hf. now apply resume_fin.
    + inversion_clear Hc. now apply resume_closed.
  - cbn [step]. destruct (in_ok c && negb (cst_eqb (st c) Closed)) eqn:E; auto.
    apply andb_true_iff in E as (E1 & E2). apply arrive_ok; auto. intros E; rewrite E in E2. discriminate.
  - cbn [step Good]. eapply Inv_same; [|exact HG]. reflexivity.
  - cbn [step]. cbv zeta. set (n' := Z.max 0 _). 
    assert (HI : Inv (set_pending (pending c - n') c) stk) by (eapply Inv_same; [|exact HG]; reflexivity).
    csimp. destruct (drain_conn c); auto.
    change (Good (do_op OpDrain (set_pending (pending c - n') c) stk)). now apply op_ok.
Qed.

Lemma start_ok : Good start.
Proof. apply I_new; reflexivity. Qed.
Lemma run_ok l : forall g, Good g -> polite_run g l -> Good (run g l).
Proof.
  induction l as [|a l IH]; intros g HG HP; [exact HG|]. destruct HP as (HP1 & HP2).
  cbn [run fold_left]. apply IH; auto. now apply step_ok.
Qed.
Theorem polite_story l : polite_run start l -> match run start l with
  | Run c _ => Story (arrived c) (log c)
  | UB r _ => r = UseAfterFree \/ r = SharedNullWrite
  end.
Proof. intros H. pose proof (run_ok l start start_ok H) as G. destruct (run start l); cbn in *; eauto using Inv_Story. Qed.
