(** C45: the request text HttpClient writes is one the server accepts, and it means the same request there.
    Specification: ClientSpec.v (what a client writes), ConnSpec.v and ReqGrammar.v (what a server accepts and shows). *)
From Verif Require Import Bytes TextSpec ReqGrammar ByteHelpers Helpers Joyent RespParser Client ClientSpec ClientInv PropsClient.
From Verif Require Import Conn ConnSpec ConnText ConnEnd PropsConn.
Open Scope Z_scope.

(** ** Clean requests *)
Definition clean_value (v : bytes) : Prop := (forall c, In c v -> c <> CR) /\ (forall t, v <> SP :: t).
Record clean_request (r : creq) : Prop := mkClean {
  cl_method : forallb method_char (cr_method r) = true;
  cl_method_len : (1 <= length (cr_method r) <= 20)%nat;
  cl_path : exists p, u_path (cr_url r) = lit "/" ++ p /\ Text path_char p;
  cl_query : Text uri_char (u_query (cr_url r));
  cl_host : clean_value (u_host (cr_url r));
  cl_port : -1 <= u_port (cr_url r) <= 65535;
  cl_headers : Forall (fun h => fst h <> [] /\ forallb token_char (fst h) = true /\ clean_value (snd h)) (cr_headers r);
  (* a Content-Length of the user's own would be the only one if there is no content *)
  cl_length : cr_data r = [] -> last_named "content-length" (cr_headers r) = None;
  cl_max : blen (cr_data r) <= 134217728 }.

(** [Same r q]: the request q seen by the handler is the one r given to the client, with a Host header, and a
    Content-Length header if there is content *)
Inductive Same (r : creq) : Conn.request -> Prop :=
| Sm host d : HostText (cr_url r) host -> Canonical 10 d (blen (cr_data r)) ->
    Same r (mkReq (cr_method r)
      (u_path (cr_url r) ++ (if beqb (u_query (cr_url r)) [] then [] else lit "?" ++ u_query (cr_url r)))
      (u_path (cr_url r)) (u_query (cr_url r)) [] (lit "HTTP/1.1")
      ((lit "Host", host) :: cr_headers r ++ (if beqb (cr_data r) [] then [] else [(lit "Content-Length", d)]))
      (cr_data r)).

Definition hl (h : bytes * bytes) : hline := mkHline (fst h) 1 (snd h).
Lemma hl_text hs : concat (map hline_text (map hl hs)) = concat (map header_line hs).
Proof. induction hs as [|h hs IH]; [reflexivity|]. cbn [map concat]. rewrite IH. f_equal. Qed.
Lemma hl_spec hs : map (fun l => (hname l, hvalue l)) (map hl hs) = hs.
Proof. induction hs as [|[n v] hs IH]; [reflexivity|]. cbn [map]. now rewrite IH. Qed.

Lemma digits_clean d n : Digits 10 d n -> clean_value d.
Proof.
  intros H. assert (A : Forall (fun c => c <> CR /\ c <> SP) d).
  { induction H as [c d0 H1 H2|s n c d0 H IH H1 H2].
    - constructor; [|constructor]. split; intros ->; discriminate.
    - apply Forall_app. split; [exact IH|]. constructor; [|constructor]. split; intros ->; discriminate. }
  rewrite Forall_forall in A. split; [intros c Hc; now apply A|]. intros t ->. destruct (A SP) as (_ & B); [now left|congruence].
Qed.
Lemma canon_digits d n : 0 <= n -> Canonical 10 d n -> Digits 10 d n.
Proof. intros H (ds & A & -> & _). rewrite Z.abs_eq in A by lia. replace (n <? 0) with false by (symmetry; apply Z.ltb_ge; lia). exact A. Qed.
Lemma beqb_nil_iff (b : bytes) : beqb b [] = true <-> b = [].
Proof. destruct b; split; intros; try reflexivity; discriminate. Qed.
Lemma clean_app a b : clean_value a -> (forall c, In c b -> c <> CR) -> (a = [] -> forall t, b <> SP :: t) -> clean_value (a ++ b).
Proof.
  intros [A B] C D. split.
  - intros c H. apply in_app_iff in H as [H|H]; auto.
  - destruct a as [|x a]; [now apply D|]. intros t E. injection E as -> E. now apply (B a).
Qed.

(** ** One request *)
Theorem C45_parsed r b : clean_request r -> RequestText r b -> blen b - blen (cr_data r) <= 32767 ->
  exists m, wf_msg m /\ wire m = b /\ Same r (delivered m).
Proof.
  intros [M ML (p & P & Tp) Tq Hh Pt Hs Cl Mx] (hd & [host d HT CD] & ->) Sz.
  assert (B : 0 <= blen (cr_data r)) by (unfold blen; lia).
  pose proof (canon_digits _ _ B CD) as DD.
  set (q := u_query (cr_url r)) in *.
  set (hs := (lit "Host", host) :: cr_headers r ++ (if beqb (cr_data r) [] then [] else [(lit "Content-Length", d)])).
  set (tg := Origin p (if beqb q [] then None else Some q)).
  set (h := mkHead (cr_method r) tg None (lit "1") (lit "1") (map hl hs)).
  assert (HX : clean_value host).
  { destruct HT as [|d' _ _ C]; [exact Hh|].
    assert (u_port (cr_url r) = -1 \/ 0 <= u_port (cr_url r)) as [E|E] by lia.
    - rewrite E in C. destruct C as (ds & A & -> & _). apply digits_clean in A as (A & _). apply clean_app; auto.
      + intros c [<-|[<-|Hc]]; try discriminate; auto.
      + intros _ t E'. discriminate.
    - apply canon_digits in C; auto. apply digits_clean in C as (A & _). apply clean_app; auto.
      + intros c [<-|Hc]; try discriminate; auto.
      + intros _ t E'. discriminate. }
  assert (TX : target_text tg = u_path (cr_url r) ++ (if beqb q [] then [] else lit "?" ++ q)).
  { unfold tg. rewrite P. destruct (beqb q []); cbn [target_text]; rewrite ?app_nil_r, <- ?app_assoc; reflexivity. }
  assert (HD : head_text h = cr_method r ++ lit " " ++ u_path (cr_url r) ++ (if beqb q [] then [] else lit "?" ++ q) ++ lit " HTTP/1.1" ++ CRLF
       ++ concat (map header_line ((lit "Host", host) :: cr_headers r))
       ++ (if beqb (cr_data r) [] then [] else header_line (lit "Content-Length", d)) ++ CRLF).
  { unfold head_text, h, fragment_text, version_text. cbn [hd_method hd_target hd_fragment hd_major hd_minor hd_headers].
    rewrite TX, hl_text. unfold hs. change (?x :: ?y ++ ?z) with ((x :: y) ++ z). rewrite map_app, concat_app, <- !app_assoc.
    do 4 f_equal. cbn [app]. change (lit " HTTP/1.1") with (lit " " ++ (lit "HTTP/" ++ lit "1") ++ lit "." ++ lit "1"). rewrite <- !app_assoc.
    do 6 f_equal. destruct (beqb (cr_data r) []); cbn [map concat]; rewrite ?app_nil_r; reflexivity. }
  exists (mkMsg h (cr_data r)). split; [|split].
  - constructor; cbn [m_head m_content].
    + constructor; cbn [h hd_method hd_target hd_fragment hd_major hd_minor hd_headers]; auto.
      * unfold tg. destruct (beqb q []); now constructor.
      * discriminate.
      * split; [discriminate|reflexivity].
      * split; [discriminate|reflexivity].
      * assert (Z : Forall (fun h => fst h <> [] /\ forallb token_char (fst h) = true /\ clean_value (snd h)) hs).
        { unfold hs. constructor; [split; [discriminate|]; split; [reflexivity|exact HX]|]. apply Forall_app. split; [exact Hs|].
          destruct (beqb (cr_data r) []); constructor; [|constructor]. split; [discriminate|]. split; [reflexivity|]. eapply digits_clean; eauto. }
        apply Forall_map. eapply Forall_impl; [|exact Z]. intros x (X1 & X2 & X3 & X4). split; [exact X1|]. split; [exact X2|]. split; assumption.
    + rewrite HD. unfold blen in *. rewrite !app_length in *. lia.
    + assert (SH : spec_headers h = hs) by apply hl_spec.
      destruct (beqb (cr_data r) []) eqn:E.
      * apply beqb_nil_iff in E. rewrite E. cbn [length]. change (blen []) with 0. apply AL_none. rewrite SH. unfold hs, last_named.
        rewrite app_nil_r. specialize (Cl E). unfold last_named in Cl. exact Cl.
      * apply (AL_some _ (lit "Content-Length") d).
        -- rewrite SH. unfold hs, last_named. change (?x :: ?y ++ ?z) with ((x :: y) ++ z). rewrite filter_app. cbn [filter named fst].
           rewrite rev_app_distr. reflexivity.
        -- rewrite <- (app_nil_r d). apply (IT _ _ [] [] d (blen (cr_data r)) _ []); auto. unfold int_lo, int_hi. lia.
    + exact Mx.
  - unfold wire. cbn [m_head m_content]. now rewrite HD, <- ?app_assoc.
  - unfold delivered. cbn [m_head m_content]. unfold spec_headers, spec_fragment, version_text, h.
    cbn [hd_method hd_target hd_fragment hd_major hd_minor hd_headers]. rewrite hl_spec.
    replace (shown_uri tg) with (u_path (cr_url r) ++ (if beqb q [] then [] else lit "?" ++ q)).
    2: { rewrite <- TX. unfold tg. destruct (beqb q []) eqn:E; [reflexivity|]. destruct q; [discriminate|reflexivity]. }
    replace (spec_path tg) with (u_path (cr_url r)) by (unfold tg; now destruct (beqb q [])).
    replace (spec_query tg) with q.
    2: { unfold tg. destruct (beqb q []) eqn:E; [|reflexivity]. apply beqb_nil_iff in E. rewrite E. reflexivity. }
    apply Sm; assumption.
Qed.

(** ** What a client writes on its connections *)
Definition last_taken (l : list cobs) : option creq :=
  fold_left (fun p o => match o with CAccepted r => Some r | _ => p end) l None.
(** the bytes written on the latest connection *)
Definition stream (l : list cobs) : bytes :=
  fold_left (fun s o => match o with CConnect _ _ => [] | CWrite b => s ++ b | _ => s end) l [].
Definition accepted (l : list cobs) : list creq := concat (map (fun o => match o with CAccepted r => [r] | _ => [] end) l).
(** xs is ys without some of its elements *)
Inductive Among {A} : list A -> list A -> Prop :=
| Am_nil : Among [] []
| Am_skip x xs ys : Among xs ys -> Among xs (x :: ys)
| Am_take x xs ys : Among xs ys -> Among (x :: xs) (x :: ys).

Lemma among_none {A} (ys : list A) : Among [] ys.
Proof. induction ys; now constructor. Qed.
Lemma among_app {A} (a b c d : list A) : Among a b -> Among c d -> Among (a ++ c) (b ++ d).
Proof. intros H K. induction H; cbn [app]; [exact K|now apply Am_skip|now apply Am_take]. Qed.
Lemma taken_app l a : last_taken (l ++ a) = fold_left (fun p o => match o with CAccepted r => Some r | _ => p end) a (last_taken l).
Proof. apply fold_left_app. Qed.
Lemma taken_writes l ws : last_taken (l ++ map CWrite ws) = last_taken l.
Proof. rewrite taken_app. generalize (last_taken l). induction ws as [|w ws IH]; intros p; [reflexivity|]. apply IH. Qed.
Lemma dialog_taken l s r : Dialog l s -> under_way s = Some r -> last_taken l = Some r.
Proof.
  intros H. revert r. induction H; intros r0 U; cbn [under_way] in *; try discriminate; rewrite ?taken_writes, ?taken_app; cbn [fold_left]; auto.
  - destruct H0 as [-> | ->]; auto.
Qed.

Lemma app_cut {A} (a b c d : list A) (x : A) : a ++ b = c ++ x :: d ->
  (exists e, a = c ++ x :: e) \/ (exists e, c = a ++ e /\ b = e ++ x :: d).
Proof.
  revert c. induction a as [|y a IH]; intros c E; cbn [app] in E.
  - right. exists c. auto.
  - destruct c as [|z c]; cbn [app] in E; injection E as -> E.
    + left. exists a. reflexivity.
    + destruct (IH _ E) as [(e & ->)|(e & -> & ->)]; [left|right]; exists e; auto.
Qed.
Lemma app_cut1 {A} (a c d : list A) (y x : A) : a ++ [y] = c ++ x :: d -> x <> y -> exists e, a = c ++ x :: e.
Proof.
  intros E N. apply app_cut in E as [E|(e & -> & E)]; auto. destruct e as [|z e]; injection E as E1 E2; [congruence|]. destruct e; discriminate.
Qed.
Lemma dialog_write l s l1 w l2 : Dialog l s -> l = l1 ++ CWrite w :: l2 ->
  exists r, last_taken l1 = Some r /\ peer l1 = Some (server (cr_url r)).
Proof.
  intros H. revert l1 w l2. induction H; intros l1 w l2 E;
    try (apply app_cut1 in E as (e0 & E); [exact (IHDialog _ _ _ E)|discriminate]).
  - destruct l1; discriminate.
  - apply app_cut in E as [(e & E)|(e & -> & E)]; [eauto|].
    exists r. assert (X : exists ws', e = map CWrite ws').
    { clear -E. revert e E. induction ws as [|x ws IH]; intros e E; cbn [map] in E; [destruct e; discriminate|].
      destruct e as [|y e]; [now exists []|]. injection E as <- E. destruct (IH _ E) as (ws' & ->). now exists (x :: ws'). }
    destruct X as (ws' & ->). rewrite taken_writes, peer_writes. split; [|assumption].
    apply (dialog_taken _ _ _ H). destruct H0 as [-> | ->]; reflexivity.
Qed.

Lemma accepted_app a b : accepted (a ++ b) = accepted a ++ accepted b.
Proof. unfold accepted. now rewrite map_app, concat_app. Qed.
Lemma accepted_writes ws : accepted (map CWrite ws) = [].
Proof. induction ws; auto. Qed.
Lemma stream_app l a : stream (l ++ a) = fold_left (fun s o => match o with CConnect _ _ => [] | CWrite b => s ++ b | _ => s end) a (stream l).
Proof. apply fold_left_app. Qed.
Lemma stream_writes l ws : stream (l ++ map CWrite ws) = stream l ++ concat ws.
Proof.
  rewrite stream_app. generalize (stream l). induction ws as [|w ws IH]; intros p; cbn [map fold_left concat]; [now rewrite app_nil_r|].
  now rewrite IH, <- app_assoc.
Qed.

(* the texts written since the latest connection: those of requests to its server, each taken only once *)
Definition not_sent (s : stand) : option creq := match s with Taken r | Calling r => Some r | _ => None end.
Definition Sending (l : list cobs) (s : stand) : Prop :=
  exists rs bs dn, Forall2 RequestText rs bs /\ stream l = concat bs /\ Forall (fun r => peer l = Some (server (cr_url r))) rs /\
    accepted l = dn ++ match not_sent s with Some r => [r] | None => [] end /\ Among rs dn.
Lemma sending_skip l s s' o : Sending l s -> stream (l ++ [o]) = stream l -> peer (l ++ [o]) = peer l ->
  accepted (l ++ [o]) = accepted l ++ (match not_sent s with Some r => [] | None => match not_sent s' with Some r => [r] | None => [] end end) ->
  (not_sent s <> None -> not_sent s' = not_sent s \/ not_sent s' = None) -> Sending (l ++ [o]) s'.
Proof.
  intros (rs & bs & dn & A & B & C & D & F) E1 E2 E3 E4. unfold Sending. rewrite E1, E2, E3, D.
  destruct (not_sent s) as [r|] eqn:N.
  - destruct E4 as [-> | ->]; [discriminate| |].
    + exists rs, bs, dn. rewrite app_nil_r. auto.
    + exists rs, bs, (dn ++ [r]). rewrite !app_nil_r. repeat (split; auto).
      rewrite <- (app_nil_r rs). apply among_app; [exact F|apply among_none].
  - exists rs, bs, dn. rewrite app_nil_r. auto.
Qed.
Lemma not_sent_under s : under_way s = None -> not_sent s = None.
Proof. now destruct s. Qed.
Ltac skip X := eapply sending_skip; [exact X|rewrite stream_app; reflexivity|rewrite peer_app; reflexivity|rewrite accepted_app|];
  cbn [not_sent accepted map concat app]; rewrite ?app_nil_r; auto.
Lemma dialog_sending l s : Dialog l s -> Sending l s.
Proof.
  induction 1.
  - exists [], [], []. repeat split; auto; constructor.
  - skip IHDialog. congruence.
  - skip IHDialog.
  - skip IHDialog. now destruct (not_sent s); rewrite app_nil_r.
  - destruct IHDialog as (rs & bs & dn & A & B & C & D & F). exists [], [], dn. cbn [not_sent] in *.
    rewrite stream_app, accepted_app, D. cbn [fold_left accepted map concat]. rewrite app_nil_r. repeat (split; auto). apply among_none.
  - destruct IHDialog as (rs & bs & dn & A & B & C & D & F). exists (rs ++ [r]), (bs ++ [concat ws]), (dn ++ [r]).
    assert (N : not_sent s = Some r) by (destruct H0 as [-> | ->]; reflexivity). rewrite N in D.
    rewrite stream_writes, peer_writes, accepted_app, accepted_writes, B, D, !concat_app. cbn [concat not_sent]. rewrite !app_nil_r.
    split; [apply Forall2_app; auto|]. split; [reflexivity|]. split; [apply Forall_app; auto|]. split; [reflexivity|].
    apply among_app; auto. apply Am_take, Am_nil.
  - skip IHDialog. now destruct (not_sent s); rewrite app_nil_r.
  - skip IHDialog. now destruct (not_sent s); rewrite app_nil_r.
  - skip IHDialog. now destruct (not_sent s); rewrite app_nil_r.
Qed.

Definition small_head (r : creq) : Prop := forall b, RequestText r b -> blen b - blen (cr_data r) <= 32767.

(** A server that has the text of a clean request before it, and no request under way, announces this request. *)
Theorem C45_accepted r b : clean_request r -> small_head r -> RequestText r b ->
  forall s stk rest, reached s stk -> unanswered s (b ++ rest) ->
  exists s' q before, step (Run s stk) (ACall OpProcess) = Run s' (KSig SReady :: stk) /\ st s' = SendingHeaders /\ Same r q /\
    log s' = log s ++ before ++ [OReady q].
Proof.
  intros Cr Sm T s stk rest R U. destruct (C45_parsed r b Cr T (Sm _ T)) as (m & W & E & S).
  destruct (C06_accepted s stk (b ++ rest) m rest R U W) as (s' & E1 & E2 & E3); [now rewrite E|].
  exists s', (delivered m), (interim (delivered m)). auto.
Qed.

Lemma parsed_all rs bs : Forall clean_request rs -> Forall small_head rs -> Forall2 RequestText rs bs ->
  exists ms, Forall wf_msg ms /\ concat (map wire ms) = concat bs /\ Forall2 Same rs (map delivered ms).
Proof.
  intros C S T. induction T as [|r b rs bs T Ts IH].
  - exists []. repeat split; constructor.
  - inversion_clear C as [|? ? C1 C2]. inversion_clear S as [|? ? S1 S2]. destruct (IH C2 S2) as (ms & A & B & D).
    destruct (C45_parsed r b C1 T (S1 _ T)) as (m & W & E & Q). exists (m :: ms). cbn [map concat]. rewrite E, B.
    split; [now constructor|]. split; [reflexivity|]. now constructor.
Qed.
Lemma forall2_prefix {A B} (P : A -> B -> Prop) rs qs more : Forall2 P rs (qs ++ more) ->
  exists r1 r2, rs = r1 ++ r2 /\ Forall2 P r1 qs.
Proof. intros H. apply Forall2_app_inv_r in H as (a & b & H1 & H2 & ->). exists a, b. auto. Qed.
Lemma among_prefix {A} (a b c : list A) : Among (a ++ b) c -> Among a c.
Proof.
  remember (a ++ b) as x. intros H. revert a Heqx. induction H; intros a E.
  - destruct a; [constructor|discriminate].
  - apply Am_skip. auto.
  - destruct a as [|y a]; [apply among_none|]. injection E as -> ->. apply Am_take. auto.
Qed.
Lemma among_app_l {A} (a b c : list A) : Among a b -> Among a (b ++ c).
Proof. intros H. rewrite <- (app_nil_r a). apply among_app; [exact H|apply among_none]. Qed.
Lemma wire_nonempty m : wf_msg m -> wire m <> [].
Proof. intros W E. unfold wire in E. apply app_eq_nil in E as [E _]. unfold head_text in E. destruct (hd_method (m_head m)); discriminate. Qed.

(** What any server makes of the bytes of a client. *)
Lemma server_side rs bs s stk rest : Forall clean_request rs -> Forall small_head rs -> Forall2 RequestText rs bs ->
  reached s stk -> concat bs = arrived s ++ rest ->
  exists r1 r2, rs = r1 ++ r2 /\ Forall2 Same r1 (announced (log s)) /\
    (rest = [] -> st s = ReceivingHeaders \/ st s = ReceivingContent -> avail s = [] -> r2 = []).
Proof.
  intros C S T R E. destruct (parsed_all rs bs C S T) as (ms & W & Em & Q).
  assert (X : exists ms' rest', Forall wf_msg ms' /\ arrived s = concat (map wire ms') ++ rest' /\ announced (log s) = map delivered ms' /\
    (st s = ReceivingHeaders \/ st s = ReceivingContent -> avail s = [] -> forall m x, wf_msg m -> rest' <> wire m ++ x)).
  { destruct (C01_requests_from_stream s stk R) as (ms1 & r1 & A1 & A2 & A3).
    assert (D : (st s = ReceivingHeaders \/ st s = ReceivingContent) /\ avail s = [] \/ ~ ((st s = ReceivingHeaders \/ st s = ReceivingContent) /\ avail s = [])).
    { destruct (avail s); [|right; intros [_ ?]; discriminate]. destruct (st s); try (right; intros [[?|?] _]; discriminate); left; auto. }
    destruct D as [[D1 D2]|D].
    - destruct (C01_nothing_missed s stk R D1 D2) as (ms2 & r2 & B1 & B2 & B3 & B4). exists ms2, r2. auto.
    - exists ms1, r1. split; [exact A1|]. split; [exact A2|]. split; [exact A3|]. intros D1 D2. exfalso. auto. }
  destruct X as (ms' & rest' & W' & A & N & Miss). rewrite N.
  assert (EE : concat (map wire ms') ++ rest' ++ rest = concat (map wire ms) ++ []) by now rewrite app_nil_r, Em, E, A, <- app_assoc.
  destruct (stream_cut _ _ _ _ W' W EE) as [(m & F & D & Rr)|(m & F & D & Rr)].
  - rewrite D in Q. apply Forall2_app_inv_r in Q as (a & b & Q1 & Q2 & ->). exists a, b. split; [reflexivity|]. split; [exact Q1|].
    intros -> S1 S2. rewrite !app_nil_r in Rr. destruct m as [|m0 m]; [now inversion Q2|].
    exfalso. inversion_clear F. cbn [map concat] in Rr. now apply (Miss S1 S2 m0 (concat (map wire m))).
  - assert (m = []) as ->. { destruct m as [|m0 m]; [reflexivity|]. inversion_clear F. cbn [map concat] in Rr. symmetry in Rr.
      apply app_eq_nil in Rr as [Rr _]. apply app_eq_nil in Rr as [Rr _]. now apply wire_nonempty in Rr. }
    rewrite app_nil_r in D. rewrite D. exists rs, []. rewrite app_nil_r. auto.
Qed.

Section Client.
  Variables (zlib : bool) (gunzip : list bytes -> bytes -> bytes) (parse_url : bytes -> url).
  Hypothesis urls : forall b, wf_url (parse_url b).
  Notation cstep := (cstep zlib gunzip parse_url).
  Notation crun := (crun zlib gunzip parse_url).

  Lemma run_dialog l : calm_run cstep cstart l -> exists c stk s, crun cstart l = CRun c stk /\ Dialog (c_log c) s.
  Proof.
    intros Q. pose proof (run_ok zlib gunzip parse_url urls l cstart start_inv Q) as X.
    destruct (crun cstart l) as [c stk|]; [|contradiction]. exists c, stk, (place c). split; [reflexivity|].
    exact (co_dialog _ _ (iv_core _ _ (proj1 X))).
  Qed.

  (** A request is only ever written on a connection to its own server: the latest connection asked for when bytes are
      written is one to the host and the port of the request taken last. *)
  Theorem C60_own_server l : calm_run cstep cstart l ->
    exists c stk, crun cstart l = CRun c stk /\
      forall l1 w l2, c_log c = l1 ++ CWrite w :: l2 ->
        exists r, last_taken l1 = Some r /\ peer l1 = Some (server (cr_url r)).
  Proof.
    intros Q. destruct (run_dialog l Q) as (c & stk & s & E & D). exists c, stk. split; [exact E|].
    intros l1 w l2 El. exact (dialog_write _ _ _ _ _ D El).
  Qed.

  (** The bytes written on a connection are the texts of requests to its server, some of those taken, in order, each at most once. *)
  Theorem C60_stream l : calm_run cstep cstart l ->
    exists c stk rs bs, crun cstart l = CRun c stk /\ stream (c_log c) = concat bs /\ Forall2 RequestText rs bs /\
      Among rs (accepted (c_log c)) /\ Forall (fun r => peer (c_log c) = Some (server (cr_url r))) rs.
  Proof.
    intros Q. destruct (run_dialog l Q) as (c & stk & s & E & D). destruct (dialog_sending _ _ D) as (rs & bs & dn & A & B & C & F & G).
    exists c, stk, rs, bs. repeat (split; auto). rewrite F. now apply among_app_l.
  Qed.

  (** From end to end: a client whose requests are clean, and any server connection that has received some of the bytes
      of its latest connection: the requests announced there are requests of the client, in order, unchanged; when all
      arrived and was read and the server waits for more, they are all those sent. *)
  Theorem C45_end_to_end l : calm_run cstep cstart l ->
    exists c stk, crun cstart l = CRun c stk /\
      (Forall clean_request (accepted (c_log c)) -> Forall small_head (accepted (c_log c)) ->
       forall s sk rest, reached s sk -> stream (c_log c) = arrived s ++ rest ->
       exists rs, Forall2 Same rs (announced (log s)) /\ Among rs (accepted (c_log c)) /\
         Forall (fun r => peer (c_log c) = Some (server (cr_url r))) rs /\
         (rest = [] -> st s = ReceivingHeaders \/ st s = ReceivingContent -> avail s = [] ->
          exists bs, Forall2 RequestText rs bs /\ stream (c_log c) = concat bs)).
  Proof.
    intros Q. destruct (C60_stream l Q) as (c & stk & rs & bs & E & B & T & Am & Sv). exists c, stk. split; [exact E|].
    intros Cl Sm s sk rest R Es.
    assert (F : forall P, Forall P (accepted (c_log c)) -> Forall P rs).
    { clear - Am. intros P HP. induction Am; auto; inversion_clear HP; auto. }
    destruct (server_side rs bs s sk rest (F _ Cl) (F _ Sm) T R) as (r1 & r2 & -> & S1 & S2); [congruence|].
    exists r1. split; [exact S1|]. split; [eapply among_prefix; eauto|]. split; [now apply Forall_app in Sv as [? _]|].
    intros Er H1 H2. rewrite (S2 Er H1 H2), app_nil_r in T. exists bs. auto.
  Qed.
End Client.

(** ** A concrete case *)
Lemma digit_zero c : digit_val c = Some 0 -> c = "0"%char.
Proof. destruct c as [[] [] [] [] [] [] [] []]; vm_compute; try discriminate; reflexivity. Qed.
Lemma digit_nonneg c d : digit_val c = Some d -> 0 <= d.
Proof. destruct c as [[] [] [] [] [] [] [] []]; vm_compute; intros E; try discriminate; injection E as <-; discriminate. Qed.
Lemma digits_size s n : Digits 10 s n -> (forall t, s <> "0"%char :: t) -> 10 ^ (Z.of_nat (length s) - 1) <= n.
Proof.
  induction 1 as [c d H1 H2|s n c d H IH H1 H2]; intros N.
  - cbn. pose proof (digit_nonneg _ _ H1). destruct (Z.eq_dec d 0); [|lia]. subst. apply digit_zero in H1. subst. now destruct (N []).
  - rewrite app_length. cbn [length]. assert (X : forall t, s <> "0"%char :: t) by (intros t ->; now apply (N (t ++ [c]))).
    specialize (IH X). pose proof (digit_nonneg _ _ H1). replace (Z.of_nat (length s + 1) - 1) with (Z.of_nat (length s) - 1 + 1) by lia.
    assert (L : (1 <= length s)%nat) by (destruct H; rewrite ?app_length; cbn [length]; lia).
    rewrite Z.pow_add_r by lia. lia.
Qed.
Lemma canonical_size d n k : Canonical 10 d n -> 0 <= n < 10 ^ k -> 0 <= k -> blen d <= Z.max 1 k.
Proof.
  intros C N K. pose proof C as (ds & A & E & _ & Z0). rewrite Z.abs_eq in A by lia.
  assert (d = ds) as -> by (rewrite E; destruct (Z.ltb_spec n 0); [lia|reflexivity]). clear E C.
  destruct ds as [|c t]; [inversion A as [|? ? ? ? ? ? ? E]; now apply app_eq_nil in E as [_ ?]|].
  destruct (ascii_dec c "0") as [->|Nc]; [rewrite (Z0 t eq_refl); unfold blen; cbn [length]; lia|].
  apply digits_size in A; [|congruence]. unfold blen.
  destruct (Z_le_gt_dec (Z.of_nat (length (c :: t))) (Z.max 1 k)) as [|G]; [assumption|exfalso].
  assert (10 ^ k <= 10 ^ (Z.of_nat (length (c :: t)) - 1)) by (apply Z.pow_le_mono_r; lia). lia.
Qed.

Definition post : creq :=
  mkCR (lit "POST") (mkUrl (lit "example.org") 8080 (lit "/a%20b") (lit "x=1&y=?")) [(lit "X-One", lit "two three"); (lit "Accept", [])] (lit "content").
Definition get : creq := mkCR (lit "GET") (mkUrl (lit "example.org") 8080 (lit "/") []) [] [].
Lemma post_clean : clean_request post.
Proof.
  constructor; cbn [post cr_method cr_url u_path u_query u_host u_port cr_headers cr_data].
  - reflexivity.
  - cbn [length lit list_ascii_of_string]. lia.
  - exists (lit "a%20b"). split; [reflexivity|]. apply T_char; [reflexivity|]. apply T_esc; [reflexivity|reflexivity|]. apply T_char; [reflexivity|]. constructor.
  - repeat (apply T_char; [reflexivity|]). constructor.
  - split; [intros c Hc; repeat (destruct Hc as [<-|Hc]; [discriminate|]); contradiction|discriminate].
  - lia.
  - repeat apply Forall_cons; try apply Forall_nil; (split; [discriminate|]; split; [reflexivity|]; split;
      [intros c Hc; repeat (destruct Hc as [<-|Hc]; [discriminate|]); contradiction|discriminate]).
  - discriminate.
  - vm_compute. discriminate.
Qed.
Lemma get_clean : clean_request get.
Proof.
  constructor; cbn [get cr_method cr_url u_path u_query u_host u_port cr_headers cr_data].
  - reflexivity.
  - cbn [length lit list_ascii_of_string]. lia.
  - exists []. split; [reflexivity|constructor].
  - constructor.
  - split; [intros c Hc; repeat (destruct Hc as [<-|Hc]; [discriminate|]); contradiction|discriminate].
  - lia.
  - constructor.
  - reflexivity.
  - vm_compute. discriminate.
Qed.
Lemma blen_app (a b : bytes) : blen (a ++ b) = blen a + blen b.
Proof. unfold blen. rewrite app_length. lia. Qed.
Ltac small := intros b (h & [host d HT CD] & ->); cbn [cr_data cr_url cr_method cr_headers u_path u_query u_host beqb map concat] in *;
  apply (canonical_size _ _ 4) in CD; [|vm_compute; split; congruence|lia];
  destruct HT as [[?|?]|d' _ _ C]; cbn [u_port u_host] in *; try discriminate;
  apply (canonical_size _ _ 4) in C; [|vm_compute; split; congruence|lia];
  change (beqb [] []) with true; cbv iota;
  repeat match goal with |- context[beqb (lit ?s) []] => change (beqb (lit s) []) with false; cbv iota end;
  unfold header_line; cbn [fst snd]; rewrite !blen_app; change (Z.max 1 4) with 4 in *;
  repeat match goal with |- context[blen (lit ?s)] => let v := eval vm_compute in (blen (lit s)) in change (blen (lit s)) with v end;
  change (blen CRLF) with 2; change (blen (@nil ascii)) with 0; try lia.
Lemma post_small : small_head post.
Proof. unfold small_head, post. small.
Qed.
Lemma get_small : small_head get.
Proof. unfold small_head, get. small.
Qed.

Definition two_requests : list caction :=
  [CaCall (CoRequest post); CaConnected; CaFlushed; CaArrive answer_ok; CaReadyRead; CaReturn; CaReturn; CaCall (CoRequest get)].
Definition served (b : bytes) : conn :=
  run_conn [ACall (OpInit (NewDevice true true false b)); ACall OpProcess; ACall (OpWriteResponse 200 [] []); AReturn; AReturn; ACall OpProcess].
Definition two_text : bytes :=
  lit "POST /a%20b?x=1&y=? HTTP/1.1" ++ CRLF ++ lit "Host: example.org:8080" ++ CRLF ++ lit "X-One: two three" ++ CRLF ++ lit "Accept: " ++ CRLF
  ++ lit "Content-Length: 7" ++ CRLF ++ CRLF ++ lit "content"
  ++ lit "GET / HTTP/1.1" ++ CRLF ++ lit "Host: example.org:8080" ++ CRLF ++ CRLF.
Theorem C45_case : calm_run dstep cstart two_requests /\ accepted (log_of (drun cstart two_requests)) = [post; get] /\
  Forall clean_request [post; get] /\ Forall small_head [post; get] /\
  stream (log_of (drun cstart two_requests)) = two_text /\ peer (log_of (drun cstart two_requests)) = Some (lit "example.org", 8080) /\
  (exists stk, reached (served two_text) stk) /\ arrived (served two_text) = two_text /\ length (announced (log (served two_text))) = 2%nat.
Proof.
  split; [calm_concrete|]. split; [vm_compute; reflexivity|]. split; [constructor; [apply post_clean|constructor; [apply get_clean|constructor]]|].
  split; [constructor; [apply post_small|constructor; [apply get_small|constructor]]|].
  split; [vm_compute; reflexivity|]. split; [vm_compute; reflexivity|]. split; [eexists; apply reached_run; vm_compute; reflexivity|].
  split; vm_compute; reflexivity.
Qed.

(** ** What fails when a request is not clean *)
(** a URL without a path ("http://example.org"): the request line has no target, the server refuses it *)
Definition bare : creq := mkCR (lit "GET") (mkUrl (lit "example.org") 8080 [] []) [] [].
Definition bare_run : list caction := [CaCall (CoRequest bare); CaConnected].
Definition server_log (b : bytes) : list obs := log (run_conn [ACall (OpInit (NewDevice true true false b)); ACall OpProcess]).
Theorem C45_no_path_refuted : calm_run dstep cstart bare_run /\
  stream (log_of (drun cstart bare_run)) = lit "GET  HTTP/1.1" ++ CRLF ++ lit "Host: example.org:8080" ++ CRLF ++ CRLF /\
  In (OWrite (refusal "400 Bad Request")) (server_log (stream (log_of (drun cstart bare_run)))) /\
  announced (server_log (stream (log_of (drun cstart bare_run)))) = [].
Proof. split; [calm_concrete|]. split; [vm_compute; reflexivity|]. split; [vm_compute; tauto|vm_compute; reflexivity]. Qed.
(** a Content-Length of the user's own, with no content: the server waits for content that never comes *)
Definition lengthy : creq := mkCR (lit "GET") (mkUrl (lit "example.org") 8080 (lit "/") []) [(lit "content-length", lit "5")] [].
Theorem C45_own_length_refuted : calm_run dstep cstart [CaCall (CoRequest lengthy); CaConnected] /\
  server_log (stream (log_of (drun cstart [CaCall (CoRequest lengthy); CaConnected]))) = [].
Proof. split; [calm_concrete|]. vm_compute. reflexivity. Qed.
(** a header value with line ends: the server sees another header, or another request *)
Definition split_request : creq :=
  mkCR (lit "GET") (mkUrl (lit "example.org") 8080 (lit "/") []) [(lit "X", lit "y" ++ CRLF ++ CRLF ++ lit "DELETE /all HTTP/1.1")] [].
Theorem C45_split_refuted : calm_run dstep cstart [CaCall (CoRequest split_request); CaConnected] /\
  map (fun q => (q_method q, q_path q)) (announced (log (served (stream (log_of (drun cstart [CaCall (CoRequest split_request); CaConnected])))))) =
    [(lit "GET", lit "/"); (lit "DELETE", lit "/all")].
Proof. split; [calm_concrete|]. vm_compute. reflexivity. Qed.
