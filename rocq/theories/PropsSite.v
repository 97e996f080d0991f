(** C87: a server with a stack of a router and a 404 handler, from the bytes of the requests to the bytes of the answers.  Specification and model: Site.v *)
From Verif Require Import Bytes ByteHelpers Thin Helpers ReqGrammar TextSpec Params ParamsProofs Router RouterSpec RouterProofs PropsRouter Handlers
  Conn ConnSpec ConnText ConnHead ConnInv ConnStep PropsConn Serve PropsServe PropsGetters Site.
Open Scope Z_scope.

Section C87.
  Variables (utf8 : bytes -> qstring) (fold : qstring -> qstring) (uword : Z -> bool) (toAscii : qstring -> bytes) (dec : bytes -> bytes).
  Variable ans : nat -> request -> list (qstring * qstring) -> given.
  Variables (R : router) (es : list entry).
  Notation Prescribed := (Prescribed utf8 fold uword toAscii dec ans R es).
  Notation Counted := (Counted utf8 fold toAscii R).
  Notation path := (path utf8).
  Notation site_calls := (site_calls utf8 fold uword toAscii dec ans R).
  Notation site := (site utf8 fold uword toAscii dec ans R).
  Hypotheses (HR : has_routes uword R es) (G : Forall (good_entry uword) es) (T : Forall (fun e => target_there (e_target e)) es).

  Lemma counted r : exists m, Counted r m /\ effective_method utf8 fold toAscii R (q_method r) (mkPS (q_query r) []) = Some m.
  Proof.
    destruct (method_param R) eqn:Em.
    - destruct (QueryParams_fresh utf8 (q_query r)) as (ps & E & Q).
      assert (E2 : requestParamValue utf8 fold (mkPS (q_query r) []) (qlit "_method") = Some (mkPS (q_query r) ps, lookup_param fold (qlit "_method") ps)) by (unfold requestParamValue; now rewrite E).
      exists (match lookup_param fold (qlit "_method") ps with [] => q_method r | _ => toAscii (lookup_param fold (qlit "_method") ps) end).
      split; [|eapply C36_method_param; eauto].
      destruct (first_match fold (qlit "_method") ps) as [N|(pre & (n & v) & post & Ep & M & N)].
      + rewrite lookup_none by auto. eapply Co_none; eauto.
      + rewrite Ep, lookup_first by auto. cbn [snd]. rewrite Ep in Q. eapply Co_given; eauto.
    - exists (q_method r). split; [now apply Co_own|]. now apply C36_method.
  Qed.
  Lemma serves_dec m p e : good_entry uword e -> serves uword e m p \/ ~ serves uword e m p.
  Proof.
    intros (Gw & Ga). unfold serves. pose proof (path_matches_spec uword e p) as P. pose proof (method_ok_spec e m Ga) as M.
    destruct (mat uword (items (e_pattern e)) p); [|right; intros (X & _); apply P in X; congruence].
    destruct (method_ok (e_method e) m); [left; split; [apply P; discriminate|now apply M]|right; intros (_ & X); apply M in X; discriminate].
  Qed.
  Lemma path_dec p e : path_matches uword e p \/ ~ path_matches uword e p.
  Proof. pose proof (path_matches_spec uword e p) as P. destruct (mat uword (items (e_pattern e)) p); [left; apply P; discriminate|right; intros X; apply P in X; congruence]. Qed.
  Lemma first_serving m p l : Forall (good_entry uword) l -> (forall e, In e l -> ~ serves uword e m p) \/
    exists pre e post, l = pre ++ e :: post /\ (forall e', In e' pre -> ~ serves uword e' m p) /\ serves uword e m p.
  Proof.
    induction 1 as [|e l Ge _ IH]; [left; intros ? []|]. destruct (serves_dec m p e Ge) as [S|N].
    - right. exists [], e, l. split; [reflexivity|]. split; [intros ? []|exact S].
    - destruct IH as [IH|(pre & e1 & post & -> & A & B)]; [left; intros x [<-|X]; auto|].
      right. exists (e :: pre), e1, post. split; [reflexivity|]. split; [intros x [<-|X]; auto|exact B].
  Qed.
  Lemma any_path p l : (forall e, In e l -> ~ path_matches uword e p) \/ exists e, In e l /\ path_matches uword e p.
  Proof.
    induction l as [|e l IH]; [left; intros ? []|]. destruct (path_dec p e) as [Y|N]; [right; exists e; split; [now left|exact Y]|].
    destruct IH as [IH|(x & X & Y)]; [left; intros x [<-|X]; auto|right; exists x; split; [now right|exact Y]].
  Qed.
  (** what one route that is there does is one answer *)
  Lemma perform_sets r l : Forall is_set l -> forall s t, exists s', perform ans r s (l ++ t) = perform ans r (s ++ s') t.
  Proof.
    induction 1 as [|x l X _ IH]; intros s t; [exists []; now rewrite app_nil_r|]. destruct x as [n v| |]; try contradiction. cbn [app perform].
    destruct (IH (s ++ [(n, v)]) t) as (s' & ->). exists ((n, v) :: s'). now rewrite <- app_assoc.
  Qed.
  Lemma perform_map r nv : forall s t, perform ans r s (map (fun x => ESet (fst x) (snd x)) nv ++ t) = perform ans r (s ++ nv) t.
  Proof.
    induction nv as [|(n, v) nv IH]; intros s t; cbn [map app perform fst snd]; [now rewrite app_nil_r|]. rewrite IH, <- app_assoc. reflexivity.
  Qed.
  Lemma gives_one r sets t : target_there t -> exists g, Gives ans r sets t g /\ perform ans r sets (invoke t) = [OpWriteResponse (g_code g) (g_headers g) (g_content g)].
  Proof.
    destruct t as [id a|id a k|id a|id|code hs content]; cbn [target_there]; intros H; [subst a|destruct H as [-> ->]|subst a| |].
    - exists (ans id r sets). split; [constructor|reflexivity].
    - exists (ans id r sets). split; [constructor|reflexivity].
    - exists (ans id r sets). split; [constructor|reflexivity].
    - exists (ans id r sets). split; [constructor|reflexivity].
    - exists (mkGiven code hs content). split; [constructor|reflexivity].
  Qed.

  Definition one_answer (g : given) : list op := [OpWriteResponse (g_code g) (g_headers g) (g_content g)].
  Lemma calls_accepted r l : handleRequest utf8 fold uword toAscii R (q_method r) (q_path r) (mkPS (q_query r) []) = Some (true, l) -> site_calls r = perform ans r [] l.
  Proof. intros E. unfold Site.site_calls, stackHandle, site_child. cbn [negb]. rewrite E. reflexivity. Qed.
  Lemma calls_declined r : handleRequest utf8 fold uword toAscii R (q_method r) (q_path r) (mkPS (q_query r) []) = Some (false, []) -> site_calls r = one_answer (not_found dec r).
  Proof. intros E. unfold Site.site_calls, stackHandle, site_child. cbn [negb]. rewrite E. reflexivity. Qed.

  (** Every request gets one call of writeResponse(), with the answer prescribed. *)
  Theorem C87_calls : forall r, exists g, Prescribed r g /\ site_calls r = [OpWriteResponse (g_code g) (g_headers g) (g_content g)].
  Proof.
    intros r. destruct (counted r) as (m & Cm & Em).
    destruct (first_serving m (path r) es G) as [NS|(pre & e & post & Ees & Npre & Sv)].
    - destruct (any_path (path r) es) as [NP|YP].
      + pose proof (C39_unmatched utf8 fold uword toAscii R es (q_path r) (q_method r) (mkPS (q_query r) []) HR G NP) as H.
        destruct (unmatched_4xx R) eqn:U.
        * exists (mkGiven 404 [] []). split; [now apply Pr_unmatched|]. now rewrite (calls_accepted r _ H).
        * exists (not_found dec r). split; [|now apply calls_declined]. eapply Pr_behind; eauto. intros (x & X & Y). exfalso. eapply NP; eauto.
      + destruct (C39_mismatch utf8 fold uword toAscii R es (q_path r) (q_method r) (mkPS (q_query r) []) m HR G Em YP NS) as (f & Hf & H).
        destruct (mismatch_4xx R) eqn:U.
        * eexists. split; [eapply Pr_mismatch; eauto|]. now rewrite (calls_accepted r _ H).
        * exists (not_found dec r). split; [|now apply calls_declined]. eapply Pr_behind; eauto. intros NP. destruct YP as (x & X & Y). exfalso. eapply NP; eauto.
    - assert (Te : target_there (e_target e)) by (rewrite Forall_forall in T; apply T; rewrite Ees; apply in_or_app; right; now left).
      assert (D : params_first (e_pattern e) \/ ~ params_first (e_pattern e)).
      { clear. induction (e_pattern e) as [|[z|n|n] p IH]; cbn [params_first]; auto. destruct (existsb is_param p); [right; intros [X _]; discriminate|]. destruct IH; [left; auto|right; tauto]. }
      destruct D as [D|D].
      + destruct (C38_captures_partial utf8 fold uword toAscii R es pre e post (q_path r) (q_method r) (mkPS (q_query r) []) m HR G Ees Em Npre Sv D) as (vs & Dv & Lv & H).
        destruct (gives_one r (combine (names (e_pattern e)) vs) _ Te) as (g & Gg & Pg). exists g. split.
        * eapply Pr_route; eauto. intros _. exists vs. auto.
        * rewrite (calls_accepted r _ H), perform_map. exact Pg.
      + destruct (C36_first_match utf8 fold uword toAscii R es pre e post (q_path r) (q_method r) (mkPS (q_query r) []) m HR G Ees Em Npre Sv) as (sets & Hs & H).
        destruct (perform_sets r sets Hs [] (invoke (e_target e))) as (s' & Ep).
        destruct (gives_one r s' _ Te) as (g & Gg & Pg). exists g. split.
        * eapply Pr_route; eauto. intros X. contradiction.
        * rewrite (calls_accepted r _ H), Ep. exact Pg.
  Qed.
  Lemma site_prescribed rs r : Prescribed r (site (rs ++ [r])).
  Proof. unfold Site.site. rewrite last_last. destruct (C87_calls r) as ([code hs content] & P & ->). exact P. Qed.

  (** The answers of a connection whose requests are handed to the stack: *)
  (* a request and its answer *)
  Inductive Exchanged (keep : bool) (r : request) (e : list obs) : Prop :=
  | Exchanged_intro g : Prescribed r g -> Answered g r keep e -> Exchanged keep r e.
  Inductive Conversation : list request -> list obs -> Prop :=
  | Cv_nil : Conversation [] []
  | Cv_snoc rs l r e : Conversation rs l -> Exchanged true r e -> Conversation (rs ++ [r]) (l ++ e).
  Lemma dialogue_conversation rs l : Dialogue site rs l -> Conversation rs l.
  Proof. induction 1 as [|rs l r e D IH A]; constructor; auto. econstructor; [apply site_prescribed|exact A]. Qed.

  (** whenever it has read all that arrived and waits, it has answered every complete request of the stream, each with the answer prescribed, in order *)
  Theorem C87_idle : forall c0 stk0 l c stk, reached c0 stk0 -> st c0 = ReceivingHeaders -> log c0 = [] ->
    polite_run (Run c0 stk0) l -> obeys_run site (Run c0 stk0) l -> run (Run c0 stk0) l = Run c stk ->
    st c = ReceivingHeaders \/ st c = ReceivingContent -> avail c = [] ->
    exists ms rest said new, Forall wf_msg ms /\ arrived c = concat (map wire ms) ++ rest /\ (forall m x, wf_msg m -> rest <> wire m ++ x) /\
      Conversation (map delivered ms) said /\ Verdict rest new /\ log c = said ++ new.
  Proof.
    intros c0 stk0 l c stk R0 S L P O E Hs Ha. destruct (C82_idle site c0 stk0 l c stk R0 S L P O E Hs Ha) as (ms & rest & said & new & W & A & N & D & V & LG).
    exists ms, rest, said, new. repeat (split; auto). now apply dialogue_conversation.
  Qed.
  (** at any moment: the answers so far, then at most one more, or a refusal, and the end of the connection *)
  Theorem C87_account : forall c0 stk0 l c stk, reached c0 stk0 -> st c0 = ReceivingHeaders -> log c0 = [] ->
    polite_run (Run c0 stk0) l -> obeys_run site (Run c0 stk0) l -> run (Run c0 stk0) l = Run c stk ->
    exists ms rest said t e, arrived c = concat (map wire ms) ++ rest /\ Forall wf_msg ms /\ Conversation (map delivered ms) said /\ log c = said ++ t ++ e /\ Ending e /\
      (t = [] \/
       (exists hd n, starts_head rest hd /\ AnnouncedLength hd n /\ 0 < n <= max_content /\ says (first_named "expect" (spec_headers hd)) "100-continue" = true /\ t = [OWrite continue_text]) \/
       (exists m x, wf_msg m /\ rest = wire m ++ x /\ (t = interim (delivered m) ++ [OReady (delivered m)] \/ Exchanged false (delivered m) t)) \/
       (exists s, Refusable rest s /\ t = [OWrite (refusal s)])).
  Proof.
    intros c0 stk0 l c stk R0 S L P O E. destruct (C82_account site c0 stk0 l c stk R0 S L P O E) as [ms rest said t e A W D Rm En].
    exists ms, rest, said, t, e. split; [exact A|]. split; [exact W|]. split; [now apply dialogue_conversation|]. split; [reflexivity|]. split; [exact En|].
    destruct Rm as [|hd n H1 H2 H3 H4|m x H1 H2|m x e1 H1 H2 H3|s H1]; [now left| | | |]; right.
    - left. exists hd, n. auto.
    - right. left. exists m, x. auto.
    - right. left. exists m, x. split; [exact H1|]. split; [exact H2|]. right. econstructor; [apply site_prescribed|exact H3].
    - right. right. exists s. auto.
  Qed.
End C87.
