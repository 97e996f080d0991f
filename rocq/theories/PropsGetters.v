(** C77: the getters that compute and cache (decoded texts, parameters) show the request being answered. *)
From Verif Require Import Bytes ByteHelpers Thin Helpers ReqGrammar TextSpec Params ParamsProofs
  Conn ConnSpec ConnText ConnHead ConnInv ConnStep ConnEnd ConnLog PropsConn ConnSend ConnFree PropsConn2 ConnPhase ConnLive PropsConn8 Getters.
Open Scope Z_scope.

(** ** What is assumed of a history *)
(* the API calls are polite (as in C01) *)
Definition gpolite (g : gcfg) (a : gact) : Prop :=
  match g, a with
  | GRun c stk _, GAct a => polite c stk a
  | _, _ => True
  end.
(* parameters are asked for and set only while a request is being answered *)
Definition in_time (g : gcfg) (a : gact) : Prop :=
  match g, a with
  | GRun c stk _, GParams _ | GRun c stk _, GValue _ _ | GRun c stk _, GSet _ _ _ => answering c stk
  | _, _ => True
  end.
Section Qt.
  Variable utf8 : bytes -> qstring.
  Variable fold : qstring -> qstring.
  Notation gstep := (gstep utf8 fold).
  Notation grun := (grun utf8 fold).
  Fixpoint all_run (P : gcfg -> gact -> Prop) (g : gcfg) (l : list gact) : Prop :=
    match l with [] => True | a :: t => P g a /\ all_run P (gstep g a) t end.

  (** ** Specification *)
  (* the latest request announced on the present device and the setRequestParam() calls made since *)
  Definition noted := option (request * list param).
  Definition note (g : gcfg) (a : gact) (n : noted) : noted :=
    match a with
    | GAct (ACall (OpInit _)) => None
    | GAct _ => match g, gstep g a with
                | GRun c _ _, GRun c' _ _ =>
                    if (length (announced (log c)) <? length (announced (log c')))%nat
                    then match List.rev (announced (log c')) with r :: _ => Some (r, []) | [] => None end else n
                | _, _ => n
                end
    | GSet name value _ => option_map (fun x => (fst x, snd x ++ [(name, value)])) n
    | _ => n
    end.
  Fixpoint notes (g : gcfg) (l : list gact) (n : noted) : noted :=
    match l with [] => n | a :: t => notes (gstep g a) t (note g a n) end.
  Definition latest (l : list gact) : noted := notes gstart l None.

  (* the parameters of a query string, as in C25 *)
  Definition QueryParams (query : bytes) (ps : list param) : Prop :=
    exists pieces, Pieces query pieces /\
      Forall2 (fun piece p => exists k v, KeyValue piece k v /\ Text_of utf8 k (fst p) /\ Text_of utf8 v (snd p)) pieces ps.
  (* one setRequestParam(name, value): the first parameter of that name (whatever its case) is replaced, or one is added *)
  Inductive Assigned (name value : qstring) : list param -> list param -> Prop :=
  | As_replace pre p post : fold (fst p) = fold name -> (forall x, In x pre -> fold (fst x) <> fold name) ->
      Assigned name value (pre ++ p :: post) (pre ++ (name, value) :: post)
  | As_add ps : (forall x, In x ps -> fold (fst x) <> fold name) -> Assigned name value ps (ps ++ [(name, value)]).
  Inductive Params_of (query : bytes) : list param -> list param -> Prop :=
  | Po_query ps : QueryParams query ps -> Params_of query [] ps
  | Po_set sets name value ps ps' : Params_of query sets ps -> Assigned name value ps ps' -> Params_of query (sets ++ [(name, value)]) ps'.

  (** ** The decoded getters *)
  Lemma answeringb_iff c stk : answeringb c stk = true <-> answering c stk.
  Proof.
    unfold answeringb, answering. rewrite !orb_true_iff, existsb_exists. split.
    - intros [[H|H]|(f & I & E)]; [left; now apply cst_eqb_eq|right; left; now apply cst_eqb_eq|].
      destruct f as [[]| | | | | | |]; try discriminate. auto.
    - intros [-> |[-> |H]]; auto. right. exists (KSig SCompleted). auto.
  Qed.
  Lemma seen_in_time c stk x : answering c stk -> seen c stk x = live c.
  Proof. intros H. unfold seen. apply answeringb_iff in H. now rewrite H. Qed.

  Lemma decoded_spec f q ca : (k_dec ca f = [] \/ Text_of utf8 (raw f q) (k_dec ca f)) ->
    exists d ca', decodedGetter utf8 f q ca = Some (d, ca') /\ Text_of utf8 (raw f q) d /\ k_params ca' = k_params ca /\
      (forall g, k_dec ca' g = k_dec ca g \/ g = f /\ k_dec ca' g = d).
  Proof.
    intros H. unfold decodedGetter. destruct (k_dec ca f) as [|z d] eqn:E.
    - destruct (raw f q) as [|b t] eqn:Er.
      + exists [], ca. repeat split; auto. left; auto.
      + rewrite <- Er. destruct (percentDecode_ok utf8 (raw f q)) as (d & -> & Hd). exists d, (set_dec f d ca).
        repeat split; auto. intros g. cbn [set_dec k_dec]. destruct f, g; cbn [dfield_eqb]; auto.
    - destruct H as [H|H]; [discriminate|]. exists (z :: d), ca. repeat split; auto.
  Qed.

  (** *** The connection underneath *)
  Lemma answering_live c stk r : reached c stk -> answering c stk -> current c r -> live c = r.
  Proof.
    intros R Ha Hr. pose proof (C76_getters _ _ _ R Hr Ha) as E. unfold getters in E. destruct (freed c); [discriminate|congruence].
  Qed.
  Lemma current_fun c r r' : current c r -> current c r' -> r = r'.
  Proof. intros (rs & E) (rs' & E'). rewrite E in E'. now apply app_inj_tail in E' as (_ & E'). Qed.
  Lemma gact_step c stk ca a c' stk' ca' : reached c stk -> polite c stk a -> gstep (GRun c stk ca) (GAct a) = GRun c' stk' ca' ->
    reached c' stk' /\ Phase c stk a c' stk' /\ ca' = touched c stk a c' ca.
  Proof.
    intros R HP E. cbn [Getters.gstep] in E. destruct (step (Run c stk) a) as [c1 s1|] eqn:E1; [|discriminate]. injection E as <- <- <-.
    split; [|split; [|reflexivity]].
    - eapply reached_step; eauto.
    - apply phase_step; auto; [now apply reached_inv|eapply reached_settled'; eauto].
  Qed.
  Lemma touched_same c stk a c' ca : announced (log c') = announced (log c) ->
    touched c stk a c' ca = mkCa (if is_init a || releases stk a then [] else k_params ca) (k_dec ca).
  Proof. intros E. unfold touched. rewrite E. now rewrite Nat.ltb_irrefl. Qed.
  Lemma touched_ready c stk a c' ca r : announced (log c') = announced (log c) ++ [r] ->
    touched c stk a c' ca = mkCa (if is_init a || releases stk a then [] else k_params ca) (fun _ => []).
  Proof. intros E. unfold touched. rewrite E, app_length. cbn [length]. destruct (Nat.ltb_spec (length (announced (log c))) (length (announced (log c)) + 1)); [auto|lia]. Qed.

  (** *** Decoded texts *)
  Definition DI (g : gcfg) : Prop :=
    match g with
    | GBad => True
    | GRun c stk ca => reached c stk /\
        (answering c stk -> forall r, current c r -> forall f, k_dec ca f = [] \/ Text_of utf8 (raw f r) (k_dec ca f))
    end.
  Lemma params_dec q ca ps ca' : paramsGetter utf8 q ca = Some (ps, ca') -> k_dec ca' = k_dec ca.
  Proof. unfold paramsGetter. destruct (requestParams _ _) as [[]|]; [|discriminate]. now intros [= _ <-]. Qed.
  Lemma value_dec q n ca ps ca' : paramValueGetter utf8 fold q n ca = Some (ps, ca') -> k_dec ca' = k_dec ca.
  Proof. unfold paramValueGetter. destruct (requestParamValue _ _ _ _) as [[]|]; [|discriminate]. now intros [= _ <-]. Qed.
  Lemma set_keeps_dec q n v ca ca' : paramSetter utf8 fold q n v ca = Some ca' -> k_dec ca' = k_dec ca.
  Proof. unfold paramSetter. destruct (setRequestParam _ _ _ _) as [|]; [|discriminate]. now intros [= <-]. Qed.

  Lemma DI_step g a : DI g -> gpolite g a -> DI (gstep g a).
  Proof.
    intros H HP. destruct g as [c stk ca|]; [|exact Logic.I]. destruct H as (R & H). destruct a as [a|f x|x|n x|n v x].
    - destruct (gstep (GRun c stk ca) (GAct a)) as [c' stk' ca'|] eqn:E; [|exact Logic.I].
      destruct (gact_step _ _ _ _ _ _ _ R HP E) as (R' & Ph & ->). split; [exact R'|]. intros Ha r Hr f.
      destruct Ph as [_ _ N _|_ _ O _|_ A _ Q _|_ _ _ N|r' _ _ Q _].
      + contradiction.
      + now apply over_not_answering in R'.
      + rewrite touched_same by auto. cbn [k_dec]. apply H; auto. unfold current in *. now rewrite Q in Hr.
      + contradiction.
      + rewrite (touched_ready _ _ _ _ _ _ Q). now left.
    - cbn [Getters.gstep]. destruct (decodedGetter utf8 f (seen c stk x) ca) as [(d & ca')|] eqn:E; [|exact Logic.I].
      split; auto. intros Ha r Hr g. rewrite seen_in_time, (answering_live c stk r) in E by auto.
      destruct (decoded_spec f r ca (H Ha r Hr f)) as (d' & ca'' & E' & T & _ & K). rewrite E in E'. injection E' as <- <-.
      destruct (K g) as [-> |(-> & ->)]; auto.
    - cbn [Getters.gstep]. destruct (paramsGetter utf8 (seen c stk x) ca) as [(ps & ca')|] eqn:E; [|exact Logic.I].
      split; auto. now rewrite (params_dec _ _ _ _ E).
    - cbn [Getters.gstep]. destruct (paramValueGetter utf8 fold (seen c stk x) n ca) as [(ps & ca')|] eqn:E; [|exact Logic.I].
      split; auto. now rewrite (value_dec _ _ _ _ _ E).
    - cbn [Getters.gstep]. destruct (paramSetter utf8 fold (seen c stk x) n v ca) as [ca'|] eqn:E; [|exact Logic.I].
      split; auto. now rewrite (set_keeps_dec _ _ _ _ _ E).
  Qed.
  Lemma start_reached : reached conn0 [].
  Proof. exists []. split; [exact Logic.I|reflexivity]. Qed.
  Lemma DI_run l : forall g, DI g -> all_run gpolite g l -> DI (grun g l).
  Proof.
    induction l as [|a l IH]; intros g H HP; [exact H|]. destruct HP as (HP & HP'). cbn [Getters.grun fold_left]. apply IH; auto. now apply DI_step.
  Qed.

  (** *** Parameters *)
  Lemma requestParams_total q ps0 : exists ps, requestParams utf8 (mkPS q ps0) = Some (mkPS q ps, ps).
  Proof.
    destruct ps0 as [|p ps0]; [|eexists; reflexivity]. destruct (requestParams_fresh utf8 q) as (ps & _ & E & _). eauto.
  Qed.
  Lemma QueryParams_fresh q : exists ps, requestParams utf8 (mkPS q []) = Some (mkPS q ps, ps) /\ QueryParams q ps.
  Proof. destruct (requestParams_fresh utf8 q) as (ps & pcs & E & P & F). exists ps. split; auto. exists pcs. auto. Qed.
  Lemma update_assigned n v ps : Assigned n v ps (update_param fold n v ps).
  Proof.
    destruct (first_match fold n ps) as [N|(pre & p & post & -> & M & N)].
    - rewrite update_miss by auto. now apply As_add.
    - rewrite (update_hit fold n v pre p post) by auto. now apply As_replace.
  Qed.
  Lemma update_ne n v ps : update_param fold n v ps <> [].
  Proof. destruct ps as [|[k w] ps]; cbn; [discriminate|]. destruct (qeq fold k n); discriminate. Qed.
  Definition Shows (q : bytes) (sets cache : list param) : Prop :=
    exists ps, Params_of q sets ps /\ requestParams utf8 (mkPS q cache) = Some (mkPS q ps, ps).
  Definition PI (g : gcfg) (n : noted) : Prop :=
    match g with
    | GBad => True
    | GRun c stk ca => reached c stk /\
        (answering c stk -> exists r sets, n = Some (r, sets) /\ current c r /\ Shows (q_query r) sets (k_params ca)) /\
        (~ answering c stk -> ~ over c -> k_params ca = [])
    end.
  Lemma PI_step g a n : PI g n -> gpolite g a -> in_time g a -> PI (gstep g a) (note g a n).
  Proof.
    intros H HP HT. destruct g as [c stk ca|]; [|exact Logic.I]. destruct H as (R & H1 & H2). destruct a as [a|f x|x|nm x|nm v x].
    - destruct (gstep (GRun c stk ca) (GAct a)) as [c' stk' ca'|] eqn:E; [|exact Logic.I].
      destruct (gact_step _ _ _ _ _ _ _ R HP E) as (R' & Ph & ->). split; [exact R'|].
      assert (NS : is_init a = false -> announced (log c') = announced (log c) -> note (GRun c stk ca) (GAct a) n = n).
      { intros Hi Q. unfold note. rewrite E, Q, Nat.ltb_irrefl. destruct a as [[]| | | |]; auto; discriminate. }
      assert (KQ : is_init a = false -> releases stk a = true \/ ~ answering c stk /\ ~ over c -> (if is_init a || releases stk a then [] else k_params ca) = []).
      { intros -> [-> |(X1 & X2)]; cbn [orb]; auto. destruct (releases stk a); auto. }
      destruct Ph as [Hi Q N NO|Hi O O' Q|Hi A Hr Q HD|Hi HR Q N|r' Hi HR Q S'].
      5: assert (A' : answering c' stk') by now left.
      + split; [contradiction|]. intros _ _. unfold touched. rewrite Hi, Q. reflexivity.
      + split; [now intros; apply over_not_answering in R'|contradiction].
      + rewrite NS by auto. rewrite touched_same, Hi, Hr by auto. cbn [orb k_params]. split.
        * intros _. destruct (H1 A) as (r & sets & En & Hc & HS). exists r, sets. split; auto. split; auto. unfold current in *. now rewrite Q.
        * intros X1 X2. destruct HD; contradiction.
      + split; [contradiction|]. intros _ _. rewrite touched_same by auto. cbn [k_params]. now apply KQ.
      + rewrite (touched_ready _ _ _ _ _ _ Q). cbn [k_params]. rewrite KQ by auto. split; [|auto].
        intros _. exists r', []. split.
        * unfold note. rewrite E, Q, app_length. cbn [length].
          destruct (Nat.ltb_spec (length (announced (log c))) (length (announced (log c)) + 1)); [|lia]. rewrite rev_app_distr. cbn [List.rev app].
          destruct a as [[]| | | |]; auto; discriminate.
        * split; [now exists (announced (log c))|]. destruct (QueryParams_fresh (q_query r')) as (ps & E1 & E2). exists ps. split; [now constructor|exact E1].
    - cbn [Getters.gstep note]. destruct (decodedGetter utf8 f (seen c stk x) ca) as [(d & ca')|] eqn:E; [|exact Logic.I].
      assert (K : k_params ca' = k_params ca).
      { unfold decodedGetter in E. destruct (k_dec ca f); [destruct (raw f _); [|destruct (percentDecode _ _)]|]; try discriminate; injection E as _ <-; reflexivity. }
      split; auto. now rewrite K.
    - cbn [Getters.gstep note]. cbn in HT. destruct (H1 HT) as (r & sets & En & Hc & ps & P & HS).
      rewrite seen_in_time, (answering_live c stk r) by auto. unfold paramsGetter. rewrite HS. split; auto. split; [|contradiction].
      intros _. exists r, sets. split; auto. split; auto. exists ps. split; auto. cbn [set_params k_params p_params].
      now apply requestParams_again in HS.
    - cbn [Getters.gstep note]. cbn in HT. destruct (H1 HT) as (r & sets & En & Hc & ps & P & HS).
      rewrite seen_in_time, (answering_live c stk r) by auto. unfold paramValueGetter, requestParamValue. rewrite HS. split; auto. split; [|contradiction].
      intros _. exists r, sets. split; auto. split; auto. exists ps. split; auto. cbn [set_params k_params p_params].
      now apply requestParams_again in HS.
    - cbn [Getters.gstep note]. cbn in HT. destruct (H1 HT) as (r & sets & En & Hc & ps & P & HS).
      rewrite seen_in_time, (answering_live c stk r) by auto. unfold paramSetter, setRequestParam. rewrite HS. split; auto. split; [|contradiction].
      intros _. exists r, (sets ++ [(nm, v)]). split; [now rewrite En|]. split; auto. exists (update_param fold nm v ps). split.
      + eapply Po_set; eauto. apply update_assigned.
      + cbn [set_params k_params p_params p_query]. unfold requestParams. cbn [p_params p_query].
        destruct (update_param fold nm v ps) eqn:Eu; [now apply update_ne in Eu|reflexivity].
  Qed.
  Lemma PI_run l : forall g n, PI g n -> all_run gpolite g l -> all_run in_time g l -> PI (grun g l) (notes g l n).
  Proof.
    induction l as [|a l IH]; intros g n H HP HT; [exact H|]. destruct HP as (HP & HP'). destruct HT as (HT & HT').
    cbn [Getters.grun fold_left notes]. apply IH; auto. now apply PI_step.
  Qed.

  (** ** The theorems *)
  (** requestPathDecoded() and the three others: in every history, with the getters called at any moments, also
      while nothing is being answered, the text shown is the percent-decoded text of the request announced. *)
  Theorem C77_decoded : forall l c stk ca r f, all_run gpolite gstart l -> grun gstart l = GRun c stk ca ->
    answering c stk -> current c r ->
    exists q d ca', getters c = Some q /\ decodedGetter utf8 f q ca = Some (d, ca') /\
      Text_of utf8 (match f with FUri => q_uri r | FFragment => q_fragment r | FPath => q_path r | FQuery => q_query r end) d.
  Proof.
    intros l c stk ca r f HP E Ha Hr.
    assert (H : DI (grun gstart l)). { apply DI_run; auto. split; [exact start_reached|]. intros _ r' _ g. now left. }
    rewrite E in H. destruct H as (R & H). exists r.
    destruct (decoded_spec f r ca (H Ha r Hr f)) as (d & ca' & E' & T & _). exists d, ca'. split; [now apply (C76_getters c stk)|auto].
  Qed.

  (** requestParams() and requestParamValue(): in every history in which they are used while a request is being
      answered, they show the parameters of that request's query string as changed by the setRequestParam() calls
      made since its requestReady; nothing remains of earlier requests. *)
  Theorem C77_params : forall l c stk ca r, all_run gpolite gstart l -> all_run in_time gstart l -> grun gstart l = GRun c stk ca ->
    answering c stk -> current c r ->
    exists q sets ps, getters c = Some q /\ latest l = Some (r, sets) /\ Params_of (q_query r) sets ps /\
      (exists ca', paramsGetter utf8 q ca = Some (ps, ca')) /\
      (forall name, exists v ca', paramValueGetter utf8 fold q name ca = Some (v, ca') /\
        ((exists pre p post, ps = pre ++ p :: post /\ fold (fst p) = fold name /\ (forall x, In x pre -> fold (fst x) <> fold name) /\ v = snd p)
         \/ (forall x, In x ps -> fold (fst x) <> fold name) /\ v = [])).
  Proof.
    intros l c stk ca r HP HT E Ha Hr.
    assert (H : PI (grun gstart l) (latest l)).
    { apply PI_run; auto. split; [exact start_reached|]. split; [|reflexivity]. intros [X|[X|[]]]; discriminate. }
    rewrite E in H. destruct H as (R & H & _). destruct (H Ha) as (r' & sets & En & Hc & ps & P & HS).
    assert (r' = r) by (eapply current_fun; eauto). subst r'.
    exists r, sets, ps. split; [now apply (C76_getters c stk)|]. split; auto. split; auto. split.
    - unfold paramsGetter. rewrite HS. eauto.
    - intros name. unfold paramValueGetter, requestParamValue. rewrite HS. eexists. eexists. split; [reflexivity|].
      destruct (first_match fold name ps) as [N|(pre & p & post & -> & M & N)].
      + right. split; auto. now apply lookup_none.
      + left. exists pre, p, post. repeat split; auto. now apply lookup_first.
  Qed.

  (** No getter ever fails (the decoding loop stays inside its buffer), whatever the raw getters show and the caches hold. *)
  Theorem C77_no_fault : forall ca q f name value, decodedGetter utf8 f q ca <> None /\ paramsGetter utf8 q ca <> None /\
      paramValueGetter utf8 fold q name ca <> None /\ paramSetter utf8 fold q name value ca <> None.
  Proof.
    intros ca q f name value. destruct (requestParams_total (q_query q) (k_params ca)) as (ps & E).
    unfold decodedGetter, paramsGetter, paramValueGetter, requestParamValue, paramSetter, setRequestParam. rewrite E.
    repeat split; try discriminate. destruct (k_dec ca f); [|discriminate]. destruct (raw f q) eqn:Er; [discriminate|]. rewrite <- Er.
    destruct (percentDecode_ok utf8 (raw f q)) as (d & -> & _). discriminate.
  Qed.
End Qt.

(** ** Cases *)
Definition gpoliteb (g : gcfg) (a : gact) : bool :=
  match g, a with GRun c stk _, GAct a => politeb c stk a | _, _ => true end.
Definition in_timeb (g : gcfg) (a : gact) : bool :=
  match g, a with
  | GRun c stk _, GParams _ | GRun c stk _, GValue _ _ | GRun c stk _, GSet _ _ _ => answeringb c stk
  | _, _ => true
  end.
Fixpoint all_runb utf8 fold (P : gcfg -> gact -> bool) (g : gcfg) (l : list gact) : bool :=
  match l with [] => true | a :: t => P g a && all_runb utf8 fold P (gstep utf8 fold g a) t end.
Lemma all_runb_ok utf8 fold (Pb : gcfg -> gact -> bool) (P : gcfg -> gact -> Prop) : (forall g a, Pb g a = true -> P g a) ->
  forall l g, all_runb utf8 fold Pb g l = true -> all_run utf8 fold P g l.
Proof.
  intros HP l. induction l as [|a l IH]; intros g H; [exact Logic.I|]. cbn [all_runb] in H. apply andb_true_iff in H as (H1 & H2).
  split; auto.
Qed.
Lemma gpoliteb_ok g a : gpoliteb g a = true -> gpolite g a.
Proof. destruct g, a; cbn; auto. apply politeb_ok. Qed.
Lemma in_timeb_ok g a : in_timeb g a = true -> in_time g a.
Proof. destruct g, a; cbn; auto; apply answeringb_iff. Qed.

Definition latin : bytes -> qstring := map byte_val.
Definition lower : qstring -> qstring := map (fun z => if (65 <=? z) && (z <=? 90) then z + 32 else z).
Definition t (s : string) : qstring := latin (lit s).
Definition text3 : bytes := lit "GET /b%20c HTTP/1.1" ++ CRLF ++ CRLF.
(* two requests on one connection; the handler of the first sets a parameter and asks for others *)
Definition two : list gact :=
  [GAct (ACall (OpInit (NewDevice true true true text1))); GAct (ACall OpProcess);
   GValue (t "X") req0; GSet (t "id") (t "7") req0; GDecoded FPath req0; GSet (t "X") (t "2") req0; GParams req0;
   GAct (ACall (OpWriteResponse 200 [] (lit "hello"))); GValue (t "id") req0; GAct AReturn; GAct AReturn;
   GDecoded FPath req0; GAct (AArrive text3); GAct (ACall OpProcess)].
Definition gconn_of (g : gcfg) : conn := match g with GRun c _ _ => c | GBad => conn0 end.
Definition gcaches_of (g : gcfg) : caches := match g with GRun _ _ ca => ca | GBad => no_caches end.
Example C77_case : let g := grun latin lower gstart two in let c := gconn_of g in
  all_run latin lower gpolite gstart two /\ all_run latin lower in_time gstart two /\
  g = GRun c [KSig SReady] (gcaches_of g) /\ answering c [KSig SReady] /\
  (exists r, current c r /\ q_path r = lit "/b%20c" /\ latest latin lower two = Some (r, [])) /\
  (exists q, getters c = Some q /\ option_map fst (decodedGetter latin FPath q (gcaches_of g)) = Some (t "/b c") /\
    option_map fst (paramsGetter latin q (gcaches_of g)) = Some []) /\
  (exists r ca, latest latin lower (firstn 7 two) = Some (r, [(t "id", t "7"); (t "X", t "2")]) /\
    grun latin lower gstart (firstn 7 two) = GRun (gconn_of (grun latin lower gstart (firstn 7 two))) [KSig SReady] ca /\
    k_params ca = [(t "X", t "2"); (t "id", t "7")]).
Proof.
  cbv zeta. split; [apply (all_runb_ok _ _ gpoliteb); [exact gpoliteb_ok|vm_compute; reflexivity]|].
  split; [apply (all_runb_ok _ _ in_timeb); [exact in_timeb_ok|vm_compute; reflexivity]|].
  split; [vm_compute; reflexivity|]. split; [left; vm_compute; reflexivity|].
  split.
  { exists (nth 1 (announced (log (gconn_of (grun latin lower gstart two)))) req0).
    split; [exists [nth 0 (announced (log (gconn_of (grun latin lower gstart two)))) req0]; vm_compute; reflexivity|]. vm_compute. auto. }
  split.
  { exists (nth 1 (announced (log (gconn_of (grun latin lower gstart two)))) req0). vm_compute. auto. }
  exists (nth 0 (announced (log (gconn_of (grun latin lower gstart two)))) req0), (gcaches_of (grun latin lower gstart (firstn 7 two))).
  vm_compute. auto.
Qed.

(** The parameters are not emptied at requestReady: a requestParams() call while the connection waits for its
    next request (the memory of the finished one is still there) is remembered, and the next request, which has no
    query at all, shows the parameters of the previous one. *)
Definition late (r : request) : list gact :=
  [GAct (ACall (OpInit (NewDevice true true true text1))); GAct (ACall OpProcess);
   GAct (ACall (OpWriteResponse 200 [] (lit "hello"))); GAct AReturn; GAct AReturn;
   GParams r; GAct (AArrive text3); GAct (ACall OpProcess)].
Theorem C77_late_params_refuted : exists l r1 r2 c stk ca, l = late r1 /\ all_run latin lower gpolite gstart l /\
  grun latin lower gstart l = GRun c stk ca /\ answering c stk /\ announced (log c) = [r1; r2] /\ getters c = Some r2 /\
  q_query r2 = [] /\ option_map fst (paramsGetter latin r2 ca) = Some [(t "x", t "1")].
Proof.
  pose (r1 := delivered msg1).
  exists (late r1), r1, (nth 1 (announced (log (gconn_of (grun latin lower gstart (late r1))))) req0),
    (gconn_of (grun latin lower gstart (late r1))), [KSig SReady], (gcaches_of (grun latin lower gstart (late r1))).
  split; [reflexivity|]. split; [apply (all_runb_ok _ _ gpoliteb); [exact gpoliteb_ok|vm_compute; reflexivity]|].
  split; [vm_compute; reflexivity|]. split; [left; vm_compute; reflexivity|]. vm_compute. auto.
Qed.
