(** PROPERTIES C36-C40: the simple router.  Model: Router.v.  Specification of patterns: RouterSpec.v.
    utf8, fold, uword, toAscii: Qt's conversions and character classes, arbitrary. *)
From Verif Require Import Bytes ByteHelpers Helpers Params TextSpec HelpersProofs ParamsProofs PropsText Router RouterSpec RouterProofs.
Open Scope Z_scope.

Section P.
Variables (utf8 : bytes -> qstring) (fold : qstring -> qstring) (uword : Z -> bool) (toAscii : qstring -> bytes).
Notation Denotes := (Denotes uword).
Notation wf_pattern := (wf_pattern uword).
Notation handleRequest := (handleRequest utf8 fold uword toAscii).
Notation effective_method := (effective_method utf8 fold toAscii).

(** a route as the user adds it *)
Record entry := mkEntry { e_method : bytes; e_pattern : list tok; e_target : target }.
(** a router whose routes were added with addRoute(method, pattern, target), in this order *)
Definition has_routes (R : router) (es : list entry) : Prop :=
  Forall2 (fun e r => addRoute uword (e_method e) (text (e_pattern e)) (e_target e) = Some r) es (routes R).
(** methods given to addRoute: ASCII without NUL *)
Definition ascii_method (m : bytes) : Prop := Forall (fun c => 0 < byte_val c < 128) m.
Definition good_entry (e : entry) : Prop := wf_pattern (e_pattern e) /\ ascii_method (e_method e).
Definition path_matches (e : entry) (path : qstring) : Prop := exists vs, Denotes (e_pattern e) path vs.
(** no method means any; otherwise equal up to case *)
Definition method_matches (e : entry) (m : bytes) : Prop := e_method e = [] \/ lower (e_method e) = lower m.
Definition serves (e : entry) (m : bytes) (path : qstring) : Prop := path_matches e path /\ method_matches e m.
(** the path the router looks at *)
Definition decoded (raw : bytes) : qstring := utf8 (qt_percent raw).
Definition is_set (e : effect) : Prop := match e with ESet _ _ => True | _ => False end.

Lemma requestParams_total ps : exists s l, requestParams utf8 ps = Some (s, l).
Proof.
  destruct ps as [q [|p l]]; [|eexists; eexists; reflexivity]. destruct (C25_request_params utf8 q) as (params & pieces & E & _). eauto.
Qed.
Lemma effective_total R m ps : exists m', effective_method R m ps = Some m'.
Proof.
  unfold Router.effective_method. destruct (method_param R); [|eauto]. unfold requestParamValue. destruct (requestParams_total ps) as (s & l & ->).
  destruct (lookup_param _ _ _); eauto.
Qed.

(* methods *)
Lemma latin1_ascii c d : 0 < byte_val c < 128 -> Ascii.eqb (latin1_lower c) (latin1_lower d) = Ascii.eqb (to_lower c) (to_lower d).
Proof.
  intros H.
  assert (A : implb (byte_val c <? 128) (Ascii.eqb (latin1_lower c) (to_lower c) && (byte_val (to_lower c) <? 128)) = true).
  { apply (forall_bytes (fun c => implb (byte_val c <? 128) (Ascii.eqb (latin1_lower c) (to_lower c) && (byte_val (to_lower c) <? 128)))). vm_compute. reflexivity. }
  assert (B : Ascii.eqb (latin1_lower d) (to_lower d) || ((128 <=? byte_val (latin1_lower d)) && (128 <=? byte_val (to_lower d))) = true).
  { apply (forall_bytes (fun d => Ascii.eqb (latin1_lower d) (to_lower d) || ((128 <=? byte_val (latin1_lower d)) && (128 <=? byte_val (to_lower d))))). vm_compute. reflexivity. }
  replace (byte_val c <? 128) with true in A by (symmetry; apply Z.ltb_lt; lia). cbn [implb] in A. apply andb_true_iff in A as (A1 & A2).
  apply Ascii.eqb_eq in A1. apply Z.ltb_lt in A2. rewrite A1. apply orb_true_iff in B as [B|B]; [apply Ascii.eqb_eq in B; now rewrite B|].
  apply andb_true_iff in B as (B1 & B2). apply Z.leb_le in B1, B2.
  assert (X : forall x, 128 <= byte_val x -> Ascii.eqb (to_lower c) x = false) by (intros x Hx; apply Ascii.eqb_neq; intros E; rewrite E in A2; lia).
  now rewrite !X.
Qed.
Lemma stricmp_lower m : forall r, ascii_method m -> length m = length r -> (stricmp0 m r = true <-> lower m = lower r).
Proof.
  induction m as [|c m IH]; intros [|d r] Ha Hl; try discriminate; [easy|]. inversion Ha as [|? ? Hc Ha']; subst. cbn [stricmp0 lower map].
  rewrite latin1_ascii by auto. replace (Ascii.eqb c NUL) with false by (symmetry; apply Ascii.eqb_neq; intros ->; destruct Hc as (Hc & _); discriminate Hc).
  destruct (Ascii.eqb (to_lower c) (to_lower d)) eqn:E.
  - apply Ascii.eqb_eq in E. rewrite IH by (auto; cbn in Hl; lia). unfold lower. split; [intros ->; congruence|congruence].
  - apply Ascii.eqb_neq in E. split; [discriminate|congruence].
Qed.
Lemma method_ok_spec e m : ascii_method (e_method e) -> (method_ok (e_method e) m = true <-> method_matches e m).
Proof.
  unfold method_ok, method_matches. intros H. destruct (e_method e) as [|c t] eqn:E; [split; auto|]. rewrite andb_true_iff, Nat.eqb_eq. split.
  - intros (HL & HS). right. now apply stricmp_lower in HS.
  - intros [|HL]; [discriminate|]. assert (Hl : length (c :: t) = length m) by (apply (f_equal (@length ascii)) in HL; unfold lower in HL; now rewrite !map_length in HL).
    split; auto. now apply stricmp_lower.
Qed.

Definition entry_route (e : entry) : route := mkRoute (e_method e) (items (e_pattern e)) (pnames (e_pattern e) ++ snames (e_pattern e)) (e_target e).
Lemma has_routes_eq R es : Forall good_entry es -> has_routes R es -> routes R = map entry_route es.
Proof.
  intros G H. unfold has_routes in H. induction H as [|e r es rs He H IH]; cbn; auto. inversion G as [|? ? (Gw & _) G']; subst.
  rewrite addRoute_eq in He by auto. injection He as <-. f_equal. auto.
Qed.
Lemma path_matches_spec e path : mat uword (items (e_pattern e)) path <> None <-> path_matches e path.
Proof.
  split.
  - destruct (mat _ _ _) as [vs|] eqn:E; [|congruence]. intros _. exists vs. now apply mat_sound.
  - intros (vs & H). eapply mat_complete; eauto.
Qed.
Lemma dispatch_skip es : forall m path acc, Forall good_entry es -> (forall e, In e es -> ~ serves e m path) ->
  forall rest, exists ms, dispatch uword (map entry_route es ++ rest) m path acc = dispatch uword rest m path (acc ++ map entry_route ms) /\
    (forall e, In e ms <-> In e es /\ path_matches e path) /\ exists f, ms = filter f es /\ forall e, In e es -> f e = true <-> path_matches e path.
Proof.
  assert (X : forall m path e, good_entry e -> ~ serves e m path -> (exists vs, mat uword (items (e_pattern e)) path = Some vs /\ method_ok (e_method e) m = false /\ path_matches e path) \/
     (mat uword (items (e_pattern e)) path = None /\ ~ path_matches e path)).
  { intros m path e (Gw & Ga) HN. pose proof (path_matches_spec e path) as P. destruct (mat _ _ _) as [vs|] eqn:E.
    - left. exists vs. assert (HP : path_matches e path) by now apply P. split; auto. split; auto. destruct (method_ok _ _) eqn:Em; auto. exfalso. apply HN. split; auto. now apply method_ok_spec.
    - right. split; auto. intros HP. now apply P in HP. }
  intros m path acc G HN rest.
  set (f := fun e => match mat uword (items (e_pattern e)) path with Some _ => true | None => false end).
  assert (Hf : forall e, f e = true <-> path_matches e path).
  { intros e. rewrite <- path_matches_spec. unfold f. destruct (mat _ _ _); split; congruence. }
  exists (filter f es). split; [|split; [|exists f; auto]].
  2: { intros e. rewrite filter_In, Hf. reflexivity. }
  revert acc. induction es as [|e es IH]; intros acc; cbn [map app filter].
  - cbn. now rewrite app_nil_r.
  - inversion G; subst. cbn [dispatch]. destruct (X m path e) as [(vs & E & Em & HP)|(E & HP)]; [auto|apply HN; now left| |]; cbn [r_items r_method entry_route]; rewrite E.
    + rewrite Em. apply Hf in HP. rewrite HP. rewrite IH; auto. 2: { intros e' He'. apply HN. now right. } cbn [map]. now rewrite <- app_assoc.
    + destruct (f e) eqn:Ef; [now apply Hf in Ef|]. apply IH; auto. intros e' He'. apply HN. now right.
Qed.

(** ** C36 *)
Theorem C36_first_match : forall R es pre e post raw method ps m,
  has_routes R es -> Forall good_entry es -> es = pre ++ e :: post -> effective_method R method ps = Some m ->
  (forall e', In e' pre -> ~ serves e' m (decoded raw)) -> serves e m (decoded raw) ->
  exists sets, Forall is_set sets /\ handleRequest R method raw ps = Some (true, sets ++ invoke (e_target e)).
Proof.
  intros R es pre e post raw method ps m HR G -> HM HN (HP & Hm). pose proof (has_routes_eq _ _ G HR) as E. unfold Router.handleRequest. rewrite HM, E. fold (decoded raw).
  apply Forall_app in G as (G1 & G2). inversion G2 as [|? ? (Gw & Ga) G3]; subst. rewrite map_app.
  destruct (dispatch_skip pre m (decoded raw) [] G1 HN (map entry_route (e :: post))) as (ms & -> & _).
  cbn [map dispatch]. replace (r_items (entry_route e)) with (items (e_pattern e)) by reflexivity. apply path_matches_spec in HP. destruct (mat _ _ _) as [vs|]; [|congruence]. cbn [r_method r_names r_target entry_route].
  rewrite (proj2 (method_ok_spec e m Ga) Hm). eexists. split; [|reflexivity]. apply Forall_forall. intros x Hx. apply in_map_iff in Hx as (? & <- & _). exact I.
Qed.
Theorem C36_no_match : forall R es raw method ps m,
  has_routes R es -> Forall good_entry es -> effective_method R method ps = Some m ->
  (forall e, In e es -> ~ serves e m (decoded raw)) ->
  exists b, handleRequest R method raw ps = Some (b, []) \/ handleRequest R method raw ps = Some (b, [EWrite 404 [] []]) \/
    exists allow, handleRequest R method raw ps = Some (b, [EWrite 405 [(lit "Allow", allow)] []]).
Proof.
  intros R es raw method ps m HR G HM HN. pose proof (has_routes_eq _ _ G HR) as E. unfold Router.handleRequest. rewrite HM, E. fold (decoded raw).
  destruct (dispatch_skip es m (decoded raw) [] G HN []) as (ms & H & _). rewrite app_nil_r in H. rewrite H. cbn [dispatch app].
  destruct (map entry_route ms); [destruct (unmatched_4xx R)|destruct (mismatch_4xx R)]; eauto 6.
Qed.
(** which method counts *)
Theorem C36_method : forall R method ps, method_param R = false -> effective_method R method ps = Some method.
Proof. intros R method ps H. unfold Router.effective_method. now rewrite H. Qed.
Theorem C36_method_param : forall R method ps s v, method_param R = true -> requestParamValue utf8 fold ps (qlit "_method") = Some (s, v) ->
  effective_method R method ps = Some (match v with [] => method | _ => toAscii v end).
Proof. intros R method ps s v H E. unfold Router.effective_method. rewrite H, E. now destruct v. Qed.
Theorem C36_method_total : forall R method ps, exists m, effective_method R method ps = Some m.
Proof. exact effective_total. Qed.

(** ** C37 *)
Definition only_route (pattern : qstring) (id : nat) (R : router) : Prop :=
  exists r, addRoute uword [] pattern (TFunctor id) = Some r /\ R = mkRouter [r] false false false.
(** a router with one route and any method calls its target exactly for the paths its pattern denotes *)
Theorem C37_patterns : forall p id raw method ps, wf_pattern p ->
  exists R, only_route (text p) id R /\
    ((exists vs, Denotes p (decoded raw) vs) -> exists sets, Forall is_set sets /\ handleRequest R method raw ps = Some (true, sets ++ [ECall id])) /\
    (~ (exists vs, Denotes p (decoded raw) vs) -> handleRequest R method raw ps = Some (false, [])).
Proof.
  intros p id raw method ps H. set (e := mkEntry [] p (TFunctor id)). exists (mkRouter [entry_route e] false false false).
  assert (HR : has_routes (mkRouter [entry_route e] false false false) [e]). { constructor; [|constructor]. apply addRoute_eq. exact H. }
  assert (G : Forall good_entry [e]) by (constructor; [split; [exact H|constructor]|constructor]).
  split; [|split].
  - exists (entry_route e). split; auto. now apply addRoute_eq.
  - intros HP. apply (C36_first_match _ [e] [] e [] raw method ps method HR G eq_refl eq_refl); [intros ? []|]. split; [exact HP|now left].
  - intros HP. unfold Router.handleRequest. cbn [Router.effective_method method_param routes dispatch entry_route r_items].
    fold (decoded raw). pose proof (path_matches_spec e (decoded raw)) as P. destruct (mat _ _ _); [|reflexivity]. destruct HP. apply P. discriminate.
Qed.
(** a pattern of plain characters only: exactly that path *)
Theorem C37_literal : forall l path, (exists vs, Denotes (map Lit l) path vs) <-> path = l.
Proof.
  intros l path. split.
  - intros (vs & H). revert path vs H. induction l as [|z l IH]; intros path vs H; inversion H; subst; auto. f_equal. eauto.
  - intros ->. exists []. induction l; cbn; constructor; auto.
Qed.
(** ":name" in the middle: exactly one non-empty run of letters, digits, '_', '-' *)
Theorem C37_param : forall pre n post path,
  (exists vs, Denotes (map Lit pre ++ Param n :: map Lit post) path vs) <-> (exists v, path = pre ++ v ++ post /\ v <> [] /\ Forall (segment_char uword) v).
Proof.
  intros pre n post path. split.
  - intros (vs & H). revert path vs H. induction pre as [|z pre IH]; intros path vs H; inversion H; subst.
    + exists v. split; auto. cbn. f_equal. apply C37_literal. eauto.
    + destruct (IH _ _ H4) as (v & -> & Hv). exists v. auto.
  - intros (v & -> & Hv & Hf). exists [v]. induction pre; cbn; constructor; auto. assert (X : exists vs, Denotes (map Lit post) post vs) by now apply C37_literal.
    destruct X as (vs & X). assert (vs = []) as ->; auto. apply Denotes_length in X. destruct vs; auto. exfalso. clear -X. induction post; cbn in X; auto. discriminate.
Qed.
(** "*name" at the end: any remainder *)
Theorem C37_splat : forall pre n path, (exists vs, Denotes (map Lit pre ++ [Splat n]) path vs) <-> exists v, path = pre ++ v.
Proof.
  intros pre n path. split.
  - intros (vs & H). revert path vs H. induction pre as [|z pre IH]; intros path vs H; inversion H; subst.
    + inversion H4; subst. exists v. cbn. apply app_nil_r.
    + destruct (IH _ _ H4) as (v & ->). exists v. auto.
  - intros (v & ->). exists [v]. induction pre; cbn [map app]; [|constructor; auto]. rewrite <- (app_nil_r v) at 1. repeat constructor.
Qed.

(** ** C38: partial: for patterns without a "*name" before a ":name"; see the refutation for the others *)
Theorem C38_captures_partial : forall R es pre e post raw method ps m,
  has_routes R es -> Forall good_entry es -> es = pre ++ e :: post -> effective_method R method ps = Some m ->
  (forall e', In e' pre -> ~ serves e' m (decoded raw)) -> serves e m (decoded raw) -> params_first (e_pattern e) ->
  exists vs, Denotes (e_pattern e) (decoded raw) vs /\ length vs = length (names (e_pattern e)) /\
    handleRequest R method raw ps = Some (true, map (fun nv => ESet (fst nv) (snd nv)) (combine (names (e_pattern e)) vs) ++ invoke (e_target e)).
Proof.
  intros R es pre e post raw method ps m HR G -> HM HN (HP & Hm) HF. pose proof (has_routes_eq _ _ G HR) as E. unfold Router.handleRequest. rewrite HM, E. fold (decoded raw).
  apply Forall_app in G as (G1 & G2). inversion G2 as [|? ? (Gw & Ga) G3]; subst. rewrite map_app.
  destruct (dispatch_skip pre m (decoded raw) [] G1 HN (map entry_route (e :: post))) as (ms & -> & _).
  cbn [map dispatch]. replace (r_items (entry_route e)) with (items (e_pattern e)) by reflexivity. apply path_matches_spec in HP. destruct (mat _ _ _) as [vs|] eqn:EV; [|congruence]. cbn [r_method r_names r_target entry_route].
  rewrite (proj2 (method_ok_spec e m Ga) Hm). apply mat_sound in EV. exists vs. split; auto. split; [eapply Denotes_length; eauto|]. now rewrite names_params_first.
Qed.
(** what these setRequestParam calls leave for the handler to read *)
Fixpoint apply_sets (l : list (qstring * qstring)) (s : pstate) : option pstate :=
  match l with
  | [] => Some s
  | (n, v) :: t => match setRequestParam utf8 fold s n v with Some s' => apply_sets t s' | None => None end
  end.
Lemma value_kept s n v n' v' s1 : requestParamValue utf8 fold s n = Some (s, v) -> p_params s <> [] -> fold n' <> fold n -> setRequestParam utf8 fold s n' v' = Some s1 ->
  requestParamValue utf8 fold s1 n = Some (s1, v) /\ p_params s1 <> [].
Proof.
  unfold requestParamValue, setRequestParam, requestParams. intros E HP HN. destruct (p_params s) as [|p0 l0] eqn:El; [congruence|]. rewrite <- El in *. clear HP.
  intros H. injection H as <-. cbn [p_params p_query]. injection E as E.
  assert (L : lookup_param fold n (update_param fold n' v' (p_params s)) = lookup_param fold n (p_params s)).
  { generalize (p_params s). clear -HN. induction l as [|(a, b) l IH]; cbn.
    - unfold qeq. destruct (list_eq_dec _ _ _); congruence.
    - unfold qeq at 1. destruct (list_eq_dec Z.eq_dec (fold a) (fold n')) as [Q|Q]; cbn.
      + unfold qeq. destruct (list_eq_dec _ (fold n') (fold n)); [congruence|]. destruct (list_eq_dec _ (fold a) (fold n)); congruence.
      + destruct (qeq fold a n); auto. }
  assert (U : update_param fold n' v' (p_params s) <> []). { rewrite El. destruct p0. cbn. destruct (qeq _ _ _); discriminate. }
  destruct (update_param fold n' v' (p_params s)) as [|p l] eqn:Eu; [congruence|]. split; [|discriminate]. rewrite <- Eu in *. rewrite L, E. reflexivity.
Qed.
Theorem C38_values : forall l s, NoDup (map (fun nv => fold (fst nv)) l) ->
  exists s', apply_sets l s = Some s' /\ forall n v, In (n, v) l -> requestParamValue utf8 fold s' n = Some (s', v).
Proof.
  assert (K : forall l s n v, requestParamValue utf8 fold s n = Some (s, v) -> p_params s <> [] -> (forall x, In x l -> fold (fst x) <> fold n) ->
    exists s', apply_sets l s = Some s' /\ requestParamValue utf8 fold s' n = Some (s', v)).
  { induction l as [|(n', v') l IH]; intros s n v E HP HN; cbn; [eauto|]. destruct (requestParams_total s) as (s1 & ps & E1).
    destruct (C26_set_then_get utf8 fold s s1 ps n' v' E1) as (s2 & E2 & _). rewrite E2. destruct (value_kept s n v n' v' s2) as (A & B); auto. { apply (HN (n', v')). now left. }
    apply IH; auto. intros x Hx. apply HN. now right. }
  induction l as [|(n, v) l IH]; intros s ND; cbn [apply_sets]; [exists s; split; [auto|intros ? ? []]|]. cbn in ND. inversion ND; subst.
  destruct (requestParams_total s) as (s1 & ps & E1). destruct (C26_set_then_get utf8 fold s s1 ps n v E1) as (s2 & E2 & E3 & Hs). rewrite E2.
  assert (HP : p_params s2 <> []). { destruct Hs as [(a & b & d & _ & _ & ->)|(_ & ->)]; intros X; apply app_eq_nil in X as (_ & X); discriminate. }
  destruct (IH s2 H2) as (s' & E4 & H4). exists s'. split; auto. intros n1 v1 [X|X]; [injection X as <- <-|now apply H4].
  destruct (K l s2 n v E3 HP) as (s'' & E5 & E6). { intros x Hx Q. apply H1. rewrite <- Q. apply in_map_iff. eauto. } rewrite E4 in E5. injection E5 as <-. exact E6.
Qed.

(** ** C39 *)
(** comma-separated *)
Fixpoint comma_list (l : list bytes) : bytes := match l with [] => [] | [x] => x | x :: t => x ++ lit ", " ++ comma_list t end.
Theorem C39_unmatched : forall R es raw method ps,
  has_routes R es -> Forall good_entry es -> (forall e, In e es -> ~ path_matches e (decoded raw)) ->
  handleRequest R method raw ps = Some (if unmatched_4xx R then (true, [EWrite 404 [] []]) else (false, [])).
Proof.
  intros R es raw method ps HR G HN. pose proof (has_routes_eq _ _ G HR) as E. destruct (effective_total R method ps) as (m & HM). unfold Router.handleRequest. rewrite HM, E. fold (decoded raw).
  destruct (dispatch_skip es m (decoded raw) [] G) with (rest := @nil route) as (ms & H & HI & _). { intros e He (HP & _). eapply HN; eauto. }
  rewrite app_nil_r in H. rewrite H. cbn [dispatch app]. assert (ms = []) as ->; [|reflexivity]. destruct ms as [|e ms]; auto. destruct (HI e) as (A & _). destruct A as (A & B); [now left|]. now apply HN in A.
Qed.
(** [f] tells which routes match the path; Allow has their methods, in the order they were added *)
Theorem C39_mismatch : forall R es raw method ps m,
  has_routes R es -> Forall good_entry es -> effective_method R method ps = Some m ->
  (exists e, In e es /\ path_matches e (decoded raw)) -> (forall e, In e es -> ~ serves e m (decoded raw)) ->
  exists f, (forall e, In e es -> f e = true <-> path_matches e (decoded raw)) /\
    handleRequest R method raw ps = Some (if mismatch_4xx R then (true, [EWrite 405 [(lit "Allow", comma_list (map e_method (filter f es)))] []]) else (false, [])).
Proof.
  intros R es raw method ps m HR G HM (e0 & He0 & HP0) HN. pose proof (has_routes_eq _ _ G HR) as E. unfold Router.handleRequest. rewrite HM, E. fold (decoded raw).
  destruct (dispatch_skip es m (decoded raw) [] G HN []) as (ms & H & HI & f & Ef & Hf). rewrite app_nil_r in H. rewrite H. cbn [dispatch app]. exists f. split; auto.
  assert (A : allow_list (map entry_route ms) = comma_list (map e_method ms)).
  { clear. induction ms as [|e [|e' ms] IH]; [reflexivity|reflexivity|]. cbn in *. now rewrite IH. }
  rewrite <- Ef. destruct ms as [|e ms]; [destruct (proj2 (HI e0)); auto|]. cbn [map] in *. now rewrite A.
Qed.

(** ** C40: partial: if the targets of the routes still exist (and named slots do); see the refutation otherwise *)
Definition target_there (t : target) : Prop :=
  match t with THandler _ a | TMethod _ a => a = true | TMember _ a k => a = true /\ k = true | _ => True end.
Definition answers (x : effect) : Prop := match x with ECall _ | EWrite _ _ _ => True | ESet _ _ => False end.
Theorem C40_answered_partial : forall R method raw ps effects,
  (forall r, In r (routes R) -> target_there (r_target r)) -> handleRequest R method raw ps = Some (true, effects) -> Exists answers effects.
Proof.
  intros R method raw ps effects HT H. unfold Router.handleRequest in H. destruct (effective_method R method ps) as [m|]; [|discriminate].
  assert (D : forall rs acc e, (forall r, In r rs -> target_there (r_target r)) -> dispatch uword rs m (utf8 (qt_percent raw)) acc = inl e -> Exists answers e).
  { induction rs as [|r rs IH]; intros acc e HR HD; cbn in HD; [discriminate|]. destruct (mat _ _ _); [|eapply IH; eauto; intros; apply HR; now right].
    destruct (method_ok _ _); [|eapply IH; eauto; intros; apply HR; now right]. injection HD as <-. apply Exists_app. right.
    specialize (HR r (or_introl eq_refl)). destruct (r_target r); cbn in *; subst; try (now repeat constructor). destruct HR as (-> & ->). now repeat constructor. }
  destruct (dispatch _ _ _ _ _) as [e|[|r l]] eqn:E.
  - injection H as <-. eapply D; eauto.
  - destruct (unmatched_4xx R); [|discriminate]. injection H as <-. repeat constructor.
  - destruct (mismatch_4xx R); [|discriminate]. injection H as <-. repeat constructor.
Qed.
(** and a request is only refused without any effect on it *)
Theorem C40_refused_untouched : forall R method raw ps effects, handleRequest R method raw ps = Some (false, effects) -> effects = [].
Proof.
  intros R method raw ps effects H. unfold Router.handleRequest in H. destruct (effective_method R method ps) as [m|]; [|discriminate].
  destruct (dispatch _ _ _ _ _) as [e|[|r l]]; [discriminate|destruct (unmatched_4xx R)|destruct (mismatch_4xx R)]; injection H as H; congruence.
Qed.
End P.

(** ** Cases and refutations, with a plain instance of Qt's functions *)
Definition u8 : bytes -> qstring := map byte_val.
Definition noword : Z -> bool := fun _ => false.
Definition toA (q : qstring) : bytes := map to_char q.
Definition L (s : string) : list tok := map Lit (qlit s).
Arguments L s%string.
Definition ask (R : router) (method path : string) := handleRequest u8 (fun x => x) noword toA R (lit method) (lit path) (mkPS [] []).
Definition one (pattern : string) (t : target) : option router :=
  match addRoute noword [] (qlit pattern) t with Some r => Some (mkRouter [r] false false false) | None => None end.

Definition ex_entries : list entry :=
  [mkEntry (lit "GET") (L "/users/" ++ [Param (qlit "id")] ++ L "/posts/" ++ [Param (qlit "post_id")]) (TFunctor 1);
   mkEntry (lit "POST") (L "/users/" ++ [Param (qlit "id")]) (TFunctor 2);
   mkEntry [] (L "/files/" ++ [Splat (qlit "path")]) (TFunctor 3);
   mkEntry (lit "PUT") (L "/users/" ++ [Param (qlit "id")]) (TStatic 200 [] [])].
Definition ex_router : router :=
  mkRouter (flat_map (fun e => match addRoute noword (e_method e) (text (e_pattern e)) (e_target e) with Some r => [r] | None => [] end) ex_entries) true true false.
Lemma ex_built : has_routes noword ex_router ex_entries /\ Forall (good_entry noword) ex_entries.
Proof.
  split.
  - unfold ex_router, has_routes. cbn [routes]. repeat constructor.
  - repeat (apply Forall_cons || apply Forall_nil); (split; [|repeat constructor; vm_compute; easy]);
      cbn [e_pattern L qlit lit list_ascii_of_string map app wf_pattern]; repeat split; try (vm_compute; congruence); try (intros H; vm_compute in H; congruence); auto.
Qed.
Example C36_case : (forall e', In e' (firstn 1 ex_entries) -> ~ serves noword e' (lit "put") (u8 (lit "/users/42"))) /\
  ask ex_router "put" "/users/42" = Some (true, [ESet (qlit "id") (qlit "42"); EWrite 200 [] []]) /\
  ask ex_router "GET" "/users/4-2_x/posts/abc" = Some (true, [ESet (qlit "id") (qlit "4-2_x"); ESet (qlit "post_id") (qlit "abc"); ECall 1]) /\
  ask ex_router "DELETE" "/files/a%2Fb/c.txt" = Some (true, [ESet (qlit "path") (qlit "a/b/c.txt"); ECall 3]).
Proof.
  split; [|repeat split; vm_compute; reflexivity]. intros e [<-|[]] (_ & [H|H]); vm_compute in H; congruence.
Qed.
Example C37_case : wf_pattern noword (L "/users/" ++ [Param (qlit "id")]).
Proof. cbn. repeat split; try (vm_compute; congruence); auto. Qed.
(** '.' is not taken literally *)
Theorem C37_dot_refuted : exists R, one "/a.txt" (TFunctor 1) = Some R /\ ask R "GET" "/a.txt" = Some (true, [ECall 1]) /\ ask R "GET" "/aXtxt" = Some (true, [ECall 1]).
Proof. eexists. repeat split; vm_compute; reflexivity. Qed.
(** ':name' does not match every segment *)
Theorem C37_segment_refuted : exists R, one "/users/:name" (TFunctor 1) = Some R /\ ask R "GET" "/users/john.doe" = Some (false, []) /\ ask R "GET" "/users/a%20b" = Some (false, []).
Proof. eexists. repeat split; vm_compute; reflexivity. Qed.
(** '*' without a name does not match any remainder, and matches what it should not *)
Theorem C37_star_refuted : exists R, one "/files/*" (TFunctor 1) = Some R /\ ask R "GET" "/files/a" = Some (false, []) /\ ask R "GET" "/files" = Some (true, [ECall 1]).
Proof. eexists. repeat split; vm_compute; reflexivity. Qed.
(** with "*name" before ":name" the values are swapped *)
Theorem C38_swapped_refuted : exists R, one "/*path/item/:id" (TFunctor 1) = Some R /\
  ask R "GET" "/a/b/item/7" = Some (true, [ESet (qlit "id") (qlit "a/b"); ESet (qlit "path") (qlit "7"); ECall 1]).
Proof. eexists. repeat split; vm_compute; reflexivity. Qed.
Example C38_case : params_first (L "/a/" ++ [Param (qlit "id")] ++ L "/" ++ [Splat (qlit "rest")]) /\
  exists s', apply_sets u8 (fun x => x) [(qlit "id", qlit "7"); (qlit "rest", qlit "x/y")] (mkPS (lit "id=1&q=2") []) = Some s' /\
    requestParamValue u8 (fun x => x) s' (qlit "id") = Some (s', qlit "7").
Proof. split; [cbn; auto|]. eexists. split; vm_compute; reflexivity. Qed.
Example C39_case : ask ex_router "DELETE" "/users/1" = Some (true, [EWrite 405 [(lit "Allow", lit "POST, PUT")] []]) /\ ask ex_router "GET" "/nothing" = Some (true, [EWrite 404 [] []]).
Proof. split; vm_compute; reflexivity. Qed.
(** a route whose handler was deleted: accepted, but nobody answers *)
Theorem C40_deleted_refuted : exists R, one "/a" (THandler 1 false) = Some R /\ ask R "GET" "/a" = Some (true, []).
Proof. eexists. split; vm_compute; reflexivity. Qed.
Theorem C40_unknown_slot_refuted : exists R, one "/a" (TMember 1 true false) = Some R /\ ask R "GET" "/a" = Some (true, []).
Proof. eexists. split; vm_compute; reflexivity. Qed.
Example C40_case : (forall r, In r (routes ex_router) -> target_there (r_target r)) /\ exists e, ask ex_router "GET" "/files/" = Some (true, e).
Proof. split; [|eexists; vm_compute; reflexivity]. intros r H. vm_compute in H. destruct H as [<-|[<-|[<-|[<-|[]]]]]; exact I. Qed.
Print Assumptions C36_first_match.
Print Assumptions C38_values.
Print Assumptions C39_mismatch.
