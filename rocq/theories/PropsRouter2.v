(** PROPERTIES C36-C38, continued: percent-encoded paths; patterns with special characters; C66: percent-encoded fields. *)
From Verif Require Import Bytes ByteHelpers Helpers Params TextSpec HelpersProofs Router RouterSpec RouterProofs RouterRx PropsRouter Conn Handlers PropsHandlers Script PropsScript.
Open Scope Z_scope.

Lemma qt_hex_val : forall a, is_xdigit a = true -> qt_hex a = hexval a.
Proof.
  intros a H. assert (X : implb (is_xdigit a) (qt_hex a =? hexval a) = true).
  { apply (forall_bytes (fun a => implb (is_xdigit a) (qt_hex a =? hexval a))). vm_compute. reflexivity. }
  rewrite H in X. cbn [implb] in X. now apply Z.eqb_eq in X.
Qed.
Lemma hexval_range a : 0 <= hexval a < 16.
Proof.
  assert (X : (0 <=? hexval a) && (hexval a <? 16) = true). { apply (forall_bytes (fun a => (0 <=? hexval a) && (hexval a <? 16))). vm_compute. reflexivity. }
  lia.
Qed.
Lemma lor_hex x y : 0 <= x < 16 -> 0 <= y < 16 -> Z.lor (Z.shiftl x 4) y = 16 * x + y.
Proof.
  intros Hx Hy. rewrite Z.shiftl_mul_pow2 by lia. change (2 ^ 4) with 16.
  assert (D : forall k, (k < 16)%nat -> forall j, (j < 16)%nat -> Z.lor (Z.of_nat k * 16) (Z.of_nat j) = 16 * Z.of_nat k + Z.of_nat j).
  { do 16 (intros [|k]; [intros _; do 16 (intros [|j]; [reflexivity|revert j]); intros j Hj; lia|revert k]). intros k Hk. lia. }
  specialize (D (Z.to_nat x) ltac:(lia) (Z.to_nat y) ltac:(lia)). rewrite !Z2Nat.id in D by lia. exact D.
Qed.
Lemma qt_percent_spec s t : PDecode s t -> qt_percent s = t.
Proof.
  induction 1 as [|a b s t Ha Hb H IH|c s t Hc H IH].
  - reflexivity.
  - cbn [qt_percent]. change (Ascii.eqb "%" "%") with true. cbv iota. rewrite IH. f_equal. rewrite !qt_hex_val by assumption.
    rewrite lor_hex by apply hexval_range. unfold to_char, hexbyte. f_equal. f_equal. apply Z.mod_small. pose proof (hexval_range a). pose proof (hexval_range b). lia.
  - destruct s as [|a [|b s']].
    + inversion H; subst. reflexivity.
    + destruct t as [|x t']; inversion H; subst. match goal with X : PDecode [] ?t' |- _ => inversion X; subst end. reflexivity.
    + cbn [qt_percent] in *. replace (Ascii.eqb c "%") with false by (symmetry; now apply Ascii.eqb_neq). now rewrite IH.
Qed.

(** ** C36-C39: the path the router looks at is the percent-decoded one *)
Theorem C36_decoded : forall utf8 raw path, PDecode raw path -> decoded utf8 raw = utf8 path.
Proof. intros utf8 raw path H. unfold decoded. now rewrite (qt_percent_spec _ _ H). Qed.
(** however a client encodes a path, the routes see the same text *)
Theorem C36_encoding_irrelevant : forall utf8 fold uword toAscii R method raw raw' path ps,
  PDecode raw path -> PDecode raw' path ->
  handleRequest utf8 fold uword toAscii R method raw ps = handleRequest utf8 fold uword toAscii R method raw' ps.
Proof.
  intros utf8 fold uword toAscii R method raw raw' path ps H H'. unfold handleRequest.
  now rewrite (qt_percent_spec _ _ H), (qt_percent_spec _ _ H').
Qed.
Example C36_decoded_case : PDecode (lit "/us%65rs/4%32") (lit "/users/42") /\ PDecode (lit "/users/42") (lit "/users/42") /\
  ask ex_router "PUT" "/us%65rs/4%32" = ask ex_router "PUT" "/users/42" /\ ask ex_router "PUT" "/users/42" = Some (true, [ESet (qlit "id") (qlit "42"); EWrite 200 [] []]).
Proof.
  split; [|split; [|split; vm_compute; reflexivity]].
  - cbn. repeat first [apply PD_nil | apply PD_char; [discriminate|]].
    change (PDecode ("%"%char :: "6"%char :: "5"%char :: lit "rs/4%32") (hexbyte "6" "5" :: lit "rs/42")). apply PD_esc; [reflexivity|reflexivity|].
    cbn. repeat first [apply PD_nil | apply PD_char; [discriminate|]].
    change (PDecode ["%"; "3"; "2"]%char [hexbyte "3" "2"]). apply PD_esc; [reflexivity|reflexivity|constructor].
  - cbn. repeat first [apply PD_nil | apply PD_char; [discriminate|]].
Qed.
(** a '%' that is not followed by two hexadecimal digits is not left alone (nor is the request refused): "/a%zzb" is not the path "/a%zzb" *)
Theorem C36_bad_escape_refuted : exists R, one "/a%zzb" (TFunctor 1) = Some R /\ ask R "GET" "/a%zzb" = Some (false, []).
Proof. eexists. split; vm_compute; reflexivity. Qed.

(** ** C37: patterns with '.', '*', '+', '?' *)
Section P.
Variables (utf8 : bytes -> qstring) (fold : qstring -> qstring) (uword : Z -> bool) (toAscii : qstring -> bytes).
Theorem C37_regex : forall p id raw method ps, wf_rx uword p ->
  exists R, only_route uword (rtext p) id R /\
    ((exists vs, RDenotes uword p (decoded utf8 raw) vs) ->
       exists sets, Forall is_set sets /\ handleRequest utf8 fold uword toAscii R method raw ps = Some (true, sets ++ [ECall id])) /\
    (~ (exists vs, RDenotes uword p (decoded utf8 raw) vs) -> handleRequest utf8 fold uword toAscii R method raw ps = Some (false, [])).
Proof.
  intros p id raw method ps H. set (r := mkRoute [] (map item_of p) (rpnames p ++ rsnames p) (TFunctor id)). exists (mkRouter [r] false false false).
  pose proof (rmat_spec uword p (decoded utf8 raw)) as P. unfold decoded in *.
  split; [|split].
  - exists r. split; auto. now apply raddRoute_eq.
  - intros HP. apply P in HP. unfold Router.handleRequest. cbn [Router.effective_method method_param routes dispatch r r_items r_method r_names r_target].
    destruct (mat _ _ _) as [vs|]; [|congruence]. eexists. split; [|reflexivity]. apply Forall_forall. intros x Hx. apply in_map_iff in Hx as (? & <- & _). exact I.
  - intros HP. unfold Router.handleRequest. cbn [Router.effective_method method_param routes dispatch r r_items].
    destruct (mat _ _ _); [|reflexivity]. destruct HP. apply P. discriminate.
Qed.
(** the values of the names: what their places in the path hold, if every ":name" comes before every "*name" *)
Theorem C38_regex_partial : forall p id raw method ps, wf_rx uword p -> (exists vs, RDenotes uword p (decoded utf8 raw) vs) ->
  exists R vs, only_route uword (rtext p) id R /\ RDenotes uword p (decoded utf8 raw) vs /\
    handleRequest utf8 fold uword toAscii R method raw ps = Some (true, map (fun nv => ESet (fst nv) (snd nv)) (combine (rpnames p ++ rsnames p) vs) ++ [ECall id]).
Proof.
  intros p id raw method ps H HP. set (r := mkRoute [] (map item_of p) (rpnames p ++ rsnames p) (TFunctor id)).
  pose proof (rmat_spec uword p (decoded utf8 raw)) as P. apply P in HP. clear P. destruct (mat uword (map item_of p) (decoded utf8 raw)) as [vs|] eqn:E; [|congruence].
  exists (mkRouter [r] false false false), vs. split; [exists r; split; auto; now apply raddRoute_eq|]. split; [now apply rmat_sound|].
  unfold Router.handleRequest. cbn [Router.effective_method method_param routes dispatch r r_items r_method r_names r_target]. unfold decoded in E. rewrite E. reflexivity.
Qed.
End P.
Definition rx (s : string) : list rtok := map (fun z => Ch (This z) Once) (qlit s).
Arguments rx s%string.

Example C37_regex_case :
  let p := rx "/l" ++ [Ch (This 111) AnyTimes] ++ [Ch (This 45) AtMostOnce] ++ rx "/a" ++ [Ch Dot AtLeastOnce] ++ rx "/" ++ [RParam (qlit "id")] in
  wf_rx noword p /\ rtext p = qlit "/lo*-?/a.+/:id" /\
  exists R, one "/lo*-?/a.+/:id" (TFunctor 1) = Some R /\ ask R "GET" "/looo/abc/d/7" = Some (true, [ESet (qlit "id") (qlit "7"); ECall 1]) /\
    ask R "GET" "/l-/a/7" = Some (false, []) /\ ask R "GET" "/l-/aa/7" = Some (true, [ESet (qlit "id") (qlit "7"); ECall 1]) /\ ask R "GET" "/l--/aa/7" = Some (false, []).
Proof.
  split; [|split; [vm_compute; reflexivity|eexists; repeat split; vm_compute; reflexivity]].
  cbn [rx qlit lit list_ascii_of_string map app wf_rx rstarts_word plain_one].
  repeat match goal with |- _ /\ _ => split end; try exact I; try (unfold plain_char; split); try (vm_compute; congruence); try discriminate; try (intros _ X; vm_compute in X; congruence); auto.
Qed.

(** ** C66: percent-encoded fields reach the script decoded *)
Theorem C66_decoded : forall dec items r path query fragment uri,
  PDecode (q_path r) path -> PDecode (q_query r) query -> PDecode (q_fragment r) fragment -> PDecode (q_uri r) uri ->
  let o := requestObject dec items r in
  o_path o = dec path /\ o_query o = dec query /\ o_fragment o = dec fragment /\ o_uri o = dec uri.
Proof.
  intros dec items r path query fragment uri Hp Hq Hf Hu o. cbn. unfold fromPercent.
  rewrite (qt_percent_spec _ _ Hp), (qt_percent_spec _ _ Hq), (qt_percent_spec _ _ Hf), (qt_percent_spec _ _ Hu). auto.
Qed.

(** ** C41, C42: the file is the one named by the percent-decoded path *)
Theorem C42_decoded : forall dec F F' pub path p content t,
  PDecode path t -> served dec F F' pub path p content -> p = pub ++ dec t.
Proof. intros dec F F' pub path p content t H (E & _). now rewrite (qt_percent_spec _ _ H) in E. Qed.
Theorem C41_decoded : forall dec digest F F' pub n path hs b es p t,
  PDecode path t -> fileHandle dec digest F F' pub n path hs = (b, es) -> opened es p -> p = pub ++ dec t.
Proof.
  intros dec digest F F' pub n path hs b es p t H E O. destruct (fileHandle_open _ _ _ _ _ _ _ _ _ _ _ E O) as (_ & _ & X & _).
  now rewrite (qt_percent_spec _ _ H) in X.
Qed.

(** ** C36: what the route chosen does *)
Inductive Does : target -> list effect -> Prop :=
| Do_handler id : Does (THandler id true) [ECall id]
| Do_member id : Does (TMember id true true) [ECall id]
| Do_method id : Does (TMethod id true) [ECall id]
| Do_functor id : Does (TFunctor id) [ECall id]
| Do_static code hs content : Does (TStatic code hs content) [EWrite code hs content].
Theorem C36_does : forall utf8 fold uword toAscii R es pre e post raw method ps m effects,
  has_routes uword R es -> Forall (good_entry uword) es -> es = pre ++ e :: post ->
  effective_method utf8 fold toAscii R method ps = Some m ->
  (forall e', In e' pre -> ~ serves uword e' m (decoded utf8 raw)) -> serves uword e m (decoded utf8 raw) -> Does (e_target e) effects ->
  exists sets, Forall is_set sets /\ handleRequest utf8 fold uword toAscii R method raw ps = Some (true, sets ++ effects).
Proof.
  intros utf8 fold uword toAscii R es pre e post raw method ps m effects HR G E HM HN HS D.
  destruct (C36_first_match utf8 fold uword toAscii R es pre e post raw method ps m HR G E HM HN HS) as (sets & Hs & H). exists sets. split; [exact Hs|].
  rewrite H. do 2 f_equal. f_equal. now destruct D.
Qed.
