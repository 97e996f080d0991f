(** C73: the requests a NetworkAccessManager makes, and its cookie jar. *)
From Verif Require Import Bytes ByteHelpers Helpers Joyent RespParser Client ClientSpec ClientInv PropsClient Nam NamSpec NamExt NamInv NamServe PropsNam NamJar CIProofs.
From Verif Require Proxy.
Open Scope Z_scope.

(** ** Specification *)
(** the headers of the responses that arrived from client i between the states s and s' *)
Definition new_headers (s s' : nam) (i : nat) : list (list (bytes * bytes)) :=
  flat_map (fun o => match o with CHeaders _ hs => [hs] | _ => [] end) (skipn (length (client_log (client_at s i))) (client_log (client_at s' i))).
(** the URL of the reply that client i is working for *)
Definition url_of {jar} (s : jnam jar) (i : nat) : option qurl :=
  match find (fun x => attached i (fst x)) (combine (n_replies (j_nam s)) (j_urls s)) with Some (_, u) => Some u | None => None end.
(** cookies are remembered for the root of the server *)
Definition server_root (u : qurl) : qurl := mkQ (qu_scheme u) (qu_authority u) (mkUrl (u_host (qu_url u)) (u_port (qu_url u)) (lit "/") (u_query (qu_url u))).
Fixpoint joined (sep : bytes) (l : list bytes) : bytes := match l with [] => [] | [b] => b | b :: t => b ++ sep ++ joined sep t end.
Definition method_for (op : operation) (verb : bytes) : option bytes :=
  match op with OpHead => Some (lit "HEAD") | OpGet => Some (lit "GET") | OpPut => Some (lit "PUT") | OpPost => Some (lit "POST") | OpDelete => Some (lit "DELETE") | OpCustom => Some verb | OpUnknown => None end.
Definition sends_content (op : operation) : bool := match op with OpPut | OpPost | OpCustom => true | _ => false end.

Section Jar.
  Variables (jar cookie : Type) (parse : bytes -> list cookie) (name_value : cookie -> bytes) (full : list cookie -> bytes)
    (set_cookies : list cookie -> qurl -> jar -> jar) (cookies_for : qurl -> jar -> list cookie).
  Variables (zlib : bool) (gunzip : list bytes -> bytes -> bytes) (parse_url : bytes -> url).
  Hypothesis urls : forall b, wf_url (parse_url b).
  Notation cook := (cook_with cookie parse full).
  Notation nstep := (nstep zlib gunzip parse_url cook).
  Notation nrun := (nrun zlib gunzip parse_url cook).
  Notation nclient := (nclient zlib gunzip parse_url cook).
  Notation slots := (slots zlib gunzip parse_url cook).
  Notation NI := (NamInv.NI cook).
  Notation jslots := (jslots jar cookie parse full set_cookies zlib gunzip parse_url).
  Notation jclient := (jclient jar cookie parse full set_cookies zlib gunzip parse_url).
  Notation jcreate := (jcreate jar cookie parse name_value full set_cookies cookies_for zlib gunzip parse_url).
  Notation jstep := (jstep jar cookie parse name_value full set_cookies cookies_for zlib gunzip parse_url).
  Notation jrun := (jrun jar cookie parse name_value full set_cookies cookies_for zlib gunzip parse_url).
  Notation request_headers := (request_headers jar cookie name_value cookies_for).
  Notation cstep := (cstep zlib gunzip parse_url).

  (** the cookies in a response *)
  Definition response_cookies (hs : list (bytes * bytes)) : list cookie := flat_map parse (map snd (filter (named "set-cookie") hs)).
  (** what there is to remember from the responses that arrived between s and s': the cookies, and where they come from *)
  Definition learned (s s' : jnam jar) : list (list cookie * qurl) :=
    flat_map (fun i => match url_of s' i with Some u => map (fun hs => (response_cookies hs, server_root u)) (new_headers (j_nam s) (j_nam s') i) | None => [] end)
      (seq 0 (length (n_clients (j_nam s')))).
  Definition remember (l : list (list cookie * qurl)) (j : jar) : jar := fold_left (fun j x => set_cookies (fst x) (snd x) j) l j.
  Fixpoint all_learned (s : jnam jar) (l : list jevent) : list (list cookie * qurl) :=
    match l with [] => [] | e :: t => learned s (jstep s e) ++ all_learned (jstep s e) t end.
  (** the request that is to be made *)
  Definition cookie_headers (u : qurl) (j : option jar) : list (bytes * bytes) :=
    match j with
    | None => []
    | Some j => match joined (lit "; ") (map name_value (cookies_for u j)) with [] => [] | v => [(lit "Cookie", v)] end
    end.
  Definition request_for (op : operation) (verb : bytes) (u : qurl) (raw : list (bytes * bytes)) (out : option bytes) (j : option jar) : option creq :=
    match method_for op verb with
    | None => None
    | Some m => Some (mkCR m (qu_url u) (raw ++ cookie_headers u j) (if sends_content op then match out with Some b => b | None => [] end else []))
    end.
  (** calm histories, as in NamSpec.v *)
  Definition calm_jevent (s : jnam jar) (e : jevent) : Prop :=
    match e with
    | JCreate op verb u raw out => match request_for op verb u raw out (j_jar s) with Some r => wf_creq r /\ cr_method r <> [] | None => True end
    | JEvent e => calm_event (j_nam s) e
    end.
  Fixpoint calm_jhistory (s : jnam jar) (l : list jevent) : Prop := match l with [] => True | e :: t => calm_jevent s e /\ calm_jhistory (jstep s e) t end.

  (** ** The model makes that request *)
  Lemma cookie_joined cs : cookie_value cookie name_value cs = joined (lit "; ") (map name_value cs).
  Proof.
    unfold cookie_value. set (f := fun (x : list ascii * Z) c => let '(b, i) := x in ((if 0 <? i then b ++ lit "; " else b) ++ name_value c, i + 1)).
    assert (Ef : forall (b : list ascii) i c, f (b, i) c = ((if 0 <? i then b ++ lit "; " else b) ++ name_value c, i + 1)) by reflexivity. clearbody f.
    assert (X : forall cs (b : list ascii) i, 0 < i -> fst (fold_left f cs (b, i)) = match cs with [] => b | _ => b ++ lit "; " ++ joined (lit "; ") (map name_value cs) end).
    { clear cs. induction cs as [|c cs IH]; intros b i H; [reflexivity|]. cbn [fold_left]. rewrite Ef. destruct (Z.ltb_spec 0 i); [|lia]. rewrite IH by lia.
      destruct cs as [|c' cs]; cbn [map joined]; rewrite <- !app_assoc; reflexivity. }
    destruct cs as [|c cs]; [reflexivity|]. cbn [fold_left]. rewrite Ef. cbn [Z.ltb Z.compare app]. rewrite X by lia. destruct cs; reflexivity.
  Qed.
  Lemma request_same op verb u raw out j : make_request op verb u (request_headers u raw j) out = request_for op verb u raw out j.
  Proof.
    assert (E : request_headers u raw j = raw ++ cookie_headers u j).
    { unfold NamJar.request_headers, cookie_headers. destruct j as [j|]; [|now rewrite app_nil_r]. rewrite cookie_joined. cbv zeta. destruct (joined _ _); [now rewrite app_nil_r|reflexivity]. }
    rewrite E. destruct op; reflexivity.
  Qed.

  (** ** The part of Nam.v *)
  Lemma jfold_nam i l : forall s, j_nam (fold_left (jslots i) l s) = fold_left (slots i) l (j_nam s).
  Proof. induction l as [|o l IH]; intros s; [reflexivity|]. cbn [fold_left]. rewrite IH. f_equal. destruct o; reflexivity. Qed.
  Lemma jfold_urls i l : forall s, j_urls (fold_left (jslots i) l s) = j_urls s.
  Proof. induction l as [|o l IH]; intros s; [reflexivity|]. cbn [fold_left]. rewrite IH. destruct o; reflexivity. Qed.
  Lemma jclient_nam i a s : j_nam (jclient i a s) = nclient i a (j_nam s).
  Proof. unfold NamJar.jclient, Nam.nclient. destruct (nth_error _ _); [|reflexivity]. apply jfold_nam. Qed.
  Lemma jclient_urls i a s : j_urls (jclient i a s) = j_urls s.
  Proof. unfold NamJar.jclient. destruct (nth_error _ _); [|reflexivity]. cbv zeta. now rewrite jfold_urls. Qed.
  Definition plain_event (s : jnam jar) (e : jevent) : option nevent :=
    match e with
    | JCreate op verb u raw out => if http_scheme u then Some (NCreate (qu_authority u) (request_for op verb u raw out (j_jar s))) else None
    | JEvent (NCreate _ _) => None
    | JEvent e => Some e
    end.
  Lemma jstep_nam s e : j_nam (jstep s e) = match plain_event s e with Some e' => nstep (j_nam s) e' | None => j_nam s end.
  Proof.
    destruct e as [op verb u raw out|[a r|i a|j|j n|j|j]]; cbn [NamJar.jstep plain_event]; try reflexivity.
    - unfold NamJar.jcreate. destruct (http_scheme u); [|reflexivity]. cbn [negb]. rewrite request_same. cbn [Nam.nstep]. unfold createRequest.
      destruct (pick (qu_authority u) (j_nam s)) as [i n]. cbv zeta. destruct (request_for _ _ _ _ _ _); [|reflexivity]. now rewrite jclient_nam.
    - cbn [Nam.nstep]. destruct (is_call a); [reflexivity|]. apply jclient_nam.
    - cbn [Nam.nstep]. destruct (nth_error _ _) as [p|]; [|reflexivity]. destruct (np_phase p); try reflexivity; apply jclient_nam.
  Qed.
  Lemma jstep_calm s e : calm_jevent s e -> match plain_event s e with Some e' => calm_event (j_nam s) e' | None => True end.
  Proof. destruct e as [op verb u raw out|[a r|i a|j|j n|j|j]]; cbn [calm_jevent plain_event]; auto. destruct (http_scheme u); auto. Qed.
  Lemma jhistory l : forall s, calm_jhistory s l -> exists l', calm_history nstep (j_nam s) l' /\ j_nam (jrun s l) = nrun (j_nam s) l'.
  Proof.
    induction l as [|e l IH]; intros s H; [exists []; now split|]. destruct H as [H1 H2]. destruct (IH _ H2) as (l' & A & B). pose proof (jstep_nam s e) as E. apply jstep_calm in H1.
    cbn [NamJar.jrun fold_left]. unfold NamJar.jrun in B. rewrite B. rewrite E in *. destruct (plain_event s e) as [e'|]; [exists (e' :: l'); cbn [calm_history Nam.nrun fold_left]; auto|exists l'; auto].
  Qed.
  Definition JI (s : jnam jar) : Prop := NI (j_nam s) /\ length (j_urls s) = length (n_replies (j_nam s)).
  Lemma jstep_ok s e : JI s -> calm_jevent s e -> JI (jstep s e).
  Proof.
    intros [N L] Q. split.
    - apply jstep_calm in Q. rewrite jstep_nam. destruct (plain_event s e); auto. now apply nstep_ok.
    - destruct e as [op verb u raw out|[a r|i a|j|j n|j|j]]; cbn [NamJar.jstep j_urls j_nam]; auto.
      + unfold NamJar.jcreate. destruct (negb _); auto.
        assert (E : n_replies (snd (pick (qu_authority u) (j_nam s))) = n_replies (j_nam s)) by (unfold pick; destruct (take_pool _ _) as [[i l]|]; reflexivity).
        destruct (pick _ _) as [i n]. cbn [snd] in E. cbv zeta. destruct (make_request _ _ _ _ _).
        * rewrite jclient_urls, jclient_nam, nclient_length. cbn [j_urls j_nam n_replies]. rewrite !app_length, E, L. reflexivity.
        * cbn [j_urls j_nam n_replies]. rewrite !app_length, E, L. reflexivity.
      + destruct (is_call a); auto. now rewrite jclient_urls, jclient_nam, nclient_length.
      + destruct (nth_error _ _) as [p|]; auto. destruct (np_phase p); auto; now rewrite jclient_urls, jclient_nam, nclient_length.
      + cbn [Nam.nstep]. now rewrite upd_length.
      + cbn [Nam.nstep]. now rewrite upd_length.
      + cbn [Nam.nstep]. now rewrite upd_length.
  Qed.
  Lemma jrun_ok l : forall s, JI s -> calm_jhistory s l -> JI (jrun s l).
  Proof. induction l as [|e l IH]; intros s N H; [exact N|]. destruct H as [H1 H2]. cbn [NamJar.jrun fold_left]. apply IH; auto. now apply jstep_ok. Qed.
  Lemma jstart_ok j : JI (jstart j).
  Proof. split; [apply nam0_ok|reflexivity]. Qed.

  (** ** The jar *)
  Definition signalless (o : cobs) : Prop := is_signal o = false.
  Lemma okq_signalless W q : Forall (okq W) q -> Forall signalless q.
  Proof. intros H. eapply Forall_impl; [|exact H]. intros o Ho. unfold signalless. destruct o; cbn [okq] in Ho; try contradiction; reflexivity. Qed.
  Lemma jslots_quiet i q : Forall signalless q -> forall s, fold_left (jslots i) q s = s.
  Proof. induction 1 as [|o q Ho Hq IH]; intros s; auto. cbn [fold_left]. rewrite IH. unfold signalless in Ho. destruct o; try discriminate; destruct s; reflexivity. Qed.
  Lemma quiet_headers q : Forall signalless q -> flat_map (fun o => match o with CHeaders _ hs => [hs] | _ => [] end) q = [].
  Proof. induction 1 as [|o q Ho Hq IH]; auto. cbn [flat_map]. rewrite IH. unfold signalless in Ho. destruct o; try discriminate; reflexivity. Qed.
  Lemma store_one i hs : forall (xs : list (nreply * qurl)) j, (length (filter (attached i) (map fst xs)) <= 1)%nat ->
    fold_left (fun j (x : nreply * qurl) => if attached i (fst x) then store jar cookie parse set_cookies hs (fst x) (snd x) j else j) xs j =
    match find (fun x => attached i (fst x)) xs with Some (_, u) => option_map (set_cookies (response_cookies hs) (server_root u)) j | None => j end.
  Proof.
    assert (ST : forall p u j, store jar cookie parse set_cookies hs p u j = option_map (set_cookies (response_cookies hs) (server_root u)) j).
    { intros p u j. unfold store. destruct j; [|reflexivity]. rewrite meta_loop. reflexivity. }
    assert (Z : forall (xs : list (nreply * qurl)) j, filter (attached i) (map fst xs) = [] ->
      fold_left (fun j (x : nreply * qurl) => if attached i (fst x) then store jar cookie parse set_cookies hs (fst x) (snd x) j else j) xs j = j).
    { induction xs as [|x xs IH]; intros j H; auto. cbn [map filter] in H. cbn [fold_left]. destruct (attached i (fst x)); [discriminate|auto]. }
    induction xs as [|x xs IH]; intros j H; auto. cbn [map filter] in H. cbn [fold_left find]. destruct x as [p u]. cbn [fst snd] in *. destruct (attached i p); [|auto].
    cbn [length] in H. rewrite Z by (destruct (filter _ _); [reflexivity|cbn in H; lia]). apply ST.
  Qed.
  Lemma find_for i f (ps : list nreply) : (forall p, attached i (f p) = attached i p) -> forall us : list qurl,
    match find (fun x => attached i (fst x)) (combine (for_attached i f ps) us) with Some (_, u) => Some u | None => None end =
    match find (fun x => attached i (fst x)) (combine ps us) with Some (_, u) => Some u | None => None end.
  Proof.
    intros F. unfold for_attached. induction ps as [|p ps IH]; intros [|u us]; cbn [map combine find fst]; auto.
    assert (E : attached i (if attached i p then f p else p) = attached i p) by (destruct (attached i p) eqn:E; [rewrite F|]; exact E). rewrite E. destruct (attached i p); [reflexivity|apply IH].
  Qed.
  Lemma map_fst_combine {A B} (l : list A) : forall l' : list B, length l' = length l -> map fst (combine l l') = l.
  Proof. induction l as [|x l IH]; intros [|y l'] H; cbn in *; try discriminate; auto. now rewrite IH by lia. Qed.
  Lemma learn_at {A} (f : nat -> list A) i n : (i < n)%nat -> (forall k, k <> i -> f k = []) -> flat_map f (seq 0 n) = f i.
  Proof.
    intros H Z. assert (X : forall n m, flat_map f (seq m n) = if andb (Nat.leb m i) (Nat.ltb i (m + n)) then f i else []).
    { clear H n. induction n as [|n IH]; intros m; cbn [seq flat_map].
      - destruct (Nat.leb_spec m i), (Nat.ltb_spec i (m + 0)); cbn [andb]; auto; lia.
      - rewrite IH. destruct (Nat.eq_dec m i) as [->|N].
        + destruct (Nat.leb_spec (S i) i); [lia|]. cbn [andb]. rewrite app_nil_r. destruct (Nat.leb_spec i i), (Nat.ltb_spec i (i + S n)); cbn [andb]; auto; lia.
        + rewrite Z by auto. cbn [app]. destruct (Nat.leb_spec (S m) i), (Nat.ltb_spec i (S m + n)), (Nat.leb_spec m i), (Nat.ltb_spec i (m + S n)); cbn [andb]; auto; lia. }
    rewrite X. destruct (Nat.ltb_spec i (0 + n)); [reflexivity|lia].
  Qed.
  Lemma consume_log g : InvG g -> client_log (cstep g (CaCall CoConsume)) = client_log g.
  Proof.
    destruct g as [c stk|f]; [|contradiction]. intros I. cbn [Client.cstep do_cop]. rewrite (shape_resume _ _ (iv_shape _ _ (proj1 I))). reflexivity.
  Qed.
  (** what a step of client i does to the jar *)
  Lemma jclient_jar i a s c stk q t : Forall InvG (n_clients (j_nam s)) -> (i < length (n_clients (j_nam s)))%nat -> client_at (j_nam s) i = CRun c stk ->
    InvG (cstep (CRun c stk) a) -> client_log (cstep (CRun c stk) a) = c_log c ++ q ++ t -> Forall signalless q -> t = [] \/ (exists o, t = [o] /\ is_signal o = true) ->
    length (j_urls s) = length (n_replies (j_nam s)) -> (length (filter (attached i) (n_replies (j_nam s))) <= 1)%nat ->
    j_jar (jclient i a s) = option_map (remember (learned s (jclient i a s))) (j_jar s).
  Proof.
    intros Iv Hi Ei Ig El Fq Ht Lu Lf. set (s' := jclient i a s).
    assert (En : nth_error (n_clients (j_nam s)) i = Some (CRun c stk)) by (rewrite <- Ei; unfold client_at; now apply nth_error_nth').
    set (g' := cstep (CRun c stk) a) in *. set (s0 := mkJ (mkNam (set_at i g' (n_clients (j_nam s))) (n_auths (j_nam s)) (n_pool (j_nam s)) (n_replies (j_nam s))) (j_jar s) (j_urls s)).
    assert (ES : s' = fold_left (jslots i) t s0).
    { unfold s', NamJar.jclient. rewrite En. cbv zeta. fold g'. cbn [client_log]. rewrite El, skipn_len, fold_left_app. rewrite (jslots_quiet i q Fq). reflexivity. }
    assert (C0 : forall k, client_at (j_nam s0) k = if Nat.eqb k i then g' else client_at (j_nam s) k) by (intros k; unfold client_at, s0; cbn [j_nam n_clients]; now apply nth_set_at).
    assert (L0 : length (n_clients (j_nam s0)) = length (n_clients (j_nam s))) by (unfold s0; cbn [j_nam n_clients]; apply set_at_length).
    (* the logs *)
    assert (LG : length (n_clients (j_nam s')) = length (n_clients (j_nam s)) /\ forall k, client_log (client_at (j_nam s') k) = if Nat.eqb k i then c_log c ++ q ++ t else client_log (client_at (j_nam s) k)).
    { assert (X : length (n_clients (j_nam s')) = length (n_clients (j_nam s0)) /\ forall k, client_log (client_at (j_nam s') k) = client_log (client_at (j_nam s0) k)).
      { rewrite ES. destruct Ht as [->|(o & -> & So)]; [auto|]. cbn [fold_left]. destruct o; try discriminate So; cbn [NamJar.jslots j_nam Nam.slots n_clients]; auto.
        destruct (existsb _ _); [|auto]. cbn [n_clients]. split; [apply set_at_length|]. intros k. unfold client_at at 1. cbn [n_clients]. rewrite nth_set_at by (rewrite L0; exact Hi).
        destruct (Nat.eqb_spec k i) as [->|N]; [|reflexivity]. change (nth i (n_clients (j_nam s0)) (CUB AssertFailed)) with (client_at (j_nam s0) i). rewrite C0, Nat.eqb_refl. now apply consume_log. }
      destruct X as [X1 X2]. split; [congruence|]. intros k. rewrite X2, C0. destruct (Nat.eqb k i); [exact El|reflexivity]. }
    destruct LG as [LL LG].
    assert (NH : forall k, new_headers (j_nam s) (j_nam s') k = if Nat.eqb k i then flat_map (fun o => match o with CHeaders _ hs => [hs] | _ => [] end) t else []).
    { intros k. unfold new_headers. rewrite LG. destruct (Nat.eqb_spec k i) as [->|N]; [|now rewrite skipn_all].
      rewrite Ei. cbn [client_log]. rewrite skipn_len, flat_map_app, quiet_headers by auto. reflexivity. }
    assert (LE : learned s s' = match url_of s' i with Some u => map (fun hs => (response_cookies hs, server_root u)) (flat_map (fun o => match o with CHeaders _ hs => [hs] | _ => [] end) t) | None => [] end).
    { unfold learned. rewrite (learn_at _ i); [now rewrite NH, Nat.eqb_refl|lia|]. intros k Hk. rewrite NH. destruct (Nat.eqb_spec k i); [contradiction|]. destruct (url_of s' k); reflexivity. }
    rewrite LE. assert (JZ : j_jar s' = j_jar s -> flat_map (fun o => match o with CHeaders _ hs => [hs] | _ => [] end) t = [] ->
      j_jar s' = option_map (remember (match url_of s' i with Some u => map (fun hs => (response_cookies hs, server_root u)) (flat_map (fun o => match o with CHeaders _ hs => [hs] | _ => [] end) t) | None => [] end)) (j_jar s)).
    { intros E1 E2. rewrite E1, E2. cbn [map]. destruct (url_of s' i), (j_jar s); reflexivity. }
    destruct Ht as [->|(o & -> & So)]; [apply JZ; [rewrite ES|]; reflexivity|].
    destruct o as [| | | | |code hs|b|e code hs b]; try discriminate So; try (apply JZ; [rewrite ES|]; reflexivity).
    assert (EU : url_of s' i = match find (fun x => attached i (fst x)) (combine (n_replies (j_nam s)) (j_urls s)) with Some (_, u) => Some u | None => None end).
    { unfold url_of. rewrite ES. cbn [fold_left NamJar.jslots j_nam Nam.slots n_replies j_urls]. unfold s0. cbn [j_nam n_replies j_urls]. apply find_for. reflexivity. }
    rewrite EU, ES. cbn [fold_left NamJar.jslots j_jar]. unfold s0. cbn [j_nam n_replies j_urls j_jar]. rewrite store_one by (now rewrite map_fst_combine).
    destruct (find _ _) as [[p u]|]; [reflexivity|]. destruct (j_jar s); reflexivity.
  Qed.

  Lemma learned_nothing s s' : (forall k, client_log (client_at (j_nam s') k) = client_log (client_at (j_nam s) k)) -> learned s s' = [].
  Proof.
    intros H. unfold learned. induction (seq _ _) as [|k l IH]; auto. cbn [flat_map]. rewrite IH, app_nil_r. unfold new_headers. rewrite H, skipn_all. destruct (url_of s' k); reflexivity.
  Qed.
  Lemma remember_nothing s s' : j_jar s' = j_jar s -> (forall k, client_log (client_at (j_nam s') k) = client_log (client_at (j_nam s) k)) -> j_jar s' = option_map (remember (learned s s')) (j_jar s).
  Proof. intros E H. rewrite learned_nothing by auto. rewrite E. destruct (j_jar s); reflexivity. Qed.
  Lemma one_attached s i : NI s -> (length (filter (attached i) (n_replies s)) <= 1)%nat.
  Proof. intros [_ _ _ [A1 A2 A3 A4 A5 A6 A7]]. apply A4. Qed.
  Lemma jclient_step i a s : JI s -> asks a = false -> calm a (client_at (j_nam s) i) -> j_jar (jclient i a s) = option_map (remember (learned s (jclient i a s))) (j_jar s).
  Proof.
    intros [N L] A Q. destruct (Nat.lt_ge_cases i (length (n_clients (j_nam s)))) as [Hi|Hi].
    - destruct (inv_at (j_nam s) i (n_inv _ N) Hi) as (c & stk & Ei & I). rewrite Ei in Q.
      pose proof (step_ok zlib gunzip parse_url urls (CRun c stk) a I Q) as Ig.
      pose proof (step_ext zlib gunzip parse_url false c stk a A ltac:(discriminate)) as Ex. destruct (cstep (CRun c stk) a) as [c' stk'|f] eqn:Es; [|contradiction].
      destruct Ex as (q & t & E1 & E2 & _ & E4 & _).
      apply (jclient_jar i a s c stk q t); auto; [exact (n_inv _ N)|rewrite Es; exact Ig|rewrite Es; exact E1|now apply okq_signalless in E2|now apply one_attached].
    - assert (E : jclient i a s = s) by (unfold NamJar.jclient; destruct (nth_error _ _) eqn:X; [|reflexivity]; assert (Y : (i < length (n_clients (j_nam s)))%nat) by (apply nth_error_Some; congruence); lia).
      rewrite E. now apply remember_nothing.
  Qed.
  (** every response adds its own cookies to the jar, once, for the server its own request was made to; nothing else changes the jar *)
  Theorem C73_jar : forall j l e, calm_jhistory (jstart j) l -> let s := jrun (jstart j) l in calm_jevent s e ->
    j_jar (jstep s e) = option_map (remember (learned s (jstep s e))) (j_jar s).
  Proof.
    intros j l e H s Q. pose proof (jrun_ok l _ (jstart_ok j) H) as J. change (jrun (jstart j) l) with s in J. clearbody s. clear H l j. pose proof J as [N L].
    destruct e as [op verb u raw out|[a r|i a|j|j n|j|j]]; cbn [NamJar.jstep calm_jevent calm_event] in *; try (now apply remember_nothing).
    - unfold NamJar.jcreate. destruct (negb _) eqn:Hs; [now apply remember_nothing|]. rewrite request_same.
      pose proof (picked cook (j_nam s) (qu_authority u) N) as P.
      assert (PL : forall k, client_log (client_at (snd (pick (qu_authority u) (j_nam s))) k) = client_log (client_at (j_nam s) k)).
      { intros k. unfold pick. destruct (take_pool _ _) as [[i l]|]; [reflexivity|]. cbn [snd]. unfold client_at. cbn [n_clients].
        destruct (Nat.lt_ge_cases k (length (n_clients (j_nam s)))) as [Hk|Hk]; [now rewrite app_nth1|]. rewrite app_nth2, (nth_overflow (n_clients (j_nam s))) by auto.
        destruct (k - _)%nat as [|[|m]]; reflexivity. }
      assert (E : n_replies (snd (pick (qu_authority u) (j_nam s))) = n_replies (j_nam s)) by (unfold pick; destruct (take_pool _ _) as [[i l]|]; reflexivity).
      destruct (pick (qu_authority u) (j_nam s)) as [i n]. cbn [snd] in PL, E. destruct P as (N1 & Hi & Ha & Np & Na & Bz).
      destruct (request_for op verb u raw out (j_jar s)) as [r|]; [|cbv zeta; now apply remember_nothing]. cbv zeta. destruct Q as [Wf Me].
      set (s1 := mkJ (mkNam (n_clients n) (n_auths n) (n_pool n) (n_replies n ++ [new_reply i (qu_authority u) (Some r)])) (j_jar s) (j_urls s ++ [u])).
      assert (LL : learned s (jclient i (CaCall (CoRequest r)) s1) = learned s1 (jclient i (CaCall (CoRequest r)) s1)).
      { unfold learned. apply flat_map_ext. intros k. destruct (url_of _ k); [|reflexivity]. unfold new_headers. rewrite <- PL. reflexivity. }
      rewrite LL. change (j_jar s) with (j_jar s1). destruct (inv_at n i (n_inv _ N1) Hi) as (c & stk & Ei & I). rewrite Ei in Bz. apply busy_idle in Bz as [Pn Nx].
      pose proof (step_ok zlib gunzip parse_url urls (CRun c stk) (CaCall (CoRequest r)) I Wf) as Ig.
      pose proof (request_starts false r c stk (fun c' => cresume zlib gunzip stk c') Pn Nx) as Ex.
      change (request r c stk (fun c' => cresume zlib gunzip stk c')) with (cstep (CRun c stk) (CaCall (CoRequest r))) in Ex.
      specialize (Ex ltac:(intros base; apply resume_ext)). destruct (cstep (CRun c stk) (CaCall (CoRequest r))) as [c' stk'|f] eqn:Es; [|contradiction].
      destruct Ex as (q & t & E1 & E2 & _ & E4 & _).
      eapply (jclient_jar i _ s1 c stk ((if r_parsing (c_p c) then CKept r else CAccepted r) :: q) t).
      + exact (n_inv _ N1).
      + exact Hi.
      + exact Ei.
      + rewrite Es. exact Ig.
      + rewrite Es. cbn [client_log]. rewrite E1, <- app_assoc. reflexivity.
      + constructor; [unfold signalless; destruct (r_parsing _); reflexivity|now apply okq_signalless in E2].
      + exact E4.
      + unfold s1. cbn [j_urls j_nam n_replies]. rewrite !app_length, E, L. reflexivity.
      + unfold s1. cbn [j_nam n_replies]. rewrite filter_app, app_length. rewrite (proj2 (filter_nil (attached i) (n_replies n)) Na). cbn [filter length]. destruct (attached i _); cbn; lia.
    - destruct (is_call a) eqn:Ic; [now apply remember_nothing|]. apply jclient_step; auto. destruct a; auto; discriminate.
    - destruct (nth_error (n_replies (j_nam s)) j) as [p|] eqn:Ep; [|now apply remember_nothing]. destruct (np_phase p); try (now apply remember_nothing); apply jclient_step; auto.
    - apply remember_nothing; [reflexivity|]. intros k. cbn [j_nam Nam.nstep]. unfold upd_reply. destruct (nth_error _ _); reflexivity.
    - apply remember_nothing; [reflexivity|]. intros k. cbn [j_nam Nam.nstep]. unfold upd_reply. destruct (nth_error _ _); reflexivity.
    - apply remember_nothing; [reflexivity|]. intros k. cbn [j_nam Nam.nstep]. unfold upd_reply. destruct (nth_error _ _); reflexivity.
  Qed.

  (** so the jar is what the responses made of it, in the order in which they arrived *)
  Theorem C73_history : forall j l, calm_jhistory (jstart j) l -> j_jar (jrun (jstart j) l) = option_map (remember (all_learned (jstart j) l)) j.
  Proof.
    intros j l H. assert (X : forall l2 l1, calm_jhistory (jstart j) (l1 ++ l2) ->
      j_jar (jrun (jstart j) (l1 ++ l2)) = option_map (remember (all_learned (jrun (jstart j) l1) l2)) (j_jar (jrun (jstart j) l1))).
    { clear H l. assert (CA : forall l1 l2 s, calm_jhistory s (l1 ++ l2) <-> calm_jhistory s l1 /\ calm_jhistory (jrun s l1) l2).
      { induction l1 as [|e l1 IH]; intros l2 s; cbn [app calm_jhistory NamJar.jrun fold_left]; [tauto|]. rewrite IH. tauto. }
      induction l2 as [|e l2 IH]; intros l1 H.
      - rewrite app_nil_r. cbn [all_learned]. destruct (j_jar _); reflexivity.
      - replace (l1 ++ e :: l2) with ((l1 ++ [e]) ++ l2) in * by now rewrite <- app_assoc. rewrite (IH _ H).
        assert (ER : jrun (jstart j) (l1 ++ [e]) = jstep (jrun (jstart j) l1) e) by (unfold NamJar.jrun; now rewrite fold_left_app).
        apply CA in H as [H _]. apply CA in H as [H1 [H2 _]]. rewrite ER, (C73_jar j l1 e H1 H2). cbn [all_learned]. destruct (j_jar (jrun (jstart j) l1)); cbn [option_map]; [|reflexivity].
        unfold remember. now rewrite fold_left_app. }
    exact (X l [] H).
  Qed.
  (** createRequest(): the reply is for the method of the operation, the URL, the headers of the request followed by the cookies that the jar
      holds for the URL, in one header; content goes with PUT, POST and custom operations only.  Nothing is done for other schemes. *)
  Theorem C73_request : forall j l op verb u raw out, calm_jhistory (jstart j) l -> let s := jrun (jstart j) l in
    let jar_now := option_map (remember (all_learned (jstart j) l)) j in
    let s' := jstep s (JCreate op verb u raw out) in
    (lower (qu_scheme u) = lit "http" -> exists p, nth_error (n_replies (j_nam s')) (length (n_replies (j_nam s))) = Some p /\
        np_req p = request_for op verb u raw out jar_now /\ np_auth p = qu_authority u /\ j_urls s' = j_urls s ++ [u] /\
        length (n_replies (j_nam s')) = S (length (n_replies (j_nam s)))) /\
    (lower (qu_scheme u) <> lit "http" -> s' = s).
  Proof.
    intros j l op verb u raw out H s jn s'. assert (EJ : j_jar s = jn) by now apply C73_history. split; intros Hs.
    - assert (E : http_scheme u = true) by (unfold http_scheme; now apply beqb_true).
      pose proof (jstep_nam s (JCreate op verb u raw out)) as P. cbn [plain_event] in P. rewrite E, EJ in P. fold s' in P.
      destruct (C63_create zlib gunzip parse_url cook (j_nam s) (qu_authority u) (request_for op verb u raw out jn)) as (p & A & B & C & D). rewrite <- P in *. exists p. repeat (split; [assumption|]). split; [|assumption].
      unfold s'. cbn [NamJar.jstep]. unfold NamJar.jcreate. rewrite E. cbn [negb]. destruct (pick _ _) as [i n]. cbv zeta. destruct (make_request _ _ _ _ _); [now rewrite jclient_urls|reflexivity].
    - assert (E : http_scheme u = false) by (unfold http_scheme; now apply beqb_false). unfold s'. cbn [NamJar.jstep]. unfold NamJar.jcreate. now rewrite E.
  Qed.
  (** what is sent for a reply is that request, and what it shows is the response to it (NamSpec.v) *)
  Theorem C73_served : forall j l, calm_jhistory (jstart j) l -> Served cook (j_nam (jrun (jstart j) l)).
  Proof. intros j l H. apply ni_served. apply (jrun_ok l _ (jstart_ok j) H). Qed.
End Jar.

(** ** Concrete histories *)
(** a jar that works as QNetworkCookieJar is documented to: a cookie without a path is for the directory of the URL it comes from *)
Record ck := mkCk { ck_text : bytes; ck_path : option bytes }.
Fixpoint upto (c : ascii) (b : bytes) : bytes := match b with [] => [] | x :: t => if Ascii.eqb x c then [] else x :: upto c t end.
Fixpoint beyond (c : ascii) (b : bytes) : bytes := match b with [] => [] | x :: t => if Ascii.eqb x c then t else beyond c t end.
Definition prefixed (p b : bytes) : bool := beqb (firstn (length p) b) p.
Definition ck_parse (v : bytes) : list ck :=
  [mkCk (upto ";" v) (if prefixed (lit " path=") (beyond ";" v) then Some (skipn 6 (beyond ";" v)) else None)].
Definition directory (b : bytes) : bytes := let fix dir (b acc done : bytes) := match b with [] => done | x :: t => if Ascii.eqb x "/" then dir t (acc ++ [x]) (acc ++ [x]) else dir t (acc ++ [x]) done end in dir b [] [].
Definition ckjar := list (bytes * bytes * ck).
Definition ck_set (cs : list ck) (u : qurl) (j : ckjar) : ckjar :=
  j ++ map (fun c => (u_host (qu_url u), match ck_path c with Some p => p | None => directory (u_path (qu_url u)) end, c)) cs.
Definition ck_for (u : qurl) (j : ckjar) : list ck :=
  map snd (filter (fun x => beqb (fst (fst x)) (u_host (qu_url u)) && prefixed (snd (fst x)) (u_path (qu_url u))) j).
Definition ck_full (cs : list ck) : bytes := joined (lit ", ") (map ck_text cs).
Notation ckstep := (jstep ckjar ck ck_parse ck_text ck_full ck_set ck_for false no_gunzip no_url).
Notation ckrun := (jrun ckjar ck ck_parse ck_text ck_full ck_set ck_for false no_gunzip no_url).
Notation ck_calm := (calm_jhistory ckjar ck ck_parse ck_text ck_full ck_set ck_for false no_gunzip no_url).

(** deciding calm histories *)
Definition calm_jeventb (s : jnam ckjar) (e : jevent) : bool :=
  match e with
  | JCreate op verb u raw out => match request_for ckjar ck ck_text ck_for op verb u raw out (j_jar s) with Some r => wf_creqb r && negb (beqb (cr_method r) []) | None => true end
  | JEvent e => calm_eventb (j_nam s) e
  end.
Fixpoint calm_jhistoryb (s : jnam ckjar) (l : list jevent) : bool := match l with [] => true | e :: t => calm_jeventb s e && calm_jhistoryb (ckstep s e) t end.
Lemma calm_jhistoryb_ok l : forall s, calm_jhistoryb s l = true -> ck_calm s l.
Proof.
  induction l as [|e l IH]; intros s H; [exact Logic.I|]. cbn [calm_jhistoryb calm_jhistory] in *. apply andb_prop in H as [A B]. split; [|now apply IH].
  destruct e as [op verb u raw out|e]; cbn [calm_jevent calm_jeventb] in *.
  - destruct (request_for _ _ _ _ _ _ _ _ _ _) as [r|]; auto. apply andb_prop in A as [A1 A2]. split; [now apply wf_creqb_ok|]. apply negb_true_iff, beqb_false in A2. exact A2.
  - assert (X : calm_historyb (fun s _ => s) (j_nam s) [e] = true) by (cbn [calm_historyb]; now rewrite A). apply calm_historyb_ok in X. apply X.
Qed.

Definition page (path : string) : qurl := mkQ (lit "HTTP") org (mkUrl org (-1) (lit path) []).
Definition secure_page : qurl := mkQ (lit "https") org (mkUrl org (-1) (lit "/a") []).
Definition baked (extra : list string) : bytes :=
  lit "HTTP/1.1 200 OK" ++ CRLF ++ concat (map (fun x => lit x ++ CRLF) extra) ++ lit "Content-Length: 0" ++ CRLF ++ CRLF.
Definition exchange (i : nat) (b : bytes) : list jevent :=
  map JEvent [NEvent i CaFlushed; NEvent i (CaArrive b); NEvent i CaReadyRead; NEvent i CaReturn; NEvent i CaReturn; NEvent i CaReturn].
Definition jar_run : list jevent :=
  [JCreate OpPost [] (page "/login") [(lit "Accept", lit "*/*")] (Some (lit "me")); JEvent (NEvent 0 CaConnected)] ++
  exchange 0 (baked ["set-cookie: a=1"; "Location: /in"; "Set-Cookie: b=2; path=/shop"; "location: /out"]%string) ++
  [JCreate OpGet [] (page "/shop/cart") [] (Some (lit "unused")); JCreate OpGet [] secure_page [] None] ++
  exchange 0 (baked ["Set-Cookie: c=3"]%string) ++ [JCreate OpCustom (lit "PURGE") (page "/") [(lit "X", lit "y")] None].
Example C73_case : ck_calm (jstart (Some [])) jar_run /\
  let s := ckrun (jstart (Some [])) jar_run in
  map np_req (n_replies (j_nam s)) =
    [Some (mkCR (lit "POST") (qu_url (page "/login")) [(lit "Accept", lit "*/*")] (lit "me"));
     Some (mkCR (lit "GET") (qu_url (page "/shop/cart")) [(lit "Cookie", lit "a=1; b=2")] []);
     Some (mkCR (lit "PURGE") (qu_url (page "/")) [(lit "X", lit "y"); (lit "Cookie", lit "a=1; c=3")] [])] /\
  map np_target (n_replies (j_nam s)) = [Some (lit "/out"); None; None] /\
  map np_headers (n_replies (j_nam s)) = [[(lit "location", lit "/out"); (lit "Content-Length", lit "0"); (lit "Set-Cookie", lit "a=1, b=2")];
    [(lit "Content-Length", lit "0"); (lit "Set-Cookie", lit "c=3")]; []] /\
  all_learned ckjar ck ck_parse ck_text ck_full ck_set ck_for false no_gunzip no_url (jstart (Some [])) jar_run =
    [([mkCk (lit "a=1") None; mkCk (lit "b=2") (Some (lit "/shop"))], server_root (page "/login")); ([mkCk (lit "c=3") None], server_root (page "/shop/cart"))] /\
  existsb (fun o => match o with CWrite b => beqb b (lit "GET /shop/cart HTTP/1.1" ++ CRLF ++ lit "Host: example.org" ++ CRLF ++ lit "Cookie: a=1; b=2" ++ CRLF ++ CRLF) | _ => false end)
    (client_log (client_at (j_nam s) 0)) = true.
Proof. split; [apply calm_jhistoryb_ok; vm_compute; reflexivity|]. cbv zeta. repeat (split; [vm_compute; reflexivity|]). vm_compute. reflexivity. Qed.

(** ** What fails *)
(** a cookie without a path is for the directory of the page that set it, here /admin/; the manager tells the jar that it comes from the
    root, so it is sent to every page of the server *)
Definition scope_run : list jevent :=
  [JCreate OpGet [] (page "/admin/login") [] None; JEvent (NEvent 0 CaConnected)] ++ exchange 0 (baked ["Set-Cookie: sid=1"]%string) ++ [JCreate OpGet [] (page "/public") [] None].
Theorem C73_scope_refuted : ck_calm (jstart (Some [])) scope_run /\
  ck_for (page "/public") (ck_set (ck_parse (lit "sid=1")) (page "/admin/login") []) = [] /\
  map np_req (n_replies (j_nam (ckrun (jstart (Some [])) scope_run))) =
    [Some (mkCR (lit "GET") (qu_url (page "/admin/login")) [] []); Some (mkCR (lit "GET") (qu_url (page "/public")) [(lit "Cookie", lit "sid=1")] [])].
Proof. split; [apply calm_jhistoryb_ok|split]; vm_compute; reflexivity. Qed.
(** a request with a Cookie header of its own is sent with two of them (RFC 6265, 5.4: at most one) *)
Definition two_run : list jevent :=
  [JCreate OpGet [] (page "/") [] None; JEvent (NEvent 0 CaConnected)] ++ exchange 0 (baked ["Set-Cookie: sid=1"]%string) ++ [JCreate OpGet [] (page "/") [(lit "Cookie", lit "mine=2")] None].
Theorem C73_two_cookies_refuted : ck_calm (jstart (Some [])) two_run /\
  existsb (fun o => match o with CWrite b => beqb b (lit "GET / HTTP/1.1" ++ CRLF ++ lit "Host: example.org" ++ CRLF ++ lit "Cookie: mine=2" ++ CRLF ++ lit "Cookie: sid=1" ++ CRLF ++ CRLF) | _ => false end)
    (client_log (client_at (j_nam (ckrun (jstart (Some [])) two_run)) 0)) = true.
Proof. split; [apply calm_jhistoryb_ok|]; vm_compute; reflexivity. Qed.
(** the cookies of a response whose reply was deleted are lost *)
Definition deleted_run : list jevent :=
  [JCreate OpGet [] (page "/") [] None; JEvent (NEvent 0 CaConnected); JEvent (NDelete 0)] ++ exchange 0 (baked ["Set-Cookie: sid=1"]%string).
Theorem C73_deleted_refuted : ck_calm (jstart (Some [])) deleted_run /\
  In (CHeaders 200 [(lit "Set-Cookie", lit "sid=1"); (lit "Content-Length", lit "0")]) (client_log (client_at (j_nam (ckrun (jstart (Some [])) deleted_run)) 0)) /\
  j_jar (ckrun (jstart (Some [])) deleted_run) = Some [].
Proof. split; [apply calm_jhistoryb_ok; vm_compute; reflexivity|]. split; [vm_compute; tauto|vm_compute; reflexivity]. Qed.
