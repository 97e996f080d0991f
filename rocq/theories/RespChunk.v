(** Chunked responses. *)
From Verif Require Import Bytes ByteHelpers Helpers TextSpec ConnText HelpersProofs Joyent RespParser RespInv RespSplit RespSpec RespFeed RespName RespDecode RespBody.
Open Scope Z_scope.

Fixpoint hex_value (acc : Z) (ds : bytes) {struct ds} : option Z :=
  match ds with
  | [] => Some acc
  | c :: t => if Joyent.unhex c =? -1 then None else hex_value (acc * 16 + Joyent.unhex c) t
  end.
Lemma hex_snoc ds : forall acc n c, hex_value acc ds = Some n -> (Joyent.unhex c =? -1) = false -> hex_value acc (ds ++ [c]) = Some (n * 16 + Joyent.unhex c).
Proof.
  induction ds as [|x ds IH]; intros acc n c E U; cbn [app hex_value] in *.
  - injection E as <-. rewrite U. reflexivity.
  - destruct (Joyent.unhex x =? -1); [discriminate|]. auto.
Qed.
Lemma unhex_digit c d : digit_val c = Some d -> Joyent.unhex c = d.
Proof.
  intros E. pose proof (forall_bytes (fun c => match digit_val c with Some d => Joyent.unhex c =? d | None => true end) ltac:(vm_compute; reflexivity) c) as G.
  cbn beta in G. rewrite E in G. lia.
Qed.
Lemma digit_nonneg c d : digit_val c = Some d -> 0 <= d.
Proof.
  intros E. pose proof (forall_bytes (fun c => match digit_val c with Some d => 0 <=? d | None => true end) ltac:(vm_compute; reflexivity) c) as G.
  cbn beta in G. rewrite E in G. lia.
Qed.
Lemma Digits_hex ds n : Digits 16 ds n -> hex_value 0 ds = Some n.
Proof.
  induction 1 as [c d E L|s n c d D IH E L].
  - cbn [hex_value]. rewrite (unhex_digit _ _ E). pose proof (digit_nonneg _ _ E). replace (d =? -1) with false by (symmetry; apply Z.eqb_neq; lia). f_equal. 
  - rewrite (hex_snoc s 0 n c); auto; rewrite (unhex_digit _ _ E); [f_equal; lia|]. pose proof (digit_nonneg _ _ E). apply Z.eqb_neq. lia.
Qed.
Lemma hex_mono ds : forall acc n, hex_value acc ds = Some n -> 0 <= acc -> acc <= n.
Proof.
  induction ds as [|c ds IH]; cbn [hex_value]; intros acc n E A; [injection E as <-; lia|].
  pose proof (unhex_range c). destruct (Joyent.unhex c =? -1) eqn:U; [discriminate|]. apply Z.eqb_neq in U. apply IH in E; lia.
Qed.
Lemma CR_nohex : Joyent.unhex CR = -1.
Proof. reflexivity. Qed.

Lemma Go_hex : forall ds h r d n nr, h_state h = s_chunk_size -> f_chunked h = true -> hex_value (h_cl h) ds = Some n -> 0 <= h_cl h -> n <= max_length ->
  nr = h_nread h + blen ds -> nr <= HTTP_MAX_HEADER_SIZE ->
  Go (rset_h h r) (plain (ds ++ d)) (rset_h (hset_cl n (hset_nread nr h)) r) (plain d).
Proof.
  induction ds as [|c ds IH]; intros h r d n nr S C E A M Enr N; subst nr.
  - cbn in E. injection E as <-. cbn [app]. rewrite blen_nil, Z.add_0_r. destruct h; apply Go_refl.
  - cbn [hex_value] in E. destruct (Joyent.unhex c =? -1) eqn:U; [discriminate|]. rewrite blen_cons in *. pose proof (blen_nonneg ds).
    assert (mono := hex_mono _ _ _ E). pose proof (unhex_range c) as Ur. assert (U0 : 0 <= Joyent.unhex c) by (apply Z.eqb_neq in U; lia).
    cbn [app]. eapply Go_trans; [apply Go_byte; [now rewrite S|lia|]|].
    + unfold jbyte. hsimp. rewrite S, C. cbn [negb]. unfold ceq. destruct (Ascii.eqb_spec c CR) as [->|_]; [rewrite CR_nohex in U; discriminate|]. rewrite U.
      unfold max_length, ULLONG_MAX in *. unfold u64. rewrite (Z.mod_small (h_cl h * 16)) by lia. rewrite Z.mod_small by lia.
      replace (_ <? h_cl h) with false by (symmetry; apply Z.ltb_ge; lia).
      replace (_ =? 18446744073709551615) with false by (symmetry; apply Z.eqb_neq; lia). cbn [orb]. reflexivity.
    + cbn [advance l_data l_field l_value l_body moved option_map].
      eapply Go_trans; [apply (IH _ r d n (h_nread h + (1 + blen ds))); hsimp; auto; try lia|].
      match goal with |- Go (rset_h ?x _) _ (rset_h ?y _) _ => replace x with y; [apply Go_refl|heq] end.
Qed.
Lemma Go_ext : forall t h r d nr, h_state h = s_chunk_parameters -> f_chunked h = true -> forallb (fun c => negb (Ascii.eqb c CR)) t = true ->
  nr = h_nread h + blen t -> nr <= HTTP_MAX_HEADER_SIZE ->
  Go (rset_h h r) (plain (t ++ d)) (rset_h (hset_nread nr h) r) (plain d).
Proof.
  induction t as [|c t IH]; intros h r d nr S C F Enr N; subst nr.
  - cbn [app]. rewrite blen_nil, Z.add_0_r. destruct h; apply Go_refl.
  - rewrite blen_cons in *. pose proof (blen_nonneg t). cbn [forallb] in F. apply andb_prop in F as [Fc F].
    cbn [app]. eapply Go_trans; [apply Go_byte; [now rewrite S|lia|]|].
    + unfold jbyte. hsimp. rewrite S, C. cbn [negb]. unfold ceq. destruct (Ascii.eqb c CR); [discriminate|]. reflexivity.
    + eapply Go_trans; [apply (IH _ r d (h_nread h + (1 + blen t))); hsimp; auto; try lia|]. hsimp. apply Go_refl.
Qed.

(** the size line *)
Definition sized (n : Z) (h : hparser) : hparser :=
  hset_nread 0 (hset_cl n (if n =? 0 then hset_state s_header_field_start (hset_flags (f_chunked h) (f_keepalive h) (f_close h) true (f_upgrade h) h)
                           else hset_state s_chunk_data h)).
Lemma Go_size sz n : SizeLine sz n -> forall h r d, h_state h = s_chunk_size_start -> f_chunked h = true -> h_nread h = 0 ->
  Go (rset_h h r) (plain (sz ++ d)) (rset_h (sized n h) r) (plain d).
Proof.
  intros [ds ext n' D M X B] h r d S C N. unfold max_head in B.
  apply Digits_hex in D as D'. destruct ds as [|c ds]; [destruct (Digits_nil _ _ D)|].
  cbn [hex_value] in D'. destruct (Joyent.unhex c =? -1) eqn:U; [discriminate|].
  rewrite ?blen_app, ?blen_cons in B. change (blen CRLF) with 2 in B. pose proof (blen_nonneg ds). pose proof (blen_nonneg ext).
  pose proof (unhex_range c). assert (0 <= Joyent.unhex c) by (apply Z.eqb_neq in U; lia).
  rewrite <- !app_assoc. cbn [app].
  eapply Go_trans; [apply Go_byte; [now rewrite S|rewrite N; unfold HTTP_MAX_HEADER_SIZE; lia|unfold jbyte; hsimp; rewrite S, C, N, U; reflexivity]|].
  cbn [advance l_data l_field l_value l_body moved option_map].
  eapply Go_trans; [apply (Go_hex ds) with (n := n') (nr := 1 + blen ds); hsimp; auto; rewrite ?N; unfold HTTP_MAX_HEADER_SIZE; try lia|].
  set (h1 := hset_cl n' (hset_nread (1 + blen ds) _)).
  assert (G : exists h2, h_nread h2 = 1 + blen ds + blen ext + 1 /\ h2 = hset_nread (h_nread h2) (hset_state s_chunk_size_almost_done h1) /\
    Go (rset_h h1 r) (plain (ext ++ CRLF ++ d)) (rset_h h2 r) (plain (LF :: d))).
  { destruct X as [->|(x & t & -> & Hx & Ft)]; unfold CRLF; cbn [app]; rewrite ?blen_cons, ?blen_nil in *.
    - eexists. split; [|split; [|apply Go_byte; [reflexivity|subst h1; hsimp; unfold HTTP_MAX_HEADER_SIZE; lia|unfold jbyte; subst h1; hsimp; rewrite C; reflexivity]]].
      + hsimp. lia.
      + subst h1. heq.
    - pose proof (blen_nonneg t).
      assert (Gx : Go (rset_h h1 r) (plain (x :: t ++ CR :: LF :: d)) (rset_h (hset_nread (h_nread h1 + 1) (hset_state s_chunk_parameters h1)) r) (plain (t ++ CR :: LF :: d))).
      { eapply Go_trans; [apply Go_byte; [reflexivity|subst h1; hsimp; unfold HTTP_MAX_HEADER_SIZE; lia|]|].
        - unfold jbyte. subst h1; hsimp. rewrite C. cbn [negb]. destruct Hx as [->| ->]; cbn; reflexivity.
        - cbn [advance l_data l_field l_value l_body moved option_map]. match goal with |- Go (rset_h ?x _) _ (rset_h ?y _) _ => replace x with y; [apply Go_refl|heq] end. }
      eexists. split; [|split; [|eapply Go_trans; [exact Gx|eapply Go_trans; [apply (Go_ext t) with (nr := 1 + blen ds + 1 + blen t); auto; subst h1; hsimp; auto; unfold HTTP_MAX_HEADER_SIZE; lia|
        apply Go_byte; [reflexivity|hsimp; unfold HTTP_MAX_HEADER_SIZE; lia|unfold jbyte; subst h1; hsimp; rewrite C; reflexivity]]]]].
      + hsimp. lia.
      + subst h1. heq. }
  destruct G as (h2 & N2 & E2 & G). eapply Go_trans; [exact G|].
  assert (C2 : f_chunked h2 = true) by (rewrite E2; subst h1; hsimp; auto).
  assert (L2 : h_cl h2 = n') by (rewrite E2; subst h1; hsimp; auto).
  assert (S2 : h_state h2 = s_chunk_size_almost_done) by (rewrite E2; reflexivity).
  unfold sized. destruct (n' =? 0) eqn:Z0.
  - eapply Go_trans; [apply Go_byte; [now rewrite S2|unfold HTTP_MAX_HEADER_SIZE; lia|unfold jbyte; hsimp; rewrite S2, C2; cbn [negb]; change (ceq LF LF) with true; cbv iota; rewrite L2, Z0; reflexivity]|].
    cbn [advance l_data l_field l_value l_body moved option_map].
    match goal with |- Go (rset_h ?x _) _ (rset_h ?y _) _ => replace x with y; [apply Go_refl|rewrite E2; subst h1; heq; auto] end.
  - eapply Go_trans; [apply Go_byte; [now rewrite S2|unfold HTTP_MAX_HEADER_SIZE; lia|unfold jbyte; hsimp; rewrite S2, C2; cbn [negb]; change (ceq LF LF) with true; cbv iota; rewrite L2, Z0; reflexivity]|].
    cbn [advance l_data l_field l_value l_body moved option_map].
    match goal with |- Go (rset_h ?x _) _ (rset_h ?y _) _ => replace x with y; [apply Go_refl|rewrite E2; subst h1; heq; auto] end.
Qed.

(* one byte of a body *)
Lemma Go_bbyte h r ch d f v b h' l' : parsing_header (h_state h) = false ->
  jbyte ch h (mkL (ch :: d) f v b false) = Next h' l' ->
  Go (rset_h h r) (mkL (ch :: d) f v b false) (rset_h h' r) l'.
Proof.
  intros P E. apply Go_step; [discriminate|]. unfold mstep, jstep. cbn [l_data l_re]. rsimp. rewrite P, E. reflexivity.
Qed.
Lemma Go_bcall h r ch d f v b c h' l' er : parsing_header (h_state h) = false ->
  jbyte ch h (mkL (ch :: d) f v b false) = Call c h' l' er -> c <> CbComplete -> h_errno h' = HPE_OK ->
  Go (rset_h h r) (mkL (ch :: d) f v b false) (on_cb c (rset_h h' r)) l'.
Proof.
  intros P E C O. apply Go_step; [discriminate|]. unfold mstep, jstep. cbn [l_data l_re]. rsimp. rewrite P, E. cbn [after].
  rewrite on_cb_h by auto. rsimp. rewrite O. reflexivity.
Qed.

Definition got (body : bytes) (r : rparser) : rparser :=
  mkRP (r_h r) (r_field r) (r_value r) (r_lwv r) (r_parsing r) (r_headers r) (r_content r ++ body) (r_log r ++ map RByte body).

Lemma Go_data data : data <> [] -> blen data <= max_length -> forall h r d, h_state h = s_chunk_data -> f_chunked h = true -> h_cl h = blen data -> h_errno h = HPE_OK ->
  Go (rset_h h r) (plain (data ++ CRLF ++ d)) (rset_h (hset_nread 0 (hset_cl 0 (hset_state s_chunk_size_start h))) (got data r)) (plain d).
Proof.
  intros ND LM h r d S C L O. destruct data as [|x data']; [congruence|]. set (data := x :: data') in *.
  assert (1 <= blen data) by (subst data; rewrite blen_cons; pose proof (blen_nonneg data'); lia).
  eapply Go_trans; [apply (Go_bbyte _ _ x (data' ++ CRLF ++ d)); [now rewrite S|]|].
  - unfold jbyte. rewrite S, C, L. cbn [negb orb].
    replace (blen data =? 0) with false by (symmetry; apply Z.eqb_neq; lia).
    replace (blen data =? ULLONG_MAX) with false by (symmetry; apply Z.eqb_neq; unfold max_length, ULLONG_MAX in *; lia). cbn [orb].
    cbn [l_data l_field l_value l_body]. change (x :: data' ++ CRLF ++ d) with (data ++ CRLF ++ d). rewrite blen_app.
    pose proof (blen_nonneg (CRLF ++ d)). rewrite Z.min_l by lia. rewrite Z.sub_diag. hsimp. rewrite Z.eqb_refl.
    replace (Z.to_nat (blen data)) with (length data) by (unfold blen; lia).
    rewrite firstn_app, firstn_all, Nat.sub_diag, skipn_app, skipn_all, Nat.sub_diag. cbn [firstn skipn app]. rewrite app_nil_r. reflexivity.
  - unfold CRLF. cbn [app].
    eapply Go_trans; [eapply Go_bcall; [reflexivity|unfold jbyte; hsimp; rewrite C; cbn [negb orb]; rewrite Z.eqb_refl; cbn [negb]; change (ceq CR CR) with true; cbv iota; unfold data_body; cbn [l_body]; reflexivity|discriminate|hsimp; exact O]|].
    cbn [advance no_body l_data l_field l_value l_body moved option_map].
    match goal with |- Go ?x _ _ _ => change x with (rset_h (hset_state s_chunk_data_done (hset_state s_chunk_data_almost_done (hset_cl 0 h))) (got data (rset_h h r))) end.
    eapply Go_trans; [apply Go_bbyte; [reflexivity|unfold jbyte; hsimp; rewrite C; cbn [negb]; change (ceq LF LF) with true; cbv iota; reflexivity]|].
    cbn [advance l_data l_field l_value l_body moved option_map]. unfold got. cbn [rset_h r_h r_field r_value r_lwv r_parsing r_headers r_content r_log].
    match goal with |- Go (rset_h ?x _) _ (rset_h ?y _) _ => replace x with y; [apply Go_refl|heq] end.
Qed.

(** all the chunks, up to the empty line *)
Lemma Go_chunks0 t body : ChunkedBody t body -> exists t0, t = t0 ++ CRLF /\ forall h r d, h_state h = s_chunk_size_start -> f_chunked h = true -> h_nread h = 0 -> h_errno h = HPE_OK ->
  Go (rset_h h r) (plain (t0 ++ d)) (rset_h (sized 0 h) (got body r)) (plain d).
Proof.
  induction 1 as [sz SZ|sz data t rest ND SZ CB IH].
  - exists sz. split; auto. intros h r d S C N O. eapply Go_trans; [eapply Go_size; eauto|].
    match goal with |- Go (rset_h ?x ?r1) _ (rset_h ?y ?r2) _ => replace (rset_h x r1) with (rset_h y r2); [apply Go_refl|] end.
    unfold got, rset_h. rsimp. cbn [map]. rewrite !app_nil_r. f_equal.
  - destruct IH as (t0 & -> & IH). exists (sz ++ data ++ CRLF ++ t0). split; [now rewrite <- !app_assoc|]. intros h r d S C N O.
    assert (M : blen data <= max_length) by (inversion SZ; subst; auto).
    assert (P : 1 <= blen data) by (destruct data; [congruence|rewrite blen_cons; pose proof (blen_nonneg data); lia]).
    rewrite <- !app_assoc. eapply Go_trans; [eapply Go_size; eauto|].
    set (h1 := sized (blen data) h).
    assert (H1 : h_state h1 = s_chunk_data /\ f_chunked h1 = true /\ h_cl h1 = blen data /\ h_errno h1 = HPE_OK).
    { subst h1. unfold sized. replace (blen data =? 0) with false by (symmetry; apply Z.eqb_neq; lia). hsimp. auto. }
    destruct H1 as (A1 & A2 & A3 & A4).
    eapply Go_trans; [apply Go_data; auto|].
    eapply Go_trans; [apply IH; hsimp; auto|].
    match goal with |- Go (rset_h ?x ?r1) _ (rset_h ?y ?r2) _ => replace (rset_h x r1) with (rset_h y r2); [apply Go_refl|] end.
    unfold got, rset_h. rsimp. rewrite map_app, !app_assoc. f_equal. subst h1. unfold sized. rewrite Z.eqb_refl.
    replace (blen data =? 0) with false by (symmetry; apply Z.eqb_neq; lia). heq.
Qed.
Lemma Go_chunks t body : ChunkedBody t body -> forall h r d, h_state h = s_chunk_size_start -> f_chunked h = true -> h_nread h = 0 -> h_errno h = HPE_OK ->
  Go (rset_h h r) (plain (t ++ d)) (rset_h (sized 0 h) (got body r)) (plain (CRLF ++ d)).
Proof. intros CB h r d A B C D. destruct (Go_chunks0 t body CB) as (t0 & -> & G). rewrite <- app_assoc. apply G; auto. Qed.

Lemma inject_chunked r txt a b c hs o t body rest : ready r -> ResponseHead txt a b c hs -> blen txt <= max_head - 2 -> no_upgrade hs = true ->
  chunked_resp hs = true -> ContentLength hs o -> ChunkedBody t body ->
  exists r', inject r (txt ++ t ++ rest) = Some (r', blen (txt ++ t)) /\ completed r a b c hs body r'.
Proof.
  intros R HD HL NU NC CL CB.
  destruct (head_run r txt a b c hs o R HD HL CL (t ++ rest)) as (hh & idx & k & HJ & E).
  destruct (head_facts r a b c hs _ R CL) as (F1 & F2 & F3 & F4 & F5 & F6 & F7 & F8 & F9). specialize (F2 NU). rewrite NC in F1.
  set (h1 := hdone r a b c hs hh idx k) in *.
  set (h2 := hset_state s_chunk_size_start (hset_nread 0 h1)).
  set (r1 := head_r a b c hs h1 (rset_parsing true r)) in *.
  assert (G1 : Go r1 (mkL (LF :: t ++ rest) None None None true) (rset_h h2 r1) (plain (t ++ rest))).
  { change r1 with (rset_h h1 r1) at 1. apply Go_again. unfold jbyte. change (h_state h1) with s_headers_done. change (ceq LF LF) with true. cbv iota zeta.
    hsimp. replace (h_upgr h1) with false by (subst h1; unfold hdone; hsimp; auto).
    replace (f_chunked h1) with true by (subst h1; unfold hdone; hsimp; auto). reflexivity. }
  pose proof (Go_chunks t body CB h2 r1 rest eq_refl) as G2.
  specialize (G2 ltac:(subst h2 h1; unfold hdone; hsimp; auto) ltac:(reflexivity) ltac:(subst h2 h1; unfold hdone; hsimp; auto)).
  set (h3 := sized 0 h2) in *.
  set (h4 := hset_state s_headers_almost_done (hset_nread 1 h3)).
  assert (G3 : Go (rset_h h3 (got body r1)) (plain (CRLF ++ rest)) (rset_h h4 (got body r1)) (plain (LF :: rest))).
  { unfold CRLF. cbn [app]. eapply Go_trans; [apply Go_byte; [reflexivity|subst h3; unfold sized; hsimp; unfold HTTP_MAX_HEADER_SIZE; lia|unfold jbyte; hsimp; change (h_state h3) with s_header_field_start; reflexivity]|].
    cbn [advance l_data l_field l_value l_body moved option_map].
    match goal with |- Go (rset_h ?x _) _ (rset_h ?y _) _ => replace x with y; [apply Go_refl|subst h4 h3; unfold sized; heq] end. }
  destruct (Go_trans _ _ _ _ _ _ G1 (Go_trans _ _ _ _ _ _ G2 G3) HJ) as [HJ4 EJ].
  rewrite EJ in E.
  set (h5 := hset_nread 2 h4).
  assert (E5 : h_errno h5 = HPE_OK) by (subst h5 h4 h3; unfold sized; subst h2 h1; unfold hdone; rewrite Z.eqb_refl; hsimp; auto).
  assert (M : mstep (rset_h h4 (got body r1)) (plain (LF :: rest)) = ORet (ended r a b c hs body h5) rest).
  { unfold mstep, jstep. cbn [l_data l_re]. rsimp. change (h_state h4) with s_headers_almost_done. cbn [parsing_header].
    replace (h_nread h4 + 1) with 2 by reflexivity. fold h5. change (HTTP_MAX_HEADER_SIZE <? h_nread h5) with false. cbv iota zeta.
    unfold jbyte. change (h_state h5) with s_headers_almost_done. change (ceq LF LF) with true. cbv iota zeta. change (f_trailing h5) with true. cbv iota.
    unfold notify. cbn [after on_cb tl l_data]. unfold hpause. rsimp. change (h_errno (hset_state (new_message h5) h5)) with (h_errno h5). rewrite E5.
    cbn [is_ok h_errno hset_errno rset_h r_h]. unfold ended, reported, rset_h, got. subst r1. unfold head_r. rsimp. cbn [app].
    rewrite <- !app_assoc. reflexivity. }
  rewrite J_step in E by (auto; discriminate). rewrite M in E.
  eexists. rewrite E. split; [f_equal; f_equal; rewrite !blen_app; lia|].
  apply ended_completed; auto; try (subst h5 h4 h3; unfold sized; subst h2 h1; unfold hdone; rewrite Z.eqb_refl; hsimp; auto; lia).
  - split; [|exact I]. change (h_cl (hset_state s_start_res h5)) with 0. unfold ULLONG_MAX. lia.
  - unfold needs_eof. change (h_cl h5) with 0. rewrite orb_true_r. destruct (_ || _); reflexivity.
Qed.

(** trailers *)
Lemma trailers_end h5 r' rest hs c body lg : h_state h5 = s_headers_almost_done -> f_trailing h5 = true -> h_errno h5 = HPE_OK -> h_nread h5 + 1 <= HTTP_MAX_HEADER_SIZE ->
  h_status h5 = c -> r_content r' = body -> r_log r' = lg -> pushed r' hs ->
  exists rf, mstep (rset_h h5 r') (plain (LF :: rest)) = ORet rf rest /\
    let r2 := rset_parsing false (runpause rf) in hasError r2 = false /\ statusCode r2 = c /\ r_content r2 = body /\ r_log r2 = lg ++ [RComplete] /\ pushed r2 hs.
Proof.
  intros S T O N St Cn Lg P.
  set (h6 := hset_nread (h_nread h5 + 1) h5).
  set (rf := rset_h (hset_errno HPE_PAUSED (hset_state (new_message h6) h6)) (rlog [RComplete] r')).
  exists rf. split.
  - unfold mstep, jstep. cbn [l_data l_re]. rsimp. rewrite S. cbn [parsing_header]. fold h6.
    replace (HTTP_MAX_HEADER_SIZE <? h_nread h6) with false by (symmetry; apply Z.ltb_ge; subst h6; hsimp; lia). cbv iota zeta.
    unfold jbyte. change (h_state h6) with (h_state h5). rewrite S. change (ceq LF LF) with true. cbv iota zeta. change (f_trailing h6) with (f_trailing h5). rewrite T. cbv iota.
    unfold notify. cbn [after on_cb tl l_data]. unfold hpause. rsimp. change (h_errno (hset_state (new_message h6) h6)) with (h_errno h5). rewrite O.
    cbn [is_ok h_errno hset_errno rset_h r_h]. reflexivity.
  - unfold runpause. subst rf. cbn zeta. rsimp. hsimp. unfold hasError, statusCode. rsimp. hsimp. rewrite Lg. repeat split; auto.
Qed.
Lemma Go_empty_line h r d : line_start (h_state h) = true -> h_nread h + 1 <= HTTP_MAX_HEADER_SIZE ->
  Go (rset_h h r) (plain (CRLF ++ d)) (rset_h (hset_state s_headers_almost_done (hset_nread (h_nread h + 1) h)) r) (plain (LF :: d)).
Proof.
  intros L1 N. unfold CRLF. cbn [app]. destruct (h_state h) eqn:Es; try discriminate L1.
  - eapply Go_trans; [apply Go_byte; [now rewrite Es|lia|unfold jbyte; hsimp; rewrite Es; reflexivity]|]. cbn [advance l_data l_field l_value l_body moved option_map].
    match goal with |- Go (rset_h ?x _) _ (rset_h ?y _) _ => replace x with y; [apply Go_refl|heq] end.
  - eapply Go_trans; [apply Go_byte; [now rewrite Es|lia|unfold jbyte; hsimp; rewrite Es; reflexivity]|]. cbn [again l_data l_field l_value l_body].
    eapply Go_trans; [apply Go_again; unfold jbyte; hsimp; reflexivity|]. cbn [advance l_data l_field l_value l_body moved option_map].
    match goal with |- Go (rset_h ?x _) _ (rset_h ?y _) _ => replace x with y; [apply Go_refl|heq] end.
Qed.
Lemma Go_trailers tr trs o2 h r hs d : HeaderLines tr trs -> ContentLength trs o2 -> pushed r hs -> h_state h = s_header_field_start -> h_errno h = HPE_OK ->
  f_trailing h = true -> h_nread h = 0 -> blen tr <= max_head - 2 ->
  exists h' r', Go (rset_h h r) (plain (tr ++ CRLF ++ d)) (rset_h h' r') (plain (LF :: d)) /\ h_state h' = s_headers_almost_done /\ f_trailing h' = true /\ h_errno h' = HPE_OK /\
    h_nread h' + 1 <= HTTP_MAX_HEADER_SIZE /\ h_status h' = h_status h /\ r_content r' = r_content r /\ r_log r' = r_log r /\ pushed r' (hs ++ trs).
Proof.
  intros HT CT P S O T N LT. pose proof (blen_nonneg tr) as Bt.
  destruct (Go_lines tr trs HT (length_ok _ _ CT) h r hs (CRLF ++ d) (blen tr)) as (s & hh' & idx' & r' & G3 & L1 & L2 & L3 & L4 & L5); auto; try lia.
  { now rewrite S. } { unfold HTTP_MAX_HEADER_SIZE, max_head in *. lia. }
  destruct (scan_flags trs h) as (_ & _ & _ & _ & Tr & Ma & Mi & St & Er & _ & _).
  eexists _, r'. split; [eapply Go_trans; [exact G3|apply Go_empty_line; hsimp; auto; unfold HTTP_MAX_HEADER_SIZE, max_head in *; lia]|].
  hsimp. rewrite Tr, Er, St. repeat split; auto. unfold HTTP_MAX_HEADER_SIZE, max_head in *. lia.
Qed.

Lemma inject_trailers r txt a b c hs o t body tr trs o2 rest : ready r -> ResponseHead txt a b c hs -> blen txt <= max_head - 2 -> no_upgrade hs = true ->
  chunked_resp hs = true -> ContentLength hs o -> ChunkedBody (t ++ CRLF) body -> HeaderLines tr trs -> ContentLength trs o2 -> blen tr <= max_head - 2 ->
  exists r', inject r (txt ++ t ++ tr ++ CRLF ++ rest) = Some (r', blen (txt ++ t ++ tr ++ CRLF)) /\ hasError r' = false /\ statusCode r' = c /\
    r_content r' = body /\ r_log r' = r_log r ++ reported a b c hs body /\ pushed r' (hs ++ trs).
Proof.
  intros R HD HL NU NC CL CB HT CT LT.
  destruct (head_run r txt a b c hs o R HD HL CL (t ++ tr ++ CRLF ++ rest)) as (hh & idx & k & HJ & E).
  destruct (head_facts r a b c hs _ R CL) as (F1 & F2 & F3 & F4 & F5 & F6 & F7 & F8 & F9). specialize (F2 NU). rewrite NC in F1.
  set (h1 := hdone r a b c hs hh idx k) in *.
  assert (H1 : h_state h1 = s_headers_done /\ h_upgr h1 = false /\ f_chunked h1 = true /\ h_errno h1 = HPE_OK /\ h_status h1 = c) by (subst h1; unfold hdone; hsimp; auto).
  clearbody h1. destruct H1 as (S1 & U1 & C1 & O1 & T1).
  set (h2 := hset_state s_chunk_size_start (hset_nread 0 h1)).
  set (r1 := head_r a b c hs h1 (rset_parsing true r)) in *.
  assert (G1 : Go r1 (mkL (LF :: t ++ tr ++ CRLF ++ rest) None None None true) (rset_h h2 r1) (plain (t ++ tr ++ CRLF ++ rest))).
  { change r1 with (rset_h h1 r1) at 1. apply Go_again. unfold jbyte. rewrite S1. change (ceq LF LF) with true. cbv iota zeta.
    hsimp. rewrite U1, C1. reflexivity. }
  destruct (Go_chunks0 _ body CB) as (t0 & Et & G2). apply app_inv_tail in Et. subst t0.
  specialize (G2 h2 r1 (tr ++ CRLF ++ rest) eq_refl C1 eq_refl O1).
  destruct (Go_trailers tr trs o2 (sized 0 h2) (got body r1) hs rest HT CT) as (h5 & r' & G3 & A1 & A2 & A3 & A4 & A5 & A6 & A7 & A8); auto.
  { right. auto. }
  destruct (Go_trans _ _ _ _ _ _ G1 (Go_trans _ _ _ _ _ _ G2 G3) HJ) as [HJ4 EJ].
  rewrite EJ in E.
  destruct (trailers_end h5 r' rest (hs ++ trs) c body (r_log (got body r1))) as (rf & M & B1 & B2 & B3 & B4 & B5); auto; [rewrite A5; exact T1|].
  rewrite J_step in E by (auto; discriminate). rewrite M in E.
  eexists. rewrite E. split; [f_equal; f_equal; rewrite !blen_app; lia|].
  repeat split; auto. rewrite B4. unfold reported, got. subst r1. unfold head_r. rsimp. rewrite <- !app_assoc. reflexivity.
Qed.
