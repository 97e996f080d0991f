(** Runs of the response parser on well-formed responses. *)
From Verif Require Import Bytes ByteHelpers Helpers TextSpec ConnText Joyent RespParser RespInv RespSplit RespSpec RespName.
Open Scope Z_scope.

Definition Go (r : rparser) (l : locals) (r' : rparser) (l' : locals) : Prop :=
  JOk (r_h r) l -> JOk (r_h r') l' /\ J r l = J r' l'.
Lemma Go_refl r l : Go r l r l.
Proof. intros H. auto. Qed.
Lemma Go_trans r1 l1 r2 l2 r3 l3 : Go r1 l1 r2 l2 -> Go r2 l2 r3 l3 -> Go r1 l1 r3 l3.
Proof. intros A B H. destruct (A H) as [A1 A2]. destruct (B A1) as [B1 B2]. split; auto. congruence. Qed.
Lemma Go_step r l r' l' : l_data l <> [] -> mstep r l = OGo r' l' -> Go r l r' l'.
Proof. intros D M H. pose proof (mstep_inv _ _ H D) as I. rewrite M in I. split; [tauto|]. rewrite J_step by auto. now rewrite M. Qed.

Lemma h_ext x y : h_state x = h_state y -> h_hs x = h_hs y -> h_index x = h_index y -> h_nread x = h_nread y -> h_cl x = h_cl y -> h_major x = h_major y -> h_minor x = h_minor y -> h_status x = h_status y -> h_errno x = h_errno y -> h_upgr x = h_upgr y -> f_chunked x = f_chunked y -> f_keepalive x = f_keepalive y -> f_close x = f_close y -> f_trailing x = f_trailing y -> f_upgrade x = f_upgrade y -> x = y.
Proof. destruct x, y; hsimp; intros; subst; reflexivity. Qed.
Ltac heq := apply h_ext; hsimp; try reflexivity; try lia.

Notation plain d := (mkL d None None None false).

(* one byte of a head *)
Lemma Go_byte h r ch d f v b h' l' : parsing_header (h_state h) = true -> h_nread h + 1 <= HTTP_MAX_HEADER_SIZE ->
  jbyte ch (hset_nread (h_nread h + 1) h) (mkL (ch :: d) f v b false) = Next h' l' ->
  Go (rset_h h r) (mkL (ch :: d) f v b false) (rset_h h' r) l'.
Proof.
  intros P N E. apply Go_step; [discriminate|]. unfold mstep, jstep. cbn [l_data l_re]. rsimp. rewrite P. hsimp.
  replace (HTTP_MAX_HEADER_SIZE <? h_nread h + 1) with false by (symmetry; apply Z.ltb_ge; lia). rewrite E. reflexivity.
Qed.
(* the same with a callback *)
Lemma Go_call h r ch d f v b c h' l' er : parsing_header (h_state h) = true -> h_nread h + 1 <= HTTP_MAX_HEADER_SIZE ->
  jbyte ch (hset_nread (h_nread h + 1) h) (mkL (ch :: d) f v b false) = Call c h' l' er -> c <> CbComplete -> h_errno h' = HPE_OK ->
  Go (rset_h h r) (mkL (ch :: d) f v b false) (on_cb c (rset_h h' r)) l'.
Proof.
  intros P N E C O. apply Go_step; [discriminate|]. unfold mstep, jstep. cbn [l_data l_re]. rsimp. rewrite P. hsimp.
  replace (HTTP_MAX_HEADER_SIZE <? h_nread h + 1) with false by (symmetry; apply Z.ltb_ge; lia). rewrite E. cbn [after].
  rewrite on_cb_h by auto. rsimp. rewrite O. reflexivity.
Qed.
Lemma Go_again h r ch d f v b h' l' :
  jbyte ch h (mkL (ch :: d) f v b true) = Next h' l' ->
  Go (rset_h h r) (mkL (ch :: d) f v b true) (rset_h h' r) l'.
Proof. intros E. apply Go_step; [discriminate|]. unfold mstep, jstep. cbn [l_data l_re]. rsimp. rewrite E. reflexivity. Qed.

Lemma IS_NUM_digit c : IS_NUM c = is_digit c.
Proof. reflexivity. Qed.
Lemma dec_mono : forall ds acc n, dec_value acc ds = Some n -> 0 <= acc -> acc <= n.
Proof.
  induction ds as [|c ds IH]; cbn [dec_value]; intros acc n E A; [injection E as <-; lia|].
  destruct (is_digit c) eqn:D; [|discriminate].
  unfold is_digit, in_range in D. apply andb_prop in D as [D1 D2]. apply IH in E; lia.
Qed.
Lemma digit_neq c x : is_digit c = true -> is_digit x = false -> ceq c x = false.
Proof. intros A B. unfold ceq. destruct (Ascii.eqb_spec c x); congruence. Qed.

(** a run of digits in a numeric field of the status line *)
Lemma Go_major : forall ds h r d n nr, h_state h = s_res_http_major -> dec_value (h_major h) ds = Some n -> 0 <= h_major h -> n <= 999 ->
  nr = h_nread h + blen ds -> nr <= HTTP_MAX_HEADER_SIZE ->
  Go (rset_h h r) (plain (ds ++ d)) (rset_h (hset_major n (hset_nread nr h)) r) (plain d).
Proof.
  induction ds as [|c ds IH]; intros h r d n nr S E A M -> N.
  - cbn in E. injection E as <-. cbn [app]. rewrite blen_nil, Z.add_0_r. destruct h; apply Go_refl.
  - cbn [dec_value] in E. destruct (is_digit c) eqn:D; [|discriminate]. rewrite blen_cons in *. pose proof (blen_nonneg ds).
    assert (dec_mono' := dec_mono _ _ _ E).
    assert (0 <= num c) by (apply num_range; exact D). unfold num in *.
    cbn [app]. eapply Go_trans; [apply Go_byte; [now rewrite S|lia|]|].
    + unfold jbyte. hsimp. rewrite S. rewrite (digit_neq c ".") by auto. rewrite IS_NUM_digit, D. cbn [negb].
      replace (999 <? _) with false by (symmetry; apply Z.ltb_ge; unfold num; lia). reflexivity.
    + eapply Go_trans; [apply (IH _ r d n (h_nread h + (1 + blen ds))); hsimp; auto; try lia|].
      * rewrite <- E. f_equal. unfold num. lia.
      * unfold num. lia.
      * hsimp. apply Go_refl.
Qed.

Lemma Go_minor : forall ds h r d n nr, h_state h = s_res_http_minor -> dec_value (h_minor h) ds = Some n -> 0 <= h_minor h -> n <= 999 ->
  nr = h_nread h + blen ds -> nr <= HTTP_MAX_HEADER_SIZE ->
  Go (rset_h h r) (plain (ds ++ d)) (rset_h (hset_minor n (hset_nread nr h)) r) (plain d).
Proof.
  induction ds as [|c ds IH]; intros h r d n nr S E A M -> N.
  - cbn in E. injection E as <-. cbn [app]. rewrite blen_nil, Z.add_0_r. destruct h; apply Go_refl.
  - cbn [dec_value] in E. destruct (is_digit c) eqn:D; [|discriminate]. rewrite blen_cons in *. pose proof (blen_nonneg ds).
    assert (dec_mono' := dec_mono _ _ _ E).
    assert (0 <= num c) by (apply num_range; exact D). unfold num in *.
    cbn [app]. eapply Go_trans; [apply Go_byte; [now rewrite S|lia|]|].
    + unfold jbyte. hsimp. rewrite S. rewrite (digit_neq c SP) by auto. rewrite IS_NUM_digit, D. cbn [negb].
      replace (999 <? _) with false by (symmetry; apply Z.ltb_ge; unfold num; lia). reflexivity.
    + eapply Go_trans; [apply (IH _ r d n (h_nread h + (1 + blen ds))); hsimp; auto; try lia|].
      * rewrite <- E. f_equal. unfold num. lia.
      * unfold num. lia.
      * hsimp. apply Go_refl.
Qed.

Lemma Go_status : forall ds h r d n nr, h_state h = s_res_status_code -> dec_value (h_status h) ds = Some n -> 0 <= h_status h -> n <= 999 ->
  nr = h_nread h + blen ds -> nr <= HTTP_MAX_HEADER_SIZE ->
  Go (rset_h h r) (plain (ds ++ d)) (rset_h (hset_status n (hset_nread nr h)) r) (plain d).
Proof.
  induction ds as [|c ds IH]; intros h r d n nr S E A M -> N.
  - cbn in E. injection E as <-. cbn [app]. rewrite blen_nil, Z.add_0_r. destruct h; apply Go_refl.
  - cbn [dec_value] in E. destruct (is_digit c) eqn:D; [|discriminate]. rewrite blen_cons in *. pose proof (blen_nonneg ds).
    assert (dec_mono' := dec_mono _ _ _ E).
    assert (0 <= num c) by (apply num_range; exact D). unfold num in *.
    cbn [app]. eapply Go_trans; [apply Go_byte; [now rewrite S|lia|]|].
    + unfold jbyte. hsimp. rewrite S. rewrite IS_NUM_digit, D. cbn [negb].
      replace (999 <? _) with false by (symmetry; apply Z.ltb_ge; unfold num; lia). reflexivity.
    + eapply Go_trans; [apply (IH _ r d n (h_nread h + (1 + blen ds))); hsimp; auto; try lia|].
      * rewrite <- E. f_equal. unfold num. lia.
      * unfold num. lia.
      * hsimp. apply Go_refl.
Qed.

Lemma Go_reason : forall t h r d nr, h_state h = s_res_status -> eol_free t = true ->
  nr = h_nread h + blen t -> nr <= HTTP_MAX_HEADER_SIZE ->
  Go (rset_h h r) (plain (t ++ d)) (rset_h (hset_nread nr h) r) (plain d).
Proof.
  induction t as [|c t IH]; intros h r d nr S F -> N.
  - cbn [app]. rewrite blen_nil, Z.add_0_r. destruct h; apply Go_refl.
  - rewrite blen_cons in *. pose proof (blen_nonneg t). cbn [eol_free forallb] in F. apply andb_prop in F as [Fc F]. apply andb_prop in Fc as [F1 F2].
    cbn [app]. eapply Go_trans; [apply Go_byte; [now rewrite S|lia|]|].
    + unfold jbyte. hsimp. rewrite S. unfold ceq. destruct (Ascii.eqb c CR); [discriminate|]. destruct (Ascii.eqb c LF); [discriminate|]. reflexivity.
    + eapply Go_trans; [apply (IH _ r d (h_nread h + (1 + blen t))); hsimp; auto; try lia|]. hsimp. apply Go_refl.
Qed.

Definition rbegin (r : rparser) : rparser := on_cb CbBegin r.
Definition sl_h (a b c nr : Z) (h : hparser) : hparser :=
  hset_state s_header_field_start (hset_nread nr (hset_status c (hset_minor b (hset_major a
    (hset_cl ULLONG_MAX (hset_flags false false false false false h)))))).

Ltac one N := eapply Go_trans; [apply Go_byte; [reflexivity|hsimp; lia|unfold jbyte; hsimp; reflexivity]|]; hsimp; cbn [advance l_data l_field l_value l_body moved option_map].

Lemma Go_status_line sl a b c : StatusLine sl a b c -> forall h r d nr, h_state h = s_start_res -> h_errno h = HPE_OK ->
  nr = h_nread h + blen sl -> 0 <= h_nread h -> nr <= HTTP_MAX_HEADER_SIZE ->
  Go (rset_h h r) (plain (sl ++ d)) (rset_h (sl_h a b c nr h) (rbegin r)) (plain d).
Proof.
  intros [da db dc a' b' c' reason Ha La Hb Lb Hc Lc Hr] h r d nr S O Enr P N. subst nr.
  destruct (Digits_head _ _ Ha) as (ca & ta & -> & Da). destruct (Digits_head _ _ Hb) as (cb & tb & -> & Db).
  destruct (Digits_head _ _ Hc) as (cc & tc & -> & Dc).
  apply Digits_dec in Ha, Hb, Hc. cbn [dec_value] in Ha, Hb, Hc. rewrite Da in Ha. rewrite Db in Hb. rewrite Dc in Hc.
  assert (Na : 0 <= num ca) by (apply num_range; exact Da). assert (Nb : 0 <= num cb) by (apply num_range; exact Db). assert (Nc : 0 <= num cc) by (apply num_range; exact Dc).
  replace (10 * 0 + (byte_val ca - 48)) with (num ca) in Ha by (unfold num; lia).
  replace (10 * 0 + (byte_val cb - 48)) with (num cb) in Hb by (unfold num; lia).
  replace (10 * 0 + (byte_val cc - 48)) with (num cc) in Hc by (unfold num; lia).
  change (lit "HTTP/") with ["H"; "T"; "T"; "P"; "/"]%char in *. change (lit ".") with ["."%char] in *. change (lit " ") with [SP] in *. unfold CRLF in *.
  rewrite ?blen_app, ?blen_cons, ?blen_app, ?blen_cons, ?blen_app, ?blen_cons, ?blen_app, ?blen_cons, ?blen_nil in *. pose proof (blen_nonneg ta). pose proof (blen_nonneg tb). pose proof (blen_nonneg tc). pose proof (blen_nonneg reason).
  rewrite <- ?app_assoc. cbn [app].
  eapply Go_trans; [eapply Go_call; [now rewrite S|lia|unfold jbyte; hsimp; rewrite S; reflexivity|discriminate|hsimp; auto]|].
  cbn [on_cb advance l_data l_field l_value l_body moved option_map]. 
  match goal with |- Go ?x _ _ _ => change x with (rset_h (r_h x) (rbegin r)) end. cbn [r_h rlog rset_h].
  one N. one N. one N. one N.
  eapply Go_trans; [apply Go_byte; [reflexivity|hsimp; lia|unfold jbyte; hsimp; rewrite IS_NUM_digit, Da; reflexivity]|]; cbn [advance l_data l_field l_value l_body moved option_map].
  eapply Go_trans; [apply (Go_major ta); [reflexivity|exact Ha|exact Na|exact La|reflexivity|hsimp; lia]|]. cbn [app].
  eapply Go_trans; [apply Go_byte; [reflexivity|hsimp; lia|unfold jbyte; hsimp; reflexivity]|]; cbn [advance l_data l_field l_value l_body moved option_map].
  eapply Go_trans; [apply Go_byte; [reflexivity|hsimp; lia|unfold jbyte; hsimp; rewrite IS_NUM_digit, Db; reflexivity]|]; cbn [advance l_data l_field l_value l_body moved option_map].
  eapply Go_trans; [apply (Go_minor tb); [reflexivity|exact Hb|exact Nb|exact Lb|reflexivity|hsimp; lia]|]. cbn [app].
  eapply Go_trans; [apply Go_byte; [reflexivity|hsimp; lia|unfold jbyte; hsimp; reflexivity]|]; cbn [advance l_data l_field l_value l_body moved option_map].
  eapply Go_trans; [apply Go_byte; [reflexivity|hsimp; lia|unfold jbyte; hsimp; rewrite IS_NUM_digit, Dc; reflexivity]|]; cbn [advance l_data l_field l_value l_body moved option_map].
  eapply Go_trans; [apply (Go_status tc); [reflexivity|exact Hc|exact Nc|exact Lc|reflexivity|hsimp; lia]|].
  destruct Hr as [->|(t & -> & Ft)]; cbn [app]; rewrite ?blen_nil, ?blen_cons in *.
  - eapply Go_trans; [apply Go_byte; [reflexivity|hsimp; lia|unfold jbyte; hsimp; reflexivity]|]; cbn [advance l_data l_field l_value l_body moved option_map].
    eapply Go_trans; [apply Go_byte; [reflexivity|hsimp; lia|unfold jbyte; hsimp; reflexivity]|]; cbn [advance l_data l_field l_value l_body moved option_map].
    match goal with |- Go (rset_h ?x _) _ (rset_h ?y _) _ => replace x with y; [apply Go_refl|] end.
    unfold sl_h. heq.
  - eapply Go_trans; [apply Go_byte; [reflexivity|hsimp; lia|unfold jbyte; hsimp; reflexivity]|]; cbn [advance l_data l_field l_value l_body moved option_map].
    pose proof (blen_nonneg t).
    eapply Go_trans; [apply (Go_reason t); [reflexivity|exact Ft|reflexivity|hsimp; lia]|]. cbn [app].
    eapply Go_trans; [apply Go_byte; [reflexivity|hsimp; lia|unfold jbyte; hsimp; reflexivity]|]; cbn [advance l_data l_field l_value l_body moved option_map].
    eapply Go_trans; [apply Go_byte; [reflexivity|hsimp; lia|unfold jbyte; hsimp; reflexivity]|]; cbn [advance l_data l_field l_value l_body moved option_map].
    match goal with |- Go (rset_h ?x _) _ (rset_h ?y _) _ => replace x with y; [apply Go_refl|] end.
    unfold sl_h. heq.
Qed.

(** ** Header lines *)
Lemma Go_name : forall s h r d acc hs idx nr, h_state h = s_header_field -> forallb tchar s = true ->
  ffold (h_hs h) (h_index h) (lower s) = Some (hs, idx) ->
  nr = h_nread h + blen s -> nr <= HTTP_MAX_HEADER_SIZE ->
  Go (rset_h h r) (mkL (s ++ d) (Some acc) None None false)
     (rset_h (hset_hs hs (hset_index idx (hset_nread nr h))) r) (mkL d (Some (acc ++ s)) None None false).
Proof.
  induction s as [|c s IH]; intros h r d acc hs idx nr S T F Enr N; subst nr.
  - cbn in F. injection F as <- <-. rewrite blen_nil, Z.add_0_r, app_nil_r. destruct h; apply Go_refl.
  - cbn [forallb] in T. apply andb_prop in T as [Tc T]. destruct (token_lower c Tc) as [Tk _].
    cbn [lower map ffold] in F. destruct (field_step (h_hs h) (h_index h) (to_lower c)) as [[hs1 i1]|] eqn:E; [|discriminate].
    rewrite blen_cons in *. pose proof (blen_nonneg s). cbn [app].
    eapply Go_trans; [apply Go_byte; [now rewrite S|lia|]|].
    + unfold jbyte. hsimp. rewrite S, Tk, E. reflexivity.
    + cbn [advance l_data l_field l_value l_body moved option_map].
      eapply Go_trans; [apply (IH _ r d _ hs idx (h_nread h + (1 + blen s))); hsimp; auto; lia|].
      rewrite <- app_assoc. cbn [app]. match goal with |- Go (rset_h ?x _) _ (rset_h ?y _) _ => replace x with y; [apply Go_refl|heq] end.
Qed.

Lemma Go_blanks : forall w h r d nr, h_state h = s_header_value_start -> forallb blank_char w = true ->
  nr = h_nread h + blen w -> nr <= HTTP_MAX_HEADER_SIZE ->
  Go (rset_h h r) (plain (w ++ d)) (rset_h (hset_nread nr h) r) (plain d).
Proof.
  induction w as [|c w IH]; intros h r d nr S F Enr N; subst nr.
  - cbn [app]. rewrite blen_nil, Z.add_0_r. destruct h; apply Go_refl.
  - rewrite blen_cons in *. pose proof (blen_nonneg w). cbn [forallb] in F. apply andb_prop in F as [Fc F].
    cbn [app]. eapply Go_trans; [apply Go_byte; [now rewrite S|lia|]|].
    + unfold jbyte. hsimp. rewrite S. unfold blank_char in Fc. unfold ceq. rewrite Fc. reflexivity.
    + eapply Go_trans; [apply (IH _ r d (h_nread h + (1 + blen w))); hsimp; auto; try lia|]. hsimp. apply Go_refl.
Qed.

Lemma value_step_nread n c h : value_step c (hset_nread n h) = match value_step c h with VOk h' => VOk (hset_nread n h') | x => x end.
Proof.
  unfold value_step, value_word. hsimp. destruct (h_hs h); try reflexivity;
  try (destruct (match_word _ _ _ _ _); reflexivity);
  repeat match goal with |- context[if ?x then _ else _] => destruct x end; reflexivity.
Qed.
Lemma value_step_keeps c h h' : value_step c h = VOk h' -> h_state h' = h_state h /\ h_nread h' = h_nread h /\ h_errno h' = h_errno h.
Proof.
  unfold value_step, value_word. destruct (h_hs h); try discriminate;
  try (destruct (match_word _ _ _ _ _));
  repeat match goal with |- context[if ?x then _ else _] => destruct x end; intros E; try discriminate; injection E as <-; hsimp; auto.
Qed.
Lemma Go_value : forall s h r d acc h' nr, h_state h = s_header_value -> eol_free s = true -> vfold h s = VOk h' ->
  nr = h_nread h + blen s -> nr <= HTTP_MAX_HEADER_SIZE ->
  Go (rset_h h r) (mkL (s ++ d) None (Some acc) None false)
     (rset_h (hset_nread nr h') r) (mkL d None (Some (acc ++ s)) None false).
Proof.
  induction s as [|c s IH]; intros h r d acc h' nr S T F Enr N; subst nr.
  - cbn in F. injection F as <-. rewrite blen_nil, Z.add_0_r, app_nil_r. destruct h; apply Go_refl.
  - cbn [eol_free forallb] in T. apply andb_prop in T as [Tc T]. apply andb_prop in Tc as [T1 T2].
    cbn [vfold] in F. destruct (value_step c h) as [h1| |] eqn:E; try discriminate.
    rewrite blen_cons in *. pose proof (blen_nonneg s). cbn [app]. destruct (value_step_keeps _ _ _ E) as (K1 & K2 & K3).
    eapply Go_trans; [apply Go_byte; [now rewrite S|lia|]|].
    + unfold jbyte. hsimp. rewrite S. unfold ceq. destruct (Ascii.eqb c CR); [discriminate|]. destruct (Ascii.eqb c LF); [discriminate|].
      rewrite value_step_nread, E. reflexivity.
    + cbn [advance l_data l_field l_value l_body moved option_map].
      assert (V : vfold (hset_nread (h_nread h + 1) h1) s = VOk (hset_nread (h_nread h + 1) h')).
      { clear -F. revert h1 F. induction s as [|x s IHs]; intros h1 F; cbn [vfold] in *; [injection F as <-; reflexivity|].
        rewrite value_step_nread. destruct (value_step x h1); try discriminate. auto. }
      eapply Go_trans; [apply (IH (hset_nread (h_nread h + 1) h1) r d _ _ (h_nread h + (1 + blen s)) ltac:(hsimp; congruence) T V); hsimp; try lia|].
      rewrite <- app_assoc. cbn [app]. match goal with |- Go (rset_h ?x _) _ (rset_h ?y _) _ => replace x with y; [apply Go_refl|heq] end.
Qed.

(** what a header does to the framing *)
Definition isk (a b : kind) : bool := match a, b with KConn, KConn | KLen, KLen | KTE, KTE | KUpg, KUpg => true | _, _ => false end.
Definition hdr_h (k : kind) (v : bytes) (n : Z) (h : hparser) : hparser :=
  hset_cl (if isk k KLen then n else h_cl h)
    (hset_flags (f_chunked h || isk k KTE && is_word "chunked" v) (f_keepalive h || isk k KConn && is_word "keep-alive" v)
       (f_close h || isk k KConn && is_word "close" v) (f_trailing h) (f_upgrade h || isk k KUpg && negb (beqb v [])) h).

Lemma vfold_len : forall ds h n, h_hs h = h_content_length -> dec_value (h_cl h) ds = Some n -> 0 <= h_cl h -> n <= max_length ->
  vfold h ds = VOk (hset_cl n h).
Proof.
  induction ds as [|c ds IH]; intros h n S E P M.
  - cbn in E. injection E as <-. destruct h; reflexivity.
  - cbn [dec_value vfold] in *. destruct (is_digit c) eqn:D; [|discriminate]. unfold value_step. rewrite S.
    rewrite (digit_neq c SP) by auto. rewrite IS_NUM_digit, D. cbn [negb].
    assert (0 <= num c) by (apply num_range; exact D). pose proof (dec_mono _ _ _ E). unfold num in *. unfold max_length, ULLONG_MAX in *.
    unfold u64. rewrite (Z.mod_small (h_cl h * 10)) by lia. rewrite Z.mod_small by lia.
    replace (h_cl h * 10 + (byte_val c - 48) <? h_cl h) with false by (symmetry; apply Z.ltb_ge; lia).
    replace (h_cl h * 10 + (byte_val c - 48) =? 18446744073709551615) with false by (symmetry; apply Z.eqb_neq; lia). cbn [orb].
    rewrite (IH _ n); hsimp; auto; try lia.
    rewrite <- E. f_equal. lia.
Qed.

Lemma word_first c t w : wf_value (c :: t) = true -> forall x y, lit w = x :: y -> 
  is_word w (c :: t) = Ascii.eqb (to_lower c) x && beqb (lower (rtrim t)) y.
Proof.
  intros W x y L. unfold is_word. rewrite rtrim_cons. unfold wf_value in W. apply andb_prop in W as [_ W].
  unfold blank_char in W. apply negb_true_iff in W. apply orb_false_iff in W as [W _]. rewrite W, andb_false_r.
  cbn [lower map]. rewrite L. apply beqb_cons.
Qed.

Lemma value_eff c t h n : wf_value (c :: t) = true -> h_index h = 0%nat ->
  (kind_hs (h_hs h) = KLen -> dec_value 0 (c :: t) = Some n /\ n <= max_length) ->
  exists h1 h2 hs idx, value_first c h = Some h1 /\ vfold h1 t = VOk h2 /\
    header_flags h2 = hset_hs hs (hset_index idx (hdr_h (kind_hs (h_hs h)) (c :: t) n h)) /\
    h_state h1 = h_state h /\ h_nread h1 = h_nread h /\ h_errno h1 = h_errno h /\
    h_state h2 = h_state h /\ h_nread h2 = h_nread h /\ h_errno h2 = h_errno h.
Proof.
  intros W I Hn. pose proof W as W'. unfold wf_value in W'. apply andb_prop in W' as [W1 _]. cbn [eol_free forallb] in W1.
  apply andb_prop in W1 as [W1 W2]. apply andb_prop in W1 as [W1 _].
  assert (NC : c <> CR) by (intros ->; discriminate).
  assert (NT : ~ In CR t). { intros Q. unfold eol_free in W2. rewrite forallb_forall in W2. apply W2 in Q. discriminate. }
  unfold value_first.
  assert (Other : forall h', h_hs h' = h_general -> vfold h' t = VOk h' /\ header_flags h' = h').
  { intros h' E. split; [now apply vfold_general|]. unfold header_flags. now rewrite E. }
  destruct (h_hs h) eqn:E; cbn [kind_hs] in *.
  all: try (destruct (Other (hset_hs h_general h) eq_refl) as [O1 O2]; eexists _, _, h_general, (h_index h);
    split; [reflexivity|]; split; [exact O1|]; split; [rewrite O2; unfold hdr_h; heq; now rewrite ?orb_false_r|]; hsimp; auto 10; fail).
  - (* connection *)
    unfold ceq. rewrite !LOWER_lower by auto.
    pose proof (word_first c t "keep-alive" W "k"%char (lit "eep-alive") eq_refl) as Wk.
    pose proof (word_first c t "close" W "c"%char (lit "lose") eq_refl) as Wc.
    destruct (Ascii.eqb_spec (to_lower c) "k") as [Ek|Nk]; [|destruct (Ascii.eqb_spec (to_lower c) "c") as [Ec|Nc]].
    + destruct (vfold_word "keep-alive" h_connection_keep_alive ltac:(auto) t (hset_hs h_matching_connection_keep_alive h)) as (hs & i & V & R); hsimp; auto; [rewrite I; cbn; lia|].
      hsimp in *. rewrite I in R. change (skipn 1 (lit "keep-alive")) with (lit "eep-alive") in R. rewrite Ek in Wc. cbn [andb Ascii.eqb Bool.eqb] in Wk, Wc.
      eexists _, _, hs, i. split; [reflexivity|]. split; [exact V|]. split; [|hsimp; auto 10].
      unfold hdr_h. rewrite Wk, Wc. destruct (beqb (lower (rtrim t)) (lit "eep-alive")).
      * subst hs. unfold header_flags. heq; cbn [isk andb]; now rewrite ?orb_true_r, ?orb_false_r.
      * destruct R as [R1 R2]. unfold header_flags. heq; destruct hs; try discriminate; cbn [isk andb]; hsimp; rewrite ?orb_true_r, ?orb_false_r; auto.
    + destruct (vfold_word "close" h_connection_close ltac:(auto) t (hset_hs h_matching_connection_close h)) as (hs & i & V & R); hsimp; auto; [rewrite I; cbn; lia|].
      hsimp in *. rewrite I in R. change (skipn 1 (lit "close")) with (lit "lose") in R. cbn [andb] in Wk, Wc.
      eexists _, _, hs, i. split; [reflexivity|]. split; [exact V|]. split; [|hsimp; auto 10].
      unfold hdr_h. rewrite Wk, Wc. destruct (beqb (lower (rtrim t)) (lit "lose")).
      * subst hs. unfold header_flags. heq; cbn [isk andb]; now rewrite ?orb_true_r, ?orb_false_r.
      * destruct R as [R1 R2]. unfold header_flags. heq; destruct hs; try discriminate; cbn [isk andb]; hsimp; rewrite ?orb_true_r, ?orb_false_r; auto.
    + destruct (Other (hset_hs h_general h) eq_refl) as [O1 O2]. eexists _, _, h_general, (h_index h).
      split; [reflexivity|]; split; [exact O1|]; split; [|hsimp; auto 10]. rewrite O2. unfold hdr_h. cbn [andb] in Wk, Wc. rewrite Wk, Wc. heq; cbn [isk andb]; now rewrite ?orb_false_r.
  - (* content-length *)
    destruct (Hn eq_refl) as [Hd Hm]. cbn [dec_value] in Hd. destruct (is_digit c) eqn:D; [|discriminate].
    rewrite IS_NUM_digit, D. cbn [negb]. assert (0 <= num c) by (apply num_range; exact D).
    eexists _, _, h_content_length, (h_index h). split; [reflexivity|]. split; [apply (vfold_len t (hset_cl (num c) h) n); hsimp; auto; try (rewrite <- Hd; f_equal; unfold num; lia)|].
    split; [|hsimp; auto 10]. unfold header_flags; hsimp; rewrite E. unfold hdr_h. heq; cbn [isk andb]; rewrite ?orb_false_r; auto.
  - (* transfer-encoding *)
    unfold ceq. rewrite !LOWER_lower by auto.
    pose proof (word_first c t "chunked" W "c"%char (lit "hunked") eq_refl) as Wc.
    destruct (Ascii.eqb_spec (to_lower c) "c") as [Ec|Nc].
    + destruct (vfold_word "chunked" h_transfer_encoding_chunked ltac:(auto) t (hset_hs h_matching_transfer_encoding_chunked h)) as (hs & i & V & R); hsimp; auto; [rewrite I; cbn; lia|].
      hsimp in *. rewrite I in R. change (skipn 1 (lit "chunked")) with (lit "hunked") in R. cbn [andb] in Wc.
      eexists _, _, hs, i. split; [reflexivity|]. split; [exact V|]. split; [|hsimp; auto 10].
      unfold hdr_h. rewrite Wc. destruct (beqb (lower (rtrim t)) (lit "hunked")).
      * subst hs. unfold header_flags. heq; cbn [isk andb]; now rewrite ?orb_true_r, ?orb_false_r.
      * destruct R as [R1 R2]. unfold header_flags. heq; destruct hs; try discriminate; cbn [isk andb]; hsimp; rewrite ?orb_true_r, ?orb_false_r; auto.
    + destruct (Other (hset_hs h_general h) eq_refl) as [O1 O2]. eexists _, _, h_general, (h_index h).
      split; [reflexivity|]; split; [exact O1|]; split; [|hsimp; auto 10]. rewrite O2. unfold hdr_h. cbn [andb] in Wc. rewrite Wc. heq; cbn [isk andb]; now rewrite ?orb_false_r.
  - (* upgrade *)
    match goal with |- context[Some ?x] => destruct (Other x eq_refl) as [O1 O2] end.
    eexists _, _, h_general, (h_index h). split; [reflexivity|]. split; [exact O1|]. split; [|hsimp; auto 10].
    rewrite O2. unfold hdr_h. rewrite beqb_cons_nil. heq; cbn [isk andb negb]; now rewrite ?orb_true_r, ?orb_false_r.
Qed.

Definition line_start (s : jstate) : bool := match s with s_header_field_start | s_header_value_lws => true | _ => false end.

Lemma tchar_not c x : tchar c = true -> tchar x = false -> ceq c x = false.
Proof. intros A B. unfold ceq. destruct (Ascii.eqb_spec c x); congruence. Qed.

Lemma Go_first h r c d : line_start (h_state h) = true -> tchar c = true -> h_nread h + 1 <= HTTP_MAX_HEADER_SIZE ->
  Go (rset_h h r) (plain (c :: d))
     (rset_h (hset_hs (field_first (to_lower c)) (hset_state s_header_field (hset_index 0 (hset_nread (h_nread h + 1) h)))) r)
     (mkL d (Some [c]) None None false).
Proof.
  intros L T N. destruct (token_lower c T) as [Tk _].
  destruct (h_state h) eqn:S; try discriminate L.
  - apply Go_byte; [now rewrite S|lia|]. unfold jbyte. hsimp. rewrite S.
    rewrite (tchar_not c CR), (tchar_not c LF), Tk by auto. reflexivity.
  - eapply Go_trans; [apply Go_byte; [now rewrite S|lia|]|].
    + unfold jbyte. hsimp. rewrite S. rewrite (tchar_not c SP), (tchar_not c "009") by auto. reflexivity.
    + cbn [again l_data l_field l_value l_body]. apply Go_again. unfold jbyte. hsimp.
      rewrite (tchar_not c CR), (tchar_not c LF), Tk by auto. reflexivity.
Qed.

Definition pushed (r : rparser) (hs : list header) : Prop :=
  (r_lwv r = true /\ hs = r_headers r ++ [(r_field r, r_value r)]) \/
  (r_lwv r = false /\ r_field r = [] /\ r_value r = [] /\ hs = r_headers r).
Lemma pushed_push r hs : pushed r hs -> pushHeader r = mkRP (r_h r) [] [] false (r_parsing r) hs (r_content r) (r_log r).
Proof.
  intros [[L ->]|(L & F & V & ->)]; unfold pushHeader; rewrite L; auto. destruct r; cbn in *; subst; reflexivity.
Qed.

Definition after_line (n v : bytes) (hs : list header) (h : hparser) (r : rparser) : rparser :=
  mkRP h n v true (r_parsing r) hs (r_content r) (r_log r).

Lemma field_cb h n r hs : pushed r hs -> on_cb (CbField n) (rset_h h r) = mkRP h n [] false (r_parsing r) hs (r_content r) (r_log r).
Proof.
  intros [[L ->]|(L & F & V & ->)]; cbn; unfold pushHeader; rsimp; rewrite L; rsimp; rewrite ?F, ?V, ?app_nil_r, ?L; reflexivity.
Qed.

Lemma Go_header n w v m : wf_name n = true -> forallb blank_char w = true -> wf_value v = true ->
  (kind_name (lower n) = KLen -> dec_value 0 v = Some m /\ v <> [] /\ m <= max_length) ->
  forall h r hs d nr, pushed r hs -> line_start (h_state h) = true -> h_errno h = HPE_OK ->
    nr = h_nread h + blen (n ++ lit ":" ++ w ++ v ++ CRLF) -> nr <= HTTP_MAX_HEADER_SIZE ->
  exists hs' idx, 
  Go (rset_h h r) (plain (n ++ lit ":" ++ w ++ v ++ CRLF ++ d))
     (after_line n v hs (hset_state s_header_value_lws (hset_nread nr (hset_hs hs' (hset_index idx (hdr_h (kind_name (lower n)) v m h))))) r)
     (plain d).
Proof.
  intros Wn Ww Wv Hm h r hs d nr Pu Ls Ok Enr N. subst nr.
  unfold wf_name in Wn. apply andb_prop in Wn as [Wn0 Wn]. destruct n as [|c n]; [discriminate|]. clear Wn0.
  pose proof Wn as Wn'. cbn [forallb] in Wn. apply andb_prop in Wn as [Wc Wn].
  destruct (name_kind (to_lower c) (lower n)) as (hs1 & i1 & F1 & K1).
  { intros x Hx. change (to_lower c :: lower n) with (map to_lower (c :: n)) in Hx. apply in_map_iff in Hx as (y & <- & Hy).
    rewrite forallb_forall in Wn'. apply token_lower. auto. }
  change (to_lower c :: lower n) with (lower (c :: n)) in K1. rewrite <- K1 in *.
  change (lit ":") with [":"%char] in *. unfold CRLF in *.
  rewrite ?blen_app, ?blen_cons, ?blen_nil in *. pose proof (blen_nonneg n). pose proof (blen_nonneg w). pose proof (blen_nonneg v). pose proof (blen_nonneg d).
  rewrite ?blen_cons, ?blen_nil in *.
  set (h1 := hset_hs hs1 (hset_index i1 (hset_nread (h_nread h + (1 + blen n) + 1) (hset_state s_header_value_start h)))).
  assert (G1 : Go (rset_h h r) (plain ((c :: n) ++ [":"%char] ++ w ++ v ++ [CR; LF] ++ d))
    (rset_h h1 (mkRP h1 (c :: n) [] false (r_parsing r) hs (r_content r) (r_log r))) (plain (w ++ v ++ [CR; LF] ++ d))).
  { cbn [app]. eapply Go_trans; [apply Go_first; auto; lia|].
    eapply Go_trans; [apply (Go_name n) with (hs := hs1) (idx := i1); [reflexivity|auto|hsimp; exact F1|reflexivity|hsimp; lia]|].
    cbn [app].
    eapply Go_trans; [eapply Go_call; [reflexivity|hsimp; lia
      |unfold jbyte; hsimp; rewrite not_token by reflexivity; unfold data_field; cbn [l_field]; reflexivity|discriminate|hsimp; auto]|].
    - rewrite (field_cb _ _ _ hs) by auto. cbn [advance no_field l_data l_field l_value l_body moved option_map].
      match goal with |- Go (mkRP ?x _ _ _ _ _ _ _) _ _ _ => replace x with h1 end; [apply Go_refl|subst h1; heq]. }
  set (r1 := mkRP h1 (c :: n) [] false (r_parsing r) hs (r_content r) (r_log r)) in *.
  set (h2 := hset_nread (h_nread h1 + blen w) h1).
  assert (G2 : Go (rset_h h1 r1) (plain (w ++ v ++ [CR; LF] ++ d)) (rset_h h2 r1) (plain (v ++ [CR; LF] ++ d))).
  { apply Go_blanks; auto; subst h1; hsimp; lia. }
  assert (Nh2 : h_nread h2 = h_nread h + (1 + blen n) + 1 + blen w) by (subst h2 h1; hsimp; lia).
  assert (Sh2 : h_state h2 = s_header_value_start) by reflexivity.
  assert (Kh2 : h_hs h2 = hs1) by reflexivity.
  assert (Oh2 : h_errno h2 = HPE_OK) by (subst h2 h1; hsimp; auto).
  assert (V : exists hs' idx h3, Go (rset_h h2 r1) (plain (v ++ [CR; LF] ++ d))
     (mkRP h3 (c :: n) v true (r_parsing r) hs (r_content r) (r_log r)) (plain ([LF] ++ d)) /\
     h_state h3 = s_header_almost_done /\ h_nread h3 = h_nread h2 + blen v + 1 /\ h_errno h3 = HPE_OK /\
     forall n s, header_flags (hset_state s (hset_nread n h3)) = hset_state s (hset_nread n (hset_hs hs' (hset_index idx (hdr_h (kind_hs hs1) v m h))))).
  { destruct v as [|cv t].
    - cbn [app]. eexists h_general, 0%nat, _. split; [|split; [|split; [|split]]].
      + eapply Go_trans; [eapply Go_call; [now rewrite Sh2|hsimp; lia|unfold jbyte; hsimp; rewrite Sh2; reflexivity|discriminate|hsimp; exact Oh2]|].
        apply Go_refl.
      + reflexivity.
      + rsimp. hsimp. rewrite blen_nil. lia.
      + rsimp. hsimp. exact Oh2.
      + intros k s. unfold header_flags; rsimp; hsimp. unfold hdr_h. subst h2 h1. heq; cbn [is_word rtrim lower map]; rewrite ?beqb_nil; cbn [negb]; rewrite ?andb_false_r, ?orb_false_r; auto.
        * destruct (kind_hs hs1) eqn:Q; auto. destruct (Hm eq_refl) as (_ & X & _). congruence.
    - set (h2' := hset_index 0 (hset_state s_header_value (hset_nread (h_nread h2 + 1) h2))).
      destruct (value_eff cv t h2' m Wv eq_refl) as (h3 & h4 & hs' & idx & E1 & E2 & E3 & E4 & E5 & E6 & E7 & E8 & E9).
      { change (h_hs h2') with hs1. intros Q. destruct (Hm Q) as (? & _ & ?). auto. }
      change (h_hs h2') with hs1 in *.
      pose proof Wv as Wv'. unfold wf_value in Wv'. apply andb_prop in Wv' as [We Wb]. cbn [eol_free forallb] in We. apply andb_prop in We as [We1 We].
      apply andb_prop in We1 as [We1 We2]. unfold blank_char in Wb. apply negb_true_iff in Wb. apply orb_false_iff in Wb as [Wb1 Wb2].
      rewrite blen_cons in *. pose proof (blen_nonneg t).
      exists hs', idx. eexists. split; [|split; [|split; [|split]]].
      + cbn [app]. eapply Go_trans; [apply Go_byte; [now rewrite Sh2|lia|]|].
        * unfold jbyte. hsimp. rewrite Sh2. unfold ceq. rewrite Wb1, Wb2. cbn [orb].
          destruct (Ascii.eqb cv CR); [discriminate|]. destruct (Ascii.eqb cv LF); [discriminate|]. fold h2'. rewrite E1. reflexivity.
        * cbn [advance mark_value mark l_data l_field l_value l_body moved option_map app].
          eapply Go_trans; [apply (Go_value t h3 r1 _ _ h4 (h_nread h2 + (1 + blen t))); auto; [rewrite E5; subst h2'; hsimp; lia|lia]|].
          cbn [app]. eapply Go_trans; [eapply Go_call; [hsimp; rewrite E7; reflexivity|hsimp; lia
            |unfold jbyte; hsimp; rewrite E7; change (h_state h2') with s_header_value; reflexivity|discriminate|hsimp; rewrite E9; exact Oh2]|].
          apply Go_refl.
      + reflexivity.
      + rsimp. hsimp. lia.
      + rsimp. hsimp. rewrite E9. exact Oh2.
      + intros k s. rsimp. assert (HF : header_flags (hset_state s (hset_nread k h4)) = hset_state s (hset_nread k (header_flags h4))) by
          (unfold header_flags; hsimp; destruct (h_hs h4); reflexivity).
        transitivity (header_flags (hset_state s (hset_nread k h4))); [unfold header_flags; hsimp; destruct (h_hs h4); reflexivity|].
        rewrite HF, E3. unfold hdr_h. subst h2' h2 h1. heq. }
  destruct V as (hs' & idx & h3 & G3 & S3 & N3 & O3 & F3).
  exists hs', idx. eapply Go_trans; [exact G1|]. eapply Go_trans; [exact G2|]. eapply Go_trans; [exact G3|].
  match goal with |- Go ?x _ _ _ => change x with (rset_h h3 (after_line (c :: n) v hs h3 r)) end. cbn [app].
  eapply Go_trans; [apply Go_byte; [now rewrite S3|lia|]|].
  - unfold jbyte. hsimp. rewrite S3. cbn [ceq Ascii.eqb Bool.eqb]. unfold brk. reflexivity.
  - rewrite F3. cbn [advance l_data l_field l_value l_body moved option_map].
    unfold after_line, rset_h; cbn [r_h r_field r_value r_lwv r_parsing r_headers r_content r_log].
    match goal with |- Go (mkRP ?x _ _ _ _ _ _ _) _ (mkRP ?y _ _ _ _ _ _ _) _ => replace x with y; [apply Go_refl|] end.
    f_equal. f_equal. lia.
Qed.
