(** Lengths that do not fit in 64 bits: what the overflow test of the response parser refuses. *)
From Verif Require Import Bytes ByteHelpers Helpers TextSpec ConnText HelpersProofs Joyent RespParser RespInv RespSplit RespSpec RespFeed RespName RespDecode RespBody RespChunk.
Open Scope Z_scope.

Lemma Feed_usable r segs r' : Feed r segs r' -> usable r -> usable r'.
Proof.
  induction 1; intros U; auto; try apply IHFeed; auto; eapply usable_inject; eauto.
Qed.
Lemma waiting_usable r : waiting r -> usable r.
Proof. induction 1; [constructor| |constructor]; eapply Feed_usable; eauto. Qed.

(* the number before the last digit *)
Lemma last_digit base ds v : Digits base ds v -> base <= v -> exists s c p d, ds = s ++ [c] /\ Digits base s p /\ digit_val c = Some d /\ d < base /\ v = base * p + d.
Proof. intros [c d E L|s n c d D E L] B; [lia|]. exists s, c, n, d. auto 10. Qed.

Lemma dec_digit c d : digit_val c = Some d -> d < 10 -> is_digit c = true /\ num c = d.
Proof.
  intros E L. pose proof (forall_bytes (fun c => match digit_val c with Some d => if d <? 10 then is_digit c && (num c =? d) else true | None => true end) ltac:(vm_compute; reflexivity) c) as G.
  cbn beta in G. rewrite E in G. replace (d <? 10) with true in G by (symmetry; apply Z.ltb_lt; lia). apply andb_prop in G as [G1 G2]. split; auto. lia.
Qed.

(** the test itself: the product wraps around, and is below what was there *)
Lemma wraps base p d : 1 < base -> 0 <= p < 18446744073709551616 -> 0 <= d < base -> 18446744073709551615 <= base * p + d -> base * p + d - p < 18446744073709551616 ->
  let t := u64 (u64 (p * base) + d) in (t <? p) || (t =? ULLONG_MAX) = true.
Proof.
  intros B P D L U t. assert (E : t = u64 (base * p + d)).
  { subst t. unfold u64. rewrite Zplus_mod_idemp_l. f_equal. lia. }
  rewrite E. unfold u64, ULLONG_MAX. assert (H : base * p + d = 18446744073709551615 \/ 18446744073709551616 <= base * p + d) by lia.
  destruct H as [H|H].
  - rewrite H. rewrite orb_true_r. reflexivity.
  - replace ((base * p + d) mod 18446744073709551616) with (base * p + d - 18446744073709551616).
    + apply orb_true_iff. left. apply Z.ltb_lt. lia.
    + apply Z.mod_unique with (q := 1); [left|]; lia.
Qed.

(** a head that breaks off in a length *)
Section Length.
Variables (r : rparser) (sl t n w ds rest : bytes) (a b c v : Z) (hs : list header) (o : option Z).
Hypothesis R : ready r.
Hypothesis HS : StatusLine sl a b c.
Hypothesis HLs : HeaderLines t hs.
Hypothesis HC : ContentLength hs o.
Hypothesis HN : lower n = lit "content-length".
Hypothesis HW : forallb blank_char w = true.
Hypothesis HD : Digits 10 ds v.
Hypothesis HV : 18446744073709551615 <= v <= 20496382304121724016.
Hypothesis HB : blen (sl ++ t ++ n ++ lit ":" ++ w ++ ds) <= max_head - 2.

Lemma inject_length : exists r' k, inject r (sl ++ t ++ n ++ lit ":" ++ w ++ ds ++ rest) = Some (r', k) /\ hasError r' = true /\ r_log r' = r_log r ++ [RBegin].
Proof.
  destruct R as [U S E N F V].
  destruct (last_digit 10 ds v HD) as (s & cl & p & dl & -> & Dp & Dl & Ll & Ev); [lia|].
  destruct (dec_digit _ _ Dl Ll) as [Il Nl]. pose proof (digit_nonneg _ _ Dl).
  rewrite !blen_app in HB. change (blen (lit ":")) with 1 in HB. change (blen [cl]) with 1 in HB. unfold max_head in HB.
  pose proof (blen_nonneg sl). pose proof (blen_nonneg t). pose proof (blen_nonneg n). pose proof (blen_nonneg w). pose proof (blen_nonneg s).
  rewrite <- !app_assoc.
  set (d0 := n ++ lit ":" ++ w ++ s ++ [cl] ++ rest).
  pose proof (Go_status_line sl a b c HS (r_h r) (rset_parsing true r) (t ++ d0) _ S E eq_refl ltac:(lia) ltac:(unfold HTTP_MAX_HEADER_SIZE; lia)) as G1.
  set (h1 := sl_h a b c (h_nread (r_h r) + blen sl) (r_h r)) in *.
  destruct (Go_lines t hs HLs (length_ok _ _ HC) h1 (rbegin (rset_parsing true r)) [] d0 (h_nread (r_h r) + blen sl + blen t)) as (s2 & hh & idx & r' & G2 & P1 & P2 & P3 & P4 & P5); auto.
  { right. cbn. rewrite F, V. auto. }
  { unfold HTTP_MAX_HEADER_SIZE; lia. }
  cbn [app] in P2.
  set (h2 := hset_state s2 (hset_hs hh (hset_index idx (hset_nread (h_nread (r_h r) + blen sl + blen t) (scan hs h1))))) in *.
  destruct (scan_flags hs h1) as (_ & _ & _ & _ & _ & _ & _ & _ & Er & _ & _).
  assert (Er2 : h_errno h2 = HPE_OK) by (subst h2; hsimp; rewrite Er; subst h1; unfold sl_h; hsimp; auto).
  (* the name *)
  assert (Tn : forallb tchar n = true).
  { rewrite forallb_forall. intros x Hx. assert (In (to_lower x) (lit "content-length")) by (rewrite <- HN; now apply in_map).
    pose proof (forall_bytes (fun y => if mem (to_lower y) (lit "content-length") then tchar y else true) ltac:(vm_compute; reflexivity) x) as Q. cbn beta in Q.
    replace (mem (to_lower x) (lit "content-length")) with true in Q; [exact Q|]. symmetry. unfold mem. apply existsb_exists. exists (to_lower x). split; auto. apply Ascii.eqb_refl. }
  destruct n as [|cn n']; [discriminate|]. cbn [forallb] in Tn. apply andb_prop in Tn as [Tc Tn].
  destruct (name_kind (to_lower cn) (lower n')) as (hs1 & i1 & F1 & K1).
  { intros x Hx. change (to_lower cn :: lower n') with (map to_lower (cn :: n')) in Hx. apply in_map_iff in Hx as (y & <- & Hy).
    apply token_lower. destruct Hy as [->|Hy]; auto. rewrite forallb_forall in Tn. auto. }
  change (to_lower cn :: lower n') with (lower (cn :: n')) in K1. rewrite HN in K1. change (kind_name (lit "content-length")) with KLen in K1.
  assert (Hhs1 : hs1 = h_content_length) by (destruct hs1; cbn in K1; congruence). subst hs1.
  rewrite blen_cons in *. pose proof (blen_nonneg n').
  set (h3 := hset_hs h_content_length (hset_index i1 (hset_nread (h_nread h2 + (1 + blen n') + 1) (hset_state s_header_value_start h2)))).
  assert (N2 : h_nread h2 = h_nread (r_h r) + blen sl + blen t) by reflexivity.
  set (r3 := mkRP h3 (cn :: n') [] false (r_parsing r') hs (r_content r') (r_log r')).
  assert (G3 : Go (rset_h h2 r') (plain d0) (rset_h h3 r3) (plain (w ++ s ++ [cl] ++ rest))).
  { subst d0. cbn [app]. eapply Go_trans; [apply Go_first; auto; unfold HTTP_MAX_HEADER_SIZE; lia|].
    eapply Go_trans; [apply (Go_name n') with (hs := h_content_length) (idx := i1); [reflexivity|auto|hsimp; exact F1|reflexivity|hsimp; unfold HTTP_MAX_HEADER_SIZE; lia]|].
    cbn [app lit String.list_ascii_of_string]. change (lit ":" ++ ?x) with (":"%char :: x).
    eapply Go_trans; [eapply Go_call; [reflexivity|hsimp; unfold HTTP_MAX_HEADER_SIZE; lia
      |unfold jbyte; hsimp; rewrite not_token by reflexivity; unfold data_field; cbn [l_field]; reflexivity|discriminate|hsimp; exact Er2]|].
    rewrite (field_cb _ _ _ hs) by exact P2. cbn [advance no_field l_data l_field l_value l_body moved option_map].
    match goal with |- Go (mkRP ?x _ _ _ _ _ _ _) _ _ _ => replace x with h3 end; [apply Go_refl|subst h3; heq]. }
  set (h4 := hset_nread (h_nread h3 + blen w) h3).
  assert (G4 : Go (rset_h h3 r3) (plain (w ++ s ++ [cl] ++ rest)) (rset_h h4 r3) (plain (s ++ [cl] ++ rest))).
  { apply Go_blanks; auto; subst h3; hsimp; unfold HTTP_MAX_HEADER_SIZE; lia. }
  assert (N4 : h_nread h4 = h_nread h2 + (1 + blen n') + 1 + blen w) by (subst h4 h3; hsimp; lia).
  (* all digits but the last *)
  destruct s as [|c0 s']; [destruct (Digits_nil _ _ Dp)|]. rewrite blen_cons in *. pose proof (blen_nonneg s').
  pose proof (Digits_dec _ _ Dp) as Dd. cbn [dec_value] in Dd. destruct (is_digit c0) eqn:I0; [|discriminate].
  assert (R0 : 0 <= num c0) by (apply num_range; exact I0).
  set (h5 := hset_cl (num c0) (hset_index 0 (hset_state s_header_value (hset_nread (h_nread h4 + 1) h4)))).
  assert (G5 : Go (rset_h h4 r3) (plain ((c0 :: s') ++ [cl] ++ rest)) (rset_h h5 r3) (mkL (s' ++ [cl] ++ rest) None (Some [c0]) None false)).
  { cbn [app]. eapply Go_trans; [apply Go_byte; [reflexivity|unfold HTTP_MAX_HEADER_SIZE; lia|]|].
    - unfold jbyte. hsimp. change (h_state h4) with s_header_value_start. cbv iota.
      rewrite (digit_neq c0 SP), (digit_neq c0 "009"), (digit_neq c0 CR), (digit_neq c0 LF) by auto. cbn [orb].
      unfold value_first. hsimp. change (h_hs h4) with h_content_length. cbv iota. rewrite IS_NUM_digit, I0. cbn [negb]. reflexivity.
    - cbn [advance mark_value mark l_data l_field l_value l_body moved option_map app]. apply Go_refl. }
  assert (Pm : p <= max_length) by (unfold max_length; lia).
  assert (V5 : vfold h5 s' = VOk (hset_cl p h5)).
  { apply vfold_len; auto. }
  assert (Es : eol_free s' = true).
  { clear -Dd. revert Dd. generalize (10 * 0 + (byte_val c0 - 48)). induction s' as [|x s' IH]; intros z Dd; [reflexivity|].
    cbn [dec_value] in Dd. destruct (is_digit x) eqn:I; [|discriminate]. cbn [eol_free forallb]. apply andb_true_intro. split; [|exact (IH _ Dd)].
    pose proof (digit_neq x CR I eq_refl) as Q1. pose proof (digit_neq x LF I eq_refl) as Q2. unfold ceq in *. rewrite Q1, Q2. reflexivity. }
  set (h6 := hset_nread (h_nread h5 + blen s') (hset_cl p h5)).
  assert (G6 : Go (rset_h h5 r3) (mkL (s' ++ [cl] ++ rest) None (Some [c0]) None false) (rset_h h6 r3) (mkL ([cl] ++ rest) None (Some ([c0] ++ s')) None false)).
  { apply Go_value; auto. subst h5. hsimp. unfold HTTP_MAX_HEADER_SIZE. lia. }
  assert (N6 : h_nread h6 = h_nread h4 + 1 + blen s') by (subst h6 h5; hsimp; lia).
  assert (HJ : JOk (r_h (rset_parsing true r)) (plain (sl ++ t ++ d0))).
  { pose proof (jstart_ok (sl ++ t ++ d0) (r_h r) (uo_h _ U E) E) as Q. unfold jstart in Q. rewrite S in Q. exact Q. }
  change (rset_h (r_h r) (rset_parsing true r)) with (rset_parsing true r) in G1.
  destruct (Go_trans _ _ _ _ _ _ G1 (Go_trans _ _ _ _ _ _ G2 (Go_trans _ _ _ _ _ _ G3 (Go_trans _ _ _ _ _ _ G4 (Go_trans _ _ _ _ _ _ G5 G6)))) HJ) as [HJ6 EJ].
  unfold inject. rewrite (uo_p _ U). rewrite execute_run; auto.
  2: { destruct HS. discriminate. }
  unfold jstart. rewrite S. rewrite EJ.
  assert (M : exists er, mstep (rset_h h6 r3) (mkL ([cl] ++ rest) None (Some ([c0] ++ s')) None false) = ORet (rset_h (hset_errno HPE_INVALID_CONTENT_LENGTH (hset_nread (h_nread h6 + 1) h6)) r3) er).
  { unfold mstep, jstep. cbn [app l_data l_re]. rsimp. change (h_state h6) with s_header_value. cbn [parsing_header]. hsimp.
    replace (HTTP_MAX_HEADER_SIZE <? h_nread h6 + 1) with false by (symmetry; apply Z.ltb_ge; unfold HTTP_MAX_HEADER_SIZE; lia).
    unfold jbyte. hsimp. change (h_state h6) with s_header_value. cbv iota.
    rewrite (digit_neq cl CR), (digit_neq cl LF) by auto.
    unfold value_step. hsimp. change (h_hs h6) with h_content_length. cbv iota. rewrite (digit_neq cl SP) by auto. rewrite IS_NUM_digit, Il. cbn [negb].
    change (h_cl h6) with p. change (byte_val cl - 48) with (num cl). rewrite Nl.
    pose proof (wraps 10 p dl ltac:(lia)) as Wr. cbn zeta in Wr. pose proof (dec_mono _ _ _ Dd). pose proof (digit_nonneg _ _ Dl).
    rewrite Wr by (unfold num in *; lia). eexists. reflexivity. }
  destruct M as [er M]. rewrite J_step by (auto; discriminate). rewrite M.
  eexists _, _. split; [reflexivity|]. split; [reflexivity|]. 
  change (r_log r' = r_log r ++ [RBegin]). exact P5.
Qed.
End Length.

(** ** chunk sizes *)
Lemma Go_some t body : SomeChunks t body -> forall h r d, h_state h = s_chunk_size_start -> f_chunked h = true -> h_nread h = 0 -> h_errno h = HPE_OK ->
  exists k, Go (rset_h h r) (plain (t ++ d)) (rset_h (hset_cl k h) (got body r)) (plain d).
Proof.
  induction 1 as [|sz data t rest ND SZ CB IH]; intros h r d S C N O.
  - exists (h_cl h). cbn [app]. replace (rset_h (hset_cl (h_cl h) h) (got [] r)) with (rset_h h r); [apply Go_refl|].
    unfold got, rset_h. rsimp. cbn [map]. rewrite !app_nil_r. f_equal. destruct h; reflexivity.
  - assert (M : blen data <= max_length) by (inversion SZ; subst; auto).
    assert (P : 1 <= blen data) by (destruct data; [congruence|rewrite blen_cons; pose proof (blen_nonneg data); lia]).
    set (h1 := sized (blen data) h).
    assert (H1 : h_state h1 = s_chunk_data /\ f_chunked h1 = true /\ h_cl h1 = blen data /\ h_errno h1 = HPE_OK).
    { subst h1. unfold sized. replace (blen data =? 0) with false by (symmetry; apply Z.eqb_neq; lia). hsimp. auto. }
    destruct H1 as (A1 & A2 & A3 & A4).
    destruct (IH (hset_nread 0 (hset_cl 0 (hset_state s_chunk_size_start h1))) (got data r) d) as [k G]; hsimp; auto.
    exists k. rewrite <- !app_assoc. eapply Go_trans; [eapply Go_size; eauto|]. fold h1.
    eapply Go_trans; [apply Go_data; auto|]. eapply Go_trans; [exact G|].
    match goal with |- Go (rset_h ?x ?r1) _ (rset_h ?y ?r2) _ => replace (rset_h x r1) with (rset_h y r2); [apply Go_refl|] end.
    unfold got, rset_h. rsimp. rewrite map_app, !app_assoc. f_equal. subst h1. unfold sized.
    replace (blen data =? 0) with false by (symmetry; apply Z.eqb_neq; lia). heq; auto.
Qed.

Lemma inject_size r txt a b c hs o t body ds v rest : ready r -> ResponseHead txt a b c hs -> blen txt <= max_head - 2 -> no_upgrade hs = true ->
  chunked_resp hs = true -> ContentLength hs o -> SomeChunks t body -> Digits 16 ds v -> 18446744073709551615 <= v <= 19676527011956855056 -> blen ds <= max_head - 2 ->
  exists r' k, inject r (txt ++ t ++ ds ++ rest) = Some (r', k) /\ hasError r' = true /\ r_log r' = r_log r ++ RBegin :: RHeaders a b c hs :: map RByte body.
Proof.
  intros R HD HL NU NC CL CB DD HV HB.
  destruct (head_run r txt a b c hs o R HD HL CL (t ++ ds ++ rest)) as (hh & idx & k & HJ & E).
  destruct (head_facts r a b c hs _ R CL) as (F1 & F2 & F3 & F4 & F5 & F6 & F7 & F8 & F9). specialize (F2 NU). rewrite NC in F1.
  set (h1 := hdone r a b c hs hh idx k) in *.
  set (h2 := hset_state s_chunk_size_start (hset_nread 0 h1)).
  set (r1 := head_r a b c hs h1 (rset_parsing true r)) in *.
  destruct (last_digit 16 ds v DD) as (s & cl & p & dl & -> & Dp & Dl & Ll & Ev); [lia|].
  pose proof (digit_nonneg _ _ Dl) as Dn.
  rewrite blen_app in HB. change (blen [cl]) with 1 in HB. unfold max_head in HB.
  assert (G1 : Go r1 (mkL (LF :: t ++ (s ++ [cl]) ++ rest) None None None true) (rset_h h2 r1) (plain (t ++ s ++ [cl] ++ rest))).
  { rewrite <- !app_assoc. change r1 with (rset_h h1 r1) at 1. apply Go_again. unfold jbyte. change (h_state h1) with s_headers_done. change (ceq LF LF) with true. cbv iota zeta.
    hsimp. replace (h_upgr h1) with false by (subst h1; unfold hdone; hsimp; auto).
    replace (f_chunked h1) with true by (subst h1; unfold hdone; hsimp; auto). reflexivity. }
  destruct (Go_some t body CB h2 r1 (s ++ [cl] ++ rest)) as [kc G2]; try reflexivity; [subst h2 h1; unfold hdone; hsimp; auto|subst h2 h1; unfold hdone; hsimp; auto|].
  set (h3 := hset_cl kc h2) in *.
  destruct s as [|c0 s']; [destruct (Digits_nil _ _ Dp)|]. rewrite blen_cons in *. pose proof (blen_nonneg s').
  pose proof (Digits_hex _ _ Dp) as Dd. cbn [hex_value] in Dd. destruct (Joyent.unhex c0 =? -1) eqn:I0; [discriminate|].
  pose proof (unhex_range c0). assert (R0 : 0 <= Joyent.unhex c0) by (apply Z.eqb_neq in I0; lia).
  assert (Ch3 : f_chunked h3 = true) by (subst h3 h2 h1; unfold hdone; hsimp; auto).
  set (h4 := hset_state s_chunk_size (hset_cl (Joyent.unhex c0) (hset_nread 1 h3))).
  assert (G3 : Go (rset_h h3 (got body r1)) (plain ((c0 :: s') ++ [cl] ++ rest)) (rset_h h4 (got body r1)) (plain (s' ++ [cl] ++ rest))).
  { cbn [app]. apply Go_byte; [reflexivity|change (h_nread h3) with 0; unfold HTTP_MAX_HEADER_SIZE; lia|].
    unfold jbyte. hsimp. change (h_state h3) with s_chunk_size_start. change (h_nread h3) with 0. cbv iota. rewrite Ch3. cbn [Z.add Z.eqb Pos.eqb negb orb]. rewrite I0. reflexivity. }
  pose proof (hex_mono _ _ _ Dd) as Mn.
  assert (Pm : p <= max_length) by (unfold max_length; lia).
  set (h5 := hset_cl p (hset_nread (1 + blen s') h4)).
  assert (G4 : Go (rset_h h4 (got body r1)) (plain (s' ++ [cl] ++ rest)) (rset_h h5 (got body r1)) (plain ([cl] ++ rest))).
  { apply Go_hex; auto. unfold HTTP_MAX_HEADER_SIZE. lia. }
  destruct (Go_trans _ _ _ _ _ _ G1 (Go_trans _ _ _ _ _ _ G2 (Go_trans _ _ _ _ _ _ G3 G4)) HJ) as [HJ5 EJ].
  rewrite EJ in E.
  assert (M : exists er, mstep (rset_h h5 (got body r1)) (plain ([cl] ++ rest)) = ORet (rset_h (hset_errno HPE_INVALID_CONTENT_LENGTH (hset_nread (h_nread h5 + 1) h5)) (got body r1)) er).
  { unfold mstep, jstep. cbn [app l_data l_re]. rsimp. change (h_state h5) with s_chunk_size. cbn [parsing_header]. hsimp.
    replace (HTTP_MAX_HEADER_SIZE <? h_nread h5 + 1) with false by (symmetry; apply Z.ltb_ge; unfold HTTP_MAX_HEADER_SIZE; change (h_nread h5) with (1 + blen s'); lia).
    unfold jbyte. hsimp. change (h_state h5) with s_chunk_size. change (f_chunked h5) with (f_chunked h3). cbv iota. rewrite Ch3. cbn [negb].
    unfold ceq. destruct (Ascii.eqb_spec cl CR) as [->|_]; [discriminate|].
    rewrite (unhex_digit _ _ Dl). replace (dl =? -1) with false by (symmetry; apply Z.eqb_neq; lia).
    change (h_cl h5) with p.
    pose proof (wraps 16 p dl ltac:(lia)) as Wr. cbn zeta in Wr. rewrite Wr by lia. eexists. reflexivity. }
  destruct M as [er M]. rewrite J_step in E by (auto; discriminate). rewrite M in E.
  eexists _, _. split; [exact E|]. split; [reflexivity|].
  change ((r_log r ++ [RBegin; RHeaders a b c hs]) ++ map RByte body = r_log r ++ RBegin :: RHeaders a b c hs :: map RByte body).
  now rewrite <- app_assoc.
Qed.
