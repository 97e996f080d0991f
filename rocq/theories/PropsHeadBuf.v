(** C79: heads of responses are built inside of their buffer. *)
From Verif Require Import Bytes ByteHelpers Thin Helpers HelpersProofs ReqGrammar TextSpec
  Conn ConnSpec ConnText ConnHead ConnInv ConnStep ConnEnd ConnLog PropsConn ConnSend ConnFree PropsConn2 HeadBuf.
Open Scope Z_scope.

Lemma to_int_small z : 0 <= z <= 2147483647 -> to_int z = z.
Proof. intros H. unfold to_int. rewrite Z.mod_small by lia. destruct (Z.ltb_spec z 2147483648); lia. Qed.
Lemma to_int_mid z : 2147483648 <= z < 4294967296 -> to_int z = z - 4294967296.
Proof. intros H. unfold to_int. rewrite Z.mod_small by lia. destruct (Z.ltb_spec z 2147483648); lia. Qed.

Section Qt.
  Variable junk : bytes -> Z -> bytes.
  Variable more : Z -> Z.
  Hypothesis Hjunk : forall m n, 0 <= n -> blen (junk m n) = n.
  Hypothesis Hmore : forall n, 0 <= n <= 2147483647 -> n <= more n.

  (** ** Blocks *)
  (* a block of one's own *)
  Record WF (b : ba) : Prop := {
    wf_static : b_static b = false; wf_shared : b_shared b = false;
    wf_size : 0 <= b_size b <= b_alloc b; wf_mem : blen (b_mem b) = b_alloc b + 1 }.
  Lemma text_len b : WF b -> blen (text b) = b_size b.
  Proof. intros [_ _ S M]. unfold text, blen in *. rewrite firstn_length. lia. Qed.

  Lemma put_at off s b p : firstn (Z.to_nat off) (b_mem b) = p -> 0 <= off -> off + blen s <= blen (b_mem b) ->
    exists b', put off s b = Some b' /\ b_static b' = b_static b /\ b_shared b' = b_shared b /\ b_alloc b' = b_alloc b /\ b_size b' = b_size b /\
      blen (b_mem b') = blen (b_mem b) /\ firstn (Z.to_nat (off + blen s)) (b_mem b') = p ++ s.
  Proof.
    intros Hp H0 Hl. unfold put. replace (0 <=? off) with true by (symmetry; now apply Z.leb_le).
    replace (off + blen s <=? blen (b_mem b)) with true by (symmetry; now apply Z.leb_le). cbn [andb].
    eexists. split; [reflexivity|]. cbn [b_static b_shared b_alloc b_size b_mem]. repeat split.
    - unfold blen in *. rewrite !app_length, firstn_length, skipn_length. lia.
    - rewrite <- Hp. unfold blen in *. rewrite app_assoc, firstn_app.
      assert (E : length (firstn (Z.to_nat off) (b_mem b) ++ s) = Z.to_nat (off + Z.of_nat (length s))).
      { rewrite app_length, firstn_length. lia. }
      rewrite firstn_all2 by lia. rewrite E, Nat.sub_diag. cbn [firstn]. now rewrite app_nil_r.
  Qed.

  Lemma realloc_ok n b : WF b -> b_size b <= n -> exists b', realloc junk n b = Some b' /\ WF b' /\ text b' = text b /\ b_alloc b' = n /\ b_size b' = b_size b.
  Proof.
    intros [S1 S2 S M] Hn. unfold realloc. destruct (Z.ltb_spec n 0); [lia|]. rewrite S2. eexists. split; [reflexivity|].
    split; [|split; [|split; reflexivity]].
    - split; cbn [b_static b_shared b_alloc b_size b_mem]; auto; [lia|].
      pose proof (Hjunk (b_mem b) (Z.max 0 (n - b_alloc b)) ltac:(lia)) as J. unfold blen in *. rewrite app_length, firstn_length. lia.
    - unfold text, blen in *. cbn [b_size b_mem]. rewrite firstn_app, firstn_firstn, firstn_length.
      replace (Nat.min (Z.to_nat (b_size b)) (Z.to_nat (n + 1))) with (Z.to_nat (b_size b)) by lia.
      replace (Z.to_nat (b_size b) - Nat.min (Z.to_nat (n + 1)) (length (b_mem b)))%nat with 0%nat by lia.
      cbn [firstn]. now rewrite app_nil_r.
  Qed.
  Lemma reserve_null : exists b, reserve junk 1024 null_ba = Some b /\ WF b /\ text b = [] /\ b_alloc b = 1024.
  Proof.
    eexists. split; [reflexivity|]. split; [|split; reflexivity].
    split; cbn [b_static b_shared b_alloc b_size b_mem]; auto; [vm_compute; split; discriminate|].
    change (Z.min 1024 (b_size null_ba)) with 0. cbn [Z.to_nat firstn app b_mem null_ba]. pose proof (Hjunk [NUL] (1024 - 0) ltac:(lia)) as J.
    unfold blen in *. cbn [length]. lia.
  Qed.
  Lemma grow_ok len b : WF b -> 0 <= len -> b_size b + len <= 2147483647 ->
    exists b', grow junk more len b = Some b' /\ WF b' /\ text b' = text b /\ b_size b' = b_size b /\ b_size b' + len <= b_alloc b'.
  Proof.
    intros W Hl Hm. unfold grow. rewrite (wf_shared _ W). pose proof (wf_size _ W). rewrite to_int_small by lia. cbn [orb].
    destruct (Z.ltb_spec (b_alloc b) (b_size b + len)).
    - pose proof (Hmore (b_size b + len) ltac:(lia)). destruct (realloc_ok (more (b_size b + len)) b W) as (b' & E & W' & T & A & S); [lia|].
      exists b'. rewrite A, S. auto 10.
    - exists b. auto 10.
  Qed.
  (* the end of what has been put behind the text becomes the end of the text *)
  Lemma sized b n t : b_static b = false -> b_shared b = false -> blen (b_mem b) = b_alloc b + 1 -> 0 <= n <= b_alloc b ->
    firstn (Z.to_nat n) (b_mem b) = t -> WF (set_size n b) /\ text (set_size n b) = t.
  Proof. intros. split; [split; auto|auto]. Qed.
  Lemma fill_ok s b : WF b -> b_size b + blen s <= b_alloc b -> b_size b + blen s <= 2147483647 ->
    exists b', fill s b = Some b' /\ WF b' /\ text b' = text b ++ s.
  Proof.
    intros [S1 S2 S M] Ha Hm. pose proof (blen_nonneg s). unfold fill.
    destruct (put_at (b_size b) s b (text b) eq_refl ltac:(lia) ltac:(lia)) as (b1 & -> & X1 & X2 & X3 & X4 & X5 & X6). cbn [bind].
    rewrite X4, to_int_small by lia. cbn [b_size set_size].
    destruct (put_at (b_size b + blen s) [NUL] (set_size (b_size b + blen s) b1) _ X6 ltac:(lia)) as (b2 & -> & Y1 & Y2 & Y3 & Y4 & Y5 & Y6).
    { cbn [set_size b_mem]. change (blen [NUL]) with 1. lia. }
    cbn [set_size b_static b_shared b_alloc b_size b_mem] in *. exists b2. split; [reflexivity|]. split; [split; [congruence|congruence|lia|lia]|].
    unfold text at 1. rewrite Y4. change (blen [NUL]) with 1 in Y6.
    rewrite <- X6. apply (f_equal (firstn (Z.to_nat (b_size b + blen s)))) in Y6. rewrite firstn_firstn in Y6.
    replace (Nat.min (Z.to_nat (b_size b + blen s)) (Z.to_nat (b_size b + blen s + 1))) with (Z.to_nat (b_size b + blen s)) in Y6 by lia.
    rewrite Y6, X6, firstn_app. 
    assert (E : length (text b ++ s) = Z.to_nat (b_size b + blen s)).
    { rewrite <- X6, firstn_length. unfold blen in *. lia. }
    rewrite E, Nat.sub_diag. cbn [firstn]. rewrite app_nil_r, firstn_all2 by lia. reflexivity.
  Qed.

  (** ** The appends *)
  Definition appends (f : ba -> option ba) (s : bytes) : Prop :=
    forall b, WF b -> b_size b + blen s <= 2147483647 -> exists b', f b = Some b' /\ WF b' /\ text b' = text b ++ s.
  Lemma size_of b b' s : WF b -> WF b' -> text b' = text b ++ s -> b_size b' = b_size b + blen s.
  Proof. intros W W' E. rewrite <- (text_len _ W), <- (text_len _ W'), E. unfold blen. rewrite app_length. lia. Qed.
  Lemma appends_seq f g s t : appends f s -> appends g t -> appends (fun b => bind (f b) g) (s ++ t).
  Proof.
    intros F G b W H. assert (blen (s ++ t) = blen s + blen t) by (unfold blen; rewrite app_length; lia). pose proof (blen_nonneg t).
    destruct (F b W ltac:(lia)) as (b1 & -> & W1 & T1). cbn [bind]. pose proof (size_of _ _ _ W W1 T1).
    destruct (G b1 W1 ltac:(lia)) as (b2 & -> & W2 & T2). exists b2. rewrite T2, T1, app_assoc. auto.
  Qed.
  Lemma grow_fill s : appends (fun b => bind (grow junk more (blen s) b) (fill s)) s.
  Proof.
    intros b W H. pose proof (blen_nonneg s). destruct (grow_ok (blen s) b W ltac:(lia) H) as (b1 & -> & W1 & T1 & S1 & A1). cbn [bind].
    destruct (fill_ok s b1 W1 A1 ltac:(lia)) as (b2 & -> & W2 & T2). exists b2. rewrite T2, T1. auto.
  Qed.
  Lemma q_append_ok s : appends (q_append junk more s) s.
  Proof.
    destruct s as [|c s]; [|exact (grow_fill (c :: s))]. intros b W _. exists b. cbn [q_append]. rewrite app_nil_r. auto.
  Qed.
  Lemma q_append_ba_ok n raw s : appends (q_append_ba junk more n raw s) s.
  Proof. intros b W H. unfold q_append_ba. rewrite (wf_static _ W). cbn [andb]. now apply grow_fill. Qed.
  Lemma q_append_char_ok c : appends (q_append_char junk more c) [c].
  Proof. exact (grow_fill [c]). Qed.
  Lemma fast_ok s b : WF b -> b_size b + blen s <= 2147483647 -> b_size b + blen s <= b_alloc b ->
    exists b', fast junk s b = Some b' /\ WF b' /\ text b' = text b ++ s.
  Proof.
    intros [S1 S2 S M] Hm Ha. pose proof (blen_nonneg s). unfold fast, detach. rewrite S2. cbn [bind].
    destruct (put_at (b_size b) s b (text b) eq_refl ltac:(lia) ltac:(lia)) as (b1 & -> & X1 & X2 & X3 & X4 & X5 & X6). cbn [bind].
    rewrite X4, to_int_small by lia. eexists. split; [reflexivity|]. apply sized; auto; try congruence; lia.
  Qed.
  Lemma choice s f : appends f s -> appends (fun b => if to_int (b_size b + blen s) <=? b_alloc b then fast junk s b else f b) s.
  Proof.
    intros F b W H. pose proof (blen_nonneg s). pose proof (wf_size _ W). rewrite to_int_small by lia.
    destruct (Z.leb_spec (b_size b + blen s) (b_alloc b)); [now apply fast_ok|now apply F].
  Qed.
  Lemma header_ok h : appends (append_header junk more h) (header_line h).
  Proof.
    intros b W H. pose proof W as [S1 S2 S M].
    assert (L : blen (header_line h) = blen (fst h) + 2 + blen (snd h) + 2).
    { unfold header_line, blen. rewrite !app_length. cbn [length lit CRLF list_ascii_of_string]. lia. }
    pose proof (blen_nonneg (fst h)). pose proof (blen_nonneg (snd h)). unfold append_header.
    rewrite (to_int_small (blen (fst h) + 2)) by lia. rewrite (to_int_small (blen (fst h) + 2 + blen (snd h))) by lia.
    rewrite (to_int_small (blen (fst h) + 2 + blen (snd h) + 2)) by lia. rewrite <- L. rewrite to_int_small by lia.
    destruct (Z.leb_spec (b_size b + blen (header_line h)) (b_alloc b)).
    - unfold detach. rewrite S2. cbn [bind].
      destruct (put_at (b_size b) (fst h) b (text b) eq_refl ltac:(lia) ltac:(lia)) as (b1 & -> & A1 & A2 & A3 & A4 & A5 & A6). cbn [bind].
      destruct (put_at (b_size b + blen (fst h)) (lit ": ") b1 _ A6 ltac:(lia)) as (b2 & -> & B1 & B2 & B3 & B4 & B5 & B6).
      { change (blen (lit ": ")) with 2. lia. }
      cbn [bind]. change (blen (lit ": ")) with 2 in B6.
      destruct (put_at (b_size b + blen (fst h) + 2) (snd h) b2 _ B6 ltac:(lia) ltac:(lia)) as (b3 & -> & C1 & C2 & C3 & C4 & C5 & C6). cbn [bind].
      destruct (put_at (b_size b + blen (fst h) + 2 + blen (snd h)) CRLF b3 _ C6 ltac:(lia)) as (b4 & -> & D1 & D2 & D3 & D4 & D5 & D6).
      { change (blen CRLF) with 2. lia. }
      cbn [bind]. change (blen CRLF) with 2 in D6.
      assert (Es : b_size b4 = b_size b) by congruence. rewrite Es, to_int_small by lia. eexists. split; [reflexivity|]. apply sized; try congruence; try lia.
      replace (b_size b + blen (header_line h)) with (b_size b + blen (fst h) + 2 + blen (snd h) + 2) by lia. rewrite D6. unfold header_line.
      now rewrite <- !app_assoc.
    - change (header_line h) with (fst h ++ lit ": " ++ snd h ++ CRLF) in *.
      apply (appends_seq _ _ _ _ (q_append_ba_ok (blen (fst h)) false (fst h))
              (appends_seq _ _ _ _ (q_append_ok (lit ": ")) (appends_seq _ _ _ _ (q_append_ba_ok (blen (snd h)) false (snd h)) (q_append_ok CRLF)))); auto.
  Qed.
  Lemma chars_ok d : appends (append_chars junk more d) d.
  Proof.
    induction d as [|c d IH].
    - intros b W _. exists b. cbn [append_chars]. rewrite app_nil_r. auto.
    - change (c :: d) with ([c] ++ d). exact (appends_seq _ _ _ _ (q_append_char_ok c) IH).
  Qed.
  Lemma number_ok d : appends (append_number junk more d) d.
  Proof.
    intros b W H. unfold append_number. pose proof (wf_size _ W).
    destruct (chars_ok (List.rev d) b W) as (b1 & -> & W1 & T1).
    { unfold blen in *. now rewrite rev_length. }
    cbn [bind]. unfold detach. rewrite (wf_shared _ W1). cbn [bind]. eexists. split; [reflexivity|].
    pose proof (size_of _ _ _ W W1 T1) as Es. destruct W1 as [S1 S2 S M]. unfold text in T1.
    assert (L : length (b_mem b1) = Z.to_nat (b_alloc b1 + 1)) by (unfold blen in M; lia).
    assert (Lt : length (firstn (Z.to_nat (b_size b)) (b_mem b)) = Z.to_nat (b_size b)).
    { pose proof (text_len _ W) as X. unfold text, blen in X. lia. }
    assert (Lr : blen (List.rev d) = Z.of_nat (length d)) by (unfold blen; now rewrite rev_length).
    assert (E1 : firstn (Z.to_nat (b_size b)) (b_mem b1) = text b).
    { apply (f_equal (firstn (Z.to_nat (b_size b)))) in T1. rewrite firstn_firstn in T1.
      replace (Nat.min (Z.to_nat (b_size b)) (Z.to_nat (b_size b1))) with (Z.to_nat (b_size b)) in T1 by lia. rewrite T1, firstn_app, Lt, Nat.sub_diag.
      cbn [firstn]. rewrite app_nil_r. unfold text. rewrite firstn_firstn. now rewrite Nat.min_id. }
    assert (E2 : firstn (Z.to_nat (b_size b1) - Z.to_nat (b_size b)) (skipn (Z.to_nat (b_size b)) (b_mem b1)) = List.rev d).
    { rewrite firstn_skipn_comm. replace (Z.to_nat (b_size b) + (Z.to_nat (b_size b1) - Z.to_nat (b_size b)))%nat with (Z.to_nat (b_size b1)) by lia.
      rewrite T1, skipn_app, Lt, Nat.sub_diag. cbn [skipn]. rewrite skipn_all2 by lia. reflexivity. }
    unfold turn. rewrite E1, E2, List.rev_involutive. split.
    - split; cbn [b_static b_shared b_alloc b_size b_mem]; auto.
      pose proof (text_len _ W) as X. unfold blen in *. rewrite !app_length, skipn_length. lia.
    - unfold text at 1. cbn [b_size b_mem]. rewrite app_assoc, firstn_app.
      assert (Ll : length (text b ++ d) = Z.to_nat (b_size b1)).
      { pose proof (text_len _ W) as X. unfold blen in *. rewrite app_length. lia. }
      rewrite Ll, Nat.sub_diag. cbn [firstn]. rewrite app_nil_r. apply firstn_all2. lia.
  Qed.
  Definition op_bytes (o : bop) : bytes :=
    match o with BVersion _ s => s | BChar c => [c] | BText s => s | BHeader h => header_line h | BNumber d => d end.
  Lemma bop_ok o : appends (do_bop junk more o) (op_bytes o).
  Proof.
    destruct o; cbn [do_bop op_bytes].
    - exact (choice s _ (q_append_ba_ok salloc true s)).
    - exact (choice [c] _ (q_append_char_ok c)).
    - exact (choice s _ (q_append_ok s)).
    - apply header_ok.
    - apply number_ok.
  Qed.
  Lemma bops_ok l : appends (do_bops junk more l) (concat (map op_bytes l)).
  Proof.
    induction l as [|o l IH].
    - intros b W _. exists b. cbn [do_bops map concat]. rewrite app_nil_r. auto.
    - exact (appends_seq _ _ _ _ (bop_ok o) IH).
  Qed.

  (** ** One head, many heads *)
  Definition Ready (b : ba) : Prop := b = null_ba \/ WF b /\ text b = [].
  Lemma build_ok l b : Ready b -> blen (concat (map op_bytes l)) <= 2147483647 ->
    exists b', build junk more l b = Some b' /\ WF b' /\ text b' = concat (map op_bytes l).
  Proof.
    intros R H. unfold build.
    assert (X : exists b1, (if b_alloc b =? 0 then reserve junk 1024 b else Some b) = Some b1 /\ WF b1 /\ text b1 = []).
    { destruct R as [-> |(W & T)].
      - destruct reserve_null as (b1 & E & W & T & _). exists b1. auto.
      - destruct (Z.eqb_spec (b_alloc b) 0) as [E|E]; [|exists b; auto]. unfold reserve. rewrite E. rewrite orb_true_r.
        pose proof (wf_size _ W). destruct (realloc_ok 1024 b W) as (b1 & E1 & W1 & T1 & _); [lia|]. exists b1. rewrite T1. auto. }
    destruct X as (b1 & -> & W & T). cbn [bind]. pose proof (text_len _ W) as E. rewrite T in E. change (blen []) with 0 in E.
    destruct (bops_ok l b1 W ltac:(lia)) as (b2 & -> & W2 & T2). exists b2. rewrite T2, T. auto.
  Qed.
  Lemma recycle_ok b : WF b -> Ready (recycle b) /\ b_alloc (recycle b) <= 4096.
  Proof.
    intros W. unfold recycle. destruct (Z.ltb_spec 4096 (b_alloc b)); [split; [now left|cbn; lia]|]. split; [|exact H].
    right. destruct W as [S1 S2 S M]. apply sized; auto. lia.
  Qed.
End Qt.

(** ** The appends of writeHeaders make the head the connection writes *)
Lemma scan_out hb size hs : s_out (fold_left scan_header hs (mkScan size None None None hb)) =
  hb ++ concat (map op_bytes (map BHeader (filter ordinary hs))).
Proof.
  revert hb size. induction hs as [|h hs IH] using List.rev_ind; intros hb size; [cbn; now rewrite app_nil_r|].
  rewrite fold_left_app, filter_app, !map_app, concat_app, app_assoc, <- (IH hb size). cbn [fold_left filter]. unfold scan_header, ordinary.
  destruct (asciiEqualsCI_lower (fst h) (lit "content-length")); [cbn; now rewrite app_nil_r|].
  destruct (asciiEqualsCI_lower (fst h) (lit "content-type")); [cbn; now rewrite app_nil_r|].
  destruct (asciiEqualsCI_lower (fst h) (lit "connection")); [cbn; now rewrite app_nil_r|].
  destruct (asciiEqualsCI_lower (fst h) (lit "transfer-encoding")); [cbn; now rewrite app_nil_r|].
  cbn [orb negb map concat s_out op_bytes]. now rewrite app_nil_r.
Qed.
Lemma scan_rest hb hb' size hs : let s := fold_left scan_header hs (mkScan size None None None hb) in
  let s' := fold_left scan_header hs (mkScan size None None None hb') in s_len s = s_len s' /\ s_ct s = s_ct s' /\ s_conn s = s_conn s' /\ s_te s = s_te s'.
Proof. cbv zeta. rewrite !scan_ok. auto. Qed.
Lemma head_ops_ok n code hs c stk k : st c = SendingHeaders ->
  match head_ops n code hs c with
  | None => exists c1, writeHeaders code hs c stk k = UB IntMinNegation c1
  | Some l => exists c1, writeHeaders code hs c stk k = dev_write (hbuf c ++ concat (map op_bytes l)) c1 (fun c => toSendingContent c stk k) /\
                out_ok c1 = out_ok c /\ log c1 = log c
  end.
Proof.
  intros Hs. unfold head_ops, writeHeaders. rewrite Hs. cbn [cst_eqb negb].
  set (status := match statusCodeAndMessage code with Some t => t | None => _ end).
  change (rlen (set_rstatus code c)) with (rlen c). change (hbuf (set_rstatus code c)) with (hbuf c). change (req (set_rstatus code c)) with (req c).
  destruct (scan_rest (hbuf c ++ q_version (req c) ++ [SP] ++ status ++ CRLF) [] (rlen c) hs) as (E1 & E2 & E3 & E4).
  pose proof (scan_out (hbuf c ++ q_version (req c) ++ [SP] ++ status ++ CRLF) (rlen c) hs) as E5.
  destruct (fold_left scan_header hs (mkScan (rlen c) None None None (hbuf c ++ _))) as [len ct co te out].
  destruct (fold_left scan_header hs (mkScan (rlen c) None None None [])) as [len' ct' co' te' out'].
  cbn [s_len s_ct s_conn s_te s_out] in *. subst len' ct' co' te' out. clear out'.
  unfold head_ops. fold status. cbv zeta.
  remember (map BHeader (filter ordinary hs)) as ord eqn:Eo. clear Eo.
  csimp.
  remember (match te with Some h => asciiEqualsCI_lower (snd h) (lit "chunked") && http11 c && (len =? -1) || chunked c | None => chunked c end) as chunk eqn:Ec.
  remember (match te with Some h => if asciiEqualsCI_lower (snd h) (lit "chunked") && negb (http11 c && (len =? -1)) then None else Some h | None => None end) as te' eqn:Et.
  match goal with |- match _ with Some _ => exists c1, (let (chunk, te0) := ?p in _) = _ /\ _ | None => _ end =>
    assert (P : p = (chunk, te')) end.
  { subst chunk te'. destruct te as [h|]; auto. destruct (asciiEqualsCI_lower (snd h) (lit "chunked")), (http11 c), (len =? -1); auto. }
  rewrite P. clear P Ec Et.
  remember (if http11 c then negb (asciiEqualsCI_lower (getFieldValue_tok (q_headers (req c)) (lit "connection")) (lit "close"))
            else asciiEqualsCI_lower (getFieldValue_tok (q_headers (req c)) (lit "connection")) (lit "keep-alive")) as wants eqn:Ew. clear Ew.
  match goal with |- context [set_keepalive ?k _] => remember k as ka eqn:Ek end.
  assert (Ek' : wants && ((0 <=? len) || chunk) && match co with Some h => negb (asciiEqualsCI_lower (snd h) (lit "close")) | None => true end = ka).
  { rewrite Ek. destruct wants; auto. cbn [andb]. destruct co as [h|]; destruct ((0 <=? len) || chunk); auto. }
  rewrite Ek'. clear Ek Ek'. csimp.
  destruct (len =? -1) eqn:El; [|destruct (appendNumber 10 (to_int len)) as [d|]; [|eexists; reflexivity]]; cbn [option_map].
  all: match goal with |- exists c1, dev_write ?hb ?x _ = _ /\ _ => exists x end.
  all: split; [|split; reflexivity].
  all: apply (f_equal (fun b => dev_write b _ _)).
  all: rewrite ?map_app, ?concat_app, <- ?app_assoc; cbn [map concat op_bytes app]; rewrite ?app_nil_r, <- ?app_assoc.
  all: repeat (apply f_equal); cbn [app].
  all: assert (X1 : forall l1 l2 l3 m1 m2 m3 : bytes, l1 = m1 -> l2 = m2 -> l3 = m3 -> l1 ++ l2 ++ l3 ++ CRLF = m1 ++ m2 ++ m3 ++ CRLF) by (intros; subst; auto).
  all: rewrite <- ?app_assoc; do 4 apply f_equal; repeat apply f_equal; apply X1; [destruct ct as [h|]; [|destruct (0 <? len)]|destruct (negb (http11 c) || negb ka); [destruct ka|]|destruct te'];
    cbn [map concat op_bytes]; rewrite ?app_nil_r; reflexivity.
Qed.

(** what follows the head only adds to the log *)
Definition Ext (c : conn) (g : cfg) : Prop := match g with Run c' _ => exists e, log c' = log c ++ e | UB _ _ => True end.
Lemma Ext_trans c c1 g e : log c1 = log c ++ e -> Ext c1 g -> Ext c g.
Proof. intros E H. destruct g; auto. destruct H as (e' & H). exists (e ++ e'). now rewrite H, E, app_assoc. Qed.
Lemma Ext_same c c1 g : log c1 = log c -> Ext c1 g -> Ext c g.
Proof. intros E. apply (Ext_trans c c1 g []). now rewrite E, app_nil_r. Qed.
Lemma ext_run c stk : Ext c (Run c stk).
Proof. exists []. now rewrite app_nil_r. Qed.
Lemma ext_write b c k : (forall c, Ext c (k c)) -> Ext c (dev_write b c k).
Proof.
  intros H. unfold dev_write. destruct (out_ok c); [|exact Logic.I].
  eapply Ext_trans; [|apply H]. unfold emit_log. csimp. reflexivity.
Qed.
Lemma ext_completed c stk k : (forall c, Ext c (k c)) -> Ext c (toCompleted c stk k).
Proof. intros H. unfold toCompleted. destruct (cst_eqb _ _); auto. eapply Ext_trans; [|apply ext_run]. unfold emit_log. csimp. reflexivity. Qed.
Lemma ext_tail c g : Ext (sending_tail c) g -> Ext c g.
Proof. apply Ext_same. apply sending_tail_log. Qed.
Lemma ext_sending c stk k : (forall c, Ext c (k c)) -> Ext c (toSendingContent c stk k).
Proof.
  intros H. unfold toSendingContent. destruct (cst_eqb _ _); auto. apply (Ext_same c (set_hbuf [] (set_st SendingContent c))); [reflexivity|].
  generalize (set_hbuf [] (set_st SendingContent c)). intros c0. destruct (_ || _); [apply ext_completed; intros|]; apply ext_tail, H.
Qed.
Lemma ext_content b c stk k : (forall c, Ext c (k c)) -> Ext c (writeContent b c stk k).
Proof.
  intros H. unfold writeContent. destruct (negb _); auto. destruct (rlen c =? 0); auto. destruct (_ && _); auto. destruct (_ && _); auto.
  apply (Ext_same c (set_rsent (rsent c + blen b) c)); [reflexivity|]. generalize (set_rsent (rsent c + blen b) c). intros c0.
  assert (F : forall c, Ext c (if rsent c =? rlen c then toCompleted c stk k else k c)).
  { intros c1. destruct (_ =? _); [now apply ext_completed|apply H]. }
  destruct (chunked c0).
  - destruct (appendNumber 16 (blen b)) as [d|]; [|exact Logic.I]. repeat (apply ext_write; intros). apply F.
  - apply ext_write. apply F.
Qed.
Lemma ext_resp b c stk k : (forall c, Ext c (k c)) -> Ext c (resp_tail b c stk k).
Proof. intros H. unfold resp_tail. destruct b; auto. destruct (_ && _); [exact Logic.I|]. destruct (is_head _); auto. now apply ext_content. Qed.

Definition writes_head (c : conn) (a : action) : Prop :=
  st c = SendingHeaders /\ match a with ACall (OpWriteHeaders _ _) | ACall (OpWriteResponse _ _ _) => True | _ => False end.
Lemma head_log n code hs c stk k c' stk' hd e : st c = SendingHeaders -> hbuf c = [] -> out_ok c = true -> (forall c, Ext c (k c)) ->
  writeHeaders code hs c stk k = Run c' stk' -> log c' = log c ++ OWrite hd :: e ->
  exists l, head_ops n code hs c = Some l /\ hd = concat (map op_bytes l).
Proof.
  intros Hs Hh Ho Hk E El. pose proof (head_ops_ok n code hs c stk k Hs) as X. destruct (head_ops n code hs c) as [l|].
  - destruct X as (c1 & X & O1 & L1). exists l. split; auto. rewrite X in E. rewrite Hh in E. cbn [app] in E. unfold dev_write in E.
    rewrite O1, Ho in E.
    match type of E with toSendingContent ?c2 _ _ = _ => pose proof (ext_sending c2 stk k Hk) as Y; rewrite E in Y; clear E end.
    destruct Y as (e' & Y).
    unfold emit_log in Y. csimp_in Y. rewrite El, L1, <- app_assoc in Y. apply app_inv_head in Y. cbn [app] in Y. congruence.
  - destruct X as (c1 & X). rewrite X in E. discriminate.
Qed.
(* every answer writes a head, first of all *)
Lemma head_first c stk a : reached c stk -> writes_head c a -> polite c stk a ->
  exists c' stk' hd e, step (Run c stk) a = Run c' stk' /\ log c' = log c ++ OWrite hd :: e.
Proof.
  intros R (Hs & Ha) HP. destruct (reached_SH _ _ R Hs) as (ms & m & more & l & S). assert (Hc : current c (delivered m)).
  { exists (announced l). rewrite (sh_log _ _ _ _ _ S), !announced_app, interim_no_ready. reflexivity. }
  destruct a as [o| | | |]; try destruct Ha. destruct o; try destruct Ha.
  - destruct (C11_writeResponse c stk _ code hs content R Hs Hc HP) as (len & hd & c' & stk' & _ & _ & E & _ & X). exists c', stk', hd.
    destruct (_ || _); [destruct X as (_ & _ & X); eauto|]. destruct (_ || _); [destruct X as (_ & _ & X); eauto|]. destruct X as (ev & _ & X).
    destruct (_ =? _); destruct X as (_ & X & _); eauto.
  - destruct (C11_writeHeaders c stk _ code hs R Hs Hc HP) as (len & hd & c' & stk' & _ & _ & E & _ & _ & X). exists c', stk', hd.
    destruct (_ || _); destruct X as (_ & _ & X); eauto.
Qed.
Lemma head_made n c stk a c' stk' hd e : reached c stk -> writes_head c a -> step (Run c stk) a = Run c' stk' -> log c' = log c ++ OWrite hd :: e ->
  exists l, head_of n c a = Some (Some l) /\ hd = concat (map op_bytes l).
Proof.
  intros R (Hs & Ha) E El. destruct (reached_SH _ _ R Hs) as (ms & m & more & l & [_ [[] ? ? ? Hreq ? ?] H11 Hch Hr ? ?]).
  assert (K : forall c, Ext c (resume stk c)). { intros c1. rewrite settled_resume by (eapply reached_settled'; eauto). apply ext_run. }
  destruct a as [o| | | |]; try destruct Ha. destruct o; try destruct Ha; unfold head_of; rewrite Hs; cbn [cst_eqb].
  - change (writeResponse code hs content c stk (resume stk) = Run c' stk') in E. unfold writeResponse in E. rewrite Hs in E. cbn [cst_eqb negb] in E.
    destruct (head_log n code hs (set_rlen (blen content) c) _ _ _ _ hd e Hs cm_hbuf cm_out (fun c1 => ext_resp content c1 stk _ K) E El) as (x & -> & ->).
    eauto.
  - change (writeHeaders code hs c stk (resume stk) = Run c' stk') in E.
    destruct (head_log n code hs c _ _ _ _ hd e Hs cm_hbuf cm_out K E El) as (x & -> & ->). eauto.
Qed.

(** ** The theorems *)
(* what is assumed of malloc/realloc (the size asked for) and of Qt's growth policy (not less than needed) *)
Definition memory_ok (junk : bytes -> Z -> bytes) (more : Z -> Z) : Prop :=
  (forall m n, 0 <= n -> blen (junk m n) = n) /\ (forall n, 0 <= n <= 2147483647 -> n <= more n).
(* every head written is smaller than 2 GiB *)
Definition small (c : conn) (stk : list frame) (a : action) : Prop :=
  writes_head c a -> forall c' stk' hd e, step (Run c stk) a = Run c' stk' -> log c' = log c ++ OWrite hd :: e -> blen hd <= 2147483647.
Fixpoint small_run (g : cfg) (l : list action) {struct l} : Prop :=
  match l with [] => True | a :: t => (match g with Run c stk => small c stk a | UB _ _ => True end) /\ small_run (step g a) t end.

Section Theorems.
  Variable junk : bytes -> Z -> bytes.
  Variable more : Z -> Z.
  Variable salloc : conn -> Z.
  Hypothesis Hmem : memory_ok junk more.
  Notation bstep := (bstep junk more salloc).
  Notation brun := (brun junk more salloc).

  Lemma step_buffer c stk a b : reached c stk -> polite c stk a -> small c stk a -> Ready b -> b_alloc b <= 4096 ->
    exists b', bstep (Run c stk) a b = Some b' /\ Ready b' /\ b_alloc b' <= 4096.
  Proof.
    intros R HP HS Rb Ab. assert (X : writes_head c a \/ head_of (salloc c) c a = None).
    { unfold writes_head, head_of. destruct (cst_eqb (st c) SendingHeaders) eqn:E.
      - apply cst_eqb_eq in E. destruct a as [o| | | |]; try (right; reflexivity). destruct o; try (right; reflexivity); left; auto.
      - destruct a as [o| | | |]; try (right; reflexivity). destruct o; right; reflexivity. }
    destruct X as [X|X].
    - destruct (head_first _ _ _ R X HP) as (c' & stk' & hd & e & E & El). destruct (head_made (salloc c) _ _ _ _ _ _ _ R X E El) as (l & El' & ->).
      unfold HeadBuf.bstep. rewrite El'.
      destruct (build_ok junk more (proj1 Hmem) (proj2 Hmem) l b Rb (HS X _ _ _ _ E El)) as (b1 & -> & W & T). cbn [bind].
      exists (recycle b1). split; auto. now apply recycle_ok.
    - exists b. unfold HeadBuf.bstep. rewrite X. auto.
  Qed.
  Lemma run_buffer l : forall c stk b, reached c stk -> polite_run (Run c stk) l -> small_run (Run c stk) l -> Ready b -> b_alloc b <= 4096 ->
    exists b', brun (Run c stk) l b = Some b' /\ Ready b' /\ b_alloc b' <= 4096.
  Proof.
    induction l as [|a l IH]; intros c stk b R HP HS Rb Ab; [exists b; auto|]. destruct HP as (HP & HP'). destruct HS as (HS & HS').
    destruct (step_buffer c stk a b R HP HS Rb Ab) as (b1 & E1 & R1 & A1). cbn [HeadBuf.brun]. rewrite E1. cbn [bind].
    destruct (step (Run c stk) a) as [c' stk'|w c'] eqn:E.
    - apply IH; auto. eapply reached_step; eauto.
    - clear -R1 A1. revert b1 R1 A1. induction l as [|a l IH]; intros b1 R1 A1; [exists b1; auto|]. cbn [HeadBuf.brun HeadBuf.bstep bind step]. now apply IH.
  Qed.

  (* Whatever was answered before: no head is written outside of the buffer, and what is kept is bounded. *)
  Theorem C79_safe : forall l, polite_run start l -> small_run start l ->
    exists b, brun start l null_ba = Some b /\ b_alloc b <= 4096 /\ text b = [].
  Proof.
    intros l HP HS. assert (R : reached conn0 []) by (exists []; split; [exact Logic.I|reflexivity]).
    destruct (run_buffer l conn0 [] null_ba R HP HS) as (b & E & Rb & A); [now left|cbn; lia|].
    exists b. split; [exact E|]. split; [exact A|]. destruct Rb as [-> |(_ & T)]; auto.
  Qed.
  (* What is given to the device is the text then in the buffer (for its form see C11). *)
  Theorem C79_head : forall l c stk b a, polite_run start l -> small_run start l -> run start l = Run c stk -> brun start l null_ba = Some b ->
    polite c stk a -> small c stk a -> writes_head c a ->
    exists ops b1 c' stk' e, head_of (salloc c) c a = Some (Some ops) /\ build junk more ops b = Some b1 /\
      step (Run c stk) a = Run c' stk' /\ log c' = log c ++ OWrite (text b1) :: e /\ bstep (Run c stk) a b = Some (recycle b1).
  Proof.
    intros l c stk b a HP HS E Eb Pa Sa Wa. assert (R0 : reached conn0 []) by (exists []; split; [exact Logic.I|reflexivity]).
    destruct (run_buffer l conn0 [] null_ba R0 HP HS) as (b' & E' & Rb & _); [now left|cbn; lia|].
    change (brun start l null_ba = Some b') in E'. rewrite Eb in E'. injection E' as <-.
    assert (R : reached c stk) by (exists l; auto).
    destruct (head_first _ _ _ R Wa Pa) as (c' & stk' & hd & e & Es & El). destruct (head_made (salloc c) _ _ _ _ _ _ _ R Wa Es El) as (ops & Eo & Eh).
    pose proof (Sa Wa _ _ _ _ Es El) as Hl. rewrite Eh in Hl.
    destruct (build_ok junk more (proj1 Hmem) (proj2 Hmem) ops b Rb Hl) as (b1 & B & W & T).
    exists ops, b1, c', stk', e. split; auto. split; auto. split; auto. split; [now rewrite T, <- Eh|].
    unfold HeadBuf.bstep. rewrite Eo, B. reflexivity.
  Qed.
  (* the response to a request that cannot be read (400, 413) *)
  Theorem C79_error : forall code status, code = 400 \/ code = 413 -> statusCodeAndMessage code = Some status ->
    exists b, build_error junk more status = Some b /\ text b = error_text status.
  Proof.
    intros code status Hc H. unfold build_error. destruct (reserve_null junk (proj1 Hmem)) as (b & -> & W & T & _). cbn [bind].
    pose proof (text_len _ W) as E. rewrite T in E. change (blen []) with 0 in E.
    destruct (bops_ok junk more (proj1 Hmem) (proj2 Hmem) [BText (lit "HTTP/1.0 "); BText status; BText CRLF; BText (lit "Connection: close"); BText CRLF; BText CRLF] b W) as (b' & -> & W' & T').
    { assert (L : blen status <= 60) by (destruct Hc; subst code; injection H as <-; vm_compute; discriminate).
      cbn [map concat op_bytes]. rewrite app_nil_r. unfold blen in *. rewrite !app_length. cbn [length lit CRLF list_ascii_of_string]. lia. }
    exists b'. split; auto. rewrite T', T. cbn [app map concat op_bytes]. unfold error_text. now rewrite app_nil_r.
  Qed.
End Theorems.

(** ** Non-trivial cases *)
Definition plain_memory (m : bytes) (n : Z) : bytes := repeat "?"%char (Z.to_nat n).
Definition doubling (n : Z) : Z := 2 * n + 8.
Lemma plain_ok : memory_ok plain_memory doubling.
Proof. split; intros; unfold plain_memory, doubling, blen; [rewrite repeat_length|]; lia. Qed.
Fixpoint smallb_run (g : cfg) (l : list action) {struct l} : bool :=
  match l with
  | [] => true
  | a :: t => (match g, step g a with
               | Run c _, Run c' _ => forallb (fun o => match o with OWrite b => blen b <=? 2147483647 | _ => true end) (log c')
               | _, _ => true end) && smallb_run (step g a) t
  end.
Lemma smallb_run_ok l : forall g, smallb_run g l = true -> small_run g l.
Proof.
  induction l as [|a l IH]; intros g H; [exact Logic.I|]. cbn [smallb_run small_run] in *. apply andb_true_iff in H as (H & H'). split; auto.
  destruct g as [c stk|]; [|exact Logic.I]. intros _ c' stk' hd e E El. rewrite E in H. rewrite forallb_forall in H.
  specialize (H (OWrite hd)). rewrite El in H. apply Z.leb_le, H. apply in_app_iff. right. now left.
Qed.
(* three requests; the head of the second response does not fit in the 1024 bytes reserved, that of the third not in 4096 *)
Definition long_header (n : nat) : header := (lit "X-Long", repeat "a"%char n).
Definition three_heads : list action := [ACall (OpInit (NewDevice true true true (text1 ++ text1 ++ text1))); ACall OpProcess;
  ACall (OpWriteResponse 200 [(lit "X", lit "1")] (lit "hello")); AReturn; AReturn; ACall OpProcess;
  ACall (OpWriteResponse 200 [long_header 1200] (lit "hello")); AReturn; AReturn; ACall OpProcess].
Definition size_after (l : list action) : option Z := option_map b_alloc (brun plain_memory doubling (fun _ => 0) start l null_ba).
Example C79_case : memory_ok plain_memory doubling /\ polite_run start three_heads /\ small_run start three_heads /\
  writes_head (run_conn three_heads) (ACall (OpWriteResponse 200 [long_header 4900] [])) /\
  map size_after [firstn 3 three_heads; three_heads; three_heads ++ [ACall (OpWriteResponse 200 [long_header 4900] [])]] = [Some 1024; Some 2458; Some 0].
Proof.
  split; [exact plain_ok|]. split; [apply politeb_run_ok; vm_compute; reflexivity|]. split; [apply smallb_run_ok; vm_compute; reflexivity|].
  split; [split; [vm_compute; reflexivity|exact Logic.I]|]. vm_compute. reflexivity.
Qed.

(** ** Where it is false *)
Lemma to_int_neg z : -2147483648 <= z < 0 -> to_int z = z.
Proof.
  intros H. unfold to_int. replace (z mod 4294967296) with (z + 4294967296).
  - destruct (Z.ltb_spec (z + 4294967296) 2147483648); lia.
  - replace z with (z + 4294967296 + (-1) * 4294967296) at 2 by lia. rewrite Z_mod_plus_full. symmetry. apply Z.mod_small. lia.
Qed.
Section Huge.
  Variable junk : bytes -> Z -> bytes.
  Variable more : Z -> Z.
  Hypothesis Hmem : memory_ok junk more.
  Lemma fast_alloc s b : WF b -> b_size b + blen s <= b_alloc b -> b_alloc b <= 2147483647 ->
    exists b', fast junk s b = Some b' /\ WF b' /\ text b' = text b ++ s /\ b_alloc b' = b_alloc b /\ b_size b' = b_size b + blen s.
  Proof.
    intros [S1 S2 S M] Ha Hm. pose proof (blen_nonneg s). unfold fast, detach. rewrite S2. cbn [bind].
    destruct (put_at (b_size b) s b (text b) eq_refl ltac:(lia) ltac:(lia)) as (b1 & -> & X1 & X2 & X3 & X4 & X5 & X6). cbn [bind].
    rewrite X4, to_int_small by lia. eexists. split; [reflexivity|]. destruct (sized b1 (b_size b + blen s) (text b ++ s)) as (W & T); auto; try congruence; try lia.
  Qed.
  Lemma put_size off s b b' : put off s b = Some b' -> b_shared b' = b_shared b /\ blen (b_mem b') = blen (b_mem b).
  Proof.
    unfold put. destruct (Z.leb_spec 0 off); [|discriminate]. destruct (Z.leb_spec (off + blen s) (blen (b_mem b))); [|discriminate]. cbn [andb].
    intros [= <-]. cbn [b_shared b_mem]. split; auto. unfold blen in *. rewrite !app_length, firstn_length, skipn_length. lia.
  Qed.
  Lemma huge_header f v b : WF b -> 0 <= b_size b <= 1024 -> b_alloc b = 1024 -> blen f = 1 -> blen v = 2147483644 -> append_header junk more (f, v) b = None.
  Proof.
    intros W Hs Ha Hf Hv. unfold append_header. cbn [fst snd]. rewrite Hf, Hv. change (to_int (to_int (to_int (1 + 2) + 2147483644) + 2)) with (-2147483647).
    rewrite to_int_neg by lia. rewrite Ha. destruct (Z.leb_spec (b_size b + -2147483647) 1024); [|lia].
    unfold detach. rewrite (wf_shared _ W). cbn [bind]. pose proof (wf_mem _ W) as M.
    destruct (put (b_size b) f b) as [b1|] eqn:E1; [|reflexivity]. cbn [bind]. apply put_size in E1 as (_ & E1).
    destruct (put (b_size b + 1) (lit ": ") b1) as [b2|] eqn:E2; [|reflexivity]. cbn [bind]. apply put_size in E2 as (_ & E2).
    unfold put at 1. rewrite Hv. destruct (Z.leb_spec (b_size b + 1 + 2 + 2147483644) (blen (b_mem b2))); [lia|]. now rewrite andb_false_r.
  Qed.
  Lemma text_step s b : WF b -> b_alloc b = 1024 -> b_size b + blen s <= 1024 ->
    exists b', WF b' /\ b_alloc b' = 1024 /\ b_size b' = b_size b + blen s /\
      (forall l, do_bops junk more (BText s :: l) b = do_bops junk more l b') /\
      (forall n l, do_bops junk more (BVersion n s :: l) b = do_bops junk more l b') /\
      (forall c l, s = [c] -> do_bops junk more (BChar c :: l) b = do_bops junk more l b').
  Proof.
    intros W Ha Hs. pose proof (blen_nonneg s). pose proof (wf_size _ W). destruct (fast_alloc s b W ltac:(lia) ltac:(lia)) as (b' & E & W' & _ & A & S).
    exists b'. split; auto. split; [congruence|]. split; auto. cbn [do_bops do_bop]. unfold append_text, append_ba, append_char.
    assert (X : (to_int (b_size b + blen s) <=? b_alloc b) = true) by (rewrite to_int_small by lia; apply Z.leb_le; lia).
    split; [intros l; rewrite X, E; reflexivity|]. split; [intros n l; rewrite X, E; reflexivity|]. intros c l ->. change (blen [c]) with 1 in X. rewrite X, E. reflexivity.
  Qed.
  (* A header of 2 GiB: the size needed overflows int, the buffer is taken to be large enough, and memory behind it is
     overwritten. *)
  Theorem C79_huge_refuted : exists c stk hs, reached c stk /\ polite c stk (ACall (OpWriteHeaders 200 hs)) /\ writes_head c (ACall (OpWriteHeaders 200 hs)) /\
    forall n, exists ops, head_of n c (ACall (OpWriteHeaders 200 hs)) = Some (Some ops) /\ build junk more ops null_ba = None.
  Proof.
    assert (Hv : exists v : bytes, blen v = 2147483644).
    { exists (repeat "a"%char (Z.to_nat 2147483644)). unfold blen. rewrite repeat_length. apply Z2Nat.id. lia. }
    destruct Hv as (v & Hv). exists ready1, [KSig SReady], [(lit "X", v)]. split; [exact ready1_reached|].
    split. { apply int_length_b. vm_compute. reflexivity. }
    split; [split; [apply ready1_facts|exact Logic.I]|]. intros n.
    exists ([BVersion n (lit "HTTP/1.1"); BChar SP; BText (lit "200 OK"); BText CRLF; BHeader (lit "X", v); BText (lit "Connection: close" ++ CRLF); BText CRLF]).
    split; [vm_compute; reflexivity|]. unfold build. change (b_alloc null_ba =? 0) with true. cbv iota.
    destruct (reserve_null junk (proj1 Hmem)) as (b & -> & W & T & A). cbn [bind].
    assert (S : b_size b = 0) by (rewrite <- (text_len _ W), T; reflexivity).
    destruct (text_step (lit "HTTP/1.1") b W A) as (b1 & W1 & A1 & S1 & _ & E1 & _). { rewrite S. vm_compute. discriminate. }
    rewrite E1. clear E1. rewrite S in S1. change (0 + blen (lit "HTTP/1.1")) with 8 in S1.
    destruct (text_step [SP] b1 W1 A1) as (b2 & W2 & A2 & S2 & _ & _ & E2). { rewrite S1. vm_compute. discriminate. }
    rewrite (E2 SP _ eq_refl). clear E2. rewrite S1 in S2. change (8 + blen [SP]) with 9 in S2.
    destruct (text_step (lit "200 OK") b2 W2 A2) as (b3 & W3 & A3 & S3 & E3 & _). { rewrite S2. vm_compute. discriminate. }
    rewrite E3. clear E3. rewrite S2 in S3. change (9 + blen (lit "200 OK")) with 15 in S3.
    destruct (text_step CRLF b3 W3 A3) as (b4 & W4 & A4 & S4 & E4 & _). { rewrite S3. vm_compute. discriminate. }
    rewrite E4. clear E4. rewrite S3 in S4. change (15 + blen CRLF) with 17 in S4.
    cbn [do_bops do_bop]. rewrite (huge_header (lit "X") v b4); auto. lia.
  Qed.
  (* Why the buffer must not be shared: a fresh ByteArray shares the first array appended to it if that is larger than
     what it has room for, and the next append then overruns the block (never done by HttpConnection, which reserves room
     first). *)
  Theorem C79_shared_refuted : bind (append_ba junk more 10 false (lit "abc") null_ba) (append_text junk more (lit "de")) = None.
  Proof.
    unfold append_ba. change (to_int (b_size null_ba + blen (lit "abc")) <=? b_alloc null_ba) with false. cbv iota.
    unfold q_append_ba. cbn [b_static null_ba andb negb bind]. change (blen (lit "abc")) with 3.
    unfold append_text. cbn [b_size b_alloc]. change (to_int (3 + blen (lit "de")) <=? 10) with true. cbv iota.
    unfold fast, detach. cbn [b_shared b_size]. unfold realloc. change (3 <? 0) with false. cbn [b_shared b_size b_mem]. change (Z.min 3 3) with 3.
    cbn [bind b_size]. unfold put. cbn [b_mem]. change (0 <=? 3) with true. cbn [andb].
    match goal with |- context [?x <=? ?y] => replace (x <=? y) with false; [reflexivity|] end. symmetry. apply Z.leb_gt.
    change (blen (lit "de")) with 2. pose proof (proj1 Hmem (lit "abc" ++ NUL :: junk (lit "abc") (10 - 3)) (3 - 3) ltac:(lia)) as J.
    unfold blen in *. rewrite app_length, firstn_length. cbn [length]. lia.
  Qed.
End Huge.
