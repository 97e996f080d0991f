(** The response head written by writeHeaders, against ConnSpec.RespHead. *)
From Verif Require Import Bytes ByteHelpers Thin Helpers ReqGrammar TextSpec ThinFields CIProofs HelpersProofs Conn ConnSpec ConnText.
Open Scope Z_scope.

Lemma appendNumber_any base n : 2 <= base <= 16 -> n <> INT_MIN ->
  exists s, appendNumber base n = Some s /\ Canonical base s n.
Proof.
  intros Hb Hn. unfold appendNumber. destruct (Z.eqb_spec n INT_MIN) as [->|Hne]; [congruence|].
  set (m := if n <? 0 then - n else n).
  assert (Em : m = Z.abs n) by (subst m; destruct (Z.ltb_spec n 0); lia).
  assert (Hm : 0 <= m) by lia.
  assert (Hf : m < 2 ^ Z.of_nat (S (Z.to_nat (Z.log2 m)))).
  { rewrite Nat2Z.inj_succ, Z2Nat.id by apply Z.log2_nonneg.
    destruct (Z.eq_dec m 0) as [->|]; [cbn; lia|]. apply Z.log2_spec. lia. }
  destruct (digits_rev_ok base Hb _ m Hm Hf ltac:(lia)) as (D1 & D2 & D3).
  eexists. split; [reflexivity|]. exists (rev (digits_rev (S (Z.to_nat (Z.log2 m))) base m)).
  split; [now rewrite <- Em|]. split; [|split; auto].
  - rewrite rev_app_distr. destruct (n <? 0); reflexivity.
  - apply forallb_forall. intros x Hx. apply in_rev in Hx. rewrite forallb_forall in D2. auto.
Qed.
Lemma to_int_small n : INT_MIN <= n <= INT_MAX -> to_int n = n.
Proof.
  unfold to_int, INT_MIN, INT_MAX. intros H. destruct (Z_le_gt_dec 0 n).
  - rewrite Z.mod_small by lia. destruct (Z.ltb_spec n 2147483648); lia.
  - replace (n mod 4294967296) with (n + 4294967296).
    + destruct (Z.ltb_spec (n + 4294967296) 2147483648); lia.
    + apply Z.mod_unique with (-1); lia.
Qed.

(** length of a response, as a function *)
Definition resp_len (hs : list header) (size : Z) : Z :=
  match last_named "content-length" hs with
  | None => size
  | Some h => match toLongLong (snd h) with Some v => v | None => -1 end
  end.
Lemma resp_len_ok code hs size : RespLength (mkAns code hs size) (resp_len hs size).
Proof.
  unfold resp_len. destruct (last_named "content-length" hs) as [[f v]|] eqn:E.
  - cbn [snd]. destruct (toLongLong v) as [n|] eqn:T.
    + eapply RL_given; [exact E|]. now apply toLongLong_iff.
    + eapply RL_bad; [exact E|]. now apply toLongLong_none.
  - change size with (a_size (mkAns code hs size)) at 2. now apply RL_size.
Qed.

Lemma scan_ok hb size : forall hs,
  fold_left scan_header hs (mkScan size None None None hb) =
  mkScan (resp_len hs size) (last_named "content-type" hs) (last_named "connection" hs)
    (last_named "transfer-encoding" hs)
    (hb ++ concat (map line (filter (fun h => negb (special h)) hs))).
Proof.
  intros hs. induction hs as [|h hs IH] using rev_ind.
  - unfold resp_len. cbn. now rewrite app_nil_r.
  - rewrite fold_left_app, IH. cbn [fold_left]. unfold scan_header.
    rewrite !eqCI_named by reflexivity. cbn [s_len s_ct s_conn s_te s_out].
    unfold resp_len. rewrite !last_named_snoc, filter_app, map_app, concat_app. cbn [filter]. change (special h) with (named "content-length" h || named "content-type" h || named "connection" h || named "transfer-encoding" h).
    assert (X : forall a b, a <> b -> named a h = true -> named b h = false).
    { intros a b N Ha. unfold named in *. apply beqb_true in Ha. apply beqb_false. rewrite Ha. intros H. apply N.
      unfold lit in H. rewrite <- (string_of_list_ascii_of_string a), <- (string_of_list_ascii_of_string b), H. reflexivity. }
    destruct (named "content-length" h) eqn:E1.
    { rewrite (X "content-length"%string "content-type"%string ltac:(discriminate) E1), (X "content-length"%string "connection"%string ltac:(discriminate) E1), (X "content-length"%string "transfer-encoding"%string ltac:(discriminate) E1).
      cbn [orb negb map concat]. now rewrite app_nil_r. }
    destruct (named "content-type" h) eqn:E2.
    { rewrite (X "content-type"%string "connection"%string ltac:(discriminate) E2), (X "content-type"%string "transfer-encoding"%string ltac:(discriminate) E2).
      cbn [orb negb map concat]. now rewrite app_nil_r. }
    destruct (named "connection" h) eqn:E3.
    { rewrite (X "connection"%string "transfer-encoding"%string ltac:(discriminate) E3). cbn [orb negb map concat]. now rewrite app_nil_r. }
    destruct (named "transfer-encoding" h) eqn:E4; cbn [orb negb map concat].
    { now rewrite app_nil_r. }
    f_equal. rewrite app_nil_r, <- app_assoc. reflexivity.
Qed.

Lemma assocZ_In {A} k (l : list (Z * A)) m : assocZ k l = Some m -> In (k, m) l.
Proof.
  unfold assocZ. destruct (find _ l) as [[a b]|] eqn:F; [|discriminate]. intros [= <-].
  apply find_some in F as (I & Q). apply Z.eqb_eq in Q. cbn in Q. now subst.
Qed.
Lemma assocZ_None {A} k (l : list (Z * A)) : assocZ k l = None -> forall m, ~ In (k, m) l.
Proof.
  unfold assocZ. destruct (find _ l) as [[a b]|] eqn:F; [discriminate|]. intros _ m I.
  eapply find_none in F; [|exact I]. cbn in F. rewrite Z.eqb_refl in F. discriminate.
Qed.
Definition status_of (code : Z) : bytes :=
  match statusCodeAndMessage code with
  | Some t => t
  | None => match statusMessage 500 with Some t => t | None => [] end
  end.
Lemma status_of_ok code : StatusText code (status_of code).
Proof.
  unfold status_of. rewrite status_spec. destruct (assocZ code std_status) as [m|] eqn:E.
  - apply ST_known. now apply assocZ_In.
  - change (match statusMessage 500 with Some t => t | None => [] end) with (lit "Internal Server Error").
    apply ST_unknown. now apply assocZ_None.
Qed.

(** the fields writeHeaders changes before writing *)
Definition head_conn (code : Z) (a : answer) (len : Z) (hd : bytes) (c : conn) : conn :=
  set_hbuf hd (set_keepalive (keeps (req c) a len) (set_chunked (chunked_resp (req c) a len) (set_rlen len (set_rstatus code c)))).

Theorem writeHeaders_ok code hs c stk k :
  st c = SendingHeaders -> hbuf c = [] -> http11 c = http11_req (req c) -> chunked c = false ->
  let a := mkAns code hs (rlen c) in
  let len := resp_len hs (rlen c) in
  INT_MIN < len <= INT_MAX ->
  exists hd, RespHead (req c) a len hd /\
    writeHeaders code hs c stk k =
    dev_write hd (head_conn code a len hd c) (fun c => toSendingContent c stk k).
Proof.
  intros Hst Hhb H11 Hch a len Hlen.
  destruct (appendNumber_any 10 len ltac:(lia) ltac:(lia)) as (d & Ed & Cd).
  pose proof (status_of_ok code) as Hs.
  eexists. split; [apply (RH _ a len (status_of code) d); auto|].
  unfold writeHeaders. rewrite Hst. cbn [cst_eqb negb]. csimp. rewrite Hhb.
  fold (status_of code). cbn [app]. rewrite scan_ok. cbn [s_len s_ct s_conn s_te s_out]. fold len.
  unfold header. rewrite H11, Hch.
  assert (TE : (match last_named "transfer-encoding" hs with
    | Some h => if asciiEqualsCI_lower (snd h) (lit "chunked")
                then if http11_req (req c) then if len =? -1 then (true, Some h) else (false, None) else (false, None)
                else (false, Some h)
    | None => (false, None) end) =
    (chunked_resp (req c) a len, match last_named "transfer-encoding" hs with
          | Some h => if wants_chunked a && negb (chunked_resp (req c) a len) then None else Some h
          | None => None
          end)).
  { unfold chunked_resp, wants_chunked, a. cbn [a_headers].
    destruct (last_named "transfer-encoding" hs) as [h|]; cbn [option_map says]; [|reflexivity].
    rewrite eqCI_lit by reflexivity. destruct (beqb (lower (snd h)) (lit "chunked")); cbn [andb negb]; [|reflexivity].
    destruct (http11_req (req c)); cbn [andb negb]; [|reflexivity]. destruct (len =? -1); reflexivity. }
  rewrite TE. csimp.
  assert (KA : (if (if http11_req (req c)
                    then negb (asciiEqualsCI_lower (getFieldValue_tok (q_headers (req c)) (lit "connection")) (lit "close"))
                    else asciiEqualsCI_lower (getFieldValue_tok (q_headers (req c)) (lit "connection")) (lit "keep-alive"))
    then match last_named "connection" hs with
         | Some h => if (0 <=? len) || chunked_resp (req c) a len then negb (asciiEqualsCI_lower (snd h) (lit "close"))
                     else (0 <=? len) || chunked_resp (req c) a len
         | None => (0 <=? len) || chunked_resp (req c) a len
         end else false) = keeps (req c) a len).
  { rewrite !field_says by (reflexivity || discriminate). unfold keeps, client_keeps.
    destruct (if http11_req (req c) then _ else _); cbn [andb]; [|reflexivity].
    change (a_headers a) with hs. destruct (last_named "connection" hs) as [h|]; cbn [option_map says].
    - rewrite eqCI_lit by reflexivity. destruct ((0 <=? len) || chunked_resp (req c) a len); reflexivity.
    - now destruct ((0 <=? len) || chunked_resp (req c) a len). }
  rewrite KA. rewrite to_int_small by lia. rewrite Ed.
  match goal with |- match ?x with _ => _ end = _ => assert (LN : x = Some (if len =? -1 then [] else lit "Content-Length: " ++ d ++ CRLF)) by (destruct (len =? -1); reflexivity); rewrite LN; clear LN end.
  change (a_headers a) with hs. change header_line with line.
  match goal with |- dev_write ?x _ _ = dev_write ?y _ _ => assert (XY : x = y); [|rewrite XY; reflexivity] end.
  change (q_version (req c) ++ SP :: status_of code ++ CRLF) with (q_version (req c) ++ lit " " ++ status_of code ++ CRLF).
  rewrite <- !app_assoc. do 6 f_equal.
  f_equal. f_equal.
  - destruct (negb (http11_req (req c)) || negb (keeps (req c) a len)); [|reflexivity]. now destruct (keeps (req c) a len).
  - f_equal. destruct (last_named "transfer-encoding" hs); [|reflexivity].
    now destruct (wants_chunked a && negb (chunked_resp (req c) a len)).
Qed.
