(** C47, C48: what the response parser makes of a well-formed response; C50, C51. *)
From Verif Require Import Bytes ByteHelpers Helpers TextSpec Joyent RespParser RespInv RespSplit RespSpec RespFeed RespName RespDecode RespBody RespChunk RespWhole PropsResp.
Open Scope Z_scope.

(** [t] is read from [r] as one response: exactly this is reported, whatever follows and however it is cut; all of
    [t] is used and nothing more; and no proper part of it completes, it only reports what comes first. *)
Definition read_exactly (r : rparser) (t : bytes) (a b c : Z) (hs : list header) (body : bytes) : Prop :=
  exists r', decoded r a b c hs body r' /\
    (forall rest, inject r (t ++ rest) = Some (r', blen t)) /\
    (forall segs x, concat segs = t -> (Feed r segs x <-> x = r')) /\
    (forall p q, t = p ++ q -> p <> [] -> q <> [] -> exists r1, inject r p = Some (r1, blen p) /\ hasError r1 = false /\
       exists lg lg', r_log r1 = r_log r ++ lg /\ reported a b c hs body = lg ++ lg' /\ ~ In RComplete lg).

Lemma whole_read r t a b c hs body : waiting r -> WholeResponse t a b c hs body -> read_exactly r t a b c hs body.
Proof.
  intros W R. destruct (whole_all r t a b c hs body (waiting_ready _ W) R) as (r' & C & A & B & D).
  exists r'. split; [now apply completed_decoded|]. auto.
Qed.

(** C47 *)
Theorem C47_identity r txt a b c hs body : waiting r -> ResponseHead txt a b c hs -> blen txt <= max_head - 2 -> no_upgrade hs = true ->
  chunked_resp hs = false -> ContentLength hs (Some (blen body)) -> read_exactly r (txt ++ body) a b c hs body.
Proof. intros. apply whole_read; auto. constructor; auto. Qed.

Theorem C47_no_body r txt a b c hs : waiting r -> ResponseHead txt a b c hs -> blen txt <= max_head - 2 -> no_upgrade hs = true ->
  chunked_resp hs = false -> ContentLength hs None -> bodyless c = true -> read_exactly r txt a b c hs [].
Proof. intros. apply whole_read; auto. constructor; auto. Qed.

(** without a length the body ends when the connection does *)
Theorem C47_until_close r txt a b c hs body segs : waiting r -> ResponseHead txt a b c hs -> blen txt <= max_head - 2 -> no_upgrade hs = true ->
  chunked_resp hs = false -> ContentLength hs None -> bodyless c = false -> concat segs = txt ++ body ->
  exists r1 r2, (forall x, Feed r segs x <-> x = r1) /\ hasError r1 = false /\
    r_log r1 = r_log r ++ RBegin :: RHeaders a b c hs :: map RByte body /\
    injectEof r1 = Some r2 /\ decoded r a b c hs body r2.
Proof.
  intros W HD HL NU NC CL NB Ec. pose proof (waiting_ready _ W) as R. pose proof (rd_u _ R) as U.
  destruct (inject_until_close r txt a b c hs body R HD HL NU NC CL NB) as (r1 & E & N & L & r2 & E2 & D & _).
  exists r1, r2. split; [|auto].
  assert (NE : txt ++ body <> []) by (destruct HD as [sl a' b' c' t' hs' [da db dc]]; discriminate).
  assert (F : Feed r [txt ++ body] r1).
  { eapply Feed_more; eauto. unfold blen. rewrite Nat2Z.id, skipn_all. apply Feed_next, Feed_end. }
  apply (Feed_same r [txt ++ body] r1 segs U F N). cbn. now rewrite app_nil_r.
Qed.

(** C48 *)
Theorem C48_chunked r txt a b c hs o t body : waiting r -> ResponseHead txt a b c hs -> blen txt <= max_head - 2 -> no_upgrade hs = true ->
  chunked_resp hs = true -> ContentLength hs o -> ChunkedBody t body -> read_exactly r (txt ++ t) a b c hs body.
Proof. intros. apply whole_read; auto. econstructor; eauto. Qed.

(** trailers after the last chunk: the same is reported *)
Theorem C48_trailers r txt a b c hs o t body tr trs o2 rest : waiting r -> ResponseHead txt a b c hs -> blen txt <= max_head - 2 -> no_upgrade hs = true ->
  chunked_resp hs = true -> ContentLength hs o -> ChunkedBody (t ++ CRLF) body -> HeaderLines tr trs -> ContentLength trs o2 -> blen tr <= max_head - 2 ->
  exists r', inject r (txt ++ t ++ tr ++ CRLF ++ rest) = Some (r', blen (txt ++ t ++ tr ++ CRLF)) /\ hasError r' = false /\ statusCode r' = c /\
    r_content r' = body /\ r_log r' = r_log r ++ reported a b c hs body.
Proof.
  intros W HD HL NU NC CL CB HT CT LT.
  destruct (inject_trailers r txt a b c hs o t body tr trs o2 rest (waiting_ready _ W) HD HL NU NC CL CB HT CT LT) as (r' & A & B & C & D & E & _).
  exists r'. auto 10.
Qed.

(** C50, the part that holds: responses that follow one another, or a cleared parser *)
Theorem C50_stream_partial r t evs segs : waiting r -> Responses t evs -> concat segs = t ->
  exists r', (forall x, Feed r segs x <-> x = r') /\ hasError r' = false /\ r_log r' = r_log r ++ evs.
Proof.
  intros W R. revert r segs W.
  assert (G : forall r, waiting r -> exists r', Feed r [t] r' /\ hasError r' = false /\ r_log r' = r_log r ++ evs).
  { induction R as [t a b c hs body Wh|t a b c hs body t' evs Wh SO R IH]; intros r W.
    - destruct (whole_read r t a b c hs body W Wh) as (r' & (D1 & D2 & D3 & D4 & D5) & A & B & _). exists r'. split; [|auto].
      apply (B [t] r'); auto. cbn. now rewrite app_nil_r.
    - destruct (whole_read r t a b c hs body W Wh) as (r1 & (D1 & D2 & D3 & D4 & D5) & A & B & _).
      assert (F1 : Feed r [t] r1) by (apply (B [t] r1); auto; cbn; now rewrite app_nil_r).
      destruct (IH r1) as (r' & F & N & L).
      { eapply waiting_next; eauto. cbn. now rewrite app_nil_r. }
      exists r'. split; [|split; auto].
      + eapply Feed_more; [|apply A|auto|].
        * pose proof (whole_nonempty _ _ _ _ _ _ Wh). destruct t; [congruence|discriminate].
        * unfold blen. rewrite Nat2Z.id, skipn_app_in, skipn_all by lia. exact F.
      + rewrite L, D5, app_assoc. reflexivity. }
  intros r segs W Ec. destruct (G r W) as (r1 & F & N & L). pose proof (rd_u _ (waiting_ready _ W)) as U.
  exists r1. split; [|auto].
  apply (Feed_same r [t] r1 segs U F N). cbn. now rewrite app_nil_r.
Qed.

(** ** cases *)
Lemma dig1 c d : digit_val c = Some d -> d < 10 -> Digits 10 [c] d. Proof. apply D_one. Qed.
Lemma ok_line : StatusLine (lit "HTTP/1.1 200 OK" ++ CRLF) 1 1 200.
Proof.
  apply (SL (lit "1") (lit "1") (lit "200") 1 1 200 (lit " OK")); try lia; try (apply dig1; reflexivity).
  - apply (D_more 10 (lit "20") 20 "0"%char 0); try reflexivity; try lia. apply (D_more 10 (lit "2") 2 "0"%char 0); try reflexivity; try lia. apply dig1; reflexivity.
  - right. exists (lit "OK"). split; reflexivity.
Qed.
Definition hl (n v : string) : bytes := lit n ++ lit ":" ++ lit " " ++ lit v ++ CRLF.
Definition len3 : list header := [(lit "X-A", lit "b c"); (lit "content-length", lit "3")].
Definition len3_txt : bytes := (lit "HTTP/1.1 200 OK" ++ CRLF) ++ (hl "X-A" "b c" ++ hl "content-length" "3") ++ CRLF.
Lemma len3_head : ResponseHead len3_txt 1 1 200 len3.
Proof.
  apply RespHd; [apply ok_line|]. unfold hl. rewrite <- !app_assoc. apply HL_cons; try reflexivity.
  replace CRLF with (CRLF ++ []) at 1 by reflexivity. apply HL_cons; try reflexivity. constructor.
Qed.
Lemma len3_len : ContentLength len3 (Some 3).
Proof. apply CL_other; [reflexivity|]. apply CL_last; [reflexivity|apply dig1; reflexivity|vm_compute; discriminate|constructor]. Qed.
Lemma C47_applies : read_exactly rfresh (len3_txt ++ lit "xyz") 1 1 200 len3 (lit "xyz").
Proof. apply C47_identity; try reflexivity; [constructor|apply len3_head|vm_compute; discriminate|apply len3_len]. Qed.

Definition chunk_hs : list header := [(lit "Transfer-Encoding", lit "chunked")].
Definition chunk_txt : bytes := (lit "HTTP/1.1 200 OK" ++ CRLF) ++ hl "Transfer-Encoding" "chunked" ++ CRLF.
Lemma chunk_head : ResponseHead chunk_txt 1 1 200 chunk_hs.
Proof.
  apply RespHd; [apply ok_line|]. unfold hl. replace CRLF with (CRLF ++ []) at 1 by reflexivity. apply HL_cons; try reflexivity. constructor.
Qed.
Definition two_chunks : bytes := (lit "0aZ" ++ lit "q").
Definition chunk_body : bytes := (lit "3" ++ lit ";x=y" ++ CRLF) ++ lit "0aZ" ++ CRLF ++ ((lit "1" ++ [] ++ CRLF) ++ lit "q" ++ CRLF ++ ((lit "00" ++ [] ++ CRLF) ++ CRLF)).
Lemma dig16 c d : digit_val c = Some d -> d < 16 -> Digits 16 [c] d. Proof. apply D_one. Qed.
Lemma chunk_ok : ChunkedBody chunk_body two_chunks.
Proof.
  assert (N : two_chunks = lit "0aZ" ++ lit "q" ++ []) by reflexivity. rewrite N. unfold chunk_body.
  apply CB_more; [discriminate|apply SzL; [apply dig16; reflexivity|vm_compute; discriminate|right; exists ";"%char, (lit "x=y"); auto|vm_compute; discriminate]|].
  apply CB_more; [discriminate|apply SzL; [apply dig16; reflexivity|vm_compute; discriminate|auto|vm_compute; discriminate]|].
  apply CB_last. apply SzL; [|vm_compute; discriminate|auto|vm_compute; discriminate].
  apply (D_more 16 (lit "0") 0 "0"%char 0); try reflexivity; try lia. apply dig16; reflexivity.
Qed.
Lemma C48_applies : read_exactly rfresh (chunk_txt ++ chunk_body) 1 1 200 chunk_hs two_chunks.
Proof.
  apply (C48_chunked _ _ _ _ _ _ None); try reflexivity; [constructor|apply chunk_head|vm_compute; discriminate| |apply chunk_ok].
  apply CL_other; [reflexivity|constructor].
Qed.
(** two responses, the second one chunked with another two after it *)
Lemma C50_applies : Responses ((len3_txt ++ lit "xyz") ++ chunk_txt ++ chunk_body)
  (reported 1 1 200 len3 (lit "xyz") ++ reported 1 1 200 chunk_hs two_chunks).
Proof.
  apply Rs_next; [|reflexivity|apply Rs_last].
  - apply WR_length; try reflexivity; [apply len3_head|vm_compute; discriminate|apply len3_len].
  - eapply WR_chunked; try reflexivity; [apply chunk_head|vm_compute; discriminate|apply CL_other; [reflexivity|constructor]|apply chunk_ok].
Qed.

(** ** The parts that do not hold *)
(** C47 without the condition on Upgrade: the body of a response with an Upgrade header is dropped *)
Theorem C47_upgrade_refuted : exists txt hs body r', ResponseHead txt 1 1 200 hs /\ chunked_resp hs = false /\
  ContentLength hs (Some (blen body)) /\ body <> [] /\ inject rfresh (txt ++ body) = Some (r', blen txt) /\
  decoded rfresh 1 1 200 hs [] r'.
Proof.
  exists ((lit "HTTP/1.1 200 OK" ++ CRLF) ++ (hl "Upgrade" "h2c" ++ hl "Content-Length" "3") ++ CRLF),
    [(lit "Upgrade", lit "h2c"); (lit "Content-Length", lit "3")], (lit "abc").
  eexists. split; [|split; [reflexivity|split; [|split; [discriminate|split; [vm_compute; reflexivity|]]]]].
  - apply RespHd; [apply ok_line|]. unfold hl. rewrite <- !app_assoc. apply HL_cons; try reflexivity.
    replace CRLF with (CRLF ++ []) at 1 by reflexivity. apply HL_cons; try reflexivity. constructor.
  - apply CL_other; [reflexivity|]. apply CL_last; [reflexivity|apply dig1; reflexivity|vm_compute; discriminate|constructor].
  - vm_compute. auto 10.
Qed.
(** C48 when chunked is the last of several codings: the chunks themselves are reported as the content *)
Theorem C48_several_codings_refuted : exists txt r', ResponseHead txt 1 1 200 [(lit "Transfer-Encoding", lit "gzip, chunked")] /\
  inject rfresh (txt ++ chunk_body) = Some (r', blen (txt ++ chunk_body)) /\ hasError r' = false /\
  r_content r' = chunk_body /\ ~ In RComplete (r_log r').
Proof.
  exists ((lit "HTTP/1.1 200 OK" ++ CRLF) ++ hl "Transfer-Encoding" "gzip, chunked" ++ CRLF).
  eexists. split; [|split; [vm_compute; reflexivity|]].
  - apply RespHd; [apply ok_line|]. unfold hl. replace CRLF with (CRLF ++ []) at 1 by reflexivity. apply HL_cons; try reflexivity. constructor.
  - vm_compute. repeat split; auto. intuition discriminate.
Qed.

(** C50 in full does not hold: after a response that was cut off, a cleared parser reports the next response's first
    header under a wrong name and with a wrong value *)
Theorem C50_cut_off_refuted : exists part r1 n r2, inject rfresh part = Some (r1, n) /\ hasError r1 = false /\
  inject (rclear r1) (len3_txt ++ lit "xyz") = Some (r2, blen (len3_txt ++ lit "xyz")) /\ hasError r2 = false /\
  r_headers r2 = [(lit "SetX-A", lit "oldb c"); (lit "content-length", lit "3")].
Proof.
  exists ((lit "HTTP/1.1 200 OK" ++ CRLF) ++ lit "Set: old"). eexists _, _, _.
  split; [vm_compute; reflexivity|]. split; [reflexivity|]. split; [vm_compute; reflexivity|]. vm_compute. auto.
Qed.
(** and so it does after a complete response with a trailer, with no abort, error or clear() at all *)
Theorem C50_trailer_refuted : exists t segs r2, concat segs = t ++ len3_txt ++ lit "xyz" /\ Feed rfresh segs r2 /\ hasError r2 = false /\
  (exists r1, Feed rfresh [t] r1 /\ hasError r1 = false /\ r_log r1 = reported 1 1 200 chunk_hs (lit "abc")) /\
  r_headers r2 = [(lit "X-TX-A", lit "1b c"); (lit "content-length", lit "3")].
Proof.
  set (t := chunk_txt ++ lit "3" ++ CRLF ++ lit "abc" ++ CRLF ++ lit "0" ++ CRLF ++ lit "X-T: 1" ++ CRLF ++ CRLF).
  exists t, [t; len3_txt ++ lit "xyz"]. eexists.
  split; [reflexivity|]. split; [|split; [|split]].
  - eapply Feed_more; [discriminate|vm_compute; reflexivity|reflexivity|]. apply Feed_next.
    eapply Feed_more; [discriminate|vm_compute; reflexivity|reflexivity|]. apply Feed_next. apply Feed_end.
  - reflexivity.
  - eexists. split; [eapply Feed_more; [discriminate|vm_compute; reflexivity|reflexivity|]; apply Feed_next; apply Feed_end|]. split; reflexivity.
  - reflexivity.
Qed.

(** C51 does not hold: lengths of more than 64 bits, and a length with a blank in it, are taken *)
Theorem C51_content_length_refuted : exists ds n, Digits 10 ds n /\ 2 ^ 64 < n /\ 
  exists txt r', ResponseHead txt 1 1 200 [(lit "Content-Length", ds)] /\ inject rfresh (txt ++ lit "abc") = Some (r', blen (txt ++ lit "abc")) /\ hasError r' = false /\
    r_content r' = lit "abc" /\ ~ In RComplete (r_log r').
Proof.
  exists (lit "30000000000000000000"), 30000000000000000000. split; [|split; [reflexivity|]].
  - do 19 (match goal with |- Digits 10 ?l ?n => let m := eval vm_compute in (n / 10) in let k := eval vm_compute in (firstn (length l - 1) l) in
      apply (D_more 10 k m "0"%char 0); [|reflexivity|reflexivity] end). apply dig1; reflexivity.
  - exists ((lit "HTTP/1.1 200 OK" ++ CRLF) ++ hl "Content-Length" "30000000000000000000" ++ CRLF).
    eexists. split; [|split; [vm_compute; reflexivity|]].
    + apply RespHd; [apply ok_line|]. unfold hl. replace CRLF with (CRLF ++ []) at 1 by reflexivity. apply HL_cons; try reflexivity. constructor.
    + vm_compute. repeat split; auto. intuition discriminate.
Qed.
Theorem C51_chunk_size_refuted : exists ds n, Digits 16 ds n /\ 2 ^ 64 < n /\
  exists r', inject rfresh (chunk_txt ++ ds ++ CRLF ++ lit "abc") = Some (r', blen (chunk_txt ++ ds ++ CRLF ++ lit "abc")) /\ hasError r' = false /\ r_content r' = lit "abc".
Proof.
  exists (lit "1f000000000000000"), 35740566642812256256. split; [|split; [reflexivity|]].
  - do 15 (match goal with |- Digits 16 ?l ?n => let m := eval vm_compute in (n / 16) in let k := eval vm_compute in (firstn (length l - 1) l) in
      apply (D_more 16 k m "0"%char 0); [|reflexivity|reflexivity] end).
    apply (D_more 16 [_] 1 "f"%char 15); [|reflexivity|reflexivity]. apply dig16; reflexivity.
  - eexists. split; [vm_compute; reflexivity|]. vm_compute. auto.
Qed.
Theorem C51_blank_refuted : exists r', inject rfresh ((lit "HTTP/1.1 200 OK" ++ CRLF) ++ hl "Content-Length" "1 2" ++ CRLF ++ lit "abcdefghijkl") = 
  Some (r', 52) /\ decoded rfresh 1 1 200 [(lit "Content-Length", lit "1 2")] (lit "abcdefghijkl") r'.
Proof. eexists. split; [vm_compute; reflexivity|]. vm_compute. auto 10. Qed.
